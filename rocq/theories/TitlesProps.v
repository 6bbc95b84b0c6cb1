(** Property theorems C185: the titles of panels and frames, and the colour bar of a figure. *)
From Coq Require Import String Ascii.
From Verif Require Import Base Errors Support SupportProps Histogram Plot PlotProps Draw DrawProps Titles.
Open Scope string_scope.
Open Scope list_scope.
Open Scope nat_scope.

(** ** C185 *)

(** [s] reads year-month-day: three numbers in decimal digits. *)
Definition reads_date (s : string) (year month day : nat) : Prop :=
  exists a b c, s = (a ++ "-" ++ b ++ "-" ++ c)%string /\ all_digits a = true /\ all_digits b = true /\ all_digits c = true /\
    SupportProps.value a = year /\ SupportProps.value b = month /\ SupportProps.value c = day /\
    4 <= String.length a /\ 2 <= String.length b /\ 2 <= String.length c.
(** The coordinate [name] of [da] holds the times [ts] along the dimension [dim], and [dim]
    has that many steps. *)
Definition times_of (da : labelled) (name dim : string) (ts : list stamp) : Prop :=
  (exists c, item da name = Ok c /\ k_dim c = dim /\ k_times c = Some ts /\ length (k_text c) = length ts) /\
  (exists c, item da dim = Ok c /\ length (k_text c) = length ts).

Lemma all_of_ok {A} (f : nat -> result title_err A) (g : nat -> A) l : (forall i, In i l -> f i = Ok (g i)) -> all_of (map f l) = Ok (map g l).
Proof. induction l as [|x l IH]; intro H; [reflexivity|]. cbn [map all_of]. rewrite (H x (or_introl eq_refl)). cbn [bind]. rewrite IH by (intros; apply H; right; assumption). reflexivity. Qed.
Lemma date_reads s : reads_date (date_text s) (s_year s) (s_month s) (s_day s).
Proof.
  exists (pad_number 4 (s_year s)), (pad_number 2 (s_month s)), (pad_number 2 (s_day s)). split; [reflexivity|].
  split; [apply pad_digits|]. split; [apply pad_digits|]. split; [apply pad_digits|]. split; [apply pad_value|]. split; [apply pad_value|]. split; [apply pad_value|].
  split; [apply pad_length|]. split; apply pad_length.
Qed.
Lemma app_inj_l a x y : (a ++ x)%string = (a ++ y)%string -> x = y.
Proof. induction a as [|c a IH]; intro H; [exact H|]. injection H as H. exact (IH H). Qed.
Lemma reads_one s y m d y' m' d' : reads_date s y m d -> reads_date s y' m' d' -> y = y' /\ m = m' /\ d = d'.
Proof.
  intros (a & b & c & E & A & B & _ & Va & Vb & Vc & _) (a' & b' & c' & E' & A' & B' & _ & Va' & Vb' & Vc' & _).
  rewrite E in E'. clear E.
  assert (Ha : a = a').
  { rewrite <- (before_digits a "-"%char (b ++ "-" ++ c)%string A) by (cbn; lia). rewrite <- (before_digits a' "-"%char (b' ++ "-" ++ c')%string A') by (cbn; lia). f_equal. exact E'. }
  subst a'. apply app_inj_l in E'. injection E' as E'.
  assert (Hb : b = b').
  { rewrite <- (before_digits b "-"%char c B) by (cbn; lia). rewrite <- (before_digits b' "-"%char c' B') by (cbn; lia). f_equal. exact E'. }
  subst b'. apply app_inj_l in E'. injection E' as E'. subst c'. repeat split; congruence.
Qed.
Lemma dates_of da name dim ts i : times_of da name dim ts -> i < length ts -> date_at da name dim i = Ok (date_text (nth i ts (mkStamp 0 0 0 0))).
Proof.
  intros ((c & E & D & T & L) & _) I. unfold date_at. rewrite E. cbn [bind]. rewrite D, String.eqb_refl, T.
  destruct (nth_error (k_text c) i) as [s|] eqn:N; [|apply nth_error_None in N; lia].
  destruct (nth_error ts i) as [s'|] eqn:N'; [|apply nth_error_None in N'; lia]. rewrite (nth_error_nth ts i _ N'). reflexivity.
Qed.
Definition titles_of (ts : list stamp) : list string := map (fun i => date_text (nth i ts (mkStamp 0 0 0 0))) (seq 0 (length ts)).

(** Panels along time and frames are titled with the dates of their steps: as many titles
    as steps, the title of step [i] reads its date; both list the same titles. *)
Theorem C185_dates (da : labelled) (config_dims config_coords own_coords : mapping) (dim name : string) (ts : list stamp) :
  lookup "time" config_dims = Some dim -> lookup "time" own_coords = Some name -> lookup "time" config_coords = Some name ->
  times_of da name dim ts ->
  exists titles, panel_titles da config_dims own_coords dim = Ok titles /\ frame_titles da config_dims config_coords = Ok titles /\
    length titles = length ts /\
    forall i s, nth_error ts i = Some s -> exists t, nth_error titles i = Some t /\ reads_date t (s_year s) (s_month s) (s_day s).
Proof.
  intros D O C T. exists (titles_of ts). destruct (T) as (_ & c & E & L). split; [|split; [|split]].
  - unfold panel_titles. rewrite E. cbn [bind]. rewrite L. apply all_of_ok. intros i I. apply in_seq in I. unfold get_title. rewrite D, String.eqb_refl, O. apply (dates_of da name dim ts i T). lia.
  - unfold frame_titles, time_dim, time_coord. destruct config_dims as [|x r]; [discriminate|]. rewrite D. cbn [bind]. rewrite E. cbn [bind]. rewrite L. destruct config_coords as [|x' r']; [discriminate|]. rewrite C.
    apply all_of_ok. intros i I. apply in_seq in I. apply (dates_of da name dim ts i T). lia.
  - unfold titles_of. rewrite map_length, seq_length. reflexivity.
  - intros i s N. assert (I : i < length ts) by (apply nth_error_Some; congruence). exists (date_text s). split; [|apply date_reads].
    unfold titles_of. rewrite (map_nth_error _ i (seq 0 (length ts)) (d := i)).
    + rewrite (nth_error_nth ts i _ N). reflexivity.
    + rewrite (nth_error_nth' (seq 0 (length ts)) 0) by (rewrite seq_length; exact I). rewrite seq_nth by exact I. reflexivity.
Qed.
Print Assumptions C185_dates.

Definition read_dates (titles : list string) (ts : list stamp) : Prop :=
  length titles = length ts /\ forall i s, nth_error ts i = Some s -> exists t, nth_error titles i = Some t /\ reads_date t (s_year s) (s_month s) (s_day s).
Lemma titles_read ts : read_dates (titles_of ts) ts.
Proof.
  split; [unfold titles_of; rewrite map_length, seq_length; reflexivity|]. intros i s N. assert (I : i < length ts) by (apply nth_error_Some; congruence). exists (date_text s). split; [|apply date_reads].
  unfold titles_of. rewrite (map_nth_error _ i (seq 0 (length ts)) (d := i)).
  - rewrite (nth_error_nth ts i _ N). reflexivity.
  - rewrite (nth_error_nth' (seq 0 (length ts)) 0) by (rewrite seq_length; exact I). rewrite seq_nth by exact I. reflexivity.
Qed.
(** Without a coordinate of time among the plotter's names panels are titled with the dates of the
    coordinate called time; without one in the configuration frames are titled with those of the
    time dimension. *)
Theorem C185_default_names (da : labelled) (config_dims config_coords own_coords : mapping) (dim : string) (ts : list stamp) :
  lookup "time" config_dims = Some dim ->
  (lookup "time" own_coords = None -> times_of da "time" dim ts -> exists titles, panel_titles da config_dims own_coords dim = Ok titles /\ read_dates titles ts) /\
  (lookup "time" config_coords = None -> times_of da dim dim ts -> exists titles, frame_titles da config_dims config_coords = Ok titles /\ read_dates titles ts).
Proof.
  intro D. split; intros O T; exists (titles_of ts); (split; [|apply titles_read]); destruct (T) as (_ & c & E & L).
  - unfold panel_titles. rewrite E. cbn [bind]. rewrite L. apply all_of_ok. intros i I. apply in_seq in I. unfold get_title. rewrite D, String.eqb_refl, O. apply (dates_of da "time" dim ts i T). lia.
  - unfold frame_titles, time_dim. destruct config_dims as [|x r]; [discriminate|]. rewrite D. cbn [bind]. rewrite E. cbn [bind]. rewrite L.
    assert (C : time_coord config_coords dim = dim) by (unfold time_coord; destruct config_coords; [reflexivity|]; rewrite O; reflexivity). rewrite C.
    apply all_of_ok. intros i I. apply in_seq in I. apply (dates_of da dim dim ts i T). lia.
Qed.
Print Assumptions C185_default_names.
Example C185_default_case :
  let da := mkLabelled [("t", 1)] [("t", mkCoordinate "t" ["2001-02-27T00"] (Some [mkStamp 2001 2 27 0])); ("time", mkCoordinate "t" ["1999-12-31T00"] (Some [mkStamp 1999 12 31 0]))] in
  panel_titles da [("time", "t")] [] "t" = Ok ["1999-12-31"] /\ frame_titles da [("time", "t")] [("x", "lon")] = Ok ["2001-02-27"].
Proof. split; vm_compute; reflexivity. Qed.

(** Along any other dimension the title is the name and the value. *)
Theorem C185_values (da : labelled) (config_dims own_coords : mapping) (dim col : string) (c : coordinate) :
  lookup "time" config_dims = Some dim -> col <> dim -> item da col = Ok c -> k_dim c = col ->
  panel_titles da config_dims own_coords col = Ok (map (fun s => (col ++ "=" ++ s)%string) (k_text c)).
Proof.
  intros D N E K. unfold panel_titles. rewrite E. cbn [bind].
  rewrite (all_of_ok _ (fun i => (col ++ "=" ++ nth i (k_text c) "")%string)).
  - f_equal. apply (nth_ext _ _ "" ""); [rewrite !map_length, seq_length; reflexivity|]. intros i I. rewrite map_length, seq_length in I.
    rewrite (nth_indep _ "" ((fun i => (col ++ "=" ++ nth i (k_text c) "")%string) 0)) by (rewrite map_length, seq_length; exact I). rewrite (map_nth (fun i => (col ++ "=" ++ nth i (k_text c) "")%string)). rewrite seq_nth by exact I. cbn [Nat.add].
    rewrite (nth_indep (map _ (k_text c)) "" ((fun s => (col ++ "=" ++ s)%string) "")) by (rewrite map_length; exact I). rewrite (map_nth (fun s => (col ++ "=" ++ s)%string)). reflexivity.
  - intros i I. apply in_seq in I. unfold get_title. rewrite D. destruct (String.eqb_spec col dim); [contradiction|]. unfold value_at. rewrite E. cbn [bind]. rewrite K, String.eqb_refl.
    destruct (nth_error (k_text c) i) as [s|] eqn:M; [|apply nth_error_None in M; lia]. rewrite (nth_error_nth _ i _ M). reflexivity.
Qed.
Print Assumptions C185_values.

(** Two panels or frames have the same title exactly when their steps are of the same day.
    Missing from the full claim: steps of one day. *)
Theorem C185_titles_apart_partial (da : labelled) (config_dims own_coords : mapping) (dim name : string) (ts : list stamp) (titles : list string) (i j : nat) (s u : stamp) :
  lookup "time" config_dims = Some dim -> lookup "time" own_coords = Some name -> times_of da name dim ts ->
  panel_titles da config_dims own_coords dim = Ok titles -> nth_error ts i = Some s -> nth_error ts j = Some u ->
  (nth_error titles i = nth_error titles j <-> s_year s = s_year u /\ s_month s = s_month u /\ s_day s = s_day u).
Proof.
  intros D O T P I J. destruct (C185_dates da config_dims [("time", name)] own_coords dim name ts D O eq_refl T) as (l & P' & _ & _ & R).
  rewrite P in P'. injection P' as <-. destruct (R i s I) as (a & A & Ra). destruct (R j u J) as (b & B & Rb). rewrite A, B. split.
  - intro E. injection E as <-. exact (reads_one _ _ _ _ _ _ _ Ra Rb).
  - intros (Y & M & Dd). f_equal. destruct (T) as (_ & c & E & L).
    assert (G : forall k v x, nth_error ts k = Some v -> nth_error titles k = Some x -> x = date_text v).
    { intros k v x K X. assert (H : panel_titles da config_dims own_coords dim = Ok (titles_of ts)).
      { unfold panel_titles. rewrite E. cbn [bind]. rewrite L. apply all_of_ok. intros i0 I0. apply in_seq in I0. unfold get_title. rewrite D, String.eqb_refl, O. apply (dates_of da name dim ts i0 T). lia. }
      rewrite P in H. injection H as ->. unfold titles_of in X.
      assert (Lk : k < length ts) by (apply nth_error_Some; congruence).
      rewrite (map_nth_error _ k (seq 0 (length ts)) (d := k)) in X.
      - injection X as <-. rewrite (nth_error_nth ts k _ K). reflexivity.
      - rewrite (nth_error_nth' (seq 0 (length ts)) 0) by (rewrite seq_length; exact Lk). rewrite seq_nth by exact Lk. reflexivity. }
    rewrite (G i s a I A), (G j u b J B). unfold date_text. rewrite Y, M, Dd. reflexivity.
Qed.
Print Assumptions C185_titles_apart_partial.

(** Four steps of a day. *)
Definition six_hourly : labelled :=
  mkLabelled [("time", 2)] [("time", mkCoordinate "time" ["2000-01-01T00:00:00"; "2000-01-01T06:00:00"] (Some [mkStamp 2000 1 1 0; mkStamp 2000 1 1 360]))].
Theorem C185_titles_apart_refuted :
  exists da ts titles i j s u, times_of da "time" "time" ts /\ panel_titles da default_mapping default_mapping "time" = Ok titles /\
    nth_error ts i = Some s /\ nth_error ts j = Some u /\ s <> u /\ nth_error titles i <> None /\ nth_error titles i = nth_error titles j.
Proof.
  exists six_hourly, [mkStamp 2000 1 1 0; mkStamp 2000 1 1 360], ["2000-01-01"; "2000-01-01"], 0, 1. eexists. eexists.
  split; [split; [eexists; split; [reflexivity|split; [reflexivity|split; reflexivity]]|eexists; split; reflexivity]|]. split; [vm_compute; reflexivity|].
  split; [reflexivity|]. split; [reflexivity|]. split; [intro H; injection H as H; discriminate H|]. split; [discriminate|reflexivity].
Qed.
Print Assumptions C185_titles_apart_refuted.

(** The name of the time dimension given to the plotter is not enough: the default
    configuration does not know it, the panels are not titled with dates and the
    animation fails. *)
Theorem C185_own_names_refuted :
  exists da own ts titles, lookup "time" own = Some "t" /\ times_of da "t" "t" ts /\ ts <> [] /\
    panel_titles da default_mapping own "t" = Ok titles /\ frame_titles da default_mapping default_mapping = Err (NoKey "time") /\
    forall i t, nth_error titles i = Some t -> forall y m d, ~ reads_date t y m d.
Proof.
  exists (mkLabelled [("t", 1)] [("t", mkCoordinate "t" ["2000-01-01T00:00:00"] (Some [mkStamp 2000 1 1 0]))]), [("time", "t"); ("y", "lat"); ("x", "lon")], [mkStamp 2000 1 1 0], ["t=2000-01-01T00:00:00"].
  split; [reflexivity|]. split; [split; [eexists; split; [reflexivity|split; [reflexivity|split; reflexivity]]|eexists; split; reflexivity]|]. split; [discriminate|]. split; [vm_compute; reflexivity|]. split; [vm_compute; reflexivity|].
  intros i t N y m d (a & b & c & E & A & _ & _ & _ & _ & _ & La & _). destruct i as [|[|i]]; try discriminate. injection N as <-.
  destruct a as [|x a]; [cbn in La; lia|]. injection E as <- _. cbn in A. discriminate.
Qed.
Print Assumptions C185_own_names_refuted.

Lemma bar_of_panels {P : Type} (flat : P -> list Draw.value) each plot (steps : list P) title c pics b :
  panels flat each plot steps title c = Ok pics -> figure_bar true (map flat steps) c = Ok b ->
  (b <> None <-> c_colorbar c = true) /\
  forall bb, b = Some bb -> (c_ids c = false -> b_label bb = (if String.eqb (c_units c) "" then None else Some (c_units c)) /\ b_extend bb = c_extend c) /\
    forall p, In p pics -> b_scale bb = pc_scale p /\ pc_bar p = None.
Proof.
  intros H B. unfold panels, figure_bar in *. destruct (setup true (map flat steps) c) as [sb|e] eqn:S; [|discriminate]. cbn [bind] in *. injection B as <-.
  split; [destruct (c_colorbar c); split; intro; congruence|]. intros bb Eb. destruct (c_colorbar c) eqn:Cb; [|discriminate]. injection Eb as <-. cbn [b_scale b_label b_extend]. split.
  - intro I. unfold setup in S. rewrite I in S. injection S as <-. cbn [fst snd]. split; [destruct (c_units c); reflexivity|reflexivity].
  - intros p I. destruct (collect_in _ _ _ _ H I) as (a & _ & F). split; [symmetry; exact (panel_scale _ _ _ _ _ _ _ _ (setup_scale _ _ _ _ S) F)|].
    unfold single_plot in F. destruct (setup false _ _) as [sb'|e]; [|discriminate]. cbn [bind] in F. destruct (plot false _) as [l|e]; [|discriminate]. cbn [bind] in F. injection F as <-. reflexivity.
Qed.
(** The colour bar of a figure belongs to each of its panels: the same colours, norm and
    limits; it is there exactly when asked for and labelled with the units, if any. *)
Theorem C185_colour_bar (g : grid) (m : mesh) (steps : list (list (list Draw.value))) (cells : list (list Draw.value)) (title : nat -> string) (c : config) (pics : list picture) (b : option bar) :
  (grid_panels g steps title c = Ok pics /\ figure_bar true (map (@List.concat Draw.value) steps) c = Ok b) \/ (mesh_panels m cells title c = Ok pics /\ figure_bar true cells c = Ok b) ->
  (b <> None <-> c_colorbar c = true) /\
  forall bb, b = Some bb -> (c_ids c = false -> b_label bb = (if String.eqb (c_units c) "" then None else Some (c_units c)) /\ b_extend bb = c_extend c) /\
    forall p, In p pics -> b_scale bb = pc_scale p /\ pc_bar p = None.
Proof. intros [[A B]|[A B]]; [exact (bar_of_panels _ _ _ _ _ _ _ _ A B)|]. apply (bar_of_panels _ _ _ cells _ _ _ _ A). rewrite map_id. exact B. Qed.
Print Assumptions C185_colour_bar.

(** Three days of a month under the names "t" and "date", panels along depth, and a figure
    with two panels. *)
Definition three_days : labelled :=
  mkLabelled [("t", 3); ("depth", 2); ("member", 2)]
    [("date", mkCoordinate "t" ["2001-02-27T00"; "2001-02-28T12"; "2001-03-01T00"] (Some [mkStamp 2001 2 27 0; mkStamp 2001 2 28 720; mkStamp 2001 3 1 0]));
     ("depth", mkCoordinate "depth" ["0.5"; "10.0"] None)].
Example C185_case :
  times_of three_days "date" "t" [mkStamp 2001 2 27 0; mkStamp 2001 2 28 720; mkStamp 2001 3 1 0] /\
  panel_titles three_days [("time", "t")] [("time", "date")] "t" = Ok ["2001-02-27"; "2001-02-28"; "2001-03-01"] /\
  frame_titles three_days [("time", "t")] [("time", "date")] = Ok ["2001-02-27"; "2001-02-28"; "2001-03-01"] /\
  panel_titles three_days [("time", "t")] [("time", "date")] "depth" = Ok ["depth=0.5"; "depth=10.0"] /\
  panel_titles three_days [("time", "t")] [("time", "date")] "member" = Ok ["member=0"; "member=1"] /\
  panel_titles three_days [("x", "lon")] [] "depth" = Err (NoKey "time").
Proof.
  split; [split; [eexists; split; [reflexivity|split; [reflexivity|split; reflexivity]]|eexists; split; reflexivity]|].
  split; [vm_compute; reflexivity|]. split; [vm_compute; reflexivity|]. split; [vm_compute; reflexivity|]. split; vm_compute; reflexivity.
Qed.
Definition in_kelvin : config := mkConfig None "K" true None (Some (0, 100)%Q) None true true false None false "both" None.
Example C185_bar_case :
  exists pics, grid_panels (mkGrid true [0; 1]%Q [0; 1]%Q) [[[Some 1; Some 2]; [Some (-4); None]]; [[Some 0; Some 1]; [None; None]]]%Q (fun i => digits i) in_kelvin = Ok pics /\ length pics = 2 /\
    figure_bar true (map (@List.concat Draw.value) [[[Some 1; Some 2]; [Some (-4); None]]; [[Some 0; Some 1]; [None; None]]]%Q) in_kelvin =
      Ok (Some (mkBar (match pics with p :: _ => pc_scale p | [] => (Named "", inr None) end) (Some "K") "both")).
Proof. eexists. split; [vm_compute; reflexivity|]. split; [reflexivity|]. vm_compute. reflexivity. Qed.
