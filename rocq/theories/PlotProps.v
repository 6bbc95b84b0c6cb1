(** Properties C66 and C95-C102: plotX. *)
From Coq Require Import String Ascii QArith Qround Lqa Permutation Sorted.
From Verif Require Import Base Errors Support SupportProps Partition Histogram HistogramSpec HistogramExact HistogramProofs Plot.
Open Scope string_scope.
Open Scope list_scope.
Open Scope nat_scope.

(** ** C66 *)
Notation spec_call := (option string * option string * option string)%type.
(** A name in any mixture of cases: character by character the same small letter or its
    capital. *)
Fixpoint spelled (name small : string) : Prop :=
  match name, small with
  | EmptyString, EmptyString => True
  | String c r, String d s => (c = d \/ In (c, d) (combine capitals small_letters)) /\ spelled r s
  | _, _ => False
  end.
Definition valid_type (t : option string) : Prop := forall s, t = Some s -> spelled s "gridded" \/ spelled s "unstructured".
Definition grid_type_named (t : option string) (g : option string) : Prop :=
  match t, g with None, None => True | Some t, Some g => (g = "gridded" \/ g = "unstructured") /\ spelled t g | _, _ => False end.
Lemma lower_small c d : In d small_letters -> (c = d \/ In (c, d) (combine capitals small_letters)) <-> lower_char c = d.
Proof.
  intro I. split.
  - intros [->|J].
    + cbn in I. repeat (destruct I as [<-|I]; [reflexivity|]). destruct I.
    + cbn in J. repeat (destruct J as [J|J]; [injection J as <- <-; reflexivity|]). destruct J.
  - intros <-.
    assert (K : forallb (fun c => implb (existsb (Ascii.eqb (lower_char c)) small_letters)
       (Ascii.eqb c (lower_char c) || existsb (fun p => Ascii.eqb c (fst p) && Ascii.eqb (lower_char c) (snd p)) (combine capitals small_letters))) (map ascii_of_nat (seq 0 256)) = true) by (vm_compute; reflexivity).
    rewrite forallb_forall in K. specialize (K c).
    assert (M : In c (map ascii_of_nat (seq 0 256))). { apply in_map_iff. exists (nat_of_ascii c). split; [apply ascii_nat_embedding|]. apply in_seq. split; [apply Nat.le_0_l|]. apply nat_ascii_bounded. }
    specialize (K M). assert (E : existsb (Ascii.eqb (lower_char c)) small_letters = true). { apply existsb_exists. exists (lower_char c). split; [exact I|apply Ascii.eqb_refl]. }
    rewrite E in K. cbn [implb] in K. apply orb_true_iff in K. destruct K as [K|K].
    + left. apply Ascii.eqb_eq. exact K.
    + right. apply existsb_exists in K. destruct K as ((a & b) & J & K). cbn [fst snd] in K. apply andb_true_iff in K. destruct K as [K1 K2]. apply Ascii.eqb_eq in K1, K2. rewrite <- K1, <- K2 in J. exact J.
Qed.
Lemma spelled_lower name : forall u, Forall (fun d => In d small_letters) (list_ascii_of_string u) -> spelled name u <-> lower name = u.
Proof.
  induction name as [|c r IH]; intros [|d s] F; cbn [spelled]; try (split; [intros []|intro H; discriminate]); [split; reflexivity|].
  cbn [list_ascii_of_string] in F. inversion F as [|? ? F1 F2]; subst. rewrite (lower_small c d F1), (IH s F2).
  change (lower (String c r)) with (String (lower_char c) (lower r)). split; [intros (-> & ->); reflexivity|]. intro H. injection H as -> ->. split; reflexivity.
Qed.
Lemma small_name u : forallb (fun d => existsb (Ascii.eqb d) small_letters) (list_ascii_of_string u) = true -> Forall (fun d => In d small_letters) (list_ascii_of_string u).
Proof.
  intro H. apply Forall_forall. intros d I. rewrite forallb_forall in H. specialize (H d I). apply existsb_exists in H. destruct H as (e & J & E). apply Ascii.eqb_eq in E. subst e. exact J.
Qed.
Lemma gridded_lower s : spelled s "gridded" <-> lower s = "gridded".
Proof. apply spelled_lower, small_name. reflexivity. Qed.
Lemma unstructured_lower s : spelled s "unstructured" <-> lower s = "unstructured".
Proof. apply spelled_lower, small_name. reflexivity. Qed.
Lemma valid_lower t : valid_type t <-> forall s, t = Some s -> lower s = "gridded" \/ lower s = "unstructured".
Proof. unfold valid_type. split; intros H s E; specialize (H s E); [rewrite <- gridded_lower, <- unstructured_lower|rewrite gridded_lower, unstructured_lower]; exact H. Qed.
Lemma named_lower t g : grid_type_named t g -> g = option_map lower t.
Proof.
  destruct t as [t|], g as [g|]; cbn; try contradiction; [|reflexivity]. intros ([-> | ->] & S); f_equal; symmetry; [apply gridded_lower|apply unstructured_lower]; exact S.
Qed.
Lemma named_valid t g : grid_type_named t g -> valid_type t.
Proof. destruct t as [t|], g as [g|]; cbn; try contradiction; intros H s E; try discriminate. injection E as <-. destruct H as ([-> | ->] & S); auto. Qed.
Definition given (p : option string) : option string := match p with Some (String c r) => Some (String c r) | _ => None end.
Lemma member_iff s l : member s l = true <-> In s l.
Proof.
  unfold member. rewrite existsb_exists. split; [intros (x & I & E); apply String.eqb_eq in E; subst x; exact I|]. intro I. exists s. split; [exact I|apply String.eqb_refl].
Qed.
Lemma truthy_given p : truthy p = given p.
Proof. destruct p as [[|c r]|]; reflexivity. Qed.
Lemma specify_valid t a b : valid_type t -> specify_grid t a b = Some {| g_type := option_map lower t; g_tgrid := given a; g_ckdtree := given b |}.
Proof.
  intro V. rewrite valid_lower in V. unfold specify_grid. rewrite !truthy_given. destruct t as [t|]; [|reflexivity]. specialize (V t eq_refl).
  assert (M : member (lower t) ["gridded"; "unstructured"] = true) by (apply member_iff; cbn; intuition).
  rewrite M. cbn [negb]. destruct t as [|c r]; [cbn in V; destruct V; discriminate|reflexivity].
Qed.
Lemma specify_invalid t a b : ~ valid_type t -> specify_grid t a b = None.
Proof.
  intro V. rewrite valid_lower in V. unfold specify_grid. destruct t as [t|]; [|exfalso; apply V; intros s H; discriminate].
  destruct (member (lower t) ["gridded"; "unstructured"]) eqn:M; [|reflexivity]. exfalso. apply V. intros s H. injection H as ->. apply member_iff in M. cbn in M. intuition congruence.
Qed.
(** The globals are those of the last valid call, whatever came before and whatever
    invalid calls came after. *)
Theorem C66_last_valid_wins : forall (h bad : list spec_call) t g a b, grid_type_named t g -> (forall c, In c bad -> ~ valid_type (fst (fst c))) ->
  fold_left specify_step (h ++ (t, a, b) :: bad) grid_start = {| g_type := g; g_tgrid := given a; g_ckdtree := given b |}.
Proof.
  intros h bad t g a b Ng B. assert (V := named_valid t g Ng). rewrite (named_lower t g Ng). rewrite fold_left_app. cbn [fold_left]. unfold specify_step at 2. rewrite specify_valid by exact V.
  generalize ({| g_type := option_map lower t; g_tgrid := given a; g_ckdtree := given b |}). intro s.
  induction bad as [|((u & x) & y) bad IH]; [reflexivity|]. cbn [fold_left]. unfold specify_step at 2. rewrite specify_invalid by (apply (B (u, x, y)); left; reflexivity).
  apply IH. intros c I. apply B. right. exact I.
Qed.
Print Assumptions C66_last_valid_wins.
Theorem C66_invalid_raises : forall t a b, specify_grid t a b = None <-> ~ valid_type t.
Proof.
  intros t a b. split; [|apply specify_invalid]. intros H V. rewrite specify_valid in H by exact V. discriminate.
Qed.
Print Assumptions C66_invalid_raises.
Lemma reachable_type h s : fold_left specify_step h grid_start = s -> (forall t, g_type s = Some t -> t = "gridded" \/ t = "unstructured") /\ given (g_tgrid s) = g_tgrid s /\ given (g_ckdtree s) = g_ckdtree s.
Proof.
  intros <-. assert (K : forall s, ((forall t, g_type s = Some t -> t = "gridded" \/ t = "unstructured") /\ given (g_tgrid s) = g_tgrid s /\ given (g_ckdtree s) = g_ckdtree s) ->
    let s' := fold_left specify_step h s in ((forall t, g_type s' = Some t -> t = "gridded" \/ t = "unstructured") /\ given (g_tgrid s') = g_tgrid s' /\ given (g_ckdtree s') = g_ckdtree s')).
  { induction h as [|((t & a) & b) h IH]; intros s H; [exact H|]. cbn [fold_left]. apply IH. unfold specify_step. destruct (specify_grid t a b) as [s'|] eqn:E; [|exact H].
    assert (V : valid_type t). { apply valid_lower. destruct t as [t|]; [|intros s0 X; discriminate]. unfold specify_grid in E. destruct (member (lower t) _) eqn:M; [|discriminate]. intros s0 X. injection X as <-. apply member_iff in M. cbn in M. intuition. }
    rewrite specify_valid in E by exact V. injection E as <-. cbn. split; [|split].
    - intros u U. destruct t as [t|]; [|discriminate]. injection U as <-. apply (proj1 (valid_lower (Some t)) V). reflexivity.
    - destruct a as [[|]|]; reflexivity.
    - destruct b as [[|]|]; reflexivity. }
  apply K. cbn. split; [discriminate|]. split; reflexivity.
Qed.
Lemma plotter_follows : forall h a dims coords p, let s := fold_left specify_step h grid_start in call s a dims coords = Ok p ->
  p_class p = match g_type s with Some t => t | None => detect a dims end /\
  (p_class p = "unstructured" -> p_tgrid p = g_tgrid s /\ p_ckdtree p = g_ckdtree s).
Proof.
  intros h a dims coords p s. destruct (reachable_type h s eq_refl) as (T & G1 & G2). unfold call.
  assert (F : forall f, f = match g_type s with Some t => t | None => detect a dims end -> f = "gridded" \/ f = "unstructured").
  { intros f ->. destruct (g_type s) as [t|]; [apply T; reflexivity|]. unfold detect. destruct (match lookup _ _ with Some _ => _ | None => _ end); auto. }
  remember (match g_type s with Some t => t | None => detect a dims end) as f eqn:E. specialize (F f eq_refl). clear E.
  unfold construct. destruct (missing (a_dims a) (or_default dims)); [|discriminate]. destruct (missing (a_coords a) (or_default coords)); [|discriminate]. cbn [bind].
  destruct F as [->| ->]; cbn.
  - intro H. injection H as <-. split; [reflexivity|]. intro X. discriminate.
  - destruct (g_tgrid s) as [[|ct rt]|] eqn:Et; destruct (g_ckdtree s) as [[|cc rc]|] eqn:Ec; try discriminate; intro H; injection H as <-; cbn; repeat split; reflexivity.
Qed.
Lemma detect_iff a dims : (detect a dims = "gridded" \/ detect a dims = "unstructured") /\
  (detect a dims = "gridded" <-> match dims with None => In "lat" (a_dims a) | Some m => exists d, lookup "y" m = Some d /\ In d (a_dims a) end).
Proof.
  unfold detect. split; [destruct (match lookup _ _ with Some _ => _ | None => _ end); auto|]. destruct dims as [m|]; cbn [or_default].
  - destruct (lookup "y" m) as [d|] eqn:E.
    + destruct (member d (a_dims a)) eqn:M; split; intro H; try discriminate; try reflexivity.
      * exists d. split; [reflexivity|]. apply member_iff. exact M.
      * destruct H as (d' & X & I). injection X as <-. apply member_iff in I. congruence.
    + split; intro H; [discriminate|]. destruct H as (d' & X & _). discriminate.
  - change (lookup "y" default_mapping) with (Some "lat"). cbv iota. destruct (member "lat" (a_dims a)) eqn:M; split; intro H; try discriminate; try reflexivity.
    + apply member_iff. exact M.
    + apply member_iff in H. congruence.
Qed.
(** A plotter follows the specification in force: the given type if any, else the
    detected one, and for meshes the given paths. *)
Theorem C66_plotter_follows : forall h a dims coords p, let s := fold_left specify_step h grid_start in call s a dims coords = Ok p ->
  (forall t, g_type s = Some t -> p_class p = t) /\
  (g_type s = None -> (p_class p = "gridded" \/ p_class p = "unstructured") /\
     (p_class p = "gridded" <-> match dims with None => In "lat" (a_dims a) | Some m => exists d, lookup "y" m = Some d /\ In d (a_dims a) end)) /\
  (p_class p = "unstructured" -> p_tgrid p = g_tgrid s /\ p_ckdtree p = g_ckdtree s).
Proof.
  intros h a dims coords p s H. destruct (plotter_follows h a dims coords p H) as [E G]. fold s in E, G. rewrite E in *.
  split; [intros t T; rewrite T; reflexivity|]. split; [|exact G]. intro N. rewrite N. apply detect_iff.
Qed.
Print Assumptions C66_plotter_follows.

(** The names a plotter checks: every entry but the one for time must exist. *)
Definition absent (names : list string) (m : list (string * string)) (e : string * string) : Prop :=
  In e m /\ fst e <> "time" /\ ~ In (snd e) names.
Lemma missing_iff names m e : In e (missing names m) <-> absent names m e.
Proof.
  unfold missing, absent. rewrite filter_In, andb_true_iff, !negb_true_iff, andb_false_iff, negb_false_iff.
  assert (M : member (snd e) names = false <-> ~ In (snd e) names).
  { rewrite <- (member_iff (snd e) names). destruct (member (snd e) names); split; congruence. }
  rewrite M. split.
  - intros (I & [T|T] & N); split; try exact I; split; try exact N.
    + apply String.eqb_neq. exact T.
    + apply M in N. congruence.
  - intros (I & T & N). split; [exact I|]. split; [left; apply String.eqb_neq; exact T|exact N].
Qed.
(** A call makes a plotter exactly when no dimension and no coordinate it is told to
    use is absent (the time entry is never checked); else the error lists exactly the
    absent dimensions, or, if none is absent, exactly the absent coordinates. *)
Theorem C66_names_checked (s : grid_spec) (a : array) (dims coords : option (list (string * string))) :
  ((exists p, call s a dims coords = Ok p) <->
     (forall e, ~ absent (a_dims a) (or_default dims) e) /\ (forall e, ~ absent (a_coords a) (or_default coords) e)) /\
  (forall err, call s a dims coords = Err err ->
     (exists m, err = MissingDimensions m /\ m <> [] /\ forall e, In e m <-> absent (a_dims a) (or_default dims) e) \/
     (exists m, err = MissingCoordinates m /\ m <> [] /\ (forall e, ~ absent (a_dims a) (or_default dims) e) /\
                forall e, In e m <-> absent (a_coords a) (or_default coords) e)).
Proof.
  assert (D := missing_iff (a_dims a) (or_default dims)). assert (C := missing_iff (a_coords a) (or_default coords)).
  assert (Some_ok : forall cl t k, construct cl a dims coords t k = Err (MissingDimensions (missing (a_dims a) (or_default dims))) /\ missing (a_dims a) (or_default dims) <> [] \/
     construct cl a dims coords t k = Err (MissingCoordinates (missing (a_coords a) (or_default coords))) /\ missing (a_dims a) (or_default dims) = [] /\ missing (a_coords a) (or_default coords) <> [] \/
     (exists p, construct cl a dims coords t k = Ok p) /\ missing (a_dims a) (or_default dims) = [] /\ missing (a_coords a) (or_default coords) = []).
  { intros. unfold construct. destruct (missing (a_dims a) _); [|left; split; [reflexivity|discriminate]].
    destruct (missing (a_coords a) _); [|right; left; split; [reflexivity|split; [reflexivity|discriminate]]].
    right; right. split; [eexists; reflexivity|]. split; reflexivity. }
  unfold call. set (f := match g_type s with Some t => t | None => detect a dims end).
  set (cl := if (lower f =? "unstructured")%string then "unstructured" else "gridded").
  destruct (Some_ok cl (if String.eqb cl "unstructured" then g_tgrid s else None) (if String.eqb cl "unstructured" then g_ckdtree s else None)) as [[-> N]|[(-> & N & M)|((p & ->) & N & M)]]; cbn [bind].
  - split.
    + split; [intros (p & X); discriminate|]. intros [X _]. destruct (missing (a_dims a) (or_default dims)) as [|e l] eqn:E; [congruence|].
      exfalso. apply (X e). apply D. left. reflexivity.
    + intros err X. injection X as <-. left. eexists. split; [reflexivity|]. split; [exact N|exact D].
  - assert (Nd : forall e, ~ absent (a_dims a) (or_default dims) e). { intros e X. apply D in X. rewrite N in X. exact X. }
    split.
    + split; [intros (p & X); discriminate|]. intros [_ X]. destruct (missing (a_coords a) (or_default coords)) as [|e l] eqn:E; [congruence|].
      exfalso. apply (X e). apply C. left. reflexivity.
    + intros err X. injection X as <-. right. eexists. split; [reflexivity|]. split; [exact M|]. split; [exact Nd|exact C].
  - rewrite N in D. rewrite M in C. assert (Yes : exists q, (if String.eqb f "unstructured" then match g_tgrid s, g_ckdtree s with
         | Some t, Some c => Ok {| p_class := p_class p; p_dims := p_dims p; p_coords := p_coords p; p_tgrid := truthy (Some t); p_ckdtree := truthy (Some c) |}
         | _, _ => Ok p end else @Ok plot_error plotter p) = Ok q).
    { destruct (String.eqb f "unstructured"); [destruct (g_tgrid s); [destruct (g_ckdtree s)|]|]; eexists; reflexivity. }
    split.
    + split; [|intros _; exact Yes]. intros _. split; intros e X; [apply D in X|apply C in X]; exact X.
    + destruct Yes as (q & ->). discriminate.
Qed.
Print Assumptions C66_names_checked.
Definition mesh := {| a_dims := ["time"; "ncells"]; a_coords := ["lat"; "lon"; "time"] |}.
Definition mesh_dims : mapping := [("time", "time"); ("x", "ncells")].
Definition field := {| a_dims := ["time"; "lat"; "lon"]; a_coords := ["lat"; "lon"; "time"] |}.
Example C66_case : fold_left specify_step [(Some "GRIDDED", Some "a", None); (Some "Unstructured", Some "g.nc", Some "tree"); (Some "icon", Some "h", None)] grid_start =
    {| g_type := Some "unstructured"; g_tgrid := Some "g.nc"; g_ckdtree := Some "tree" |} /\
  call {| g_type := Some "unstructured"; g_tgrid := Some "g.nc"; g_ckdtree := Some "tree" |} mesh (Some mesh_dims) None =
    Ok {| p_class := "unstructured"; p_dims := mesh_dims; p_coords := default_mapping; p_tgrid := Some "g.nc"; p_ckdtree := Some "tree" |}.
Proof. split; reflexivity. Qed.

(** ** C95. A plotter is made exactly when every mapped spatial dimension and
    coordinate is there; otherwise the missing ones are reported. *)
Lemma missing_nil names m : missing names m = [] <-> forall k v, In (k, v) m -> k <> "time" -> In v names.
Proof.
  unfold missing. split.
  - intros H k v I K. destruct (member v names) eqn:M; [apply member_iff; exact M|]. exfalso.
    assert (X : In (k, v) (filter (fun e => negb (String.eqb (fst e) "time" && negb (member (snd e) names)) && negb (member (snd e) names)) m)); [|rewrite H in X; destruct X].
    apply filter_In. split; [exact I|]. cbn. rewrite M. apply String.eqb_neq in K. rewrite K. reflexivity.
  - intro H. induction m as [|(k & v) m IH]; [reflexivity|]. cbn [filter fst snd]. destruct (String.eqb_spec k "time") as [->|K].
    + destruct (member v names); cbn; apply IH; intros k' v' I; apply H; right; exact I.
    + assert (M : member v names = true) by (apply member_iff; apply (H k v); [left; reflexivity|exact K]). rewrite M. cbn. apply IH. intros k' v' I. apply H. right. exact I.
Qed.
Theorem C95_accepts_exactly : forall s a dims coords,
  (exists p, call s a dims coords = Ok p) <->
  (forall k d, In (k, d) (or_default dims) -> k <> "time" -> In d (a_dims a)) /\ (forall k c, In (k, c) (or_default coords) -> k <> "time" -> In c (a_coords a)).
Proof.
  intros s a dims coords. rewrite <- !missing_nil. unfold call, construct. destruct (missing (a_dims a) (or_default dims)) as [|x l] eqn:D.
  - destruct (missing (a_coords a) (or_default coords)) as [|y l'] eqn:C.
    + split; [auto|]. intros _. cbn [bind]. destruct (String.eqb _ "unstructured"); [destruct (g_tgrid s), (g_ckdtree s)|]; eexists; reflexivity.
    + cbn [bind]. split; [intros (p & H); discriminate|]. intros (_ & H). discriminate.
  - cbn [bind]. split; [intros (p & H); discriminate|]. intros (H & _). discriminate.
Qed.
Print Assumptions C95_accepts_exactly.
Theorem C95_reports_missing : forall s a dims coords m, call s a dims coords = Err (MissingDimensions m) ->
  forall k d, In (k, d) m <-> In (k, d) (or_default dims) /\ k <> "time" /\ ~ In d (a_dims a).
Proof.
  intros s a dims coords m H k d. unfold call, construct in H. destruct (missing (a_dims a) (or_default dims)) as [|x l] eqn:D.
  - destruct (missing (a_coords a) (or_default coords)); cbn [bind] in H; [destruct (String.eqb _ "unstructured"); [destruct (g_tgrid s), (g_ckdtree s)|]|]; discriminate.
  - cbn [bind] in H. injection H as <-. rewrite <- D. unfold missing. rewrite filter_In. cbn [fst snd].
    assert (M := member_iff d (a_dims a)). assert (K := String.eqb_eq k "time"). destruct (member d (a_dims a)), (String.eqb k "time"); cbn; intuition congruence.
Qed.
Print Assumptions C95_reports_missing.
Example C95_case : call grid_start mesh None None = Err (MissingDimensions [("y", "lat"); ("x", "lon")]) /\
  exists p, call grid_start {| a_dims := ["lat"; "lon"]; a_coords := ["lat"; "lon"] |} None None = Ok p.
Proof. split; [reflexivity|eexists; reflexivity]. Qed.

(** ** C96. What works for one plot works for panels: false. *)
(** Data whose dimensions are not called lat and lon never get panels, although single
    plots with the same mapping work: the panels' plotter is built without the mapping. *)
Theorem C96_custom_names_refuted : forall p a npanels col_wrap, ~ In "lat" (a_dims a) -> forall l, multi_plot p a npanels col_wrap <> Ok l.
Proof.
  intros p a npanels col_wrap H l. unfold multi_plot. destruct (Nat.eqb col_wrap 0); [discriminate|]. cbv zeta. destruct (Nat.eqb _ 0); [discriminate|]. destruct (Nat.eqb _ 1); [discriminate|].
  unfold construct. destruct (missing (a_dims a) (or_default None)) as [|x r] eqn:D; [|discriminate]. exfalso. apply H. apply (proj1 (missing_nil _ _) D "y"); [cbn; auto|discriminate].
Qed.
Print Assumptions C96_custom_names_refuted.
Example C96_mesh_case : exists p, call grid_start mesh (Some mesh_dims) None = Ok p.
Proof. eexists. reflexivity. Qed.
Theorem C96_one_panel_refuted : forall p a col_wrap l, multi_plot p a 1 col_wrap <> Ok l.
Proof.
  intros p a col_wrap l. unfold multi_plot. destruct (Nat.eqb_spec col_wrap 0) as [|W]; [discriminate|]. cbv zeta.
  replace ((1 + col_wrap - 1) / col_wrap) with 1 by (replace (1 + col_wrap - 1) with (1 * col_wrap) by lia; rewrite Nat.div_mul by exact W; reflexivity).
  replace (Nat.min 1 col_wrap) with 1 by lia. discriminate.
Qed.
Print Assumptions C96_one_panel_refuted.
(** Otherwise panel i goes to row i / columns, column i mod columns: no two share a
    cell, none is outside the figure, and no row is left empty. *)
Theorem C96_panels_partial : forall p a npanels col_wrap, 2 <= npanels -> 0 < col_wrap ->
  (forall d, d = "lat" \/ d = "lon" -> In d (a_dims a) /\ In d (a_coords a)) ->
  exists cells nrows, multi_plot p a npanels col_wrap = Ok cells /\ List.length cells = npanels /\ NoDup cells /\
    (forall r c, In (r, c) cells -> r < nrows /\ c < col_wrap) /\ (nrows - 1) * col_wrap < npanels <= nrows * col_wrap /\
    (forall i, i < npanels -> exists r c, nth_error cells i = Some (r, c) /\ i = r * Nat.min npanels col_wrap + c).
Proof.
  intros p a n w N W H. set (k := Nat.min n w). assert (K : 0 < k) by (unfold k; lia). set (nr := (n + w - 1) / w).
  assert (R1 : (nr - 1) * w < n /\ n <= nr * w).
  { assert (D := Nat.div_mod (n + w - 1) w ltac:(lia)). fold nr in D. assert (M := Nat.mod_upper_bound (n + w - 1) w ltac:(lia)). generalize dependent ((n + w - 1) mod w). generalize dependent nr. intros. nia. }
  exists (map (fun i => (i / k, i mod k)) (seq 0 n)), nr. split; [|split; [|split; [|split; [|split]]]].
  - unfold multi_plot. destruct (Nat.eqb_spec w 0); [lia|]. cbv zeta. fold k nr. destruct (Nat.eqb_spec (nr * k) 0) as [Z|Z]; [destruct nr; [lia|]; nia|].
    destruct (Nat.eqb_spec (nr * k) 1) as [Z1|Z1]. { assert (nr = 1) by (destruct nr as [|[|]]; nia). assert (k = 1) by nia. unfold k in *. nia. }
    assert (C : construct (p_class p) a None None (p_tgrid p) (p_ckdtree p) = Ok {| p_class := p_class p; p_dims := default_mapping; p_coords := default_mapping; p_tgrid := p_tgrid p; p_ckdtree := p_ckdtree p |}).
    { assert (X : forall names, (forall d, d = "lat" \/ d = "lon" -> In d names) -> missing names (or_default None) = []).
      { intros names X. apply missing_nil. intros q v I T. cbn in I. destruct I as [I|[I|[I|[]]]]; injection I as <- <-; [congruence|apply X; auto|apply X; auto]. }
      unfold construct. rewrite !X by (intros; apply H; assumption). reflexivity. }
    rewrite C. reflexivity.
  - rewrite map_length, seq_length. reflexivity.
  - apply FinFun.Injective_map_NoDup; [|apply seq_NoDup]. intros x y E. injection E as E1 E2. rewrite (Nat.div_mod x k), (Nat.div_mod y k) by lia. congruence.
  - intros r c I. apply in_map_iff in I. destruct I as (i & E & I). injection E as <- <-. apply in_seq in I. assert (P : 0 < nr) by (destruct nr; lia). split.
    + apply Nat.div_lt_upper_bound; [lia|]. unfold k. destruct (Nat.min_spec n w) as [(L & ->)|(L & ->)]; nia.
    + assert (M := Nat.mod_upper_bound i k ltac:(lia)). unfold k in *. lia.
  - exact R1.
  - intros i I. exists (i / k), (i mod k). split.
    + rewrite nth_error_map. rewrite (nth_error_nth' _ 0) by (rewrite seq_length; exact I). rewrite seq_nth by exact I. reflexivity.
    + rewrite (Nat.mul_comm (i / k)). apply Nat.div_mod. lia.
Qed.
Print Assumptions C96_panels_partial.
Example C96_case : multi_plot {| p_class := "gridded"; p_dims := []; p_coords := []; p_tgrid := None; p_ckdtree := None |} field 5 3 = Ok [(0, 0); (0, 1); (0, 2); (1, 0); (1, 1)].
Proof. reflexivity. Qed.

(** ** C97. Grid files are read once per path. *)
Section Cache.
Context {T : Type}.
Implicit Types (files : disk T) (c : cache T).
Definition agrees files c p : Prop := forall t, lookup p c = Some t -> files p = Some (Some t).
Lemma load_agrees files c p q : agrees files c p -> agrees files (match load files c q with Ok (_, c') => c' | Err _ => c end) p.
Proof.
  intro A. unfold load. destruct (lookup q c) as [t|]; [exact A|]. destruct (files q) as [[t|]|] eqn:F; try exact A. intros u L. cbn in L. destruct (String.eqb_spec p q) as [->|]; [congruence|apply A; exact L].
Qed.
Lemma history_agrees (es : list (grid_event T)) p : (forall t, ~ In (Write p t) es) -> forall s, agrees (fst s) (snd s) p ->
  fst (fold_left grid_step es s) p = fst s p /\ agrees (fst (fold_left grid_step es s)) (snd (fold_left grid_step es s)) p.
Proof.
  induction es as [|e es IH]; intros N s A; [split; [reflexivity|exact A]|]. cbn [fold_left].
  assert (N' : forall t, ~ In (Write p t) es) by (intros t I; apply (N t); right; exact I).
  destruct e as [q t|q|].
  - assert (Q : p <> q) by (intros ->; apply (N t); left; reflexivity). apply String.eqb_neq in Q.
    assert (W : write (fst s) q t p = fst s p) by (unfold write; rewrite Q; reflexivity).
    destruct (IH N' (grid_step s (Write q t))) as (U & V); [intros u L; cbn; rewrite W; apply A; exact L|]. split; [rewrite U; exact W|exact V].
  - apply (IH N' (grid_step s (Plot q))). cbn. apply load_agrees. exact A.
  - apply (IH N' (grid_step s ClearCache)). intros u L. discriminate.
Qed.
(** Since the last clear_cache, or since the start, a file that was not rewritten is
    used as it stands on disk. *)
Theorem C97_fresh_after_clear_partial : forall files (h es : list (grid_event T)) p t,
  let s := fold_left grid_step h (files, []) in
  let s' := fold_left grid_step (h ++ ClearCache :: es) (files, []) in
  (forall u, ~ In (Write p u) es) -> fst s p = Some (Some t) -> exists c', load (fst s') (snd s') p = Ok (t, c').
Proof.
  intros files h es p t s s' N F. unfold s'. rewrite fold_left_app. cbn [fold_left]. fold s.
  destruct (history_agrees es p N (grid_step s ClearCache)) as (U & V); [intros u L; discriminate|]. change (fst (grid_step s ClearCache) p) with (fst s p) in U.
  unfold load. destruct (lookup p _) as [u|] eqn:L.
  - apply V in L. rewrite U, F in L. injection L as <-. eexists. reflexivity.
  - rewrite U, F. eexists. reflexivity.
Qed.
(** A file rewritten after its first plot is not read again. *)
Theorem C97_stale_refuted : forall files p t new, files p = Some (Some t) ->
  let s := fold_left grid_step [Plot p; Write p new] (files, []) in
  fst s p = Some new /\ exists c', load (fst s) (snd s) p = Ok (t, c').
Proof.
  intros files p t new F s. assert (E : load files [] p = Ok (t, [(p, t)])) by (unfold load; cbn [lookup]; rewrite F; reflexivity).
  unfold s. cbn [fold_left grid_step fst snd]. rewrite E. cbn [fst snd]. split; [unfold write; rewrite String.eqb_refl; reflexivity|].
  unfold load. cbn [lookup]. rewrite String.eqb_refl. eexists. reflexivity.
Qed.
End Cache.
Print Assumptions C97_fresh_after_clear_partial.
Print Assumptions C97_stale_refuted.
Example C97_case : let files : disk nat := fun p => if String.eqb p "g.nc" then Some (Some 3) else None in
  let s := fold_left grid_step [Plot "g.nc"; Write "g.nc" (Some 4); Plot "g.nc"; ClearCache; Plot "g.nc"] (files, []) in
  fst s "g.nc" = Some (Some 4) /\ load (fst s) (snd s) "g.nc" = Ok (4, [("g.nc", 4)]).
Proof. split; reflexivity. Qed.

(** ** C98. Global fields are closed across the date line. *)
Lemma maxQ_spec : forall l x, let m := maxQ_of x l in In m (x :: l) /\ forall y, In y (x :: l) -> (y <= m)%Q.
Proof.
  unfold maxQ_of. induction l as [|z l IH]; intro x; cbn [fold_left].
  - split; [left; reflexivity|]. intros y [<-|[]]. apply Qle_refl.
  - destruct (Qle_bool x z) eqn:E.
    + apply Qle_bool_iff in E. destruct (IH z) as (A & B). split; [right; exact A|]. intros y [<-|I]; [|apply B; exact I]. apply (Qle_trans _ z); [exact E|apply B; left; reflexivity].
    + destruct (IH x) as (A & B). assert (F : (z <= x)%Q) by (destruct (Qlt_le_dec x z) as [L|L]; [apply Qlt_le_weak, Qle_bool_iff in L; congruence|exact L]).
      split; [destruct A as [A|A]; [left; exact A|right; right; exact A]|]. intros y [<-|[<-|I]]; [apply B; left; reflexivity| |apply B; right; exact I].
      apply (Qle_trans _ x); [exact F|apply B; left; reflexivity].
Qed.
Lemma minQ_spec : forall l x, let m := minQ_of x l in In m (x :: l) /\ forall y, In y (x :: l) -> (m <= y)%Q.
Proof.
  unfold minQ_of. induction l as [|z l IH]; intro x; cbn [fold_left].
  - split; [left; reflexivity|]. intros y [<-|[]]. apply Qle_refl.
  - destruct (Qle_bool z x) eqn:E.
    + apply Qle_bool_iff in E. destruct (IH z) as (A & B). split; [right; exact A|]. intros y [<-|I]; [|apply B; exact I]. apply (Qle_trans _ z); [apply B; left; reflexivity|exact E].
    + destruct (IH x) as (A & B). assert (F : (x <= z)%Q) by (destruct (Qlt_le_dec z x) as [L|L]; [apply Qlt_le_weak, Qle_bool_iff in L; congruence|exact L]).
      split; [destruct A as [A|A]; [left; exact A|right; right; exact A]|]. intros y [<-|[<-|I]]; [apply B; left; reflexivity| |apply B; right; exact I].
      apply (Qle_trans _ x); [apply B; left; reflexivity|exact F].
Qed.
Lemma Qabs_cases x : (Qabs' x == x /\ 0 <= x)%Q \/ (Qabs' x == - x /\ x <= 0)%Q.
Proof. unfold Qabs', Qltb. destruct (Qle_bool 0 x) eqn:E; cbn; [left; apply Qle_bool_iff in E; split; [reflexivity|exact E]|right; split; [reflexivity|]]. destruct (Qlt_le_dec 0 x) as [L|L]; [apply Qlt_le_weak, Qle_bool_iff in L; congruence|exact L]. Qed.
Lemma Qltb_iff' x y : Qltb x y = true <-> (x < y)%Q.
Proof. unfold Qltb. rewrite negb_true_iff. split; intro H; [apply Qnot_le_lt; intro K; apply Qle_bool_iff in K; congruence|]. destruct (Qle_bool y x) eqn:E; [apply Qle_bool_iff in E; lra|reflexivity]. Qed.
(** Longitudes x, x + d, ..., n of them. *)
Definition regular (x d : Q) (n : nat) : list Q := map (fun i => (x + natQ i * d)%Q) (seq 0 n).
Lemma regular_shape x d n : regular x d (S (S n)) = (x + natQ 0 * d)%Q :: (x + natQ 1 * d)%Q :: map (fun i => (x + natQ i * d)%Q) (seq 2 n).
Proof. reflexivity. Qed.
Lemma regular_span x d n a l : (0 <= d)%Q -> regular x d (S (S n)) = a :: l -> (maxQ_of a l - minQ_of a l == natQ (S n) * d)%Q.
Proof.
  intros D E. destruct (maxQ_spec l a) as (A & B). destruct (minQ_spec l a) as (A' & B'). rewrite <- E in A, B, A', B'.
  set (M := maxQ_of a l) in *. set (m := minQ_of a l) in *.
  assert (L1 : In (x + natQ (S n) * d)%Q (regular x d (S (S n)))) by (apply in_map_iff; exists (S n); split; [reflexivity|apply in_seq; lia]).
  assert (L0 : In (x + natQ 0 * d)%Q (regular x d (S (S n)))) by (apply in_map_iff; exists 0; split; [reflexivity|apply in_seq; lia]).
  apply B in L1. apply B' in L0. unfold regular in A, A'. apply in_map_iff in A. destruct A as (i & <- & I). apply in_map_iff in A'. destruct A' as (j & <- & J). apply in_seq in I, J.
  assert (I1 : (natQ i <= natQ (S n))%Q) by (unfold natQ; rewrite <- Zle_Qle; lia). assert (J1 : (natQ 0 <= natQ j)%Q) by (unfold natQ; rewrite <- Zle_Qle; lia).
  assert (I2 := Qmult_le_compat_r _ _ d I1 D). assert (J2 := Qmult_le_compat_r _ _ d J1 D). assert (Z : (natQ 0 * d == 0)%Q) by (change (natQ 0) with 0%Q; ring). lra.
Qed.
Theorem C98_wrapped_or_unchanged : forall (A : Type) lon (columns : list A) lon' columns', wrap_lon lon columns = Some (lon', columns') ->
  (lon' = lon /\ columns' = columns) \/ (exists x c, hd_error lon = Some x /\ hd_error columns = Some c /\ lon' = lon ++ [(x + 360)%Q] /\ columns' = columns ++ [c]).
Proof.
  intros A lon columns lon' columns' H. destruct lon as [|x [|y r]]; try discriminate. destruct columns as [|c cs]; [discriminate|]. cbn [wrap_lon] in H.
  destruct (Qltb _ _); injection H as <- <-; [right; exists x, c; repeat split|left; split; reflexivity].
Qed.
Print Assumptions C98_wrapped_or_unchanged.
(** A regular grid going once round the globe is closed one spacing after its last
    longitude; a regional one, missing at least three spacings, is left alone. *)
Theorem C98_regular_grids_partial : forall (A : Type) x d n (columns : list A) c, (0 < d)%Q -> hd_error columns = Some c ->
  ((natQ (S (S n)) * d == 360)%Q -> exists last, wrap_lon (regular x d (S (S n))) columns = Some (regular x d (S (S n)) ++ [last], columns ++ [c]) /\
     (last - (x + natQ (S n) * d) == d)%Q) /\
  ((natQ (S (S (S n))) * d <= 360)%Q -> wrap_lon (regular x d (S (S n))) columns = Some (regular x d (S (S n)), columns)).
Proof.
  intros A x d n columns c D C. destruct columns as [|c0 cs]; [discriminate|]. injection C as ->.
  assert (N0 : (natQ 0 == 0)%Q) by reflexivity. assert (N1 : (natQ 1 == 1)%Q) by reflexivity. assert (NS := natQ_S n). assert (NSS := natQ_S (S n)). assert (NSSS := natQ_S (S (S n))).
  assert (Sp := regular_span x d n _ _ ltac:(lra) (regular_shape x d n)).
  split; intro G; rewrite regular_shape; cbn [wrap_lon].
  - exists (x + natQ 0 * d + 360)%Q. split; [|rewrite N0; nra]. rewrite (proj2 (Qltb_iff' _ _)); [reflexivity|].
    match goal with |- (Qabs' ?v < _)%Q => destruct (Qabs_cases v) as [(-> & _)|(-> & _)] end; rewrite Sp, N0, N1; nra.
  - destruct (Qltb _ _) eqn:E; [|reflexivity]. apply Qltb_iff' in E. exfalso. match type of E with (Qabs' ?v < _)%Q => destruct (Qabs_cases v) as [(K & L)|(K & L)] end; rewrite K in E; rewrite Sp in E, L; rewrite N0, N1 in E; nra.
Qed.
Print Assumptions C98_regular_grids_partial.
(** A grid that already holds both ends gets its last longitude twice. *)
Theorem C98_closed_grid_refuted : forall (A : Type) x d n (columns : list A) c, (0 < d)%Q -> hd_error columns = Some c -> (natQ (S n) * d == 360)%Q ->
  exists last, wrap_lon (regular x d (S (S n))) columns = Some (regular x d (S (S n)) ++ [last], columns ++ [c]) /\ (last == x + natQ (S n) * d)%Q.
Proof.
  intros A x d n columns c D C G. destruct columns as [|c0 cs]; [discriminate|]. injection C as ->.
  assert (N0 : (natQ 0 == 0)%Q) by reflexivity. assert (N1 : (natQ 1 == 1)%Q) by reflexivity.
  assert (Sp := regular_span x d n _ _ ltac:(lra) (regular_shape x d n)). rewrite regular_shape. cbn [wrap_lon].
  exists (x + natQ 0 * d + 360)%Q. split; [|rewrite N0; lra]. rewrite (proj2 (Qltb_iff' _ _)); [reflexivity|].
  match goal with |- (Qabs' ?v < _)%Q => destruct (Qabs_cases v) as [(-> & _)|(-> & _)] end; rewrite Sp, N0, N1; nra.
Qed.
Print Assumptions C98_closed_grid_refuted.
(** Longitudes that run westwards are never closed, global or not. *)
Theorem C98_descending_refuted : forall (A : Type) x y r (c : A) cs, (y <= x)%Q -> wrap_lon (x :: y :: r) (c :: cs) = Some (x :: y :: r, c :: cs).
Proof.
  intros A x y r c cs H. cbn [wrap_lon]. destruct (Qltb _ _) eqn:E; [|reflexivity]. apply Qltb_iff' in E. exfalso.
  destruct (Qabs_cases (360 - (maxQ_of x (y :: r) - minQ_of x (y :: r)))%Q) as [(K & L)|(K & L)]; rewrite K in E; lra.
Qed.
Print Assumptions C98_descending_refuted.
Example C98_case : option_map snd (wrap_lon (regular 0 90 4) [1; 2; 3; 4]) = Some [1; 2; 3; 4; 1] /\ option_map snd (wrap_lon (regular 0 90 5) [1; 2; 3; 4; 5]) = Some [1; 2; 3; 4; 5; 1] /\
  option_map snd (wrap_lon (regular 0 10 4) [1; 2; 3; 4]) = Some [1; 2; 3; 4] /\ option_map snd (wrap_lon (regular 270 (-90) 4) [1; 2; 3; 4]) = Some [1; 2; 3; 4].
Proof. repeat split; vm_compute; reflexivity. Qed.

(** ** C99. Colour limits. *)
Lemma max2 x y : (x <= maxQ_of x [y] /\ y <= maxQ_of x [y])%Q.
Proof. destruct (maxQ_spec [y] x) as (_ & B). split; apply B; [left|right; left]; reflexivity. Qed.
Theorem C99_symmetric : forall data p0 p1 lo hi, clim_robust data true p0 p1 = Some (lo, hi) -> (lo == - hi)%Q /\ (lo <= hi)%Q.
Proof.
  intros data p0 p1 lo hi H. unfold clim_robust in H. destruct (percentile p0 data) as [a|], (percentile p1 data) as [b|]; try discriminate. assert (M := max2 (Qabs' a) (Qabs' b)). cbv zeta in H. generalize dependent (maxQ_of (Qabs' a) [Qabs' b]). intros m H M. injection H as <- <-. split; [reflexivity|]. destruct (Qabs_cases a) as [(K & L)|(K & L)]; lra.
Qed.
Print Assumptions C99_symmetric.
Lemma percentile_mono data p0 p1 a b : (0 <= p0)%Q -> (p0 <= p1)%Q -> (p1 <= 100)%Q -> percentile p0 data = Some a -> percentile p1 data = Some b -> (a <= b)%Q.
Proof.
  intros A B C E F. assert (M := quantile_mono (p0 / 100) (p1 / 100) data). unfold percentile in *. rewrite E, F in M. cbn in M. apply M; unfold Qdiv; change (/ 100)%Q with (1 # 100); lra.
Qed.
Lemma count_split {A} (P : A -> bool) l : count P l + count (fun x => negb (P x)) l = List.length l.
Proof. induction l as [|x l IH]; [reflexivity|]. rewrite !count_cons. cbn [List.length]. destruct (P x); cbn [negb]; lia. Qed.
Lemma count_mono {A} (P R : A -> bool) l : (forall x, P x = true -> R x = true) -> count P l <= count R l.
Proof. intro H. induction l as [|x l IH]; [apply le_n|]. rewrite !count_cons. specialize (H x). destruct (P x), (R x); lia || discriminate (H eq_refl). Qed.
Lemma count_or {A} (P R : A -> bool) l : count (fun x => P x || R x) l <= count P l + count R l.
Proof. induction l as [|x l IH]; [apply le_n|]. rewrite !count_cons. destruct (P x), (R x); cbn [orb]; lia. Qed.
(** Limits are in order, and apart from two values no more than the share p0 + (100 - p1)
    of the values lies outside them. *)
Theorem C99_cover_partial : forall data symmetric p0 p1 lo hi, (0 <= p0)%Q -> (p0 <= p1)%Q -> (p1 <= 100)%Q -> symmetric = true \/ ~ (p0 == 0)%Q ->
  clim_robust data symmetric p0 p1 = Some (lo, hi) ->
  (lo <= hi)%Q /\
  (natQ (count (fun v => Qltb v lo || Qltb hi v) data) <= ((p0 + (100 - p1)) / 100) * natQ (List.length data - 1) + 2)%Q.
Proof.
  intros data symmetric p0 p1 lo hi P0 P1 P2 S H. unfold clim_robust in H. destruct (percentile p0 data) as [a|] eqn:EA; [|discriminate]. destruct (percentile p1 data) as [b|] eqn:EB; [|discriminate].
  assert (AB := percentile_mono data p0 p1 a b P0 P1 P2 EA EB).
  assert (I : (lo <= a)%Q /\ (b <= hi)%Q).
  { destruct symmetric.
    - assert (M := max2 (Qabs' a) (Qabs' b)). cbv zeta in H. generalize dependent (maxQ_of (Qabs' a) [Qabs' b]). intros m H M. injection H as <- <-. destruct (Qabs_cases a) as [(K & L)|(K & L)], (Qabs_cases b) as [(K' & L')|(K' & L')]; lra.
    - destruct S as [S|S]; [discriminate|]. destruct (Qeq_bool p0 0) eqn:E; [apply Qeq_bool_iff in E; contradiction|]. injection H as <- <-. lra. }
  split; [lra|]. unfold percentile in EA, EB.
  destruct (quantile_counts (p0 / 100) data a) as (QA & _); [unfold Qdiv; change (/ 100)%Q with (1 # 100); lra|unfold Qdiv; change (/ 100)%Q with (1 # 100); lra|exact EA|].
  destruct (quantile_counts (p1 / 100) data b) as (_ & QB); [unfold Qdiv; change (/ 100)%Q with (1 # 100); lra|unfold Qdiv; change (/ 100)%Q with (1 # 100); lra|exact EB|].
  assert (X := count_or (fun v => Qltb v lo) (fun v => Qltb hi v) data).
  assert (Y : count (fun v => Qltb v lo) data <= count (fun v => negb (Qle_bool a v)) data).
  { apply count_mono. intros v V. apply Qltb_iff' in V. change (Qltb v a = true). apply Qltb_iff'. lra. }
  assert (Z : count (fun v => Qltb hi v) data <= count (fun v => negb (Qle_bool v b)) data).
  { apply count_mono. intros v V. apply Qltb_iff' in V. change (Qltb b v = true). apply Qltb_iff'. lra. }
  assert (T := count_split (fun v => Qle_bool a v) data). assert (NE : 0 < List.length data) by (destruct data; [discriminate EA|cbn; lia]).
  assert (LE : forall u w, u <= w -> (natQ u <= natQ w)%Q) by (intros; unfold natQ; rewrite <- Zle_Qle; lia).
  assert (AD : forall u w, (natQ (u + w) == natQ u + natQ w)%Q) by (intros; unfold natQ; rewrite Nat2Z.inj_add, inject_Z_plus; reflexivity).
  apply LE in X, Y, Z. rewrite AD in X. assert (T' : (natQ (count (fun v => Qle_bool a v) data) + natQ (count (fun v => negb (Qle_bool a v)) data) == natQ (List.length data))%Q) by (rewrite <- AD, T; reflexivity).
  assert (L1 : (natQ (List.length data) == natQ (List.length data - 1) + 1)%Q) by (replace (List.length data) with (List.length data - 1 + 1) at 1 by lia; rewrite AD; reflexivity).
  unfold Qdiv in *. change (/ 100)%Q with (1 # 100) in *. cbv beta in *. generalize dependent (natQ (List.length data - 1)). intros m. intros.
  setoid_replace ((p0 + (100 - p1)) * (1 # 100) * m)%Q with (p0 * (1 # 100) * m + (1 - p1 * (1 # 100)) * m)%Q by ring.
  assert (E1 : ((1 - p0 * (1 # 100)) * m == m - p0 * (1 # 100) * m)%Q) by ring. rewrite E1 in QA. lra.
Qed.
Print Assumptions C99_cover_partial.
Example C99_case : option_map (fun c => (Qred (fst c), Qred (snd c))) (clim_robust [5; 1; 3; 2; 4]%Q false 25 75) = Some (2, 4)%Q /\
  option_map (fun c => (Qred (fst c), Qred (snd c))) (clim_robust [5; -(9); 3]%Q true 0 100) = Some (-(9), 9)%Q.
Proof. split; vm_compute; reflexivity. Qed.
(** With a lower percentile of 0 the lower limit is 0, whatever the data: below zero
    the limits come out in the wrong order. *)
Lemma quantile_negative q data b : (0 <= q)%Q -> (q <= 1)%Q -> quantile q data = Some b -> (forall v, In v data -> (v < 0)%Q) -> (b < 0)%Q.
Proof.
  intros A B E H. assert (M := quantile_mono q 1 data A B (Qle_refl 1)). rewrite E in M. assert (NE : data <> []) by (intros ->; discriminate).
  destruct (quantile_eq 1 data NE ltac:(lra) (Qle_refl 1)) as (v & E' & V). rewrite E' in M. cbn in M.
  destruct (qlo_bounds 1 data ltac:(lra) (Qle_refl 1)) as (A1 & A2 & A3 & _). destruct (qvalue_bounds 1 data NE ltac:(lra) (Qle_refl 1)) as (U1 & U2 & U3).
  assert (X := len_pos data NE). assert (SL := sort_len data).
  assert (I : forall i, i < List.length data -> (nth i (sortQ data) 0 < 0)%Q).
  { intros i I. apply H. apply (Permutation_in _ (Permutation_sym (sortQ_perm data))) || apply (Permutation_in _ (sortQ_perm data)). apply nth_In. rewrite SL. exact I. }
  specialize (I (Nat.min (S (qlo 1 data)) (List.length data - 1)) ltac:(lia)). lra.
Qed.
Theorem C99_inverted_refuted : forall data p1 lo hi, (0 <= p1)%Q -> (p1 <= 100)%Q -> (forall v, In v data -> (v < 0)%Q) ->
  clim_robust data false 0 p1 = Some (lo, hi) -> (hi < lo)%Q.
Proof.
  intros data p1 lo hi A B H E. unfold clim_robust in E. destruct (percentile 0 data); [|discriminate]. destruct (percentile p1 data) as [b|] eqn:EB; [|discriminate]. cbn in E. injection E as <- <-.
  apply (quantile_negative (p1 / 100) data); [unfold Qdiv; change (/ 100)%Q with (1 # 100); lra|unfold Qdiv; change (/ 100)%Q with (1 # 100); lra|exact EB|exact H].
Qed.
Print Assumptions C99_inverted_refuted.
Example C99_inverted_case : exists lo hi, clim_robust [-(3); -(1)]%Q false 0 98 = Some (lo, hi).
Proof. eexists; eexists; reflexivity. Qed.

(** ** C100. Every event gets a colour of its own. *)
Lemma half_le k n : Qle_bool (natQ k - (1 # 2)) (natQ n) = Nat.leb k n.
Proof.
  destruct (Nat.leb_spec k n) as [L|L].
  - apply Qle_bool_iff. assert (X : (natQ k <= natQ n)%Q) by (unfold natQ; rewrite <- Zle_Qle; lia). lra.
  - destruct (Qle_bool _ _) eqn:E; [|reflexivity]. apply Qle_bool_iff in E. assert (X : (natQ n + 1 <= natQ k)%Q). { setoid_replace (natQ n + 1)%Q with (natQ (S n)) by (symmetry; apply natQ_S). unfold natQ. rewrite <- Zle_Qle. lia. } lra.
Qed.
Lemma count_leb : forall len start n, count (fun k => Nat.leb k n) (seq start len) = Nat.min len (S n - start).
Proof.
  induction len as [|len IH]; intros start n; [reflexivity|]. cbn [seq]. rewrite count_cons, IH. destruct (Nat.leb_spec start n); lia.
Qed.
Lemma count_map {A B} (f : A -> B) P l : count P (map f l) = count (fun x => P (f x)) l.
Proof. induction l as [|x l IH]; [reflexivity|]. cbn [map]. rewrite !count_cons, IH. reflexivity. Qed.
Lemma region_id max_id id : id <= S max_id -> region (id_bounds max_id) (natQ id) = id - 1.
Proof.
  intro I. unfold region, id_bounds. rewrite count_map. rewrite (count_ext _ (fun k => Nat.leb k id)) by (intros; apply half_le). rewrite count_leb. lia.
Qed.
Theorem C100_own_colour : forall max_id cmap, (forall n, cmap = Some n -> max_id <= n) ->
  forall id, 1 <= id <= max_id -> exists k, colour max_id cmap id = Ok k /\ k < match cmap with Some n => n | None => max_id end /\
    forall id' k', 1 <= id' <= max_id -> colour max_id cmap id' = Ok k' -> id <> id' -> k <> k'.
Proof.
  intros max_id cmap C id I. set (n := match cmap with Some n => n | None => max_id end). assert (N : max_id <= n) by (unfold n; destruct cmap; [apply C; reflexivity|lia]).
  set (f := fun i => if Nat.ltb max_id n then (if Nat.eqb max_id 1 then (n - 1) / 2 else (n - 1) * i / (max_id - 1)) else i).
  assert (E : forall j, 1 <= j <= max_id -> colour max_id cmap j = Ok (f (j - 1))).
  { intros j J. unfold colour. rewrite region_id by lia. replace (List.length (id_bounds max_id) - 1) with max_id by (unfold id_bounds; rewrite map_length, seq_length; lia).
    cbv zeta. fold n. destruct (Nat.ltb_spec n max_id); [lia|]. reflexivity. }
  assert (M : forall i j, i < j -> j <= max_id - 1 -> f i < f j).
  { intros i j L J. unfold f. destruct (Nat.ltb_spec max_id n) as [G|G]; [|exact L]. destruct (Nat.eqb_spec max_id 1) as [O|O]; [lia|].
    assert (D : (n - 1) * i / (max_id - 1) + 1 <= (n - 1) * j / (max_id - 1)); [|lia].
    rewrite <- Nat.div_add by lia. apply Nat.div_le_mono; [lia|]. nia. }
  exists (f (id - 1)). split; [apply E; exact I|]. split.
  - unfold f. destruct (Nat.ltb_spec max_id n) as [G|G]; [|lia]. destruct (Nat.eqb_spec max_id 1) as [O|O].
    + apply Nat.div_lt_upper_bound; lia.
    + apply Nat.div_lt_upper_bound; [lia|]. nia.
  - intros id' k' I' K X. rewrite E in K by exact I'. injection K as <-. destruct (Nat.lt_total (id - 1) (id' - 1)) as [L|[L|L]]; [apply M in L; lia|lia|apply M in L; lia].
Qed.
Print Assumptions C100_own_colour.
Example C100_case : map (colour 4 None) [1; 2; 3; 4] = [Ok 0; Ok 1; Ok 2; Ok 3] /\ map (colour 4 (Some 256)) [1; 2; 3; 4] = [Ok 0; Ok 85; Ok 170; Ok 255].
Proof. split; vm_compute; reflexivity. Qed.
(** A colour map with fewer entries than events is refused. *)
Theorem C100_small_map_refused : forall max_id n id, n < max_id -> colour max_id (Some n) id = Err TooFewColours.
Proof.
  intros max_id n id L. unfold colour. replace (List.length (id_bounds max_id) - 1) with max_id by (unfold id_bounds; rewrite map_length, seq_length; lia).
  destruct (Nat.ltb_spec n max_id); [reflexivity|lia].
Qed.
Print Assumptions C100_small_map_refused.

(** ** C101. Frames of an animation are complete and in time order. *)
Lemma before_digits s c r : all_digits s = true -> (nat_of_ascii c < 48 \/ 57 < nat_of_ascii c) -> before c (s ++ String c r)%string = s.
Proof.
  intros D C. induction s as [|d s IH]; cbn [append before].
  - rewrite Ascii.eqb_refl. reflexivity.
  - cbn [all_digits] in D. apply andb_true_iff in D. destruct D as (D & D'). apply andb_true_iff in D. destruct D as (D1 & D2). apply Nat.leb_le in D1, D2.
    destruct (Ascii.eqb_spec d c) as [->|]; [lia|]. rewrite IH by exact D'. reflexivity.
Qed.
Lemma after_last_none best c s : (forall i d, String.get i s = Some d -> d <> c) -> after_last_from best c s = best.
Proof.
  revert best. induction s as [|d s IH]; intros best H; [reflexivity|]. cbn [after_last_from]. destruct (Ascii.eqb_spec d c) as [->|]; [exfalso; apply (H 0 c); reflexivity|].
  apply IH. intros i e G. apply (H (S i) e). exact G.
Qed.
Lemma get_digits s i d : all_digits s = true -> String.get i s = Some d -> 48 <= nat_of_ascii d <= 57.
Proof.
  revert i. induction s as [|e s IH]; intros i D G; [destruct i; discriminate|]. cbn [all_digits] in D. apply andb_true_iff in D. destruct D as (D & D'). apply andb_true_iff in D. destruct D as (D1 & D2). apply Nat.leb_le in D1, D2.
  destruct i as [|i]; [injection G as <-; lia|]. apply (IH i); assumption.
Qed.
Lemma get_app s t i d : String.get i (s ++ t)%string = Some d -> String.get i s = Some d \/ exists j, String.get j t = Some d.
Proof.
  revert i. induction s as [|e s IH]; intros i G; [right; exists i; exact G|]. destruct i as [|i]; [left; exact G|]. cbn in G. apply IH in G. exact G.
Qed.
Lemma int_value s a : int_from a s = value_from a s.
Proof. revert a. induction s as [|c s IH]; intro a; [reflexivity|]. cbn [int_from value_from]. apply IH. Qed.
Lemma frame_key_name i : frame_key (frame_name i) = i.
Proof.
  unfold frame_key, frame_name. assert (D := pad_digits 4 i).
  assert (A : after_last "_" ("time_" ++ pad_number 4 i ++ ".jpg")%string = (pad_number 4 i ++ ".jpg")%string).
  { change (after_last_from (pad_number 4 i ++ ".jpg")%string "_" (pad_number 4 i ++ ".jpg")%string = (pad_number 4 i ++ ".jpg")%string). apply after_last_none. intros j d G E. subst d.
    apply get_app in G. destruct G as [G|(k & G)]; [apply get_digits in G; [cbn in G; lia|exact D]|]. do 5 (destruct k as [|k]; [discriminate|]). discriminate. }
  rewrite A. rewrite before_digits by (try exact D; cbn; lia). rewrite int_value. apply pad_value.
Qed.
Lemma batches_concat {A} size : 0 < size -> forall fuel (l : list A), List.length l <= fuel -> concat (batches fuel size l) = l.
Proof.
  intros S0. induction fuel as [|f IH]; intros l L; [destruct l; [reflexivity|cbn in L; lia]|]. destruct l as [|x l]; [reflexivity|]. cbn [batches concat]. rewrite IH; [apply firstn_skipn|].
  rewrite skipn_length. cbn [List.length] in *. lia.
Qed.
Lemma sort_sorted key l : StronglySorted (fun a b => key a <= key b) l -> sort_by key l = l.
Proof.
  induction 1 as [|x l S IH F]; [reflexivity|]. cbn [sort_by fold_right]. fold (sort_by key l). rewrite IH. destruct l as [|y r]; [reflexivity|]. cbn [insert_by]. inversion F as [|? ? Y _]. subst. apply Nat.leb_le in Y. rewrite Y. reflexivity.
Qed.
(** The n frames are made once each, listed in time order, under distinct names that
    are the ones the ffmpeg pattern time_%04d.jpg reads. *)
Theorem C101_frames : forall n, frames n = map (fun i => "time_" ++ pad_number 4 i ++ ".jpg")%string (seq 0 n) /\ NoDup (frames n) /\ forall i, frame_key (frame_name i) = i.
Proof.
  intro n. assert (E : frames n = map frame_name (seq 0 n)).
  { unfold frames. rewrite <- concat_map. rewrite batches_concat by (rewrite ?seq_length; lia). apply sort_sorted. generalize 0. induction n as [|n IH]; intro s; cbn [seq map]; constructor; [apply IH|].
    apply Forall_forall. intros x I. apply in_map_iff in I. destruct I as (j & <- & J). apply in_seq in J. rewrite !frame_key_name. lia. }
  split; [exact E|]. split; [|exact frame_key_name]. rewrite E. apply FinFun.Injective_map_NoDup; [|apply seq_NoDup]. intros x y H. rewrite <- (frame_key_name x), H. apply frame_key_name.
Qed.
Print Assumptions C101_frames.
Example C101_case : frame_name 12 = "time_0012.jpg" /\ frame_name 123 = "time_0123.jpg" /\ frames 2 = ["time_0000.jpg"; "time_0001.jpg"].
Proof. repeat split; vm_compute; reflexivity. Qed.
(** Frame sizes are even, as the encoder needs, and lose at most one pixel. *)
Theorem C101_even_frames : forall w h, let s := even_size (w, h) in Nat.even (fst s) = true /\ Nat.even (snd s) = true /\ w - 1 <= fst s <= w /\ h - 1 <= snd s <= h.
Proof.
  assert (E : forall w, Nat.even (w - w mod 2) = true /\ w - 1 <= w - w mod 2 <= w).
  { intro w. assert (D := Nat.div_mod w 2 ltac:(lia)). assert (M := Nat.mod_upper_bound w 2 ltac:(lia)). split; [|lia].
    apply Nat.even_spec. exists (w / 2). lia. }
  intros w h. cbn. destruct (E w), (E h). auto.
Qed.
Print Assumptions C101_even_frames.
(** Data on a plain grid whose coordinates are not called lat and lon cannot be
    animated, whatever mapping the plotter was given. *)
Theorem C101_custom_names_refuted : forall a, ~ In "lat" (a_coords a ++ a_dims a) -> frame_axes a false = Err (NoAttribute "lat").
Proof.
  intros a H. unfold frame_axes. destruct (member "lat" (a_coords a ++ a_dims a)) eqn:M; [apply member_iff in M; contradiction|reflexivity].
Qed.
Print Assumptions C101_custom_names_refuted.
Example C101_custom_case : let a := {| a_dims := ["time"; "nav_y"; "nav_x"]; a_coords := ["nav_y"; "nav_x"; "time"] |} in
  exists p, call grid_start a (Some [("time", "time"); ("y", "nav_y"); ("x", "nav_x")]) (Some [("time", "time"); ("y", "nav_y"); ("x", "nav_x")]) = Ok p.
Proof. eexists. reflexivity. Qed.

(** ** C122. The points drawn on a frame. *)
Lemma inject_eq a b : (inject_Z a == inject_Z b)%Q <-> a = b.
Proof. unfold Qeq. cbn. lia. Qed.
Lemma insertQ_In x l : (forall v, In v (insertQ x l) -> v = x \/ In v l) /\ (forall v, In v l -> In v (insertQ x l)) /\ exists v, In v (insertQ x l) /\ (v == x)%Q.
Proof.
  induction l as [|y l (I1 & I2 & I3)]; cbn.
  - split; [intros v [<-|[]]; left; reflexivity|]. split; [intros v []|]. exists x. split; [left; reflexivity|reflexivity].
  - destruct (Qeq_bool x y) eqn:E.
    + apply Qeq_bool_iff in E. split; [auto|]. split; [auto|]. exists y. split; [left; reflexivity|symmetry; exact E].
    + destruct (Qle_bool x y).
      * split; [intros v [<-|H]; [left; reflexivity|right; exact H]|]. split; [intros v H; right; exact H|]. exists x. split; [left; reflexivity|reflexivity].
      * split; [intros v [<-|H]; [right; left; reflexivity|destruct (I1 v H); auto]|]. split; [intros v [<-|H]; [left; reflexivity|right; apply I2; exact H]|].
        destruct I3 as (v & V & W). exists v. split; [right; exact V|exact W].
Qed.
Definition apart (l : list Q) : Prop := ForallOrdPairs (fun a b => ~ (a == b)%Q) l.
Definition increasing (l : list Q) : Prop := StronglySorted (fun a b => (a < b)%Q) l.
Lemma insertQ_increasing x l : increasing l -> increasing (insertQ x l).
Proof.
  induction 1 as [|y l S IH F]; cbn; [constructor; constructor|]. destruct (Qeq_bool x y) eqn:E; [constructor; assumption|].
  destruct (Qle_bool x y) eqn:L.
  - apply Qle_bool_iff in L. assert (N : ~ (x == y)%Q) by (intro H; apply Qeq_bool_iff in H; congruence).
    assert (L' : (x < y)%Q) by lra. constructor; [constructor; assumption|]. constructor; [exact L'|]. eapply Forall_impl; [|exact F]. cbn. intros a A. lra.
  - assert (G : (y < x)%Q) by (apply Qnot_le_lt; intro H; apply Qle_bool_iff in H; congruence).
    constructor; [exact IH|]. apply Forall_forall. intros v V. destruct (proj1 (insertQ_In x l) v V) as [->|I]; [exact G|]. rewrite Forall_forall in F. apply F. exact I.
Qed.
Lemma unique_values_increasing l : increasing (unique_values l).
Proof. unfold unique_values. induction (flat_map _ l) as [|x r IH]; cbn; [constructor|apply insertQ_increasing; exact IH]. Qed.
Lemma unique_values_In l : (forall v, In v (unique_values l) -> In (Some v) l) /\ (forall v, In (Some v) l -> exists u, In u (unique_values l) /\ (u == v)%Q).
Proof.
  assert (K : forall v, In (Some v) l <-> In v (flat_map (fun v => match v with Some q => [q] | None => [] end) l)).
  { intro v. rewrite in_flat_map. split; [intro H; exists (Some v); split; [exact H|left; reflexivity]|]. intros ([q|] & H & I); [|destruct I]. destruct I as [<-|[]]. exact H. }
  unfold unique_values. assert (G : forall m, (forall v, In v (fold_right insertQ [] m) -> In v m) /\ (forall v, In v m -> exists u, In u (fold_right insertQ [] m) /\ (u == v)%Q)).
  { induction m as [|x m (I1 & I2)]; [split; [intros v []|intros v []]|]. cbn [fold_right]. destruct (insertQ_In x (fold_right insertQ [] m)) as (J1 & J2 & J3). split.
    - intros v V. destruct (J1 v V) as [->|I]; [left; reflexivity|right; apply I1; exact I].
    - intros v [<-|V]; [exact J3|]. destruct (I2 v V) as (u & U & E). exists u. split; [apply J2; exact U|exact E]. }
  split; [intros v V; apply K, (proj1 (G _)); exact V|]. intros v V. apply K in V. apply (proj2 (G _)). exact V.
Qed.
(** One point for every ID that occurs as a value of the plotted data and has a
    centroid, at its longitude and latitude.  Missing for the full claim: the
    objects of object_ids. *)
Theorem C122_centroids_of_plotted_ids_partial : forall data object_ids table, NoDup (map fst table) ->
  let marked id := exists v lat lon, In (Some v) data /\ (v == inject_Z id)%Q /\ (0 < id)%Z /\ In (id, (Some lat, Some lon)) table in
  (forall x y, In (x, y) (frame_centroids data object_ids table) <->
     exists id v, In (Some v) data /\ (v == inject_Z id)%Q /\ (0 < id)%Z /\ In (id, (Some y, Some x)) table) /\
  (forall ids, (forall id, In id ids <-> marked id) -> NoDup ids -> length (frame_centroids data object_ids table) = length ids).
Proof.
  intros data object_ids table Nt marked.
  assert (F : forall id v lat lon, (v == inject_Z id)%Q -> find (fun e => Qeq_bool (inject_Z (fst e)) v) table = Some (id, (Some lat, Some lon)) <-> In (id, (Some lat, Some lon)) table).
  { intros id v lat lon E. clear marked. induction table as [|(a, w) t IH]; cbn; [split; [discriminate|intros []]|]. inversion Nt as [|? ? Na Nd]; subst. specialize (IH Nd).
    destruct (Qeq_bool (inject_Z a) v) eqn:B.
    - apply Qeq_bool_iff in B. assert (Ea : a = id) by (apply inject_eq; rewrite B; exact E). subst a.
      split; [intro H; injection H as ->; left; reflexivity|]. intros [H|H]; [injection H as ->; reflexivity|]. exfalso. apply Na. apply (in_map fst) in H. exact H.
    - rewrite IH. split; [right; assumption|]. intros [H|H]; [injection H as -> ->|exact H]. exfalso. assert (T : Qeq_bool (inject_Z id) v = true) by (apply Qeq_bool_iff; symmetry; exact E). congruence. }
  assert (G : forall v e, find (fun e => Qeq_bool (inject_Z (fst e)) v) table = Some e -> (v == inject_Z (fst e))%Q) by (intros v e H; apply find_some in H; symmetry; apply Qeq_bool_iff; apply H).
  set (here := fun v => match find (fun e => Qeq_bool (inject_Z (fst e)) v) table with Some (_, (Some lat, Some lon)) => [(lon, lat)] | _ => [] end).
  assert (K : forall v x y, In (x, y) (here v) <-> exists id, (v == inject_Z id)%Q /\ In (id, (Some y, Some x)) table).
  { intros v x y. split.
    - unfold here. destruct (find _ table) as [(a, (la, lo))|] eqn:E; [|intros []]. assert (Ga := G _ _ E). cbn in Ga.
      destruct la as [la|], lo as [lo|]; cbn; intro H; try contradiction. destruct H as [H|[]]. injection H as -> ->. exists a. split; [exact Ga|]. apply (F a v y x Ga). exact E.
    - intros (id & E & I). apply (F id v y x E) in I. unfold here. rewrite I. left. reflexivity. }
  assert (P : forall v, negb (Qle_bool v 0) = true <-> (0 < v)%Q).
  { intro v. destruct (Qle_bool v 0) eqn:L; cbn; [apply Qle_bool_iff in L; split; [discriminate|lra]|]. split; [intros _|reflexivity]. apply Qnot_le_lt. intro H. apply Qle_bool_iff in H. congruence. }
  assert (Pz : forall v id, (v == inject_Z id)%Q -> ((0 < v)%Q <-> (0 < id)%Z)) by (intros v id E; rewrite E; change 0%Q with (inject_Z 0); rewrite <- Zlt_Qlt; reflexivity).
  destruct (unique_values_In data) as [U1 U2]. split.
  - intros x y. unfold frame_centroids. fold here. rewrite in_flat_map. split.
    + intros (v & I & H). apply filter_In in I. destruct I as [I Q0]. apply P in Q0. apply K in H. destruct H as (id & E & H). exists id, v. split; [apply U1; exact I|]. split; [exact E|]. split; [apply (Pz v id E); exact Q0|exact H].
    + intros (id & v & I & E & Q0 & H). destruct (U2 v I) as (u & U & Eu). assert (E' : (u == inject_Z id)%Q) by (rewrite Eu; exact E). exists u. split.
      * apply filter_In. split; [exact U|]. apply P. apply (Pz u id E'). exact Q0.
      * apply K. exists id. split; assumption.
  - intros ids H N. unfold frame_centroids. fold here.
    set (f := fun v => negb (Qle_bool v 0) && match find (fun e => Qeq_bool (inject_Z (fst e)) v) table with Some (_, (Some _, Some _)) => true | _ => false end).
    assert (L : length (flat_map here (filter (fun v => negb (Qle_bool v 0)) (unique_values data))) = length (filter f (unique_values data))).
    { generalize (unique_values data). intro l. induction l as [|a l IH]; [reflexivity|]. cbn [filter]. unfold f at 1. destruct (negb (Qle_bool a 0)); cbn [andb]; [|exact IH]. cbn [flat_map]. rewrite app_length, IH.
      unfold here at 1. destruct (find _ table) as [(b, ([la|], [lo|]))|]; reflexivity. }
    rewrite L. clear L.
    assert (Fv : forall v, f v = true -> exists id, (v == inject_Z id)%Q /\ (0 < id)%Z /\ exists lat lon, In (id, (Some lat, Some lon)) table).
    { intros v V. unfold f in V. apply andb_prop in V. destruct V as [V1 V2]. apply P in V1. destruct (find _ table) as [(a, ([la|], [lo|]))|] eqn:E; try discriminate.
      assert (Ga := G _ _ E). cbn in Ga. exists a. split; [exact Ga|]. split; [apply (Pz v a Ga); exact V1|]. exists la, lo. apply (F a v la lo Ga). exact E. }
    set (num := fun v => Qfloor v).
    assert (Nf : forall id v, (v == inject_Z id)%Q -> num v = id) by (intros id v E; unfold num; rewrite E; apply Qfloor_Z).
    rewrite <- (map_length num (filter f (unique_values data))).
    assert (Nm : NoDup (map num (filter f (unique_values data)))).
    { assert (S0 := unique_values_increasing data). clear U1 U2. induction S0 as [|v l S0 IH Fl]; [constructor|]. cbn [filter]. destruct (f v) eqn:V; [|exact IH]. cbn [map]. constructor; [|exact IH].
      intro I. apply in_map_iff in I. destruct I as (u & Eu & Iu). apply filter_In in Iu. destruct Iu as [Iu Fu]. destruct (Fv v V) as (a & Ea & _). destruct (Fv u Fu) as (b & Eb & _).
      rewrite (Nf a v Ea), (Nf b u Eb) in Eu. subst b. rewrite Forall_forall in Fl. specialize (Fl u Iu). rewrite Ea, Eb in Fl. lra. }
    apply Nat.le_antisymm; apply NoDup_incl_length; try assumption.
    + intros id I. apply in_map_iff in I. destruct I as (v & Ev & Iv). apply filter_In in Iv. destruct Iv as [Iv V]. destruct (Fv v V) as (a & Ea & Pa & la & lo & T). rewrite (Nf a v Ea) in Ev. subst a.
      apply H. exists v, la, lo. split; [apply U1; exact Iv|]. auto.
    + intros id I. apply H in I. destruct I as (v & la & lo & I & E & P0 & T). destruct (U2 v I) as (u & U & Eu). assert (E' : (u == inject_Z id)%Q) by (rewrite Eu; exact E).
      apply in_map_iff. exists u. split; [apply Nf; exact E'|]. apply filter_In. split; [exact U|]. unfold f. rewrite (proj2 (P u) (proj2 (Pz u id E') P0)). cbn [andb]. apply (F id u la lo E') in T. rewrite T. reflexivity.
Qed.
Print Assumptions C122_centroids_of_plotted_ids_partial.
Example C122_case : frame_centroids (map Some [0; 3; 7; 3; 9] ++ [None])%Q None
    [(3%Z, (Some 10, Some 200)); (5%Z, (Some 1, Some 2)); (7%Z, (None, Some 4)); (9%Z, (Some (-20), Some 30))]%Q = [(200, 10); (30, -20)]%Q.
Proof. reflexivity. Qed.
(** When another field is plotted, with the objects given as object_ids, their
    centroids are not drawn, and a value that happens to be an ID is marked. *)
Theorem C122_object_ids_ignored_refuted : exists data ids table,
  NoDup (map fst table) /\ length data = length ids /\
  (exists id lat lon, In id ids /\ (0 < id)%Z /\ In (id, (Some lat, Some lon)) table /\ ~ In (lon, lat) (frame_centroids data (Some ids) table)) /\
  (exists id lat lon, ~ In id ids /\ In (id, (Some lat, Some lon)) table /\ In (lon, lat) (frame_centroids data (Some ids) table)).
Proof.
  exists [Some 5; Some (1 # 2)]%Q, [3; 0]%Z, [(3%Z, (Some 10, Some 200)); (5%Z, (Some 1, Some 2))]%Q.
  split; [constructor; [intros [H|[]]; discriminate|constructor; [intros []|constructor]]|]. split; [reflexivity|]. split.
  - exists 3%Z, 10%Q, 200%Q. split; [left; reflexivity|]. split; [reflexivity|]. split; [left; reflexivity|]. vm_compute. intros [H|[]]. discriminate.
  - exists 5%Z, 1%Q, 2%Q. split; [intros [H|[H|[]]]; discriminate|]. split; [right; left; reflexivity|]. vm_compute. left. reflexivity.
Qed.
Print Assumptions C122_object_ids_ignored_refuted.

(** ** C102. The animation is written where the caller expects it. *)
Theorem C102_default_name_refuted : forall dir name, animation_file dir None name = (dir ++ "/movie_" ++ name ++ ".mp4" ++ ".mp4")%string /\
  animation_file dir None name <> (dir ++ "/movie_" ++ name ++ ".mp4")%string.
Proof.
  intros dir name. assert (E : animation_file dir None name = (dir ++ "/movie_" ++ name ++ ".mp4" ++ ".mp4")%string).
  { unfold animation_file. cbn [truthy]. rewrite !ErrorsProps.app_assoc_s. reflexivity. }
  split; [exact E|]. rewrite E. intro H. apply (f_equal String.length) in H. rewrite !length_app in H. cbn [String.length] in H. lia.
Qed.
Print Assumptions C102_default_name_refuted.
Theorem C102_given_name_partial : forall dir f name, f <> "" -> animation_file dir (Some f) name = (dir ++ "/" ++ f ++ ".mp4")%string.
Proof. intros dir f name H. unfold animation_file. rewrite truthy_given. destruct f; [congruence|reflexivity]. Qed.
Print Assumptions C102_given_name_partial.
Example C102_case : animation_file "plots" None "extremes" = "plots/movie_extremes.mp4.mp4" /\ animation_file "plots" (Some "mhw") "x" = "plots/mhw.mp4".
Proof. split; reflexivity. Qed.
