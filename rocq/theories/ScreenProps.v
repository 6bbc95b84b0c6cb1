(** Property theorems C191-C193 (what plots do to the process they run in). *)
From Coq Require Import String Qround Lqa.
From Verif Require Import Base Partition Plot Draw Screen PlotProps.
Open Scope nat_scope.

(** ** C191 *)

Definition is_plot (o : op) : bool := match o with IdPlot _ _ | OtherPlot => true | _ => false end.
(** The same program without its plots. *)
Definition without_plots (l : list op) : list op := filter (fun o => negb (is_plot o)) l.
(** Plots of IDs in the default colours. *)
Definition default_ids (o : op) : Prop := exists values, o = IdPlot values None.

Lemma rows_spec draws n : forall p, fst (random_rows draws n p) = map (fun k => (draws (seed p) (taken p + 3 * k), draws (seed p) (taken p + 3 * k + 1), draws (seed p) (taken p + 3 * k + 2))) (seq 0 n) /\
  snd (random_rows draws n p) = mkProcess (seed p) (taken p + 3 * n) (rc p).
Proof.
  induction n as [|n IH]; intro p; cbn [random_rows].
  - split; [reflexivity|]. destruct p as [s t r]. cbn [seed taken rc snd]. f_equal. lia.
  - destruct (IH (mkProcess (seed p) (taken p + 3) (rc p))) as [A B]. cbn [seed taken rc] in A, B. destruct (random_rows draws n _) as [rows p']. cbn [fst snd] in *.
    subst rows p'. split; [|f_equal; lia]. cbn [seq map]. rewrite <- seq_shift, map_map. f_equal.
    + replace (taken p + 3 * 0) with (taken p) by lia. reflexivity.
    + apply map_ext. intro k. replace (taken p + 3 * S k) with (taken p + 3 + 3 * k) by lia. reflexivity.
Qed.

(** As claimed, the numbers a program draws do not depend on its plots.  False: after a plot
    of IDs in the default colours the next number is one of the stream of seed 42, whatever the
    program had seeded. *)
Theorem C191_random_numbers_refuted (draws : Z -> nat -> Q) (p : process) (values : list value) (m : nat) :
  max_id values = Some m ->
  fst (perform_all draws p [IdPlot values None; Random]) = [draws 42%Z (3 * m)] /\
  fst (perform_all draws p (without_plots [IdPlot values None; Random])) = [draws (seed p) (taken p)] /\
  exists draws' : Z -> nat -> Q, fst (perform_all draws' (mkProcess 1 0 (rc p)) [IdPlot values None; Random]) <>
                                 fst (perform_all draws' (mkProcess 1 0 (rc p)) (without_plots [IdPlot values None; Random])).
Proof.
  intro M. assert (E : forall d q, fst (perform_all d q [IdPlot values None; Random]) = [d 42%Z (3 * m)]).
  { intros d q. cbn [perform_all perform]. unfold id_colours. rewrite M. destruct (rows_spec d m (mkProcess 42 0 (rc (set_fonts q)))) as [_ B].
    destruct (random_rows d m _) as [rows p']. cbn [snd] in B |- *. subst p'. reflexivity. }
  split; [apply E|]. split; [reflexivity|]. exists (fun s _ => if Z.eqb s 42 then 1 else 0)%Q. rewrite E. cbn. discriminate.
Qed.
Print Assumptions C191_random_numbers_refuted.

(** Other plots, and plots of IDs in given colours, change none.  Missing from the full
    claim: plots of IDs in the default colours. *)
Theorem C191_random_numbers_partial (draws : Z -> nat -> Q) (p : process) (l : list op) : (forall o, In o l -> ~ default_ids o) ->
  fst (perform_all draws p l) = fst (perform_all draws p (without_plots l)) /\
  seed (snd (perform_all draws p l)) = seed (snd (perform_all draws p (without_plots l))) /\
  taken (snd (perform_all draws p l)) = taken (snd (perform_all draws p (without_plots l))).
Proof.
  intro N. assert (G : forall q q', seed q = seed q' -> taken q = taken q' ->
    fst (perform_all draws q l) = fst (perform_all draws q' (without_plots l)) /\
    seed (snd (perform_all draws q l)) = seed (snd (perform_all draws q' (without_plots l))) /\
    taken (snd (perform_all draws q l)) = taken (snd (perform_all draws q' (without_plots l)))); [|apply G; reflexivity].
  induction l as [|o l IH]; intros q q' S T; [cbn; auto|]. specialize (IH (fun x I => N x (or_intror I))).
  assert (K : forall a q1 q1', seed q1 = seed q1' -> taken q1 = taken q1' -> perform draws q o = (a, q1) -> perform draws q' o = (a, q1') -> is_plot o = false ->
    fst (perform_all draws q (o :: l)) = fst (perform_all draws q' (without_plots (o :: l))) /\
    seed (snd (perform_all draws q (o :: l))) = seed (snd (perform_all draws q' (without_plots (o :: l)))) /\
    taken (snd (perform_all draws q (o :: l))) = taken (snd (perform_all draws q' (without_plots (o :: l))))).
  { intros a q1 q1' S1 T1 E E' Pl. unfold without_plots. cbn [filter]. rewrite Pl. cbn [negb]. fold (without_plots l). cbn [perform_all]. rewrite E, E'. destruct (IH q1 q1' S1 T1) as (A & B & C).
    destruct (perform_all draws q1 l) as [b r]. destruct (perform_all draws q1' (without_plots l)) as [b' r']. cbn [fst snd] in *. split; [congruence|]. split; assumption. }
  assert (Q0 : forall q1, seed q1 = seed q' -> taken q1 = taken q' -> perform draws q o = ([], q1) -> is_plot o = true ->
    fst (perform_all draws q (o :: l)) = fst (perform_all draws q' (without_plots (o :: l))) /\
    seed (snd (perform_all draws q (o :: l))) = seed (snd (perform_all draws q' (without_plots (o :: l)))) /\
    taken (snd (perform_all draws q (o :: l))) = taken (snd (perform_all draws q' (without_plots (o :: l))))).
  { intros q1 S1 T1 E Pl. unfold without_plots. cbn [filter]. rewrite Pl. cbn [negb]. fold (without_plots l). cbn [perform_all]. rewrite E. destruct (IH q1 q' S1 T1) as (A & B & C).
    destruct (perform_all draws q1 l) as [b r]. cbn [fst snd app] in *. auto. }
  destruct o as [s| |s|values cmap|].
  - eapply K; [| |reflexivity|reflexivity|reflexivity]; reflexivity.
  - eapply K; [| |reflexivity|cbn [perform]; rewrite <- S, <- T; reflexivity|reflexivity]; reflexivity.
  - eapply K; [| |reflexivity|reflexivity|reflexivity]; cbn; assumption.
  - destruct cmap as [c|]; [|destruct (N (IdPlot values None) (or_introl eq_refl)); eexists; reflexivity].
    eapply Q0; [| |reflexivity|reflexivity]; unfold id_colours; destruct (max_id values); assumption.
  - eapply Q0; [| |reflexivity|reflexivity]; assumption.
Qed.
Print Assumptions C191_random_numbers_partial.

(** Every plot, of whatever kind, leaves the program's text settings at text.usetex false and
    the serif font, whatever they were. *)
Theorem C191_fonts_refuted (draws : Z -> nat -> Q) (p : process) (before : list op) (o : op) : is_plot o = true ->
  rc (snd (perform_all draws p (before ++ [o]))) = mkSettings false "serif".
Proof.
  intro Pl. revert p. induction before as [|b l IH]; intro p.
  - cbn [app perform_all]. destruct o as [s| |s|values cmap|]; try discriminate; [|reflexivity]. cbn [perform]. unfold id_colours. destruct (max_id values) as [m|]; [|reflexivity].
    destruct cmap as [c|]; [reflexivity|]. destruct (rows_spec draws m (mkProcess 42 0 (rc (set_fonts p)))) as [_ B]. destruct (random_rows draws m _) as [rows p']. cbn [snd] in *. subst p'. reflexivity.
  - cbn [app perform_all]. destruct (perform draws p b) as [a p1]. specialize (IH p1). destruct (perform_all draws p1 (l ++ [o])). exact IH.
Qed.
Print Assumptions C191_fonts_refuted.
Example C191_case : max_id [Some 2; None; Some 1; Some 0]%Q = Some 2 /\
  (forall o, In o [Seed 7; Random; OtherPlot; IdPlot [Some 1]%Q (Some [(0, 0, 0)%Q]); Random] -> ~ default_ids o) /\
  fst (perform_all (fun s k => inject_Z s + inject_Z (Z.of_nat k))%Q (mkProcess 0 0 (mkSettings true "sans")) [Seed 7; Random; OtherPlot; IdPlot [Some 1]%Q (Some [(0, 0, 0)%Q]); Random]) = [7 + 0; 7 + 1]%Q.
Proof.
  split; [reflexivity|]. split; [|reflexivity]. intros o I (v & ->). cbn in I. destruct I as [I|[I|[I|[I|[I|[]]]]]]; discriminate.
Qed.

(** ** C192 *)

Lemma in_max_id values id : In (Some (natQ id)) values -> exists m, max_id values = Some m /\ id <= m.
Proof.
  intro I. assert (V : forall l, In (Some (natQ id)) l -> In (natQ id) (valid l)).
  { induction l as [|v l IH]; [intros []|]. destruct v as [q|]; intros [E|J]; cbn [valid].
    - injection E as ->. left. reflexivity.
    - right. exact (IH J).
    - discriminate.
    - exact (IH J). }
  apply V in I. unfold max_id. destruct (valid values) as [|x r]; [destruct I|]. eexists. split; [reflexivity|].
  destruct (maxQ_spec r x) as [_ M]. specialize (M _ I). assert (L : (Z.of_nat id <= Qfloor (maxQ_of x r))%Z).
  { rewrite <- (Qfloor_Z (Z.of_nat id)). apply Qfloor_resp_le. exact M. }
  lia.
Qed.
(** In the default colours an event has one colour, given by its ID alone: the same in every
    record that contains it, whatever other events there are and whatever random numbers were
    drawn before. *)
Theorem C192_one_colour (draws : Z -> nat -> Q) (values : list value) (p : process) (id : nat) : 1 <= id -> In (Some (natQ id)) values ->
  exists c, fst (id_colours draws values None p) = Ok c /\
    shade_of c id = Some (draws 42%Z (3 * (id - 1)), draws 42%Z (3 * (id - 1) + 1), draws 42%Z (3 * (id - 1) + 2)).
Proof.
  intros L I. destruct (in_max_id values id I) as (m & M & Le). unfold id_colours. rewrite M.
  destruct (rows_spec draws m (mkProcess 42 0 (rc (set_fonts p)))) as [A _]. destruct (random_rows draws m _) as [rows p']. cbn [fst seed taken] in *. exists (m, rows). split; [reflexivity|].
  assert (Ln : length rows = m) by (rewrite A, map_length, seq_length; reflexivity).
  unfold shade_of. cbn [fst snd]. rewrite Ln. unfold colour. rewrite region_id by lia. replace (length (id_bounds m) - 1) with m by (unfold id_bounds; rewrite map_length, seq_length; lia).
  cbv zeta. rewrite Nat.ltb_irrefl. rewrite A. rewrite nth_error_map. rewrite (nth_error_nth' _ 0) by (rewrite seq_length; lia). rewrite seq_nth by lia. reflexivity.
Qed.
Print Assumptions C192_one_colour.
Example C192_case : In (Some (natQ 2)) [Some (natQ 1); Some (natQ 2)] /\
  fst (id_colours (fun s k => inject_Z (Z.of_nat k)) [Some 1; Some 2]%Q None (mkProcess 5 3 (mkSettings true "sans"))) = Ok (2, [(0, 1, 2); (3, 4, 5)]%Q).
Proof. split; [right; left; reflexivity|vm_compute; reflexivity]. Qed.

(** ** C193 *)

(** The axes plt.gca() gives without making any: those of the last figure. *)
Definition current_axes (s : screen) (a : nat) : Prop := exists front f, managed s = front ++ [f] /\ g_current f = Some a.

Lemma last_snoc (l : list fig) f d : last (l ++ [f]) d = f.
Proof. apply last_last. Qed.
Lemma add_to_last_snoc a l f : add_to_last a (l ++ [f]) = l ++ [mkFig (g_axes f ++ [a]) (Some a)].
Proof. induction l as [|g l IH]; [reflexivity|]. cbn [app]. rewrite <- IH. destruct (l ++ [f]) eqn:E; [destruct l; discriminate|reflexivity]. Qed.
Lemma current_last s a : current_axes s a <-> g_current (last (managed s) (mkFig [] None)) = Some a.
Proof.
  split.
  - intros (front & f & E & C). rewrite E, last_snoc. exact C.
  - intro C. destruct (managed s) as [|g r] eqn:M; [discriminate|]. assert (N : g :: r <> []) by discriminate. destruct (exists_last N) as (l & f & E).
    exists l, f. split; [rewrite M; exact E|]. rewrite E, last_snoc in C. exact C.
Qed.
(** A plot with a colour bar puts one bar on the screen; it stands beside the plot exactly when
    the axes are new or are the current ones. *)
Theorem C193_bar_beside_plot_partial (s : screen) (ax : option nat) : (forall a, ax = Some a -> a < next_axes s) ->
  let '(own, s') := single_plot_on ax true s in
  exists beside, bars s' = bars s ++ [(beside, own)] /\
    (beside = own <-> ax = None \/ current_axes s own).
Proof.
  intro A. unfold single_plot_on. destruct ax as [a|]; cbn [setup_axes].
  - unfold setup_colorbar, plt_gca. destruct (g_current (last (managed s) (mkFig [] None))) as [c|] eqn:C; cbn [plt_axes bars].
    + exists c. split; [reflexivity|]. rewrite current_last, C. split; [intros ->; right; reflexivity|intros [X|X]; [discriminate|injection X as X; exact X]].
    + exists (next_axes s). split; [reflexivity|]. specialize (A a eq_refl). rewrite current_last, C. split; [intro X; lia|intros [X|X]; discriminate].
  - unfold plt_axes, plt_figure. cbn [managed next_axes bars]. rewrite add_to_last_snoc. unfold setup_colorbar, plt_gca. cbn [managed]. rewrite last_snoc. cbn [g_current g_axes bars].
    exists (next_axes s). split; [reflexivity|]. split; auto.
Qed.
Print Assumptions C193_bar_beside_plot_partial.

(** As claimed, a colour bar stands beside its plot.  False: after plt.subplots(1, 2) the bar of a plot in
    the left axes stands beside the right ones ... *)
Theorem C193_bar_beside_plot_refuted :
  let s0 := plt_figure (mkScreen [] 0 []) in let (left_, s1) := plt_axes s0 in let (right_, s2) := plt_axes s1 in
  left_ <> right_ /\ fst (single_plot_on (Some left_) true s2) = left_ /\ bars (snd (single_plot_on (Some left_) true s2)) = [(right_, left_)].
Proof. cbn. split; [discriminate|]. split; reflexivity. Qed.
Print Assumptions C193_bar_beside_plot_refuted.
(** ... and for axes of a figure pyplot does not know, a new figure is opened for it. *)
Theorem C193_no_new_figure_refuted (a n : nat) (b : list (nat * nat)) : a < n ->
  let s' := snd (single_plot_on (Some a) true (mkScreen [] n b)) in
  managed s' = [mkFig [n] (Some n)] /\ bars s' = b ++ [(n, a)] /\ n <> a.
Proof. intro L. cbn. split; [reflexivity|]. split; [reflexivity|lia]. Qed.
Print Assumptions C193_no_new_figure_refuted.
(** With some figure open in pyplot, a plot on given axes opens none, with or without a bar: all
    figures but the active one are as before, and that one keeps its axes and has at most one more. *)
Theorem C193_no_new_figure_partial (s : screen) (front : list fig) (f : fig) (a : nat) (show : bool) : managed s = front ++ [f] ->
  let '(own, s') := single_plot_on (Some a) show s in
  own = a /\ exists f' more, managed s' = front ++ [f'] /\ g_axes f' = g_axes f ++ more /\ length more <= 1 /\
  (show = false \/ g_current f <> None -> f' = f).
Proof.
  intro M. unfold single_plot_on. cbn [setup_axes]. split; [reflexivity|]. unfold setup_colorbar. destruct show.
  - unfold plt_gca. rewrite M, last_snoc. destruct (g_current f) as [c|] eqn:C; cbn [plt_axes managed].
    + exists f, []. rewrite app_nil_r. split; [exact M|]. split; [reflexivity|]. split; [cbn; lia|]. intros _. reflexivity.
    + exists (mkFig (g_axes f ++ [next_axes s]) (Some (next_axes s))), [next_axes s]. split; [rewrite M; apply add_to_last_snoc|]. split; [reflexivity|]. split; [cbn; lia|].
      intros [X|X]; [discriminate|]. destruct X. reflexivity.
  - exists f, []. rewrite app_nil_r. split; [exact M|]. split; [reflexivity|]. split; [cbn; lia|]. intros _. reflexivity.
Qed.
Print Assumptions C193_no_new_figure_partial.
Example C193_case : let s := mkScreen [mkFig [0; 1] (Some 1)] 2 [] in
  current_axes s 1 /\ single_plot_on (Some 1) true s = (1, mkScreen [mkFig [0; 1] (Some 1)] 2 [(1, 1)]) /\
  single_plot_on None true s = (2, mkScreen [mkFig [0; 1] (Some 1); mkFig [2] (Some 2)] 3 [(2, 2)]).
Proof. split; [exists [], (mkFig [0; 1] (Some 1)); split; reflexivity|]. split; reflexivity. Qed.
