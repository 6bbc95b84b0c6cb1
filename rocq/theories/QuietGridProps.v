(** Theorems C133 with merging: quiet steps around a record with merges and splits; and C133 refuted. *)
From Verif Require Import Base Morph Graph Label LabelSpec LabelProofs LabelProps Filter FilterSpec FilterProofs FilterGridProofs FilterWitness
  Overlap OverlapSpec Merge MergeSpec MergeProofs MergeChunks MergeWitness Partition Cluster ClusterSpec ClusterProofs ClusterFinal ClusterPipe ClusterProps
  Run RunSpec RunProofs RunProps GridRunProps RelateSpec RelateProofs RelateProps RefineProps UnmergedProofs SteadyProofs SteadyProps MoveGridProofs MoveGridProps MeshRunLimits QuietGridProofs.
Open Scope nat_scope.

(** Chunks of at least two steps; the first may have one. *)
Definition long_chunks (sizes : list nat) : Prop :=
  match sizes with [] => False | c :: r => 1 <= c /\ Forall (fun n => 2 <= n) r end.

Lemma track_one_chunk cent thr part w ca sizes lab : long_chunks sizes -> fold_right Nat.add 0 sizes = length lab ->
  track_objects cent thr part w ca sizes lab = track_objects cent thr part w ca [length lab] lab.
Proof.
  intros Lc Hs. unfold track_objects. destruct sizes as [|c r]; [destruct Lc|]. destruct Lc as [C1 C2].
  assert (E : split_and_merge w cent thr part (split_by (c :: r) lab) = split_and_merge w cent thr part (split_by [length lab] lab)).
  { cbn [split_by]. rewrite firstn_all. cbn [fold_right] in Hs. apply chunking_irrelevant.
    - cbn [concat]. rewrite app_nil_r. assert (X := split_by_concat (c :: r) lab Hs). cbn [split_by concat] in X. exact X.
    - rewrite firstn_length. lia.
    - lia.
    - intros x X. destruct (In_nth _ _ [] X) as (i & I & <-). rewrite split_by_length in I.
      rewrite (split_by_piece r (skipn c lab)) by (try exact I; rewrite skipn_length; lia).
      rewrite Forall_forall in C2. apply C2. apply nth_In. exact I.
    - intros x []. }
  rewrite E. reflexivity.
Qed.

Lemma concat_repeat {A} (x : A) p n : concat (repeat (repeat x p) n) = repeat x (n * p).
Proof. induction n as [|n IH]; [reflexivity|]. cbn [repeat concat]. rewrite IH, <- repeat_app. reflexivity. Qed.

Lemma sub_front n m : n + m - n = m.
Proof. lia. Qed.
Lemma front_ge n m : n <= n + m.
Proof. lia. Qed.
Lemma place_lt ny nx n t y x : t < n -> y < ny -> x < nx -> (t * ny + y) * nx + x < n * (ny * nx).
Proof. intros T Y X. assert (H := flat_lt n ny nx (t, y, x) (conj T (conj Y X))). cbn [flat] in H. lia. Qed.
Lemma place_shift ny nx a t y x : a <= t -> (t * ny + y) * nx + x = a * (ny * nx) + (((t - a) * ny + y) * nx + x).
Proof. intro A. replace t with (a + (t - a)) at 1 by lia. set (u := t - a). rewrite !Nat.mul_add_distr_r. lia. Qed.

(** Labels of every step of a record with quiet steps around it. *)
Lemma labels_around regional nt ny nx a b data : length data = nt * ny * nx ->
  fst (identify_grid regional false (a + nt + b) ny nx (repeat false (a * (ny * nx)) ++ data ++ repeat false (b * (ny * nx)))) =
  repeat 0%Z (a * (ny * nx)) ++ fst (identify_grid regional false nt ny nx data) ++ repeat 0%Z (b * (ny * nx)).
Proof.
  intro L. set (D := a * (ny * nx)). set (E := b * (ny * nx)). set (data' := repeat false D ++ data ++ repeat false E).
  assert (L' : length data' = (a + nt + b) * ny * nx) by (unfold data'; rewrite !app_length, !repeat_length, L; unfold D, E; lia).
  destruct (identify_grid regional false nt ny nx data) as [lab n] eqn:I. destruct (identify_grid regional false (a + nt + b) ny nx data') as [lab' n'] eqn:I'.
  destruct (C13_labels_are_connected_components _ _ _ _ _ _ _ _ L I) as (_ & _ & Sc & _).
  destruct (C13_labels_are_connected_components _ _ _ _ _ _ _ _ L' I') as (_ & _ & Sc' & _).
  cbn [fst]. unfold identify_grid in I, I'. injection I as <- _. injection I' as <- _.
  apply label_around. intros i j Oi Oj. fold data'.
  assert (Bi := onb_lt _ _ Oi). assert (Bj := onb_lt _ _ Oj). rewrite L in Bi, Bj.
  destruct (flat_surj nt ny nx data L i Bi) as (c & Rc & Ec). destruct (flat_surj nt ny nx data L j Bj) as (d & Rd & Ed).
  assert (Fl : forall e, flat ny nx (later a e) = D + flat ny nx e).
  { intros [[t y] x]. cbn [flat later]. rewrite (place_shift ny nx a (t + a) y x) by lia. replace (t + a - a) with t by lia. reflexivity. }
  assert (Ex : forall e, in_range nt ny nx e -> (extreme ny nx data' (later a e) <-> extreme ny nx data e)).
  { intros e Re. unfold extreme, data'. rewrite Fl, app_nth2 by (rewrite repeat_length; lia). rewrite repeat_length. replace (D + flat ny nx e - D) with (flat ny nx e) by lia.
    rewrite app_nth1 by (rewrite L; apply flat_lt; exact Re). reflexivity. }
  assert (Rl : forall e, in_range nt ny nx e -> in_range (a + nt + b) ny nx (later a e)) by (intros [[t y] x]; unfold in_range, later; lia).
  specialize (Sc c d Rc Rd). specialize (Sc' (later a c) (later a d) (Rl c Rc) (Rl d Rd)). unfold label_of in Sc, Sc'. rewrite !Fl, Ec, Ed in Sc'. rewrite Ec, Ed in Sc.
  assert (Xc : extreme ny nx data c) by (unfold extreme; rewrite Ec; exact Oi). assert (Xd : extreme ny nx data d) by (unfold extreme; rewrite Ed; exact Oj).
  rewrite (Sc Xc Xd). rewrite (Sc' (proj2 (Ex c Rc) Xc) (proj2 (Ex d Rd) Xd)).
  apply (chain_embed (negb regional) (negb regional) nt ny nx (a + nt + b) ny nx (later a)).
  - exact Rl.
  - intros [[t y] x] [[t2 y2] x2] _ _. unfold later. intro H. injection H as H1 -> ->. f_equal. f_equal. lia.
  - intros b0 [[t y] x] [[t2 y2] x2] _ _. unfold touching, later, dist1. destruct b0; intuition lia.
  - exact Ex.
  - intros [[t y] x] (T & Y & X) O. unfold extreme, data' in O. cbn [flat] in O.
    assert (A : a <= t).
    { destruct (Nat.le_gt_cases a t) as [A|A]; [exact A|]. rewrite app_nth1 in O by (rewrite repeat_length; apply place_lt; assumption). rewrite nth_repeat in O. discriminate. }
    rewrite (place_shift ny nx a t y x A) in O. fold D in O. rewrite app_nth2 in O by (rewrite repeat_length; apply front_ge). rewrite repeat_length in O.
    rewrite sub_front in O.
    assert (B : t < a + nt).
    { destruct (Nat.lt_ge_cases t (a + nt)) as [B|B]; [exact B|]. rewrite (place_shift ny nx nt (t - a) y x) in O by lia. rewrite app_nth2 in O by (rewrite L, <- Nat.mul_assoc; apply front_ge). rewrite nth_repeat in O. discriminate. }
    exists (t - a, y, x). split; [split; [lia|split; assumption]|]. unfold later. f_equal. f_equal. lia.
  - exact Rc.
  - exact Rd.
Qed.

Lemma fields_around nt ny nx a b lab : length lab = nt * ny * nx ->
  time_fields (a + nt + b) ny nx (repeat 0%Z (a * (ny * nx)) ++ lab ++ repeat 0%Z (b * (ny * nx))) =
  repeat (repeat 0%Z (ny * nx)) a ++ time_fields nt ny nx lab ++ repeat (repeat 0%Z (ny * nx)) b.
Proof.
  intro L. set (lab' := repeat 0%Z (a * (ny * nx)) ++ lab ++ repeat 0%Z (b * (ny * nx))).
  assert (Len : forall u l t, t < u -> length (nth t (time_fields u ny nx l) []) = ny * nx).
  { intros u l t T. unfold time_fields. rewrite (nth_map_gen _ _ _ 0) by (rewrite seq_length; exact T). unfold slice. rewrite map_length. apply slice_cells_length. }
  assert (Lt : forall u l, length (time_fields u ny nx l) = u) by (intros; unfold time_fields; rewrite map_length, seq_length; reflexivity).
  apply (nth_ext _ _ [] []); [rewrite !app_length, !repeat_length, !Lt; lia|]. rewrite Lt. intros t T.
  assert (Zn : forall n u, u < n -> nth u (repeat (repeat 0%Z (ny * nx)) n) [] = repeat 0%Z (ny * nx)).
  { intros n u U. rewrite (nth_indep _ [] (repeat 0%Z (ny * nx))) by (rewrite repeat_length; exact U). apply nth_repeat. }
  assert (At : forall l, length l = ny * nx -> (forall y x, y < ny -> x < nx -> label_of ny nx lab' (t, y, x) = nth (y * nx + x) l 0%Z) -> nth t (time_fields (a + nt + b) ny nx lab') [] = l).
  { intros l Ll H. apply (nth_ext _ _ 0%Z 0%Z); [rewrite (Len _ _ _ T); symmetry; exact Ll|]. rewrite (Len _ _ _ T). intros k K.
    assert (Nx : nx <> 0) by (intros ->; lia). assert (Y : k / nx < ny) by (apply Nat.div_lt_upper_bound; lia). assert (X : k mod nx < nx) by (apply Nat.mod_upper_bound; exact Nx).
    assert (Ek : k = k / nx * nx + k mod nx) by (rewrite (Nat.div_mod k nx Nx) at 1; lia).
    rewrite Ek. rewrite <- (H _ _ Y X). exact (time_fields_cell (a + nt + b) ny nx lab' t _ _ T Y X). }
  destruct (Nat.lt_ge_cases t a) as [A|A].
  - rewrite app_nth1 by (rewrite repeat_length; exact A). rewrite Zn by exact A. apply At; [apply repeat_length|].
    intros y x Y X. rewrite nth_repeat. unfold label_of, lab'. cbn [flat]. rewrite app_nth1 by (rewrite repeat_length; apply place_lt; assumption). apply nth_repeat.
  - rewrite app_nth2 by (rewrite repeat_length; exact A). rewrite repeat_length.
    destruct (Nat.lt_ge_cases (t - a) nt) as [B|B].
    + rewrite app_nth1 by (rewrite Lt; exact B). apply At; [apply Len; exact B|].
      intros y x Y X. assert (C := time_fields_cell nt ny nx lab (t - a) y x B Y X). unfold id_at in C. rewrite C. unfold label_of, lab'. cbn [flat].
      rewrite (place_shift ny nx a t y x A). rewrite app_nth2 by (rewrite repeat_length; apply front_ge). rewrite repeat_length, sub_front.
      assert (Pl := place_lt ny nx nt (t - a) y x B Y X). rewrite app_nth1 by (rewrite L, <- Nat.mul_assoc; exact Pl). reflexivity.
    + rewrite app_nth2 by (rewrite Lt; exact B). rewrite Lt. rewrite Zn by lia. apply At; [apply repeat_length|].
      intros y x Y X. rewrite nth_repeat. unfold label_of, lab'. cbn [flat]. rewrite (place_shift ny nx a t y x A). rewrite app_nth2 by (rewrite repeat_length; apply front_ge). rewrite repeat_length, sub_front.
      rewrite (place_shift ny nx nt (t - a) y x B). rewrite app_nth2 by (rewrite L, <- Nat.mul_assoc; apply front_ge). apply nth_repeat.
Qed.

(** Tracking a cleaned record with quiet steps around it. *)
Lemma merging_around g nn cent thr ca sizes sizes' a b kept F n mg : shaped g kept -> 0 < g_nt g ->
  long_chunks sizes -> long_chunks sizes' -> fold_right Nat.add 0 sizes = g_nt g -> fold_right Nat.add 0 sizes' = a + g_nt g + b ->
  (exists j, nth j (concat kept) false = true) ->
  track_merging g nn cent thr ca sizes kept = Ok (F, n, mg) ->
  track_merging (with_steps g (a + g_nt g + b)) nn cent thr ca sizes' (quiet g a ++ kept ++ quiet g b) =
    Ok (repeat (repeat 0%Z (g_ny g * g_nx g)) a ++ F ++ repeat (repeat 0%Z (g_ny g * g_nx g)) b, n, option_map (later_merges a) mg).
Proof.
  intros Sh Nt Lc Lc' Hs Hs' Ex T. assert (Ok1 := track_merging_ok g nn cent thr ca sizes kept F n mg Sh Hs Ex T).
  unfold track_merging in *. cbn [with_steps g_regional g_nt g_ny g_nx]. set (nt := g_nt g) in *. set (ny := g_ny g) in *. set (nx := g_nx g) in *.
  assert (Lk := shaped_concat g kept Sh). fold nt ny nx in Lk.
  unfold track_grid in *. set (lab := fst (identify_grid (g_regional g) false nt ny nx (concat kept))) in *.
  assert (Ll : length lab = nt * ny * nx) by (unfold lab, identify_grid; cbn [fst]; rewrite label_on_length; exact Lk).
  assert (Lt : forall u l, length (time_fields u ny nx l) = u) by (intros; unfold time_fields; rewrite map_length, seq_length; reflexivity).
  unfold quiet. fold ny nx. rewrite !concat_app, !concat_repeat.
  rewrite (labels_around (g_regional g) nt ny nx a b (concat kept) Lk). fold lab. rewrite fields_around by exact Ll.
  rewrite (track_one_chunk cent thr _ _ ca sizes) in T by (try exact Lc; rewrite Lt; exact Hs).
  rewrite (track_one_chunk cent thr _ _ ca sizes') by (try exact Lc'; rewrite !app_length, !repeat_length, Lt; lia).
  destruct (track_objects cent thr (part_grid nn (g_regional g) ny nx) (repeat 1%Q (ny * nx)) ca [length (time_fields nt ny nx lab)] (time_fields nt ny nx lab)) as [[ev mg0]|e] eqn:To; [|discriminate].
  injection T as <- <- <-.
  assert (Pos : exists x, In x (concat (v_field ev)) /\ (0 < x)%Z).
  { destruct Ex as (j & J). assert (Bj : j < length (concat kept)) by (destruct (Nat.lt_ge_cases j (length (concat kept))) as [B|B]; [exact B|rewrite nth_overflow in J by exact B; discriminate]).
    rewrite Lk in Bj. destruct (flat_surj nt ny nx (concat kept) Lk j Bj) as ([[t y] x] & (Tt & Y & X) & Ej).
    destruct Ok1 as (Lf & Nz & Rg).
    assert (Kc : nth (y * nx + x) (nth t kept []) false = true).
    { assert (Sc := shaped_cell g kept t y x Sh Tt Y X). fold ny nx in Sc. rewrite <- Sc, Ej. exact J. }
    assert (N0 := proj2 (Nz t y x Tt Y X) Kc). fold nx in N0. exists (id_at (v_field ev) t (y * nx + x)).
    assert (In (id_at (v_field ev) t (y * nx + x)) (concat (v_field ev))).
    { unfold id_at in *. apply in_concat. exists (nth t (v_field ev) []). split; [apply nth_In; rewrite Lf; exact Tt|]. apply nth_In.
      destruct (Nat.lt_ge_cases (y * nx + x) (length (nth t (v_field ev) []))) as [B|B]; [exact B|rewrite nth_overflow in N0 by exact B; contradiction]. }
    split; [assumption|]. specialize (Rg (id_at (v_field ev) t (y * nx + x))). destruct Rg as [_ Rg].
    assert (1 <= id_at (v_field ev) t (y * nx + x) <= n_events ev)%Z; [apply Rg|lia]. exists t, y, x. split; [exact Tt|]. split; [exact Y|]. split; [exact X|]. split; [exact N0|reflexivity]. }
  assert (Ne : time_fields nt ny nx lab <> []) by (intro C; apply (f_equal (@length _)) in C; rewrite Lt in C; cbn in C; lia).
  destruct (track_around cent thr _ _ ca (ny * nx) a b (time_fields nt ny nx lab) ev mg0 Ne To Pos) as (ev' & To' & Vf).
  replace (length (repeat (repeat 0%Z (ny * nx)) a ++ time_fields nt ny nx lab ++ repeat (repeat 0%Z (ny * nx)) b)) with (a + length (time_fields nt ny nx lab) + b) by (rewrite !app_length, !repeat_length; lia).
  rewrite To'. rewrite Vf. f_equal. f_equal. f_equal. unfold n_events. rewrite Vf. symmetry. apply max_same; [exact Pos|apply concat_around].
Qed.

(** Two cleaned records with the same cells, moved, are equal up to the quiet steps. *)
Lemma kept_around g a b kept kept' : shaped g kept -> shaped (with_steps g (a + g_nt g + b)) kept' ->
  (forall c, in_range (g_nt g) (g_ny g) (g_nx g) c -> (kept_at (g_nx g) kept' (later a c) <-> kept_at (g_nx g) kept c)) ->
  (forall d, in_range (a + g_nt g + b) (g_ny g) (g_nx g) d -> kept_at (g_nx g) kept' d -> exists c, in_range (g_nt g) (g_ny g) (g_nx g) c /\ later a c = d) ->
  kept' = quiet g a ++ kept ++ quiet g b.
Proof.
  intros [L R] [L' R'] Eq Im. cbn [with_steps g_nt g_ny g_nx] in *. set (nt := g_nt g) in *. set (ny := g_ny g) in *. set (nx := g_nx g) in *.
  unfold quiet. fold ny nx. apply (nth_ext _ _ [] []); [rewrite !app_length, !repeat_length, L, L'; lia|]. rewrite L'. intros t T.
  assert (Lr : length (nth t kept' []) = ny * nx) by (apply R', nth_In; rewrite L'; exact T).
  assert (Fr : forall n u, u < n -> nth u (repeat (repeat false (ny * nx)) n) [] = repeat false (ny * nx)).
  { intros n u U. rewrite (nth_indep _ [] (repeat false (ny * nx))) by (rewrite repeat_length; exact U). apply nth_repeat. }
  assert (At : forall l, length l = ny * nx -> (forall y x, y < ny -> x < nx -> (nth (y * nx + x) (nth t kept' []) false = true <-> nth (y * nx + x) l false = true)) -> nth t kept' [] = l).
  { intros l Ll H. apply (nth_ext _ _ false false); [rewrite Lr; symmetry; exact Ll|]. rewrite Lr. intros k K.
    assert (Nx : nx <> 0) by (intros E; rewrite E in K; lia). assert (Y : k / nx < ny) by (apply Nat.div_lt_upper_bound; lia). assert (X : k mod nx < nx) by (apply Nat.mod_upper_bound; exact Nx).
    assert (Ek : k = k / nx * nx + k mod nx) by (rewrite (Nat.div_mod k nx Nx) at 1; lia).
    specialize (H _ _ Y X). rewrite <- Ek in H. apply Bool.eq_true_iff_eq. exact H. }
  assert (Out : t < a \/ a + nt <= t -> nth t kept' [] = repeat false (ny * nx)).
  { intro O. apply At; [apply repeat_length|]. intros y x Y X. rewrite nth_repeat. split; [|discriminate]. intro V.
    destruct (Im (t, y, x) (conj T (conj Y X)) V) as ([[u v] z0] & (U & _ & _) & E). unfold later in E. injection E as <- _ _. lia. }
  destruct (Nat.lt_ge_cases t a) as [A|A].
  - rewrite app_nth1 by (rewrite repeat_length; exact A). rewrite Fr by exact A. apply Out. left. exact A.
  - rewrite app_nth2 by (rewrite repeat_length; exact A). rewrite repeat_length. destruct (Nat.lt_ge_cases (t - a) nt) as [B|B].
    + rewrite app_nth1 by (rewrite L; exact B). apply At; [apply R, nth_In; rewrite L; exact B|]. intros y x Y X.
      specialize (Eq (t - a, y, x) (conj B (conj Y X))). cbn [later kept_at] in Eq. replace (t - a + a) with t in Eq by lia. exact Eq.
    + rewrite app_nth2 by (rewrite L; exact B). rewrite L, Fr by lia. apply Out. right. lia.
Qed.

(** Quiet steps before and after a record tracked with merging, in chunks of at least two steps
    (the first may have one): the ID field is the same, with zeros in the added steps, the number
    of events is the same, the merges are the same, at later times, and the statistics are the same. *)
Theorem C133_merging_partial (g : grid) (k k' : tracking) (a b : nat) (data : field)
    (F : list (list Z)) (n : Z) (mg : option merges) (st : stats) :
  let nt := g_nt g in let g' := with_steps g (a + nt + b) in let data' := quiet g a ++ data ++ quiet g b in
  let none := repeat 0%Z (g_ny g * g_nx g) in
  (0 <= g_R g)%Z -> Z.even (g_T g) = true -> length data = nt -> k_merging k = true -> k_merging k' = true ->
  k_nn k' = k_nn k -> k_centroid k' = k_centroid k -> k_overlap k' = k_overlap k -> k_areas k' = k_areas k ->
  long_chunks (k_chunks k) -> long_chunks (k_chunks k') ->
  fold_right Nat.add 0 (k_chunks k) = nt -> fold_right Nat.add 0 (k_chunks k') = a + nt + b ->
  fresh_run g k data = Ok (F, n, mg, st) ->
  exists st', fresh_run g' k' data' = Ok (repeat none a ++ F ++ repeat none b, n, option_map (later_merges a) mg, st') /\
    same_figures data data' st st' /\ s_processed st' = s_processed st.
Proof.
  intros nt g' data' none R0 Te L Km Km' Kn Kc Ke Ka Lc Lc' Ch Ch' R.
  assert (L' : length data' = g_nt g') by (unfold data', quiet; rewrite !app_length, !repeat_length; unfold g', nt in *; cbn; lia).
  destruct (C154_merging_only_divides_events g k (unmerged k) data F n mg st L Ch Km eq_refl R) as (F0 & n0 & R1 & _).
  destruct (C133_quiet_steps_only_shift_the_events_partial g (unmerged k) (unmerged k') a b data F0 n0 None st R0 Te L eq_refl Ch Ch' R1) as (Ret & _).
  destruct (Ret eq_refl) as (r & R2). fold nt in R2. fold g' data' in R2. destruct (any_returns g' (unmerged k') k' data' r L' Ch' R2) as (F' & n' & mg' & R').
  destruct (C133_quiet_steps_only_shift_the_events_partial g k k' a b data F n mg st R0 Te L ltac:(congruence) Ch Ch' R) as (_ & Rel).
  destruct (Rel F' n' mg' _ R') as (Fg & Pr & (Mv & Im) & _). clear Rel.
  destruct (merging_run_parts g k data F n mg st L Km R) as (f & Sk & Ex & Tr & _).
  destruct (merging_run_parts g' k' data' F' n' mg' _ L' Km' R') as (f' & Sk' & Ex' & Tr' & _).
  assert (I1 := track_merging_ok g _ _ _ _ _ _ _ _ _ Sk Ch Ex Tr). assert (I2 := track_merging_ok g' _ _ _ _ _ _ _ _ _ Sk' Ch' Ex' Tr').
  destruct I1 as (_ & N1 & _). destruct I2 as (_ & N2 & _).
  assert (K1 : forall c, in_range nt (g_ny g) (g_nx g) c -> (id_of (g_nx g) F c <> 0%Z <-> kept_at (g_nx g) (f_keep f) c)) by (intros [[t y] x] (T & Y & X); apply N1; assumption).
  assert (K2 : forall c, in_range (a + nt + b) (g_ny g) (g_nx g) c -> (id_of (g_nx g) F' c <> 0%Z <-> kept_at (g_nx g) (f_keep f') c)) by (intros [[t y] x] (T & Y & X); apply N2; assumption).
  assert (Ek : f_keep f' = quiet g a ++ f_keep f ++ quiet g b).
  { apply kept_around; [exact Sk|exact Sk'| |].
    - intros c Rc. rewrite <- (K1 c Rc). rewrite <- K2 by (destruct c as [[t y] x]; unfold in_range, later in *; fold nt in Rc; lia). apply Mv. exact Rc.
    - intros d Rd Kd. apply K2 in Kd; [|exact Rd]. apply Im; assumption. }
  assert (Nt : 0 < nt).
  { destruct Ex as (j & J). destruct (Nat.eq_dec nt 0) as [Z0|Z0]; [|lia]. assert (Ln := shaped_concat g (f_keep f) Sk). fold nt in Ln. rewrite Z0 in Ln. cbn in Ln.
    rewrite nth_overflow in J by lia. discriminate. }
  assert (M := merging_around g (k_nn k) (k_centroid k) (k_overlap k) (k_areas k) (k_chunks k) (k_chunks k') a b (f_keep f) F n mg Sk Nt Lc Lc' Ch Ch' Ex Tr).
  fold nt in M. fold g' in M. rewrite Kn, Kc, Ke, Ka, Ek, M in Tr'. injection Tr' as <- <- <-.
  exists (snd r). split; [exact R'|]. split; [exact Fg|exact Pr].
Qed.
Print Assumptions C133_merging_partial.

(** C133 as claimed, with merging: the events of the longer record are those of the shorter one.
    False of the program: how the record is cut into chunks decides which steps are consolidated,
    so a longer record in other chunks may have other events. *)
Definition step_chunks (nt : nat) : tracking := mkTracking true true row_centroid (1#2) (repeat 1%Q 30) (repeat 1 nt).
Theorem C133_quiet_steps_refuted :
  exists g k k' a b data F n mg st F' n' mg' st',
    (0 <= g_R g)%Z /\ Z.even (g_T g) = true /\ length data = g_nt g /\ k_merging k = true /\ k_merging k' = true /\
    k_nn k' = k_nn k /\ k_centroid k' = k_centroid k /\ k_overlap k' = k_overlap k /\ k_areas k' = k_areas k /\
    fold_right Nat.add 0 (k_chunks k) = g_nt g /\ fold_right Nat.add 0 (k_chunks k') = a + g_nt g + b /\
    fresh_run g k data = Ok (F, n, mg, st) /\
    fresh_run (with_steps g (a + g_nt g + b)) k' (quiet g a ++ data ++ quiet g b) = Ok (F', n', mg', st') /\
    n' <> n /\ ~ same_grouping (g_nt g) (g_ny g) (g_nx g) (later a) F F'.
Proof.
  exists (split_grid 3), (split_tracking 3), (step_chunks 4), 1, 0, parting. do 8 eexists.
  do 11 (split; [first [reflexivity|discriminate]|]).
  split; [vm_compute; reflexivity|]. split; [vm_compute; reflexivity|]. split; [discriminate|].
  intro H. destruct (H (0, 2, 0) (2, 0, 0)) as [H1 _]; [cbn; lia|cbn; lia|vm_compute; discriminate|vm_compute; discriminate|].
  vm_compute in H1. specialize (H1 eq_refl). discriminate.
Qed.
Print Assumptions C133_quiet_steps_refuted.

(** A record in which an object splits and one in which two merge, in chunks of two or more steps,
    with quiet steps around them. *)
Definition two_chunks (r : list nat) : tracking := mkTracking true true row_centroid (1#2) (repeat 1%Q 30) r.
Definition meeting : field :=
 [rows_of [[1;0;0;0;0;0]; [0;0;0;0;0;0]; [1;1;0;0;1;1]; [0;0;0;0;0;0]; [0;0;0;0;0;0]];
  rows_of [[0;0;0;0;0;0]; [0;0;0;0;0;0]; [1;1;1;1;1;1]; [0;0;0;0;0;0]; [0;0;0;0;0;0]];
  rows_of [[0;0;0;0;0;0]; [0;0;0;0;0;0]; [1;1;0;1;1;1]; [0;0;0;0;0;0]; [0;0;0;0;0;0]]].
Example C133_merging_case :
  long_chunks [3] /\ long_chunks [2; 4] /\ long_chunks [1; 2; 3] /\
  (exists mg st, fresh_run (split_grid 3) (two_chunks [3]) parting = Ok (parted, 2%Z, mg, st)) /\
  exists F mg st, fresh_run (split_grid 3) (two_chunks [3]) meeting = Ok (F, 2%Z, Some mg, st) /\ m_time mg = [1] /\ m_n_parents mg = [2%Z] /\
    nth 1 F [] = [0;0;0;0;0;0; 0;0;0;0;0;0; 1;1;1;2;2;2; 0;0;0;0;0;0; 0;0;0;0;0;0]%Z.
Proof.
  split; [cbn; repeat constructor|]. split; [cbn; repeat constructor|]. split; [cbn; repeat constructor|].
  split; [eexists; eexists; vm_compute; reflexivity|]. do 3 eexists. split; [vm_compute; reflexivity|]. split; [vm_compute; reflexivity|]. split; vm_compute; reflexivity.
Qed.

(** ** C28 for whole runs: two chunkings without one-step chunks (the first excepted) give the same outcome, ID field,
    number of events, merges and statistics, or the same error.  Missing: one-step chunks. *)
Definition in_chunks (k : tracking) (sizes : list nat) : tracking :=
  mkTracking (k_merging k) (k_nn k) (k_centroid k) (k_overlap k) (k_areas k) sizes.
Theorem C28_same_run_partial (g : grid) (k : tracking) (sizes sizes' : list nat) (data : field) :
  long_chunks sizes -> long_chunks sizes' -> fold_right Nat.add 0 sizes = g_nt g -> fold_right Nat.add 0 sizes' = g_nt g ->
  fresh_run g (in_chunks k sizes) data = fresh_run g (in_chunks k sizes') data.
Proof.
  intros Lc Lc' Hs Hs'. unfold fresh_run, in_chunks. cbn [k_merging k_nn k_centroid k_overlap k_areas k_chunks].
  destruct (k_merging k); [|reflexivity].
  assert (E : forall f, track_merging g (k_nn k) (k_centroid k) (k_overlap k) (k_areas k) sizes f = track_merging g (k_nn k) (k_centroid k) (k_overlap k) (k_areas k) sizes' f).
  { intro f. unfold track_merging, track_grid. set (lab := time_fields _ _ _ _).
    assert (Ll : length lab = g_nt g) by (unfold lab, time_fields; rewrite map_length, seq_length; reflexivity).
    rewrite (track_one_chunk _ _ _ _ _ sizes) by (try exact Lc; rewrite Ll; exact Hs).
    rewrite (track_one_chunk _ _ _ _ _ sizes') by (try exact Lc'; rewrite Ll; exact Hs'). reflexivity. }
  unfold run. destruct (run_preprocess _ _ _ _ _ _ _) as [[tr' ops] [[f s]|e]]; cbn [snd bind]; [|reflexivity]. cbn [fst snd]. rewrite E. reflexivity.
Qed.
Print Assumptions C28_same_run_partial.

(** With chunks of one step the run itself changes: the split of [parting] is not undone there. *)
Theorem C28_same_run_refuted :
  exists g k sizes sizes' data, fold_right Nat.add 0 sizes = g_nt g /\ fold_right Nat.add 0 sizes' = g_nt g /\ length data = g_nt g /\ 
    exists r r', fresh_run g (in_chunks k sizes) data = Ok r /\ fresh_run g (in_chunks k sizes') data = Ok r' /\ fst (fst (fst r)) <> fst (fst (fst r')).
Proof.
  exists (split_grid 3), (two_chunks [3]), [3], [1; 1; 1], parting. split; [reflexivity|]. split; [reflexivity|]. split; [reflexivity|].
  eexists. eexists. split; [vm_compute; reflexivity|]. split; [vm_compute; reflexivity|]. vm_compute. discriminate.
Qed.
Print Assumptions C28_same_run_refuted.
Example C28_run_case : long_chunks [3] /\ long_chunks [1; 2] /\
  exists F mg st, fresh_run (split_grid 3) (in_chunks (two_chunks [3]) [1; 2]) meeting = Ok (F, 2%Z, Some mg, st) /\ m_time mg = [1].
Proof.
  split; [cbn; repeat constructor|]. split; [cbn; repeat constructor|]. do 3 eexists. split; vm_compute; reflexivity.
Qed.
