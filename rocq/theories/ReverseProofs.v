(** Filling commutes with reading the record backwards. *)
From Verif Require Import Base Morph MorphSpec MorphProofs MorphTimeProofs MorphProps Label LabelSpec ClusterSpec ClusterFinal Run RunSpec RunProofs RunProps PipelineProps RelateSpec RelateProofs RelateProps.
Open Scope nat_scope.

Lemma ext_rev l t : ext (rev l) t <-> ext l (Z.of_nat (length l) - 1 - t).
Proof.
  unfold ext, at_t. rewrite rev_length.
  destruct (Z.leb_spec 0 t), (Z.ltb_spec t (Z.of_nat (length l))), (Z.leb_spec 0 (Z.of_nat (length l) - 1 - t)), (Z.ltb_spec (Z.of_nat (length l) - 1 - t) (Z.of_nat (length l))); cbn [andb];
    try lia; try tauto.
  rewrite rev_nth by lia. replace (Z.to_nat (Z.of_nat (length l) - 1 - t)) with (length l - S (Z.to_nat t)) by lia. reflexivity.
Qed.
Lemma gap_rev T l t : in_short_gap T (rev l) t <-> in_short_gap T l (Z.of_nat (length l) - 1 - t).
Proof.
  set (n := Z.of_nat (length l)).
  assert (One : forall l t, in_short_gap T (rev l) t -> in_short_gap T l (Z.of_nat (length l) - 1 - t)).
  { intros l0 t0 (a & b & B & G & A & C & M). exists (Z.of_nat (length l0) - 1 - b)%Z, (Z.of_nat (length l0) - 1 - a)%Z.
    split; [lia|]. split; [lia|]. split; [apply ext_rev; exact C|]. split; [apply ext_rev; exact A|].
    intros u U E. apply (M (Z.of_nat (length l0) - 1 - u)%Z); [lia|]. apply ext_rev. replace (Z.of_nat (length l0) - 1 - (Z.of_nat (length l0) - 1 - u))%Z with u by lia. exact E. }
  split; [apply One|]. intro H. rewrite <- (rev_involutive l) in H at 1. apply One in H. rewrite rev_length in H. fold n in H.
  replace (n - 1 - (n - 1 - t))%Z with t in H by lia. exact H.
Qed.
Lemma close_rev T l l' r : (0 <= T)%Z -> Z.even T = true -> close_time T l = Some l' -> close_time T (rev l) = Some r -> r = rev l'.
Proof.
  intros T0 Te E E'. destruct (C10_fills_exactly_short_gaps T l l' T0 Te E) as (L & C). destruct (C10_fills_exactly_short_gaps T (rev l) r T0 Te E') as (L' & C').
  rewrite rev_length in L', C'. apply (nth_ext _ _ false false); [rewrite rev_length; congruence|]. intros i I. rewrite L' in I.
  assert (Ne : forall (u : list bool) j, j < length u -> (nth j u false = true <-> ext u (Z.of_nat j))).
  { intros u j J. unfold ext, at_t. destruct (Z.leb_spec 0 (Z.of_nat j)); [|lia]. destruct (Z.ltb_spec (Z.of_nat j) (Z.of_nat (length u))); [|lia]. cbn [andb]. rewrite Nat2Z.id. reflexivity. }
  apply eq_true_iff_eq. rewrite (Ne r i) by lia. rewrite (Ne (rev l') i) by (rewrite rev_length; lia). rewrite ext_rev, L.
  rewrite C' by lia. rewrite C by lia. rewrite ext_rev, gap_rev. reflexivity.
Qed.

Section Reverse.
Variable g : grid.
Let nt := g_nt g. Let ny := g_ny g. Let nx := g_nx g.
Lemma backwards_range c : in_range nt ny nx c -> in_range nt ny nx (backwards nt c).
Proof. destruct c as [[t y] x]. unfold in_range, backwards. lia. Qed.
Lemma backwards_back c : in_range nt ny nx c -> backwards nt (backwards nt c) = c.
Proof. destruct c as [[t y] x]. unfold in_range, backwards. intros (T & _). f_equal. f_equal. lia. Qed.
Lemma backwards_once c d : in_range nt ny nx c -> in_range nt ny nx d -> backwards nt c = backwards nt d -> c = d.
Proof. intros C D E. rewrite <- (backwards_back c C), <- (backwards_back d D), E. reflexivity. Qed.
Lemma backwards_touch b wrap c d : in_range nt ny nx c -> in_range nt ny nx d ->
  (touching b wrap nx (backwards nt c) (backwards nt d) <-> touching b wrap nx c d).
Proof.
  destruct c as [[t y] x], d as [[t2 y2] x2]. unfold in_range, touching, backwards, dist1. intros (T & _) (T2 & _).
  destruct b; intuition lia.
Qed.

Lemma reverse_fill data s : Z.even (g_T g) = true -> length data = nt -> fill_grid g data = Some s ->
  exists s', fill_grid g (rev data) = Some s' /\ forall c, in_range nt ny nx c -> value_at nx s' (backwards nt c) = value_at nx s c.
Proof.
  intros Te L E.
  assert (T0 : (0 <= g_T g)%Z).
  { unfold fill_grid, preprocess_morph, fill_time_gaps in E. destruct (Z.eqb_spec (g_T g) 0); [lia|]. destruct (Z.ltb_spec (g_T g + 1) 0); [discriminate|].
    destruct (Z.eq_dec (g_T g) (-1)) as [H1|H1]; [rewrite H1 in Te; discriminate|lia]. }
  unfold fill_grid in *. fold ny nx in E |- *.
  destruct (preprocess_morph (g_regional g) (g_T g) (g_R g) (Z.of_nat ny) (Z.of_nat nx) (img_of nx (g_mask g)) (map (img_of nx) data)) as [im|] eqn:P; [|discriminate].
  cbn [option_map] in E. injection E as <-.
  destruct (preprocess_morph (g_regional g) (g_T g) (g_R g) (Z.of_nat ny) (Z.of_nat nx) (img_of nx (g_mask g)) (map (img_of nx) (rev data))) as [im'|] eqn:P'.
  2: { exfalso. unfold preprocess_morph, fill_time_gaps in P'. destruct (Z.eqb_spec (g_T g) 0); [discriminate|]. destruct (Z.ltb_spec (g_T g + 1) 0); [lia|discriminate]. }
  exists (map (flat_img ny nx) im'). split; [reflexivity|].
  destruct (C06_masked_out_cells_never_marked _ _ _ _ _ _ _ _ P) as [Lm _]. destruct (C06_masked_out_cells_never_marked _ _ _ _ _ _ _ _ P') as [Lm' _]. rewrite map_length in Lm, Lm'. rewrite rev_length in Lm'.
  set (dark := (fun _ _ => false) : img).
  assert (Main : forall t y x, t < nt -> in_grid (Z.of_nat ny) (Z.of_nat nx) y x -> nth (nt - 1 - t) im' dark y x = nth t im dark y x).
  { unfold preprocess_morph in P, P'. set (im1 := fill_holes (g_regional g) (g_R g) (Z.of_nat ny) (Z.of_nat nx) (img_of nx (g_mask g)) (map (img_of nx) data)) in *.
    assert (Er : fill_holes (g_regional g) (g_R g) (Z.of_nat ny) (Z.of_nat nx) (img_of nx (g_mask g)) (map (img_of nx) (rev data)) = rev im1) by (unfold im1, fill_holes; rewrite map_rev, map_rev; reflexivity).
    rewrite Er in P'. assert (L1 : length im1 = nt) by (unfold im1, fill_holes; rewrite !map_length; exact L). clearbody im1. clear Er.
    unfold fill_time_gaps in P, P'. destruct (Z.eqb_spec (g_T g) 0) as [Tz|Tz].
    { injection P as <-. injection P' as <-. intros t y x T _. rewrite rev_nth by lia. f_equal. rewrite L1. replace (nt - S (nt - 1 - t)) with t by lia. reflexivity. }
    destruct (Z.ltb_spec (g_T g + 1) 0); [lia|]. injection P as <-. injection P' as <-.
    intros t y x T G. assert (Ny : (0 < Z.of_nat ny)%Z) by (destruct G; lia). assert (Nx : (0 < Z.of_nat nx)%Z) by (destruct G; lia). unfold fill_holes.
    rewrite (nth_map_gen _ _ (nt - 1 - t) dark) by (rewrite map_length, seq_length, rev_length, L1; lia). rewrite (nth_map_gen _ _ (nt - 1 - t) 0) by (rewrite seq_length, rev_length, L1; lia).
    rewrite (nth_map_gen _ _ t dark) by (rewrite map_length, seq_length, L1; exact T). rewrite (nth_map_gen _ _ t 0) by (rewrite seq_length, L1; exact T).
    apply slice_same; [exact Ny|exact Nx| |exact G]. intros y0 x0 G0. rewrite rev_length, L1, !seq_nth by lia. cbn [Nat.add].
    assert (Sv : series_at (rev im1) y0 x0 = rev (series_at im1 y0 x0)) by (unfold series_at; apply map_rev). rewrite Sv.
    destruct (C10_accepted_T_always_runs (g_T g) (series_at im1 y0 x0) T0) as (l' & El). destruct (C10_accepted_T_always_runs (g_T g) (rev (series_at im1 y0 x0)) T0) as (r & Er).
    rewrite El, Er, (close_rev _ _ _ _ T0 Te El Er). destruct (C10_fills_exactly_short_gaps _ _ _ T0 Te El) as (Ll & _).
    assert (Ls : length (series_at im1 y0 x0) = nt) by (unfold series_at; rewrite (map_length _ im1); exact L1).
    rewrite rev_nth by lia. rewrite Ll, Ls. replace (nt - S (nt - 1 - t)) with t by lia. reflexivity. }
  intros [[t y] x] (T & Y & X). cbn [backwards value_at].
  rewrite (nth_map_gen _ im' (nt - 1 - t) dark) by (rewrite Lm'; lia). rewrite (nth_map_gen _ im t dark) by (rewrite Lm; lia). rewrite !flat_at by assumption.
  apply Main; [exact T|split; lia].
Qed.
End Reverse.
