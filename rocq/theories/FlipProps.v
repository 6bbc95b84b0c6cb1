(** Theorems C134 and C135: the direction of the axes, and longer records. *)
From Verif Require Import Base Morph MorphSpec MorphProps Label LabelSpec LabelProofs Filter FilterSpec FilterProofs FilterGridProofs FilterAreaProofs FilterProps Overlap Merge Partition Cluster ClusterSpec ClusterFinal
  Run RunSpec RunProofs RunProps GridRunProps PipelineProps RelateSpec RelateProofs RelateProps FlipProofs.
Open Scope nat_scope.

Section Flip.
Variables (g : grid) (by_ bx : bool).
Let nt := g_nt g. Let ny := g_ny g. Let nx := g_nx g.
Let sig := flipped by_ bx (g_ny g) (g_nx g).

Lemma flipped_range c : in_range nt ny nx c -> in_range nt ny nx (sig c).
Proof. destruct c as [[t y] x]. unfold sig, flipped, in_range, ny, nx. destruct by_, bx; lia. Qed.
Lemma flipped_back c : in_range nt ny nx c -> sig (sig c) = c.
Proof. destruct c as [[t y] x]. unfold sig, flipped, in_range, ny, nx. intros (T & Y & X). destruct by_, bx; f_equal; try f_equal; lia. Qed.
Lemma flipped_once c d : in_range nt ny nx c -> in_range nt ny nx d -> sig c = sig d -> c = d.
Proof. intros Rc Rd E. rewrite <- (flipped_back c Rc), <- (flipped_back d Rd), E. reflexivity. Qed.
Lemma flipped_touch b wrap c d : in_range nt ny nx c -> in_range nt ny nx d -> (touching b wrap nx (sig c) (sig d) <-> touching b wrap nx c d).
Proof.
  destruct c as [[t y] x], d as [[t' y'] x']. unfold sig, flipped, in_range, ny, nx, touching, col_next, dist1. intros (T & Y & X) (T' & Y' & X').
  destruct by_, bx, wrap; intuition lia.
Qed.
Lemma flipZ_nat b n y : y < n -> flipZ b (Z.of_nat n) (Z.of_nat y) = Z.of_nat (if b then n - 1 - y else y).
Proof. unfold flipZ. destruct b; lia. Qed.

Lemma flip_fill mask' data data' s : (0 <= g_R g)%Z -> length data = nt -> moved_data g sig data data' -> moved_mask g sig mask' -> fill_grid g data = Some s ->
  exists s', fill_grid (with_mask g mask') data' = Some s' /\ forall c, in_range nt ny nx c -> value_at nx s' (sig c) = value_at nx s c.
Proof.
  intros R0 L (Ld & Vd) Vm E. set (g' := with_mask g mask').
  assert (Vd' : forall t y x, t < nt -> y < ny -> x < nx -> nth (y * nx + x) (nth t data' []) false = nth ((if by_ then ny - 1 - y else y) * nx + (if bx then nx - 1 - x else x)) (nth t data []) false).
  { intros t y x T Y X. assert (Rc : in_range nt ny nx (t, y, x)) by (split; [exact T|split; assumption]). assert (H := Vd (sig (t, y, x)) (flipped_range _ Rc)). rewrite (flipped_back _ Rc) in H. exact H. }
  assert (Vm' : forall y x, y < ny -> x < nx -> nth (y * nx + x) mask' false = nth ((if by_ then ny - 1 - y else y) * nx + (if bx then nx - 1 - x else x)) (g_mask g) false).
  { intros y x Y X. set (y' := if by_ then ny - 1 - y else y). set (x' := if bx then nx - 1 - x else x).
    assert (Y' : y' < g_ny g) by (unfold y', ny in *; destruct by_; lia). assert (X' : x' < g_nx g) by (unfold x', nx in *; destruct bx; lia).
    assert (H := Vm y' x' Y' X'). unfold sig, flipped, value_at in H.
    replace (if by_ then g_ny g - 1 - y' else y') with y in H by (unfold y', ny in *; destruct by_; lia). replace (if bx then g_nx g - 1 - x' else x') with x in H by (unfold x', nx in *; destruct bx; lia). exact H. }
  unfold fill_grid in E. destruct (preprocess_morph (g_regional g) (g_T g) (g_R g) (Z.of_nat (g_ny g)) (Z.of_nat (g_nx g)) (img_of (g_nx g) (g_mask g)) (map (img_of (g_nx g)) data)) as [im|] eqn:P; [|discriminate].
  cbn [option_map] in E. injection E as <-. fold ny nx in P |- *.
  destruct (preprocess_morph (g_regional g) (g_T g) (g_R g) (Z.of_nat ny) (Z.of_nat nx) (img_of nx mask') (map (img_of nx) data')) as [im'|] eqn:P'.
  2: { exfalso. unfold preprocess_morph, fill_time_gaps in P, P'. destruct (Z.eqb_spec (g_T g) 0); [discriminate|]. destruct (Z.ltb_spec (g_T g + 1) 0); discriminate. }
  exists (map (flat_img ny nx) im'). split.
  { unfold fill_grid, g'. change (g_regional (with_mask g mask')) with (g_regional g). change (g_T (with_mask g mask')) with (g_T g). change (g_R (with_mask g mask')) with (g_R g). change (g_ny (with_mask g mask')) with ny. change (g_nx (with_mask g mask')) with nx. change (g_mask (with_mask g mask')) with mask'. rewrite P'. reflexivity. }
  destruct (C06_masked_out_cells_never_marked _ _ _ _ _ _ _ _ P) as [Lm _]. destruct (C06_masked_out_cells_never_marked _ _ _ _ _ _ _ _ P') as [Lm' _]. rewrite map_length in Lm, Lm'.
  set (dark := (fun _ _ => false) : img).
  assert (Main : forall t y x, t < nt -> in_grid (Z.of_nat ny) (Z.of_nat nx) y x -> nth t im' dark y x = nth t im dark (flipZ by_ (Z.of_nat ny) y) (flipZ bx (Z.of_nat nx) x)).
  { unfold preprocess_morph in P, P'. set (im1 := fill_holes (g_regional g) (g_R g) (Z.of_nat ny) (Z.of_nat nx) (img_of nx (g_mask g)) (map (img_of nx) data)) in *.
    set (im1' := fill_holes (g_regional g) (g_R g) (Z.of_nat ny) (Z.of_nat nx) (img_of nx mask') (map (img_of nx) data')) in *.
    assert (L1 : length im1 = nt) by (unfold im1, fill_holes; rewrite !map_length; exact L).
    assert (L1' : length im1' = nt) by (unfold im1', fill_holes; rewrite !map_length, Ld; exact L).
    assert (Ms : forall y x, in_grid (Z.of_nat ny) (Z.of_nat nx) y x -> img_of nx mask' y x = img_of nx (g_mask g) (flipZ by_ (Z.of_nat ny) y) (flipZ bx (Z.of_nat nx) x)).
    { intros y x (Y & X). rewrite <- (Z2Nat.id y), <- (Z2Nat.id x) by lia. rewrite !flipZ_nat by lia. unfold img_of. rewrite !Nat2Z.id. apply Vm'; lia. }
    assert (First : forall t y x, t < nt -> in_grid (Z.of_nat ny) (Z.of_nat nx) y x -> nth t im1' dark y x = nth t im1 dark (flipZ by_ (Z.of_nat ny) y) (flipZ bx (Z.of_nat nx) x)).
    { intros t y x T G. assert (Ny : (0 < Z.of_nat ny)%Z) by (destruct G; lia). assert (Nx : (0 < Z.of_nat nx)%Z) by (destruct G; lia). unfold im1', im1, fill_holes.
      rewrite (nth_map_gen _ (map (img_of nx) data') t dark) by (rewrite map_length, Ld; unfold nt in *; lia). rewrite (nth_map_gen _ (map (img_of nx) data) t dark) by (rewrite map_length; unfold nt in *; lia).
      rewrite (nth_map_gen _ data' t []) by (rewrite Ld; unfold nt in *; lia). rewrite (nth_map_gen _ data t []) by (unfold nt in *; lia).
      apply slice_flip; try assumption. intros y0 x0 (Y0 & X0). rewrite <- (Z2Nat.id y0), <- (Z2Nat.id x0) by lia. rewrite !flipZ_nat by lia. unfold img_of. rewrite !Nat2Z.id. apply Vd'; [exact T|lia|lia]. }
    unfold fill_time_gaps in P, P'. destruct (Z.eqb_spec (g_T g) 0) as [T0|T0]; [injection P as <-; injection P' as <-; exact First|].
    destruct (g_T g + 1 <? 0)%Z; [discriminate|]. injection P as <-. injection P' as <-.
    assert (Sr : forall y x, in_grid (Z.of_nat ny) (Z.of_nat nx) y x -> series_at im1' y x = series_at im1 (flipZ by_ (Z.of_nat ny) y) (flipZ bx (Z.of_nat nx) x)).
    { intros y x G. apply (nth_ext _ _ false false); [unfold series_at; rewrite (map_length _ im1), (map_length _ im1'), L1, L1'; reflexivity|]. intros i I. unfold series_at in I. rewrite (map_length _ im1'), L1' in I.
      unfold series_at. rewrite (nth_map_gen _ im1' i dark) by (rewrite L1'; exact I). rewrite (nth_map_gen _ im1 i dark) by (rewrite L1; exact I). apply First; assumption. }
    intros t y x T G. assert (Ny : (0 < Z.of_nat ny)%Z) by (destruct G; lia). assert (Nx : (0 < Z.of_nat nx)%Z) by (destruct G; lia). unfold fill_holes.
    rewrite (nth_map_gen _ _ t dark) by (rewrite map_length, seq_length, L1'; exact T). rewrite (nth_map_gen _ _ t 0) by (rewrite seq_length, L1'; exact T).
    rewrite (nth_map_gen _ _ t dark) by (rewrite map_length, seq_length, L1; exact T). rewrite (nth_map_gen _ _ t 0) by (rewrite seq_length, L1; exact T).
    apply slice_flip; [apply Z.div_pos; lia|exact Ny|exact Nx|exact Ms| |exact G]. intros y0 x0 G0. rewrite (Sr y0 x0 G0). rewrite !seq_nth by (rewrite ?L1, ?L1'; exact T). reflexivity. }
  intros [[t y] x] Rc. assert (Rc' := flipped_range _ Rc). unfold sig, flipped in *. fold ny nx in Rc' |- *. destruct Rc as (T & Y & X), Rc' as (_ & Y' & X'). cbn [value_at].
  rewrite (nth_map_gen _ im' t dark) by (rewrite Lm', Ld; unfold nt in *; lia). rewrite (nth_map_gen _ im t dark) by (rewrite Lm; unfold nt in *; lia). rewrite !flat_at by assumption.
  rewrite Main; [|exact T|split; lia]. rewrite !flipZ_nat by assumption. f_equal; f_equal; [destruct by_|destruct bx]; lia.
Qed.
End Flip.

(** ** C134: the direction of the axes *)
(** As claimed: reversing latitude or longitude reverses the events. It fails
    through the dropped first object, which is another one when the rows or columns
    are listed from the other end. *)
Theorem C134_axis_direction_does_not_matter_refuted :
  exists g k data data' F n mg st F' n' mg' st',
    moved_data g (flipped false true (g_ny g) (g_nx g)) data data' /\ moved_mask g (flipped false true (g_ny g) (g_nx g)) (g_mask g) /\
    fresh_run g k data = Ok (F, n, mg, st) /\ fresh_run g k data' = Ok (F', n', mg', st') /\
    ~ moved_events (g_nt g) (g_nt g) (g_ny g) (g_nx g) (flipped false true (g_ny g) (g_nx g)) F F'.
Proof.
  exists (mkGrid true 1 1 3 [true; true; true] 0 0 (ByAbsolute 1)), (mkTracking false false (fun _ => (0, 0)%Q) 0 [] [1]), [[true; false; true]], [[true; false; true]].
  eexists. eexists. eexists. eexists. eexists. eexists. eexists. eexists. cbn [g_regional g_R g_nx g_ny g_nt g_mask].
  split; [split; [reflexivity|]; intros [[t y] x] (T & Y & X); cbn in T, Y, X; assert (t = 0) by lia; assert (y = 0) by lia; subst; destruct x as [|[|[|x]]]; [reflexivity|reflexivity|reflexivity|lia]|].
  split; [intros y x Y X; cbn in Y, X; assert (y = 0) by lia; subst; destruct x as [|[|[|x]]]; [reflexivity|reflexivity|reflexivity|lia]|].
  split; [vm_compute; reflexivity|]. split; [vm_compute; reflexivity|].
  intros [M _]. specialize (M (0, 0, 2)). cbn in M. apply M; [lia|discriminate|reflexivity].
Qed.
Print Assumptions C134_axis_direction_does_not_matter_refuted.

(** For every R_fill, T_fill and area rule, on regional and global grids: reverse
    the rows, the columns or both, of data and mask; the filled field is reversed,
    the statistics are the same and the event cells are the reversed ones,
    and without merging the number of events and which cells are together too, and
    the second run returns whenever the first does - provided that the dropped
    objects correspond or are below the threshold. *)
Theorem C134_axis_direction_does_not_matter_partial (g : grid) (k : tracking) (by_ bx : bool) (mask' : list bool) (data data' : field)
    (F : list (list Z)) (n : Z) (mg : option merges) (st : stats) :
  let g' := with_mask g mask' in
  let nt := g_nt g in let ny := g_ny g in let nx := g_nx g in let back := flipped by_ bx ny nx in
  (0 <= g_R g)%Z -> length data = nt -> fold_right Nat.add 0 (k_chunks k) = nt ->
  moved_data g back data data' -> moved_mask g back mask' ->
  fresh_run g k data = Ok (F, n, mg, st) ->
  exists s s', fill_grid g data = Some s /\ fill_grid g' data' = Some s' /\
    (forall c, in_range nt ny nx c -> value_at nx s' (back c) = value_at nx s c) /\
    (drops_alike g g' back s s' (s_threshold st) ->
     (k_merging k = false -> exists r, fresh_run g' k data' = Ok r) /\
     forall F' n' mg' st', fresh_run g' k data' = Ok (F', n', mg', st') ->
       same_figures data data' st st' /\ moved_events nt nt ny nx back F F' /\
       (k_merging k = false -> n' = n /\ same_grouping nt ny nx back F F')).
Proof.
  intros g' nt ny nx back R0 L Ch Md Mm Rn. destruct (run_fills g k data _ Rn) as (s & Fs). destruct (flip_fill g by_ bx mask' data data' s R0 L Md Mm Fs) as (s' & Fs' & Eq).
  exists s, s'. split; [exact Fs|]. split; [exact Fs'|]. split; [exact Eq|]. intro Fo.
  assert (L' : length data' = g_nt g') by (destruct Md as [Ld _]; rewrite Ld; exact L).
  assert (St : forall b c d, in_range nt ny nx c -> in_range nt ny nx d -> (touching b (negb (g_regional g)) nx (back c) (back d) <-> touching b (negb (g_regional g)) nx c d)) by (intros b c d; apply (flipped_touch g by_ bx)).
  assert (Im : forall d, in_range nt ny nx d -> value_at nx s' d = true -> exists c, in_range nt ny nx c /\ back c = d) by (intros d Rd _; exists (back d); split; [apply (flipped_range g by_ bx d Rd)|apply (flipped_back g by_ bx d Rd)]).
  split.
  - intro Km. exact (second_returns g g' k k data data' s s' back F n mg st eq_refl eq_refl L L' Ch Ch Fs Fs' Rn (flipped_range g by_ bx) (flipped_once g by_ bx) St Eq Im Fo Km).
  - intros F' n' mg' st' Rn'.
    exact (runs_related g g' k k data data' s s' back F F' n n' mg mg' st st' eq_refl eq_refl L L' Ch Ch Fs Fs' Rn (flipped_range g by_ bx) (flipped_once g by_ bx) St Eq Im Fo Rn').
Qed.
Print Assumptions C134_axis_direction_does_not_matter_partial.

(** Three steps, columns reversed, a gap of one step filled; the dropped object is
    the middle one of the first step both times. *)
Example C134_case :
  let g := mkGrid true 3 1 5 (repeat true 5) 0 2 (ByAbsolute 1) in
  let data := bits [[0;0;1;0;0]; [0;0;0;0;0]; [1;1;0;0;1]] in let data' := bits [[0;0;1;0;0]; [0;0;0;0;0]; [1;0;0;1;1]] in
  moved_data g (flipped false true 1 5) data data' /\ moved_mask g (flipped false true 1 5) (repeat true 5) /\
  fill_grid g data = Some data /\ fill_grid (with_mask g (repeat true 5)) data' = Some data' /\
  (forall e e', first_extreme 3 1 5 (concat data) e -> first_extreme 3 1 5 (concat data') e' -> joined true 3 1 5 (concat data') (flipped false true 1 5 e) e') /\
  exists F n mg st F' n' mg' st', 
    fresh_run g (simple_tracking 3) data = Ok (F, n, mg, st) /\ fresh_run (with_mask g (repeat true 5)) (simple_tracking 3) data' = Ok (F', n', mg', st') /\
    F = [[0;0;0;0;0]; [0;0;0;0;0]; [1;1;0;0;2]]%Z /\ F' = [[0;0;0;0;0]; [0;0;0;0;0]; [1;0;0;2;2]]%Z.
Proof.
  cbv zeta. split.
  { split; [reflexivity|]. intros [[t y] x] (T & Y & X). cbn in T, Y, X. assert (y = 0) by lia. subst y.
    destruct t as [|[|[|t]]]; [| | |lia]; destruct x as [|[|[|[|[|x]]]]]; try reflexivity; lia. }
  split; [intros y x Y X; cbn in Y, X; assert (y = 0) by lia; subst y; destruct x as [|[|[|[|[|x]]]]]; try reflexivity; lia|].
  split; [vm_compute; reflexivity|]. split; [vm_compute; reflexivity|]. split.
  { intros e e' Fe Fe'.
    assert (A : first_extreme 3 1 5 (concat (bits [[0;0;1;0;0]; [0;0;0;0;0]; [1;1;0;0;1]])) (0, 0, 2)).
    { split; [cbn; lia|split; [reflexivity|]]. intros [[t y] x] (T & Y & X) V. assert (y = 0) by lia. subst y. destruct t as [|[|[|t]]]; [| | |lia]; destruct x as [|[|[|[|[|x]]]]]; try (vm_compute in V; discriminate V); unfold flat; lia. }
    assert (B : first_extreme 3 1 5 (concat (bits [[0;0;1;0;0]; [0;0;0;0;0]; [1;0;0;1;1]])) (0, 0, 2)).
    { split; [cbn; lia|split; [reflexivity|]]. intros [[t y] x] (T & Y & X) V. assert (y = 0) by lia. subst y. destruct t as [|[|[|t]]]; [| | |lia]; destruct x as [|[|[|[|[|x]]]]]; try (vm_compute in V; discriminate V); unfold flat; lia. }
    rewrite (first_unique _ _ _ _ _ _ Fe A), (first_unique _ _ _ _ _ _ Fe' B). constructor. }
  do 8 eexists. split; [vm_compute; reflexivity|]. split; [vm_compute; reflexivity|]. split; reflexivity.
Qed.
