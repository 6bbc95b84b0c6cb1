(** C157: tracking a cut-out in regional mode instead of the whole grid. *)
From Verif Require Import Base Morph MorphSpec MorphProofs MorphProps Label LabelSpec LabelProofs Filter FilterSpec FilterProofs FilterGridProofs FilterAreaProofs FilterProps Overlap Merge Partition Cluster ClusterSpec ClusterFinal
  Run RunSpec RunProofs RunProps GridRunProps PipelineProps RelateSpec RelateProofs RelateProps CutSpec CutProofs.
Open Scope nat_scope.

Lemma room_enough g data t m : length data = g_nt g -> room m g data -> t < g_nt g ->
  clear (Z.of_nat m) (Z.of_nat (g_ny g)) (Z.of_nat (g_nx g)) (nth t (map (img_of (g_nx g)) data) (fun _ _ => false)).
Proof.
  intros L Rm T y x [Y X] V. rewrite (nth_map_gen _ data t []) in V by lia. unfold img_of in V.
  destruct (Rm t (Z.to_nat y) (Z.to_nat x)) as (A & B & C & D); [split; [exact T|lia]|exact V|]. lia.
Qed.

Lemma cut_fill a b g g' data data' s : cut_out a b g g' data data' -> (0 <= g_R g)%Z -> Z.even (g_T g) = true ->
  (g_R g = 0%Z \/ room 1 g data /\ (g_regional g' = true \/ room (2 * Z.to_nat (g_R g)) g' data')) ->
  fill_grid g data = Some s ->
  exists s', fill_grid g' data' = Some s' /\
    (forall c, in_range (g_nt g) (g_ny g) (g_nx g) c -> value_at (g_nx g') s' (placed a b c) = value_at (g_nx g) s c) /\
    (forall d, in_range (g_nt g) (g_ny g') (g_nx g') d -> value_at (g_nx g') s' d = true -> exists c, in_range (g_nt g) (g_ny g) (g_nx g) c /\ placed a b c = d).
Proof.
  intros (Rg & Nt & Ly & Lx & Er & Et & _ & Mk & L & L' & Di & Do) R0 Te Rm E.
  set (dark := (fun _ _ => false) : img).
  unfold fill_grid in E. destruct (preprocess_morph (g_regional g) (g_T g) (g_R g) (Z.of_nat (g_ny g)) (Z.of_nat (g_nx g)) (img_of (g_nx g) (g_mask g)) (map (img_of (g_nx g)) data)) as [im|] eqn:P; [|discriminate].
  cbn [option_map] in E. injection E as <-.
  destruct (preprocess_morph (g_regional g') (g_T g) (g_R g) (Z.of_nat (g_ny g')) (Z.of_nat (g_nx g')) (img_of (g_nx g') (g_mask g')) (map (img_of (g_nx g')) data')) as [im'|] eqn:P'.
  2: { exfalso. unfold preprocess_morph, fill_time_gaps in P, P'. destruct (Z.eqb_spec (g_T g) 0); [discriminate|]. destruct (Z.ltb_spec (g_T g + 1) 0); discriminate. }
  exists (map (flat_img (g_ny g') (g_nx g')) im'). split; [unfold fill_grid; rewrite Er, Et, P'; reflexivity|].
  destruct (C06_masked_out_cells_never_marked _ _ _ _ _ _ _ _ P) as [Lm _]. destruct (C06_masked_out_cells_never_marked _ _ _ _ _ _ _ _ P') as [Lm' _]. rewrite map_length in Lm, Lm'.
  assert (Rm' : g_R g = 0%Z \/ room 1 g' data').
  { destruct Rm as [Z0|[Rm _]]; [left; exact Z0|right]. intros t y x Rc V. rewrite Nt in Rc. destruct (Do _ Rc V) as ([[t0 y0] x0] & R1 & E1). rewrite <- E1 in V.
    rewrite (Di _ R1) in V. destruct (Rm t0 y0 x0 R1 V) as (B1 & B2 & B3 & B4). unfold placed in E1. injection E1 as <- <- <-. lia. }
  assert (H : forall t, t < g_nt g -> holds (Z.of_nat a) (Z.of_nat b) (Z.of_nat (g_ny g)) (Z.of_nat (g_nx g)) (Z.of_nat (g_ny g')) (Z.of_nat (g_nx g')) (nth t im dark) (nth t im' dark)).
  { apply (record_holds (Z.of_nat a) (Z.of_nat b) (Z.of_nat (g_ny g)) (Z.of_nat (g_nx g)) (Z.of_nat (g_ny g')) (Z.of_nat (g_nx g')) (g_R g) (g_T g) (g_regional g) (g_regional g') (img_of (g_nx g) (g_mask g)) (img_of (g_nx g') (g_mask g')) (g_nt g)
      R0 Te ltac:(lia) ltac:(lia) ltac:(lia) ltac:(lia)) with (s := map (img_of (g_nx g)) data) (s' := map (img_of (g_nx g')) data').
    - intros y x [Y X]. unfold img_of. replace (Z.to_nat (y + Z.of_nat a)) with (Z.to_nat y + a) by lia. replace (Z.to_nat (x + Z.of_nat b)) with (Z.to_nat x + b) by lia. apply Mk; lia.
    - rewrite map_length; exact L.
    - rewrite map_length; exact L'.
    - intros t T. rewrite (nth_map_gen _ data t []) by lia. rewrite (nth_map_gen _ data' t []) by lia. split.
      + intros y x [Y X]. unfold img_of. replace (Z.to_nat (y + Z.of_nat a)) with (Z.to_nat y + a) by lia. replace (Z.to_nat (x + Z.of_nat b)) with (Z.to_nat x + b) by lia.
        apply (Di (t, Z.to_nat y, Z.to_nat x)). split; [exact T|lia].
      + intros y x [Y X] V. unfold img_of in V. destruct (Do (t, Z.to_nat y, Z.to_nat x)) as ([[t0 y0] x0] & (R1 & R2 & R3) & E1); [split; [exact T|lia]|exact V|].
        unfold placed in E1. injection E1 as _ Ey Ex. unfold in_grid. lia.
    - intros t T. destruct Rm as [Z0|[Rm _]]; [left; exact Z0|right]. rewrite Rg. exact (room_enough g data t 1 L Rm T).
    - intros t T. assert (T' : t < g_nt g') by lia. assert (L2 : length data' = g_nt g') by lia. destruct Rm as [Z0|[_ [Rr|Rm]]]; [left; exact Z0| |].
      + rewrite Rr. destruct Rm' as [Z0|Rm']; [left; exact Z0|right; exact (room_enough g' data' t 1 L2 Rm' T')].
      + destruct Rm' as [Z0|Rm']; [left; exact Z0|right]. destruct (g_regional g'); [exact (room_enough g' data' t 1 L2 Rm' T')|].
        assert (C := room_enough g' data' t _ L2 Rm T'). replace (Z.of_nat (2 * Z.to_nat (g_R g))) with (2 * g_R g)%Z in C by lia. exact C.
    - exact P.
    - exact P'. }
  split.
  - intros [[t y] x] (T & Y & X). cbn [placed value_at]. rewrite (nth_map_gen _ im' t dark) by lia. rewrite (nth_map_gen _ im t dark) by lia. rewrite !flat_at by lia.
    destruct (H t T) as [Hi _]. rewrite <- (Hi (Z.of_nat y) (Z.of_nat x)) by (unfold in_grid; lia). rewrite !Nat2Z.inj_add. reflexivity.
  - intros [[t y] x] (T & Y & X) V. cbn [value_at] in V. rewrite (nth_map_gen _ im' t dark) in V by lia. rewrite flat_at in V by lia.
    destruct (H t T) as [_ Ho]. destruct (Ho (Z.of_nat y) (Z.of_nat x) ltac:(unfold in_grid; lia) V) as [Y2 X2]. exists (t, y - a, x - b). split; [split; [exact T|lia]|]. cbn [placed]. f_equal; [f_equal|]; lia.
Qed.

(** In row-major order. *)
Lemma flat_order ny nx t y x t2 y2 x2 : y < ny -> x < nx -> y2 < ny -> x2 < nx ->
  (flat ny nx (t, y, x) <= flat ny nx (t2, y2, x2) <-> t < t2 \/ t = t2 /\ (y < y2 \/ y = y2 /\ x <= x2)).
Proof.
  intros Y X Y2 X2. cbn [flat].
  assert (A : t < t2 -> t * ny + y < t2 * ny + y2) by nia. assert (A' : t2 < t -> t2 * ny + y2 < t * ny + y) by nia.
  assert (B : forall u v, u < v -> u * nx + x < v * nx + x2) by (intros; nia). assert (B' : forall u v, u < v -> u * nx + x2 < v * nx + x) by (intros; nia).
  destruct (Nat.lt_trichotomy t t2) as [H|[->|H]].
  - specialize (A H). specialize (B _ _ A). lia.
  - destruct (Nat.lt_trichotomy y y2) as [H|[->|H]]; [|lia|].
    + assert (C := B (t2 * ny + y) (t2 * ny + y2) ltac:(lia)). lia.
    + assert (C := B' (t2 * ny + y2) (t2 * ny + y) ltac:(lia)). lia.
  - specialize (A' H). specialize (B' _ _ A'). lia.
Qed.

(** As claimed: a cut-out holding every extreme cell, tracked in regional mode, has the
    events of the whole grid. It fails when an event lies at the edge of the cut-out: the
    edge is repeated outwards before holes are filled, so that a piece too small for the
    opening survives. *)
Theorem C157_cut_out_has_the_same_events_refuted :
  exists a b g g' k data data' F n mg st F' n' mg' st',
    cut_out a b g g' data data' /\ g_regional g' = true /\ g_nx g < g_nx g' /\ g_R g = 1%Z /\ g_T g = 0%Z /\
    fresh_run g k data = Ok (F, n, mg, st) /\ fresh_run g' k data' = Ok (F', n', mg', st') /\ ~ cut_events a b g g' F F'.
Proof.
  set (row := fun l => map (Nat.eqb 1) (concat l)).
  exists 1, 0, (mkGrid true 2 4 7 (repeat true 28) 1 0 (ByAbsolute 1)), (mkGrid true 2 5 8 (repeat true 40) 1 0 (ByAbsolute 1)), (mkTracking false false (fun _ => (0, 0)%Q) 0 [] [2]).
  exists [row [[0;1;0;0;0;0;0]; [1;1;1;0;0;0;0]; [0;1;0;0;0;0;0]; [0;0;0;0;0;0;0]]; row [[0;1;0;0;1;1;1]; [1;1;1;0;1;1;1]; [0;1;0;0;0;0;0]; [0;0;0;0;0;0;0]]].
  exists [row [[0;0;0;0;0;0;0;0]; [0;1;0;0;0;0;0;0]; [1;1;1;0;0;0;0;0]; [0;1;0;0;0;0;0;0]; [0;0;0;0;0;0;0;0]];
          row [[0;0;0;0;0;0;0;0]; [0;1;0;0;1;1;1;0]; [1;1;1;0;1;1;1;0]; [0;1;0;0;0;0;0;0]; [0;0;0;0;0;0;0;0]]].
  eexists. eexists. eexists. eexists. eexists. eexists. eexists. eexists.
  split.
  { split; [reflexivity|]. split; [reflexivity|]. cbn [g_nt g_ny g_nx g_mask]. split; [lia|]. split; [lia|]. split; [reflexivity|]. split; [reflexivity|]. split; [reflexivity|].
    split. { intros y x Y X. destruct y as [|[|[|[|y]]]]; [| | | |lia]; destruct x as [|[|[|[|[|[|[|x]]]]]]]; try reflexivity; lia. }
    split; [reflexivity|]. split; [reflexivity|]. split.
    - intros [[t y] x] (T & Y & X). destruct t as [|[|t]]; [| |lia]; destruct y as [|[|[|[|y]]]]; try lia; destruct x as [|[|[|[|[|[|[|x]]]]]]]; try reflexivity; lia.
    - intros [[t y] x] (T & Y & X) V. exists (t, y - 1, x). cbn [placed].
      assert (1 <= y <= 4 /\ x < 7).
      { destruct t as [|[|t]]; [| |lia]; destruct y as [|[|[|[|[|y]]]]]; try lia; destruct x as [|[|[|[|[|[|[|[|x]]]]]]]]; try lia; discriminate V. }
      split; [split; [exact T|lia]|]. f_equal; [f_equal; lia|lia]. }
  split; [reflexivity|]. split; [cbn; lia|]. split; [reflexivity|]. split; [reflexivity|]. split; [vm_compute; reflexivity|]. split; [vm_compute; reflexivity|].
  intros [M _]. specialize (M (1, 0, 4)). cbn in M. apply M; [lia|discriminate|reflexivity].
Qed.
Print Assumptions C157_cut_out_has_the_same_events_refuted.

(** A record whose extreme cells all lie in a cut-out, tracked whole - on a regional grid or
    around the globe - and cut out in regional mode. If nothing is filled (radius 0), or no
    extreme cell touches an edge of the cut-out and, around the globe, none comes within twice
    the radius of the edges of the whole grid: the statistics are the same and the
    event cells are the same cells; without merging the number of events and
    which cells are together too, and the whole run returns when the cut-out's does. *)
Theorem C157_cut_out_has_the_same_events_partial (a b : nat) (g g' : grid) (k k' : tracking) (data data' : field)
    (F : list (list Z)) (n : Z) (mg : option merges) (st : stats) :
  cut_out a b g g' data data' -> (g_regional g' = true \/ g_nx g < g_nx g') ->
  (0 <= g_R g)%Z -> Z.even (g_T g) = true ->
  (g_R g = 0%Z \/ room 1 g data /\ (g_regional g' = true \/ room (2 * Z.to_nat (g_R g)) g' data')) ->
  k_merging k' = k_merging k -> fold_right Nat.add 0 (k_chunks k) = g_nt g -> fold_right Nat.add 0 (k_chunks k') = g_nt g ->
  fresh_run g k data = Ok (F, n, mg, st) ->
  (k_merging k = false -> exists r, fresh_run g' k' data' = Ok r) /\
  forall F' n' mg' st', fresh_run g' k' data' = Ok (F', n', mg', st') ->
    same_figures data data' st st' /\ cut_events a b g g' F F' /\
    (k_merging k = false -> n' = n /\ cut_grouping a b g g' F F').
Proof.
  intros Cut Wr R0 Te Rm Km Ch Ch' Rn. destruct (run_fills g k data _ Rn) as (s & Fs). destruct (cut_fill a b g g' data data' s Cut R0 Te Rm Fs) as (s' & Fs' & Eq & Im).
  destruct Cut as (Rg & Nt & Ly & Lx & _ & _ & Ru & _ & L & L' & _).
  assert (L2 : length data' = g_nt g') by lia. assert (Ch2 : fold_right Nat.add 0 (k_chunks k') = g_nt g') by lia.
  assert (Sr : forall c, in_range (g_nt g) (g_ny g) (g_nx g) c -> in_range (g_nt g') (g_ny g') (g_nx g') (placed a b c)) by (intros [[t y] x]; unfold in_range, placed; lia).
  assert (Si : forall c d, in_range (g_nt g) (g_ny g) (g_nx g) c -> in_range (g_nt g) (g_ny g) (g_nx g) d -> placed a b c = placed a b d -> c = d).
  { intros [[t y] x] [[t2 y2] x2] _ _. unfold placed. intro E. injection E as -> E1 E2. f_equal; [f_equal|]; lia. }
  assert (St : forall v c d, in_range (g_nt g) (g_ny g) (g_nx g) c -> in_range (g_nt g) (g_ny g) (g_nx g) d ->
     (touching v (negb (g_regional g')) (g_nx g') (placed a b c) (placed a b d) <-> touching v (negb (g_regional g)) (g_nx g) c d)).
  { intros v [[t y] x] [[t2 y2] x2] (_ & _ & X1) (_ & _ & X2). unfold touching, placed, col_next, dist1. rewrite Rg. cbn [negb].
    destruct Wr as [Wr|Wr]; [rewrite Wr; cbn [negb]; destruct v; intuition (discriminate || lia)|]. destruct (g_regional g'), v; cbn [negb]; intuition (discriminate || lia). }
  assert (Im2 : forall d, in_range (g_nt g') (g_ny g') (g_nx g') d -> value_at (g_nx g') s' d = true -> exists c, in_range (g_nt g) (g_ny g) (g_nx g) c /\ placed a b c = d) by (rewrite Nt; exact Im).
  clear Im. rename Im2 into Im.
  assert (Fo : drops_alike g g' (placed a b) s s' (s_threshold st)).
  { intros e e' (Re & Xe & Me) (Re' & Xe' & Me'). left.
    assert (Mv := extreme_moved g g' data data' s s' (placed a b) L L2 Fs Fs' Sr Eq).
    destruct (extreme_image g g' data' s' (placed a b) L2 Fs' Im e' Re' Xe') as (c & Rc & <-).
    assert (Xc := proj1 (Mv c Rc) Xe'). specialize (Me c Rc Xc). specialize (Me' (placed a b e) (Sr e Re) (proj2 (Mv e Re) Xe)).
    assert (e = c); [|subst c; constructor]. destruct e as [[t y] x], c as [[t2 y2] x2]. destruct Re as (T & Y & X), Rc as (T2 & Y2 & X2).
    apply flat_order in Me; try assumption. unfold placed in Me'. apply flat_order in Me'; try lia.
    assert (t = t2 /\ y = y2 /\ x = x2) as (-> & -> & ->) by lia. reflexivity. }
  split.
  - intro Kf. apply (second_returns g g' k k' data data' s s' (placed a b) F n mg st Ru Km L L2 Ch Ch2 Fs Fs' Rn Sr Si St Eq Im Fo). congruence.
  - intros F' n' mg' st' Rn'.
    destruct (runs_related g g' k k' data data' s s' (placed a b) F F' n n' mg mg' st st' Ru Km L L2 Ch Ch2 Fs Fs' Rn Sr Si St Eq Im Fo Rn') as (Fg & Mv & Gp).
    split; [exact Fg|]. split; [destruct Mv as [M1 M2]; split; [exact M1|intros d Rd; rewrite <- Nt in Rd; exact (M2 d Rd)]|exact Gp].
Qed.
Print Assumptions C157_cut_out_has_the_same_events_partial.

(** A cross of five cells at two steps, around the globe and cut out. *)
Definition cross (w : nat) (top left : nat) : list bool :=
  map (fun i => let y := i / w in let x := i mod w in
         (Nat.eqb y (top + 1) && Nat.leb left x && Nat.leb x (left + 2)) || (Nat.eqb x (left + 1) && Nat.leb top y && Nat.leb y (top + 2))) (seq 0 (w * w)).
Example C157_case :
  let g := mkGrid true 2 5 5 (repeat true 25) 1 0 (ByAbsolute 1) in let g' := mkGrid false 2 7 7 (repeat true 49) 1 0 (ByAbsolute 1) in
  let data := [cross 5 1 1; cross 5 1 1] in let data' := [cross 7 2 2; cross 7 2 2] in
  cut_out 1 1 g g' data data' /\ room 1 g data /\ room 2 g' data' /\
  exists F n mg st F' n' mg' st', fresh_run g (simple_tracking 2) data = Ok (F, n, mg, st) /\ fresh_run g' (simple_tracking 2) data' = Ok (F', n', mg', st') /\
    n = 1%Z /\ id_of 5 F (1, 2, 2) = 1%Z /\ id_of 7 F' (1, 3, 3) = 1%Z.
Proof.
  cbv zeta. split; [|split; [|split]].
  - split; [reflexivity|]. split; [reflexivity|]. cbn [g_nt g_ny g_nx g_mask]. split; [lia|]. split; [lia|]. split; [reflexivity|]. split; [reflexivity|]. split; [reflexivity|].
    split. { intros y x Y X. destruct y as [|[|[|[|[|y]]]]]; try lia; destruct x as [|[|[|[|[|x]]]]]; try reflexivity; lia. }
    split; [reflexivity|]. split; [reflexivity|]. split.
    + intros [[t y] x] (T & Y & X). destruct t as [|[|t]]; [| |lia]; destruct y as [|[|[|[|[|y]]]]]; try lia; destruct x as [|[|[|[|[|x]]]]]; try reflexivity; lia.
    + intros [[t y] x] (T & Y & X) V. exists (t, y - 1, x - 1). cbn [placed].
      assert (1 <= y <= 5 /\ 1 <= x <= 5).
      { destruct t as [|[|t]]; [| |lia]; destruct y as [|[|[|[|[|[|[|y]]]]]]]; try lia; destruct x as [|[|[|[|[|[|[|x]]]]]]]; try lia; discriminate V. }
      split; [split; [exact T|lia]|]. f_equal; [f_equal; lia|lia].
  - intros t y x (T & Y & X) V. cbn [g_nt g_ny g_nx] in *. destruct t as [|[|t]]; [| |lia]; destruct y as [|[|[|[|[|y]]]]]; try lia; destruct x as [|[|[|[|[|x]]]]]; try lia; discriminate V.
  - intros t y x (T & Y & X) V. cbn [g_nt g_ny g_nx] in *. destruct t as [|[|t]]; [| |lia]; destruct y as [|[|[|[|[|[|[|y]]]]]]]; try lia; destruct x as [|[|[|[|[|[|[|x]]]]]]]; try lia; discriminate V.
  - do 8 eexists. split; [vm_compute; reflexivity|]. split; [vm_compute; reflexivity|]. split; [reflexivity|]. split; reflexivity.
Qed.
