(** C132 when holes are filled: turning the globe away from the seam. *)
From Verif Require Import Base Morph MorphSpec MorphProofs MorphProps Label LabelSpec LabelProofs LabelProps Filter FilterSpec FilterProofs FilterGridProofs FilterAreaProofs FilterMoreProofs FilterWitness FilterProps
  Overlap OverlapSpec Merge MergeSpec MergeProofs MergeLoop MergeWitness Partition PartitionProofs PartitionMore Cluster ClusterSpec ClusterProofs ClusterFinal ClusterPipe ClusterProps
  Run RunSpec RunProofs RunProps GridRunProps RelateSpec RelateProofs RelateProps FlipProps ReverseProofs ReverseProps CutSpec CutProofs CutProps RefineProps UnmergedProofs SteadyProofs SteadyProps MoveGridProofs MoveGridProps PipelineProps TurnSpec TurnProofs.
Open Scope nat_scope.

Lemma off_seam_spaced g data t R : (0 <= R)%Z -> length data = g_nt g -> off_seam (2 * Z.to_nat R) g data -> t < g_nt g ->
  spaced R (Z.of_nat (g_ny g)) (Z.of_nat (g_nx g)) (nth t (map (img_of (g_nx g)) data) (fun _ _ => false)).
Proof.
  intros R0 L Rm T. right. intros y x [Y X] V. rewrite (nth_map_gen _ data t []) in V by lia. unfold img_of in V.
  destruct (Rm t (Z.to_nat y) (Z.to_nat x)) as (C & D); [split; [exact T|lia]|exact V|]. lia.
Qed.
Lemma east_nat nx k x : Z.to_nat (east (Z.of_nat nx) (Z.of_nat k) (Z.of_nat x)) = if Nat.ltb (x + k) nx then x + k else x + k - nx.
Proof. unfold east. destruct (Z.ltb_spec (Z.of_nat x + Z.of_nat k) (Z.of_nat nx)), (Nat.ltb_spec (x + k) nx); lia. Qed.

Lemma turned_fill g shift mask' data data' s s' : let g' := with_mask g mask' in
  g_regional g = false -> (0 <= g_R g)%Z -> Z.even (g_T g) = true -> shift < g_nx g -> length data = g_nt g ->
  moved_data g (turned (g_nx g) shift) data data' -> moved_mask g (turned (g_nx g) shift) mask' ->
  (g_R g = 0%Z \/ off_seam (2 * Z.to_nat (g_R g)) g data /\ off_seam (2 * Z.to_nat (g_R g)) g data') ->
  fill_grid g data = Some s -> fill_grid g' data' = Some s' ->
  forall c, in_range (g_nt g) (g_ny g) (g_nx g) c -> value_at (g_nx g) s' (turned (g_nx g) shift c) = value_at (g_nx g) s c.
Proof.
  intros g' Rg R0 Te Sf L (Ld & Vd) Vm Rm E E'.
  set (dark := (fun _ _ => false) : img).
  unfold fill_grid in E, E'. change (g_regional g') with (g_regional g) in E'. change (g_T g') with (g_T g) in E'. change (g_R g') with (g_R g) in E'. change (g_ny g') with (g_ny g) in E'. change (g_nx g') with (g_nx g) in E'. change (g_mask g') with mask' in E'.
  rewrite Rg in E, E'.
  destruct (preprocess_morph false (g_T g) (g_R g) (Z.of_nat (g_ny g)) (Z.of_nat (g_nx g)) (img_of (g_nx g) (g_mask g)) (map (img_of (g_nx g)) data)) as [im|] eqn:P; [|discriminate].
  destruct (preprocess_morph false (g_T g) (g_R g) (Z.of_nat (g_ny g)) (Z.of_nat (g_nx g)) (img_of (g_nx g) mask') (map (img_of (g_nx g)) data')) as [im'|] eqn:P'; [|discriminate].
  cbn [option_map] in E, E'. injection E as <-. injection E' as <-.
  destruct (C06_masked_out_cells_never_marked _ _ _ _ _ _ _ _ P) as [Lm _]. destruct (C06_masked_out_cells_never_marked _ _ _ _ _ _ _ _ P') as [Lm' _]. rewrite map_length in Lm, Lm'.
  assert (Xs : forall x, (0 <= x < Z.of_nat (g_nx g))%Z -> Z.to_nat (east (Z.of_nat (g_nx g)) (Z.of_nat shift) x) = if Nat.ltb (Z.to_nat x + shift) (g_nx g) then Z.to_nat x + shift else Z.to_nat x + shift - g_nx g).
  { intros x X. rewrite <- east_nat. rewrite Z2Nat.id by lia. reflexivity. }
  assert (H : forall t, t < g_nt g -> turns (Z.of_nat (g_ny g)) (Z.of_nat (g_nx g)) (Z.of_nat shift) (nth t im dark) (nth t im' dark)).
  { apply (record_turns (Z.of_nat (g_ny g)) (Z.of_nat (g_nx g)) (Z.of_nat shift) (g_R g) (g_T g) (img_of (g_nx g) (g_mask g)) (img_of (g_nx g) mask') (g_nt g) R0 Te ltac:(lia)) with (s := map (img_of (g_nx g)) data) (s' := map (img_of (g_nx g)) data').
    - intros y x [Y X]. unfold img_of. rewrite (Xs x X). assert (V := Vm (Z.to_nat y) (Z.to_nat x) ltac:(lia) ltac:(lia)). exact V.
    - rewrite map_length; exact L.
    - rewrite map_length, Ld; exact L.
    - intros t T y x [Y X]. rewrite (nth_map_gen _ data t []) by (rewrite L; exact T). rewrite (nth_map_gen _ data' t []) by (rewrite Ld, L; exact T). unfold img_of. rewrite (Xs x X).
      assert (I : in_range (g_nt g) (g_ny g) (g_nx g) (t, Z.to_nat y, Z.to_nat x)) by (split; [exact T|lia]). exact (Vd _ I).
    - intros t T. destruct Rm as [Z0|[Rm _]]; [left; exact Z0|apply off_seam_spaced; assumption].
    - intros t T. destruct Rm as [Z0|[_ Rm]]; [left; exact Z0|apply off_seam_spaced; try assumption; rewrite Ld; exact L].
    - exact P.
    - exact P'. }
  intros [[t y] x] (T & Y & X). unfold turned. cbn [value_at]. rewrite (nth_map_gen _ im' t dark) by (rewrite Lm', Ld, L; exact T). rewrite (nth_map_gen _ im t dark) by (rewrite Lm, L; exact T).
  rewrite !flat_at; try assumption; [|destruct (Nat.ltb_spec (x + shift) (g_nx g)); lia].
  rewrite <- (H t T (Z.of_nat y) (Z.of_nat x)) by (unfold in_grid; lia). f_equal. rewrite <- east_nat. apply Z2Nat.id.
  apply (east_range (Z.of_nat (g_nx g)) (Z.of_nat shift) (Z.of_nat x)); lia.
Qed.

(** On a global grid with any R_fill, T_fill and area rule: turn data and mask by any number of
    columns, so that neither before nor after an extreme cell lies within twice the filling radius
    of the seam between the last column and the first (with radius 0 no matter where they lie); the
    statistics are the same and the event cells are the turned ones, and without merging the number
    of events and which cells are together too, and the second run returns whenever the first does.
    Missing from the full claim: the dropped objects must correspond or be below the threshold, and
    extreme cells at the seam while holes are filled (the padding of C08 is too narrow there). *)
Theorem C132_filled_partial (g : grid) (k : tracking) (shift : nat) (mask' : list bool) (data data' s s' : field)
    (F : list (list Z)) (n : Z) (mg : option merges) (st : stats) :
  let g' := with_mask g mask' in
  let nt := g_nt g in let ny := g_ny g in let nx := g_nx g in let to_east := turned nx shift in
  g_regional g = false -> (0 <= g_R g)%Z -> Z.even (g_T g) = true -> shift < nx -> length data = nt -> fold_right Nat.add 0 (k_chunks k) = nt ->
  moved_data g (turned (g_nx g) shift) data data' -> moved_mask g (turned (g_nx g) shift) mask' ->
  (g_R g = 0%Z \/ off_seam (2 * Z.to_nat (g_R g)) g data /\ off_seam (2 * Z.to_nat (g_R g)) g data') ->
  fill_grid g data = Some s -> fill_grid g' data' = Some s' ->
  drops_alike g g' to_east s s' (s_threshold st) ->
  fresh_run g k data = Ok (F, n, mg, st) ->
  (k_merging k = false -> exists r, fresh_run g' k data' = Ok r) /\
  forall F' n' mg' st', fresh_run g' k data' = Ok (F', n', mg', st') ->
    same_figures data data' st st' /\ moved_events nt nt ny nx to_east F F' /\
    (k_merging k = false -> n' = n /\ same_grouping nt ny nx to_east F F').
Proof.
  intros g' nt ny nx to_east Rg R0 Te Sf L Ch Md Vm Rm Fs Fs' Fo Rn.
  assert (L' : length data' = g_nt g') by (destruct Md as [Ld _]; rewrite Ld; exact L).
  assert (Eq := turned_fill g shift mask' data data' s s' Rg R0 Te Sf L Md Vm Rm Fs Fs').
  assert (St : forall b c d, in_range nt ny nx c -> in_range nt ny nx d -> (touching b (negb (g_regional g)) nx (to_east c) (to_east d) <-> touching b (negb (g_regional g)) nx c d)).
  { rewrite Rg. exact (turned_touch g shift Sf). }
  assert (Im : forall d, in_range nt ny nx d -> value_at nx s' d = true -> exists c, in_range nt ny nx c /\ to_east c = d) by (intros d R _; exact (turned_onto g shift Sf d R)).
  split.
  - intro Km. exact (second_returns g g' k k data data' s s' to_east F n mg st eq_refl eq_refl L L' Ch Ch Fs Fs' Rn (turned_range g shift Sf) (turned_once g shift Sf) St Eq Im Fo Km).
  - intros F' n' mg' st' Rn'.
    exact (runs_related g g' k k data data' s s' to_east F F' n n' mg mg' st st' eq_refl eq_refl L L' Ch Ch Fs Fs' Rn (turned_range g shift Sf) (turned_once g shift Sf) St Eq Im Fo Rn').
Qed.
Print Assumptions C132_filled_partial.

(** With merging, if no object has two overlapping objects in the step before or in the step after. *)
Theorem C132_filled_steady_partial (g : grid) (k : tracking) (shift : nat) (mask' : list bool) (data data' s s' : field)
    (F : list (list Z)) (n : Z) (mg : option merges) (st : stats) (objs : list (list Z)) :
  let g' := with_mask g mask' in
  let nt := g_nt g in let ny := g_ny g in let nx := g_nx g in let to_east := turned nx shift in
  g_regional g = false -> (0 <= g_R g)%Z -> Z.even (g_T g) = true -> shift < nx -> length data = nt -> fold_right Nat.add 0 (k_chunks k) = nt ->
  moved_data g (turned (g_nx g) shift) data data' -> moved_mask g (turned (g_nx g) shift) mask' ->
  (g_R g = 0%Z \/ off_seam (2 * Z.to_nat (g_R g)) g data /\ off_seam (2 * Z.to_nat (g_R g)) g data') ->
  fill_grid g data = Some s -> fill_grid g' data' = Some s' ->
  drops_alike g g' to_east s s' (s_threshold st) -> k_merging k = true ->
  fresh_run g k data = Ok (F, n, mg, st) ->
  object_numbers (negb (g_regional g)) nt ny nx (in_event nx F) objs -> nothing_merges (ny * nx) (k_overlap k) objs -> nothing_splits (ny * nx) (k_overlap k) objs ->
  exists F' st', fresh_run g' k data' = Ok (F', n, mg, st') /\ same_figures data data' st st' /\ moved_events nt nt ny nx to_east F F' /\ same_grouping nt ny nx to_east F F'.
Proof.
  intros g' nt ny nx to_east Rg R0 Te Sf L Ch Md Mm Rm Fs Fs' Fo Km R Ob Up Down.
  assert (L' : length data' = g_nt g') by (destruct Md as [Ld _]; rewrite Ld; exact L).
  destruct (C154_merging_only_divides_events g k (unmerged k) data F n mg st L Ch Km eq_refl R) as (F0 & n0 & R1 & _).
  destruct (C132_filled_partial g (unmerged k) shift mask' data data' s s' F0 n0 None st Rg R0 Te Sf L Ch Md Mm Rm Fs Fs' Fo R1) as (Ret & _).
  destruct (Ret eq_refl) as (r & R2). fold g' in R2. destruct (any_returns g' (unmerged k) k data' r L' Ch R2) as (F' & n' & mg' & R').
  destruct (C132_filled_partial g k shift mask' data data' s s' F n mg st Rg R0 Te Sf L Ch Md Mm Rm Fs Fs' Fo R) as (_ & Rel).
  destruct (Rel F' n' mg' _ R') as (Fg & (Mv & Im) & _).
  destruct (steady_runs g g' k k data data' to_east false F F' n n' mg mg' st _ objs L L' Ch Ch Km Km eq_refl R R' Ob Up Down) as (-> & -> & Gp); try assumption.
  - intros c Rc. exact (turned_range g shift Sf c Rc).
  - intros [[t y] x] [[t2 y2] x2] (_ & _ & X) (_ & _ & X2). unfold to_east, turned. fold nx in X, X2. intro E. injection E as -> -> E. f_equal. destruct (Nat.ltb_spec (x + shift) nx), (Nat.ltb_spec (x2 + shift) nx); lia.
  - intros b [[t y] x] [[t2 y2] x2] (_ & _ & X) (_ & _ & X2). change (g_regional g') with (g_regional g). change (g_nx g') with nx. fold nx in X, X2. unfold touching, to_east, turned, col_next, dist1. rewrite Rg. cbn [negb].
    destruct (Nat.ltb_spec (x + shift) nx), (Nat.ltb_spec (x2 + shift) nx); destruct b; intuition lia.
  - intros [[t y] x] [[t2 y2] x2] (_ & _ & X) (_ & _ & X2). fold nx in X, X2. unfold mate, to_east, turned. destruct (Nat.ltb_spec (x + shift) nx), (Nat.ltb_spec (x2 + shift) nx); intuition lia.
  - exists F', (snd r). split; [exact R'|]. split; [exact Fg|]. split; [split; assumption|exact Gp].
Qed.
Print Assumptions C132_filled_steady_partial.

(** The pictures of the examples: two crosses on a globe of six rows; [a], [b] are their middle columns. *)
Definition cross_at (nx r c i : nat) : bool :=
  let y := i / nx in let x := i mod nx in
  (Nat.eqb y r && (Nat.eqb x c || Nat.eqb x (if Nat.eqb (c + 1) nx then 0 else c + 1) || Nat.eqb (x + 1) c)) || (Nat.eqb x c && (Nat.eqb (y + 1) r || Nat.eqb y (r + 1))).
Definition crosses (nx a b : nat) : field := [map (fun i => cross_at nx 2 a i || cross_at nx 3 b i) (seq 0 (6 * nx))].
Definition globe (nx : nat) : grid := mkGrid false 1 6 nx (repeat true (6 * nx)) 1 0 (ByAbsolute 1).
Definition plain : tracking := mkTracking false false (fun _ => (0, 0)%Q) 0 [] [1].

Ltac by_cells := intros [[t y] x] (T & Y & X); cbn in T, Y, X; assert (t = 0) by lia; subst t;
  repeat (destruct y as [|y]; [|try lia]); repeat (destruct x as [|x]; [try reflexivity|try lia]); try lia.
Ltac by_rows := intros y x Y X; cbn in Y, X;
  repeat (destruct y as [|y]; [|try lia]); repeat (destruct x as [|x]; [try reflexivity|try lia]); try lia.
Ltac first_is := let V := fresh in split; [cbn; lia|split; [reflexivity|]]; intros [[t y] x] (T & Y & X) V; cbn in T, Y, X; assert (t = 0) by lia; subst t;
  destruct y as [|[|y]]; [| |unfold flat; lia]; repeat (destruct x as [|x]; [try discriminate V; unfold flat; lia|try lia]); unfold flat; lia.

(** At the seam it fails: a cross around the last column loses the arm in the first column, and
    is whole when the globe is turned by two columns; the dropped object is the same. *)
Theorem C132_at_the_seam_refuted :
  exists g k data data' s s' shift F n mg st F' n' mg' st',
    g_regional g = false /\ g_R g = 1%Z /\ g_T g = 0%Z /\ shift < g_nx g /\ moved_data g (turned (g_nx g) shift) data data' /\ moved_mask g (turned (g_nx g) shift) (g_mask g) /\
    fill_grid g data = Some s /\ fill_grid g data' = Some s' /\
    fresh_run g k data = Ok (F, n, mg, st) /\ fresh_run g k data' = Ok (F', n', mg', st') /\
    drops_alike g g (turned (g_nx g) shift) s s' (s_threshold st) /\
    ~ moved_events (g_nt g) (g_nt g) (g_ny g) (g_nx g) (turned (g_nx g) shift) F F'.
Proof.
  exists (globe 8), plain, (crosses 8 3 7), (crosses 8 5 1).
  set (s := match fill_grid (globe 8) (crosses 8 3 7) with Some s => s | None => [] end). set (s' := match fill_grid (globe 8) (crosses 8 5 1) with Some s => s | None => [] end).
  vm_compute in s, s'. exists s, s', 2.
  do 8 eexists. split; [reflexivity|]. split; [reflexivity|]. split; [reflexivity|]. split; [cbn; lia|]. split; [split; [reflexivity|by_cells]|]. split; [by_rows|].
  split; [vm_compute; reflexivity|]. split; [vm_compute; reflexivity|]. split; [vm_compute; reflexivity|]. split; [vm_compute; reflexivity|]. split.
  - intros e e' Fe Fe'. left. cbn [g_nt g_ny g_nx globe g_regional] in *.
    assert (A : first_extreme 1 6 8 (concat s) (0, 1, 3)) by first_is. assert (B : first_extreme 1 6 8 (concat s') (0, 1, 5)) by first_is.
    rewrite (first_unique _ _ _ _ _ _ Fe A), (first_unique _ _ _ _ _ _ Fe' B). constructor.
  - intros [M _]. assert (I : in_range 1 6 8 (0, 3, 0)) by (cbn; lia). destruct (M (0, 3, 0) I) as [M1 _]. cbn in M1. apply M1; [discriminate|reflexivity].
Qed.
Print Assumptions C132_at_the_seam_refuted.

(** Two crosses away from the seam; the second one moves across it. *)
Example C132_filled_case :
  exists s s' F n mg st F' n' mg' st',
    g_R (globe 16) = 1%Z /\ moved_data (globe 16) (turned 16 7) (crosses 16 3 12) (crosses 16 10 3) /\ moved_mask (globe 16) (turned 16 7) (repeat true 96) /\
    off_seam 2 (globe 16) (crosses 16 3 12) /\ off_seam 2 (globe 16) (crosses 16 10 3) /\
    fill_grid (globe 16) (crosses 16 3 12) = Some s /\ fill_grid (globe 16) (crosses 16 10 3) = Some s' /\
    fresh_run (globe 16) plain (crosses 16 3 12) = Ok (F, n, mg, st) /\ fresh_run (globe 16) plain (crosses 16 10 3) = Ok (F', n', mg', st') /\
    drops_alike (globe 16) (globe 16) (turned 16 7) s s' (s_threshold st) /\ id_of 16 F (0, 3, 11) = 1%Z /\ id_of 16 F' (0, 3, 2) = 1%Z.
Proof.
  set (s := match fill_grid (globe 16) (crosses 16 3 12) with Some s => s | None => [] end). set (s' := match fill_grid (globe 16) (crosses 16 10 3) with Some s => s | None => [] end).
  vm_compute in s, s'. exists s, s'.
  do 8 eexists. split; [reflexivity|]. split; [split; [reflexivity|by_cells]|]. split; [by_rows|].
  split; [intros t y x (T & Y & X) V; cbn in T, Y, X; assert (t = 0) by lia; subst t; do 6 (destruct y as [|y]; [do 16 (destruct x as [|x]; [first [discriminate V|cbn; lia]|]); lia|]); lia|].
  split; [intros t y x (T & Y & X) V; cbn in T, Y, X; assert (t = 0) by lia; subst t; do 6 (destruct y as [|y]; [do 16 (destruct x as [|x]; [first [discriminate V|cbn; lia]|]); lia|]); lia|].
  split; [vm_compute; reflexivity|]. split; [vm_compute; reflexivity|]. split; [vm_compute; reflexivity|]. split; [vm_compute; reflexivity|]. split; [|split; reflexivity].
  intros e e' Fe Fe'. left. cbn [g_nt g_ny g_nx globe g_regional] in *.
  assert (A : first_extreme 1 6 16 (concat s) (0, 1, 3)) by first_is. assert (B : first_extreme 1 6 16 (concat s') (0, 1, 10)) by first_is.
  rewrite (first_unique _ _ _ _ _ _ Fe A), (first_unique _ _ _ _ _ _ Fe' B). constructor.
Qed.
