(** Theorem C162: a lower percentile, from data to events. *)
From Coq Require Import String Qround Lqa.
From Verif Require Import Base Morph MorphSpec Label LabelSpec Filter FilterSpec Overlap Merge Partition Cluster ClusterSpec ClusterFinal Detect DetectProofs DetectProps
  Climatology ClimatologySpec ClimatologyProofs Detrend DetrendSpec Histogram HistogramSpec HistogramProofs HistogramWindow HistogramProps DetectRun DetectRunSpec DetectRunProofs DetectRunProps
  Run RunSpec RunProofs RunProps GridRunProps Pipeline PipelineProps RelateSpec RelateProofs RelateProps MeshPart Parallel MeshRun MeshRunProofs MeshRunProps MeshMoveSpec MeshMoveProps GrowProofs GrowProps.
Open Scope string_scope.
Open Scope list_scope.
Open Scope nat_scope.

(** The same call with another threshold_percentile. *)
Definition with_percentile (p : pre_args) (q : Q) : pre_args :=
  let a := p_extreme p in
  mkPre (p_dims p) (p_coords p) (p_method p) (p_window p) (p_orders p)
    (mkArgs (a_method a) q (a_days a) (a_spatial a) (a_method_percentile a) (a_precision a) (a_max a)).
(** The methods whose thresholds grow with the percentile (C61). *)
Definition growing_method (a : extreme_args) : Prop :=
  a_method_percentile a = "exact" \/
  (a_method a = "hobday_extreme" /\ (0 < a_precision a)%Q /\ (0 < a_max a)%Q /\ forall w, a_spatial a = Some w -> (0 < w)%Z).

Section Percentile.
Variables (pinv : matrix -> matrix) (hs : list (Q -> Q)) (dd dc : list string) (dask : bool) (ny nx : nat).
Notation preprocess da cal s p := (preprocess_data pinv hs dd dc dask ny nx da cal s p).

Lemma plans_alike da cal p q m keep pl m' keep' pl' :
  preprocess_plan dd dc dask (ny * nx) da (c_years cal) p = Ok (m, keep, pl) ->
  preprocess_plan dd dc dask (ny * nx) da (c_years cal) (with_percentile p q) = Ok (m', keep', pl') -> m' = m /\ keep' = keep.
Proof.
  unfold preprocess_plan. cbn [with_percentile p_dims p_coords p_method p_window p_orders]. destruct (infer_dims_coords dd dc (p_dims p) (p_coords p)) as [d0|]; [|discriminate]. cbn [lift_det bind].
  destruct (negb dask); [discriminate|]. destruct (validate_data_values (ny * nx) da); [|discriminate]. cbn [lift_data bind].
  destruct (infer_dims_coords dd dc (Some (fst d0)) (Some (snd d0))) as [d1|]; [|discriminate]. cbn [lift_det bind].
  destruct (anomaly_method _ _) as [m0|]; [|discriminate]. cbn [lift_det bind].
  match goal with |- context [bind (lift_det ?e) _] => destruct e as [k0|] end; [|discriminate]. cbn [lift_det bind].
  destruct (infer_dims_coords dd dc (Some (fst d1)) (Some (snd d1))) as [d2|]; [|discriminate]. cbn [lift_det bind].
  destruct (plan_extremes _ (p_extreme p)) as [pl0|]; [|discriminate]. destruct (plan_extremes _ _) as [pl1|]; [|discriminate]. cbn [lift_det bind].
  intros E1 E2. injection E1 as <- <- <-. injection E2 as <- <- <-. split; reflexivity.
Qed.

(** Raising the percentile from [a_percentile (p_extreme p)] to [q]. *)
Lemma extremes_shrink da cal s p q ds ds' :
  growing_method (p_extreme p) -> (0 <= a_percentile (p_extreme p) <= q)%Q -> (q <= 100)%Q ->
  preprocess da cal s p = Ok ds -> preprocess da cal s (with_percentile p q) = Ok ds' ->
  d_years ds' = d_years ds /\ d_doys ds' = d_doys ds /\ (forall c, d_mask ds' c = d_mask ds c) /\ (forall c, d_anomaly ds' c = d_anomaly ds c) /\
  forall t c, c < ny * nx -> d_extreme ds' t c = true -> d_extreme ds t c = true.
Proof.
  intros Gm Q0 Q1 H H'.
  destruct (run_ok _ _ _ _ _ _ _ _ _ _ _ _ H) as (m & keep & pl & dims & coords & thr & P & I & Ne & T & Hx & Hy & ->).
  destruct (run_ok _ _ _ _ _ _ _ _ _ _ _ _ H') as (m' & keep' & pl' & dims' & coords' & thr' & P' & I' & Ne' & T' & Hx' & Hy' & ->).
  destruct (plans_alike _ _ _ _ _ _ _ _ _ _ P P') as [-> ->]. assert (Id := I'). cbn [with_percentile p_dims p_coords] in Id. rewrite I in Id. injection Id as <- <-.
  cbn [d_mask d_extreme d_anomaly d_doys d_threshold d_years]. cbn [with_percentile p_orders p_window] in *.
  split; [reflexivity|]. split; [reflexivity|]. split; [reflexivity|]. split; [reflexivity|].
  destruct (C85_preprocess_checks_everything _ _ _ _ _ _ _ _ _ _ P) as (d1 & c1 & I1 & _ & _ & _ & _ & _ & _ & _ & Do & In0). rewrite I in I1. injection I1 as <- <-.
  destruct (C85_preprocess_checks_everything _ _ _ _ _ _ _ _ _ _ P') as (d2 & c2 & I2 & _ & _ & _ & _ & _ & _ & _ & Do' & In1). rewrite I' in I2. injection I2 as <- <-.
  set (A := fun c => select keep _) in *. set (doys := select keep (c_doys cal)) in *.
  assert (Hd : forall x y, (x == y / 100)%Q -> (x * 100 == y)%Q) by (intros x y E; rewrite E; field).
  intros t c C.
  assert (N0 : 0 < nx) by nia. assert (Y : c / nx < ny) by (apply Nat.div_lt_upper_bound; lia). assert (X : c mod nx < nx) by (apply Nat.mod_upper_bound; lia).
  destruct pl as [q0|q0 pr mx|q0 d|q0 pr mx d ws]; cbn [intended] in In0.
  - destruct In0 as (E1 & E2 & E3). destruct pl' as [q1|q1 pr' mx'|q1 d'|q1 pr' mx' d' ws']; cbn [intended with_percentile p_extreme a_method a_method_percentile a_percentile] in In1; try (destruct In1 as (F1 & F2 & _); congruence).
    destruct In1 as (_ & _ & E4). cbn [run_thresholds] in T, T'. destruct (_ || _); [|discriminate]. injection T as <-. injection T' as <-.
    apply Hd in E3. apply Hd in E4. apply (C61_exact_thresholds_monotone q0 q1 (A c) 1 doys 0 (nth t (A c) None)); lra.
  - destruct In0 as (E1 & E2 & _). destruct Gm as [Gm|(Gm & _)]; congruence.
  - destruct In0 as (E1 & E2 & E3 & E5). destruct pl' as [q1|q1 pr' mx'|q1 d'|q1 pr' mx' d' ws']; cbn [intended with_percentile p_extreme a_method a_method_percentile a_percentile a_days] in In1; try (destruct In1 as (F1 & F2 & _); congruence).
    destruct In1 as (_ & _ & E4 & E6). rewrite E5 in E6. injection E6 as <-. cbn [run_thresholds] in T, T'. destruct (d <? 1)%Z; [discriminate|]. injection T as <-. injection T' as <-.
    apply Hd in E3. apply Hd in E4. apply (C61_exact_thresholds_monotone q0 q1 (A c) (Z.to_nat d) doys (nth t doys 0) (nth t (A c) None)); lra.
  - destruct In0 as (E1 & E2 & E3 & -> & -> & E5 & Es). destruct pl' as [q1|q1 pr' mx'|q1 d'|q1 pr' mx' d' ws']; cbn [intended with_percentile p_extreme a_method a_method_percentile a_percentile a_days a_spatial a_precision a_max] in In1; try (destruct In1 as (F1 & F2 & _); congruence).
    destruct In1 as (_ & _ & E4 & -> & -> & E6 & Es'). rewrite E5 in E6. injection E6 as <-. assert (ws' = ws) by (destruct (a_spatial (p_extreme p)); congruence). subst ws'. apply Hd in E3. apply Hd in E4.
    destruct Gm as [Gm|(_ & Pp & Mp & Wp)]; [congruence|].
    assert (K : (3 <= d <= 733)%Z) by (apply (C120_succeeds_exactly pinv hs dd dc dask ny nx da cal s p m keep (HobdayApprox q0 (a_precision (p_extreme p)) (a_max (p_extreme p)) d ws) dims coords P I); eexists; exact H).
    destruct Do as (_ & _ & _ & _ & Sp & Od). destruct (Od E1 d E5) as (k & Ek). 
    assert (W : exists h, odd_window (option_map Z.to_nat ws) h).
    { destruct (a_spatial (p_extreme p)) as [w|] eqn:Ew.
      - destruct (Sp w eq_refl) as (_ & _ & _ & (j & Ej)). specialize (Wp w eq_refl). subst ws. exists (Some (Z.to_nat j)). cbn [option_map odd_window]. lia.
      - unfold has_name in Es. destruct (lookup_name dims "y"); rewrite Es; [exists (Some 2)|exists None]; [reflexivity|exact Logic.I]. }
    destruct W as (h & W).
    destruct (C61_hobday_thresholds_monotone (a_precision (p_extreme p)) (a_max (p_extreme p)) q0 q1 ny nx doys (fun t c => nth t (A c) None) (option_map Z.to_nat ws) h (Z.to_nat k) (c / nx) (c mod nx)
      Pp Mp ltac:(lra) ltac:(lra) ltac:(lra) W ltac:(lia) ltac:(lia) X Y) as (ts1 & ts2 & T1 & T2 & Mono).
    replace (2 * Z.to_nat k + 1) with (Z.to_nat d) in T1, T2 by lia.
    cbn [run_thresholds] in T, T'. destruct (d <? 1)%Z; [discriminate|]. cbv zeta beta in T, T'.
    match type of T with match ?e with _ => _ end = _ => destruct e end; [|discriminate]. injection T as <-.
    match type of T' with match ?e with _ => _ end = _ => destruct e end; [|discriminate]. injection T' as <-.
    rewrite T1, T2. exact (Mono (nth t doys 0) (nth t (A c) None)).
Qed.

(** The tracker's grids differ in nothing. *)
Lemma same_tracker o ds ds' : d_years ds' = d_years ds -> (forall c, d_mask ds' c = d_mask ds c) -> tracker_grid ny nx o ds' = tracker_grid ny nx o ds.
Proof. intros Y M. unfold tracker_grid, masks. rewrite Y. f_equal. apply map_ext. exact M. Qed.

Definition tracking_of (o : options) : tracking := mkTracking (o_merging o) (o_nn o) (o_centroid o) (o_overlap o) (o_areas o) (o_chunks o).
Lemma track_is_fresh o ds : track_events ny nx o ds = fresh_run (tracker_grid ny nx o ds) (tracking_of o) (flags ny nx ds).
Proof. reflexivity. Qed.

(** Every extreme at the higher percentile is one at the lower; every cell of an event
    at the higher percentile is in an event at the lower, unless it is in the object
    that the filter drops (C160). *)
Theorem C162_lower_percentile_more_event_cells_partial da cal s p q ds ds' o A F n mg st F' n' mg' st' :
  growing_method (p_extreme p) -> (0 <= a_percentile (p_extreme p) <= q)%Q -> (q <= 100)%Q ->
  preprocess da cal s p = Ok ds -> preprocess da cal s (with_percentile p q) = Ok ds' ->
  o_rule o = ByAbsolute A -> (0 <= o_T o)%Z -> Z.even (o_T o) = true -> fold_right Nat.add 0 (o_chunks o) = length (d_years ds) ->
  track_events ny nx o ds = Ok (F, n, mg, st) -> track_events ny nx o ds' = Ok (F', n', mg', st') ->
  let nt := length (d_years ds) in
  (forall t c, c < ny * nx -> d_extreme ds' t c = true -> d_extreme ds t c = true) /\
  exists filled, fill_grid (tracker_grid ny nx o ds) (flags ny nx ds) = Some filled /\
  (forall c, in_range nt ny nx c -> id_of nx F' c <> 0%Z ->
     id_of nx F c <> 0%Z \/ exists e, first_extreme nt ny nx (concat filled) e /\ joined (o_regional o) nt ny nx (concat filled) c e) /\
  (o_merging o = false -> (forall c, in_range nt ny nx c -> id_of nx F' c <> 0%Z -> id_of nx F c <> 0%Z) ->
   forall c d, in_range nt ny nx c -> in_range nt ny nx d -> id_of nx F' c <> 0%Z -> id_of nx F' c = id_of nx F' d -> id_of nx F c = id_of nx F d).
Proof.
  intros Gm Q0 Q1 H H' Ru T0 Te Ch R R' nt. destruct (extremes_shrink _ _ _ _ _ _ _ Gm Q0 Q1 H H') as (Y & _ & M & _ & Ex). split; [exact Ex|].
  rewrite track_is_fresh in R, R'. rewrite (same_tracker o ds ds' Y M) in R'. set (g := tracker_grid ny nx o ds) in *.
  apply (C160_more_extremes_more_event_cells_partial g (tracking_of o) (tracking_of o) A (flags ny nx ds') (flags ny nx ds) F' F n' n mg' mg st' st Ru T0 Te); try assumption.
  - rewrite flags_length, Y. reflexivity.
  - apply flags_length.
  - intros [[t y] x] (T & Yy & Xx). cbn [value_at]. cbn [g tracker_grid g_nt g_ny g_nx] in *. assert (Cc : y * nx + x < ny * nx) by nia.
    rewrite !flags_nth by (try rewrite Y; assumption). apply Ex. exact Cc.
Qed.
End Percentile.
Print Assumptions C162_lower_percentile_more_event_cells_partial.

(** On meshes without exception. *)
Theorem C162_lower_percentile_on_a_mesh pinv hs dd dc dask nx da cal s p q ds ds' h y y' A F n mg st F' n' mg' st' :
  growing_method (p_extreme p) -> (0 <= a_percentile (p_extreme p) <= q)%Q -> (q <= 100)%Q ->
  preprocess_data pinv hs dd dc dask 1 nx da cal s p = Ok ds -> preprocess_data pinv hs dd dc dask 1 nx da cal s (with_percentile p q) = Ok ds' ->
  length (h_nbs h) = nx -> h_rule h = ByAbsolute A -> (0 <= h_T h)%Z -> Z.even (h_T h) = true -> setup_ok h (flags 1 nx ds) -> setup_ok h (flags 1 nx ds') ->
  set_order (y_order y) -> set_order (y_order y') ->
  fresh_mesh_run h y (flags 1 nx ds) = Ok (F, n, mg, st) -> fresh_mesh_run h y' (flags 1 nx ds') = Ok (F', n', mg', st') ->
  forall t i, t < length (d_years ds) -> i < nx -> id_at F' t i <> 0%Z -> id_at F t i <> 0%Z.
Proof.
  intros Gm Q0 Q1 H H' Ln Ru T0 Te Hs Hs' Ho Ho' R R'. destruct (extremes_shrink pinv hs dd dc dask 1 nx _ _ _ _ _ _ _ Gm Q0 Q1 H H') as (Y & _ & M & _ & Ex).
  intros t i T I. apply (C160_more_extremes_on_a_mesh h y' y A (flags 1 nx ds') (flags 1 nx ds) F' F n' n mg' mg st' st); try assumption.
  - rewrite !flags_length, Y. reflexivity.
  - intros u j V. unfold atb in *. destruct (Nat.lt_ge_cases u (length (d_years ds))) as [U|U].
    2: { exfalso. rewrite (nth_overflow (flags 1 nx ds')) in V by (rewrite flags_length, Y; exact U). destruct j; discriminate. }
    destruct (Nat.lt_ge_cases j nx) as [J|J].
    2: { exfalso. rewrite nth_overflow in V; [discriminate|]. unfold flags. rewrite (nth_map_gen _ _ u 0) by (rewrite seq_length, Y; exact U). rewrite map_length, seq_length. lia. }
    rewrite flags_nth in * by (try rewrite Y; lia). apply Ex; [lia|exact V].
  - rewrite flags_length, Y. exact T.
  - rewrite Ln. exact I.
Qed.
Print Assumptions C162_lower_percentile_on_a_mesh.

(** A row of three cells.  Cells 0 and 2 have their extremes in step 4; cell 1 its
    highest value in step 5 and its second highest in step 4. *)
Definition three_cells : list (list value) :=
  [[Finite 1; Finite 1; Finite 1]; [Finite 2; Finite 2; Finite 2]; [Finite 1; Finite 1; Finite 1]; [Finite 2; Finite 2; Finite 2]; [Finite 9; Finite 7; Finite 9]; [Finite 3; Finite 14; Finite 3]].
Definition at_percentile (q : Q) : pre_args := mkPre None None "fixed_baseline" 2 None (mkArgs "global_extreme" q (Some 11%Z) None "exact" (1 # 100) 5).
Definition row_of_three : options := mkOptions true 0 0 (ByAbsolute 1) false false (1 # 2) (fun _ => (0, 0)%Q) [1; 1; 1]%Q [6].
Definition three_run (q : Q) : result DetectRun.run_err dataset := preprocess_data no_pinv [] here here true 1 3 three_cells cal6 (mkSettings 1 true) (at_percentile q).
Definition three_events (q : Q) : option (list (list bool) * list (list Z)) :=
  match three_run q with
  | Ok ds => match track_events 1 3 row_of_three ds with Ok (F, _, _, _) => Some (flags 1 3 ds, F) | Err _ => None end
  | Err _ => None
  end.

(** As claimed, no event cell is lost.  At the 70th percentile cell 1 joins cells 0 and
    2 in step 4 to one object, the first, which is dropped; at the 90th cell 2 was in an
    event. *)
Theorem C162_cells_lost_refuted : exists ds ds' F F' n n' mg mg' st st',
  growing_method (p_extreme (at_percentile 70)) /\ three_run 70 = Ok ds /\ three_run 90 = Ok ds' /\
  track_events 1 3 row_of_three ds = Ok (F, n, mg, st) /\ track_events 1 3 row_of_three ds' = Ok (F', n', mg', st') /\
  id_at F' 4 2 <> 0%Z /\ id_at F 4 2 = 0%Z /\ d_extreme ds 4 2 = true.
Proof.
  assert (E : match three_run 70, three_run 90 with
    | Ok ds, Ok ds' => match track_events 1 3 row_of_three ds, track_events 1 3 row_of_three ds' with
      | Ok (F, _, _, _), Ok (F', _, _, _) => (id_at F' 4 2, id_at F 4 2, d_extreme ds 4 2) | _, _ => (0, 0, false)%Z end
    | _, _ => (0, 0, false)%Z end = (1, 0, true)%Z) by (vm_compute; reflexivity).
  destruct (three_run 70) as [ds|]; [|discriminate]. destruct (three_run 90) as [ds'|]; [|discriminate].
  destruct (track_events 1 3 row_of_three ds) as [[[[F n] mg] st]|] eqn:R; [|discriminate]. destruct (track_events 1 3 row_of_three ds') as [[[[F' n'] mg'] st']|] eqn:R'; [|discriminate].
  injection E as E1 E2 E3. exists ds, ds', F, F', n, n', mg, mg', st, st'. split; [left; reflexivity|]. split; [reflexivity|]. split; [reflexivity|]. split; [exact R|]. split; [exact R'|].
  split; [rewrite E1; discriminate|]. split; assumption.
Qed.
Print Assumptions C162_cells_lost_refuted.

(** The same cells, on the grid where nothing but the first object is lost, and a row of
    eight cells of a mesh, six as cell 0 and two as cell 1. *)
Definition eight_cells : list (list value) :=
  map (fun r => repeat (nth 0 r NaN) 6 ++ repeat (nth 1 r NaN) 2) three_cells.
Definition on_mesh (q : Q) : pre_args := mkPre (Some mesh_dims) (Some mesh_coords) "fixed_baseline" 2 None (mkArgs "hobday_extreme" q (Some 3%Z) None "exact" (1 # 100) 5).
Definition eight_run (q : Q) : result DetectRun.run_err dataset :=
  preprocess_data no_pinv [] ["time"; "ncells"] ["time"; "lat"; "lon"] true 1 8 eight_cells cal6 (mkSettings 1 true) (on_mesh q).
Definition eight_events (q : Q) : option (list (list Z)) :=
  match eight_run q with
  | Ok ds => match fresh_mesh_run row8 tables8 (flags 1 8 ds) with Ok (F, _, _, _) => Some F | Err _ => None end
  | Err _ => None
  end.
Example C162_case :
  three_events 90 = Some (bits [[0;0;0]; [0;0;0]; [0;0;0]; [0;0;0]; [1;0;1]; [0;1;0]], [[0;0;0]; [0;0;0]; [0;0;0]; [0;0;0]; [0;0;1]; [0;1;0]]%Z) /\
  three_events 70 = Some (bits [[0;0;0]; [0;0;0]; [0;0;0]; [0;0;0]; [1;1;1]; [1;1;1]], [[0;0;0]; [0;0;0]; [0;0;0]; [0;0;0]; [0;0;0]; [1;1;1]]%Z) /\
  growing_method (p_extreme (on_mesh 70)) /\
  eight_events 90 = Some [repeat 0 8; repeat 0 8; repeat 0 8; repeat 0 8; [1;1;1;1;1;1;0;0]; [0;0;0;0;0;0;2;2]]%Z /\
  eight_events 70 = Some [[0;0;0;0;0;0;1;1]; repeat 0 8; [0;0;0;0;0;0;2;2]; repeat 0 8; repeat 3 8; repeat 3 8]%Z.
Proof. split; [vm_compute; reflexivity|]. split; [vm_compute; reflexivity|]. split; [left; reflexivity|]. split; vm_compute; reflexivity. Qed.
