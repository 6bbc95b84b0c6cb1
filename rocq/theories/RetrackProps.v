(** Theorem C169: tracking the events that were found once more. *)
From Verif Require Import Base Graph Morph MorphSpec MorphMeshProofs Label LabelSpec LabelProofs Filter FilterSpec FilterProofs FilterProps Overlap OverlapSpec Merge MergeSpec MergeWitness Partition Cluster ClusterSpec ClusterProofs MeshPart Parallel ParallelProps
  Run RunSpec RunProps PipelineProps RelateSpec RelateProofs RelateProps RefineProps MeshRun MeshRunProofs MeshRunLimits MeshRunProps StatsRunProps MeshMoveSpec MeshMoveProofs MeshMoveRunProofs UnmergedProofs LocalProofs RetrackProofs MeshMoveProps.
Open Scope nat_scope.

(** As claimed, the cells of the events that were found, tracked again without filling, give
    the same events.  Wrong on grids: the filter drops the first object of what it is given
    (finding of C17), so every further run loses one more. *)
Theorem C169_grid_refuted : exists (g : grid) (k : tracking) (A : Z) (data : field) (F F' : list (list Z)) (n n' : Z) (mg mg' : option merges) (st st' : stats) (c : cell),
  g_rule g = ByAbsolute A /\ g_R g = 0%Z /\ g_T g = 0%Z /\ length data = g_nt g /\ fold_right Nat.add 0 (k_chunks k) = g_nt g /\
  fresh_run g k data = Ok (F, n, mg, st) /\ fresh_run g k (with_id F) = Ok (F', n', mg', st') /\
  in_range (g_nt g) (g_ny g) (g_nx g) c /\ id_of (g_nx g) F c <> 0%Z /\ id_of (g_nx g) F' c = 0%Z.
Proof.
  exists (belt 3 0), (simple_tracking 3), 1%Z, (bits [[1;0;1;0;0]; [0;0;0;0;0]; [0;1;0;0;0]]). do 8 eexists. exists (0, 0, 2).
  split; [reflexivity|]. split; [reflexivity|]. split; [reflexivity|]. split; [reflexivity|]. split; [reflexivity|].
  split; [vm_compute; reflexivity|]. split; [vm_compute; reflexivity|]. split; [cbn; lia|]. split; [cbn; discriminate|reflexivity].
Qed.
Print Assumptions C169_grid_refuted.

(** Without radius the filling of holes changes nothing in the ocean. *)
Lemma within_none m i j : within m 0 i j -> i = j.
Proof. intro W. remember 0 as z. destruct W; [reflexivity|discriminate]. Qed.
Lemma unfilled_at m mask v i : mesh_ok m -> length v = length m -> length mask = length m -> i < length m -> atb mask i = true ->
  atb (fill_holes_mesh m 0 mask v) i = atb v i.
Proof.
  intros Hm Lv Lm I O. apply eq_true_iff_eq. rewrite (fill_mesh_at m 0 mask v Hm Lm Lv i I). split.
  - intros (c & W & H). apply within_none in W. subst c. destruct (H i (within_here m 0 i)) as [X|H1]; [congruence|]. destruct (H1 i (within_here m 0 i)) as [X|(l & W & V)]; [congruence|]. apply within_none in W. subst l. exact V.
  - intro V. exists i. split; [constructor|]. intros j W. apply within_none in W. subst j. right. intros k W. apply within_none in W. subst k. right. exists i. split; [constructor|exact V].
Qed.

(** On a mesh with an absolute area threshold: whatever the filling and the merges of the first
    run were, its event cells tracked again without filling give the very same
    field of events, the same number and the same table of merges, and nothing is rejected. *)
Theorem C169_tracked_again_partial (h h' : mesh_setup) (y : mesh_tracking) (data : list (list bool)) (A : Z)
    (F : list (list Z)) (N : Z) (mg : option merges) (st : stats) :
  setup_ok h data -> set_order (y_order y) -> h_rule h = ByAbsolute A ->
  h_nbs h' = h_nbs h -> h_mask h' = h_mask h -> h_area h' = h_area h -> h_rule h' = ByAbsolute A -> h_R h' = 0 -> h_T h' = 0%Z ->
  fresh_mesh_run h y data = Ok (F, N, mg, st) ->
  exists st', fresh_mesh_run h' y (map (map (fun v => negb (Z.eqb v 0))) F) = Ok (F, N, mg, st') /\
    s_threshold st' = s_threshold st /\ (s_accepted st' == 1)%Q /\ (s_processed st' == 1)%Q.
Proof.
  intros Hs Ho Ru E1 E2 E3 Ru' R0 T0 R. change (map (map (fun v => negb (Z.eqb v 0))) F) with (with_id F).
  destruct (run_cleaned h y data Hs Ho F N mg st R) as (s & f & Es & Ef & St & Lk & In1 & W & _ & _ & Ex).
  apply fresh_parts in R. destruct R as (s1 & f1 & Es1 & Ef1 & _ & Tr). rewrite Es in Es1. injection Es1 as <-. rewrite Ef in Ef1. injection Ef1 as <-.
  destruct (filled_length h data s Hs Es) as [Ls Rs]. assert (Hs1 := Hs). destruct Hs1 as (B1 & B2 & B3 & B4 & B5).
  assert (Hi : mesh_inputs_ok (h_nbs h) (h_mask h) s) by (split; [exact B1|split; [exact B2|exact Rs]]). rewrite Ru in Ef.
  assert (Rk := kept_length _ _ _ _ _ Hi Ef).
  set (s' := map (fill_holes_mesh (h_nbs h) 0 (h_mask h)) (f_keep f)).
  assert (Ls' : length s' = length s) by (unfold s'; rewrite map_length; lia).
  assert (Rs' : forall d, In d s' -> length d = length (h_nbs h)).
  { intros d I. unfold s' in I. apply in_map_iff in I. destruct I as (v & <- & I). apply fill_mesh_length; auto. }
  assert (Hi' : mesh_inputs_ok (h_nbs h) (h_mask h) s') by (split; [exact B1|split; [exact B2|exact Rs']]).
  destruct (C18_mesh_keeps_objects_above_threshold _ _ _ _ _ Hi Ef) as [Lk1 Kp].
  assert (Hk : forall t i, t < length s -> (ocean_extreme (h_nbs h) (h_mask h) (nth t s' []) i <-> mesh_kept (f_keep f) t i)).
  { intros t i T. assert (At : i < length (h_nbs h) -> atb (h_mask h) i = true -> atb (nth t s' []) i = atb (nth t (f_keep f) []) i).
    { intros I O. unfold s'. rewrite (map_nth0 _ _ t []) by lia. apply unfilled_at; auto. apply Rk, nth_In. lia. }
    unfold ocean_extreme. split.
    - intros (I & O & V). unfold mesh_kept. unfold atb in *. rewrite <- (At I O). exact V.
    - intro K. assert (K1 := K). apply (Kp t i T) in K1. destruct K1 as ((I & O & _) & _). split; [exact I|]. split; [exact O|]. unfold atb in *. rewrite (At I O). exact K. }
  assert (Ex' : exists t i, t < length s /\ mesh_kept (f_keep f) t i).
  { destruct Ex as (t & i & T & X). exists t, i. split; [lia|]. destruct X as (_ & _ & V). exact V. }
  destruct (filter_again _ _ s s' A f Hi Hi' Ef Ls' Hk Ex') as (f' & Ef' & K' & Th').
  destruct (all_accepted _ _ s s' A f Hi Hi' Ef Ls' Hk f' Ef') as [Pos Acc].
  assert (Ar : area_mesh h' = area_mesh h) by (unfold area_mesh; rewrite E3; reflexivity).
  assert (Z1 : Qeq_bool (area_mesh h (f_keep f)) 0 = false).
  { unfold stats_of in St. destruct (Nat.eqb _ 0); [discriminate|]. destruct (Qeq_bool _ 0); [discriminate|reflexivity]. }
  rewrite W. eexists. split; [apply fresh_parts; exists s', f'|].
  - split; [|split; [|split]].
    + unfold fill_time_gaps_mesh. rewrite T0, E1, E2, R0. reflexivity.
    + rewrite Ru', E1, E2. exact Ef'.
    + unfold stats_of. rewrite Ar, K', Z1. destruct (Nat.eqb_spec (total_area_IDed f') 0); [lia|]. reflexivity.
    + rewrite K'. unfold track_on_mesh in *. rewrite E1, E2, E3. exact Tr.
  - cbn [s_threshold s_accepted s_processed]. split; [|split; [exact Acc|]].
    + unfold stats_of in St. destruct (Nat.eqb _ 0); [discriminate|]. destruct (Qeq_bool _ 0); [discriminate|]. injection St as <-. exact Th'.
    + apply Qeq_bool_neq in Z1. unfold Qdiv. apply Qmult_inv_r. exact Z1.
Qed.
Print Assumptions C169_tracked_again_partial.

(** Three steps on a row of eight cells, gaps of up to two steps closed, with an object
    below the threshold and a merge; then the events alone, nothing closed. *)
Definition row8_closed : mesh_setup := mkMesh (row_mesh 8) (repeat true 8) 0 2%Z (ByAbsolute 1) (repeat 1%Q 8).
Definition row8_plain : mesh_setup := mkMesh (row_mesh 8) (repeat true 8) 0 0%Z (ByAbsolute 1) (repeat 1%Q 8).
Example C169_case : let data := row_days [[1;1;0;1;1;1;0;1]; [0;0;0;0;0;0;0;0]; [1;1;1;1;1;1;0;0]] in
  setup_ok row8_closed data /\ exists F N ms st st',
  fresh_mesh_run row8_closed tables8 data = Ok (F, N, Some ms, st) /\ m_parents ms <> [] /\ with_id F <> data /\
  fresh_mesh_run row8_plain tables8 (with_id F) = Ok (F, N, Some ms, st') /\ ~ (s_accepted st == 1)%Q /\ (s_accepted st' == 1)%Q.
Proof.
  cbv zeta. split; [apply (row_input 8); reflexivity|]. do 5 eexists. split; [vm_compute; reflexivity|]. split; [cbn; discriminate|]. split; [vm_compute; discriminate|]. split; [vm_compute; reflexivity|].
  split; [cbv; discriminate|reflexivity].
Qed.
