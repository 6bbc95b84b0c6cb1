(** Property theorems C183: the unit of cell_areas does not matter. *)
From Verif Require Import Base Morph MorphSpec Label Filter Overlap Merge MergeWitness Partition Cluster MeshPart Parallel ParallelProps Run MeshRun MeshRunProps RelateSpec MeshMoveSpec MeshMoveProps SteadyProps UnitSpec UnitProofs.
Open Scope nat_scope.

(** ** C183 *)

(** A run on a mesh with every cell area in a unit [c] times smaller: the same IDs, the
    same number of events, the same merges with their areas in that unit, the same
    statistics, or the same failure. *)
Theorem C183_mesh_run (h : mesh_setup) (y : mesh_tracking) (data : field) (c : Q) (areas : list Q) :
  (0 < c)%Q -> areas_in_unit c (h_area h) areas ->
  both (fun r r' =>
          match r, r' with (F, N, mg, st), (F', N', mg', st') =>
            F' = F /\ N' = N /\ same_stats st' st /\
            match mg, mg' with Some a, Some b => merges_in_unit c a b | None, None => True | _, _ => False end
          end)
    (fresh_mesh_run h y data) (fresh_mesh_run (with_areas h areas) y data).
Proof.
  intros Cp Hw. unfold fresh_mesh_run, run, run_preprocess. cbn [effective t_checkpoint t_data t_scratch loads saves].
  change (clean_mesh (with_areas h areas) data) with (clean_mesh h data). destruct (clean_mesh h data) as [f|e]; [|reflexivity]. cbn [snd].
  assert (A := fun x => total_unit c (h_area h) areas Hw h (with_areas h areas) x eq_refl eq_refl). unfold stats_of.
  rewrite (sc_zero c Cp _ _ (A (f_keep f))). destruct (Nat.eqb (total_area_IDed f) 0); [reflexivity|]. destruct (Qeq_bool (area_mesh h (f_keep f)) 0); [reflexivity|]. cbn [bind fst snd].
  unfold track_on_mesh. cbn [with_areas h_nbs h_mask h_area].
  assert (T := mesh_unit c Cp (h_area h) areas Hw (y_thr y) (part_nn_mesh (y_nbs y) (y_dist y) (y_reach y)) (y_order y) (h_nbs h) (h_mask h) (y_cent y) (y_block y) (y_limit y) (f_keep f)).
  destruct (track_mesh _ _ (h_area h) _ _ _ _ _ _ _) as [[ev mg]|e], (track_mesh _ _ areas _ _ _ _ _ _ _) as [[ev' mg']|e']; cbn in T; try contradiction; [|reflexivity].
  destruct T as [(F & _) M]. cbn [bind both]. split; [exact F|]. split; [unfold n_events; rewrite F; reflexivity|]. split; [|exact M].
  unfold same_stats. cbn [s_total s_before s_after s_threshold s_accepted s_processed]. repeat (split; [reflexivity|]). apply (sc_div c Cp); apply A.
Qed.
Print Assumptions C183_mesh_run.

(** The events dataset as well: its areas are in the new unit, nothing else differs. *)
Theorem C183_mesh_events (h : mesh_setup) (y : mesh_tracking) (data : field) (c : Q) (areas : list Q) :
  (0 < c)%Q -> areas_in_unit c (h_area h) areas ->
  let tracked w := track_mesh (h_nbs h) (h_mask h) w (y_cent y) (y_thr y) (part_nn_mesh (y_nbs y) (y_dist y) (y_reach y)) (y_order y) (y_block y) (y_limit y) data in
  both (fun a b => events_in_unit c (fst a) (fst b) /\ merges_in_unit c (snd a) (snd b)) (tracked (h_area h)) (tracked areas).
Proof. intros Cp Hw. cbv zeta. apply mesh_unit; assumption. Qed.
Print Assumptions C183_mesh_events.

(** On a grid the cell areas have no influence at all on IDs, merges and statistics:
    overlaps and sizes count cells.  Only the areas of the events follow. *)
Theorem C183_grid_run (g : grid) (k : tracking) (data : field) (areas : list Q) :
  fresh_run g (with_grid_areas k areas) data = fresh_run g k data.
Proof.
  unfold fresh_run. cbn [with_grid_areas k_merging k_nn k_centroid k_overlap k_areas k_chunks]. destruct (k_merging k); [|reflexivity].
  unfold run. destruct (run_preprocess _ _ _ _ _ _ _) as [[tr ops] [fs|e]]; [|reflexivity]. cbn [bind snd].
  assert (E : forall ca ca' f, track_merging g (k_nn k) (k_centroid k) (k_overlap k) ca (k_chunks k) f = track_merging g (k_nn k) (k_centroid k) (k_overlap k) ca' (k_chunks k) f).
  { intros. unfold track_merging, track_grid, track_objects, cluster_rename, n_events. destruct (event_table _ _) as [[tab n]|e]; [|reflexivity]. cbv zeta. destruct (forallb _ _); reflexivity. }
  rewrite (E areas (k_areas k)). reflexivity.
Qed.
Print Assumptions C183_grid_run.

Theorem C183_grid_events (nn regional : bool) (nt ny nx : nat) (cent : list bool -> Q * Q) (thr c : Q) (ca ca' : list Q) (sizes : list nat) (data : list bool) :
  areas_in_unit c ca ca' ->
  both (fun a b => events_in_unit c (fst a) (fst b) /\ snd b = snd a)
    (track_grid nn regional nt ny nx cent thr ca sizes data) (track_grid nn regional nt ny nx cent thr ca' sizes data).
Proof.
  intro Hw. unfold track_grid, track_objects. eapply both_bind; [apply (rename_unit c ca ca' Hw); reflexivity|].
  intros ev ev' (R1 & R2 & R3 & R4 & R5 & R6 & R7 & R8). split; [|reflexivity]. cbn [fst]. unfold events_in_unit. cbn [v_field v_count v_global v_presence v_start v_end v_area v_ledger]. rewrite R1. auto 10.
Qed.
Print Assumptions C183_grid_events.

(** Eight cells in a row, of areas 1 and 2 in turn, and the same in a unit
    1000 times smaller: two objects merge, and the recorded areas are 1000 each. *)
Definition uneven : list Q := [1;2;1;2;1;2;1;2]%Q.
Definition uneven_fine : list Q := map (Qmult 1000) uneven.
Example C183_mesh_case :
  (0 < 1000)%Q /\ areas_in_unit 1000 uneven uneven_fine /\
  exists F a b st st',
    fresh_mesh_run (with_areas row8 uneven) tables8 join8 = Ok (F, 2%Z, Some a, st) /\
    fresh_mesh_run (with_areas row8 uneven_fine) tables8 join8 = Ok (F, 2%Z, Some b, st') /\
    m_areas a = [[1; 1]]%Q /\ m_areas b = [[1000; 1000]]%Q.
Proof.
  split; [reflexivity|]. split; [unfold uneven_fine, areas_in_unit; induction uneven; constructor; [reflexivity|assumption]|].
  do 5 eexists. split; [vm_compute; reflexivity|]. split; [vm_compute; reflexivity|]. split; reflexivity.
Qed.

(** Cells of which one is small: the same IDs on a grid as with equal cells. *)
Example C183_grid_case :
  exists mg st, fresh_run (split_grid 3) (with_grid_areas (split_tracking 3) (repeat 100%Q 27 ++ [1%Q] ++ repeat 100%Q 2)) moving = Ok (moved, 2%Z, mg, st) /\
    fresh_run (split_grid 3) (split_tracking 3) moving = Ok (moved, 2%Z, mg, st).
Proof. eexists. eexists. split; vm_compute; reflexivity. Qed.
