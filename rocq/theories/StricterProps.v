(** Theorem C163: a higher overlap threshold only divides events. *)
From Verif Require Import Base Graph Morph MorphSpec Label LabelSpec LabelProofs Filter FilterSpec Overlap OverlapSpec Merge MergeSpec MergeWitness Partition Cluster ClusterSpec ClusterProofs MeshPart Parallel ParallelProps
  Run RunSpec RunProps PipelineProps RelateSpec RelateProofs RelateProps RefineProps MeshRun MeshRunProofs MeshRunLimits MeshRunProps StatsRunProps MeshMoveSpec MeshMoveProofs MeshMoveProps UnmergedProofs.
Open Scope nat_scope.

(** [tables8] with another overlap threshold. *)
Definition tables_thr (thr : Q) : mesh_tracking := mkMeshTracking no_centroid thr (line_nbs 8) (fun _ _ => 1%Q) (fun _ => 40) as_given 4 10.

(** As claimed, cells of one event at the higher threshold are cells of one event at the
    lower one.  Wrong on meshes when objects merge: here the object of the second step
    overlaps both objects of the first.  At the lower threshold both are its parents and
    it is divided between them, at the higher one it belongs to one of them alone. *)
Definition two_then_one := row_days [[1;0;1;1;1;1;0;0]; [1;1;1;0;0;0;0;0]; [0;0;0;0;0;0;0;0]; [1;1;1;1;1;1;0;0]].
Theorem C163_mesh_refuted : exists (h : mesh_setup) (y y' : mesh_tracking) (data : list (list bool)) F N mg F' N' mg' st t j k,
  setup_ok h data /\ set_order (y_order y) /\ (y_thr y <= y_thr y')%Q /\ y' = mkMeshTracking (y_cent y) (y_thr y') (y_nbs y) (y_dist y) (y_reach y) (y_order y) (y_block y) (y_limit y) /\
  fresh_mesh_run h y data = Ok (F, N, mg, st) /\ fresh_mesh_run h y' data = Ok (F', N', mg', st) /\
  id_at F' t j <> 0%Z /\ id_at F' t j = id_at F' t k /\ id_at F t j <> id_at F t k.
Proof.
  exists row8, (tables_thr (1#4)), (tables_thr (1#2)), two_then_one. do 7 eexists. exists 1, 0, 2.
  split; [apply (row_input 8 two_then_one); reflexivity|]. split; [exact as_given_order|]. split; [cbn; discriminate|]. split; [reflexivity|].
  split; [vm_compute; reflexivity|]. split; [vm_compute; reflexivity|]. split; [cbn; discriminate|]. split; [reflexivity|cbn; discriminate].
Qed.
Print Assumptions C163_mesh_refuted.

(** The same on a grid with merging. *)
Definition two_then_one_grid := bits [[1;0;1;0;1;1;1;1]; [0;0;1;1;1;0;0;0]].
Definition merging_thr (thr : Q) := mkTracking true true row_centroid thr (repeat 1%Q 8) [2].
Theorem C163_grid_refuted : exists (g : grid) (k k' : tracking) (data : field) F N mg F' N' mg' st c d,
  length data = g_nt g /\ fold_right Nat.add 0 (k_chunks k) = g_nt g /\ k_merging k = true /\ (k_overlap k <= k_overlap k')%Q /\
  k' = mkTracking true (k_nn k) (k_centroid k) (k_overlap k') (k_areas k) (k_chunks k) /\
  fresh_run g k data = Ok (F, N, mg, st) /\ fresh_run g k' data = Ok (F', N', mg', st) /\
  id_of (g_nx g) F' c <> 0%Z /\ id_of (g_nx g) F' c = id_of (g_nx g) F' d /\ id_of (g_nx g) F c <> id_of (g_nx g) F d.
Proof.
  exists (grid8 (ByAbsolute 1) 2), (merging_thr (1#4)), (merging_thr (1#2)), two_then_one_grid. do 7 eexists. exists (1, 0, 2), (1, 0, 4).
  split; [reflexivity|]. split; [reflexivity|]. split; [reflexivity|]. split; [cbn; discriminate|]. split; [reflexivity|].
  split; [vm_compute; reflexivity|]. split; [vm_compute; reflexivity|]. split; [cbn; discriminate|]. split; [reflexivity|cbn; discriminate].
Qed.
Print Assumptions C163_grid_refuted.

(** On grids the event cells and the statistics are the same for any two thresholds,
    and the events of both are parts of the connected events found without merging. *)
Theorem C163_same_cells_on_grids (g : grid) (k k' k0 : tracking) (data : field) (F F' : list (list Z)) (n n' : Z) (mg mg' : option merges) (st st' : stats) :
  length data = g_nt g -> fold_right Nat.add 0 (k_chunks k) = g_nt g -> fold_right Nat.add 0 (k_chunks k') = g_nt g ->
  k_merging k = true -> k_merging k' = true -> k_merging k0 = false ->
  fresh_run g k data = Ok (F, n, mg, st) -> fresh_run g k' data = Ok (F', n', mg', st') ->
  st' = st /\ (forall c, in_range (g_nt g) (g_ny g) (g_nx g) c -> (id_of (g_nx g) F' c <> 0%Z <-> id_of (g_nx g) F c <> 0%Z)) /\
  exists F0 n0, fresh_run g k0 data = Ok (F0, n0, None, st) /\ (n0 <= n)%Z /\ (n0 <= n')%Z /\
    forall c d, in_range (g_nt g) (g_ny g) (g_nx g) c -> in_range (g_nt g) (g_ny g) (g_nx g) d -> id_of (g_nx g) F c <> 0%Z ->
      id_of (g_nx g) F c = id_of (g_nx g) F d \/ id_of (g_nx g) F' c = id_of (g_nx g) F' d -> id_of (g_nx g) F0 c = id_of (g_nx g) F0 d.
Proof.
  intros L Hs Hs' Km Km' K0 R R'. destruct (C154_merging_only_divides_events g k k0 data F n mg st L Hs Km K0 R) as (F0 & n0 & R0 & Fo & Ref & Cn).
  destruct (C154_merging_only_divides_events g k' k0 data F' n' mg' st' L Hs' Km' K0 R') as (F1 & n1 & R1 & Fo' & Ref' & Cn').
  rewrite R0 in R1. injection R1 as <- <- <-. split; [reflexivity|].
  assert (Id : forall c, in_range (g_nt g) (g_ny g) (g_nx g) c -> (id_of (g_nx g) F' c <> 0%Z <-> id_of (g_nx g) F c <> 0%Z)) by (intros c Rc; rewrite (Fo c Rc), (Fo' c Rc); reflexivity).
  split; [exact Id|]. exists F0, n0. split; [exact R0|]. split; [exact Cn|]. split; [exact Cn'|].
  intros c d Rc Rd Nc [E|E]; [apply Ref; assumption|apply Ref'; try assumption; apply Id; assumption].
Qed.
Print Assumptions C163_same_cells_on_grids.

(** On meshes too, with merges or without, whatever else differs between the trackings. *)
Theorem C163_same_cells_on_meshes (h : mesh_setup) (y y' : mesh_tracking) (data : list (list bool)) (F F' : list (list Z)) (N N' : Z) (mg mg' : option merges) (st st' : stats) :
  setup_ok h data -> set_order (y_order y) -> set_order (y_order y') ->
  fresh_mesh_run h y data = Ok (F, N, mg, st) -> fresh_mesh_run h y' data = Ok (F', N', mg', st') ->
  st' = st /\ forall t k, t < length data -> k < length (h_nbs h) -> (id_at F' t k <> 0%Z <-> id_at F t k <> 0%Z).
Proof.
  intros Hs Ho Ho' R R'. destruct (run_cleaned h y data Hs Ho F N mg st R) as (s & f & Es & Ef & St & Lk & _ & W & Lf & Rows & _).
  destruct (run_cleaned h y' data Hs Ho' F' N' mg' st' R') as (s' & f' & Es' & Ef' & St' & _ & _ & W' & Lf' & Rows' & _).
  assert (s' = s) by congruence. subst s'. assert (f' = f) by congruence. subst f'. split; [congruence|]. intros t k T K.
  assert (E := f_equal (fun x => nth k (nth t x []) false) (eq_trans W' (eq_sym W))). cbv beta in E.
  unfold with_id in E. rewrite !(map_nth0 _ _ t []) in E by lia. rewrite !(map_nth0 _ _ k 0%Z) in E by (rewrite ?Rows, ?Rows'; assumption).
  unfold id_at. destruct (Z.eqb_spec (nth k (nth t F' []) 0%Z) 0), (Z.eqb_spec (nth k (nth t F []) 0%Z) 0); cbn in E; try discriminate; tauto.
Qed.
Print Assumptions C163_same_cells_on_meshes.

(** On a mesh, when at the lower threshold no two objects of a step have a common
    successor, the run at the higher threshold returns as well: same event cells, same
    statistics, no recorded merges, events that are parts of those at the lower
    threshold, and at least as many.  Nothing else of the two trackings needs to agree. *)
Theorem C163_higher_overlap_threshold_partial (h : mesh_setup) (y y' : mesh_tracking) (data : list (list bool)) (objs : list (list Z))
    (F : list (list Z)) (N : Z) (mg : option merges) (st : stats) :
  setup_ok h data -> set_order (y_order y) -> set_order (y_order y') -> 0 < y_limit y -> 0 < y_limit y' -> (y_thr y <= y_thr y')%Q ->
  fresh_mesh_run h y data = Ok (F, N, mg, st) -> object_labelling (h_nbs h) (h_mask h) (with_id F) objs ->
  (forall p q c, consecutive_overlap (h_area h) (y_thr y) objs p c -> consecutive_overlap (h_area h) (y_thr y) objs q c -> p = q) ->
  exists F' N' ms', fresh_mesh_run h y' data = Ok (F', N', Some ms', st) /\ m_parents ms' = [] /\ (N <= N')%Z /\
    (forall t k, t < length data -> k < length (h_nbs h) -> (id_at F' t k <> 0%Z <-> id_at F t k <> 0%Z)) /\
    (forall t j u k, t < length data -> u < length data -> j < length (h_nbs h) -> k < length (h_nbs h) ->
       id_at F' t j <> 0%Z -> id_at F' t j = id_at F' u k -> id_at F t j = id_at F u k).
Proof.
  intros Hs Ho Ho' Li Li' Le R Lab Sg.
  destruct (run_cleaned h y data Hs Ho F N mg st R) as (s & f & Es & Ef & St & Lk & In1 & W & Lf & Rows & Ex). rewrite W in Lab.
  assert (Lo : forall t, t < length objs -> length (nth t objs []) = length (h_area h)).
  { intros t T. destruct Lab as (L1 & L2 & _). destruct Hs as (_ & _ & La & _). rewrite La. apply L2. lia. }
  assert (Sub : forall p c, consecutive_overlap (h_area h) (y_thr y') objs p c -> consecutive_overlap (h_area h) (y_thr y) objs p c).
  { intros p c. apply lower_overlap; [destruct Hs as (_ & _ & _ & A & _); exact A|exact Lo|exact Le]. }
  destruct (cleaned_runs h y data Hs Ho s f st objs Es Ef St Ex Lab Sg Li) as (F1 & N1 & ms1 & R1 & _ & W1 & Ev1 & Cn1 & _).
  destruct (cleaned_runs h y' data Hs Ho' s f st objs Es Ef St Ex Lab ltac:(intros p q c A B; apply (Sg p q c); apply Sub; assumption) Li') as (F' & N' & ms' & R' & Nm & W' & Ev' & Cn' & Pos).
  rewrite R1 in R. injection R as <- <- <-. clear R1.
  assert (Id : forall t k, t < length data -> k < length (h_nbs h) -> (id_at F' t k <> 0%Z <-> id_at F1 t k <> 0%Z)).
  { intros t k T K. assert (E := f_equal (fun x => nth k (nth t x []) false) (eq_trans W' (eq_sym W1))). cbv beta in E.
    destruct (run_cleaned h y' data Hs Ho' F' N' _ st R') as (_ & _ & _ & _ & _ & _ & _ & _ & Lf' & Rows' & _).
    unfold with_id in E. rewrite !(map_nth0 _ _ t []) in E by lia. rewrite !(map_nth0 _ _ k 0%Z) in E by (rewrite ?Rows, ?Rows'; assumption).
    unfold id_at. destruct (Z.eqb_spec (nth k (nth t F' []) 0%Z) 0), (Z.eqb_spec (nth k (nth t F1 []) 0%Z) 0); cbn in E; try discriminate; tauto. }
  assert (Same : forall t j u k, t < length data -> u < length data -> j < length (h_nbs h) -> k < length (h_nbs h) -> id_at F' t j <> 0%Z -> id_at F' t j = id_at F' u k -> id_at F1 t j = id_at F1 u k).
  { intros t j u k T U J K Nz E. assert (Nk : id_at F' u k <> 0%Z) by congruence. apply Ev1; try assumption; [apply Id; assumption|apply Id; assumption|].
    apply (chained_mono _ _ _ _ Sub). apply Ev'; assumption. }
  exists F', N', ms'. split; [exact R'|]. split; [exact Nm|]. split; [|split; [exact Id|exact Same]].
  apply (count_le (fun a b => exists t k, t < length data /\ k < length (h_nbs h) /\ id_at F1 t k = a /\ id_at F' t k = b /\ b <> 0%Z)).
  - intros a A. apply Cn1 in A. destruct A as (t & k & T & K & E & Nz). exists (id_at F' t k). assert (Nz' : id_at F' t k <> 0%Z) by (apply Id; [exact T|exact K|congruence]).
    split; [apply Cn'; exists t, k; split; [exact T|split; [exact K|split; [reflexivity|exact Nz']]]|]. exists t, k. split; [exact T|]. split; [exact K|]. split; [exact E|]. split; [reflexivity|exact Nz'].
  - intros a b c _ _ (t & k & T & K & E1 & E2 & Nz) (u & l & U & L & G1 & G2 & _). rewrite <- E1, <- G1. apply Same; try assumption; congruence.
  - lia.
Qed.
Print Assumptions C163_higher_overlap_threshold_partial.

(** Two objects that drift; at the higher threshold the first loses its last step. *)
Definition drifting := row_days [[1;1;1;1;1;1;0;1]; [0;1;1;1;1;0;0;1]; [1;1;0;0;0;0;1;1]].
Example C163_case : exists F mg st objs,
  setup_ok row8 drifting /\ fresh_mesh_run row8 (tables_thr (1#2)) drifting = Ok (F, 2%Z, mg, st) /\ object_labelling (row_mesh 8) (repeat true 8) (with_id F) objs /\
  (forall p q c, consecutive_overlap (repeat 1%Q 8) (1#2) objs p c -> consecutive_overlap (repeat 1%Q 8) (1#2) objs q c -> p = q) /\
  exists mg' st', fresh_mesh_run row8 (tables_thr (3#4)) drifting = Ok ([[1;1;1;1;1;1;0;2]; [0;1;1;1;1;0;0;2]; [3;3;0;0;0;0;2;2]]%Z, 3%Z, mg', st').
Proof.
  do 3 eexists. exists (mesh_objects (row_mesh 8) (repeat true 8) drifting).
  split; [apply (row_input 8 drifting); reflexivity|]. split; [vm_compute; reflexivity|]. split; [apply row_objects; reflexivity|]. split; [|do 2 eexists; vm_compute; reflexivity].
  intros p q c P Q0. destruct (Z.eq_dec p q) as [H|H]; [exact H|exfalso].
  assert (Sl : labelled_series (length (repeat 1%Q 8)) (mesh_objects (row_mesh 8) (repeat true 8) drifting)).
  { destruct (row_input 8 drifting) as (H1 & H2 & _ & _ & H3); [reflexivity..|]. apply (lab_series _ _ _ H1 H2 H3). exists 0, 0. vm_compute. auto 10 with arith. }
  assert (Hw : forall x, In x (repeat 1%Q 8) -> (0 < x)%Q) by (intros x I; apply repeat_spec in I; subst; reflexivity).
  assert (X := merging_some _ _ no_centroid _ _ _ _ Sl Hw H P Q0). vm_compute in X. exact X.
Qed.
