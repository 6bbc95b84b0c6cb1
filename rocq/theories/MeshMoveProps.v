(** C156: the numbers of the cells of a mesh do not matter. *)
From Verif Require Import Base Graph Morph MorphSpec MorphMeshProofs Label LabelSpec LabelProofs Filter Overlap Merge MergeSpec Cluster ClusterSpec MeshPart Parallel ParallelProps Run
  MeshRun MeshRunProofs MeshRunLimits MeshRunProps StatsRunProps MeshMoveSpec MeshMoveProofs MeshMoveRunProofs.
Open Scope nat_scope.

(** A mesh whose cells are numbered otherwise, whose columns of neighbours are in another
    order, and the same data on it: the run gives the same events on the same cells, as
    many of them, and the same statistics.  The centroids, the tables and search of the
    partition, the order of sets, the length of the blocks and the iteration limit may
    all differ, since no two objects of a step have a common successor.  Missing is the
    case with merges, where it is false. *)
Theorem C156_cell_numbers_partial (sig : nat -> nat) (h h' : mesh_setup) (y y' : mesh_tracking) (data data' : list (list bool)) (objs : list (list Z))
    (F : list (list Z)) (N : Z) (mg : option merges) (st : stats) :
  setup_ok h data -> setup_ok h' data' -> same_mesh sig h h' -> moved_steps false (length (h_nbs h)) sig data data' -> y_thr y' = y_thr y ->
  set_order (y_order y) -> set_order (y_order y') -> 0 < y_limit y -> 0 < y_limit y' ->
  fresh_mesh_run h y data = Ok (F, N, mg, st) -> object_labelling (h_nbs h) (h_mask h) (with_id F) objs ->
  (forall p q c, consecutive_overlap (h_area h) (y_thr y) objs p c -> consecutive_overlap (h_area h) (y_thr y) objs q c -> p = q) ->
  exists F' mg' st', fresh_mesh_run h' y' data' = Ok (F', N, mg', st') /\ moved_events (length (h_nbs h)) sig F F' /\ same_stats st' st.
Proof. intros Hs Hs' Sm Md Et Ho Ho' Li Li' R Lab Sg. exact (runs_moved h h' sig Sm y y' data data' objs F N mg st Hs Hs' Md Et Ho Ho' Li Li' R Lab Sg). Qed.
Print Assumptions C156_cell_numbers_partial.

(** Eight cells in a row, numbered from either end: same mesh, same tables, same
    distances.  Two objects join, and the cell between them is as near to one as to the
    other: it goes to the one with the smaller numbers. *)
Definition row8 : mesh_setup := mkMesh (row_mesh 8) (repeat true 8) 0 0%Z (ByAbsolute 0) (repeat 1%Q 8).
Definition tables8 : mesh_tracking := mkMeshTracking no_centroid (1#2) (line_nbs 8) (fun _ _ => 1%Q) (fun _ => 40) as_given 3 10.
Definition flip8 (k : nat) : nat := 7 - k.
Definition join8 := row_days [[1;0;1;0;0;0;0;0]; [1;1;1;0;0;0;0;0]; [0;0;1;1;1;1;1;1]].
Lemma below8 (P : nat -> Prop) : P 0 -> P 1 -> P 2 -> P 3 -> P 4 -> P 5 -> P 6 -> P 7 -> forall k, k < 8 -> P k.
Proof. intros A B C D E F G H k K. do 8 (destruct k as [|k]; [assumption|]). lia. Qed.
Lemma flip8_mesh : same_mesh flip8 row8 row8.
Proof.
  assert (L : length (h_nbs row8) = 8) by reflexivity. unfold same_mesh. rewrite L. split; [reflexivity|]. split; [|split; [|split; [|split; [|auto]]]].
  - unfold renumbers, flip8. split; intros; lia.
  - assert (D : forall i j, i < 8 -> j < 8 -> memZ (Z.of_nat (flip8 j)) (Morph.row (row_mesh 8) (flip8 i)) = memZ (Z.of_nat j) (Morph.row (row_mesh 8) i)).
    { intros i j I J. revert j J. pattern i. revert i I. apply below8; intros j J; pattern j; revert j J; apply below8; reflexivity. }
    intros i j I J. unfold adj. rewrite <- !memZ_In. cbn [h_nbs row8]. rewrite (D i j I J). reflexivity.
  - split; [reflexivity|]. split; [reflexivity|]. apply below8; reflexivity.
  - split; [reflexivity|]. split; [reflexivity|]. apply below8; reflexivity.
Qed.
Lemma flip8_steps data : (forall d, In d data -> length d = 8) -> moved_steps false 8 flip8 data (map (@rev bool) data).
Proof.
  intro L. unfold moved_steps. rewrite map_length. split; [reflexivity|]. intros t T. rewrite (map_nth0 _ _ t []) by exact T.
  assert (E := L _ (nth_In data [] T)). split; [exact E|]. split; [rewrite rev_length; exact E|]. intros k K. unfold flip8. rewrite rev_nth by lia. rewrite E. f_equal. lia.
Qed.
Theorem C156_cell_numbers_refuted : exists (sig : nat -> nat) (h : mesh_setup) (y : mesh_tracking) (data data' : list (list bool)) F N mg st F' mg',
  setup_ok h data /\ setup_ok h data' /\ same_mesh sig h h /\ moved_steps false (length (h_nbs h)) sig data data' /\ set_order (y_order y) /\
  (forall i j, y_dist y i j = 1%Q) /\ fresh_mesh_run h y data = Ok (F, N, mg, st) /\ fresh_mesh_run h y data' = Ok (F', N, mg', st) /\
  ~ moved_events (length (h_nbs h)) sig F F'.
Proof.
  exists flip8, row8, tables8, join8, (map (@rev bool) join8). do 6 eexists.
  split; [apply (row_input 8 join8); reflexivity|]. split; [apply (row_input 8 (map (@rev bool) join8)); reflexivity|]. split; [exact flip8_mesh|].
  split; [apply flip8_steps; intros d [<-|[<-|[<-|[]]]]; reflexivity|]. split; [exact as_given_order|]. split; [reflexivity|].
  split; [vm_compute; reflexivity|]. split; [vm_compute; reflexivity|].
  intros (_ & _ & M). assert (X := M 1 0 1 1 ltac:(cbn; lia) ltac:(cbn; lia) ltac:(cbn; lia) ltac:(cbn; lia) ltac:(cbn; discriminate) ltac:(cbn; discriminate)).
  cbn in X. destruct X as [_ X]. discriminate (X eq_refl).
Qed.
Print Assumptions C156_cell_numbers_refuted.

(** Two objects that never meet, on the row numbered from either end and other tables. *)
Definition apart8 := row_days [[1;1;1;1;1;1;0;1]; [0;1;1;1;1;0;0;1]; [0;0;1;1;0;0;1;1]].
Example C156_case : exists F mg st objs,
  setup_ok row8 apart8 /\ setup_ok row8 (map (@rev bool) apart8) /\ same_mesh flip8 row8 row8 /\ moved_steps false 8 flip8 apart8 (map (@rev bool) apart8) /\
  fresh_mesh_run row8 tables8 apart8 = Ok (F, 2%Z, mg, st) /\ object_labelling (row_mesh 8) (repeat true 8) (with_id F) objs /\
  (forall p q c, consecutive_overlap (repeat 1%Q 8) (1#2) objs p c -> consecutive_overlap (repeat 1%Q 8) (1#2) objs q c -> p = q) /\
  exists mg' st', fresh_mesh_run row8 tables8 (map (@rev bool) apart8) = Ok ([[1;0;2;2;2;2;2;2]; [1;0;0;2;2;2;2;0]; [1;1;0;0;2;2;0;0]]%Z, 2%Z, mg', st').
Proof.
  assert (A8 : forall d, In d apart8 -> length d = 8) by (intros d [<-|[<-|[<-|[]]]]; reflexivity).
  do 3 eexists. exists (mesh_objects (row_mesh 8) (repeat true 8) apart8).
  split; [apply (row_input 8 apart8); reflexivity|]. split; [apply (row_input 8 (map (@rev bool) apart8)); reflexivity|]. split; [exact flip8_mesh|]. split; [exact (flip8_steps _ A8)|].
  split; [vm_compute; reflexivity|]. split; [apply row_objects; reflexivity|]. split; [|do 2 eexists; vm_compute; reflexivity].
  intros p q c P Q0. destruct (Z.eq_dec p q) as [H|H]; [exact H|exfalso].
  assert (Sl : labelled_series (length (repeat 1%Q 8)) (mesh_objects (row_mesh 8) (repeat true 8) apart8)).
  { destruct (row_input 8 apart8) as (H1 & H2 & _ & _ & H3); [reflexivity..|]. apply (lab_series _ _ _ H1 H2 H3). exists 0, 0. vm_compute. auto 10 with arith. }
  assert (Hw : forall x, In x (repeat 1%Q 8) -> (0 < x)%Q) by (intros x I; apply repeat_spec in I; subst; reflexivity).
  assert (X := merging_some _ _ no_centroid _ _ _ _ Sl Hw H P Q0). vm_compute in X. exact X.
Qed.
