(** Theorem C155 on meshes: a stricter area filter only takes objects away. *)
From Verif Require Import Base Graph Morph MorphSpec Label LabelSpec LabelProofs Filter FilterSpec FilterProofs FilterMeshProofs FilterProps Overlap OverlapSpec Merge MergeSpec MergeWitness Partition
  Cluster ClusterSpec ClusterProofs MeshPart Parallel ParallelProps Run RunSpec RunProps PipelineProps RelateSpec RelateProofs RelateProps RefineProps MeshRun MeshRunProofs MeshRunLimits MeshRunProps StatsRunProps
  MeshMoveSpec MeshMoveProofs MeshMoveProps UnmergedProofs StricterProps ThinProofs.
Open Scope nat_scope.

Definition mesh_rule (h : mesh_setup) (r : area_rule) : mesh_setup := mkMesh (h_nbs h) (h_mask h) (h_R h) (h_T h) r (h_area h).

(** As claimed, cells of one event are cells of one event with the laxer filter.  Wrong with
    merges: here the object of one cell takes a part of its successor when it is kept. *)
Theorem C155_mesh_refuted : exists (h : mesh_setup) (r : area_rule) (y : mesh_tracking) (data : list (list bool)) F N mg st F' N' mg' st' t j k,
  setup_ok h data /\ set_order (y_order y) /\ rule_le (h_rule h) r /\
  fresh_mesh_run h y data = Ok (F, N, mg, st) /\ fresh_mesh_run (mesh_rule h r) y data = Ok (F', N', mg', st') /\
  id_at F' t j <> 0%Z /\ id_at F' t j = id_at F' t k /\ id_at F t j <> id_at F t k.
Proof.
  exists row8, (ByAbsolute 1), (tables_thr (1#4)), two_then_one. do 8 eexists. exists 1, 0, 2.
  split; [apply (row_input 8 two_then_one); reflexivity|]. split; [exact as_given_order|]. split; [cbn; lia|].
  split; [vm_compute; reflexivity|]. split; [vm_compute; reflexivity|]. split; [cbn; discriminate|]. split; [reflexivity|cbn; discriminate].
Qed.
Print Assumptions C155_mesh_refuted.

Lemma kept_subset h r data s f f' : setup_ok h data ->
  fill_time_gaps_mesh h (map (fill_holes_mesh (h_nbs h) (h_R h) (h_mask h)) data) = Some s ->
  filter_small_mesh (h_rule h) (h_nbs h) (h_mask h) s = Ok f -> filter_small_mesh r (h_nbs h) (h_mask h) s = Ok f' -> rule_le (h_rule h) r ->
  (f_threshold f <= f_threshold f')%Q /\
  (forall t i, t < length data -> extreme_ocean (h_nbs h) (h_mask h) (f_keep f') t i -> extreme_ocean (h_nbs h) (h_mask h) (f_keep f) t i) /\
  (forall t i j, t < length data -> extreme_ocean (h_nbs h) (h_mask h) (f_keep f') t i -> extreme_ocean (h_nbs h) (h_mask h) (f_keep f) t j ->
     mesh_chain (h_nbs h) (extreme_ocean (h_nbs h) (h_mask h) (f_keep f) t) i j -> extreme_ocean (h_nbs h) (h_mask h) (f_keep f') t j).
Proof.
  intros Hs Es Ef Ef' Le. destruct (filled_length h data s Hs Es) as [Ls Rs].
  assert (Hi : mesh_inputs_ok (h_nbs h) (h_mask h) s) by (destruct Hs as (A & B & _); split; [exact A|split; [exact B|exact Rs]]).
  assert (Th := threshold_mono_mesh (h_nbs h) (h_mask h) s _ _ _ _ Le Ef Ef').
  destruct (C18_mesh_keeps_objects_above_threshold _ _ _ _ _ Hi Ef) as [_ Kp]. destruct (C18_mesh_keeps_objects_above_threshold _ _ _ _ _ Hi Ef') as [_ Kp'].
  split; [exact Th|]. split.
  - intros t i T (I & M & V). split; [exact I|]. split; [exact M|]. apply (Kp t i ltac:(lia)). apply (Kp' t i ltac:(lia)) in V. destruct V as (O & l & Ob & Q0).
    split; [exact O|]. exists l. split; [exact Ob|]. eapply Qle_lt_trans; eassumption.
  - intros t i j T (I & M & V) (J & Mj & Vj) C. split; [exact J|]. split; [exact Mj|].
    apply (filter_mesh_whole (h_nbs h) (h_mask h) s Hi r f' Ef' t i j ltac:(lia)); [| |exact V].
    + apply (Kp t j ltac:(lia)) in Vj. apply Vj.
    + refine (MeshMoveRunProofs.mesh_chain_ext _ _ _ _ _ _ C). intros c (_ & _ & X). apply (Kp t c ltac:(lia)) in X. apply X.
Qed.

(** With a stricter rule of the same kind, whatever else differs between the trackings, the
    threshold is no lower and the event cells are among those of the laxer run.  If no two objects
    of a step have a common successor in the laxer run, and the overlap threshold is no lower
    either, the stricter run merges nothing and its events are parts of those of the laxer run. *)
Theorem C155_mesh_partial (h : mesh_setup) (r : area_rule) (y y' : mesh_tracking) (data : list (list bool))
    (F F' : list (list Z)) (N N' : Z) (mg mg' : option merges) (st st' : stats) :
  setup_ok h data -> set_order (y_order y) -> set_order (y_order y') -> rule_le (h_rule h) r ->
  fresh_mesh_run h y data = Ok (F, N, mg, st) -> fresh_mesh_run (mesh_rule h r) y' data = Ok (F', N', mg', st') ->
  (s_threshold st <= s_threshold st')%Q /\
  (forall t k, t < length data -> k < length (h_nbs h) -> id_at F' t k <> 0%Z -> id_at F t k <> 0%Z) /\
  (forall objs, object_labelling (h_nbs h) (h_mask h) (with_id F) objs -> 0 < y_limit y -> 0 < y_limit y' -> (y_thr y <= y_thr y')%Q ->
     (forall p q c, consecutive_overlap (h_area h) (y_thr y) objs p c -> consecutive_overlap (h_area h) (y_thr y) objs q c -> p = q) ->
     (exists ms', mg' = Some ms' /\ m_parents ms' = []) /\
     forall t j u k, t < length data -> u < length data -> j < length (h_nbs h) -> k < length (h_nbs h) ->
       id_at F' t j <> 0%Z -> id_at F' t j = id_at F' u k -> id_at F t j = id_at F u k).
Proof.
  intros Hs Ho Ho' Le R R'. set (h' := mesh_rule h r) in *. assert (Hs' : setup_ok h' data) by exact Hs.
  destruct (run_cleaned h y data Hs Ho F N mg st R) as (s & f & Es & Ef & St & Lk & In1 & W & Lf & Rows & Ex).
  destruct (run_cleaned h' y' data Hs' Ho' F' N' mg' st' R') as (s' & f' & Es' & Ef' & St' & Lk' & In1' & W' & Lf' & Rows' & Ex').
  assert (Ess : Some s' = Some s) by (rewrite <- Es', <- Es; reflexivity). injection Ess as ->. cbn [h' mesh_rule h_nbs h_mask h_rule h_area h_R h_T] in *.
  destruct (kept_subset h r data s f f' Hs Es Ef Ef' Le) as (Th & Sub & Whole).
  assert (Cell : forall G g t k, with_id G = f_keep g -> length G = length data -> (forall t, t < length data -> length (nth t G []) = length (h_nbs h)) ->
    t < length data -> k < length (h_nbs h) -> (id_at G t k <> 0%Z <-> nth k (nth t (f_keep g) []) false = true)).
  { intros G g t k E L Rw T K. rewrite <- E. unfold with_id. rewrite (map_nth0 _ _ t []) by lia. rewrite (map_nth0 _ _ k 0%Z) by (rewrite Rw; assumption).
    unfold id_at. rewrite negb_true_iff, Z.eqb_neq. reflexivity. }
  assert (Oc : forall t k, t < length data -> nth k (nth t (f_keep f') []) false = true -> extreme_ocean (h_nbs h) (h_mask h) (f_keep f') t k).
  { intros t k T V. destruct (filled_length h data s Hs Es) as [Ls Rs].
    assert (Hi : mesh_inputs_ok (h_nbs h) (h_mask h) s) by (destruct Hs as (A & B & _); split; [exact A|split; [exact B|exact Rs]]).
    destruct (C18_mesh_keeps_objects_above_threshold _ _ _ _ _ Hi Ef') as [_ Kp']. assert (X := proj1 (Kp' t k ltac:(lia)) V). destruct X as ((A & B & _) & _). split; [exact A|split; [exact B|exact V]]. }
  assert (SubF : forall t k, t < length data -> k < length (h_nbs h) -> id_at F' t k <> 0%Z -> id_at F t k <> 0%Z).
  { intros t k T K Nz. apply (Cell F f t k W Lf Rows T K). apply (Sub t k T). apply (Oc t k T). apply (Cell F' f' t k W' Lf' Rows' T K). exact Nz. }
  split.
  { unfold stats_of in St, St'. destruct (f_areas f); [|]; cbv zeta in St, St'.
    all: repeat match type of St with context [match ?x with _ => _ end] => destruct x; try discriminate St end.
    all: repeat match type of St' with context [match ?x with _ => _ end] => destruct x; try discriminate St' end.
    all: injection St as <-; injection St' as <-; exact Th. }
  split; [exact SubF|]. intros objs Lab Li Li' Lt Sg.
  rewrite W in Lab.
  assert (LabK : length (f_keep f') = length (f_keep f)) by lia.
  assert (Row' : forall t, t < length (f_keep f) -> length (nth t (f_keep f') []) = length (h_nbs h)) by (intros t T; destruct In1' as (_ & _ & _ & _ & X); apply X, nth_In; lia).
  assert (Sub' : forall t i, t < length (f_keep f) -> extreme_ocean (h_nbs h) (h_mask h) (f_keep f') t i -> extreme_ocean (h_nbs h) (h_mask h) (f_keep f) t i) by (intros t i T; apply Sub; lia).
  assert (Whole' : forall t i j, t < length (f_keep f) -> extreme_ocean (h_nbs h) (h_mask h) (f_keep f') t i -> extreme_ocean (h_nbs h) (h_mask h) (f_keep f) t j ->
     mesh_chain (h_nbs h) (extreme_ocean (h_nbs h) (h_mask h) (f_keep f) t) i j -> extreme_ocean (h_nbs h) (h_mask h) (f_keep f') t j) by (intros t i j T; apply Whole; lia).
  set (objs' := only (f_keep f') objs).
  assert (Lab' : object_labelling (h_nbs h) (h_mask h) (f_keep f') objs') by (apply (only_labelling _ _ (f_keep f)); assumption).
  assert (Lo : forall t, t < length objs' -> length (nth t objs' []) = length (h_area h)).
  { intros t T. destruct Lab' as (L1 & L2 & _). destruct Hs as (_ & _ & La & _). rewrite La. apply L2. lia. }
  assert (Ov : forall p c, consecutive_overlap (h_area h) (y_thr y') objs' p c -> consecutive_overlap (h_area h) (y_thr y) objs p c).
  { intros p c O. apply (only_overlap (h_nbs h) (h_mask h) (f_keep f) (f_keep f') objs Lab LabK Row' Sub' Whole').
    refine (lower_overlap _ _ _ _ _ _ _ Lo Lt O). destruct Hs as (_ & _ & _ & A & _). exact A. }
  destruct (cleaned_runs h y data Hs Ho s f st objs Es Ef St Ex Lab Sg Li) as (F1 & N1 & ms1 & R1 & _ & _ & Ev1 & _).
  destruct (cleaned_runs h' y' data Hs' Ho' s f' st' objs' Es' Ef' St' Ex' Lab' ltac:(intros p q c A B; apply (Sg p q c); apply Ov; assumption) Li') as (F2 & N2 & ms2 & R2 & Nm & _ & Ev2 & _).
  rewrite R1 in R. injection R as <- <- <-. rewrite R2 in R'. injection R' as <- <- <-. clear R1 R2.
  split; [exists ms2; split; [reflexivity|exact Nm]|].
  intros t j u k T U J K Nz E. assert (Nk : id_at F2 u k <> 0%Z) by congruence. apply Ev1; try assumption; [apply SubF; assumption|apply SubF; assumption|].
  assert (Ids : forall t i, t < length data -> i < length (h_nbs h) -> id_at F2 t i <> 0%Z -> id_at objs t i = id_at objs' t i).
  { intros t0 i T0 I Ni. unfold objs'. rewrite (only_at (h_nbs h) (h_mask h) (f_keep f) (f_keep f') objs Lab LabK Row' Sub' Whole' t0 i ltac:(lia) I).
    apply (Cell F2 f' t0 i W' Lf' Rows' T0 I) in Ni. rewrite Ni. reflexivity. }
  rewrite (Ids t j T J Nz), (Ids u k U K Nk). apply (chained_mono _ _ _ _ Ov). apply Ev2; assumption.
Qed.
Print Assumptions C155_mesh_partial.

(** A record with a small companion that the stricter filter takes away; nothing merges. *)
Definition companion := row_days [[1;1;1;1;1;1;0;1]; [0;1;1;1;1;0;0;1]; [0;0;1;1;0;0;1;1]].
Example C155_mesh_case : exists F mg st objs F' mg' st',
  setup_ok row8 companion /\ rule_le (h_rule row8) (ByAbsolute 1) /\ fresh_mesh_run row8 (tables_thr (1#2)) companion = Ok (F, 2%Z, mg, st) /\
  object_labelling (row_mesh 8) (repeat true 8) (with_id F) objs /\
  (forall p q c, consecutive_overlap (repeat 1%Q 8) (1#2) objs p c -> consecutive_overlap (repeat 1%Q 8) (1#2) objs q c -> p = q) /\
  fresh_mesh_run (mesh_rule row8 (ByAbsolute 1)) (tables_thr (1#2)) companion = Ok (F', 2%Z, mg', st') /\
  F = [[1;1;1;1;1;1;0;2]; [0;1;1;1;1;0;0;2]; [0;0;1;1;0;0;2;2]]%Z /\ F' = [[1;1;1;1;1;1;0;0]; [0;1;1;1;1;0;0;0]; [0;0;1;1;0;0;2;2]]%Z.
Proof.
  do 3 eexists. exists (mesh_objects (row_mesh 8) (repeat true 8) companion). do 3 eexists.
  split; [apply (row_input 8 companion); reflexivity|]. split; [cbn; lia|]. split; [vm_compute; reflexivity|]. split; [apply row_objects; reflexivity|]. split; [|split; [vm_compute; reflexivity|split; reflexivity]].
  intros p q c P Q0. destruct (Z.eq_dec p q) as [H|H]; [exact H|exfalso].
  assert (Sl : labelled_series (length (repeat 1%Q 8)) (mesh_objects (row_mesh 8) (repeat true 8) companion)).
  { destruct (row_input 8 companion) as (H1 & H2 & _ & _ & H3); [reflexivity..|]. apply (lab_series _ _ _ H1 H2 H3). exists 0, 0. vm_compute. auto 10 with arith. }
  assert (Hw : forall x, In x (repeat 1%Q 8) -> (0 < x)%Q) by (intros x I; apply repeat_spec in I; subst; reflexivity).
  assert (X := merging_some _ _ no_centroid _ _ _ _ Sl Hw H P Q0). vm_compute in X. exact X.
Qed.
