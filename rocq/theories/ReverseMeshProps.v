(** Theorem C159 on meshes: reading the record backwards. *)
From Coq Require Import Permutation.
From Verif Require Import Base Graph Morph MorphSpec Label LabelSpec LabelProofs Filter FilterSpec Overlap OverlapSpec Merge MergeSpec Cluster ClusterSpec ClusterProofs MeshPart Parallel ParallelProps
  Run RunSpec RelateProofs MeshRun MeshRunProofs MeshRunLimits MeshRunProps StatsRunProps MeshMoveSpec MeshMoveProofs MeshMoveProps UnmergedProofs ReverseMeshProofs StricterProps.
Open Scope nat_scope.

(** Wrong on meshes when objects join: forwards the joined object is divided between two
    events, backwards one object splits and all its parts are one event. *)
Definition joining_row := row_days [[1;0;1;0;0;0;0;0]; [1;1;1;0;0;0;0;0]; [1;1;1;1;1;1;0;0]].
Theorem C159_mesh_backwards_refuted : exists (h : mesh_setup) (y : mesh_tracking) (data : list (list bool)) F N mg st F' N' mg',
  setup_ok h data /\ set_order (y_order y) /\ h_T h = 0%Z /\
  fresh_mesh_run h y data = Ok (F, N, mg, st) /\ fresh_mesh_run h y (rev data) = Ok (F', N', mg', st) /\ N = 2%Z /\ N' = 1%Z.
Proof.
  exists row8, tables8, joining_row. do 7 eexists. split; [apply (row_input 8 joining_row); reflexivity|]. split; [exact as_given_order|]. split; [reflexivity|].
  split; [vm_compute; reflexivity|]. split; [vm_compute; reflexivity|]. split; reflexivity.
Qed.
Print Assumptions C159_mesh_backwards_refuted.

(** On a mesh, with even T_fill and any R_fill and area rule: when no two objects of a
    step have a common successor and none has two successors, the record read backwards
    gives the same events read backwards, as many, and the same statistics.  Nothing of
    the two trackings needs to agree but the overlap threshold. *)
Theorem C159_mesh_backwards_partial (h : mesh_setup) (y y' : mesh_tracking) (data : list (list bool)) (objs : list (list Z))
    (F : list (list Z)) (N : Z) (mg : option merges) (st : stats) :
  let back := fun t => length data - 1 - t in
  setup_ok h data -> Z.even (h_T h) = true -> set_order (y_order y) -> set_order (y_order y') -> 0 < y_limit y -> 0 < y_limit y' -> y_thr y' = y_thr y ->
  fresh_mesh_run h y data = Ok (F, N, mg, st) -> object_labelling (h_nbs h) (h_mask h) (with_id F) objs ->
  (forall p q c, consecutive_overlap (h_area h) (y_thr y) objs p c -> consecutive_overlap (h_area h) (y_thr y) objs q c -> p = q) ->
  (forall p c d, consecutive_overlap (h_area h) (y_thr y) objs p c -> consecutive_overlap (h_area h) (y_thr y) objs p d -> c = d) ->
  exists F' mg' st', fresh_mesh_run h y' (rev data) = Ok (F', N, mg', st') /\ same_stats st' st /\ length F' = length data /\
    (forall t k, t < length data -> k < length (h_nbs h) -> (id_at F' (back t) k <> 0%Z <-> id_at F t k <> 0%Z)) /\
    (forall t j u k, t < length data -> u < length data -> j < length (h_nbs h) -> k < length (h_nbs h) -> id_at F t j <> 0%Z -> id_at F u k <> 0%Z ->
       (id_at F' (back t) j = id_at F' (back u) k <-> id_at F t j = id_at F u k)).
Proof.
  intros back Hs Te Ho Ho' Li Li' Et R Lab Sp Sc.
  destruct (run_cleaned h y data Hs Ho F N mg st R) as (s & f & Es & Ef & St & Lk & In1 & W & Lf & Rows & Ex). rewrite W in Lab.
  assert (Hs' : setup_ok h (rev data)).
  { destruct Hs as (A & B & C & D & E). split; [exact A|]. split; [exact B|]. split; [exact C|]. split; [exact D|]. intros d I. apply E, in_rev, I. }
  assert (Lo : forall t, t < length objs -> length (nth t objs []) = length (h_area h)).
  { intros t T. destruct Lab as (L1 & L2 & _). destruct Hs as (_ & _ & La & _). rewrite La. apply L2. lia. }
  assert (Es' := reverse_filled h data s Te Es). destruct (reverse_filter _ _ _ _ _ Ef) as (f' & Ef' & Ek & Eth & Eb & Ea & Pm).
  destruct (reverse_stats h data f f' st Ek Eth Eb Ea Pm St) as (st' & St' & Ss).
  assert (Ex' : exists t k, t < length (rev data) /\ extreme_ocean (h_nbs h) (h_mask h) (f_keep f') t k).
  { destruct Ex as (t & k & T & X). exists (back t), k. rewrite rev_length. unfold back. split; [lia|]. rewrite Ek. unfold extreme_ocean in *. rewrite rev_step by lia. replace (length (f_keep f) - 1 - (length data - 1 - t)) with t by lia. exact X. }
  assert (Lab' : object_labelling (h_nbs h) (h_mask h) (f_keep f') (rev objs)) by (rewrite Ek; apply labelling_reversed; exact Lab).
  assert (Ov : forall p c, consecutive_overlap (h_area h) (y_thr y') (rev objs) p c <-> consecutive_overlap (h_area h) (y_thr y) objs c p) by (intros p c; rewrite Et; apply overlap_reversed; exact Lo).
  destruct (cleaned_runs h y data Hs Ho s f st objs Es Ef St Ex Lab Sp Li) as (F1 & N1 & ms1 & R1 & _ & W1 & Ev1 & Cn1 & P1).
  destruct (cleaned_runs h y' (rev data) Hs' Ho' (rev s) f' st' (rev objs) Es' Ef' St' Ex' Lab' ltac:(intros p q c A B; apply (Sc c p q); apply Ov; assumption) Li') as (F' & N' & ms' & R' & Nm & W' & Ev' & Cn' & P').
  rewrite R1 in R. injection R as <- <- <-. clear R1.
  destruct (run_cleaned h y' (rev data) Hs' Ho' F' N' _ st' R') as (_ & _ & _ & _ & _ & _ & _ & _ & Lf' & Rows' & _). rewrite rev_length in *.
  assert (Id : forall t k, t < length data -> k < length (h_nbs h) -> (id_at F' (back t) k <> 0%Z <-> id_at F1 t k <> 0%Z)).
  { intros t k T K. assert (B : back t < length data) by (unfold back; lia).
    assert (E : nth k (nth (back t) (with_id F') []) false = nth k (nth t (with_id F1) []) false).
    { rewrite W', W1, Ek. rewrite rev_step by lia. unfold back. replace (length (f_keep f) - 1 - (length data - 1 - t)) with t by lia. reflexivity. }
    unfold with_id in E. rewrite !(map_nth0 _ _ _ []) in E by lia. rewrite !(map_nth0 _ _ k 0%Z) in E by (rewrite ?Rows, ?Rows'; assumption).
    unfold id_at. destruct (Z.eqb_spec (nth k (nth (back t) F' []) 0%Z) 0), (Z.eqb_spec (nth k (nth t F1 []) 0%Z) 0); cbn in E; try discriminate; tauto. }
  assert (Same : forall t j u k, t < length data -> u < length data -> j < length (h_nbs h) -> k < length (h_nbs h) -> id_at F1 t j <> 0%Z -> id_at F1 u k <> 0%Z ->
       (id_at F' (back t) j = id_at F' (back u) k <-> id_at F1 t j = id_at F1 u k)).
  { intros t j u k T U J K Nj Nk. rewrite (Ev1 t j u k T U J K Nj Nk).
    rewrite (Ev' (back t) j (back u) k ltac:(unfold back; lia) ltac:(unfold back; lia) J K ltac:(apply Id; assumption) ltac:(apply Id; assumption)).
    rewrite (chained_swap _ _ _ _ Ov). assert (I : forall t k, t < length data -> id_at (rev objs) (back t) k = id_at objs t k).
    { intros t0 k0 T0. destruct Lab as (L1 & _). unfold id_at, back. rewrite rev_step by lia. replace (length objs - 1 - (length data - 1 - t0)) with t0 by lia. reflexivity. }
    rewrite !I by assumption. reflexivity. }
  assert (Cnt : N' = N1).
  { assert (BB : forall t, t < length data -> back (back t) = t) by (intros t T; unfold back; lia).
    apply Z.le_antisymm.
    - apply (count_le (fun a b => exists t k, t < length data /\ k < length (h_nbs h) /\ id_at F' (back t) k = a /\ id_at F1 t k = b /\ b <> 0%Z)); [| |lia].
      + intros a A. apply Cn' in A. destruct A as (t & k & T & K & E & Nz). assert (Bt : back t < length data) by (unfold back; lia). exists (id_at F1 (back t) k).
        assert (Nz' : id_at F1 (back t) k <> 0%Z) by (apply Id; [exact Bt|exact K|rewrite BB by exact T; congruence]).
        split; [apply Cn1; exists (back t), k; split; [exact Bt|split; [exact K|split; [reflexivity|exact Nz']]]|]. exists (back t), k. split; [exact Bt|]. split; [exact K|]. split; [rewrite BB by exact T; exact E|]. split; [reflexivity|exact Nz'].
      + intros a b c _ _ (t & k & T & K & E1 & E2 & Nz) (u & l & U & L & G1 & G2 & _). rewrite <- E1, <- G1. apply Same; try assumption; congruence.
    - apply (count_le (fun a b => exists t k, t < length data /\ k < length (h_nbs h) /\ id_at F1 t k = a /\ id_at F' (back t) k = b /\ a <> 0%Z)); [| |lia].
      + intros a A. apply Cn1 in A. destruct A as (t & k & T & K & E & Nz). exists (id_at F' (back t) k). assert (Bt : back t < length data) by (unfold back; lia).
        assert (Nz' : id_at F' (back t) k <> 0%Z) by (apply Id; [exact T|exact K|congruence]).
        split; [apply Cn'; exists (back t), k; split; [exact Bt|split; [exact K|split; [reflexivity|exact Nz']]]|]. exists t, k. split; [exact T|]. split; [exact K|]. split; [exact E|]. split; [reflexivity|exact Nz].
      + intros a b c _ _ (t & k & T & K & E1 & E2 & Nz) (u & l & U & L & G1 & G2 & Nz2). rewrite <- E1, <- G1. apply Same; try assumption; congruence. }
  subst N'. exists F', (Some ms'), st'. split; [exact R'|]. split; [exact Ss|]. split; [exact Lf'|]. split; [exact Id|exact Same].
Qed.
Print Assumptions C159_mesh_backwards_partial.

(** A drifting object, and one with a gap of one step, which is filled. *)
Definition row8_gap : mesh_setup := mkMesh (row_mesh 8) (repeat true 8) 0 2%Z (ByAbsolute 0) (repeat 1%Q 8).
Definition drifting_gap := row_days [[1;1;1;1;1;1;0;1]; [0;1;1;1;1;0;0;0]; [1;1;0;0;0;0;1;1]].
Definition drifting_ids : list (list Z) := [[1;1;1;1;1;1;0;2]; [1;1;1;1;1;0;0;2]; [1;1;0;0;0;0;2;2]]%Z.
Definition drifting_filled := row_days [[1;1;1;1;1;1;0;1]; [1;1;1;1;1;0;0;1]; [1;1;0;0;0;0;1;1]].
Example C159_mesh_case : exists mg st objs,
  setup_ok row8_gap drifting_gap /\ Z.even (h_T row8_gap) = true /\ fresh_mesh_run row8_gap tables8 drifting_gap = Ok (drifting_ids, 2%Z, mg, st) /\
  object_labelling (row_mesh 8) (repeat true 8) (with_id drifting_ids) objs /\
  (forall p q c, consecutive_overlap (repeat 1%Q 8) (1#2) objs p c -> consecutive_overlap (repeat 1%Q 8) (1#2) objs q c -> p = q) /\
  (forall p c d, consecutive_overlap (repeat 1%Q 8) (1#2) objs p c -> consecutive_overlap (repeat 1%Q 8) (1#2) objs p d -> c = d) /\
  exists mg' st', fresh_mesh_run row8_gap tables8 (rev drifting_gap) = Ok (rev drifting_ids, 2%Z, mg', st').
Proof.
  do 2 eexists. exists (mesh_objects (row_mesh 8) (repeat true 8) drifting_filled).
  split; [apply (row_input 8 drifting_gap); reflexivity|]. split; [reflexivity|]. split; [vm_compute; reflexivity|].
  split; [change (with_id drifting_ids) with drifting_filled; apply row_objects; reflexivity|].
  assert (Hw : forall x, In x (repeat 1%Q 8) -> (0 < x)%Q) by (intros x I; apply repeat_spec in I; subst; reflexivity).
  assert (Lo : forall t, t < length (mesh_objects (row_mesh 8) (repeat true 8) drifting_filled) -> length (nth t (mesh_objects (row_mesh 8) (repeat true 8) drifting_filled) []) = length (repeat 1%Q 8)).
  { intros t T. cbn in T. do 3 (destruct t as [|t]; [reflexivity|]). lia. }
  split; [|split; [|do 2 eexists; vm_compute; reflexivity]].
  - intros p q c P Q0. destruct (Z.eq_dec p q) as [H|H]; [exact H|exfalso].
    assert (Sl : labelled_series (length (repeat 1%Q 8)) (mesh_objects (row_mesh 8) (repeat true 8) drifting_filled)).
    { destruct (row_input 8 drifting_filled) as (H1 & H2 & _ & _ & H3); [reflexivity..|]. apply (lab_series _ _ _ H1 H2 H3). exists 0, 0. vm_compute. auto 10 with arith. }
    assert (X := merging_some _ _ no_centroid _ _ _ _ Sl Hw H P Q0). vm_compute in X. exact X.
  - intros p c d P D. apply (overlap_reversed _ _ _ c p Lo) in P. apply (overlap_reversed _ _ _ d p Lo) in D. destruct (Z.eq_dec c d) as [H|H]; [exact H|exfalso].
    assert (Sl : labelled_series (length (repeat 1%Q 8)) (rev (mesh_objects (row_mesh 8) (repeat true 8) drifting_filled))).
    { destruct (row_input 8 drifting_filled) as (H1 & H2 & _ & _ & H3); [reflexivity..|]. apply series_reversed, (lab_series _ _ _ H1 H2 H3). exists 0, 0. vm_compute. auto 10 with arith. }
    assert (X := merging_some _ _ no_centroid _ _ _ _ Sl Hw H P D). vm_compute in X. exact X.
Qed.
