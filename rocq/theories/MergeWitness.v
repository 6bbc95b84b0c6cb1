(** Concrete runs used as counterexamples and as cases for the merging
    properties. *)
From Verif Require Import Base Overlap OverlapSpec Merge MergeSpec Partition.
Open Scope nat_scope.

Definition ones (n : nat) : list Q := repeat 1%Q n.
(** A stand-in centroid: row 0, mean column of the cells of a one-row grid. *)
Definition row_centroid (m : list bool) : Q * Q :=
  let ks := filter (fun k => nth k m false) (seq 0 (length m)) in
  (0%Q, (sumQ (map natQ ks) / natQ (length ks))%Q).

(** Two parents, the middle child touched by both. *)
Definition two_parents : list Z := [1; 1; 2; 2]%Z.
Definition three_children : list Z := [3; 4; 4; 5]%Z.
Definition shared_child_table : props :=
  initial_props (ones 4) row_centroid [two_parents; three_children].
Lemma shared_child_not_joined :
  accepted (ones 4) (1#2) (areas_in shared_child_table) two_parents three_children 2 (nth 2 three_children 0%Z) /\
  accepted (ones 4) (1#2) (areas_in shared_child_table) two_parents three_children 2 (nth 3 three_children 0%Z) /\
  let f := fst (consolidate (ones 4) row_centroid (1#2) two_parents three_children shared_child_table) in
  nth 2 f 0%Z <> nth 3 f 0%Z.
Proof.
  split; [|split].
  - split; [reflexivity|]. split; [reflexivity|]. split; [exists 2; cbn; auto|].
    eexists _, _. split; [vm_compute; reflexivity|]. split; [vm_compute; reflexivity|]. left. split; vm_compute; discriminate.
  - split; [reflexivity|]. split; [reflexivity|]. split; [exists 3; cbn; auto|].
    eexists _, _. split; [vm_compute; reflexivity|]. split; [vm_compute; reflexivity|]. right. split; vm_compute; discriminate.
  - vm_compute. discriminate.
Qed.

(** One object splits in two: with a chunk boundary before the split and a chunk
    of one step, the parts keep different IDs. *)
Definition before_split : list Z := [1; 1; 1]%Z.
Definition after_split : list Z := [2; 0; 3]%Z.
Lemma single_step_chunk_differs :
  split_and_merge (ones 3) row_centroid (1#2) (part_grid true true 1 3) [[before_split; after_split]] <>
  split_and_merge (ones 3) row_centroid (1#2) (part_grid true true 1 3) [[before_split]; [after_split]].
Proof. vm_compute. discriminate. Qed.

(** 128 single cells merging into one object. *)
Fixpoint spaced (n : nat) (id : Z) : list Z :=
  match n with O => [] | S k => id :: 0%Z :: spaced k (id + 1) end.
Definition many_parents : list Z := spaced 128 1.
Definition one_child : list Z := repeat 1000%Z 256.
Definition many_rows : list row := check_overlap (ones 256) many_parents one_child.
Lemma many_rows_count :
  length (filter (fun r => Z.eqb (r_to r) 1000) many_rows) = 128.
Proof. vm_compute. reflexivity. Qed.

(** Two objects merging on a periodic row. *)
Definition merge_before : list Z := [1; 1; 0; 2; 2; 0]%Z.
Definition merge_after : list Z := [3; 3; 3; 3; 3; 0]%Z.
Definition small_run := split_and_merge (ones 6) row_centroid (1#2) (part_grid true false 1 6) [[merge_before; merge_after]].
Lemma small_run_result :
  fst small_run = [merge_before; [3; 3; 3; 4; 4; 0]%Z] /\
  s_events (snd small_run) = [mkEvent 1 [3; 4]%Z [1; 2]%Z [2; 2]%Q].
Proof. vm_compute. split; reflexivity. Qed.
Lemma small_input : labelled_series 6 (concat [[merge_before; merge_after]]).
Proof.
  split; [|split; [|split]].
  - intros f F. cbn in F. intuition (subst; reflexivity).
  - intros f x F X. cbn in F. repeat destruct F as [F|F]; subst; cbn in X; intuition lia.
  - intros x j k P J K.
    assert (Hj : forall i, In x (nth i (concat [[merge_before; merge_after]]) []) ->
       (i = 0 /\ (x = 1 \/ x = 2)%Z) \/ (i = 1 /\ x = 3%Z)).
    { intros [|[|i]] I; cbn in I; [intuition lia|intuition lia|destruct i; destruct I]. }
    apply Hj in J. apply Hj in K. lia.
  - exists 0, 1%Z. split; [lia|]. cbn. auto.
Qed.
