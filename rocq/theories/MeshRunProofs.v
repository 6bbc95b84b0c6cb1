(** Proofs about tracking on meshes. *)
From Coq Require Import Lia.
From Verif Require Import Base Graph Morph MorphSpec Label LabelSpec LabelProofs Filter FilterProofs FilterMoreProofs Overlap OverlapSpec OverlapProofs
  ConsolidateProofs Merge MergeSpec MergeProofs MergeLoop MergeMore Partition Cluster ClusterSpec ClusterProofs ClusterMore ClusterFinal ClusterPipe
  MeshPart Parallel ParallelSpec ParallelProofs ParallelMore ParallelFinal MeshRun.
Open Scope nat_scope.

Lemma distinctZ_spec l : distinctZ l = true -> NoDup l.
Proof.
  induction l as [|x r IH]; cbn [distinctZ]; [constructor|]. intro H. apply andb_prop in H. destruct H as [A B].
  constructor; [|auto]. intro I. apply memZ_In in I. rewrite I in A. discriminate.
Qed.
Lemma distinctZ_of l : NoDup l -> distinctZ l = true.
Proof.
  induction 1 as [|x r N _ IH]; cbn [distinctZ]; [reflexivity|]. rewrite IH, andb_true_r.
  destruct (memZ x r) eqn:E; [|reflexivity]. apply memZ_In in E. contradiction.
Qed.

Lemma NoDup_app_parts {A} (a b : list A) : NoDup (a ++ b) -> NoDup b /\ forall x, In x a -> In x b -> False.
Proof.
  induction a as [|x a IH]; cbn [app]; intro N; [split; [exact N|intros y []]|]. inversion N as [|? ? Nx N']; subst.
  destruct (IH N') as [B D]. split; [exact B|]. intros y [<-|Y] Z; [apply Nx, in_or_app; right; exact Z|exact (D y Y Z)].
Qed.

(** ** The table of a series *)
Section Table.
Variables (w : list Q) (cent : list bool -> Q * Q).

Lemma props_ids fields : prop_ids (initial_props w cent fields) = flat_map unique_pos fields.
Proof.
  unfold prop_ids, initial_props. induction fields as [|f r IH]; cbn [flat_map]; [reflexivity|].
  rewrite map_app, IH. f_equal. unfold object_properties. rewrite map_map. cbn [fst]. apply map_id.
Qed.
Lemma flat_unique_NoDup fields : (forall x j k, (0 < x)%Z -> In x (nth j fields []) -> In x (nth k fields []) -> j = k) ->
  NoDup (flat_map unique_pos fields).
Proof.
  induction fields as [|f r IH]; intro H; cbn [flat_map]; [constructor|]. apply NoDup_app_iff_local; [apply unique_pos_NoDup| |].
  - apply IH. intros x j k P J K. assert (E : S j = S k) by (apply (H x); assumption). lia.
  - intros x X Y. apply unique_pos_In in X. apply in_flat_map in Y. destruct Y as (g & G & Y). apply unique_pos_In in Y.
    apply (In_nth _ _ []) in G. destruct G as (j & _ & <-). assert (E : 0 = S j) by (apply (H x); cbn [nth]; tauto). lia.
Qed.
Lemma flat_unique_once fields x : NoDup (flat_map unique_pos fields) ->
  forall j k, (0 < x)%Z -> In x (nth j fields []) -> In x (nth k fields []) -> j = k.
Proof.
  assert (Aux : forall f r k, NoDup (flat_map unique_pos (f :: r)) -> (0 < x)%Z -> In x f -> In x (nth k r []) -> False).
  { intros f r k N P A B. cbn [flat_map] in N. apply NoDup_app_parts in N. destruct N as (_ & D).
    apply (D x); [apply unique_pos_In; auto|]. apply in_flat_map.
    destruct (Nat.lt_ge_cases k (length r)) as [L|L]; [|rewrite nth_overflow in B by exact L; destruct B].
    exists (nth k r []). split; [apply nth_In; exact L|apply unique_pos_In; auto]. }
  induction fields as [|f r IH]; intros N j k P A B; [destruct j; destruct A|].
  assert (N' : NoDup (flat_map unique_pos r)) by (cbn [flat_map] in N; apply NoDup_app_parts in N; tauto).
  destruct j as [|j], k as [|k]; cbn [nth] in A, B; [reflexivity| | |f_equal; apply (IH N'); assumption].
  - exfalso. exact (Aux f r k N P A B).
  - exfalso. exact (Aux f r j N P B A).
Qed.
Lemma series_table fields : (forall f, In f fields -> length f = length w) -> NoDup (prop_ids (initial_props w cent fields)) ->
  table_for w cent fields (initial_props w cent fields).
Proof.
  intros L N. split; [exact N|]. split; [intro x; apply initial_ids|].
  intros t x p X I. unfold initial_props in I. apply in_flat_map in I. destruct I as (f & F & I).
  unfold object_properties in I. apply in_map_iff in I. destruct I as (y & E & Y). injection E as -> <-.
  apply unique_pos_In in Y. destruct Y as [P Y].
  assert (f = nth t fields []).
  { rewrite props_ids in N. apply (In_nth _ _ []) in F. destruct F as (j & _ & <-). f_equal.
    exact (flat_unique_once fields x N j t P Y X). }
  subst f. split; [|reflexivity]. apply area_of_object. apply L. exact F.
Qed.
End Table.

(** ** Objects of a mesh *)
Section Objects.
Variables (m : mesh) (mask : list bool) (data : list (list bool)).
Hypothesis Hm : mesh_ok m.
Hypothesis Lm : length mask = length m.
Hypothesis Ld : forall d, In d data -> length d = length m.
Let lab := mesh_objects m mask data.
Definition on_at (t k : nat) : Prop := k < length m /\ nth k mask false = true /\ nth k (nth t data []) false = true.

Lemma raw_nth t : t < length data -> nth t (map (identify_mesh m mask) data) [] = identify_mesh m mask (nth t data []).
Proof. intro T. apply (nth_map_gen _ _ _ []). exact T. Qed.
Lemma raw_spec t : t < length data ->
  let r := identify_mesh m mask (nth t data []) in
  length r = length m /\ (forall i, i < length m -> (nth i r 0%Z = 0%Z <-> ~ on_at t i)) /\ (forall i, (0 <= nth i r 0)%Z) /\
  (forall i j, on_at t i -> on_at t j -> (nth i r 0%Z = nth j r 0%Z <-> mesh_chain m (on_at t) i j)).
Proof. intro T. exact (identify_mesh_spec m mask (nth t data []) Hm Lm (Ld _ (nth_In _ _ T))). Qed.
Lemma raw_nonneg s : In s (map (identify_mesh m mask) data) -> forall x, In x s -> (0 <= x)%Z.
Proof.
  intros I x X. apply (In_nth _ _ []) in I. destruct I as (t & T & <-). rewrite map_length in T. rewrite raw_nth in X by exact T.
  apply (In_nth _ _ 0%Z) in X. destruct X as (k & _ & <-). apply raw_spec. exact T.
Qed.
Lemma lab_length : length lab = length data.
Proof. clear Hm Lm Ld. unfold lab, mesh_objects, offset_ids. rewrite map_length, combine_length, cumulative_length, map_length. lia. Qed.
Lemma lab_row t : t < length data -> length (nth t lab []) = length m.
Proof.
  intro T. unfold lab, mesh_objects, offset_ids. rewrite (nth_map_gen _ _ _ ([], 0%Z)).
  - rewrite map_length, nth_combine by (rewrite cumulative_length; reflexivity). cbn [fst]. rewrite raw_nth by exact T. apply raw_spec. exact T.
  - rewrite combine_length, cumulative_length, map_length. lia.
Qed.
Lemma lab_cell t k : t < length data -> k < length m ->
  (0 <= id_at lab t k)%Z /\ ((0 < id_at lab t k)%Z <-> on_at t k).
Proof.
  intros T K. destruct (offset_ids_spec _ raw_nonneg) as (A & _). assert (Rs := raw_spec t T). destruct Rs as (Rl & R0 & _).
  destruct (A t k) as [P Z0]; [rewrite map_length; exact T|rewrite raw_nth by exact T; rewrite Rl; exact K|].
  change (at2 (offset_ids (map (identify_mesh m mask) data)) t k) with (id_at lab t k) in P, Z0. split; [exact P|].
  unfold at2 in Z0. rewrite raw_nth in Z0 by exact T. rewrite R0 in Z0 by exact K.
  assert (D : on_at t k \/ ~ on_at t k).
  { unfold on_at. destruct (nth k mask false), (nth k (nth t data []) false); intuition congruence. }
  split; intro H; [destruct D as [D|D]; [exact D|apply Z0 in D; lia]|].
  destruct (Z.eq_dec (id_at lab t k) 0) as [E|E]; [apply Z0 in E; contradiction|lia].
Qed.
Lemma lab_same t j k : t < length data -> on_at t j -> on_at t k ->
  (id_at lab t j = id_at lab t k <-> mesh_chain m (on_at t) j k).
Proof.
  intros T J K. destruct (offset_ids_spec _ raw_nonneg) as (_ & B & _). destruct (raw_spec t T) as (Rl & _ & _ & Rc).
  assert (X := B t j k). rewrite map_length, raw_nth, Rl in X by exact T.
  specialize (X T (proj1 J) (proj1 K)). unfold at2 in X at 3 4. rewrite raw_nth in X by exact T. rewrite Rc in X by assumption. exact X.
Qed.
Lemma lab_once x j k : (0 < x)%Z -> In x (nth j lab []) -> In x (nth k lab []) -> j = k.
Proof.
  intros P J K. destruct (offset_ids_spec _ raw_nonneg) as (_ & _ & C).
  assert (Lt : forall i, In x (nth i lab []) -> i < length data).
  { intros i I. destruct (Nat.lt_ge_cases i (length data)) as [H|H]; [exact H|]. rewrite nth_overflow in I by (rewrite lab_length; exact H). destruct I. }
  destruct (Nat.eq_dec j k) as [E|N]; [exact E|]. exfalso. assert (Tj := Lt j J). assert (Tk := Lt k K).
  apply (In_nth _ _ 0%Z) in J, K. destruct J as (a & A & Ea), K as (b & B & Eb). rewrite lab_row in A, B by assumption.
  assert (X := C j k a b). rewrite map_length, !raw_nth in X by assumption.
  destruct (raw_spec j Tj) as (R1 & _). destruct (raw_spec k Tk) as (R2 & _). rewrite R1, R2 in X.
  change (at2 (offset_ids (map (identify_mesh m mask) data)) j a) with (nth a (nth j lab []) 0%Z) in X.
  change (at2 (offset_ids (map (identify_mesh m mask) data)) k b) with (nth b (nth k lab []) 0%Z) in X.
  rewrite Ea, Eb in X. apply X; auto; lia.
Qed.
Lemma lab_series : (exists t k, t < length data /\ on_at t k) -> labelled_series (length m) lab.
Proof.
  intros (t & k & T & O). split; [|split; [|split]].
  - intros f I. apply (In_nth _ _ []) in I. destruct I as (j & J & <-). rewrite lab_length in J. apply lab_row. exact J.
  - intros f x I X. apply (In_nth _ _ []) in I. destruct I as (j & J & <-). rewrite lab_length in J.
    apply (In_nth _ _ 0%Z) in X. destruct X as (i & I & <-). rewrite lab_row in I by exact J. apply (lab_cell j i J I).
  - exact lab_once.
  - exists t, (id_at lab t k). split; [apply (lab_cell t k T (proj1 O)); exact O|]. apply nth_In. rewrite lab_row by exact T. apply O.
Qed.
End Objects.
