(** Meshes: the record read from its last step to its first. *)
From Coq Require Import Permutation.
From Verif Require Import Base Graph Morph MorphSpec MorphProofs MorphTimeProofs MorphProps Label LabelSpec Filter FilterSpec FilterProofs FilterAreaProofs FilterMeshProofs FilterProps Overlap OverlapSpec
  Merge MergeSpec Cluster ClusterSpec ClusterProofs ClusterPipe MeshPart Parallel Run RunSpec MeshRun MeshRunProps StatsRunProps RelateProofs ReverseProofs MeshMoveSpec MeshMoveProofs MeshMoveRunProofs UnmergedProofs.
Open Scope nat_scope.

Lemma map_rev_seq {A} (f : nat -> A) n : map f (rev (seq 0 n)) = map (fun t => f (n - 1 - t)) (seq 0 n).
Proof.
  apply (nth_ext _ _ (f 0) (f (n - 1 - 0))); [rewrite !map_length, rev_length; reflexivity|]. intros t T. rewrite map_length, rev_length, seq_length in T.
  rewrite (map_nth f _ 0 t). rewrite rev_nth by (rewrite seq_length; exact T). rewrite seq_length, seq_nth by lia.
  rewrite (map_nth (fun t => f (n - 1 - t)) (seq 0 n) 0 t), seq_nth by exact T. f_equal. lia.
Qed.

(** *** Filling *)
Lemma reverse_gaps h s r : Z.even (h_T h) = true -> fill_time_gaps_mesh h s = Some r -> fill_time_gaps_mesh h (rev s) = Some (rev r).
Proof.
  intros Te E. unfold fill_time_gaps_mesh in *. destruct (Z.eqb_spec (h_T h) 0) as [Z0|Z0]; [injection E as <-; reflexivity|].
  destruct (Z.ltb_spec (h_T h + 1) 0) as [Ng|Ng]; [discriminate|]. injection E as <-. f_equal. rewrite <- map_rev, map_rev_seq, rev_length.
  assert (T0 : (0 <= h_T h)%Z). { destruct (Z.eq_dec (h_T h) (-1)) as [X|X]; [rewrite X in Te; discriminate|lia]. }
  apply map_ext_in. intros t I. apply in_seq in I. f_equal. apply map_ext_in. intros i _.
  rewrite map_rev. destruct (close_time_total (h_T h) (map (fun v => atb v i) s) T0) as (l & El). destruct (close_time_total (h_T h) (rev (map (fun v => atb v i) s)) T0) as (l' & El').
  rewrite El, El'. assert (X := close_rev _ _ _ _ T0 Te El El'). subst l'. destruct (close_time_gaps _ _ _ T0 Te El) as [Ll _]. rewrite map_length in Ll.
  rewrite rev_nth by lia. f_equal. lia.
Qed.
Lemma reverse_filled h data s : Z.even (h_T h) = true ->
  fill_time_gaps_mesh h (map (fill_holes_mesh (h_nbs h) (h_R h) (h_mask h)) data) = Some s ->
  fill_time_gaps_mesh h (map (fill_holes_mesh (h_nbs h) (h_R h) (h_mask h)) (rev data)) = Some (rev s).
Proof. intros Te E. rewrite map_rev. apply reverse_gaps; assumption. Qed.

(** *** Filtering *)
Lemma filter_perm {A} (p : A -> bool) a b : Permutation a b -> Permutation (filter p a) (filter p b).
Proof. induction 1; cbn; [constructor|destruct (p x); [constructor|]; assumption|destruct (p x), (p y); try constructor; apply Permutation_refl|eapply Permutation_trans; eassumption]. Qed.
Lemma sumN_perm a b : Permutation a b -> sumN a = sumN b.
Proof. unfold sumN. induction 1; cbn [fold_right]; lia. Qed.
Lemma maxZ_perm a b : Permutation a b -> maxZ a = maxZ b.
Proof. unfold maxZ. induction 1; cbn [fold_right]; lia. Qed.
Lemma combine_snoc {A B} (a : list A) (b : list B) x y : length a = length b -> combine (a ++ [x]) (b ++ [y]) = combine a b ++ [(x, y)].
Proof. revert b. induction a as [|u a IH]; intros [|v b] L; try discriminate; [reflexivity|]. cbn. rewrite IH by (cbn in L; lia). reflexivity. Qed.
Lemma combine_rev {A B} (a : list A) (b : list B) : length a = length b -> combine (rev a) (rev b) = rev (combine a b).
Proof. revert b. induction a as [|u a IH]; intros [|v b] L; try discriminate; [reflexivity|]. cbn. rewrite combine_snoc, IH by (rewrite ?rev_length; cbn in L; lia). reflexivity. Qed.
Lemma flat_rev {A B} (f : A -> list B) l : Permutation (flat_map f (rev l)) (flat_map f l).
Proof.
  induction l as [|x l IH]; [constructor|]. cbn [rev flat_map]. rewrite flat_map_app. cbn [flat_map]. rewrite app_nil_r. eapply Permutation_trans; [apply Permutation_app_comm|]. apply Permutation_app_head, IH.
Qed.
Lemma reverse_filter r m mask s f : filter_small_mesh r m mask s = Ok f -> exists f', filter_small_mesh r m mask (rev s) = Ok f' /\
  f_keep f' = rev (f_keep f) /\ f_threshold f' = f_threshold f /\ f_before f' = f_before f /\ f_after f' = f_after f /\ Permutation (f_areas f') (f_areas f).
Proof.
  unfold filter_small_mesh. rewrite map_rev. set (fs := map (identify_mesh m mask) s). clearbody fs. unfold filter_mesh.
  assert (M : max_id (rev fs) = max_id fs) by (unfold max_id; rewrite map_rev; rewrite (maxZ_perm _ _ (Permutation_sym (Permutation_rev (map maxZ fs)))); reflexivity).
  rewrite M. set (n := max_id fs). rewrite map_rev. set (tb := map (cluster_sizes n) fs). assert (Lt : length tb = length fs) by apply map_length.
  assert (P := flat_rev (@fst (list nat) (list Z)) tb). set (q := if is_absolute r then 5 else 50).
  assert (P2 := filter_perm (Nat.ltb q) _ _ P).
  destruct (filter (Nat.ltb q) (flat_map fst tb)) as [|x l] eqn:E; [discriminate|]. intro Eq. injection Eq as <-.
  destruct (filter (Nat.ltb q) (flat_map fst (rev tb))) as [|x' l'] eqn:E'; [apply Permutation_nil in P2; discriminate|].
  assert (Th := threshold_permuted r _ _ P2). rewrite Th. eexists. split; [reflexivity|]. cbn [f_keep f_threshold f_before f_after f_areas].
  split; [rewrite combine_rev by exact Lt; apply map_rev|]. split; [reflexivity|]. split; [exact (Permutation_length P2)|]. split; [|exact P].
  exact (Permutation_length (filter_perm _ _ _ P2)).
Qed.

(** *** Areas and statistics *)
Lemma foldQ_perm a b : Permutation a b -> (fold_right Qplus 0 a == fold_right Qplus 0 b)%Q.
Proof.
  induction 1 as [|x a b P IH|x y a|a b c P1 I1 P2 I2]; cbn [fold_right]; [reflexivity|rewrite IH; reflexivity| |rewrite I1; exact I2].
  rewrite !Qplus_assoc, (Qplus_comm y x). reflexivity.
Qed.
Lemma reverse_area h s : (area_mesh h (rev s) == area_mesh h s)%Q.
Proof. unfold area_mesh. apply foldQ_perm, Permutation_map, filter_perm, flat_rev. Qed.
Lemma reverse_stats h data f f' st : f_keep f' = rev (f_keep f) -> f_threshold f' = f_threshold f -> f_before f' = f_before f -> f_after f' = f_after f -> Permutation (f_areas f') (f_areas f) ->
  stats_of (area_mesh h) data f (f_keep f) = Ok st -> exists st', stats_of (area_mesh h) (rev data) f' (f_keep f') = Ok st' /\ same_stats st' st.
Proof.
  intros Ek Et Eb Ea P St. assert (T : total_area_IDed f' = total_area_IDed f) by (apply sumN_perm, P).
  assert (Fr : accepted_area_fraction f' = accepted_area_fraction f).
  { unfold accepted_area_fraction, accepted_area. rewrite T, Et. rewrite (sumN_perm _ _ (filter_perm _ _ _ P)). reflexivity. }
  unfold stats_of in *. rewrite T. destruct (Nat.eqb _ 0); [discriminate|]. rewrite Ek. assert (A := reverse_area h (f_keep f)).
  destruct (Qeq_bool (area_mesh h (f_keep f)) 0) eqn:E; [discriminate|]. destruct (Qeq_bool (area_mesh h (rev (f_keep f))) 0) eqn:E'; [apply Qeq_bool_eq in E'; rewrite A in E'; apply Qeq_bool_iff in E'; congruence|].
  injection St as <-. eexists. split; [reflexivity|]. unfold same_stats. cbn [s_total s_before s_after s_threshold s_accepted s_processed].
  split; [reflexivity|]. split; [exact Eb|]. split; [exact Ea|]. split; [exact Et|]. split; [exact Fr|]. rewrite A, reverse_area. reflexivity.
Qed.

(** *** Objects and overlaps *)
Lemma rev_step {A} (l : list A) d t : t < length l -> nth t (rev l) d = nth (length l - 1 - t) l d.
Proof. intro T. rewrite rev_nth by exact T. f_equal. lia. Qed.
Lemma enough_swap w thr f g p c : length f = length g -> overlap_enough w thr f g p c -> overlap_enough w thr g f c p.
Proof.
  intros L (P & C & M & O). split; [exact C|]. split; [exact P|].
  assert (Sh : OverlapSpec.shared_area w g f c p = OverlapSpec.shared_area w f g p c).
  { unfold OverlapSpec.shared_area. rewrite <- L. generalize (length f). intro n. induction n as [|n IH]; [reflexivity|]. cbn [totalQ]. rewrite IH, andb_comm. reflexivity. }
  split; [destruct M as (k & K & E1 & E2); exists k; split; [lia|split; assumption]|]. rewrite Sh. destruct O as [O|O]; [right|left]; exact O.
Qed.
Lemma overlap_reversed w thr objs p c : (forall t, t < length objs -> length (nth t objs []) = length w) ->
  consecutive_overlap w thr (rev objs) p c <-> consecutive_overlap w thr objs c p.
Proof.
  intro L. split; intros (t & T & O).
  - rewrite rev_length in T. rewrite !rev_step in O by lia. exists (length objs - 1 - S t). split; [lia|]. replace (S (length objs - 1 - S t)) with (length objs - 1 - t) by lia.
    apply enough_swap; [rewrite !L by lia; reflexivity|exact O].
  - exists (length objs - 1 - S t). rewrite rev_length. split; [lia|]. rewrite !rev_step by lia. replace (length objs - 1 - (length objs - 1 - S t)) with (S t) by lia. replace (length objs - 1 - S (length objs - 1 - S t)) with t by lia.
    apply enough_swap; [rewrite !L by lia; reflexivity|exact O].
Qed.
Lemma chained_swap (R R' : Z -> Z -> Prop) a b : (forall x y, R' x y <-> R y x) -> chained R' a b <-> chained R a b.
Proof.
  intro H. split; intro C; induction C as [x|x y z O C IH|x y z O C IH]; try apply chained_refl;
    [apply (chained_bwd _ x y z)|apply (chained_fwd _ x y z)|apply (chained_bwd _ x y z)|apply (chained_fwd _ x y z)]; try exact IH; apply H; exact O.
Qed.
Lemma labelling_reversed m mask keep objs : object_labelling m mask keep objs -> object_labelling m mask (rev keep) (rev objs).
Proof.
  intros (L & R & C & G & U). unfold object_labelling. rewrite !rev_length. split; [exact L|].
  assert (I : forall t k, t < length keep -> id_at (rev objs) t k = id_at objs (length keep - 1 - t) k) by (intros t k T; unfold id_at; rewrite rev_step by lia; rewrite L; reflexivity).
  assert (X : forall t k, t < length keep -> (extreme_ocean m mask (rev keep) t k <-> extreme_ocean m mask keep (length keep - 1 - t) k)) by (intros t k T; unfold extreme_ocean; rewrite rev_step by lia; reflexivity).
  split; [intros t T; rewrite rev_step by (rewrite L; exact T); apply R; rewrite L; lia|]. split; [|split].
  - intros t k T K. rewrite I, X by exact T. apply C; [lia|exact K].
  - intros t j k T J K. rewrite !I by exact T. apply X in J; [|exact T]. apply X in K; [|exact T]. rewrite (G (length keep - 1 - t) j k ltac:(lia) J K).
    split; apply mesh_chain_ext; intros i; apply X; exact T.
  - intros x s t Px Is It. assert (S1 : s < length objs) by (destruct (Nat.lt_ge_cases s (length objs)); [assumption|rewrite nth_overflow in Is by (rewrite rev_length; lia); destruct Is]).
    assert (T1 : t < length objs) by (destruct (Nat.lt_ge_cases t (length objs)); [assumption|rewrite nth_overflow in It by (rewrite rev_length; lia); destruct It]).
    rewrite rev_step in Is, It by assumption. assert (Y := U x _ _ Px Is It). lia.
Qed.
Lemma series_reversed n fields : labelled_series n fields -> labelled_series n (rev fields).
Proof.
  intros (A & B & C & t & x & X & I). split; [intros g G; apply A, in_rev, G|]. split; [intros g u G; apply B, in_rev, G|].
  assert (V : forall j y, In y (nth j (rev fields) []) -> j < length fields) by (intros j y Y; destruct (Nat.lt_ge_cases j (length fields)); [assumption|rewrite nth_overflow in Y by (rewrite rev_length; lia); destruct Y]).
  split.
  - intros u j k U J K. assert (VJ := V _ _ J). assert (VK := V _ _ K). rewrite rev_step in J, K by assumption. assert (Y := C u _ _ U J K). lia.
  - assert (T : t < length fields) by (destruct (Nat.lt_ge_cases t (length fields)); [assumption|rewrite nth_overflow in I by lia; destruct I]).
    exists (length fields - 1 - t), x. split; [exact X|]. rewrite rev_step by lia. replace (length fields - 1 - (length fields - 1 - t)) with t by lia. exact I.
Qed.
