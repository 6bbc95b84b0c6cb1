(** Size filtering on meshes, from the labelled fields to objects. *)
From Coq Require Import Permutation Qround Lqa.
From Verif Require Import Base Label LabelSpec LabelProofs Morph MorphSpec
  Filter FilterSpec FilterProofs FilterGridProofs FilterMoreProofs.
Open Scope nat_scope.

Lemma count_nth_gen {A} (g : A -> bool) (d : A) l :
  count g l = count (fun i => g (nth i l d)) (seq 0 (length l)).
Proof.
  unfold count. induction l as [|b l IH] using rev_ind; [reflexivity|].
  rewrite app_length. cbn [length]. rewrite Nat.add_1_r, seq_S, !filter_app, !app_length. cbn [Nat.add].
  f_equal.
  - rewrite IH. f_equal. apply filter_ext_in. intros i Hi. apply in_seq in Hi. rewrite app_nth1 by lia. reflexivity.
  - cbn [filter]. rewrite app_nth2 by lia. rewrite Nat.sub_diag. cbn [nth]. destruct (g b); reflexivity.
Qed.

Lemma mesh_chain_trans m (on : nat -> Prop) i j k : mesh_chain m on i j -> mesh_chain m on j k -> mesh_chain m on i k.
Proof. induction 1; auto. intro. eapply mchain_step; eauto. Qed.
Lemma mesh_chain_sym m (on : nat -> Prop) i j : (forall a, on a -> a < length m) -> on i -> mesh_chain m on i j -> mesh_chain m on j i.
Proof.
  intros B Oi H. revert Oi. induction H as [a|a k b O A Bk _ IH]; intro Oa; [constructor|].
  eapply mesh_chain_trans; [apply IH; exact O|]. eapply mchain_step; [exact Oa|tauto|auto|constructor].
Qed.

Section Mesh.
Variables (m : mesh) (mask : list bool) (datas : list (list bool)).
Hypothesis OK : mesh_inputs_ok m mask datas.
Notation fields := (map (identify_mesh m mask) datas).
Notation data t := (nth t datas []).
Notation on t := (ocean_extreme m mask (nth t datas [])).

Lemma field_at t : t < length datas -> nth t fields [] = identify_mesh m mask (data t).
Proof.
  intro Ht. rewrite (nth_indep _ [] (identify_mesh m mask [])) by (rewrite map_length; exact Ht).
  apply (map_nth (identify_mesh m mask)).
Qed.

Lemma field_spec t : t < length datas ->
  length (nth t fields []) = length m /\
  (forall i, i < length m -> (nth i (nth t fields []) 0%Z = 0%Z <-> ~ on t i)) /\
  (forall i, (0 <= nth i (nth t fields []) 0)%Z) /\
  (forall i j, on t i -> on t j -> (nth i (nth t fields []) 0%Z = nth j (nth t fields []) 0%Z <-> mesh_chain m (on t) i j)).
Proof.
  intro Ht. rewrite field_at by exact Ht. destruct OK as (M & Lm & Ld).
  exact (identify_mesh_spec m mask (data t) M Lm (Ld _ (nth_In _ _ Ht))).
Qed.

Lemma fields_nonneg s : In s fields -> forall x, In x s -> (0 <= x)%Z.
Proof.
  intros Hs x Hx. destruct (In_nth _ _ [] Hs) as (t & Ht & <-). rewrite map_length in Ht.
  destruct (field_spec t Ht) as (_ & _ & P & _). destruct (In_nth _ _ 0%Z Hx) as (i & _ & <-). apply P.
Qed.

Lemma on_dec t i : on t i \/ ~ on t i.
Proof.
  unfold ocean_extreme. destruct (lt_dec i (length m)), (nth i mask false), (nth i (data t) false); intuition discriminate.
Qed.

Lemma pos_on t i : t < length datas -> ((0 < nth i (nth t fields []) 0)%Z <-> on t i).
Proof.
  intro Ht. destruct (field_spec t Ht) as (Lf & Z & P & _). specialize (P i).
  destruct (lt_dec i (length m)) as [Hi|Hi].
  - specialize (Z i Hi). destruct (on_dec t i) as [O|O]; split; auto.
    + intros _. assert (nth i (nth t fields []) 0%Z <> 0%Z); [tauto|lia].
    + intro. assert (nth i (nth t fields []) 0%Z = 0%Z) by tauto. lia.
    + tauto.
  - rewrite nth_overflow by lia. split; [lia|]. intros (H & _). lia.
Qed.

Lemma object_size_mesh t i l : t < length datas -> on t i -> mesh_object m mask (data t) i l ->
  cells_with (nth i (nth t fields []) 0%Z) (nth t fields []) = length l.
Proof.
  intros Ht O (N & M). destruct (field_spec t Ht) as (Lf & _ & _ & E).
  unfold cells_with. rewrite (count_nth_gen _ 0%Z), Lf. unfold count. apply Permutation_length.
  apply NoDup_Permutation; [apply NoDup_filter, seq_NoDup|exact N|].
  intro j. rewrite filter_In, in_seq, Z.eqb_eq, M. split.
  - intros [Hj Q]. assert (Oj : on t j) by (apply pos_on; auto; rewrite <- Q; apply pos_on; auto).
    split; [exact Oj|]. apply E; auto.
  - intros [Oj C]. split; [destruct Oj; lia|]. apply E; auto.
Qed.

Lemma object_exists_mesh t i : t < length datas -> on t i -> exists l, mesh_object m mask (data t) i l.
Proof.
  intros Ht O. destruct (field_spec t Ht) as (Lf & _ & _ & E).
  exists (filter (fun j => Z.eqb (nth i (nth t fields []) 0%Z) (nth j (nth t fields []) 0%Z)) (seq 0 (length m))).
  split; [apply NoDup_filter, seq_NoDup|]. intro j. rewrite filter_In, in_seq, Z.eqb_eq. split.
  - intros [Hj Q]. assert (Oj : on t j) by (apply pos_on; auto; rewrite <- Q; apply pos_on; auto).
    split; [exact Oj|]. apply E; auto.
  - intros [Oj C]. split; [destruct Oj; lia|]. apply E; auto.
Qed.

Lemma filter_small_mesh_spec r f : filter_small_mesh r m mask datas = Ok f ->
  length (f_keep f) = length datas /\
  forall t i, t < length datas ->
    (mesh_kept (f_keep f) t i <->
     on t i /\ exists l, mesh_object m mask (data t) i l /\ (f_threshold f < nat_Q (length l))%Q).
Proof.
  intro E. unfold filter_small_mesh in E. apply filter_mesh_spec in E; [|exact fields_nonneg].
  rewrite map_length in E. destruct E as [L S]. split; [exact L|]. intros t i Ht. unfold mesh_kept.
  rewrite (S t i Ht). rewrite (pos_on t i Ht). split; intros [O H]; split; auto.
  - destruct (object_exists_mesh t i Ht O) as [l Ol]. exists l. split; [exact Ol|].
    rewrite <- (object_size_mesh t i l Ht O Ol). exact H.
  - destruct H as (l & Ol & Q). rewrite (object_size_mesh t i l Ht O Ol). exact Q.
Qed.

Lemma filter_mesh_whole r f : filter_small_mesh r m mask datas = Ok f ->
  forall t i j, t < length datas -> on t j -> mesh_chain m (on t) i j ->
  mesh_kept (f_keep f) t i -> mesh_kept (f_keep f) t j.
Proof.
  intros E t i j Ht Oj C K. apply filter_small_mesh_spec in E. destruct E as [_ S].
  apply S in K; auto. apply S; auto. destruct K as (Oi & l & (N & M) & Q). split; [exact Oj|].
  assert (C' : mesh_chain m (on t) j i) by (apply mesh_chain_sym; auto; intros a Ha; destruct Ha; auto).
  exists l. split; [|exact Q]. split; [exact N|]. intro k. rewrite M. split; intros [Ok Ck]; split; auto; eapply mesh_chain_trans; eauto.
Qed.

Lemma threshold_mono_mesh r1 r2 f1 f2 : rule_le r1 r2 ->
  filter_small_mesh r1 m mask datas = Ok f1 -> filter_small_mesh r2 m mask datas = Ok f2 ->
  (f_threshold f1 <= f_threshold f2)%Q.
Proof.
  intros M. unfold filter_small_mesh, filter_mesh.
  set (sizes := flat_map _ _).
  assert (A : is_absolute r1 = is_absolute r2) by (destruct r1, r2; simpl in M; tauto). rewrite <- A.
  set (pre := filter _ sizes). destruct pre as [|p l] eqn:G; [discriminate|]. rewrite <- G.
  intros E1 E2. injection E1 as <-. injection E2 as <-. cbn [f_threshold].
  assert (NE : pre <> []) by (rewrite G; discriminate).
  destruct r1, r2; simpl in *; try tauto.
  - rewrite <- Zle_Qle. exact M.
  - apply percentile_mono; tauto.
Qed.

Lemma filter_mesh_mono r1 r2 f1 f2 : rule_le r1 r2 ->
  filter_small_mesh r1 m mask datas = Ok f1 -> filter_small_mesh r2 m mask datas = Ok f2 ->
  forall t i, t < length datas -> mesh_kept (f_keep f2) t i -> mesh_kept (f_keep f1) t i.
Proof.
  intros M E1 E2 t i Ht K. pose proof (threshold_mono_mesh r1 r2 f1 f2 M E1 E2) as T.
  apply filter_small_mesh_spec in E1. apply filter_small_mesh_spec in E2.
  destruct E1 as (_ & S1), E2 as (_ & S2). apply S1; auto. apply S2 in K; auto.
  destruct K as (X & l & O & Q). split; [exact X|]. exists l. split; [exact O|]. eapply Qle_lt_trans; eauto.
Qed.

(** *** Reported counts *)
Lemma count_repeat0 {A} (g : A -> bool) z n : g z = false -> count g (repeat z n) = 0.
Proof. intro H. apply count_zero. intros x Hx. apply repeat_spec in Hx. subst. exact H. Qed.

Lemma count_filter {A} (g h : A -> bool) l : (forall x, g x = true -> h x = true) -> count g (filter h l) = count g l.
Proof.
  intro H. induction l as [|x l IH]; [reflexivity|]. rewrite count_cons. simpl. destruct (h x) eqn:E.
  - rewrite count_cons, IH. reflexivity.
  - rewrite IH. destruct (g x) eqn:G; [apply H in G; congruence|reflexivity].
Qed.

Lemma count_map {A B} (g : B -> bool) (h : A -> B) l : count g (map h l) = count (fun x => g (h x)) l.
Proof. induction l as [|x l IH]; [reflexivity|]. cbn [map]. rewrite !count_cons, IH. reflexivity. Qed.

Definition kept_objects (thr : Q) (k : nat) (fs : list (list Z)) : list (nat * Z) :=
  flat_map (fun p => map (fun id => (fst p, id))
     (filter (fun id => Qltb thr (nat_Q (cells_with id (snd p)))) (unique_pos (snd p))))
   (combine (seq k (length fs)) fs).

Lemma kept_objects_length thr n fs : (0 <= thr)%Q -> forall k,
  length (kept_objects thr k fs) = count (fun a => Qltb thr (nat_Q a)) (flat_map fst (map (cluster_sizes n) fs)).
Proof.
  intro P. induction fs as [|f fs IH]; intro k; [reflexivity|]. unfold kept_objects in *. simpl.
  rewrite app_length, count_app, (IH (S k)). f_equal.
  rewrite map_length. unfold pad0. rewrite count_app, count_map, count_repeat0; [unfold count; lia|].
  apply Qltb_false. exact P.
Qed.

Lemma kept_objects_In thr fs : forall k t id, In (t, id) (kept_objects thr k fs) <->
  k <= t < k + length fs /\ (0 < id)%Z /\ In id (nth (t - k) fs []) /\ (thr < nat_Q (cells_with id (nth (t - k) fs [])))%Q.
Proof.
  induction fs as [|f fs IH]; intros k t id; unfold kept_objects in *.
  - simpl. split; [tauto|]. intros (H & _). lia.
  - cbn [length seq combine flat_map]. rewrite in_app_iff, IH. cbn [fst snd]. rewrite in_map_iff. split.
    + intros [(i & E & H)|H].
      * injection E as <- <-. apply filter_In in H. destruct H as [H T]. apply unique_pos_In in H. apply Qltb_spec in T.
        rewrite Nat.sub_diag. simpl. split; [lia|]. tauto.
      * destruct H as (B & P & I & T). replace (t - k) with (S (t - S k)) by lia. simpl. split; [lia|]. auto.
    + intros (B & P & I & T). destruct (Nat.eq_dec t k) as [->|NE].
      * left. rewrite Nat.sub_diag in *. simpl in *. exists id. split; [reflexivity|]. apply filter_In. split.
        -- apply unique_pos_In. auto.
        -- apply Qltb_spec. exact T.
      * right. replace (t - k) with (S (t - S k)) in * by lia. simpl in *. split; [lia|]. auto.
Qed.

Lemma kept_objects_NoDup thr fs : forall k, NoDup (kept_objects thr k fs).
Proof.
  induction fs as [|f fs IH]; intro k; [constructor|]. unfold kept_objects in *. cbn [length seq combine flat_map fst snd].
  apply NoDup_app_iff_local; [|apply IH|].
  - apply FinFun.Injective_map_NoDup; [intros a b E; congruence|]. apply NoDup_filter, unique_pos_NoDup.
  - intros [t id] H1 H2. apply in_map_iff in H1. destruct H1 as (i & E & _). injection E as <- <-.
    apply kept_objects_In in H2. lia.
Qed.

Lemma mesh_counts r f : filter_small_mesh r m mask datas = Ok f ->
  (nat_Q (if is_absolute r then 5 else 50) <= f_threshold f)%Q ->
  exists objs : list (nat * Z), NoDup objs /\ length objs = f_after f /\
    forall t id, In (t, id) objs <->
      exists i, t < length datas /\ mesh_kept (f_keep f) t i /\ nth i (nth t fields []) 0%Z = id.
Proof.
  intros E T. pose proof E as E0. apply filter_small_mesh_spec in E0. destruct E0 as [_ S].
  exists (kept_objects (f_threshold f) 0 fields). split; [apply kept_objects_NoDup|]. split.
  - unfold filter_small_mesh, filter_mesh in E. set (n := max_id fields) in E.
    set (sizes := flat_map _ _) in E. set (cut := if is_absolute r then 5 else 50) in *.
    set (pre := filter _ sizes) in E. destruct pre as [|p l] eqn:G; [discriminate|]. rewrite <- G in E. unfold pre in E.
    injection E as <-. cbn [f_after f_threshold] in *.
    rewrite (kept_objects_length _ n).
    + fold sizes. symmetry. apply count_filter. intros a Ha. apply Qltb_spec in Ha.
      apply Nat.ltb_lt. assert (H : (nat_Q cut < nat_Q a)%Q) by (eapply Qle_lt_trans; eauto).
      unfold nat_Q in H. rewrite <- Zlt_Qlt in H. lia.
    + eapply Qle_trans; [|exact T]. change 0%Q with (nat_Q 0). apply nat_Q_le. lia.
  - intros t id. rewrite kept_objects_In, map_length, Nat.sub_0_r. split.
    + intros (B & P & I & Q). destruct (In_nth _ _ 0%Z I) as (i & Hi & <-). exists i. split; [lia|]. split; [|reflexivity].
      assert (Ht : t < length datas) by lia. apply S; [exact Ht|]. assert (O : on t i) by (apply pos_on; auto). split; [exact O|].
      destruct (object_exists_mesh t i Ht O) as [l Ol]. exists l. split; [exact Ol|].
      rewrite <- (object_size_mesh t i l Ht O Ol). exact Q.
    + intros (i & Ht & K & <-). apply S in K; [|exact Ht]. destruct K as (O & l & Ol & Q).
      split; [lia|]. assert (P : (0 < nth i (nth t fields []) 0)%Z) by (apply pos_on; auto). split; [exact P|].
      destruct (field_spec t Ht) as (Lf & _). split; [apply nth_In; destruct O; lia|].
      rewrite (object_size_mesh t i l Ht O Ol). exact Q.
Qed.
End Mesh.
