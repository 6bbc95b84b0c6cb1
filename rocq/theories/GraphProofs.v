(** Correctness of the component labelling. *)
From Verif Require Import Base Graph.
Open Scope nat_scope.

Lemma linked_trans es i j k : linked es i j -> linked es j k -> linked es i k.
Proof.
  induction 1 as [i|i a j H _ IH|i a j H _ IH]; intro K; auto.
  - eapply linked_fwd; eauto.
  - eapply linked_bwd; eauto.
Qed.
Lemma linked_edge es i j : In (i, j) es -> linked es i j.
Proof. intro H. eapply linked_fwd; [exact H|constructor]. Qed.
Lemma linked_edge' es i j : In (i, j) es -> linked es j i.
Proof. intro H. eapply linked_bwd; [exact H|constructor]. Qed.
Lemma linked_sym es i j : linked es i j -> linked es j i.
Proof.
  induction 1 as [i|i a j H _ IH|i a j H _ IH]; [constructor|..].
  - eapply linked_trans; [exact IH|]. apply linked_edge'. exact H.
  - eapply linked_trans; [exact IH|]. apply linked_edge. exact H.
Qed.
Lemma linked_incl es es' i j : incl es es' -> linked es i j -> linked es' i j.
Proof.
  intro S. induction 1 as [i|i a j H _ IH|i a j H _ IH]; [constructor|..].
  - eapply linked_fwd; eauto.
  - eapply linked_bwd; eauto.
Qed.

Lemma linked_snoc es a b i j :
  linked (es ++ [(a, b)]) i j <->
  linked es i j \/ (linked es i a /\ linked es b j) \/ (linked es i b /\ linked es a j).
Proof.
  split.
  - induction 1 as [i|i x j H L IH|i x j H L IH].
    + left. constructor.
    + apply in_app_or in H. destruct H as [H|[H|[]]].
      * destruct IH as [IH|[[I1 I2]|[I1 I2]]].
        -- left. eapply linked_fwd; eauto.
        -- right; left. split; auto. eapply linked_fwd; eauto.
        -- right; right. split; auto. eapply linked_fwd; eauto.
      * injection H as -> ->. destruct IH as [IH|[[I1 I2]|[I1 I2]]].
        -- right; left. split; [constructor|auto].
        -- right; left. split; [constructor|]. exact I2.
        -- left. exact I2.
    + apply in_app_or in H. destruct H as [H|[H|[]]].
      * destruct IH as [IH|[[I1 I2]|[I1 I2]]].
        -- left. eapply linked_bwd; eauto.
        -- right; left. split; auto. eapply linked_bwd; eauto.
        -- right; right. split; auto. eapply linked_bwd; eauto.
      * injection H as -> ->. destruct IH as [IH|[[I1 I2]|[I1 I2]]].
        -- right; right. split; [constructor|auto].
        -- left. exact I2.
        -- right; right. split; [constructor|]. exact I2.
  - assert (S : incl es (es ++ [(a, b)])) by (intros e He; apply in_or_app; auto).
    assert (E : In (a, b) (es ++ [(a, b)])) by (apply in_or_app; right; left; auto).
    intros [H|[[H K]|[H K]]].
    + eapply linked_incl; eauto.
    + eapply linked_trans; [eapply linked_incl; eauto|].
      eapply linked_trans; [apply linked_edge; exact E|eapply linked_incl; eauto].
    + eapply linked_trans; [eapply linked_incl; eauto|].
      eapply linked_trans; [apply linked_edge'; exact E|eapply linked_incl; eauto].
Qed.

Lemma relabel_length a b lab : length (relabel a b lab) = length lab.
Proof. apply map_length. Qed.

Lemma lab_at_relabel a b lab i : i < length lab ->
  lab_at (relabel a b lab) i = if Nat.eqb (lab_at lab i) b then a else lab_at lab i.
Proof.
  intro H. unfold lab_at, relabel.
  rewrite (nth_indep _ i ((fun l => if Nat.eqb l b then a else l) i)) by (rewrite map_length; exact H).
  rewrite (map_nth (fun l => if Nat.eqb l b then a else l)). reflexivity.
Qed.

(** Invariant: two nodes have the same representative iff they are linked. *)
Definition good (n : nat) (es : list edge) (lab : list nat) : Prop :=
  length lab = n /\ forall i j, i < n -> j < n -> (lab_at lab i = lab_at lab j <-> linked es i j).

Lemma linked_in_range n es i j : (forall a b, In (a, b) es -> a < n /\ b < n) ->
  linked es i j -> i < n -> j < n.
Proof.
  intros R L. induction L as [i|i a j H L IH|i a j H L IH]; intro Hi; auto;
    apply IH; apply R in H; tauto.
Qed.

Lemma join_good n es lab a b : (forall x y, In (x, y) es -> x < n /\ y < n) -> a < n -> b < n ->
  good n es lab -> good n (es ++ [(a, b)]) (join lab (a, b)).
Proof.
  intros R Ha Hb [L G]. unfold join. cbn [fst snd]. split; [rewrite relabel_length; exact L|].
  intros i j Hi Hj. rewrite !lab_at_relabel by lia. rewrite linked_snoc.
  rewrite <- !(G i j), <- !(G i a), <- !(G b j), <- !(G i b), <- !(G a j) by assumption.
  destruct (Nat.eqb_spec (lab_at lab i) (lab_at lab b)) as [E1|E1];
    destruct (Nat.eqb_spec (lab_at lab j) (lab_at lab b)) as [E2|E2].
  - split; [left; congruence|reflexivity].
  - split; [intro H; right; right; split; congruence|].
    intros [H|[[H K]|[H K]]]; congruence.
  - split; [intro H; right; left; split; congruence|].
    intros [H|[[H K]|[H K]]]; congruence.
  - split; [auto|]. intros [H|[[H K]|[H K]]]; congruence.
Qed.

Lemma seq_good n : good n [] (seq 0 n).
Proof.
  split; [apply seq_length|]. intros i j Hi Hj. unfold lab_at. rewrite !seq_nth by assumption. simpl.
  split; [intros ->; constructor|]. intro H. inversion H as [|? ? ? K|? ? ? K]; subst; auto; destruct K.
Qed.

Lemma fold_join_good n : forall es done lab,
  (forall a b, In (a, b) (done ++ es) -> a < n /\ b < n) ->
  good n done lab -> good n (done ++ es) (fold_left join es lab).
Proof.
  induction es as [|[a b] es IH]; intros done lab R G; simpl.
  - rewrite app_nil_r. exact G.
  - replace (done ++ (a, b) :: es) with ((done ++ [(a, b)]) ++ es) in * by (rewrite <- app_assoc; reflexivity).
    apply IH; auto.
    assert (RR : a < n /\ b < n) by (apply R; apply in_or_app; left; apply in_or_app; right; left; auto).
    destruct RR. apply join_good; auto.
    intros x y Hxy. apply R. apply in_or_app; left; apply in_or_app; left; exact Hxy.
Qed.

Lemma roots_good n es : (forall a b, In (a, b) es -> a < n /\ b < n) -> good n es (roots n es).
Proof. intro R. exact (fold_join_good n es [] (seq 0 n) R (seq_good n)). Qed.

Lemma firsts_aux l : forall seen x, In x (fold_left add_new l seen) <-> In x seen \/ In x l.
Proof.
  induction l as [|y l IH]; intros seen x; simpl; [tauto|].
  rewrite IH. unfold add_new. destruct (memN y seen) eqn:M.
  - apply memN_In in M. split; [tauto|]. intros [H|[->|H]]; auto.
  - rewrite in_app_iff. simpl. tauto.
Qed.
Lemma firsts_In l x : In x (firsts l) <-> In x l.
Proof. unfold firsts. rewrite firsts_aux. simpl. tauto. Qed.
Lemma firsts_NoDup_aux l : forall seen, NoDup seen -> NoDup (fold_left add_new l seen).
Proof.
  induction l as [|y l IH]; intros seen H; simpl; auto. apply IH. unfold add_new.
  destruct (memN y seen) eqn:M; auto.
  assert (N : ~ In y seen) by (intro C; apply memN_In in C; congruence).
  clear M IH. induction seen as [|z seen IHs]; simpl; [constructor; auto; constructor|].
  inversion H; subst. constructor.
  - rewrite in_app_iff. simpl. intros [C|[C|[]]]; [auto|]. apply N. left. auto.
  - apply IHs; auto. intro C. apply N. right. exact C.
Qed.
Lemma firsts_NoDup l : NoDup (firsts l).
Proof. apply firsts_NoDup_aux. constructor. Qed.

Lemma index_of_lt x l : In x l -> index_of x l < length l.
Proof.
  induction l as [|y l IH]; simpl; [tauto|]. intro H.
  destruct (Nat.eqb_spec x y); [lia|]. destruct H as [H|H]; [congruence|]. apply IH in H. lia.
Qed.
Lemma nth_index_of x l d : In x l -> nth (index_of x l) l d = x.
Proof.
  induction l as [|y l IH]; simpl; [tauto|]. intro H.
  destruct (Nat.eqb_spec x y); [auto|]. destruct H as [H|H]; [congruence|]. auto.
Qed.
Lemma index_of_inj x y l : In x l -> In y l -> index_of x l = index_of y l -> x = y.
Proof. intros Hx Hy E. rewrite <- (nth_index_of x l 0 Hx), E. apply nth_index_of. exact Hy. Qed.
Lemma index_of_nth l : NoDup l -> forall k d, k < length l -> index_of (nth k l d) l = k.
Proof.
  induction 1 as [|x l N _ IH]; intros k d H; simpl in *; [lia|].
  destruct k as [|k]; [rewrite Nat.eqb_refl; reflexivity|].
  destruct (Nat.eqb_spec (nth k l d) x) as [E|E].
  - exfalso. apply N. rewrite <- E. apply nth_In. lia.
  - f_equal. apply IH. lia.
Qed.

Lemma components_length n es : (forall a b, In (a, b) es -> a < n /\ b < n) -> length (components n es) = n.
Proof. intro R. unfold components. rewrite map_length. apply roots_good. exact R. Qed.

Lemma components_nth n es i d : (forall a b, In (a, b) es -> a < n /\ b < n) -> i < n ->
  nth i (components n es) d = index_of (lab_at (roots n es) i) (firsts (roots n es)).
Proof.
  intros R H. destruct (roots_good n es R) as [L _]. unfold components, lab_at.
  rewrite (nth_indep _ d (index_of i (firsts (roots n es)))) by (rewrite map_length; lia).
  rewrite (map_nth (fun r => index_of r (firsts (roots n es)))). reflexivity.
Qed.

Lemma root_In n es i : (forall a b, In (a, b) es -> a < n /\ b < n) -> i < n ->
  In (lab_at (roots n es) i) (firsts (roots n es)).
Proof.
  intros R H. destruct (roots_good n es R) as [L _]. apply firsts_In. apply nth_In. lia.
Qed.

Lemma components_spec n es d : (forall a b, In (a, b) es -> a < n /\ b < n) ->
  (forall i j, i < n -> j < n -> (nth i (components n es) d = nth j (components n es) d <-> linked es i j)) /\
  (forall i, i < n -> nth i (components n es) d < n_components n es) /\
  (forall k, k < n_components n es -> exists i, i < n /\ nth i (components n es) d = k).
Proof.
  intro R. pose proof (roots_good n es R) as [L G]. split; [|split].
  - intros i j Hi Hj. rewrite !components_nth by assumption. rewrite <- (G i j Hi Hj). split.
    + apply index_of_inj; apply root_In; assumption.
    + intros ->. reflexivity.
  - intros i Hi. rewrite components_nth by assumption. apply index_of_lt. apply root_In; assumption.
  - intros k Hk. unfold n_components in Hk.
    assert (I : In (nth k (firsts (roots n es)) 0) (roots n es)) by (apply firsts_In; apply nth_In; exact Hk).
    destruct (In_nth _ _ 0 I) as (i & Hi & E).
    exists i. split; [lia|]. rewrite components_nth by (auto; lia).
    assert (E2 : lab_at (roots n es) i = nth k (firsts (roots n es)) 0).
    { unfold lab_at. rewrite (nth_indep _ i 0) by exact Hi. exact E. }
    rewrite E2. apply index_of_nth; [apply firsts_NoDup|exact Hk].
Qed.
