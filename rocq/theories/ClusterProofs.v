From Verif Require Import Base Graph GraphProofs Filter Overlap OverlapSpec OverlapProofs Merge Cluster ClusterSpec.
Open Scope nat_scope.

(** ** set_at *)
Lemma set_at_length {A} k (v : A) l : length (set_at k v l) = length l.
Proof.
  unfold set_at. revert k. induction l as [|x l IH]; intros [|k]; cbn [firstn skipn app length]; auto.
Qed.
Lemma set_at_nth {A} k (v d : A) l i : nth i (set_at k v l) d = if Nat.eqb i k && Nat.ltb k (length l) then v else nth i l d.
Proof.
  unfold set_at. revert k i. induction l as [|x l IH]; intros [|k] [|i]; cbn [firstn skipn app length nth]; auto.
  - rewrite andb_false_r. reflexivity.
  - change (Nat.eqb (S i) (S k)) with (Nat.eqb i k). change (Nat.ltb (S k) (S (length l))) with (Nat.ltb k (length l)).
    apply IH.
Qed.

(** ** Positions *)
Lemma index_ofZ_lt x l : In x l -> index_ofZ x l < length l.
Proof. induction l as [|y l IH]; intro H; [destruct H|]. cbn. destruct (Z.eqb_spec x y); [lia|]. destruct H; [congruence|]. specialize (IH H). lia. Qed.
Lemma nth_index_ofZ x l d : In x l -> nth (index_ofZ x l) l d = x.
Proof. induction l as [|y l IH]; intro H; [destruct H|]. cbn. destruct (Z.eqb_spec x y); [auto|]. destruct H; [congruence|]. auto. Qed.
Lemma index_ofZ_nth l : NoDup l -> forall k d, k < length l -> index_ofZ (nth k l d) l = k.
Proof.
  induction 1 as [|y l N D IH]; intros k d K; [cbn in K; lia|]. destruct k as [|k]; cbn.
  - rewrite Z.eqb_refl. reflexivity.
  - cbn in K. destruct (Z.eqb_spec (nth k l d) y) as [E|E].
    + exfalso. apply N. rewrite <- E. apply nth_In. lia.
    + rewrite IH by lia. reflexivity.
Qed.
Lemma index_ofZ_inj x y l : In x l -> In y l -> index_ofZ x l = index_ofZ y l -> x = y.
Proof. intros X Y E. rewrite <- (nth_index_ofZ x l 0%Z X), <- (nth_index_ofZ y l 0%Z Y), E. reflexivity. Qed.

(** ** The lookup table *)
Lemma fill_from max_id : forall ids comp tab, length comp = length ids -> NoDup ids ->
  (forall x, In x ids -> (0 < x <= max_id)%Z) -> length tab = Z.to_nat (max_id + 1) ->
  exists tab', fold_left (fun acc p =>
      bind acc (fun tab =>
        if Z.leb (fst p) max_id then Ok (set_at (Z.to_nat (fst p)) (Z.of_nat (snd p) + 1)%Z tab)
        else Err IndexError)) (combine ids comp) (Ok tab) = Ok tab' /\
    length tab' = Z.to_nat (max_id + 1) /\
    (forall x, In x ids -> nth (Z.to_nat x) tab' 0%Z = (Z.of_nat (nth (index_ofZ x ids) comp 0%nat) + 1)%Z) /\
    (forall k, ~ In (Z.of_nat k) ids -> nth k tab' 0%Z = nth k tab 0%Z).
Proof.
  induction ids as [|x ids IH]; intros comp tab Lc Nd Rg Lt.
  - exists tab. destruct comp; [|discriminate]. cbn. repeat split; auto. intros x [].
  - destruct comp as [|c comp]; [discriminate|]. injection Lc as Lc. inversion Nd as [|? ? Nx Nd']; subst.
    cbn [combine fold_left fst snd bind]. destruct (Z.leb_spec x max_id) as [Le|Le]; [|specialize (Rg x (or_introl eq_refl)); lia].
    assert (Hx := Rg x (or_introl eq_refl)).
    destruct (IH comp (set_at (Z.to_nat x) (Z.of_nat c + 1)%Z tab) Lc Nd') as (tab' & E & L & V & O).
    { intros y Y. apply Rg. right. exact Y. }
    { rewrite set_at_length. exact Lt. }
    exists tab'. split; [exact E|]. split; [exact L|]. split.
    + intros y [->|Y].
      * cbn [index_ofZ]. rewrite Z.eqb_refl. cbn [nth]. rewrite O by (rewrite Z2Nat.id by lia; exact Nx).
        rewrite set_at_nth, Nat.eqb_refl. destruct (Nat.ltb_spec (Z.to_nat y) (length tab)); [reflexivity|lia].
      * cbn [index_ofZ]. destruct (Z.eqb_spec y x) as [E2|E2]; [subst; contradiction|]. cbn [nth]. apply V. exact Y.
    + intros k K. rewrite O by (intro C; apply K; right; exact C). rewrite set_at_nth.
      destruct (Nat.eqb_spec k (Z.to_nat x)) as [E2|E2]; [|reflexivity].
      exfalso. apply K. left. lia.
Qed.

Lemma fill_table_spec max_id ids comp : length comp = length ids -> NoDup ids ->
  (forall x, In x ids -> (0 < x <= max_id)%Z) ->
  exists tab, fill_table max_id ids comp = Ok tab /\ length tab = Z.to_nat (max_id + 1) /\
    (forall x, In x ids -> nth (Z.to_nat x) tab 0%Z = (Z.of_nat (nth (index_ofZ x ids) comp 0%nat) + 1)%Z) /\
    (forall k, ~ In (Z.of_nat k) ids -> nth k tab 0%Z = 0%Z).
Proof.
  intros Lc Nd Rg.
  destruct (fill_from max_id ids comp (repeat 0%Z (Z.to_nat (max_id + 1))) Lc Nd Rg (repeat_length _ _))
    as (tab & E & L & V & O).
  exists tab. split; [exact E|]. split; [exact L|]. split; [exact V|].
  intros k K. rewrite O by exact K. destruct (Nat.lt_ge_cases k (Z.to_nat (max_id + 1))) as [H|H].
  - apply (repeat_spec (Z.to_nat (max_id + 1))). apply nth_In. rewrite repeat_length. exact H.
  - apply nth_overflow. rewrite repeat_length. exact H.
Qed.

(** ** Chains *)
Lemma chained_trans (R : Z -> Z -> Prop) x y z : chained R x y -> chained R y z -> chained R x z.
Proof. induction 1; intro H'; [exact H'|eapply chained_fwd; eauto|eapply chained_bwd; eauto]. Qed.
Lemma chained_one (R : Z -> Z -> Prop) x y : R x y -> chained R x y.
Proof. intro H. eapply chained_fwd; [exact H|constructor]. Qed.
Lemma chained_one' (R : Z -> Z -> Prop) x y : R x y -> chained R y x.
Proof. intro H. eapply chained_bwd; [exact H|constructor]. Qed.
Lemma chained_sym (R : Z -> Z -> Prop) x y : chained R x y -> chained R y x.
Proof.
  induction 1; [constructor|eapply chained_trans; [eassumption|apply chained_one'; assumption]|
                eapply chained_trans; [eassumption|apply chained_one; assumption]].
Qed.
Lemma chained_mono (R S : Z -> Z -> Prop) x y : (forall a b, R a b -> S a b) -> chained R x y -> chained S x y.
Proof. intros I. induction 1; [constructor|eapply chained_fwd; eauto|eapply chained_bwd; eauto]. Qed.

Lemma exists_last_pair (l : list (Z * Z)) : l <> [] -> exists a b, In (a, b) l.
Proof. destruct l as [|[a b] l]; intro H; [congruence|]. exists a, b. left. reflexivity. Qed.

Section Table.
Variables (fields : list (list Z)) (pairs : list (Z * Z)).
Definition occurs (x : Z) : Prop := In x (concat fields).
Hypothesis Hpairs : forall a b, In (a, b) pairs -> (0 < a)%Z /\ (0 < b)%Z /\ occurs a /\ occurs b.
Let ids := valid_ids fields pairs.

Lemma positive_ids_In l x : In x (positive_ids l) <-> (0 < x)%Z /\ In x l.
Proof. unfold positive_ids. rewrite filter_In, unique_codes_In, Z.ltb_lt. tauto. Qed.
Lemma valid_In x : In x ids <-> (0 < x)%Z /\ occurs x.
Proof.
  unfold ids, valid_ids. rewrite unique_codes_In, in_app_iff, !positive_ids_In. split; [|tauto].
  intros [[P H]|H]; [|exact H]. split; [exact P|].
  apply in_flat_map in H. destruct H as ([a b] & I & H). apply Hpairs in I. cbn in H.
  destruct H as [<-|[<-|[]]]; tauto.
Qed.
Lemma valid_NoDup : NoDup ids.
Proof. apply unique_codes_NoDup. Qed.
Lemma dense_In i j : In (i, j) (dense_pairs ids pairs) <->
  exists a b, In (a, b) pairs /\ i = index_ofZ a ids /\ j = index_ofZ b ids.
Proof.
  unfold dense_pairs. rewrite in_map_iff. split.
  - intros ([a b] & E & H). injection E as <- <-. apply filter_In in H. exists a, b. tauto.
  - intros (a & b & I & -> & ->). exists (a, b). split; [reflexivity|]. apply filter_In. split; [exact I|].
    cbn [fst snd]. apply Hpairs in I. rewrite andb_true_iff, !memZ_In, !valid_In. tauto.
Qed.
Lemma dense_range i j : In (i, j) (dense_pairs ids pairs) -> i < length ids /\ j < length ids.
Proof.
  intro H. apply dense_In in H. destruct H as (a & b & I & -> & ->). apply Hpairs in I.
  split; apply index_ofZ_lt; apply valid_In; tauto.
Qed.
Lemma linked_chained i j : linked (dense_pairs ids pairs) i j -> i < length ids ->
  chained (fun a b => In (a, b) pairs) (nth i ids 0%Z) (nth j ids 0%Z).
Proof.
  induction 1 as [i|i j k E L IH|i j k E L IH]; intro I; [constructor| |].
  - assert (R := dense_range _ _ E). apply dense_In in E. destruct E as (a & b & P & -> & ->).
    assert (Q0 := Hpairs _ _ P). rewrite nth_index_ofZ by (apply valid_In; tauto).
    eapply chained_fwd; [exact P|]. rewrite <- (nth_index_ofZ b ids 0%Z) at 1 by (apply valid_In; tauto).
    apply IH. tauto.
  - assert (R := dense_range _ _ E). apply dense_In in E. destruct E as (a & b & P & -> & ->).
    assert (Q0 := Hpairs _ _ P). rewrite nth_index_ofZ by (apply valid_In; tauto).
    eapply chained_bwd; [exact P|]. rewrite <- (nth_index_ofZ a ids 0%Z) at 1 by (apply valid_In; tauto).
    apply IH. tauto.
Qed.
Lemma chained_linked x y : chained (fun a b => In (a, b) pairs) x y ->
  linked (dense_pairs ids pairs) (index_ofZ x ids) (index_ofZ y ids).
Proof.
  induction 1 as [x|x y z P C IH|x y z P C IH]; [constructor| |].
  - eapply linked_fwd; [|exact IH]. apply dense_In. eauto.
  - eapply linked_bwd; [|exact IH]. apply dense_In. eauto.
Qed.

Lemma event_table_spec : exists tab n, event_table fields pairs = Ok (tab, n) /\
  length tab = Z.to_nat (arr_max (concat fields) + 1) /\
  (forall x y, (0 < x)%Z -> occurs x -> (0 < y)%Z -> occurs y ->
     (nth (Z.to_nat x) tab 0%Z = nth (Z.to_nat y) tab 0%Z <-> chained (fun a b => In (a, b) pairs) x y)) /\
  (forall x, (0 < x)%Z -> occurs x -> (1 <= nth (Z.to_nat x) tab 0 <= Z.of_nat n)%Z) /\
  (forall k, (1 <= k <= Z.of_nat n)%Z -> exists x, (0 < x)%Z /\ occurs x /\ nth (Z.to_nat x) tab 0%Z = k) /\
  nth 0 tab 0%Z = 0%Z.
Proof.
  unfold event_table. fold ids. set (es := dense_pairs ids pairs).
  assert (Rg : forall a b, In (a, b) es -> a < length ids /\ b < length ids) by (intros; apply dense_range; assumption).
  destruct (fill_table_spec (arr_max (concat fields)) ids (components (length ids) es)) as (tab & E & L & V & O).
  { rewrite components_length by exact Rg. reflexivity. }
  { exact valid_NoDup. }
  { intros x X. apply valid_In in X. destruct X as [P X]. apply arr_max_ge in X. lia. }
  destruct (components_spec (length ids) es 0 Rg) as (C1 & C2 & C3).
  exists tab, (n_components (length ids) es). split.
  - assert (G : bind (fill_table (arr_max (concat fields)) ids (components (length ids) es))
               (fun tab => Ok (tab, n_components (length ids) es)) = Ok (tab, n_components (length ids) es))
      by (rewrite E; reflexivity).
    assert (X : pairs <> [] -> es <> []).
    { intros Np Ne. destruct (exists_last_pair pairs Np) as (a & b & I).
      assert (J : In (index_ofZ a ids, index_ofZ b ids) es) by (apply dense_In; eauto). rewrite Ne in J. destruct J. }
    clear - G X. destruct pairs as [|p r]; [exact G|]. destruct es as [|e es']; [exfalso; apply X; congruence|exact G].
  - split; [exact L|]. split; [|split; [|split]].
    + intros x y Px Ox Py Oy.
      assert (X : In x ids) by (apply valid_In; auto). assert (Y : In y ids) by (apply valid_In; auto).
      rewrite (V x X), (V y Y). rewrite <- (nth_index_ofZ x ids 0%Z X) at 2. rewrite <- (nth_index_ofZ y ids 0%Z Y) at 2.
      assert (Ix := index_ofZ_lt x ids X). assert (Iy := index_ofZ_lt y ids Y). specialize (C1 _ _ Ix Iy).
      split.
      * intro H. apply linked_chained; [|exact Ix]. apply C1. lia.
      * intro H. rewrite (nth_index_ofZ x ids 0%Z X), (nth_index_ofZ y ids 0%Z Y) in H. apply chained_linked in H.
        apply C1 in H. lia.
    + intros x Px Ox. assert (X : In x ids) by (apply valid_In; auto). rewrite (V x X).
      specialize (C2 _ (index_ofZ_lt x ids X)). lia.
    + intros k K. destruct (C3 (Z.to_nat (k - 1))) as (i & I & Ei); [lia|].
      assert (X : In (nth i ids 0%Z) ids) by (apply nth_In; exact I).
      exists (nth i ids 0%Z). apply valid_In in X. split; [tauto|]. split; [tauto|].
      rewrite V by (apply valid_In; exact X). rewrite index_ofZ_nth by (auto using valid_NoDup). lia.
    + apply O. intro H. apply valid_In in H. lia.
Qed.
End Table.
