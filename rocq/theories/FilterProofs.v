(** Proofs about [Filter]. *)
From Coq Require Import Sorted Permutation Qround.
From Verif Require Import Base Graph GraphProofs Label LabelSpec LabelProofs Morph MorphSpec Filter FilterSpec.
Open Scope nat_scope.

Lemma NoDup_app_iff_local {A} (a b : list A) :
  NoDup a -> NoDup b -> (forall x, In x a -> In x b -> False) -> NoDup (a ++ b).
Proof.
  induction a as [|x a IH]; intros Na Nb D; simpl; [exact Nb|]. inversion Na; subst.
  constructor.
  - intro C. apply in_app_or in C. destruct C as [C|C]; [contradiction|]. apply (D x); [left; auto|exact C].
  - apply IH; auto. intros y Hy. apply D. right; exact Hy.
Qed.

(** *** Sorted distinct IDs *)
Lemma insert_uniq_In x l y : In y (insert_uniq x l) <-> y = x \/ In y l.
Proof.
  induction l as [|z l IH]; simpl; [intuition|].
  destruct (Z.ltb_spec x z); simpl; [intuition|].
  destruct (Z.eqb_spec x z); simpl; [subst; intuition|]. rewrite IH. intuition.
Qed.
Lemma insert_uniq_sorted x l : StronglySorted Z.lt l -> StronglySorted Z.lt (insert_uniq x l).
Proof.
  induction l as [|z l IH]; intro S; simpl; [repeat constructor|].
  apply StronglySorted_inv in S. destruct S as [S F].
  destruct (Z.ltb_spec x z).
  - constructor; [constructor; assumption|]. constructor; [assumption|].
    eapply Forall_impl; [|exact F]. intros; lia.
  - destruct (Z.eqb_spec x z); [subst; constructor; assumption|].
    constructor; [auto|]. apply Forall_forall. intros y Hy. apply insert_uniq_In in Hy.
    destruct Hy as [->|Hy]; [lia|]. rewrite Forall_forall in F. auto.
Qed.
Lemma unique_pos_In l x : In x (unique_pos l) <-> (0 < x)%Z /\ In x l.
Proof.
  unfold unique_pos. induction l as [|y l IH]; simpl; [tauto|].
  destruct (Z.ltb_spec 0 y); simpl.
  - rewrite insert_uniq_In, IH. intuition; subst; auto.
  - rewrite IH. intuition; subst; lia.
Qed.
Lemma unique_pos_sorted l : StronglySorted Z.lt (unique_pos l).
Proof.
  unfold unique_pos. induction (filter (Z.ltb 0) l) as [|y r IH]; simpl; [constructor|].
  apply insert_uniq_sorted. exact IH.
Qed.
Lemma sorted_NoDup l : StronglySorted Z.lt l -> NoDup l.
Proof.
  induction 1 as [|x l S IH F]; constructor; auto. intro C. rewrite Forall_forall in F.
  specialize (F _ C). lia.
Qed.
Lemma unique_pos_NoDup l : NoDup (unique_pos l).
Proof. apply sorted_NoDup, unique_pos_sorted. Qed.

(** *** Slices *)
Lemma nth_list_prod {A B} (l1 : list A) (l2 : list B) a b d1 d2 :
  a < length l1 -> b < length l2 ->
  nth (a * length l2 + b) (list_prod l1 l2) (d1, d2) = (nth a l1 d1, nth b l2 d2).
Proof.
  revert a. induction l1 as [|x l1 IH]; intros a Ha Hb; [simpl in Ha; lia|].
  cbn [list_prod]. destruct a as [|a].
  - rewrite app_nth1 by (rewrite map_length; lia). simpl Nat.mul. cbn [Nat.add nth].
    rewrite (nth_indep _ (d1, d2) (x, d2)) by (rewrite map_length; lia). apply (map_nth (fun y => (x, y))).
  - rewrite app_nth2 by (rewrite map_length; nia). rewrite map_length.
    replace (S a * length l2 + b - length l2) with (a * length l2 + b) by nia.
    cbn [nth]. apply IH; simpl in Ha; lia.
Qed.

Lemma slice_cells_length ny nx t : length (slice_cells ny nx t) = ny * nx.
Proof. unfold slice_cells. rewrite !prod_length, !seq_length. simpl. lia. Qed.

Lemma slice_cells_In ny nx t c :
  In c (slice_cells ny nx t) <-> fst (fst c) = t /\ snd (fst c) < ny /\ snd c < nx.
Proof.
  destruct c as [[t' y] x]. unfold slice_cells. rewrite (in_prod_iff _ _ (t', y) x), in_prod_iff, !in_seq.
  simpl. intuition lia.
Qed.

Lemma slice_cells_NoDup ny nx t : NoDup (slice_cells ny nx t).
Proof.
  unfold slice_cells. cbn [list_prod]. rewrite app_nil_r.
  assert (G : forall (l : list nat), NoDup l -> NoDup (list_prod (map (fun y => (t, y)) l) (seq 0 nx))).
  { induction l as [|y l IH]; intro N; simpl; [constructor|]. inversion N; subst.
    apply NoDup_app_iff_local.
    - apply FinFun.Injective_map_NoDup; [intros u v E; congruence|apply seq_NoDup].
    - auto.
    - intros [p x] K1 K2. apply in_map_iff in K1. destruct K1 as (x' & E & _). injection E as <- <-.
      apply in_prod_iff in K2. destruct K2 as [K2 _]. apply in_map_iff in K2.
      destruct K2 as (y' & E & K2). injection E as <-. contradiction. }
  apply G. apply seq_NoDup.
Qed.

Lemma slice_nth {A} ny nx (d : A) l t y x : y < ny -> x < nx ->
  nth (y * nx + x) (slice ny nx d l t) d = nth (flat ny nx (t, y, x)) l d.
Proof.
  intros Hy Hx. unfold slice.
  set (G := fun c => nth (flat ny nx c) l d).
  assert (B : y * nx + x < length (slice_cells ny nx t)) by (rewrite slice_cells_length; nia).
  rewrite (nth_indep _ d (G (0, 0, 0))) by (rewrite map_length; exact B).
  rewrite (map_nth G). unfold slice_cells.
  pose proof (nth_list_prod (list_prod [t] (seq 0 ny)) (seq 0 nx) y x (0, 0) 0) as E.
  rewrite seq_length in E. rewrite E; [|rewrite prod_length, seq_length; simpl; lia|exact Hx].
  pose proof (nth_list_prod [t] (seq 0 ny) 0 y 0 0) as E2. rewrite seq_length in E2. cbn [Nat.mul Nat.add] in E2.
  rewrite E2 by (simpl; lia). rewrite !seq_nth by lia. reflexivity.
Qed.

Lemma slice_In {A} ny nx (d : A) l t v :
  In v (slice ny nx d l t) <-> exists y x, y < ny /\ x < nx /\ nth (flat ny nx (t, y, x)) l d = v.
Proof.
  unfold slice. rewrite in_map_iff. split.
  - intros ([[t' y] x] & E & H). apply slice_cells_In in H. simpl in H. destruct H as (-> & Hy & Hx).
    exists y, x. auto.
  - intros (y & x & Hy & Hx & E). exists (t, y, x). split; auto. apply slice_cells_In. simpl. auto.
Qed.

(** *** Object table *)
Definition time_disjoint (slices : list (list Z)) : Prop :=
  forall t t' id, (0 < id)%Z -> In id (nth t slices []) -> In id (nth t' slices []) -> t = t'.

Lemma time_disjoint_cons s r : time_disjoint (s :: r) ->
  time_disjoint r /\ (forall id s', (0 < id)%Z -> In id s -> In s' r -> In id s' -> False).
Proof.
  intro D. split.
  - intros t t' id P H H'. specialize (D (S t) (S t') id P H H'). lia.
  - intros id s' P H Hs' H'. destruct (In_nth r s' [] Hs') as (k & _ & E).
    specialize (D 0 (S k) id P H). simpl in D. rewrite E in D. specialize (D H'). discriminate.
Qed.

Lemma props_fst slices : map fst (grid_props slices) = flat_map unique_pos slices.
Proof.
  unfold grid_props, slice_props. induction slices as [|s r IH]; simpl; [reflexivity|].
  rewrite map_app, IH, map_map. simpl. rewrite map_id. reflexivity.
Qed.

Lemma props_NoDup slices : time_disjoint slices -> NoDup (map fst (grid_props slices)).
Proof.
  rewrite props_fst. induction slices as [|s r IH]; intro D; simpl; [constructor|].
  apply time_disjoint_cons in D. destruct D as [D1 D2].
  apply NoDup_app_iff_local; [apply unique_pos_NoDup|auto|].
  intros id H1 H2. apply unique_pos_In in H1. apply in_flat_map in H2. destruct H2 as (s' & Hs & H2).
  apply unique_pos_In in H2. apply (D2 id s'); tauto.
Qed.

Lemma props_In slices id a :
  In (id, a) (grid_props slices) <-> exists s, In s slices /\ In id s /\ (0 < id)%Z /\ a = cells_with id s.
Proof.
  unfold grid_props, slice_props. rewrite in_flat_map. split.
  - intros (s & Hs & H). apply in_map_iff in H. destruct H as (k & E & H). injection E as <- <-.
    apply unique_pos_In in H. exists s. tauto.
  - intros (s & Hs & Hi & P & ->). exists s. split; auto. apply in_map_iff. exists id. split; auto.
    apply unique_pos_In. auto.
Qed.

Lemma filter_keep_eq thr props : (forall p, In p props -> (0 < fst p)%Z) ->
  filter (Z.ltb 0) (map (fun p => if Qle_bool thr (nat_Q (snd p)) then fst p else (-1)%Z) props)
  = map fst (filter (fun p => Qle_bool thr (nat_Q (snd p))) props).
Proof.
  induction props as [|p l IH]; intro P; [reflexivity|]. cbn [map filter].
  destruct (Qle_bool thr (nat_Q (snd p))) eqn:E.
  - assert (H : (0 <? fst p)%Z = true) by (apply Z.ltb_lt; apply P; left; auto). rewrite H. cbn [map].
    f_equal. apply IH. intros q Hq. apply P. right; auto.
  - cbn. apply IH. intros q Hq. apply P. right; auto.
Qed.

Lemma keep_positive thr props : (forall p, In p props -> (0 < fst p)%Z) ->
  filter (Z.ltb 0) (ids_keep thr props)
  = map fst (filter (fun p => Qle_bool thr (nat_Q (snd p))) (tl props)).
Proof.
  intro P. unfold ids_keep. destruct props as [|p l]; [reflexivity|]. cbn [map tl]. cbn [filter].
  change (0 <? -1)%Z with false. cbn match. apply filter_keep_eq. intros q Hq. apply P. right; auto.
Qed.

Lemma NoDup_map_filter {A B} (f : A -> B) (g : A -> bool) l : NoDup (map f l) -> NoDup (map f (filter g l)).
Proof.
  induction l as [|x l IH]; simpl; intro N; [constructor|]. inversion N; subst.
  destruct (g x); simpl; auto. constructor; auto. intro C. apply H1.
  apply in_map_iff in C. destruct C as (y & E & H). apply filter_In in H. apply in_map_iff. exists y. tauto.
Qed.

(** Which IDs are kept. *)
Lemma keep_In thr slices id : time_disjoint slices -> (0 <= id)%Z ->
  (In id (ids_keep thr (grid_props slices)) <->
   (0 < id)%Z /\ hd_error (flat_map unique_pos slices) <> Some id /\
   exists s, In s slices /\ In id s /\ (thr <= nat_Q (cells_with id s))%Q).
Proof.
  intros D P0.
  assert (Pos : forall p, In p (grid_props slices) -> (0 < fst p)%Z).
  { intros [i a] H. apply props_In in H. destruct H as (s & _ & _ & H & _). exact H. }
  assert (E : In id (ids_keep thr (grid_props slices)) <->
     (0 < id)%Z /\ In id (map fst (filter (fun p => Qle_bool thr (nat_Q (snd p))) (tl (grid_props slices))))).
  { rewrite <- keep_positive by exact Pos. rewrite filter_In, Z.ltb_lt. split; [|tauto]. intro H. assert ((0 < id)%Z); [|tauto].
    unfold ids_keep in H. destruct (grid_props slices) as [|p l] eqn:G; [destruct H|]. cbn [map] in H.
    destruct H as [H|H]; [lia|]. apply in_map_iff in H. destruct H as (q & Eq & H).
    destruct (Qle_bool thr (nat_Q (snd q))); [|lia]. rewrite <- Eq. apply Pos. right; auto. }
  rewrite E. rewrite <- props_fst. pose proof (props_NoDup slices D) as N.
  split; intros [Hp H]; split; auto.
  - apply in_map_iff in H. destruct H as ([i a] & Ei & H). simpl in Ei. subst i. apply filter_In in H.
    destruct H as [H Q]. simpl in Q. apply Qle_bool_iff in Q.
    assert (G : In (id, a) (grid_props slices)) by (destruct (grid_props slices); [destruct H|right; exact H]).
    split.
    + destruct (grid_props slices) as [|[j b] l]; [destruct H|]. simpl in *. intro C. injection C as ->.
      inversion N; subst. apply H2. apply in_map_iff. exists (id, a). auto.
    + apply props_In in G. destruct G as (s & Hs & Hi & _ & ->). exists s. auto.
  - destruct H as [Hh (s & Hs & Hi & Q)]. apply in_map_iff. exists (id, cells_with id s). split; auto.
    apply filter_In. split; [|simpl; apply Qle_bool_iff; exact Q].
    assert (G : In (id, cells_with id s) (grid_props slices)) by (apply props_In; exists s; auto).
    destruct (grid_props slices) as [|[j b] l]; [destruct G|]. simpl in *. destruct G as [G|G]; auto.
    injection G as -> _. congruence.
Qed.
