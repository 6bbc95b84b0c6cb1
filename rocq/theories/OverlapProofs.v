(** Proofs about the overlap functions. *)
From Coq Require Import Sorted.
From Verif Require Import Base Filter FilterProofs Overlap OverlapSpec.
Open Scope nat_scope.

Lemma sumQ_app a b : (sumQ (a ++ b) == sumQ a + sumQ b)%Q.
Proof. induction a as [|x a IH]; cbn [sumQ app]; [ring|]. rewrite IH. ring. Qed.

Lemma totalQ_ext f g n : (forall k, k < n -> (f k == g k)%Q) -> (totalQ f n == totalQ g n)%Q.
Proof.
  induction n as [|n IH]; intro H; [reflexivity|]. cbn [totalQ].
  rewrite IH by (intros; apply H; lia). rewrite (H n) by lia. reflexivity.
Qed.
Lemma totalQ_shift f n : (totalQ f (S n) == f 0%nat + totalQ (fun k => f (S k)) n)%Q.
Proof.
  induction n as [|n IH]; [cbn [totalQ]; ring|].
  change (totalQ f (S (S n))) with (totalQ f (S n) + f (S n))%Q. rewrite IH. cbn [totalQ]. ring.
Qed.
Lemma totalQ_zero f n : (forall k, k < n -> (f k == 0)%Q) -> (totalQ f n == 0)%Q.
Proof.
  intro H. induction n as [|n IH]; [reflexivity|]. cbn [totalQ]. rewrite IH, (H n); [ring|lia|intros; apply H; lia].
Qed.
Lemma totalQ_le f g n : (forall k, k < n -> (f k <= g k)%Q) -> (totalQ f n <= totalQ g n)%Q.
Proof.
  induction n as [|n IH]; intro H; [apply Qle_refl|]. cbn [totalQ].
  apply Qplus_le_compat; [apply IH; intros; apply H; lia|apply H; lia].
Qed.


Lemma NoDup_map_inj {A B} (f : A -> B) l :
  (forall x y, In x l -> In y l -> f x = f y -> x = y) -> NoDup l -> NoDup (map f l).
Proof.
  induction l as [|x l IH]; intros I N; [constructor|]. inversion N as [|? ? Nx N']; subst. cbn [map].
  constructor.
  - intro H. apply in_map_iff in H. destruct H as (y & E & Y).
    assert (y = x) by (apply I; simpl; auto). subst. contradiction.
  - apply IH; auto. intros y z Y Z. apply I; right; assumption.
Qed.

Lemma unique_codes_In l x : In x (unique_codes l) <-> In x l.
Proof.
  unfold unique_codes. induction l as [|y l IH]; simpl; [tauto|].
  rewrite insert_uniq_In, IH. intuition.
Qed.
Lemma unique_codes_sorted l : StronglySorted Z.lt (unique_codes l).
Proof. unfold unique_codes. induction l as [|y l IH]; simpl; [constructor|]. now apply insert_uniq_sorted. Qed.
Lemma unique_codes_NoDup l : NoDup (unique_codes l).
Proof. apply sorted_NoDup, unique_codes_sorted. Qed.

Lemma list_max_ge l : forall d, (d <= list_max d l)%Z /\ (forall x, In x l -> (x <= list_max d l)%Z).
Proof.
  induction l as [|y l IH]; intro d; cbn [list_max]; [split; [lia|intros x []]|].
  destruct (IH (Z.max d y)) as [A B]. split; [lia|].
  intros x [->|H]; [lia|auto].
Qed.
Lemma arr_max_ge l x : In x l -> (x <= arr_max l)%Z.
Proof.
  destruct l as [|y l]; [intros []|]. cbn [arr_max]. destruct (list_max_ge l y) as [A B].
  intros [->|H]; auto.
Qed.

Lemma cells3_In w a b c : In c (cells3 w a b) -> In (c_from c) a /\ In (c_to c) b.
Proof.
  destruct c as [[x y] q]. intro H. apply in_combine_l in H.
  split; [apply in_combine_l in H|apply in_combine_r in H]; exact H.
Qed.

Lemma cells3_cons q w x a y b : cells3 (q :: w) (x :: a) (y :: b) = (x, y, q) :: cells3 w a b.
Proof. reflexivity. Qed.

Lemma cells3_meets w : forall a b i j, length a = length b -> length a = length w ->
  ((exists c, In c (cells3 w a b) /\ c_from c = i /\ c_to c = j) <-> meets a b i j).
Proof.
  induction w as [|q w IH]; intros [|x a] [|y b] i j; simpl; intros L L'; try lia.
  - split; [intros (c & [] & _)|intros (k & H & _); simpl in H; lia].
  - split.
    + intros (c & [<-|H] & F & T).
      * exists 0. simpl. split; [lia|]. split; [exact F|exact T].
      * assert (M : meets a b i j) by (apply (IH a b i j); [lia|lia|exists c; auto]).
        destruct M as (k & K & A & B). exists (S k). simpl. split; [lia|]. auto.
    + intros ([|k] & K & A & B); simpl in K, A, B.
      * exists (x, y, q). split; [left; reflexivity|]. auto.
      * assert (M : meets a b i j) by (exists k; split; [lia|auto]).
        apply (IH a b i j) in M; [|lia|lia]. destruct M as (c & H & F & T). exists c. auto.
Qed.

Lemma cells3_shared w : forall a b i j, length a = length b -> length a = length w ->
  (sumQ (map snd (filter (fun c => Z.eqb (c_from c) i && Z.eqb (c_to c) j) (cells3 w a b)))
   == shared_area w a b i j)%Q.
Proof.
  unfold shared_area.
  induction w as [|q w IH]; intros [|x a] [|y b] i j L L'; simpl in L, L'; try lia; [reflexivity|].
  rewrite cells3_cons. cbn [length]. rewrite totalQ_shift. cbn [nth]. cbn [filter].
  unfold c_from at 1, c_to at 1. cbn [fst snd].
  destruct (Z.eqb x i && Z.eqb y j); cbn [map sumQ snd]; rewrite IH by lia; [reflexivity|ring].
Qed.

Section Slice.
Variables (w : list Q) (a b : list Z).
Hypothesis La : length a = length b.
Hypothesis Lw : length a = length w.

Let m := pair_base a b.
Let valid := filter both_pos (cells3 w a b).
Let code (c : Z * Z * Q) := (c_from c * m + c_to c)%Z.

Lemma valid_spec c : In c valid -> (0 < c_from c)%Z /\ (0 < c_to c < m)%Z.
Proof.
  intro H. apply filter_In in H. destruct H as [H B]. unfold both_pos in B.
  apply andb_true_iff in B. destruct B as [B1 B2].
  apply cells3_In in H. destruct H as [_ H]. apply arr_max_ge in H.
  unfold m, pair_base. lia.
Qed.

Lemma code_div c : In c valid -> (code c / m)%Z = c_from c /\ (code c mod m)%Z = c_to c.
Proof.
  intro H. apply valid_spec in H. unfold code.
  assert (Hr : (c_from c * m + c_to c = m * c_from c + c_to c)%Z) by ring. rewrite Hr.
  split; symmetry.
  - apply (Z.div_unique _ m _ (c_to c)); [lia|ring].
  - apply (Z.mod_unique _ m (c_from c)); [lia|ring].
Qed.

Lemma code_inj c d : In c valid -> In d valid -> code c = code d -> c_from c = c_from d /\ c_to c = c_to d.
Proof.
  intros C D E. destruct (code_div c C) as [A B]. destruct (code_div d D) as [A' B'].
  rewrite E in A, B. split; congruence.
Qed.

Lemma check_overlap_eq : check_overlap w a b =
  map (fun k => mkRow (k / m) (k mod m) (sumQ (map snd (filter (fun c => Z.eqb (code c) k) valid))))
      (unique_codes (map code valid)).
Proof.
  unfold check_overlap. fold m. change (filter both_pos (cells3 w a b)) with valid.
  destruct valid; reflexivity.
Qed.

Lemma check_overlap_row r : In r (check_overlap w a b) ->
  exists c, In c valid /\ r_from r = c_from c /\ r_to r = c_to c /\
            r_area r = sumQ (map snd (filter (fun d => Z.eqb (code d) (code c)) valid)).
Proof.
  rewrite check_overlap_eq. intro H. apply in_map_iff in H. destruct H as (k & <- & K).
  rewrite unique_codes_In in K. apply in_map_iff in K. destruct K as (c & <- & C).
  exists c. destruct (code_div c C) as [D M]. simpl. auto.
Qed.

Lemma filter_code c : In c valid ->
  filter (fun d => Z.eqb (code d) (code c)) valid =
  filter (fun d => Z.eqb (c_from d) (c_from c) && Z.eqb (c_to d) (c_to c)) (cells3 w a b).
Proof.
  intro C. assert (V : forall d, In d (cells3 w a b) -> both_pos d = true -> In d valid)
    by (intros d D B; apply filter_In; auto).
  unfold valid at 1. destruct (valid_spec c C) as [P1 P2].
  assert (Hl : forall l, (forall d, In d l -> both_pos d = true -> In d valid) ->
    filter (fun d => Z.eqb (code d) (code c)) (filter both_pos l) =
    filter (fun d => Z.eqb (c_from d) (c_from c) && Z.eqb (c_to d) (c_to c)) l).
  { induction l as [|d l IH]; intro Hv; [reflexivity|]. cbn [filter].
    specialize (IH (fun d' Hd => Hv d' (or_intror Hd))).
    assert (Hd := Hv d (or_introl eq_refl)).
    destruct (both_pos d) eqn:B.
    - specialize (Hd eq_refl). cbn [filter]. rewrite IH.
      destruct (Z.eqb (code d) (code c)) eqn:E.
      + apply Z.eqb_eq in E. destruct (code_inj d c Hd C E) as [E1 E2]. rewrite E1, E2, !Z.eqb_refl. reflexivity.
      + destruct (Z.eqb (c_from d) (c_from c)) eqn:E1; [|reflexivity].
        destruct (Z.eqb (c_to d) (c_to c)) eqn:E2; [|reflexivity].
        apply Z.eqb_eq in E1, E2. unfold code in E. rewrite E1, E2, Z.eqb_refl in E. discriminate.
    - rewrite IH. unfold both_pos in B.
      destruct (Z.eqb (c_from d) (c_from c)) eqn:E1; [|reflexivity].
      destruct (Z.eqb (c_to d) (c_to c)) eqn:E2; [|reflexivity].
      apply Z.eqb_eq in E1, E2. exfalso. lia. }
  apply Hl. exact V.
Qed.

Lemma check_overlap_sound r : In r (check_overlap w a b) ->
  (0 < r_from r)%Z /\ (0 < r_to r)%Z /\ meets a b (r_from r) (r_to r) /\
  (r_area r == shared_area w a b (r_from r) (r_to r))%Q.
Proof.
  intro H. apply check_overlap_row in H. destruct H as (c & C & F & T & A).
  rewrite F, T, A. destruct (valid_spec c C) as [P1 P2]. split; [lia|]. split; [lia|]. split.
  - apply (cells3_meets w); auto. exists c. apply filter_In in C. tauto.
  - rewrite (filter_code c C). apply cells3_shared; assumption.
Qed.

Lemma check_overlap_complete i j : (0 < i)%Z -> (0 < j)%Z -> meets a b i j ->
  exists r, In r (check_overlap w a b) /\ r_from r = i /\ r_to r = j.
Proof.
  intros I J M. apply (cells3_meets w) in M; auto. destruct M as (c & C & <- & <-).
  assert (V : In c valid) by (apply filter_In; unfold both_pos; split; [exact C|lia]).
  destruct (code_div c V) as [D R].
  eexists. rewrite check_overlap_eq. split.
  - apply in_map_iff. exists (code c). split; [reflexivity|].
    apply unique_codes_In. apply in_map. exact V.
  - simpl. auto.
Qed.

Lemma check_overlap_NoDup : NoDup (map row_pair (check_overlap w a b)).
Proof.
  rewrite check_overlap_eq, map_map. unfold row_pair. cbn [r_from r_to].
  apply NoDup_map_inj; [|apply unique_codes_NoDup].
  intros k k' K K' E. rewrite unique_codes_In in K, K'.
  apply in_map_iff in K, K'. destruct K as (c & <- & C), K' as (d & <- & D).
  inversion E as [[E1 E2]]. destruct (code_div c C) as [A B]. destruct (code_div d D) as [A' B'].
  unfold code. rewrite <- A, <- B, <- A', <- B'. rewrite E1, E2. reflexivity.
Qed.

End Slice.

(** ** Whole series *)

Lemma pair_eqb_spec p q : pair_eqb p q = true <-> p = q.
Proof.
  destruct p as [a b], q as [c d]. unfold pair_eqb. simpl. rewrite andb_true_iff, !Z.eqb_eq.
  split; [intros [-> ->]; reflexivity|intro E; inversion E; auto].
Qed.
Lemma insert_pair_In p l q : In q (insert_pair p l) <-> q = p \/ In q l.
Proof.
  induction l as [|x l IH]; simpl; [intuition|].
  destruct (pair_ltb p x); [simpl; intuition|].
  destruct (pair_eqb p x) eqn:E.
  - apply pair_eqb_spec in E. subst. simpl. intuition.
  - simpl. rewrite IH. intuition.
Qed.
Lemma unique_pairs_In l q : In q (unique_pairs l) <-> In q l.
Proof.
  unfold unique_pairs. induction l as [|x l IH]; simpl; [tauto|]. rewrite insert_pair_In, IH. intuition.
Qed.
Definition pair_lt (p q : Z * Z) : Prop := pair_ltb p q = true.
Lemma pair_ltb_spec p q : pair_ltb p q = true <-> (fst p < fst q \/ fst p = fst q /\ snd p < snd q)%Z.
Proof. unfold pair_ltb. rewrite orb_true_iff, andb_true_iff, !Z.ltb_lt, Z.eqb_eq. tauto. Qed.
Lemma insert_pair_sorted p l : StronglySorted pair_lt l -> StronglySorted pair_lt (insert_pair p l).
Proof.
  induction l as [|x l IH]; intro S; simpl; [repeat constructor|].
  inversion S as [|? ? S' F]; subst.
  destruct (pair_ltb p x) eqn:L.
  - constructor; [exact S|]. constructor; [exact L|].
    rewrite Forall_forall in *. intros y Y. specialize (F y Y). unfold pair_lt in *.
    rewrite pair_ltb_spec in *. lia.
  - destruct (pair_eqb p x) eqn:E; [exact S|].
    constructor; [apply IH; exact S'|].
    rewrite Forall_forall in *. intros y Y. apply insert_pair_In in Y. destruct Y as [->|Y]; [|auto].
    unfold pair_lt. rewrite pair_ltb_spec. unfold pair_ltb, pair_eqb in *. lia.
Qed.
Lemma unique_pairs_NoDup l : NoDup (unique_pairs l).
Proof.
  assert (S : StronglySorted pair_lt (unique_pairs l)).
  { unfold unique_pairs. induction l as [|x l IH]; simpl; [constructor|]. now apply insert_pair_sorted. }
  induction S as [|x r S IH F]; constructor; auto.
  intro H. rewrite Forall_forall in F. specialize (F x H). unfold pair_lt in F.
  rewrite pair_ltb_spec in F. lia.
Qed.

Lemma check_overlap_zero w a z : (forall x, In x z -> (x <= 0)%Z) -> check_overlap w a z = [].
Proof.
  intro H. unfold check_overlap.
  assert (E : filter both_pos (cells3 w a z) = []).
  { assert (E : forall l, (forall c, In c l -> In (c_to c) z) -> filter both_pos l = []).
    { induction l as [|c l IH]; intro Hl; [reflexivity|]. cbn [filter].
      assert (C := H _ (Hl c (or_introl eq_refl))). unfold both_pos at 1.
      destruct (Z.ltb_spec 0 (c_to c)); [lia|]. rewrite andb_false_r. apply IH.
      intros d D. apply Hl. right. exact D. }
    apply E. intros c C. apply cells3_In in C. tauto. }
  rewrite E. reflexivity.
Qed.

Lemma consecutive_pairs w f r z : (forall x, In x z -> (x <= 0)%Z) ->
  flat_map (fun p => check_overlap w (fst p) (snd p)) (combine (f :: r) (r ++ [z])) =
  flat_map (fun t => check_overlap w (nth t (f :: r) []) (nth (S t) (f :: r) [])) (seq 0 (length r)).
Proof.
  intro Hz. revert f. induction r as [|g r IH]; intro f.
  - cbn [combine app flat_map fst snd length seq]. rewrite check_overlap_zero by exact Hz. reflexivity.
  - change (combine (f :: g :: r) ((g :: r) ++ [z])) with ((f, g) :: combine (g :: r) (r ++ [z])).
    change (seq 0 (length (g :: r))) with (0 :: seq 1 (length r)).
    rewrite <- seq_shift, !flat_map_concat_map. cbn [map]. rewrite map_map.
    cbn [concat]. f_equal. rewrite <- !flat_map_concat_map. exact (IH g).
Qed.

Lemma find_all w fields :
  flat_map (fun p => check_overlap w (fst p) (snd p)) (combine fields (shifted fields)) =
  flat_map (fun t => check_overlap w (nth t fields []) (nth (S t) fields [])) (seq 0 (length fields - 1)).
Proof.
  destruct fields as [|f r]; [reflexivity|]. unfold shifted.
  rewrite consecutive_pairs.
  - cbn [length]. replace (S (length r) - 1) with (length r) by lia. reflexivity.
  - intros x H. apply in_map_iff in H. destruct H as (y & <- & _). lia.
Qed.

Lemma shared_zero w a b i j : ~ meets a b i j -> (shared_area w a b i j == 0)%Q.
Proof.
  intro H. apply totalQ_zero. intros k K.
  destruct (Z.eqb (nth k a 0%Z) i && Z.eqb (nth k b 0%Z) j) eqn:E; [|reflexivity].
  exfalso. apply H. exists k. lia.
Qed.

Lemma meets_dec a b i j : meets a b i j \/ ~ meets a b i j.
Proof.
  destruct (existsb (fun k => Z.eqb (nth k a 0%Z) i && Z.eqb (nth k b 0%Z) j) (seq 0 (length a))) eqn:E.
  - left. apply existsb_exists in E. destruct E as (k & K & E). apply in_seq in K. exists k. lia.
  - right. intros (k & K & A & B).
    assert (C : existsb (fun k => Z.eqb (nth k a 0%Z) i && Z.eqb (nth k b 0%Z) j) (seq 0 (length a)) = true).
    { apply existsb_exists. exists k. split; [apply in_seq; lia|lia]. }
    congruence.
Qed.

Lemma slice_sum w a b i j : length a = length b -> length a = length w -> (0 < i)%Z -> (0 < j)%Z ->
  (sumQ (map r_area (filter (fun r => pair_eqb (row_pair r) (i, j)) (check_overlap w a b)))
   == shared_area w a b i j)%Q.
Proof.
  intros La Lw I J.
  assert (Hs := check_overlap_sound w a b La Lw).
  assert (Hn := check_overlap_NoDup w a b La Lw).
  destruct (meets_dec a b i j) as [M|M].
  - destruct (check_overlap_complete w a b La Lw i j I J M) as (r & R & F & T).
    assert (G : forall l, NoDup (map row_pair l) -> In r l ->
      filter (fun r => pair_eqb (row_pair r) (i, j)) l = [r]).
    { induction l as [|x l IH]; intros N H; [destruct H|]. cbn [filter].
      cbn [map] in N. inversion N as [|? ? Nx N']; subst.
      destruct H as [->|H].
      - assert (E : pair_eqb (row_pair r) (r_from r, r_to r) = true) by (apply pair_eqb_spec; reflexivity).
        rewrite E. f_equal.
        assert (G : forall l', ~ In (row_pair r) (map row_pair l') ->
                    filter (fun r0 => pair_eqb (row_pair r0) (r_from r, r_to r)) l' = []).
        { induction l' as [|y l' IH']; intro Hy; [reflexivity|]. cbn [filter].
          destruct (pair_eqb (row_pair y) (r_from r, r_to r)) eqn:E'.
          - exfalso. apply Hy. left. apply pair_eqb_spec in E'. exact E'.
          - apply IH'. intro C. apply Hy. right. exact C. }
        apply G. exact Nx.
      - destruct (pair_eqb (row_pair x) (r_from r, r_to r)) eqn:E.
        + exfalso. apply Nx. apply pair_eqb_spec in E. rewrite E.
          apply in_map_iff. exists r. split; [reflexivity|exact H].
        + apply IH; auto. }
    rewrite (G _ Hn R). cbn [map sumQ]. destruct (Hs r R) as (_ & _ & _ & A).
    rewrite A, F, T. ring.
  - assert (G : filter (fun r => pair_eqb (row_pair r) (i, j)) (check_overlap w a b) = []).
    { assert (G : forall l, (forall r, In r l -> In r (check_overlap w a b)) ->
        filter (fun r => pair_eqb (row_pair r) (i, j)) l = []).
      { induction l as [|x l IH]; intro Hl; [reflexivity|]. cbn [filter].
        destruct (pair_eqb (row_pair x) (i, j)) eqn:E.
        - exfalso. apply M. apply pair_eqb_spec in E. inversion E; subst.
          apply Hs. apply Hl. left. reflexivity.
        - apply IH. intros r R. apply Hl. right. exact R. }
      apply G. auto. }
    rewrite G. cbn [map sumQ]. rewrite (shared_zero w a b i j M). reflexivity.
Qed.

Lemma sum_filter_flat_map {A} (h : nat -> list A) (f : A -> bool) (g : A -> Q) n :
  (sumQ (map g (filter f (flat_map h (seq 0 n)))) == totalQ (fun t => sumQ (map g (filter f (h t)))) n)%Q.
Proof.
  induction n as [|n IH]; [reflexivity|].
  rewrite seq_S, flat_map_app, filter_app, map_app, sumQ_app, IH. cbn [totalQ plus flat_map].
  rewrite app_nil_r. reflexivity.
Qed.

Section Series.
Variables (w : list Q) (fields : list (list Z)).
Hypothesis Hl : forall f, In f fields -> length f = length w.

Lemma field_length t : t < length fields -> length (nth t fields []) = length w.
Proof. intro T. apply Hl. apply nth_In. exact T. Qed.

Lemma find_overlapping_pair i j :
  (exists n, In (mkRow i j n) (find_overlapping w fields)) <->
  (0 < i)%Z /\ (0 < j)%Z /\
  exists t, S t < length fields /\ meets (nth t fields []) (nth (S t) fields []) i j.
Proof.
  unfold find_overlapping. rewrite find_all. set (all := flat_map _ _).
  assert (Hall : forall p, In p (map row_pair all) <->
     (0 < fst p)%Z /\ (0 < snd p)%Z /\
     exists t, S t < length fields /\ meets (nth t fields []) (nth (S t) fields []) (fst p) (snd p)).
  { intro p. rewrite in_map_iff. unfold all. split.
    - intros (r & <- & R). apply in_flat_map in R. destruct R as (t & T & R). apply in_seq in T.
      destruct (check_overlap_sound w (nth t fields []) (nth (S t) fields [])
                  ltac:(rewrite !field_length; lia) ltac:(rewrite !field_length; lia) r R) as (A & B & C & _).
      split; [exact A|]. split; [exact B|]. exists t. split; [lia|]. exact C.
    - intros (A & B & t & T & M).
      destruct (check_overlap_complete w (nth t fields []) (nth (S t) fields [])
                  ltac:(rewrite !field_length; lia) ltac:(rewrite !field_length; lia) _ _ A B M) as (r & R & F & E).
      exists r. split; [destruct p; unfold row_pair; rewrite F, E; reflexivity|].
      apply in_flat_map. exists t. split; [apply in_seq; lia|exact R]. }
  split.
  - intros (n & H). apply in_map_iff in H. destruct H as (p & E & P). inversion E; subst.
    rewrite unique_pairs_In in P. apply Hall in P. exact P.
  - intro H. eexists. apply in_map_iff. exists (i, j). split; [reflexivity|].
    apply unique_pairs_In. apply Hall. exact H.
Qed.

Lemma find_overlapping_area r : In r (find_overlapping w fields) ->
  (r_area r == totalQ (fun t => shared_area w (nth t fields []) (nth (S t) fields []) (r_from r) (r_to r))
                      (length fields - 1))%Q.
Proof.
  intro H. assert (P : (0 < r_from r)%Z /\ (0 < r_to r)%Z).
  { destruct r as [i j n]. assert (E : exists n, In (mkRow i j n) (find_overlapping w fields)) by (exists n; exact H).
    apply find_overlapping_pair in E. simpl. tauto. }
  revert H. unfold find_overlapping. rewrite find_all. intro H. apply in_map_iff in H.
  destruct H as ([i j] & <- & _). cbn [r_area r_from r_to fst snd] in *.
  rewrite sum_filter_flat_map. apply totalQ_ext. intros t T.
  apply slice_sum; try tauto; rewrite !field_length; lia.
Qed.

Lemma find_overlapping_NoDup : NoDup (map row_pair (find_overlapping w fields)).
Proof.
  unfold find_overlapping. rewrite map_map. unfold row_pair at 1. cbn [r_from r_to].
  rewrite (map_ext _ (fun p => p)) by (intros [a b]; reflexivity). rewrite map_id.
  apply unique_pairs_NoDup.
Qed.

End Series.

(** ** Threshold *)

Lemma Qminb_cases a b : (Qminb a b == a /\ a <= b \/ Qminb a b == b /\ b <= a)%Q.
Proof.
  unfold Qminb. destruct (Qle_bool a b) eqn:E.
  - left. split; [reflexivity|]. apply Qle_bool_iff. exact E.
  - right. split; [reflexivity|]. apply Qle_bool_false in E. apply Qlt_le_weak. exact E.
Qed.

Lemma enforce_spec thr ps l r :
  (forall id p, lookup id ps = Some p -> (0 < p_area p)%Q) ->
  (In r (enforce_threshold thr ps l) <->
   In r l /\ exists p0 p1, lookup (r_from r) ps = Some p0 /\ lookup (r_to r) ps = Some p1 /\
     ((thr * p_area p0 <= r_area r)%Q /\ (p_area p0 <= p_area p1)%Q \/
      (thr * p_area p1 <= r_area r)%Q /\ (p_area p1 <= p_area p0)%Q)).
Proof.
  intro Hp. unfold enforce_threshold. rewrite filter_In. unfold over_threshold.
  assert (D : forall x y, (0 < y)%Q -> (Qle_bool thr (x / y) = true <-> (thr * y <= x)%Q)).
  { intros x y Y. rewrite Qle_bool_iff. split; intro H.
    - apply (Qmult_le_compat_r _ _ y) in H; [|apply Qlt_le_weak; exact Y].
      setoid_replace (x / y * y)%Q with x in H; [exact H|]. field. intro C. rewrite C in Y. inversion Y.
    - apply Qle_shift_div_l; assumption. }
  destruct (lookup (r_from r) ps) as [p0|] eqn:E0.
  2:{ split; [intros [_ C]; discriminate|intros (_ & p0 & p1 & C & _); discriminate]. }
  destruct (lookup (r_to r) ps) as [p1|] eqn:E1.
  2:{ split; [intros [_ C]; discriminate|intros (_ & q0 & q1 & _ & C & _); discriminate]. }
  assert (P0 := Hp _ _ E0). assert (P1 := Hp _ _ E1).
  destruct (Qminb_cases (p_area p0) (p_area p1)) as [[M L]|[M L]].
  - rewrite D by (rewrite M; exact P0). rewrite M. split.
    + intros [A B]. split; [exact A|]. exists p0, p1. auto.
    + intros (A & q0 & q1 & H0 & H1 & B). inversion H0; inversion H1; subst. split; [exact A|].
      destruct B as [[B _]|[B C]]; [exact B|].
      assert (E : (p_area q0 == p_area q1)%Q) by (apply Qle_antisym; assumption).
      rewrite E. exact B.
  - rewrite D by (rewrite M; exact P1). rewrite M. split.
    + intros [A B]. split; [exact A|]. exists p0, p1. auto.
    + intros (A & q0 & q1 & H0 & H1 & B). inversion H0; inversion H1; subst. split; [exact A|].
      destruct B as [[B C]|[B _]]; [|exact B].
      assert (E : (p_area q0 == p_area q1)%Q) by (apply Qle_antisym; assumption).
      rewrite <- E. exact B.
Qed.

Lemma enforce_subsequence thr ps l : NoDup (map row_pair l) -> NoDup (map row_pair (enforce_threshold thr ps l)).
Proof. intro N. unfold enforce_threshold. now apply NoDup_map_filter. Qed.

Lemma nth_nonneg w k : (forall q, In q w -> (0 <= q)%Q) -> (0 <= nth k w 0)%Q.
Proof.
  intro H. destruct (Nat.lt_ge_cases k (length w)) as [K|K].
  - apply H. apply nth_In. exact K.
  - rewrite nth_overflow by exact K. apply Qle_refl.
Qed.

Lemma shared_le_from w a b i j : (forall q, In q w -> (0 <= q)%Q) ->
  (shared_area w a b i j <= object_area w a i)%Q.
Proof.
  intro H. apply totalQ_le. intros k K. assert (N := nth_nonneg w k H).
  destruct (Z.eqb (nth k a 0%Z) i), (Z.eqb (nth k b 0%Z) j); simpl; try apply Qle_refl; exact N.
Qed.
Lemma shared_le_to w a b i j : length a = length b -> (forall q, In q w -> (0 <= q)%Q) ->
  (shared_area w a b i j <= object_area w b j)%Q.
Proof.
  intros L H. unfold shared_area, object_area. rewrite L. apply totalQ_le. intros k K. assert (N := nth_nonneg w k H).
  destruct (Z.eqb (nth k a 0%Z) i), (Z.eqb (nth k b 0%Z) j); simpl; try apply Qle_refl; exact N.
Qed.
