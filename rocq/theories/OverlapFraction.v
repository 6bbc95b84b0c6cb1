(** The overlap fraction never exceeds one; pixel counts. *)
From Coq Require Import Lqa Qminmax.
From Verif Require Import Base Filter Overlap OverlapSpec OverlapProofs.
Open Scope nat_scope.

Lemma Qminb_min a b : (Qminb a b == Qmin a b)%Q.
Proof.
  destruct (Qminb_cases a b) as [[E L]|[E L]]; rewrite E.
  - symmetry. apply Q.min_l. exact L.
  - symmetry. apply Q.min_r. exact L.
Qed.
Lemma Qmin_pos a b : (0 < a)%Q -> (0 < b)%Q -> (0 < Qmin a b)%Q.
Proof. intros A B. apply Q.min_glb_lt; assumption. Qed.

Lemma enforce_fraction thr ps l r :
  (In r (enforce_threshold thr ps l) <->
   In r l /\ exists p0 p1, lookup (r_from r) ps = Some p0 /\ lookup (r_to r) ps = Some p1 /\
     (thr <= r_area r / Qmin (p_area p0) (p_area p1))%Q).
Proof.
  unfold enforce_threshold. rewrite filter_In. unfold over_threshold.
  destruct (lookup (r_from r) ps) as [p0|]; [|split; [intros [_ H]; discriminate|intros (_ & ? & ? & H & _); discriminate]].
  destruct (lookup (r_to r) ps) as [p1|]; [|split; [intros [_ H]; discriminate|intros (_ & ? & ? & _ & H & _); discriminate]].
  rewrite Qle_bool_iff, Qminb_min. split.
  - intros [H T]. split; [exact H|]. exists p0, p1. auto.
  - intros (H & q0 & q1 & E0 & E1 & T). inversion E0; inversion E1; subst. auto.
Qed.

Lemma ratio_le_one x a b : (0 < a)%Q -> (0 < b)%Q -> (x <= a)%Q -> (x <= b)%Q -> (x / Qmin a b <= 1)%Q.
Proof.
  intros A B X Y. apply Qle_shift_div_r; [apply Qmin_pos; assumption|]. rewrite Qmult_1_l.
  apply Q.min_glb; assumption.
Qed.

(** One pair of time steps. *)
Lemma slice_fraction w a b r pa pb : length a = length b -> length a = length w ->
  (forall q, In q w -> (0 <= q)%Q) -> In r (check_overlap w a b) ->
  (0 < pa)%Q -> (0 < pb)%Q ->
  (pa == object_area w a (r_from r))%Q -> (pb == object_area w b (r_to r))%Q ->
  (r_area r / Qmin pa pb <= 1)%Q.
Proof.
  intros La Lw N H A B Ea Eb. apply check_overlap_sound in H; auto. destruct H as (_ & _ & _ & E).
  apply ratio_le_one; auto; rewrite E.
  - rewrite Ea. apply shared_le_from. exact N.
  - rewrite Eb. apply shared_le_to; assumption.
Qed.

(** A whole series in which every ID occurs at one time only. *)
Lemma totalQ_one f n t : t < n -> (forall k, k < n -> k <> t -> (f k == 0)%Q) -> (totalQ f n == f t)%Q.
Proof.
  induction n as [|n IH]; intros T Z; [lia|]. cbn [totalQ]. destruct (Nat.eq_dec t n) as [->|N].
  - rewrite (totalQ_zero f n); [ring|]. intros k K. apply Z; lia.
  - rewrite IH; [|lia|intros k K1 K2; apply Z; lia]. rewrite (Z n) by lia. ring.
Qed.
Lemma meets_In a b i j : length a = length b -> meets a b i j -> In i a /\ In j b.
Proof. intros L (k & K & A & B). split; [rewrite <- A|rewrite <- B]; apply nth_In; lia. Qed.

Lemma series_fraction w fields r pa pb t u :
  (forall f, In f fields -> length f = length w) -> (forall q, In q w -> (0 <= q)%Q) ->
  (forall x j k, (0 < x)%Z -> In x (nth j fields []) -> In x (nth k fields []) -> j = k) ->
  In r (find_overlapping w fields) ->
  (0 < pa)%Q -> (0 < pb)%Q ->
  In (r_from r) (nth t fields []) -> In (r_to r) (nth u fields []) ->
  (pa == object_area w (nth t fields []) (r_from r))%Q -> (pb == object_area w (nth u fields []) (r_to r))%Q ->
  (r_area r / Qmin pa pb <= 1)%Q.
Proof.
  intros L N U H A B It Iu Ea Eb.
  assert (HP : exists n, In (mkRow (r_from r) (r_to r) n) (find_overlapping w fields)) by (exists (r_area r); destruct r; exact H).
  apply (find_overlapping_pair w fields L) in HP. destruct HP as (Pi & Pj & s & Hs & M).
  assert (Ls : length (nth s fields []) = length w) by (apply L, nth_In; lia).
  assert (Ls' : length (nth (S s) fields []) = length w) by (apply L, nth_In; lia).
  destruct (meets_In _ _ _ _ (eq_trans Ls (eq_sym Ls')) M) as [I1 I2].
  assert (s = t) by (apply (U (r_from r)); assumption). assert (S s = u) by (apply (U (r_to r)); assumption). subst t u.
  assert (E := find_overlapping_area w fields L r H).
  rewrite (totalQ_one _ _ s) in E; [|lia|].
  - apply ratio_le_one; auto; rewrite E.
    + rewrite Ea. apply shared_le_from. exact N.
    + rewrite Eb. apply shared_le_to; [congruence|assumption].
  - intros k K Ne. cbv beta. apply shared_zero. intro C. apply Ne.
    assert (Lk : length (nth k fields []) = length w) by (apply L, nth_In; lia).
    assert (Lk' : length (nth (S k) fields []) = length w) by (apply L, nth_In; lia).
    destruct (meets_In _ _ _ _ (eq_trans Lk (eq_sym Lk')) C) as [J1 _].
    apply (U (r_from r)); assumption.
Qed.

(** With unit cell areas the shared area is a number of cells. *)
Lemma count_area (a b : list Z) i j :
  (shared_area (map (fun _ => 1%Q) a) a b i j ==
   inject_Z (Z.of_nat (length (filter (fun k => Z.eqb (nth k a 0%Z) i && Z.eqb (nth k b 0%Z) j) (seq 0 (length a))))))%Q.
Proof.
  unfold shared_area.
  assert (E : forall n, n <= length a -> (totalQ (fun k => if Z.eqb (nth k a 0%Z) i && Z.eqb (nth k b 0%Z) j then nth k (map (fun _ => 1%Q) a) 0%Q else 0%Q) n ==
    inject_Z (Z.of_nat (length (filter (fun k => Z.eqb (nth k a 0%Z) i && Z.eqb (nth k b 0%Z) j) (seq 0 n)))))%Q).
  { induction n as [|n IH]; intro Hn; [reflexivity|]. rewrite seq_S, filter_app, app_length. cbn [totalQ plus filter].
    rewrite IH by lia. rewrite Nat2Z.inj_add, inject_Z_plus. apply Qplus_comp; [reflexivity|].
    destruct (Z.eqb (nth n a 0%Z) i && Z.eqb (nth n b 0%Z) j); [|reflexivity].
    rewrite (nth_indep _ 0%Q 1%Q) by (rewrite map_length; lia).
    rewrite (map_nth (fun _ : Z => 1%Q) a 0%Z n). reflexivity. }
  apply E. lia.
Qed.
