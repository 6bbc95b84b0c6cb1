(** Proofs about histograms and quantiles. *)
From Coq Require Import Lqa Qround Sorted.
From Verif Require Import Base Filter FilterProofs FilterMoreProofs Overlap OverlapProofs Partition PartitionProofs Cluster ClusterProofs ClusterFinal Detect DetectProofs Climatology ClimatologySpec ClimatologyProofs DetrendProofs Histogram HistogramSpec.
Open Scope nat_scope.

(** Tests that hold on an initial segment. *)
Lemma count_seq_prefix P n : (forall i j, i <= j -> j < n -> P j = true -> P i = true) ->
  forall k, k < n -> (P k = true <-> k < count P (seq 0 n)).
Proof.
  induction n as [|n IH]; intros H k K; [lia|]. rewrite seq_S, count_app. cbn [plus].
  assert (C1 : count P [n] = if P n then 1 else 0) by (rewrite count_cons; cbn; lia). rewrite C1.
  assert (IH' := IH (fun i j a b => H i j a (Nat.lt_lt_succ_r _ _ b))).
  destruct (Nat.eq_dec k n) as [->|N].
  - destruct (P n) eqn:E.
    + split; [intros _|reflexivity]. assert (L : count P (seq 0 n) = n).
      { clear - H E. transitivity (length (seq 0 n)); [|apply seq_length]. unfold count. f_equal. apply filter_all. intros i I. apply in_seq in I. apply (H i n); [lia|lia|exact E]. }
      lia.
    + split; [discriminate|]. assert (L := count_length P (seq 0 n)). rewrite seq_length in L. lia.
  - rewrite (IH' k ltac:(lia)). split; intro G; [lia|]. destruct (P n) eqn:E; [|lia].
    destruct (IH' k ltac:(lia)) as [A _]. apply A. apply (H k n); [lia|lia|exact E].
Qed.

Lemma count_map {A B} (f : A -> B) P l : count P (map f l) = count (fun x => P (f x)) l.
Proof. induction l as [|x l IH]; [reflexivity|]. cbn [map]. rewrite !count_cons, IH. reflexivity. Qed.

Lemma natQ_le a b : a <= b <-> (natQ a <= natQ b)%Q.
Proof. unfold natQ. rewrite <- Zle_Qle. lia. Qed.
Lemma natQ_lt a b : a < b <-> (natQ a < natQ b)%Q.
Proof. unfold natQ. rewrite <- Zlt_Qlt. lia. Qed.
Lemma natQ_S n : (natQ (S n) == natQ n + 1)%Q.
Proof. unfold natQ. rewrite Nat2Z.inj_succ. unfold Z.succ. rewrite inject_Z_plus. reflexivity. Qed.

(** Bins of increasing edges. *)
Section Bins.
Variables (f : nat -> Q) (n : nat).
Hypothesis mono : forall i j, i <= j -> j < n -> (f i <= f j)%Q.
Lemma digitize_spec v k : k < n -> ((f k <= v)%Q <-> k < digitize (map f (seq 0 n)) v).
Proof.
  intro K. unfold digitize. rewrite count_map. rewrite <- (count_seq_prefix (fun k => Qle_bool (f k) v) n).
  - rewrite Qle_bool_iff. reflexivity.
  - intros i j I J. rewrite !Qle_bool_iff. intro. apply (Qle_trans _ (f j)); [apply mono; assumption|assumption].
  - exact K.
Qed.
Lemma digitize_le v : digitize (map f (seq 0 n)) v <= n.
Proof. unfold digitize. rewrite count_map. rewrite <- (seq_length n 0) at 2. apply count_length. Qed.
Lemma digitize_mono v w : (v <= w)%Q -> digitize (map f (seq 0 n)) v <= digitize (map f (seq 0 n)) w.
Proof.
  intro L. unfold digitize. apply count_le. intros e _. rewrite !Qle_bool_iff. intro. apply (Qle_trans _ v); assumption.
Qed.
Lemma digitize_comp v w : (v == w)%Q -> digitize (map f (seq 0 n)) v = digitize (map f (seq 0 n)) w.
Proof. intro E. assert (A := digitize_mono v w ltac:(rewrite E; apply Qle_refl)). assert (B := digitize_mono w v ltac:(rewrite E; apply Qle_refl)). lia. Qed.
End Bins.

(** Cumulative counts. *)
Lemma cumsum_length acc l : length (cumsum_from acc l) = length l.
Proof. revert acc. induction l as [|x l IH]; intro acc; [reflexivity|]. cbn. rewrite IH. reflexivity. Qed.
Lemma cumsum_nth l : forall acc i, i < length l -> nth i (cumsum_from acc l) 0 = acc + sumN (firstn (S i) l).
Proof.
  induction l as [|x l IH]; intros acc i I; [cbn in I; lia|]. destruct i as [|i]; cbn [cumsum_from nth]; [cbn; lia|].
  cbn in I. rewrite IH by lia. change (firstn (S (S i)) (x :: l)) with (x :: firstn (S i) l). generalize (firstn (S i) l). intro m. unfold sumN. cbn. lia.
Qed.
Lemma last_nth {A} (l : list A) d : last l d = nth (length l - 1) l d.
Proof.
  induction l as [|x l IH]; [reflexivity|]. destruct l as [|y l]; [reflexivity|]. change (last (x :: y :: l) d) with (last (y :: l) d). rewrite IH. cbn. rewrite Nat.sub_0_r. reflexivity.
Qed.
Lemma cumsum_last l : last (cumsum_from 0 l) 0 = sumN l.
Proof.
  rewrite last_nth, cumsum_length. destruct l as [|x l]; [reflexivity|]. rewrite cumsum_nth by (cbn; lia). cbn [length]. replace (S (S (length l) - 1)) with (length (x :: l)) by (cbn; lia). rewrite firstn_all. reflexivity.
Qed.
Definition cum (row : list nat) (i : nat) : nat := sumN (firstn (S i) row).
Lemma sumN_firstn_mono row i j : i <= j -> sumN (firstn i row) <= sumN (firstn j row).
Proof.
  revert i j. induction row as [|x row IH]; intros i j L; [rewrite !firstn_nil; reflexivity|]. destruct i as [|i]; [cbn; lia|]. destruct j as [|j]; [lia|]. cbn [firstn].
  specialize (IH i j ltac:(lia)). unfold sumN in *. cbn in *. lia.
Qed.
Lemma cum_mono row i j : i <= j -> cum row i <= cum row j.
Proof. intro L. apply sumN_firstn_mono. lia. Qed.
Lemma cum_total row i : length row <= S i -> cum row i = sumN row.
Proof. intro L. unfold cum. rewrite firstn_all2 by exact L. reflexivity. Qed.
Lemma cum_list row : cumsum_from 0 row = map (cum row) (seq 0 (length row)).
Proof.
  apply (nth_ext _ _ 0 0); [rewrite map_length, seq_length; apply cumsum_length|]. intros i I. rewrite cumsum_length in I.
  rewrite cumsum_nth by exact I. rewrite (nth_map_gen _ _ _ 0) by (rewrite seq_length; exact I). rewrite seq_nth by exact I. reflexivity.
Qed.

(** The bin found by searchsorted. *)
Definition found (q : Q) (row : list nat) : nat := count (fun c => Qle_bool (natQ c) (q * natQ (sumN row))%Q) (cumsum_from 0 row).
Lemma found_spec q row k : k < length row -> ((natQ (cum row k) <= q * natQ (sumN row))%Q <-> k < found q row).
Proof.
  intro K. unfold found. rewrite cum_list, count_map. rewrite <- (count_seq_prefix (fun k => Qle_bool (natQ (cum row k)) (q * natQ (sumN row))%Q) (length row)).
  - rewrite Qle_bool_iff. reflexivity.
  - intros i j I J. rewrite !Qle_bool_iff. intro. apply (Qle_trans _ (natQ (cum row j))); [apply (proj1 (natQ_le _ _)), cum_mono; exact I|assumption].
  - exact K.
Qed.
Lemma found_le q row : found q row <= length row.
Proof. unfold found. rewrite <- (cumsum_length 0 row). apply count_length. Qed.
Lemma found_lt q row : (q < 1)%Q -> 0 < sumN row -> found q row < length row.
Proof.
  intros Q1 T. assert (L := found_le q row). destruct (Nat.eq_dec (found q row) (length row)) as [E|]; [exfalso|lia].
  assert (Lr : 0 < length row) by (destruct row; [cbn in T; lia|cbn; lia]).
  assert (F := proj2 (found_spec q row (length row - 1) ltac:(lia)) ltac:(lia)). rewrite cum_total in F by lia. assert (P := natQ_pos _ T). nra.
Qed.

Definition row_value (q : Q) (cs : list Q) (row : list nat) (u : nat) : Q :=
  let lo := natQ (cum row (u - 1)) in let hi := natQ (cum row u) in
  let frac := if Qltb eps (hi - lo) then ((q * natQ (sumN row) - lo) / (hi - lo))%Q else (1 # 2)%Q in
  (nth (u - 1) cs 0 + frac * (nth u cs 0 - nth (u - 1) cs 0))%Q.
Lemma row_quantile_eq q cs row : row_quantile q cs row =
  if Nat.eqb (sumN row) 0 then None
  else let u := Nat.min (found q row) (length row - 1) in
       if Nat.eqb u 0 then Some (nth 0 cs 0%Q) else Some (row_value q cs row u).
Proof.
  unfold row_quantile. cbv zeta. rewrite cumsum_last. destruct (Nat.eqb (sumN row) 0) eqn:Z0; [reflexivity|]. fold (found q row).
  destruct (Nat.eqb (Nat.min (found q row) (length row - 1)) 0) eqn:U; [reflexivity|]. apply Nat.eqb_neq in Z0, U.
  unfold row_value. rewrite !cumsum_nth by lia. reflexivity.
Qed.

Lemma eps_pos : (0 < eps)%Q. Proof. reflexivity. Qed.
Lemma nat_diff_eps a b : a < b -> Qltb eps (natQ b - natQ a) = true.
Proof.
  intro L. apply Qltb_spec. assert (H : (natQ (S a) <= natQ b)%Q) by (apply (proj1 (natQ_le _ _)); lia). rewrite natQ_S in H. assert (E : (eps < 1)%Q) by reflexivity. lra.
Qed.
Lemma nat_same_eps a : Qltb eps (natQ a - natQ a) = false.
Proof. apply Qltb_false. assert (P := eps_pos). lra. Qed.

(** Between the centres of two neighbouring bins. *)
Lemma row_value_bounds q cs row u : 0 < u -> u < length row -> found q row = u -> (nth (u - 1) cs 0 <= nth u cs 0)%Q ->
  (nth (u - 1) cs 0 <= row_value q cs row u)%Q /\ (row_value q cs row u <= nth u cs 0)%Q /\
  ((nth (u - 1) cs 0 < nth u cs 0)%Q -> (row_value q cs row u < nth u cs 0)%Q).
Proof.
  intros U0 U F C. assert (A := proj2 (found_spec q row (u - 1) ltac:(lia)) ltac:(lia)).
  assert (B : ~ (natQ (cum row u) <= q * natQ (sumN row))%Q) by (intro X; apply (found_spec q row u U) in X; lia).
  apply Qnot_le_lt in B. assert (D : cum row (u - 1) < cum row u) by (apply (proj2 (natQ_lt _ _)); lra).
  unfold row_value. cbv zeta. rewrite (nat_diff_eps _ _ D).
  set (lo := natQ (cum row (u - 1))) in *. set (hi := natQ (cum row u)) in *. set (pos := (q * natQ (sumN row))%Q) in *.
  assert (Dp : (0 < hi - lo)%Q) by (apply (proj1 (natQ_lt _ _)) in D; fold lo hi in D; lra).
  assert (F0 : (0 <= (pos - lo) / (hi - lo))%Q) by (apply Qle_shift_div_l; [exact Dp|lra]).
  assert (F1 : ((pos - lo) / (hi - lo) < 1)%Q) by (apply Qlt_shift_div_r; [exact Dp|lra]).
  set (fr := ((pos - lo) / (hi - lo))%Q) in *. split; [nra|]. split; [nra|]. intro. nra.
Qed.

Lemma sumN_app' a b : sumN (a ++ b) = sumN a + sumN b.
Proof. unfold sumN. induction a as [|x a IH]; cbn; [reflexivity|]. rewrite IH. lia. Qed.

(** Histogram of a sample. *)
Section Sample.
Variables (g : Q -> nat) (n : nat) (s : list Q).
Definition row_of : list nat := map (fun b => count (fun v => Nat.eqb (g v) b) s) (seq 0 n).
Lemma row_length : length row_of = n.
Proof. unfold row_of. rewrite map_length, seq_length. reflexivity. Qed.
Lemma sum_bins k : sumN (map (fun b => count (fun v => Nat.eqb (g v) b) s) (seq 0 k)) = count (fun v => Nat.ltb (g v) k) s.
Proof.
  induction k as [|k IH]; [cbn; symmetry; apply count_zero; reflexivity|]. rewrite seq_S, map_app, sumN_app', IH. cbn [plus map]. unfold sumN. cbn [fold_right]. rewrite Nat.add_0_r.
  clear. induction s as [|v l IH]; [reflexivity|]. rewrite !count_cons. destruct (Nat.ltb_spec (g v) k), (Nat.eqb_spec (g v) k), (Nat.ltb_spec (g v) (S k)); lia.
Qed.
Lemma firstn_seq k m a : k <= m -> firstn k (seq a m) = seq a k.
Proof. revert a m. induction k as [|k IH]; intros a m L; [reflexivity|]. destruct m as [|m]; [lia|]. cbn. rewrite IH by lia. reflexivity. Qed.
Lemma cum_row i : i < n -> cum row_of i = count (fun v => Nat.leb (g v) i) s.
Proof.
  intro I. unfold cum, row_of. rewrite firstn_map, firstn_seq by lia. rewrite sum_bins. apply count_ext. intros v _. destruct (Nat.ltb_spec (g v) (S i)), (Nat.leb_spec (g v) i); try reflexivity; lia.
Qed.
Lemma sum_row : (forall v, In v s -> g v < n) -> sumN row_of = length s.
Proof.
  intro H. unfold row_of. rewrite sum_bins. unfold count. f_equal. apply filter_all. intros v I. apply Nat.ltb_lt. apply H. exact I.
Qed.
Lemma sum_row_le : sumN row_of <= length s.
Proof. unfold row_of. rewrite sum_bins. apply count_length. Qed.
Hypothesis mono : forall v w, (v <= w)%Q -> g v <= g w.
Lemma locate r x u : order_statistic s r x -> (forall i, i < u -> count (fun v => Nat.leb (g v) i) s < r) -> r <= count (fun v => Nat.leb (g v) u) s -> g x = u.
Proof.
  intros (I & A & B) Lo Hi. destruct (Nat.lt_trichotomy (g x) u) as [L|[E|L]]; [exfalso|exact E|exfalso].
  - specialize (Lo _ L). assert (C : count (fun v => Qle_bool v x) s <= count (fun v => Nat.leb (g v) (g x)) s).
    { apply count_le. intros v _ V. apply Qle_bool_iff in V. apply Nat.leb_le, mono. exact V. }
    lia.
  - assert (C : count (fun v => Nat.leb (g v) u) s <= count (fun v => negb (Qle_bool x v)) s).
    { apply count_le. intros v _ V. apply Nat.leb_le in V. destruct (Qle_bool x v) eqn:X; [|reflexivity]. apply Qle_bool_iff in X. apply mono in X. lia. }
    lia.
Qed.
End Sample.

(** The bins of marEx. *)
Section Grid.
Variables (p mx : Q).
Hypothesis p_pos : (0 < p)%Q.
Lemma edge_mono i j : i <= j -> (edge p i <= edge p j)%Q.
Proof. intro L. unfold edge. apply natQ_le in L. nra. Qed.
Lemma edge_S k : (edge p (S k) == edge p k + p)%Q.
Proof. unfold edge. rewrite natQ_S. ring. Qed.
Lemma edge_2 : (edge p 2 == p)%Q.
Proof. unfold edge. change (natQ 2) with 2%Q. ring. Qed.
Lemma centre_S k : (centre p (S k) == edge p k + (1 # 2) * p)%Q.
Proof. cbn [centre]. rewrite edge_S. field. Qed.
Lemma centre_edge k : 0 < k -> (centre p k == edge p k - (1 # 2) * p)%Q.
Proof. destruct k as [|k]; [lia|]. intros _. rewrite centre_S, edge_S. ring. Qed.

Notation n := (n_edges p mx).
Notation bin := (digitize (edges p mx)).
Lemma n_edges_bound : (mx + 2 * p <= natQ n * p)%Q.
Proof.
  unfold n_edges. set (r := ((mx + p - - p) / p)%Q). assert (C := Qle_ceiling r).
  assert (E : (mx + 2 * p == r * p)%Q) by (unfold r; field; lra).
  assert (N : (inject_Z (Qceiling r) <= natQ (Z.to_nat (Qceiling r)))%Q) by (unfold natQ; rewrite <- Zle_Qle; lia).
  rewrite E. apply Qmult_le_compat_r; [|lra]. apply (Qle_trans _ _ _ C N).
Qed.
Lemma bin_mono v w : (v <= w)%Q -> bin v <= bin w.
Proof. apply digitize_mono. Qed.
Lemma bin_spec v k : k < n -> ((edge p k <= v)%Q <-> k < bin v).
Proof. apply digitize_spec. intros i j I J. apply edge_mono. exact I. Qed.
Lemma bin_in_range v : (v < mx)%Q -> 0 < n -> bin v < n.
Proof.
  intros V N. assert (L : bin v <= n) by apply digitize_le. destruct (Nat.eq_dec (bin v) n) as [E|]; [exfalso|lia].
  assert (B := proj2 (bin_spec v (n - 1) ltac:(lia)) ltac:(lia)). assert (G := n_edges_bound).
  unfold edge in B. assert (X : (natQ n == natQ (n - 1) + 1)%Q) by (rewrite <- natQ_S; replace (S (n - 1)) with n by lia; reflexivity). nra.
Qed.
Hypothesis mx_pos : (0 < mx)%Q.
Lemma n_edges_3 : 3 <= n.
Proof.
  assert (G := n_edges_bound). apply natQ_lt. change (natQ 2) with 2%Q. destruct (Qlt_le_dec 2 (natQ n)) as [L|L]; [exact L|exfalso]. nra.
Qed.
Lemma centres_nth b : b < n -> nth b (centres p mx) 0%Q = centre p b.
Proof. intro B. unfold centres. rewrite (nth_map_gen _ _ _ 0) by (rewrite seq_length; exact B). rewrite seq_nth by exact B. reflexivity. Qed.
Lemma centres_length : length (centres p mx) = n.
Proof. unfold centres. rewrite map_length, seq_length. reflexivity. Qed.
Lemma centre_lt k : 0 < k -> (centre p k < centre p (S k))%Q.
Proof. intro K. rewrite centre_S, centre_edge by exact K. lra. Qed.
Lemma centre_le i j : 0 < i -> i <= j -> (centre p i <= centre p j)%Q.
Proof. intros I L. rewrite !centre_edge by lia. assert (E := edge_mono i j L). lra. Qed.
Lemma centre_2_low k : k <= 2 -> (centre p k <= (1 # 2) * p)%Q.
Proof.
  intro K. destruct k as [|[|[|k]]]; [cbn; lra| | |lia].
  - rewrite centre_S. unfold edge. change (natQ 0) with 0%Q. lra.
  - rewrite centre_S. unfold edge. change (natQ 1) with 1%Q. lra.
Qed.

(** Threshold of one pooled histogram. *)
Theorem row_threshold_close s q r x : (0 <= q)%Q -> (q < 1)%Q -> (forall v, In v s -> (v < mx)%Q) ->
  order_statistic s r x -> (natQ r - 1 <= q * natQ (length s))%Q -> (q * natQ (length s) < natQ r)%Q -> (p <= x)%Q ->
  exists th, at_least (lower_bound p) (row_quantile q (centres p mx) (row_of bin n s)) = Some th /\ (x - (3 # 2) * p < th)%Q /\ (th <= x + (1 # 2) * p)%Q.
Proof.
  intros Q0 Q1 R O R1 R2 X. assert (N3 := n_edges_3).
  assert (T : sumN (row_of bin n s) = length s) by (apply sum_row; intros v I; apply bin_in_range; [apply R; exact I|lia]).
  assert (Sp : 0 < length s) by (destruct O as (I & _ & _); destruct s; [destruct I|cbn; lia]).
  set (row := row_of bin n s) in *. assert (Lr : length row = n) by apply row_length.
  assert (F := found_lt q row Q1 ltac:(lia)). set (u := found q row) in *.
  assert (U : bin x = u).
  { apply (locate bin s bin_mono r x u O).
    - intros i I. rewrite <- (cum_row bin n s i) by lia. fold row. assert (H := proj2 (found_spec q row i ltac:(lia)) I). rewrite T in H. apply natQ_lt. lra.
    - rewrite <- (cum_row bin n s u) by lia. fold row. assert (H : ~ (natQ (cum row u) <= q * natQ (sumN row))%Q) by (intro Y; apply (found_spec q row u F) in Y; unfold u in Y; lia).
      rewrite T in H. apply Qnot_le_lt in H. destruct r as [|r]; [lia|]. rewrite natQ_S in R1. assert (r < cum row u) by (apply natQ_lt; lra). lia. }
  assert (U3 : 3 <= u).
  { rewrite <- U. apply (proj1 (bin_spec x 2 ltac:(lia))). rewrite edge_2. exact X. }
  assert (Lo := proj2 (bin_spec x (u - 1) ltac:(lia)) ltac:(lia)).
  assert (Hi : (x < edge p u)%Q) by (apply Qnot_le_lt; intro Y; apply (bin_spec x u ltac:(lia)) in Y; lia).
  rewrite row_quantile_eq. destruct (Nat.eqb_spec (sumN row) 0); [lia|]. fold u. rewrite Nat.min_l by lia. cbv zeta. destruct (Nat.eqb_spec u 0); [lia|].
  assert (B := row_value_bounds q (centres p mx) row u ltac:(lia) ltac:(lia) eq_refl).
  rewrite !centres_nth in B by lia. assert (Cl := centre_lt (u - 1) ltac:(lia)). replace (S (u - 1)) with u in Cl by lia.
  destruct (B (Qlt_le_weak _ _ Cl)) as (B1 & _ & B2). specialize (B2 Cl).
  rewrite centre_edge in B1, B2 by lia. assert (Eu := edge_S (u - 1)). replace (S (u - 1)) with u in Eu by lia.
  cbn [at_least]. eexists. split; [reflexivity|]. destruct (Qltb _ _) eqn:C.
  - apply Qltb_spec in C. unfold lower_bound in *. rewrite edge_2 in *. lra.
  - lra.
Qed.

(** Monotone in the percentile. *)
Theorem row_threshold_mono q1 q2 row : length row = n -> (0 <= q1)%Q -> (q1 <= q2)%Q -> (q2 <= 1)%Q ->
  match at_least (lower_bound p) (row_quantile q1 (centres p mx) row), at_least (lower_bound p) (row_quantile q2 (centres p mx) row) with
  | Some a, Some b => (a <= b)%Q | None, None => True | _, _ => False end.
Proof.
  intros Lr Q0 Q12 Q1. assert (N3 := n_edges_3). rewrite !row_quantile_eq. destruct (Nat.eqb_spec (sumN row) 0) as [|T]; [exact Logic.I|].
  assert (Tp : (0 < natQ (sumN row))%Q) by (apply natQ_pos; lia). rewrite Lr. cbv zeta.
  set (u1 := Nat.min (found q1 row) (n - 1)). set (u2 := Nat.min (found q2 row) (n - 1)).
  assert (U12 : u1 <= u2).
  { assert (found q1 row <= found q2 row); [|unfold u1, u2; lia]. unfold found. apply count_le. intros c _ H. apply Qle_bool_iff in H. apply Qle_bool_iff. nra. }
  set (v := fun q u => if Nat.eqb u 0 then nth 0 (centres p mx) 0%Q else row_value q (centres p mx) row u).
  replace (if Nat.eqb u1 0 then Some (nth 0 (centres p mx) 0%Q) else Some (row_value q1 (centres p mx) row u1)) with (Some (v q1 u1)) by (unfold v; destruct (Nat.eqb u1 0); reflexivity).
  replace (if Nat.eqb u2 0 then Some (nth 0 (centres p mx) 0%Q) else Some (row_value q2 (centres p mx) row u2)) with (Some (v q2 u2)) by (unfold v; destruct (Nat.eqb u2 0); reflexivity).
  cbn [at_least]. assert (Lb : (lower_bound p == p)%Q) by apply edge_2.
  (* frac in [0, 1] *)
  assert (Frac : forall q u, (0 <= q)%Q -> (q <= 1)%Q -> u = Nat.min (found q row) (n - 1) -> 0 < u ->
     exists fr, (0 <= fr)%Q /\ (fr <= 1)%Q /\ (row_value q (centres p mx) row u == centre p (u - 1) + fr * (centre p u - centre p (u - 1)))%Q /\
       ((exists lo hi, lo = cum row (u - 1) /\ hi = cum row u /\ lo < hi /\ (fr * (natQ hi - natQ lo) == q * natQ (sumN row) - natQ lo)%Q) \/ (cum row (u - 1) = cum row u /\ fr = (1 # 2)%Q /\ found q row = n))).
  { intros q u A B E U. unfold row_value. cbv zeta. rewrite !centres_nth by lia.
    assert (G1 : (natQ (cum row (u - 1)) <= q * natQ (sumN row))%Q) by (apply (found_spec q row (u - 1)); lia).
    assert (G2 : (q * natQ (sumN row) <= natQ (cum row u))%Q).
    { destruct (Nat.eq_dec (found q row) n) as [Fn|Fn].
      - rewrite cum_total by lia. nra.
      - assert (L := found_le q row). apply Qlt_le_weak, Qnot_le_lt. intro Y. apply (found_spec q row u) in Y; lia. }
    assert (Cm := cum_mono row (u - 1) u ltac:(lia)).
    destruct (Nat.eq_dec (cum row (u - 1)) (cum row u)) as [Ec|Nc].
    - exists (1 # 2)%Q. rewrite Ec, nat_same_eps. split; [lra|]. split; [lra|]. split; [reflexivity|]. right. split; [reflexivity|]. split; [reflexivity|].
      destruct (Nat.eq_dec (found q row) n) as [Fn|Fn]; [exact Fn|exfalso]. assert (L := found_le q row).
      assert (Y : ~ u < found q row) by lia. apply Y. apply (found_spec q row u); [lia|]. rewrite <- Ec. exact G1.
    - assert (Dd : cum row (u - 1) < cum row u) by lia. rewrite (nat_diff_eps _ _ Dd). assert (Dq := proj1 (natQ_lt _ _) Dd).
      set (lo := natQ (cum row (u - 1))) in *. set (hi := natQ (cum row u)) in *. set (pos := (q * natQ (sumN row))%Q) in *.
      exists ((pos - lo) / (hi - lo))%Q. split; [apply Qle_shift_div_l; lra|]. split; [apply Qle_shift_div_r; lra|]. split; [reflexivity|]. left.
      exists (cum row (u - 1)), (cum row u). split; [reflexivity|]. split; [reflexivity|]. split; [exact Dd|]. fold lo hi. field. lra. }
  (* values for small u stay below the lower bound *)
  assert (Small : forall q u, (0 <= q)%Q -> (q <= 1)%Q -> u = Nat.min (found q row) (n - 1) -> u <= 2 -> (v q u <= (1 # 2) * p)%Q).
  { intros q u A B E U. unfold v. destruct (Nat.eqb_spec u 0) as [U0|U0].
    - rewrite centres_nth by lia. apply centre_2_low. lia.
    - destruct (Frac q u A B E ltac:(lia)) as (fr & F0 & F1 & Ev & _). rewrite Ev. assert (C1 := centre_2_low (u - 1) ltac:(lia)). assert (C2 := centre_2_low u U). nra. }
  assert (E1 : u1 = Nat.min (found q1 row) (n - 1)) by reflexivity. assert (E2 : u2 = Nat.min (found q2 row) (n - 1)) by reflexivity.
  assert (Main : 3 <= u1 -> (v q1 u1 <= v q2 u2)%Q).
  { intro G. unfold v. destruct (Nat.eqb_spec u1 0); [lia|]. destruct (Nat.eqb_spec u2 0); [lia|].
    destruct (Frac q1 u1 Q0 ltac:(lra) E1 ltac:(lia)) as (f1 & A0 & A1 & V1 & K1).
    destruct (Frac q2 u2 ltac:(lra) Q1 E2 ltac:(lia)) as (f2 & B0 & B1 & V2 & K2). rewrite V1, V2.
    assert (C1 := centre_le (u1 - 1) u1 ltac:(lia) ltac:(lia)). assert (C2 := centre_le (u2 - 1) u2 ltac:(lia) ltac:(lia)).
    destruct (Nat.eq_dec u1 u2) as [E|E].
    - rewrite <- E in *. assert (f1 <= f2)%Q; [|nra].
      destruct K1 as [(l1 & h1 & L1 & H1 & D1 & P1)|(Z1 & F1 & N1)]; destruct K2 as [(l2 & h2 & L2 & H2 & D2 & P2)|(Z2 & F2 & N2)]; [|lia|lia|rewrite F1, F2; lra].
      subst l1 h1 l2 h2. apply (proj1 (natQ_lt _ _)) in D1. apply (Qmult_le_r _ _ (natQ (cum row u1) - natQ (cum row (u1 - 1)))); [lra|]. rewrite P1, P2. nra.
    - assert (C3 := centre_le u1 (u2 - 1) ltac:(lia) ltac:(lia)). nra. }
  destruct (Nat.le_gt_cases u1 2) as [G|G].
  - assert (H := Small q1 u1 Q0 ltac:(lra) E1 G). assert (X : Qltb (v q1 u1) (lower_bound p) = true) by (apply Qltb_spec; lra). rewrite X.
    destruct (Qltb (v q2 u2) (lower_bound p)) eqn:Y; [lra|]. apply Qltb_false in Y. lra.
  - specialize (Main ltac:(lia)). destruct (Qltb (v q1 u1) (lower_bound p)) eqn:Y1, (Qltb (v q2 u2) (lower_bound p)) eqn:Y2; rewrite ?Qltb_spec, ?Qltb_false in *; lra.
Qed.
End Grid.
