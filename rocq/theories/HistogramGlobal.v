(** The one-dimensional histogram and the exact quantile. *)
From Coq Require Import Lqa Qround Sorted.
From Verif Require Import Base Filter FilterProofs FilterMoreProofs Overlap OverlapProofs Partition PartitionProofs Cluster ClusterProofs ClusterFinal Detect DetectProofs Climatology ClimatologySpec ClimatologyProofs Detrend DetrendProofs Histogram HistogramSpec HistogramProofs.
Open Scope nat_scope.

Lemma first_true_spec l : forall i, existsb (fun b => b) l = true ->
  exists k, first_true_from i l = i + k /\ nth k l false = true /\ k < length l /\ forall j, j < k -> nth j l false = false.
Proof.
  induction l as [|b l IH]; intros i H; [discriminate|]. destruct b.
  - exists 0. cbn. split; [lia|]. split; [reflexivity|]. split; [lia|]. intros; lia.
  - cbn in H. destruct (IH (S i) H) as (k & E & N & L & B). exists (S k). cbn [first_true_from nth length]. rewrite E. split; [lia|]. split; [exact N|]. split; [lia|].
    intros [|j] J; [reflexivity|]. apply B. lia.
Qed.
Lemma argmax_unique l k : nth k l false = true -> (forall j, j < k -> nth j l false = false) -> argmax l = k.
Proof.
  intros N B. assert (K : k < length l) by (destruct (Nat.ltb_spec k (length l)); [assumption|rewrite nth_overflow in N by lia; discriminate]).
  assert (E : existsb (fun b => b) l = true). { apply existsb_exists. exists true. split; [rewrite <- N; apply nth_In; exact K|reflexivity]. }
  destruct (first_true_spec l 0 E) as (k' & E' & N' & L' & B'). unfold argmax. rewrite E'. cbn.
  destruct (Nat.lt_trichotomy k k') as [L|[X|L]]; [rewrite (B' k L) in N; discriminate|auto|rewrite (B k' L) in N'; discriminate].
Qed.

Section Cdf.
Variables (q : Q) (row : list nat).
Definition H := (natQ (sumN row) + eps)%Q.
Lemma H_pos : (0 < H)%Q.
Proof. unfold H. assert (P : (0 <= natQ (sumN row))%Q) by (change 0%Q with (natQ 0); apply natQ_le; lia). assert (E := eps_pos). lra. Qed.
Definition cdf : list Q := map (fun c => (natQ c / H)%Q) (cumsum_from 0 row).
Lemma cdf_length : length cdf = length row.
Proof. unfold cdf. rewrite map_length. apply cumsum_length. Qed.
Lemma cdf_nth i : i < length row -> nth i cdf 0%Q = (natQ (cum row i) / H)%Q.
Proof.
  intro I. unfold cdf. rewrite (nth_map_gen _ _ _ 0) by (rewrite cumsum_length; exact I). rewrite cumsum_nth by exact I. reflexivity.
Qed.
Lemma div_le a b : (a <= b / H)%Q <-> (a * H <= b)%Q.
Proof.
  assert (P := H_pos). split; intro L.
  - apply (Qmult_le_r _ _ H P) in L. unfold Qdiv in L. rewrite <- (Qmult_assoc b), (Qmult_comm (/ H)), Qmult_inv_r, Qmult_1_r in L by lra. exact L.
  - apply Qle_shift_div_l; assumption.
Qed.
Lemma div_lt a b : (a / H < b / H)%Q <-> (a < b)%Q.
Proof. assert (P := H_pos). unfold Qdiv. rewrite Qmult_lt_r; [reflexivity|]. apply Qinv_lt_0_compat. exact P. Qed.

(** The bin that first reaches the percentile. *)
Lemma upper_spec u : u < length row -> ((q - eps) * H <= natQ (cum row u))%Q -> (forall i, i < u -> (natQ (cum row i) < (q - eps) * H)%Q) ->
  argmax (map (fun c => Qle_bool (q - eps) c) cdf) = u.
Proof.
  intros U A B. apply argmax_unique.
  - rewrite (nth_map_gen _ _ _ 0%Q) by (rewrite cdf_length; exact U). rewrite cdf_nth by exact U. apply Qle_bool_iff, div_le. exact A.
  - intros j J. rewrite (nth_map_gen _ _ _ 0%Q) by (rewrite cdf_length; lia). rewrite cdf_nth by lia. apply Qle_bool_false. specialize (B j J).
    apply Qnot_le_lt. intro X. apply (proj1 (div_le _ _)) in X. lra.
Qed.
Lemma lower_spec u : 0 < u -> u < length row -> cum row (u - 1) < cum row u ->
  argmax (map (fun c => Qltb (nth (u - 1) cdf 0%Q) c) cdf) = u.
Proof.
  intros U0 U C. apply argmax_unique.
  - rewrite (nth_map_gen _ _ _ 0%Q) by (rewrite cdf_length; exact U). rewrite !cdf_nth by lia. apply Qltb_spec, div_lt. apply natQ_lt. exact C.
  - intros j J. rewrite (nth_map_gen _ _ _ 0%Q) by (rewrite cdf_length; lia). rewrite !cdf_nth by lia. apply Qltb_false. apply Qnot_lt_le. intro X. apply (proj1 (div_lt _ _)) in X. apply natQ_lt in X.
    assert (M := cum_mono row j (u - 1) ltac:(lia)). lia.
Qed.
Lemma Qabs_zero x : (x == 0)%Q -> Qle_bool (Qabs' x) eps = true.
Proof. intro E. apply Qle_bool_iff. unfold Qabs'. assert (P := eps_pos). destruct (Qltb x 0); lra. Qed.

Lemma quantile_1d_inner cs u : length cs = length row -> 0 < u -> u + 1 < length row ->
  ((q - eps) * H <= natQ (cum row u))%Q -> (forall i, i < u -> (natQ (cum row i) < (q - eps) * H)%Q) ->
  (quantile_1d q cs row == nth u cs 0)%Q.
Proof.
  intros L U0 U A B. unfold quantile_1d. cbv zeta. fold H. fold cdf. rewrite (upper_spec u ltac:(lia) A B).
  assert (T : (if Nat.ltb 1 u then u - 1 else 0) = u - 1) by (destruct (Nat.ltb_spec 1 u); lia). rewrite T.
  assert (C : cum row (u - 1) < cum row u) by (apply natQ_lt; specialize (B (u - 1) ltac:(lia)); lra).
  rewrite (lower_spec u U0 ltac:(lia) C). rewrite L.
  destruct (Nat.ltb_spec (length row - 2) u); [lia|]. destruct (Nat.ltb_spec u 1); [lia|]. destruct (Nat.ltb_spec (length row - 1) u); [lia|].
  rewrite Qabs_zero by ring. cbn [andb]. destruct (Qltb (Qabs' (nth u cdf 0%Q - q)) eps); cbn [negb]; [reflexivity|]. field.
Qed.
End Cdf.

Section Global.
Variables (p mx : Q).
Hypothesis p_pos : (0 < p)%Q.
Hypothesis mx_pos : (0 < mx)%Q.
Notation n1 := (n_edges p mx).
Notation bin1 := (digitize (edges_1d p mx)).
Definition edge1 (k : nat) : Q := if Nat.eqb (S k) n1 then (edge p k + (1 # 100000000))%Q else edge p k.
Lemma edge1_mono i j : i <= j -> j < n1 -> (edge1 i <= edge1 j)%Q.
Proof.
  intros I J. unfold edge1. assert (E := edge_mono p p_pos i j I). destruct (Nat.eqb_spec (S i) n1), (Nat.eqb_spec (S j) n1); try lia; try lra.
Qed.
Lemma bin1_spec v k : k < n1 -> ((edge1 k <= v)%Q <-> k < bin1 v).
Proof. intro K. unfold edges_1d. apply (digitize_spec edge1 n1 edge1_mono v k K). Qed.
Lemma bin1_mono v w : (v <= w)%Q -> bin1 v <= bin1 w.
Proof. unfold edges_1d. apply (digitize_mono edge1 n1). Qed.
Lemma bin1_le v : bin1 v <= n1.
Proof. unfold edges_1d. apply (digitize_le edge1 n1). Qed.
Lemma edge1_last_ge : (mx < edge1 (n1 - 1))%Q.
Proof.
  assert (N3 := n_edges_3 p mx p_pos mx_pos). unfold edge1. replace (S (n1 - 1)) with n1 by lia. rewrite Nat.eqb_refl.
  assert (G := n_edges_bound p mx p_pos). unfold edge. assert (X : (natQ n1 == natQ (n1 - 1) + 1)%Q) by (rewrite <- natQ_S; replace (S (n1 - 1)) with n1 by lia; reflexivity). nra.
Qed.
Lemma bin1_in_range v : (v < mx)%Q -> bin1 v < n1.
Proof.
  intro V. assert (N3 := n_edges_3 p mx p_pos mx_pos). assert (L := bin1_le v). destruct (Nat.eq_dec (bin1 v) n1) as [E|]; [exfalso|lia].
  assert (B := proj2 (bin1_spec v (n1 - 1) ltac:(lia)) ltac:(lia)). assert (G := edge1_last_ge). lra.
Qed.
Lemma hist_1d_row s : hist_1d p mx (map Some s) = row_of bin1 n1 s.
Proof. unfold hist_1d, row_of. apply map_ext. intro b. rewrite count_map. reflexivity. Qed.
Lemma no_missing (s : list Q) : existsb (fun v : option Q => match v with None => true | Some _ => false end) (map Some s) = false.
Proof. induction s as [|v s IH]; [reflexivity|exact IH]. Qed.

Theorem global_close s q r x : (0 <= q)%Q -> (q <= 1)%Q -> (forall v, In v s -> (v < mx)%Q) -> order_statistic s r x ->
  (natQ r - 1 + eps * (natQ (length s) + 1) < q * natQ (length s))%Q -> (q * natQ (length s) <= natQ r)%Q -> (p <= x)%Q -> (x + p < mx)%Q ->
  exists th, global_threshold p mx q (map Some s) = Some th /\ (x - (1 # 2) * p < th)%Q /\ (th <= x + (1 # 2) * p)%Q.
Proof.
  intros Q0 Q1 R O R1 R2 X Xm. assert (N3 := n_edges_3 p mx p_pos mx_pos).
  unfold global_threshold. rewrite no_missing, hist_1d_row. set (row := row_of bin1 n1 s).
  assert (T : sumN row = length s) by (apply sum_row; intros v I; apply bin1_in_range, R; exact I).
  assert (Lr : length row = n1) by apply row_length.
  assert (Sp : 0 < length s) by (destruct O as (I & _ & _); destruct s; [destruct I|cbn; lia]).
  assert (Sq : (1 <= natQ (length s))%Q) by (change 1%Q with (natQ 1); apply natQ_le; lia).
  assert (Ep := eps_pos).
  set (u := bin1 x).
  assert (Hu : u < n1) by (apply bin1_in_range; lra).
  assert (Hh : (H row == natQ (length s) + eps)%Q) by (unfold H; rewrite T; reflexivity).
  assert (Tr : ((q - eps) * H row <= natQ r)%Q) by (rewrite Hh; nra).
  assert (E1 : (eps < 1)%Q) by reflexivity.
  assert (Tl : (natQ r - 1 < (q - eps) * H row)%Q).
  { rewrite Hh. assert (Eq : ((q - eps) * (natQ (length s) + eps) == q * natQ (length s) - eps * natQ (length s) + eps * (q - eps))%Q) by ring. rewrite Eq. nra. }
  (* counts around the bin of x *)
  assert (A : ((q - eps) * H row <= natQ (cum row u))%Q).
  { apply (Qle_trans _ (natQ r)); [exact Tr|]. apply natQ_le. unfold row. rewrite cum_row by exact Hu. destruct O as (I & O1 & O2). apply (Nat.le_trans _ _ _ O2).
    apply count_le. intros v _ V. apply Qle_bool_iff in V. apply Nat.leb_le. apply bin1_mono. exact V. }
  assert (B : forall i, i < u -> (natQ (cum row i) < (q - eps) * H row)%Q).
  { intros i I. apply (Qle_lt_trans _ (natQ r - 1)); [|exact Tl]. destruct r as [|r]; [destruct O as (_ & O1 & _); lia|]. rewrite natQ_S. assert (Y : cum row i <= r); [|apply natQ_le in Y; lra].
    unfold row. rewrite cum_row by lia. destruct O as (_ & O1 & _). assert (C : count (fun v => Nat.leb (bin1 v) i) s <= count (fun v => negb (Qle_bool x v)) s); [|lia].
    apply count_le. intros v _ V. apply Nat.leb_le in V. destruct (Qle_bool x v) eqn:Z; [|reflexivity]. apply Qle_bool_iff in Z. apply bin1_mono in Z. fold u in Z. lia. }
  assert (G := edge1_last_ge).
  assert (Ed : forall k, k + 1 < n1 -> edge1 k = edge p k) by (intros k K; unfold edge1; destruct (Nat.eqb_spec (S k) n1); [lia|reflexivity]).
  assert (U2 : u + 1 < n1).
  { destruct (Nat.eq_dec (u + 1) n1) as [E|]; [exfalso|lia]. assert (Y := proj2 (bin1_spec x (n1 - 2) ltac:(lia)) ltac:(unfold u in E; lia)). rewrite Ed in Y by lia.
    assert (G' := n_edges_bound p mx p_pos). unfold edge in Y. assert (Z : (natQ n1 == natQ (n1 - 2) + 2)%Q) by (replace n1 with (S (S (n1 - 2))) at 1 by lia; rewrite !natQ_S; ring). nra. }
  assert (U3 : 3 <= u).
  { destruct (Nat.eq_dec n1 3) as [E|E].
    - exfalso. assert (Y : u <= 1) by lia. assert (Z : (edge1 1 <= x)%Q) by (rewrite Ed by lia; unfold edge; change (natQ 1) with 1%Q; lra). apply (bin1_spec x 1 ltac:(lia)) in Z. fold u in Z. lia.
    - apply (proj1 (bin1_spec x 2 ltac:(lia))). rewrite Ed by lia. rewrite (edge_2 p). exact X. }
  assert (V := quantile_1d_inner q row (centres p mx) u ltac:(rewrite centres_length; lia) ltac:(lia) ltac:(lia) A B). rewrite centres_nth in V by lia.
  rewrite (centre_edge p) in V by lia.
  assert (Lo := proj2 (bin1_spec x (u - 1) ltac:(lia)) ltac:(fold u; lia)). rewrite Ed in Lo by lia.
  assert (Hi : (x < edge p u)%Q) by (rewrite <- Ed by lia; apply Qnot_le_lt; intro Y; apply (bin1_spec x u ltac:(lia)) in Y; fold u in Y; lia).
  assert (Eu := edge_S p (u - 1)). replace (S (u - 1)) with u in Eu by lia.
  cbn [at_least]. eexists. split; [reflexivity|]. destruct (Qltb _ _) eqn:C.
  - apply Qltb_spec in C. unfold lower_bound in *. rewrite (edge_2 p) in *. lra.
  - rewrite V. lra.
Qed.

(** Values beyond the last edge are not counted. *)
Lemma n_edges_upper : (natQ n1 * p < mx + 3 * p)%Q.
Proof.
  unfold n_edges. set (r := ((mx + p - - p) / p)%Q). assert (C := Qceiling_lt r).
  assert (E : (mx + 2 * p == r * p)%Q) by (unfold r; field; lra).
  assert (Rp : (0 < r)%Q) by (unfold r; apply Qlt_shift_div_l; lra).
  assert (Cp : (0 <= Qceiling r)%Z). { destruct (Z.le_gt_cases 0 (Qceiling r)) as [L|L]; [exact L|exfalso]. assert (Y := Qle_ceiling r). assert (Z : (inject_Z (Qceiling r) <= inject_Z 0)%Q) by (rewrite <- Zle_Qle; lia). change (inject_Z 0) with 0%Q in Z. lra. }
  unfold natQ. rewrite Z2Nat.id by exact Cp. unfold Z.sub in C. rewrite inject_Z_plus, inject_Z_opp in C. change (inject_Z 1) with 1%Q in C. nra.
Qed.
Lemma last_edge_lt : (edge p (n1 - 1) < mx + p)%Q.
Proof.
  assert (N3 := n_edges_3 p mx p_pos mx_pos). assert (G := n_edges_upper). unfold edge. assert (X : (natQ n1 == natQ (n1 - 1) + 1)%Q) by (rewrite <- natQ_S; replace (S (n1 - 1)) with n1 by lia; reflexivity). nra.
Qed.
Lemma bin1_beyond v : (mx + p + (1 # 100000000) <= v)%Q -> bin1 v = n1.
Proof.
  intro V. assert (N3 := n_edges_3 p mx p_pos mx_pos). assert (L := bin1_le v). assert (E : n1 - 1 < bin1 v); [|lia].
  apply (proj1 (bin1_spec v (n1 - 1) ltac:(lia))). unfold edge1. replace (S (n1 - 1)) with n1 by lia. rewrite Nat.eqb_refl. assert (G := last_edge_lt). lra.
Qed.
Lemma bin_beyond v : (mx + p <= v)%Q -> digitize (edges p mx) v = n1.
Proof.
  intro V. assert (N3 := n_edges_3 p mx p_pos mx_pos). assert (L : digitize (edges p mx) v <= n1) by (unfold edges; apply (digitize_le (edge p) n1)). assert (E : n1 - 1 < digitize (edges p mx) v); [|lia].
  apply (proj1 (bin_spec p mx p_pos v (n1 - 1) ltac:(lia))). assert (G := last_edge_lt). lra.
Qed.
End Global.
