(** The one-dimensional threshold does not decrease with the percentile. *)
From Coq Require Import Lqa Qround Sorted.
From Verif Require Import Base Filter FilterProofs FilterMoreProofs Overlap OverlapProofs Partition PartitionProofs Cluster ClusterProofs ClusterFinal Detect DetectProofs Climatology ClimatologySpec ClimatologyProofs Detrend DetrendProofs Histogram HistogramSpec HistogramProofs HistogramGlobal.
Open Scope nat_scope.

Section Mono.
Variables (p mx : Q) (row : list nat).
Hypothesis p_pos : (0 < p)%Q.
Hypothesis mx_pos : (0 < mx)%Q.
Notation n1 := (n_edges p mx).
Hypothesis row_len : length row = n1.
(** Some value lies between the outermost bins. *)
Hypothesis inner : cum row 0 < cum row (n1 - 2).
(** The sample is not astronomically large. *)
Hypothesis size : (2 * eps * (natQ (sumN row) + 1) * (mx + 3 * p) <= p)%Q.
Notation HH := (H row).
Notation N := (natQ (sumN row)).

Lemma some_value : 1 <= sumN row.
Proof. assert (M := cum_mono row (n1 - 2) n1 ltac:(lia)). rewrite (cum_total row n1) in M by lia. lia. Qed.
Lemma N_pos : (1 <= N)%Q.
Proof. change 1%Q with (natQ 1). apply natQ_le. exact some_value. Qed.
Lemma H_eq : (HH == N + eps)%Q. Proof. unfold H. reflexivity. Qed.
Lemma H_small : (2 * eps * HH * (mx + 3 * p) <= p)%Q.
Proof. assert (E := eps_pos). assert (E1 : (eps < 1)%Q) by reflexivity. assert (S1 := size). apply (Qle_trans _ (2 * eps * (N + 1) * (mx + 3 * p))); [|exact S1].
  apply Qmult_le_compat_r; [|lra]. apply Qmult_le_l; [lra|]. rewrite H_eq. lra. Qed.
Lemma H_small2 : (6 * eps * HH <= 1)%Q.
Proof.
  assert (S1 := H_small). assert (P := H_pos row). assert (E := eps_pos).
  assert (Z : (0 < 2 * eps * HH)%Q) by (apply Qmult_lt_0_compat; [lra|exact P]).
  assert (A : (0 < 2 * eps * HH * mx)%Q) by (apply Qmult_lt_0_compat; assumption). apply (Qmult_le_r _ _ p p_pos).
  assert (Eq : (2 * eps * HH * (mx + 3 * p) == 2 * eps * HH * mx + 6 * eps * HH * p)%Q) by ring. lra.
Qed.

(** The bin that first reaches q exists. *)
Definition reaches (q : Q) (u : nat) : Prop := u < n1 /\ ((q - eps) * HH <= natQ (cum row u))%Q /\ forall i, i < u -> (natQ (cum row i) < (q - eps) * HH)%Q.
Lemma reaches_some q : (q <= 1)%Q -> exists u, reaches q u.
Proof.
  intro Q1. assert (N3 := n_edges_3 p mx p_pos mx_pos).
  assert (T : ((q - eps) * HH <= natQ (cum row (n1 - 1)))%Q).
  { rewrite cum_total by lia. assert (E := eps_pos). assert (E1 : (eps < 1)%Q) by reflexivity. assert (P := N_pos). apply (Qle_trans _ ((1 - eps) * HH)); [|rewrite H_eq; nra]. apply Qmult_le_compat_r; [lra|]. assert (Hp := H_pos row). lra. }
  assert (G : forall k, k < n1 -> ((q - eps) * HH <= natQ (cum row k))%Q -> exists u, reaches q u).
  { induction k as [k IH] using lt_wf_ind. intros K L. destruct k as [|k].
    - exists 0. split; [exact K|]. split; [exact L|]. intros; lia.
    - destruct (Qlt_le_dec (natQ (cum row k)) ((q - eps) * HH)) as [X|X].
      + exists (S k). split; [exact K|]. split; [exact L|]. intros i I. apply (Qle_lt_trans _ (natQ (cum row k))); [|exact X]. apply natQ_le, cum_mono. lia.
      + apply (IH k); [lia|lia|exact X]. }
  apply (G (n1 - 1)); [lia|exact T].
Qed.
Lemma reaches_mono q1 q2 u1 u2 : (q1 <= q2)%Q -> reaches q1 u1 -> reaches q2 u2 -> u1 <= u2.
Proof.
  intros L (_ & _ & B1) (_ & A2 & _). destruct (Nat.le_gt_cases u1 u2) as [X|X]; [exact X|exfalso]. specialize (B1 u2 X). assert (Hp := H_pos row). nra.
Qed.

Lemma mid_value q u : reaches q u -> 0 < u -> u + 1 < n1 -> (quantile_1d q (centres p mx) row == centre p u)%Q.
Proof.
  intros (U & A & B) U0 U1. rewrite (quantile_1d_inner q row (centres p mx) u); [rewrite centres_nth by lia; reflexivity|rewrite centres_length; lia|lia|lia|exact A|exact B].
Qed.

(** The bin reaching q is the first one. *)
Lemma div_lt_H a b : (a / HH < b)%Q <-> (a < b * HH)%Q.
Proof.
  assert (P := H_pos row). split; intro L.
  - apply (Qmult_lt_r _ _ HH P) in L. unfold Qdiv in L. rewrite <- (Qmult_assoc a), (Qmult_comm (/ HH)), Qmult_inv_r, Qmult_1_r in L by lra. exact L.
  - apply Qlt_shift_div_r; assumption.
Qed.
Lemma first_value q : reaches q 0 -> (quantile_1d q (centres p mx) row <= p)%Q.
Proof.
  intros R. assert (N3 := n_edges_3 p mx p_pos mx_pos). destruct R as (U & A & B).
  unfold quantile_1d. cbv zeta. fold (H row). fold (cdf row). rewrite (upper_spec q row 0 ltac:(lia) A B). change (Nat.ltb 1 0) with false. change (Nat.ltb 0 1) with true. cbv iota. rewrite centres_length.
  assert (Lo : exists l, argmax (map (fun c => Qltb (nth 0 (cdf row) 0%Q) c) (cdf row)) = l /\ 0 < l /\ l <= n1 - 2 /\ cum row 0 < cum row l /\ forall j, j < l -> cum row j = cum row 0).
  { assert (G : forall k, k <= n1 - 2 -> cum row 0 < cum row k -> exists l, l <= n1 - 2 /\ cum row 0 < cum row l /\ forall j, j < l -> cum row j = cum row 0).
    { induction k as [k IH] using lt_wf_ind. intros K L. destruct k as [|k]; [lia|]. assert (M := cum_mono row 0 k ltac:(lia)).
      destruct (Nat.eq_dec (cum row 0) (cum row k)) as [E|E].
      - exists (S k). split; [exact K|]. split; [exact L|]. intros j J. assert (M1 := cum_mono row 0 j ltac:(lia)). assert (M2 := cum_mono row j k ltac:(lia)). lia.
      - apply (IH k); lia. }
    destruct (G (n1 - 2) (le_n _) inner) as (l & Ll & Cl & Bl). exists l. split.
    - apply argmax_unique.
      + rewrite (nth_map_gen _ _ _ 0%Q) by (rewrite cdf_length; lia). rewrite !cdf_nth by lia. apply Qltb_spec, div_lt, natQ_lt. exact Cl.
      + intros j J. rewrite (nth_map_gen _ _ _ 0%Q) by (rewrite cdf_length; lia). rewrite !cdf_nth by lia. rewrite (Bl j J). apply Qltb_false. lra.
    - split; [destruct l; [lia|lia]|]. split; [exact Ll|]. split; [exact Cl|exact Bl]. }
  destruct Lo as (l & El & L0 & Ll & Cl & Bl). rewrite El. destruct (Nat.ltb_spec (n1 - 2) l); [lia|].
  rewrite !cdf_nth by lia. rewrite !centres_nth by lia.
  assert (C1 : (centre p 1 <= (1 # 2) * p)%Q) by (apply centre_2_low; [assumption|lia]).
  destruct (Nat.eq_dec l 1) as [->|L1].
  - (* lower = upper: the centre of bin 1 *)
    rewrite Qabs_zero by ring. cbn [andb]. destruct (Qltb (Qabs' (natQ (cum row 1) / HH - q)) eps); cbn [negb]; [lra|]. apply Qle_shift_div_r; lra.
  - assert (E1 : cum row 1 = cum row 0) by (apply Bl; lia). rewrite E1.
    assert (Hp := H_pos row). assert (S2 := H_small2). assert (S1 := H_small). assert (Ep := eps_pos).
    set (a := natQ (cum row 0)) in *. set (b := natQ (cum row l)) in *.
    assert (D : (a + 1 <= b)%Q) by (unfold a, b; rewrite <- natQ_S; apply natQ_le; lia).
    assert (Dn : (a / HH - b / HH == - ((b - a) / HH))%Q) by (field; lra).
    assert (Dd : (5 * eps < (b - a) / HH)%Q) by (apply Qlt_shift_div_l; [exact Hp|nra]).
    assert (Ex : Qltb (Qabs' (b / HH - q)) eps = false).
    { apply Qltb_false. assert (Y : (2 * eps < b / HH - q)%Q).
      { assert (Z1 : (q - eps <= a / HH)%Q) by (apply div_le; exact A). assert (Z2 : (b / HH == a / HH + (b - a) / HH)%Q) by (field; lra). lra. }
      unfold Qabs'. destruct (Qltb _ 0) eqn:Z; [apply Qltb_spec in Z; lra|lra]. }
    assert (Zd : Qle_bool (Qabs' (a / HH - b / HH)) eps = false).
    { apply Qle_bool_false. unfold Qabs'. destruct (Qltb _ 0) eqn:Z; [lra|]. exfalso. assert (Y : (a / HH - b / HH < 0)%Q) by lra. apply Qltb_spec in Y. congruence. }
    assert (Zd2 : Qltb eps (Qabs' (a / HH - b / HH)) = true).
    { apply Qltb_spec. unfold Qabs'. destruct (Qltb _ 0) eqn:Z; [lra|]. exfalso. assert (Y : (a / HH - b / HH < 0)%Q) by lra. apply Qltb_spec in Y. congruence. }
    rewrite Zd, Ex, Zd2. cbn [andb]. 
    assert (Fr : ((q - b / HH) / (a / HH - b / HH) == (b - q * HH) / (b - a))%Q) by (field; split; lra).
    rewrite Fr.
    assert (Cl' : (0 <= centre p l - centre p 1)%Q) by (assert (Y := centre_le p p_pos 1 l ltac:(lia) ltac:(lia)); lra).
    assert (Cu : (centre p l - centre p 1 <= mx + 3 * p)%Q).
    { rewrite !(centre_edge p) by lia. unfold edge. assert (G := n_edges_upper p mx p_pos mx_pos). assert (Y : (natQ l <= natQ n1)%Q) by (apply natQ_le; lia). change (natQ 1) with 1%Q. nra. }
    assert (F1 : (1 - eps * HH <= (b - q * HH) / (b - a))%Q).
    { apply Qle_shift_div_l; [lra|]. assert (Y : (eps * HH <= eps * HH * (b - a))%Q) by (assert (Z : (0 < eps * HH)%Q) by (apply Qmult_lt_0_compat; assumption); nra). nra. }
    set (f := ((b - q * HH) / (b - a))%Q) in *. set (g := (centre p l - centre p 1)%Q) in *.
    assert (Eq : (centre p l + f * (centre p 1 - centre p l) == centre p 1 + (1 - f) * g)%Q) by (unfold g; ring). rewrite Eq.
    assert (Y : ((1 - f) * g <= eps * HH * g)%Q) by (apply Qmult_le_compat_r; [lra|exact Cl']).
    assert (Y2 : (eps * HH * g <= eps * HH * (mx + 3 * p))%Q) by (assert (Z : (0 < eps * HH)%Q) by (apply Qmult_lt_0_compat; assumption); nra).
    lra.
Qed.

(** The bin reaching q is the last one: interpolation towards it. *)
Lemma last_value q : (0 <= q)%Q -> reaches q (n1 - 1) ->
  let d := ((natQ (cum row (n1 - 1)) - natQ (cum row (n1 - 2))) / HH)%Q in
  (if Qle_bool d eps then quantile_1d q (centres p mx) row == (centre p (n1 - 2) + centre p (n1 - 1)) / 2
   else quantile_1d q (centres p mx) row == centre p (n1 - 2) + (q - natQ (cum row (n1 - 2)) / HH) / d * (centre p (n1 - 1) - centre p (n1 - 2)))%Q.
Proof.
  intros Q0 (U & A & B). assert (N3 := n_edges_3 p mx p_pos mx_pos). intro d.
  assert (Hp := H_pos row). assert (Ep := eps_pos).
  assert (B2 := B (n1 - 2) ltac:(lia)). assert (C : cum row (n1 - 2) < cum row (n1 - 1)) by (apply natQ_lt; lra).
  assert (Low : (natQ (cum row (n1 - 2)) / HH < q - eps)%Q) by (apply div_lt_H; exact B2).
  assert (Dp : (0 < d)%Q) by (unfold d; apply natQ_lt in C; apply Qlt_shift_div_l; lra).
  unfold quantile_1d. cbv zeta. fold (H row). fold (cdf row). rewrite (upper_spec q row (n1 - 1) ltac:(lia) A B). rewrite centres_length.
  destruct (Nat.ltb_spec 1 (n1 - 1)); [|lia]. replace (n1 - 1 - 1) with (n1 - 2) by lia.
  assert (Ls := lower_spec row (n1 - 1) ltac:(lia) ltac:(lia)). replace (n1 - 1 - 1) with (n1 - 2) in Ls by lia. rewrite (Ls C).
  destruct (Nat.ltb_spec (n1 - 2) (n1 - 1)); [|lia]. destruct (Nat.ltb_spec (n1 - 1) 1); [lia|]. rewrite Nat.ltb_irrefl.
  rewrite !cdf_nth by lia. rewrite !centres_nth by lia.
  set (a := natQ (cum row (n1 - 2))) in *. set (b := natQ (cum row (n1 - 1))) in *.
  assert (Dd : (b / HH - a / HH == d)%Q) by (unfold d; field; lra).
  assert (Ab : (Qabs' (b / HH - a / HH) == d)%Q) by (unfold Qabs'; destruct (Qltb _ 0) eqn:Z; [apply Qltb_spec in Z; lra|exact Dd]).
  assert (Ex : Qltb (Qabs' (a / HH - q)) eps = false).
  { apply Qltb_false. unfold Qabs'. destruct (Qltb _ 0) eqn:Z; [lra|]. exfalso. assert (Y : (a / HH - q < 0)%Q) by lra. apply Qltb_spec in Y. congruence. }
  rewrite Ex. cbn [negb]. rewrite andb_true_r.
  destruct (Qle_bool d eps) eqn:Z.
  - apply Qle_bool_iff in Z. assert (Y : Qle_bool (Qabs' (b / HH - a / HH)) eps = true) by (apply Qle_bool_iff; lra). rewrite Y. reflexivity.
  - assert (Y : (eps < d)%Q) by (apply Qnot_le_lt; intro W; apply Qle_bool_iff in W; congruence).
    assert (Y1 : Qle_bool (Qabs' (b / HH - a / HH)) eps = false) by (apply Qle_bool_false; lra).
    assert (Y2 : Qltb eps (Qabs' (b / HH - a / HH)) = true) by (apply Qltb_spec; lra). rewrite Y1, Y2. rewrite Dd. reflexivity.
Qed.

Theorem quantile_1d_mono q1 q2 : (0 <= q1)%Q -> (q1 <= q2)%Q -> (q2 <= 1)%Q ->
  threshold_le (at_least (lower_bound p) (Some (quantile_1d q1 (centres p mx) row))) (at_least (lower_bound p) (Some (quantile_1d q2 (centres p mx) row))).
Proof.
  intros Q0 Q12 Q1. assert (N3 := n_edges_3 p mx p_pos mx_pos).
  assert (Lb : (lower_bound p == p)%Q) by apply edge_2.
  assert (K : (quantile_1d q1 (centres p mx) row <= p \/ quantile_1d q1 (centres p mx) row <= quantile_1d q2 (centres p mx) row)%Q).
  { destruct (reaches_some q1 ltac:(lra)) as (u1 & R1). destruct (reaches_some q2 Q1) as (u2 & R2). assert (M := reaches_mono q1 q2 u1 u2 Q12 R1 R2).
    destruct (Nat.eq_dec u1 0) as [->|U1]; [left; apply first_value; exact R1|right].
    assert (L2 := proj1 R2).
    destruct (Nat.eq_dec u2 (n1 - 1)) as [->|U2].
    - assert (V2 := last_value q2 ltac:(lra) R2). cbv zeta in V2.
      assert (Cc : (centre p (n1 - 2) <= centre p (n1 - 1))%Q) by (apply (centre_le p p_pos); lia).
      destruct R2 as (_ & A2 & B2). assert (B2' := B2 (n1 - 2) ltac:(lia)). assert (Low : (natQ (cum row (n1 - 2)) / HH < q2 - eps)%Q) by (apply div_lt_H; exact B2').
      assert (Ep := eps_pos).
      destruct (Nat.eq_dec u1 (n1 - 1)) as [->|U1'].
      + assert (V1 := last_value q1 Q0 R1). cbv zeta in V1. destruct (Qle_bool _ eps) eqn:Z; [rewrite V1, V2; lra|]. rewrite V1, V2.
        set (d := ((natQ (cum row (n1 - 1)) - natQ (cum row (n1 - 2))) / HH)%Q) in *.
        assert (Dp : (0 < d)%Q) by (apply (Qlt_trans _ eps); [exact Ep|]; apply Qnot_le_lt; intro W; apply Qle_bool_iff in W; congruence).
        assert (Y : ((q1 - natQ (cum row (n1 - 2)) / HH) / d <= (q2 - natQ (cum row (n1 - 2)) / HH) / d)%Q) by (unfold Qdiv at 1 3; apply Qmult_le_compat_r; [lra|apply Qlt_le_weak, Qinv_lt_0_compat; exact Dp]).
        nra.
      + rewrite (mid_value q1 u1 R1) by (destruct R1; lia). assert (C1 : (centre p u1 <= centre p (n1 - 2))%Q) by (apply (centre_le p p_pos); destruct R1; lia).
        destruct (Qle_bool _ eps) eqn:Z; [rewrite V2; apply Qle_shift_div_l; lra|]. rewrite V2. set (d := ((natQ (cum row (n1 - 1)) - natQ (cum row (n1 - 2))) / HH)%Q) in *.
        assert (Dp : (0 < d)%Q) by (apply (Qlt_trans _ eps); [exact Ep|]; apply Qnot_le_lt; intro W; apply Qle_bool_iff in W; congruence).
        assert (Y : (0 <= (q2 - natQ (cum row (n1 - 2)) / HH) / d)%Q) by (apply Qle_shift_div_l; lra). nra.
    - rewrite (mid_value q1 u1 R1), (mid_value q2 u2 R2) by lia. apply (centre_le p p_pos); lia. }
  cbn [at_least threshold_le]. destruct (Qltb (quantile_1d q1 _ _) _) eqn:Z1, (Qltb (quantile_1d q2 _ _) _) eqn:Z2;
    repeat match goal with H : Qltb _ _ = true |- _ => apply Qltb_spec in H end.
  - lra.
  - apply Qnot_lt_le. intro X. apply Qltb_spec in X. congruence.
  - destruct K as [K|K]; lra.
  - destruct K as [K|K]; [|exact K]. apply (Qle_trans _ (lower_bound p)); [lra|]. apply Qnot_lt_le. intro X. apply Qltb_spec in X. congruence.
Qed.
End Mono.
