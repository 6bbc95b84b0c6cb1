(** The area percentile in doubles. *)
From Coq Require Import Qround Lqa Qabs Sorted.
From Verif Require Import Base Filter FilterProofs FilterMoreProofs Overlap Support Instrument InstrumentProofs Rounding RoundingProofs.
Open Scope nat_scope.

(** Numbers with at most 53 binary digits are exact. *)
Lemma exact64 x m j : (0 <= m <= 2 ^ 53)%Z -> (x == inject_Z m * pow2 (- j))%Q -> (float64 x == x)%Q.
Proof. intros M E. apply rounded_fixed; [lia|]. exists m, (- j)%Z. split; assumption. Qed.
Lemma float64_eq x y : (x == y)%Q -> (float64 x == float64 y)%Q.
Proof. intro E. apply rounded_eq; [lia|exact E]. Qed.
Lemma float64_le x y : (x <= y)%Q -> (float64 x <= float64 y)%Q.
Proof. intro E. apply rounded_mono; [lia|exact E]. Qed.
Lemma float64_integer z : (0 <= z <= 2 ^ 53)%Z -> (float64 (inject_Z z) == inject_Z z)%Q.
Proof. intro Z0. apply (exact64 _ z 0 Z0). change (pow2 (- 0)) with 1%Q. ring. Qed.
Lemma float64_ge0 x : (0 <= float64 x)%Q.
Proof. apply rounded_nonneg. lia. Qed.

Definition exactly (j : Z) (x : Q) (m : Z) : Prop := (x == inject_Z m * pow2 (- j))%Q.
Lemma exactly64 j x m : (0 <= m <= 2 ^ 53)%Z -> exactly j x m -> exactly j (float64 x) m.
Proof. intros M E. unfold exactly. rewrite (exact64 x m j M E). exact E. Qed.
Lemma pow2_neg j : (0 <= j)%Z -> (pow2 (- j) * inject_Z (2 ^ j) == 1)%Q.
Proof. intro J. rewrite <- pow2_Z by exact J. rewrite <- pow2_plus. replace (- j + j)%Z with 0%Z by lia. reflexivity. Qed.
Lemma exactly_Z j z : (0 <= j)%Z -> exactly j (inject_Z z) (z * 2 ^ j).
Proof. intro J. unfold exactly. rewrite inject_Z_mult. setoid_replace (inject_Z z * inject_Z (2 ^ j) * pow2 (- j))%Q with (inject_Z z * (pow2 (- j) * inject_Z (2 ^ j)))%Q by ring. rewrite pow2_neg by exact J. ring. Qed.
Lemma exactly_eq j x y m : (x == y)%Q -> exactly j x m -> exactly j y m.
Proof. unfold exactly. intros E. rewrite E. auto. Qed.
Lemma exactly_plus j x y m k : exactly j x m -> exactly j y k -> exactly j (x + y) (m + k).
Proof. unfold exactly. intros -> ->. rewrite inject_Z_plus. ring. Qed.
Lemma exactly_minus j x y m k : exactly j x m -> exactly j y k -> exactly j (x - y) (m - k).
Proof. unfold exactly. intros -> ->. unfold Zminus. rewrite inject_Z_plus, inject_Z_opp. ring. Qed.
Lemma exactly_times j z x m : exactly j x m -> exactly j (inject_Z z * x) (z * m).
Proof. unfold exactly. intros ->. rewrite inject_Z_mult. ring. Qed.
Lemma exactly_floor j x m : (0 <= j)%Z -> exactly j x m -> Qfloor x = (m / 2 ^ j)%Z.
Proof.
  intros J E. assert (P : (0 < 2 ^ j)%Z) by (apply Z.pow_pos_nonneg; lia).
  assert (D := Z.div_mod m (2 ^ j) ltac:(lia)). assert (B := Z.mod_pos_bound m (2 ^ j) P).
  assert (Px := pow2_pos (- j)). assert (N := pow2_neg j J).
  assert (Q1 : (inject_Z (m / 2 ^ j) <= x)%Q).
  { unfold exactly in E. rewrite E. rewrite D at 2. rewrite inject_Z_plus, inject_Z_mult.
    assert (0 <= inject_Z (m mod 2 ^ j))%Q by (change 0%Q with (inject_Z 0); rewrite <- Zle_Qle; lia).
    setoid_replace ((inject_Z (2 ^ j) * inject_Z (m / 2 ^ j) + inject_Z (m mod 2 ^ j)) * pow2 (- j))%Q with (inject_Z (m / 2 ^ j) * (pow2 (- j) * inject_Z (2 ^ j)) + inject_Z (m mod 2 ^ j) * pow2 (- j))%Q by ring.
    rewrite N. assert (0 <= inject_Z (m mod 2 ^ j) * pow2 (- j))%Q by (apply Qmult_le_0_compat; lra). lra. }
  assert (Q2 : (x < inject_Z (m / 2 ^ j + 1))%Q).
  { unfold exactly in E. rewrite E. rewrite D at 1. rewrite !inject_Z_plus, inject_Z_mult. change (inject_Z 1) with 1%Q.
    assert (inject_Z (m mod 2 ^ j) < inject_Z (2 ^ j))%Q by (rewrite <- Zlt_Qlt; lia).
    setoid_replace ((inject_Z (2 ^ j) * inject_Z (m / 2 ^ j) + inject_Z (m mod 2 ^ j)) * pow2 (- j))%Q with (inject_Z (m / 2 ^ j) * (pow2 (- j) * inject_Z (2 ^ j)) + inject_Z (m mod 2 ^ j) * pow2 (- j))%Q by ring.
    rewrite N. assert (inject_Z (m mod 2 ^ j) * pow2 (- j) < inject_Z (2 ^ j) * pow2 (- j))%Q by (apply Qmult_lt_compat_r; assumption).
    rewrite (Qmult_comm (inject_Z (2 ^ j))), N in H0. lra. }
  assert (F1 := Qfloor_resp_le _ _ Q1). rewrite Qfloor_Z in F1. assert (F2 := Qfloor_le x).
  assert (Qfloor x < m / 2 ^ j + 1)%Z; [|lia]. rewrite Zlt_Qlt. eapply Qle_lt_trans; [exact F2|exact Q2].
Qed.

Lemma sorted_nth s i j : StronglySorted le s -> i <= j -> j < length s -> nth i s 0 <= nth j s 0.
Proof.
  intros S. revert i j. induction S as [|x s S IH F]; intros i j L K; [cbn in K; lia|]. destruct i as [|i], j as [|j]; cbn in *; try lia.
  - rewrite Forall_forall in F. apply F, nth_In. lia.
  - apply IH; lia.
Qed.
Lemma sort_length l : length (sort_nat l) = length l.
Proof.
  induction l as [|x l IH]; [reflexivity|]. cbn [sort_nat fold_right length]. change (fold_right insert_nat [] l) with (sort_nat l). rewrite <- IH.
  generalize (sort_nat l). intro s. induction s as [|y s IHs]; [reflexivity|]. cbn [insert_nat]. destruct (Nat.leb x y); cbn [length]; [reflexivity|]. rewrite IHs. reflexivity.
Qed.
Lemma sort_In l x : In x (sort_nat l) -> In x l.
Proof.
  induction l as [|y l IH]; [auto|]. cbn [sort_nat fold_right]. change (fold_right insert_nat [] l) with (sort_nat l).
  assert (G : forall s, In x (insert_nat y s) -> x = y \/ In x s).
  { induction s as [|z s IHs]; cbn [insert_nat]; [intros [H|H]; [auto|destruct H]|]. destruct (Nat.leb y z); cbn [In]; intros H; intuition. }
  intro H. destruct (G _ H) as [->|H']; [left; reflexivity|right; apply IH; exact H'].
Qed.
Lemma nth_bound areas (B : Z) i : (0 <= B)%Z -> (forall a, In a areas -> (Z.of_nat a <= B)%Z) -> (0 <= Z.of_nat (nth i (sort_nat areas) 0%nat) <= B)%Z.
Proof.
  intros B0 H. split; [lia|]. destruct (nth_in_or_default i (sort_nat areas) 0) as [I|E]; [apply H, sort_In; exact I|rewrite E; exact B0].
Qed.

Lemma percentile64_dyadic (k j : Z) (areas : list nat) : (0 <= j <= 20)%Z -> (0 <= k <= 2 ^ j)%Z ->
  (Z.of_nat (length areas) <= 2 ^ 20)%Z -> (forall a, In a areas -> (Z.of_nat a <= 2 ^ 30)%Z) ->
  forall q, (q == inject_Z k * pow2 (- j))%Q -> (percentile64 q areas == percentile q areas)%Q.
Proof.
  intros J K N A q E. unfold percentile64, percentile. cbv zeta. set (s := sort_nat areas) in *.
  assert (Ls : (Z.of_nat (length s) <= 2 ^ 20)%Z) by (unfold s; rewrite sort_length; exact N).
  set (n1 := length s - 1) in *. set (J2 := (2 ^ j)%Z) in *.
  assert (J1 : (1 <= J2 <= 2 ^ 20)%Z).
  { unfold J2. split; [assert (0 < 2 ^ j)%Z by (apply Z.pow_pos_nonneg; lia); lia|apply Z.pow_le_mono_r; lia]. }
  change (2 ^ 20)%Z with 1048576%Z in *. change (2 ^ 30)%Z with 1073741824%Z in *. 
  assert (B53 : (2 ^ 53 = 9007199254740992)%Z) by reflexivity.
  assert (Q1 : exactly j (q * 100) (100 * k)).
  { apply exactly_eq with (inject_Z 100 * q)%Q; [change (inject_Z 100) with 100%Q; ring|]. apply exactly_times. exact E. }
  assert (Q2 : exactly j (float64 (q * 100) / 100) k).
  { apply exactly_eq with q; [|exact E]. rewrite (exact64 (q * 100) (100 * k) j ltac:(lia) Q1). field. }
  apply exactly64 in Q2; [|lia].
  assert (Q3 : exactly j (nat_Q n1 * float64 (float64 (q * 100) / 100)) (Z.of_nat n1 * k)) by (apply exactly_times; exact Q2).
  assert (Pb : (0 <= Z.of_nat n1 * k <= 1048576 * 1048576)%Z) by (split; [apply Z.mul_nonneg_nonneg; lia|apply Z.mul_le_mono_nonneg; lia]).
  apply exactly64 in Q3; [|lia].
  set (pos := float64 (nat_Q n1 * float64 (float64 (q * 100) / 100))) in *. set (P := (Z.of_nat n1 * k)%Z) in *.
  assert (Ep : (q * nat_Q n1 == pos)%Q).
  { unfold exactly in Q3. rewrite Q3. unfold P. rewrite inject_Z_mult, E. unfold nat_Q. ring. }
  assert (F : Qfloor (q * nat_Q n1) = Qfloor pos) by (rewrite Ep; reflexivity).
  rewrite F, (exactly_floor j pos P ltac:(lia) Q3). fold J2. set (fl := (P / J2)%Z) in *. rewrite Ep.
  assert (D := Z.div_mod P J2 ltac:(lia)). assert (R := Z.mod_pos_bound P J2 ltac:(lia)). fold fl in D. set (r := (P mod J2)%Z) in *.
  assert (T : exactly j (pos - inject_Z fl) r).
  { replace r with (P - fl * J2)%Z by (rewrite D at 1; ring). apply exactly_minus; [exact Q3|apply exactly_Z; lia]. }
  assert (T64 := exactly64 j _ r ltac:(lia) T). set (t := float64 (pos - inject_Z fl)) in *.
  assert (Et : (t == pos - inject_Z fl)%Q) by (unfold exactly in T, T64; rewrite T64, T; reflexivity).
  set (lo := Z.to_nat fl). set (a := nth lo s 0). set (b := nth (Nat.min (S lo) n1) s 0).
  assert (Fn : (0 <= fl)%Z) by (apply Z.div_pos; lia).
  assert (Ab : (0 <= Z.of_nat a <= 1073741824)%Z) by (apply nth_bound; [lia|exact A]).
  assert (Bb : (0 <= Z.of_nat b <= 1073741824)%Z) by (apply nth_bound; [lia|exact A]).
  assert (AB : a <= b \/ s = []).
  { destruct (Nat.eq_dec (length s) 0) as [Lz|Lz]; [right; apply length_zero_iff_nil; exact Lz|left].
    assert (Lo : lo <= n1).
    { assert (P <= Z.of_nat n1 * J2)%Z by (apply Z.mul_le_mono_nonneg_l; lia).
      assert (fl <= Z.of_nat n1)%Z by (apply Z.div_le_upper_bound; lia). unfold lo. lia. }
    apply sorted_nth; [unfold s; apply sort_nat_sorted|lia|lia]. }
  assert (AB' : a <= b).
  { destruct AB as [H|H]; [exact H|]. unfold a, b. rewrite H. destruct lo; cbn; destruct (Nat.min _ _); lia. }
  clear AB.
  assert (Dz : (nat_Q b - nat_Q a == inject_Z (Z.of_nat b - Z.of_nat a))%Q) by (unfold nat_Q, Zminus; rewrite inject_Z_plus, inject_Z_opp; reflexivity).
  set (d := (Z.of_nat b - Z.of_nat a)%Z) in *.
  assert (Dr : (0 <= d * r <= 1073741824 * 1048576)%Z) by (split; [apply Z.mul_nonneg_nonneg; lia|apply Z.mul_le_mono_nonneg; lia]).
  assert (Dr' : (0 <= d * (J2 - r) <= 1073741824 * 1048576)%Z) by (split; [apply Z.mul_nonneg_nonneg; lia|apply Z.mul_le_mono_nonneg; lia]).
  assert (AJ : (0 <= Z.of_nat a * J2 <= 1073741824 * 1048576)%Z) by (split; [apply Z.mul_nonneg_nonneg; lia|apply Z.mul_le_mono_nonneg; lia]).
  assert (Sum : (Z.of_nat b * J2 - d * (J2 - r) = Z.of_nat a * J2 + d * r)%Z) by (unfold d; ring).
  destruct (Qle_bool (1 # 2) t).
  - assert (O1 : exactly j (1 - t) (J2 - r)).
    { apply exactly_minus; [|exact T64]. replace J2 with (1 * 2 ^ j)%Z by (unfold J2; ring). apply (exactly_Z j 1). lia. }
    assert (X1 := exactly64 j _ (J2 - r)%Z ltac:(lia) O1).
    assert (X2 : exactly j ((nat_Q b - nat_Q a) * float64 (1 - t)) (d * (J2 - r))) by (eapply exactly_eq; [rewrite Dz; reflexivity|apply exactly_times; exact X1]).
    assert (X3 := exactly64 j _ (d * (J2 - r))%Z ltac:(lia) X2).
    assert (X4 : exactly j (nat_Q b - float64 ((nat_Q b - nat_Q a) * float64 (1 - t))) (Z.of_nat a * J2 + d * r)).
    { rewrite <- Sum. apply exactly_minus; [apply exactly_Z; lia|exact X3]. }
    rewrite (exact64 _ (Z.of_nat a * J2 + d * r)%Z j ltac:(lia) X4).
    rewrite (exact64 _ (d * (J2 - r))%Z j ltac:(lia) X2), (exact64 _ (J2 - r)%Z j ltac:(lia) O1), Et. ring.
  - assert (X2 : exactly j ((nat_Q b - nat_Q a) * t) (d * r)) by (eapply exactly_eq; [rewrite Dz; reflexivity|apply exactly_times; exact T64]).
    assert (X3 := exactly64 j _ (d * r)%Z ltac:(lia) X2).
    assert (X4 : exactly j (nat_Q a + float64 ((nat_Q b - nat_Q a) * t)) (Z.of_nat a * J2 + d * r)).
    { apply exactly_plus; [apply exactly_Z; lia|exact X3]. }
    rewrite (exact64 _ (Z.of_nat a * J2 + d * r)%Z j ltac:(lia) X4).
    rewrite (exact64 _ (d * r)%Z j ltac:(lia) X2), Et. reflexivity.
Qed.

(** ** Any quartile *)
Lemma float64_bounds x : (0 <= x)%Q -> (x * (1 - pow2 (- (53))) <= float64 x /\ float64 x <= x * (1 + pow2 (- (53))))%Q.
Proof.
  intro X. assert (E := rounded_error 53 x ltac:(lia) X). apply Qabs_Qle_condition in E. change (rounded 53 x) with (float64 x) in E.
  set (v := pow2 (- (53))) in *. split; lra.
Qed.
Lemma percentile64_position (q : Q) (N : nat) : (0 <= q)%Q -> (q <= 1)%Q ->
  let pos := float64 (nat_Q N * float64 (float64 (q * 100) / 100)) in
  (nat_Q N * q * (1 - (1 # 1125899906842624)) <= pos /\ pos <= nat_Q N * q * (1 + (1 # 1125899906842624)) )%Q.
Proof.
  intros Q0 Q1. cbv zeta.
  assert (N0 : (0 <= nat_Q N)%Q) by (unfold nat_Q; change 0%Q with (inject_Z 0); rewrite <- Zle_Qle; lia).
  destruct (float64_bounds (q * 100) ltac:(lra)) as [A1 A2]. set (x := float64 (q * 100)) in *.
  change (pow2 (- (53))) with (1 # 9007199254740992)%Q in *.
  assert (X0 : (0 <= x)%Q) by apply float64_ge0. assert (Xh : (x == 100 * (x / 100))%Q) by (field). assert (X1 : (0 <= x / 100)%Q) by (apply Qle_shift_div_l; [reflexivity|lra]). set (h := (x / 100)%Q) in *.
  destruct (float64_bounds h X1) as [B1 B2]. set (y := float64 h) in *. change (pow2 (- (53))) with (1 # 9007199254740992)%Q in *.
  assert (Y0 : (0 <= y)%Q) by apply float64_ge0.
  destruct (float64_bounds (nat_Q N * y) ltac:(apply Qmult_le_0_compat; assumption)) as [C1 C2]. change (pow2 (- (53))) with (1 # 9007199254740992)%Q in *.
  set (p := float64 (nat_Q N * y)) in *.
  assert (Yl : (q * (1 - (3 # 9007199254740992)) <= y)%Q) by lra.
  assert (Yh : (y <= q * (1 + (3 # 9007199254740992)))%Q) by lra.
  assert (Nl : (nat_Q N * (q * (1 - (3 # 9007199254740992))) <= nat_Q N * y)%Q) by (rewrite !(Qmult_comm (nat_Q N)); apply Qmult_le_compat_r; assumption).
  assert (Nh : (nat_Q N * y <= nat_Q N * (q * (1 + (3 # 9007199254740992))))%Q) by (rewrite !(Qmult_comm (nat_Q N)); apply Qmult_le_compat_r; assumption).
  assert (Nq : (0 <= nat_Q N * q)%Q) by (apply Qmult_le_0_compat; assumption).
  set (z := (nat_Q N * y)%Q) in *. set (g := (nat_Q N * q)%Q) in *.
  assert (Nl' : (g * (1 - (3 # 9007199254740992)) <= z)%Q) by (eapply Qle_trans; [|exact Nl]; apply Qle_lteq; right; unfold g; ring).
  assert (Nh' : (z <= g * (1 + (3 # 9007199254740992)))%Q) by (eapply Qle_trans; [exact Nh|]; apply Qle_lteq; right; unfold g; ring).
  split; lra.
Qed.

Lemma percentile64_between (q : Q) (areas : list nat) : areas <> [] -> (0 <= q)%Q -> (q <= 1)%Q ->
  (forall a, In a areas -> (Z.of_nat a <= 2 ^ 53)%Z) -> (Z.of_nat (length areas) <= 2 ^ 53)%Z ->
  let n := length areas in let s := sort_nat areas in
  exists k, k < n /\
    (nat_Q k <= nat_Q (n - 1)%nat * q * (1 + (1 # 1125899906842624)))%Q /\
    (nat_Q (n - 1)%nat * q * (1 - (1 # 1125899906842624)) < nat_Q (S k))%Q /\
    (nat_Q (nth k s 0%nat) <= percentile64 q areas)%Q /\ (percentile64 q areas <= nat_Q (nth (Nat.min (S k) (n - 1)%nat) s 0%nat))%Q.
Proof.
  intros Ne Q0 Q1 A Nl. cbv zeta. unfold percentile64. cbv zeta. rewrite sort_length. set (s := sort_nat areas) in *. set (n := length areas) in *.
  assert (Np : 0 < n) by (unfold n; destruct areas; [contradiction|cbn; lia]).
  destruct (percentile64_position q (n - 1) Q0 Q1) as [P1 P2]. cbv zeta in P1, P2.
  assert (Up : (float64 (nat_Q (n - 1) * float64 (float64 (q * 100) / 100)) <= nat_Q (n - 1))%Q).
  { assert (H1 : (float64 (q * 100) <= 100)%Q) by (apply Qle_trans with (float64 100); [apply float64_le; lra|discriminate]).
    assert (H2 : (float64 (float64 (q * 100) / 100) <= 1)%Q) by (apply Qle_trans with (float64 1); [apply float64_le; apply Qle_shift_div_r; [reflexivity|lra]|discriminate]).
    apply Qle_trans with (float64 (nat_Q (n - 1))).
    - apply float64_le. apply Qle_trans with (nat_Q (n - 1) * 1)%Q; [|lra]. rewrite !(Qmult_comm (nat_Q (n - 1))). apply Qmult_le_compat_r; [exact H2|].
      unfold nat_Q. change 0%Q with (inject_Z 0). rewrite <- Zle_Qle. lia.
    - apply Qle_lteq. right. apply float64_integer. lia. }
  set (pos := float64 (nat_Q (n - 1) * float64 (float64 (q * 100) / 100))) in *.
  assert (Pos0 : (0 <= pos)%Q) by apply float64_ge0.
  assert (Fl := Qfloor_le pos). assert (Fh := Qlt_floor pos). set (fl := Qfloor pos) in *.
  assert (Fn : (0 <= fl)%Z) by (unfold fl; change 0%Z with (Qfloor 0); apply Qfloor_resp_le; exact Pos0).
  assert (Fu : (fl <= Z.of_nat (n - 1))%Z) by (unfold fl; rewrite <- (Qfloor_Z (Z.of_nat (n - 1))); apply Qfloor_resp_le; exact Up).
  set (k := Z.to_nat fl). assert (Ek : inject_Z fl = nat_Q k) by (unfold nat_Q, k; rewrite Z2Nat.id by exact Fn; reflexivity).
  exists k. split; [unfold k; lia|].
  split; [rewrite <- Ek; lra|]. split.
  { apply Qle_lt_trans with pos; [exact P1|]. unfold nat_Q. replace (Z.of_nat (S k)) with (fl + 1)%Z by (unfold k; lia). exact Fh. }
  set (t := float64 (pos - inject_Z fl)).
  assert (T0 : (0 <= t)%Q) by apply float64_ge0.
  assert (T1 : (t <= 1)%Q). { apply Qle_trans with (float64 1); [apply float64_le; rewrite inject_Z_plus in Fh; change (inject_Z 1) with 1%Q in Fh; lra|discriminate]. }
  set (a := nth k s 0). set (b := nth (Nat.min (S k) (n - 1)) s 0).
  assert (AB : a <= b) by (apply sorted_nth; [unfold s; apply sort_nat_sorted|unfold k; lia|unfold s; rewrite sort_length; fold n; lia]).
  assert (Ab : (0 <= Z.of_nat a <= 2 ^ 53)%Z) by (apply nth_bound; [lia|exact A]).
  assert (Bb : (0 <= Z.of_nat b <= 2 ^ 53)%Z) by (apply nth_bound; [lia|exact A]).
  assert (Fa : (float64 (nat_Q a) == nat_Q a)%Q) by (apply float64_integer; exact Ab).
  assert (Fb : (float64 (nat_Q b) == nat_Q b)%Q) by (apply float64_integer; exact Bb).
  assert (Dz : (nat_Q b - nat_Q a == inject_Z (Z.of_nat b - Z.of_nat a))%Q) by (unfold nat_Q, Zminus; rewrite inject_Z_plus, inject_Z_opp; reflexivity).
  assert (Fd : (float64 (nat_Q b - nat_Q a) == nat_Q b - nat_Q a)%Q) by (rewrite (float64_eq _ _ Dz), float64_integer by lia; rewrite Dz; reflexivity).
  assert (D0 : (0 <= nat_Q b - nat_Q a)%Q) by (rewrite Dz; change 0%Q with (inject_Z 0); rewrite <- Zle_Qle; lia).
  assert (G : forall x, (0 <= x)%Q -> (x <= 1)%Q -> (0 <= float64 ((nat_Q b - nat_Q a) * x) /\ float64 ((nat_Q b - nat_Q a) * x) <= nat_Q b - nat_Q a)%Q).
  { intros x X0 X1. split; [apply float64_ge0|]. rewrite <- Fd at 2. apply float64_le. apply Qle_trans with ((nat_Q b - nat_Q a) * 1)%Q; [|lra].
    rewrite !(Qmult_comm (nat_Q b - nat_Q a)). apply Qmult_le_compat_r; assumption. }
  destruct (Qle_bool (1 # 2) t).
  - assert (O1 : (float64 (1 - t) <= 1)%Q) by (apply Qle_trans with (float64 1); [apply float64_le; lra|discriminate]).
    destruct (G (float64 (1 - t)) (float64_ge0 _) O1) as [G0 G1]. split.
    + rewrite <- Fa at 1. apply float64_le. lra.
    + rewrite <- Fb at 3. apply float64_le. lra.
  - destruct (G t T0 T1) as [G0 G1]. split.
    + rewrite <- Fa at 1. apply float64_le. lra.
    + rewrite <- Fb at 2. apply float64_le. lra.
Qed.
