(** Lemmas about instrumentation and double rounding. *)
From Coq Require Import String Qround Lqa Qabs Qpower.
From Verif Require Import Base Support Instrument InstrumentSpec.
Open Scope nat_scope.

Lemma only_logged_refl w : only_logged w w.
Proof. do 4 (split; [reflexivity|]). split; [lia|]. exists []. symmetry. apply app_nil_r. Qed.
Lemma only_logged_trans a b c : only_logged a b -> only_logged b c -> only_logged a c.
Proof.
  intros (A1 & A2 & A3 & A4 & A5 & (x & A6)) (B1 & B2 & B3 & B4 & B5 & (y & B6)).
  split; [congruence|]. split; [congruence|]. split; [congruence|]. split; [congruence|]. split; [lia|].
  exists (x ++ y). rewrite B6, A6. symmetry. apply app_assoc.
Qed.
Lemma logged_record e w : only_logged w (record_entry e w).
Proof. do 4 (split; [reflexivity|]). split; [apply le_n|]. exists [e]. reflexivity. Qed.
Lemma logged_clock w : only_logged w (fst (read_clock w)).
Proof. do 4 (split; [reflexivity|]). split; [cbn; lia|]. exists []. symmetry. apply app_nil_r. Qed.
Lemma logged_memory l m lev b w : only_logged w (fst (maybe_memory l m lev b w)).
Proof.
  unfold maybe_memory. destruct (_ && _); [|apply only_logged_refl]. unfold log_memory_usage.
  destruct (w_memory w); [apply only_logged_refl|apply logged_record].
Qed.
Lemma memory_ok l m lev b w : w_memory w = None \/ b = false -> exists w', maybe_memory l m lev b w = (w', Ok tt) /\ only_logged w w'.
Proof.
  intro H. assert (O := logged_memory l m lev b w). unfold maybe_memory in *. destruct (b && _) eqn:E.
  - unfold log_memory_usage in *. destruct (w_memory w) as [e|] eqn:M; [exfalso|eexists; split; [reflexivity|exact O]].
    destruct H as [H|H]; [discriminate|]. subst b. discriminate.
  - eexists. split; [reflexivity|exact O].
Qed.
Lemma logged_failing {A} l op e w : only_logged w (fst (@failing l op e w A)).
Proof. unfold failing. cbn [read_clock]. eapply only_logged_trans; [apply logged_clock|]. apply logged_record. Qed.

(** ** Double rounding *)
Local Open Scope Q_scope.

Lemma pow2_pos e : 0 < pow2 e.
Proof. unfold pow2. apply Qpower_0_lt. reflexivity. Qed.
Lemma pow2_plus a b : pow2 (a + b) == pow2 a * pow2 b.
Proof. unfold pow2. apply Qpower_plus. discriminate. Qed.
Lemma pow2_Z a : (0 <= a)%Z -> pow2 a == inject_Z (2 ^ a).
Proof. intro A. unfold pow2. destruct a as [|p|p]; [reflexivity| |lia]. rewrite Zpower_Qpower by lia. reflexivity. Qed.

Lemma half_even_close q : Qabs (inject_Z (half_even q) - q) <= 1 # 2.
Proof.
  unfold half_even. set (f := Qfloor q). assert (A := Qfloor_le q). assert (B := Qlt_floor q). fold f in A, B. rewrite inject_Z_plus in B.
  change (inject_Z 1) with 1 in B.
  destruct (Qcompare (q - inject_Z f) (1 # 2)) eqn:C.
  - apply Qeq_alt in C. apply Qabs_Qle_condition. destruct (Z.even f); [split; lra|]. rewrite inject_Z_plus. change (inject_Z 1) with 1. split; lra.
  - apply Qlt_alt in C. apply Qabs_Qle_condition. split; lra.
  - apply Qgt_alt in C. apply Qabs_Qle_condition. rewrite inject_Z_plus. change (inject_Z 1) with 1. split; lra.
Qed.

Lemma exponent_low q : 0 < q -> pow2 52 <= q / pow2 (exponent q).
Proof.
  intro P. unfold exponent. set (e := (Z.log2 (Qnum q) - Z.log2 (Z.pos (Qden q)) - 53)%Z).
  destruct (Qle_bool (pow2 53) (q / pow2 e)) eqn:C.
  - apply Qle_bool_iff in C. assert (E := pow2_plus e 1). assert (Pe := pow2_pos e).
    assert (D : q / pow2 (e + 1) == (q / pow2 e) * (1 # 2)).
    { rewrite E. change (pow2 1) with 2. field. intro Z0. rewrite Z0 in Pe. discriminate. }
    rewrite D. assert (F : pow2 53 == 2 * pow2 52) by reflexivity. rewrite F in C. clear - C. lra.
  - clear C. destruct q as [n d]. cbn [Qnum Qden] in *. assert (N : (0 < n)%Z) by (unfold Qlt in P; cbn in P; lia).
    destruct (Z.log2_spec n N) as [N1 _]. destruct (Z.log2_spec (Z.pos d) eq_refl) as [_ D2].
    assert (L1 := Z.log2_nonneg n). assert (L2 := Z.log2_nonneg (Z.pos d)).
    set (a := Z.log2 n) in *. set (b := Z.log2 (Z.pos d)) in *.
    apply Qle_shift_div_l; [apply pow2_pos|]. rewrite <- pow2_plus.
    replace (52 + e)%Z with (a + - (b + 1))%Z by (unfold e; lia). rewrite pow2_plus.
    assert (I : pow2 (- (b + 1)) == / inject_Z (2 ^ (b + 1))).
    { unfold pow2. rewrite Qpower_opp. change (2 ^ (b + 1)) with (pow2 (b + 1)) at 1. rewrite pow2_Z by lia. reflexivity. }
    rewrite I, pow2_Z by exact L1. assert (Pb : (0 < 2 ^ (b + 1))%Z) by (apply Z.pow_pos_nonneg; lia).
    assert (Pa : (0 < 2 ^ a)%Z) by (apply Z.pow_pos_nonneg; lia).
    change (inject_Z (2 ^ a) / inject_Z (2 ^ (b + 1)) <= n # d).
    apply Qle_shift_div_r; [unfold Qlt; cbn [Qnum Qden inject_Z]; lia|]. unfold Qle, Qmult, inject_Z. cbn [Qnum Qden]. rewrite Pos.mul_1_r.
    rewrite Z.mul_1_r. unfold Z.succ in D2. nia.
Qed.

Lemma double_close q : 0 < q -> Qabs (double q - q) <= q * / pow2 53.
Proof.
  intro P. unfold double. destruct (Qle_bool q 0) eqn:C; [apply Qle_bool_iff in C; lra|]. clear C.
  assert (R := Qred_correct q). set (r := Qred q) in *. assert (Pr : 0 < r) by (rewrite R; exact P). rewrite <- R. clearbody r. clear q P R.
  assert (Lo := exponent_low r Pr). set (e := exponent r) in *. assert (Pe := pow2_pos e).
  assert (Ne : ~ pow2 e == 0) by (intro Z0; rewrite Z0 in Pe; discriminate).
  set (h := inject_Z (half_even (r / pow2 e))). assert (H := half_even_close (r / pow2 e)). fold h in H.
  assert (E : h * pow2 e - r == (h - r / pow2 e) * pow2 e) by (field; exact Ne).
  rewrite E, Qabs_Qmult, (Qabs_pos (pow2 e)) by (apply Qlt_le_weak; exact Pe).
  apply Qle_trans with ((1 # 2) * pow2 e); [apply Qmult_le_compat_r; [exact H|apply Qlt_le_weak; exact Pe]|].
  assert (M : pow2 52 * pow2 e <= r).
  { apply (Qmult_le_compat_r _ _ (pow2 e)) in Lo; [|apply Qlt_le_weak; exact Pe].
    assert (F : r / pow2 e * pow2 e == r) by (field; exact Ne). rewrite F in Lo. exact Lo. }
  assert (U : / pow2 53 == (1 # 2) * / pow2 52) by reflexivity. rewrite U.
  assert (V : pow2 e == / pow2 52 * (pow2 52 * pow2 e)) by (field; discriminate).
  assert (W : 0 < / pow2 52) by reflexivity.
  apply (Qmult_le_l _ _ _ W) in M. lra.
Qed.

Lemma double_eq a b : a == b -> double a = double b.
Proof.
  intro E. unfold double. assert (R : Qred a = Qred b) by (apply Qred_complete; exact E). rewrite R.
  assert (C : Qle_bool a 0 = Qle_bool b 0).
  { destruct (Qle_bool a 0) eqn:A, (Qle_bool b 0) eqn:B; try reflexivity; exfalso.
    - apply Qle_bool_iff in A. rewrite E in A. apply Qle_bool_iff in A. congruence.
    - apply Qle_bool_iff in B. rewrite <- E in B. apply Qle_bool_iff in B. congruence. }
  rewrite C. reflexivity.
Qed.

Lemma divides_spec f q : (0 < f)%Z -> (divides f q = true <-> exists k, q == inject_Z (k * f)).
Proof.
  intro F. assert (Nf : ~ inject_Z f == 0) by (intro Z0; unfold Qeq in Z0; cbn in Z0; lia).
  unfold divides. rewrite Qeq_bool_iff. split.
  - intro E. exists (Qfloor (q / inject_Z f)). rewrite inject_Z_mult, <- E. field. exact Nf.
  - intros (k & K). assert (E : q / inject_Z f == inject_Z k) by (rewrite K, inject_Z_mult; field; exact Nf).
    rewrite E. rewrite Qfloor_Z. reflexivity.
Qed.

(** A rounded percentage that is an integer is exact, for totals up to 2^44. *)
Lemma percentage_integer c t k : (0 <= c <= t)%Z -> (0 < t <= 2 ^ 44)%Z -> percentage c t == inject_Z k -> (100 * c = k * t)%Z.
Proof.
  intros C T E. destruct (Z.eq_dec c 0) as [->|Nc].
  { unfold percentage in E. rewrite (double_eq (inject_Z 0 / inject_Z t) 0) in E by (unfold Qdiv; apply Qmult_0_l).
    assert (Z0 : double (double 0 * 100) = 0) by reflexivity. rewrite Z0 in E. unfold Qeq in E. cbn in E. lia. }
  assert (Pt : 0 < inject_Z t) by (rewrite <- (Zlt_Qlt 0); lia). assert (Pc : 0 < inject_Z c) by (rewrite <- (Zlt_Qlt 0); lia).
  assert (Nt : ~ inject_Z t == 0) by (intro Z0; rewrite Z0 in Pt; discriminate).
  set (q := inject_Z c / inject_Z t). assert (Pq : 0 < q) by (unfold q; apply Qlt_shift_div_l; [exact Pt|lra]).
  assert (Q1 : q <= 1) by (unfold q; apply Qle_shift_div_r; [exact Pt|rewrite Qmult_1_l; rewrite <- Zle_Qle; lia]).
  assert (U : / pow2 53 == 1 # 9007199254740992) by reflexivity.
  assert (D1 := double_close q Pq). rewrite U in D1. set (p := double q) in *. apply Qabs_Qle_condition in D1.
  assert (Pp : 0 < p) by lra. assert (P100 : 0 < p * 100) by lra.
  assert (D2 := double_close (p * 100) P100). rewrite U in D2. unfold percentage in E. fold q p in E. rewrite E in D2.
  apply Qabs_Qle_condition in D2.
  assert (B : Qabs (inject_Z k - q * 100) <= 300 # 9007199254740992).
  { apply Qabs_Qle_condition. split; lra. }
  assert (M : q * inject_Z t == inject_Z c) by (unfold q; field; exact Nt).
  assert (T2 : inject_Z t <= inject_Z 17592186044416) by (rewrite <- Zle_Qle; exact (proj2 T)).
  assert (B2 : Qabs (inject_Z (k * t - 100 * c)) < 1).
  { assert (Eq : inject_Z (k * t - 100 * c) == (inject_Z k - q * 100) * inject_Z t).
    { unfold Z.sub. rewrite inject_Z_plus, inject_Z_opp, !inject_Z_mult. change (inject_Z 100) with 100. rewrite <- M. ring. }
    rewrite Eq, Qabs_Qmult, (Qabs_pos (inject_Z t)) by lra.
    apply Qle_lt_trans with ((300 # 9007199254740992) * inject_Z 17592186044416); [|reflexivity].
    apply Qle_trans with ((300 # 9007199254740992) * inject_Z t); [apply Qmult_le_compat_r; [exact B|lra]|].
    rewrite !(Qmult_comm (300 # 9007199254740992)). apply Qmult_le_compat_r; [exact T2|discriminate]. }
  apply Qabs_Qlt_condition in B2. destruct B2 as [B3 B4]. change 1 with (inject_Z 1) in B4. change (-(1)) with (inject_Z (-1)) in B3.
  rewrite <- Zlt_Qlt in B3, B4. lia.
Qed.
