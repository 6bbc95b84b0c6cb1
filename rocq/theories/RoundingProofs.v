(** Lemmas about rounding and the sums of cell areas. *)
From Coq Require Import Qround Lqa Qabs Qpower.
From Verif Require Import Base Filter Overlap OverlapSpec OverlapProofs Support Instrument InstrumentProofs Rounding.
Local Open Scope Q_scope.

Lemma pow2_nz e : ~ pow2 e == 0.
Proof. intro Z0. assert (P := pow2_pos e). rewrite Z0 in P. discriminate. Qed.
Lemma pow2_ge1 a : (0 <= a)%Z -> 1 <= pow2 a.
Proof.
  intro A. rewrite pow2_Z by exact A. change 1 with (inject_Z 1). rewrite <- Zle_Qle.
  assert (P : (0 < 2 ^ a)%Z) by (apply Z.pow_pos_nonneg; lia). lia.
Qed.
Lemma pow2_le a b : (a <= b)%Z -> pow2 a <= pow2 b.
Proof.
  intro L. replace b with (a + (b - a))%Z by lia. rewrite pow2_plus. assert (P := pow2_pos a). assert (G := pow2_ge1 (b - a) ltac:(lia)).
  apply Qle_trans with (pow2 a * 1); [lra|]. apply Qmult_le_l; assumption.
Qed.
Lemma pow2_lt_inv a b : pow2 a < pow2 b -> (a < b)%Z.
Proof. intro L. destruct (Z_lt_le_dec a b) as [H|H]; [exact H|]. apply pow2_le in H. lra. Qed.
Lemma pow2_minus a b : pow2 (a - b) == pow2 a / pow2 b.
Proof. assert (E := pow2_plus (a - b) b). replace (a - b + b)%Z with a in E by lia. rewrite E. field. apply pow2_nz. Qed.

Lemma exponent_spec p q : 0 < q -> pow2 (p - 1 + exponent p q) <= q /\ q < pow2 (p + exponent p q).
Proof.
  intro P. unfold exponent. set (e := (Z.log2 (Qnum q) - Z.log2 (Z.pos (Qden q)) - p)%Z).
  assert (B : pow2 (p - 1 + e) <= q /\ q < pow2 (p + 1 + e)).
  { destruct q as [n d]. cbn [Qnum Qden] in *. assert (N : (0 < n)%Z) by (unfold Qlt in P; cbn in P; lia).
    destruct (Z.log2_spec n N) as [N1 N2]. destruct (Z.log2_spec (Z.pos d) eq_refl) as [D1 D2].
    assert (L1 := Z.log2_nonneg n). assert (L2 := Z.log2_nonneg (Z.pos d)).
    set (a := Z.log2 n) in *. set (b := Z.log2 (Z.pos d)) in *.
    assert (E : (n # d) == inject_Z n / inject_Z (Z.pos d)) by apply Qmake_Qdiv.
    assert (Pd : 0 < inject_Z (Z.pos d)) by reflexivity.
    assert (A1 : pow2 a <= inject_Z n) by (rewrite pow2_Z by lia; rewrite <- Zle_Qle; lia).
    assert (A2 : inject_Z n < pow2 (a + 1)) by (rewrite pow2_Z by lia; rewrite <- Zlt_Qlt; lia).
    assert (B1 : pow2 b <= inject_Z (Z.pos d)) by (rewrite pow2_Z by lia; rewrite <- Zle_Qle; lia).
    assert (B2 : inject_Z (Z.pos d) < pow2 (b + 1)) by (rewrite pow2_Z by lia; rewrite <- Zlt_Qlt; lia).
    assert (Pb := pow2_pos b). assert (Pb1 := pow2_pos (b + 1)). assert (Pa := pow2_pos a). assert (Pa1 := pow2_pos (a + 1)).
    rewrite E. split.
    - replace (p - 1 + e)%Z with (a - (b + 1))%Z by (unfold e; lia). apply Qle_shift_div_l; [exact Pd|]. rewrite pow2_minus.
      apply Qle_trans with (pow2 a / pow2 (b + 1) * pow2 (b + 1)).
      + apply Qmult_le_l; [apply Qlt_shift_div_l; [exact Pb1|lra]|lra].
      + assert (F : pow2 a / pow2 (b + 1) * pow2 (b + 1) == pow2 a) by (field; apply pow2_nz). rewrite F. exact A1.
    - replace (p + 1 + e)%Z with (a + 1 - b)%Z by (unfold e; lia). apply Qlt_shift_div_r; [exact Pd|]. rewrite pow2_minus.
      apply Qlt_le_trans with (pow2 (a + 1)); [exact A2|].
      apply Qle_trans with (pow2 (a + 1) / pow2 b * pow2 b).
      + assert (F : pow2 (a + 1) / pow2 b * pow2 b == pow2 (a + 1)) by (field; apply pow2_nz). rewrite F. lra.
      + apply Qmult_le_l; [apply Qlt_shift_div_l; [exact Pb|lra]|exact B1]. }
  destruct B as [B1 B2]. assert (Pe := pow2_pos e).
  assert (S : q / pow2 e * pow2 e == q) by (field; apply pow2_nz).
  destruct (Qle_bool (pow2 p) (q / pow2 e)) eqn:C.
  - apply Qle_bool_iff in C. apply (Qmult_le_compat_r _ _ (pow2 e)) in C; [|lra]. rewrite S, <- pow2_plus in C.
    split; [replace (p - 1 + (e + 1))%Z with (p + e)%Z by lia; exact C|replace (p + (e + 1))%Z with (p + 1 + e)%Z by lia; exact B2].
  - split; [exact B1|]. destruct (Qlt_le_dec q (pow2 (p + e))) as [L|G]; [exact L|exfalso].
    assert (T : Qle_bool (pow2 p) (q / pow2 e) = true); [|congruence]. apply Qle_bool_iff. apply Qle_shift_div_l; [exact Pe|].
    rewrite <- pow2_plus. exact G.
Qed.

Lemma half_even_mono x y : x <= y -> (half_even x <= half_even y)%Z.
Proof.
  intro L. assert (F := Qfloor_resp_le x y L). unfold half_even. set (f := Qfloor x) in *. set (g := Qfloor y) in *.
  destruct (Z.eq_dec f g) as [E|E].
  - rewrite E. assert (M : x - inject_Z g <= y - inject_Z g) by lra.
    destruct (Qcompare (x - inject_Z g) (1 # 2)) eqn:Cx, (Qcompare (y - inject_Z g) (1 # 2)) eqn:Cy;
      try (destruct (Z.even g); lia); exfalso;
      first [apply Qeq_alt in Cx|apply Qlt_alt in Cx|apply Qgt_alt in Cx]; first [apply Qeq_alt in Cy|apply Qlt_alt in Cy|apply Qgt_alt in Cy]; lra.
  - destruct (Qcompare (x - inject_Z f) (1 # 2)), (Qcompare (y - inject_Z g) (1 # 2)); repeat destruct (Z.even _); lia.
Qed.
Lemma half_even_eq x y : x == y -> half_even x = half_even y.
Proof. intro E. apply Z.le_antisymm; apply half_even_mono; lra. Qed.
Lemma half_even_Z z : half_even (inject_Z z) = z.
Proof.
  unfold half_even. rewrite Qfloor_Z. assert (E : inject_Z z - inject_Z z == 0) by ring.
  destruct (Qcompare (inject_Z z - inject_Z z) (1 # 2)) eqn:C; [apply Qeq_alt in C|reflexivity|apply Qgt_alt in C]; lra.
Qed.

(** Rounding, independently of how the exponent is found. *)
Lemma rounded_spec p q : 0 < q ->
  exists e, pow2 (p - 1 + e) <= q /\ q < pow2 (p + e) /\ rounded p q == inject_Z (half_even (q / pow2 e)) * pow2 e.
Proof.
  intro P. unfold rounded. destruct (Qle_bool q 0) eqn:C; [apply Qle_bool_iff in C; lra|].
  assert (R := Qred_correct q). assert (Pr : 0 < Qred q) by (rewrite R; exact P). destruct (exponent_spec p (Qred q) Pr) as [A B].
  set (e := exponent p (Qred q)) in *. exists e. split; [rewrite <- R; exact A|]. split; [rewrite <- R; exact B|].
  rewrite (half_even_eq (Qred q / pow2 e) (q / pow2 e)) by (rewrite R; reflexivity). reflexivity.
Qed.
Lemma rounded_zero p q : q <= 0 -> rounded p q = 0.
Proof. intro L. unfold rounded. apply Qle_bool_iff in L. rewrite L. reflexivity. Qed.

(** The numbers of the format. *)
Definition representable (p : Z) (x : Q) : Prop := exists m e, (0 <= m <= 2 ^ p)%Z /\ x == inject_Z m * pow2 e.

Lemma significand p q e : (1 <= p)%Z -> pow2 (p - 1 + e) <= q -> q < pow2 (p + e) ->
  (2 ^ (p - 1) <= half_even (q / pow2 e) <= 2 ^ p)%Z.
Proof.
  intros P A B. assert (Pe := pow2_pos e). split.
  - rewrite <- (half_even_Z (2 ^ (p - 1))). apply half_even_mono. rewrite <- pow2_Z by lia. apply Qle_shift_div_l; [exact Pe|].
    rewrite <- pow2_plus. exact A.
  - rewrite <- (half_even_Z (2 ^ p)). apply half_even_mono. rewrite <- pow2_Z by lia. apply Qlt_le_weak. apply Qlt_shift_div_r; [exact Pe|].
    rewrite <- pow2_plus. exact B.
Qed.
Lemma rounded_representable p q : (1 <= p)%Z -> representable p (rounded p q).
Proof.
  intro P. destruct (Qlt_le_dec 0 q) as [L|L].
  - destruct (rounded_spec p q L) as (e & A & B & E). exists (half_even (q / pow2 e)), e. split; [|exact E].
    destruct (significand p q e P A B) as [S1 S2]. assert (G : (0 < 2 ^ (p - 1))%Z) by (apply Z.pow_pos_nonneg; lia). lia.
  - exists 0%Z, 0%Z. split; [assert (G : (0 < 2 ^ p)%Z) by (apply Z.pow_pos_nonneg; lia); lia|]. rewrite rounded_zero by exact L. reflexivity.
Qed.
Lemma rounded_mono p x y : (1 <= p)%Z -> x <= y -> rounded p x <= rounded p y.
Proof.
  intros P L. destruct (Qlt_le_dec 0 x) as [Px|Px].
  - assert (Py : 0 < y) by lra. destruct (rounded_spec p x Px) as (e & A & B & E). destruct (rounded_spec p y Py) as (f & C & D & F).
    rewrite E, F. assert (Pe := pow2_pos e). assert (Pf := pow2_pos f).
    assert (EF : (e <= f)%Z). { assert (T : (p - 1 + e < p + f)%Z) by (apply pow2_lt_inv; lra). lia. }
    destruct (Z.eq_dec e f) as [->|N].
    + apply Qmult_le_compat_r; [|lra]. rewrite <- Zle_Qle. apply half_even_mono. apply Qmult_le_compat_r; [exact L|]. apply Qinv_le_0_compat. lra.
    + destruct (significand p x e P A B) as [_ S1]. destruct (significand p y f P C D) as [S2 _].
      apply Qle_trans with (inject_Z (2 ^ p) * pow2 e); [apply Qmult_le_compat_r; [rewrite <- Zle_Qle; exact S1|lra]|].
      apply Qle_trans with (inject_Z (2 ^ (p - 1)) * pow2 f); [|apply Qmult_le_compat_r; [rewrite <- Zle_Qle; exact S2|lra]].
      rewrite <- !pow2_Z, <- !pow2_plus by lia. apply pow2_le. lia.
  - rewrite (rounded_zero p x Px). destruct (Qlt_le_dec 0 y) as [Py|Py]; [|rewrite rounded_zero by exact Py; lra].
    destruct (rounded_spec p y Py) as (f & C & D & F). rewrite F. destruct (significand p y f P C D) as [S2 _].
    assert (Pf := pow2_pos f). assert (G : (0 < 2 ^ (p - 1))%Z) by (apply Z.pow_pos_nonneg; lia).
    apply Qmult_le_0_compat; [change 0 with (inject_Z 0); rewrite <- Zle_Qle; lia|lra].
Qed.
Lemma rounded_eq p x y : (1 <= p)%Z -> x == y -> rounded p x == rounded p y.
Proof. intros P E. apply Qle_antisym; apply rounded_mono; try exact P; lra. Qed.
Lemma rounded_fixed p x : (1 <= p)%Z -> representable p x -> rounded p x == x.
Proof.
  intros P (m & e & M & E). destruct (Z.eq_dec m 0) as [->|Nm].
  { rewrite (rounded_eq p x 0 P) by (rewrite E; ring). rewrite E. change (inject_Z 0) with 0. rewrite rounded_zero by lra. ring. }
  assert (Pe := pow2_pos e). assert (Pm : 0 < inject_Z m) by (change 0 with (inject_Z 0); rewrite <- Zlt_Qlt; lia).
  assert (Px : 0 < x) by (rewrite E; apply Qmult_lt_0_compat; assumption).
  destruct (rounded_spec p x Px) as (f & A & B & F). rewrite F. clear F.
  enough (H : exists z, x / pow2 f == inject_Z z).
  { destruct H as (z & H). rewrite (half_even_eq _ _ H), half_even_Z, <- H. field. apply pow2_nz. }
  destruct (Z_le_gt_dec f e) as [L|G].
  - exists (m * 2 ^ (e - f))%Z. rewrite E, inject_Z_mult, <- pow2_Z by lia. rewrite pow2_minus. field. apply pow2_nz.
  - assert (U : inject_Z m <= pow2 p) by (rewrite pow2_Z by lia; rewrite <- Zle_Qle; lia).
    assert (X : x <= pow2 (p + e)) by (rewrite E, pow2_plus; apply Qmult_le_compat_r; [exact U|lra]).
    assert (X2 : pow2 (p + e) <= x) by (apply Qle_trans with (pow2 (p - 1 + f)); [apply pow2_le; lia|exact A]).
    assert (Ef : f = (e + 1)%Z).
    { destruct (Z.eq_dec f (e + 1)) as [H|H]; [exact H|exfalso].
      assert (T : pow2 (p + e + 1) <= pow2 (p - 1 + f)) by (apply pow2_le; lia). rewrite pow2_plus in T. change (pow2 1) with 2 in T.
      assert (Pp := pow2_pos (p + e)). lra. }
    exists (2 ^ (p - 1))%Z. assert (EX : x == pow2 (p + e)) by lra. rewrite EX, <- pow2_Z, <- pow2_minus by lia.
    replace (p + e - f)%Z with (p - 1)%Z by lia. reflexivity.
Qed.
Lemma rounded_error p q : (1 <= p)%Z -> 0 <= q -> Qabs (rounded p q - q) <= q * pow2 (- p).
Proof.
  intros P Nq. destruct (Qlt_le_dec 0 q) as [L|L].
  2:{ rewrite rounded_zero by exact L. apply Qabs_Qle_condition. assert (Z0 : q == 0) by lra. rewrite Z0. split; lra. }
  destruct (rounded_spec p q L) as (e & A & B & E). rewrite E. assert (H := half_even_close (q / pow2 e)). assert (Pe := pow2_pos e).
  set (h := inject_Z (half_even (q / pow2 e))) in *.
  assert (D : h * pow2 e - q == (h - q / pow2 e) * pow2 e) by (field; apply pow2_nz).
  rewrite D, Qabs_Qmult, (Qabs_pos (pow2 e)) by lra.
  apply Qle_trans with ((1 # 2) * pow2 e); [apply Qmult_le_compat_r; [exact H|lra]|].
  assert (F : (1 # 2) * pow2 e == pow2 (p - 1 + e) * pow2 (- p)).
  { rewrite <- pow2_plus. replace (p - 1 + e + - p)%Z with (-1 + e)%Z by lia. rewrite pow2_plus. reflexivity. }
  rewrite F. apply Qmult_le_compat_r; [exact A|]. assert (Pp := pow2_pos (- p)). lra.
Qed.
Lemma rounded_nonneg p q : (1 <= p)%Z -> 0 <= rounded p q.
Proof. intro P. destruct (Qlt_le_dec 0 q) as [L|L]; [|rewrite rounded_zero by exact L; lra]. apply Qle_trans with (rounded p 0); [rewrite rounded_zero; lra|apply rounded_mono; [exact P|lra]]. Qed.

Lemma float64_double q : float64 q = double q.
Proof. reflexivity. Qed.

(** ** Sums in float32 *)
Lemma sum32_acc_le {A} (f g : A -> bool) (h : A -> Q) l : (forall x, In x l -> f x = true -> g x = true) -> (forall x, In x l -> 0 <= h x) ->
  forall s t, representable 24 t -> s <= t ->
  fold_left (fun s a => single (s + a)) (map h (filter f l)) s <= fold_left (fun s a => single (s + a)) (map h (filter g l)) t.
Proof.
  induction l as [|x l IH]; intros FG H s t R L; [exact L|]. cbn [filter].
  assert (FG' : forall y, In y l -> f y = true -> g y = true) by (intros y I; apply FG; right; exact I).
  assert (H' : forall y, In y l -> 0 <= h y) by (intros y I; apply H; right; exact I).
  assert (Hx := H x (or_introl eq_refl)).
  destruct (f x) eqn:F.
  - rewrite (FG x (or_introl eq_refl) F). cbn [map fold_left]. apply IH; [exact FG'|exact H'|apply rounded_representable; lia|].
    apply rounded_mono; [lia|lra].
  - destruct (g x) eqn:G; [|apply IH; assumption]. cbn [map fold_left]. apply IH; [exact FG'|exact H'|apply rounded_representable; lia|].
    apply Qle_trans with t; [exact L|]. assert (E := rounded_fixed 24 t ltac:(lia) R).
    apply Qle_trans with (single t); [unfold single; rewrite E; lra|]. apply rounded_mono; [lia|lra].
Qed.
Lemma representable_zero p : (1 <= p)%Z -> representable p 0.
Proof. intro P. exists 0%Z, 0%Z. split; [assert (G : (0 < 2 ^ p)%Z) by (apply Z.pow_pos_nonneg; lia); lia|reflexivity]. Qed.
Lemma sum32_sub {A} (f g : A -> bool) (h : A -> Q) l : (forall x, In x l -> f x = true -> g x = true) -> (forall x, In x l -> 0 <= h x) ->
  sum32 (map h (filter f l)) <= sum32 (map h (filter g l)).
Proof. intros FG H. unfold sum32. apply sum32_acc_le; [exact FG|exact H|apply representable_zero; lia|lra]. Qed.

Fixpoint qpow (x : Q) (n : nat) : Q := match n with O => 1 | S k => x * qpow x k end.
Lemma qpow_pos x n : 0 < x -> 0 < qpow x n.
Proof. intro P. induction n as [|n IH]; [reflexivity|]. cbn. apply Qmult_lt_0_compat; assumption. Qed.
Definition ulp32 : Q := pow2 (- 24).
Lemma sum32_bounds l : (forall a, In a l -> 0 <= a) -> forall s, 0 <= s ->
  (s + sumQ l) * qpow (1 - ulp32) (length l) <= fold_left (fun s a => single (s + a)) l s /\
  fold_left (fun s a => single (s + a)) l s <= (s + sumQ l) * qpow (1 + ulp32) (length l).
Proof.
  induction l as [|a l IH]; intros N s S.
  - cbn. split; lra.
  - cbn [fold_left length qpow sumQ]. assert (Na := N a (or_introl eq_refl)). assert (Sa : 0 <= s + a) by lra.
    assert (Err := rounded_error 24 (s + a) ltac:(lia) Sa). change (pow2 (- (24))) with ulp32 in Err. apply Qabs_Qle_condition in Err. fold single in Err.
    assert (Nn := rounded_nonneg 24 (s + a) ltac:(lia)). fold single in Nn.
    destruct (IH (fun x I => N x (or_intror I)) (single (s + a)) Nn) as [I1 I2].
    assert (U1 : 0 < ulp32) by reflexivity. assert (U2 : ulp32 < 1) by reflexivity.
    assert (P1 := qpow_pos (1 - ulp32) (length l) ltac:(lra)). assert (P2 := qpow_pos (1 + ulp32) (length l) ltac:(lra)).
    assert (Sl : 0 <= sumQ l). { clear - N. induction l as [|b l IH]; [cbn; lra|]. cbn. assert (B := N b (or_intror (or_introl eq_refl))).
      assert (I := IH (fun x I => N x (match I with or_introl E => or_introl E | or_intror J => or_intror (or_intror J) end))). lra. }
    split.
    + apply Qle_trans with ((single (s + a) + sumQ l) * qpow (1 - ulp32) (length l)); [|exact I1].
      rewrite Qmult_assoc. apply Qmult_le_compat_r; [|lra]. unfold single in *. 
      assert (X : (s + (a + sumQ l)) * (1 - ulp32) == (s + a) - (s + a) * ulp32 + sumQ l - sumQ l * ulp32) by ring. rewrite X.
      assert (Y : 0 <= sumQ l * ulp32) by (apply Qmult_le_0_compat; lra). lra.
    + apply Qle_trans with ((single (s + a) + sumQ l) * qpow (1 + ulp32) (length l)); [exact I2|].
      rewrite Qmult_assoc. apply Qmult_le_compat_r; [|lra]. unfold single in *.
      assert (X : (s + (a + sumQ l)) * (1 + ulp32) == (s + a) + (s + a) * ulp32 + sumQ l + sumQ l * ulp32) by ring. rewrite X.
      assert (Y : 0 <= sumQ l * ulp32) by (apply Qmult_le_0_compat; lra). lra.
Qed.
Lemma qpow_low u n : 0 <= u -> u <= 1 -> 1 - inject_Z (Z.of_nat n) * u <= qpow (1 - u) n.
Proof.
  intros U V. induction n as [|n IH]; [change (inject_Z (Z.of_nat 0)) with 0; cbn [qpow]; lra|]. cbn [qpow]. rewrite Nat2Z.inj_succ, <- Z.add_1_r, inject_Z_plus. change (inject_Z 1) with 1.
  set (k := inject_Z (Z.of_nat n)) in *. assert (K : 0 <= k) by (unfold k; change 0 with (inject_Z 0); rewrite <- Zle_Qle; lia).
  apply Qle_trans with ((1 - u) * (1 - k * u)).
  - assert (E : (1 - u) * (1 - k * u) == 1 - (k + 1) * u + k * (u * u)) by ring. rewrite E.
    assert (X : 0 <= k * (u * u)) by (apply Qmult_le_0_compat; [exact K|apply Qmult_le_0_compat; exact U]). lra.
  - rewrite !(Qmult_comm (1 - u)). apply Qmult_le_compat_r; [exact IH|lra].
Qed.
Lemma qpow_high u n : 0 <= u -> 2 * inject_Z (Z.of_nat n) * u <= 1 -> qpow (1 + u) n <= 1 + 2 * inject_Z (Z.of_nat n) * u.
Proof.
  intro U. induction n as [|n IH]; intro B; [change (inject_Z (Z.of_nat 0)) with 0; cbn [qpow]; lra|]. cbn [qpow]. rewrite Nat2Z.inj_succ, <- Z.add_1_r, inject_Z_plus in *. change (inject_Z 1) with 1 in *.
  set (k := inject_Z (Z.of_nat n)) in *. assert (K : 0 <= k) by (unfold k; change 0 with (inject_Z 0); rewrite <- Zle_Qle; lia).
  assert (B' : 2 * k * u <= 1) by lra. specialize (IH B').
  apply Qle_trans with ((1 + u) * (1 + 2 * k * u)).
  - rewrite !(Qmult_comm (1 + u)). apply Qmult_le_compat_r; [exact IH|lra].
  - assert (E : (1 + u) * (1 + 2 * k * u) == 1 + 2 * k * u + u + (2 * k * u) * u) by ring. rewrite E.
    assert (X : 2 * k * u * u <= 1 * u) by (apply Qmult_le_compat_r; [exact B'|exact U]). lra.
Qed.
Lemma sum32_close l : (forall a, In a l -> 0 <= a) -> 2 * inject_Z (Z.of_nat (length l)) * ulp32 <= 1 ->
  sumQ l * (1 - inject_Z (Z.of_nat (length l)) * ulp32) <= sum32 l /\ sum32 l <= sumQ l * (1 + 2 * inject_Z (Z.of_nat (length l)) * ulp32).
Proof.
  intros N B. destruct (sum32_bounds l N 0 ltac:(lra)) as [L H]. fold (sum32 l) in L, H.
  assert (U : 0 <= ulp32) by discriminate. assert (U1 : ulp32 <= 1) by discriminate.
  assert (Q1 := qpow_low ulp32 (length l) U U1). assert (Q2 := qpow_high ulp32 (length l) U B).
  assert (Sl : 0 <= sumQ l). { clear - N. induction l as [|b l IH]; [cbn; lra|]. cbn. assert (X := N b (or_introl eq_refl)). specialize (IH (fun x I => N x (or_intror I))). lra. }
  assert (E : 0 + sumQ l == sumQ l) by ring. rewrite E in L, H. split.
  - apply Qle_trans with (sumQ l * qpow (1 - ulp32) (length l)); [|exact L]. rewrite !(Qmult_comm (sumQ l)). apply Qmult_le_compat_r; assumption.
  - apply Qle_trans with (sumQ l * qpow (1 + ulp32) (length l)); [exact H|]. rewrite !(Qmult_comm (sumQ l)). apply Qmult_le_compat_r; assumption.
Qed.
