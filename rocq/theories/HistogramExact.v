(** Exact quantiles, circular windows, ignored values. *)
From Coq Require Import Lqa Qround Sorted Permutation.
From Verif Require Import Base Filter FilterProofs FilterMoreProofs Overlap OverlapProofs Partition PartitionProofs Cluster ClusterProofs ClusterFinal Detect DetectProofs Climatology ClimatologySpec ClimatologyProofs Detrend DetrendProofs Histogram HistogramSpec HistogramProofs HistogramWindow HistogramGlobal.
Open Scope nat_scope.

(** ** Sorting *)
Lemma insertQ_perm x l : Permutation (x :: l) (insertQ x l).
Proof. induction l as [|y l IH]; cbn; [reflexivity|]. destruct (Qle_bool x y); [reflexivity|]. rewrite perm_swap. constructor. exact IH. Qed.
Lemma sortQ_perm l : Permutation l (sortQ l).
Proof. induction l as [|x l IH]; cbn; [constructor|]. rewrite <- insertQ_perm. constructor. exact IH. Qed.
Lemma insertQ_sorted x l : StronglySorted Qle l -> StronglySorted Qle (insertQ x l).
Proof.
  induction l as [|y l IH]; intro S; cbn; [repeat constructor|]. inversion S as [|? ? S' F]; subst. destruct (Qle_bool x y) eqn:C.
  - apply Qle_bool_iff in C. constructor; [exact S|]. constructor; [exact C|]. eapply Forall_impl; [|exact F]. cbn. intros z Z. apply (Qle_trans _ y); assumption.
  - apply Qle_bool_false in C. constructor; [apply IH; exact S'|]. rewrite Forall_forall in F. apply Forall_forall. intros z Z. apply (Permutation_in z (Permutation_sym (insertQ_perm x l))) in Z. destruct Z as [<-|Z]; [lra|apply F; exact Z].
Qed.
Lemma sortQ_sorted l : StronglySorted Qle (sortQ l).
Proof. induction l as [|x l IH]; cbn; [constructor|]. apply insertQ_sorted. exact IH. Qed.
Lemma sortedQ_nth s : StronglySorted Qle s -> forall i j, i <= j -> j < length s -> (nth i s 0 <= nth j s 0)%Q.
Proof.
  induction 1 as [|x s S IH F]; intros i j I J; [cbn in J; lia|]. destruct j as [|j]; [replace i with 0 by lia; apply Qle_refl|]. cbn in J. destruct i as [|i].
  - cbn. rewrite Forall_forall in F. apply F. apply nth_In. lia.
  - cbn. apply IH; lia.
Qed.
Lemma count_perm {A} (P : A -> bool) a b : Permutation a b -> count P a = count P b.
Proof. induction 1; cbn [count]; rewrite ?count_cons; lia. Qed.
Lemma count_suffix (P : Q -> bool) s k : (forall i, k <= i -> i < length s -> P (nth i s 0%Q) = true) -> length s - k <= count P s.
Proof.
  revert k. induction s as [|x s IH]; intros k H; [cbn; lia|]. rewrite count_cons. destruct k as [|k].
  - assert (X := H 0 ltac:(lia) ltac:(cbn; lia)). cbn in X. rewrite X. specialize (IH 0). cbn [length]. assert (length s - 0 <= count P s); [|lia]. apply IH. intros i I J. apply (H (S i)); cbn; lia.
  - assert (Y : length s - k <= count P s); [|cbn [length]; lia]. apply IH. intros i I J. apply (H (S i)); cbn; lia.
Qed.
Lemma count_bound {A} (P : A -> bool) l : count P l <= length l.
Proof. induction l as [|x l IH]; [cbn; lia|]. rewrite count_cons. cbn [length]. destruct (P x); lia. Qed.
Lemma count_prefix (P : Q -> bool) s k : (forall i, i < k -> i < length s -> P (nth i s 0%Q) = false) -> count P s <= length s - k.
Proof.
  revert k. induction s as [|x s IH]; intros k H; [cbn; lia|]. rewrite count_cons. destruct k as [|k].
  - assert (X := count_bound P s). cbn [length]. destruct (P x); lia.
  - assert (X := H 0 ltac:(lia) ltac:(cbn; lia)). cbn in X. rewrite X. cbn [length]. assert (Y : count P s <= length s - k); [|lia]. apply IH. intros i I J. apply (H (S i)); cbn; lia.
Qed.

(** ** The interpolated quantile *)
Section Quantile.
Variables (q : Q) (l : list Q).
Hypothesis (ne : l <> []) (q0 : (0 <= q)%Q) (q1 : (q <= 1)%Q).
Notation s := (sortQ l).
Definition qpos := (q * natQ (length l - 1))%Q.
Definition qlo := Z.to_nat (Qfloor qpos).
Lemma len_pos : 0 < length l.
Proof. destruct l; [congruence|cbn; lia]. Qed.
Lemma sort_len : length s = length l.
Proof. symmetry. apply Permutation_length, sortQ_perm. Qed.
Lemma nat_nonneg n : (0 <= natQ n)%Q.
Proof. change 0%Q with (natQ 0). apply natQ_le. lia. Qed.
Lemma qlo_bounds : (natQ qlo <= qpos)%Q /\ (qpos < natQ qlo + 1)%Q /\ qlo <= length l - 1 /\ (inject_Z (Qfloor qpos) == natQ qlo)%Q.
Proof.
  assert (N := nat_nonneg (length l - 1)). assert (P : (0 <= qpos)%Q) by (unfold qpos; nra). assert (F : (0 <= Qfloor qpos)%Z) by (apply (Qfloor_resp_le 0 qpos) in P; exact P).
  assert (E : (inject_Z (Qfloor qpos) == natQ qlo)%Q) by (unfold qlo, natQ; rewrite Z2Nat.id by exact F; reflexivity).
  assert (A := Qfloor_le qpos). assert (B := Qlt_floor qpos). rewrite inject_Z_plus in B. change (inject_Z 1) with 1%Q in B. rewrite E in A, B.
  split; [exact A|]. split; [exact B|]. split; [|exact E]. apply natQ_le. unfold qpos in A. nra.
Qed.
Definition qvalue := (nth qlo s 0 + (nth (Nat.min (S qlo) (length l - 1)) s 0 - nth qlo s 0) * (qpos - natQ qlo))%Q.
Lemma quantile_eq : exists v, quantile q l = Some v /\ (v == qvalue)%Q.
Proof.
  unfold quantile. destruct l as [|x r] eqn:E; [congruence|]. rewrite <- E in *. cbv zeta. fold qpos. fold qlo. eexists. split; [reflexivity|]. unfold qvalue.
  destruct qlo_bounds as (_ & _ & _ & Z). rewrite Z. reflexivity.
Qed.
Lemma qvalue_bounds : (nth qlo s 0 <= qvalue)%Q /\ (qvalue <= nth (Nat.min (S qlo) (length l - 1)) s 0)%Q /\ ((qpos == natQ qlo)%Q -> (qvalue == nth qlo s 0)%Q).
Proof.
  destruct qlo_bounds as (A & B & C & _). assert (L := len_pos).
  assert (M := sortedQ_nth s (sortQ_sorted l) qlo (Nat.min (S qlo) (length l - 1)) ltac:(lia) ltac:(rewrite sort_len; lia)). unfold qvalue.
  split; [nra|]. split; [nra|]. intro E. rewrite E. ring.
Qed.
End Quantile.

Lemma quantile_mono q q' l : (0 <= q)%Q -> (q <= q')%Q -> (q' <= 1)%Q -> threshold_le (quantile q l) (quantile q' l).
Proof.
  intros Q0 Q1 Q2. destruct l as [|x r]; [exact Logic.I|]. set (l := x :: r). assert (NE : l <> []) by discriminate.
  destruct (quantile_eq q l NE Q0 ltac:(lra)) as (v & E & V). destruct (quantile_eq q' l NE ltac:(lra) Q2) as (v' & E' & V'). rewrite E, E'. cbn [threshold_le]. rewrite V, V'.
  assert (N := nat_nonneg (length l - 1)). assert (P : (qpos q l <= qpos q' l)%Q) by (unfold qpos; nra).
  assert (L : qlo q l <= qlo q' l) by (unfold qlo; apply Qfloor_resp_le in P; lia).
  destruct (qlo_bounds q l ltac:(lra) ltac:(lra)) as (A & B & C & _). destruct (qlo_bounds q' l ltac:(lra) ltac:(lra)) as (A' & B' & C' & _).
  assert (X := len_pos l NE).
  destruct (Nat.eq_dec (qlo q l) (qlo q' l)) as [E0|D].
  - unfold qvalue. rewrite <- E0 in *. assert (M := sortedQ_nth _ (sortQ_sorted l) (qlo q l) (Nat.min (S (qlo q l)) (length l - 1)) ltac:(lia) ltac:(rewrite sort_len; lia)). nra.
  - destruct (qvalue_bounds q l NE Q0 ltac:(lra)) as (_ & U & _). destruct (qvalue_bounds q' l NE ltac:(lra) Q2) as (U' & _).
    assert (M := sortedQ_nth _ (sortQ_sorted l) (Nat.min (S (qlo q l)) (length l - 1)) (qlo q' l) ltac:(lia) ltac:(rewrite sort_len; lia)). lra.
Qed.

(** How many values reach the quantile, and how many exceed it. *)
Theorem quantile_counts q l t : (0 <= q)%Q -> (q <= 1)%Q -> quantile q l = Some t ->
  ((1 - q) * natQ (length l - 1) <= natQ (count (fun v => Qle_bool t v) l))%Q /\
  (natQ (count (fun v => negb (Qle_bool v t)) l) < (1 - q) * natQ (length l - 1) + 1)%Q.
Proof.
  intros Q0 Q1 E. assert (NE : l <> []) by (intros ->; discriminate). destruct (quantile_eq q l NE Q0 Q1) as (v & E' & V). rewrite E' in E. injection E as ->.
  destruct (qlo_bounds q l Q0 Q1) as (A & B & C & _). destruct (qvalue_bounds q l NE Q0 Q1) as (U1 & U2 & U3). assert (X := len_pos l NE). assert (SL := sort_len l).
  assert (SN := sortedQ_nth _ (sortQ_sorted l)).
  assert (Nl : (natQ (length l) == natQ (length l - 1) + 1)%Q) by (rewrite <- natQ_S; replace (S (length l - 1)) with (length l) by lia; reflexivity).
  rewrite !(count_perm _ l (sortQ l) (sortQ_perm l)).
  assert (Sub : forall a b, b <= a -> (natQ (a - b) == natQ a - natQ b)%Q).
  { intros a b L. unfold natQ. rewrite Nat2Z.inj_sub by exact L. unfold Z.sub. rewrite inject_Z_plus, inject_Z_opp. ring. }
  split.
  - destruct (Qeq_bool (qpos q l) (natQ (qlo q l))) eqn:Z.
    + apply Qeq_bool_iff in Z. assert (K : length l - qlo q l <= count (fun v => Qle_bool t v) (sortQ l)).
      { rewrite <- SL. apply count_suffix. intros i I J. apply Qle_bool_iff. specialize (SN (qlo q l) i I J). rewrite V, (U3 Z). exact SN. }
      apply natQ_le in K. rewrite Sub in K by lia. unfold qpos in *. nra.
    + assert (Z' : (natQ (qlo q l) < qpos q l)%Q). { destruct (Qlt_le_dec (natQ (qlo q l)) (qpos q l)) as [|L]; [assumption|]. exfalso. assert (qpos q l == natQ (qlo q l))%Q by lra. apply Qeq_bool_iff in H. congruence. }
      assert (K : length l - S (qlo q l) <= count (fun v => Qle_bool t v) (sortQ l)).
      { rewrite <- SL. apply count_suffix. intros i I J. apply Qle_bool_iff. rewrite SL in J. specialize (SN (Nat.min (S (qlo q l)) (length l - 1)) i ltac:(lia) ltac:(lia)). lra. }
      assert (LS : S (qlo q l) <= length l) by lia. apply natQ_le in K. rewrite (Sub _ _ LS), natQ_S in K. unfold qpos in *. nra.
  - assert (K : count (fun v => negb (Qle_bool v t)) (sortQ l) <= length l - S (qlo q l)).
    { rewrite <- SL. apply count_prefix. intros i I J. rewrite (proj2 (Qle_bool_iff _ _)); [reflexivity|]. specialize (SN i (qlo q l) ltac:(lia) ltac:(lia)). lra. }
    assert (LS : S (qlo q l) <= length l) by lia. apply natQ_le in K. rewrite (Sub _ _ LS), natQ_S in K. unfold qpos in *. nra.
Qed.

(** ** Circular windows *)
Lemma mod_shift n a b : a < n -> b < n -> (b + n - a) mod n = if Nat.leb a b then b - a else b + n - a.
Proof.
  intros A B. destruct (Nat.leb_spec a b) as [L|L]; [replace (b + n - a) with ((b - a) + 1 * n) by lia; rewrite Nat.mod_add by lia; apply Nat.mod_small; lia|apply Nat.mod_small; lia].
Qed.
(** [a] is [e] up to one turn. *)
Definition wraps (a e n : Z) : Prop := (e = a \/ e = a + n \/ e = a - n)%Z.
Lemma wraps_mod a e n : (0 <= e < n)%Z -> wraps a e n -> (a mod n)%Z = e.
Proof.
  intros E [->|[->| ->]]; [apply Z.mod_small; exact E| |].
  - symmetry. apply (Z.mod_unique _ _ (-1)); [left; exact E|ring].
  - symmetry. apply (Z.mod_unique _ _ 1); [left; exact E|ring].
Qed.
Lemma mod_wraps a n : (- n <= a < 2 * n)%Z -> exists e, (0 <= e < n)%Z /\ wraps a e n.
Proof.
  intro A. destruct (Z.ltb_spec a 0) as [L|L]; [exists (a + n)%Z; split; [lia|right; left; reflexivity]|]. destruct (Z.ltb_spec a n) as [M|M]; [exists a; split; [lia|left; reflexivity]|].
  exists (a - n)%Z. split; [lia|right; right; reflexivity].
Qed.
Lemma around_In n c h e : c < n -> 2 * h + 1 <= n -> (In e (around n c h) <-> e < n /\ circular n c h e = true).
Proof.
  intros C W. unfold around. rewrite in_map_iff. split.
  - intros (j & <- & J). apply in_seq in J. destruct (mod_wraps (Z.of_nat c - Z.of_nat h + Z.of_nat j) (Z.of_nat n) ltac:(lia)) as (z & Z1 & Z2).
    rewrite (wraps_mod _ _ _ Z1 Z2). assert (M : Z.to_nat z < n) by lia. split; [exact M|]. unfold circular. rewrite !mod_shift by assumption. rewrite orb_true_iff, !Nat.leb_le.
    assert (Zm : z = Z.of_nat (Z.to_nat z)) by lia. generalize dependent (Z.to_nat z). intros m M Zm. subst z. unfold wraps in Z2.
    destruct (Nat.leb_spec c m), (Nat.leb_spec m c); lia.
  - intros (E & H). unfold circular in H. rewrite !mod_shift in H by assumption. rewrite orb_true_iff, !Nat.leb_le in H.
    assert (K : exists j, j < 2 * h + 1 /\ wraps (Z.of_nat c - Z.of_nat h + Z.of_nat j) (Z.of_nat e) (Z.of_nat n)).
    { unfold wraps. destruct (Nat.leb_spec c e), (Nat.leb_spec e c), H as [H|H]; [exists h; lia|exists h; lia|exists (h + (e - c)); lia|exists (h - (c + n - e)); lia|exists (h + (e + n - c)); lia|exists (h - (c - e)); lia|lia|lia]. }
    destruct K as (j & J & Wj). exists j. rewrite in_seq. rewrite (wraps_mod _ (Z.of_nat e) (Z.of_nat n) ltac:(lia) Wj). lia.
Qed.
Lemma NoDup_map_inj {A B} (f : A -> B) l : (forall x y, In x l -> In y l -> f x = f y -> x = y) -> NoDup l -> NoDup (map f l).
Proof.
  intros I D. induction D as [|x l X D IH]; cbn; [constructor|]. constructor.
  - intro H. apply in_map_iff in H. destruct H as (y & E & Y). assert (y = x) by (apply I; [right; exact Y|left; reflexivity|exact E]). congruence.
  - apply IH. intros a b A' B' E. apply I; [right; exact A'|right; exact B'|exact E].
Qed.
Lemma around_NoDup n c h : c < n -> 2 * h + 1 <= n -> NoDup (around n c h).
Proof.
  intros C W. unfold around. apply NoDup_map_inj; [|apply seq_NoDup]. intros i j I J E. apply in_seq in I, J.
  assert (A := Z.mod_pos_bound (Z.of_nat c - Z.of_nat h + Z.of_nat i) (Z.of_nat n) ltac:(lia)). assert (B := Z.mod_pos_bound (Z.of_nat c - Z.of_nat h + Z.of_nat j) (Z.of_nat n) ltac:(lia)).
  assert (D1 := Z.div_mod (Z.of_nat c - Z.of_nat h + Z.of_nat i) (Z.of_nat n) ltac:(lia)). assert (D2 := Z.div_mod (Z.of_nat c - Z.of_nat h + Z.of_nat j) (Z.of_nat n) ltac:(lia)).
  set (a := ((Z.of_nat c - Z.of_nat h + Z.of_nat i) mod Z.of_nat n)%Z) in *. set (b := ((Z.of_nat c - Z.of_nat h + Z.of_nat j) mod Z.of_nat n)%Z) in *.
  set (da := ((Z.of_nat c - Z.of_nat h + Z.of_nat i) / Z.of_nat n)%Z) in *. set (db := ((Z.of_nat c - Z.of_nat h + Z.of_nat j) / Z.of_nat n)%Z) in *.
  assert (a = b) by lia. assert (X : (Z.of_nat i - Z.of_nat j = Z.of_nat n * (da - db))%Z) by lia.
  assert (da = db)%Z by nia. nia.
Qed.
Lemma around_perm n c h : c < n -> 2 * h + 1 <= n -> Permutation (around n c h) (filter (circular n c h) (seq 0 n)).
Proof.
  intros C W. apply NoDup_Permutation; [apply around_NoDup; assumption|apply NoDup_filter, seq_NoDup|]. intro e. rewrite around_In by assumption. rewrite filter_In, in_seq. intuition lia.
Qed.
Lemma sumN_perm a b : Permutation a b -> sumN a = sumN b.
Proof. induction 1; rewrite ?sumN_cons in *; try lia. Qed.
Lemma sum_around n c h f : c < n -> 2 * h + 1 <= n -> sumN (map f (around n c h)) = sumN (map f (filter (circular n c h) (seq 0 n))).
Proof. intros C W. apply sumN_perm, Permutation_map, around_perm; assumption. Qed.
