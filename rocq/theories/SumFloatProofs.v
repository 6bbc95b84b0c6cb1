(** Proofs about float32 sums in any order. *)
From Coq Require Import Lqa Qabs.
From Verif Require Import Base Support Instrument Overlap OverlapSpec OverlapProofs Rounding RoundingProofs SumFloat.
Open Scope Q_scope.

Fixpoint total (t : order) : Q := match t with Leaf q => q | Plus a b => total a + total b end.
Fixpoint depth (t : order) : nat := match t with Leaf _ => O | Plus a b => S (Nat.max (depth a) (depth b)) end.
Fixpoint nonneg (t : order) : Prop := match t with Leaf q => 0 <= q | Plus a b => nonneg a /\ nonneg b end.

Lemma total_nonneg t : nonneg t -> 0 <= total t.
Proof. induction t as [q|a IA b IB]; cbn; [auto|]. intros [A B]. specialize (IA A). specialize (IB B). lra. Qed.
Lemma evaluated_nonneg t : nonneg t -> 0 <= evaluated t.
Proof. destruct t as [q|a b]; cbn; [auto|]. intros _. apply rounded_nonneg. lia. Qed.
Lemma qpow_up x m n : 1 <= x -> (m <= n)%nat -> qpow x m <= qpow x n.
Proof.
  intros X L. induction L as [|n L IH]; [lra|]. cbn [qpow]. apply Qle_trans with (qpow x n); [exact IH|]. assert (P := qpow_pos x n ltac:(lra)).
  apply Qle_trans with (1 * qpow x n); [lra|]. apply Qmult_le_compat_r; lra.
Qed.
Lemma qpow_down x m n : 0 < x -> x <= 1 -> (m <= n)%nat -> qpow x n <= qpow x m.
Proof.
  intros X Y L. induction L as [|n L IH]; [lra|]. cbn [qpow]. apply Qle_trans with (qpow x n); [|exact IH]. assert (P := qpow_pos x n X).
  apply Qle_trans with (1 * qpow x n); [|lra]. apply Qmult_le_compat_r; lra.
Qed.
Lemma ulp_range : 0 < ulp32 /\ ulp32 < 1.
Proof. split; reflexivity. Qed.
(** Every order of additions of values that are not negative is this good. *)
Lemma evaluated_bounds t : nonneg t ->
  total t * qpow (1 - ulp32) (depth t) <= evaluated t /\ evaluated t <= total t * qpow (1 + ulp32) (depth t).
Proof.
  destruct ulp_range as [U1 U2].
  induction t as [q|a IA b IB]; cbn [nonneg total depth evaluated qpow]; [intros N; split; lra|]. intros [A B].
  destruct (IA A) as [A1 A2]. destruct (IB B) as [B1 B2]. assert (Ta := total_nonneg a A). assert (Tb := total_nonneg b B).
  assert (Ea := evaluated_nonneg a A). assert (Eb := evaluated_nonneg b B).
  set (d := Nat.max (depth a) (depth b)). assert (Da : (depth a <= d)%nat) by (unfold d; lia). assert (Db : (depth b <= d)%nat) by (unfold d; lia).
  assert (Ha := qpow_up (1 + ulp32) _ _ ltac:(lra) Da). assert (Hb := qpow_up (1 + ulp32) _ _ ltac:(lra) Db).
  assert (La := qpow_down (1 - ulp32) _ _ ltac:(lra) ltac:(lra) Da). assert (Lb := qpow_down (1 - ulp32) _ _ ltac:(lra) ltac:(lra) Db).
  assert (Err := rounded_error 24 (evaluated a + evaluated b) ltac:(lia) ltac:(lra)). change (pow2 (- (24))) with ulp32 in Err. apply Qabs_Qle_condition in Err. fold single in Err.
  set (s := single (evaluated a + evaluated b)) in *. set (e := evaluated a + evaluated b) in *.
  set (H := qpow (1 + ulp32) d) in *. set (L := qpow (1 - ulp32) d) in *.
  assert (E1 : e <= (total a + total b) * H).
  { unfold e. assert (X := Qmult_le_compat_r _ _ (total a) Ha Ta). assert (Y := Qmult_le_compat_r _ _ (total b) Hb Tb).
    setoid_replace ((total a + total b) * H) with (H * total a + H * total b) by ring. rewrite (Qmult_comm _ (total a)) in X. rewrite (Qmult_comm _ (total b)) in Y. lra. }
  assert (E2 : (total a + total b) * L <= e).
  { unfold e. assert (X := Qmult_le_compat_r _ _ (total a) La Ta). assert (Y := Qmult_le_compat_r _ _ (total b) Lb Tb).
    setoid_replace ((total a + total b) * L) with (L * total a + L * total b) by ring. rewrite (Qmult_comm (qpow _ (depth a)) (total a)) in X. rewrite (Qmult_comm (qpow _ (depth b)) (total b)) in Y. lra. }
  split.
  - apply Qle_trans with (e * (1 - ulp32)).
    + setoid_replace ((total a + total b) * ((1 - ulp32) * L)) with ((total a + total b) * L * (1 - ulp32)) by ring. apply Qmult_le_compat_r; [exact E2|lra].
    + lra.
  - apply Qle_trans with (e * (1 + ulp32)).
    + lra.
    + setoid_replace ((total a + total b) * ((1 + ulp32) * H)) with ((total a + total b) * H * (1 + ulp32)) by ring. apply Qmult_le_compat_r; [exact E1|lra].
Qed.

(** Whole numbers up to 2^24 are added without error, in any order. *)
Fixpoint whole (t : order) : Prop := match t with Leaf q => exists z, (0 <= z)%Z /\ q == inject_Z z | Plus a b => whole a /\ whole b end.
Lemma whole_total t : whole t -> exists z, (0 <= z)%Z /\ total t == inject_Z z.
Proof.
  induction t as [q|a IA b IB]; cbn [whole total]; [auto|]. intros [A B]. destruct (IA A) as (x & X & Ex). destruct (IB B) as (y & Y & Ey).
  exists (x + y)%Z. split; [lia|]. rewrite Ex, Ey, inject_Z_plus. reflexivity.
Qed.
Lemma whole_nonneg t : whole t -> nonneg t.
Proof. induction t as [q|a IA b IB]; cbn [whole nonneg]; [|tauto]. intros (z & Z0 & E). rewrite E. change 0 with (inject_Z 0). rewrite <- Zle_Qle. exact Z0. Qed.
Lemma small_whole z : (0 <= z <= 2 ^ 24)%Z -> single (inject_Z z) == inject_Z z.
Proof. intro B. apply rounded_fixed; [lia|]. exists z, 0%Z. split; [exact B|]. change (pow2 0) with 1. ring. Qed.
Lemma whole_exact t : whole t -> total t <= inject_Z (2 ^ 24) -> evaluated t == total t.
Proof.
  induction t as [q|a IA b IB]; cbn [whole total evaluated]; [reflexivity|]. intros [A B] S.
  assert (Ta := total_nonneg a (whole_nonneg a A)). assert (Tb := total_nonneg b (whole_nonneg b B)).
  specialize (IA A ltac:(lra)). specialize (IB B ltac:(lra)).
  destruct (whole_total (Plus a b) (conj A B)) as (z & Z0 & E). cbn [total] in E.
  assert (R : single (evaluated a + evaluated b) == single (inject_Z z)) by (apply rounded_eq; [lia|]; rewrite IA, IB; exact E).
  rewrite R, E. apply small_whole. split; [exact Z0|]. rewrite E in S. rewrite <- Zle_Qle in S. exact S.
Qed.

(** ** NumPy's order *)
Definition every (P : order -> Prop) (r : list order) : Prop := forall t, In t r -> P t.
Fixpoint totals (r : list order) : Q := match r with [] => 0 | t :: r => total t + totals r end.
Section Leaves.
Variable P : Q -> Prop.
Fixpoint leaves (t : order) : Prop := match t with Leaf q => P q | Plus a b => leaves a /\ leaves b end.

Lemma in_turn_leaves l : forall t, leaves t -> (forall q, In q l -> P q) -> leaves (in_turn t l).
Proof. induction l as [|a l IH]; intros t T H; [exact T|]. cbn [in_turn fold_left]. apply (IH (Plus t (Leaf a))); [split; [exact T|apply H; left; reflexivity]|intros q I; apply H; right; exact I]. Qed.
Lemma lane_leaves r : forall l, every leaves r -> (forall q, In q l -> P q) -> every leaves (map (fun p => Plus (fst p) (Leaf (snd p))) (combine r l)).
Proof.
  intros l R H t I. apply in_map_iff in I. destruct I as ([a q] & <- & I). split; [apply R; exact (in_combine_l _ _ _ _ I)|apply H; exact (in_combine_r _ _ _ _ I)].
Qed.
Lemma In_firstn {A} k (l : list A) x : In x (firstn k l) -> In x l.
Proof. intro I. rewrite <- (firstn_skipn k l). apply in_or_app. left. exact I. Qed.
Lemma In_skipn {A} k (l : list A) x : In x (skipn k l) -> In x l.
Proof. intro I. rewrite <- (firstn_skipn k l). apply in_or_app. right. exact I. Qed.
Lemma lanes_leaves k : forall r l, every leaves r -> (forall q, In q l -> P q) -> every leaves (fst (lanes k r l)) /\ (forall q, In q (snd (lanes k r l)) -> P q).
Proof.
  induction k as [|k IH]; intros r l R H; [split; assumption|]. cbn [lanes]. apply IH; [apply lane_leaves; [exact R|intros q I; apply H; exact (In_firstn _ _ _ I)]|intros q I; apply H; exact (In_skipn _ _ _ I)].
Qed.
Hypothesis P0 : P 0.
Lemma joined_leaves r : every leaves r -> leaves (joined_lanes r).
Proof.
  intro R. unfold joined_lanes. do 8 (destruct r as [|? r]; [exact P0|]). destruct r; [|exact P0].
  cbn [leaves]. repeat split; apply R; cbn [In]; tauto.
Qed.
Lemma block_leaves l : (forall q, In q l -> P q) -> leaves (block l).
Proof.
  intro H. unfold block. assert (A : every leaves (map Leaf (firstn 8 l))) by (intros t I; apply in_map_iff in I; destruct I as (q & <- & I); exact (H q (In_firstn _ _ _ I))).
  destruct (lanes_leaves (length l / 8 - 1) _ (skipn 8 l) A (fun q I => H q (In_skipn _ _ _ I))) as [R S]. destruct (lanes _ _ _) as [r rest]. cbn [fst snd] in *.
  apply in_turn_leaves; [apply joined_leaves; exact R|exact S].
Qed.
Lemma pairwise_leaves fuel : forall l, (forall q, In q l -> P q) -> leaves (pairwise fuel l).
Proof.
  induction fuel as [|f IH]; intros l H; cbn [pairwise]; (destruct (Nat.ltb (length l) 8); [apply in_turn_leaves; [exact P0|exact H]|]); (destruct (Nat.leb (length l) 128); [apply block_leaves; exact H|]); [exact P0|].
  split; apply IH; intros q I; apply H; [exact (In_firstn _ _ _ I)|exact (In_skipn _ _ _ I)].
Qed.
End Leaves.

Lemma in_turn_total l : forall t, total (in_turn t l) == total t + sumQ l.
Proof. induction l as [|a l IH]; intro t; cbn [sumQ]; [cbn; ring|]. change (in_turn t (a :: l)) with (in_turn (Plus t (Leaf a)) l). rewrite IH. cbn [total]. ring. Qed.
Lemma in_turn_depth l : forall t, (depth (in_turn t l) <= depth t + length l)%nat.
Proof. induction l as [|a l IH]; intro t; [cbn; lia|]. change (in_turn t (a :: l)) with (in_turn (Plus t (Leaf a)) l). specialize (IH (Plus t (Leaf a))). cbn [depth length] in *. lia. Qed.
Lemma lane_total r : forall l, length l = length r -> totals (map (fun p => Plus (fst p) (Leaf (snd p))) (combine r l)) == totals r + sumQ l.
Proof. induction r as [|t r IH]; intros [|q l] L; try discriminate; cbn [combine map totals sumQ fst snd total]; [ring|]. rewrite IH by (cbn in L; lia). ring. Qed.
Lemma lanes_total k : forall r l, length r = 8%nat -> (8 * k <= length l)%nat ->
  length (fst (lanes k r l)) = 8%nat /\ (length (snd (lanes k r l)) = length l - 8 * k)%nat /\ totals (fst (lanes k r l)) + sumQ (snd (lanes k r l)) == totals r + sumQ l.
Proof.
  induction k as [|k IH]; intros r l R L; cbn [lanes].
  - cbn [fst snd]. split; [exact R|]. split; [lia|reflexivity].
  - assert (F : length (firstn 8 l) = 8%nat) by (apply firstn_length_le; lia).
    destruct (IH (map (fun p => Plus (fst p) (Leaf (snd p))) (combine r (firstn 8 l))) (skipn 8 l)) as (A & B & C).
    + rewrite map_length, combine_length, R, F. reflexivity.
    + rewrite skipn_length. lia.
    + split; [exact A|]. split; [rewrite B, skipn_length; lia|]. rewrite C, lane_total by lia.
      assert (E : sumQ l == sumQ (firstn 8 l) + sumQ (skipn 8 l)) by (rewrite <- sumQ_app, firstn_skipn; reflexivity). rewrite E. ring.
Qed.
Lemma lanes_depth k d : forall r l, every (fun t => (depth t <= d)%nat) r -> every (fun t => (depth t <= d + k)%nat) (fst (lanes k r l)).
Proof.
  revert d. induction k as [|k IH]; intros d r l R; cbn [lanes]; [intros t I; specialize (R t I); cbn in *; lia|].
  intros t I. apply (IH (S d)) in I; [lia|]. intros u J. apply in_map_iff in J. destruct J as ([a q] & <- & J). apply in_combine_l in J. specialize (R a J). cbn [fst snd depth] in *. lia.
Qed.
Lemma joined_total r : length r = 8%nat -> total (joined_lanes r) == totals r.
Proof. intro L. do 8 (destruct r as [|? r]; [discriminate|]). destruct r; [|discriminate]. cbn [joined_lanes total totals]. ring. Qed.
Lemma joined_depth r d : every (fun t => (depth t <= d)%nat) r -> (depth (joined_lanes r) <= d + 3)%nat.
Proof.
  intro H. unfold joined_lanes.
  destruct r as [|t0 [|t1 [|t2 [|t3 [|t4 [|t5 [|t6 [|t7 [|]]]]]]]]]; try (cbn; lia). cbn [depth].
  assert (H0 := H t0 ltac:(cbn [In]; tauto)). assert (H1 := H t1 ltac:(cbn [In]; tauto)). assert (H2 := H t2 ltac:(cbn [In]; tauto)). assert (H3 := H t3 ltac:(cbn [In]; tauto)).
  assert (H4 := H t4 ltac:(cbn [In]; tauto)). assert (H5 := H t5 ltac:(cbn [In]; tauto)). assert (H6 := H t6 ltac:(cbn [In]; tauto)). assert (H7 := H t7 ltac:(cbn [In]; tauto)).
  cbv beta in *. lia.
Qed.
Lemma totals_leaf l : totals (map Leaf l) == sumQ l.
Proof. induction l as [|q l IH]; cbn; [reflexivity|]. rewrite IH. reflexivity. Qed.
Lemma block_good l : (8 <= length l <= 128)%nat -> total (block l) == sumQ l /\ (depth (block l) <= 25)%nat.
Proof.
  intros [L1 L2]. unfold block. set (k := (length l / 8 - 1)%nat).
  assert (D : (length l = 8 * (length l / 8) + length l mod 8)%nat) by (apply Nat.div_mod; lia). assert (M : (length l mod 8 < 8)%nat) by (apply Nat.mod_upper_bound; lia).
  generalize dependent (length l mod 8)%nat. intros m D M.
  assert (F : length (firstn 8 l) = 8%nat) by (apply firstn_length_le; lia).
  destruct (lanes_total k (map Leaf (firstn 8 l)) (skipn 8 l)) as (A & B & C); [rewrite map_length; exact F|rewrite skipn_length; unfold k; lia|].
  assert (Dp := lanes_depth k 0 (map Leaf (firstn 8 l)) (skipn 8 l)). rewrite skipn_length in B.
  destruct (lanes k _ _) as [r rest]. cbn [fst snd] in *. split.
  - rewrite in_turn_total, joined_total, C, totals_leaf by exact A. rewrite <- sumQ_app, firstn_skipn. reflexivity.
  - assert (H := in_turn_depth rest (joined_lanes r)). assert (J := joined_depth r (0 + k)). 
    specialize (J (Dp ltac:(intros t I; apply in_map_iff in I; destruct I as (q & <- & _); cbn; lia))). unfold k in *. lia.
Qed.
Lemma half_lengths n : (128 < n)%nat -> let n2 := (n / 2 - (n / 2) mod 8)%nat in (8 <= n2 /\ n2 < n /\ 2 * n2 <= n /\ n <= 2 * n2 + 15)%nat.
Proof.
  intros N n2. assert (D : (n = 2 * (n / 2) + n mod 2)%nat) by (apply Nat.div_mod; lia). assert (M : (n mod 2 < 2)%nat) by (apply Nat.mod_upper_bound; lia).
  assert (M8 : ((n / 2) mod 8 < 8)%nat) by (apply Nat.mod_upper_bound; lia). unfold n2. generalize dependent ((n / 2) mod 8)%nat. generalize dependent (n mod 2)%nat. generalize dependent (n / 2)%nat. intros. lia.
Qed.
Lemma pairwise_total fuel : forall l, (length l <= fuel + 128)%nat -> total (pairwise fuel l) == sumQ l.
Proof.
  induction fuel as [|f IH]; intros l L; cbn [pairwise]; (destruct (Nat.ltb_spec (length l) 8) as [S|S]; [rewrite in_turn_total; cbn [total]; ring|]); (destruct (Nat.leb_spec (length l) 128) as [B|B]; [apply block_good; lia|]); [lia|].
  assert (H := half_lengths _ B). cbv zeta in H. set (n2 := (length l / 2 - (length l / 2) mod 8)%nat) in *. clearbody n2. cbn [total].
  rewrite !IH by (rewrite ?skipn_length, ?firstn_length; lia). rewrite <- sumQ_app, firstn_skipn. reflexivity.
Qed.
Lemma pairwise_depth fuel : forall l (k : nat), (length l <= fuel + 128)%nat -> (Z.of_nat (length l) <= 112 * 2 ^ Z.of_nat k + 16)%Z -> (depth (pairwise fuel l) <= 25 + k)%nat.
Proof.
  induction fuel as [|f IH]; intros l k L K; cbn [pairwise]; (destruct (Nat.ltb_spec (length l) 8) as [S|S]; [assert (H := in_turn_depth l (Leaf 0)); cbn [depth] in H; lia|]);
    (destruct (Nat.leb_spec (length l) 128) as [B|B]; [assert (H := proj2 (block_good l ltac:(lia))); lia|]); [lia|].
  destruct k as [|k]; [cbn in K; lia|]. rewrite Nat2Z.inj_succ, Z.pow_succ_r in K by lia.
  assert (H := half_lengths _ B). cbv zeta in H. set (n2 := (length l / 2 - (length l / 2) mod 8)%nat) in *. clearbody n2. cbn [depth].
  assert (A1 := IH (firstn n2 l) k). assert (A2 := IH (skipn n2 l) k). rewrite firstn_length in A1. rewrite skipn_length in A2.
  specialize (A1 ltac:(lia) ltac:(lia)). specialize (A2 ltac:(lia) ltac:(lia)). lia.
Qed.
