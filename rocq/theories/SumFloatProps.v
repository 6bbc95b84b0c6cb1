(** C186: the areas of events in float32. *)
From Coq Require Import Lqa Qabs.
From Verif Require Import Base Support Instrument Overlap OverlapSpec OverlapProofs Rounding RoundingProofs SumFloat SumFloatProofs.
Open Scope Q_scope.

(** The cells of an object, in order. *)
Definition own (w : list Q) (id : Z) (f : list Z) : list Q := map snd (filter (fun c => Z.eqb id (fst c)) (combine f w)).
Lemma own_total w : forall f id, length f = length w -> sumQ (own w id f) == object_area w f id.
Proof.
  unfold own, object_area. induction w as [|q w IH]; intros [|x f] id L; try discriminate; [reflexivity|]. cbn [combine filter fst length].
  rewrite totalQ_shift. cbn [nth]. rewrite (Z.eqb_sym x id). assert (E := IH f id ltac:(cbn in L; lia)). destruct (Z.eqb id x); cbn [map sumQ snd]; rewrite E; ring.
Qed.
Lemma own_in w f id q : In q (own w id f) -> In q w.
Proof. intro I. apply in_map_iff in I. destruct I as ([a b] & <- & I). apply filter_In in I. exact (in_combine_r _ _ _ _ (proj1 I)). Qed.
Lemma own_length w f id : (length (own w id f) <= length f)%nat.
Proof.
  unfold own. rewrite map_length. apply Nat.le_trans with (length (combine f w)); [|rewrite combine_length; lia].
  generalize (combine f w). intro l. induction l as [|c l IH]; cbn; [lia|]. destruct (Z.eqb id (fst c)); cbn; lia.
Qed.
Lemma own_single w : forall f id, own (map single w) id f = map single (own w id f).
Proof.
  unfold own. induction w as [|q w IH]; intros [|x f] id; try reflexivity. cbn [map combine filter fst]. destruct (Z.eqb id x); cbn [map snd]; rewrite IH; reflexivity.
Qed.
Lemma singles_close l : (forall q, In q l -> 0 <= q) -> sumQ l * (1 - ulp32) <= sumQ (map single l) /\ sumQ (map single l) <= sumQ l * (1 + ulp32).
Proof.
  induction l as [|q l IH]; intro N; cbn [map sumQ]; [split; lra|]. destruct (IH (fun x I => N x (or_intror I))) as [A B]. assert (Q0 := N q (or_introl eq_refl)).
  assert (Err := rounded_error 24 q ltac:(lia) Q0). change (pow2 (- (24))) with ulp32 in Err. apply Qabs_Qle_condition in Err. fold single in Err. split; lra.
Qed.
Lemma sumQ_nonneg l : (forall q, In q l -> 0 <= q) -> 0 <= sumQ l.
Proof. induction l as [|q l IH]; intro N; cbn; [lra|]. assert (A := N q (or_introl eq_refl)). assert (B := IH (fun x I => N x (or_intror I))). lra. Qed.
Lemma leaves_nonneg t : leaves (fun q => 0 <= q) t <-> nonneg t.
Proof. induction t as [q|a IA b IB]; cbn; [tauto|]. rewrite IA, IB. tauto. Qed.
Lemma leaves_whole t : leaves (fun q => exists z, (0 <= z)%Z /\ q == inject_Z z) t <-> whole t.
Proof. induction t as [q|a IA b IB]; cbn; [tauto|]. rewrite IA, IB. tauto. Qed.
Lemma Qabs_between x s e : s - s * e <= x -> x <= s + s * e -> Qabs (x - s) <= s * e.
Proof. intros A B. apply Qabs_Qle_condition. split; lra. Qed.

(** C186.  However the areas are added up: if none is negative and no value goes through more
    than [d] additions, the float32 sum is right up to d parts in 2^23. *)
Theorem C186_any_order (t : order) (d : nat) : leaves (fun q => 0 <= q) t -> (depth t <= d)%nat -> (Z.of_nat d <= 2 ^ 20)%Z ->
  Qabs (evaluated t - total t) <= total t * (inject_Z (2 * Z.of_nat d) * (1 # 16777216)).
Proof.
  intros N D B. apply leaves_nonneg in N. destruct (evaluated_bounds t N) as [L H]. assert (T := total_nonneg t N). destruct ulp_range as [U1 U2].
  change (1 # 16777216) with ulp32.
  assert (Dq : 0 <= inject_Z (Z.of_nat d)) by (change 0 with (inject_Z 0); rewrite <- Zle_Qle; lia).
  assert (Bq : inject_Z (Z.of_nat d) <= inject_Z (2 ^ 20)) by (rewrite <- Zle_Qle; exact B).
  assert (S2 : 2 * inject_Z (Z.of_nat d) * ulp32 <= 1).
  { apply Qle_trans with (2 * inject_Z (2 ^ 20) * ulp32); [|discriminate]. apply Qmult_le_compat_r; lra. }
  assert (Q1 := qpow_low ulp32 d ltac:(lra) ltac:(lra)). assert (Q2 := qpow_high ulp32 d ltac:(lra) S2).
  assert (M1 := qpow_down (1 - ulp32) _ _ ltac:(lra) ltac:(lra) D). assert (M2 := qpow_up (1 + ulp32) _ _ ltac:(lra) D).
  rewrite inject_Z_mult. change (inject_Z 2) with 2. set (x := inject_Z (Z.of_nat d) * ulp32) in *. assert (X0 : 0 <= x) by (apply Qmult_le_0_compat; lra).
  setoid_replace (2 * inject_Z (Z.of_nat d) * ulp32) with (2 * x) in Q2 by (unfold x; ring).
  setoid_replace (2 * inject_Z (Z.of_nat d) * ulp32) with (2 * x) by (unfold x; ring).
  assert (Tx : 0 <= total t * x) by (apply Qmult_le_0_compat; lra).
  apply Qabs_between.
  - apply Qle_trans with (total t * (1 - x)); [lra|]. apply Qle_trans with (total t * qpow (1 - ulp32) (depth t)); [|exact L].
    rewrite !(Qmult_comm (total t)). apply Qmult_le_compat_r; [lra|exact T].
  - apply Qle_trans with (total t * (1 + 2 * x)); [|lra]. apply Qle_trans with (total t * qpow (1 + ulp32) (depth t)); [exact H|].
    rewrite !(Qmult_comm (total t)). apply Qmult_le_compat_r; [lra|exact T].
Qed.
Print Assumptions C186_any_order.

(** The reported area of an event at a step: for every grid of up to 112 * 2^k cells and every
    cell areas that are not negative, right up to 2 (27 + k) parts in 2^24 (for 10^9 cells, six
    parts in a million), rounding of the given areas to float32 included. *)
Theorem C186_reported_area (w : list Q) (f : list Z) (id : Z) (k : nat) :
  length f = length w -> (forall q, In q w -> 0 <= q) -> (k <= 1000)%nat -> (Z.of_nat (length f) <= 112 * 2 ^ Z.of_nat k)%Z ->
  Qabs (event_area32 w id f - object_area w f id) <= object_area w f id * (inject_Z (2 * (27 + Z.of_nat k)) * (1 # 16777216)).
Proof.
  intros L N K B. unfold event_area32. fold (own (map single w) id f). rewrite own_single. rewrite <- (own_total w f id L).
  set (l := own w id f). assert (Nl : forall q, In q l -> 0 <= q) by (intros q I; apply N, (own_in w f id q I)).
  assert (Ll : (length (map single l) <= length f)%nat) by (rewrite map_length; apply own_length).
  assert (Ns : forall q, In q (map single l) -> 0 <= q) by (intros q I; apply in_map_iff in I; destruct I as (x & <- & _); apply rounded_nonneg; lia).
  destruct (singles_close l Nl) as [A1 A2]. assert (S0 := sumQ_nonneg l Nl). destruct ulp_range as [U1 U2].
  set (m := map single l) in *. unfold np_sum32. set (t := Plus (Leaf 0) (pairwise (length m) m)).
  assert (Nt : nonneg t) by (split; [cbn; lra|]; apply leaves_nonneg; apply pairwise_leaves; [lra|exact Ns]).
  assert (Tt : total t == sumQ m) by (cbn [t total]; rewrite pairwise_total by lia; ring).
  assert (Dt : (depth t <= 26 + k)%nat) by (cbn [t depth]; assert (H := pairwise_depth (length m) m k ltac:(lia) ltac:(lia)); lia).
  destruct (evaluated_bounds t Nt) as [E1 E2]. rewrite Tt in E1, E2.
  assert (M1 := qpow_down (1 - ulp32) _ _ ltac:(lra) ltac:(lra) Dt). assert (M2 := qpow_up (1 + ulp32) _ _ ltac:(lra) Dt).
  set (d := (26 + k)%nat) in *. assert (Ed : (Z.of_nat (S d) = 27 + Z.of_nat k)%Z) by (unfold d; lia). rewrite <- Ed.
  assert (P1 := qpow_pos (1 - ulp32) d ltac:(lra)). assert (P2 := qpow_pos (1 + ulp32) d ltac:(lra)). assert (P3 := qpow_pos (1 - ulp32) (depth t) ltac:(lra)). assert (P4 := qpow_pos (1 + ulp32) (depth t) ltac:(lra)).
  assert (Dq : 0 <= inject_Z (Z.of_nat (S d))) by (change 0 with (inject_Z 0); rewrite <- Zle_Qle; lia).
  assert (S2 : 2 * inject_Z (Z.of_nat (S d)) * ulp32 <= 1).
  { apply Qle_trans with (2 * inject_Z (2 ^ 20) * ulp32); [|discriminate]. apply Qmult_le_compat_r; [|lra]. assert (H : inject_Z (Z.of_nat (S d)) <= inject_Z (2 ^ 20)) by (rewrite <- Zle_Qle; unfold d; lia). lra. }
  assert (Q1 := qpow_low ulp32 (S d) ltac:(lra) ltac:(lra)). assert (Q2 := qpow_high ulp32 (S d) ltac:(lra) S2). cbn [qpow] in Q1, Q2.
  change (1 # 16777216) with ulp32. rewrite inject_Z_mult. change (inject_Z 2) with 2. set (y := inject_Z (Z.of_nat (S d))) in *.
  assert (Sy : 0 <= sumQ l * (y * ulp32)) by (apply Qmult_le_0_compat; [exact S0|apply Qmult_le_0_compat; lra]).
  assert (Y2 : sumQ l * (2 * y * ulp32) == 2 * (sumQ l * (y * ulp32))) by ring.
  apply Qabs_between.
  - apply Qle_trans with (sumQ l * (1 - y * ulp32)); [rewrite Y2; lra|]. apply Qle_trans with (sumQ l * ((1 - ulp32) * qpow (1 - ulp32) d)).
    + rewrite !(Qmult_comm (sumQ l)). apply Qmult_le_compat_r; assumption.
    + apply Qle_trans with (sumQ m * qpow (1 - ulp32) (depth t)); [|exact E1]. rewrite Qmult_assoc.
      apply Qle_trans with (sumQ m * qpow (1 - ulp32) d); [apply Qmult_le_compat_r; lra|]. rewrite !(Qmult_comm (sumQ m)). apply Qmult_le_compat_r; [exact M1|exact (sumQ_nonneg m Ns)].
  - apply Qle_trans with (sumQ l * (1 + 2 * y * ulp32)); [|lra]. apply Qle_trans with (sumQ l * ((1 + ulp32) * qpow (1 + ulp32) d)).
    + apply Qle_trans with (sumQ m * qpow (1 + ulp32) (depth t)); [exact E2|]. rewrite Qmult_assoc.
      apply Qle_trans with (sumQ m * qpow (1 + ulp32) d); [rewrite !(Qmult_comm (sumQ m)); apply Qmult_le_compat_r; [exact M2|exact (sumQ_nonneg m Ns)]|apply Qmult_le_compat_r; lra].
    + rewrite !(Qmult_comm (sumQ l)). apply Qmult_le_compat_r; assumption.
Qed.
Print Assumptions C186_reported_area.

(** Whole areas, in particular ones where no cell areas were given: exact up to 2^24. *)
Theorem C186_whole_areas_exact (w : list Q) (f : list Z) (id : Z) :
  length f = length w -> (forall q, In q w -> exists z, (0 <= z <= 2 ^ 24)%Z /\ q == inject_Z z) -> object_area w f id <= inject_Z (2 ^ 24) ->
  event_area32 w id f == object_area w f id.
Proof.
  intros L N B. unfold event_area32. fold (own (map single w) id f). rewrite own_single. rewrite <- (own_total w f id L) in *.
  set (l := own w id f) in *. assert (Nl : forall q, In q l -> exists z, (0 <= z <= 2 ^ 24)%Z /\ q == inject_Z z) by (intros q I; apply N, (own_in w f id q I)). clearbody l. clear N L w f id.
  assert (E : sumQ (map single l) == sumQ l).
  { clear B. induction l as [|q l IH]; [reflexivity|]. cbn [map sumQ]. rewrite IH by (intros x I; apply Nl; right; exact I). destruct (Nl q (or_introl eq_refl)) as (z & Z0 & Ez).
    assert (R : single q == single (inject_Z z)) by (apply rounded_eq; [lia|exact Ez]). rewrite R, small_whole, Ez by exact Z0. reflexivity. }
  assert (Ns : forall q, In q (map single l) -> exists z, (0 <= z)%Z /\ q == inject_Z z).
  { intros q I. apply in_map_iff in I. destruct I as (x & <- & I). destruct (Nl x I) as (z & Z0 & Ez). exists z. split; [lia|]. assert (R : single x == single (inject_Z z)) by (apply rounded_eq; [lia|exact Ez]). rewrite R. apply small_whole. exact Z0. }
  set (m := map single l) in *. unfold np_sum32. rewrite <- E in *. set (t := Plus (Leaf 0) (pairwise (length m) m)).
  assert (Tt : total t == sumQ m) by (cbn [t total]; rewrite pairwise_total by lia; ring).
  rewrite whole_exact; [exact Tt| |rewrite Tt; exact B]. split; [exists 0%Z; split; [lia|reflexivity]|]. apply leaves_whole. apply pairwise_leaves; [exists 0%Z; split; [lia|reflexivity]|exact Ns].
Qed.
Print Assumptions C186_whole_areas_exact.

(** The areas of objects on a mesh with which overlaps are compared are added one after the other.
    As claimed they would be right for every object; but beyond 2^24 equal cells nothing is added any more. *)
Theorem C186_object_areas_refuted (n : nat) : (2 ^ 24 <= Z.of_nat n)%Z ->
  let w := repeat 1 n in let f := repeat 1%Z n in
  object_area w f 1 == inject_Z (Z.of_nat n) /\ area32 w 1 f == inject_Z (2 ^ 24).
Proof.
  intros B w f. assert (O : own w 1 f = repeat 1 n) by (unfold own, w, f; clear; induction n as [|n IH]; [reflexivity|]; cbn [repeat combine filter fst]; change (1 =? 1)%Z with true; cbn [map snd]; rewrite IH; reflexivity).
  split.
  - rewrite <- own_total by (unfold w, f; rewrite !repeat_length; reflexivity). rewrite O. clear. induction n as [|n IH]; [reflexivity|]. cbn [repeat sumQ]. rewrite IH, Nat2Z.inj_succ, <- Z.add_1_l, inject_Z_plus. reflexivity.
  - unfold area32. fold (own w 1 f). rewrite O. unfold sum32.
    assert (G : forall m z s, (0 <= z <= 2 ^ 24)%Z -> s == inject_Z z -> fold_left (fun s a => single (s + a)) (repeat 1 m) s == inject_Z (Z.min (z + Z.of_nat m) (2 ^ 24))).
    { induction m as [|m IH]; intros z s Z0 E.
      - cbn [repeat fold_left]. rewrite E. f_equiv. lia.
      - cbn [repeat fold_left]. assert (R : single (s + 1) == single (inject_Z (z + 1))) by (apply rounded_eq; [lia|]; rewrite E, inject_Z_plus; reflexivity).
        destruct (Z.eq_dec z (2 ^ 24)) as [Ez|Nz].
        + rewrite (IH (2 ^ 24)%Z); [f_equiv; lia|lia|]. rewrite R, Ez. vm_compute. reflexivity.
        + rewrite (IH (z + 1)%Z); [f_equiv; lia|lia|]. rewrite R. apply small_whole. lia. }
    rewrite (G n 0%Z 0); [|lia|reflexivity]. f_equiv. lia.
Qed.
Print Assumptions C186_object_areas_refuted.

(** They are right up to 4 (n + 1) parts in 2^24 for objects of n cells, up to two million. *)
Theorem C186_object_areas_partial (w : list Q) (f : list Z) (id : Z) (n : nat) :
  length f = length w -> (forall q, In q w -> 0 <= q) -> (length (filter (Z.eqb id) f) <= n)%nat -> (Z.of_nat n <= 2 ^ 21)%Z ->
  Qabs (area32 (map single w) id f - object_area w f id) <= object_area w f id * (inject_Z (4 * (Z.of_nat n + 1)) * (1 # 16777216)).
Proof.
  intros L N Ln B. unfold area32. fold (own (map single w) id f). rewrite own_single. rewrite <- (own_total w f id L).
  assert (Lo : length (own w id f) = length (filter (Z.eqb id) f)).
  { unfold own. rewrite map_length. clear - L. revert w L. induction f as [|x f IH]; intros [|q w] L; try discriminate; [reflexivity|]. cbn [combine filter fst]. destruct (Z.eqb id x); cbn [length]; rewrite IH by (cbn in L; lia); reflexivity. }
  set (l := own w id f) in *. assert (Nl : forall q, In q l -> 0 <= q) by (intros q I; apply N, (own_in w f id q I)).
  assert (Ns : forall q, In q (map single l) -> 0 <= q) by (intros q I; apply in_map_iff in I; destruct I as (x & <- & _); apply rounded_nonneg; lia).
  destruct (singles_close l Nl) as [A1 A2]. assert (S0 := sumQ_nonneg l Nl). destruct ulp_range as [U1 U2].
  assert (Lm : (length (map single l) <= n)%nat) by (rewrite map_length, Lo; exact Ln).
  set (y := inject_Z (Z.of_nat n)). assert (Y0 : 0 <= y) by (unfold y; change 0 with (inject_Z 0); rewrite <- Zle_Qle; lia). assert (Yb : y <= inject_Z (2 ^ 21)) by (unfold y; rewrite <- Zle_Qle; exact B).
  assert (Xl : inject_Z (Z.of_nat (length (map single l))) <= y) by (unfold y; rewrite <- Zle_Qle; lia).
  assert (X0 : 0 <= inject_Z (Z.of_nat (length (map single l)))) by (change 0 with (inject_Z 0); rewrite <- Zle_Qle; lia).
  set (m := map single l) in *. set (x := inject_Z (Z.of_nat (length m))) in *.
  assert (Yu : 4 * y * ulp32 <= 1 # 2) by (apply Qle_trans with (4 * inject_Z (2 ^ 21) * ulp32); [apply Qmult_le_compat_r; lra|discriminate]).
  assert (Xu : x * ulp32 <= y * ulp32) by (apply Qmult_le_compat_r; lra).
  destruct (sum32_close m Ns) as [E1 E2]; [fold x; lra|]. fold x in E1, E2.
  change (1 # 16777216) with ulp32. setoid_replace (inject_Z (4 * (Z.of_nat n + 1)) * ulp32) with (4 * (y * ulp32) + 4 * ulp32) by (rewrite inject_Z_mult, inject_Z_plus; unfold y; change (inject_Z 4) with 4; change (inject_Z 1) with 1; ring).
  set (v := y * ulp32) in *. assert (V0 : 0 <= v) by (apply Qmult_le_0_compat; lra). assert (Vb : v <= 1 # 8) by (unfold v; lra).
  assert (Sm := sumQ_nonneg m Ns). assert (Sv : 0 <= sumQ l * v) by (apply Qmult_le_0_compat; lra). assert (Su : 0 <= sumQ l * ulp32) by (apply Qmult_le_0_compat; lra).
  assert (Svu : sumQ l * ulp32 * v <= sumQ l * ulp32 * (1 # 8)) by (rewrite !(Qmult_comm (sumQ l * ulp32)); apply Qmult_le_compat_r; assumption).
  assert (Svp : 0 <= sumQ l * ulp32 * v) by (apply Qmult_le_0_compat; lra).
  apply Qabs_between.
  - apply Qle_trans with (sumQ m * (1 - v)); [|apply Qle_trans with (sumQ m * (1 - x * ulp32)); [rewrite !(Qmult_comm (sumQ m)); apply Qmult_le_compat_r; lra|exact E1]].
    apply Qle_trans with (sumQ l * (1 - ulp32) * (1 - v)); [|apply Qmult_le_compat_r; lra].
    setoid_replace (sumQ l * (1 - ulp32) * (1 - v)) with (sumQ l - sumQ l * v - sumQ l * ulp32 + sumQ l * ulp32 * v) by ring. lra.
  - apply Qle_trans with (sumQ m * (1 + 2 * v)); [apply Qle_trans with (sumQ m * (1 + 2 * x * ulp32)); [exact E2|rewrite !(Qmult_comm (sumQ m)); apply Qmult_le_compat_r; lra]|].
    apply Qle_trans with (sumQ l * (1 + ulp32) * (1 + 2 * v)); [apply Qmult_le_compat_r; lra|].
    setoid_replace (sumQ l * (1 + ulp32) * (1 + 2 * v)) with (sumQ l + 2 * (sumQ l * v) + sumQ l * ulp32 + 2 * (sumQ l * ulp32 * v)) by ring. lra.
Qed.
Print Assumptions C186_object_areas_partial.

(** Three cells, one of another event; a third of a unit is not a float32. *)
Example C186_case :
  event_area32 [1 # 3; 1 # 3; 5] 7 [7; 7; 2]%Z == 2 * single (1 # 3) /\ ~ event_area32 [1 # 3; 1 # 3; 5] 7 [7; 7; 2]%Z == 2 # 3 /\
  object_area [1 # 3; 1 # 3; 5] [7; 7; 2]%Z 7 == 2 # 3 /\ event_area32 (repeat 3 20) 4 (repeat 4%Z 20) == 60.
Proof. split; [vm_compute; reflexivity|]. split; [vm_compute; discriminate|]. split; vm_compute; reflexivity. Qed.
