(** C164-C166: rounding, the overlap decisions and the area percentile. *)
From Coq Require Import Qround Lqa Qabs Qminmax Sorted Permutation.
From Verif Require Import Base Filter Overlap OverlapSpec OverlapProofs OverlapFraction Support Instrument InstrumentProofs Rounding RoundingSpec RoundingProofs RoundingPairs RoundingPercentile FilterMoreProofs FilterProps ConsolidateProofs ClusterPipe.
Open Scope nat_scope.

(** ** C164: on grids *)

Lemma fraction_decision (thr : Q) (n m : Z) : (thr <= 1)%Q -> (0 <= n)%Z -> (0 < m)%Z -> (m * Zpos (Qden thr) <= 2 ^ 52)%Z ->
  (float64 thr <= float64 (inject_Z n / inject_Z m) <-> thr <= inject_Z n / inject_Z m)%Q.
Proof.
  intros T N M B. assert (Pm : (0 < inject_Z m)%Q) by (change 0%Q with (inject_Z 0); rewrite <- Zlt_Qlt; exact M).
  split; [|intro H; apply rounded_mono; [lia|exact H]].
  intro H. destruct (Qlt_le_dec (inject_Z n / inject_Z m) thr) as [C|C]; [exfalso|exact C].
  assert (X0 : (0 <= inject_Z n / inject_Z m)%Q) by (apply Qle_shift_div_l; [exact Pm|]; rewrite Qmult_0_l; change 0%Q with (inject_Z 0); rewrite <- Zle_Qle; exact N).
  assert (E1 := rounded_error 53 _ ltac:(lia) X0). assert (E2 := rounded_error 53 thr ltac:(lia) ltac:(lra)).
  fold float64 in E1, E2. change (rounded 53 thr) with (float64 thr) in E2. change (rounded 53 (inject_Z n / inject_Z m)) with (float64 (inject_Z n / inject_Z m)) in E1.
  apply Qabs_Qle_condition in E1. apply Qabs_Qle_condition in E2. set (v := pow2 (- (53))) in *. assert (V : (0 < v)%Q) by reflexivity.
  set (x := (inject_Z n / inject_Z m)%Q) in *.
  assert (G : (2 * v <= thr - x)%Q).
  { destruct thr as [p q]. cbn [Qden] in B. unfold x in *. clear x E1 E2 X0 H T.
    assert (Pq : (0 < inject_Z (Zpos q))%Q) by reflexivity.
    assert (Et : (p # q == inject_Z p / inject_Z (Zpos q))%Q) by apply Qmake_Qdiv.
    rewrite Et in *.
    assert (Z1 : (n * Zpos q < p * m)%Z).
    { rewrite Zlt_Qlt, !inject_Z_mult. assert (C' := proj2 (Qmult_lt_r _ _ (inject_Z m * inject_Z (Zpos q)) ltac:(apply Qmult_lt_0_compat; assumption)) C).
      setoid_replace (inject_Z n / inject_Z m * (inject_Z m * inject_Z (Zpos q)))%Q with (inject_Z n * inject_Z (Zpos q))%Q in C' by (field; lra).
      setoid_replace (inject_Z p / inject_Z (Zpos q) * (inject_Z m * inject_Z (Zpos q)))%Q with (inject_Z p * inject_Z m)%Q in C' by (field; lra). exact C'. }
    setoid_replace (inject_Z p / inject_Z (Zpos q) - inject_Z n / inject_Z m)%Q with (inject_Z (p * m - n * Zpos q) / inject_Z (m * Zpos q))%Q.
    2:{ unfold Zminus. rewrite inject_Z_plus, inject_Z_opp, !inject_Z_mult. field. split; lra. }
    assert (Pmq : (0 < inject_Z (m * Zpos q))%Q) by (rewrite inject_Z_mult; apply Qmult_lt_0_compat; assumption).
    apply Qle_shift_div_l; [exact Pmq|].
    apply Qle_trans with (2 * v * inject_Z (2 ^ 52))%Q.
    - rewrite !(Qmult_comm (2 * v)). apply Qmult_le_compat_r; [rewrite <- Zle_Qle; exact B|lra].
    - apply Qle_trans with 1%Q; [discriminate|]. change 1%Q with (inject_Z 1). rewrite <- Zle_Qle. lia. }
  assert (W : (x * v < 1 * v)%Q) by (apply Qmult_lt_compat_r; lra). assert (W' : (thr * v <= 1 * v)%Q) by (apply Qmult_le_compat_r; lra). lra.
Qed.

(** C164.  Areas are numbers of cells and the threshold is a fraction with denominator
    q: as long as (cells of the smaller object) * q <= 2^52, comparing the rounded
    quotient with the rounded threshold keeps exactly the same pairs as comparing the
    exact numbers. *)
Theorem C164_counts_decided_exactly (thr : Q) (ps : props) (l : list row) :
  (thr <= 1)%Q ->
  (forall r, In r l -> exists n, (0 <= n)%Z /\ (r_area r == inject_Z n)%Q) ->
  (forall id p, lookup id ps = Some p ->
     exists n, (0 < n)%Z /\ (n * Zpos (Qden thr) <= 2 ^ 52)%Z /\ (p_area p == inject_Z n)%Q) ->
  enforce_threshold64 (float64 thr) ps l = enforce_threshold thr ps l.
Proof.
  intros T Rl Pl. unfold enforce_threshold64, enforce_threshold. apply filter_ext_in. intros r R.
  unfold over_threshold64, fraction64, over_threshold. destruct (lookup (r_from r) ps) as [p0|] eqn:E0; [|reflexivity].
  destruct (lookup (r_to r) ps) as [p1|] eqn:E1; [|reflexivity].
  destruct (Rl r R) as (n & N & En). destruct (Pl _ _ E0) as (m0 & M0 & B0 & A0). destruct (Pl _ _ E1) as (m1 & M1 & B1 & A1).
  assert (Em : exists m, (0 < m)%Z /\ (m * Zpos (Qden thr) <= 2 ^ 52)%Z /\ (Qminb (p_area p0) (p_area p1) == inject_Z m)%Q).
  { destruct (Qminb_cases (p_area p0) (p_area p1)) as [[E _]|[E _]]; [exists m0|exists m1]; split; auto; split; auto; rewrite E; assumption. }
  destruct Em as (m & M & B & Em).
  assert (Ex : (r_area r / Qminb (p_area p0) (p_area p1) == inject_Z n / inject_Z m)%Q) by (rewrite En, Em; reflexivity).
  assert (D := fraction_decision thr n m T N M B).
  assert (F := rounded_eq 53 _ _ ltac:(lia) Ex). fold float64 in F.
  apply eq_true_iff_eq. rewrite !Qle_bool_iff. change (rounded 53) with float64 in F. rewrite F, Ex. exact D.
Qed.
Print Assumptions C164_counts_decided_exactly.

Lemma totalQ_integer (f : nat -> Q) n : (forall k, k < n -> exists z, (0 <= z)%Z /\ (f k == inject_Z z)%Q) -> exists z, (0 <= z)%Z /\ (totalQ f n == inject_Z z)%Q.
Proof.
  induction n as [|n IH]; intro H; [exists 0%Z; split; [lia|reflexivity]|]. destruct IH as (z & Z0 & E); [intros; apply H; lia|].
  destruct (H n ltac:(lia)) as (y & Y & F). exists (z + y)%Z. split; [lia|]. cbn [totalQ]. rewrite E, F, inject_Z_plus. reflexivity.
Qed.

(** C164.  The pairs found on a grid, where every cell counts one. *)
Theorem C164_grid_pairs (thr : Q) (n : nat) (fields : list (list Z)) (ps : props) :
  (thr <= 1)%Q ->
  (forall f, In f fields -> length f = n) ->
  (forall id p, lookup id ps = Some p ->
     exists m, (0 < m)%Z /\ (m * Zpos (Qden thr) <= 2 ^ 52)%Z /\ (p_area p == inject_Z m)%Q) ->
  enforce_threshold64 (float64 thr) ps (find_overlapping (repeat 1%Q n) fields) =
  enforce_threshold thr ps (find_overlapping (repeat 1%Q n) fields).
Proof.
  intros T L P. apply C164_counts_decided_exactly; [exact T| |exact P]. intros r R.
  assert (L' : forall f, In f fields -> length f = length (repeat 1%Q n)) by (intros f F; rewrite repeat_length; apply L; exact F).
  assert (A := find_overlapping_area _ fields L' r R).
  destruct (totalQ_integer (fun t => OverlapSpec.shared_area (repeat 1%Q n) (nth t fields []) (nth (S t) fields []) (r_from r) (r_to r)) (length fields - 1)) as (z & Z0 & E).
  - intros t Ht. unfold OverlapSpec.shared_area. apply totalQ_integer. intros k K.
    assert (Lt : length (nth t fields []) = n) by (apply L, nth_In; lia).
    destruct (Z.eqb _ _ && Z.eqb _ _); [exists 1%Z|exists 0%Z]; split; try lia; [|reflexivity].
    rewrite (nth_indep _ 0%Q 1%Q) by (rewrite repeat_length; lia). rewrite nth_repeat. reflexivity.
  - exists z. split; [exact Z0|]. rewrite A. exact E.
Qed.
Print Assumptions C164_grid_pairs.

(** Three of ten cells at the threshold 3/10, and at 31/100. *)
Example C164_case :
  let a := [1; 1; 1; 1; 1; 1; 1; 1; 1; 1; 0; 0; 0; 0; 0; 0; 0]%Z in
  let b := [0; 0; 0; 0; 0; 0; 0; 2; 2; 2; 2; 2; 2; 2; 2; 2; 2]%Z in
  let ps := [(1%Z, mkProp 10 (0, 0)); (2%Z, mkProp 10 (0, 0))]%Q in
  map row_pair (enforce_threshold64 (float64 (3 # 10)) ps (find_overlapping (repeat 1%Q 17) [a; b])) = [(1, 2)]%Z /\
  enforce_threshold64 (float64 (31 # 100)) ps (find_overlapping (repeat 1%Q 17) [a; b]) = [] /\
  ~ (float64 (3 # 10) == 3 # 10)%Q.
Proof. cbn zeta. split; [vm_compute; reflexivity|]. split; [vm_compute; reflexivity|]. intro H. vm_compute in H. discriminate. Qed.

(** ** C165: on meshes *)

Lemma row_fraction w fields ps r : (forall f, In f fields -> length f = length w) -> (forall q, In q w -> (0 < q)%Q) ->
  one_time fields -> table32 w fields ps -> In r (find_overlapping32 w fields) ->
  (0 < r_from r)%Z /\ (0 < r_to r)%Z /\ exists t f, S t < length fields /\ meets (nth t fields []) (nth (S t) fields []) (r_from r) (r_to r) /\
    length (nth t fields []) = length w /\ length (nth (S t) fields []) = length w /\
    fraction64 ps r = Some f /\
    (f == float64 (sum32 (both_cells w (nth t fields []) (nth (S t) fields []) (r_from r) (r_to r)) /
      Qmin (area32 w (r_from r) (nth t fields [])) (area32 w (r_to r) (nth (S t) fields []))))%Q.
Proof.
  intros L W U Tb R. destruct (find32_row w fields r L U R) as (Pi & Pj & t & T & M & A). split; [exact Pi|]. split; [exact Pj|].
  assert (Lt : length (nth t fields []) = length w) by (apply L, nth_In; lia).
  assert (Lt' : length (nth (S t) fields []) = length w) by (apply L, nth_In; lia).
  destruct (meets_In _ _ _ _ (eq_trans Lt (eq_sym Lt')) M) as [I1 I2].
  destruct (Tb t _ Pi I1) as (p0 & E0 & A0). destruct (Tb (S t) _ Pj I2) as (p1 & E1 & A1).
  exists t. eexists. split; [exact T|]. split; [exact M|]. split; [exact Lt|]. split; [exact Lt'|]. split; [unfold fraction64; rewrite E0, E1; reflexivity|].
  unfold float64. apply rounded_eq; [lia|]. rewrite Qminb_min, A, A0, A1. reflexivity.
Qed.

(** C165.  For every mesh with positive cell areas, the overlap fraction of every pair
    that is found lies between 0 and 1 in the code's own arithmetic, and is exactly 1
    when every cell of one object is a cell of the other. *)
Theorem C165_fraction_at_most_one (w : list Q) (fields : list (list Z)) (ps : props) (r : row) :
  (forall f, In f fields -> length f = length w) -> (forall q, In q w -> (0 < q)%Q) ->
  one_time fields -> table32 w fields ps ->
  In r (find_overlapping32 w fields) ->
  exists f, fraction64 ps r = Some f /\ (0 <= f /\ f <= 1)%Q /\
    ((forall t k, S t < length fields -> nth k (nth t fields []) 0%Z = r_from r -> nth k (nth (S t) fields []) 0%Z = r_to r) \/
     (forall t k, S t < length fields -> nth k (nth (S t) fields []) 0%Z = r_to r -> nth k (nth t fields []) 0%Z = r_from r) ->
     (f == 1)%Q /\ forall thr, (thr <= 1)%Q -> In r (enforce_threshold64 thr ps (find_overlapping32 w fields))).
Proof.
  intros L W U Tb R. destruct (row_fraction w fields ps r L W U Tb R) as (Pi & Pj & t & f & T & M & Lt & Lt' & E & F).
  exists f. split; [exact E|].
  set (a := nth t fields []) in *. set (b := nth (S t) fields []) in *.
  assert (La : length a = length b) by congruence.
  destruct (shared32_le w a b (r_from r) (r_to r) La Lt W) as [S1 S2]. assert (S0 := shared_pos w a b _ _ La Lt W M).
  destruct (areas_pos w a b _ _ La Lt W M) as [P1 P2].
  set (o := sum32 (both_cells w a b (r_from r) (r_to r))) in *. set (m := Qmin (area32 w (r_from r) a) (area32 w (r_to r) b)) in *.
  assert (Pm : (0 < m)%Q) by (apply Q.min_glb_lt; assumption).
  assert (One : (float64 1 == 1)%Q) by reflexivity.
  assert (Le : (o / m <= 1)%Q) by (apply Qle_shift_div_r; [exact Pm|]; rewrite Qmult_1_l; apply Q.min_glb; assumption).
  assert (F1 : (f <= 1)%Q) by (rewrite F, <- One; apply rounded_mono; [lia|exact Le]).
  split; [split; [rewrite F; apply rounded_nonneg; lia|exact F1]|].
  intro In1. assert (Om : (m <= o)%Q).
  { destruct In1 as [H|H].
    - assert (G := inside_from w a b _ _ La Lt W (fun k _ K => H t k T K)). fold o in G. apply Qle_trans with (area32 w (r_from r) a); [apply Q.le_min_l|lra].
    - assert (G := inside_to w a b _ _ La Lt W (fun k _ K => H t k T K)). fold o in G. apply Qle_trans with (area32 w (r_to r) b); [apply Q.le_min_r|lra]. }
  assert (F2 : (f == 1)%Q).
  { apply Qle_antisym; [exact F1|]. rewrite F, <- One at 1. apply rounded_mono; [lia|]. apply Qle_shift_div_l; [exact Pm|]. lra. }
  split; [exact F2|]. intros thr Ht. unfold enforce_threshold64. apply filter_In. split; [exact R|]. unfold over_threshold64. rewrite E. apply Qle_bool_iff. lra.
Qed.
Print Assumptions C165_fraction_at_most_one.

(** C165.  With at most [n] cells in every object, n <= 2^20, a pair is kept or dropped
    as the exact areas say, unless the exact shared area lies within a relative
    8 n / 2^24 of the threshold. *)
Theorem C165_decisions_outside_margin (w : list Q) (fields : list (list Z)) (ps : props) (thr : Q) (n : nat) :
  (forall f, In f fields -> length f = length w) -> (forall q, In q w -> (0 < q)%Q) ->
  one_time fields -> table32 w fields ps -> (0 <= thr)%Q ->
  (forall t x, (0 < x)%Z -> length (filter (Z.eqb x) (nth t fields [])) <= n) -> (Z.of_nat n <= 2 ^ 20)%Z ->
  (forall t i j, (0 < i)%Z -> (0 < j)%Z -> meets (nth t fields []) (nth (S t) fields []) i j ->
     let s := OverlapSpec.shared_area w (nth t fields []) (nth (S t) fields []) i j in
     let m := Qmin (object_area w (nth t fields []) i) (object_area w (nth (S t) fields []) j) in
     let margin := (1 + 8 * inject_Z (Z.of_nat n) / 16777216)%Q in
     (thr * m * margin <= s \/ s * margin < thr * m)%Q) ->
  forall i j, In (i, j) (map row_pair (enforce_threshold64 thr ps (find_overlapping32 w fields))) <->
    (0 < i)%Z /\ (0 < j)%Z /\ exists t, S t < length fields /\ meets (nth t fields []) (nth (S t) fields []) i j /\
      (thr * Qmin (object_area w (nth t fields []) i) (object_area w (nth (S t) fields []) j) <=
       OverlapSpec.shared_area w (nth t fields []) (nth (S t) fields []) i j)%Q.
Proof.
  intros L W U Tb T0 Cn N20 Mg.
  assert (Hu : (16 * (inject_Z (Z.of_nat n) * ulp32) <= 1)%Q).
  { apply Qle_trans with (16 * (inject_Z (2 ^ 20) * ulp32))%Q; [|discriminate].
    rewrite !(Qmult_comm 16). apply Qmult_le_compat_r; [|discriminate]. apply Qmult_le_compat_r; [|discriminate]. rewrite <- Zle_Qle. exact N20. }
  assert (Eu : (8 * inject_Z (Z.of_nat n) / 16777216 == 8 * (inject_Z (Z.of_nat n) * ulp32))%Q).
  { unfold Qdiv. rewrite <- Qmult_assoc. apply Qmult_comp; [reflexivity|]. apply Qmult_comp; reflexivity. }
  assert (Key : forall r, In r (find_overlapping32 w fields) -> forall t, S t < length fields -> meets (nth t fields []) (nth (S t) fields []) (r_from r) (r_to r) ->
    (over_threshold64 thr ps r = true <->
     thr * Qmin (object_area w (nth t fields []) (r_from r)) (object_area w (nth (S t) fields []) (r_to r)) <= OverlapSpec.shared_area w (nth t fields []) (nth (S t) fields []) (r_from r) (r_to r))%Q).
  { intros r R t T M. destruct (row_fraction w fields ps r L W U Tb R) as (Pi & Pj & s & f & S0 & Ms & Ls & Ls' & E & F).
    assert (Lt : length (nth t fields []) = length w) by (apply L, nth_In; lia).
    assert (Lt' : length (nth (S t) fields []) = length w) by (apply L, nth_In; lia).
    assert (s = t).
    { destruct (meets_In _ _ _ _ (eq_trans Ls (eq_sym Ls')) Ms) as [J1 _]. destruct (meets_In _ _ _ _ (eq_trans Lt (eq_sym Lt')) M) as [I1 _]. apply (U (r_from r)); assumption. }
    subst s. clear Ls Ls' Ms S0.
    assert (La : length (nth t fields []) = length (nth (S t) fields [])) by congruence.
    assert (D := decision w _ _ _ _ La Lt W M n (Cn _ _ Pi) (Cn _ _ Pj) Hu thr T0). cbn zeta in D. destruct D as [D1 D2].
    specialize (Mg t _ _ Pi Pj M). cbn zeta in Mg. rewrite Eu in Mg.
    set (s := OverlapSpec.shared_area w (nth t fields []) (nth (S t) fields []) (r_from r) (r_to r)) in *.
    set (m := Qmin (object_area w (nth t fields []) (r_from r)) (object_area w (nth (S t) fields []) (r_to r))) in *.
    set (u := (inject_Z (Z.of_nat n) * ulp32)%Q) in *.
    assert (U0 : (0 <= u)%Q) by (apply Qmult_le_0_compat; [|discriminate]; change 0%Q with (inject_Z 0); rewrite <- Zle_Qle; lia).
    destruct (meets_In _ _ _ _ La M) as [I1 I2].
    assert (Pm : (0 < m)%Q) by (apply Q.min_glb_lt; apply object_area_pos; auto).
    assert (Ps : (0 <= s)%Q).
    { unfold s, OverlapSpec.shared_area. rewrite <- (totalQ_zero (fun _ => 0%Q) (length (nth t fields []))) by (intros; reflexivity). apply totalQ_le. intros k K.
      destruct (_ && _); [|apply Qle_refl]. apply Qlt_le_weak, W, nth_In. lia. }
    assert (Tm : (0 <= thr * m)%Q) by (apply Qmult_le_0_compat; lra).
    unfold over_threshold64. rewrite E, Qle_bool_iff, F. split.
    - intro H. destruct Mg as [G|G]; [|specialize (D2 G); lra].
      eapply Qle_trans; [|exact G]. apply Qle_trans with (thr * m * 1)%Q; [lra|]. rewrite !(Qmult_comm (thr * m)). apply Qmult_le_compat_r; lra.
    - intro H. destruct Mg as [G|G]; [exact (D1 G)|]. exfalso.
      assert (G' : (s * 1 <= s * (1 + 8 * u))%Q) by (rewrite !(Qmult_comm s); apply Qmult_le_compat_r; lra). lra. }
  intros i j. rewrite in_map_iff. split.
  - intros (r & E & R). unfold row_pair in E. injection E as <- <-. apply filter_In in R. destruct R as [R O1].
    destruct (find32_row w fields r L U R) as (Pi & Pj & t & T & M & _). split; [exact Pi|]. split; [exact Pj|]. exists t. split; [exact T|]. split; [exact M|].
    apply (Key r R t T M). exact O1.
  - intros (Pi & Pj & t & T & M & H).
    assert (X : exists x, In (mkRow i j x) (find_overlapping w fields)) by (apply (find_overlapping_pair w fields L); split; [exact Pi|]; split; [exact Pj|]; exists t; split; assumption).
    destruct X as (x & X). assert (Y : In (row_pair (mkRow i j x)) (map row_pair (find_overlapping32 w fields))) by (rewrite find_pairs; apply in_map; exact X).
    apply in_map_iff in Y. destruct Y as (r & E & R). unfold row_pair in E. cbn [r_from r_to] in E. injection E as <- <-.
    exists r. split; [reflexivity|]. apply filter_In. split; [exact R|]. apply (Key r R t T M). exact H.
Qed.
Print Assumptions C165_decisions_outside_margin.

Definition round_w : list Q := [8388608; 8388608; 1; 1; 8388608; 8388608; 8388608]%Q.
Definition round_a : list Z := [1; 1; 1; 1; 0; 0; 0]%Z.
Definition round_b : list Z := [2; 0; 0; 0; 2; 2; 2]%Z.
Definition round_ps : props := [(1%Z, mkProp (area32 round_w 1 round_a) (0, 0)); (2%Z, mkProp (area32 round_w 2 round_b) (0, 0))]%Q.

(** The margin cannot be dropped: at the threshold itself rounding does decide: object 1 has an area of
    16777218, of which 8388608 are shared, and 8388608 / 16777218 < 1/2; the float32
    sum of its cells is 16777216 and the pair is kept. *)
Example C165_margin_needed :
  map row_pair (enforce_threshold64 (1 # 2) round_ps (find_overlapping32 round_w [round_a; round_b])) = [(1, 2)]%Z /\
  (OverlapSpec.shared_area round_w round_a round_b 1 2 < (1 # 2) * Qmin (object_area round_w round_a 1) (object_area round_w round_b 2))%Q.
Proof. split; [vm_compute; reflexivity|reflexivity]. Qed.

Lemma round_one_time : one_time [round_a; round_b].
Proof.
  intros x j k P J K. destruct j as [|[|[|j]]], k as [|[|[|k]]]; try reflexivity; cbn in J, K; intuition lia.
Qed.
Lemma round_table : table32 round_w [round_a; round_b] round_ps.
Proof.
  intros t x P I. destruct t as [|[|t]]; [| |destruct t; destruct I].
  - assert (x = 1%Z) by (cbn in I; intuition lia). subst x. eexists. split; [reflexivity|]. apply Qeq_refl.
  - assert (x = 2%Z) by (cbn in I; intuition lia). subst x. eexists. split; [reflexivity|]. apply Qeq_refl.
Qed.
(** The same mesh at the thresholds 0.4 and 0.6: outside the margin for four cells. *)
Example C165_case :
  one_time [round_a; round_b] /\ table32 round_w [round_a; round_b] round_ps /\
  map row_pair (enforce_threshold64 (2 # 5) round_ps (find_overlapping32 round_w [round_a; round_b])) = [(1, 2)]%Z /\
  enforce_threshold64 (3 # 5) round_ps (find_overlapping32 round_w [round_a; round_b]) = [] /\
  (let s := OverlapSpec.shared_area round_w round_a round_b 1 2 in
   let m := Qmin (object_area round_w round_a 1) (object_area round_w round_b 2) in
   let margin := (1 + 8 * inject_Z (Z.of_nat 4) / 16777216)%Q in
   ((2 # 5) * m * margin <= s /\ s * margin < (3 # 5) * m)%Q).
Proof. split; [exact round_one_time|]. split; [exact round_table|]. split; [vm_compute; reflexivity|]. split; [vm_compute; reflexivity|]. cbn zeta. split; [discriminate|reflexivity]. Qed.

(** ** C166: the area percentile *)

Definition round_areas : list nat := repeat 2 8 ++ repeat 40 18.

(** C166.  area_filter_quartile = 0.28 and 26 objects, eight of 2 cells and eighteen of
    40: 0.28 * 25 = 7 exactly, so the percentile is the eighth area, 2, and every object
    reaches it.  In doubles the position is 7.000000000000001 and the threshold lies
    above 2: the eight objects are dropped. *)
Theorem C166_object_at_percentile_kept_refuted :
  ((28 # 100) * nat_Q (length round_areas - 1)%nat == 7)%Q /\
  nth 7 (sort_nat round_areas) 0 = 2 /\
  (percentile (28 # 100) round_areas == 2)%Q /\
  (2 < percentile64 (float64 (28 # 100)) round_areas)%Q.
Proof. split; [reflexivity|]. split; [vm_compute; reflexivity|]. split; vm_compute; reflexivity. Qed.
Print Assumptions C166_object_at_percentile_kept_refuted.

(** C166.  For quartiles k / 2^j with j <= 20 (the default 0.5, 0.25, 0.75, ...), up to
    2^20 objects of up to 2^30 cells, the threshold in doubles is the exact percentile:
    linear interpolation at k / 2^j of the way through the sorted areas. *)
Theorem C166_binary_quartiles_exact_partial (k j : Z) (areas : list nat) (q : Q) :
  (0 <= j <= 20)%Z -> (0 <= k <= 2 ^ j)%Z -> (q * inject_Z (2 ^ j) == inject_Z k)%Q ->
  (Z.of_nat (length areas) <= 2 ^ 20)%Z -> (forall a, In a areas -> (Z.of_nat a <= 2 ^ 30)%Z) ->
  (float64 q == q)%Q /\ exists s, Permutation areas s /\ StronglySorted le s /\
  forall i, S i < length s -> (nat_Q i <= q * nat_Q (length s - 1)%nat)%Q -> (q * nat_Q (length s - 1)%nat <= nat_Q (S i))%Q ->
    (percentile64 q areas == nat_Q (nth i s 0%nat) + (q * nat_Q (length s - 1)%nat - nat_Q i) * (nat_Q (nth (S i) s 0%nat) - nat_Q (nth i s 0%nat)))%Q.
Proof.
  intros J K Q0 N A.
  assert (E : (q == inject_Z k * pow2 (- j))%Q).
  { rewrite <- Q0. setoid_replace (q * inject_Z (2 ^ j) * pow2 (- j))%Q with (q * (pow2 (- j) * inject_Z (2 ^ j)))%Q by ring. rewrite pow2_neg by lia. ring. }
  split.
  { apply (exact64 q k j); [|exact E]. split; [lia|]. apply Z.le_trans with (2 ^ j)%Z; [lia|apply Z.pow_le_mono_r; lia]. }
  destruct (C16_percentile_interpolates q areas) as (s & P & S0 & _ & H). exists s. split; [exact P|]. split; [exact S0|].
  intros i I L1 L2. rewrite (percentile64_dyadic k j areas J K N A q E). apply H; assumption.
Qed.
Print Assumptions C166_binary_quartiles_exact_partial.

(** C166.  For every quartile, the threshold lies between two areas that are neighbours
    in the sorted list, at a position that is right up to a relative 2^-50. *)
Theorem C166_between_neighbouring_areas (q : Q) (areas : list nat) :
  areas <> [] -> (0 <= q)%Q -> (q <= 1)%Q ->
  (forall a, In a areas -> (Z.of_nat a <= 2 ^ 53)%Z) -> (Z.of_nat (length areas) <= 2 ^ 53)%Z ->
  exists s k, Permutation areas s /\ StronglySorted le s /\ k < length s /\
    let position := (nat_Q (length s - 1)%nat * q)%Q in
    (nat_Q k <= position * (1 + (1 # 1125899906842624)))%Q /\
    (position * (1 - (1 # 1125899906842624)) < nat_Q (S k))%Q /\
    (nat_Q (nth k s 0%nat) <= percentile64 q areas)%Q /\
    (percentile64 q areas <= nat_Q (nth (Nat.min (S k) (length s - 1)) s 0%nat))%Q.
Proof.
  intros Ne Q0 Q1 A N. destruct (percentile64_between q areas Ne Q0 Q1 A N) as (k & K & B). cbv zeta in B.
  exists (sort_nat areas), k. rewrite sort_length. split; [apply sort_perm|]. split; [apply sort_nat_sorted|]. split; [exact K|]. exact B.
Qed.
Print Assumptions C166_between_neighbouring_areas.

Example C166_case :
  (percentile64 (1 # 2) [9; 1; 4; 2]%nat == 3)%Q /\ (percentile64 (1 # 4) [9; 1; 4; 2; 6; 30]%nat == 5 # 2)%Q /\
  (2 <= percentile64 (float64 (28 # 100)) round_areas <= 40)%Q.
Proof. split; [vm_compute; reflexivity|]. split; [vm_compute; reflexivity|]. split; vm_compute; discriminate. Qed.
