(** Concrete runs for C138 to C141: a cell that is [k] through a year of 366 days
    and [-k] through another, and the effect of units on small deviations. *)
From Coq Require Import String Qround Lqa.
From Verif Require Import Base Filter FilterProofs FilterMoreProofs Overlap OverlapProofs Partition PartitionProofs Cluster ClusterProofs ClusterFinal Detect DetectProofs DetectProps
  Climatology ClimatologySpec ClimatologyProofs Detrend DetrendSpec DetrendProofs Histogram HistogramProofs HistogramProps DetectRun DetectRunSpec DetectRunProofs DetectRunProps ScaleProofs PipelineProps Standardised StandardisedProofs StandardisedProps.
Open Scope string_scope.
Open Scope list_scope.
Open Scope nat_scope.

Definition two_years (n : nat) (k : Q) : list (list value) := repeat [Finite k] n ++ repeat [Finite (- k)%Q] n.
Definition two_calendar (n : nat) : calendar := mkCal (repeat 2000%Z n ++ repeat 2004%Z n) (seq 1 n ++ seq 1 n) (repeat 0%Q (n + n)).
(** The pseudo-inverse of the constant and a zero trend. *)
Definition two_pinv (n : nat) (_ : matrix) : matrix := repeat [(1 / natQ (n + n))%Q; 0%Q] (n + n).
Definition std_args (a : extreme_args) : pre_args := mkPre None None "detrend_harmonic" 15 None a.
Definition one_day_args : extreme_args := mkArgs "hobday_extreme" 90 (Some 1%Z) None "exact" (1 # 100) 5.
Definition no_zero_mean : settings := mkSettings 1 false.
(** A root of 1 and of 1e-22. *)
Definition small_root (v : Q) : Q := if Qltb v (1 # 2) then (1 # 100000000000)%Q else 1%Q.

Lemma nth_repeat_lt {A} (x d : A) n t : t < n -> nth t (repeat x n) d = x.
Proof. revert t. induction n as [|n IH]; intros t T; [lia|]. destruct t; [reflexivity|]. apply IH. lia. Qed.
Lemma map_repeat_ {A B} (f : A -> B) x n : map f (repeat x n) = repeat (f x) n.
Proof. induction n; cbn; [|rewrite IHn]; reflexivity. Qed.
Lemma combine_repeat {A B} (x : A) (y : B) n : combine (repeat x n) (repeat y n) = repeat (x, y) n.
Proof. induction n; cbn; [|rewrite IHn]; reflexivity. Qed.
Lemma sumQ_repeat x n : (sumQ (repeat x n) == natQ n * x)%Q.
Proof. rewrite sumQ_nth, repeat_length. rewrite <- sm_const. apply sm_ext. intros i I. rewrite nth_repeat_lt by exact I. reflexivity. Qed.
Lemma natQ_pos n : 0 < n -> (0 < natQ n)%Q.
Proof. intro H. unfold natQ, Qlt. cbn. lia. Qed.

Section Two.
Variables (n : nat) (k : Q) (args : extreme_args).
Hypothesis pos : 0 < n.
Hypothesis planned : exists pl, plan_extremes true args = Ok pl /\ forall doys anom, exists thr, run_thresholds true 1 1 doys anom pl = Ok thr.
Notation da := (two_years n k).
Notation cal := (two_calendar n).
Lemma two_length : length da = n + n.
Proof. unfold two_years. rewrite app_length, !repeat_length. reflexivity. Qed.
Lemma two_step t : t < n + n -> nth t da [] = [Finite (if t <? n then k else - k)%Q].
Proof.
  intro T. unfold two_years. destruct (Nat.ltb_spec t n).
  - rewrite app_nth1 by (rewrite repeat_length; lia). apply nth_repeat_lt. lia.
  - rewrite app_nth2 by (rewrite repeat_length; lia). rewrite repeat_length. apply nth_repeat_lt. lia.
Qed.
Lemma two_doy t : t < n + n -> nth t (c_doys cal) 0 = S (if t <? n then t else t - n).
Proof.
  intro T. cbn [two_calendar c_doys]. destruct (Nat.ltb_spec t n).
  - rewrite app_nth1 by (rewrite seq_length; lia). rewrite seq_nth by lia. lia.
  - rewrite app_nth2 by (rewrite seq_length; lia). rewrite seq_length. rewrite seq_nth by lia. lia.
Qed.
Lemma two_valid : n <= 366 -> valid_calendar (length da) cal.
Proof.
  intro N. assert (L := two_length).
  assert (L1 : length (c_years cal) = length da) by (rewrite L; cbn [two_calendar c_years]; rewrite app_length, !repeat_length; reflexivity).
  assert (L2 : length (c_doys cal) = length da) by (rewrite L; cbn [two_calendar c_doys]; rewrite app_length, !seq_length; reflexivity).
  assert (L3 : length (c_decimal cal) = length da) by (rewrite L; cbn [two_calendar c_decimal]; rewrite repeat_length; reflexivity).
  refine (conj L1 (conj L2 (conj L3 _))). intros t T. rewrite two_doy by lia. destruct (Nat.ltb_spec t n); lia.
Qed.
Lemma two_data : validate_data_values 1 da = Ok tt.
Proof.
  apply C47_accepts_exactly_gap_free_series. rewrite two_length. split; [lia|]. split.
  - exists 0. split; [lia|]. unfold finite_at. rewrite two_step by lia. eexists. reflexivity.
  - intros i I _ t T. unfold finite_at. rewrite two_step by lia. assert (i = 0) by lia. subst i. eexists. reflexivity.
Qed.
Lemma two_plain : exists ds, preprocess_data (two_pinv n) [] here here true 1 1 da cal no_zero_mean (std_args args) = Ok ds.
Proof.
  destruct planned as (pl & Pl & Th).
  unfold preprocess_data. assert (P : preprocess_plan here here true (1 * 1) da (c_years cal) (std_args args) = Ok (ADetrend, map (fun _ => true) (c_years cal), pl)).
  { unfold preprocess_plan. change (1 * 1) with 1. rewrite two_data.
    change (bind (lift_det (plan_extremes true args)) (fun pl0 => Ok (ADetrend, map (fun _ => true) (c_years cal), pl0)) = Ok (ADetrend, map (fun _ => true) (c_years cal), pl)). rewrite Pl. reflexivity. }
  rewrite P. cbv zeta.
  replace (select (map (fun _ => true) (c_years cal)) (c_doys cal)) with (c_doys cal).
  2: { symmetry. apply select_all. cbn [two_calendar c_years c_doys]. rewrite !app_length, !seq_length, !repeat_length. reflexivity. }
  destruct (c_doys cal) as [|d r] eqn:D.
  { exfalso. assert (E := f_equal (@length nat) D). cbn [two_calendar c_doys] in E. rewrite app_length, !seq_length in E. cbn in E. lia. }
  change (infer_dims_coords here here (p_dims (std_args args)) (p_coords (std_args args))) with (infer_dims_coords here here None None).
  match goal with |- exists ds, match ?e with _ => _ end = _ => let v := eval vm_compute in e in replace e with v by (vm_compute; reflexivity) end.
  match goal with |- context [run_thresholds _ 1 1 ?ds ?an pl] => destruct (Th ds an) as (thr & E) end.
  change (has_name _ "y") with true. rewrite E. cbn [bind]. eexists. reflexivity.
Qed.
Lemma two_orders : map Z.to_nat (match p_orders (std_args args) with None => [1%Z] | Some o => o end) = [1].
Proof. reflexivity. Qed.
Lemma two_model : (mean (repeat 0%Q (n + n)) == 0)%Q /\
  exists z, (z == 0)%Q /\ centred (model_components [] (c_decimal cal) [1] true) = [repeat 1%Q (n + n); repeat z (n + n)].
Proof.
  assert (M0 : (mean (repeat 0%Q (n + n)) == 0)%Q).
  { unfold mean. rewrite sumQ_repeat, repeat_length. field. assert (P := natQ_pos (n + n) ltac:(lia)). intro E. rewrite E in P. discriminate. }
  split; [exact M0|]. cbn [two_calendar c_decimal]. unfold model_components, centred. cbn [map app]. rewrite !map_repeat_, combine_repeat, map_repeat_. cbn [fst snd powQ].
  set (w := (0 - mean (repeat 0%Q (n + n)))%Q). eexists. split; [|reflexivity]. unfold mean at 1. rewrite sumQ_repeat, repeat_length. unfold w.
  assert (P := natQ_pos (n + n) ltac:(lia)). rewrite M0. field. intro E. rewrite E in P. discriminate.
Qed.
Lemma two_product z s t : (z == 0)%Q -> s < n + n -> t < n + n ->
  (product 2 (entry (two_pinv n [])) (entry [repeat 1%Q (n + n); repeat z (n + n)]) s t == 1 / natQ (n + n))%Q.
Proof.
  intros Z0 S0 T. unfold product, summation, entry, two_pinv. rewrite (nth_repeat_lt _ [] _ s) by exact S0. cbn [nth]. rewrite !nth_repeat_lt by exact T. rewrite Z0. ring.
Qed.
Lemma two_pinv_correct : pinv_correct (two_pinv n) [] cal (std_args args).
Proof.
  intros rh E. cbv zeta. rewrite two_orders. destruct rh; [|discriminate]. destruct two_model as (_ & z & Z0 & Em). rewrite Em. cbn [length].
  assert (Lc : length (c_decimal cal) = n + n) by apply repeat_length. rewrite Lc. change (two_pinv n _) with (two_pinv n []).
  assert (P := natQ_pos (n + n) ltac:(lia)). assert (P0 : ~ (natQ (n + n) == 0)%Q) by (intro E0; rewrite E0 in P; discriminate).
  assert (R : forall i t, i < 2 -> t < n + n -> (entry [repeat 1%Q (n + n); repeat z (n + n)] i t == if Nat.eqb i 0 then 1 else 0)%Q).
  { intros i t I T. destruct i as [|[|i]]; [| |lia]; unfold entry; cbn [nth]; rewrite nth_repeat_lt by exact T; [reflexivity|exact Z0]. }
  assert (R' : forall s j, s < n + n -> j < 2 -> (entry (two_pinv n []) s j == if Nat.eqb j 0 then 1 / natQ (n + n) else 0)%Q).
  { intros s j S0 J. unfold entry, two_pinv. rewrite nth_repeat_lt by exact S0. destruct j as [|[|j]]; [reflexivity|reflexivity|lia]. }
  assert (Q2 : forall i j, i < 2 -> j < 2 -> (product (n + n) (entry [repeat 1%Q (n + n); repeat z (n + n)]) (entry (two_pinv n [])) i j == if Nat.eqb i 0 then if Nat.eqb j 0 then 1 else 0 else 0)%Q).
  { intros i j I J. unfold product. transitivity (summation (n + n) (fun _ => if Nat.eqb i 0 then if Nat.eqb j 0 then 1 / natQ (n + n) else 0 else 0))%Q.
    - apply sm_ext. intros r Rr. rewrite (R i r), (R' r j) by assumption. destruct (Nat.eqb i 0), (Nat.eqb j 0); ring.
    - rewrite sm_const. destruct (Nat.eqb i 0), (Nat.eqb j 0); field; exact P0. }
  split; [|split; [|split]].
  - intros i t I T. unfold product at 1. transitivity (summation (n + n) (fun _ => (if Nat.eqb i 0 then 1 else 0) * (1 / natQ (n + n))))%Q.
    + apply sm_ext. intros r Rr. rewrite (R i r), (two_product z r t) by assumption. reflexivity.
    + rewrite sm_const, (R i t) by assumption. field. exact P0.
  - intros s j S0 J. unfold product at 1. cbn [summation]. rewrite !Q2, !R' by (assumption || lia). cbn [Nat.eqb]. destruct (Nat.eqb j 0); ring.
  - intros i j I J. rewrite !Q2 by assumption. destruct (Nat.eqb i 0), (Nat.eqb j 0); reflexivity.
  - intros s t S0 T. rewrite !two_product by assumption. reflexivity.
Qed.
Lemma two_series : cell_series da 0 = map Some (repeat k n ++ repeat (- k)%Q n).
Proof. unfold cell_series, two_years. rewrite !map_app, !map_repeat_. reflexivity. Qed.
Lemma two_anomaly t : t < n + n ->
  exists x, detrend (two_pinv n) [] (c_decimal cal) [1] true false (cell_series da 0) = map Some x /\ length x = n + n /\
    (nth t x 0 == if t <? n then k else - k)%Q.
Proof.
  intro T. rewrite two_series. unfold detrend.
  assert (Fa : forallb (fun v => match v with Some _ => true | None => false end) (map Some (repeat k n ++ repeat (- k)%Q n)) = true).
  { apply forallb_forall. intros v I. apply in_map_iff in I. destruct I as (q & <- & _). reflexivity. }
  rewrite Fa, present_map_some. eexists. split; [reflexivity|]. unfold detrend_values. cbv zeta. cbn iota. destruct two_model as (_ & z & Z0 & Em). rewrite Em.
  set (x := repeat k n ++ repeat (- k)%Q n). assert (Lx : length x = n + n) by (unfold x; rewrite app_length, !repeat_length; reflexivity).
  rewrite residual_length. split; [exact Lx|]. change (two_pinv n _) with (two_pinv n []).
  assert (Pc := two_pinv_correct true eq_refl). cbv zeta in Pc. rewrite two_orders, Em in Pc. change (two_pinv n _) with (two_pinv n []) in Pc.
  assert (Lc : length (c_decimal cal) = n + n) by apply repeat_length. rewrite Lc in Pc.
  rewrite (residual_nth _ _ (n + n) x t Lx T). cbn [length].
  assert (Sx : (summation (n + n) (fun s => nth s x 0) == 0)%Q).
  { rewrite <- Lx, <- sumQ_nth. unfold x. rewrite sumQ_app, !sumQ_repeat. ring. }
  assert (Sg : (summation (n + n) (fun s => product 2 (entry (two_pinv n [])) (entry [repeat 1%Q (n + n); repeat z (n + n)]) s t * nth s x 0) == 0)%Q).
  { transitivity (summation (n + n) (fun s => 1 / natQ (n + n) * nth s x 0))%Q.
    - apply sm_ext. intros s S0. rewrite two_product by assumption. reflexivity.
    - rewrite sm_scale, Sx. ring. }
  rewrite Sg. assert (Nx : nth t x 0%Q = if t <? n then k else (- k)%Q).
  { unfold x. destruct (Nat.ltb_spec t n).
    - rewrite app_nth1 by (rewrite repeat_length; lia). apply nth_repeat_lt. lia.
    - rewrite app_nth2 by (rewrite repeat_length; lia). rewrite repeat_length. apply nth_repeat_lt. lia. }
  rewrite Nx. destruct (t <? n); ring.
Qed.
Lemma flat_map_none {A} (f : nat -> list A) l : (forall i, In i l -> f i = []) -> flat_map f l = [].
Proof. induction l as [|a l IH]; intro H; [reflexivity|]. cbn. rewrite H by (left; reflexivity). apply IH. intros; apply H; right; assumption. Qed.
Lemma flat_map_one {A} (f : nat -> list A) a m i0 : a <= i0 < a + m -> (forall i, a <= i < a + m -> i <> i0 -> f i = []) -> flat_map f (seq a m) = f i0.
Proof.
  intros I H. replace m with ((i0 - a) + S (a + m - S i0)) by lia. rewrite seq_app, flat_map_app. cbn [seq flat_map]. replace (a + (i0 - a)) with i0 by lia.
  rewrite flat_map_none, flat_map_none; [apply app_nil_r| |]; intros i Ii; apply in_seq in Ii; apply H; lia.
Qed.
Lemma two_variance d v x : 1 <= d <= n -> length x = n + n -> (forall t, t < n + n -> (nth t x 0 == if t <? n then k else - k)%Q) ->
  variance_of (samples (map Some x) (fun i => Nat.eqb (nth i (c_doys cal) 0) d)) v -> (v == k * k)%Q.
Proof.
  intros D L Hx. unfold samples. rewrite map_length, L, seq_app, flat_map_app. cbn [plus].
  rewrite (flat_map_one _ 0 n (d - 1)), (flat_map_one _ n n (n + (d - 1))); try lia.
  - rewrite !two_doy by lia. assert (Lt : (d - 1 <? n) = true) by (apply Nat.ltb_lt; lia). assert (Ge : (n + (d - 1) <? n) = false) by (apply Nat.ltb_ge; lia). rewrite Lt, Ge.
    replace (S (d - 1)) with d by lia. replace (S (n + (d - 1) - n)) with d by lia. rewrite Nat.eqb_refl. rewrite !(nth_map_gen _ x _ 0%Q) by lia.
    intros (_ & m & E1 & E2). cbn in E1, E2. assert (H1 := Hx (d - 1) ltac:(lia)). assert (H2 := Hx (n + (d - 1)) ltac:(lia)). rewrite Lt in H1. rewrite Ge in H2. rewrite H1, H2 in E1, E2.
    change (inject_Z 2) with 2%Q in E1, E2. assert (M0 : (m == 0)%Q) by lra. rewrite M0 in E2. assert (Ek : (v * 2 == k * k + k * k)%Q) by (rewrite E2; ring). lra.
  - intros i I Ni. rewrite two_doy by lia. assert (Ge : (i <? n) = false) by (apply Nat.ltb_ge; lia). rewrite Ge. destruct (Nat.eqb_spec (S (i - n)) d); [lia|reflexivity].
  - intros i I Ni. rewrite two_doy by lia. assert (Lt : (i <? n) = true) by (apply Nat.ltb_lt; lia). rewrite Lt. destruct (Nat.eqb_spec (S i) d); [lia|reflexivity].
Qed.
End Two.

Notation std_run root n k a := (preprocess_std root (two_pinv n) [] here here true 1 1 (two_years n k) (two_calendar n) no_zero_mean true (std_args a)).

Lemma std_two root n k args r : n = 366 ->
  (exists pl, plan_extremes true args = Ok pl /\ forall doys anom, exists thr, run_thresholds true 1 1 doys anom pl = Ok thr) ->
  (forall v, (v == k * k)%Q -> root v = r) ->
  exists ds sn, std_run root n k args = Ok (ds, Some sn) /\
    (forall d, 1 <= d <= 366 -> s_std sn 0 d = Some r) /\
    (forall t, t < 732 -> exists a, nth t (d_anomaly ds 0) None = Some a /\ (a == if t <? 366 then k else - k)%Q).
Proof.
  intros N Pl Rt. assert (Pn : 0 < n) by lia. assert (V := two_valid n k Pn ltac:(lia)). destruct (two_plain n k args Pn Pl) as (ds & Hp).
  assert (H : exists sn, std_run root n k args = Ok (ds, Some sn)).
  { apply C139_succeeds_exactly; [exact V|reflexivity|]. split; [exact Hp|]. intros d D. cbn [two_calendar c_doys]. apply in_or_app. left. apply in_seq. lia. }
  destruct H as (sn & H). exists ds, sn. split; [exact H|].
  assert (An : d_anomaly ds 0 = detrend (two_pinv n) [] (c_decimal (two_calendar n)) [1] true false (cell_series (two_years n k) 0)).
  { destruct (std_ok _ _ _ _ _ _ _ _ _ _ _ _ _ _ V H) as (pl & dims & coords & thr & _ & _ & _ & _ & _ & An & _). apply An. }
  assert (Ax : exists x, d_anomaly ds 0 = map Some x /\ length x = n + n /\ forall t, t < n + n -> (nth t x 0 == if t <? n then k else - k)%Q).
  { destruct (two_anomaly n k args Pn 0 ltac:(lia)) as (x & E & L & _). exists x. rewrite An. split; [exact E|]. split; [exact L|]. intros t T.
    destruct (two_anomaly n k args Pn t T) as (x' & E' & _ & Nt). rewrite E in E'. assert (Ex : forall a b : list Q, map Some a = map Some b -> a = b).
    { clear. induction a as [|u a IH]; intros [|w b] E; try discriminate; [reflexivity|]. injection E as -> E. f_equal. apply IH. exact E. }
    rewrite (Ex _ _ E'). exact Nt. }
  destruct Ax as (x & Ex & Lx & Hx). split.
  - intros d D. assert (T : d - 1 < length (two_years n k)) by (rewrite two_length; lia).
    assert (F := proj1 (C138_standardised_fields _ _ _ _ _ _ _ _ _ _ _ _ _ _ V H (d - 1) 0 T)). cbv zeta in F.
    rewrite Ex, (nth_map_gen _ x _ 0%Q) in F by lia. destruct F as (v & vars & Vr & Sm & St & _).
    rewrite two_doy in St, Sm by lia. assert (Lt : (d - 1 <? n) = true) by (apply Nat.ltb_lt; lia). rewrite Lt in St, Sm. replace (S (d - 1)) with d in * by lia.
    rewrite St. f_equal. apply Rt. assert (Ev : (v * 30 == k * k * 30)%Q); [|lra]. rewrite Sm.
    transitivity (summation 30 (fun _ => k * k))%Q; [|rewrite sm_const; change (natQ 30) with 30%Q; ring]. apply sm_ext. intros j J.
    assert (B := Nat.mod_upper_bound (d + 350 + j) 366 ltac:(lia)). revert B. generalize ((d + 350 + j) mod 366). intros q B.
    apply (two_variance n k Pn (1 + q) _ x); [lia|exact Lx|exact Hx|]. apply Vr. lia.
  - intros t T. rewrite Ex. exists (nth t x 0%Q). split; [apply nth_map_gen; lia|]. specialize (Hx t ltac:(lia)). rewrite N in Hx. exact Hx.
Qed.

Lemma some_nat m : exists n : nat, n = m.
Proof. exists m. reflexivity. Qed.
Lemma exact_planned : exists pl, plan_extremes true exact_args = Ok pl /\ forall doys anom, exists thr, run_thresholds true 1 1 doys anom pl = Ok thr.
Proof. eexists. split; [reflexivity|]. intros. eexists. reflexivity. Qed.
Lemma one_day_planned : exists pl, plan_extremes true one_day_args = Ok pl /\ forall doys anom, exists thr, run_thresholds true 1 1 doys anom pl = Ok thr.
Proof. eexists. split; [reflexivity|]. intros. eexists. reflexivity. Qed.
(** Some step of the record is extreme. *)
Lemma two_flagged n k ds : n = 366 -> preprocess_data (two_pinv n) [] here here true 1 1 (two_years n k) (two_calendar n) no_zero_mean (std_args exact_args) = Ok ds ->
  exists t, t < n + n /\ d_extreme ds t 0 = true.
Proof.
  intros N H. assert (V := two_valid n k ltac:(lia) ltac:(lia)).
  assert (Mk : d_mask ds 0 = true).
  { destruct (run_ok _ _ _ _ _ _ _ _ _ _ _ _ H) as (m & keep & pl & dims & coords & thr & _ & _ & _ & _ & _ & _ & ->). cbn [d_mask]. unfold ocean. rewrite two_series.
    rewrite (nth_map_gen _ _ 0 0%Q) by (rewrite app_length, !repeat_length; lia). reflexivity. }
  destruct (C119_flagged_share _ _ _ _ _ _ _ _ _ _ _ ds 0 V H ltac:(lia) Mk ltac:(discriminate) eq_refl eq_refl ltac:(cbn; lra)) as [S1 _].
  rewrite two_length in S1. change (a_percentile (p_extreme (std_args exact_args))) with 90%Q in S1.
  destruct (count (fun t => d_extreme ds t 0) (seq 0 (n + n))) as [|m] eqn:Cn.
  - exfalso. assert (P := natQ_pos (n + n - 1) ltac:(lia)). change (natQ 0) with 0%Q in S1. assert (E : (1 - 90 / 100 == 1 # 10)%Q) by reflexivity. rewrite E in S1. lra.
  - assert (P : 0 < count (fun t => d_extreme ds t 0) (seq 0 (n + n))) by lia. apply Base.count_pos in P. destruct P as (t & I & F). apply in_seq in I. exists t. split; [lia|exact F].
Qed.
Lemma plain_of root n k a ds sn : n = 366 -> std_run root n k a = Ok (ds, Some sn) ->
  preprocess_data (two_pinv n) [] here here true 1 1 (two_years n k) (two_calendar n) no_zero_mean (std_args a) = Ok ds.
Proof.
  intros N H. assert (V := two_valid n k ltac:(lia) ltac:(lia)). destruct (std_ok _ _ _ _ _ _ _ _ _ _ _ _ _ _ V H) as (pl & dims & coords & thr & _ & _ & _ & _ & Pl & _). exact Pl.
Qed.
Lemma two_flags root n ds sn : n = 366 -> std_run root n 1 exact_args = Ok (ds, Some sn) -> (forall d, 1 <= d <= 366 -> s_std sn 0 d = Some 1%Q) ->
  forall t, s_extreme sn t 0 = d_extreme ds t 0.
Proof.
  intros N H Sd. assert (V := two_valid n 1 ltac:(lia) ltac:(lia)).
  refine (C141_constant_std_same_flags _ _ _ _ _ _ _ _ _ _ _ (std_args exact_args) ds sn 0 1 V eq_refl H _ _ _); [lia|reflexivity|]. intros d D. exists 1%Q. rewrite Sd by exact D. split; reflexivity.
Qed.
Lemma two_converted n k j : converted_by (fun _ => j) (fun _ => 0%Q) (1 * 1) (two_years n k) (two_years n (j * k)).
Proof.
  split; [rewrite !two_length; reflexivity|]. intros t c T C. rewrite two_length in T. assert (c = 0) by lia. subst c. unfold finite_value. rewrite !two_step by lia. cbn [nth]. destruct (t <? n); ring.
Qed.
Definition unit_root (v : Q) : Q := if Qltb v 2 then 1%Q else 2%Q.
Lemma unit_root_1 v : (v == 1 * 1)%Q -> unit_root v = 1%Q.
Proof. intro E. unfold unit_root. assert (B : Qltb v 2 = true) by (apply Qltb_spec; lra). rewrite B. reflexivity. Qed.
Lemma unit_root_2 v : (v == 2 * 1 * (2 * 1))%Q -> unit_root v = 2%Q.
Proof. intro E. unfold unit_root. assert (B : Qltb v 2 = false) by (apply Qltb_false; lra). rewrite B. reflexivity. Qed.
Lemma small_root_1 v : (v == 1 * 1)%Q -> small_root v = 1%Q.
Proof. intro E. unfold small_root. assert (B : Qltb v (1 # 2) = false) by (apply Qltb_false; lra). rewrite B. reflexivity. Qed.
Definition tiny : Q := (1 # 100000000000)%Q.
Lemma small_root_2 v : (v == tiny * 1 * (tiny * 1))%Q -> small_root v = tiny.
Proof. intro E. unfold small_root. assert (B : Qltb v (1 # 2) = true) by (apply Qltb_spec; rewrite E; reflexivity). rewrite B. reflexivity. Qed.

(** As claimed, the units of the record do not matter.  False: a record with
    standard deviation 1 loses all its standardised anomalies and extremes when it
    is written in units that make the deviation 1e-11. *)
Theorem C140_small_units_refuted :
  exists root da da' cal s p ds ds' sn sn', valid_calendar (length da) cal /\ pinv_correct (two_pinv 366) [] cal p /\
    converted_by (fun _ => tiny) (fun _ => 0%Q) (1 * 1) da da' /\
    preprocess_std root (two_pinv 366) [] here here true 1 1 da cal s true p = Ok (ds, Some sn) /\
    preprocess_std root (two_pinv 366) [] here here true 1 1 da' cal s true p = Ok (ds', Some sn') /\
    (forall d, 1 <= d <= 366 -> times tiny (s_std sn 0 d) (s_std sn' 0 d)) /\
    (exists t, t < length da /\ s_extreme sn t 0 = true) /\
    (forall t, t < length da -> nth t (s_anomaly sn' 0) None = None /\ s_extreme sn' t 0 = false).
Proof.
  remember 366 as n eqn:N in |- * at 1 2 3.
  destruct (std_two small_root n 1 exact_args 1 N exact_planned small_root_1) as (ds & sn & H & Sd & _).
  destruct (std_two small_root n (tiny * 1) exact_args tiny N exact_planned small_root_2) as (ds' & sn' & H' & Sd' & An').
  assert (V := two_valid n 1 ltac:(lia) ltac:(lia)). assert (V' := two_valid n (tiny * 1) ltac:(lia) ltac:(lia)).
  exists small_root, (two_years n 1), (two_years n (tiny * 1)), (two_calendar n), no_zero_mean, (std_args exact_args), ds, ds', sn, sn'.
  split; [exact V|]. split; [apply two_pinv_correct; lia|]. split; [apply two_converted|]. split; [exact H|]. split; [exact H'|].
  split; [intros d D; rewrite Sd, Sd' by exact D; cbn [times]; ring|]. split.
  - destruct (two_flagged n 1 ds N (plain_of _ _ _ _ _ _ N H)) as (t & T & F). exists t. split; [rewrite two_length; exact T|].
    rewrite (two_flags _ _ _ _ N H Sd). exact F.
  - intros t T. rewrite two_length in T.
    assert (T' : t < length (two_years n (tiny * 1))) by (rewrite two_length; exact T).
    destruct (C138_standardised_fields _ _ _ _ _ _ _ _ _ _ _ _ _ _ V' H' t 0 T') as [F E]. cbv zeta in F.
    assert (No : nth t (s_anomaly sn' 0) None = None).
    { destruct (An' t ltac:(lia)) as (a & Ea & _). rewrite Ea in F. destruct F as (v & vars & _ & _ & St & _ & Sm). apply Sm.
      assert (Dd : 1 <= nth t (c_doys (two_calendar n)) 0 <= 366) by (destruct V' as (_ & _ & _ & Dr); apply Dr; exact T').
      rewrite (Sd' _ Dd) in St. injection St as St. rewrite <- St. discriminate. }
    split; [exact No|]. destruct (s_extreme sn' t 0) eqn:Ex; [|reflexivity]. exfalso. destruct (proj1 E eq_refl) as (z & th & Ez & _). congruence.
Qed.
Print Assumptions C140_small_units_refuted.

(** C138, C141: standard deviation 1 on every day, the flags of the plain run, some
    step flagged; with one-day windows too. *)
Example C138_case : exists n ds sn, n = 366 /\ valid_calendar (length (two_years n 1)) (two_calendar n) /\ std_run unit_root n 1 exact_args = Ok (ds, Some sn) /\
  (forall t, t < n + n -> exists z, nth t (s_anomaly sn 0) None = Some z /\ (z == if t <? 366 then 1 else -1)%Q) /\
  (exists t, t < n + n /\ s_extreme sn t 0 = true).
Proof.
  destruct (some_nat 366) as (n & N). exists n.
  destruct (std_two unit_root n 1 exact_args 1 N exact_planned unit_root_1) as (ds & sn & H & Sd & An). exists ds, sn. assert (V := two_valid n 1 ltac:(lia) ltac:(lia)).
  split; [exact N|]. split; [exact V|]. split; [exact H|]. split.
  - intros t T. assert (T' : t < length (two_years n 1)) by (rewrite two_length; exact T).
    assert (F := proj1 (C138_standardised_fields _ _ _ _ _ _ _ _ _ _ _ _ _ _ V H t 0 T')). cbv zeta in F. destruct (An t ltac:(lia)) as (a & Ea & Va). rewrite Ea in F.
    destruct F as (v & vars & _ & _ & St & Lg & _). assert (Dd : 1 <= nth t (c_doys (two_calendar n)) 0 <= 366) by (destruct V as (_ & _ & _ & Dr); apply Dr; exact T').
    rewrite (Sd _ Dd) in St. injection St as St. rewrite <- St in Lg. destruct (Lg eq_refl) as (z & Ez & Vz). exists z. split; [exact Ez|]. rewrite <- Va, <- Vz. ring.
  - destruct (two_flagged n 1 ds N (plain_of _ _ _ _ _ _ N H)) as (t & T & F). exists t. split; [exact T|].
    rewrite (two_flags _ _ _ _ N H Sd). exact F.
Qed.
(** C139: both years of 366 days succeed, years of 365 days raise. *)
Example C139_case :
  (exists n ds sn, n = 366 /\ std_run unit_root n 1 exact_args = Ok (ds, Some sn)) /\
  (exists n ds, n = 365 /\ valid_calendar (length (two_years n 1)) (two_calendar n) /\
     preprocess_data (two_pinv n) [] here here true 1 1 (two_years n 1) (two_calendar n) no_zero_mean (std_args exact_args) = Ok ds /\ std_run unit_root n 1 exact_args = Err DuplicateDays).
Proof.
  split.
  - destruct (some_nat 366) as (n & N). exists n. destruct (std_two unit_root n 1 exact_args 1 N exact_planned unit_root_1) as (ds & sn & H & _). exists ds, sn. split; [exact N|exact H].
  - destruct (some_nat 365) as (n & N). exists n. assert (V := two_valid n 1 ltac:(lia) ltac:(lia)). destruct (two_plain n 1 exact_args ltac:(lia) exact_planned) as (ds & H). exists ds. split; [exact N|]. split; [exact V|]. split; [exact H|].
    refine (C139_missing_day_raises_refuted _ _ _ _ _ _ _ _ _ _ _ (std_args exact_args) ds 366 V eq_refl H ltac:(lia) _). cbn [two_calendar c_doys]. intro I. apply in_app_or in I. destruct I as [I|I]; apply in_seq in I; lia.
Qed.
(** C140: the same record with doubled values. *)
Example C140_case : exists n ds sn ds' sn', n = 366 /\ pinv_correct (two_pinv n) [] (two_calendar n) (std_args exact_args) /\
  converted_by (fun _ => 2%Q) (fun _ => 0%Q) (1 * 1) (two_years n 1) (two_years n (2 * 1)) /\
  std_run unit_root n 1 exact_args = Ok (ds, Some sn) /\ std_run unit_root n (2 * 1) exact_args = Ok (ds', Some sn') /\
  (forall d, 1 <= d <= 366 -> s_std sn 0 d = Some 1%Q /\ s_std sn' 0 d = Some 2%Q) /\ (exists t, t < n + n /\ s_extreme sn t 0 = true /\ s_extreme sn' t 0 = true).
Proof.
  destruct (some_nat 366) as (n & N). exists n.
  destruct (std_two unit_root n 1 exact_args 1 N exact_planned unit_root_1) as (ds & sn & H & Sd & _).
  destruct (std_two unit_root n (2 * 1) exact_args 2 N exact_planned unit_root_2) as (ds' & sn' & H' & Sd' & _). exists ds, sn, ds', sn'. assert (V := two_valid n 1 ltac:(lia) ltac:(lia)).
  assert (Pc : pinv_correct (two_pinv n) [] (two_calendar n) (std_args exact_args)) by (apply two_pinv_correct; lia). assert (Cv := two_converted n 1 2).
  split; [exact N|]. split; [exact Pc|]. split; [exact Cv|]. split; [exact H|]. split; [exact H'|]. split; [intros d D; split; [apply Sd; exact D|apply Sd'; exact D]|].
  destruct (two_flagged n 1 ds N (plain_of _ _ _ _ _ _ N H)) as (t & T & F). exists t. split; [exact T|].
  assert (Ex : s_extreme sn t 0 = true).
  { rewrite (two_flags _ _ _ _ N H Sd). exact F. }
  split; [exact Ex|]. rewrite <- Ex.
  refine (proj2 (proj2 (C140_units_do_not_matter_partial _ _ _ _ _ _ _ _ _ _ _ no_zero_mean (std_args exact_args) ds ds' sn sn' (fun _ => 2%Q) (fun _ => 0%Q) V _ Pc _ Cv H H' _ _ 0 _)) t); [cbn; lia|intros; reflexivity| | |lia].
  - intros c d C D. assert (c = 0) by lia. subst c. rewrite Sd, Sd' by exact D. cbn [times]. reflexivity.
  - intros c d u v C D Eu Ev. assert (c = 0) by lia. subst c. rewrite Sd in Eu by exact D. rewrite Sd' in Ev by exact D. injection Eu as <-. injection Ev as <-. split; reflexivity.
Qed.
Example C141_case : exists n ds sn, n = 366 /\ std_run unit_root n 1 one_day_args = Ok (ds, Some sn) /\ (forall d, 1 <= d <= 366 -> s_std sn 0 d = Some 1%Q) /\
  forall t, t < n + n -> s_extreme sn t 0 = d_extreme ds t 0.
Proof.
  destruct (some_nat 366) as (n & N). exists n.
  destruct (std_two unit_root n 1 one_day_args 1 N one_day_planned unit_root_1) as (ds & sn & H & Sd & _). exists ds, sn. assert (V := two_valid n 1 ltac:(lia) ltac:(lia)).
  split; [exact N|]. split; [exact H|]. split; [exact Sd|]. intros t T. assert (T' : t < length (two_years n 1)) by (rewrite two_length; exact T).
  refine (C141_single_day_same_flags _ _ _ _ _ _ _ _ _ _ _ (std_args one_day_args) ds sn 0 V eq_refl eq_refl eq_refl H ltac:(lia) t T' _).
  intros v E. assert (Dd : 1 <= nth t (c_doys (two_calendar n)) 0 <= 366) by (destruct V as (_ & _ & _ & Dr); apply Dr; exact T'). rewrite (Sd _ Dd) in E. injection E as <-. reflexivity.
Qed.
