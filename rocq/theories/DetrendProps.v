(** Properties of detrending. *)
From Coq Require Import Lqa.
From Verif Require Import Base Filter Overlap OverlapProofs Partition Cluster ClusterFinal Detect DetectProofs Climatology ClimatologySpec ClimatologyProofs Detrend DetrendSpec DetrendProofs.
Open Scope nat_scope.

(** The matrix marEx inverts. *)
Notation model_matrix hs dy orders rh := (centred (model_components hs dy orders rh)).
Notation inverted pinv hs dy orders rh :=
  (pseudo_inverse (length (model_matrix hs dy orders rh)) (length dy)
     (entry (model_matrix hs dy orders rh)) (entry (pinv (model_matrix hs dy orders rh)))).

(** C54. *)
Theorem C54_orthogonal pinv hs dy orders rh fz x : length x = length dy -> inverted pinv hs dy orders rh ->
  let n := length dy in
  let r := fun t => nth t (detrend_values pinv hs dy orders rh fz x) 0%Q in
  (summation n r == 0)%Q /\
  (forall o c, In o orders -> (c * inject_Z (Z.of_nat n) == summation n (fun t => nth t dy 0))%Q ->
     (summation n (fun t => power (nth t dy 0 - c) o * r t) == 0)%Q) /\
  (rh = true -> forall h, In h hs -> (summation n (fun t => h (nth t dy 0) * r t) == 0)%Q).
Proof.
  intros L Pi n r. split; [|split].
  - assert (D := detrend_component pinv hs dy orders rh Pi fz x 0 L ltac:(cbn; lia)). rewrite <- D. apply sm_ext. intros t T. rewrite component0 by exact T. unfold r. ring.
  - intros o c I Ec. destruct (trend_component hs dy orders rh o I) as (i & Li & Ei).
    assert (D := detrend_component pinv hs dy orders rh Pi fz x i L Li). rewrite Ei in D. rewrite <- D. apply sm_ext. intros t T.
    rewrite (nth_map_gen _ dy t 0%Q) by exact T. rewrite power_powQ. apply Qmult_comp; [|reflexivity]. apply powQ_comp.
    assert (Em : (mean dy == c)%Q).
    { unfold mean. rewrite sumQ_nth. fold n. rewrite <- Ec. change (inject_Z (Z.of_nat n)) with (natQ n). field. apply natQ_nonzero. unfold n. lia. }
    rewrite Em. reflexivity.
  - intros -> h I. destruct (harmonic_component hs dy orders h I) as (i & Li & Ei).
    assert (D := detrend_component pinv hs dy orders true Pi fz x i L Li). rewrite Ei in D. rewrite <- D. apply sm_ext. intros t T.
    rewrite (nth_map_gen _ dy t 0%Q) by exact T. reflexivity.
Qed.
Print Assumptions C54_orthogonal.

Theorem C54_twice_is_once pinv hs dy orders rh fz x t : length x = length dy -> t < length dy -> inverted pinv hs dy orders rh ->
  (nth t (detrend_values pinv hs dy orders rh fz (detrend_values pinv hs dy orders rh fz x)) 0
   == nth t (detrend_values pinv hs dy orders rh fz x) 0)%Q.
Proof. intros L T Pi. apply detrend_twice; assumption. Qed.
Print Assumptions C54_twice_is_once.

(** force_zero_mean gives zero means whatever numbers the inversion came up with. *)
Theorem C54_zero_mean_forced pinv hs dy orders rh x : length x <> 0 ->
  (summation (length x) (fun t => nth t (detrend_values pinv hs dy orders rh true x) 0) == 0)%Q.
Proof.
  intro L. unfold detrend_values. set (r := residual _ _ x). assert (Lr : length r = length x) by apply residual_length.
  assert (E : (summation (length x) (fun t => nth t (zero_mean r) 0) == summation (length x) (fun t => nth t r 0 - mean r))%Q).
  { apply sm_ext. intros t T. unfold zero_mean. rewrite (nth_map_gen _ r t 0%Q) by lia. reflexivity. }
  rewrite E, sm_minus, sm_const, <- Lr, <- sumQ_nth. unfold mean. change (inject_Z (Z.of_nat (length r))) with (natQ (length r)). field. apply natQ_nonzero. lia.
Qed.
Print Assumptions C54_zero_mean_forced.

(** What is taken away is a combination of the requested components, and no other
    combination leaves less. *)
Theorem C54_least_squares pinv hs dy orders rh fz x y (coeff : nat -> Q) : length x = length dy -> length y = length dy ->
  inverted pinv hs dy orders rh ->
  (forall s, s < length dy -> (nth s y 0 == nth s x 0 +
     summation (length (model_components hs dy orders rh)) (fun i => coeff i * nth s (nth i (model_components hs dy orders rh) []) 0))%Q) ->
  (summation (length dy) (fun t => nth t (detrend_values pinv hs dy orders rh fz x) 0 * nth t (detrend_values pinv hs dy orders rh fz x) 0)
   <= summation (length dy) (fun t => nth t y 0 * nth t y 0))%Q.
Proof. intros Lx Ly Pi. apply least_squares; assumption. Qed.
Print Assumptions C54_least_squares.

(** Adding a multiple of a removed component to the data changes nothing, and
    neither does force_zero_mean. *)
Theorem C54_components_removed pinv hs dy orders rh fz fz' x y t c (component : Q -> Q) : length x = length dy -> length y = length dy -> t < length dy ->
  inverted pinv hs dy orders rh ->
  (forall q, component q = 1%Q) \/ (exists o, In o orders /\ forall q, component q = power (q - mean dy) o) \/ (rh = true /\ In component hs) ->
  (forall s, s < length dy -> (nth s y 0 == nth s x 0 + c * component (nth s dy 0))%Q) ->
  (nth t (detrend_values pinv hs dy orders rh fz y) 0 == nth t (detrend_values pinv hs dy orders rh fz' x) 0)%Q.
Proof.
  intros Lx Ly T Pi Hc E. rewrite (detrend_residual pinv hs dy orders rh Pi fz' x t Lx T), <- (detrend_residual pinv hs dy orders rh Pi fz x t Lx T).
  assert (I : exists i, i < length (model_components hs dy orders rh) /\ forall s, s < length dy -> nth s (nth i (model_components hs dy orders rh) []) 0%Q = component (nth s dy 0%Q)).
  { destruct Hc as [H|[(o & Io & H)|[-> H]]].
    - exists 0. split; [cbn; lia|]. intros s S0. rewrite component0 by exact S0. rewrite H. reflexivity.
    - destruct (trend_component hs dy orders rh o Io) as (i & Li & Ei). exists i. split; [exact Li|]. intros s S0. rewrite Ei, (nth_map_gen _ dy s 0%Q) by exact S0. rewrite H. reflexivity.
    - destruct (harmonic_component hs dy orders component H) as (i & Li & Ei). exists i. split; [exact Li|]. intros s S0. rewrite Ei, (nth_map_gen _ dy s 0%Q) by exact S0. reflexivity. }
  destruct I as (i & Li & Hi).
  apply (detrend_add pinv hs dy orders rh Pi fz x y (fun k => if Nat.eqb k i then c else 0%Q) t Lx Ly T).
  intros s S0. rewrite (E s S0), sm_indicator by exact Li. rewrite Hi by exact S0. reflexivity.
Qed.
Print Assumptions C54_components_removed.

(** Four yearly values, linear trend. *)
Definition four_years : list Q := [2000; 2001; 2002; 2003]%Q.
Definition pinv4 : matrix := [[1 # 4; -3 # 10]; [1 # 4; -1 # 10]; [1 # 4; 1 # 10]; [1 # 4; 3 # 10]]%Q.
Lemma pinv4_inverts : inverted (fun _ => pinv4) [] four_years [1] false.
Proof.
  unfold pseudo_inverse. split; [|split; [|split]]; intros i t I T;
  repeat (destruct i as [|i]; [|try (cbn in I; lia)]); repeat (destruct t as [|t]; [|try (cbn in T; lia)]); vm_compute; reflexivity.
Qed.
Example C54_case :
  inverted (fun _ => pinv4) [] four_years [1] false /\
  map Qred (detrend_values (fun _ => pinv4) [] four_years [1] false true [1; 4; 3; 8]%Q) = [0; 1; -2; 1]%Q.
Proof. split; [exact pinv4_inverts|vm_compute; reflexivity]. Qed.

(** C87: what becomes of missing values. *)
Theorem C87_complete_stays_complete_partial pinv hs dy orders rh fz (x : list Q) t : t < length x ->
  exists v, nth t (detrend pinv hs dy orders rh fz (map Some x)) None = Some v.
Proof.
  intro T. rewrite detrend_complete. exists (nth t (detrend_values pinv hs dy orders rh fz x) 0%Q).
  rewrite (nth_map_gen _ _ t 0%Q) by (rewrite detrend_length; exact T). reflexivity.
Qed.
Print Assumptions C87_complete_stays_complete_partial.

(** One missing value erases the whole series of the cell. *)
Theorem C87_one_gap_erases_series_refuted pinv hs dy orders rh fz data g t :
  g < length data -> nth g data None = None -> nth t (detrend pinv hs dy orders rh fz data) None = None.
Proof.
  intros G N. rewrite detrend_missing; [apply nth_all_none|]. apply existsb_exists. exists None. split; [rewrite <- N; apply nth_In; exact G|reflexivity].
Qed.
Print Assumptions C87_one_gap_erases_series_refuted.

Example C87_case :
  detrend (fun _ => pinv4) [] four_years [1] false true [Some 1; Some 4; None; Some 8]%Q = [None; None; None; None] /\
  nth 1 (fixed_baseline [1; 1; 1; 1] [Some 1; Some 4; None; Some 7]%Q) None = Some (0 # 3)%Q.
Proof. split; vm_compute; reflexivity. Qed.

(** C88: decimal years order days as the calendar does, advance by one per year,
    and never coincide for different days. *)
Theorem C88_decimal_year_order y1 e1 y2 e2 : (0 <= e1 < year_duration y1)%Z -> (0 <= e2 < year_duration y2)%Z ->
  ((decimal_year y1 e1 < decimal_year y2 e2)%Q <-> (days_before y1 + e1 < days_before y2 + e2)%Z).
Proof. apply decimal_lt. Qed.
Print Assumptions C88_decimal_year_order.

Theorem C88_year_boundary y : (decimal_year (y + 1) 0 == decimal_year y 0 + 1)%Q /\
  (decimal_year (y + 1) 0 - decimal_year y (year_duration y - 1) == 1 / inject_Z (days_before (y + 1) - days_before y))%Q.
Proof.
  split.
  - unfold decimal_year. rewrite inject_Z_plus. change (inject_Z 1) with 1%Q. change (inject_Z 0) with 0%Q. unfold Qdiv. ring.
  - rewrite duration_days. replace (days_before y + year_duration y - days_before y)%Z with (year_duration y) by lia.
    assert (D := duration_pos y). unfold decimal_year. unfold Zminus. rewrite !inject_Z_plus. rewrite inject_Z_opp. change (inject_Z 1) with 1%Q. change (inject_Z 0) with 0%Q.
    field. split; apply duration_nz.
Qed.
Print Assumptions C88_year_boundary.

Example C88_case : (decimal_year 2000 365 < decimal_year 2001 0)%Q /\ (days_before 2001 - days_before 2000 = 366)%Z /\
  (days_before 1901 - days_before 1900 = 365)%Z.
Proof. split; [reflexivity|]. split; reflexivity. Qed.

(** C89: detrend_fixed_baseline. *)
Theorem C89_zero_sum_by_day_partial pinv hs dy orders fz doys data d : length doys = length data ->
  (sum (samples (detrend_fixed_baseline pinv hs dy orders fz doys data) (fun i => Nat.eqb (nth i doys 0%nat) d)) == 0)%Q.
Proof.
  intro L. apply fixed_zero_sum. rewrite L. unfold detrend.
  destruct (forallb _ data) eqn:F; [|rewrite map_length; reflexivity]. rewrite map_length, detrend_length.
  clear L. induction data as [|v data IH]; [reflexivity|]. cbn in F. apply andb_prop in F. destruct F as [F1 F2]. destruct v; [|discriminate]. unfold present in *. cbn. rewrite (IH F2). reflexivity.
Qed.
Print Assumptions C89_zero_sum_by_day_partial.

(** What the anomalies are: the polynomial trend of the requested orders, and
    nothing else, is fitted and taken away; then the mean of the remainder on each
    day of the year.  The remainder is orthogonal to the trend. *)
Lemma sm_shift n f : (summation (S n) f == f 0%nat + summation n (fun k => f (S k)))%Q.
Proof. induction n as [|n IH]; [cbn; ring|]. cbn [summation] in *. rewrite IH. ring. Qed.
Lemma trend_rows hs dy orders k t : k < length orders -> t < length dy ->
  (entry (model_matrix hs dy orders false) (S k) t == powQ (nth t dy 0 - mean dy) (nth k orders 0%nat) - mean (map (fun y => powQ (y - mean dy) (nth k orders 0%nat)) dy))%Q.
Proof.
  intros K T.
  assert (L : S k < length (model_components hs dy orders false)) by (cbn; rewrite app_nil_r, map_length; lia).
  rewrite (other_row hs dy orders false (S k) t) by (auto; lia).
  assert (E : nth (S k) (model_components hs dy orders false) [] = map (fun y => powQ (y - mean dy) (nth k orders 0%nat)) dy).
  { unfold model_components. cbn [nth]. rewrite app_nil_r. rewrite (nth_map_gen _ orders k 0%nat) by exact K. reflexivity. }
  rewrite E, (nth_map_gen _ dy t 0%Q) by exact T. reflexivity.
Qed.
Theorem C89_trend_then_days_partial pinv hs dy orders fz doys x : length x = length dy -> length doys = length dy ->
  inverted pinv hs dy orders false ->
  let n := length dy in
  exists r (a0 : Q) (a : nat -> Q), length r = n /\
    (forall t, t < n -> (nth t r 0 == nth t x 0 - (a0 + summation (length orders) (fun k => a k * power (nth t dy 0 - mean dy) (nth k orders 0%nat))))%Q) /\
    (summation n (fun t => nth t r 0) == 0)%Q /\
    (forall o, In o orders -> (summation n (fun t => power (nth t dy 0 - mean dy) o * nth t r 0) == 0)%Q) /\
    (forall t, t < n -> exists c,
       mean_of (samples (map Some r) (fun i => Nat.eqb (nth i doys 0%nat) (nth t doys 0%nat))) (Some c) /\
       same (nth t (detrend_fixed_baseline pinv hs dy orders fz doys (map Some x)) None) (Some (nth t r 0 - c)%Q)).
Proof.
  intros L1 L2 Pi n. set (M := model_matrix hs dy orders false). set (r := detrend_values pinv hs dy orders false fz x).
  set (cf := coefficient (pinv M) x).
  exists r, (cf 0%nat - summation (length orders) (fun k => cf (S k) * mean (map (fun y => powQ (y - mean dy) (nth k orders 0%nat)) dy)))%Q, (fun k => cf (S k)).
  assert (Lr : length r = n) by (unfold r; rewrite detrend_length; exact L1). split; [exact Lr|].
  destruct (C54_orthogonal pinv hs dy orders false fz x L1 Pi) as (O1 & O2 & _). split; [|split; [exact O1|split]].
  - intros t T. unfold r. rewrite (detrend_residual pinv hs dy orders false Pi fz x t L1 T). fold M. unfold residual.
    rewrite (nth_map_gen _ (seq 0 (length x)) t 0%nat) by (rewrite seq_length; lia). rewrite seq_nth by lia. cbn [Nat.add].
    unfold fitted. rewrite sumQ_sm. fold cf.
    assert (LM : length M = S (length orders)) by (unfold M; rewrite centred_length; cbn; rewrite app_nil_r, map_length; reflexivity).
    rewrite LM, sm_shift. unfold M at 1. rewrite (first_row hs dy orders false t T).
    rewrite (sm_ext (length orders) _ (fun k => cf (S k) * power (nth t dy 0 - mean dy) (nth k orders 0%nat) - cf (S k) * mean (map (fun y => powQ (y - mean dy) (nth k orders 0%nat)) dy))%Q).
    2: { intros k K. unfold M. rewrite (trend_rows hs dy orders k t K T). fold cf. assert (Pw := power_powQ (nth t dy 0 - mean dy)%Q (nth k orders 0%nat)). cbv beta. rewrite Pw. ring. }
    rewrite sm_minus. ring.
  - intros o I. apply (O2 o (mean dy) I). unfold mean. rewrite sumQ_nth. fold n. change (inject_Z (Z.of_nat n)) with (natQ n).
    destruct (Nat.eq_dec n 0) as [Z|Z]; [rewrite Z; reflexivity|]. field. apply natQ_nonzero. lia.
  - intros t T. unfold detrend_fixed_baseline. rewrite detrend_complete. fold r.
    assert (Ls : length doys = length (map Some r)) by (rewrite map_length, Lr, L2; reflexivity).
    rewrite fixed_nth; [|exact Ls|rewrite map_length, Lr; exact T].
    rewrite (nth_map_gen _ r t 0%Q) by (rewrite Lr; exact T).
    assert (Mn := nanmean_mean (map (fun i => nth i (map Some r) None) (filter (fun i => Nat.eqb (nth i doys 0%nat) (nth t doys 0%nat)) (seq 0 (length (map Some r)))))).
    rewrite <- daily_samples, present_samples in Mn by exact Ls.
    destruct (daily_climatology doys (map Some r) (nth t doys 0%nat)) as [c|].
    + exists c. split; [exact Mn|]. cbn. reflexivity.
    + exfalso. cbn in Mn. unfold samples in Mn.
      assert (J : In (nth t r 0%Q) (flat_map (fun i => if Nat.eqb (nth i doys 0%nat) (nth t doys 0%nat) then match nth i (map Some r) None with Some q => [q] | None => [] end else []) (seq 0 (length (map Some r))))).
      { apply in_flat_map. exists t. split; [apply in_seq; rewrite map_length, Lr; lia|]. rewrite Nat.eqb_refl, (nth_map_gen _ r t 0%Q) by (rewrite Lr; exact T). left. reflexivity. }
      rewrite Mn in J. destruct J.
Qed.
Print Assumptions C89_trend_then_days_partial.

(** Subtracting the climatology brings a trend back. *)
Theorem C89_trend_returns_refuted : exists pinv dy doys x,
  inverted pinv [] dy [1] false /\ length x = length dy /\ length doys = length dy /\
  exists r, detrend_fixed_baseline pinv [] dy [1] true doys (map Some x) = map Some r /\
  ~ (summation (length dy) (fun t => (nth t dy 0 - mean dy) * nth t r 0) == 0)%Q.
Proof.
  exists (fun _ => pinv4), four_years, [1; 2; 1; 2], [-1; 3; -3; 1]%Q.
  split; [exact pinv4_inverts|]. split; [reflexivity|]. split; [reflexivity|]. exists (present (detrend_fixed_baseline (fun _ => pinv4) [] four_years [1] true [1; 2; 1; 2] (map Some [-1; 3; -3; 1]%Q))). split; [vm_compute; reflexivity|]. vm_compute. discriminate.
Qed.
Print Assumptions C89_trend_returns_refuted.

Example C89_case :
  map (option_map Qred) (detrend_fixed_baseline (fun _ => pinv4) [] four_years [1] true [1; 2; 1; 2] (map Some [-1; 3; -3; 1]%Q)) = [Some 1; Some 1; Some (-1); Some (-1)]%Q.
Proof. vm_compute. reflexivity. Qed.

(** C90: the standard deviation used by std_normalise. *)
Theorem C90_std_window_partial doys data d : length doys = length data ->
  (forall d, 1 <= d <= 366 -> samples data (fun i => Nat.eqb (nth i doys 0) d) <> []) -> 1 <= d <= 366 ->
  length (std_table doys data) = 366 /\
  exists v vars, nth (d - 1) (std_table doys data) (0, None) = (d, Some v) /\
    (forall e, 1 <= e <= 366 -> variance_of (samples data (fun i => Nat.eqb (nth i doys 0) e)) (vars e)) /\
    (v * 30 == summation 30 (fun k => vars (1 + (d + 350 + k) mod 366)%nat))%Q.
Proof.
  intros L H D. destruct (std_value doys data d L H D) as (v & vars & E & R). split; [|exists v, vars; split; [exact E|exact R]].
  rewrite std_table_length. destruct (Nat.leb_spec 350 (length (days_present doys))) as [G|G]; [lia|exfalso].
  assert (Nd : NoDup (seq 1 366)) by apply seq_NoDup.
  assert (I : incl (seq 1 366) (days_present doys)).
  { intros e Ie. apply in_seq in Ie. apply days_present_In. split; [lia|]. specialize (H e ltac:(lia)).
    destruct (samples data (fun i => Nat.eqb (nth i doys 0) e)) as [|x l] eqn:S0; [congruence|].
    assert (J : In x (samples data (fun i => Nat.eqb (nth i doys 0) e))) by (rewrite S0; left; reflexivity).
    unfold samples in J. apply in_flat_map in J. destruct J as (i & J1 & J2). apply in_seq in J1. destruct (Nat.eqb_spec (nth i doys 0) e) as [<-|]; [|destruct J2]. apply nth_In. lia. }
  assert (Le := NoDup_incl_length Nd I). rewrite seq_length in Le. lia.
Qed.
Print Assumptions C90_std_window_partial.

(** A record that never visits some day of the year (no 29 February among leap
    years, a 365-day calendar) gets a table in which a day occurs twice. *)
Theorem C90_missing_day_duplicates_refuted doys data d0 d : In d0 doys -> 1 <= d0 <= 366 -> 1 <= d <= 366 -> ~ In d doys ->
  exists i j, i < j < length (std_table doys data) /\ fst (nth i (std_table doys data) (0, None)) = fst (nth j (std_table doys data) (0, None)).
Proof.
  intros I0 B0 B N. apply duplicate_labels. split.
  - assert (J : In d0 (days_present doys)) by (apply days_present_In; split; assumption). destruct (days_present doys); [destruct J|cbn; lia].
  - unfold days_present. rewrite <- (seq_length 366 1) at 2. apply (filter_short _ _ d); [apply in_seq; lia|].
    destruct (existsb (Nat.eqb d) doys) eqn:E; [exfalso|reflexivity]. apply existsb_exists in E. destruct E as (e & Ie & Ee). apply Nat.eqb_eq in Ee. subst e. exact (N Ie).
Qed.
Print Assumptions C90_missing_day_duplicates_refuted.

Example C90_case :
  map (fun i => fst (nth i (std_table [1; 2; 3] [Some 1; Some 2; Some 5]%Q) (0, None))) [0; 1; 2; 3] = [1; 2; 3; 1].
Proof. vm_compute. reflexivity. Qed.
