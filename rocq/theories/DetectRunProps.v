(** Property theorems C115 to C121: whole runs of preprocess_data. *)
From Coq Require Import String Qround Lqa.
From Verif Require Import Base Filter FilterProofs FilterMoreProofs Overlap OverlapProofs Partition PartitionProofs Cluster ClusterProofs ClusterFinal Detect DetectProofs DetectProps
  Climatology ClimatologySpec ClimatologyProofs Detrend DetrendSpec DetrendProofs Histogram HistogramProofs HistogramProps DetectRun DetectRunSpec DetectRunProofs.
Open Scope string_scope.
Open Scope list_scope.
Open Scope nat_scope.

(** A calendar for [n] time steps. *)
Definition valid_calendar (n : nat) (cal : calendar) : Prop :=
  length (c_years cal) = n /\ length (c_doys cal) = n /\ length (c_decimal cal) = n /\
  forall t, t < n -> 1 <= nth t (c_doys cal) 0 <= 366.

Section Run.
Variables (pinv : matrix -> matrix) (hs : list (Q -> Q)) (dd dc : list string) (dask : bool) (ny nx : nat).
Notation run da cal s p := (preprocess_data pinv hs dd dc dask ny nx da cal s p).

(** ** C115: masked cells *)

(** Cells that are missing at the first time step are never flagged, for the
    detrending methods and for the fixed baseline with approximate percentiles. *)
Theorem C115_masked_cells_not_extreme_partial da cal s p ds c :
  valid_calendar (length da) cal -> run da cal s p = Ok ds -> c < ny * nx -> d_mask ds c = false ->
  (p_method p = "detrend_harmonic" \/ p_method p = "detrend_fixed_baseline" \/
   (p_method p = "fixed_baseline" /\ a_method_percentile (p_extreme p) = "approximate")) ->
  forall t, d_extreme ds t c = false.
Proof.
  intros (L1 & L2 & L3 & Dr) H C Mk Me t. destruct (run_ok _ _ _ _ _ _ _ _ _ _ _ _ H) as (m & keep & pl & dims & coords & thr & P & I & Ne & T & _ & _ & ->).
  cbn [d_mask d_extreme] in *. set (orders := map Z.to_nat _) in *.
  destruct (C85_preprocess_checks_everything _ _ _ _ _ _ _ _ _ _ P) as (dims' & coords' & _ & _ & _ & _ & (i0 & I0 & F0) & _ & Mm & _ & _ & In0).
  assert (Pos : 0 < length da).
  { apply finite_at_value in F0. destruct da; [|cbn; lia]. unfold finite_value in F0. cbn in F0. destruct i0; congruence. }
  assert (M0 : nth 0 (cell_series da c) None = None) by (unfold ocean in Mk; destruct (nth 0 (cell_series da c) None); [discriminate|reflexivity]).
  assert (Kp := plan_keep _ _ _ _ _ _ _ _ _ _ P).
  assert (Al : forall l : series, all_missing l -> exceeds (nth t (select keep l) None) (thr c (nth t (select keep (c_doys cal)) 0)) = false).
  { intros l A. rewrite all_missing_nth; [reflexivity|]. intros v V. apply A. apply select_In in V. exact V. }
  destruct m; cbn [anomaly_series].
  - apply Al. apply (detrend_hole _ _ _ _ _ _ _ 0); [rewrite cell_length; exact Pos|exact M0].
  - exfalso. destruct Me as [E|[E|[E _]]]; rewrite Mm in E; discriminate.
  - assert (Ap : a_method_percentile (p_extreme p) = "approximate") by (destruct Me as [E|[E|[_ E]]]; [rewrite Mm in E; discriminate|rewrite Mm in E; discriminate|exact E]).
    cbn [anomaly_series] in T.
    assert (Sel : forall l : series, length l = length da -> select keep l = l) by (intros l Ll; rewrite Kp; apply select_all; lia).
    assert (N0 : nth 0 (select keep (fixed_baseline (c_doys cal) (cell_series da c))) None = None).
    { rewrite Sel by (rewrite fixed_length; rewrite cell_length; lia). rewrite fixed_nth by (rewrite cell_length; lia). rewrite M0. reflexivity. }
    destruct pl as [q|q pr mx|q d|q pr mx d ws]; cbn [intended run_thresholds] in *.
    + destruct In0 as (_ & E & _). rewrite Ap in E. discriminate.
    + injection T as <-. unfold global_threshold.
      assert (Ex : existsb (fun v : option Q => match v with None => true | Some _ => false end) (select keep (fixed_baseline (c_doys cal) (cell_series da c))) = true).
      { apply existsb_exists. exists (nth 0 (select keep (fixed_baseline (c_doys cal) (cell_series da c))) None). split; [|rewrite N0; reflexivity].
        apply nth_In. rewrite Sel by (rewrite fixed_length; rewrite cell_length; lia). rewrite fixed_length; rewrite cell_length; lia. }
      rewrite Ex. apply exceeds_no_threshold.
    + destruct In0 as (_ & E & _). rewrite Ap in E. discriminate.
    + destruct (Z.ltb d 1); [discriminate|]. cbv zeta in T. rewrite hobday_shape in T. destruct (Nat.eqb (shape_length (Z.to_nat d)) 366) eqn:Sh; [|discriminate].
      injection T as <-. cbv beta. rewrite hobday_shape, Sh. rewrite cell_of by lia. rewrite N0.
      match goal with |- exceeds _ (nth _ (map ?f ?l) None) = false => assert (A : all_missing (map f l)) by (intros v V; apply in_map_iff in V; destruct V as (? & <- & _); reflexivity) end.
      rewrite (all_missing_nth _ _ A). apply exceeds_no_threshold.
  - apply Al. apply fixed_all_missing. apply (detrend_hole _ _ _ _ _ _ _ 0); [rewrite cell_length; exact Pos|exact M0].
Qed.

(** ** C116: ocean cells *)

(** Every ocean cell has an anomaly at every time step, and a threshold for every
    day that occurs, unless the baseline is a shifting one; the thresholds of
    approximate day-of-year percentiles are the subject of C57. *)
Theorem C116_ocean_cells_complete_partial da cal s p ds c :
  valid_calendar (length da) cal -> run da cal s p = Ok ds -> c < ny * nx -> d_mask ds c = true -> p_method p <> "shifting_baseline" ->
  length (d_anomaly ds c) = length da /\ d_doys ds = c_doys cal /\
  forall t, t < length da ->
    nth t (d_anomaly ds c) None <> None /\
    ((a_method (p_extreme p) = "global_extreme" \/ a_method_percentile (p_extreme p) = "exact") -> d_threshold ds c (nth t (d_doys ds) 0) <> None).
Proof.
  intros (L1 & L2 & L3 & Dr) H C Mk Me. destruct (run_ok _ _ _ _ _ _ _ _ _ _ _ _ H) as (m & keep & pl & dims & coords & thr & P & I & Ne & T & _ & _ & ->).
  cbn [d_mask d_extreme d_anomaly d_doys d_threshold] in *. set (orders := map Z.to_nat _) in *.
  destruct (C85_preprocess_checks_everything _ _ _ _ _ _ _ _ _ _ P) as (dims' & coords' & _ & _ & _ & _ & _ & Gf & Mm & _ & _ & In0).
  assert (Kp := plan_keep _ _ _ _ _ _ _ _ _ _ P).
  assert (Pos : 0 < length da).
  { destruct da; [|cbn; lia]. cbn in Mk. discriminate. }
  assert (Ka : keep = map (fun _ => true) (c_years cal)) by (destruct m; auto; congruence).
  assert (Cs : exists x, cell_series da c = map Some x).
  { apply complete_series. intros t Tt. rewrite cell_length in Tt. rewrite cell_nth by exact Tt. apply finite_at_value. apply Gf; auto.
    apply finite_at_value. unfold ocean in Mk. rewrite cell_nth in Mk by exact Pos. destruct (finite_value da 0 c); [discriminate|discriminate]. }
  destruct Cs as [x Cx].
  assert (Lx : length x = length da) by (rewrite <- (cell_length da c), Cx, map_length; reflexivity).
  set (A := anomaly_series pinv hs m orders (p_window p) cal s (cell_series da c)) in *.
  assert (La : length A = length da) by (unfold A; rewrite anomaly_length; rewrite cell_length; lia).
  assert (Fx : forall y, length y = length da -> forall t, t < length da -> nth t (fixed_baseline (c_doys cal) (map Some y)) None <> None).
  { intros y Ly t Tt E. rewrite fixed_nth in E by (rewrite map_length; lia).
    assert (S1 : nth t (map Some y) None = Some (nth t y 0%Q)) by (apply (nth_map_gen Some); lia). rewrite S1 in E.
    destruct (daily_climatology (c_doys cal) (map Some y) (nth t (c_doys cal) 0)) eqn:Dc; [discriminate|].
    destruct (daily_some (c_doys cal) (map Some y) t (nth t y 0%Q)) as [v0 Ds]; [rewrite map_length; lia|rewrite map_length; lia|exact S1|congruence]. }
  assert (An : forall t, t < length da -> nth t A None <> None).
  { intros t Tt. unfold A. rewrite Cx. destruct m; cbn [anomaly_series].
    - rewrite detrend_complete. rewrite (nth_map_gen Some _ t 0%Q) by (rewrite detrend_length; lia). discriminate.
    - exfalso. apply Me. exact Mm.
    - apply Fx; auto.
    - unfold detrend_fixed_baseline. rewrite detrend_complete. apply Fx; auto. rewrite detrend_length. exact Lx. }
  assert (SA : select keep A = A) by (rewrite Ka; apply select_all; lia).
  assert (SD : select keep (c_doys cal) = c_doys cal) by (rewrite Ka; apply select_all; lia).
  change (anomaly_series pinv hs m orders (p_window p) cal s (cell_series da c)) with A. rewrite SA, SD. split; [exact La|]. split; [reflexivity|].
  intros t Tt. split; [apply An; exact Tt|]. intro Kind.
  destruct (complete_series A) as [a Aa]; [intros u U; apply An; lia|].
  destruct pl as [q|q pr mx|q d|q pr mx d ws]; cbn [intended run_thresholds] in *.
  - destruct (_ || _); [|discriminate]. injection T as <-. cbv beta. fold A. rewrite SA. intro E. apply C91_exact_threshold_exists with (v := nth t A None) in E; [exact (An t Tt E)|].
    apply nth_In. lia.
  - injection T as <-. cbv beta. fold A. rewrite SA. unfold global_threshold. rewrite Aa.
    assert (Ex : existsb (fun v : option Q => match v with None => true | Some _ => false end) (map Some a) = false) by (clear; induction a; [reflexivity|exact IHa]).
    rewrite Ex. discriminate.
  - destruct (Z.ltb_spec d 1); [discriminate|]. injection T as <-. cbv beta. fold A. rewrite SA, SD. unfold exact_day_threshold.
    intro E. unfold quantile in E.
    assert (Iv : exists v, In v (present (flat_map (fun t0 => if Nat.eqb (nth t0 (c_doys cal) 0) (nth t (c_doys cal) 0) then window_values (Z.to_nat d) A t0 else []) (seq 0 (length (c_doys cal)))))).
    { destruct (nth t A None) as [v|] eqn:Av; [|exfalso; exact (An t Tt Av)]. exists v. unfold present. apply in_flat_map. exists (Some v). split; [|left; reflexivity].
      apply in_flat_map. exists t. split; [apply in_seq; lia|]. rewrite Nat.eqb_refl. unfold window_values. apply in_map_iff. exists (Z.to_nat d / 2).
      assert (Hh : Z.to_nat d / 2 < Z.to_nat d) by (apply Nat.div_lt; lia).
      split; [|apply in_seq; lia]. destruct (Nat.ltb_spec (t + Z.to_nat d / 2) (Z.to_nat d / 2)); [lia|]. rewrite <- Av. f_equal. lia. }
    destruct Iv as [v Iv]. destruct (present _); [destruct Iv|discriminate].
  - destruct In0 as (E1 & E2 & _). exfalso. destruct Kind as [K|K]; rewrite K in *; discriminate.
Qed.
(** With approximate global percentiles one missing anomaly is enough: the cell has
    no threshold and is never flagged. *)
Theorem C116_missing_anomaly_silences da cal s p ds c :
  run da cal s p = Ok ds -> a_method (p_extreme p) = "global_extreme" -> a_method_percentile (p_extreme p) = "approximate" ->
  (exists t, t < length (d_anomaly ds c) /\ nth t (d_anomaly ds c) None = None) ->
  forall t day, d_threshold ds c day = None /\ d_extreme ds t c = false.
Proof.
  intros H G A (t0 & L0 & N0) t day. destruct (run_ok _ _ _ _ _ _ _ _ _ _ _ _ H) as (m & keep & pl & dims & coords & thr & P & I & Ne & T & _ & _ & ->).
  cbn [d_mask d_extreme d_anomaly d_doys d_threshold] in *.
  destruct (C85_preprocess_checks_everything _ _ _ _ _ _ _ _ _ _ P) as (dims' & coords' & _ & _ & _ & _ & _ & _ & _ & _ & _ & In0).
  destruct pl as [q|q pr mx|q d|q pr mx d ws]; cbn [intended run_thresholds] in *; try (destruct In0 as (E1 & E2 & _); congruence).
  injection T as <-. cbv beta. unfold global_threshold.
  match goal with |- context [existsb ?f ?l] => assert (Ex : existsb f l = true) end.
  { apply existsb_exists. eexists. split; [apply nth_In; exact L0|]. rewrite N0. reflexivity. }
  rewrite Ex. split; [reflexivity|apply exceeds_no_threshold].
Qed.

(** ** C117: signals the chosen baseline removes *)

(** [signal] (by time step) is of the kind that the method removes. *)
Definition removed_by (cal : calendar) (p : pre_args) (signal : nat -> Q) : Prop :=
  let n := length (c_years cal) in
  let orders := map Z.to_nat (match p_orders p with None => [1%Z] | Some o => o end) in
  let y t := nth t (c_decimal cal) 0%Q in
  (p_method p = "fixed_baseline" /\ exists cycle : nat -> Q, forall t, t < n -> (signal t == cycle (nth t (c_doys cal) 0%nat))%Q) \/
  (p_method p = "shifting_baseline" /\ exists k, forall t, t < n -> (signal t == k)%Q) \/
  (p_method p = "detrend_harmonic" /\ exists a b g, forall t, t < n -> (signal t == trend a b (mean (c_decimal cal)) orders (y t) + oscillation g hs (y t))%Q) \/
  (p_method p = "detrend_fixed_baseline" /\ exists a b, forall t, t < n -> (signal t == trend a b (mean (c_decimal cal)) orders (y t))%Q).

(** np.linalg.pinv inverts the model that is fitted, if one is. *)
Definition pinv_correct (cal : calendar) (p : pre_args) : Prop :=
  let orders := map Z.to_nat (match p_orders p with None => [1%Z] | Some o => o end) in
  forall rh : bool, p_method p = (if rh then "detrend_harmonic" else "detrend_fixed_baseline") -> let M := centred (model_components hs (c_decimal cal) orders rh) in
    pseudo_inverse (length M) (length (c_decimal cal)) (entry M) (entry (pinv M)).

Lemma anomalies_same da da' cal s p m signal c : valid_calendar (length da) cal -> 0 < s_smooth s -> pinv_correct cal p -> offset_by signal (ny * nx) da da' ->
  c < ny * nx -> removed_by cal p (fun t => signal t c) ->
  match m with AShifting => p_method p = "shifting_baseline" | AFixed => p_method p = "fixed_baseline"
             | ADetrend => p_method p = "detrend_harmonic" | ADetrendFixed => p_method p = "detrend_fixed_baseline" end ->
  Forall2 same (anomaly_series pinv hs m (map Z.to_nat (match p_orders p with None => [1%Z] | Some o => o end)) (p_window p) cal s (cell_series da' c))
               (anomaly_series pinv hs m (map Z.to_nat (match p_orders p with None => [1%Z] | Some o => o end)) (p_window p) cal s (cell_series da c)).
Proof.
  intros (L1 & L2 & L3 & Dr) Sm Pi [Lo Of] C Re Mm. set (orders := map Z.to_nat _) in *.
  assert (Rl : forall t, t < length da -> rel (signal t c) (nth t (cell_series da c) None) (nth t (cell_series da' c) None)).
  { intros t T. rewrite !cell_nth by lia. exact (Of t c T C). }
  assert (Rc : forall t k, t < length da -> (signal t c == k)%Q -> rel k (nth t (cell_series da c) None) (nth t (cell_series da' c) None)).
  { intros t k T E. specialize (Rl t T). destruct (nth t (cell_series da c) None), (nth t (cell_series da' c) None); cbn in *; auto. rewrite Rl, E. reflexivity. }
  unfold removed_by in Re. cbv zeta in Re. fold orders in Re.
  destruct m; cbn [anomaly_series]; rewrite Mm in Re; destruct Re as [[E R]|[[E R]|[[E R]|[E R]]]]; try discriminate; clear E.
  - destruct R as (a & b & g & R). apply (detrend_signal pinv hs (c_decimal cal) orders true _ _ _ a b g); try (rewrite cell_length; lia); [apply (Pi true Mm)|].
    intros t T. apply Rc; [lia|]. apply R. lia.
  - destruct R as (k & R). apply (Forall2_nth_iff same _ _ None None).
    assert (Ls : forall d, length (cell_series d c) = length da -> length (shifting_baseline (p_window p) (s_smooth s) (c_years cal) (c_doys cal) (cell_series d c)) = length da).
    { intros d Ld. assert (A := anomaly_length pinv hs AShifting orders (p_window p) cal s (cell_series d c)). cbn [anomaly_series] in A. rewrite A; lia. }
    rewrite !Ls by (rewrite cell_length; lia). split; [reflexivity|]. intros t T.
    refine (shifting_constant k _ _ _ _ (cell_series da c) (cell_series da' c) Sm _ _ _ _ _ t _); rewrite ?cell_length; try lia; [intros i I; apply Dr; lia|].
    intros i I. apply Rc; [lia|]. apply R. lia.
  - destruct R as (cycle & R). apply (Forall2_nth_iff same _ _ None None). rewrite !fixed_length, !cell_length by (rewrite cell_length; lia). split; [lia|]. intros t T.
    apply (fixed_seasonal cycle); try (rewrite !cell_length; lia). intros i I. rewrite cell_length in I. apply Rc; [lia|]. apply R. lia.
  - destruct R as (a & b & R). unfold detrend_fixed_baseline.
    assert (Sd : Forall2 same (detrend pinv hs (c_decimal cal) orders false (s_zero_mean s) (cell_series da' c)) (detrend pinv hs (c_decimal cal) orders false (s_zero_mean s) (cell_series da c))).
    { apply (detrend_signal pinv hs (c_decimal cal) orders false _ _ _ a b (fun _ => 0%Q)); try (rewrite cell_length; lia); [apply (Pi false Mm)|].
      intros t T. apply Rc; [lia|]. rewrite Qplus_0_r. apply R. lia. }
    apply fixed_same; [|exact Sd].
    assert (Ld := anomaly_length pinv hs ADetrend orders 0 cal s (cell_series da c)). cbn [anomaly_series] in Ld.
    assert (Le : length (detrend pinv hs (c_decimal cal) orders false (s_zero_mean s) (cell_series da c)) = length da).
    { assert (Lf := anomaly_length pinv hs ADetrendFixed orders 0 cal s (cell_series da c)). cbn [anomaly_series] in Lf.
      unfold detrend. destruct (forallb _ (cell_series da c)) eqn:Fb; rewrite map_length; [|apply cell_length]. rewrite detrend_length.
      destruct (complete_series (cell_series da c)) as [x Ex]; [|rewrite Ex, present_map_some; rewrite <- (cell_length da c), Ex, map_length; reflexivity].
      intros t T N. rewrite forallb_forall in Fb. specialize (Fb _ (nth_In _ None T)). rewrite N in Fb. discriminate. }
    rewrite Le. exact L2.
Qed.

Lemma kind_weaken (m : anomaly) p : match m with
    | AShifting => p_method p = "shifting_baseline"
    | AFixed => p_method p = "fixed_baseline"
    | ADetrend => p_method p = "detrend_harmonic" /\ forall o, p_orders p = Some o -> o <> [] /\ forall k, In k o -> (1 <= k)%Z
    | ADetrendFixed => p_method p = "detrend_fixed_baseline" /\ forall o, p_orders p = Some o -> o <> [] /\ forall k, In k o -> (1 <= k)%Z
    end -> match m with AShifting => p_method p = "shifting_baseline" | AFixed => p_method p = "fixed_baseline"
             | ADetrend => p_method p = "detrend_harmonic" | ADetrendFixed => p_method p = "detrend_fixed_baseline" end.
Proof. destruct m; tauto. Qed.

Theorem C117_removed_signals_change_nothing da da' cal s p ds signal :
  valid_calendar (length da) cal -> 0 < s_smooth s -> pinv_correct cal p ->
  offset_by signal (ny * nx) da da' -> (forall c, c < ny * nx -> removed_by cal p (fun t => signal t c)) ->
  run da cal s p = Ok ds ->
  exists ds', run da' cal s p = Ok ds' /\ d_years ds' = d_years ds /\ d_doys ds' = d_doys ds /\
    forall c, c < ny * nx ->
      d_mask ds' c = d_mask ds c /\
      (forall t, same (nth t (d_anomaly ds' c) None) (nth t (d_anomaly ds c) None)) /\
      (forall day, same (d_threshold ds' c day) (d_threshold ds c day)) /\
      (forall t, d_extreme ds' t c = d_extreme ds t c).
Proof.
  intros Vc Sm Pi Of Re H. destruct (run_ok _ _ _ _ _ _ _ _ _ _ _ _ H) as (m & keep & pl & dims & coords & thr & P & I & Ne & T & Hx & Hy & ->).
  cbn [d_mask d_extreme d_anomaly d_doys d_threshold d_years] in *.
  destruct (C85_preprocess_checks_everything _ _ _ _ _ _ _ _ _ _ P) as (dims' & coords' & _ & _ & _ & _ & (i0 & I0 & F0) & _ & Mm & _ & _ & In0).
  apply kind_weaken in Mm.
  assert (Pos : 0 < length da).
  { apply finite_at_value in F0. destruct da; [|cbn; lia]. unfold finite_value in F0. cbn in F0. destruct i0; congruence. }
  assert (Sa : forall c, c < ny * nx -> Forall2 same
     (select keep (anomaly_series pinv hs m (map Z.to_nat (match p_orders p with None => [1%Z] | Some o => o end)) (p_window p) cal s (cell_series da c)))
     (select keep (anomaly_series pinv hs m (map Z.to_nat (match p_orders p with None => [1%Z] | Some o => o end)) (p_window p) cal s (cell_series da' c)))).
  { intros c C. apply select_Forall2. assert (A := anomalies_same da da' cal s p m signal c Vc Sm Pi Of C (Re c C) Mm).
    clear - A. induction A; constructor; [apply same_sym; assumption|assumption]. }
  assert (P' := plan_transfer _ _ _ _ _ da' _ _ _ P (offset_valid _ _ _ _ Of (plan_valid _ _ _ _ _ _ _ _ P))).
  match type of T with run_thresholds _ _ _ _ ?an _ = _ => destruct (thresholds_local _ _ _ _ an
    (fun c => select keep (anomaly_series pinv hs m (map Z.to_nat (match p_orders p with None => [1%Z] | Some o => o end)) (p_window p) cal s (cell_series da' c))) _ _ T) as (thr' & T' & Lc) end.
  assert (St : forall c, c < ny * nx -> forall day, same (thr c day) (thr' c day)).
  { intros c C. apply Lc; [exact C|]. intros y' x' N. apply Sa. apply near_cell in N. exact N. }
  unfold preprocess_data. rewrite P', I. cbv zeta. destruct (select keep (c_doys cal)) as [|d0 dr] eqn:D; [congruence|]. rewrite T'. cbn [bind]. rewrite Hx, Hy. cbn [negb].
  eexists. split; [reflexivity|]. cbn [d_mask d_extreme d_anomaly d_doys d_threshold d_years]. split; [reflexivity|]. split; [reflexivity|]. intros c C.
  assert (Nt : forall t, same
     (nth t (select keep (anomaly_series pinv hs m (map Z.to_nat (match p_orders p with None => [1%Z] | Some o => o end)) (p_window p) cal s (cell_series da' c))) None)
     (nth t (select keep (anomaly_series pinv hs m (map Z.to_nat (match p_orders p with None => [1%Z] | Some o => o end)) (p_window p) cal s (cell_series da c))) None)).
  { intro t. destruct (proj1 (Forall2_nth_iff same _ _ None None) (Sa c C)) as [Ll N].
    match type of Ll with length ?l = _ => destruct (Nat.lt_ge_cases t (length l)) as [Lt|Ge] end; [apply same_sym, N; exact Lt|]. rewrite !nth_overflow by lia. exact Logic.I. }
  split; [|split; [exact Nt|split]].
  - unfold ocean. destruct Of as [Lo Of]. specialize (Of 0 c Pos C). rewrite !cell_nth by lia. destruct (finite_value da 0 c), (finite_value da' 0 c); try contradiction; reflexivity.
  - intro day. apply same_sym, St, C.
  - intro t. apply exceeds_same; [apply Nt|apply same_sym, St, C].
Qed.

(** Every method removes constants. *)
Lemma constants_are_removed da cal s p ds k : run da cal s p = Ok ds -> removed_by cal p (fun _ => k).
Proof.
  intro H. destruct (run_ok _ _ _ _ _ _ _ _ _ _ _ _ H) as (m & keep & pl & dims & coords & thr & P & _).
  destruct (C85_preprocess_checks_everything _ _ _ _ _ _ _ _ _ _ P) as (dims' & coords' & _ & _ & _ & _ & _ & _ & Mm & _).
  assert (Tr : forall mm os y, (k == trend k (fun _ => 0) mm os y)%Q).
  { intros mm os y. unfold trend. assert (Z0 : (total (map (fun i => 0 * power (y - mm) (nth i os 0%nat)) (seq 0 (length os))) == 0)%Q) by (induction (seq 0 (length os)) as [|x l IH]; [reflexivity|]; cbn [map total]; rewrite IH; ring).
    rewrite Z0. ring. }
  assert (Os : forall y, (oscillation (fun _ => 0) hs y == 0)%Q).
  { intro y. unfold oscillation. induction (seq 0 (length hs)) as [|x l IH]; [reflexivity|]. cbn [map total]. rewrite IH. ring. }
  unfold removed_by. cbv zeta. destruct m.
  - right; right; left. split; [tauto|]. exists k, (fun _ => 0%Q), (fun _ => 0%Q). intros t _. rewrite Os, Qplus_0_r. apply Tr.
  - right; left. split; [tauto|]. exists k. reflexivity.
  - left. split; [tauto|]. exists (fun _ => k). reflexivity.
  - right; right; right. split; [tauto|]. exists k, (fun _ => 0%Q). intros t _. apply Tr.
Qed.

(** In particular the unit offset: Kelvin or Celsius give the same events. *)
Theorem C117_offsets_change_nothing da da' cal s p ds (k : nat -> Q) :
  valid_calendar (length da) cal -> 0 < s_smooth s -> pinv_correct cal p ->
  offset_by (fun _ c => k c) (ny * nx) da da' -> run da cal s p = Ok ds ->
  exists ds', run da' cal s p = Ok ds' /\ forall t c, c < ny * nx -> d_extreme ds' t c = d_extreme ds t c.
Proof.
  intros Vc Sm Pi Of H.
  destruct (C117_removed_signals_change_nothing da da' cal s p ds (fun _ c => k c) Vc Sm Pi Of (fun c _ => constants_are_removed da cal s p ds (k c) H) H) as (ds' & R & _ & _ & A).
  exists ds'. split; [exact R|]. intros t c C. apply A. exact C.
Qed.

(** ** C118: locality *)

(** The spatial window used: the requested or, on grids, the default one of five
    cells, for approximate day-of-year percentiles; the cell alone otherwise. *)
Definition neighbourhood (p : pre_args) (has_y : bool) : nat :=
  if String.eqb (a_method (p_extreme p)) "hobday_extreme" && String.eqb (a_method_percentile (p_extreme p)) "approximate"
  then match a_spatial (p_extreme p) with Some w => Z.to_nat w | None => if has_y then 5 else 1 end
  else 1.
Theorem C118_results_are_local da da' cal s p ds ds' dims coords c :
  length da' = length da -> run da cal s p = Ok ds -> run da' cal s p = Ok ds' ->
  infer_dims_coords dd dc (p_dims p) (p_coords p) = Ok (dims, coords) -> c < ny * nx ->
  (forall y' x' t, near ny nx (neighbourhood p (has_name dims "y")) (c / nx) (c mod nx) y' x' -> t < length da ->
     finite_value da t (y' * nx + x') = finite_value da' t (y' * nx + x')) ->
  d_anomaly ds c = d_anomaly ds' c /\ (forall day, same (d_threshold ds c day) (d_threshold ds' c day)) /\
  d_mask ds c = d_mask ds' c /\ forall t, d_extreme ds t c = d_extreme ds' t c.
Proof.
  intros Ll H H' If C Eq. destruct (run_ok _ _ _ _ _ _ _ _ _ _ _ _ H) as (m & keep & pl & dims1 & coords1 & thr & P & I & Ne & T & Hx & Hy & ->).
  destruct (run_ok _ _ _ _ _ _ _ _ _ _ _ _ H') as (m' & keep' & pl' & dims2 & coords2 & thr' & P' & I' & Ne' & T' & Hx' & Hy' & ->).
  rewrite (plan_transfer _ _ _ _ _ da' _ _ _ P (plan_valid _ _ _ _ _ _ _ _ P')) in P'. injection P' as <- <- <-.
  rewrite If in I, I'. injection I as <- <-. injection I' as <- <-.
  cbn [d_mask d_extreme d_anomaly d_doys d_threshold d_years] in *.
  destruct (C85_preprocess_checks_everything _ _ _ _ _ _ _ _ _ _ P) as (dims' & coords' & If' & _ & _ & _ & _ & _ & _ & _ & _ & In0).
  rewrite If in If'. injection If' as <- <-.
  assert (Pw : plan_window pl = neighbourhood p (has_name dims "y")).
  { unfold neighbourhood, has_name. destruct pl as [q|q pr mx|q d|q pr mx d ws]; cbn [intended plan_window] in *.
    - destruct In0 as (-> & _). reflexivity.
    - destruct In0 as (-> & _). reflexivity.
    - destruct In0 as (-> & -> & _). reflexivity.
    - destruct In0 as (-> & -> & _ & _ & _ & _ & Sp). cbn [String.eqb andb]. change (String.eqb "hobday_extreme" "hobday_extreme" && String.eqb "approximate" "approximate") with true. cbn [andb]. cbv iota.
      destruct (a_spatial (p_extreme p)); [rewrite Sp; reflexivity|]. destruct (lookup_name dims "y"); rewrite Sp; reflexivity. }
  assert (Ce : forall y' x', near ny nx (plan_window pl) (c / nx) (c mod nx) y' x' -> cell_series da (y' * nx + x') = cell_series da' (y' * nx + x')).
  { intros y' x' N. rewrite Pw in N. apply (nth_ext _ _ None None); [rewrite !cell_length; lia|]. intros t Tt. rewrite cell_length in Tt. rewrite !cell_nth by lia. apply Eq; assumption. }
  assert (Cc : cell_series da c = cell_series da' c).
  { assert (N := Ce _ _ (near_self ny nx (plan_window pl) c C)). rewrite cell_of in N by lia. exact N. }
  assert (St : forall day, same (thr c day) (thr' c day)).
  { match type of T' with run_thresholds _ _ _ _ ?an _ = _ => destruct (thresholds_local _ _ _ _ _ an _ _ T) as (thr2 & T2 & Lc) end.
    rewrite T' in T2. injection T2 as <-. apply Lc; [exact C|]. intros y' x' N. rewrite (Ce y' x' N). clear. 
    match goal with |- Forall2 same ?l ?l => generalize l end. intro l. induction l; constructor; [apply same_refl|assumption]. }
  rewrite Cc. split; [reflexivity|]. split; [exact St|]. split; [reflexivity|]. intro t. apply exceeds_same; [apply same_refl|apply St].
Qed.

(** ** C119: share of extremes, exact global percentiles *)
Theorem C119_flagged_share da cal s p ds c :
  valid_calendar (length da) cal -> run da cal s p = Ok ds -> c < ny * nx -> d_mask ds c = true -> p_method p <> "shifting_baseline" ->
  a_method (p_extreme p) = "global_extreme" -> a_method_percentile (p_extreme p) = "exact" ->
  (0 <= a_percentile (p_extreme p) <= 100)%Q ->
  let share := (1 - a_percentile (p_extreme p) / 100)%Q in
  let n := length da in
  (share * natQ (n - 1) <= natQ (count (fun t => d_extreme ds t c) (seq 0 n)))%Q /\
  (natQ (count (fun t => match nth t (d_anomaly ds c) None, d_threshold ds c (nth t (d_doys ds) 0%nat) with Some a, Some b => negb (Qle_bool a b) | _, _ => false end) (seq 0 n))
   < share * natQ (n - 1) + 1)%Q.
Proof.
  intros Vc H C Mk Me G Ex Pc. cbv zeta.
  destruct (C116_ocean_cells_complete_partial da cal s p ds c Vc H C Mk Me) as (La & Ld & Com).
  destruct (run_ok _ _ _ _ _ _ _ _ _ _ _ _ H) as (m & keep & pl & dims & coords & thr & P & I & Ne & T & _ & _ & ->).
  cbn [d_mask d_extreme d_anomaly d_doys d_threshold] in *.
  destruct (C85_preprocess_checks_everything _ _ _ _ _ _ _ _ _ _ P) as (dims' & coords' & _ & _ & _ & _ & _ & _ & _ & _ & _ & In0).
  destruct pl as [q|q pr mx|q d|q pr mx d ws]; cbn [intended run_thresholds] in *; try (destruct In0 as (E1 & E2 & _); congruence).
  destruct In0 as (_ & _ & Eq). destruct (_ || _); [|discriminate]. injection T as <-.
  match goal with H : length ?l = length da |- _ => set (A := l) in * end.
  destruct (exact_threshold q A) as [th|] eqn:Et.
  2: { exfalso. assert (Pos : 0 < length da) by (destruct da; [cbn in Mk; discriminate|cbn; lia]). exact (proj2 (Com 0 Pos) (or_introl G) eq_refl). }
  assert (Q0 : (0 <= q)%Q) by (rewrite Eq; apply Qle_shift_div_l; [reflexivity|lra]).
  assert (Q1 : (q <= 1)%Q) by (rewrite Eq; apply Qle_shift_div_r; [reflexivity|lra]).
  destruct (C91_exact_share q A th Q0 Q1 Et) as [S1 S2]. cbv zeta in S1, S2.
  assert (Pl : length (present A) = length da).
  { destruct (complete_series A) as [a Aa]; [intros t Tt; apply (Com t); lia|]. rewrite Aa, present_map_some. rewrite <- La, Aa, map_length. reflexivity. }
  rewrite Pl in S1, S2.
  assert (Cn : forall (f : option Q -> bool), count f A = count (fun t => f (nth t A None)) (seq 0 (length da))).
  { intro f. rewrite <- (count_map (fun t => nth t A None) f). f_equal. apply (nth_ext _ _ None None); [rewrite map_length, seq_length; exact La|].
    intros t Tt. rewrite (nth_map_gen _ _ t 0) by (rewrite seq_length; lia). rewrite seq_nth by lia. reflexivity. }
  rewrite Cn in S1, S2. rewrite Eq in S1, S2. split; [exact S1|].
  exact S2.
Qed.

(** ** C120: when a run succeeds *)
Theorem C120_succeeds_exactly da cal s p m keep pl dims coords :
  preprocess_plan dd dc dask (ny * nx) da (c_years cal) p = Ok (m, keep, pl) ->
  infer_dims_coords dd dc (p_dims p) (p_coords p) = Ok (dims, coords) ->
  (exists ds, run da cal s p = Ok ds) <->
  select keep (c_doys cal) <> [] /\ has_name coords "x" = true /\ has_name coords "y" = true /\
  match pl with
  | GlobalExact _ => has_name dims "y" = true \/ 4445 <= ny * nx
  | GlobalApprox _ _ _ => True
  | HobdayExact _ d => (1 <= d)%Z
  | HobdayApprox _ _ _ d _ => (3 <= d <= 733)%Z
  end.
Proof.
  intros P I. unfold preprocess_data. rewrite P, I. cbv zeta.
  destruct (C85_preprocess_checks_everything _ _ _ _ _ _ _ _ _ _ P) as (dims' & coords' & If' & _ & _ & _ & _ & _ & _ & _ & Doc & In0).
  rewrite I in If'. injection If' as <- <-.
  destruct (select keep (c_doys cal)) as [|d0 dr]; [split; [intros (ds & E); discriminate|intros (E & _); congruence]|].
  match goal with |- context [run_thresholds ?h ny nx ?dl ?an pl] => assert (Rt : (exists thr, run_thresholds h ny nx dl an pl = Ok thr) <->
    match pl with GlobalExact _ => has_name dims "y" = true \/ 4445 <= ny * nx | GlobalApprox _ _ _ => True | HobdayExact _ d => (1 <= d)%Z | HobdayApprox _ _ _ d _ => (3 <= d <= 733)%Z end) end.
  { destruct pl as [q|q pr mx|q d|q pr mx d ws]; cbn [intended run_thresholds] in *.
    - destruct (has_name dims "y"); cbn [orb]; [split; [auto|intros _; eexists; reflexivity]|]. unfold mesh_chunk.
      destruct (Z.ltb_spec 0 (100 * Z.sqrt (9 * Z.of_nat (ny * nx) / 40000))) as [Lt|Ge].
      + split; [intros _; right|intros _; eexists; reflexivity].
        assert (D1 : (0 < 9 * Z.of_nat (ny * nx) / 40000)%Z) by (apply Z.sqrt_pos; lia).
        assert (D2 := Z.mul_div_le (9 * Z.of_nat (ny * nx)) 40000 ltac:(lia)). lia.
      + split; [intros (thr & E); discriminate|]. intros [E|E]; [discriminate|]. exfalso.
        assert (D1 : (1 <= 9 * Z.of_nat (ny * nx) / 40000)%Z) by (apply Z.div_le_lower_bound; lia).
        assert (Sq : (0 < Z.sqrt (9 * Z.of_nat (ny * nx) / 40000))%Z) by (apply Z.sqrt_pos; lia). lia.
    - split; [auto|intros _; eexists; reflexivity].
    - destruct (Z.ltb_spec d 1); (split; [intros (thr & E); try discriminate; lia|intro; try lia; eexists; reflexivity]).
    - destruct In0 as (Hm & _ & _ & _ & _ & Ed & _). destruct Doc as (_ & _ & _ & _ & _ & Od). specialize (Od Hm d Ed).
      destruct (Z.ltb_spec d 1); [split; [intros (thr & E); discriminate|lia]|]. rewrite hobday_shape.
      assert (Sh := shape_odd (Z.to_nat d)). rewrite Z2Nat.id in Sh by lia. specialize (Sh Od).
      destruct (Nat.eqb_spec (shape_length (Z.to_nat d)) 366) as [E|E].
      + split; [intros _; apply Sh in E; lia|intros _; eexists; reflexivity].
      + split; [intros (thr & E'); discriminate|]. intro B. exfalso. apply E, Sh. lia. }
  rewrite <- Rt. destruct (run_thresholds _ _ _ _ _ _) as [thr|e]; cbn [bind].
  - destruct (has_name coords "x"), (has_name coords "y"); cbn [negb]; split; try (intros (ds & E); discriminate); try (intros (_ & E1 & E2 & _); discriminate).
    + intros _. split; [discriminate|]. split; [reflexivity|]. split; [reflexivity|]. exists thr. reflexivity.
    + intros _. eexists. reflexivity.
  - split; [intros (ds & E); discriminate|]. intros (_ & _ & _ & thr & E). discriminate.
Qed.

(** ** C121: time axis *)
Theorem C121_time_axis da cal s p ds :
  valid_calendar (length da) cal -> run da cal s p = Ok ds ->
  (p_method p <> "shifting_baseline" -> d_years ds = c_years cal /\ d_doys ds = c_doys cal) /\
  (p_method p = "shifting_baseline" ->
     exists first, In first (c_years cal) /\ (forall y, In y (c_years cal) -> (first <= y)%Z) /\
       d_years ds = filter (fun y => Z.leb (first + p_window p) y) (c_years cal)) /\
  d_years ds <> [] /\ length (d_doys ds) = length (d_years ds) /\ forall c, length (d_anomaly ds c) = length (d_years ds).
Proof.
  intros (L1 & L2 & L3 & Dr) H. destruct (run_ok _ _ _ _ _ _ _ _ _ _ _ _ H) as (m & keep & pl & dims & coords & thr & P & I & Ne & T & _ & _ & ->).
  cbn [d_mask d_extreme d_anomaly d_doys d_threshold d_years] in *.
  destruct (C85_preprocess_checks_everything _ _ _ _ _ _ _ _ _ _ P) as (dims' & coords' & _ & _ & _ & _ & (i0 & I0 & F0) & _ & Mm & _ & _ & In0).
  apply kind_weaken in Mm. assert (Kp := plan_keep _ _ _ _ _ _ _ _ _ _ P).
  assert (Ln : length (select keep (c_doys cal)) = length (select keep (c_years cal))) by (apply select_length; lia).
  split; [|split; [|split; [|split]]].
  - intro N. assert (Ka : keep = map (fun _ => true) (c_years cal)) by (destruct m; auto; congruence). rewrite Ka. rewrite !select_all by lia. auto.
  - intro N. destruct m; try (rewrite N in Mm; discriminate).
    assert (Yn : c_years cal <> []) by (intro E; rewrite E in *; cbn in L1; apply Ne; rewrite Kp; destruct (c_doys cal); [reflexivity|cbn in L2; lia]).
    destruct (minZ_spec (c_years cal) Yn) as [M1 M2]. exists (minZ (c_years cal)). split; [exact M1|]. split; [exact M2|]. rewrite Kp. clear.
    generalize (minZ (c_years cal) + p_window p)%Z. intro b. induction (c_years cal) as [|y l IH]; [reflexivity|]. cbn [map]. rewrite select_cons. cbn [filter]. rewrite IH. destruct (Z.leb b y); reflexivity.
  - intro E. apply Ne. destruct (select keep (c_doys cal)); [reflexivity|]. rewrite E in Ln. discriminate.
  - exact Ln.
  - intro c. rewrite <- Ln. apply select_length. rewrite anomaly_length; rewrite cell_length; lia.
Qed.
End Run.
Print Assumptions C115_masked_cells_not_extreme_partial.
Print Assumptions C116_ocean_cells_complete_partial.
Print Assumptions C116_missing_anomaly_silences.
Print Assumptions C117_removed_signals_change_nothing.
Print Assumptions C117_offsets_change_nothing.
Print Assumptions C118_results_are_local.
Print Assumptions C119_flagged_share.
Print Assumptions C120_succeeds_exactly.
Print Assumptions C121_time_axis.

(** ** Concrete runs: a grid of one row and two cells, two or three years of two
    days; cell 1 is missing at the first step only. *)
Definition no_pinv : matrix -> matrix := fun m => m.
Definition here : list string := ["time"; "lat"; "lon"].
Definition cal6 : calendar := mkCal [2000; 2000; 2001; 2001; 2002; 2002]%Z [1; 2; 1; 2; 1; 2] [2000; 2000; 2001; 2001; 2002; 2002]%Q.
Definition late_cell : list (list value) :=
  [[Finite 1; NaN]; [Finite 2; Finite 1]; [Finite 3; Finite 1]; [Finite 2; Finite 1]; [Finite (23 # 4); Finite 3]; [Finite 2; Finite (19 # 4)]].
Definition exact_args : extreme_args := mkArgs "global_extreme" 90 (Some 11%Z) None "exact" (1 # 100) 5.
Definition approx_args : extreme_args := mkArgs "global_extreme" 90 (Some 11%Z) None "approximate" 1 5.
Definition day_args : extreme_args := mkArgs "hobday_extreme" 90 (Some 3%Z) (Some 1%Z) "approximate" 1 5.
Definition run_of (da : list (list value)) (cal : calendar) (smooth : nat) (method : string) (window : Z) (a : extreme_args) : result run_err dataset :=
  preprocess_data no_pinv [] here here true 1 2 da cal (mkSettings smooth true) (mkPre None None method window None a).

(** Flags and masks of the two cells at the steps of the result. *)
Definition summary (r : result run_err dataset) : option (list (list bool) * list bool) :=
  match r with Ok ds => Some (map (fun t => map (d_extreme ds t) [0; 1]) (seq 0 (length (d_years ds))), map (d_mask ds) [0; 1]) | Err _ => None end.
Definition anomalies_of (r : result run_err dataset) (c : nat) : option series :=
  match r with Ok ds => Some (map (option_map Qred) (d_anomaly ds c)) | Err _ => None end.

Example C115_case : summary (run_of late_cell cal6 1 "fixed_baseline" 2 approx_args)
  = Some ([[false; false]; [false; false]; [false; false]; [false; false]; [true; false]; [false; false]], [true; false]).
Proof. vm_compute. reflexivity. Qed.

Lemma flagged_masked r flags masks t : summary r = Some (flags, masks) -> t < length flags -> nth 1 (nth t flags []) false = true -> nth 1 masks true = false ->
  exists ds, r = Ok ds /\ d_mask ds 1 = false /\ d_extreme ds t 1 = true.
Proof.
  destruct r as [ds|]; [|discriminate]. cbn [summary]. intro H. injection H as <- <-. intros L F M. exists ds. split; [reflexivity|]. split; [exact M|].
  rewrite map_length, seq_length in L. rewrite (nth_map_gen _ _ t 0) in F by (rewrite seq_length; exact L). rewrite seq_nth in F by exact L. exact F.
Qed.

(** As claimed, a cell outside the mask is never flagged.  False: with exact
    percentiles, and with the shifting baseline, whose first years are cut off,
    cells that only start later are flagged although mask is False there. *)
Theorem C115_masked_cells_extreme_refuted :
  (exists ds, run_of late_cell cal6 1 "fixed_baseline" 2 exact_args = Ok ds /\ d_mask ds 1 = false /\ d_extreme ds 5 1 = true) /\
  (exists ds, run_of late_cell cal6 1 "shifting_baseline" 2 approx_args = Ok ds /\ d_mask ds 1 = false /\ d_extreme ds 1 1 = true).
Proof.
  split.
  - apply (flagged_masked _ [[false; false]; [false; false]; [false; false]; [false; false]; [true; false]; [false; true]] [true; false]); [vm_compute; reflexivity|cbn; lia|reflexivity|reflexivity].
  - apply (flagged_masked _ [[true; false]; [false; true]] [true; false]); [vm_compute; reflexivity|cbn; lia|reflexivity|reflexivity].
Qed.
Print Assumptions C115_masked_cells_extreme_refuted.

Example C116_case :
  anomalies_of (run_of late_cell cal6 1 "fixed_baseline" 2 exact_args) 0 = Some [Some (-9 # 4); Some 0; Some (-1 # 4); Some 0; Some (5 # 2); Some 0]%Q /\
  option_map snd (summary (run_of late_cell cal6 1 "fixed_baseline" 2 exact_args)) = Some [true; false].
Proof. split; vm_compute; reflexivity. Qed.
(** As claimed, every ocean cell with complete data has thresholds.  False for the
    shifting baseline with approximate global percentiles: when the climatology of
    one kept day is missing (a one-year baseline starts with half a smoothing
    window), the cell has no threshold and an anomaly far above all others is not
    flagged; exact percentiles flag it. *)
Theorem C116_ocean_cell_silenced_refuted :
  let r := run_of late_cell cal6 3 "shifting_baseline" 1 approx_args in
  let r' := run_of late_cell cal6 3 "shifting_baseline" 1 exact_args in
  option_map snd (summary r) = Some [true; false] /\
  anomalies_of r 0 = Some [None; Some 0; Some (41 # 12); Some (-19 # 12)]%Q /\
  option_map fst (summary r) = Some [[false; false]; [false; false]; [false; false]; [false; false]] /\
  option_map fst (summary r') = Some [[false; false]; [false; false]; [true; false]; [false; true]].
Proof. split; [vm_compute; reflexivity|]. split; [vm_compute; reflexivity|]. split; vm_compute; reflexivity. Qed.
Print Assumptions C116_ocean_cell_silenced_refuted.

(** C117: the record in other units (cell 0 by 273, cell 1 by 5 and an annual cycle). *)
Definition cycle_signal (t c : nat) : Q := (if Nat.eqb c 0 then 273 else 5 + natQ (nth t (c_doys cal6) 0%nat) * 7)%Q.
Definition raise (signal : nat -> nat -> Q) (da : list (list value)) : list (list value) :=
  map (fun r => map (fun v => match snd v with Finite q => Finite (q + signal (fst r) (fst v)) | x => x end) (combine (seq 0 (length (snd r))) (snd r))) (combine (seq 0 (length da)) da).
Example C117_case :
  valid_calendar (length late_cell) cal6 /\ offset_by cycle_signal 2 late_cell (raise cycle_signal late_cell) /\
  (forall c, c < 1 * 2 -> removed_by [] cal6 (mkPre None None "fixed_baseline" 2 None exact_args) (fun t => cycle_signal t c)) /\
  pinv_correct no_pinv [] cal6 (mkPre None None "fixed_baseline" 2 None exact_args) /\
  summary (run_of (raise cycle_signal late_cell) cal6 1 "fixed_baseline" 2 exact_args)
    = Some ([[false; false]; [false; false]; [false; false]; [false; false]; [true; false]; [false; true]], [true; false]).
Proof.
  split; [|split; [|split; [|split]]].
  - split; [reflexivity|]. split; [reflexivity|]. split; [reflexivity|]. intros t T. do 6 (destruct t as [|t]; [cbn; lia|]). cbn in T. lia.
  - split; [reflexivity|]. intros t c T C. do 6 (destruct t as [|t]; [destruct c as [|[|c]]; [vm_compute; try reflexivity; exact Logic.I|vm_compute; try reflexivity; exact Logic.I|lia]|]). cbn in T. lia.
  - intros c _. left. split; [reflexivity|]. exists (fun d => if Nat.eqb c 0 then 273 else 5 + natQ d * 7)%Q. intros t _. reflexivity.
  - intros [|] E; discriminate.
  - vm_compute. reflexivity.
Qed.

(** C118: another cell 1, the same cell 0. *)
Definition other_cell : list (list value) :=
  [[Finite 1; Finite 0]; [Finite 2; Finite 0]; [Finite 3; Finite 0]; [Finite 2; Finite 0]; [Finite (23 # 4); Finite 12]; [Finite 2; Finite 0]].
Definition threshold_at (r : result run_err dataset) (c day : nat) : option (option Q) :=
  match r with Ok ds => Some (option_map Qred (d_threshold ds c day)) | Err _ => None end.
Example C118_case :
  anomalies_of (run_of other_cell cal6 1 "fixed_baseline" 2 approx_args) 0 = anomalies_of (run_of late_cell cal6 1 "fixed_baseline" 2 approx_args) 0 /\
  anomalies_of (run_of other_cell cal6 1 "fixed_baseline" 2 approx_args) 1 <> anomalies_of (run_of late_cell cal6 1 "fixed_baseline" 2 approx_args) 1 /\
  threshold_at (run_of other_cell cal6 1 "fixed_baseline" 2 approx_args) 0 1 = threshold_at (run_of late_cell cal6 1 "fixed_baseline" 2 approx_args) 0 1.
Proof. split; [vm_compute; reflexivity|]. split; [vm_compute; discriminate|vm_compute; reflexivity]. Qed.

(** C119: 4 of 6 steps reach the 40th percentile. *)
Example C119_case :
  option_map fst (summary (run_of late_cell cal6 1 "fixed_baseline" 2 (mkArgs "global_extreme" 40 (Some 11%Z) None "exact" (1 # 100) 5)))
  = Some [[false; false]; [true; false]; [false; true]; [true; false]; [true; true]; [true; true]].
Proof. vm_compute. reflexivity. Qed.

(** C120.  As claimed, a run with documented arguments and valid data succeeds.
    False: exact global percentiles on a mesh of fewer than 4445 cells, a one-day
    window, and coordinates without y all fail after the checks have passed. *)
Definition mesh_dims : names := [("time", "time"); ("x", "ncells")].
Definition mesh_coords : names := [("time", "time"); ("x", "lon"); ("y", "lat")].
Definition error_of (r : result run_err dataset) : option run_err := match r with Ok _ => None | Err e => Some e end.
Definition mesh_run (coords : names) (a : extreme_args) : result run_err dataset :=
  preprocess_data no_pinv [] ["time"; "ncells"] ["time"; "lat"; "lon"] true 1 2 late_cell cal6 (mkSettings 1 true) (mkPre (Some mesh_dims) (Some coords) "fixed_baseline" 2 None a).
Theorem C120_documented_runs_fail_refuted :
  documented false exact_args /\ documented true (mkArgs "hobday_extreme" 90 (Some 1%Z) None "approximate" 1 5) /\ documented false approx_args /\
  error_of (mesh_run mesh_coords exact_args) = Some ZeroChunk /\
  error_of (run_of late_cell cal6 1 "fixed_baseline" 2 (mkArgs "hobday_extreme" 90 (Some 1%Z) None "approximate" 1 5)) = Some BadWindow /\
  error_of (mesh_run [("time", "time"); ("x", "lon")] approx_args) = Some (MissingCoordinate "y") /\
  error_of (mesh_run mesh_coords approx_args) = None.
Proof.
  assert (D : forall h a, (a_method a = "global_extreme" \/ exists d, a_method a = "hobday_extreme" /\ a_days a = Some d /\ Z.Odd d) -> a_spatial a = None ->
    (a_method_percentile a = "exact" /\ (a_precision a == 1 # 100)%Q /\ (a_max a == 5)%Q \/ a_method_percentile a = "approximate" /\ (60 <= a_percentile a)%Q) -> documented h a).
  { intros h a M Sp Pc. unfold documented. rewrite Sp. split; [tauto|]. split; [destruct M as [M|(d & M & _)]; auto|]. split; [intro E; destruct Pc as [Pc|[Pc _]]; [tauto|congruence]|].
    split; [intro E; destruct Pc as [[Pc _]|Pc]; [congruence|tauto]|]. split; [discriminate|]. intros E d Ed. destruct M as [M|(d' & _ & Md & Od)]; [congruence|]. rewrite Md in Ed. injection Ed as <-. exact Od. }
  split; [apply D; [left; reflexivity|reflexivity|left; repeat split; reflexivity]|].
  split; [apply D; [right; exists 1%Z; split; [reflexivity|]; split; [reflexivity|]; exists 0%Z; reflexivity|reflexivity|right; split; [reflexivity|discriminate]]|].
  split; [apply D; [left; reflexivity|reflexivity|right; split; [reflexivity|discriminate]]|].
  split; [vm_compute; reflexivity|]. split; [vm_compute; reflexivity|]. split; vm_compute; reflexivity.
Qed.
Print Assumptions C120_documented_runs_fail_refuted.
Example C120_case : exists m keep pl,
  preprocess_plan here here true (1 * 2) late_cell (c_years cal6) (mkPre None None "fixed_baseline" 2 None day_args) = Ok (m, keep, pl) /\
  error_of (run_of late_cell cal6 1 "fixed_baseline" 2 day_args) = None.
Proof. eexists _, _, _. split; vm_compute; reflexivity. Qed.

Example C121_case :
  match run_of late_cell cal6 1 "shifting_baseline" 2 approx_args with Ok ds => Some (d_years ds, d_doys ds, length (d_anomaly ds 0)) | Err _ => None end
  = Some ([2002; 2002]%Z, [1; 2], 2).
Proof. vm_compute. reflexivity. Qed.
