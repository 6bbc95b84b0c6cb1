(** Property theorems C142: the thresholds of a whole run are percentiles of its own
    anomalies. *)
From Coq Require Import String Qround Lqa.
From Verif Require Import Base Filter FilterProofs FilterMoreProofs Overlap OverlapProofs Partition PartitionProofs Cluster ClusterProofs ClusterFinal Detect DetectProofs DetectProps
  Climatology ClimatologySpec ClimatologyProofs Detrend DetrendSpec DetrendProofs Histogram HistogramSpec HistogramProofs HistogramWindow HistogramExact HistogramYear HistogramProps DetectRun DetectRunSpec DetectRunProofs DetectRunProps.
Open Scope string_scope.
Open Scope list_scope.
Open Scope nat_scope.

Section Thresholds.
Variables (pinv : matrix -> matrix) (hs : list (Q -> Q)) (dd dc : list string) (dask : bool) (ny nx : nat).
Notation run da cal s p := (preprocess_data pinv hs dd dc dask ny nx da cal s p).

(** Cells pooled around a cell: the given odd window; by default two to each side on
    grids and none on meshes. *)
Definition spatial_reach (dims : names) (a : extreme_args) (h : option nat) : Prop :=
  match a_spatial a with
  | Some w => exists k, h = Some k /\ w = (2 * Z.of_nat k + 1)%Z
  | None => (h = Some 2 /\ exists v, In ("y", v) dims) \/ (h = None /\ forall v, ~ In ("y", v) dims)
  end.

Theorem C142_approximate_day_thresholds da cal s p ds dims coords h k c d r v :
  run da cal s p = Ok ds -> infer_dims_coords dd dc (p_dims p) (p_coords p) = Ok (dims, coords) ->
  a_method (p_extreme p) = "hobday_extreme" -> a_method_percentile (p_extreme p) = "approximate" -> a_days (p_extreme p) = Some (2 * Z.of_nat k + 1)%Z ->
  spatial_reach dims (p_extreme p) h -> 0 < k <= 366 -> (0 < a_precision (p_extreme p))%Q -> (0 < a_max (p_extreme p))%Q -> (a_percentile (p_extreme p) < 100)%Q ->
  c < ny * nx -> nth 0 (d_anomaly ds c) None <> None -> 1 <= d <= 366 ->
  let sample := pooled_sample ny nx (d_doys ds) (fun t e => nth t (d_anomaly ds e) None) h k (c / nx) (c mod nx) d in
  let n := natQ (length sample) in
  (forall u, In u sample -> (u < a_max (p_extreme p))%Q) -> order_statistic sample r v -> (a_precision (p_extreme p) <= v)%Q ->
  (natQ r - 1 <= a_percentile (p_extreme p) / 100 * n)%Q -> (a_percentile (p_extreme p) / 100 * n < natQ r)%Q ->
  exists th, d_threshold ds c d = Some th /\ (v - (3 # 2) * a_precision (p_extreme p) < th)%Q /\ (th <= v + (1 # 2) * a_precision (p_extreme p))%Q.
Proof.
  intros H I0 Me Ap Dy Sp K Pp Mp Pc C F D. cbv zeta.
  destruct (run_ok _ _ _ _ _ _ _ _ _ _ _ _ H) as (m & keep & pl & dims' & coords' & thr & P & I & Ne & T & _ & _ & ->). rewrite I0 in I. injection I as <- <-.
  cbn [d_mask d_extreme d_anomaly d_doys d_threshold] in *.
  destruct (C85_preprocess_checks_everything _ _ _ _ _ _ _ _ _ _ P) as (dims' & coords' & I & _ & _ & _ & _ & _ & _ & _ & Do & In0). rewrite I0 in I. injection I as <- <-.
  destruct pl as [q|q pr mx|q e|q pr mx e ws]; cbn [intended run_thresholds] in *; try (destruct In0 as (E1 & E2 & _); congruence).
  destruct In0 as (_ & _ & Eq & -> & -> & Ed & Es). rewrite Dy in Ed. assert (Ee : e = (2 * Z.of_nat k + 1)%Z) by congruence. subst e. clear Ed.
  destruct Do as (_ & _ & _ & Do & _ & _). specialize (Do Ap).
  assert (Q0 : (0 <= q)%Q) by (rewrite Eq; unfold Qdiv; change (/ 100)%Q with (1 # 100); lra). assert (Q1 : (q < 1)%Q) by (rewrite Eq; unfold Qdiv; change (/ 100)%Q with (1 # 100); lra).
  destruct (Z.ltb_spec (2 * Z.of_nat k + 1) 1) as [L|_]; [lia|]. replace (Z.to_nat (2 * Z.of_nat k + 1)) with (2 * k + 1) in T by lia.
  assert (W : odd_window (option_map Z.to_nat ws) h).
  { unfold spatial_reach in Sp. destruct (a_spatial (p_extreme p)) as [w|].
    - destruct Sp as (j & -> & ->). subst ws. cbn [option_map odd_window]. lia.
    - destruct Sp as [(-> & y & Y)|(-> & N)].
      + destruct (lookup_name dims "y") as [y'|] eqn:Ly; [subst ws; reflexivity|]. exfalso. assert (E : has_name dims "y" = true) by (apply is_has; eauto). unfold has_name in E. rewrite Ly in E. discriminate.
      + assert (E : has_name dims "y" = false) by (apply not_has; exact N). unfold has_name in E. destruct (lookup_name dims "y"); [discriminate|subst ws; exact Logic.I]. }
  assert (N0 : 0 < nx) by nia. assert (Y : c / nx < ny) by (apply Nat.div_lt_upper_bound; lia). assert (X : c mod nx < nx) by (apply Nat.mod_upper_bound; lia).
  set (A := fun c => select keep _) in *.
  intros Up Os Pv R1 R2.
  assert (Cc : c / nx * nx + c mod nx = c) by (rewrite Nat.mul_comm; symmetry; apply Nat.div_mod; lia).
  destruct (C56_brackets_percentile (a_precision (p_extreme p)) (a_max (p_extreme p)) q ny nx (select keep (c_doys cal)) (fun t e => nth t (A e) None) (option_map Z.to_nat ws) h k (c / nx) (c mod nx) d r v)
    as (ts & th & Et & En & B); try assumption; try lia.
  - cbv beta. rewrite Cc. exact F.
  - rewrite Eq. exact R1.
  - rewrite Eq. exact R2.
  - cbv zeta beta in T. match type of T with match ?e with _ => _ end = _ => destruct e end; [|discriminate]. injection T as <-. cbv beta. unfold A in Et. cbv beta in Et. change (k + (k + 0) + 1) with (2 * k + 1). rewrite Et, En. exists th. auto.
Qed.

(** Exact day-of-year thresholds: the sample is made of the values within k steps of
    each step of that day; the share of it that reaches the threshold. *)
Definition window_sample (doys : list nat) (anomaly : list (option Q)) (k d : nat) : list Q :=
  flat_map (fun t => if Nat.eqb (nth t doys 0) d
    then flat_map (fun t' => match nth t' anomaly None with Some a => [a] | None => [] end) (filter (fun t' => Nat.leb t' (t + k) && Nat.leb t (t' + k)) (seq 0 (length doys)))
    else []) (seq 0 (length doys)).

Theorem C142_exact_day_thresholds da cal s p ds k c d : valid_calendar (length da) cal ->
  run da cal s p = Ok ds -> a_method (p_extreme p) = "hobday_extreme" -> a_method_percentile (p_extreme p) = "exact" -> a_days (p_extreme p) = Some (2 * Z.of_nat k + 1)%Z ->
  (0 <= a_percentile (p_extreme p) <= 100)%Q ->
  let sample := window_sample (d_doys ds) (d_anomaly ds c) k d in
  let share := (1 - a_percentile (p_extreme p) / 100)%Q in
  match d_threshold ds c d with
  | None => sample = []
  | Some th => sample <> [] /\
      (share * natQ (length sample - 1) <= natQ (count (fun v => Qle_bool th v) sample))%Q /\
      (natQ (count (fun v => negb (Qle_bool v th)) sample) < share * natQ (length sample - 1) + 1)%Q
  end.
Proof.
  intros Vc H Me Ap Dy Pc. cbv zeta.
  destruct (run_ok _ _ _ _ _ _ _ _ _ _ _ _ H) as (m & keep & pl & dims' & coords' & thr & P & I & Ne & T & _ & _ & ->).
  cbn [d_mask d_extreme d_anomaly d_doys d_threshold] in *.
  destruct (C85_preprocess_checks_everything _ _ _ _ _ _ _ _ _ _ P) as (dims & coords & _ & _ & _ & _ & _ & _ & _ & _ & _ & In0).
  assert (Kp := plan_keep _ _ _ _ _ _ _ _ _ _ P).
  destruct pl as [q|q pr mx|q e|q pr mx e ws]; cbn [intended run_thresholds] in *; try (destruct In0 as (E1 & E2 & _); congruence).
  destruct In0 as (_ & _ & Eq & Ed). rewrite Dy in Ed. assert (Ee : e = (2 * Z.of_nat k + 1)%Z) by congruence. subst e. clear Ed.
  destruct (Z.ltb_spec (2 * Z.of_nat k + 1) 1) as [L|_]; [lia|]. replace (Z.to_nat (2 * Z.of_nat k + 1)) with (2 * k + 1) in T by lia. injection T as <-. cbv beta.
  set (A := select keep (anomaly_series _ _ _ _ _ _ _ _)). set (doys := select keep (c_doys cal)) in *.
  assert (La : length A = length doys).
  { unfold A, doys. destruct Vc as (L1 & L2 & L3 & _). apply select_length. rewrite anomaly_length; rewrite ?cell_length; lia. }
  assert (Es : present (flat_map (fun t => if Nat.eqb (nth t doys 0) d then window_values (2 * k + 1) A t else []) (seq 0 (length doys))) = window_sample doys A k d).
  { rewrite (exact_sample doys A d k La). unfold exact_steps. rewrite flat_map_flat_map. unfold window_sample. apply flat_map_ext_in. intros t _. destruct (Nat.eqb (nth t doys 0) d); reflexivity. }
  unfold exact_day_threshold. change (k + (k + 0) + 1) with (2 * k + 1). rewrite Es. destruct (quantile q (window_sample doys A k d)) as [th|] eqn:Et.
  - split; [intro E; rewrite E in Et; discriminate|].
    assert (Q0 : (0 <= q)%Q) by (rewrite Eq; unfold Qdiv; change (/ 100)%Q with (1 # 100); lra). assert (Q1 : (q <= 1)%Q) by (rewrite Eq; unfold Qdiv; change (/ 100)%Q with (1 # 100); lra).
    destruct (quantile_counts q _ th Q0 Q1 Et) as [B1 B2]. rewrite <- Eq. split; [exact B1|exact B2].
  - destruct (window_sample doys A k d); [reflexivity|discriminate].
Qed.

(** Approximate global thresholds: within half a bin of the order statistic of the
    anomalies of the cell, whatever the day. *)
Theorem C142_approximate_global_thresholds_partial da cal s p ds c d values r v :
  run da cal s p = Ok ds -> a_method (p_extreme p) = "global_extreme" -> a_method_percentile (p_extreme p) = "approximate" ->
  (0 < a_precision (p_extreme p))%Q -> (0 < a_max (p_extreme p))%Q -> (a_percentile (p_extreme p) <= 100)%Q ->
  d_anomaly ds c = map Some values -> (forall u, In u values -> (u < a_max (p_extreme p))%Q) -> order_statistic values r v ->
  let n := natQ (length values) in
  let q := (a_percentile (p_extreme p) / 100)%Q in
  (natQ r - 1 + (1 # 10000000000) * (n + 1) < q * n)%Q -> (q * n <= natQ r)%Q -> (a_precision (p_extreme p) <= v)%Q -> (v + a_precision (p_extreme p) < a_max (p_extreme p))%Q ->
  exists th, d_threshold ds c d = Some th /\ (v - (1 # 2) * a_precision (p_extreme p) < th)%Q /\ (th <= v + (1 # 2) * a_precision (p_extreme p))%Q.
Proof.
  intros H Me Ap Pp Mp Pc Av Up Os. cbv zeta. intros R1 R2 Pv Pm.
  destruct (run_ok _ _ _ _ _ _ _ _ _ _ _ _ H) as (m & keep & pl & dims' & coords' & thr & P & I & Ne & T & _ & _ & ->).
  cbn [d_mask d_extreme d_anomaly d_doys d_threshold] in *.
  destruct (C85_preprocess_checks_everything _ _ _ _ _ _ _ _ _ _ P) as (dims & coords & _ & _ & _ & _ & _ & _ & _ & _ & Do & In0).
  destruct pl as [q|q pr mx|q e|q pr mx e ws]; cbn [intended run_thresholds] in *; try (destruct In0 as (E1 & E2 & _); congruence).
  destruct In0 as (_ & _ & Eq & -> & ->). injection T as <-. cbv beta. rewrite Av.
  destruct Do as (_ & _ & _ & Do & _ & _). specialize (Do Ap).
  apply (C55_within_half_a_bin_partial _ _ values q r v Pp Mp); try assumption.
  - rewrite Eq. unfold Qdiv. change (/ 100)%Q with (1 # 100). lra.
  - rewrite Eq. unfold Qdiv. change (/ 100)%Q with (1 # 100). lra.
  - rewrite Eq. exact R1.
  - rewrite Eq. exact R2.
Qed.
End Thresholds.
Print Assumptions C142_approximate_day_thresholds.
Print Assumptions C142_exact_day_thresholds.
Print Assumptions C142_approximate_global_thresholds_partial.

(** Three years of two days, cell 0: the anomalies from the fixed baseline.  With
    windows of three days the thresholds of day 1 are percentiles of the values of
    both days. *)
Definition exact_day_args : extreme_args := mkArgs "hobday_extreme" 90 (Some 3%Z) None "exact" (1 # 100) 5.
Definition wide_args : extreme_args := mkArgs "hobday_extreme" 90 (Some 3%Z) (Some 1%Z) "approximate" (1 # 2) 5.
Example C142_case :
  exists ds ds', run_of late_cell cal6 1 "fixed_baseline" 2 exact_day_args = Ok ds /\ run_of late_cell cal6 1 "fixed_baseline" 2 wide_args = Ok ds' /\
    map Qred (window_sample (d_doys ds) (d_anomaly ds 0) 1 1) = [-9 # 4; 0; 0; -1 # 4; 0; 0; 5 # 2; 0]%Q /\
    (exists th, d_threshold ds 0 1 = Some th /\ (th == 3 # 4)%Q) /\
    let sample := pooled_sample 1 2 (d_doys ds') (fun t e => nth t (d_anomaly ds' e) None) (Some 0) 1 0 0 1 in
    map Qred sample = [-9 # 4; -1 # 4; 5 # 2; 0; 0; 0]%Q /\ order_statistic sample 6 (120 # 48)%Q /\ (forall u, In u sample -> (u < 5)%Q).
Proof.
  eexists. eexists. split; [reflexivity|]. split; [reflexivity|]. split; [vm_compute; reflexivity|]. split; [eexists; split; [vm_compute; reflexivity|reflexivity]|].
  cbv zeta. match goal with |- context [map Qred ?l] => let v := eval vm_compute in l in replace l with v by (vm_compute; reflexivity) end.
  split; [reflexivity|]. split; [split; [cbn; tauto|split; vm_compute; lia]|]. intros u U. repeat (destruct U as [<-|U]; [reflexivity|]). destruct U.
Qed.

(** Approximate thresholds of both methods are far from the percentile when it lies
    above [max_anomaly]: the anomalies there fall out of the bins.  90 percent of six
    values is the largest one, 5/2; with bins of 1/2 up to 1 the threshold is off by
    at least three bins. *)
Definition low_global : extreme_args := mkArgs "global_extreme" 90 None None "approximate" (1 # 2) 1.
Definition low_days : extreme_args := mkArgs "hobday_extreme" 90 (Some 3%Z) (Some 1%Z) "approximate" (1 # 2) 1.
Theorem C142_beyond_the_bins_refuted :
  forall a, In a [low_global; low_days] ->
  exists ds values th, run_of late_cell cal6 1 "fixed_baseline" 2 a = Ok ds /\
    d_anomaly ds 0 = map Some values /\ order_statistic values 6 (120 # 48)%Q /\
    (5 + (1 # 10000000000) * 7 < a_percentile a / 100 * natQ (length values))%Q /\ (a_percentile a / 100 * natQ (length values) < 6)%Q /\
    d_threshold ds 0 1 = Some th /\ (th < (120 # 48) - 3 * a_precision a)%Q.
Proof.
  intros a [<-|[<-|[]]]; eexists; exists [-27 # 12; 0 # 3; -3 # 12; 0 # 3; 120 # 48; 0 # 3]%Q; eexists;
    (split; [reflexivity|]; split; [vm_compute; reflexivity|]; split; [split; [cbn; tauto|split; vm_compute; lia]|]; split; [reflexivity|]; split; [reflexivity|]; split; [vm_compute; reflexivity|reflexivity]).
Qed.
Print Assumptions C142_beyond_the_bins_refuted.
