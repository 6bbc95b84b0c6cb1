(** Properties C55-C61, C91 and C92: percentile thresholds. *)
From Coq Require Import Lqa Qround Permutation.
From Verif Require Import Base Filter Overlap OverlapProofs Partition PartitionProofs Cluster ClusterProofs ClusterFinal Detect Climatology ClimatologyProofs Detrend DetrendProofs Histogram HistogramSpec HistogramProofs HistogramWindow HistogramGlobal HistogramMono HistogramExact HistogramYear.
Open Scope nat_scope.

(** C55. With s the values of one cell (none missing, all below max_anomaly), x their
    r-th smallest and r-1 < q*n <= r (up to the 1e-10 the code adds), the approximate
    global threshold is within half a bin of x, provided x is at least [precision] and
    a bin below max_anomaly. *)
Theorem C55_within_half_a_bin_partial : forall p mx s q r x, (0 < p)%Q -> (0 < mx)%Q -> (0 <= q)%Q -> (q <= 1)%Q ->
  (forall v, In v s -> (v < mx)%Q) -> order_statistic s r x ->
  (natQ r - 1 + eps * (natQ (length s) + 1) < q * natQ (length s))%Q -> (q * natQ (length s) <= natQ r)%Q -> (p <= x)%Q -> (x + p < mx)%Q ->
  exists th, global_threshold p mx q (map Some s) = Some th /\ (x - (1 # 2) * p < th)%Q /\ (th <= x + (1 # 2) * p)%Q.
Proof. intros p mx s q r x P M. apply global_close; assumption. Qed.
Print Assumptions C55_within_half_a_bin_partial.
Example C55_case : order_statistic [-(1); 1 # 2; 5 # 4; 7 # 4; 9 # 4]%Q 3 (5 # 4) /\
  exists th, global_threshold (1 # 2) 4 (1 # 2) (map Some [-(1); 1 # 2; 5 # 4; 7 # 4; 9 # 4])%Q = Some th /\ (th == 5 # 4)%Q.
Proof. split; [split; [cbn; tauto|split; vm_compute; lia]|]. eexists. split; [vm_compute; reflexivity|reflexivity]. Qed.
(** Without the last condition it fails: an order statistic in the last bin. *)
Theorem C55_last_bin_refuted : exists s q r x th, (forall v, In v s -> (v < 2)%Q) /\ order_statistic s r x /\ (0 <= q)%Q /\ (q <= 1)%Q /\
  (natQ r - 1 + eps * (natQ (length s) + 1) < q * natQ (length s))%Q /\ (q * natQ (length s) <= natQ r)%Q /\ (1 <= x)%Q /\
  global_threshold 1 2 q (map Some s) = Some th /\ (th < x - (1 # 2) * 1)%Q.
Proof.
  exists [1 # 2; 15 # 8]%Q, (3 # 4)%Q, 2, (15 # 8)%Q. eexists.
  split; [intros v [<-|[<-|[]]]; reflexivity|]. split; [split; [cbn; tauto|split; vm_compute; lia]|].
  split; [vm_compute; discriminate|]. split; [vm_compute; discriminate|]. split; [vm_compute; reflexivity|]. split; [vm_compute; discriminate|]. split; [vm_compute; discriminate|].
  split; [vm_compute; reflexivity|reflexivity].
Qed.
Print Assumptions C55_last_bin_refuted.

(** C56. Day-of-year thresholds: w = 2k+1 days, optionally (2h+1) x (2h+1) cells; the
    sample consists of the available values of those cells on those days. *)
Theorem C56_brackets_percentile : forall p mx q ny nx doys da ws h k y x d r v, (0 < p)%Q -> (0 < mx)%Q -> (0 <= q)%Q -> (q < 1)%Q ->
  odd_window ws h -> 0 < k -> k <= 366 -> x < nx -> y < ny -> 1 <= d -> d <= 366 -> da 0 (y * nx + x) <> None ->
  let s := pooled_sample ny nx doys da h k y x d in
  (forall u, In u s -> (u < mx)%Q) -> order_statistic s r v -> (natQ r - 1 <= q * natQ (length s))%Q -> (q * natQ (length s) < natQ r)%Q -> (p <= v)%Q ->
  exists ts th, hobday_thresholds p mx q (2 * k + 1) ws ny nx doys da y x = Ok ts /\ nth (d - 1) ts None = Some th /\
    (v - (3 # 2) * p < th)%Q /\ (th <= v + (1 # 2) * p)%Q.
Proof.
  intros p mx q ny nx doys da ws h k y x d r v P M Q0 Q1 W K K' X Y D D' F s R O R1 R2 V.
  destruct (row_threshold_close p mx P M s q r v Q0 Q1 R O R1 R2 V) as (th & E & B). rewrite (thresholds_eq p mx q ny nx doys da ws h k y x W K K' X Y).
  eexists. exists th. split; [reflexivity|]. rewrite (nth_map_gen _ _ _ 0) by (rewrite seq_length; lia). rewrite seq_nth by lia. replace (1 + (d - 1)) with d by lia.
  destruct (da 0 (y * nx + x)); [split; [exact E|exact B]|congruence].
Qed.
Print Assumptions C56_brackets_percentile.
Definition case_doys : list nat := [366; 1; 2; 3].
Definition case_da (t c : nat) : option Q := if Nat.ltb c 2 then nth t [Some 1; Some 3; Some 2; Some 0]%Q None else None.
Example C56_case : pooled_sample 1 2 case_doys case_da None 1 0 0 1 = [1; 3; 2]%Q /\ order_statistic [1; 3; 2]%Q 2 2%Q /\
  exists row, pooled_sample 1 2 case_doys case_da None 1 0 0 1 = row /\
  at_least (lower_bound 1) (row_quantile (1 # 2) (centres 1 5) (row_of (digitize (edges 1 5)) (n_edges 1 5) row)) <> None.
Proof. split; [vm_compute; reflexivity|]. split; [split; [cbn; tauto|split; vm_compute; lia]|]. eexists. split; [reflexivity|vm_compute; discriminate]. Qed.

(** C57. On the contrary: values from max_anomaly + precision up are not counted at
    all.  One cell: adding any number of them leaves the threshold unchanged. *)
Theorem C57_global_refuted : forall p mx q s beyond, (0 < p)%Q -> (0 < mx)%Q -> (forall v, In v beyond -> (mx + p + (1 # 100000000) <= v)%Q) ->
  global_threshold p mx q (map Some (s ++ beyond)) = global_threshold p mx q (map Some s).
Proof.
  intros p mx q s beyond P M B. unfold global_threshold. rewrite !no_missing. do 3 f_equal. rewrite !hist_1d_row. unfold row_of. apply map_ext_in. intros b I. apply in_seq in I.
  rewrite count_app. assert (Z : count (fun v => Nat.eqb (digitize (edges_1d p mx) v) b) beyond = 0); [|lia].
  induction beyond as [|v l IH]; [reflexivity|]. rewrite count_cons, IH by (intros w Iw; apply B; right; exact Iw).
  rewrite (bin1_beyond p mx P M v) by (apply B; left; reflexivity). destruct (Nat.eqb_spec (n_edges p mx) b); [lia|reflexivity].
Qed.
Print Assumptions C57_global_refuted.
(** So with median threshold and three quarters of the values at 10, everything at 2 is
    extreme. *)
Example C57_global_case : exists th, global_threshold 1 5 (1 # 2) (map Some [2; 2; 10; 10; 10; 10; 10; 10])%Q = Some th /\ (th <= 5 # 2)%Q /\
  option_map Qred (exact_threshold (1 # 2) (map Some [2; 2; 10; 10; 10; 10; 10; 10])%Q) = Some 10%Q.
Proof. eexists. split; [vm_compute; reflexivity|]. split; [vm_compute; discriminate|vm_compute; reflexivity]. Qed.
(** Day-of-year thresholds: such values act as missing ones. *)
Definition hidden_beyond (p mx : Q) (da da' : nat -> nat -> option Q) : Prop :=
  forall t c, da' t c = da t c \/ (da t c = None /\ exists v, da' t c = Some v /\ (mx + p <= v)%Q).
Theorem C57_hobday_refuted : forall p mx q w ws ny nx doys da da' y x, (0 < p)%Q -> (0 < mx)%Q -> hidden_beyond p mx da da' ->
  da' 0 (y * nx + x) = da 0 (y * nx + x) ->
  hobday_thresholds p mx q w ws ny nx doys da' y x = hobday_thresholds p mx q w ws ny nx doys da y x.
Proof.
  intros p mx q w ws ny nx doys da da' y x P M Hd F. unfold hobday_thresholds. cbv zeta. rewrite F. f_equal. f_equal. apply map_ext_in. intros d _. apply map_ext_in. intros b B. apply in_seq in B.
  assert (E : forall c, hist_raw p mx doys (map (fun t => da' t c) (seq 0 (length doys))) d b = hist_raw p mx doys (map (fun t => da t c) (seq 0 (length doys))) d b).
  { intro c. unfold hist_raw. rewrite !combine_seq_map, !count_map. apply count_ext. intros t _. cbn [fst snd]. f_equal.
    destruct (Hd t c) as [->|(N & v & E & V)]; [reflexivity|]. rewrite N, E. cbn. rewrite (bin_beyond p mx P M v V). destruct (Nat.eqb_spec (n_edges p mx) b); [lia|reflexivity]. }
  assert (Fx : forall f g : nat -> nat -> nat, (forall a b, f a b = g a b) -> pool_space ny nx ws f y x = pool_space ny nx ws g y x).
  { intros f g H. unfold pool_space. destruct ws as [ws|]; [|apply H]. destruct (Nat.ltb 1 ws); [|apply H]. unfold rolling_sum. apply sumN_ext. intros y' _. unfold pool_columns, rolling_sum, pad_wrap. apply sumN_ext. intros j _. apply H. }
  apply Fx. intros a c. apply E.
Qed.
Print Assumptions C57_hobday_refuted.
Example C57_hobday_case : hidden_beyond 1 5 (fun t _ => nth t [Some 1; None]%Q None) (fun t _ => nth t [Some 1; Some 100]%Q None).
Proof. intros [|[|t]] c; [left; reflexivity|right; split; [reflexivity|exists 100%Q; split; [reflexivity|vm_compute; discriminate]]|left; reflexivity]. Qed.

(** Below max_anomaly every value counts, once: the bins of a cell add up to the number
    of its values, those of a day and window to the size of the pooled sample. *)
Theorem C57_below_maximum_counted_partial : forall p mx, (0 < p)%Q -> (0 < mx)%Q ->
  (forall s, (forall v, In v s -> (v < mx)%Q) -> sumN (hist_1d p mx (map Some s)) = length s) /\
  (forall ny nx doys da ws h k y x d, odd_window ws h -> x < nx -> y < ny ->
    (forall v, In v (pooled_sample ny nx doys da h k y x d) -> (v < mx)%Q) ->
    sumN (map (fun b => sumN (map (fun e => pool_space ny nx ws (fun y' x' => hist_raw p mx doys (map (fun t => da t (y' * nx + x')) (seq 0 (length doys))) e b) y x)
      (days_near d k))) (seq 0 (n_edges p mx))) = length (pooled_sample ny nx doys da h k y x d)).
Proof.
  intros p mx P M. split.
  - intros s R. rewrite hist_1d_row. apply sum_row. intros v I. apply bin1_in_range; [exact P|exact M|]. apply R. exact I.
  - intros ny nx doys da ws h k y x d W X Y R. rewrite <- (sum_row (digitize (edges p mx)) (n_edges p mx)).
    + unfold row_of. f_equal. apply map_ext. intro b. apply pooled_count; assumption.
    + intros v I. apply bin_in_range; [exact P|apply R; exact I|]. assert (N3 := n_edges_3 p mx P M). lia.
Qed.
Print Assumptions C57_below_maximum_counted_partial.
Example C57_counted_case : sumN (hist_1d 1 5 (map Some [-(3); 1 # 2; 9 # 2; 2])%Q) = 4.
Proof. vm_compute. reflexivity. Qed.

(** C58. Each day pools the days within h of it on the circle of 366, once each. *)
Theorem C58_centred_wrapping_window_partial : forall h q cs hist, 0 < h -> 2 * h + 1 <= length hist -> (forall r, In r hist -> length r = length cs) ->
  exists ts, rolling_histogram_quantile (2 * h + 1) q cs hist = Ok ts /\ length ts = length hist /\
  forall d, d < length hist -> nth d ts None =
    row_quantile q cs (map (fun b => sumN (map (fun e => nth b (nth e hist []) 0) (filter (circular (length hist) d h) (seq 0 (length hist))))) (seq 0 (length cs))).
Proof.
  intros h q cs hist H L R. eexists. split; [apply rolling_quantile_eq; [exact H|lia|exact R]|]. rewrite map_length, seq_length. split; [reflexivity|]. intros d D.
  rewrite (nth_map_gen _ _ _ 0) by (rewrite seq_length; exact D). rewrite seq_nth by exact D. cbn [Nat.add]. f_equal. apply map_ext. intro b. apply sum_around; assumption.
Qed.
Print Assumptions C58_centred_wrapping_window_partial.
Example C58_case : filter (circular 366 0 2) (seq 0 366) = [0; 1; 2; 364; 365].
Proof. vm_compute. reflexivity. Qed.
(** A one-day window, accepted by the input checks, fails. *)
Theorem C58_one_day_refuted : forall p mx q ws ny nx doys da y x, hobday_thresholds p mx q 1 ws ny nx doys da y x = Err ShapeMismatch.
Proof. intros. unfold hobday_thresholds. cbv zeta. rewrite rolling_quantile_one by discriminate. reflexivity. Qed.
Print Assumptions C58_one_day_refuted.

(** C59. *)
Theorem C59_periodic_columns_truncated_rows_partial : forall ny nx h f y x, x < nx -> y < ny -> 2 * h + 1 <= nx ->
  pool_space ny nx (Some (2 * h + 1)) f y x =
  sumN (map (fun y' => sumN (map (f y') (filter (circular nx x h) (seq 0 nx)))) (filter (fun y' => Nat.leb y (y' + h) && Nat.leb y' (y + h)) (seq 0 ny))).
Proof. intros ny nx h f y x X Y W. rewrite pool_space_spec by assumption. apply sumN_ext. intros y' _. apply sum_around; assumption. Qed.
Print Assumptions C59_periodic_columns_truncated_rows_partial.
Example C59_case : pool_space 3 6 (Some 3) (fun y x => 10 * y + x) 0 0 = (0 + 1 + 5) + (10 + 11 + 15).
Proof. vm_compute. reflexivity. Qed.
(** On grids narrower than the window columns are counted more than once. *)
Theorem C59_narrow_grid_refuted : forall nx h x, x < nx -> nx < 2 * h + 1 ->
  nx < pool_space 1 nx (Some (2 * h + 1)) (fun _ _ => 1) 0 x.
Proof.
  intros nx h x X W. rewrite pool_space_spec by lia. change (rows_near 1 0 h) with (rows_near 1 0 h). assert (E : rows_near 1 0 h = [0]) by (unfold rows_near; cbn; reflexivity). rewrite E. cbn [map]. rewrite sumN_cons.
  assert (C : forall l : list nat, sumN (map (fun _ => 1) l) = length l) by (induction l as [|a l IH]; [reflexivity|cbn [map]; rewrite sumN_cons, IH; reflexivity]).
  rewrite C. unfold around. rewrite map_length, seq_length. cbn [sumN fold_right]. lia.
Qed.
Print Assumptions C59_narrow_grid_refuted.

(** C60. *)
Lemma at_least_ge p t v : (0 < p)%Q -> at_least (lower_bound p) t = Some v -> (p <= v)%Q.
Proof.
  intros P H. destruct t as [t|]; [|discriminate]. injection H as <-. assert (E := edge_2 p). fold (lower_bound p) in E. destruct (Qltb t (lower_bound p)) eqn:C; [rewrite E; apply Qle_refl|]. apply Qltb_false in C. lra.
Qed.
Lemma exceeds_false p t v : (0 < p)%Q -> (forall a, t = Some a -> (p <= a)%Q) -> (v <= 0)%Q -> exceeds (Some v) t = false.
Proof. intros P H V. destruct t as [a|]; [|reflexivity]. cbn. specialize (H a eq_refl). apply Qle_bool_false. lra. Qed.
Theorem C60_hobday_never_flags_nonpositive : forall p mx q w ws ny nx doys da y x ts, (0 < p)%Q -> hobday_thresholds p mx q w ws ny nx doys da y x = Ok ts ->
  (forall d v, (v <= 0)%Q -> hobday_extreme ts d (Some v) = false) /\ (forall d, hobday_extreme ts d None = false) /\
  (da 0 (y * nx + x) = None -> forall d v, hobday_extreme ts d v = false).
Proof.
  intros p mx q w ws ny nx doys da y x ts P H. unfold hobday_thresholds in H. cbv zeta in H. destruct (rolling_histogram_quantile _ _ _ _) as [raw|] in H; [|discriminate]. injection H as E.
  assert (T : forall t, In t ts -> forall a, t = Some a -> (p <= a)%Q).
  { intros t I a ->. rewrite <- E in I. apply in_map_iff in I. destruct I as (t0 & Z & _). destruct (da 0 (y * nx + x)); [|discriminate]. apply (at_least_ge p t0 a P Z). }
  assert (N : forall d a, nth d ts None = Some a -> (p <= a)%Q).
  { intros d a Z. destruct (Nat.ltb_spec d (length ts)); [|rewrite nth_overflow in Z by lia; discriminate]. apply (T (nth d ts None)); [apply nth_In; assumption|exact Z]. }
  split; [intros d v V; apply (exceeds_false p _ v P); [apply N|exact V]|]. split; [reflexivity|]. intros L d v. rewrite L in E. unfold hobday_extreme.
  assert (Z : nth (d - 1) ts None = None). { rewrite <- E. clear. revert d. induction raw as [|a l IH]; intro d; [destruct (d - 1); reflexivity|]. destruct (d - 1) as [|i] eqn:D; [reflexivity|]. cbn. specialize (IH (S i)). replace (S i - 1) with i in IH by lia. exact IH. }
  rewrite Z. destruct v; reflexivity.
Qed.
Print Assumptions C60_hobday_never_flags_nonpositive.
Theorem C60_global_never_flags_nonpositive : forall p mx q values, (0 < p)%Q ->
  (forall v, (v <= 0)%Q -> global_extreme (global_threshold p mx q values) (Some v) = false) /\
  global_extreme (global_threshold p mx q values) None = false /\
  (In None values -> forall v, global_extreme (global_threshold p mx q values) v = false).
Proof.
  intros p mx q values P. split; [|split; [reflexivity|]].
  - intros v V. apply (exceeds_false p _ v P); [|exact V]. intros a E. unfold global_threshold in E. destruct (existsb _ values); [discriminate|]. exact (at_least_ge p _ a P E).
  - intros I v. unfold global_threshold. rewrite (proj2 (existsb_exists _ _)); [destruct v; reflexivity|]. exists None. split; [exact I|reflexivity].
Qed.
Print Assumptions C60_global_never_flags_nonpositive.
Example C60_case : global_extreme (global_threshold 1 5 (1 # 2) (map Some [-(3); -(2); -(1)])%Q) (Some 0%Q) = false /\ global_extreme (global_threshold 1 5 (1 # 2) (map Some [-(3); -(2); -(1)])%Q) (Some 1%Q) = true.
Proof. split; vm_compute; reflexivity. Qed.

(** C61. *)
Lemma exceeds_mono t1 t2 v : threshold_le t1 t2 -> exceeds v t2 = true -> exceeds v t1 = true.
Proof. destruct t1, t2, v; cbn; intros L H; try discriminate; try contradiction. apply Qle_bool_iff in H. apply Qle_bool_iff. lra. Qed.
Theorem C61_hobday_thresholds_monotone : forall p mx q1 q2 ny nx doys da ws h k y x, (0 < p)%Q -> (0 < mx)%Q -> (0 <= q1)%Q -> (q1 <= q2)%Q -> (q2 <= 1)%Q ->
  odd_window ws h -> 0 < k -> k <= 366 -> x < nx -> y < ny ->
  exists ts1 ts2, hobday_thresholds p mx q1 (2 * k + 1) ws ny nx doys da y x = Ok ts1 /\ hobday_thresholds p mx q2 (2 * k + 1) ws ny nx doys da y x = Ok ts2 /\
  forall d v, hobday_extreme ts2 d v = true -> hobday_extreme ts1 d v = true.
Proof.
  intros p mx q1 q2 ny nx doys da ws h k y x P M Q0 Q1 Q2 W K K' X Y. rewrite !(thresholds_eq p mx _ ny nx doys da ws h k y x W K K' X Y). eexists. eexists. split; [reflexivity|]. split; [reflexivity|].
  intros d v. unfold hobday_extreme. destruct (Nat.ltb_spec (d - 1) 366) as [L|L].
  - rewrite !(nth_map_gen _ _ (d - 1) 0) by (rewrite seq_length; exact L). apply exceeds_mono. destruct (da 0 (y * nx + x)); [|exact Logic.I].
    apply (row_threshold_mono p mx P M); [apply row_length|exact Q0|exact Q1|exact Q2].
  - rewrite nth_overflow by (rewrite map_length, seq_length; lia). destruct v; discriminate.
Qed.
Print Assumptions C61_hobday_thresholds_monotone.
Theorem C61_exact_thresholds_monotone : forall q1 q2 values w doys d v, (0 <= q1)%Q -> (q1 <= q2)%Q -> (q2 <= 1)%Q ->
  (global_extreme (exact_threshold q2 values) v = true -> global_extreme (exact_threshold q1 values) v = true) /\
  (exceeds v (exact_day_threshold q2 w doys values d) = true -> exceeds v (exact_day_threshold q1 w doys values d) = true).
Proof. intros q1 q2 values w doys d v Q0 Q1 Q2. split; apply exceeds_mono, quantile_mono; assumption. Qed.
Print Assumptions C61_exact_thresholds_monotone.
Example C61_case : exists a b, exact_threshold (1 # 2) (map Some [1; 5; 2])%Q = Some a /\ exact_threshold (3 # 4) (map Some [1; 5; 2])%Q = Some b /\ (a == 2)%Q /\ (b == 7 # 2)%Q.
Proof. eexists. eexists. split; [vm_compute; reflexivity|]. split; [vm_compute; reflexivity|]. split; reflexivity. Qed.

(** The approximate global threshold, if some value lies inside the range and the sample
    is not so large that the code's 1e-10 tolerance exceeds a value's weight. *)
Theorem C61_global_thresholds_monotone : forall p mx q1 q2 s v0 v, (0 < p)%Q -> (0 < mx)%Q -> (0 <= q1)%Q -> (q1 <= q2)%Q -> (q2 <= 1)%Q ->
  In v0 s -> (- p <= v0)%Q -> (v0 + p < mx)%Q -> ((natQ (length s) + 1) * (mx + 3 * p) <= 5000000000 * p)%Q ->
  global_extreme (global_threshold p mx q2 (map Some s)) v = true -> global_extreme (global_threshold p mx q1 (map Some s)) v = true.
Proof.
  intros p mx q1 q2 s v0 v P M Q0 Q1 Q2 I V0 V1 Sz. apply exceeds_mono. unfold global_threshold. rewrite no_missing, hist_1d_row.
  assert (N3 := n_edges_3 p mx P M). set (n := n_edges p mx) in *. set (bin := digitize (edges_1d p mx)).
  assert (Ed : forall k, k + 1 < n -> edge1 p mx k = edge p k) by (intros k K; unfold edge1; fold n; destruct (Nat.eqb_spec (S k) n); [lia|reflexivity]).
  apply quantile_1d_mono; [exact P|exact M|apply row_length| | |exact Q0|exact Q1|exact Q2].
  - fold n. rewrite !cum_row by lia. fold bin.
    assert (B0 : 0 < bin v0) by (apply (bin1_spec p mx P v0 0 ltac:(fold n; lia)); rewrite Ed by lia; unfold edge; change (natQ 0) with 0%Q; lra).
    assert (B1 : bin v0 <= n - 2).
    { destruct (Nat.le_gt_cases (bin v0) (n - 2)) as [|X]; [assumption|exfalso]. apply (bin1_spec p mx P v0 (n - 2) ltac:(fold n; lia)) in X. rewrite Ed in X by lia. unfold edge in X.
      assert (G := n_edges_bound p mx P). fold n in G. assert (Z : (natQ n == natQ (n - 2) + 2)%Q) by (replace n with (S (S (n - 2))) at 1 by lia; rewrite !natQ_S; ring). nra. }
    clear - I B0 B1. induction s as [|a s IH]; [destruct I|]. rewrite !count_cons. destruct I as [->|I].
    + assert (L : count (fun v => Nat.leb (bin v) 0) s <= count (fun v => Nat.leb (bin v) (n - 2)) s) by (apply count_le; intros w _ W; apply Nat.leb_le in W; apply Nat.leb_le; lia).
      destruct (Nat.leb_spec (bin v0) 0); [lia|]. destruct (Nat.leb_spec (bin v0) (n - 2)); lia.
    + specialize (IH I). destruct (Nat.leb_spec (bin a) 0), (Nat.leb_spec (bin a) (n - 2)); lia.
  - assert (L : sumN (row_of bin n s) <= length s) by apply sum_row_le. apply natQ_le in L. fold bin. fold n.
    apply (Qle_trans _ (2 * eps * (natQ (length s) + 1) * (mx + 3 * p))).
    + apply Qmult_le_compat_r; [|lra]. apply Qmult_le_l; [reflexivity|]. lra.
    + assert (E : (2 * eps * (natQ (length s) + 1) * (mx + 3 * p) == (1 # 5000000000) * ((natQ (length s) + 1) * (mx + 3 * p)))%Q) by (assert (Z : (2 * eps == 1 # 5000000000)%Q) by reflexivity; rewrite Z; ring).
      rewrite E. lra.
Qed.
Print Assumptions C61_global_thresholds_monotone.
Example C61_global_case : exists a b, global_threshold (1 # 2) 5 (1 # 2) (map Some [1; 4; 2])%Q = Some a /\ global_threshold (1 # 2) 5 (9 # 10) (map Some [1; 4; 2])%Q = Some b /\ (a < b)%Q.
Proof. eexists. eexists. split; [vm_compute; reflexivity|]. split; [vm_compute; reflexivity|reflexivity]. Qed.

(** C91. Exact thresholds flag the requested share: of the n available values at least
    (1-q)(n-1) reach the threshold and fewer than (1-q)(n-1)+1 exceed it. *)
Theorem C91_exact_share : forall q values t, (0 <= q)%Q -> (q <= 1)%Q -> exact_threshold q values = Some t ->
  let n := length (present values) in
  ((1 - q) * natQ (n - 1) <= natQ (count (global_extreme (Some t)) values))%Q /\
  (natQ (count (fun v => match v with Some a => negb (Qle_bool a t) | None => false end) values) < (1 - q) * natQ (n - 1) + 1)%Q.
Proof.
  intros q values t Q0 Q1 E n. destruct (quantile_counts q (present values) t Q0 Q1 E) as (A & B).
  assert (C : forall (P : Q -> bool), count (fun v => match v with Some a => P a | None => false end) values = count P (present values)).
  { intro P. clear. induction values as [|[a|] l IH]; [reflexivity| |]; rewrite count_cons, IH; [change (present (Some a :: l)) with (a :: present l); rewrite count_cons; reflexivity|reflexivity]. }
  assert (X : count (global_extreme (Some t)) values = count (fun v => Qle_bool t v) (present values)) by (rewrite <- C; apply count_ext; intros [a|] _; reflexivity).
  rewrite X, C. split; assumption.
Qed.
Print Assumptions C91_exact_share.
Theorem C91_exact_threshold_exists : forall q values, exact_threshold q values = None <-> (forall v, In v values -> v = None).
Proof.
  intros q values. unfold exact_threshold, quantile. induction values as [|[a|] l IH].
  - split; [intros _ v []|reflexivity].
  - split; [discriminate|]. intro H. specialize (H (Some a) (or_introl eq_refl)). discriminate.
  - change (present (None :: l)) with (present l). rewrite IH. split; intros H v; [intros [<-|I]; [reflexivity|apply H; exact I]|intro I; apply H; right; exact I].
Qed.
Print Assumptions C91_exact_threshold_exists.
Example C91_case : exists t, exact_threshold (9 # 10) (None :: map (fun k => Some (natQ k)) (seq 0 11)) = Some t /\ (t == 9)%Q.
Proof. eexists. split; [vm_compute; reflexivity|reflexivity]. Qed.

(** C92. The exact and the approximate day-of-year thresholds of 1 January do not pool
    the same days when 31 December is day 365: the approximate window reaches for the
    day 366 that does not exist.  A record, in range, whose two thresholds differ by
    more than four bins. *)
Definition newyear_doys : list nat := [365; 1; 2].
Definition newyear : series := [Some 8; Some 0; Some 0]%Q.
Theorem C92_new_year_refuted : exists ts a e, hobday_thresholds 1 10 (9 # 10) 3 None 1 1 newyear_doys (fun t _ => nth t newyear None) 0 0 = Ok ts /\
  nth 0 ts None = Some a /\ exact_day_threshold (9 # 10) 3 newyear_doys newyear 1 = Some e /\ (a + 4 * 1 < e)%Q.
Proof.
  assert (E := thresholds_eq 1 10 (9 # 10) 1 1 newyear_doys (fun t _ => nth t newyear None) None None 1 0 0 Logic.I ltac:(lia) ltac:(lia) ltac:(lia) ltac:(lia)).
  eexists. eexists. eexists. split; [exact E|]. split; [rewrite (nth_map_gen _ _ _ 0) by (rewrite seq_length; lia); rewrite seq_nth by lia; vm_compute; reflexivity|].
  split; [vm_compute; reflexivity|reflexivity].
Qed.
Print Assumptions C92_new_year_refuted.
(** Inside a year, in a daily record that does not stop within the window, both take the
    percentile of the same values. *)
Theorem C92_same_sample_partial : forall doys values d k q, length values = length doys -> k < d -> d + k <= 366 ->
  (forall t t', t < length doys -> nth t doys 0 = d -> t' < length doys -> t' <= t + k -> t <= t' + k -> nth t' doys 0 + t = d + t') ->
  (forall t', t' < length doys -> d <= nth t' doys 0 + k -> nth t' doys 0 <= d + k -> exists t, t < length doys /\ nth t doys 0 = d /\ nth t' doys 0 + t = d + t') ->
  exists s, exact_day_threshold q (2 * k + 1) doys values d = quantile q s /\
    Permutation s (pooled_sample 1 1 doys (fun t _ => nth t values None) None k 0 0 d).
Proof. intros doys values d k q L Dk Dl H1 H2. apply same_sample; assumption. Qed.
Print Assumptions C92_same_sample_partial.
Example C92_case : let doys := [1; 2; 3; 4; 5; 1; 2; 3; 4; 5] in
  (forall t t', t < length doys -> nth t doys 0 = 3 -> t' < length doys -> t' <= t + 1 -> t <= t' + 1 -> nth t' doys 0 + t = 3 + t') /\
  pooled_sample 1 1 doys (fun t _ => Some (natQ t)) None 1 0 0 3 <> [].
Proof.
  cbv zeta. split; [|vm_compute; discriminate]. cbn [length]. intros t t' A B C D E. do 10 (destruct t as [|t]; [cbn in B; try discriminate; do 10 (destruct t' as [|t']; [cbn; lia|]); lia|]). lia.
Qed.
