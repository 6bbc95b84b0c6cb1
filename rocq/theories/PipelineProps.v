(** Property theorems C128-C130: units, and events from data. *)
From Coq Require Import String Qround Lqa.
From Verif Require Import Base Morph MorphSpec MorphProps Label LabelSpec Filter FilterSpec FilterProofs Overlap OverlapProofs Merge Partition PartitionProofs Cluster ClusterSpec ClusterProofs ClusterFinal
  Detect DetectProofs DetectProps Climatology ClimatologySpec ClimatologyProofs Detrend DetrendSpec DetrendProofs Histogram HistogramProofs DetectRun DetectRunSpec DetectRunProofs
  DetectRunProps ScaleProofs Run RunSpec RunProofs RunProps GridRunProps Pipeline.
Open Scope string_scope.
Open Scope list_scope.
Open Scope nat_scope.

(** The same data in other units, cell by cell: a -> k a + b. *)
Definition converted_by (k b : nat -> Q) (n : nat) (da da' : list (list value)) : Prop :=
  length da' = length da /\
  forall t c, t < length da -> c < n ->
    match finite_value da t c, finite_value da' t c with
    | Some x, Some y => (y == k c * x + b c)%Q
    | None, None => True
    | _, _ => False
    end.
(** [b] is [k] times [a], or both are missing. *)
Definition times (k : Q) (a b : option Q) : Prop :=
  match a, b with Some x, Some y => (y == k * x)%Q | None, None => True | _, _ => False end.

Section Units.
Variables (pinv : matrix -> matrix) (hs : list (Q -> Q)) (dd dc : list string) (dask : bool) (ny nx : nat).
Notation preprocess da cal s p := (preprocess_data pinv hs dd dc dask ny nx da cal s p).
Notation orders_of p := (map Z.to_nat (match p_orders p with None => [1%Z] | Some o => o end)).

Lemma thresholds_scale has_y doys anom anom' pl thr (k : nat -> Q) :
  (match pl with GlobalExact _ | HobdayExact _ _ => True | _ => False end) ->
  run_thresholds has_y ny nx doys anom pl = Ok thr ->
  exists thr', run_thresholds has_y ny nx doys anom' pl = Ok thr' /\
  forall c, c < ny * nx -> (0 < k c)%Q -> Forall2 (scal (k c)) (anom c) (anom' c) -> forall day, scal (k c) (thr c day) (thr' c day).
Proof.
  intros E H. destruct pl as [q|q p mx|q d|q p mx d ws]; try contradiction; cbn [run_thresholds] in *.
  - destruct (has_y || _); [|discriminate]. injection H as <-. eexists. split; [reflexivity|]. intros c C K F day. apply quantile_scal; [exact K|]. apply present_scal. exact F.
  - destruct (Z.ltb d 1); [discriminate|]. injection H as <-. eexists. split; [reflexivity|]. intros c C K F day. apply exact_day_scal; assumption.
Qed.

(** Scaled data, without offset. *)
Lemma scaled_run da da' cal s p ds (k : nat -> Q) :
  valid_calendar (length da) cal -> (forall c, c < ny * nx -> (0 < k c)%Q) -> a_method_percentile (p_extreme p) = "exact" ->
  length da' = length da -> (forall t c, t < length da -> c < ny * nx -> scal (k c) (finite_value da t c) (finite_value da' t c)) ->
  preprocess da cal s p = Ok ds ->
  exists ds', preprocess da' cal s p = Ok ds' /\ d_years ds' = d_years ds /\ d_doys ds' = d_doys ds /\
    forall c, c < ny * nx ->
      d_mask ds' c = d_mask ds c /\
      (forall t, scal (k c) (nth t (d_anomaly ds c) None) (nth t (d_anomaly ds' c) None)) /\
      (forall day, scal (k c) (d_threshold ds c day) (d_threshold ds' c day)) /\
      (forall t, d_extreme ds' t c = d_extreme ds t c).
Proof.
  intros (L1 & L2 & L3 & Dr) K Ex Ll Sc H.
  destruct (run_ok _ _ _ _ _ _ _ _ _ _ _ _ H) as (m & keep & pl & dims & coords & thr & P & I & Ne & T & Hx & Hy & ->).
  cbn [d_mask d_extreme d_anomaly d_doys d_threshold d_years] in *.
  destruct (C85_preprocess_checks_everything _ _ _ _ _ _ _ _ _ _ P) as (dims' & coords' & _ & _ & _ & _ & (i0 & I0 & F0) & _ & _ & _ & _ & In0).
  assert (Pos : 0 < length da).
  { apply finite_at_value in F0. destruct da; [|cbn; lia]. unfold finite_value in F0. cbn in F0. destruct i0; congruence. }
  assert (Sa : forall c, c < ny * nx -> Forall2 (scal (k c))
     (select keep (anomaly_series pinv hs m (orders_of p) (p_window p) cal s (cell_series da c)))
     (select keep (anomaly_series pinv hs m (orders_of p) (p_window p) cal s (cell_series da' c)))).
  { intros c C. apply select_Forall2. apply anomaly_scal; rewrite ?cell_length; try lia; [intros i Hi; apply Dr; exact Hi|].
    apply (Forall2_nth_iff (scal (k c)) _ _ None None). rewrite !cell_length. split; [lia|]. intros t Ht. rewrite !cell_nth by lia. apply Sc; assumption. }
  assert (V' : validate_data_values (ny * nx) da' = Ok tt).
  { apply (offset_valid (fun t c => match finite_value da t c, finite_value da' t c with Some x, Some y => y - x | _, _ => 0 end)%Q _ da); [|exact (plan_valid _ _ _ _ _ _ _ _ P)].
    split; [exact Ll|]. intros t c Ht C. specialize (Sc t c Ht C). destruct (finite_value da t c), (finite_value da' t c); cbn in Sc; try contradiction; [ring|exact Logic.I]. }
  assert (P' := plan_transfer _ _ _ _ _ da' _ _ _ P V').
  assert (Pl : match pl with GlobalExact _ | HobdayExact _ _ => True | _ => False end).
  { destruct pl; cbn [intended] in In0; auto; destruct In0 as (_ & E & _); congruence. }
  match type of T with run_thresholds _ _ _ _ ?an _ = _ => destruct (thresholds_scale _ _ an
    (fun c => select keep (anomaly_series pinv hs m (orders_of p) (p_window p) cal s (cell_series da' c))) _ _ k Pl T) as (thr' & T' & Lc) end.
  assert (St : forall c, c < ny * nx -> forall day, scal (k c) (thr c day) (thr' c day)) by (intros c C; apply Lc; auto).
  unfold preprocess_data. rewrite P', I. cbv zeta. destruct (select keep (c_doys cal)) as [|d0 dr] eqn:D; [congruence|]. rewrite T'. cbn [bind]. rewrite Hx, Hy. cbn [negb].
  eexists. split; [reflexivity|]. cbn [d_mask d_extreme d_anomaly d_doys d_threshold d_years]. split; [reflexivity|]. split; [reflexivity|]. intros c C.
  assert (Nt : forall t, scal (k c)
     (nth t (select keep (anomaly_series pinv hs m (orders_of p) (p_window p) cal s (cell_series da c))) None)
     (nth t (select keep (anomaly_series pinv hs m (orders_of p) (p_window p) cal s (cell_series da' c))) None)).
  { intro t. destruct (proj1 (Forall2_nth_iff (scal (k c)) _ _ None None) (Sa c C)) as [Ln N].
    match type of Ln with length ?l = _ => destruct (Nat.lt_ge_cases t (length l)) as [Lt|Ge] end; [apply N; exact Lt|]. rewrite !nth_overflow by lia. exact Logic.I. }
  split; [|split; [exact Nt|split; [apply St; exact C|]]].
  - unfold ocean. specialize (Sc 0 c Pos C). rewrite !cell_nth by lia. destruct (finite_value da 0 c), (finite_value da' 0 c); cbn in Sc; try contradiction; reflexivity.
  - intro t. symmetry. apply (exceeds_scal (k c)); [apply K; exact C|apply Nt|apply St; exact C].
Qed.

(** The intermediate data [k c * a]. *)
Definition scale_rows (k : nat -> Q) (n : nat) (da : list (list value)) : list (list value) :=
  map (fun row => map (fun c => match nth c row NaN with Finite q => Finite (k c * q) | v => v end) (seq 0 n)) da.
Lemma scale_rows_value k n da t c : t < length da -> c < n -> scal (k c) (finite_value da t c) (finite_value (scale_rows k n da) t c).
Proof.
  intros T C. unfold finite_value, scale_rows. rewrite (nth_map_gen _ da t []) by exact T. rewrite (nth_map_gen _ _ c 0) by (rewrite seq_length; exact C).
  rewrite seq_nth by exact C. cbn [Nat.add]. destruct (nth c (nth t da []) NaN); cbn; auto. reflexivity.
Qed.

(** ** C128: units *)

(** With exact percentiles a change of units (Fahrenheit to Celsius, metres to
    millimetres, standardisation by any positive factor of each cell) leaves mask,
    calendar and extremes as they are and multiplies anomalies and thresholds.
    Missing from the full claim: approximate percentiles. *)
Theorem C128_units_do_not_matter_partial da da' cal s p ds (k b : nat -> Q) :
  valid_calendar (length da) cal -> 0 < s_smooth s -> pinv_correct pinv hs cal p -> a_method_percentile (p_extreme p) = "exact" ->
  (forall c, c < ny * nx -> (0 < k c)%Q) -> converted_by k b (ny * nx) da da' ->
  preprocess da cal s p = Ok ds ->
  exists ds', preprocess da' cal s p = Ok ds' /\ d_years ds' = d_years ds /\ d_doys ds' = d_doys ds /\
    forall c, c < ny * nx ->
      d_mask ds' c = d_mask ds c /\
      (forall t, times (k c) (nth t (d_anomaly ds c) None) (nth t (d_anomaly ds' c) None)) /\
      (forall day, times (k c) (d_threshold ds c day) (d_threshold ds' c day)) /\
      (forall t, d_extreme ds' t c = d_extreme ds t c).
Proof.
  intros Vc Sm Pi Ex K [Ll Cv] H. set (mid := scale_rows k (ny * nx) da).
  assert (Lm : length mid = length da) by apply map_length.
  destruct (scaled_run da mid cal s p ds k Vc K Ex Lm (fun t c T C => scale_rows_value k _ da t c T C) H) as (ds1 & R1 & Y1 & D1 & C1).
  assert (Of : offset_by (fun _ c => b c) (ny * nx) mid da').
  { split; [congruence|]. intros t c T C. rewrite Lm in T. specialize (Cv t c T C). assert (Sv := scale_rows_value k (ny * nx) da t c T C). fold mid in Sv.
    destruct (finite_value da t c), (finite_value mid t c), (finite_value da' t c); cbn in *; try contradiction; auto. rewrite Cv, Sv. reflexivity. }
  rewrite <- Lm in Vc.
  assert (Re : forall c, c < ny * nx -> removed_by hs cal p (fun _ => b c)) by (intros c _; exact (constants_are_removed pinv hs dd dc dask ny nx da cal s p ds (b c) H)).
  destruct (C117_removed_signals_change_nothing pinv hs dd dc dask ny nx mid da' cal s p ds1 (fun _ c => b c) Vc Sm Pi Of Re R1) as (ds2 & R2 & Y2 & D2 & C2).
  exists ds2. split; [exact R2|]. split; [congruence|]. split; [congruence|]. intros c C. destruct (C1 c C) as (M1 & A1 & T1 & E1). destruct (C2 c C) as (M2 & A2 & T2 & E2).
  assert (Tr : forall x y z, scal (k c) x y -> same z y -> times (k c) x z).
  { intros [x|] [y|] [z|]; cbn; try tauto. intros E F. rewrite F. exact E. }
  split; [congruence|]. split; [intro t; exact (Tr _ _ _ (A1 t) (A2 t))|]. split; [intro day; exact (Tr _ _ _ (T1 day) (T2 day))|]. intro t. congruence.
Qed.
End Units.
Print Assumptions C128_units_do_not_matter_partial.

(** As claimed, also with approximate percentiles, whose bins have a width in the
    units of the data.  False: the record of DetectRunProps in units of ten degrees
    has no extremes any more. *)
Theorem C128_approximate_percentiles_depend_on_units_refuted :
  let da' := scale_rows (fun _ => (1 # 10)%Q) 2 late_cell in
  converted_by (fun _ => (1 # 10)%Q) (fun _ => 0%Q) 2 late_cell da' /\
  (exists ds, run_of late_cell cal6 1 "fixed_baseline" 2 approx_args = Ok ds /\ d_extreme ds 4 0 = true) /\
  (exists ds', run_of da' cal6 1 "fixed_baseline" 2 approx_args = Ok ds' /\ d_extreme ds' 4 0 = false).
Proof.
  intro da'. split; [|split].
  - split; [reflexivity|]. intros t c T C. assert (Sv := scale_rows_value (fun _ => (1 # 10)%Q) 2 late_cell t c T C). fold da' in Sv.
    destruct (finite_value late_cell t c), (finite_value da' t c); cbn in *; auto. rewrite Sv. ring.
  - assert (E : summary (run_of late_cell cal6 1 "fixed_baseline" 2 approx_args) = Some ([[false; false]; [false; false]; [false; false]; [false; false]; [true; false]; [false; false]], [true; false])) by (vm_compute; reflexivity).
    destruct (run_of late_cell cal6 1 "fixed_baseline" 2 approx_args) as [ds|]; [|discriminate]. exists ds. split; [reflexivity|]. cbn [summary] in E. injection E as E _.
    assert (N := f_equal (fun l => nth 0 (nth 4 l []) false) E). cbn [nth] in N.
    assert (L := f_equal (@length _) E). rewrite map_length, seq_length in L. cbn in L. rewrite (nth_map_gen _ _ 4 0) in N by (rewrite seq_length; lia). rewrite seq_nth in N by lia. exact N.
  - assert (E : summary (run_of da' cal6 1 "fixed_baseline" 2 approx_args) = Some ([[false; false]; [false; false]; [false; false]; [false; false]; [false; false]; [false; false]], [true; false])) by (vm_compute; reflexivity).
    destruct (run_of da' cal6 1 "fixed_baseline" 2 approx_args) as [ds|]; [|discriminate]. exists ds. split; [reflexivity|]. cbn [summary] in E. injection E as E _.
    assert (N := f_equal (fun l => nth 0 (nth 4 l []) false) E). cbn [nth] in N.
    assert (L := f_equal (@length _) E). rewrite map_length, seq_length in L. cbn in L. rewrite (nth_map_gen _ _ 4 0) in N by (rewrite seq_length; lia). rewrite seq_nth in N by lia. exact N.
Qed.
Print Assumptions C128_approximate_percentiles_depend_on_units_refuted.

(** Cell 0 from Celsius to Fahrenheit, cell 1 to kilo-degrees. *)
Definition factor (c : nat) : Q := if Nat.eqb c 0 then 9 # 5 else 1 # 1000.
Definition shift (c : nat) : Q := if Nat.eqb c 0 then 32 else 0.
Definition fahrenheit : list (list value) := raise (fun _ c => shift c) (scale_rows factor 2 late_cell).
Example C128_case : converted_by factor shift 2 late_cell fahrenheit /\ (forall c, 0 < factor c)%Q /\
  summary (run_of fahrenheit cal6 1 "fixed_baseline" 2 exact_args) = summary (run_of late_cell cal6 1 "fixed_baseline" 2 exact_args).
Proof.
  split; [|split].
  - split; [reflexivity|]. intros t c T C. do 6 (destruct t as [|t]; [destruct c as [|[|c]]; [vm_compute; try reflexivity; exact Logic.I|vm_compute; try reflexivity; exact Logic.I|lia]|]). cbn in T. lia.
  - intro c. unfold factor. destruct (Nat.eqb c 0); reflexivity.
  - vm_compute. reflexivity.
Qed.

(** ** From data to events *)

Lemma flags_length ny nx ds : length (flags ny nx ds) = length (d_years ds).
Proof. unfold flags. rewrite map_length, seq_length. reflexivity. Qed.
Lemma flags_nth ny nx ds t c : t < length (d_years ds) -> c < ny * nx -> nth c (nth t (flags ny nx ds) []) false = d_extreme ds t c.
Proof.
  intros T C. unfold flags. rewrite (nth_map_gen _ _ t 0) by (rewrite seq_length; exact T). rewrite (nth_map_gen _ _ c 0) by (rewrite seq_length; exact C).
  rewrite !seq_nth by assumption. reflexivity.
Qed.
Lemma masks_nth ny nx ds c : c < ny * nx -> nth c (masks ny nx ds) false = d_mask ds c.
Proof. intro C. unfold masks. rewrite (nth_map_gen _ _ c 0) by (rewrite seq_length; exact C). rewrite seq_nth by exact C. reflexivity. Qed.

Lemma same_events ny nx o ds ds' : d_years ds' = d_years ds ->
  (forall c, c < ny * nx -> d_mask ds' c = d_mask ds c /\ forall t, d_extreme ds' t c = d_extreme ds t c) ->
  track_events ny nx o ds' = track_events ny nx o ds.
Proof.
  intros Y H.
  assert (F : flags ny nx ds' = flags ny nx ds).
  { unfold flags. rewrite Y. apply map_ext_in. intros t _. apply map_ext_in. intros c C. apply in_seq in C. apply H. lia. }
  assert (M : masks ny nx ds' = masks ny nx ds) by (unfold masks; apply map_ext_in; intros c C; apply in_seq in C; apply H; lia).
  unfold track_events, tracker_grid. rewrite F, M, Y. reflexivity.
Qed.

(** ** C129: the events do not depend on units, offsets and removed signals *)

Section Events.
Variables (pinv : matrix -> matrix) (hs : list (Q -> Q)) (dd dc : list string) (dask : bool) (ny nx : nat).
Notation preprocess da cal s p := (preprocess_data pinv hs dd dc dask ny nx da cal s p).

Theorem C129_removed_signals_give_the_same_events da da' cal s p ds signal :
  valid_calendar (length da) cal -> 0 < s_smooth s -> pinv_correct pinv hs cal p ->
  offset_by signal (ny * nx) da da' -> (forall c, c < ny * nx -> removed_by hs cal p (fun t => signal t c)) ->
  preprocess da cal s p = Ok ds ->
  exists ds', preprocess da' cal s p = Ok ds' /\ forall o, track_events ny nx o ds' = track_events ny nx o ds.
Proof.
  intros Vc Sm Pi Of Re H. destruct (C117_removed_signals_change_nothing pinv hs dd dc dask ny nx da da' cal s p ds signal Vc Sm Pi Of Re H) as (ds' & R & Y & _ & C).
  exists ds'. split; [exact R|]. intro o. apply same_events; [exact Y|]. intros c L. destruct (C c L) as (M & _ & _ & E). auto.
Qed.

Theorem C129_units_give_the_same_events_partial da da' cal s p ds (k b : nat -> Q) :
  valid_calendar (length da) cal -> 0 < s_smooth s -> pinv_correct pinv hs cal p -> a_method_percentile (p_extreme p) = "exact" ->
  (forall c, c < ny * nx -> (0 < k c)%Q) -> converted_by k b (ny * nx) da da' ->
  preprocess da cal s p = Ok ds ->
  exists ds', preprocess da' cal s p = Ok ds' /\ forall o, track_events ny nx o ds' = track_events ny nx o ds.
Proof.
  intros Vc Sm Pi Ex K Cv H. destruct (C128_units_do_not_matter_partial pinv hs dd dc dask ny nx da da' cal s p ds k b Vc Sm Pi Ex K Cv H) as (ds' & R & Y & _ & C).
  exists ds'. split; [exact R|]. intro o. apply same_events; [exact Y|]. intros c L. destruct (C c L) as (M & _ & _ & E). auto.
Qed.

(** ** C130: events come from extremes *)

(** A cell at most [r] cells away, the grid being continued by its edge values
    (regional) or periodically, in latitude too (C09). *)
Definition cell_beyond (regional : bool) (n : nat) (k : Z) : Z := if regional then clampZ (Z.of_nat n) k else Z.modulo k (Z.of_nat n).
Definition nearby (regional : bool) (r : Z) (y x y' x' : nat) : Prop :=
  exists dy dx, (dy * dy + dx * dx <= r * r)%Z /\
    Z.of_nat y' = cell_beyond regional ny (Z.of_nat y + dy) /\ Z.of_nat x' = cell_beyond regional nx (Z.of_nat x + dx).

Lemma beyond_range regional n k : 0 < n -> exists m, m < n /\ Z.of_nat m = cell_beyond regional n k.
Proof.
  intro N. assert (R : (0 <= cell_beyond regional n k < Z.of_nat n)%Z).
  { unfold cell_beyond. destruct regional; [unfold clampZ; lia|apply Z.mod_pos_bound; lia]. }
  exists (Z.to_nat (cell_beyond regional n k)). lia.
Qed.
(** Two moves are one. *)
Lemma beyond_twice regional n y m d1 d2 : y < n -> Z.of_nat m = cell_beyond regional n (Z.of_nat y + d1) ->
  exists d, (d * d <= d1 * d1)%Z /\ cell_beyond regional n (Z.of_nat m + d2) = cell_beyond regional n (Z.of_nat y + (d + d2)).
Proof.
  intros Y E. unfold cell_beyond in *. destruct regional.
  - exists (Z.of_nat m - Z.of_nat y)%Z. split; [|f_equal; lia]. unfold clampZ in E.
    assert (A : (Z.abs (Z.of_nat m - Z.of_nat y) <= Z.abs d1)%Z) by lia. apply Z.square_le_mono_nonneg in A; [|lia]. rewrite <- !Z.abs_mul in A. rewrite !Z.abs_eq in A by apply Z.square_nonneg. exact A.
  - exists d1. split; [lia|]. rewrite E. rewrite Zplus_mod_idemp_l. f_equal. lia.
Qed.
Lemma disc_sum a b c d r s : (0 <= r -> 0 <= s -> a * a + b * b <= r * r -> c * c + d * d <= s * s -> (a + c) * (a + c) + (b + d) * (b + d) <= (r + s) * (r + s))%Z.
Proof.
  intros R S0 H1 H2. assert (Cs : (a * c + b * d <= r * s)%Z); [|nia].
  destruct (Z.le_gt_cases (a * c + b * d) 0) as [L|L]; [nia|]. apply Z.square_le_simpl_nonneg; [nia|].
  assert (I : ((a * c + b * d) * (a * c + b * d) <= (a * a + b * b) * (c * c + d * d))%Z).
  { assert (0 <= (a * d - b * c) * (a * d - b * c))%Z by apply Z.square_nonneg. lia. }
  assert ((a * a + b * b) * (c * c + d * d) <= (r * r) * (s * s))%Z by (apply Z.mul_le_mono_nonneg; nia). nia.
Qed.
Lemma nearby_trans regional r1 r2 y x y1 x1 y2 x2 : (0 <= r1)%Z -> (0 <= r2)%Z -> y < ny -> x < nx ->
  nearby regional r1 y x y1 x1 -> nearby regional r2 y1 x1 y2 x2 -> nearby regional (r1 + r2) y x y2 x2.
Proof.
  intros R1 R2 Y X (dy & dx & D & Ey & Ex) (dy' & dx' & D' & Ey' & Ex').
  destruct (beyond_twice regional ny y y1 dy dy' Y Ey) as (a & A & Fa). destruct (beyond_twice regional nx x x1 dx dx' X Ex) as (b & B & Fb).
  exists (a + dy')%Z, (b + dx')%Z. split; [apply disc_sum; lia|]. split; congruence.
Qed.

Lemma extend_cell regional f y x dy dx : 0 < ny -> 0 < nx -> extend regional (Z.of_nat ny) (Z.of_nat nx) f (Z.of_nat y + dy) (Z.of_nat x + dx) ->
  exists y' x', y' < ny /\ x' < nx /\ Z.of_nat y' = cell_beyond regional ny (Z.of_nat y + dy) /\ Z.of_nat x' = cell_beyond regional nx (Z.of_nat x + dx) /\
    f (Z.of_nat y') (Z.of_nat x') = true.
Proof.
  intros Ny Nx E. destruct (beyond_range regional ny (Z.of_nat y + dy) Ny) as (y' & Ly & Ey). destruct (beyond_range regional nx (Z.of_nat x + dx) Nx) as (x' & Lx & Ex).
  exists y', x'. split; [exact Ly|]. split; [exact Lx|]. split; [exact Ey|]. split; [exact Ex|]. rewrite Ey, Ex. unfold extend in E. unfold cell_beyond. destruct regional; exact E.
Qed.

Lemma flat_at f y x : y < ny -> x < nx -> nth (y * nx + x) (flat_img ny nx f) false = f (Z.of_nat y) (Z.of_nat x).
Proof. exact (flat_img_nth (mkGrid true 0 ny nx [] 0 0 (ByAbsolute 0)) f y x). Qed.

(** One filling: near a marked cell, and exactly there when R is 0. *)
Lemma fill_near regional R mask f y x : (0 <= R)%Z -> y < ny -> x < nx ->
  fill_holes_slice regional R (Z.of_nat ny) (Z.of_nat nx) mask f (Z.of_nat y) (Z.of_nat x) = true ->
  exists y' x', y' < ny /\ x' < nx /\ nearby regional R y x y' x' /\ f (Z.of_nat y') (Z.of_nat x') = true.
Proof.
  intros R0 Y X F. destruct (Z.eq_dec R 0) as [->|N].
  - exists y, x. split; [exact Y|]. split; [exact X|]. split.
    + exists 0%Z, 0%Z. split; [lia|]. rewrite !Z.add_0_r. unfold cell_beyond. destruct regional; [unfold clampZ; lia|]. rewrite !Z.mod_small by lia. auto.
    + unfold fill_holes_slice in F. apply andb_prop in F. apply F.
  - destruct (C69_marks_only_near_extremes regional R _ _ mask f _ _ ltac:(lia) F) as (dy & dx & D & E).
    destruct (extend_cell regional f y x dy dx ltac:(lia) ltac:(lia) E) as (y' & x' & Ly & Lx & Ey & Ex & V).
    exists y', x'. split; [exact Ly|]. split; [exact Lx|]. split; [|exact V]. exists dy, dx. split; [exact D|auto].
Qed.

Lemma fill_grid_near g data s t y x : g_ny g = ny -> g_nx g = nx -> (0 <= g_R g)%Z -> (0 <= g_T g)%Z -> Z.even (g_T g) = true ->
  length data = g_nt g -> fill_grid g data = Some s -> t < g_nt g -> y < ny -> x < nx -> nth (y * nx + x) (nth t s []) false = true ->
  exists t' y' x', t' < g_nt g /\ (Z.abs (Z.of_nat t' - Z.of_nat t) <= g_T g)%Z /\ y' < ny /\ x' < nx /\
    nearby (g_regional g) (g_R g + g_R g / 2) y x y' x' /\ nth (y' * nx + x') (nth t' data []) false = true.
Proof.
  intros Gy Gx R0 T0 Te L E T Y X V. unfold fill_grid in E. rewrite Gy, Gx in E.
  destruct (preprocess_morph _ _ _ _ _ _ _) as [im|] eqn:P; [|discriminate]. cbn [option_map] in E. injection E as <-.
  unfold preprocess_morph in P. set (im1 := fill_holes _ _ _ _ _ _) in P.
  assert (L1 : length im1 = g_nt g) by (unfold im1, fill_holes; rewrite !map_length; exact L).
  destruct (C10_record_level _ _ _ _ _ _ _ _ T0 Te P) as (Li & cl & Lc & Cl & Op).
  rewrite (nth_map_gen _ im t (fun _ _ => false)) in V by lia. rewrite flat_at in V by assumption.
  (* the first filling at any step *)
  assert (First : forall t y x, t < g_nt g -> y < ny -> x < nx -> nth t im1 (fun _ _ => false) (Z.of_nat y) (Z.of_nat x) = true ->
    exists y' x', y' < ny /\ x' < nx /\ nearby (g_regional g) (g_R g) y x y' x' /\ nth (y' * nx + x') (nth t data []) false = true).
  { clear - L R0. intros t y x T Y X V. unfold im1, fill_holes in V. rewrite (nth_map_gen _ (map (img_of nx) data) t (fun _ _ => false)) in V by (rewrite map_length; lia).
    rewrite (nth_map_gen _ data t []) in V by lia. destruct (fill_near _ _ _ _ y x R0 Y X V) as (y' & x' & Ly & Lx & N & F).
    exists y', x'. split; [exact Ly|]. split; [exact Lx|]. split; [exact N|]. unfold img_of in F. rewrite !Nat2Z.id in F. exact F. }
  assert (H2 : (0 <= g_R g / 2)%Z) by (apply Z.div_pos; lia).
  assert (Here : nearby (g_regional g) (g_R g / 2) y x y x).
  { exists 0%Z, 0%Z. split; [nia|]. rewrite !Z.add_0_r. unfold cell_beyond. destruct (g_regional g); [unfold clampZ; lia|]. rewrite !Z.mod_small by lia. auto. }
  assert (Second : exists t1 y1 x1, t1 < g_nt g /\ (Z.abs (Z.of_nat t1 - Z.of_nat t) <= g_T g)%Z /\ y1 < ny /\ x1 < nx /\ nearby (g_regional g) (g_R g / 2) y x y1 x1 /\
     nth t1 im1 (fun _ _ => false) (Z.of_nat y1) (Z.of_nat x1) = true).
  { destruct Op as [[Tz ->]|[Tp ->]].
    - exists t, y, x. split; [exact T|]. split; [lia|]. auto.
    - unfold fill_holes in V. rewrite (nth_map_gen _ cl t (fun _ _ => false)) in V by lia.
      destruct (fill_near _ _ _ _ y x H2 Y X V) as (y1 & x1 & Ly & Lx & N & F).
      apply Cl in F; [|lia].
      assert (Se : forall k, ext (series_at im1 (Z.of_nat y1) (Z.of_nat x1)) k -> (0 <= k)%Z /\ Z.to_nat k < g_nt g /\ nth (Z.to_nat k) im1 (fun _ _ => false) (Z.of_nat y1) (Z.of_nat x1) = true).
      { intros k K. unfold ext, at_t, series_at in K. rewrite map_length in K. match type of K with (if ?b then _ else _) = true => destruct b eqn:B; [|discriminate] end.
        apply andb_prop in B. destruct B as [B1 B2]. apply Z.leb_le in B1. apply Z.ltb_lt in B2.
        assert (B3 : (k < Z.of_nat (g_nt g))%Z) by (rewrite <- L1; exact B2). assert (B4 : Z.to_nat k < length im1) by (rewrite L1; lia).
        rewrite (nth_map_gen _ im1 _ (fun _ _ => false)) in K by exact B4. split; [lia|]. split; [lia|exact K]. }
      destruct F as [F|(a & b & Ab & Wd & Ea & _ & _)].
      + apply Se in F. rewrite Nat2Z.id in F. exists t, y1, x1. split; [exact T|]. split; [lia|]. tauto.
      + apply Se in Ea. exists (Z.to_nat a), y1, x1. split; [apply Ea|]. split; [lia|]. tauto. }
  destruct Second as (t1 & y1 & x1 & T1 & D1 & Y1 & X1 & N1 & V1). destruct (First t1 y1 x1 T1 Y1 X1 V1) as (y2 & x2 & Y2 & X2 & N2 & V2).
  exists t1, y2, x2. split; [exact T1|]. split; [exact D1|]. split; [exact Y2|]. split; [exact X2|]. split; [|exact V2].
  rewrite Z.add_comm. exact (nearby_trans _ _ _ y x y1 x1 y2 x2 H2 R0 Y X N1 N2).
Qed.

Lemma ran_grid o ds F n mg st : track_events ny nx o ds = Ok (F, n, mg, st) -> exists s, fill_grid (tracker_grid ny nx o ds) (flags ny nx ds) = Some s.
Proof.
  unfold track_events, run, run_preprocess. cbn [effective t_data t_checkpoint t_scratch loads saves]. unfold clean_grid.
  destruct (fill_grid (tracker_grid ny nx o ds) (flags ny nx ds)) as [s|]; [intros _; exists s; reflexivity|discriminate].
Qed.

(** Whatever the data and options: a cell of an event has data at the first step,
    and within T_fill steps and R_fill + R_fill/2 cells of it some cell's anomaly
    reaches its threshold of the day.  Nothing else makes events. *)
Theorem C130_events_come_from_extremes da cal s p ds o F n mg st t y x :
  preprocess da cal s p = Ok ds -> (0 <= o_R o)%Z -> (0 <= o_T o)%Z -> Z.even (o_T o) = true ->
  fold_right Nat.add 0 (o_chunks o) = length (d_years ds) ->
  track_events ny nx o ds = Ok (F, n, mg, st) ->
  t < length (d_years ds) -> y < ny -> x < nx -> id_at F t (y * nx + x) <> 0%Z ->
  finite_value da 0 (y * nx + x) <> None /\
  exists t' y' x' a b, t' < length (d_years ds) /\ (Z.abs (Z.of_nat t' - Z.of_nat t) <= o_T o)%Z /\ y' < ny /\ x' < nx /\
    nearby (o_regional o) (o_R o + o_R o / 2) y x y' x' /\
    nth t' (d_anomaly ds (y' * nx + x')) None = Some a /\
    d_threshold ds (y' * nx + x') (nth t' (d_doys ds) 0) = Some b /\ (b <= a)%Q.
Proof.
  intros H R0 T0 Te Ch Tr T Y X Id. destruct (ran_grid _ _ _ _ _ _ Tr) as (s0 & Fg). set (g := tracker_grid ny nx o ds) in *.
  assert (Tr' := Tr). unfold track_events in Tr'.
  assert (Lf : length (flags ny nx ds) = g_nt g) by apply flags_length.
  destruct (C82_ids_on_ocean_and_numbered_without_gaps g (o_merging o) (o_nn o) (o_centroid o) (o_overlap o) (o_areas o) (o_chunks o) [] [] None
     (mkTracker (Some (flags ny nx ds)) None false) (mkFiles None NoNpz) (flags ny nx ds) F n mg st eq_refl eq_refl Lf Ch Tr') as (_ & Oc & _).
  destruct (C123_run_on_a_grid_partial g (o_merging o) (o_nn o) (o_centroid o) (o_overlap o) (o_areas o) (o_chunks o) [] [] None
     (mkTracker (Some (flags ny nx ds)) None false) (mkFiles None NoNpz) (flags ny nx ds) s0 F n mg st eq_refl eq_refl Lf Ch Fg Tr') as (_ & Ev & _).
  destruct (fill_grid_ok g (flags ny nx ds) s0 Lf Fg) as [Sh _].
  assert (Cc : y * nx + x < ny * nx) by nia.
  destruct (run_ok _ _ _ _ _ _ _ _ _ _ _ _ H) as (m & keep & pl & dims & coords & thr & P & I & Ne & Th & Hx & Hy & Ds).
  split.
  - specialize (Oc t y x T Y X Id). change (g_mask g) with (masks ny nx ds) in Oc. change (g_nx g) with nx in Oc. rewrite masks_nth in Oc by exact Cc.
    rewrite Ds in Oc. cbn [d_mask] in Oc. unfold ocean in Oc.
    assert (Pos : 0 < length da).
    { destruct (C85_preprocess_checks_everything _ _ _ _ _ _ _ _ _ _ P) as (dims' & coords' & _ & _ & _ & _ & (i0 & I0 & F0) & _).
      apply finite_at_value in F0. destruct da; [|cbn; lia]. unfold finite_value in F0. cbn in F0. destruct i0; congruence. }
    rewrite cell_nth in Oc by exact Pos. destruct (finite_value da 0 (y * nx + x)); [discriminate|discriminate Oc].
  - assert (Ex := proj1 (proj1 (Ev (t, y, x) (conj T (conj Y X))) Id)). unfold extreme in Ex. rewrite (shaped_cell g s0 t y x Sh T Y X) in Ex.
    destruct (fill_grid_near g (flags ny nx ds) s0 t y x eq_refl eq_refl R0 T0 Te Lf Fg T Y X Ex) as (t' & y' & x' & T' & D & Y' & X' & N & V).
    rewrite flags_nth in V; [|exact T'|nia].
    rewrite Ds in V |- *. cbn [d_extreme d_anomaly d_threshold d_doys d_years] in *.
    match type of V with exceeds ?u ?w = true => destruct u as [a|] eqn:A; [|discriminate]; destruct w as [b|] eqn:B; [|discriminate] end.
    exists t', y', x', a, b. subst ds. cbn [d_years] in *. split; [exact T'|]. split; [exact D|]. split; [exact Y'|]. split; [exact X'|]. split; [exact N|]. split; [exact A|]. split; [exact B|].
    apply Qle_bool_iff. exact V.
Qed.

(** ** C131: without filling *)

(** With R_fill = T_fill = 0, a cell belongs to an event exactly when it has data
    at the first step, its anomaly reaches the threshold of the day, the object of
    its step formed by such cells has at least the reported number of cells, and it
    is not the object of the first such cell.  Missing from the full claim: that
    object. *)
Definition above ds (c : cell) : Prop :=
  match c with (t, y, x) => d_mask ds (y * nx + x) = true /\
    exists a b, nth t (d_anomaly ds (y * nx + x)) None = Some a /\ d_threshold ds (y * nx + x) (nth t (d_doys ds) 0) = Some b /\ (b <= a)%Q end.

Lemma extreme_above da cal s p ds t c : preprocess da cal s p = Ok ds ->
  (d_extreme ds t c = true <-> exists a b, nth t (d_anomaly ds c) None = Some a /\ d_threshold ds c (nth t (d_doys ds) 0) = Some b /\ (b <= a)%Q).
Proof.
  intro H. destruct (run_ok _ _ _ _ _ _ _ _ _ _ _ _ H) as (m & keep & pl & dims & coords & thr & P & I & Ne & Th & Hx & Hy & ->).
  cbn [d_extreme d_anomaly d_threshold d_doys]. split.
  - intro V. match type of V with exceeds ?u ?w = true => destruct u as [a|] eqn:A; [|discriminate]; destruct w as [b|] eqn:B; [|discriminate] end.
    exists a, b. split; [reflexivity|]. split; [reflexivity|]. apply Qle_bool_iff. exact V.
  - intros (a & b & -> & -> & Le). apply Qle_bool_iff. exact Le.
Qed.
Lemma unfilled o ds : o_R o = 0%Z -> o_T o = 0%Z -> exists s, fill_grid (tracker_grid ny nx o ds) (flags ny nx ds) = Some s /\
  forall t y x, t < length (d_years ds) -> y < ny -> x < nx -> nth (y * nx + x) (nth t s []) false = d_mask ds (y * nx + x) && d_extreme ds t (y * nx + x).
Proof.
  intros R0 T0. unfold fill_grid, preprocess_morph, fill_time_gaps. cbn [tracker_grid g_T g_R g_ny g_nx g_mask g_regional]. rewrite R0, T0. cbn [Z.eqb]. cbn [option_map].
  eexists. split; [reflexivity|]. intros t y x T Y X. assert (Cc : y * nx + x < ny * nx) by nia.
  rewrite (nth_map_gen _ _ t ((fun _ _ => false) : img)) by (unfold fill_holes; rewrite !map_length, flags_length; exact T).
  rewrite flat_at by assumption. unfold fill_holes. rewrite (nth_map_gen _ _ t ((fun _ _ => false) : img)) by (rewrite map_length, flags_length; exact T).
  rewrite (nth_map_gen _ _ t []) by (rewrite flags_length; exact T). unfold fill_holes_slice. cbn [Z.eqb]. unfold img_of. rewrite !Nat2Z.id. rewrite flags_nth by assumption. rewrite masks_nth by assumption. reflexivity.
Qed.

Theorem C131_events_without_filling_partial da cal s p ds o F n mg st :
  preprocess da cal s p = Ok ds -> o_R o = 0%Z -> o_T o = 0%Z -> fold_right Nat.add 0 (o_chunks o) = length (d_years ds) ->
  track_events ny nx o ds = Ok (F, n, mg, st) ->
  let nt := length (d_years ds) in
  let object := chain false (negb (o_regional o)) nt ny nx (above ds) in
  forall c, in_range nt ny nx c ->
    (in_event nx F c <->
     above ds c /\
     (exists l, NoDup l /\ (forall d, In d l <-> in_range nt ny nx d /\ above ds d /\ object c d) /\ (s_threshold st <= nat_Q (length l))%Q) /\
     ~ (exists e, in_range nt ny nx e /\ above ds e /\ (forall d, in_range nt ny nx d -> above ds d -> flat ny nx e <= flat ny nx d) /\ object c e)).
Proof.
  intros H R0 T0 Ch Tr nt object c Rc. destruct (unfilled o ds R0 T0) as (s0 & Fg & V). set (g := tracker_grid ny nx o ds) in *.
  assert (Lf : length (flags ny nx ds) = g_nt g) by apply flags_length.
  unfold track_events in Tr. fold g in Tr.
  destruct (C123_run_on_a_grid_partial g (o_merging o) (o_nn o) (o_centroid o) (o_overlap o) (o_areas o) (o_chunks o) [] [] None
     (mkTracker (Some (flags ny nx ds)) None false) (mkFiles None NoNpz) (flags ny nx ds) s0 F n mg st eq_refl eq_refl Lf Ch Fg Tr) as (_ & Ev & _).
  destruct (fill_grid_ok g (flags ny nx ds) s0 Lf Fg) as [Sh _].
  assert (Ab : forall d, in_range nt ny nx d -> (extreme ny nx (concat s0) d <-> above ds d)).
  { intros [[t y] x] (T & Y & X). unfold extreme. assert (Sc := shaped_cell g s0 t y x Sh T Y X). change (g_ny g) with ny in Sc. change (g_nx g) with nx in Sc. rewrite Sc, V by assumption.
    cbn [above]. rewrite <- (extreme_above da cal s p ds t _ H). destruct (d_mask ds (y * nx + x)), (d_extreme ds t (y * nx + x)); cbn; intuition congruence. }
  assert (Ob : forall d e, joined (o_regional o) nt ny nx (concat s0) d e <-> object d e).
  { intros d e. unfold joined, object. split; apply chain_mono; intros q Q; apply Ab; exact Q. }
  assert (Ec := Ev c Rc). change (g_ny g) with ny in Ec. change (g_nx g) with nx in Ec. change (g_nt g) with nt in Ec. change (g_regional g) with (o_regional o) in Ec. rewrite Ec, (Ab c Rc).
  unfold object_cells, first_extreme.
  assert (M1 : forall l, (forall d, In d l <-> in_range nt ny nx d /\ extreme ny nx (concat s0) d /\ joined (o_regional o) nt ny nx (concat s0) c d) <->
                         (forall d, In d l <-> in_range nt ny nx d /\ above ds d /\ object c d)).
  { intro l. split; intros A d; rewrite (A d), (Ob c d); split; intros (B1 & B2 & B3); (split; [exact B1|]); (split; [apply (Ab d B1); exact B2|exact B3]). }
  split; intros (A & (l & L) & N); (split; [exact A|]); split.
  - destruct L as ((ND & M) & S0). exists l. split; [exact ND|]. split; [apply M1; exact M|exact S0].
  - intros (e & E1 & E2 & E3 & E4). apply N. exists e. split; [|apply Ob; exact E4]. split; [exact E1|]. split; [apply (Ab e E1); exact E2|]. intros d D1 D2. apply E3; [exact D1|apply (Ab d D1); exact D2].
  - destruct L as (ND & M & S0). exists l. split; [split; [exact ND|apply M1; exact M]|exact S0].
  - intros (e & (E1 & E2 & E3) & E4). apply N. exists e. split; [exact E1|]. split; [apply (Ab e E1); exact E2|]. split; [|apply Ob; exact E4]. intros d D1 D2. apply E3; [exact D1|apply (Ab d D1); exact D2].
Qed.
End Events.
Print Assumptions C129_removed_signals_give_the_same_events.
Print Assumptions C129_units_give_the_same_events_partial.
Print Assumptions C130_events_come_from_extremes.
Print Assumptions C131_events_without_filling_partial.

(** The record with cell 1 complete: cell 0 is extreme in step 4, cell 1 in step 5;
    the first object is dropped (C16), the second is the only event. *)
Definition both_cells : list (list value) :=
  [[Finite 1; Finite 1]; [Finite 2; Finite 1]; [Finite 3; Finite 1]; [Finite 2; Finite 1]; [Finite (23 # 4); Finite 3]; [Finite 2; Finite (19 # 4)]].
Definition plain : options := mkOptions true 0 0 (ByAbsolute 1) false false (1 # 2) (fun _ => (0, 0)%Q) [1; 1]%Q [6].
Definition events_of (da : list (list value)) (o : options) : option (list (list Z) * Z * option merges * stats) :=
  match run_of da cal6 1 "fixed_baseline" 2 exact_args with
  | Ok ds => match track_events 1 2 o ds with Ok r => Some r | Err _ => None end
  | Err _ => None
  end.
Example C129_case :
  converted_by factor shift 2 both_cells (raise (fun _ c => shift c) (scale_rows factor 2 both_cells)) /\
  option_map (fun r => fst (fst (fst r))) (events_of (raise (fun _ c => shift c) (scale_rows factor 2 both_cells)) plain)
    = Some [[0; 0]; [0; 0]; [0; 0]; [0; 0]; [0; 0]; [0; 1]]%Z.
Proof.
  split; [|vm_compute; reflexivity].
  split; [reflexivity|]. intros t c T C. do 6 (destruct t as [|t]; [destruct c as [|[|c]]; [vm_compute; reflexivity|vm_compute; reflexivity|lia]|]). cbn in T. lia.
Qed.
Example C130_case : option_map (fun r => fst (fst (fst r))) (events_of both_cells plain) = Some [[0; 0]; [0; 0]; [0; 0]; [0; 0]; [0; 0]; [0; 1]]%Z /\
  (0 <= o_R plain)%Z /\ Z.even (o_T plain) = true /\ id_at [[0; 0]; [0; 0]; [0; 0]; [0; 0]; [0; 0]; [0; 1]]%Z 5 (0 * 2 + 1) <> 0%Z.
Proof. split; [vm_compute; reflexivity|]. split; [cbn; lia|]. split; [reflexivity|discriminate]. Qed.
Example C131_case : option_map (fun r => (fst (fst (fst r)), s_threshold (snd r))) (events_of both_cells plain)
  = Some ([[0; 0]; [0; 0]; [0; 0]; [0; 0]; [0; 0]; [0; 1]]%Z, 1%Q).
Proof. vm_compute. reflexivity. Qed.

(** As claimed, units never matter.  With approximate percentiles they do (C128): cell 1
    in a unit ten times larger has no extreme, and then nothing can be tracked. *)
Theorem C129_units_change_events_refuted :
  let unit c := if Nat.eqb c 1 then (1 # 10)%Q else 1%Q in
  let da' := scale_rows unit 2 both_cells in
  converted_by unit (fun _ => 0%Q) 2 both_cells da' /\
  (exists ds F, run_of both_cells cal6 1 "fixed_baseline" 2 approx_args = Ok ds /\ track_events 1 2 plain ds = Ok F) /\
  (exists ds' e, run_of da' cal6 1 "fixed_baseline" 2 approx_args = Ok ds' /\ track_events 1 2 plain ds' = Err e).
Proof.
  intros unit da'. split; [|split].
  - split; [reflexivity|]. intros t c T C. assert (Sv := scale_rows_value unit 2 both_cells t c T C). fold da' in Sv.
    destruct (finite_value both_cells t c), (finite_value da' t c); cbn in *; auto. rewrite Sv. ring.
  - assert (E : match run_of both_cells cal6 1 "fixed_baseline" 2 approx_args with Ok ds => match track_events 1 2 plain ds with Ok _ => true | _ => false end | _ => false end = true) by (vm_compute; reflexivity).
    destruct (run_of both_cells cal6 1 "fixed_baseline" 2 approx_args) as [ds|]; [|discriminate]. destruct (track_events 1 2 plain ds) as [F|] eqn:R; [|discriminate]. exists ds, F. auto.
  - assert (E : match run_of da' cal6 1 "fixed_baseline" 2 approx_args with Ok ds => match track_events 1 2 plain ds with Err _ => true | _ => false end | _ => false end = true) by (vm_compute; reflexivity).
    destruct (run_of da' cal6 1 "fixed_baseline" 2 approx_args) as [ds|]; [|discriminate]. destruct (track_events 1 2 plain ds) as [F|e] eqn:R; [discriminate|]. exists ds, e. auto.
Qed.
Print Assumptions C129_units_change_events_refuted.

(** As claimed, every large enough object of exceedances is in the result.  The object
    of the first exceedance is not. *)
Theorem C131_first_object_missing_refuted : exists ds F n mg st,
  run_of both_cells cal6 1 "fixed_baseline" 2 exact_args = Ok ds /\ o_R plain = 0%Z /\ o_T plain = 0%Z /\ fold_right Nat.add 0 (o_chunks plain) = length (d_years ds) /\
  track_events 1 2 plain ds = Ok (F, n, mg, st) /\
  exists c, in_range (length (d_years ds)) 1 2 c /\ above 2 ds c /\ (s_threshold st <= 1)%Q /\ ~ in_event 2 F c.
Proof.
  assert (E : match run_of both_cells cal6 1 "fixed_baseline" 2 exact_args with
    | Ok ds => match track_events 1 2 plain ds with
      | Ok (F, n, mg, st) => (length (d_years ds), d_extreme ds 4 0, d_mask ds 0, id_at F 4 0, s_threshold st)
      | _ => (0, false, false, 7%Z, 0%Q) end | _ => (0, false, false, 7%Z, 0%Q) end = (6, true, true, 0%Z, 1%Q)) by (vm_compute; reflexivity).
  destruct (run_of both_cells cal6 1 "fixed_baseline" 2 exact_args) as [ds|] eqn:P; [|discriminate]. destruct (track_events 1 2 plain ds) as [[[[F n] mg] st]|] eqn:R; [|discriminate].
  injection E as E1 E2 E3 E4 E5. exists ds, F, n, mg, st. split; [reflexivity|]. split; [reflexivity|]. split; [reflexivity|]. split; [rewrite E1; reflexivity|]. split; [exact R|].
  exists (4, 0, 0). split; [rewrite E1; cbn; lia|]. split; [split; [exact E3|]|split; [rewrite E5; apply Qle_refl|]].
  - apply (extreme_above _ _ _ _ _ _ _ _ _ _ _ ds 4 0 P). exact E2.
  - intro I. apply I. exact E4.
Qed.
Print Assumptions C131_first_object_missing_refuted.
