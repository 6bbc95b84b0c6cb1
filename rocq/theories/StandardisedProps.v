(** Property theorems C138 to C141: standardised anomalies. *)
From Coq Require Import String Qround Lqa.
From Verif Require Import Base Filter FilterProofs FilterMoreProofs Overlap OverlapProofs Partition PartitionProofs Cluster ClusterProofs ClusterFinal Detect DetectProofs DetectProps
  Climatology ClimatologySpec ClimatologyProofs Detrend DetrendSpec DetrendProofs Histogram HistogramProofs HistogramProps DetectRun DetectRunSpec DetectRunProofs DetectRunProps ScaleProofs PipelineProps Standardised StandardisedProofs.
Open Scope string_scope.
Open Scope list_scope.
Open Scope nat_scope.

Section Std.
Variables (root : Q -> Q) (pinv : matrix -> matrix) (hs : list (Q -> Q)) (dd dc : list string) (dask : bool) (ny nx : nat).
Notation plain da cal s p := (preprocess_data pinv hs dd dc dask ny nx da cal s p).
Notation run da cal s b p := (preprocess_std root pinv hs dd dc dask ny nx da cal s b p).

Lemma method_of da years p m keep pl : preprocess_plan dd dc dask (ny * nx) da years p = Ok (m, keep, pl) -> (m = ADetrend <-> p_method p = "detrend_harmonic").
Proof.
  intro P. destruct (C85_preprocess_checks_everything _ _ _ _ _ _ _ _ _ _ P) as (d & c & _ & _ & _ & _ & _ & _ & Mm & _).
  apply kind_weaken in Mm. destruct m; split; intro H; try reflexivity; try discriminate; congruence.
Qed.
Lemma plain_plan da cal s p ds : plain da cal s p = Ok ds -> exists m keep pl dims coords,
  preprocess_plan dd dc dask (ny * nx) da (c_years cal) p = Ok (m, keep, pl) /\ infer_dims_coords dd dc (p_dims p) (p_coords p) = Ok (dims, coords).
Proof. intro H. destruct (run_ok _ _ _ _ _ _ _ _ _ _ _ _ H) as (m & keep & pl & dims & coords & thr & P & I & _). exists m, keep, pl, dims, coords. auto. Qed.

(** ** C139: when standardisation succeeds *)

Theorem C139_other_runs_unchanged da cal s b p : b = false \/ p_method p <> "detrend_harmonic" ->
  match run da cal s b p with
  | Ok (ds, sn) => plain da cal s p = Ok ds /\ sn = None
  | Err (Run e) => plain da cal s p = Err e
  | Err DuplicateDays => False
  end.
Proof.
  intro H. unfold preprocess_std. cbv zeta.
  assert (G : match bind (in_run (plain da cal s p)) (fun ds => Ok (ds, @None standardised)) with
    | Ok (ds, sn) => plain da cal s p = Ok ds /\ sn = None | Err (Run e) => plain da cal s p = Err e | Err DuplicateDays => False end).
  { destruct (plain da cal s p); cbn; auto. }
  destruct (preprocess_plan _ _ _ _ _ _ _) as [[[m keep] pl]|] eqn:P; [|exact G]. destruct m; try exact G.
  destruct (infer_dims_coords _ _ _ _) as [[dims coords]|]; [|exact G]. destruct H as [->|H]; [exact G|].
  exfalso. apply H. apply (method_of _ _ _ _ _ _ P). reflexivity.
Qed.

Theorem C139_succeeds_exactly da cal s p ds : valid_calendar (length da) cal -> p_method p = "detrend_harmonic" ->
  ((exists sn, run da cal s true p = Ok (ds, Some sn)) <->
   plain da cal s p = Ok ds /\ forall d, 1 <= d <= 366 -> In d (c_doys cal)).
Proof.
  intros (L1 & L2 & L3 & Dr) M.
  assert (R : forall d, In d (c_doys cal) -> 1 <= d <= 366).
  { intros d I. apply (In_nth _ _ 0) in I. destruct I as (t & T & <-). apply Dr. lia. }
  split.
  - intros (sn & H). unfold preprocess_std in H. cbv zeta in H.
    assert (B : forall x, bind (in_run (plain da cal s p)) (fun ds => Ok (ds, @None standardised)) <> Ok (ds, Some x)) by (intro x; destruct (plain da cal s p); cbn; congruence).
    destruct (preprocess_plan _ _ _ _ _ _ _) as [[[m keep] pl]|] eqn:P; [|destruct (B _ H)]. assert (Mt := proj2 (method_of _ _ _ _ _ _ P) M). subst m.
    destruct (infer_dims_coords _ _ _ _) as [[dims coords]|]; [|destruct (B _ H)].
    destruct (c_doys cal) as [|d0 dr] eqn:D; [discriminate|]. destruct (has_duplicates _) eqn:Hd; [discriminate|].
    destruct (plain da cal s p) as [ds'|] eqn:Pl; [|discriminate]. cbn [in_run bind] in H. destruct (run_thresholds _ _ _ _ _ _) as [thr|]; [|discriminate]. cbn [in_run bind] in H.
    injection H as -> _. split; [reflexivity|]. apply (duplicates_iff (d0 :: dr)); [discriminate|exact R|exact Hd].
  - intros [H Al]. destruct (run_ok _ _ _ _ _ _ _ _ _ _ _ _ H) as (m & keep & pl & dims & coords & thr & P & I & Ne & T & _).
    assert (Mt := proj2 (method_of _ _ _ _ _ _ P) M). subst m. assert (Kp := plan_keep _ _ _ _ _ _ _ _ _ _ P). cbn in Kp.
    assert (Sd : select keep (c_doys cal) = c_doys cal) by (rewrite Kp; apply select_all; lia). rewrite Sd in *.
    unfold preprocess_std. cbv zeta. rewrite P, I. destruct (c_doys cal) as [|d0 dr] eqn:D; [congruence|].
    assert (Hd := proj2 (duplicates_iff (d0 :: dr) ltac:(discriminate) R) Al). rewrite Hd, H. cbn [in_run bind].
    match goal with |- context [run_thresholds ?a ?b ?c ?d ?e ?f] => destruct (thresholds_local _ _ _ _ _ e _ _ T) as (thr' & T' & _); rewrite T' end.
    cbn [in_run bind]. eexists. reflexivity.
Qed.

(** As claimed, std_normalise works on every record that plain detection accepts.
    False: on a record that misses some day of the year, as every record in a
    calendar without leap days does, it raises. *)
Theorem C139_missing_day_raises_refuted da cal s p ds d : valid_calendar (length da) cal -> p_method p = "detrend_harmonic" ->
  plain da cal s p = Ok ds -> 1 <= d <= 366 -> ~ In d (c_doys cal) -> run da cal s true p = Err DuplicateDays.
Proof.
  intros (L1 & L2 & L3 & Dr) M H D N.
  assert (R : forall d, In d (c_doys cal) -> 1 <= d <= 366).
  { intros e I. apply (In_nth _ _ 0) in I. destruct I as (t & T & <-). apply Dr. lia. }
  destruct (run_ok _ _ _ _ _ _ _ _ _ _ _ _ H) as (m & keep & pl & dims & coords & thr & P & I & Ne & T & _).
  assert (Mt := proj2 (method_of _ _ _ _ _ _ P) M). subst m. unfold preprocess_std. cbv zeta. rewrite P, I.
  destruct (c_doys cal) as [|d0 dr] eqn:E; [exfalso; apply Ne; destruct keep; reflexivity|].
  destruct (has_duplicates _) eqn:Hd; [reflexivity|exfalso]. apply N. apply (duplicates_iff (d0 :: dr)); auto. discriminate.
Qed.

Lemma std_ok da cal s p ds sn : valid_calendar (length da) cal -> run da cal s true p = Ok (ds, Some sn) ->
  exists pl dims coords thr,
    preprocess_plan dd dc dask (ny * nx) da (c_years cal) p = Ok (ADetrend, map (fun _ => true) (c_years cal), pl) /\
    infer_dims_coords dd dc (p_dims p) (p_coords p) = Ok (dims, coords) /\
    c_doys cal <> [] /\ (forall d, 1 <= d <= 366 -> In d (c_doys cal)) /\ plain da cal s p = Ok ds /\
    (forall c, d_anomaly ds c = detrend pinv hs (c_decimal cal) (map Z.to_nat (match p_orders p with None => [1%Z] | Some o => o end)) true (s_zero_mean s) (cell_series da c)) /\
    run_thresholds (has_name dims "y") ny nx (c_doys cal) (fun c => standardise root (c_doys cal) (d_anomaly ds c)) pl = Ok thr /\
    sn = mkStd (fun c => standardise root (c_doys cal) (d_anomaly ds c)) (fun c => rolling_std root (c_doys cal) (d_anomaly ds c)) thr
           (fun t c => exceeds (nth t (standardise root (c_doys cal) (d_anomaly ds c)) None) (thr c (nth t (c_doys cal) 0))).
Proof.
  intros (L1 & L2 & L3 & Dr) H. unfold preprocess_std in H. cbv zeta in H.
  assert (R : forall d, In d (c_doys cal) -> 1 <= d <= 366).
  { intros e I. apply (In_nth _ _ 0) in I. destruct I as (t & T & <-). apply Dr. lia. }
  assert (B : forall x, bind (in_run (plain da cal s p)) (fun ds => Ok (ds, @None standardised)) <> Ok (ds, Some x)) by (intro x; destruct (plain da cal s p); cbn; congruence).
  destruct (preprocess_plan _ _ _ _ _ _ _) as [[[m keep] pl]|] eqn:P; [|destruct (B _ H)]. destruct m; try (destruct (B _ H); fail).
  destruct (infer_dims_coords _ _ _ _) as [[dims coords]|] eqn:I; [|destruct (B _ H)].
  assert (Kp := plan_keep _ _ _ _ _ _ _ _ _ _ P). cbn in Kp. subst keep.
  destruct (c_doys cal) as [|d0 dr] eqn:D; [discriminate|]. destruct (has_duplicates _) eqn:Hd; [discriminate|].
  destruct (plain da cal s p) as [ds'|] eqn:Pl; [|discriminate]. cbn [in_run bind] in H. destruct (run_thresholds _ _ _ _ _ _) as [thr|] eqn:T; [|discriminate]. cbn [in_run bind] in H.
  injection H as -> <-. exists pl, dims, coords, thr. split; [reflexivity|]. split; [reflexivity|]. split; [discriminate|].
  split; [apply (duplicates_iff (d0 :: dr)); [discriminate|exact R|exact Hd]|]. split; [reflexivity|]. split; [|split; [exact T|reflexivity]].
  intro c. destruct (run_ok _ _ _ _ _ _ _ _ _ _ _ _ Pl) as (m & keep & pl' & dims' & coords' & thr' & P' & _ & _ & _ & _ & _ & ->). rewrite P in P'. injection P' as <- <- <-.
  cbn [d_anomaly]. rewrite select_all; [reflexivity|]. rewrite anomaly_length; rewrite ?D, cell_length; lia.
Qed.
Lemma std_fields sn A B C D : sn = mkStd A B C D -> s_anomaly sn = A /\ s_std sn = B /\ s_threshold sn = C /\ s_extreme sn = D.
Proof. intros ->. auto. Qed.
Lemma detrend_all_or_none dy orders rh fz data : (exists x, detrend pinv hs dy orders rh fz data = map Some x) \/ detrend pinv hs dy orders rh fz data = map (fun _ => None) data.
Proof. unfold detrend. destruct (forallb _ data); [left; eexists; reflexivity|right; reflexivity]. Qed.
Lemma std_lengths da cal s p ds sn c : valid_calendar (length da) cal -> run da cal s true p = Ok (ds, Some sn) -> length (d_anomaly ds c) = length da.
Proof.
  intros V H. destruct (std_ok _ _ _ _ _ _ V H) as (pl & dims & coords & thr & P & I & Ne & Al & Pl & An & T & ->). destruct V as (L1 & L2 & L3 & Dr).
  rewrite An. change (detrend _ _ _ _ _ _ _) with (anomaly_series pinv hs ADetrend (map Z.to_nat (match p_orders p with None => [1%Z] | Some o => o end)) 0%Z cal s (cell_series da c)).
  rewrite anomaly_length; rewrite cell_length; lia.
Qed.

(** ** C138: what the standardised fields are *)
Theorem C138_standardised_fields da cal s p ds sn : valid_calendar (length da) cal -> run da cal s true p = Ok (ds, Some sn) ->
  forall t c, t < length da ->
  let day := nth t (c_doys cal) 0 in
  match nth t (d_anomaly ds c) None with
  | None => nth t (s_anomaly sn c) None = None
  | Some a => exists v vars,
      (forall e, 1 <= e <= 366 -> variance_of (samples (d_anomaly ds c) (fun i => Nat.eqb (nth i (c_doys cal) 0) e)) (vars e)) /\
      (v * 30 == summation 30 (fun k => vars (1 + (day + 350 + k) mod 366)%nat))%Q /\
      s_std sn c day = Some (root v) /\
      ((1 # 10000000000) < root v -> exists z, nth t (s_anomaly sn c) None = Some z /\ (z * root v == a))%Q /\
      ((root v <= 1 # 10000000000)%Q -> nth t (s_anomaly sn c) None = None)
  end /\
  (s_extreme sn t c = true <-> exists z th, nth t (s_anomaly sn c) None = Some z /\ s_threshold sn c day = Some th /\ (th <= z)%Q).
Proof.
  intros V H t c T day. assert (La := std_lengths _ _ _ _ _ _ c V H). destruct (std_ok _ _ _ _ _ _ V H) as (pl & dims & coords & thr & P & I & Ne & Al & Pl & An & Tr & ->).
  destruct V as (L1 & L2 & L3 & Dr). cbn [s_anomaly s_std s_extreme s_threshold].
  rewrite standardise_nth by lia. fold day. assert (Dd := Dr t T). fold day in Dd. split.
  - destruct (nth t (d_anomaly ds c) None) as [a|] eqn:A; [|reflexivity].
    assert (Cx : exists x, d_anomaly ds c = map Some x).
    { specialize (An c). destruct (detrend_all_or_none (c_decimal cal) (map Z.to_nat (match p_orders p with None => [1%Z] | Some o => o end)) true (s_zero_mean s) (cell_series da c)) as [[x E]|E].
      - exists x. congruence.
      - exfalso. rewrite An, E in A. rewrite (nth_map_gen _ _ t None) in A by (rewrite cell_length; exact T). discriminate. }
    assert (Ns : forall d, 1 <= d <= 366 -> samples (d_anomaly ds c) (fun i => Nat.eqb (nth i (c_doys cal) 0) d) <> []).
    { intros d D E. destruct Cx as (x & Ex). specialize (Al d D). apply (In_nth _ _ 0) in Al. destruct Al as (i & Ii & Ei).
      assert (J : In (nth i x 0%Q) (samples (d_anomaly ds c) (fun i => Nat.eqb (nth i (c_doys cal) 0) d))).
      { unfold samples. apply in_flat_map. exists i. split; [apply in_seq; lia|]. rewrite Ei, Nat.eqb_refl. rewrite Ex. rewrite (nth_map_gen _ x i 0%Q); [left; reflexivity|]. rewrite Ex, map_length in La. lia. }
      rewrite E in J. destruct J. }
    destruct (std_value (c_doys cal) (d_anomaly ds c) day ltac:(lia) Ns Dd) as (v & vars & E & Vr & Sm). exists v, vars. split; [exact Vr|]. split; [rewrite Sm; reflexivity|].
    assert (Er : rolling_std root (c_doys cal) (d_anomaly ds c) day = Some (root v)) by (rewrite rolling_std_eq by assumption; rewrite E; reflexivity).
    rewrite Er. split; [reflexivity|]. cbn [odiv]. split.
    + intro B. assert (Bb : Qltb smallest_std (root v) = true) by (apply Qltb_spec; exact B). rewrite Bb. eexists. split; [reflexivity|]. field. intro Z0. rewrite Z0 in B. exact (Qlt_not_le _ _ B ltac:(discriminate)).
    + intro B. assert (Bb : Qltb smallest_std (root v) = false) by (apply Qltb_false; exact B). rewrite Bb. reflexivity.
  - fold day. destruct (odiv _ _) as [z|]; cbn [exceeds]; [|split; [discriminate|intros (z & th & E & _); discriminate]]. destruct (thr c day) as [th|]; [|split; [discriminate|intros (z' & th & _ & E & _); discriminate]].
    rewrite Qle_bool_iff. split; [intro E; exists z, th; auto|]. intros (z' & th' & E1 & E2 & Le). injection E1 as <-. injection E2 as <-. exact Le.
Qed.

(** Cells that are missing at the first step are never flagged. *)
Theorem C138_masked_cells_not_flagged da cal s p ds sn c : valid_calendar (length da) cal -> run da cal s true p = Ok (ds, Some sn) -> c < ny * nx -> d_mask ds c = false ->
  forall t, s_extreme sn t c = false.
Proof.
  intros V H C Mk t. assert (La := std_lengths _ _ _ _ _ _ c V H). destruct (std_ok _ _ _ _ _ _ V H) as (pl & dims & coords & thr & P & I & Ne & Al & Pl & An & Tr & ->).
  cbn [s_extreme].
  assert (A : all_missing (d_anomaly ds c)).
  { rewrite An. assert (Pos : 0 < length da) by (destruct V as (_ & L2 & _); destruct (c_doys cal); [congruence|cbn in L2; lia]).
    apply (detrend_hole _ _ _ _ _ _ _ 0); [rewrite cell_length; exact Pos|]. destruct (run_ok _ _ _ _ _ _ _ _ _ _ _ _ Pl) as (m & keep & pl' & dims' & coords' & thr' & _ & _ & _ & _ & _ & _ & Eq).
    rewrite Eq in Mk. cbn in Mk. unfold ocean in Mk. destruct (nth 0 (cell_series da c) None); [discriminate|reflexivity]. }
  destruct (Nat.lt_ge_cases t (length da)) as [T|T].
  - destruct V as (_ & L2 & _). rewrite standardise_nth by lia. rewrite (all_missing_nth _ t A). reflexivity.
  - destruct V as (_ & L2 & _). rewrite nth_overflow by (rewrite standardise_length; lia). reflexivity.
Qed.
(** ** C140: units *)

Lemma plain_transfer da da' cal s p ds : plain da cal s p = Ok ds -> validate_data_values (ny * nx) da' = Ok tt -> exists ds', plain da' cal s p = Ok ds'.
Proof.
  intros H V. destruct (run_ok _ _ _ _ _ _ _ _ _ _ _ _ H) as (m & keep & pl & dims & coords & thr & P & I & Ne & T & Hx & Hy & _).
  assert (P' := plan_transfer _ _ _ _ _ da' _ _ _ P V).
  unfold preprocess_data. rewrite P', I. cbv zeta. destruct (select keep (c_doys cal)) as [|d0 dr] eqn:D; [congruence|].
  match goal with |- context [run_thresholds ?a ?b ?c ?d ?e ?f] => destruct (thresholds_local _ _ _ _ _ e _ _ T) as (thr' & T' & _); rewrite T' end.
  cbn [bind]. rewrite Hx, Hy. cbn [negb]. eexists. reflexivity.
Qed.
Lemma converted_valid k b da da' : converted_by k b (ny * nx) da da' -> validate_data_values (ny * nx) da = Ok tt -> validate_data_values (ny * nx) da' = Ok tt.
Proof.
  intros [L C] V. apply (offset_valid (fun t c => match finite_value da t c, finite_value da' t c with Some x, Some y => y - x | _, _ => 0 end)%Q _ da); [|exact V].
  split; [exact L|]. intros t c T Cc. specialize (C t c T Cc). destruct (finite_value da t c), (finite_value da' t c); try contradiction; [ring|exact Logic.I].
Qed.
Lemma detrended_converted da da' cal s p k b c : valid_calendar (length da) cal -> 0 < s_smooth s -> pinv_correct pinv hs cal p -> p_method p = "detrend_harmonic" ->
  converted_by k b (ny * nx) da da' -> c < ny * nx ->
  let os := map Z.to_nat (match p_orders p with None => [1%Z] | Some o => o end) in
  Forall2 (scal (k c)) (detrend pinv hs (c_decimal cal) os true (s_zero_mean s) (cell_series da c)) (detrend pinv hs (c_decimal cal) os true (s_zero_mean s) (cell_series da' c)).
Proof.
  intros V Sm Pi M [Ll Cv] C os. set (mid := scale_rows k (ny * nx) da). assert (Lm : length mid = length da) by apply map_length.
  destruct V as (L1 & L2 & L3 & Dr).
  assert (F1 : Forall2 (scal (k c)) (anomaly_series pinv hs ADetrend os (p_window p) cal s (cell_series da c)) (anomaly_series pinv hs ADetrend os (p_window p) cal s (cell_series mid c))).
  { apply anomaly_scal; rewrite ?cell_length; try lia; [intros i I; apply Dr; exact I|].
    apply (Forall2_nth_iff (scal (k c)) _ _ None None). rewrite !cell_length. split; [lia|]. intros t T. rewrite !cell_nth by lia. apply scale_rows_value; assumption. }
  assert (Of : offset_by (fun _ c => b c) (ny * nx) mid da').
  { split; [congruence|]. intros t e T Ce. rewrite Lm in T. specialize (Cv t e T Ce). assert (Sv := scale_rows_value k (ny * nx) da t e T Ce). fold mid in Sv.
    destruct (finite_value da t e), (finite_value mid t e), (finite_value da' t e); cbn in *; try contradiction; auto. rewrite Cv, Sv. reflexivity. }
  assert (Re : removed_by hs cal p (fun _ => b c)).
  { right; right; left. split; [exact M|]. exists (b c), (fun _ => 0%Q), (fun _ => 0%Q). intros t _.
    assert (Os : (oscillation (fun _ => 0) hs (nth t (c_decimal cal) 0) == 0)%Q) by (unfold oscillation; induction (seq 0 (length hs)) as [|x l IH]; [reflexivity|]; cbn [map total]; rewrite IH; ring).
    rewrite Os, Qplus_0_r. unfold trend.
    assert (Z0 : forall (g : nat -> Q) l, (total (map (fun i => 0 * g i) l) == 0)%Q) by (intros g l; induction l as [|x l IH]; [reflexivity|]; cbn [map total]; rewrite IH; ring).
    rewrite Z0. ring. }
  assert (F2 := anomalies_same pinv hs ny nx mid da' cal s p ADetrend (fun _ c => b c) c ltac:(rewrite Lm; exact (conj L1 (conj L2 (conj L3 Dr)))) Sm Pi Of C Re M). fold os in F2. cbn [anomaly_series] in F1, F2.
  revert F1 F2. generalize (detrend pinv hs (c_decimal cal) os true (s_zero_mean s) (cell_series da c)) (detrend pinv hs (c_decimal cal) os true (s_zero_mean s) (cell_series mid c)) (detrend pinv hs (c_decimal cal) os true (s_zero_mean s) (cell_series da' c)).
  intros l1 l2 l3 F1. revert l3. induction F1 as [|x y l1 l2 R F1 IH]; intros l3 F2; inversion F2; subst; constructor; [|apply IH; assumption].
  destruct x, y, x0; cbn in *; try contradiction; auto. match goal with E : (_ == _)%Q |- _ => rewrite E end. assumption.
Qed.

Lemma times_scal k a b : times k a b -> scal k a b.
Proof. destruct a, b; cbn; tauto. Qed.

(** A change of units leaves the run possible. *)
Theorem C140_converted_runs_succeed da da' cal s p ds sn (k b : nat -> Q) :
  valid_calendar (length da) cal -> converted_by k b (ny * nx) da da' -> run da cal s true p = Ok (ds, Some sn) ->
  exists ds' sn', run da' cal s true p = Ok (ds', Some sn').
Proof.
  intros V Cv H. destruct (std_ok _ _ _ _ _ _ V H) as (pl & dims & coords & thr & P & I & Ne & Al & Pl & An & Tr & _).
  destruct (plain_transfer da da' cal s p ds Pl (converted_valid k b da da' Cv (plan_valid _ _ _ _ _ _ _ _ P))) as (ds' & R).
  exists ds'. apply C139_succeeds_exactly; [destruct Cv as [-> _]; exact V|apply (method_of _ _ _ _ _ _ P); reflexivity|]. split; assumption.
Qed.

(** With a square root that follows the units, STD follows the units. *)
Theorem C140_std_follows_units da da' cal s p ds ds' sn sn' (k b : nat -> Q) c d :
  valid_calendar (length da) cal -> 0 < s_smooth s -> pinv_correct pinv hs cal p -> converted_by k b (ny * nx) da da' ->
  run da cal s true p = Ok (ds, Some sn) -> run da' cal s true p = Ok (ds', Some sn') -> c < ny * nx -> 1 <= d <= 366 ->
  (forall u v, (u == k c * k c * v)%Q -> (root u == k c * root v)%Q) -> times (k c) (s_std sn c d) (s_std sn' c d).
Proof.
  intros V Sm Pi Cv H H' C D Hr. destruct (std_ok _ _ _ _ _ _ V H) as (pl & dims & coords & thr & P & I & Ne & Al & Pl & An & Tr & ->).
  assert (V' : valid_calendar (length da') cal) by (destruct Cv as [-> _]; exact V).
  destruct (std_ok _ _ _ _ _ _ V' H') as (pl' & dims' & coords' & thr' & P' & I' & _ & _ & Pl' & An' & Tr' & ->). cbn [s_std].
  assert (M := proj1 (method_of _ _ _ _ _ _ P) eq_refl). rewrite !rolling_std_eq by assumption.
  assert (L366 : length (days_present (c_doys cal)) = 366) by (rewrite (days_all _ Al), seq_length; reflexivity).
  assert (F : Forall2 (scal (k c)) (d_anomaly ds c) (d_anomaly ds' c)) by (rewrite An, An'; apply (detrended_converted da da' cal s p k b c); assumption).
  assert (St := std_table_scal (k c) (c_doys cal) _ _ F (d - 1) ltac:(lia) ltac:(lia) ltac:(lia)).
  revert St. generalize (snd (nth (d - 1) (std_table (c_doys cal) (d_anomaly ds c)) (0, None))) (snd (nth (d - 1) (std_table (c_doys cal) (d_anomaly ds' c)) (0, None))).
  intros [u|] [v|]; cbn; try tauto. apply Hr.
Qed.

(** When STD follows the units and stays on the same side of 1e-10, standardised
    anomalies, their thresholds and their flags do not depend on the units, with
    approximate percentiles too.  Missing from the full claim: records whose STD
    falls below 1e-10 in one of the units. *)
Theorem C140_units_do_not_matter_partial da da' cal s p ds ds' sn sn' (k b : nat -> Q) :
  valid_calendar (length da) cal -> 0 < s_smooth s -> pinv_correct pinv hs cal p -> (forall c, c < ny * nx -> (0 < k c)%Q) -> converted_by k b (ny * nx) da da' ->
  run da cal s true p = Ok (ds, Some sn) -> run da' cal s true p = Ok (ds', Some sn') ->
  (forall c d, c < ny * nx -> 1 <= d <= 366 -> times (k c) (s_std sn c d) (s_std sn' c d)) ->
  (forall c d u v, c < ny * nx -> 1 <= d <= 366 -> s_std sn c d = Some u -> s_std sn' c d = Some v -> ((1 # 10000000000) < u <-> (1 # 10000000000) < v)%Q) ->
  forall c, c < ny * nx ->
    (forall t, same (nth t (s_anomaly sn c) None) (nth t (s_anomaly sn' c) None)) /\
    (forall day, same (s_threshold sn c day) (s_threshold sn' c day)) /\
    (forall t, s_extreme sn' t c = s_extreme sn t c).
Proof.
  intros V Sm Pi K Cv H H' St Cr. assert (La := fun c => std_lengths _ _ _ _ _ _ c V H).
  assert (V' : valid_calendar (length da') cal) by (destruct Cv as [-> _]; exact V). assert (La' := fun c => std_lengths _ _ _ _ _ _ c V' H').
  destruct (std_ok _ _ _ _ _ _ V H) as (pl & dims & coords & thr & P & I & Ne & Al & Pl & An & Tr & E).
  destruct (std_ok _ _ _ _ _ _ V' H') as (pl' & dims' & coords' & thr' & P' & I' & _ & _ & Pl' & An' & Tr' & E').
  apply std_fields in E, E'. destruct E as (E1 & E2 & E3 & E4). destruct E' as (E1' & E2' & E3' & E4').
  rewrite E1, E1', E3, E3', E4, E4'. rewrite E2, E2' in St. rewrite E2, E2' in Cr. clear E1 E1' E2 E2' E3 E3' E4 E4'.
  assert (M := proj1 (method_of _ _ _ _ _ _ P) eq_refl).
  rewrite (plan_transfer _ _ _ _ _ da' _ _ _ P (converted_valid k b da da' Cv (plan_valid _ _ _ _ _ _ _ _ P))) in P'. injection P' as <-. rewrite I in I'. injection I' as <- <-.
  assert (Ll := proj1 Cv). destruct V as (L1 & L2 & L3 & Dr).
  assert (Sa : forall c, c < ny * nx -> Forall2 same (standardise root (c_doys cal) (d_anomaly ds c)) (standardise root (c_doys cal) (d_anomaly ds' c))).
  { intros c C. assert (F : Forall2 (scal (k c)) (d_anomaly ds c) (d_anomaly ds' c)) by (rewrite An, An'; apply (detrended_converted da da' cal s p k b c); try assumption; exact (conj L1 (conj L2 (conj L3 Dr)))).
    apply (standardise_same root (k c)); [apply K; exact C|rewrite La; lia|exact F|]. intros t T. rewrite La in T.
    split; [apply times_scal, St; auto|]. apply crossing_intro. intros u v. apply Cr; auto. }
  destruct (thresholds_local _ _ _ _ _ (fun c => standardise root (c_doys cal) (d_anomaly ds' c)) _ _ Tr) as (thr2 & T2 & Lc). rewrite T2 in Tr'. injection Tr' as ->.
  intros c C.
  assert (Nt : forall t, same (nth t (standardise root (c_doys cal) (d_anomaly ds c)) None) (nth t (standardise root (c_doys cal) (d_anomaly ds' c)) None)).
  { intro t. destruct (proj1 (Forall2_nth_iff same _ _ None None) (Sa c C)) as [Ln N].
    destruct (Nat.lt_ge_cases t (length (standardise root (c_doys cal) (d_anomaly ds c)))) as [Lt|Ge]; [apply N; exact Lt|]. rewrite !nth_overflow by lia. exact Logic.I. }
  assert (Tt : forall day, same (thr c day) (thr' c day)).
  { apply Lc; [exact C|]. intros y' x' N. apply Sa. apply near_cell in N. exact N. }
  split; [exact Nt|]. split; [exact Tt|]. intro t. symmetry. apply exceeds_same; auto.
Qed.

(** ** C141: agreement with the plain flags *)

(** A standard deviation that does not depend on the day changes no flag, with
    exact percentiles. *)
Theorem C141_constant_std_same_flags da cal s p ds sn c sigma :
  valid_calendar (length da) cal -> a_method_percentile (p_extreme p) = "exact" -> run da cal s true p = Ok (ds, Some sn) -> c < ny * nx ->
  ((1 # 10000000000) < sigma)%Q -> (forall d, 1 <= d <= 366 -> exists v, s_std sn c d = Some v /\ (v == sigma)%Q) ->
  forall t, s_extreme sn t c = d_extreme ds t c.
Proof.
  intros V Ex H C Sg Hs t. assert (La := std_lengths _ _ _ _ _ _ c V H).
  destruct (std_ok _ _ _ _ _ _ V H) as (pl & dims & coords & thr & P & I & Ne & Al & Pl & An & Tr & E).
  apply std_fields in E. destruct E as (E1 & E2 & E3 & E4). rewrite E4. rewrite E2 in Hs. clear E1 E2 E3 E4.
  destruct (run_ok _ _ _ _ _ _ _ _ _ _ _ _ Pl) as (m & keep & pl' & dims' & coords' & thr' & P' & I' & _ & T' & _ & _ & Eq). rewrite P in P'. injection P' as <- <- <-. rewrite I in I'. injection I' as <- <-.
  destruct (C85_preprocess_checks_everything _ _ _ _ _ _ _ _ _ _ P) as (d1 & c1 & _ & _ & _ & _ & _ & _ & _ & _ & _ & In0).
  destruct V as (L1 & L2 & L3 & Dr).
  assert (Sd : select (map (fun _ => true) (c_years cal)) (c_doys cal) = c_doys cal) by (apply select_all; lia). rewrite Sd in *.
  assert (Ea : forall e, select (map (fun _ => true) (c_years cal)) (anomaly_series pinv hs ADetrend (map Z.to_nat (match p_orders p with None => [1%Z] | Some o => o end)) (p_window p) cal s (cell_series da e)) = d_anomaly ds e) by (intro e; rewrite Eq; reflexivity).
  assert (Ee : d_extreme ds t c = exceeds (nth t (d_anomaly ds c) None) (thr' c (nth t (c_doys cal) 0))) by (rewrite Eq; reflexivity).
  rewrite Ee. clear Eq Ee. cbn [anomaly_series] in Ea.
  set (k := (/ sigma)%Q). assert (Sp : (0 < sigma)%Q) by (apply (Qlt_trans _ (1 # 10000000000)); [reflexivity|exact Sg]). assert (Kp : (0 < k)%Q) by (apply Qinv_lt_0_compat; exact Sp).
  assert (F : Forall2 (scal k) (d_anomaly ds c) (standardise root (c_doys cal) (d_anomaly ds c))).
  { apply (Forall2_nth_iff (scal k) _ _ None None). rewrite standardise_length by lia. split; [reflexivity|]. intros i Hi. rewrite La in Hi. rewrite standardise_nth by lia.
    destruct (Hs _ (Dr i Hi)) as (v & E & Ev). rewrite E. destruct (nth i (d_anomaly ds c) None) as [a|]; [|exact Logic.I]. cbn [odiv].
    assert (B : Qltb smallest_std v = true) by (apply Qltb_spec; rewrite Ev; exact Sg). rewrite B. cbn [scal]. rewrite Ev. unfold k, Qdiv. ring. }
  symmetry. apply (exceeds_scal k); [exact Kp| |].
  - destruct (proj1 (Forall2_nth_iff (scal k) _ _ None None) F) as [Ln N]. destruct (Nat.lt_ge_cases t (length (d_anomaly ds c))) as [Lt|Ge]; [apply N; exact Lt|]. rewrite !nth_overflow by lia. exact Logic.I.
  - destruct pl as [q|q pr mx|q d|q pr mx d ws]; cbn [run_thresholds] in Tr, T'; cbn [intended] in In0; try (destruct In0 as (_ & X & _); congruence).
    + destruct (has_name dims "y" || _); [|discriminate]. injection Tr as <-. injection T' as <-. cbv beta. rewrite Ea. apply quantile_scal, present_scal; assumption.
    + destruct (Z.ltb d 1); [discriminate|]. injection Tr as <-. injection T' as <-. cbv beta. rewrite Ea. apply exact_day_scal; assumption.
Qed.

Lemma window_one (l : series) i : window_values 1 l i = [nth i l None].
Proof. unfold window_values. cbn [seq map]. change (1 / 2) with 0. cbn [Nat.ltb Nat.leb]. rewrite Nat.sub_0_r, Nat.add_0_r. destruct i; reflexivity. Qed.
(** Day-of-year thresholds without a window compare each value with values that
    are divided by the same standard deviation. *)
Theorem C141_single_day_same_flags da cal s p ds sn c :
  valid_calendar (length da) cal -> a_method_percentile (p_extreme p) = "exact" -> a_method (p_extreme p) = "hobday_extreme" -> a_days (p_extreme p) = Some 1%Z ->
  run da cal s true p = Ok (ds, Some sn) -> c < ny * nx ->
  forall t, t < length da -> (forall v, s_std sn c (nth t (c_doys cal) 0) = Some v -> ((1 # 10000000000) < v)%Q) ->
  s_extreme sn t c = d_extreme ds t c.
Proof.
  intros V Ex Me Dy H C t T Hs. assert (La := std_lengths _ _ _ _ _ _ c V H). assert (Cf := proj1 (C138_standardised_fields _ _ _ _ _ _ V H t c T)). cbv zeta in Cf.
  destruct (std_ok _ _ _ _ _ _ V H) as (pl & dims & coords & thr & P & I & Ne & Al & Pl & An & Tr & E).
  apply std_fields in E. destruct E as (E1 & E2 & E3 & E4). rewrite E4. rewrite E2 in Hs. rewrite E1, E2 in Cf. clear E1 E2 E3 E4.
  destruct (run_ok _ _ _ _ _ _ _ _ _ _ _ _ Pl) as (m & keep & pl' & dims' & coords' & thr' & P' & I' & _ & T' & _ & _ & Eq). rewrite P in P'. injection P' as <- <- <-. rewrite I in I'. injection I' as <- <-.
  destruct (C85_preprocess_checks_everything _ _ _ _ _ _ _ _ _ _ P) as (d1 & c1 & _ & _ & _ & _ & _ & _ & _ & _ & _ & In0).
  destruct V as (L1 & L2 & L3 & Dr).
  assert (Sd : select (map (fun _ => true) (c_years cal)) (c_doys cal) = c_doys cal) by (apply select_all; lia). rewrite Sd in *.
  assert (Ea : forall e, select (map (fun _ => true) (c_years cal)) (anomaly_series pinv hs ADetrend (map Z.to_nat (match p_orders p with None => [1%Z] | Some o => o end)) (p_window p) cal s (cell_series da e)) = d_anomaly ds e) by (intro e; rewrite Eq; reflexivity).
  assert (Ee : d_extreme ds t c = exceeds (nth t (d_anomaly ds c) None) (thr' c (nth t (c_doys cal) 0))) by (rewrite Eq; reflexivity).
  rewrite Ee. clear Eq Ee. cbn [anomaly_series] in Ea. set (day := nth t (c_doys cal) 0) in *.
  destruct (nth t (d_anomaly ds c) None) as [a|] eqn:A; [|rewrite Cf; reflexivity].
  destruct Cf as (v & vars & _ & _ & Sv & _). specialize (Hs _ Sv). set (sigma := root v) in *.
  set (k := (/ sigma)%Q). assert (Sp : (0 < sigma)%Q) by (apply (Qlt_trans _ (1 # 10000000000)); [reflexivity|exact Hs]). assert (Kp : (0 < k)%Q) by (apply Qinv_lt_0_compat; exact Sp).
  assert (B : Qltb smallest_std sigma = true) by (apply Qltb_spec; exact Hs).
  assert (F : forall i, nth i (c_doys cal) 0 = day -> scal k (nth i (d_anomaly ds c) None) (nth i (standardise root (c_doys cal) (d_anomaly ds c)) None)).
  { intros i Ei. destruct (Nat.lt_ge_cases i (length da)) as [Hi|Hi]; [|rewrite !nth_overflow by (rewrite ?standardise_length; lia); exact Logic.I].
    rewrite standardise_nth by lia. rewrite Ei, Sv. destruct (nth i (d_anomaly ds c) None) as [x|]; [|exact Logic.I]. cbn [odiv]. rewrite B. cbn [scal]. unfold k, Qdiv. ring. }
  rewrite <- A. symmetry. apply (exceeds_scal k); [exact Kp|apply F; reflexivity|].
  destruct pl as [q|q pr mx|q d|q pr mx d ws]; cbn [run_thresholds] in Tr, T'; cbn [intended] in In0; try (destruct In0 as (Y & X & _); congruence).
  destruct In0 as (_ & _ & _ & X). rewrite Dy in X. injection X as <-. change (Z.ltb 1 1) with false in Tr, T'. cbv iota in Tr, T'. injection Tr as <-. injection T' as <-. cbv beta. rewrite Ea.
  unfold exact_day_threshold. apply quantile_scal, present_scal, flat_map_Forall2; [exact Kp|]. intros i _. destruct (Nat.eqb_spec (nth i (c_doys cal) 0) day) as [E|E]; [|constructor].
  match goal with |- context [window_values ?w _ i] => change w with 1 end. rewrite !window_one. constructor; [apply F; exact E|constructor].
Qed.
End Std.
Print Assumptions C139_other_runs_unchanged.
Print Assumptions C139_succeeds_exactly.
Print Assumptions C139_missing_day_raises_refuted.
Print Assumptions C138_standardised_fields.
Print Assumptions C138_masked_cells_not_flagged.
Print Assumptions C140_converted_runs_succeed.
Print Assumptions C140_std_follows_units.
Print Assumptions C140_units_do_not_matter_partial.
Print Assumptions C141_constant_std_same_flags.
Print Assumptions C141_single_day_same_flags.
