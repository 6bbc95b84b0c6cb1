(** Proofs for DetectRunProps.v. *)
From Coq Require Import String Qround Lqa Sorted.
From Verif Require Import Base Filter FilterProofs FilterMoreProofs Overlap OverlapProofs Partition PartitionProofs Cluster ClusterProofs ClusterFinal Detect DetectProofs DetectProps Climatology ClimatologySpec ClimatologyProofs
  Detrend DetrendSpec DetrendProofs Histogram HistogramProofs DetectRun DetectRunSpec.
Open Scope nat_scope.

(** ** Selected time steps. *)
Lemma select_cons {A} b keep (x : A) l : select (b :: keep) (x :: l) = if b then x :: select keep l else select keep l.
Proof. unfold select. cbn. destruct b; reflexivity. Qed.
Lemma select_all {A B} (ks : list B) (l : list A) : length ks = length l -> select (map (fun _ => true) ks) l = l.
Proof. revert l. induction ks as [|k ks IH]; intros [|x l] L; try discriminate; [reflexivity|]. cbn [map]. rewrite select_cons, IH; [reflexivity|]. cbn in L. lia. Qed.
Lemma select_Forall2 {A B} (R : A -> B -> Prop) keep a b : Forall2 R a b -> Forall2 R (select keep a) (select keep b).
Proof.
  intro H. revert keep. induction H as [|x y a b Hx H IH]; intros [|k keep]; try (constructor; fail).
  rewrite !select_cons. destruct k; [constructor; auto|auto].
Qed.
Lemma select_In {A} keep (l : list A) x : In x (select keep l) -> In x l.
Proof. unfold select. intro H. apply in_map_iff in H. destruct H as ([k y] & <- & H). apply filter_In in H. destruct H as [H _]. apply in_combine_r in H. exact H. Qed.
Lemma select_length {A B} keep (a : list A) (b : list B) : length a = length b -> length (select keep a) = length (select keep b).
Proof.
  revert a b. induction keep as [|k keep IH]; intros [|x a] [|y b] L; try discriminate; try reflexivity.
  rewrite !select_cons. cbn in L. destruct k; cbn [length]; rewrite (IH a b) by lia; reflexivity.
Qed.

Lemma Forall2_nth_iff {A B} (R : A -> B -> Prop) a b da db : Forall2 R a b <-> length a = length b /\ forall i, i < length a -> R (nth i a da) (nth i b db).
Proof.
  split.
  - induction 1 as [|x y a b H F [L IH]]; [split; [reflexivity|cbn; lia]|]. split; [cbn; lia|]. intros [|i] I; [exact H|]. cbn. apply IH. cbn in I. lia.
  - revert b. induction a as [|x a IH]; intros [|y b] [L H]; try discriminate; constructor; [exact (H 0 ltac:(cbn; lia))|]. apply IH. split; [cbn in L; lia|]. intros i I. exact (H (S i) ltac:(cbn; lia)).
Qed.

(** ** Inversion of a successful run. *)
Lemma run_ok pinv hs dd dc dask ny nx da cal s p ds : preprocess_data pinv hs dd dc dask ny nx da cal s p = Ok ds ->
  exists m keep pl dims coords thr,
    preprocess_plan dd dc dask (ny * nx) da (c_years cal) p = Ok (m, keep, pl) /\
    infer_dims_coords dd dc (p_dims p) (p_coords p) = Ok (dims, coords) /\
    select keep (c_doys cal) <> [] /\
    run_thresholds (has_name dims "y") ny nx (select keep (c_doys cal))
      (fun c => select keep (anomaly_series pinv hs m (map Z.to_nat (match p_orders p with None => [1%Z] | Some o => o end)) (p_window p) cal s (cell_series da c))) pl = Ok thr /\
    has_name coords "x" = true /\ has_name coords "y" = true /\
    ds = mkData (select keep (c_years cal)) (select keep (c_doys cal))
      (fun c => select keep (anomaly_series pinv hs m (map Z.to_nat (match p_orders p with None => [1%Z] | Some o => o end)) (p_window p) cal s (cell_series da c)))
      (fun c => ocean (cell_series da c)) thr
      (fun t c => exceeds (nth t (select keep (anomaly_series pinv hs m (map Z.to_nat (match p_orders p with None => [1%Z] | Some o => o end)) (p_window p) cal s (cell_series da c))) None)
                    (thr c (nth t (select keep (c_doys cal)) 0))).
Proof.
  unfold preprocess_data. destruct (preprocess_plan _ _ _ _ _ _ _) as [[[m keep] pl]|] eqn:P; [|discriminate].
  destruct (infer_dims_coords _ _ _ _) as [[dims coords]|] eqn:I; [|discriminate]. cbv zeta.
  destruct (select keep (c_doys cal)) as [|d0 dr] eqn:D; [discriminate|].
  destruct (run_thresholds _ _ _ _ _ _) as [thr|] eqn:T; [|discriminate]. cbn [bind].
  destruct (has_name coords "x") eqn:X; [|discriminate]. destruct (has_name coords "y") eqn:Y; [|discriminate]. cbn [negb].
  intro H. injection H as <-. exists m, keep, pl, dims, coords, thr. rewrite D. repeat split; auto; discriminate.
Qed.

Lemma plan_keep dd dc dask n da years p m keep pl : preprocess_plan dd dc dask n da years p = Ok (m, keep, pl) ->
  match m with AShifting => keep = map (fun y => Z.leb (minZ years + p_window p) y) years | _ => keep = map (fun _ => true) years end.
Proof.
  unfold preprocess_plan. destruct (infer_dims_coords dd dc _ _) as [[dims coords]|e] eqn:I; [|discriminate].
  cbn [lift_det bind fst snd]. destruct dask; [|discriminate]. cbn [negb].
  destruct (validate_data_values n da) as [[]|]; [|discriminate]. cbn [lift_data bind].
  rewrite (C48_inference_is_idempotent _ _ _ _ _ _ I). cbn [lift_det bind fst snd]. rewrite (C48_inference_is_idempotent _ _ _ _ _ _ I). cbn [lift_det bind fst snd].
  destruct (anomaly_method (p_method p) _) as [m'|]; [|discriminate]. cbn [lift_det bind].
  destruct (match m' with AShifting => trim (p_window p) years | _ => Ok (map (fun _ => true) years) end) as [keep'|] eqn:K; [|discriminate]. cbn [lift_det bind].
  destruct (plan_extremes (has_name dims "y") (p_extreme p)) as [pl'|]; [|discriminate]. cbn. intro H. injection H as -> -> ->.
  destruct m; try (injection K as <-; reflexivity). unfold trim in K. destruct (Z.ltb _ _); [discriminate|]. injection K as <-. reflexivity.
Qed.

(** ** Series of a cell. *)
Lemma cell_length da c : length (cell_series da c) = length da.
Proof. apply map_length. Qed.
Lemma cell_nth da c t : t < length da -> nth t (cell_series da c) None = finite_value da t c.
Proof. intro H. unfold cell_series. rewrite (nth_map_gen _ da t []) by exact H. unfold finite_value, to_option. destruct (nth c (nth t da []) NaN); reflexivity. Qed.
Lemma finite_value_at da t c : finite_value da t c <> None <-> is_finite (nth c (nth t da []) NaN) = true.
Proof. unfold finite_value. destruct (nth c (nth t da []) NaN); cbn; split; try discriminate; try congruence; reflexivity. Qed.
Lemma anomaly_length pinv hs m orders w cal s data : length (c_years cal) = length data -> length (c_doys cal) = length data ->
  length (anomaly_series pinv hs m orders w cal s data) = length data.
Proof.
  intros L1 L2. assert (Ld : forall dy rh fz, length (detrend pinv hs dy orders rh fz data) = length data).
  { intros. unfold detrend. destruct (forallb _ data) eqn:F; rewrite map_length; [|reflexivity]. rewrite detrend_length.
    clear - F. induction data as [|[v|] l IH]; [reflexivity| |discriminate]. unfold present in *. cbn in *. rewrite IH; auto. }
  destruct m; cbn [anomaly_series].
  - apply Ld.
  - unfold shifting_baseline. rewrite map_length, combine_length. unfold smoothed_rolling_climatology. rewrite rolling_length by lia. lia.
  - apply fixed_length. exact L2.
  - unfold detrend_fixed_baseline. rewrite fixed_length; [apply Ld|]. rewrite Ld. exact L2.
Qed.

(** ** Missing series. *)
Lemma exceeds_none t : exceeds None t = false. Proof. reflexivity. Qed.
Lemma exceeds_no_threshold v : exceeds v None = false. Proof. destruct v; reflexivity. Qed.
Definition all_missing (l : series) : Prop := forall v, In v l -> v = None.
Lemma all_missing_nth l t : all_missing l -> nth t l None = None.
Proof. intro H. destruct (Nat.lt_ge_cases t (length l)) as [L|L]; [apply H, nth_In; exact L|apply nth_overflow; exact L]. Qed.
Lemma detrend_hole pinv hs dy orders rh fz data t : t < length data -> nth t data None = None -> all_missing (detrend pinv hs dy orders rh fz data).
Proof.
  intros L N. rewrite detrend_missing; [intros v I; apply in_map_iff in I; destruct I as (? & <- & _); reflexivity|].
  apply existsb_exists. exists (nth t data None). split; [apply nth_In; exact L|rewrite N; reflexivity].
Qed.
Lemma fixed_all_missing doys data : all_missing data -> all_missing (fixed_baseline doys data).
Proof.
  intros H v I. unfold fixed_baseline in I. apply in_map_iff in I. destruct I as ([d x] & <- & I). apply in_combine_r in I. cbn. rewrite (H x I). reflexivity.
Qed.

(** ** Equal anomalies give equal flags. *)
Lemma same_sym a b : same a b -> same b a.
Proof. destruct a, b; cbn; try tauto. intro H. symmetry. exact H. Qed.
Lemma same_refl a : same a a.
Proof. destruct a; cbn; [reflexivity|exact Logic.I]. Qed.
Lemma exceeds_same v v' t t' : same v v' -> same t t' -> exceeds v t = exceeds v' t'.
Proof.
  destruct v, v', t, t'; cbn; try tauto; try (intros; reflexivity). intros E1 E2.
  destruct (Qle_bool q1 q) eqn:A, (Qle_bool q2 q0) eqn:B; try reflexivity.
  - apply Qle_bool_iff in A. rewrite E1, E2 in A. apply Qle_bool_iff in A. congruence.
  - apply Qle_bool_iff in B. rewrite <- E1, <- E2 in B. apply Qle_bool_iff in B. congruence.
Qed.
Lemma Qle_bool_comp a b c d : (a == b)%Q -> (c == d)%Q -> Qle_bool a c = Qle_bool b d.
Proof. intros E1 E2. exact (exceeds_same (Some c) (Some d) (Some a) (Some b) E2 E1). Qed.
Lemma present_same l l' : Forall2 same l l' -> Forall2 Qeq (present l) (present l').
Proof.
  induction 1 as [|a b l l' R H IH]; [constructor|]. unfold present in *. cbn [flat_map].
  destruct a, b; cbn in R; try contradiction; [constructor; assumption|exact IH].
Qed.
Lemma insertQ_same x y l l' : (x == y)%Q -> Forall2 Qeq l l' -> Forall2 Qeq (insertQ x l) (insertQ y l').
Proof.
  intros E H. induction H as [|a b l l' R H IH]; [repeat constructor; exact E|]. cbn [insertQ].
  rewrite (Qle_bool_comp x y a b E R). destruct (Qle_bool y b); repeat constructor; assumption.
Qed.
Lemma sortQ_same l l' : Forall2 Qeq l l' -> Forall2 Qeq (sortQ l) (sortQ l').
Proof. induction 1 as [|a b l l' R H IH]; [constructor|]. cbn. apply insertQ_same; assumption. Qed.
Lemma Forall2_nth_Qeq l l' i : Forall2 Qeq l l' -> (nth i l 0 == nth i l' 0)%Q.
Proof. intro H. revert i. induction H as [|a b l l' R H IH]; intros [|i]; cbn; auto; reflexivity. Qed.
Lemma quantile_same q l l' : Forall2 Qeq l l' -> same (quantile q l) (quantile q l').
Proof.
  intro H. assert (L : length l = length l') by (clear - H; induction H; cbn; congruence). assert (N := fun i => Forall2_nth_Qeq _ _ i (sortQ_same _ _ H)).
  unfold quantile. destruct H as [|a b l l' R H]; [exact Logic.I|]. rewrite <- L. cbn [same].
  set (x := a :: l) in *. set (y := b :: l') in *. rewrite !N. reflexivity.
Qed.
Lemma flat_map_Forall2 {A B C} (R : B -> C -> Prop) (f : A -> list B) (g : A -> list C) l : (forall x, In x l -> Forall2 R (f x) (g x)) -> Forall2 R (flat_map f l) (flat_map g l).
Proof. induction l as [|x l IH]; intro H; [constructor|]. cbn. apply Forall2_app; [apply H; left; reflexivity|apply IH; intros; apply H; right; assumption]. Qed.
Lemma exact_day_same q w doys a b d : Forall2 same a b -> same (exact_day_threshold q w doys a d) (exact_day_threshold q w doys b d).
Proof.
  intro H. unfold exact_day_threshold. apply quantile_same, present_same, flat_map_Forall2. intros t _.
  destruct (Nat.eqb _ d); [|constructor]. unfold window_values. apply Forall2_map_same. intros k _.
  destruct (Nat.ltb _ _); [exact Logic.I|]. destruct (proj1 (Forall2_nth_iff same a b None None) H) as [L N].
  destruct (Nat.lt_ge_cases (t + k - w / 2) (length a)) as [I|I]; [apply N; exact I|]. rewrite !nth_overflow by lia. exact Logic.I.
Qed.
Lemma in_bin_same f n b u v : same u v -> in_bin (map f (seq 0 n)) b u = in_bin (map f (seq 0 n)) b v.
Proof.
  destruct u, v; cbn; try tauto. intro E. f_equal. unfold digitize. apply count_ext. intros e _. apply Qle_bool_comp; [reflexivity|exact E].
Qed.
Lemma count_Forall2 {A B} (P : A -> bool) (Q : B -> bool) (R : A -> B -> Prop) a b : (forall x y, R x y -> P x = Q y) -> Forall2 R a b -> count P a = count Q b.
Proof. intros E H. induction H as [|x y a b Hx H IH]; [reflexivity|]. rewrite !count_cons, (E x y Hx), IH. reflexivity. Qed.
Lemma hist_1d_same p mx a b : Forall2 same a b -> hist_1d p mx a = hist_1d p mx b.
Proof. intro H. unfold hist_1d. apply map_ext. intro k. apply (count_Forall2 _ _ same); [|exact H]. intros x y E. unfold edges_1d. apply in_bin_same. exact E. Qed.
Lemma existsb_Forall2 {A B} (P : A -> bool) (Q : B -> bool) (R : A -> B -> Prop) a b : (forall x y, R x y -> P x = Q y) -> Forall2 R a b -> existsb P a = existsb Q b.
Proof. intros E H. induction H as [|x y a b Hx H IH]; [reflexivity|]. cbn. rewrite (E x y Hx), IH. reflexivity. Qed.
Lemma global_same p mx q a b : Forall2 same a b -> global_threshold p mx q a = global_threshold p mx q b.
Proof.
  intro H. unfold global_threshold. rewrite (hist_1d_same _ _ _ _ H).
  rewrite (existsb_Forall2 _ (fun v => match v with None => true | Some _ => false end) same a b); [reflexivity| |exact H].
  intros [x|] [y|]; cbn; tauto.
Qed.
Lemma combine_Forall2 {A B C} (R : B -> C -> Prop) (l : list A) a b : Forall2 R a b -> Forall2 (fun x y => fst x = fst y /\ R (snd x) (snd y)) (combine l a) (combine l b).
Proof. intro H. revert l. induction H as [|x y a b Hx H IH]; intros [|z l]; cbn; constructor; auto. Qed.
Lemma hist_raw_same p mx doys a b d k : Forall2 same a b -> hist_raw p mx doys a d k = hist_raw p mx doys b d k.
Proof.
  intro H. unfold hist_raw. apply (count_Forall2 _ _ (fun x y : nat * option Q => fst x = fst y /\ same (snd x) (snd y))); [|apply combine_Forall2; exact H].
  intros [x u] [y v] [E1 E2]. cbn in *. rewrite E1. f_equal. apply in_bin_same. exact E2.
Qed.

(** ** Pooling only looks at the window. *)
Lemma rolling_sum_ext len w f g i : (forall j, j < len -> i - w / 2 <= j -> j <= i + (w - 1 - w / 2) -> f j = g j) -> rolling_sum len w f i = rolling_sum len w g i.
Proof.
  intro H. unfold rolling_sum. f_equal. apply map_ext_in. intros j J. apply filter_In in J. destruct J as [J B]. apply in_seq in J. apply andb_prop in B.
  destruct B as [B1 B2]. apply Nat.leb_le in B1, B2. apply H; lia.
Qed.
Definition window_of (ws : option nat) : nat := match ws with Some w => w | None => 1 end.
Lemma pool_space_ext ny nx ws f g y x : 0 < nx -> y < ny -> x < nx ->
  (forall y' x', near ny nx (window_of ws) y x y' x' -> f y' x' = g y' x') -> pool_space ny nx ws f y x = pool_space ny nx ws g y x.
Proof.
  intros Nx Y X H. unfold pool_space.
  assert (Own : forall w, near ny nx w y x y x).
  { intro w. unfold near. repeat split; try lia. exists 0%Z. split; [lia|]. rewrite Z.add_0_r, Z.mod_small by lia. reflexivity. }
  destruct ws as [w|]; [|apply H; apply Own]. destruct (Nat.ltb_spec 1 w) as [W|W]; [|apply H; apply Own]. cbn [window_of] in H.
  assert (Hw : w - 1 - w / 2 <= w / 2).
  { assert (A := Nat.div_mod w 2 ltac:(lia)). assert (B := Nat.mod_upper_bound w 2 ltac:(lia)). lia. }
  apply rolling_sum_ext. intros y' Y' L1 L2. unfold pool_columns. apply rolling_sum_ext. intros j J L3 L4. unfold pad_wrap.
  apply H. unfold near.
  assert (B : (0 <= (Z.of_nat j - Z.of_nat (w / 2)) mod Z.of_nat nx < Z.of_nat nx)%Z) by (apply Z.mod_pos_bound; lia).
  split; [exact Y'|]. split; [lia|]. split; [lia|]. split; [lia|]. exists (Z.of_nat j - Z.of_nat (w / 2) - Z.of_nat x)%Z. split; [lia|].
  rewrite Z2Nat.id by lia. f_equal. lia.
Qed.

(** ** Day windows the histogram accepts. *)
Definition shape_length (w : nat) : nat := S ((if Nat.eqb (w / 2) 0 then 366 else Nat.min (w / 2) 366) + (366 + Nat.min (w / 2) 366)) - w.
Lemma windowed_length w nb hist : length hist = 366 -> length (windowed w nb hist) = shape_length w.
Proof.
  intro L. unfold windowed, sliding. rewrite !map_length, seq_length, !app_length, firstn_length, L. unfold shape_length, last_rows.
  destruct (Nat.eqb (w / 2) 0); [rewrite L; reflexivity|]. rewrite skipn_length, L. f_equal. f_equal. lia.
Qed.
Lemma hobday_shape p mx q w ws ny nx doys da y x :
  hobday_thresholds p mx q w ws ny nx doys da y x =
  if Nat.eqb (shape_length w) 366 then
    Ok (map (fun t => match da 0 (y * nx + x) with Some _ => at_least (lower_bound p) t | None => None end)
         (map (row_quantile q (centres p mx)) (windowed w (length (centres p mx))
           (map (fun d => map (fun b => pool_space ny nx ws (fun y' x' => hist_raw p mx doys (map (fun t => da t (y' * nx + x')) (seq 0 (length doys))) d b) y x) (seq 0 (n_edges p mx))) (seq 1 366)))))
  else Err ShapeMismatch.
Proof.
  unfold hobday_thresholds, rolling_histogram_quantile. cbv zeta. rewrite windowed_length; [|rewrite map_length; apply seq_length].
  rewrite map_length, seq_length. destruct (Nat.eqb (shape_length w) 366); reflexivity.
Qed.
Lemma shape_odd w : Z.Odd (Z.of_nat w) -> (shape_length w = 366 <-> 3 <= w <= 733).
Proof.
  intros (k & K). assert (E : w = 2 * Z.to_nat k + 1) by lia. unfold shape_length.
  assert (D : w / 2 = Z.to_nat k) by (rewrite E; rewrite Nat.mul_comm; rewrite Nat.div_add_l by lia; cbn; lia). rewrite D. clear D.
  destruct (Nat.eqb_spec (Z.to_nat k) 0); [|]; lia.
Qed.

Definition plan_window (pl : plan) : nat := match pl with HobdayApprox _ _ _ _ (Some w) => Z.to_nat w | _ => 1 end.
Lemma near_self ny nx w c : c < ny * nx -> near ny nx w (c / nx) (c mod nx) (c / nx) (c mod nx).
Proof.
  intro H. assert (Nx : nx <> 0) by lia. unfold near. assert (A := Nat.mod_upper_bound c nx Nx).
  assert (B : c / nx < ny) by (apply Nat.div_lt_upper_bound; lia).
  repeat split; try lia. exists 0%Z. split; [lia|]. rewrite Z.add_0_r, Z.mod_small by lia. reflexivity.
Qed.
Lemma cell_of nx c : nx <> 0 -> c / nx * nx + c mod nx = c.
Proof. intro N. assert (A := Nat.div_mod c nx N). lia. Qed.
Lemma near_cell ny nx w y x y' x' : near ny nx w y x y' x' -> y' * nx + x' < ny * nx.
Proof. intros (A & B & _). nia. Qed.

Lemma thresholds_local has_y ny nx doys anom anom' pl thr : run_thresholds has_y ny nx doys anom pl = Ok thr ->
  exists thr', run_thresholds has_y ny nx doys anom' pl = Ok thr' /\
  forall c, c < ny * nx ->
    (forall y' x', near ny nx (plan_window pl) (c / nx) (c mod nx) y' x' -> Forall2 same (anom (y' * nx + x')) (anom' (y' * nx + x'))) ->
    forall day, same (thr c day) (thr' c day).
Proof.
  intro H. assert (Own : forall w c, c < ny * nx -> (forall y' x', near ny nx w (c / nx) (c mod nx) y' x' -> Forall2 same (anom (y' * nx + x')) (anom' (y' * nx + x'))) -> Forall2 same (anom c) (anom' c)).
  { intros w c C F. specialize (F _ _ (near_self ny nx w c C)). rewrite cell_of in F by lia. exact F. }
  destruct pl as [q|q p mx|q d|q p mx d ws]; cbn [run_thresholds plan_window] in *.
  - destruct (has_y || _); [|discriminate]. injection H as <-. eexists. split; [reflexivity|]. intros c C F day. apply quantile_same, present_same, (Own 1); assumption.
  - injection H as <-. eexists. split; [reflexivity|]. intros c C F day. cbv beta. rewrite (global_same p mx q _ _ (Own 1 c C F)). apply same_refl.
  - destruct (Z.ltb d 1); [discriminate|]. injection H as <-. eexists. split; [reflexivity|]. intros c C F day. apply exact_day_same, (Own 1); assumption.
  - destruct (Z.ltb d 1); [discriminate|]. cbv zeta in *. rewrite hobday_shape in H. rewrite hobday_shape.
    destruct (Nat.eqb (shape_length (Z.to_nat d)) 366) eqn:Sh; [|discriminate]. injection H as <-. eexists. split; [reflexivity|].
    intros c C F day. cbv beta. rewrite !hobday_shape, Sh.
    assert (Nx : nx <> 0) by lia. assert (Mu := Nat.mod_upper_bound c nx Nx). assert (Yb : c / nx < ny) by (apply Nat.div_lt_upper_bound; lia).
    assert (Oc : Forall2 same (anom c) (anom' c)).
    { destruct ws as [w|]; [apply (Own (Z.to_nat w)); assumption|apply (Own 1); assumption]. }
    assert (Hist : map (fun d0 => map (fun b => pool_space ny nx (option_map Z.to_nat ws) (fun y' x' => hist_raw p mx doys (map (fun t => nth t (anom (y' * nx + x')) None) (seq 0 (length doys))) d0 b) (c / nx) (c mod nx)) (seq 0 (n_edges p mx))) (seq 1 366)
      = map (fun d0 => map (fun b => pool_space ny nx (option_map Z.to_nat ws) (fun y' x' => hist_raw p mx doys (map (fun t => nth t (anom' (y' * nx + x')) None) (seq 0 (length doys))) d0 b) (c / nx) (c mod nx)) (seq 0 (n_edges p mx))) (seq 1 366)).
    { apply map_ext. intro dd. apply map_ext. intro b. apply pool_space_ext; try lia. intros y' x' N.
      apply hist_raw_same. apply Forall2_map_same. intros t _.
      assert (G : Forall2 same (anom (y' * nx + x')) (anom' (y' * nx + x'))) by (apply F; destruct ws; exact N).
      destruct (proj1 (Forall2_nth_iff same _ _ None None) G) as [L E].
      destruct (Nat.lt_ge_cases t (length (anom (y' * nx + x')))) as [I|I]; [apply E; exact I|]. rewrite !nth_overflow by lia. exact Logic.I. }
    rewrite Hist. rewrite cell_of by exact Nx.
    assert (Z0 : same (nth 0 (anom c) None) (nth 0 (anom' c) None)).
    { destruct Oc as [|a b l l' R _]; [exact Logic.I|exact R]. }
    destruct (nth 0 (anom c) None), (nth 0 (anom' c) None); cbn in Z0; try contradiction; apply same_refl.
Qed.
Lemma thresholds_kind has_y ny nx doys anom anom' pl e : run_thresholds has_y ny nx doys anom pl = Err e -> run_thresholds has_y ny nx doys anom' pl = Err e.
Proof.
  destruct pl as [q|q p mx|q d|q p mx d ws]; cbn [run_thresholds].
  - destruct (has_y || _); [discriminate|auto].
  - discriminate.
  - destruct (Z.ltb d 1); [auto|discriminate].
  - destruct (Z.ltb d 1); [auto|]. cbv zeta. rewrite !hobday_shape. destruct (Nat.eqb _ 366); [discriminate|auto].
Qed.

(** ** Plans depend on the data only through the check of its values. *)
Lemma plan_valid dd dc dask n da years p r : preprocess_plan dd dc dask n da years p = Ok r -> validate_data_values n da = Ok tt.
Proof.
  unfold preprocess_plan. destruct (infer_dims_coords dd dc _ _) as [[dims coords]|e]; [|discriminate]. cbn [lift_det bind fst snd]. destruct dask; [|discriminate]. cbn [negb].
  destruct (validate_data_values n da) as [[]|]; [reflexivity|discriminate].
Qed.
Lemma plan_transfer dd dc dask n da da' years p r : preprocess_plan dd dc dask n da years p = Ok r -> validate_data_values n da' = Ok tt ->
  preprocess_plan dd dc dask n da' years p = Ok r.
Proof. intros H V. rewrite <- H. unfold preprocess_plan. rewrite V, (plan_valid _ _ _ _ _ _ _ _ H). reflexivity. Qed.
Lemma finite_at_value da t c : finite_at da t c <-> finite_value da t c <> None.
Proof. rewrite finite_at_iff, finite_value_at. reflexivity. Qed.
Lemma offset_valid signal n da da' : offset_by signal n da da' -> validate_data_values n da = Ok tt -> validate_data_values n da' = Ok tt.
Proof.
  intros [L H] V. apply C47_accepts_exactly_gap_free_series in V. destruct V as (A & (i & I & F) & G). apply C47_accepts_exactly_gap_free_series.
  assert (T : forall t c, t < length da -> c < n -> (finite_at da' t c <-> finite_at da t c)).
  { intros t c Tt Cc. rewrite !finite_at_value. specialize (H t c Tt Cc). destruct (finite_value da t c), (finite_value da' t c); try contradiction; split; congruence. }
  split; [lia|]. split; [exists i; split; [exact I|apply T; auto]|].
  intros j J Fj t Tt. rewrite L in Tt. apply T; auto. apply G; auto. apply T; auto.
Qed.

(** ** Removed signals. *)
Lemma total_sm f n : (total (map f (seq 0 n)) == sm n f)%Q.
Proof.
  assert (G : forall l, total l = sumQ l) by (induction l as [|x l IH]; [reflexivity|]; cbn; rewrite IH; reflexivity).
  rewrite G. apply sumQ_sm.
Qed.
Lemma sm_app n m f : (sm (n + m)%nat f == sm n f + sm m (fun k => f (n + k)%nat))%Q.
Proof. induction m as [|m IH]; [rewrite Nat.add_0_r; cbn [sm]; ring|]. rewrite Nat.add_succ_r. cbn [sm]. rewrite IH. ring. Qed.
Lemma sm_cons n f : (sm (S n) f == f 0%nat + sm n (fun k => f (S k)))%Q.
Proof. change (S n) with (1 + n). rewrite sm_app. cbn [sm]. setoid_replace (0 + f 0%nat)%Q with (f 0%nat) by ring. reflexivity. Qed.
Definition coeffs (no : nat) (a : Q) (b g : nat -> Q) (i : nat) : Q :=
  match i with O => a | S k => if Nat.ltb k no then b k else g (k - no) end.
Lemma components_signal hs dy orders rh a b g t : t < length dy ->
  (sm (length (model_components hs dy orders rh)) (fun i => coeffs (length orders) a b g i * nth t (nth i (model_components hs dy orders rh) []) 0)
   == trend a b (mean dy) orders (nth t dy 0) + (if rh then oscillation g hs (nth t dy 0) else 0))%Q.
Proof.
  intro T. unfold model_components. cbn [length]. rewrite app_length, map_length. rewrite sm_cons, sm_app. cbn [coeffs nth].
  rewrite (nth_map_gen _ dy t 0%Q) by exact T. unfold trend. rewrite total_sm.
  assert (E1 : (sm (length orders) (fun k => (if Nat.ltb k (length orders) then b k else g (k - length orders)%nat) *
      nth t (nth k (map (fun order => map (fun y => powQ (y - mean dy) order) dy) orders ++ (if rh then map (fun h => map h dy) hs else [])) []) 0)
    == sm (length orders) (fun i => b i * power (nth t dy 0 - mean dy) (nth i orders 0%nat)))%Q).
  { apply sm_ext. intros k K. destruct (Nat.ltb_spec k (length orders)); [|lia]. rewrite app_nth1 by (rewrite map_length; exact K).
    rewrite (nth_map_gen _ orders k 0) by exact K. rewrite (nth_map_gen _ dy t 0%Q) by exact T. reflexivity. }
  rewrite E1. destruct rh.
  - unfold oscillation. rewrite total_sm, map_length.
    assert (E2 : (sm (length hs) (fun k => (if Nat.ltb (length orders + k)%nat (length orders) then b (length orders + k)%nat else g (length orders + k - length orders)%nat) *
        nth t (nth (length orders + k)%nat (map (fun order => map (fun y => powQ (y - mean dy) order) dy) orders ++ map (fun h => map h dy) hs) []) 0)
      == sm (length hs) (fun j => g j * nth j hs (fun _ => 0) (nth t dy 0)))%Q).
    { apply sm_ext. intros k K. destruct (Nat.ltb_spec (length orders + k) (length orders)); [lia|]. rewrite app_nth2 by (rewrite map_length; lia). rewrite map_length.
      replace (length orders + k - length orders) with k by lia. rewrite (nth_map_gen _ hs k (fun _ => 0%Q)) by exact K. rewrite (nth_map_gen _ dy t 0%Q) by exact T. reflexivity. }
    rewrite E2. ring.
  - cbn [length sm]. ring.
Qed.
Lemma complete_series (a : series) : (forall t, t < length a -> nth t a None <> None) -> exists x, a = map Some x.
Proof.
  induction a as [|[v|] a IH]; intro H; [exists []; reflexivity| |exfalso; exact (H 0 ltac:(cbn; lia) eq_refl)].
  destruct IH as (x & ->); [intros t T; exact (H (S t) ltac:(cbn; lia))|]. exists (v :: x). reflexivity.
Qed.
Lemma complete_or_hole (a : series) : (exists x, a = map Some x) \/ (exists t, t < length a /\ nth t a None = None).
Proof.
  induction a as [|[v|] a [[x ->]|(t & T & E)]]; [left; exists []; reflexivity|left; exists (v :: x); reflexivity|right; exists (S t); cbn; split; [lia|exact E]| |];
    right; exists 0; cbn; split; auto; lia.
Qed.
Lemma detrend_signal pinv hs dy orders rh fz a b ca cb cg :
  pseudo_inverse (length (centred (model_components hs dy orders rh))) (length dy) (entry (centred (model_components hs dy orders rh))) (entry (pinv (centred (model_components hs dy orders rh)))) ->
  length a = length dy -> length b = length dy ->
  (forall t, t < length dy -> rel (trend ca cb (mean dy) orders (nth t dy 0%Q) + (if rh then oscillation cg hs (nth t dy 0%Q) else 0)) (nth t a None) (nth t b None)) ->
  Forall2 same (detrend pinv hs dy orders rh fz b) (detrend pinv hs dy orders rh fz a).
Proof.
  intros P La Lb H. destruct (complete_or_hole a) as [[x ->]|(t & T & E)].
  - destruct (complete_series b) as [y ->].
    { intros t T. rewrite Lb in T. specialize (H t T). rewrite map_length in La. rewrite (nth_map_gen Some x t 0%Q) in H by lia. destruct (nth t b None); [discriminate|contradiction]. }
    rewrite map_length in La, Lb. rewrite !detrend_complete. apply (Forall2_nth_iff same _ _ None None). rewrite !map_length, !detrend_length. split; [lia|].
    intros t T. rewrite (nth_map_gen Some _ t 0%Q) by (rewrite detrend_length; lia). rewrite (nth_map_gen Some _ t 0%Q) by (rewrite detrend_length; lia). cbn [same].
    apply (detrend_add pinv hs dy orders rh P fz x y (coeffs (length orders) ca cb cg)); auto; try lia.
    intros s S0. specialize (H s S0). rewrite !(nth_map_gen Some _ s 0%Q) in H by lia. cbn [rel] in H. rewrite H, components_signal by exact S0. reflexivity.
  - assert (Eb : nth t b None = None).
    { rewrite La in T. specialize (H t T). rewrite E in H. destruct (nth t b None); [contradiction|reflexivity]. }
    assert (Ma := detrend_hole pinv hs dy orders rh fz a t T E). assert (Mb := detrend_hole pinv hs dy orders rh fz b t ltac:(lia) Eb).
    apply (Forall2_nth_iff same _ _ None None). split.
    { unfold detrend. destruct (forallb _ a) eqn:Fa.
      { exfalso. rewrite forallb_forall in Fa. specialize (Fa (nth t a None) (nth_In _ _ T)). rewrite E in Fa. discriminate. }
      destruct (forallb _ b) eqn:Fb.
      { exfalso. rewrite forallb_forall in Fb. specialize (Fb (nth t b None) ltac:(apply nth_In; lia)). rewrite Eb in Fb. discriminate. }
      rewrite !map_length. lia. }
    intros i _. rewrite !all_missing_nth by assumption. exact Logic.I.
Qed.
Lemma rel_0 a b : same b a <-> rel 0 a b.
Proof. destruct a, b; cbn; try tauto. split; intro H; rewrite H; ring. Qed.
Lemma fixed_same doys a b : length doys = length a -> Forall2 same b a -> Forall2 same (fixed_baseline doys b) (fixed_baseline doys a).
Proof.
  intros L H. destruct (proj1 (Forall2_nth_iff same _ _ None None) H) as [Lb N].
  apply (Forall2_nth_iff same _ _ None None). rewrite !fixed_length by lia. split; [exact Lb|]. intros i I.
  apply (fixed_seasonal (fun _ => 0%Q)); try lia. intros k K. apply rel_0. apply N. lia.
Qed.
