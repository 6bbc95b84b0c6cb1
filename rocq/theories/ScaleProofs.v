(** Multiplying the data of a cell by a positive number. *)
From Coq Require Import Qround Lqa.
From Verif Require Import Base Filter Overlap OverlapProofs Partition PartitionProofs Cluster ClusterProofs ClusterFinal Detect Climatology ClimatologySpec ClimatologyProofs Detrend DetrendSpec DetrendProofs
  Histogram HistogramProofs DetectRun DetectRunSpec DetectRunProofs.
Open Scope nat_scope.

(** [b] is [k] times [a]. *)
Definition scal (k : Q) (a b : option Q) : Prop :=
  match a, b with Some x, Some y => (y == k * x)%Q | None, None => True | _, _ => False end.
Definition scaled (k : Q) (x y : Q) : Prop := (y == k * x)%Q.

Lemma present_scal k l l' : Forall2 (scal k) l l' -> Forall2 (scaled k) (present l) (present l').
Proof.
  induction 1 as [|a b l l' R H IH]; [constructor|]. unfold present in *. cbn [flat_map].
  destruct a, b; cbn in R; try contradiction; [constructor; assumption|exact IH].
Qed.
Lemma sumQ_scal k l l' : Forall2 (scaled k) l l' -> length l' = length l /\ (sumQ l' == k * sumQ l)%Q.
Proof.
  induction 1 as [|a b l l' R H [IL IH]]; [split; [reflexivity|]; cbn; ring|].
  split; [cbn; rewrite IL; reflexivity|]. cbn [sumQ]. unfold scaled in R. rewrite R, IH. ring.
Qed.
Lemma nanmean_scal k l l' : Forall2 (scal k) l l' -> scal k (nanmean l) (nanmean l').
Proof.
  intro H. apply present_scal in H. unfold nanmean. inversion H as [E1 E2|x y p p' R H' E1 E2]; [exact Logic.I|].
  rewrite <- E1, <- E2 in H. destruct (sumQ_scal _ _ _ H) as [L E]. rewrite L. unfold scal. rewrite E. field. apply natQ_nonzero. cbn. lia.
Qed.
Lemma rolling_mean_scal k W a b : length a = length b -> (forall i, i < length a -> scal k (nth i a None) (nth i b None)) ->
  forall i, i < length a -> scal k (nth i (rolling_mean W a) None) (nth i (rolling_mean W b) None).
Proof.
  intros L H i I. rewrite !rolling_mean_nth by lia. rewrite <- L.
  destruct (_ && _); [|exact Logic.I]. cbv zeta.
  assert (F : Forall2 (scal k) (map (fun j => nth (i - W / 2 + j) a None) (seq 0 W)) (map (fun j => nth (i - W / 2 + j) b None) (seq 0 W))).
  { apply Forall2_map_same. intros j _. destruct (Nat.lt_ge_cases (i - W / 2 + j) (length a)) as [J|J]; [apply H; exact J|].
    rewrite !nth_overflow by lia. exact Logic.I. }
  assert (Fb : forallb (fun v : option Q => match v with Some _ => true | None => false end) (map (fun j => nth (i - W / 2 + j) a None) (seq 0 W)) =
    forallb (fun v : option Q => match v with Some _ => true | None => false end) (map (fun j => nth (i - W / 2 + j) b None) (seq 0 W))).
  { clear - F. induction F as [|x y l l' R F IH]; [reflexivity|]. cbn. rewrite IH. destruct x, y; cbn in R; try contradiction; reflexivity. }
  rewrite <- Fb. destruct (forallb _ _); [|exact Logic.I].
  destruct (sumQ_scal _ _ _ (present_scal _ _ _ F)) as [_ E]. unfold scal. rewrite E. unfold Qdiv. ring.
Qed.
Lemma rolling_climatology_scal k w years doys a b : length doys = length years -> length a = length years -> length b = length years ->
  (forall i, i < length years -> 1 <= nth i doys 0 <= 366) -> (forall i, i < length a -> scal k (nth i a None) (nth i b None)) ->
  forall i, i < length years -> scal k (nth i (rolling_climatology w years doys a) None) (nth i (rolling_climatology w years doys b) None).
Proof.
  intros L1 L2 L3 D H i I. rewrite !rolling_nth by auto. destruct (Z.leb _ _); [|exact Logic.I].
  apply nanmean_scal, Forall2_map_same. intros j J. apply filter_In in J. destruct J as [J _]. apply in_seq in J. apply H. lia.
Qed.
Lemma osub_scal k a a' b b' : scal k a a' -> scal k b b' -> scal k (osub a b) (osub a' b').
Proof. destruct a, a', b, b'; cbn; intros H1 H2; try contradiction; try exact Logic.I. rewrite H1, H2. ring. Qed.
Lemma shifting_scal k w W years doys a b : length doys = length years -> length a = length years -> length b = length years ->
  (forall i, i < length years -> 1 <= nth i doys 0 <= 366) -> (forall i, i < length years -> scal k (nth i a None) (nth i b None)) ->
  forall i, i < length years -> scal k (nth i (shifting_baseline w W years doys a) None) (nth i (shifting_baseline w W years doys b) None).
Proof.
  intros L1 L2 L3 D H i I. rewrite !shifting_nth by (auto; lia). apply osub_scal; [apply H; exact I|].
  unfold smoothed_rolling_climatology. apply rolling_climatology_scal; auto; [rewrite rolling_mean_length; exact L2|rewrite rolling_mean_length; exact L3|].
  rewrite rolling_mean_length. apply rolling_mean_scal; [lia|]. intros j J. apply H. lia.
Qed.
Lemma fixed_scal k doys a b : length doys = length a -> length b = length a ->
  (forall i, i < length a -> scal k (nth i a None) (nth i b None)) ->
  forall i, i < length a -> scal k (nth i (fixed_baseline doys a) None) (nth i (fixed_baseline doys b) None).
Proof.
  intros L1 L2 H i I. rewrite !fixed_nth by lia. apply osub_scal; [apply H; exact I|].
  rewrite !daily_samples by lia. rewrite L2. apply nanmean_scal, Forall2_map_same. intros j J. apply filter_In in J. destruct J as [J E]. apply in_seq in J.
  apply H. lia.
Qed.

(** ** Detrending *)
Lemma sumQ_map_scal {A} k (f g : A -> Q) l : (forall x, In x l -> (g x == k * f x)%Q) -> (sumQ (map g l) == k * sumQ (map f l))%Q.
Proof. intro H. apply sumQ_scal. apply Forall2_map_same. exact H. Qed.
Lemma detrend_values_scal k pinv hs dy orders rh fz x y : length x = length y -> (forall t, (nth t y 0 == k * nth t x 0)%Q) ->
  Forall2 (scaled k) (detrend_values pinv hs dy orders rh fz x) (detrend_values pinv hs dy orders rh fz y).
Proof.
  intros L H. unfold detrend_values. cbv zeta. set (model := centred _). set (pm := pinv model).
  assert (C : forall j, (coefficient pm y j == k * coefficient pm x j)%Q).
  { intro j. unfold coefficient. rewrite <- L. apply sumQ_map_scal. intros s _. rewrite H. ring. }
  assert (F : forall t, (fitted model pm y t == k * fitted model pm x t)%Q).
  { intro t. unfold fitted. apply sumQ_map_scal. intros j _. rewrite C. ring. }
  assert (R : Forall2 (scaled k) (residual model pm x) (residual model pm y)).
  { unfold residual. rewrite <- L. apply Forall2_map_same. intros t _. unfold scaled. rewrite H, F. ring. }
  destruct fz; [|exact R]. unfold zero_mean. destruct (sumQ_scal _ _ _ R) as [Lr E].
  assert (M : (mean (residual model pm y) == k * mean (residual model pm x))%Q) by (unfold mean; rewrite Lr, E; unfold Qdiv; ring).
  revert M. generalize (mean (residual model pm y)) (mean (residual model pm x)). intros my mx M. clear - R M.
  induction R as [|u v l l' Ru R IH]; [constructor|]. cbn. constructor; [|exact IH]. unfold scaled in *. rewrite Ru, M. ring.
Qed.
Lemma detrend_scal k pinv hs dy orders rh fz a b : Forall2 (scal k) a b ->
  Forall2 (scal k) (detrend pinv hs dy orders rh fz a) (detrend pinv hs dy orders rh fz b).
Proof.
  intro H. unfold detrend.
  assert (Fb : forallb (fun v : option Q => match v with Some _ => true | None => false end) a = forallb (fun v : option Q => match v with Some _ => true | None => false end) b).
  { clear - H. induction H as [|x y l l' R F IH]; [reflexivity|]. cbn. rewrite IH. destruct x, y; cbn in R; try contradiction; reflexivity. }
  rewrite <- Fb. destruct (forallb _ a).
  - assert (P := present_scal _ _ _ H). assert (D : Forall2 (scaled k) (detrend_values pinv hs dy orders rh fz (present a)) (detrend_values pinv hs dy orders rh fz (present b))).
    { apply detrend_values_scal; [destruct (sumQ_scal _ _ _ P) as [E _]; symmetry; exact E|].
      clear - P. induction P as [|u v l l' R P IH]; intros [|t]; cbn; try (unfold scaled in R); auto; ring. }
    clear - D. induction D; cbn; constructor; auto.
  - clear - H. induction H; cbn; constructor; auto. exact Logic.I.
Qed.

(** ** Exact percentiles of scaled values *)
Lemma insertQ_scal k x y l l' : (0 < k)%Q -> scaled k x y -> Forall2 (scaled k) l l' -> Forall2 (scaled k) (insertQ x l) (insertQ y l').
Proof.
  intros K E. unfold scaled in *. induction 1 as [|a b l l' R H IH]; cbn; [repeat constructor; exact E|].
  assert (C : Qle_bool x a = Qle_bool y b).
  { destruct (Qle_bool x a) eqn:A, (Qle_bool y b) eqn:B; try reflexivity; exfalso.
    - apply Qle_bool_iff in A. assert (Qle_bool y b = true) by (apply Qle_bool_iff; rewrite E, R; apply Qmult_le_l; assumption). congruence.
    - apply Qle_bool_iff in B. rewrite E, R in B. apply Qmult_le_l in B; [|exact K]. apply Qle_bool_iff in B. congruence. }
  rewrite <- C. destruct (Qle_bool x a); constructor; auto.
Qed.
Lemma sortQ_scal k l l' : (0 < k)%Q -> Forall2 (scaled k) l l' -> Forall2 (scaled k) (sortQ l) (sortQ l').
Proof. intros K. induction 1; cbn; [constructor|apply insertQ_scal; assumption]. Qed.
Lemma nth_scal k l l' i : Forall2 (scaled k) l l' -> (nth i l' 0 == k * nth i l 0)%Q.
Proof. intro H. revert i. induction H as [|a b l l' R H IH]; intros [|i]; cbn; try (unfold scaled in R); auto; ring. Qed.
Lemma quantile_scal k q l l' : (0 < k)%Q -> Forall2 (scaled k) l l' -> scal k (quantile q l) (quantile q l').
Proof.
  intros K H. destruct (sumQ_scal _ _ _ H) as [L _]. assert (N := fun i => nth_scal k _ _ i (sortQ_scal k _ _ K H)).
  unfold quantile. destruct H as [|a b l l' R H]; [exact Logic.I|]. rewrite L. cbn [scal].
  set (x := a :: l) in *. set (y := b :: l') in *. rewrite !N. ring.
Qed.
Lemma exact_day_scal k q w doys a b d : (0 < k)%Q -> Forall2 (scal k) a b -> scal k (exact_day_threshold q w doys a d) (exact_day_threshold q w doys b d).
Proof.
  intros K H. unfold exact_day_threshold. apply quantile_scal, present_scal, flat_map_Forall2; [exact K|]. intros t _.
  destruct (Nat.eqb _ d); [|constructor]. unfold window_values. apply Forall2_map_same. intros j _.
  destruct (Nat.ltb _ _); [exact Logic.I|]. destruct (proj1 (Forall2_nth_iff (scal k) a b None None) H) as [L N].
  destruct (Nat.lt_ge_cases (t + j - w / 2) (length a)) as [I|I]; [apply N; exact I|]. rewrite !nth_overflow by lia. exact Logic.I.
Qed.
Lemma exceeds_scal k v v' t t' : (0 < k)%Q -> scal k v v' -> scal k t t' -> exceeds v t = exceeds v' t'.
Proof.
  intro K. destruct v, v', t, t'; cbn; try tauto; try (intros; reflexivity). intros E1 E2.
  destruct (Qle_bool q1 q) eqn:A, (Qle_bool q2 q0) eqn:B; try reflexivity; exfalso.
  - apply Qle_bool_iff in A. assert (Qle_bool q2 q0 = true) by (apply Qle_bool_iff; rewrite E1, E2; apply Qmult_le_l; assumption). congruence.
  - apply Qle_bool_iff in B. rewrite E1, E2 in B. apply Qmult_le_l in B; [|exact K]. apply Qle_bool_iff in B. congruence.
Qed.

(** ** Anomalies of a cell *)
Lemma anomaly_scal k pinv hs m orders w cal s a b : length (c_years cal) = length a -> length (c_doys cal) = length a ->
  (forall i, i < length a -> 1 <= nth i (c_doys cal) 0 <= 366) -> Forall2 (scal k) a b ->
  Forall2 (scal k) (anomaly_series pinv hs m orders w cal s a) (anomaly_series pinv hs m orders w cal s b).
Proof.
  intros L1 L2 D H. destruct (proj1 (Forall2_nth_iff (scal k) a b None None) H) as [L N].
  apply (Forall2_nth_iff (scal k) _ _ None None). rewrite !anomaly_length by lia. split; [exact L|].
  destruct m; cbn [anomaly_series].
  - assert (F := detrend_scal k pinv hs (c_decimal cal) orders true (s_zero_mean s) a b H). destruct (proj1 (Forall2_nth_iff (scal k) _ _ None None) F) as [Lf Nf].
    assert (Ld := anomaly_length pinv hs ADetrend orders w cal s a L1 L2). cbn [anomaly_series] in Ld. rewrite Ld in Nf. exact Nf.
  - intros i I. apply shifting_scal; auto; try lia; [intros j J; apply D; lia|intros j J; apply N; lia].
  - apply fixed_scal; auto; lia.
  - unfold detrend_fixed_baseline. assert (F := detrend_scal k pinv hs (c_decimal cal) orders false (s_zero_mean s) a b H). destruct (proj1 (Forall2_nth_iff (scal k) _ _ None None) F) as [Lf Nf].
    assert (Ld : forall x, length (detrend pinv hs (c_decimal cal) orders false (s_zero_mean s) x) = length x).
    { intro x. unfold detrend. destruct (forallb _ x) eqn:Fx; rewrite map_length; [|reflexivity]. rewrite detrend_length.
      clear - Fx. induction x as [|[v|] l IH]; [reflexivity| |discriminate]. unfold present in *. cbn in *. rewrite IH; auto. }
    rewrite !Ld in *. intros i I. apply fixed_scal; rewrite ?Ld; auto; lia.
Qed.
