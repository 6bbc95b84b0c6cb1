(** Proofs about detrending. *)
From Coq Require Import Lqa.
From Verif Require Import Base Filter FilterProofs Overlap OverlapProofs Partition PartitionProofs Cluster ClusterProofs ClusterFinal Detect DetectProofs Climatology ClimatologySpec ClimatologyProofs Detrend DetrendSpec.
Open Scope nat_scope.

Notation sm := summation.
Lemma sm_ext n f g : (forall k, k < n -> (f k == g k)%Q) -> (sm n f == sm n g)%Q.
Proof. induction n as [|n IH]; intro H; [reflexivity|]. cbn [sm]. rewrite IH, (H n) by auto. reflexivity. Qed.
Lemma sm_plus n f g : (sm n (fun k => f k + g k) == sm n f + sm n g)%Q.
Proof. induction n as [|n IH]; cbn [sm]; [lra|]. rewrite IH. lra. Qed.
Lemma sm_minus n f g : (sm n (fun k => f k - g k) == sm n f - sm n g)%Q.
Proof. induction n as [|n IH]; cbn [sm]; [lra|]. rewrite IH. lra. Qed.
Lemma sm_scale n c f : (sm n (fun k => c * f k) == c * sm n f)%Q.
Proof. induction n as [|n IH]; cbn [sm]; [lra|]. rewrite IH. lra. Qed.
Lemma sm_scale_r n c f : (sm n (fun k => f k * c) == sm n f * c)%Q.
Proof. induction n as [|n IH]; cbn [sm]; [lra|]. rewrite IH. lra. Qed.
Lemma sm_zero n : (sm n (fun _ => 0) == 0)%Q.
Proof. induction n as [|n IH]; cbn [sm]; [reflexivity|]. rewrite IH. reflexivity. Qed.
Lemma sm_const n c : (sm n (fun _ => c) == natQ n * c)%Q.
Proof.
  induction n as [|n IH]; cbn [sm]; [change (natQ 0) with 0%Q; lra|]. rewrite IH. unfold natQ. rewrite Nat2Z.inj_succ. unfold Z.succ. rewrite inject_Z_plus.
  change (inject_Z 1) with 1%Q. ring.
Qed.
Lemma sm_swap n m f : (sm n (fun i => sm m (fun j => f i j)) == sm m (fun j => sm n (fun i => f i j)))%Q.
Proof.
  induction n as [|n IH]; cbn [sm]; [rewrite sm_zero; reflexivity|]. rewrite IH, <- sm_plus. apply sm_ext. intros; reflexivity.
Qed.
Lemma sumQ_sm f n : (sumQ (map f (seq 0 n)) == sm n f)%Q.
Proof. induction n as [|n IH]; [reflexivity|]. rewrite seq_S, map_app, sumQ_app, IH. cbn. lra. Qed.
Lemma sumQ_nth l : (sumQ l == sm (length l) (fun i => nth i l 0))%Q.
Proof.
  rewrite <- sumQ_sm. assert (E : map (fun i => nth i l 0%Q) (seq 0 (length l)) = l); [|rewrite E; reflexivity].
  apply (nth_ext _ _ 0%Q 0%Q); [rewrite map_length, seq_length; reflexivity|]. intros i I. rewrite map_length, seq_length in I.
  rewrite (nth_map_gen _ _ _ 0) by (rewrite seq_length; exact I). rewrite seq_nth by exact I. reflexivity.
Qed.

Section Fit.
Variables (M P : matrix) (n : nat).
Notation k := (length M).
Hypothesis pinv : pseudo_inverse k n (entry M) (entry P).
Notation G := (product k (entry P) (entry M)).

Lemma fitted_G x t : length x = n -> (fitted M P x t == sm n (fun s => G s t * nth s x 0))%Q.
Proof.
  intro L. unfold fitted. rewrite sumQ_sm. unfold coefficient, product.
  transitivity (sm k (fun j => sm n (fun s => entry P s j * entry M j t * nth s x 0)))%Q.
  { apply sm_ext. intros j J. rewrite sumQ_sm, L, <- sm_scale. apply sm_ext. intros s S0. ring. }
  rewrite sm_swap. apply sm_ext. intros s S0. rewrite <- sm_scale_r. reflexivity.
Qed.
(** What the fit does to a combination of rows. *)
Lemma fit_row i t : i < k -> t < n -> (sm n (fun s => G s t * entry M i s) == entry M i t)%Q.
Proof.
  intros I T. destruct pinv as (P1 & _ & _ & P4). rewrite <- (P1 i t I T). unfold product at 2. apply sm_ext. intros s S0. ring.
Qed.
Lemma residual_nth x t : length x = n -> t < n -> (nth t (residual M P x) 0 == nth t x 0 - sm n (fun s => G s t * nth s x 0))%Q.
Proof.
  intros L T. unfold residual. rewrite (nth_map_gen _ _ _ 0%nat) by (rewrite seq_length; lia). rewrite seq_nth by lia. cbn [plus]. rewrite fitted_G by exact L. reflexivity.
Qed.
Lemma residual_length x : length (residual M P x) = length x.
Proof. unfold residual. rewrite map_length, seq_length. reflexivity. Qed.
Lemma residual_row i x : length x = n -> i < k -> (sm n (fun t => entry M i t * nth t (residual M P x) 0) == 0)%Q.
Proof.
  intros L I. rewrite (sm_ext n _ (fun t => entry M i t * nth t x 0 - entry M i t * sm n (fun s => G s t * nth s x 0))%Q).
  - rewrite sm_minus. rewrite (sm_ext n (fun t => entry M i t * sm n (fun s => G s t * nth s x 0))%Q (fun t => sm n (fun s => entry M i t * G s t * nth s x 0))%Q).
    2: { intros t T. rewrite <- sm_scale. apply sm_ext. intros; ring. }
    rewrite sm_swap. rewrite (sm_ext n (fun j => sm n (fun i0 => entry M i i0 * G j i0 * nth j x 0))%Q (fun s => entry M i s * nth s x 0)%Q); [lra|].
    intros s S0. rewrite sm_scale_r. apply Qmult_comp; [|reflexivity]. destruct pinv as (P1 & _ & _ & P4).
    rewrite <- (P1 i s I S0). unfold product at 2. apply sm_ext. intros t T. rewrite (P4 s t S0 T). reflexivity.
  - intros t T. rewrite residual_nth by assumption. ring.
Qed.
Lemma fit_orthogonal r t : length r = n -> (forall i, i < k -> (sm n (fun s => entry M i s * nth s r 0) == 0)%Q) -> t < n ->
  (sm n (fun s => G s t * nth s r 0) == 0)%Q.
Proof.
  intros L O T. destruct pinv as (_ & _ & _ & P4).
  rewrite (sm_ext n _ (fun s => G t s * nth s r 0)%Q) by (intros s S0; rewrite (P4 s t S0 T); reflexivity).
  unfold product. rewrite (sm_ext n _ (fun s => sm k (fun j => entry P t j * (entry M j s * nth s r 0)))%Q).
  2: { intros s S0. rewrite <- sm_scale_r. apply sm_ext. intros; ring. }
  rewrite sm_swap. rewrite (sm_ext k _ (fun _ => 0)%Q); [apply sm_zero|]. intros j J. rewrite sm_scale, (O j J). ring.
Qed.
Lemma residual_orthogonal_fixed r t : length r = n -> (forall i, i < k -> (sm n (fun s => entry M i s * nth s r 0) == 0)%Q) -> t < n ->
  (nth t (residual M P r) 0 == nth t r 0)%Q.
Proof. intros L O T. rewrite residual_nth by assumption. rewrite fit_orthogonal by assumption. ring. Qed.
Lemma residual_ext x y t : length x = n -> length y = n -> t < n -> (forall s, s < n -> (nth s x 0 == nth s y 0)%Q) -> (nth t (residual M P x) 0 == nth t (residual M P y) 0)%Q.
Proof. intros Lx Ly T E. rewrite !residual_nth by assumption. rewrite (E t T). apply Qplus_comp; [reflexivity|]. apply Qopp_comp, sm_ext. intros s S0. rewrite (E s S0). reflexivity. Qed.
(** Adding something the fit reproduces. *)
Lemma residual_add x y (c : nat -> Q) t : length x = n -> length y = n -> t < n ->
  (forall s, s < n -> (nth s y 0 == nth s x 0 + c s)%Q) -> (forall t, t < n -> (sm n (fun s => G s t * c s) == c t)%Q) ->
  (nth t (residual M P y) 0 == nth t (residual M P x) 0)%Q.
Proof.
  intros Lx Ly T E C. rewrite !residual_nth by assumption. rewrite (E t T).
  rewrite (sm_ext n (fun s => G s t * nth s y 0)%Q (fun s => G s t * nth s x 0 + G s t * c s)%Q) by (intros s S0; rewrite (E s S0); ring).
  rewrite sm_plus, (C t T). ring.
Qed.
End Fit.

(** Centring the components. *)
Lemma centred_length c : length (centred c) = length c.
Proof. destruct c; [reflexivity|]. cbn. rewrite map_length. reflexivity. Qed.
Lemma nth_map2 (a b : list Q) (f : Q * Q -> Q) t : t < length a -> t < length b -> nth t (map f (combine a b)) 0%Q = f (nth t a 0%Q, nth t b 0%Q).
Proof.
  revert b t. induction a as [|x a IH]; intros b t A B; [cbn in A; lia|]. destruct b as [|y b]; [cbn in B; lia|].
  destruct t as [|t]; [reflexivity|]. cbn in A, B |- *. apply IH; lia.
Qed.
Lemma centred_nth c i t : S i < length c -> entry (centred c) (S i) t =
  nth t (map (fun p => fst p - mean (nth (S i) c []) * snd p)%Q (combine (nth (S i) c []) (nth 0 c []))) 0%Q.
Proof.
  destruct c as [|c0 rest]; intro I; [cbn in I; lia|]. cbn [length] in I. unfold entry. cbn [centred nth].
  rewrite (nth_map_gen (fun c => map (fun p => (fst p - mean c * snd p)%Q) (combine c c0)) rest i []) by lia. reflexivity.
Qed.
Section Centred.
Variables (hs : list (Q -> Q)) (dy : list Q) (orders : list nat) (rh : bool).
Notation C := (model_components hs dy orders rh).
Notation n := (length dy).
Lemma component_length i : i < length C -> length (nth i C []) = n.
Proof.
  intro I. assert (H : In (nth i C []) C) by (apply nth_In; exact I). revert H. generalize (nth i C []). intros c H. unfold model_components in H. destruct H as [<-|H]; [apply map_length|].
  apply in_app_or in H. destruct H as [H|H].
  - apply in_map_iff in H. destruct H as (o & <- & _). apply map_length.
  - destruct rh; [|destruct H]. apply in_map_iff in H. destruct H as (o & <- & _). apply map_length.
Qed.
Lemma first_row t : t < n -> entry (centred C) 0 t = 1%Q.
Proof. intro T. unfold entry, model_components, centred. cbn [nth]. rewrite (nth_map_gen _ _ _ 0%Q) by exact T. reflexivity. Qed.
Lemma component0 t : t < n -> nth t (nth 0 C []) 0%Q = 1%Q.
Proof. intro T. unfold model_components. cbn [nth]. rewrite (nth_map_gen _ dy t 0%Q) by exact T. reflexivity. Qed.
Lemma other_row i t : 0 < i -> i < length C -> t < n -> (entry (centred C) i t == nth t (nth i C []) 0 - mean (nth i C []))%Q.
Proof.
  intros I0 I T. destruct i as [|i]; [lia|]. assert (Lc := component_length (S i) I).
  rewrite centred_nth by exact I. rewrite nth_map2; [|lia|rewrite (component_length 0) by (cbn; lia); exact T].
  cbn [fst snd]. unfold model_components at 3. cbn [nth]. rewrite (nth_map_gen _ dy t 0%Q) by exact T. ring.
Qed.

Variable P : matrix.
Hypothesis pinv : pseudo_inverse (length (centred C)) n (entry (centred C)) (entry P).

Lemma residual_sum x : length x = n -> (sm n (fun t => nth t (residual (centred C) P x) 0) == 0)%Q.
Proof.
  intro L. rewrite <- (residual_row (centred C) P n pinv 0 x L ltac:(rewrite centred_length; cbn; lia)). apply sm_ext. intros t T. rewrite first_row by exact T. ring.
Qed.
Lemma residual_component i x : length x = n -> i < length C -> (sm n (fun t => nth t (nth i C []) 0 * nth t (residual (centred C) P x) 0) == 0)%Q.
Proof.
  intros L I. destruct i as [|i].
  - rewrite <- (residual_sum x L). apply sm_ext. intros t T. unfold model_components. cbn [nth]. rewrite (nth_map_gen _ dy t 0%Q) by exact T. ring.
  - assert (R := residual_row (centred C) P n pinv (S i) x L ltac:(rewrite centred_length; exact I)).
    rewrite (sm_ext n _ (fun t => nth t (nth (S i) C []) 0 * nth t (residual (centred C) P x) 0 - mean (nth (S i) C []) * nth t (residual (centred C) P x) 0)%Q) in R.
    + rewrite sm_minus, sm_scale, residual_sum in R by exact L. lra.
    + intros t T. rewrite other_row by (auto; lia). ring.
Qed.
Lemma fit_component i t : i < length C -> t < n ->
  (sm n (fun s => product (length (centred C)) (entry P) (entry (centred C)) s t * nth s (nth i C []) 0) == nth t (nth i C []) 0)%Q.
Proof.
  intros I T.
  assert (One : (sm n (fun s => product (length (centred C)) (entry P) (entry (centred C)) s t) == 1)%Q).
  { rewrite <- (first_row t T). rewrite <- (fit_row (centred C) P n pinv 0 t ltac:(rewrite centred_length; cbn; lia) T). apply sm_ext. intros s S0. rewrite first_row by exact S0. ring. }
  destruct i as [|i].
  - rewrite (component0 t T). rewrite <- One. apply sm_ext. intros s S0. rewrite (component0 s S0). ring.
  - assert (R := fit_row (centred C) P n pinv (S i) t ltac:(rewrite centred_length; exact I) T).
    rewrite other_row in R by (auto; lia).
    rewrite (sm_ext n _ (fun s => product (length (centred C)) (entry P) (entry (centred C)) s t * nth s (nth (S i) C []) 0 - product (length (centred C)) (entry P) (entry (centred C)) s t * mean (nth (S i) C []))%Q) in R.
    + rewrite sm_minus, sm_scale_r, One in R. lra.
    + intros s S0. rewrite other_row by (auto; lia). ring.
Qed.
End Centred.

Lemma zero_mean_nth r t : t < length r -> (sumQ r == 0)%Q -> (nth t (zero_mean r) 0 == nth t r 0)%Q.
Proof. intros T Z0. unfold zero_mean. rewrite (nth_map_gen _ r t 0%Q) by exact T. unfold mean. rewrite Z0. unfold Qdiv. ring. Qed.
Lemma detrend_length pinv hs dy orders rh fz x : length (detrend_values pinv hs dy orders rh fz x) = length x.
Proof. unfold detrend_values. destruct fz; [unfold zero_mean; rewrite map_length|]; apply residual_length. Qed.

Section Values.
Variables (pinv : matrix -> matrix) (hs : list (Q -> Q)) (dy : list Q) (orders : list nat) (rh : bool).
Notation C := (model_components hs dy orders rh).
Notation M := (centred C).
Notation n := (length dy).
Hypothesis pinv_spec : pseudo_inverse (length M) n (entry M) (entry (pinv M)).

Lemma residual_sumQ x : length x = n -> (sumQ (residual M (pinv M) x) == 0)%Q.
Proof. intro L. rewrite sumQ_nth, residual_length, L. apply residual_sum; assumption. Qed.
Lemma detrend_residual fz x t : length x = n -> t < n -> (nth t (detrend_values pinv hs dy orders rh fz x) 0 == nth t (residual M (pinv M) x) 0)%Q.
Proof.
  intros L T. unfold detrend_values. destruct fz; [|reflexivity]. apply zero_mean_nth; [rewrite residual_length; lia|]. apply residual_sumQ. exact L.
Qed.
Lemma detrend_component fz x i : length x = n -> i < length C -> (sm n (fun t => nth t (nth i C []) 0 * nth t (detrend_values pinv hs dy orders rh fz x) 0) == 0)%Q.
Proof. intros L I. rewrite <- (residual_component hs dy orders rh (pinv M) pinv_spec i x L I). apply sm_ext. intros t T. rewrite detrend_residual by assumption. reflexivity. Qed.
Lemma detrend_row fz x i : length x = n -> i < length M -> (sm n (fun t => entry M i t * nth t (detrend_values pinv hs dy orders rh fz x) 0) == 0)%Q.
Proof. intros L I. rewrite <- (residual_row M (pinv M) n pinv_spec i x L I). apply sm_ext. intros t T. rewrite detrend_residual by assumption. reflexivity. Qed.
Lemma detrend_twice fz fz' x t : length x = n -> t < n ->
  (nth t (detrend_values pinv hs dy orders rh fz' (detrend_values pinv hs dy orders rh fz x)) 0 == nth t (detrend_values pinv hs dy orders rh fz x) 0)%Q.
Proof.
  intros L T. rewrite detrend_residual by (rewrite ?detrend_length; assumption).
  apply (residual_orthogonal_fixed M (pinv M) n pinv_spec); [rewrite detrend_length; exact L| |exact T]. intros i I. apply detrend_row; assumption.
Qed.
Lemma detrend_add fz x y (coeff : nat -> Q) t : length x = n -> length y = n -> t < n ->
  (forall s, s < n -> (nth s y 0 == nth s x 0 + sm (length C) (fun i => coeff i * nth s (nth i C []) 0))%Q) ->
  (nth t (detrend_values pinv hs dy orders rh fz y) 0 == nth t (detrend_values pinv hs dy orders rh fz x) 0)%Q.
Proof.
  intros Lx Ly T E. rewrite !detrend_residual by assumption. apply (residual_add M (pinv M) n x y (fun s => sm (length C) (fun i => coeff i * nth s (nth i C []) 0%Q)%Q)); auto.
  intros u U. rewrite (sm_ext n _ (fun s => sm (length C) (fun i => coeff i * (product (length M) (entry (pinv M)) (entry M) s u * nth s (nth i C []) 0)))%Q).
  2: { intros s S0. rewrite <- sm_scale. apply sm_ext. intros; ring. }
  rewrite sm_swap. apply sm_ext. intros i I. rewrite sm_scale. rewrite fit_component by assumption. reflexivity.
Qed.
End Values.

(** Missing values. *)
Lemma detrend_missing pinv hs dy orders rh fz data : existsb (fun v => match v with None => true | Some _ => false end) data = true ->
  detrend pinv hs dy orders rh fz data = map (fun _ => None) data.
Proof.
  intro E. unfold detrend. destruct (forallb _ data) eqn:F; [exfalso|reflexivity].
  apply existsb_exists in E. destruct E as (v & I & N). rewrite forallb_forall in F. specialize (F v I). destruct v; discriminate.
Qed.
Lemma present_map_some (x : list Q) : present (map Some x) = x.
Proof. induction x as [|a x IH]; [reflexivity|]. unfold present in *. cbn. rewrite IH. reflexivity. Qed.
Lemma detrend_complete pinv hs dy orders rh fz x : detrend pinv hs dy orders rh fz (map Some x) = map Some (detrend_values pinv hs dy orders rh fz x).
Proof.
  unfold detrend. rewrite present_map_some.
  assert (F : forallb (fun v : option Q => match v with Some _ => true | None => false end) (map Some x) = true).
  { apply forallb_forall. intros v I. apply in_map_iff in I. destruct I as (a & <- & _). reflexivity. }
  rewrite F. reflexivity.
Qed.

(** Decimal years. *)
Ltac Zify.zify_post_hook ::= Z.div_mod_to_equations.
Lemma duration_days y : (days_before (y + 1) = days_before y + year_duration y)%Z.
Proof.
  unfold days_before, year_duration, leap.
  destruct (Z.eqb_spec (y mod 4) 0), (Z.eqb_spec (y mod 100) 0), (Z.eqb_spec (y mod 400) 0); cbn [andb orb negb]; lia.
Qed.
Lemma days_before_mono a b : (a <= b -> days_before a <= days_before b)%Z.
Proof. unfold days_before. intro. lia. Qed.
Ltac Zify.zify_post_hook ::= idtac.
Lemma duration_pos y : (0 < inject_Z (year_duration y))%Q.
Proof. unfold year_duration. destruct (leap y); reflexivity. Qed.
Lemma decimal_bounds y e : (0 <= e < year_duration y)%Z -> (inject_Z y <= decimal_year y e)%Q /\ (decimal_year y e < inject_Z (y + 1))%Q.
Proof.
  intros [A B]. assert (D := duration_pos y). unfold decimal_year. rewrite inject_Z_plus. change (inject_Z 1) with 1%Q.
  assert (0 <= inject_Z e / inject_Z (year_duration y))%Q. { apply Qle_shift_div_l; [exact D|]. rewrite Qmult_0_l. change 0%Q with (inject_Z 0). rewrite <- Zle_Qle. exact A. }
  assert (inject_Z e / inject_Z (year_duration y) < 1)%Q. { apply Qlt_shift_div_r; [exact D|]. rewrite Qmult_1_l. rewrite <- Zlt_Qlt. exact B. }
  split; lra.
Qed.
Lemma decimal_lt y1 e1 y2 e2 : (0 <= e1 < year_duration y1)%Z -> (0 <= e2 < year_duration y2)%Z ->
  ((decimal_year y1 e1 < decimal_year y2 e2)%Q <-> (days_before y1 + e1 < days_before y2 + e2)%Z).
Proof.
  intros H1 H2. destruct (decimal_bounds _ _ H1) as [A1 B1]. destruct (decimal_bounds _ _ H2) as [A2 B2].
  destruct (Z.lt_trichotomy y1 y2) as [L|[E|L]].
  - assert (G : (inject_Z (y1 + 1) <= inject_Z y2)%Q) by (rewrite <- Zle_Qle; lia). split; intros _; [|lra].
    assert (D := duration_days y1). assert (D2 := days_before_mono (y1 + 1) y2 ltac:(lia)). lia.
  - subst y2. assert (D := duration_pos y1). unfold decimal_year. split; intro H.
    + assert (X : (inject_Z e1 / inject_Z (year_duration y1) < inject_Z e2 / inject_Z (year_duration y1))%Q) by lra.
      apply (Qmult_lt_r _ _ (inject_Z (year_duration y1)) D) in X. unfold Qdiv in X. rewrite <- !Qmult_assoc, (Qmult_comm (/ _)), Qmult_inv_r, !Qmult_1_r in X by (intro Z0; rewrite Z0 in D; apply (Qlt_irrefl _ D)).
      rewrite <- Zlt_Qlt in X. lia.
    + assert (X : (inject_Z e1 < inject_Z e2)%Q) by (rewrite <- Zlt_Qlt; lia).
      assert (Y : (inject_Z e1 / inject_Z (year_duration y1) < inject_Z e2 / inject_Z (year_duration y1))%Q).
      { unfold Qdiv. apply Qmult_lt_r; [apply Qinv_lt_0_compat; exact D|exact X]. }
      lra.
  - assert (G : (inject_Z (y2 + 1) <= inject_Z y1)%Q) by (rewrite <- Zle_Qle; lia). split; intro H; [lra|exfalso].
    assert (D := duration_days y2). assert (D2 := days_before_mono (y2 + 1) y1 ltac:(lia)). lia.
Qed.
Lemma decimal_inj y1 e1 y2 e2 : (0 <= e1 < year_duration y1)%Z -> (0 <= e2 < year_duration y2)%Z ->
  ((decimal_year y1 e1 == decimal_year y2 e2)%Q <-> (y1 = y2 /\ e1 = e2)).
Proof.
  intros H1 H2. split; [|intros [-> ->]; reflexivity]. intro E.
  assert (N1 : ~ (days_before y1 + e1 < days_before y2 + e2)%Z) by (intro X; apply (decimal_lt _ _ _ _ H1 H2) in X; lra).
  assert (N2 : ~ (days_before y2 + e2 < days_before y1 + e1)%Z) by (intro X; apply (decimal_lt _ _ _ _ H2 H1) in X; lra).
  destruct (decimal_bounds _ _ H1) as [A1 B1]. destruct (decimal_bounds _ _ H2) as [A2 B2].
  assert (y1 = y2).
  { destruct (Z.lt_trichotomy y1 y2) as [L|[X|L]]; [exfalso|exact X|exfalso].
    - assert (G : (inject_Z (y1 + 1) <= inject_Z y2)%Q) by (rewrite <- Zle_Qle; lia). lra.
    - assert (G : (inject_Z (y2 + 1) <= inject_Z y1)%Q) by (rewrite <- Zle_Qle; lia). lra. }
  subst y2. split; [reflexivity|lia].
Qed.

(** The table of standard deviations. *)
Lemma firstn_skipn_nth {A} (d : A) a b l i : i < a -> nth i (firstn a (skipn b l)) d = nth (b + i) l d.
Proof.
  intro I. rewrite nth_firstn_lt by exact I. revert l. induction b as [|b IH]; intro l; [reflexivity|]. destruct l as [|x l]; [destruct i; reflexivity|]. cbn. apply IH.
Qed.
Lemma wrap_pad_length {A} (d : A) k l : length (wrap_pad d k l) = length l + 2 * k.
Proof. unfold wrap_pad. rewrite map_length, seq_length. reflexivity. Qed.
Lemma wrap_pad_nth {A} (d : A) k l i : i < length l + 2 * k -> nth i (wrap_pad d k l) d = nth (wrap_index (length l) k i) l d.
Proof. intro I. unfold wrap_pad. rewrite (nth_map_gen _ _ _ 0) by (rewrite seq_length; exact I). rewrite seq_nth by exact I. reflexivity. Qed.
Lemma std_table_nth doys data i : 0 < length (days_present doys) -> i < 366 -> i < length (days_present doys) + 16 ->
  nth i (std_table doys data) (0, None) =
  (nth (wrap_index (length (days_present doys)) 0 i) (days_present doys) 0,
   nth (16 + i) (rolling_mean 30 (wrap_pad None 16 (map (day_variance doys data) (days_present doys)))) None).
Proof.
  intros Mp I J. unfold std_table. rewrite firstn_skipn_nth by exact I.
  rewrite combine_nth by (rewrite rolling_mean_length, !wrap_pad_length, map_length; reflexivity).
  f_equal. rewrite wrap_pad_nth by lia. unfold wrap_index. do 3 f_equal. lia.
Qed.
Lemma std_table_length doys data : length (std_table doys data) = Nat.min 366 (length (days_present doys) + 16).
Proof. unfold std_table. rewrite firstn_length, skipn_length, combine_length, rolling_mean_length, !wrap_pad_length, map_length. lia. Qed.

Lemma duplicate_labels doys data : 0 < length (days_present doys) < 366 ->
  exists i j, i < j < length (std_table doys data) /\ fst (nth i (std_table doys data) (0, None)) = fst (nth j (std_table doys data) (0, None)).
Proof.
  intros [A B]. exists 0, (length (days_present doys)). split; [rewrite std_table_length; lia|].
  rewrite !std_table_nth by lia. cbn [fst]. f_equal. unfold wrap_index. f_equal. rewrite !Z.sub_0_r. rewrite Z_mod_same_full. apply Z.mod_0_l. lia.
Qed.
Lemma days_present_In doys d : In d (days_present doys) <-> 1 <= d <= 366 /\ In d doys.
Proof.
  unfold days_present. rewrite filter_In, in_seq, existsb_exists. split.
  - intros [A (x & I & E)]. apply Nat.eqb_eq in E. subst x. split; [lia|exact I].
  - intros [A I]. split; [lia|]. exists d. split; [exact I|apply Nat.eqb_refl].
Qed.
Lemma filter_all {A} (P : A -> bool) l : (forall x, In x l -> P x = true) -> filter P l = l.
Proof. induction l as [|x l IH]; intro H; [reflexivity|]. cbn. rewrite (H x), IH; auto; [intros; apply H; right; assumption|left; reflexivity]. Qed.
Lemma filter_short {A} (P : A -> bool) l x : In x l -> P x = false -> length (filter P l) < length l.
Proof.
  assert (G : forall l, length (filter P l) <= length l) by (induction l0 as [|y l0 IH0]; cbn; [lia|]; destruct (P y); cbn; lia).
  induction l as [|y l IH]; intros I F; [destruct I|]. cbn. destruct I as [->|I]; [rewrite F; specialize (G l); lia|]. specialize (IH I F). destruct (P y); cbn; lia.
Qed.
Lemma days_all doys : (forall d, 1 <= d <= 366 -> In d doys) -> days_present doys = seq 1 366.
Proof.
  intro H. unfold days_present. apply filter_all. intros d I. apply in_seq in I. apply existsb_exists. exists d. split; [apply H; lia|apply Nat.eqb_refl].
Qed.

Lemma variance_spec l : present l <> [] -> exists v, variance l = Some v /\ variance_of (present l) v.
Proof.
  intro Ne. unfold variance. assert (M := nanmean_mean l). destruct (nanmean l) as [m|]; [|contradiction]. destruct M as [_ M].
  set (sq := map (fun v => match v with Some x => Some ((x - m) * (x - m))%Q | None => None end) l).
  assert (Ps : present sq = map (fun x => (x - m) * (x - m))%Q (present l)).
  { unfold sq. clear. induction l as [|[x|] l IH]; [reflexivity| |exact IH]. unfold present in *. cbn in *. rewrite IH. reflexivity. }
  assert (M2 := nanmean_mean sq). rewrite Ps in M2. destruct (nanmean sq) as [v|].
  - exists v. split; [reflexivity|]. destruct M2 as [_ M2]. rewrite map_length in M2. split; [exact Ne|]. exists m. split; [exact M|exact M2].
  - cbn in M2. destruct (present l); [congruence|discriminate].
Qed.
Lemma day_variance_samples doys (data : list (option Q)) d : length doys = length data ->
  day_variance doys data d = variance (map (fun i => nth i data None) (filter (fun i => Nat.eqb (nth i doys 0) d) (seq 0 (length data)))).
Proof. intro L. unfold day_variance. rewrite combine_nth_lists by exact L. rewrite filter_map_comm, map_map. reflexivity. Qed.

Lemma std_value doys data d : length doys = length data ->
  (forall d, 1 <= d <= 366 -> samples data (fun i => Nat.eqb (nth i doys 0) d) <> []) -> 1 <= d <= 366 ->
  exists v vars, nth (d - 1) (std_table doys data) (0, None) = (d, Some v) /\
    (forall e, 1 <= e <= 366 -> variance_of (samples data (fun i => Nat.eqb (nth i doys 0) e)) (vars e)) /\
    (v * 30 == sm 30 (fun k => vars (1 + (d + 350 + k) mod 366)%nat))%Q.
Proof.
  intros L Hd D.
  assert (All : days_present doys = seq 1 366).
  { apply days_all. intros e E. specialize (Hd e E). destruct (samples data (fun i => Nat.eqb (nth i doys 0) e)) as [|x l] eqn:S0; [congruence|].
    assert (I : In x (samples data (fun i => Nat.eqb (nth i doys 0) e))) by (rewrite S0; left; reflexivity).
    unfold samples in I. apply in_flat_map in I. destruct I as (i & I & J). apply in_seq in I. destruct (Nat.eqb_spec (nth i doys 0) e) as [<-|]; [|destruct J]. apply nth_In. lia. }
  assert (V : forall e, 1 <= e <= 366 -> exists v, day_variance doys data e = Some v /\ variance_of (samples data (fun i => Nat.eqb (nth i doys 0) e)) v).
  { intros e E. rewrite day_variance_samples by exact L. rewrite <- present_samples. apply variance_spec. rewrite present_samples. apply Hd. exact E. }
  set (vars := fun e => match day_variance doys data e with Some v => v | None => 0%Q end).
  assert (Vs : forall e, 1 <= e <= 366 -> day_variance doys data e = Some (vars e)) by (intros e E; destruct (V e E) as (v & Ev & _); unfold vars; rewrite Ev; reflexivity).
  assert (Pd : forall i, i < 398 -> nth i (wrap_pad None 16 (map (day_variance doys data) (days_present doys))) None = Some (vars (1 + (i + 350) mod 366))).
  { intros i I. rewrite wrap_pad_nth by (rewrite map_length, All, seq_length; lia). rewrite map_length, All, seq_length.
    assert (W : wrap_index 366 16 i = (i + 350) mod 366).
    { unfold wrap_index. apply Nat2Z.inj. rewrite Z2Nat.id by (apply Z.mod_pos_bound; lia). rewrite Nat2Z.inj_mod. rewrite Nat2Z.inj_add.
      change (Z.of_nat 16) with 16%Z. change (Z.of_nat 350) with 350%Z. change (Z.of_nat 366) with 366%Z.
      replace (Z.of_nat i + 350)%Z with (Z.of_nat i - 16 + 1 * 366)%Z by lia. rewrite Z_mod_plus_full. reflexivity. }
    rewrite W. assert (B := Nat.mod_upper_bound (i + 350) 366 ltac:(lia)). rewrite (nth_map_gen _ (seq 1 366) _ 0) by (rewrite seq_length; exact B).
    rewrite seq_nth by exact B. apply Vs. lia. }
  exists (sumQ (map (fun k => vars (1 + (d + 350 + k) mod 366)%nat) (seq 0 30)) / natQ 30)%Q, vars.
  split; [|split].
  - assert (L366 : length (days_present doys) = 366) by (rewrite All, seq_length; reflexivity).
    rewrite std_table_nth by (rewrite ?L366; lia). f_equal.
    + rewrite L366, All. unfold wrap_index. rewrite Z.sub_0_r. change (Z.of_nat 366) with 366%Z. rewrite Z.mod_small by lia. rewrite Nat2Z.id. rewrite seq_nth by lia. lia.
    + rewrite rolling_mean_nth by (rewrite wrap_pad_length, map_length, L366; lia). rewrite wrap_pad_length, map_length, L366.
      change (30 / 2) with 15. destruct (Nat.leb_spec 15 (16 + (d - 1))); [|lia]. destruct (Nat.ltb_spec (16 + (d - 1) + (30 - 1 - 15)) (366 + 2 * 16)); [|lia]. cbn [andb]. cbv zeta.
      assert (Ew : map (fun k => nth (16 + (d - 1) - 15 + k) (wrap_pad None 16 (map (day_variance doys data) (days_present doys))) None) (seq 0 30) =
                   map Some (map (fun k => vars (1 + (d + 350 + k) mod 366)) (seq 0 30))).
      { rewrite map_map. apply map_ext_in. intros k K. apply in_seq in K. rewrite Pd by lia. do 4 f_equal. lia. }
      rewrite Ew. rewrite present_map_some.
      assert (F : forallb (fun v : option Q => match v with Some _ => true | None => false end) (map Some (map (fun k => vars (1 + (d + 350 + k) mod 366)) (seq 0 30))) = true).
      { apply forallb_forall. intros v I. apply in_map_iff in I. destruct I as (a & <- & _). reflexivity. }
      rewrite F. reflexivity.
  - intros e E. destruct (V e E) as (v & Ev & Hv). unfold vars. rewrite Ev. exact Hv.
  - rewrite sumQ_sm. change (natQ 30) with 30%Q. field.
Qed.

Lemma power_powQ x n : power x n = powQ x n.
Proof. induction n as [|n IH]; [reflexivity|]. cbn. rewrite IH. reflexivity. Qed.
Lemma powQ_comp a b n : (a == b)%Q -> (powQ a n == powQ b n)%Q.
Proof. intro E. induction n as [|n IH]; [reflexivity|]. cbn. rewrite IH, E. reflexivity. Qed.
Lemma trend_component hs dy orders rh o : In o orders -> exists i, i < length (model_components hs dy orders rh) /\
  nth i (model_components hs dy orders rh) [] = map (fun y => powQ (y - mean dy) o) dy.
Proof.
  intro I. assert (J : In (map (fun y => powQ (y - mean dy) o) dy) (model_components hs dy orders rh)).
  { right. apply in_or_app. left. apply (in_map (fun o => map (fun y => powQ (y - mean dy) o) dy)). exact I. }
  apply (In_nth _ _ []) in J. destruct J as (i & A & B). exists i. split; assumption.
Qed.
Lemma harmonic_component hs dy orders h : In h hs -> exists i, i < length (model_components hs dy orders true) /\
  nth i (model_components hs dy orders true) [] = map h dy.
Proof.
  intro I. assert (J : In (map h dy) (model_components hs dy orders true)).
  { right. apply in_or_app. right. apply (in_map (fun h => map h dy)). exact I. }
  apply (In_nth _ _ []) in J. destruct J as (i & A & B). exists i. split; assumption.
Qed.
Lemma sm_nonneg n f : (forall k, k < n -> (0 <= f k)%Q) -> (0 <= sm n f)%Q.
Proof. induction n as [|n IH]; intro H; cbn [sm]; [lra|]. assert (A := IH (fun k K => H k (Nat.lt_lt_succ_r _ _ K))). assert (B := H n (Nat.lt_succ_diag_r n)). lra. Qed.

Lemma least_squares pinv hs dy orders rh fz x y (coeff : nat -> Q) :
  pseudo_inverse (length (centred (model_components hs dy orders rh))) (length dy) (entry (centred (model_components hs dy orders rh))) (entry (pinv (centred (model_components hs dy orders rh)))) ->
  length x = length dy -> length y = length dy ->
  (forall s, s < length dy -> (nth s y 0 == nth s x 0 + sm (length (model_components hs dy orders rh)) (fun i => coeff i * nth s (nth i (model_components hs dy orders rh) []) 0))%Q) ->
  (sm (length dy) (fun t => nth t (detrend_values pinv hs dy orders rh fz x) 0 * nth t (detrend_values pinv hs dy orders rh fz x) 0)
   <= sm (length dy) (fun t => nth t y 0 * nth t y 0))%Q.
Proof.
  intros Pi Lx Ly E. set (C := model_components hs dy orders rh) in *. set (M := centred C) in *. set (r := detrend_values pinv hs dy orders rh fz x).
  assert (R : forall t, t < length dy -> (nth t y 0 == nth t r 0 + fitted M (pinv M) y t)%Q).
  { intros t T. assert (A := detrend_add pinv hs dy orders rh Pi fz x y coeff t Lx Ly T E). fold r in A. rewrite <- A.
    rewrite (detrend_residual pinv hs dy orders rh Pi fz y t Ly T). unfold residual. rewrite (nth_map_gen _ _ _ 0%nat) by (rewrite seq_length; lia). rewrite seq_nth by lia. cbn [plus]. unfold M, C. ring. }
  assert (O : (sm (length dy) (fun t => nth t r 0 * fitted M (pinv M) y t) == 0)%Q).
  { rewrite (sm_ext _ _ (fun t => sm (length M) (fun j => coefficient (pinv M) y j * (entry M j t * nth t r 0)))%Q).
    - rewrite sm_swap. rewrite (sm_ext _ _ (fun _ => 0%Q)); [apply sm_zero|]. intros j J. rewrite sm_scale. assert (D : (sm (length dy) (fun t => entry M j t * nth t r 0) == 0)%Q) by exact (detrend_row pinv hs dy orders rh Pi fz x j Lx J). rewrite D. ring.
    - intros t T. unfold fitted. rewrite sumQ_sm, <- sm_scale. apply sm_ext. intros; ring. }
  rewrite (sm_ext _ (fun t => nth t y 0 * nth t y 0)%Q (fun t => nth t r 0 * nth t r 0 + (2 * (nth t r 0 * fitted M (pinv M) y t) + fitted M (pinv M) y t * fitted M (pinv M) y t))%Q).
  - rewrite !sm_plus, sm_scale, O. assert (N := sm_nonneg (length dy) (fun t => fitted M (pinv M) y t * fitted M (pinv M) y t)%Q).
    assert (0 <= sm (length dy) (fun t => fitted M (pinv M) y t * fitted M (pinv M) y t))%Q by (apply N; intros; nra). lra.
  - intros t T. rewrite (R t T). ring.
Qed.
Lemma nth_all_none {A} (l : list A) t : nth t (map (fun _ => @None Q) l) None = None.
Proof. revert t. induction l as [|x l IH]; intros [|t]; cbn; auto. Qed.
Lemma sm_indicator n i c g : i < n -> (sm n (fun k => (if Nat.eqb k i then c else 0) * g k) == c * g i)%Q.
Proof.
  induction n as [|n IH]; intro I; [lia|]. cbn [sm]. destruct (Nat.eq_dec i n) as [->|N].
  - rewrite Nat.eqb_refl. rewrite (sm_ext n _ (fun _ => 0%Q)); [rewrite sm_zero; ring|]. intros k K. destruct (Nat.eqb_spec k n); [lia|]. ring.
  - rewrite IH by lia. destruct (Nat.eqb_spec n i); [lia|]. ring.
Qed.
Lemma duration_nz y : ~ (inject_Z (year_duration y) == 0)%Q.
Proof. intro E. assert (D := duration_pos y). rewrite E in D. apply (Qlt_irrefl _ D). Qed.
