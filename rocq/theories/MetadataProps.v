(** Property theorems C144 and C145: the attributes and chunks of the dataset returned
    by preprocess_data. *)
From Coq Require Import String Ascii Decimal DecimalString DecimalZ.
From Verif Require Import Base Filter Overlap Partition Detect DetectProofs DetectProps Climatology Detrend Histogram DetectRun DetectRunProofs DetectRunProps Standardised StandardisedProps Chunks Metadata.
Open Scope string_scope.
Open Scope list_scope.
Open Scope nat_scope.

(** ** Printing is injective *)

Lemma to_int_pos_not_nil z : Z.to_int z <> Pos Nil /\ Z.to_int z <> Neg Nil.
Proof.
  assert (N : forall p, Pos.to_uint p <> Nil).
  { intros p E. assert (H := DecimalPos.Unsigned.of_to p). rewrite E in H. discriminate. }
  destruct z as [|p|p]; cbn [Z.to_int].
  - split; discriminate.
  - split; [|discriminate]. intro E. injection E as E. exact (N p E).
  - split; [discriminate|]. intro E. injection E as E. exact (N p E).
Qed.
Lemma show_inj a b : show a = show b -> a = b.
Proof.
  unfold show. intro E. destruct (to_int_pos_not_nil a) as [A1 A2]. destruct (to_int_pos_not_nil b) as [B1 B2].
  assert (H : Some (Z.to_int a) = Some (Z.to_int b)) by (rewrite <- (NilZero.isi _ A1 A2), <- (NilZero.isi _ B1 B2), E; reflexivity).
  rewrite <- (of_to a), <- (of_to b). congruence.
Qed.
Lemma append_inj_l a b c : (a ++ b)%string = (a ++ c)%string -> b = c.
Proof. induction a as [|x a IH]; cbn; intro E; [exact E|]. injection E as E. exact (IH E). Qed.
Lemma append_length a b : String.length (a ++ b)%string = String.length a + String.length b.
Proof. induction a as [|x a IH]; cbn; [reflexivity|]. rewrite IH. reflexivity. Qed.
Lemma append_inj_r a : forall b c, (b ++ a)%string = (c ++ a)%string -> b = c.
Proof.
  intros b. induction b as [|x b IH]; intros [|y c] E; cbn in E; try reflexivity.
  - apply (f_equal String.length) in E. cbn in E. rewrite append_length in E. lia.
  - apply (f_equal String.length) in E. cbn in E. rewrite append_length in E. lia.
  - injection E as -> E. rewrite (IH c E). reflexivity.
Qed.

(** ** C144 *)

Lemma spatial_from_steps a b : a_method a = "hobday_extreme" -> a_method b = "hobday_extreme" -> a_days a = a_days b ->
  extreme_steps a = extreme_steps b -> a_spatial a = a_spatial b.
Proof.
  unfold extreme_steps. intros Ma Mb D. rewrite Ma, Mb, D. change (String.eqb "hobday_extreme" "global_extreme") with false. change (String.eqb "hobday_extreme" "hobday_extreme") with true. cbv iota.
  destruct (a_spatial a) as [u|], (a_spatial b) as [v|]; intro E; [| | |reflexivity].
  - apply (f_equal (fun l => hd "" l)) in E. cbn [hd] in E. do 3 apply append_inj_l in E. apply append_inj_r in E. apply show_inj in E. congruence.
  - apply (f_equal (fun l => hd "" l)) in E. cbn [hd] in E. do 2 apply append_inj_l in E. discriminate.
  - apply (f_equal (fun l => hd "" l)) in E. cbn [hd] in E. do 2 apply append_inj_l in E. discriminate.
Qed.

(** What equal attributes say about the parameters. *)
Definition same_parameters (s1 s2 : settings) (std1 std2 : bool) (p1 p2 : pre_args) : Prop :=
  p_method p1 = p_method p2 /\
  (p_method p1 = "detrend_harmonic" -> orders_of p1 = orders_of p2 /\ s_zero_mean s1 = s_zero_mean s2 /\ std1 = std2) /\
  (p_method p1 = "detrend_fixed_baseline" -> orders_of p1 = orders_of p2 /\ s_zero_mean s1 = s_zero_mean s2) /\
  (p_method p1 = "shifting_baseline" -> p_window p1 = p_window p2 /\ s_smooth s1 = s_smooth s2) /\
  let a := p_extreme p1 in let b := p_extreme p2 in
  a_method a = a_method b /\ a_percentile a = a_percentile b /\ a_method_percentile a = a_method_percentile b /\ a_precision a = a_precision b /\ a_max a = a_max b /\
  (a_method a = "hobday_extreme" -> a_days a = a_days b /\ a_spatial a = a_spatial b).

(** The attributes by name. *)
Lemma get_method s std p : get "method_anomaly" (attributes s std p) = Some (AStr (p_method p)).
Proof. unfold attributes, method_attrs. repeat step; reflexivity. Qed.
Lemma get_extreme s std p : get "method_extreme" (attributes s std p) = Some (AStr (a_method (p_extreme p))).
Proof. unfold attributes, method_attrs. repeat step; reflexivity. Qed.
Lemma get_percentile s std p : get "threshold_percentile" (attributes s std p) = Some (ANum (a_percentile (p_extreme p))).
Proof. unfold attributes, method_attrs. repeat step; reflexivity. Qed.
Lemma get_steps s std p : get "preprocessing_steps" (attributes s std p) = Some (ASteps (preprocessing_steps s std p)).
Proof. unfold attributes, method_attrs, common_attrs. set (st := preprocessing_steps s std p). clearbody st. repeat step; reflexivity. Qed.
Lemma get_method_percentile s std p : get "method_percentile" (attributes s std p) = Some (AStr (a_method_percentile (p_extreme p))).
Proof. unfold attributes, method_attrs. repeat step; reflexivity. Qed.
Lemma get_precision s std p : get "precision" (attributes s std p) = Some (ANum (a_precision (p_extreme p))).
Proof. unfold attributes, method_attrs. repeat step; reflexivity. Qed.
Lemma get_max s std p : get "max_anomaly" (attributes s std p) = Some (ANum (a_max (p_extreme p))).
Proof. unfold attributes, method_attrs. repeat step; reflexivity. Qed.
Lemma get_days s std p : get "window_days_hobday" (attributes s std p) = if String.eqb (a_method (p_extreme p)) "hobday_extreme" then Some (AInt (a_days (p_extreme p))) else None.
Proof. unfold attributes, method_attrs. repeat step; reflexivity. Qed.
Definition detrends (p : pre_args) : bool := String.eqb (p_method p) "detrend_harmonic" || String.eqb (p_method p) "detrend_fixed_baseline".
Lemma get_orders s std p : get "detrend_orders" (attributes s std p) = if detrends p then Some (AOrders (orders_of p)) else None.
Proof. unfold detrends, attributes, method_attrs. repeat step; try congruence; reflexivity. Qed.
Lemma get_zero_mean s std p : get "force_zero_mean" (attributes s std p) = if detrends p then Some (ABool (s_zero_mean s)) else None.
Proof. unfold detrends, attributes, method_attrs. repeat step; try congruence; reflexivity. Qed.
Lemma get_std s std p : get "std_normalise" (attributes s std p) = if String.eqb (p_method p) "detrend_harmonic" then Some (ABool std) else None.
Proof. unfold attributes, method_attrs. repeat step; reflexivity. Qed.
Lemma get_window s std p : get "window_year_baseline" (attributes s std p) = if String.eqb (p_method p) "shifting_baseline" then Some (AInt (Some (p_window p))) else None.
Proof. unfold attributes, method_attrs. repeat step; try congruence; reflexivity. Qed.
Lemma get_smooth s std p : get "smooth_days_baseline" (attributes s std p) = if String.eqb (p_method p) "shifting_baseline" then Some (AInt (Some (Z.of_nat (s_smooth s)))) else None.
Proof. unfold attributes, method_attrs. repeat step; try congruence; reflexivity. Qed.

Lemma attributes_parameters s1 s2 std1 std2 p1 p2 : attributes s1 std1 p1 = attributes s2 std2 p2 -> same_parameters s1 s2 std1 std2 p1 p2.
Proof.
  intro E.
  assert (E1 := f_equal (get "method_anomaly") E). rewrite !get_method in E1. assert (Em : p_method p1 = p_method p2) by congruence.
  assert (E2 := f_equal (get "method_extreme") E). rewrite !get_extreme in E2. assert (Ee : a_method (p_extreme p1) = a_method (p_extreme p2)) by congruence.
  assert (E3 := f_equal (get "threshold_percentile") E). rewrite !get_percentile in E3.
  assert (E4 := f_equal (get "method_percentile") E). rewrite !get_method_percentile in E4.
  assert (E5 := f_equal (get "precision") E). rewrite !get_precision in E5.
  assert (E6 := f_equal (get "max_anomaly") E). rewrite !get_max in E6.
  assert (E7 := f_equal (get "detrend_orders") E). rewrite !get_orders in E7.
  assert (E8 := f_equal (get "force_zero_mean") E). rewrite !get_zero_mean in E8.
  assert (E9 := f_equal (get "std_normalise") E). rewrite !get_std in E9.
  assert (E10 := f_equal (get "window_year_baseline") E). rewrite !get_window in E10.
  assert (E11 := f_equal (get "smooth_days_baseline") E). rewrite !get_smooth in E11.
  assert (E12 := f_equal (get "window_days_hobday") E). rewrite !get_days in E12.
  assert (E13 := f_equal (get "preprocessing_steps") E). rewrite !get_steps in E13.
  unfold detrends in *. rewrite <- Em, <- Ee in *. unfold same_parameters.
  split; [exact Em|]. split; [|split; [|split; [|]]].
  - intro M. rewrite M in E7, E8, E9. cbn in E7, E8, E9. split; [congruence|split; congruence].
  - intro M. rewrite M in E7, E8. cbn in E7, E8. split; congruence.
  - intro M. rewrite M in E10, E11. cbn [String.eqb Ascii.eqb Bool.eqb] in E10, E11. split; [congruence|].
    assert (Z.of_nat (s_smooth s1) = Z.of_nat (s_smooth s2)) by congruence. lia.
  - split; [exact Ee|]. split; [congruence|]. split; [congruence|]. split; [congruence|]. split; [congruence|].
    intro M. rewrite M in E12. change (String.eqb "hobday_extreme" "hobday_extreme") with true in E12. cbv iota in E12. assert (D : a_days (p_extreme p1) = a_days (p_extreme p2)) by congruence. split; [exact D|].
    apply spatial_from_steps; [exact M|congruence|exact D|].
    assert (P : preprocessing_steps s1 std1 p1 = preprocessing_steps s2 std2 p2) by congruence. apply (f_equal (fun l => [last l ""])) in P. unfold preprocessing_steps in P.
    assert (L : forall a l, a_method a = "hobday_extreme" -> [last (l ++ extreme_steps a) ""] = extreme_steps a).
    { intros a l H. unfold extreme_steps. rewrite H. change (String.eqb "hobday_extreme" "global_extreme") with false. change (String.eqb "hobday_extreme" "hobday_extreme") with true. cbv iota.
      destruct (a_spatial a); rewrite last_last; reflexivity. }
    rewrite !L in P by congruence. exact P.
Qed.

Section Identify.
Variables (root : Q -> Q) (pinv : matrix -> matrix) (hs : list (Q -> Q)) (dd dc : list string) (dask : bool) (ny nx : nat) (da : list (list value)) (cal : calendar).
Notation run s p := (preprocess_data pinv hs dd dc dask ny nx da cal s p).
Notation run_std s std p := (preprocess_std root pinv hs dd dc dask ny nx da cal s std p).

Lemma same_plan_extremes y a b pa pb : plan_extremes y a = Ok pa -> plan_extremes y b = Ok pb ->
  a_method a = a_method b -> a_percentile a = a_percentile b -> a_method_percentile a = a_method_percentile b -> a_precision a = a_precision b -> a_max a = a_max b ->
  (a_method a = "hobday_extreme" -> a_days a = a_days b /\ a_spatial a = a_spatial b) -> pa = pb.
Proof.
  intros Pa Pb Em Ep Ec Er Ex H. destruct a as [m1 p1 d1 sp1 c1 r1 x1], b as [m2 p2 d2 sp2 c2 r2 x2]. cbn [a_method a_percentile a_method_percentile a_precision a_max a_days a_spatial] in *. subst m2 p2 c2 r2 x2.
  destruct (String.eqb_spec m1 "hobday_extreme") as [M|M].
  - destruct (H M) as [-> ->]. congruence.
  - unfold plan_extremes in Pa, Pb. cbn [a_method a_percentile a_method_percentile a_precision a_max a_days a_spatial] in Pa, Pb.
    destruct (String.eqb_spec m1 "hobday_extreme") as [?|_]; [contradiction|]. cbn [andb negb] in Pa, Pb.
    repeat match type of Pa with (if ?e then Err _ else _) = Ok _ => destruct e; [discriminate|] end.
    repeat match type of Pb with (if ?e then Err _ else _) = Ok _ => destruct e; [discriminate|] end.
    destruct (String.eqb m1 "global_extreme"); [|discriminate]. congruence.
Qed.

Lemma same_run s1 s2 std1 std2 p1 p2 m1 k1 l1 m2 k2 l2 ds1 ds2 : p_dims p1 = p_dims p2 -> p_coords p1 = p_coords p2 -> same_parameters s1 s2 std1 std2 p1 p2 ->
  preprocess_plan dd dc dask (ny * nx) da (c_years cal) p1 = Ok (m1, k1, l1) -> preprocess_plan dd dc dask (ny * nx) da (c_years cal) p2 = Ok (m2, k2, l2) ->
  run s1 p1 = Ok ds1 -> run s2 p2 = Ok ds2 -> (m1, k1, l1) = (m2, k2, l2) /\ ds1 = ds2.
Proof.
  intros Ed Ec (Em & Hh & Hf & Hs & Ee & Ep & Eq & Er & Ex & Hb) P1 P2 R1 R2.
  assert (Pl : (m1, k1, l1) = (m2, k2, l2)).
  { unfold preprocess_plan in P1, P2. rewrite <- Ed, <- Ec in P2.
    destruct (infer_dims_coords dd dc (p_dims p1) (p_coords p1)) as [[dims0 coords0]|] eqn:I; [|discriminate]. cbn [lift_det bind fst snd] in P1, P2.
    destruct dask; [|discriminate]. cbn [negb] in P1, P2. destruct (validate_data_values (ny * nx) da); [|discriminate]. cbn [lift_data bind] in P1, P2.
    rewrite (C48_inference_is_idempotent _ _ _ _ _ _ I) in P1, P2. cbn [lift_det bind fst snd] in P1, P2. rewrite (C48_inference_is_idempotent _ _ _ _ _ _ I) in P1, P2. cbn [lift_det bind fst snd] in P1, P2.
    rewrite <- Em in P2. unfold anomaly_method in P1, P2. fold (orders_of p1) in P1. fold (orders_of p2) in P2.
    assert (Fin : forall (k : list bool) (m : anomaly) (pa pb : anomaly * list bool * plan), bind (lift_det (plan_extremes (has_name dims0 "y") (p_extreme p1))) (fun pl => Ok (m, k, pl)) = Ok pa ->
      bind (lift_det (plan_extremes (has_name dims0 "y") (p_extreme p2))) (fun pl => Ok (m, k, pl)) = Ok pb -> pa = pb).
    { intros k m pa pb Qa Qb. destruct (plan_extremes _ (p_extreme p1)) as [xa|] eqn:Xa; [|discriminate]. destruct (plan_extremes _ (p_extreme p2)) as [xb|] eqn:Xb; [|discriminate].
      cbn [lift_det bind] in Qa, Qb. assert (xa = xb) by (eapply same_plan_extremes; eassumption). congruence. }
    destruct (String.eqb_spec (p_method p1) "detrend_harmonic") as [M|M1].
    { destruct (Hh M) as (Eo & _). rewrite <- Eo in P2. destruct (match orders_of p1 with [] => true | _ => existsb (fun o => Z.ltb o 1) (orders_of p1) end); [discriminate|]. cbn [lift_det bind] in P1, P2. eapply Fin; eassumption. }
    destruct (String.eqb_spec (p_method p1) "shifting_baseline") as [M|M2].
    { destruct (Hs M) as (Ew & _). cbn [lift_det bind] in P1, P2. rewrite <- Ew in P2. destruct (trim (p_window p1) (c_years cal)) as [k|]; [|discriminate]. cbn [lift_det bind] in P1, P2. eapply Fin; eassumption. }
    destruct (String.eqb_spec (p_method p1) "fixed_baseline") as [M|M3]; [cbn [lift_det bind] in P1, P2; eapply Fin; eassumption|].
    destruct (String.eqb_spec (p_method p1) "detrend_fixed_baseline") as [M|M4]; [|discriminate].
    destruct (Hf M) as (Eo & _). rewrite <- Eo in P2. destruct (match orders_of p1 with [] => true | _ => existsb (fun o => Z.ltb o 1) (orders_of p1) end); [discriminate|]. cbn [lift_det bind] in P1, P2. eapply Fin; eassumption. }
  split; [exact Pl|].
  destruct (run_ok _ _ _ _ _ _ _ _ _ _ _ _ R1) as (m & keep & pl & dims & coords & thr & Q1 & I1 & _ & T1 & _ & _ & D1).
  destruct (run_ok _ _ _ _ _ _ _ _ _ _ _ _ R2) as (m' & keep' & pl' & dims' & coords' & thr' & Q2 & I2 & _ & T2 & _ & _ & D2).
  rewrite P1 in Q1. rewrite P2 in Q2. assert (m = m1 /\ keep = k1 /\ pl = l1) as (-> & -> & ->) by (split; [congruence|split; congruence]). assert (m' = m1 /\ keep' = k1 /\ pl' = l1) as (-> & -> & ->) by (split; [congruence|split; congruence]).
  rewrite <- Ed, <- Ec, I1 in I2. injection I2 as <- <-.
  destruct (C85_preprocess_checks_everything _ _ _ _ _ _ _ _ _ _ P1) as (_ & _ & _ & _ & _ & _ & _ & _ & Mm & _).
  fold (orders_of p1) in T1, D1. fold (orders_of p2) in T2, D2.
  destruct m1; cbn [anomaly_series] in *.
  - destruct Mm as [Mm _]. destruct (Hh Mm) as (Eo & Ez & _). rewrite <- Eo, <- Ez in *. assert (thr = thr') by congruence. subst thr'. congruence.
  - destruct (Hs Mm) as (Ew & Es). rewrite <- Ew, <- Es in *. assert (thr = thr') by congruence. subst thr'. congruence.
  - assert (thr = thr') by congruence. subst thr'. congruence.
  - destruct Mm as [Mm _]. destruct (Hf Mm) as (Eo & Ez). rewrite <- Eo, <- Ez in *. assert (thr = thr') by congruence. subst thr'. congruence.
Qed.

(** Two calls on the same array, with the same names of dimensions and coordinates,
    whose results carry the same attributes return the same dataset, standardised
    anomalies included: whatever other arguments differ had no effect. *)
Theorem C144_attributes_identify_the_result (s1 s2 : settings) (std1 std2 : bool) (p1 p2 : pre_args) r1 r2 :
  p_dims p1 = p_dims p2 -> p_coords p1 = p_coords p2 -> attributes s1 std1 p1 = attributes s2 std2 p2 ->
  run_std s1 std1 p1 = Ok r1 -> run_std s2 std2 p2 = Ok r2 -> r1 = r2.
Proof.
  intros Ed Ec Ea R1 R2. assert (Sp := attributes_parameters _ _ _ _ _ _ Ea). unfold preprocess_std in R1, R2.
  assert (In : forall s p r, in_run (run s p) = Ok r -> run s p = Ok r) by (intros s p r; destruct (run s p); cbn; congruence).
  assert (Plain : forall s p r (f : dataset -> result std_err (dataset * option standardised)), bind (in_run (run s p)) f = Ok r -> exists ds, run s p = Ok ds /\ f ds = Ok r).
  { intros s p r f. destruct (run s p) as [ds|]; cbn; [|discriminate]. eauto. }
  rewrite <- Ed, <- Ec in R2.
  destruct (preprocess_plan dd dc dask (ny * nx) da (c_years cal) p1) as [((m1 & k1) & l1)|e1] eqn:P1; [|apply Plain in R1; destruct R1 as (ds & R1 & _); unfold preprocess_data in R1; rewrite P1 in R1; discriminate].
  destruct (preprocess_plan dd dc dask (ny * nx) da (c_years cal) p2) as [((m2 & k2) & l2)|e2] eqn:P2; [|apply Plain in R2; destruct R2 as (ds & R2 & _); unfold preprocess_data in R2; rewrite P2 in R2; discriminate].
  destruct (infer_dims_coords dd dc (p_dims p1) (p_coords p1)) as [(dims & coords)|e] eqn:I.
  2: { assert (X : exists ds, run s1 p1 = Ok ds) by (destruct m1; apply Plain in R1; destruct R1 as (ds & R1 & _); eauto). destruct X as (ds & X). unfold preprocess_data in X. rewrite P1, I in X. discriminate. }
  assert (Pm : m1 = m2 /\ l1 = l2 /\ (m1 = ADetrend -> p_method p1 = "detrend_harmonic")).
  { assert (X1 : exists ds, run s1 p1 = Ok ds).
    { destruct m1; try (apply Plain in R1; destruct R1 as (ds & R1 & _); eauto; fail). destruct std1; [|apply Plain in R1; destruct R1 as (ds & R1 & _); eauto].
      destruct (c_doys cal); [discriminate|]. destruct (has_duplicates _); [discriminate|]. apply Plain in R1. destruct R1 as (ds & R1 & _). eauto. }
    assert (X2 : exists ds, run s2 p2 = Ok ds).
    { destruct m2; try (apply Plain in R2; destruct R2 as (ds & R2 & _); eauto; fail). destruct std2; [|apply Plain in R2; destruct R2 as (ds & R2 & _); eauto].
      destruct (c_doys cal); [discriminate|]. destruct (has_duplicates _); [discriminate|]. apply Plain in R2. destruct R2 as (ds & R2 & _). eauto. }
    destruct X1 as (d1 & X1), X2 as (d2 & X2). destruct (same_run _ _ _ _ _ _ _ _ _ _ _ _ _ _ Ed Ec Sp P1 P2 X1 X2) as [E _].
    split; [congruence|]. split; [congruence|]. intros ->. destruct (C85_preprocess_checks_everything _ _ _ _ _ _ _ _ _ _ P1) as (_ & _ & _ & _ & _ & _ & _ & _ & (Mm & _) & _). exact Mm. }
  destruct Pm as (<- & <- & Md).
  assert (Same : forall d1 d2, run s1 p1 = Ok d1 -> run s2 p2 = Ok d2 -> d1 = d2) by (intros d1 d2 X1 X2; exact (proj2 (same_run _ _ _ _ _ _ _ _ _ _ _ _ _ _ Ed Ec Sp P1 P2 X1 X2))).
  destruct m1.
  2-4: apply Plain in R1; apply Plain in R2; destruct R1 as (d1 & X1 & F1), R2 as (d2 & X2 & F2); rewrite (Same d1 d2 X1 X2) in F1; congruence.
  destruct Sp as (_ & Hh & _). destruct (Hh (Md eq_refl)) as (_ & _ & <-). destruct std1.
  - destruct (c_doys cal) as [|d0 doys]; [discriminate|]. destruct (has_duplicates (std_labels (d0 :: doys))); [discriminate|].
    apply Plain in R1; apply Plain in R2; destruct R1 as (d1 & X1 & F1), R2 as (d2 & X2 & F2). rewrite (Same d1 d2 X1 X2) in F1. congruence.
  - apply Plain in R1; apply Plain in R2; destruct R1 as (d1 & X1 & F1), R2 as (d2 & X2 & F2); rewrite (Same d1 d2 X1 X2) in F1; congruence.
Qed.
End Identify.
Print Assumptions C144_attributes_identify_the_result.

(** The parameters are recorded under their names: always the methods, percentile,
    precision and range; those of a method exactly when it is used; orders are the ones
    used, by default [1]. *)
Theorem C144_parameters_are_recorded (s : settings) (std : bool) (p : pre_args) :
  let at_key k := get k (attributes s std p) in
  let a := p_extreme p in
  at_key "method_anomaly" = Some (AStr (p_method p)) /\ at_key "method_extreme" = Some (AStr (a_method a)) /\
  at_key "threshold_percentile" = Some (ANum (a_percentile a)) /\ at_key "method_percentile" = Some (AStr (a_method_percentile a)) /\
  at_key "precision" = Some (ANum (a_precision a)) /\ at_key "max_anomaly" = Some (ANum (a_max a)) /\
  (forall v, at_key "window_days_hobday" = Some v <-> a_method a = "hobday_extreme" /\ v = AInt (a_days a)) /\
  (forall v, at_key "window_year_baseline" = Some v <-> p_method p = "shifting_baseline" /\ v = AInt (Some (p_window p))) /\
  (forall v, at_key "smooth_days_baseline" = Some v <-> p_method p = "shifting_baseline" /\ v = AInt (Some (Z.of_nat (s_smooth s)))) /\
  (forall v, at_key "std_normalise" = Some v <-> p_method p = "detrend_harmonic" /\ v = ABool std) /\
  (forall v, at_key "force_zero_mean" = Some v <-> (p_method p = "detrend_harmonic" \/ p_method p = "detrend_fixed_baseline") /\ v = ABool (s_zero_mean s)) /\
  (forall v, at_key "detrend_orders" = Some v <->
     (p_method p = "detrend_harmonic" \/ p_method p = "detrend_fixed_baseline") /\ v = AOrders (match p_orders p with Some o => o | None => [1%Z] end)).
Proof.
  cbv beta zeta.
  assert (B : forall (b : bool) (P : Prop) (x v : attr), (b = true <-> P) -> ((if b then Some x else None) = Some v <-> P /\ v = x)).
  { intros b P x v H. destruct b; split; intro E; try discriminate.
    - split; [apply H; reflexivity|congruence].
    - destruct E as [_ ->]. reflexivity.
    - destruct E as [E _]. apply H in E. discriminate. }
  assert (D : detrends p = true <-> p_method p = "detrend_harmonic" \/ p_method p = "detrend_fixed_baseline") by (unfold detrends; rewrite orb_true_iff, !String.eqb_eq; reflexivity).
  rewrite get_method, get_extreme, get_percentile, get_method_percentile, get_precision, get_max.
  do 6 (split; [reflexivity|]).
  split; [intro v; rewrite get_days; apply B, String.eqb_eq|]. split; [intro v; rewrite get_window; apply B, String.eqb_eq|]. split; [intro v; rewrite get_smooth; apply B, String.eqb_eq|].
  split; [intro v; rewrite get_std; apply B, String.eqb_eq|]. split; [intro v; rewrite get_zero_mean; apply B, D|]. intro v. rewrite get_orders. apply B, D.
Qed.
Print Assumptions C144_parameters_are_recorded.

(** The steps in words name the parameters: two runs with the same text used the same
    anomaly method with the same orders, normalisation, windows, and the same kind of
    thresholds with the same windows. *)
Definition plain_char (c : ascii) : bool := negb (existsb (Ascii.eqb c) [" "; ","; "]"]%char).
Fixpoint plain (s : string) : bool := match s with EmptyString => true | String c r => plain_char c && plain r end.
Lemma split_plain a : forall b c c' r r', plain a = true -> plain b = true -> plain_char c = false -> plain_char c' = false ->
  (a ++ String c r)%string = (b ++ String c' r')%string -> a = b /\ c = c' /\ r = r'.
Proof.
  induction a as [|x a IH]; intros [|y b] c c' r r' A B C C' E; cbn in A, B, E.
  - injection E as -> ->. auto.
  - injection E as -> E. apply andb_true_iff in B. destruct B as [B _]. congruence.
  - injection E as -> E. apply andb_true_iff in A. destruct A as [A _]. congruence.
  - injection E as -> E. apply andb_true_iff in A, B. destruct A as [_ A], B as [_ B]. destruct (IH b c c' r r' A B C C' E) as (-> & -> & ->). auto.
Qed.
Lemma show_plain z : plain (show z) = true.
Proof.
  assert (U : forall d, plain (NilEmpty.string_of_uint d) = true) by (induction d; cbn; auto).
  assert (Z : forall d, plain (NilZero.string_of_uint d) = true) by (intros []; try reflexivity; apply U).
  unfold show, NilZero.string_of_int. destruct (Z.to_int z); [apply Z|]. cbn. apply Z.
Qed.
Lemma show_first z : exists c r, show z = String c r /\ plain_char c = true.
Proof.
  assert (P := show_plain z). unfold show, NilZero.string_of_int in *. destruct (Z.to_int z) as [d|d].
  - destruct d; cbn [NilZero.string_of_uint NilEmpty.string_of_uint]; eexists; eexists; split; reflexivity.
  - eexists; eexists; split; reflexivity.
Qed.
Lemma concat_plain : forall l l' r r', (String.concat ", " (map show l) ++ String "]" r)%string = (String.concat ", " (map show l') ++ String "]" r')%string -> l = l'.
Proof.
  assert (N : forall z l r r', String "]" r <> (String.concat ", " (map show (z :: l)) ++ r')%string).
  { intros z l r r' E. destruct (show_first z) as (c & q & Ez & Pc). cbn [map String.concat] in E. rewrite Ez in E.
    destruct (map show l); cbn in E; injection E as <- _; discriminate Pc. }
  induction l as [|z l IH]; intros [|z' l'] r r' E.
  - reflexivity.
  - exfalso. exact (N z' l' r (String "]" r') E).
  - exfalso. exact (N z l r' (String "]" r) (eq_sym E)).
  - assert (App : forall a b c, ((a ++ b) ++ c)%string = (a ++ (b ++ c))%string) by (induction a as [|x a IHa]; intros; cbn; [|rewrite IHa]; reflexivity).
    assert (Step : forall z l r, exists c q, (String.concat ", " (map show (z :: l)) ++ String "]" r)%string = (show z ++ String c q)%string /\ plain_char c = false /\
       match l with [] => c = "]"%char | _ => c = ","%char /\ q = (" " ++ (String.concat ", " (map show l) ++ String "]" r))%string end).
    { intros z0 [|z1 l0] r0; cbn [map String.concat].
      - exists "]"%char, r0. split; [reflexivity|]. split; reflexivity.
      - exists ","%char. eexists. split; [rewrite App; cbn [String.append]; reflexivity|]. split; [reflexivity|]. split; reflexivity. }
    destruct (Step z l r) as (c & q & E1 & C1 & F1). destruct (Step z' l' r') as (c' & q' & E2 & C2 & F2). rewrite E1, E2 in E.
    destruct (split_plain _ _ _ _ _ _ (show_plain z) (show_plain z') C1 C2 E) as (Ez & Ec & Eq). apply show_inj in Ez. subst z' c' q'. f_equal.
    destruct l as [|z1 l], l' as [|z1' l']; [reflexivity| | |].
    + destruct F2 as [F2 _]. rewrite F1 in F2. discriminate.
    + destruct F1 as [F1 _]. rewrite F2 in F1. discriminate.
    + destruct F1 as [_ ->], F2 as [_ F2]. exact (IH (z1' :: l') r r' (append_inj_l " " _ _ F2)).
Qed.
Lemma show_list_inj l l' r r' : (show_list l ++ r)%string = (show_list l' ++ r')%string -> l = l'.
Proof.
  unfold show_list. intro E. cbn [String.append] in E. injection E as E.
  assert (App : forall a b c, ((a ++ b) ++ c)%string = (a ++ (b ++ c))%string) by (induction a as [|x a IHa]; intros; cbn; [|rewrite IHa]; reflexivity).
  rewrite !App in E. cbn [String.append] in E. exact (concat_plain _ _ _ _ E).
Qed.
Lemma show_option_plain z : plain (show_option z) = true.
Proof. destruct z as [z|]; [apply show_plain|reflexivity]. Qed.
Lemma show_option_inj a b : show_option a = show_option b -> a = b.
Proof.
  destruct a as [a|], b as [b|]; cbn [show_option]; intro E; [f_equal; apply show_inj; exact E| | |reflexivity]; exfalso;
  [rename a into z|rename b into z]; unfold show, NilZero.string_of_int in E; destruct (Z.to_int z) as [d|d]; try (destruct d); discriminate.
Qed.
Lemma extreme_steps_cons a : a_method a = "global_extreme" \/ a_method a = "hobday_extreme" -> exists x, extreme_steps a = [x].
Proof. unfold extreme_steps. intros [-> | ->]; cbn; [eexists; reflexivity|]. destruct (a_spatial a); eexists; reflexivity. Qed.
Lemma extreme_steps_apart a b : a_method a = "global_extreme" \/ a_method a = "hobday_extreme" -> a_method b = "global_extreme" \/ a_method b = "hobday_extreme" ->
  extreme_steps a = extreme_steps b -> a_method a = a_method b /\ (a_method a = "hobday_extreme" -> a_days a = a_days b /\ a_spatial a = a_spatial b).
Proof.
  intros [A|A] [B|B]; unfold extreme_steps; rewrite A, B; cbn [String.eqb Ascii.eqb Bool.eqb]; intro E.
  - split; [reflexivity|discriminate].
  - destruct (a_spatial b); discriminate.
  - destruct (a_spatial a); discriminate.
  - split; [reflexivity|]. intros _. assert (D : a_days a = a_days b).
    { apply show_option_inj.
      destruct (a_spatial a), (a_spatial b); apply (f_equal (fun l => hd "" l)) in E; cbn [hd] in E; apply append_inj_l in E; cbn [String.append] in E;
      (apply split_plain in E; [apply E|apply show_option_plain|apply show_option_plain|reflexivity|reflexivity]). }
    split; [exact D|]. apply spatial_from_steps; try assumption. unfold extreme_steps. rewrite A, B. exact E.
Qed.
Theorem C144_steps_tell_runs_apart (s1 s2 : settings) (std1 std2 : bool) (p1 p2 : pre_args) :
  let known m := In m ["detrend_harmonic"; "shifting_baseline"; "fixed_baseline"; "detrend_fixed_baseline"] in
  let a := p_extreme p1 in let b := p_extreme p2 in
  known (p_method p1) -> known (p_method p2) -> In (a_method a) ["global_extreme"; "hobday_extreme"] -> In (a_method b) ["global_extreme"; "hobday_extreme"] ->
  get "preprocessing_steps" (attributes s1 std1 p1) = get "preprocessing_steps" (attributes s2 std2 p2) ->
  p_method p1 = p_method p2 /\ a_method a = a_method b /\
  (p_method p1 = "detrend_harmonic" -> orders_of p1 = orders_of p2 /\ std1 = std2) /\
  (p_method p1 = "detrend_fixed_baseline" -> orders_of p1 = orders_of p2) /\
  (p_method p1 = "shifting_baseline" -> p_window p1 = p_window p2 /\ s_smooth s1 = s_smooth s2) /\
  (a_method a = "hobday_extreme" -> a_days a = a_days b /\ a_spatial a = a_spatial b).
Proof.
  intros known a b K1 K2 H1 H2 E. rewrite !get_steps in E. injection E as E. fold a in E. fold b in E.
  assert (G1 : a_method a = "global_extreme" \/ a_method a = "hobday_extreme") by (cbn in H1; intuition). clear H1.
  assert (G2 : a_method b = "global_extreme" \/ a_method b = "hobday_extreme") by (cbn in H2; intuition). clear H2.
  assert (X : extreme_steps a = extreme_steps b -> a_method a = a_method b /\ (a_method a = "hobday_extreme" -> a_days a = a_days b /\ a_spatial a = a_spatial b)) by (apply extreme_steps_apart; assumption).
  destruct (extreme_steps_cons a G1) as (xa & Xa). destruct (extreme_steps_cons b G2) as (xb & Xb).
  assert (Fa : forall c r, xa = String c r -> c = "G"%char \/ c = "D"%char).
  { intros c r ->. unfold extreme_steps in Xa. destruct G1 as [G|G]; rewrite G in Xa; cbn in Xa; [injection Xa as <- _; auto|]. destruct (a_spatial a); injection Xa as <- _; auto. }
  assert (Fb : forall c r, xb = String c r -> c = "G"%char \/ c = "D"%char).
  { intros c r ->. unfold extreme_steps in Xb. destruct G2 as [G|G]; rewrite G in Xb; cbn in Xb; [injection Xb as <- _; auto|]. destruct (a_spatial b); injection Xb as <- _; auto. }
  unfold preprocessing_steps in E. fold a in E. fold b in E. rewrite Xa, Xb in X. rewrite Xa, Xb in E. unfold anomaly_steps in E.
  cbn in K1, K2.
  destruct K1 as [M1|[M1|[M1|[M1|[]]]]], K2 as [M2|[M2|[M2|[M2|[]]]]]; rewrite <- M1, <- M2 in E |- *; cbn [String.eqb Ascii.eqb Bool.eqb app] in E.
  all: try (destruct std1); try (destruct std2); cbn [app] in E; try discriminate.
  all: try (exfalso; congruence).
  all: assert (Ex : xa = xb) by (apply (f_equal (fun l => List.last l "")) in E; exact E).
  all: destruct (X (f_equal (fun x => [x]) Ex)) as (X1 & X2).
  all: split; [reflexivity|]; split; [exact X1|].
  all: split; [intro Q; try discriminate Q|split; [intro Q; try discriminate Q|split; [intro Q; try discriminate Q|exact X2]]].
  all: assert (E1 := f_equal (fun l => hd "" l) E); assert (E2 := f_equal (fun l => hd "" (tl l)) E); cbn [hd tl] in E1, E2.
  all: try (apply append_inj_l in E1; split; [|reflexivity]; exact (show_list_inj _ _ _ _ E1)).
  all: try (apply append_inj_l in E1; exact (show_list_inj _ _ "" "" (f_equal (fun z => (z ++ "")%string) E1))).
  all: apply append_inj_l, append_inj_r, show_inj in E1; apply append_inj_l, append_inj_r, show_inj in E2; split; [exact E1|lia].
Qed.
Print Assumptions C144_steps_tell_runs_apart.

(** ** C145 *)

Lemma in_final c t dims me v : In v ["x"; "y"] -> forall n, lookup_name dims v = Some n -> lookup_chunk (final_chunks c t dims me) n = Some (-1)%Z.
Proof.
  intros V n L. unfold lookup_chunk, final_chunks. cbn [flat_map]. rewrite app_nil_r.
  destruct V as [<-|[<-|[]]].
  - rewrite L. cbn [app find fst]. rewrite String.eqb_refl. reflexivity.
  - rewrite L. destruct (lookup_name dims "x") as [m|]; cbn [app find fst]; [destruct (String.eqb n m); [reflexivity|]|]; rewrite String.eqb_refl; reflexivity.
Qed.

Lemma whole_axis chunks a d : lookup_chunk chunks d = Some (-1)%Z -> multiple (rechunked chunks a) d = None.
Proof.
  intro H. unfold multiple, chunksizes, rechunked. cbn [a_dask a_axes].
  assert (E : forall l cs, Chunks.lookup d (map (fun kv : string * list nat => match lookup_chunk chunks (fst kv) with Some c => (fst kv, split_axis (fold_right Nat.add 0 (snd kv)) c) | None => kv end) l) = Some cs -> length cs = 1).
  { induction l as [|(k, cs0) l IH]; intros cs; cbn [map fst snd]; [discriminate|].
    destruct (lookup_chunk chunks k) as [c|] eqn:K; cbn [Chunks.lookup fst snd].
    - destruct (String.eqb_spec k d) as [->|N]; [|exact (IH cs)]. intro E. injection E as <-. rewrite H in K. injection K as <-. reflexivity.
    - destruct (String.eqb_spec k d) as [->|N]; [congruence|exact (IH cs)]. }
  destruct (Chunks.lookup d _) as [cs|] eqn:L; [|reflexivity]. rewrite (E _ _ L). reflexivity.
Qed.

(** The arrays of the returned dataset can be handed to a tracker as they are: the
    spatial chunking check reports nothing and rechunks nothing. *)
Theorem C145_no_rechunking_in_the_tracker (c : list (string * Z)) (t : string) (dims : names) (me : string) (x : string) (y : option string) (data mask lon lat : arr) :
  lookup_name dims "x" = Some x -> (forall v, y = Some v -> lookup_name dims "y" = Some v) ->
  let h := mkHeld (rechunked (final_chunks c t dims me) data) (computed mask) (computed lon) (computed lat) x y in
  validate_spatial_chunking h = Ok (h, []).
Proof.
  intros X Y h. unfold validate_spatial_chunking.
  assert (N : forall a d nm, check_dim nm (computed a) d = []) by (intros a [d|] nm; reflexivity).
  assert (R1 : check_dim "data_bin" (h_data h) (Some (h_x h)) = []) by (unfold h; cbn [h_data h_x check_dim]; rewrite whole_axis; [reflexivity|]; apply (in_final _ _ _ _ "x"); [cbn; tauto|exact X]).
  assert (R2 : check_dim "data_bin" (h_data h) (h_y h) = []).
  { unfold h. cbn [h_data h_y check_dim]. destruct y as [v|]; [|reflexivity]. cbn [check_dim]. rewrite whole_axis; [reflexivity|]. apply (in_final _ _ _ _ "y"); [cbn; tauto|exact (Y v eq_refl)]. }
  rewrite R1, R2. unfold h. cbn [h_data h_mask h_lon h_lat h_x h_y]. rewrite !N. reflexivity.
Qed.
Print Assumptions C145_no_rechunking_in_the_tracker.

(** The time axis comes in chunks of the requested size, the last possibly smaller,
    that together cover it: the size given for the name of the dimension, else for
    "time", else 10. *)
Theorem C145_time_chunks (c : list (string * Z)) (t : string) (dims : names) (me : string) (n : nat) (size : Z) :
  (forall k, In k ["x"; "y"] -> lookup_name dims k <> Some t) -> (0 < size)%Z ->
  lookup_chunk c t = Some size \/ (lookup_chunk c t = None /\ lookup_chunk c "time" = Some size) \/ (lookup_chunk c t = None /\ lookup_chunk c "time" = None /\ size = 10%Z) ->
  exists sizes rest, lookup_chunk (final_chunks c t dims me) t = Some size /\ split_axis n size = sizes ++ rest /\
    fold_right Nat.add 0 (sizes ++ rest) = n /\ (forall k, In k sizes -> k = Z.to_nat size) /\
    (rest = [] \/ exists r, rest = [r] /\ 0 < r < Z.to_nat size).
Proof.
  intros Nt Sz Hc.
  assert (Tc : time_chunks c t = size) by (unfold time_chunks; destruct Hc as [->|[(-> & ->)|(-> & -> & ->)]]; reflexivity).
  exists (repeat (Z.to_nat size) (n / Z.to_nat size)), (if Nat.eqb (n mod Z.to_nat size) 0 then [] else [n mod Z.to_nat size]).
  assert (K : Z.to_nat size <> 0) by lia. assert (Dm := Nat.div_mod n (Z.to_nat size) K). assert (Mb := Nat.mod_upper_bound n (Z.to_nat size) K).
  split; [|split; [|split; [|split]]].
  - unfold lookup_chunk, final_chunks. rewrite Tc. cbn [flat_map]. rewrite app_nil_r. assert (X := Nt "x" ltac:(cbn; tauto)). assert (Y := Nt "y" ltac:(cbn; tauto)).
    assert (F : forall o : option string, o <> Some t -> forall l, find (fun kv : string * Z => String.eqb t (fst kv)) ((match o with Some v => [(v, (-1)%Z)] | None => [] end) ++ l) = find (fun kv => String.eqb t (fst kv)) l).
    { intros [v|] H l; [|reflexivity]. cbn [app find fst]. destruct (String.eqb_spec t v) as [->|_]; [congruence|reflexivity]. }
    rewrite <- app_assoc, (F _ X), (F _ Y). cbn [app find fst]. rewrite String.eqb_refl. reflexivity.
  - unfold split_axis. destruct (Z.ltb_spec size 1) as [?|_]; [lia|]. reflexivity.
  - set (k := Z.to_nat size) in *. generalize dependent (n mod k). generalize dependent (n / k). intros q r Dm Mb.
    assert (Sr : forall m l, fold_right Nat.add 0 (repeat k m ++ l) = k * m + fold_right Nat.add 0 l).
    { induction m as [|m IH]; intro l; cbn [repeat app fold_right]; [lia|]. rewrite IH. lia. }
    rewrite Sr. destruct (Nat.eqb_spec r 0) as [->|_]; cbn [fold_right]; lia.
  - intros k I. apply repeat_spec in I. exact I.
  - generalize dependent (n mod Z.to_nat size). intros r Dm Mb. destruct (Nat.eqb_spec r 0) as [_|R]; [left; reflexivity|right; exists r; split; [reflexivity|lia]].
Qed.
Print Assumptions C145_time_chunks.

(** The returned thresholds come in day-of-year chunks of the size of the time chunks
    with method_extreme hobday_extreme, and keep their chunks along it otherwise. *)
Theorem C145_threshold_chunks (dask_chunks : list (string * Z)) (timedim method_extreme : string) (dims : names) :
  timedim <> "dayofyear" -> (forall k, In k ["x"; "y"] -> lookup_name dims k <> Some "dayofyear") ->
  (method_extreme = "hobday_extreme" ->
     lookup_chunk (final_chunks dask_chunks timedim dims method_extreme) "dayofyear" = Some (time_chunks dask_chunks timedim)) /\
  (method_extreme <> "hobday_extreme" -> lookup_chunk (final_chunks dask_chunks timedim dims method_extreme) "dayofyear" = None).
Proof.
  intros Nt Nd. assert (X := Nd "x" ltac:(cbn; tauto)). assert (Y := Nd "y" ltac:(cbn; tauto)).
  assert (F : forall o : option string, o <> Some "dayofyear" -> forall l, find (fun kv : string * Z => String.eqb "dayofyear" (fst kv)) ((match o with Some v => [(v, (-1)%Z)] | None => [] end) ++ l) = find (fun kv => String.eqb "dayofyear" (fst kv)) l).
  { intros [v|] H l; [|reflexivity]. cbn [app find fst]. destruct (String.eqb_spec "dayofyear" v) as [<-|_]; [congruence|reflexivity]. }
  unfold lookup_chunk, final_chunks. cbn [flat_map]. rewrite app_nil_r, <- app_assoc, (F _ X), (F _ Y). cbn [app find fst].
  destruct (String.eqb_spec "dayofyear" timedim) as [E|_]; [congruence|]. destruct (String.eqb_spec method_extreme "hobday_extreme") as [E|E]; split; intro H; try congruence; reflexivity.
Qed.
Print Assumptions C145_threshold_chunks.

(** Three years of two days (C115): a shifting baseline with and without an explicit
    spatial window. *)
Example C144_case :
  let a := mkArgs "hobday_extreme" 95 (Some 11%Z) None "approximate" (1 # 100) 5 in
  let b := mkArgs "hobday_extreme" 95 (Some 11%Z) (Some 3%Z) "approximate" (1 # 100) 5 in
  let p e := mkPre None None "shifting_baseline" 15 None e in
  attributes (mkSettings 21 true) false (p a) =
    [("method_anomaly", AStr "shifting_baseline"); ("method_extreme", AStr "hobday_extreme"); ("threshold_percentile", ANum 95);
     ("preprocessing_steps", ASteps ["Rolling climatology using 15 years"; "Smoothed with 21-day window"; "Day-of-year thresholds with 11 day window"]);
     ("window_year_baseline", AInt (Some 15%Z)); ("smooth_days_baseline", AInt (Some 21%Z)); ("window_days_hobday", AInt (Some 11%Z));
     ("method_percentile", AStr "approximate"); ("precision", ANum (1 # 100)); ("max_anomaly", ANum 5)] /\
  extreme_steps b = ["Day-of-year thresholds with 11 day window & 3 spatial neighbours"] /\
  attributes (mkSettings 21 true) true (p a) = attributes (mkSettings 21 false) false (p a) /\
  anomaly_steps (mkSettings 21 true) true (mkPre None None "detrend_harmonic" 15 (Some [1; 2]%Z) a) = ["Removed polynomial trend orders=[1, 2] & seasonal cycle"; "Normalised by 30-day rolling STD"].
Proof. cbv zeta. split; [reflexivity|]. split; [reflexivity|]. split; reflexivity. Qed.

Example C145_case :
  final_chunks [("time", 25%Z)] "time" [("time", "time"); ("x", "lon"); ("y", "lat")] "hobday_extreme" = [("lon", (-1)%Z); ("lat", (-1)%Z); ("time", 25%Z); ("dayofyear", 25%Z)] /\
  a_axes (rechunked (final_chunks [("time", 25%Z)] "time" [("time", "time"); ("x", "lon"); ("y", "lat")] "hobday_extreme") (mkArr true [("time", [60]); ("lat", [10; 10]); ("lon", [20; 5])])) =
    [("time", [25; 25; 10]); ("lat", [20]); ("lon", [25])].
Proof. split; reflexivity. Qed.
