(** Proofs about [Config]. *)
From Coq Require Import String Qabs Qminmax Lqa.
From Verif Require Import Base Config ConfigSpec.
Open Scope Q_scope.
Open Scope string_scope.

Lemma mems_In s l : mems s l = true <-> In s l.
Proof.
  unfold mems. rewrite existsb_exists. split.
  - intros (y & Hy & E). apply String.eqb_eq in E. subst. exact Hy.
  - intro H. exists s. split; auto. apply String.eqb_refl.
Qed.

Lemma same_set_iff a b : same_set a b = true <-> (forall s, In s a <-> In s b).
Proof.
  unfold same_set. rewrite andb_true_iff, !forallb_forall.
  split.
  - intros [H1 H2] s. split; intro H; [apply H1 in H|apply H2 in H]; now apply mems_In.
  - intro H. split; intros s Hs; apply mems_In; apply H; exact Hs.
Qed.

Lemma permuted_iff a b : permuted a b = true <-> exactly a b.
Proof.
  unfold permuted, exactly. rewrite andb_true_iff, same_set_iff, Nat.eqb_eq. tauto.
Qed.

(** *** Area rule *)
Lemma resolve_area_cases q a :
  (q = None -> a = None -> resolve_area q a = Ok (1#2, 0%Z, false)) /\
  (forall x, q = Some x -> a = None -> resolve_area q a = Ok (x, 0%Z, false)) /\
  (forall y, q = None -> a = Some y -> resolve_area q a = Ok (0, y, true)) /\
  (forall x y, q = Some x -> a = Some y -> exists w, resolve_area q a = Err (ConfigurationErr w)).
Proof.
  repeat split; intros; subst; simpl; eauto.
Qed.

(** *** Units *)
Lemma pi_bounds : 3 < np_pi /\ np_pi < 32 # 10.
Proof. unfold np_pi. split; reflexivity. Qed.

Lemma not_both_ranges r : Qabs (r - 360) <= 1 -> ~ (Qabs (r - 2 * np_pi) <= 2 # 100).
Proof.
  destruct pi_bounds as [Hl Hu].
  intros H1 H2. apply Qabs_Qle_condition in H1. apply Qabs_Qle_condition in H2. lra.
Qed.

Lemma valid_unit_b u : (String.eqb u "degrees" || String.eqb u "radians") = true <-> valid_unit u.
Proof. unfold valid_unit. rewrite orb_true_iff, !String.eqb_eq. tauto. Qed.

Lemma detect_units_ok reg units lo hi u :
  detect_units reg units lo hi = Ok u <-> unit_of reg units (hi - lo) u.
Proof.
  unfold detect_units, unit_of. destruct units as [v|].
  - assert (E : (if (String.eqb v "degrees" || String.eqb v "radians") then @Ok err _ v else Err CoordinateErr) = Ok u
               <-> valid_unit v /\ u = v).
    { destruct (String.eqb v "degrees" || String.eqb v "radians") eqn:B.
      - apply valid_unit_b in B. split; [intro H; injection H as <-; auto | intros [_ ->]; auto].
      - split; [discriminate|]. intros [H _]. apply valid_unit_b in H. congruence. }
    destruct reg; exact E.
  - destruct reg; [split; [discriminate| intros [H _]; discriminate]|].
    cbv zeta.
    destruct (Qle_bool (Qabs (hi - lo - 360)) 1) eqn:A.
    + apply Qle_bool_iff in A. split.
      * intro H; injection H as <-. auto.
      * intros [_ [[_ ->]|[H _]]]; [reflexivity|]. exfalso. apply (Qlt_not_le _ _ H A).
    + apply Qle_bool_false in A.
      destruct (Qle_bool (Qabs (hi - lo - 2 * np_pi)) (2 # 100)) eqn:B.
      * apply Qle_bool_iff in B. split.
        -- intro H; injection H as <-. auto.
        -- intros [_ [[H _]|[_ [_ ->]]]]; [|reflexivity]. exfalso. apply (Qlt_not_le _ _ A H).
      * apply Qle_bool_false in B. split; [discriminate|].
        intros [_ [[H _]|[_ [H _]]]]; exfalso;
          [apply (Qlt_not_le _ _ A H)|apply (Qlt_not_le _ _ B H)].
Qed.

Lemma detect_units_err reg units lo hi e :
  detect_units reg units lo hi = Err e -> e = CoordinateErr /\
  ~ exists u, unit_of reg units (hi - lo) u.
Proof.
  intro H. split.
  - revert H. unfold detect_units. destruct reg, units; cbv zeta;
      repeat match goal with |- context [if ?b then _ else _] => destruct b end; congruence.
  - intros (u & Hu). apply detect_units_ok in Hu. congruence.
Qed.

Lemma detect_units_total reg units lo hi :
  (exists u, detect_units reg units lo hi = Ok u) \/ detect_units reg units lo hi = Err CoordinateErr.
Proof.
  destruct (detect_units reg units lo hi) as [u|e] eqn:E; [left; eauto|right].
  apply detect_units_err in E. destruct E as [-> _]. reflexivity.
Qed.

(** Auto-detection spelled out. *)
Lemma detect_auto lo hi u :
  detect_units false None lo hi = Ok u <->
  (u = "degrees" /\ 359 <= hi - lo <= 361) \/
  (u = "radians" /\ 2 * np_pi - (2#100) <= hi - lo <= 2 * np_pi + (2#100)).
Proof.
  rewrite detect_units_ok. unfold unit_of. split.
  - intros [_ [[H ->]|[_ [H ->]]]]; apply Qabs_Qle_condition in H; [left|right]; split; auto; split; lra.
  - intros [[-> H]|[-> H]]; split; auto.
    + left. split; auto. apply Qabs_Qle_condition. split; lra.
    + assert (B : Qabs (hi - lo - 2 * np_pi) <= 2 # 100) by (apply Qabs_Qle_condition; split; lra).
      right. split; [|auto].
      apply Qnot_le_lt. intro C. exact (not_both_ranges _ C B).
Qed.

Lemma detect_auto_exclusive lo hi :
  359 <= hi - lo <= 361 -> ~ (2 * np_pi - (2#100) <= hi - lo <= 2 * np_pi + (2#100)).
Proof. destruct pi_bounds. intros. lra. Qed.

(** *** Re-use of the caller's array *)
Lemma construct_degrees_pure reg units c r c' :
  construct_coords reg units c = (r, c') ->
  (forall t, r = Ok t -> tc_units t = "degrees") -> c' = c.
Proof.
  unfold construct_coords. destruct (detect_units _ _ _ _) as [u|e] eqn:D; intros H Hu.
  - injection H as <- <-. specialize (Hu _ eq_refl). simpl in Hu. subst u. reflexivity.
  - injection H as _ <-. reflexivity.
Qed.

Lemma construct_init_saved reg units c t c' :
  construct_coords reg units c = (Ok t, c') ->
  tc_lon_init t = c_lon c /\ tc_lat_init t = c_lat c /\
  (tc_lon t = c_lon c' /\ tc_lat t = c_lat c').
Proof.
  unfold construct_coords. destruct (detect_units _ _ _ _) as [u|e]; intro H; [|discriminate].
  injection H as <- <-. simpl. auto.
Qed.

(** *** Longitude remapping *)
Lemma remap_deg_range lo hi lon :
  0 <= lo -> 180 < hi -> -(180) <= lon < 360 ->
  0 <= remap_lon "degrees" lo hi lon < 360.
Proof.
  intros Hl Hh Hr. unfold remap_lon. simpl.
  apply Qle_bool_iff in Hl. rewrite Hl. apply Qltb_spec in Hh. rewrite Hh. simpl.
  destruct (Qltb lon 0) eqn:E; [apply Qltb_spec in E|apply Qltb_false in E]; lra.
Qed.

Lemma remap_deg_congr lo hi lon :
  exists k : Z, remap_lon "degrees" lo hi lon == lon + inject_Z k * 360.
Proof.
  unfold remap_lon. simpl. destruct (Qle_bool 0 lo && Qltb 180 hi).
  - destruct (Qltb lon 0); [exists 1%Z|exists 0%Z]; unfold inject_Z; ring.
  - exists 0%Z. unfold inject_Z. ring.
Qed.

Lemma remap_deg_id lo hi lon :
  (lo < 0 \/ hi <= 180 \/ 0 <= lon) -> remap_lon "degrees" lo hi lon = lon.
Proof.
  intro H. unfold remap_lon. simpl.
  destruct (Qle_bool 0 lo) eqn:A; simpl; auto.
  destruct (Qltb 180 hi) eqn:B; simpl; auto.
  destruct (Qltb lon 0) eqn:C; auto.
  apply Qle_bool_iff in A. apply Qltb_spec in B. apply Qltb_spec in C.
  destruct H as [H|[H|H]]; exfalso; lra.
Qed.

Lemma remap_rad_range lo hi lon :
  0 <= lo -> np_pi < hi -> -(180) <= lon < 360 ->
  0 <= remap_lon "radians" lo hi lon < 2 * np_pi.
Proof.
  intros Hl Hh Hr. unfold remap_lon. simpl.
  apply Qle_bool_iff in Hl. rewrite Hl. apply Qltb_spec in Hh. rewrite Hh. simpl.
  destruct pi_bounds as [P1 P2].
  assert (M : lon * np_pi / 180 == lon * (np_pi / 180)) by field.
  set (k := np_pi / 180) in *.
  assert (K : 0 < k) by (unfold k, np_pi; reflexivity).
  assert (K2 : np_pi == k * 180) by (unfold k; field).
  destruct (Qltb (lon * np_pi / 180) 0) eqn:E; [apply Qltb_spec in E|apply Qltb_false in E];
    rewrite M in *; rewrite K2; split; nra.
Qed.

Lemma remap_rad_congr lo hi lon :
  exists k : Z, remap_lon "radians" lo hi lon == (lon + inject_Z k * 360) * np_pi / 180.
Proof.
  unfold remap_lon. simpl. destruct (Qle_bool 0 lo && Qltb np_pi hi).
  - destruct (Qltb (lon * np_pi / 180) 0); [exists 1%Z|exists 0%Z]; unfold inject_Z; field.
  - exists 0%Z. unfold inject_Z. field.
Qed.

(** *** Validation table *)
Fixpoint first_fail (l : list (bool * err)) : option err :=
  match l with
  | [] => None
  | (true, _) :: r => first_fail r
  | (false, e) :: _ => Some e
  end.

Definition isS {A} (o : option A) : bool := match o with Some _ => true | None => false end.

Definition btable (i : input) : list (bool * err) :=
  let uns := i_unstructured i in
  let str := negb (i_unstructured i) in
  [ (indexable i (i_ycoord i), KeyError "y coordinate");
    (indexable i (i_xcoord i), KeyError "x coordinate");
    (match detect_units (i_regional i) (i_units i) (i_lon_min i) (i_lon_max i) with Ok _ => true | Err _ => false end, CoordinateErr);
    (negb (isS (i_quartile i) && isS (i_absolute i)), ConfigurationErr "both area filters");
    (i_dask i, DataValidationErr "chunked");
    (mems (i_timedim i) (i_dims i), ValueError "time dimension");
    (negb (i_regional i && uns), NotImplementedErr);
    (implb uns (permuted [i_timedim i; i_xdim i] (i_dims i)), DataValidationErr "dimensions unstructured");
    (implb str (permuted [i_timedim i; i_ydim i; i_xdim i] (i_dims i)), DataValidationErr "dimensions gridded");
    (mems (i_timecoord i) (i_coords i) && mems (i_xcoord i) (i_coords i) && mems (i_ycoord i) (i_coords i),
       DataValidationErr "missing coordinates");
    (i_dtype_bool i, DataValidationErr "dtype");
    (implb uns (isS (i_temp_dir i)), DataValidationErr "temp_dir");
    (implb uns (isS (i_neighbours i)), DataValidationErr "neighbours");
    (implb uns (isS (i_cell_areas i)), DataValidationErr "cell_areas");
    (implb str (match i_cell_areas i with Some ds => same_set ds [i_ydim i; i_xdim i] | None => true end),
       DataValidationErr "cell_areas dims");
    (implb uns (negb (isS (i_gridres i))), DataValidationErr "grid_resolution unstructured");
    (implb str (match i_gridres i with None => true | Some None => false | Some (Some r) => Qltb 0 r end),
       DataValidationErr "grid_resolution positive");
    (i_mask_bool i, DataValidationErr "mask dtype");
    (existsb (fun b => b) (i_mask i), DataValidationErr "mask all false");
    (match i_quartile i with Some q => negb (Qltb q 0 || Qltb 1 q) | None => true end, ConfigurationErr "quartile range");
    (match i_absolute i with Some a => negb (Z.leb a 0) | None => true end, ConfigurationErr "absolute positive");
    (Z.eqb (i_T_fill i mod 2) 0, ConfigurationErr "T_fill odd");
    (implb uns (match i_temp_dir i with Some d => negb (String.eqb d "") | None => true end), ConfigurationErr "temp_dir empty");
    (implb uns (match i_neighbours i with Some (n, _) => Nat.eqb n 3 | None => true end), DataValidationErr "neighbours shape");
    (implb uns (match i_neighbours i with
       | Some (_, ds) => match ds with [a; b] => String.eqb a "nv" && String.eqb b (i_xdim i) | _ => false end
       | None => true end), DataValidationErr "neighbours dims") ].

Lemma construct_btable i :
  match first_fail (btable i) with
  | None => exists c, construct i = Ok c
  | Some e => construct i = Err e
  end.
Proof.
  unfold construct, btable, validate_inputs, setup_unstructured, check.
  destruct (indexable i (i_ycoord i)); [|reflexivity].
  destruct (indexable i (i_xcoord i)); [|reflexivity].
  destruct (detect_units_total (i_regional i) (i_units i) (i_lon_min i) (i_lon_max i)) as [[u E]|E];
    rewrite E; [|reflexivity].
  destruct (i_dask i) eqn:Dask; destruct (i_quartile i) as [q|]; destruct (i_absolute i) as [a|]; try reflexivity;
  (cbn [bind resolve_area isS andb negb first_fail];
   destruct (mems (i_timedim i) (i_dims i)); [|reflexivity];
   destruct (i_regional i), (i_unstructured i); try reflexivity;
   cbn [bind andb negb first_fail implb isS];
   destruct (permuted _ (i_dims i)); try reflexivity;
   cbn [bind andb negb first_fail implb isS];
   destruct (mems (i_timecoord i) (i_coords i) && mems (i_xcoord i) (i_coords i) && mems (i_ycoord i) (i_coords i));
     try reflexivity;
   cbn [bind andb negb first_fail implb isS];
   destruct (i_dtype_bool i); try reflexivity;
   cbn [bind andb negb first_fail implb isS];
   destruct (i_temp_dir i) as [td|]; try reflexivity;
   destruct (i_neighbours i) as [[n ds]|]; try reflexivity;
   destruct (i_cell_areas i) as [ca|]; try reflexivity;
   cbn [bind andb negb first_fail implb isS];
   try (destruct (same_set ca [i_ydim i; i_xdim i]); try reflexivity);
   cbn [bind andb negb first_fail implb isS];
   destruct (i_gridres i) as [[g|]|]; try reflexivity;
   cbn [bind andb negb first_fail implb isS];
   try (destruct (Qltb 0 g); try reflexivity);
   cbn [bind andb negb first_fail implb isS];
   destruct (i_mask_bool i); try reflexivity;
   cbn [bind andb negb first_fail implb isS];
   destruct (existsb (fun b => b) (i_mask i)); try reflexivity;
   cbn [bind andb negb first_fail implb isS];
   try (destruct (Qltb q 0 || Qltb 1 q); try reflexivity);
   try (destruct (Z.leb a 0); try reflexivity);
   cbn [bind andb negb first_fail implb isS];
   destruct (Z.eqb (i_T_fill i mod 2) 0); try reflexivity;
   cbn [bind andb negb first_fail implb isS];
   try (eexists; reflexivity);
   try (destruct (String.eqb td ""); try reflexivity);
   cbn [bind andb negb first_fail implb isS];
   destruct (Nat.eqb n 3); try reflexivity;
   cbn [bind andb negb first_fail implb isS];
   destruct ds as [|d1 [|d2 [|d3 ds]]]; try reflexivity;
   destruct (String.eqb d1 "nv" && String.eqb d2 (i_xdim i)); try reflexivity;
   cbn [bind andb negb first_fail implb isS];
   eexists; reflexivity).
Qed.

Definition reflects (b : bool * err) (r : Prop * err) : Prop :=
  (fst b = true <-> fst r) /\ snd b = snd r.

Lemma implb_iff b c (P Q0 : Prop) : (b = true <-> P) -> (c = true <-> Q0) -> (implb b c = true <-> (P -> Q0)).
Proof.
  intros H1 H2. destruct b, c; simpl; split; intro H; try reflexivity; try discriminate; intuition congruence.
Qed.

Lemma isS_iff {A} (o : option A) : isS o = true <-> o <> None.
Proof. destruct o; simpl; split; congruence. Qed.

Lemma table_reflects i : Forall2 reflects (btable i) (requirements i).
Proof.
  assert (U : i_unstructured i = true <-> i_unstructured i = true) by tauto.
  assert (S : negb (i_unstructured i) = true <-> i_unstructured i = false) by (rewrite negb_true_iff; tauto).
  unfold btable, requirements.
  repeat (apply Forall2_cons); try apply Forall2_nil; (split; [|reflexivity]); cbn [fst];
    try (apply implb_iff; [assumption|]).
  - unfold indexable. rewrite orb_true_iff, !mems_In. tauto.
  - unfold indexable. rewrite orb_true_iff, !mems_In. tauto.
  - destruct (detect_units _ _ _ _) as [u|e] eqn:D.
    + apply detect_units_ok in D. split; eauto.
    + apply detect_units_err in D. destruct D as [_ D]. split; [discriminate|tauto].
  - destruct (i_quartile i), (i_absolute i); simpl; split; intro H; try reflexivity; auto; try discriminate.
    destruct H; discriminate.
  - tauto.
  - apply mems_In.
  - destruct (i_regional i), (i_unstructured i); simpl; split; intro H; try reflexivity; auto; try discriminate.
    destruct H; discriminate.
  - apply permuted_iff.
  - apply permuted_iff.
  - rewrite !andb_true_iff, !mems_In. tauto.
  - tauto.
  - apply isS_iff.
  - apply isS_iff.
  - apply isS_iff.
  - destruct (i_cell_areas i) as [ds|].
    + rewrite same_set_iff. split.
      * intros H ds' E. injection E as <-. exact H.
      * intro H. exact (H ds eq_refl).
    + split; [intros _ ds E; discriminate|reflexivity].
  - rewrite negb_true_iff. destruct (i_gridres i); simpl; split; congruence.
  - destruct (i_gridres i) as [[r|]|].
    + rewrite Qltb_spec. split.
      * intros H g E. injection E as <-. eauto.
      * intro H. destruct (H _ eq_refl) as (r' & E & H'). injection E as <-. exact H'.
    + split; [discriminate|]. intro H. destruct (H _ eq_refl) as (r & E & _). discriminate.
    + split; [intros _ g E; discriminate|reflexivity].
  - tauto.
  - rewrite existsb_exists. split; [intros (x & H & ->); exact H|intro H; exists true; auto].
  - destruct (i_quartile i) as [q|].
    + rewrite negb_true_iff, orb_false_iff, !Qltb_false. split.
      * intros H q' E. injection E as <-. exact H.
      * intro H. exact (H q eq_refl).
    + split; [intros _ q E; discriminate|reflexivity].
  - destruct (i_absolute i) as [a|].
    + rewrite negb_true_iff, Z.leb_gt. split.
      * intros H q' E. injection E as <-. exact H.
      * intro H. exact (H a eq_refl).
    + split; [intros _ q E; discriminate|reflexivity].
  - rewrite Z.eqb_eq. rewrite <- Z.even_spec, Zmod_even. destruct (Z.even _); split; congruence.
  - destruct (i_temp_dir i) as [d|].
    + rewrite negb_true_iff, String.eqb_neq. split; congruence.
    + split; congruence.
  - destruct (i_neighbours i) as [[n ds]|].
    + rewrite Nat.eqb_eq. split.
      * intros H n' ds' E. injection E as <- <-. exact H.
      * intro H. exact (H n ds eq_refl).
    + split; [intros _ ? ? E; discriminate|reflexivity].
  - destruct (i_neighbours i) as [[n ds]|].
    + split.
      * intros H n' ds' E. injection E as <- <-.
        destruct ds as [|d1 [|d2 [|d3 ds]]]; try discriminate.
        apply andb_true_iff in H. rewrite !String.eqb_eq in H. destruct H as [-> ->]. reflexivity.
      * intro H. rewrite (H n ds eq_refl). rewrite !String.eqb_refl. reflexivity.
    + split; [intros _ ? ? E; discriminate|reflexivity].
Qed.

Lemma first_fail_none bt rt : Forall2 reflects bt rt ->
  (first_fail bt = None <-> Forall (fun r => fst r) rt).
Proof.
  induction 1 as [|[b e] [P e'] bt rt [H1 H2] F IH]; simpl.
  - split; auto.
  - simpl in H1. destruct b.
    + rewrite IH. split.
      * intro H. constructor; auto. apply H1. reflexivity.
      * intro H. inversion H; auto.
    + split; [discriminate|]. intro H. inversion H as [|? ? K]; subst. apply H1 in K. discriminate.
Qed.

Lemma first_fail_some bt rt e : Forall2 reflects bt rt ->
  (first_fail bt = Some e <-> first_violated rt e).
Proof.
  induction 1 as [|[b e1] [P e2] bt rt [H1 H2] F IH]; simpl.
  - split; [discriminate|]. intros ([|? ?] & ? & ? & E & _); discriminate.
  - simpl in H1, H2. subst e2. destruct b.
    + assert (HP : P) by (apply H1; reflexivity).
      rewrite IH. split.
      * intros (pre & P0 & post & -> & Fp & N). exists ((P, e1) :: pre), P0, post.
        split; [reflexivity|]. split; auto.
      * intros ([|x pre] & P0 & post & E & Fp & N).
        -- injection E as -> -> _. contradiction.
        -- injection E as <- ->. exists pre, P0, post. inversion Fp; subst. auto.
    + assert (HP : ~ P) by (intro C; apply H1 in C; discriminate).
      split.
      * intro E; injection E as <-. exists [], P, rt. auto.
      * intros ([|x pre] & P0 & post & E & Fp & N).
        -- injection E as _ -> _. reflexivity.
        -- injection E as <- _. inversion Fp; subst. contradiction.
Qed.

Lemma construct_accepts i :
  (exists c, construct i = Ok c) <-> Forall (fun r => fst r) (requirements i).
Proof.
  rewrite <- (first_fail_none _ _ (table_reflects i)).
  pose proof (construct_btable i) as H. destruct (first_fail (btable i)) as [e|].
  - split; [intros (c & E); congruence|discriminate].
  - tauto.
Qed.

Lemma construct_rejects i e :
  construct i = Err e <-> first_violated (requirements i) e.
Proof.
  rewrite <- (first_fail_some _ _ e (table_reflects i)).
  pose proof (construct_btable i) as H. destruct (first_fail (btable i)) as [e'|].
  - rewrite H. split; congruence.
  - destruct H as (c & H). rewrite H. split; discriminate.
Qed.

(** What an accepted tracker works with. *)
Lemma construct_config i c : construct i = Ok c ->
  unit_of (i_regional i) (i_units i) (i_lon_max i - i_lon_min i) (g_units c) /\
  (g_use_abs c = false -> 0 <= g_quartile c <= 1 /\ g_quartile c = match i_quartile i with Some q => q | None => 1#2 end) /\
  (g_use_abs c = true -> (0 < g_absolute c)%Z /\ i_absolute i = Some (g_absolute c)) /\
  (g_use_abs c = true <-> i_absolute i <> None).
Proof.
  intro H.
  assert (A : Forall (fun r => fst r) (requirements i)) by (apply construct_accepts; eauto).
  rewrite Forall_forall in A. unfold requirements in A.
  assert (Hq := A (forall q, i_quartile i = Some q -> 0 <= q <= 1, ConfigurationErr "quartile range")
            ltac:(simpl; tauto)).
  assert (Ha := A (forall a, i_absolute i = Some a -> (0 < a)%Z, ConfigurationErr "absolute positive")
            ltac:(simpl; tauto)).
  clear A. simpl in Hq, Ha.
  unfold construct in H.
  destruct (check (indexable i (i_ycoord i)) _); [|discriminate]. cbn [bind] in H.
  destruct (check (indexable i (i_xcoord i)) _); [|discriminate]. cbn [bind] in H.
  destruct (detect_units (i_regional i) (i_units i) (i_lon_min i) (i_lon_max i)) as [u|] eqn:D; [|discriminate].
  cbn [bind] in H. apply detect_units_ok in D.
  destruct (resolve_area (i_quartile i) (i_absolute i)) as [[[q1 a1] ab1]|] eqn:R; [|discriminate].
  cbn [bind] in H.
  destruct (check (i_dask i) _); [|discriminate]. cbn [bind] in H.
  destruct (check (mems (i_timedim i) (i_dims i)) _); [|discriminate]. cbn [bind] in H.
  destruct (validate_inputs i q1 a1 ab1); [|discriminate]. cbn [bind] in H.
  destruct (if i_unstructured i then setup_unstructured i else Ok tt); [|discriminate].
  injection H as <-. simpl. split; [exact D|].
  destruct (i_quartile i) as [q9|], (i_absolute i) as [a9|]; simpl in R; try discriminate;
    injection R as <- <- <-.
  - split; [intros _; split; [apply Hq; reflexivity|reflexivity]|]. split; [discriminate|]. split; [discriminate|congruence].
  - split; [discriminate|]. split; [intros _; split; [apply Ha; reflexivity|reflexivity]|]. split; [discriminate|reflexivity].
  - split; [intros _; split; [lra|reflexivity]|]. split; [discriminate|]. split; [discriminate|congruence].
Qed.

(** Smallest and largest of a list. *)
Lemma fold_min_ge l : forall x b, b <= x -> (forall y, In y l -> b <= y) -> b <= fold_left Qmin l x.
Proof.
  induction l as [|y l IH]; intros x b X H; cbn [fold_left]; [exact X|]. apply IH; [|intros z I; apply H; right; exact I].
  apply Q.min_glb; [exact X|apply H; left; reflexivity].
Qed.
Lemma fold_min_le l : forall x, fold_left Qmin l x <= x.
Proof.
  induction l as [|y l IH]; intro x; cbn [fold_left]; [apply Qle_refl|]. eapply Qle_trans; [apply IH|apply Q.le_min_l].
Qed.
Lemma fold_min_In l : forall x y, In y l -> fold_left Qmin l x <= y.
Proof.
  induction l as [|z l IH]; intros x y I; [destruct I|]. cbn [fold_left]. destruct I as [->|I]; [|apply IH; exact I].
  eapply Qle_trans; [apply fold_min_le|apply Q.le_min_r].
Qed.
Lemma fold_max_le l : forall x b, x <= b -> (forall y, In y l -> y <= b) -> fold_left Qmax l x <= b.
Proof.
  induction l as [|y l IH]; intros x b X H; cbn [fold_left]; [exact X|]. apply IH; [|intros z I; apply H; right; exact I].
  apply Q.max_lub; [exact X|apply H; left; reflexivity].
Qed.
Lemma fold_max_ge l : forall x, x <= fold_left Qmax l x.
Proof.
  induction l as [|y l IH]; intro x; cbn [fold_left]; [apply Qle_refl|]. eapply Qle_trans; [apply Q.le_max_l|apply IH].
Qed.
Lemma fold_max_In l : forall x y, In y l -> y <= fold_left Qmax l x.
Proof.
  induction l as [|z l IH]; intros x y I; [destruct I|]. cbn [fold_left]. destruct I as [->|I]; [|apply IH; exact I].
  eapply Qle_trans; [apply Q.le_max_r|apply fold_max_ge].
Qed.
Lemma lmin_In l x : In x l -> lmin l <= x.
Proof. destruct l as [|y l]; [intros []|intros [->|I]]; cbn [lmin]; [apply fold_min_le|apply fold_min_In, I]. Qed.
Lemma lmax_In l x : In x l -> x <= lmax l.
Proof. destruct l as [|y l]; [intros []|intros [->|I]]; cbn [lmax]; [apply fold_max_ge|apply fold_max_In, I]. Qed.
Lemma lmin_glb l b : l <> [] -> (forall x, In x l -> b <= x) -> b <= lmin l.
Proof. destruct l as [|y l]; intros N H; [congruence|]. cbn [lmin]. apply fold_min_ge; [apply H; left; reflexivity|intros z I; apply H; right; exact I]. Qed.
Lemma lmax_lub l b : l <> [] -> (forall x, In x l -> x <= b) -> lmax l <= b.
Proof. destruct l as [|y l]; intros N H; [congruence|]. cbn [lmax]. apply fold_max_le; [apply H; left; reflexivity|intros z I; apply H; right; exact I]. Qed.

Lemma remap_rad_id lo hi lon : (lo < 0 \/ hi <= np_pi \/ 0 <= lon) -> remap_lon "radians" lo hi lon == lon * np_pi / 180.
Proof.
  intro H. unfold remap_lon. cbn [String.eqb Ascii.eqb Bool.eqb].
  destruct (Qle_bool 0 lo) eqn:A; [|reflexivity]. destruct (Qltb np_pi hi) eqn:B; [|reflexivity]. cbn [andb].
  apply Qle_bool_iff in A. apply Qltb_spec in B.
  destruct (Qltb (lon * np_pi / 180) 0) eqn:E; [|reflexivity]. exfalso. apply Qltb_spec in E.
  destruct H as [H|[H|H]]; [lra|lra|].
  assert (P : 0 <= lon * np_pi / 180).
  { apply Qle_shift_div_l; [reflexivity|]. rewrite Qmult_0_l. apply Qmult_le_0_compat; [exact H|]. unfold np_pi. discriminate. }
  lra.
Qed.
