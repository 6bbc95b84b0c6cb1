(** Property theorems C47, C48, C49, C52, C84 (checks of preprocess_data and
    identify_extremes). *)
From Coq Require Import String.
From Verif Require Import Base Detect DetectProofs.
Open Scope string_scope.
Open Scope list_scope.
Open Scope nat_scope.

(** ** C47: data values *)

(** The value at time [t] and cell [i] is finite. *)
Definition finite_at (da : list (list value)) (t i : nat) : Prop := exists q, nth i (nth t da []) NaN = Finite q.

Lemma finite_at_iff da t i : finite_at da t i <-> is_finite (nth i (nth t da []) NaN) = true.
Proof. unfold finite_at. destruct (nth i (nth t da []) NaN); split; try discriminate; intros H; try reflexivity; try (destruct H; discriminate). eauto. Qed.

Theorem C47_accepts_exactly_gap_free_series (n : nat) (da : list (list value)) :
  validate_data_values n da = Ok tt <->
  0 < length da /\ (exists i, i < n /\ finite_at da 0 i) /\
  (forall i, i < n -> finite_at da 0 i -> forall t, t < length da -> finite_at da t i).
Proof.
  rewrite validate_ok. setoid_rewrite finite_at_iff. split; intros (A & B & C); (split; [destruct da; [congruence||(cbn in A; lia)|discriminate||(cbn; lia)]|split; assumption]).
Qed.
Print Assumptions C47_accepts_exactly_gap_free_series.

(** A rejection says what is wrong: no finite value at the first step, or the
    number of ocean cells with an invalid value, and the largest number of
    invalid steps of one cell. *)
Theorem C47_report_is_accurate (n : nat) (da : list (list value)) (r : data_report) :
  validate_data_values n da = Err r ->
  match r with
  | NoFirstStep => length da = 0
  | NoValidData => forall i, i < n -> ~ finite_at da 0 i
  | InvalidValues total locations worst =>
      (exists cells, NoDup cells /\ length cells = locations /\ 0 < locations /\
         forall i, In i cells <-> i < n /\ finite_at da 0 i /\ exists t, t < length da /\ ~ finite_at da t i) /\
      (exists i, i < n /\ finite_at da 0 i /\ count (fun t => negb (is_finite (nth i (nth t da []) NaN))) (seq 0 (length da)) = worst) /\
      worst <= length da /\ worst <= total
  end.
Proof.
  destruct da as [|first rest]; [intro H; injection H as <-; reflexivity|]. rewrite validate_unfold.
  destruct (existsb _ _) eqn:Ex.
  2: { intro H. injection H as <-. intros i I F. apply finite_at_iff in F. cbn [nth] in F.
       assert (T : existsb (fun i => is_finite (nth i first NaN)) (seq 0 n) = true) by (apply existsb_exists; exists i; split; [apply in_seq; lia|exact F]). congruence. }
  cbv zeta. set (da := first :: rest). set (inv := map (bad_count n da first) (seq 0 n)).
  destruct (Nat.ltb_spec 0 (fold_right Nat.max 0 inv)) as [W|]; [|discriminate]. intro H. injection H as <-.
  assert (Cnt : forall i, count (fun step => negb (is_finite (nth i step NaN))) da = count (fun t => negb (is_finite (nth i (nth t da []) NaN))) (seq 0 (length da))).
  { intro i. generalize da. intro l. unfold count. rewrite <- (map_length (fun t => nth t l []) (filter _ _)).
    replace (filter (fun step => negb (is_finite (nth i step NaN))) l) with (map (fun t => nth t l []) (filter (fun t => negb (is_finite (nth i (nth t l []) NaN))) (seq 0 (length l)))); [reflexivity|].
    assert (G : forall p k, map (fun t => nth t (p ++ k) []) (filter (fun t => negb (is_finite (nth i (nth t (p ++ k) []) NaN))) (seq (length p) (length k))) = filter (fun step => negb (is_finite (nth i step NaN))) k).
    { intros p k. revert p. induction k as [|x k IH]; intro p; [reflexivity|]. cbn [length seq filter].
      assert (Ep : nth (length p) (p ++ x :: k) [] = x) by (rewrite app_nth2, Nat.sub_diag by lia; reflexivity).
      specialize (IH (p ++ [x])). rewrite <- app_assoc in IH. cbn [app] in IH. rewrite app_length in IH. cbn [length] in IH. rewrite Nat.add_1_r in IH.
      rewrite Ep. destruct (negb (is_finite (nth i x NaN))); cbn [map]; rewrite ?Ep; rewrite <- IH at 1; reflexivity. }
    apply (G [] l). }
  assert (Mx : exists x, In x inv /\ x = fold_right Nat.max 0 inv).
  { revert W. generalize inv. intro l. induction l as [|x l IH]; cbn [fold_right]; [lia|]. intro W.
    destruct (Nat.le_gt_cases (fold_right Nat.max 0 l) x) as [Hx|Hx].
    - exists x. split; [left; reflexivity|lia].
    - destruct IH as (y & Y & E); [lia|]. exists y. split; [right; exact Y|lia]. }
  destruct Mx as (w & Iw & Ew). apply in_map_iff in Iw. destruct Iw as (i & Ei & Ii). apply in_seq in Ii.
  unfold bad_count in Ei. destruct (is_finite (nth i first NaN)) eqn:F; [|lia].
  split; [|split; [|split]].
  - exists (filter (fun j => Nat.ltb 0 (bad_count n da first j)) (seq 0 n)). split; [apply NoDup_filter, seq_NoDup|]. split; [|split].
    + unfold inv, count. generalize (seq 0 n). intro l. induction l as [|x l IH]; [reflexivity|]. cbn [map filter]. destruct (Nat.ltb 0 (bad_count n da first x)); cbn [length]; rewrite IH; reflexivity.
    + unfold inv. apply Base.count_pos. exists (bad_count n da first i). split; [apply in_map, in_seq; lia|]. unfold bad_count. rewrite F. apply Nat.ltb_lt. lia.
    + intro j. rewrite filter_In, in_seq, Nat.ltb_lt. unfold bad_count. rewrite finite_at_iff. cbn [nth da].
      destruct (is_finite (nth j first NaN)); [|split; [lia|intros (_ & H & _); discriminate]]. rewrite Base.count_pos. split.
      * intros (J & step & St & E). split; [lia|]. split; [reflexivity|]. apply (In_nth _ _ []) in St. destruct St as (t & T & <-). exists t. split; [exact T|].
        rewrite finite_at_iff. apply negb_true_iff in E. fold da. rewrite E. discriminate.
      * intros (J & _ & t & T & E). split; [lia|]. exists (nth t da []). split; [apply nth_In; exact T|]. rewrite finite_at_iff in E. fold da in E.
        destruct (is_finite (nth j (nth t da []) NaN)); [congruence|reflexivity].
  - exists i. split; [lia|]. split; [apply finite_at_iff; exact F|]. rewrite <- Cnt. lia.
  - rewrite <- Ew, <- Ei. apply count_length.
  - revert Ew. generalize w. intros _ _. generalize inv. intro l. induction l as [|x l IH]; cbn [fold_right]; lia.
Qed.
Print Assumptions C47_report_is_accurate.

Example C47_case :
  validate_data_values 3 [[Finite 1; NaN; Finite 2]; [Finite 0; Finite 9; Finite 3]] = Ok tt /\
  validate_data_values 3 [[Finite 1; NaN; Finite 2]; [Finite 0; NaN; Infinite]] = Err (InvalidValues 1 1 1).
Proof. split; reflexivity. Qed.

(** ** C48: dimensions and coordinates *)

(** A mapping completed with its default time entry. *)
Definition completed (m full : names) (t : string) : Prop :=
  (full = m /\ exists v, In ("time", v) m) \/ (full = ("time", t) :: m /\ forall v, ~ In ("time", v) m).
Definition all_exist (available : list string) (m : names) : Prop := forall k v, In (k, v) m -> In v available.

Lemma not_has m k : has_name m k = false <-> forall v, ~ In (k, v) m.
Proof.
  split.
  - intros H v I. unfold has_name in H. induction m as [|[a b] m IH]; [destruct I|]. cbn in H. destruct (String.eqb_spec a k) as [|N]; [discriminate|].
    destruct I as [E|I]; [congruence|]. exact (IH H I).
  - intro H. destruct (has_name m k) eqn:E; [|reflexivity]. apply lookup_has in E. destruct E as (v & E). apply lookup_In in E. destruct (H v E).
Qed.
Lemma is_has m k : has_name m k = true <-> exists v, In (k, v) m.
Proof.
  split.
  - intro E. apply lookup_has in E. destruct E as (v & E). exists v. apply lookup_In. exact E.
  - intros (v & I). destruct (has_name m k) eqn:E; [reflexivity|]. exfalso. exact (proj1 (not_has m k) E v I).
Qed.
Lemma complete_time m t : completed m (if has_name m "time" then m else ("time", t) :: m) t.
Proof. destruct (has_name m "time") eqn:E; [left; split; [reflexivity|apply is_has; exact E]|right; split; [reflexivity|apply not_has; exact E]]. Qed.

(** What is returned: the caller's entries, completed with the default time (for
    coordinates: the time dimension), all of them existing; the dimensions serve
    as coordinates when none are given, which needs a y dimension. *)
Theorem C48_returns_completed_existing_names (da_dims da_coords : list string) (dimensions coordinates : option names) (dims coords : names) :
  infer_dims_coords da_dims da_coords dimensions coordinates = Ok (dims, coords) ->
  completed (match dimensions with Some m => m | None => [("time", "time"); ("x", "lon"); ("y", "lat")] end) dims "time" /\
  match coordinates with
  | Some c => exists t, lookup_name dims "time" = Some t /\ completed c coords t
  | None => coords = dims /\ exists v, In ("y", v) dims
  end /\ all_exist da_dims dims /\ all_exist da_coords coords.
Proof.
  unfold infer_dims_coords. set (m := match dimensions with Some m => m | None => _ end).
  replace (match dimensions with None => [("time", "time"); ("x", "lon"); ("y", "lat")] | Some m => m end) with m by (destruct dimensions; reflexivity).
  set (d := if has_name m "time" then m else ("time", "time") :: m). assert (Cd : completed m d "time") by apply complete_time.
  assert (Ht : exists t, lookup_name d "time" = Some t).
  { apply lookup_has. unfold d. destruct (has_name m "time") eqn:E; [exact E|reflexivity]. }
  destruct coordinates as [c|].
  - destruct Ht as (t & Ht). rewrite Ht.
    assert (R : (if has_name c "time" then Ok c else Ok (("time", t) :: c)) = Ok (E := det_err) (if has_name c "time" then c else ("time", t) :: c)) by (destruct (has_name c "time"); reflexivity).
    rewrite R. cbn [bind].
    destruct (missing da_dims d) eqn:M1; [|discriminate]. destruct (missing da_coords _) eqn:M2; [|discriminate]. intro H. injection H as <- <-.
    split; [exact Cd|]. split; [exists t; split; [exact Ht|apply complete_time]|]. split; [exact (proj1 (missing_nil _ _) M1)|exact (proj1 (missing_nil _ _) M2)].
  - destruct (has_name d "y") eqn:Y; [|destruct (lookup_name d "x"); discriminate]. cbn [bind].
    destruct (missing da_dims d) eqn:M1; [|discriminate]. destruct (missing da_coords d) eqn:M2; [|discriminate]. intro H. injection H as <- <-.
    split; [exact Cd|]. split; [split; [reflexivity|apply is_has; exact Y]|]. split; [exact (proj1 (missing_nil _ _) M1)|exact (proj1 (missing_nil _ _) M2)].
Qed.
Print Assumptions C48_returns_completed_existing_names.

(** Names that exist are accepted. *)
Theorem C48_existing_names_accepted (da_dims da_coords : list string) (dimensions coordinates : option names) (dims coords : names) :
  let d := match dimensions with Some m => m | None => [("time", "time"); ("x", "lon"); ("y", "lat")] end in
  completed d dims "time" ->
  match coordinates with
  | Some c => exists t, lookup_name dims "time" = Some t /\ completed c coords t
  | None => coords = dims /\ exists v, In ("y", v) dims
  end ->
  all_exist da_dims dims -> all_exist da_coords coords ->
  infer_dims_coords da_dims da_coords dimensions coordinates = Ok (dims, coords).
Proof.
  cbv zeta. set (d := match dimensions with Some m => m | None => _ end). intros Cd Cc Ad Ac. unfold infer_dims_coords.
  replace (match dimensions with None => [("time", "time"); ("x", "lon"); ("y", "lat")] | Some m => m end) with d by (destruct dimensions; reflexivity).
  assert (Ed : (if has_name d "time" then d else ("time", "time") :: d) = dims).
  { destruct Cd as [[-> H]|[-> H]]; [rewrite (proj2 (is_has _ _) H)|rewrite (proj2 (not_has _ _) H)]; reflexivity. }
  rewrite Ed. apply (proj2 (missing_nil _ _)) in Ad. apply (proj2 (missing_nil _ _)) in Ac. destruct coordinates as [c|].
  - destruct Cc as (t & Ht & Cc). rewrite Ht.
    assert (R : (if has_name c "time" then Ok c else Ok (("time", t) :: c)) = Ok (E := det_err) coords).
    { destruct Cc as [[-> H]|[-> H]]; [rewrite (proj2 (is_has _ _) H)|rewrite (proj2 (not_has _ _) H)]; reflexivity. }
    rewrite R. cbn [bind]. rewrite Ad, Ac. reflexivity.
  - destruct Cc as [-> Y]. rewrite (proj2 (is_has _ _) Y). cbn [bind]. rewrite Ad, Ac. reflexivity.
Qed.
Print Assumptions C48_existing_names_accepted.

(** What is refused: with DataValidationError, except when neither coordinates nor
    an x or y dimension are given. *)
Theorem C48_refusals_are_validation_errors_partial (da_dims da_coords : list string) (dimensions coordinates : option names) (e : det_err) :
  infer_dims_coords da_dims da_coords dimensions coordinates = Err e ->
  (exists w, e = DDataValidation w) \/
  (coordinates = None /\ exists m, dimensions = Some m /\ forall k v, In (k, v) m -> k <> "x" /\ k <> "y").
Proof.
  unfold infer_dims_coords. set (m := match dimensions with None => _ | Some m => m end). set (d := if has_name m "time" then m else _).
  destruct coordinates as [c|].
  - destruct (has_name c "time"); cbn [bind]; (destruct (missing da_dims d); [destruct (missing da_coords _)|]); intro H; try discriminate; injection H as <-; left; eauto.
  - destruct (has_name d "y") eqn:Y.
    + cbn [bind]. destruct (missing da_dims d); [destruct (missing da_coords d)|]; intro H; try discriminate; injection H as <-; left; eauto.
    + destruct (lookup_name d "x") eqn:X; intro H; injection H as <-; [left; eauto|]. right. split; [reflexivity|].
      assert (Dm : forall k v, In (k, v) m -> In (k, v) d) by (intros k v I; unfold d; destruct (has_name m "time"); [exact I|right; exact I]).
      assert (Nx : has_name d "x" = false) by (unfold has_name; rewrite X; reflexivity).
      destruct dimensions as [m0|].
      * exists m0. split; [reflexivity|]. intros k v I. split; intros ->.
        -- exact (proj1 (not_has d "x") Nx v (Dm _ _ I)).
        -- exact (proj1 (not_has d "y") Y v (Dm _ _ I)).
      * exfalso. exact (proj1 (not_has d "y") Y "lat" (Dm "y" "lat" ltac:(cbn; auto))).
Qed.
Print Assumptions C48_refusals_are_validation_errors_partial.

Theorem C48_no_space_dimension_key_error_refuted (da_dims da_coords : list string) (m : names) :
  (forall k v, In (k, v) m -> k <> "x" /\ k <> "y") ->
  infer_dims_coords da_dims da_coords (Some m) None = Err (DKeyError "x").
Proof.
  intro H. assert (N : forall k : string, (k = "x" \/ k = "y") -> has_name (if has_name m "time" then m else ("time", "time") :: m) k = false).
  { intros k K. apply not_has. intros v I.
    assert (J : In (k, v) m \/ k = "time") by (destruct (has_name m "time"); [left; exact I|destruct I as [E|I]; [injection E as <- _; right; reflexivity|left; exact I]]).
    destruct J as [J| ->]; [destruct (H k v J); tauto|destruct K; discriminate]. }
  unfold infer_dims_coords. rewrite (N "y") by auto. specialize (N "x" ltac:(auto)). unfold has_name in N at 1.
  destruct (lookup_name _ "x"); [discriminate|reflexivity].
Qed.
Print Assumptions C48_no_space_dimension_key_error_refuted.

(** Inferring again changes nothing: the inner functions see the same names. *)
Theorem C48_inference_is_idempotent (da_dims da_coords : list string) (dimensions coordinates : option names) (dims coords : names) :
  infer_dims_coords da_dims da_coords dimensions coordinates = Ok (dims, coords) ->
  infer_dims_coords da_dims da_coords (Some dims) (Some coords) = Ok (dims, coords).
Proof.
  intro H. destruct (C48_returns_completed_existing_names _ _ _ _ _ _ H) as (Cd & Cc & Ad & Ac).
  assert (T : exists v, In ("time", v) dims) by (destruct Cd as [[-> H0]|[-> _]]; [exact H0|exists "time"; left; reflexivity]).
  assert (Tc : exists v, In ("time", v) coords).
  { destruct coordinates as [c|]; [|destruct Cc as [-> _]; exact T]. destruct Cc as (t & _ & [[-> H0]|[-> _]]); [exact H0|exists t; left; reflexivity]. }
  apply C48_existing_names_accepted; try assumption.
  - left. auto.
  - assert (L : exists t, lookup_name dims "time" = Some t) by (apply lookup_has, is_has; exact T). destruct L as (t & L). exists t. split; [exact L|left; auto].
Qed.
Print Assumptions C48_inference_is_idempotent.

Example C48_case :
  infer_dims_coords ["time"; "lat"; "lon"] ["time"; "lat"; "lon"] None None
    = Ok ([("time", "time"); ("x", "lon"); ("y", "lat")], [("time", "time"); ("x", "lon"); ("y", "lat")]) /\
  infer_dims_coords ["time"; "ncells"] ["time"; "lat"; "lon"] (Some [("x", "ncells")]) (Some [("x", "lon"); ("y", "lat")])
    = Ok ([("time", "time"); ("x", "ncells")], [("time", "time"); ("x", "lon"); ("y", "lat")]) /\
  (* the example of preprocess_data's documentation for unstructured data *)
  infer_dims_coords ["time"; "ncells"] ["time"; "lat"; "lon"] (Some [("x", "ncells")]) None = Err (DDataValidation "coordinates").
Proof. repeat split. Qed.

(** ** C49: parameters of identify_extremes *)

(** The documented combinations. *)
Definition documented (has_y : bool) (a : extreme_args) : Prop :=
  (a_method_percentile a = "exact" \/ a_method_percentile a = "approximate") /\
  (a_method a = "global_extreme" \/ a_method a = "hobday_extreme") /\
  (a_method_percentile a = "exact" -> (a_precision a == 1#100)%Q /\ (a_max a == 5)%Q) /\
  (a_method_percentile a = "approximate" -> (60 <= a_percentile a)%Q) /\
  (forall s, a_spatial a = Some s ->
     has_y = true /\ a_method a = "hobday_extreme" /\ a_method_percentile a = "approximate" /\ Z.Odd s) /\
  (a_method a = "hobday_extreme" -> forall d, a_days a = Some d -> Z.Odd d).

(** What is then computed. *)
Definition intended (has_y : bool) (a : extreme_args) (p : plan) : Prop :=
  match p with
  | GlobalExact q => a_method a = "global_extreme" /\ a_method_percentile a = "exact" /\ (q == a_percentile a / 100)%Q
  | GlobalApprox q prec mx =>
      a_method a = "global_extreme" /\ a_method_percentile a = "approximate" /\ (q == a_percentile a / 100)%Q /\ prec = a_precision a /\ mx = a_max a
  | HobdayExact q d => a_method a = "hobday_extreme" /\ a_method_percentile a = "exact" /\ (q == a_percentile a / 100)%Q /\ a_days a = Some d
  | HobdayApprox q prec mx d s =>
      a_method a = "hobday_extreme" /\ a_method_percentile a = "approximate" /\ (q == a_percentile a / 100)%Q /\ prec = a_precision a /\ mx = a_max a /\
      a_days a = Some d /\
      (* the given window; by default 5 on grids, none on meshes *)
      match a_spatial a with Some w => s = Some w | None => s = if has_y then Some 5%Z else None end
  end.

Lemma Zeq_is_eq_bool_sym a b : Zeq_bool a b = true <-> a = b.
Proof. symmetry. apply Zeq_is_eq_bool. Qed.
Lemma even_spec z : even z = true <-> Z.Even z.
Proof. unfold even. rewrite Z.eqb_eq, <- Z.even_spec, Zeven_mod. symmetry. apply Zeq_is_eq_bool_sym. Qed.
Lemma even_odd z : even z = false <-> Z.Odd z.
Proof. rewrite <- Z.odd_spec, <- Z.negb_even, negb_true_iff. destruct (even z) eqn:E; [apply even_spec in E; apply Z.even_spec in E; rewrite E; tauto|].
  destruct (Z.even z) eqn:E2; [apply Z.even_spec in E2; apply even_spec in E2; congruence|tauto]. Qed.

Ltac step := match goal with
  | |- context [String.eqb ?a ?b] => destruct (String.eqb_spec a b)
  end.

Lemma plan_cases has_y a :
  match plan_extremes has_y a with
  | Ok p => documented has_y a /\ intended has_y a p
  | Err (DConfig _) => ~ documented has_y a
  | Err DTypeError => a_method a = "hobday_extreme" /\ a_days a = None
  | Err _ => False
  end.
Proof.
  unfold plan_extremes, documented.
  destruct (String.eqb_spec (a_method_percentile a) "exact") as [Me|Me];
  destruct (String.eqb_spec (a_method_percentile a) "approximate") as [Ma|Ma]; try congruence; cbn [negb orb andb].
  - (* exact *)
    destruct (Qeq_bool (a_precision a) (1#100)) eqn:P; cbn [negb]; [apply Qeq_bool_iff in P|intros (_ & _ & H & _); destruct (H Me) as [H1 _]; apply Qeq_bool_iff in H1; congruence].
    destruct (Qeq_bool (a_max a) 5) eqn:M; cbn [negb]; [apply Qeq_bool_iff in M|intros (_ & _ & H & _); destruct (H Me) as [_ H1]; apply Qeq_bool_iff in H1; congruence].
    rewrite andb_false_r. destruct (a_spatial a) as [s|] eqn:Sp.
    + destruct has_y; cbn [negb]; [|intros (_ & _ & _ & _ & H & _); destruct (H s eq_refl) as [H1 _]; discriminate].
      destruct (String.eqb_spec (a_method a) "hobday_extreme"); cbn [negb]; intros (_ & _ & _ & _ & H & _); destruct (H s eq_refl) as (_ & H1 & H2 & _); congruence.
    + destruct (String.eqb_spec (a_method a) "hobday_extreme") as [Hb|Hb]; cbn [andb].
      * destruct (a_days a) as [d|] eqn:Dy.
        -- destruct (even d) eqn:Ev; [apply even_spec in Ev; intros (_ & _ & _ & _ & _ & H); destruct (H Hb d eq_refl) as (k & K); destruct Ev as (j & J); lia|].
           assert (Od : Z.Odd d) by (apply even_odd; exact Ev).
           destruct has_y; cbn [even Z.modulo Z.eqb]; rewrite Hb; cbn; (split; [repeat split; auto; try congruence; intros _ d' E; injection E as <-; exact Od|repeat split; auto; reflexivity]).
        -- destruct has_y; cbn [even Z.modulo Z.eqb]; rewrite Hb; cbn; auto.
      * destruct (String.eqb_spec (a_method a) "global_extreme") as [Hg|Hg].
        -- split; [repeat split; auto; try congruence|repeat split; auto; reflexivity].
        -- intros (_ & [H|H] & _); congruence.
  - (* approximate *)
    rewrite andb_true_r. destruct (Qltb (a_percentile a) 60) eqn:P.
    { apply Qltb_spec in P. intros (_ & _ & _ & H & _). apply (Qlt_not_le _ _ P). exact (H Ma). }
    apply Qltb_false in P. destruct (a_spatial a) as [s|] eqn:Sp.
    + destruct has_y; cbn [negb]; [|intros (_ & _ & _ & _ & H & _); destruct (H s eq_refl) as [H1 _]; discriminate].
      destruct (String.eqb_spec (a_method a) "hobday_extreme") as [Hb|Hb]; cbn [negb andb]; [|intros (_ & _ & _ & _ & H & _); destruct (H s eq_refl) as (_ & H1 & _); congruence].
      destruct (a_days a) as [d|] eqn:Dy.
      * destruct (even d) eqn:Ev; [apply even_spec in Ev; intros (_ & _ & _ & _ & _ & H); destruct (H Hb d eq_refl) as (k & K); destruct Ev as (j & J); lia|].
        assert (Od : Z.Odd d) by (apply even_odd; exact Ev).
        destruct (even s) eqn:Es; [apply even_spec in Es; intros (_ & _ & _ & _ & H & _); destruct (H s eq_refl) as (_ & _ & _ & (k & K)); destruct Es as (j & J); lia|].
        rewrite Hb. cbn. split; [|rewrite Sp; repeat split; auto; reflexivity].
        split; [auto|]. split; [auto|]. split; [congruence|]. split; [auto|]. split; [intros s' E; injection E as <-; repeat split; auto; apply even_odd; exact Es|].
        intros _ d' E. injection E as <-. exact Od.
      * destruct (even s) eqn:Es; [auto|]. rewrite Hb. cbn. auto.
    + destruct (String.eqb_spec (a_method a) "hobday_extreme") as [Hb|Hb]; cbn [negb andb].
      * destruct (a_days a) as [d|] eqn:Dy.
        -- destruct (even d) eqn:Ev; [apply even_spec in Ev; intros (_ & _ & _ & _ & _ & H); destruct (H Hb d eq_refl) as (k & K); destruct Ev as (j & J); lia|].
           assert (Od : Z.Odd d) by (apply even_odd; exact Ev).
           destruct has_y; cbn [even Z.modulo Z.eqb]; rewrite Hb; cbn; (split; [repeat split; auto; try congruence; intros _ d' E; injection E as <-; exact Od|rewrite Sp; repeat split; auto; reflexivity]).
        -- destruct has_y; cbn [even Z.modulo Z.eqb]; rewrite Hb; cbn; auto.
      * destruct (String.eqb_spec (a_method a) "global_extreme") as [Hg|Hg].
        -- split; [repeat split; auto; try congruence|repeat split; auto; reflexivity].
        -- intros (_ & [H|H] & _); congruence.
  - intros ([H|H] & _); congruence.
Qed.

(** Documented combinations run the intended computation, all others are refused
    with ConfigurationError; only a missing day window raises TypeError instead. *)
Theorem C49_accepts_exactly_documented_combinations_partial (has_y : bool) (a : extreme_args) :
  (a_method a = "hobday_extreme" -> a_days a <> None) ->
  (documented has_y a -> exists p, plan_extremes has_y a = Ok p /\ intended has_y a p) /\
  (~ documented has_y a -> exists w, plan_extremes has_y a = Err (DConfig w)).
Proof.
  intro Dy. assert (C := plan_cases has_y a). destruct (plan_extremes has_y a) as [p|[k| | |w|w]].
  - destruct C as [Do In0]. split; [intros _; exists p; auto|tauto].
  - destruct C.
  - destruct C.
  - destruct C as [H1 H2]. destruct (Dy H1 H2).
  - destruct C.
  - split; [tauto|eauto].
Qed.
Print Assumptions C49_accepts_exactly_documented_combinations_partial.

(** Unknown methods are always refused. *)
Theorem C49_unknown_methods_rejected (has_y : bool) (a : extreme_args) :
  (a_method a <> "global_extreme" /\ a_method a <> "hobday_extreme") \/
  (a_method_percentile a <> "exact" /\ a_method_percentile a <> "approximate") ->
  exists w, plan_extremes has_y a = Err (DConfig w).
Proof.
  intro H. assert (C := plan_cases has_y a). destruct (plan_extremes has_y a) as [p|[k| | |w|w]] eqn:E; try (destruct C; fail); [|destruct C as [Hh Hd]|eauto].
  - destruct C as ((A & B & _) & _). exfalso. destruct H as [[H1 H2]|[H1 H2]]; [destruct B|destruct A]; congruence.
  - destruct H as [[H1 H2]|[H1 H2]]; [congruence|]. revert E. unfold plan_extremes.
    destruct (String.eqb_spec (a_method_percentile a) "exact"); [congruence|]. destruct (String.eqb_spec (a_method_percentile a) "approximate"); [congruence|]. cbn. eauto.
Qed.
Print Assumptions C49_unknown_methods_rejected.

(** As claimed, every refusal is a ConfigurationError and nonsensical values are
    refused.  False: a missing day window passes the checks and raises TypeError
    later; percentiles above 100, negative windows and non-positive precisions are
    accepted. *)
Theorem C49_rejections_are_configuration_errors_refuted :
  (forall has_y q prec mx, (60 <= q)%Q ->
     plan_extremes has_y (mkArgs "hobday_extreme" q None None "approximate" prec mx) = Err DTypeError) /\
  (forall has_y q prec mx, (60 <= q)%Q ->
     exists p, plan_extremes has_y (mkArgs "global_extreme" q None None "approximate" prec mx) = Ok p) /\
  (forall has_y q prec mx d, (60 <= q)%Q -> Z.Odd d ->
     exists p, plan_extremes has_y (mkArgs "hobday_extreme" q (Some d) None "approximate" prec mx) = Ok p).
Proof.
  split; [|split].
  - intros has_y q prec mx Hq. unfold plan_extremes. cbn. apply Qltb_false in Hq. rewrite Hq. cbn. destruct has_y; reflexivity.
  - intros has_y q prec mx Hq. unfold plan_extremes. cbn. apply Qltb_false in Hq. rewrite Hq. cbn. eauto.
  - intros has_y q prec mx d Hq Od. unfold plan_extremes. cbn. apply Qltb_false in Hq. rewrite Hq. cbn. apply even_odd in Od. rewrite Od. cbn.
    destruct has_y; cbn; eauto.
Qed.
Print Assumptions C49_rejections_are_configuration_errors_refuted.

Example C49_case :
  documented true (mkArgs "hobday_extreme" 95 (Some 11%Z) None "approximate" (1#100) 5) /\
  plan_extremes true (mkArgs "hobday_extreme" 95 (Some 11%Z) None "approximate" (1#100) 5) = Ok (HobdayApprox (95/100) (1#100) 5 11 (Some 5%Z)) /\
  plan_extremes false (mkArgs "hobday_extreme" 95 (Some 11%Z) (Some 3%Z) "approximate" (1#100) 5) = Err (DConfig "unstructured") /\
  plan_extremes true (mkArgs "global_extreme" 150 None None "approximate" (-1) 5) = Ok (GlobalApprox (150/100) (-1) 5).
Proof.
  split; [|repeat split]. repeat split; cbn; auto; try discriminate. intros _ d E. injection E as <-. exists 5%Z. reflexivity.
Qed.

(** ** C52: trimming *)

(** Kept are exactly the times from the first year plus the window on. *)
Theorem C52_keeps_exactly_later_years (window : Z) (years : list Z) (keep : list bool) :
  years <> [] -> trim window years = Ok keep ->
  length keep = length years /\
  exists first, In first years /\ (forall y, In y years -> (first <= y)%Z) /\
    forall t, t < length years -> (nth t keep false = true <-> (first + window <= nth t years 0)%Z).
Proof.
  intros Ne. unfold trim. destruct (Z.ltb _ _); [discriminate|]. intro H. injection H as <-. split; [apply map_length|].
  destruct (minZ_spec years Ne) as [I L]. exists (minZ years). split; [exact I|]. split; [exact L|]. intros t T.
  rewrite (nth_indep _ false (Z.leb (minZ years + window) 0)) by (rewrite map_length; exact T).
  rewrite (map_nth (fun y => Z.leb (minZ years + window) y)). apply Z.leb_le.
Qed.
Print Assumptions C52_keeps_exactly_later_years.

(** Refused are exactly the series that span fewer years than the window. *)
Theorem C52_rejects_short_series_partial (window : Z) (years : list Z) :
  years <> [] ->
  ((exists e, trim window years = Err e) <-> forall a b, In a years -> In b years -> (b - a + 1 < window)%Z).
Proof.
  intro Ne. unfold trim. destruct (minZ_spec years Ne) as [Im Lm]. destruct (maxZ'_spec years Ne) as [Ix Lx].
  destruct (Z.ltb_spec (maxZ' years - minZ years + 1) window) as [H|H]; split.
  - intros _ a b A B. specialize (Lm a A). specialize (Lx b B). lia.
  - intros _. eexists. reflexivity.
  - intros (e & E). discriminate.
  - intro G. specialize (G _ _ Im Ix). lia.
Qed.
Print Assumptions C52_rejects_short_series_partial.

(** As claimed, series too short to leave any output are refused.  False: a series
    that spans exactly the window passes and nothing is left. *)
Theorem C52_window_years_leave_nothing_refuted (window : Z) (years : list Z) (a b : Z) :
  In a years -> In b years -> (forall y, In y years -> (a <= y <= b)%Z) -> (b - a + 1 = window)%Z ->
  exists keep, trim window years = Ok keep /\ forall t, nth t keep false = false.
Proof.
  intros A B R W. assert (Ne : years <> []) by (intros ->; destruct A). unfold trim.
  destruct (minZ_spec years Ne) as [Im Lm]. destruct (maxZ'_spec years Ne) as [Ix Lx].
  assert (minZ years = a) by (specialize (Lm a A); specialize (R _ Im); lia).
  assert (maxZ' years = b) by (specialize (Lx b B); specialize (R _ Ix); lia).
  destruct (Z.ltb_spec (maxZ' years - minZ years + 1) window) as [H1|_]; [lia|]. eexists. split; [reflexivity|]. intro t.
  destruct (Nat.lt_ge_cases t (length years)) as [T|T].
  - rewrite (nth_indep _ false (Z.leb (minZ years + window) 0)) by (rewrite map_length; exact T).
    rewrite (map_nth (fun y => Z.leb (minZ years + window) y)). apply Z.leb_gt. specialize (R (nth t years 0%Z) ltac:(apply nth_In; exact T)). lia.
  - apply nth_overflow. rewrite map_length. exact T.
Qed.
Print Assumptions C52_window_years_leave_nothing_refuted.

Example C52_case :
  trim 2 [2000; 2000; 2001; 2002; 2003]%Z = Ok [false; false; false; true; true] /\
  trim 3 [2000; 2001; 2002]%Z = Ok [false; false; false] /\ trim 4 [2000; 2001; 2002]%Z = Err (DDataValidation "insufficient data").
Proof. repeat split. Qed.

(** ** C84: preprocessing_steps and the spatial window *)

(** When the caller names a window, the one reported is the one used. *)
Theorem C84_reported_window_is_the_one_used_partial (has_y : bool) (a : extreme_args) (q prec mx : Q) (d w : Z) (s : option Z) :
  a_spatial a = Some w -> plan_extremes has_y a = Ok (HobdayApprox q prec mx d s) -> s = reported_spatial a.
Proof.
  intros Sp E. assert (C := plan_cases has_y a). rewrite E in C. destruct C as (_ & Hm & _ & _ & _ & _ & _ & H). rewrite Sp in H.
  unfold reported_spatial. rewrite Hm. cbn. congruence.
Qed.
Print Assumptions C84_reported_window_is_the_one_used_partial.

(** By default on grids a 5 x 5 window is used and none is reported. *)
Theorem C84_default_window_not_reported_refuted (a : extreme_args) (p : plan) :
  a_spatial a = None -> a_method a = "hobday_extreme" -> a_method_percentile a = "approximate" -> plan_extremes true a = Ok p ->
  (exists q prec mx d, p = HobdayApprox q prec mx d (Some 5%Z)) /\ reported_spatial a = None.
Proof.
  intros Sp Hm Ma E. assert (C := plan_cases true a). rewrite E in C. destruct C as (_ & C). unfold reported_spatial. rewrite Hm. cbn. split; [|exact Sp].
  destruct p as [q|q prec mx|q d|q prec mx d s]; cbn in C; try (destruct C as (C1 & C2 & _); congruence).
  destruct C as (_ & _ & _ & _ & _ & _ & C). rewrite Sp in C. subst s. eauto.
Qed.
Print Assumptions C84_default_window_not_reported_refuted.

Example C84_case :
  plan_extremes true (mkArgs "hobday_extreme" 95 (Some 11%Z) None "approximate" (1#100) 5) = Ok (HobdayApprox (95/100) (1#100) 5 11 (Some 5%Z)) /\
  reported_spatial (mkArgs "hobday_extreme" 95 (Some 11%Z) None "approximate" (1#100) 5) = None /\
  reported_spatial (mkArgs "hobday_extreme" 95 (Some 11%Z) (Some 3%Z) "approximate" (1#100) 5) = Some 3%Z.
Proof. repeat split. Qed.

(** ** C85: preprocess_data as a whole *)

(** Data reach the computation of extremes only if every check passed: names
    exist, the array is dask-backed, ocean series are gap-free, the methods and
    parameters are documented ones, and (shifting baseline) the series spans the
    window; the times kept and the computation are then the intended ones. *)
Theorem C85_preprocess_checks_everything (da_dims da_coords : list string) (dask : bool) (n : nat) (da : list (list value))
    (years : list Z) (p : pre_args) (m : anomaly) (keep : list bool) (pl : plan) :
  preprocess_plan da_dims da_coords dask n da years p = Ok (m, keep, pl) ->
  exists dims coords,
    infer_dims_coords da_dims da_coords (p_dims p) (p_coords p) = Ok (dims, coords) /\
    all_exist da_dims dims /\ all_exist da_coords coords /\ dask = true /\
    (exists i, i < n /\ finite_at da 0 i) /\
    (forall i, i < n -> finite_at da 0 i -> forall t, t < length da -> finite_at da t i) /\
    match m with
    | AShifting => p_method p = "shifting_baseline"
    | AFixed => p_method p = "fixed_baseline"
    | ADetrend => p_method p = "detrend_harmonic" /\ forall o, p_orders p = Some o -> o <> [] /\ forall k, In k o -> (1 <= k)%Z
    | ADetrendFixed => p_method p = "detrend_fixed_baseline" /\ forall o, p_orders p = Some o -> o <> [] /\ forall k, In k o -> (1 <= k)%Z
    end /\
    (forall t, t < length years -> years <> [] ->
       (nth t keep false = true <->
        (m = AShifting -> exists first, In first years /\ (forall y, In y years -> (first <= y)%Z) /\ (first + p_window p <= nth t years 0)%Z))) /\
    documented (match lookup_name dims "y" with Some _ => true | None => false end) (p_extreme p) /\
    intended (match lookup_name dims "y" with Some _ => true | None => false end) (p_extreme p) pl.
Proof.
  unfold preprocess_plan. destruct (infer_dims_coords da_dims da_coords (p_dims p) (p_coords p)) as [[dims coords]|e] eqn:I; [|discriminate].
  cbn [lift_det bind fst snd]. destruct dask; [|discriminate]. cbn [negb].
  destruct (validate_data_values n da) as [[]|] eqn:V; [|discriminate]. cbn [lift_data bind].
  rewrite (C48_inference_is_idempotent _ _ _ _ _ _ I). cbn [lift_det bind fst snd]. rewrite (C48_inference_is_idempotent _ _ _ _ _ _ I). cbn [lift_det bind fst snd].
  destruct (anomaly_method (p_method p) _) as [m'|] eqn:M; [|discriminate]. cbn [lift_det bind].
  destruct (match m' with AShifting => trim (p_window p) years | _ => Ok (map (fun _ => true) years) end) as [keep'|] eqn:K; [|discriminate]. cbn [lift_det bind].
  destruct (plan_extremes (has_name dims "y") (p_extreme p)) as [pl'|] eqn:P; [|discriminate]. cbn. intro H. injection H as -> -> ->.
  destruct (C48_returns_completed_existing_names _ _ _ _ _ _ I) as (_ & _ & Ad & Ac).
  apply C47_accepts_exactly_gap_free_series in V. destruct V as (_ & V1 & V2).
  exists dims, coords. split; [reflexivity|]. split; [exact Ad|]. split; [exact Ac|]. split; [reflexivity|]. split; [exact V1|]. split; [exact V2|]. split; [|split].
  - unfold anomaly_method in M.
    assert (Od : forall a, (if match match p_orders p with Some o => o | None => [1%Z] end with [] => true | _ => existsb (fun o => Z.ltb o 1) match p_orders p with Some o => o | None => [1%Z] end end
                     then Err (DConfig "detrend_orders") else Ok a) = Ok m -> a = m /\ forall o, p_orders p = Some o -> o <> [] /\ forall k, In k o -> (1 <= k)%Z).
    { intros a. destruct (p_orders p) as [o|]; [|cbn; intro H; injection H as ->; split; [reflexivity|discriminate]].
      destruct o as [|o0 o]; [discriminate|]. destruct (existsb (fun o => Z.ltb o 1) (o0 :: o)) eqn:Ex; [discriminate|]. intro H. injection H as ->. split; [reflexivity|].
      intros o' E. injection E as <-. split; [discriminate|]. intros k Kk. destruct (Z.ltb_spec k 1) as [Lt|]; [|assumption]. exfalso.
      assert (T : existsb (fun o => Z.ltb o 1) (o0 :: o) = true) by (apply existsb_exists; exists k; split; [exact Kk|apply Z.ltb_lt; exact Lt]). congruence. }
    destruct (String.eqb_spec (p_method p) "detrend_harmonic") as [E|_]; [destruct (Od _ M) as [<- O]; auto|].
    destruct (String.eqb_spec (p_method p) "shifting_baseline") as [E|_]; [injection M as <-; exact E|].
    destruct (String.eqb_spec (p_method p) "fixed_baseline") as [E|_]; [injection M as <-; exact E|].
    destruct (String.eqb_spec (p_method p) "detrend_fixed_baseline") as [E|_]; [destruct (Od _ M) as [<- O]; auto|]. discriminate.
  - intros t T Ne.
    assert (Tr : m <> AShifting -> Ok (map (fun _ : Z => true) years) = Ok (E := det_err) keep -> nth t keep false = true).
    { intros _ H. injection H as <-. rewrite (nth_indep _ false true) by (rewrite map_length; exact T). exact (map_nth (fun _ : Z => true) years 0%Z t). }
    assert (Ne' : m <> AShifting -> Ok (map (fun _ : Z => true) years) = Ok (E := det_err) keep ->
      (nth t keep false = true <-> (m = AShifting -> exists first, In first years /\ (forall y, In y years -> (first <= y)%Z) /\ (first + p_window p <= nth t years 0)%Z))).
    { intros N H. split; [intros _ Hm; congruence|intros _; apply Tr; assumption]. }
    destruct m; try (apply Ne'; [discriminate|exact K]).
    destruct (C52_keeps_exactly_later_years _ _ _ Ne K) as (_ & first & If & Mf & Kf). rewrite (Kf t T). split.
    + intros Le _. exists first. auto.
    + intro H. destruct (H eq_refl) as (first' & If' & Mf' & Le). specialize (Mf first' If'). specialize (Mf' first If). lia.
  - assert (C := plan_cases (has_name dims "y") (p_extreme p)). rewrite P in C. exact C.
Qed.
Print Assumptions C85_preprocess_checks_everything.

Example C85_case :
  preprocess_plan ["time"; "lat"; "lon"] ["time"; "lat"; "lon"] true 2 [[Finite 1; NaN]; [Finite 2; NaN]; [Finite 2; NaN]] [2000; 2001; 2002]%Z
    (mkPre None None "shifting_baseline" 2 None (mkArgs "hobday_extreme" 95 (Some 11%Z) None "approximate" (1#100) 5))
  = Ok (AShifting, [false; false; true], HobdayApprox (95/100) (1#100) 5 11 (Some 5%Z)).
Proof. reflexivity. Qed.
