(** Property theorems C01-C05 (tracker construction and coordinates). *)
From Coq Require Import String Qabs.
From Verif Require Import Base Config ConfigSpec ConfigProofs ConfigWitness.
Open Scope Q_scope.
Open Scope string_scope.

(** C01: exactly one area rule. *)
Theorem C01_area_rule_resolution (q : option Q) (a : option Z) :
  (q = None -> a = None -> resolve_area q a = Ok (1#2, 0%Z, false)) /\
  (forall x, q = Some x -> a = None -> resolve_area q a = Ok (x, 0%Z, false)) /\
  (forall y, q = None -> a = Some y -> resolve_area q a = Ok (0, y, true)) /\
  (forall x y, q = Some x -> a = Some y -> exists w, resolve_area q a = Err (ConfigurationErr w)).
Proof. exact (resolve_area_cases q a). Qed.
Print Assumptions C01_area_rule_resolution.

Theorem C01_built_tracker_rule_in_range (i : input) (c : config) :
  construct i = Ok c ->
  unit_of (i_regional i) (i_units i) (i_lon_max i - i_lon_min i) (g_units c) /\
  (g_use_abs c = false -> 0 <= g_quartile c <= 1 /\
     g_quartile c = match i_quartile i with Some q => q | None => 1#2 end) /\
  (g_use_abs c = true -> (0 < g_absolute c)%Z /\ i_absolute i = Some (g_absolute c)) /\
  (g_use_abs c = true <-> i_absolute i <> None).
Proof. exact (construct_config i c). Qed.
Print Assumptions C01_built_tracker_rule_in_range.

Example C01_case : exists c, construct good_structured = Ok c /\ g_use_abs c = true.
Proof. exact good_structured_builds. Qed.

(** C02: accepted exactly when the whole table holds; otherwise the first
    violated row decides the error, whatever else is wrong. *)
Theorem C02_accepts_iff_all_requirements (i : input) :
  (exists c, construct i = Ok c) <-> Forall (fun r => fst r) (requirements i).
Proof. exact (construct_accepts i). Qed.
Print Assumptions C02_accepts_iff_all_requirements.

Theorem C02_first_violation_decides (i : input) (e : err) :
  construct i = Err e <-> first_violated (requirements i) e.
Proof. exact (construct_rejects i e). Qed.
Print Assumptions C02_first_violation_decides.

Example C02_case_structured : exists c, construct good_structured = Ok c.
Proof. exact good_structured_ok. Qed.
Example C02_case_unstructured : exists c, construct good_unstructured = Ok c.
Proof. exact good_unstructured_ok. Qed.
Example C02_case_two_faults :
  construct bad_two_faults = Err (DataValidationErr "dtype").
Proof. exact bad_two_faults_err. Qed.

(** A missing longitude coordinate is meant to be reported by the validation
    (DataValidationError); it surfaces as a KeyError instead. *)
Theorem C02_missing_coordinate_reported_refuted :
  exists i, ~ In (i_xcoord i) (i_coords i) /\
            (forall e, construct i = Err e -> e = KeyError "x coordinate") /\
            (exists e, construct i = Err e).
Proof. exact missing_lon_keyerror. Qed.
Print Assumptions C02_missing_coordinate_reported_refuted.

(** C03: unit detection. *)
Theorem C03_auto_detection (lo hi : Q) (u : string) :
  detect_units false None lo hi = Ok u <->
  (u = "degrees" /\ 359 <= hi - lo <= 361) \/
  (u = "radians" /\ 2 * np_pi - (2#100) <= hi - lo <= 2 * np_pi + (2#100)).
Proof. exact (detect_auto lo hi u). Qed.
Print Assumptions C03_auto_detection.

Theorem C03_never_ambiguous (lo hi : Q) :
  359 <= hi - lo <= 361 -> ~ (2 * np_pi - (2#100) <= hi - lo <= 2 * np_pi + (2#100)).
Proof. exact (detect_auto_exclusive lo hi). Qed.
Print Assumptions C03_never_ambiguous.

Theorem C03_explicit_and_regional (reg : bool) (units : option string) (lo hi : Q) (u : string) :
  detect_units reg units lo hi = Ok u <-> unit_of reg units (hi - lo) u.
Proof. exact (detect_units_ok reg units lo hi u). Qed.
Print Assumptions C03_explicit_and_regional.

Theorem C03_rejections_are_coordinate_errors (reg : bool) (units : option string) (lo hi : Q) (e : err) :
  detect_units reg units lo hi = Err e ->
  e = CoordinateErr /\ ~ exists u, unit_of reg units (hi - lo) u.
Proof. exact (detect_units_err reg units lo hi e). Qed.
Print Assumptions C03_rejections_are_coordinate_errors.

Example C03_case : detect_units false None (1#4) (1439#4) = Ok "degrees" /\
                   detect_units false None 0 100 = Err CoordinateErr.
Proof. split; reflexivity. Qed.

(** C04: building a tracker changes the caller's array when units are radians. *)
Theorem C04_input_unchanged_refuted :
  exists c r1 c1 t1 t2 c2,
    construct_coords false (Some "radians") c = (r1, c1) /\ r1 = Ok t1 /\
    construct_coords false (Some "radians") c1 = (Ok t2, c2) /\
    ~ Forall2 Qeq (c_lon c1) (c_lon c) /\ ~ Forall2 Qeq (tc_lon t2) (tc_lon t1) /\
    ~ Forall2 Qeq (tc_lon_init t2) (tc_lon_init t1).
Proof. exact radians_twice. Qed.
Print Assumptions C04_input_unchanged_refuted.

Theorem C04_detected_unit_changes_refuted :
  exists c t1 c1 t2 c2,
    construct_coords false None c = (Ok t1, c1) /\
    construct_coords false None c1 = (Ok t2, c2) /\
    tc_units t1 = "radians" /\ tc_units t2 = "degrees".
Proof. exact radians_then_degrees. Qed.
Print Assumptions C04_detected_unit_changes_refuted.

(** What is true: trackers working in degrees leave the array alone. *)
Theorem C04_degrees_input_unchanged_partial (reg : bool) (units : option string) (c : coords) r c' :
  construct_coords reg units c = (r, c') ->
  (forall t, r = Ok t -> tc_units t = "degrees") -> c' = c.
Proof. exact (construct_degrees_pure reg units c r c'). Qed.
Print Assumptions C04_degrees_input_unchanged_partial.

Example C04_case : exists t, construct_coords true (Some "degrees") (mkCoords [0; 10; 20] [-(5); 5]) =
  (Ok t, mkCoords [0; 10; 20] [-(5); 5]) /\ tc_units t = "degrees".
Proof. eexists. split; reflexivity. Qed.

(** C05: reported centroid longitudes. *)
Theorem C05_degrees_range (lo hi lon : Q) :
  0 <= lo -> 180 < hi -> -(180) <= lon < 360 ->
  0 <= remap_lon "degrees" lo hi lon < 360.
Proof. exact (remap_deg_range lo hi lon). Qed.
Print Assumptions C05_degrees_range.

Theorem C05_degrees_same_point (lo hi lon : Q) :
  exists k : Z, remap_lon "degrees" lo hi lon == lon + inject_Z k * 360.
Proof. exact (remap_deg_congr lo hi lon). Qed.
Print Assumptions C05_degrees_same_point.

Theorem C05_degrees_unchanged (lo hi lon : Q) :
  (lo < 0 \/ hi <= 180 \/ 0 <= lon) -> remap_lon "degrees" lo hi lon = lon.
Proof. exact (remap_deg_id lo hi lon). Qed.
Print Assumptions C05_degrees_unchanged.

Theorem C05_radians_range (lo hi lon : Q) :
  0 <= lo -> np_pi < hi -> -(180) <= lon < 360 ->
  0 <= remap_lon "radians" lo hi lon < 2 * np_pi.
Proof. exact (remap_rad_range lo hi lon). Qed.
Print Assumptions C05_radians_range.

Theorem C05_radians_same_point (lo hi lon : Q) :
  exists k : Z, remap_lon "radians" lo hi lon == (lon + inject_Z k * 360) * np_pi / 180.
Proof. exact (remap_rad_congr lo hi lon). Qed.
Print Assumptions C05_radians_same_point.

(** Whole: what a tracker built from coordinates [c] returns carries the
    coordinates [c] as passed, and centroids in the unit of [c] denoting the point
    computed; in the range of [c] when its longitudes run from 0 to beyond half a
    turn, unchanged when they do not. *)
Definition half_turn (units : string) : Q := if String.eqb units "radians" then np_pi else 180.
Definition in_unit (units : string) (degrees : Q) : Q := if String.eqb units "radians" then degrees * np_pi / 180 else degrees.
Theorem C05_output_in_input_convention (reg : bool) (units : option string) (c c' oc : coords) (t : tracker_coords)
    (cents out : list (Q * Q)) :
  construct_coords reg units c = (Ok t, c') -> remap_coordinates t cents = (oc, out) -> c_lon c <> [] ->
  oc = c /\
  Forall2 (fun p q =>
    fst q == in_unit (tc_units t) (fst p) /\
    (exists k : Z, snd q == in_unit (tc_units t) (snd p + inject_Z k * 360)) /\
    ((forall x, In x (c_lon c) -> 0 <= x) -> (exists x, In x (c_lon c) /\ half_turn (tc_units t) < x) ->
     -(180) <= snd p < 360 -> 0 <= snd q < 2 * half_turn (tc_units t)) /\
    ((exists x, In x (c_lon c) /\ x < 0) \/ (forall x, In x (c_lon c) -> x <= half_turn (tc_units t)) ->
     snd q == in_unit (tc_units t) (snd p))) cents out.
Proof.
  intros C R Ne. unfold construct_coords in C. destruct (detect_units reg units (lmin (c_lon c)) (lmax (c_lon c))) as [u|e] eqn:Du; [|discriminate].
  injection C as <- _. unfold remap_coordinates in R. cbn [tc_lon_init tc_lat_init tc_units] in *. injection R as <- <-.
  split; [destruct c; reflexivity|].
  induction cents as [|p cents IH]; [constructor|]. cbn [map]. constructor; [|exact IH]. cbn [fst snd].
  assert (Lo : (exists x, In x (c_lon c) /\ x < 0) -> lmin (c_lon c) < 0).
  { intros (x & I & X). eapply Qle_lt_trans; [apply lmin_In, I|exact X]. }
  assert (Hi : forall b, (exists x, In x (c_lon c) /\ b < x) -> b < lmax (c_lon c)).
  { intros b (x & I & X). eapply Qlt_le_trans; [exact X|apply lmax_In, I]. }
  unfold remap_lat, in_unit, half_turn. destruct (String.eqb_spec u "radians") as [->|Nu].
  - split; [reflexivity|]. split; [apply remap_rad_congr|]. split.
    + intros P Q0 B. apply remap_rad_range; [apply lmin_glb; assumption|apply Hi, Q0|exact B].
    + intros [H|H]; apply remap_rad_id; [left; apply Lo, H|right; left; apply lmax_lub; assumption].
  - assert (Eu : remap_lon u (lmin (c_lon c)) (lmax (c_lon c)) (snd p) = remap_lon "degrees" (lmin (c_lon c)) (lmax (c_lon c)) (snd p)).
    { unfold remap_lon. apply String.eqb_neq in Nu. rewrite Nu. reflexivity. }
    rewrite Eu. split; [reflexivity|]. split; [apply remap_deg_congr|]. split.
    + intros P Q0 B. apply remap_deg_range; [apply lmin_glb; assumption|apply Hi, Q0|exact B].
    + intros [H|H]; rewrite remap_deg_id; try reflexivity; [left; apply Lo, H|right; left; apply lmax_lub; assumption].
Qed.
Print Assumptions C05_output_in_input_convention.

Example C05_whole_case : exists t c', construct_coords false None (mkCoords [0; 90; 180; 270; 359] [-(60); 60]) = (Ok t, c') /\
  snd (remap_coordinates t [(10, -(10)); (20, 30)]) = [(10, 350); (20, 30)].
Proof. eexists. eexists. split; reflexivity. Qed.

Example C05_case : remap_lon "degrees" 0 359 (-(10)) == 350.
Proof. reflexivity. Qed.
