(** Theorem C136: cell areas from the grid resolution. *)
From Coq Require Import Reals List Lra Lia.
From Verif Require Import CellArea.
Import ListNotations.
Open Scope R_scope.

(** Specification: the rows of the grid with [n] rows of [180/n] degrees, from south
    to north, and the area of the zone between two latitudes (degrees) over [width]
    degrees of longitude on the sphere of radius [earth_radius]: the surface integral
    of cos. *)
Definition row_centres (n : nat) : list R := map (fun i => -90 + (INR i + / 2) * (180 / INR n)) (seq 0 n).
Definition is_zone_area (south north width area : R) : Prop :=
  exists pr : Riemann_integrable cos (radians south) (radians north), area = earth_radius ^ 2 * RiemannInt pr * radians width.

Lemma cos_integral a b (pr : Riemann_integrable cos a b) : RiemannInt pr = sin b - sin a.
Proof.
  assert (Dr : forall y, derive sin derivable_sin y = cos y) by (intro y; unfold derive; apply derive_pt_eq_0; apply derivable_pt_lim_sin).
  assert (C : continuity (derive sin derivable_sin)).
  { intros x eps He. destruct (continuity_cos x eps He) as (alp & A & B). exists alp. split; [exact A|]. intros y Hy. rewrite !Dr. apply B. exact Hy. }
  pose (f := mkC1 C).
  assert (Ext : forall x, derive f (diff0 f) x = cos x) by (intro x; unfold derive; apply derive_pt_eq_0; apply derivable_pt_lim_sin).
  assert (pr2 : Riemann_integrable (derive f (diff0 f)) a b) by exact (Riemann_integrable_ext (derive f (diff0 f)) (fun x _ => eq_sym (Ext x)) pr).
  change (sin b - sin a) with (f b - f a). rewrite <- (FTC_Riemann f pr2). destruct (Rle_dec a b) as [H|H].
  - apply RiemannInt_P18; [exact H|]. intros x _. symmetry. apply Ext.
  - rewrite (RiemannInt_P8 pr (RiemannInt_P1 pr)), (RiemannInt_P8 pr2 (RiemannInt_P1 pr2)). f_equal. apply RiemannInt_P18; [lra|]. intros x _. symmetry. apply Ext.
Qed.
Lemma cos_integrable a b : Riemann_integrable cos a b.
Proof.
  destruct (Rle_dec a b) as [H|H]; [apply continuity_implies_RiemannInt; [exact H|intros x _; apply continuity_cos]|].
  apply RiemannInt_P1. apply continuity_implies_RiemannInt; [lra|intros x _; apply continuity_cos].
Qed.
Lemma sin_gap lat res : -90 <= lat - res / 2 -> lat + res / 2 <= 90 -> 0 <= res ->
  0 <= sin (radians lat + radians res / 2) - sin (radians lat - radians res / 2).
Proof.
  intros A B C. assert (P := PI_RGT_0). unfold radians.
  assert (sin (lat * PI / 180 - res * PI / 180 / 2) <= sin (lat * PI / 180 + res * PI / 180 / 2)); [|lra].
  apply sin_incr_1; nra.
Qed.

(** Rows that reach past a pole: a row centred on the pole has area zero. *)
Lemma polar_row_zero res : grid_area res 90 = 0 /\ grid_area res (-90) = 0.
Proof.
  unfold grid_area, radians. split.
  - replace (90 * PI / 180) with (PI / 2) by lra. rewrite sin_plus, sin_minus, cos_PI2, sin_PI2.
    replace (1 * cos (res * PI / 180 / 2) + 0 * sin (res * PI / 180 / 2) - (1 * cos (res * PI / 180 / 2) - 0 * sin (res * PI / 180 / 2))) with 0 by ring. rewrite Rabs_R0. ring.
  - replace (-90 * PI / 180) with (- (PI / 2)) by lra. rewrite sin_plus, sin_minus, cos_neg, sin_neg, cos_PI2, sin_PI2.
    replace (-(1) * cos (res * PI / 180 / 2) + 0 * sin (res * PI / 180 / 2) - (-(1) * cos (res * PI / 180 / 2) - 0 * sin (res * PI / 180 / 2))) with 0 by ring. rewrite Rabs_R0. ring.
Qed.

(** As claimed: the computed areas are those of the cells on the sphere, and those of
    a global grid add up to the surface of the sphere. It fails on grids with rows at
    the poles (-90, -90 + res, ..., 90), whose polar rows get area zero. *)
Theorem C136_areas_cover_the_sphere_refuted :
  (forall res, grid_area res 90 = 0) /\
  exists a, is_zone_area 45 90 90 a /\ a <> grid_area 90 90 /\
  whole_grid 4 (grid_areas 90 [-90; 0; 90]) <> 4 * PI * earth_radius ^ 2.
Proof.
  split; [intro res; apply polar_row_zero|]. assert (P := PI_RGT_0).
  assert (S4 : 0 < sin (PI / 4) < 1).
  { split; [apply sin_gt_0; lra|]. rewrite <- sin_PI2. apply sin_increasing_1; lra. }
  exists (earth_radius ^ 2 * RiemannInt (cos_integrable (radians 45) (radians 90)) * radians 90).
  split; [exists (cos_integrable (radians 45) (radians 90)); reflexivity|]. split.
  - rewrite cos_integral, (proj1 (polar_row_zero 90)). unfold radians, earth_radius. replace (90 * PI / 180) with (PI / 2) by lra. replace (45 * PI / 180) with (PI / 4) by lra. rewrite sin_PI2.
    apply Rgt_not_eq. apply Rmult_lt_0_compat; [|lra]. apply Rmult_lt_0_compat; lra.
  - unfold whole_grid, grid_areas. cbn [map sum_R fold_right]. rewrite (proj1 (polar_row_zero 90)), (proj2 (polar_row_zero 90)). unfold grid_area, radians, earth_radius.
    replace (0 * PI / 180 + 90 * PI / 180 / 2) with (PI / 4) by lra. replace (0 * PI / 180 - 90 * PI / 180 / 2) with (- (PI / 4)) by lra. rewrite sin_neg.
    rewrite Rabs_right by lra. cbn [INR]. assert (2 * sin (PI / 4) <> 2) by lra. intro E. apply H. nra.
Qed.
Print Assumptions C136_areas_cover_the_sphere_refuted.

Theorem C136_cell_area_partial (res lat : R) :
  0 <= res -> -90 <= lat - res / 2 -> lat + res / 2 <= 90 -> is_zone_area (lat - res / 2) (lat + res / 2) res (grid_area res lat).
Proof.
  intros A B C. exists (cos_integrable (radians (lat - res / 2)) (radians (lat + res / 2))). rewrite cos_integral. unfold grid_area. rewrite Rabs_right by (apply Rle_ge; apply sin_gap; assumption).
  unfold radians. do 3 f_equal; f_equal; lra.
Qed.
Print Assumptions C136_cell_area_partial.

(** Sums of differences. *)
Lemma sum_steps (f : nat -> R) n m : sum_R (map (fun i => f (S i) - f i) (seq m n)) = f (m + n)%nat - f m.
Proof.
  revert m. induction n as [|n IH]; intro m; [rewrite Nat.add_0_r; cbn; lra|]. cbn [seq map sum_R fold_right]. fold (sum_R (map (fun i => f (S i) - f i) (seq (S m) n))). rewrite IH.
  replace (S m + n)%nat with (m + S n)%nat by lia. lra.
Qed.
Lemma sum_scaled k l : sum_R (map (fun a => k * a) l) = k * sum_R l.
Proof. induction l as [|a l IH]; [cbn; lra|]. cbn [map sum_R fold_right]. fold (sum_R (map (fun a => k * a) l)). fold (sum_R l). rewrite IH. lra. Qed.

Lemma rows_sum n : (0 < n)%nat -> sum_R (grid_areas (180 / INR n) (row_centres n)) = earth_radius ^ 2 * 2 * radians (180 / INR n).
Proof.
  intro N. assert (Nr : 0 < INR n) by (apply lt_0_INR; exact N). assert (P := PI_RGT_0).
  set (edge := fun i : nat => radians (-90 + INR i * (180 / INR n))).
  assert (Row : forall i, (i < n)%nat -> grid_area (180 / INR n) (-90 + (INR i + / 2) * (180 / INR n)) = earth_radius ^ 2 * radians (180 / INR n) * (sin (edge (S i)) - sin (edge i))).
  { intros i I. set (d := 180 / INR n). assert (D : 0 < d) by (unfold d; apply Rdiv_lt_0_compat; lra). assert (Dn : INR n * d = 180) by (unfold d; field; lra).
    assert (In : INR i + 1 <= INR n) by (rewrite <- S_INR; apply le_INR; lia). assert (I0 := pos_INR i).
    unfold grid_area. rewrite Rabs_right; [|apply Rle_ge; apply sin_gap; nra].
    replace (radians (-90 + (INR i + / 2) * d) + radians d / 2) with (edge (S i)) by (unfold edge, radians; fold d; rewrite S_INR; lra).
    replace (radians (-90 + (INR i + / 2) * d) - radians d / 2) with (edge i) by (unfold edge, radians; fold d; lra). ring. }
  unfold grid_areas, row_centres. rewrite map_map.
  rewrite (map_ext_in _ (fun i => (earth_radius ^ 2 * radians (180 / INR n)) * (sin (edge (S i)) - sin (edge i)))).
  2: { intros i I. apply in_seq in I. apply Row. lia. }
  rewrite <- (map_map (fun i => sin (edge (S i)) - sin (edge i)) (fun a => earth_radius ^ 2 * radians (180 / INR n) * a)).
  rewrite sum_scaled, (sum_steps (fun i => sin (edge i))). cbn [Nat.add].
  replace (edge n) with (PI / 2) by (unfold edge, radians; field_simplify; [lra|lra]).
  replace (edge 0%nat) with (- (PI / 2)) by (unfold edge, radians; cbn [INR]; lra). rewrite sin_neg, sin_PI2. lra.
Qed.

(** The whole grid of n rows and 2n columns. *)
Theorem C136_areas_cover_the_sphere_partial (n : nat) : (0 < n)%nat ->
  let res := 180 / INR n in
  whole_grid (2 * n) (grid_areas res (row_centres n)) = 4 * PI * earth_radius ^ 2 /\
  INR (n * (2 * n)) * mean_cell_area (grid_areas res (row_centres n)) = 4 * PI * earth_radius ^ 2.
Proof.
  intros N res. assert (Nr : 0 < INR n) by (apply lt_0_INR; exact N). unfold whole_grid, mean_cell_area. rewrite sum_scaled. unfold res. rewrite rows_sum by exact N.
  unfold grid_areas, row_centres. rewrite !map_length, seq_length, !mult_INR. cbn [INR]. unfold radians. split; field; lra.
Qed.
Print Assumptions C136_areas_cover_the_sphere_partial.

(** Two rows of four cells: each an eighth of the sphere. *)
Example C136_case : row_centres 2 = [-45; 45] /\ grid_area 90 45 = earth_radius ^ 2 * (PI / 2).
Proof.
  assert (P := PI_RGT_0). split; [unfold row_centres; cbn [seq map INR]; f_equal; [lra|f_equal; lra]|].
  unfold grid_area, radians. replace (45 * PI / 180 + 90 * PI / 180 / 2) with (PI / 2) by lra. replace (45 * PI / 180 - 90 * PI / 180 / 2) with 0 by lra. rewrite sin_PI2, sin_0.
  rewrite Rabs_right by lra. lra.
Qed.
