(** Property theorems C06-C12, C68-C70 (hole and gap filling). *)
From Verif Require Import Base Morph MorphSpec MorphProofs MorphTimeProofs MorphMeshProofs
  MorphPlaneProofs MorphWitness.
Open Scope Z_scope.

(** C06: structured preprocessing never marks a cell outside the mask, at any
    time, and keeps the number of time steps. *)
Theorem C06_masked_out_cells_never_marked (regional : bool) (T R ny nx : Z) (mask : img) (s s' : list img) :
  preprocess_morph regional T R ny nx mask s = Some s' ->
  length s' = length s /\ Forall (fun f => img_le f mask) s'.
Proof. exact (preprocess_masked regional T R ny nx mask s s'). Qed.
Print Assumptions C06_masked_out_cells_never_marked.

Theorem C06_radius_zero_is_identity (regional : bool) (ny nx : Z) (mask f : img) (y x : Z) :
  mask y x = true -> fill_holes_slice regional 0 ny nx mask f y x = f y x.
Proof. exact (fill_slice_R0 regional ny nx mask f y x). Qed.
Print Assumptions C06_radius_zero_is_identity.

Example C06_case : exists s', preprocess_morph false 2 1 9 10 (fun y _ => 2 <=? y)
    [disc_at 9 10 1 4 5; all_ocean] = Some s' /\ length s' = 2%nat.
Proof. eexists. split; reflexivity. Qed.

(** C07: monotone, and slice by slice. *)
Theorem C07_monotone_structured (regional : bool) (R ny nx : Z) (mask f g : img) :
  img_le f g ->
  img_le (fill_holes_slice regional R ny nx mask f) (fill_holes_slice regional R ny nx mask g).
Proof. exact (fill_slice_mono regional R ny nx mask f g). Qed.
Print Assumptions C07_monotone_structured.

Theorem C07_monotone_mesh (m : mesh) (R : nat) (mask v w : list bool) :
  mesh_ok m -> length mask = length m -> length v = length m -> length w = length m ->
  (forall i, atb v i = true -> atb w i = true) ->
  forall i, (i < length m)%nat ->
  atb (fill_holes_mesh m R mask v) i = true -> atb (fill_holes_mesh m R mask w) i = true.
Proof. exact (fill_mesh_mono m R mask v w). Qed.
Print Assumptions C07_monotone_mesh.

Example C07_case : img_le (disc_at 9 10 1 4 5) all_ocean.
Proof. intros y x _. reflexivity. Qed.

(** C08: shifting a global field in longitude does not shift the result. *)
Theorem C08_longitude_seam_invisible_refuted :
  exists R ny nx s mask f y x,
    0 < R /\ in_grid ny nx y x /\
    fill_holes_slice false R ny nx (shift_lon nx s mask) (shift_lon nx s f) y ((x + s) mod nx)
    <> fill_holes_slice false R ny nx mask f y x.
Proof. exact seam_witness. Qed.
Print Assumptions C08_longitude_seam_invisible_refuted.

Theorem C08_seam_clips_events_refuted :
  let f := disc_at 14 16 2 7 15 in
  f 7 0 = true /\ f 7 1 = true /\
  fill_holes_slice false 2 14 16 all_ocean f 7 15 = true /\
  fill_holes_slice false 2 14 16 all_ocean f 7 0 = false /\
  fill_holes_slice false 2 14 16 all_ocean f 7 1 = false /\
  fill_holes_slice false 2 14 16 all_ocean (shift_lon 16 8 f) 7 8 = true /\
  fill_holes_slice false 2 14 16 all_ocean (shift_lon 16 8 f) 7 9 = true.
Proof. exact seam_witness_R2. Qed.
Print Assumptions C08_seam_clips_events_refuted.

(** What is true: equivariance for cells that are, before and after the shift,
    at least 2R cells from the edges. *)
Theorem C08_longitude_seam_invisible_partial (R ny nx s : Z) (mask f : img) (y x : Z) :
  0 < R -> 0 < nx ->
  2 * R <= y < ny - 2 * R -> 2 * R <= x < nx - 2 * R ->
  2 * R <= (x + s) mod nx < nx - 2 * R ->
  fill_holes_slice false R ny nx (shift_lon nx s mask) (shift_lon nx s f) y ((x + s) mod nx)
  = fill_holes_slice false R ny nx mask f y x.
Proof. exact (fill_seam_partial R ny nx s mask f y x). Qed.
Print Assumptions C08_longitude_seam_invisible_partial.

(** ... and everywhere the code marks no more than the border-free filter of
    the periodic (or edge-continued) field, with equality away from the edges. *)
Theorem C08_never_more_than_border_free (regional : bool) (R ny nx : Z) (mask f : img) (y x : Z) :
  0 < R -> fill_holes_slice regional R ny nx mask f y x = true ->
  mask y x = true /\ plane_filter R (extend regional ny nx f) y x.
Proof. exact (fill_slice_below regional R ny nx mask f y x). Qed.
Print Assumptions C08_never_more_than_border_free.

Theorem C08_exact_away_from_edges (regional : bool) (R ny nx : Z) (mask f : img) (y x : Z) :
  0 < R -> 2 * R <= y < ny - 2 * R -> 2 * R <= x < nx - 2 * R ->
  (fill_holes_slice regional R ny nx mask f y x = true <->
   mask y x = true /\ plane_filter R (extend regional ny nx f) y x).
Proof. exact (fill_slice_exact regional R ny nx mask f y x). Qed.
Print Assumptions C08_exact_away_from_edges.

Example C08_case : 0 < 1 /\ 0 < 10 /\ 2 * 1 <= 4 < 9 - 2 * 1 /\ 2 * 1 <= 6 < 10 - 2 * 1 /\
  2 * 1 <= (6 + 7) mod 10 < 10 - 2 * 1 /\
  fill_holes_slice false 1 9 10 all_ocean (disc_at 9 10 1 4 5) 4 6 = true.
Proof. repeat split; try reflexivity; vm_compute; discriminate. Qed.

(** C09: rows at one pole see rows at the other pole. *)
Theorem C09_poles_not_neighbours_refuted :
  exists R ny nx mask f g y x,
    0 < R /\ in_grid ny nx y x /\ y < 2 /\
    (forall y' x', y' < ny - 1 -> f y' x' = g y' x') /\
    fill_holes_slice false R ny nx mask f y x <> fill_holes_slice false R ny nx mask g y x.
Proof. exact pole_witness. Qed.
Print Assumptions C09_poles_not_neighbours_refuted.

Theorem C09_rows_far_from_poles_are_local_partial (regional : bool) (R ny nx : Z) (mask f g : img) (y x : Z) :
  0 <= R -> 4 * R <= y < ny - 4 * R ->
  (forall y' x', y - 4 * R <= y' <= y + 4 * R -> f y' x' = g y' x') ->
  fill_holes_slice regional R ny nx mask f y x = fill_holes_slice regional R ny nx mask g y x.
Proof. exact (fill_rows_local regional R ny nx mask f g y x). Qed.
Print Assumptions C09_rows_far_from_poles_are_local_partial.

Example C09_case : 0 <= 1 /\ 4 * 1 <= 6 < 12 - 4 * 1 /\
  (forall y' x', 6 - 4 * 1 <= y' <= 6 + 4 * 1 ->
     disc_at 12 12 1 6 6 y' x' = (fun y x => disc_at 12 12 1 6 6 y x || (y =? 0)) y' x').
Proof.
  repeat split; try lia. intros y' x' H. assert (E : (y' =? 0) = false) by lia.
  rewrite E, orb_false_r. reflexivity.
Qed.

(** C10: temporal closing fills exactly the gaps of at most T_fill steps. *)
Theorem C10_fills_exactly_short_gaps (T : Z) (l l' : list bool) :
  0 <= T -> Z.even T = true -> close_time T l = Some l' ->
  length l' = length l /\
  forall t, 0 <= t < Z.of_nat (length l) -> (ext l' t <-> ext l t \/ in_short_gap T l t).
Proof. exact (close_time_gaps T l l'). Qed.
Print Assumptions C10_fills_exactly_short_gaps.

Theorem C10_record_level (regional : bool) (T R ny nx : Z) (mask : img) (s s' : list img) :
  0 <= T -> Z.even T = true ->
  fill_time_gaps regional T R ny nx mask s = Some s' ->
  length s' = length s /\
  exists closed,
    length closed = length s /\
    (forall y x t, (t < length s)%nat ->
      (nth t closed (fun _ _ => false) y x = true <->
       ext (series_at s y x) (Z.of_nat t) \/ in_short_gap T (series_at s y x) (Z.of_nat t))) /\
    ((T = 0 /\ s' = s) \/ (0 < T /\ s' = fill_holes regional (R / 2) ny nx mask closed)).
Proof. exact (fill_time_gaps_spec regional T R ny nx mask s s'). Qed.
Print Assumptions C10_record_level.

Theorem C10_accepted_T_always_runs (T : Z) (l : list bool) :
  0 <= T -> exists l', close_time T l = Some l'.
Proof. exact (close_time_total T l). Qed.
Print Assumptions C10_accepted_T_always_runs.

Example C10_case :
  close_time 2 gap_series = Some [false; true; true; true; true; false; false; false; true].
Proof. exact gap_series_closed. Qed.

(** C11: R-fold sparse dilation = R-hop neighbourhood. *)
Theorem C11_dilation_is_hop_neighbourhood (m : mesh) (R : nat) :
  mesh_ok m -> forall v i, (i < length m)%nat ->
  (atb (sparse_power m R v) i = true <-> exists j, within m R i j /\ atb v j = true).
Proof. exact (sparse_power_at m R). Qed.
Print Assumptions C11_dilation_is_hop_neighbourhood.

Example C11_case : mesh_ok strip /\ sparse_power strip 2 strip_data = [true; true; true; true; true; true].
Proof. split; [exact strip_ok|vm_compute; reflexivity]. Qed.

(** C12: the shore is not eroded; nothing is marked far from an extreme cell. *)
Theorem C12_shore_survives (m : mesh) (R : nat) (mask v : list bool) (i : nat) :
  mesh_ok m -> mesh_sym m -> length mask = length m -> length v = length m -> (i < length m)%nat ->
  (forall j, within m R i j -> atb mask j = false \/ atb v j = true) ->
  atb (fill_holes_mesh m R mask v) i = true.
Proof. exact (shore_survives m R mask v i). Qed.
Print Assumptions C12_shore_survives.

Theorem C12_marks_only_near_extremes (m : mesh) (R : nat) (mask v : list bool) (i : nat) :
  mesh_ok m -> mesh_sym m -> length mask = length m -> length v = length m -> (i < length m)%nat ->
  atb mask i = true -> atb (fill_holes_mesh m R mask v) i = true ->
  exists l, within m R i l /\ atb v l = true.
Proof. exact (fill_mesh_stays_near m R mask v i). Qed.
Print Assumptions C12_marks_only_near_extremes.

(** Land cells do come out marked on meshes (no final masking). *)
Theorem C12_land_never_marked_refuted :
  exists m R mask v i, mesh_ok m /\ mesh_sym m /\ length mask = length m /\ length v = length m /\
    (i < length m)%nat /\
    (forall k, atb v k = true -> atb mask k = true) /\
    atb mask i = false /\ atb (fill_holes_mesh m R mask v) i = true.
Proof. exact mesh_land_flagged. Qed.
Print Assumptions C12_land_never_marked_refuted.

Example C12_case : mesh_ok strip /\ mesh_sym strip /\
  fill_holes_mesh strip 1 strip_mask strip_data = [false; false; true; true; true; true].
Proof. exact (conj strip_ok (conj strip_sym strip_shore)). Qed.

(** C68: filling a filled field again changes nothing (away from the edges). *)
Theorem C68_refilling_changes_nothing_partial (regional : bool) (R ny nx : Z) (f : img) (y x : Z) :
  0 < R -> 6 * R <= y < ny - 6 * R -> 6 * R <= x < nx - 6 * R ->
  let all := fun _ _ => true in
  fill_holes_slice regional R ny nx all (fill_holes_slice regional R ny nx all f) y x
  = fill_holes_slice regional R ny nx all f y x.
Proof. exact (fill_stable regional R ny nx f y x). Qed.
Print Assumptions C68_refilling_changes_nothing_partial.

Example C68_case : 0 < 1 /\ 6 * 1 <= 7 < 14 - 6 * 1.
Proof. lia. Qed.

(** C69: solid events survive (the disc may reach past the seam or the edge, where the
    field continues periodically or by its edge values), and marks stay near extremes. *)
Theorem C69_events_containing_a_disc_survive (regional : bool) (R ny nx : Z) (mask f : img) (cy cx dy dx : Z) :
  0 < R -> in_grid ny nx cy cx ->
  (forall ey ex, in_disk R ey ex -> extend regional ny nx f (cy + ey) (cx + ex)) ->
  in_disk R dy dx -> mask (cy + dy) (cx + dx) = true ->
  fill_holes_slice regional R ny nx mask f (cy + dy) (cx + dx) = true.
Proof. exact (fill_keeps_disc_in_grid regional R ny nx mask f cy cx dy dx). Qed.
Print Assumptions C69_events_containing_a_disc_survive.

Theorem C69_marks_only_near_extremes (regional : bool) (R ny nx : Z) (mask f : img) (y x : Z) :
  0 < R -> fill_holes_slice regional R ny nx mask f y x = true ->
  exists dy dx, in_disk R dy dx /\ extend regional ny nx f (y + dy) (x + dx).
Proof. exact (fill_slice_near regional R ny nx mask f y x). Qed.
Print Assumptions C69_marks_only_near_extremes.

Example C69_case : 0 < 1 /\ fill_holes_slice true 1 9 10 all_ocean (disc_at 9 10 1 4 5) 4 6 = true.
Proof. split; [lia|vm_compute; reflexivity]. Qed.

(** C70: the regional edge padding does not prevent edge effects. *)
Theorem C70_regional_edges_not_eroded_refuted :
  exists R ny nx f y x,
    0 < R /\ in_grid ny nx y x /\ f y x = true /\
    plane_filter R (extend true ny nx f) y x /\
    fill_holes_slice true R ny nx all_ocean f y x = false.
Proof. exact regional_edge_witness. Qed.
Print Assumptions C70_regional_edges_not_eroded_refuted.
(** What is true: an event survives up to the edge where it fills the part inside the
    domain of a disc centred in the domain. *)
Theorem C70_regional_edges_not_eroded_partial (R ny nx : Z) (mask f : img) (cy cx dy dx : Z) :
  0 < R -> in_grid ny nx cy cx ->
  (forall ey ex, in_disk R ey ex -> in_grid ny nx (cy + ey) (cx + ex) -> f (cy + ey) (cx + ex) = true) ->
  in_disk R dy dx -> mask (cy + dy) (cx + dx) = true ->
  fill_holes_slice true R ny nx mask f (cy + dy) (cx + dx) = true.
Proof. exact (fill_keeps_clipped_disc R ny nx mask f cy cx dy dx). Qed.
Print Assumptions C70_regional_edges_not_eroded_partial.
(** Away from the edges the result is the border-free one. *)
Theorem C70_exact_away_from_edges_partial (R ny nx : Z) (mask f : img) (y x : Z) :
  0 < R -> 2 * R <= y < ny - 2 * R -> 2 * R <= x < nx - 2 * R ->
  (fill_holes_slice true R ny nx mask f y x = true <->
   mask y x = true /\ plane_filter R (extend true ny nx f) y x).
Proof. exact (fill_slice_exact true R ny nx mask f y x). Qed.
Print Assumptions C70_exact_away_from_edges_partial.
(** Half a disc on the edge is kept as it is. *)
Example C70_case : let f := fun y x => (y * y + (x - 4) * (x - 4) <=? 4) in
  forallb (fun p => Bool.eqb (fill_holes_slice true 2 6 9 all_ocean f (fst p) (snd p)) (f (fst p) (snd p))) (list_prod (zrange 0 6) (zrange 0 9)) = true.
Proof. vm_compute. reflexivity. Qed.
