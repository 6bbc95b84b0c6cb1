(** Properties of centroids: C38, C76, C77, C78. *)
From Coq Require Import Qround Lqa.
From Verif Require Import Base Filter Overlap OverlapProofs ClusterFinal Partition PartitionProofs Centroid CentroidSpec CentroidProofs CentroidMore.
Open Scope nat_scope.

(** C38: a shape within half a grid width of the seam and reaching the columns
    near both edges has, modulo the width, the centroid of the same shape moved
    away from the edges (further than 100 columns from one of them). *)
Theorem C38_object_centroid_periodic_partial : forall ny nx mask mask' s d,
  0 < nx -> s <> [] -> drawn ny nx mask s -> drawn ny nx mask' (moved d s) ->
  around_seam nx s -> near_both nx s -> inside nx (moved d s) -> ~ near_both nx (moved d s) ->
  let c := calculate_centroid false nx mask in
  let c' := calculate_centroid false nx mask' in
  (fst c' == fst c)%Q /\ same_col nx (snd c') (snd c + inject_Z d).
Proof.
  intros ny nx mask mask' s d H Hs D D' A N I O. cbn [calculate_centroid fst snd]. split.
  - apply (shift_rows ny nx mask mask' s d (fun _ => 1%Q) (fun _ => 1%Q) mean mean);
      try assumption; try apply mean_averages; intros; lra.
  - apply (shift_cols ny nx mask mask' s d (fun _ => 1%Q) (fun _ => 1%Q) mean mean);
      try assumption; try apply mean_averages; intros; lra.
Qed.
Print Assumptions C38_object_centroid_periodic_partial.

(** The same for the area-weighted centroids of events, in pixels, when cell
    areas depend on the latitude only. *)
Theorem C38_event_centroid_periodic_partial : forall ny nx mask mask' s d ca wt,
  0 < nx -> s <> [] -> drawn ny nx mask s -> drawn ny nx mask' (moved d s) -> row_areas ny nx ca wt ->
  around_seam nx s -> near_both nx s -> inside nx (moved d s) -> ~ near_both nx (moved d s) ->
  let c := event_pixel false nx ca mask in
  let c' := event_pixel false nx ca mask' in
  (fst c' == fst c)%Q /\ same_col nx (snd c') (snd c + inject_Z d).
Proof.
  intros ny nx mask mask' s d ca wt H Hs D D' [Wa Wp] A N I O. cbn [event_pixel fst snd]. split.
  - apply (shift_rows ny nx mask mask' s d (fun k => nth k ca 0%Q) wt _ _);
      try assumption; try apply wmean_averages.
  - apply (shift_cols ny nx mask mask' s d (fun k => nth k ca 0%Q) wt _ _);
      try assumption; try apply wmean_averages.
Qed.
Print Assumptions C38_event_centroid_periodic_partial.

(** A three-cell object across the seam of a grid 260 wide. *)
Definition seam_shape : shape := [(0, (-2)%Z); (0, (-1)%Z); (1, 0%Z)].
Example C38_case : exists mask mask' ca,
  drawn 2 260 mask seam_shape /\ drawn 2 260 mask' (moved 120 seam_shape) /\
  around_seam 260 seam_shape /\ near_both 260 seam_shape /\ inside 260 (moved 120 seam_shape) /\
  ~ near_both 260 (moved 120 seam_shape) /\ row_areas 2 260 ca (fun y => inject_Z (Z.of_nat y + 1)) /\
  (snd (calculate_centroid false 260 mask) == 259)%Q /\ (snd (calculate_centroid false 260 mask') == 119)%Q.
Proof.
  exists (draw 2 260 seam_shape), (draw 2 260 (moved 120 seam_shape)),
    (repeat 1%Q 260 ++ repeat 2%Q 260).
  split. { apply draw_drawn; [lia| |].
    - vm_compute. repeat constructor; cbn; intuition discriminate.
    - intros p I. cbn in I. destruct I as [<-|[<-|[<-|[]]]]; cbn; lia. }
  split. { apply draw_drawn; [lia| |].
    - vm_compute. repeat constructor; cbn; intuition discriminate.
    - intros p I. cbn in I. destruct I as [<-|[<-|[<-|[]]]]; cbn; lia. }
  split. { intros p I. cbn in I. destruct I as [<-|[<-|[<-|[]]]]; cbn; lia. }
  split. { split; [exists (1, 0%Z)|exists (0, (-1)%Z)]; cbn; intuition lia. }
  split. { intros p I. cbn in I. destruct I as [<-|[<-|[<-|[]]]]; cbn; lia. }
  split. { intros [(p & I & C) _]. cbn in I. destruct I as [<-|[<-|[<-|[]]]]; cbn in C; lia. }
  split. { split.
    - intros k K. destruct (Nat.lt_ge_cases k 260) as [B|B].
      + rewrite app_nth1 by (rewrite repeat_length; lia).
        rewrite (nth_indep _ 0%Q 1%Q) by (rewrite repeat_length; lia). rewrite nth_repeat.
        rewrite Nat.div_small by lia. reflexivity.
      + rewrite app_nth2 by (rewrite repeat_length; lia). rewrite repeat_length.
        rewrite (nth_indep _ 0%Q 2%Q) by (rewrite repeat_length; lia). rewrite nth_repeat.
        replace (k / 260) with 1; [reflexivity|]. apply (Nat.div_unique _ _ _ (k - 260)); lia.
    - intros y _. change 0%Q with (inject_Z 0). rewrite <- Zlt_Qlt. lia. }
  split; vm_compute; reflexivity.
Qed.

Definition narrow_shape : shape := [(0, (-2)%Z); (0, (-1)%Z); (0, 0%Z)].
(** Without those restrictions it fails: on a grid 8 wide the centroid of three
    cells in the middle is moved to the wrong place ... *)
Theorem C38_narrow_grid_refuted : exists s d,
  let nx := 8 in
  let c := calculate_centroid false nx (draw 1 nx s) in
  let c' := calculate_centroid false nx (draw 1 nx (moved d s)) in
  drawn 1 nx (draw 1 nx s) s /\ drawn 1 nx (draw 1 nx (moved d s)) (moved d s) /\
  touches_edges nx s /\ off_edges nx (moved d s) /\ around_seam nx s /\
  ~ same_col nx (snd c') (snd c + inject_Z d).
Proof.
  exists narrow_shape, 5%Z.
  split. { apply draw_drawn; [lia| |].
    - vm_compute. repeat constructor; cbn; intuition discriminate.
    - intros p I. cbn in I. destruct I as [<-|[<-|[<-|[]]]]; cbn; lia. }
  split. { apply draw_drawn; [lia| |].
    - vm_compute. repeat constructor; cbn; intuition discriminate.
    - intros p I. cbn in I. destruct I as [<-|[<-|[<-|[]]]]; cbn; lia. }
  split. { split; [exists (0, 0%Z)|exists (0, (-1)%Z)]; cbn; intuition lia. }
  split. { intros p I. cbn in I. destruct I as [<-|[<-|[<-|[]]]]; cbn; lia. }
  split. { intros p I. cbn in I. destruct I as [<-|[<-|[<-|[]]]]; cbn; lia. }
  assert (E1 : (snd (calculate_centroid false 8 (draw 1 8 narrow_shape)) == 7)%Q)
    by (vm_compute; reflexivity).
  assert (E2 : (snd (calculate_centroid false 8 (draw 1 8 (moved 5 narrow_shape))) == 4 # 3)%Q)
    by (vm_compute; reflexivity).
  intros [k K]. cbv zeta in K. rewrite E1, E2 in K. unfold Qeq in K. cbn in K. lia.
Qed.
Print Assumptions C38_narrow_grid_refuted.

(** ... and on a wide grid so is that of an object that spans more than half the
    grid (three of its cells suffice). *)
Definition wide_shape : shape := [(0, (-1)%Z); (0, 0%Z); (0, 206%Z)].
Theorem C38_wide_object_refuted : exists d,
  let nx := 410 in
  let s := wide_shape in
  let c := calculate_centroid false nx (draw 1 nx s) in
  let c' := calculate_centroid false nx (draw 1 nx (moved d s)) in
  drawn 1 nx (draw 1 nx s) s /\ drawn 1 nx (draw 1 nx (moved d s)) (moved d s) /\
  touches_edges nx s /\ off_edges nx (moved d s) /\ ~ near_both nx (moved d s) /\
  ~ same_col nx (snd c') (snd c + inject_Z d).
Proof.
  exists 101%Z.
  split. { apply draw_drawn; [lia| |].
    - vm_compute. repeat constructor; cbn; intuition discriminate.
    - intros p I. cbn in I. destruct I as [<-|[<-|[<-|[]]]]; cbn; lia. }
  split. { apply draw_drawn; [lia| |].
    - vm_compute. repeat constructor; cbn; intuition discriminate.
    - intros p I. cbn in I. destruct I as [<-|[<-|[<-|[]]]]; cbn; lia. }
  split. { split; [exists (0, 0%Z)|exists (0, (-1)%Z)]; cbn; intuition lia. }
  split. { intros p I. cbn in I. destruct I as [<-|[<-|[<-|[]]]]; cbn; lia. }
  split. { intros [_ (p & I & C)]. cbn in I. destruct I as [<-|[<-|[<-|[]]]]; vm_compute in C; apply C; reflexivity. }
  assert (E1 : (snd (calculate_centroid false 410 (draw 1 410 wide_shape)) == 1025 # 3)%Q)
    by (vm_compute; reflexivity).
  assert (E2 : (snd (calculate_centroid false 410 (draw 1 410 (moved 101 wide_shape))) == 508 # 3)%Q)
    by (vm_compute; reflexivity).
  intros [k K]. cbv zeta in K. rewrite E1, E2 in K. unfold Qeq in K. cbn [Qplus Qnum Qden inject_Z Pos.mul] in K. change (Z.of_nat 410) with 410%Z in K. lia.
Qed.
Print Assumptions C38_wide_object_refuted.

(** C76: centroids stay on the grid, for every non-empty object, every grid and
    positive cell areas. *)
Theorem C76_object_centroid_on_grid : forall regional ny nx mask,
  0 < nx -> length mask = ny * nx -> (exists k, nth k mask false = true) ->
  let c := calculate_centroid regional nx mask in
  (0 <= fst c)%Q /\ (fst c <= natQ (ny - 1))%Q /\ (0 <= snd c)%Q /\ (snd c < natQ nx)%Q.
Proof.
  intros regional ny nx mask H L (k & K). cbn [calculate_centroid fst snd].
  assert (N : points mask <> []).
  { assert (I : In k (points mask)). { apply points_In. split; [|exact K].
      destruct (Nat.lt_ge_cases k (length mask)) as [A|A]; [exact A|]. rewrite nth_overflow in K by exact A. discriminate. }
    intro E. rewrite E in I. exact I. }
  assert (R := row_range (fun _ => 1%Q) mask mean nx 0 (ny - 1) (mean_averages mask) N (fun _ _ => eq_refl)).
  assert (C := col_range regional nx (fun _ => 1%Q) mask mean H (mean_averages mask) N (fun _ _ => eq_refl)).
  destruct R as [R1 R2].
  { intros j I. apply points_In in I. assert (U : j / nx < ny) by (apply Nat.div_lt_upper_bound; lia). generalize dependent (j / nx). intros; lia. }
  change (natQ 0) with 0%Q in R1. tauto.
Qed.
Print Assumptions C76_object_centroid_on_grid.

Theorem C76_event_centroid_on_grid : forall regional ny nx ca mask,
  0 < nx -> length mask = ny * nx -> (exists k, nth k mask false = true) ->
  (forall k, k < ny * nx -> (0 < nth k ca 0)%Q) ->
  let c := event_pixel regional nx ca mask in
  (0 <= fst c)%Q /\ (fst c <= natQ (ny - 1))%Q /\ (0 <= snd c)%Q /\ (snd c < natQ nx)%Q.
Proof.
  intros regional ny nx ca mask H L (k & K) W. cbn [event_pixel fst snd].
  assert (N : points mask <> []).
  { assert (I : In k (points mask)). { apply points_In. split; [|exact K].
      destruct (Nat.lt_ge_cases k (length mask)) as [A|A]; [exact A|]. rewrite nth_overflow in K by exact A. discriminate. }
    intro E. rewrite E in I. exact I. }
  assert (Wp : forall j, In j (points mask) -> (0 < nth j ca 0)%Q).
  { intros j I. apply points_In in I. apply W. lia. }
  assert (R := row_range _ mask _ nx 0 (ny - 1) (wmean_averages ca mask) N Wp).
  assert (C := col_range regional nx _ mask _ H (wmean_averages ca mask) N Wp).
  destruct R as [R1 R2].
  { intros j I. apply points_In in I. assert (U : j / nx < ny) by (apply Nat.div_lt_upper_bound; lia). generalize dependent (j / nx). intros; lia. }
  change (natQ 0) with 0%Q in R1. tauto.
Qed.
Print Assumptions C76_event_centroid_on_grid.

Example C76_case :
  let c := calculate_centroid false 5 (draw 2 5 [(0, (-1)%Z); (1, 0%Z)]) in
  (fst c == 1 # 2)%Q /\ (snd c == 9 # 2)%Q.
Proof. split; vm_compute; reflexivity. Qed.

(** C77: the centroid latitude of an event lies between the smallest and the
    largest latitude of the rows it spans, at every time it is present. *)
Theorem C77_event_latitude_within : forall regional ny nx lats lons ca field id lo hi A B,
  0 < nx -> length field = ny * nx -> length lats = ny ->
  (forall k, k < ny * nx -> (0 < nth k ca 0)%Q) ->
  (forall y x, y < ny -> x < nx -> nth (y * nx + x) field 0%Z = id -> lo <= y <= hi) ->
  hi < ny -> (forall y, lo <= y <= hi -> (A <= nth y lats 0 <= B)%Q) ->
  (exists k, k < ny * nx /\ nth k field 0%Z = id) ->
  exists c, event_centroid regional nx lats lons ca field id = Some c /\ (A <= fst c <= B)%Q.
Proof.
  intros regional ny nx lats lons ca field id lo hi A B H L La W S Hh V (k & Kl & K).
  assert (Pt : forall j, In j (points (mask_of id field)) <-> j < ny * nx /\ nth j field 0%Z = id).
  { intro j. rewrite points_In. unfold mask_of. rewrite map_length, L. split; intros [U T]; (split; [exact U|]).
    - rewrite (nth_map_gen _ _ _ 0%Z) in T by lia. apply Z.eqb_eq in T. congruence.
    - rewrite (nth_map_gen _ _ _ 0%Z) by lia. apply Z.eqb_eq. congruence. }
  assert (I : In k (points (mask_of id field))) by (apply Pt; tauto).
  assert (N : points (mask_of id field) <> []) by (intro E; rewrite E in I; exact I).
  unfold event_centroid. destruct (points (mask_of id field)) as [|p0 ps] eqn:E; [congruence|]. rewrite <- E in *. clear E p0 ps.
  eexists. split; [reflexivity|]. cbn [fst event_pixel].
  apply (interp_range lats _ lo hi); [lia| |exact V].
  apply (row_range _ _ _ nx lo hi (wmean_averages ca _) N).
  - intros j J. apply Pt in J. apply W. tauto.
  - intros j J. apply Pt in J. destruct J as [J1 J2]. apply (S (j / nx) (j mod nx)).
    + apply Nat.div_lt_upper_bound; lia.
    + apply Nat.mod_upper_bound. lia.
    + rewrite Nat.mul_comm, <- Nat.div_mod by lia. exact J2.
Qed.
Print Assumptions C77_event_latitude_within.

(** The whole table of a time step: entry [i] is for event [i + 1], empty exactly when
    that event is not there, its latitude within the rows of that event. *)
Theorem C77_table_within : forall regional ny nx lats lons ca field present,
  0 < nx -> length field = ny * nx -> length lats = ny ->
  (forall k, k < ny * nx -> (0 < nth k ca 0)%Q) ->
  (forall i, i < length present -> nth i present false = true <-> In (Z.of_nat (S i)) field) ->
  let table := event_centroids regional nx lats lons ca field present in
  length table = length present /\
  forall i, i < length present ->
    (nth i table None = None <-> ~ In (Z.of_nat (S i)) field) /\
    forall c lo hi A B, nth i table None = Some c ->
      (forall y x, y < ny -> x < nx -> nth (y * nx + x) field 0%Z = Z.of_nat (S i) -> lo <= y <= hi) ->
      hi < ny -> (forall y, lo <= y <= hi -> (A <= nth y lats 0 <= B)%Q) -> (A <= fst c <= B)%Q.
Proof.
  intros regional ny nx lats lons ca field present H L La W P table. unfold table, event_centroids. split; [rewrite map_length, seq_length; reflexivity|].
  intros i Hi. rewrite (nth_map_gen _ _ _ 0) by (rewrite seq_length; exact Hi). rewrite seq_nth by exact Hi. cbn [Nat.add].
  replace (Z.of_nat i + 1)%Z with (Z.of_nat (S i)) by lia. specialize (P i Hi).
  assert (At : In (Z.of_nat (S i)) field -> exists k, k < ny * nx /\ nth k field 0%Z = Z.of_nat (S i)).
  { intro I. apply (In_nth _ _ 0%Z) in I. destruct I as (k & K & E). exists k. split; [lia|exact E]. }
  destruct (nth i present false).
  - assert (I : In (Z.of_nat (S i)) field) by (apply P; reflexivity). split.
    + split; [|contradiction]. intro E. exfalso.
      destruct (At I) as (k & K & Ek). unfold event_centroid in E. destruct (points (mask_of (Z.of_nat (S i)) field)) eqn:Pt; [|discriminate].
      assert (In k []) as []. rewrite <- Pt. apply points_In. unfold mask_of. rewrite map_length, L. split; [exact K|]. rewrite (nth_map_gen _ _ _ 0%Z) by lia. apply Z.eqb_eq. congruence.
    + intros c lo hi A B C Sp Hh V. destruct (C77_event_latitude_within regional ny nx lats lons ca field (Z.of_nat (S i)) lo hi A B H L La W Sp Hh V (At I)) as (c' & E & R).
      rewrite C in E. injection E as <-. exact R.
  - split; [|discriminate]. split; [|reflexivity]. intros _ I. apply P in I. discriminate.
Qed.
Print Assumptions C77_table_within.
Example C77_table_case :
  match event_centroids false 2 [(-10)%Q; 0%Q; 10%Q] [0%Q; 180%Q] (repeat 1%Q 6) [0;0;0;2;2;0]%Z [false; true] with
  | [None; Some c] => (fst c == 5)%Q | _ => False end.
Proof. vm_compute. reflexivity. Qed.

(** Event 7 in rows 1 and 2 of a 3 x 2 grid. *)
Example C77_case :
  match event_centroid false 2 [(-10)%Q; 0%Q; 10%Q] [0%Q; 180%Q] (repeat 1%Q 6) [0;0;0;7;7;0]%Z 7 with
  | Some c => (fst c == 5)%Q | None => False end.
Proof. vm_compute. reflexivity. Qed.

(** C78: with evenly spaced longitudes the reported longitude is that of the
    pixel centroid, as long as it is not beyond the last column ... *)
Theorem C78_event_longitude_partial : forall regional ny nx l0 dl lats lons ca field id,
  0 < nx -> length field = ny * nx -> evenly nx l0 dl lons ->
  forall c, event_centroid regional nx lats lons ca field id = Some c ->
  let x := snd (event_pixel regional nx ca (mask_of id field)) in
  (0 <= x)%Q -> (x <= natQ (nx - 1))%Q -> (snd c == l0 + dl * x)%Q.
Proof.
  intros regional ny nx l0 dl lats lons ca field id H L E c C x X0 X1. unfold event_centroid in C.
  destruct (points (mask_of id field)); [discriminate|]. injection C as <-. cbn [snd].
  apply (interp_evenly nx); [exact E|lia|split; assumption].
Qed.
Print Assumptions C78_event_longitude_partial.

(** ... beyond it the error is less than one spacing, for every event ... *)
Theorem C78_event_longitude_error_partial : forall regional ny nx l0 dl lats lons ca field id,
  0 < nx -> length field = ny * nx -> evenly nx l0 dl lons -> (0 < dl)%Q ->
  (forall k, k < ny * nx -> (0 < nth k ca 0)%Q) ->
  forall c, event_centroid regional nx lats lons ca field id = Some c ->
  let x := snd (event_pixel regional nx ca (mask_of id field)) in
  (l0 + dl * x - dl < snd c)%Q /\ (snd c <= l0 + dl * x)%Q.
Proof.
  intros regional ny nx l0 dl lats lons ca field id H L E Dl W c C x.
  assert (R : (0 <= x /\ x < natQ nx)%Q).
  { unfold event_centroid in C. destruct (points (mask_of id field)) as [|p ps] eqn:P; [discriminate|].
    assert (I : In p (points (mask_of id field))) by (rewrite P; left; reflexivity).
    apply points_In in I. unfold mask_of in I. rewrite map_length, L in I.
    assert (U := C76_event_centroid_on_grid regional ny nx ca (mask_of id field) H).
    unfold mask_of at 1 in U. rewrite map_length, L in U. specialize (U eq_refl).
    destruct U as (_ & _ & U); [exists p; apply I|exact W|]. exact U. }
  assert (Ec : snd c = interp lons x).
  { unfold event_centroid in C. destruct (points (mask_of id field)); [discriminate|]. injection C as <-. reflexivity. }
  rewrite Ec. assert (S1 := natQ_sub nx 1 ltac:(lia)). change (natQ 1) with 1%Q in S1.
  destruct (Qlt_le_dec (natQ (nx - 1)) x) as [B|B].
  - rewrite (interp_clamped nx l0 dl lons x E H) by lra. split; nra.
  - rewrite (interp_evenly nx l0 dl lons x E H) by lra. split; lra.
Qed.
Print Assumptions C78_event_longitude_error_partial.

(** ... and there is one: two cells either side of the seam of a 4-column grid
    with longitudes 0, 90, 180, 270 have their centre at 315, reported as 270. *)
Theorem C78_event_longitude_refuted : exists ny nx l0 dl lats lons ca field id c,
  0 < nx /\ length field = ny * nx /\ evenly nx l0 dl lons /\ (0 < dl)%Q /\
  (forall k, k < ny * nx -> (0 < nth k ca 0)%Q) /\
  event_centroid false nx lats lons ca field id = Some c /\
  let x := snd (event_pixel false nx ca (mask_of id field)) in
  (x == 7 # 2)%Q /\ (l0 + dl * x == 315)%Q /\ (snd c == 270)%Q.
Proof.
  exists 1, 4, 0%Q, 90%Q, [0%Q], [0%Q; 90%Q; 180%Q; 270%Q], (repeat 1%Q 4), [1;0;0;1]%Z, 1%Z.
  eexists. split; [lia|]. split; [reflexivity|]. split.
  { split; [reflexivity|]. intros j J. do 4 (destruct j as [|j]; [vm_compute; reflexivity|]). lia. }
  split; [lra|]. split. { intros k K. do 4 (destruct k as [|k]; [vm_compute; reflexivity|]). lia. }
  split; [vm_compute; reflexivity|]. cbv zeta. repeat split; vm_compute; reflexivity.
Qed.
Print Assumptions C78_event_longitude_refuted.
