(** Properties of centroids and distances on meshes. *)
From Coq Require Import Reals Lra Lia Permutation Sorted.
From Verif Require Import Base Filter FilterProofs Sphere SphereSpec SphereProofs SphereTableProofs.
Open Scope R_scope.

Definition position (c : geo) : R * R := (g_lat c, g_lon c).

(** ** C109 *)
(** No point of the sphere has a smaller area-weighted sum of squared distances to
    the cells than the centroid, whose coordinates are in the usual ranges. *)
Theorem C109_centroid_minimises : forall cells,
  usual (sphere_centroid cells) /\
  forall p, total (fun c => g_area c * apart2 (position c) (sphere_centroid cells)) cells
            <= total (fun c => g_area c * apart2 (position c) p) cells.
Proof.
  intro l. split; [apply centroid_range|]. intro p. rewrite !total_sum.
  assert (E : forall q, sumR (fun c => g_area c * apart2 (position c) q) l = 2 * sumR g_area l + (-2) * sumR (fun c => g_area c * dotp (pt c) q) l).
  { intro q. rewrite <- !sumR_scale, <- sumR_plus. apply sumR_ext. intros c _. rewrite apart2_dot. unfold position, pt. ring. }
  rewrite !E. assert (B := centroid_best l p). lra.
Qed.
Print Assumptions C109_centroid_minimises.

(** If all cells are within an arc r of some point, r less than a quarter turn,
    so is the centroid. *)
Theorem C109_centroid_within : forall cells p r,
  cells <> [] -> (forall c, In c cells -> 0 < g_area c) -> 0 <= r < PI / 2 ->
  (forall c, In c cells -> exists t, is_arc p (position c) t /\ t <= r) ->
  exists t, is_arc p (sphere_centroid cells) t /\ t <= r.
Proof.
  intros l p r Ne P R0 H. exists (haversine p (sphere_centroid l)). split; [apply arc_haversine|].
  assert (Pp := PI_RGT_0). assert (K : 0 < cos r) by (apply cos_gt_0; lra).
  destruct (cap l p (cos r) Ne P K) as [_ C].
  - intros c Hc. destruct (H c Hc) as (t & [[T0 T1] T2] & L). rewrite inner_dot in T2. change (pt c) with (position c). rewrite <- T2. apply cos_decr_1; lra.
  - destruct (haversine_spec p (sphere_centroid l)) as [E [B1 B2]]. rewrite <- E in C. apply cos_decr_0 in C; lra.
Qed.
Print Assumptions C109_centroid_within.

(** Cells poleward of a latitude have their centroid poleward of it. *)
Theorem C109_centroid_poleward : forall cells b,
  cells <> [] -> (forall c, In c cells -> 0 < g_area c) -> 0 < b <= 90 ->
  ((forall c, In c cells -> b <= g_lat c <= 90) -> b <= fst (sphere_centroid cells)) /\
  ((forall c, In c cells -> -90 <= g_lat c <= - b) -> fst (sphere_centroid cells) <= - b).
Proof.
  intros l b Ne P B. assert (Pp := PI_RGT_0).
  assert (Rb : 0 < rad b <= PI / 2) by (split; [rewrite <- (Rmult_0_l (PI / 180)); unfold rad; nra|rewrite <- rad_90; apply rad_le; lra]).
  assert (K : 0 < sin (rad b)) by (apply sin_gt_0; lra).
  assert (Rc := proj1 (centroid_range l)). set (c0 := sphere_centroid l) in *.
  assert (R1 : - (PI / 2) <= rad (fst c0) <= PI / 2) by (rewrite <- rad_m90, <- rad_90; split; apply rad_le; lra).
  assert (N : rad (-90) = - (PI / 2)) by apply rad_m90.
  assert (U : forall q, dotp (90, 0) q = uz q).
  { intro q. unfold dotp, ux at 1, uy at 1, uz at 1. cbn [fst snd]. rewrite rad_90, cos_PI2, sin_PI2. ring. }
  assert (D : forall q, dotp (-90, 0) q = - uz q).
  { intro q. unfold dotp, ux at 1, uy at 1, uz at 1. cbn [fst snd]. rewrite N, cos_neg, sin_neg, cos_PI2, sin_PI2. ring. }
  split; intro H.
  - destruct (cap l (90, 0) (sin (rad b)) Ne P K) as [_ C].
    + intros c Hc. rewrite U. specialize (H c Hc). unfold uz, pt. cbn [fst]. apply sin_incr_1; try lra.
      * assert (rad b <= rad (g_lat c)) by (apply rad_le; lra). lra.
      * rewrite <- rad_90. apply rad_le. lra.
      * apply rad_le. lra.
    + rewrite U in C. unfold uz in C. fold c0 in C. apply sin_incr_0 in C; try lra. apply Rnot_lt_le. intro F. apply rad_lt in F. lra.
  - destruct (cap l (-90, 0) (sin (rad b)) Ne P K) as [_ C].
    + intros c Hc. rewrite D. specialize (H c Hc). unfold uz, pt. cbn [fst]. rewrite <- sin_neg.
      assert (rad (g_lat c) <= rad (- b)) by (apply rad_le; lra). assert (E : rad (- b) = - rad b) by (unfold rad; field).
      assert (rad (-90) <= rad (g_lat c)) by (apply rad_le; lra). apply sin_incr_1; lra.
    + rewrite D in C. unfold uz in C. fold c0 in C. rewrite <- sin_neg in C. apply sin_incr_0 in C; try lra.
      apply Rnot_lt_le. intro F. apply rad_lt in F. assert (E : rad (- b) = - rad b) by (unfold rad; field). lra.
Qed.
Print Assumptions C109_centroid_poleward.

(** Three cells in the north-west Pacific, on both sides of the date line. *)
Definition pacific : list geo := [mkGeo 2 30 170; mkGeo 1 40 (-175); mkGeo 1 35 179].
Example C109_case : 30 <= fst (sphere_centroid pacific).
Proof.
  apply (proj1 (C109_centroid_poleward pacific 30 ltac:(discriminate) ltac:(intros c [<-|[<-|[<-|[]]]]; cbn; lra) ltac:(lra))).
  intros c [<-|[<-|[<-|[]]]]; cbn; lra.
Qed.

(** ** C110 *)
(** The centroid does not depend on the order of the cells, on the unit of area
    or on the turn a longitude is given in. *)
Theorem C110_centroid_invariant : forall cells,
  (forall cells', Permutation cells cells' -> sphere_centroid cells' = sphere_centroid cells) /\
  (forall k, 0 < k -> sphere_centroid (map (fun c => mkGeo (k * g_area c) (g_lat c) (g_lon c)) cells) = sphere_centroid cells) /\
  (forall turns : geo -> Z,
     sphere_centroid (map (fun c => mkGeo (g_area c) (g_lat c) (g_lon c + 360 * IZR (turns c))) cells) = sphere_centroid cells).
Proof.
  intro l. split; [intros l' P; apply centroid_perm, P|]. split; [intros k K; apply centroid_scale, K|intro t; apply centroid_turns].
Qed.
Print Assumptions C110_centroid_invariant.

(** Full statement: moving all cells by some degrees of longitude moves the
    centroid by as much.  Proved: when the mean vector of the cells is not zero,
    as for cells within less than a quarter turn of some point.  Missing: cells
    with a vanishing mean vector, refuted below. *)
Definition moved (d : R) (c : geo) : geo := mkGeo (g_area c) (g_lat c) (g_lon c + d).
Theorem C110_centroid_moves_partial : forall cells d,
  (total (fun c => g_area c * px (position c)) cells <> 0 \/ total (fun c => g_area c * py (position c)) cells <> 0 \/
   total (fun c => g_area c * pz (position c)) cells <> 0) ->
  same_point (sphere_centroid (map (moved d) cells)) (fst (sphere_centroid cells), snd (sphere_centroid cells) + d).
Proof.
  intros l d H. apply same_point_iff. apply (centroid_rotate d l). apply norm_pos.
  rewrite !total_sum in H.
  destruct H as [H|[H|H]]; [left|right; left|right; right]; intro E; apply H; rewrite <- E; apply sumR_ext; intros c _;
    rewrite ?px_ux, ?py_uy, ?pz_uz; reflexivity.
Qed.
Print Assumptions C110_centroid_moves_partial.

Theorem C110_compact_moves : forall cells p r d,
  cells <> [] -> (forall c, In c cells -> 0 < g_area c) -> 0 <= r < PI / 2 ->
  (forall c, In c cells -> exists t, is_arc p (position c) t /\ t <= r) ->
  same_point (sphere_centroid (map (moved d) cells)) (fst (sphere_centroid cells), snd (sphere_centroid cells) + d).
Proof.
  intros l p r d Ne P R0 H. apply same_point_iff. apply (centroid_rotate d l).
  assert (Pp := PI_RGT_0). assert (K : 0 < cos r) by (apply cos_gt_0; lra).
  apply (cap l p (cos r) Ne P K). intros c Hc. destruct (H c Hc) as (t & [[T0 T1] T2] & L). rewrite inner_dot in T2. change (pt c) with (position c). rewrite <- T2. apply cos_decr_1; lra.
Qed.
Print Assumptions C110_compact_moves.

(** Two cells of equal area on opposite sides of the equator: wherever they are,
    the centroid is reported at latitude 0 and longitude 0. *)
Lemma rad_0 : rad 0 = 0. Proof. unfold rad. field. Qed.
Theorem C110_centroid_moves_refuted :
  (forall d, sphere_centroid (map (moved d) [mkGeo 1 0 0; mkGeo 1 0 180]) = (0, 0)) /\
  ~ (forall cells d, same_point (sphere_centroid (map (moved d) cells)) (fst (sphere_centroid cells), snd (sphere_centroid cells) + d)).
Proof.
  assert (A : forall d, sphere_centroid (map (moved d) [mkGeo 1 0 0; mkGeo 1 0 180]) = (0, 0)).
  { intro d. apply centroid_nowhere; unfold sx, sy, sz; cbn [map]; rewrite !sumR_cons, sumR_nil; unfold cell_x, cell_y, cell_z, moved; cbn [g_area g_lat g_lon];
      repeat rewrite rad_plus; rewrite ?rad_180, ?rad_0, ?Rplus_0_l.
    - replace (PI + rad d) with (rad d + PI) by ring. rewrite neg_cos. ring.
    - replace (PI + rad d) with (rad d + PI) by ring. rewrite neg_sin. ring.
    - rewrite sin_0. ring. }
  split; [exact A|]. intro H. specialize (H [mkGeo 1 0 0; mkGeo 1 0 180] 90). rewrite A in H.
  assert (E : sphere_centroid [mkGeo 1 0 0; mkGeo 1 0 180] = (0, 0)).
  { rewrite <- (A 0). cbn [map moved]. unfold moved. cbn [g_area g_lat g_lon]. rewrite !Rplus_0_r. reflexivity. }
  rewrite E in H. rewrite same_point_iff in H. unfold ux in H. cbn [fst snd] in H. rewrite Rplus_0_l, rad_0, rad_90, cos_0, cos_PI2 in H. lra.
Qed.
Print Assumptions C110_centroid_moves_refuted.
Example C110_case : total (fun c => g_area c * pz (position c)) pacific <> 0.
Proof.
  rewrite total_sum. apply Rgt_not_eq. apply sumR_pos; [discriminate|]. intros c Hc.
  assert (G : 0 < g_area c /\ 0 < g_lat c < 90) by (destruct Hc as [<-|[<-|[<-|[]]]]; cbn; lra). destruct G as [A B].
  rewrite pz_uz. unfold uz, position. cbn [fst]. assert (Pp := PI_RGT_0).
  assert (L : rad 0 < rad (g_lat c)) by (apply rad_lt; lra). rewrite rad_0 in L.
  assert (M : rad (g_lat c) < rad 90) by (apply rad_lt; lra). rewrite rad_90 in M.
  apply Rmult_lt_0_compat; [exact A|]. apply sin_gt_0; lra.
Qed.

(** ** C111 *)
(** Cells in one place: the centroid is that place, with the same coordinates
    unless it is a pole. *)
Theorem C111_centroid_of_one_place : forall cells p,
  cells <> [] -> (forall c, In c cells -> 0 < g_area c /\ position c = p) ->
  same_point (sphere_centroid cells) p /\
  (-90 < fst p < 90 -> -180 < snd p <= 180 -> sphere_centroid cells = p).
Proof.
  intros l p Ne H. destruct (centroid_one_place l p Ne H) as (_ & X & Y & Z0). split; [apply same_point_iff; auto|].
  intros A B. destruct (centroid_range l) as [C D]. symmetry. apply unit_inj; auto.
Qed.
Print Assumptions C111_centroid_of_one_place.
Example C111_case : sphere_centroid [mkGeo 3 (-45) 180] = (-45, 180).
Proof.
  apply (C111_centroid_of_one_place [mkGeo 3 (-45) 180] (-45, 180)); cbn [fst snd]; try lra; [discriminate|].
  intros c [<-|[]]. split; [cbn; lra|reflexivity].
Qed.

(** ** C112 *)
(** The haversine distance is the arc between the points. *)
Theorem C112_haversine_is_the_arc : forall p q t, is_arc p q t <-> haversine p q = t.
Proof.
  intros p q t. split; [intro H; exact (arc_unique _ _ _ _ (arc_haversine p q) H)|intros <-; apply arc_haversine].
Qed.
Print Assumptions C112_haversine_is_the_arc.

(** Centroid partitioning against the rows given: a cell of the child gets the ID
    of the first of the nearest rows. *)
Theorem C112_nearest_row : forall junk child rows ids points k p,
  rows <> [] -> nth_error child k = Some true -> nth_error points k = Some p ->
  exists j q, nth_error rows j = Some q /\
    nth_error (centroid_labels junk child rows ids points) k = Some (nth j ids junk) /\
    (forall i q', nth_error rows i = Some q' -> apart2 p q <= apart2 p q') /\
    (forall i q', (i < j)%nat -> nth_error rows i = Some q' -> apart2 p q < apart2 p q').
Proof.
  intros junk child rows ids points k p Ne C P. destruct (nearest_parent_spec p rows Ne) as (q & N & A & B).
  exists (nearest_parent p rows), q. split; [exact N|]. split.
  - unfold centroid_labels. assert (E : nth_error (combine child points) k = Some (true, p)).
    { revert child points C P. induction k as [|k IH]; intros [|c child] [|a points] C P; cbn in *; try discriminate; [congruence|]. apply IH; assumption. }
    rewrite (map_nth_error _ _ _ E). reflexivity.
  - split.
    + intros i q' H. specialize (A i q' H). apply haversine_le in A. rewrite !apart2_dot. lra.
    + intros i q' L H. specialize (B i q' L H). apply haversine_lt in B. rewrite !apart2_dot. lra.
Qed.
Print Assumptions C112_nearest_row.

(** Cells outside the child keep 0. *)
Theorem C112_outside : forall junk child rows ids points k,
  nth_error child k = Some false -> (k < length points)%nat ->
  nth_error (centroid_labels junk child rows ids points) k = Some 0%Z.
Proof.
  intros junk child rows ids points k C L. destruct (nth_error points k) as [p|] eqn:P; [|apply nth_error_None in P; lia].
  assert (E : nth_error (combine child points) k = Some (false, p)).
  { clear L. revert child points C P. induction k as [|k IH]; intros [|c child] [|a points] C P; cbn in *; try discriminate; [congruence|]. apply IH; assumption. }
  unfold centroid_labels. rewrite (map_nth_error _ _ _ E). reflexivity.
Qed.
Print Assumptions C112_outside.

(** Full statement: with at most ten parents every cell of the child gets the ID of
    the nearest parent.  Proved: the cells for which some parent is at least as
    near as the point 80N 80E, which is where the unused rows of the array lie.
    Missing: cells nearer to that point than to any parent, refuted below. *)
Theorem C112_nearest_parent_partial : forall junk child centroids ids points k p i0 q0,
  (length centroids <= 10)%nat -> length ids = length centroids ->
  nth_error child k = Some true -> nth_error points k = Some p ->
  nth_error centroids i0 = Some q0 -> apart2 p q0 <= apart2 p (80, 80) ->
  exists j q id, nth_error centroids j = Some q /\ nth_error ids j = Some id /\
    nth_error (centroid_labels junk child (parent_rows centroids) ids points) k = Some id /\
    (forall i q', nth_error centroids i = Some q' -> apart2 p q <= apart2 p q') /\
    (forall i q', (i < j)%nat -> nth_error centroids i = Some q' -> apart2 p q < apart2 p q').
Proof.
  intros junk child cs ids points k p i0 q0 L Li C P H0 Near.
  assert (Ne : parent_rows cs <> []) by (destruct cs; [destruct i0|]; discriminate).
  destruct (C112_nearest_row junk child (parent_rows cs) ids points k p Ne C P) as (j & q & N & E & A & B).
  assert (J : (j < length cs)%nat).
  { destruct (Nat.lt_ge_cases j (length cs)) as [J|J]; [exact J|]. exfalso.
    assert (i0 < length cs)%nat by (apply nth_error_Some; congruence).
    assert (Q : q = filler) by (eapply rows_filler; eauto). subst q.
    specialize (B i0 q0 ltac:(lia) (rows_parent cs i0 q0 L H0)). rewrite !apart2_dot, dot_filler in B. rewrite !apart2_dot in Near. lra. }
  destruct (nth_error ids j) as [id|] eqn:I; [|apply nth_error_None in I; lia].
  assert (Q : nth_error cs j = Some q) by (rewrite rows_parent' in N by assumption; exact N).
  exists j, q, id. split; [exact Q|]. split; [exact I|]. split; [rewrite E; f_equal; apply nth_error_nth; exact I|]. split.
  - intros i q' H. apply (A i). apply rows_parent; assumption.
  - intros i q' Hi H. apply (B i q' Hi). apply rows_parent; assumption.
Qed.
Print Assumptions C112_nearest_parent_partial.

(** A cell nearer to 80N 80E than to every parent gets what lies behind the end of
    the array of IDs. *)
Theorem C112_nearest_parent_refuted : forall junk child centroids ids points k p,
  (length centroids < 10)%nat -> length ids = length centroids ->
  nth_error child k = Some true -> nth_error points k = Some p ->
  (forall i q, nth_error centroids i = Some q -> apart2 p (80, 80) < apart2 p q) ->
  nth_error (centroid_labels junk child (parent_rows centroids) ids points) k = Some junk.
Proof.
  intros junk child cs ids points k p L Li C P Far.
  assert (Ne : parent_rows cs <> []) by (destruct cs; discriminate).
  destruct (C112_nearest_row junk child (parent_rows cs) ids points k p Ne C P) as (j & q & N & E & A & _).
  destruct (Nat.lt_ge_cases j (length cs)) as [J|J].
  - exfalso. rewrite rows_parent' in N by lia. specialize (Far j q N).
    assert (F : nth_error (parent_rows cs) (length cs) = Some filler) by (apply rows_end; lia).
    specialize (A _ _ F). rewrite !apart2_dot, dot_filler in A. rewrite !apart2_dot in Far. lra.
  - rewrite E. f_equal. apply nth_overflow. lia.
Qed.
Print Assumptions C112_nearest_parent_refuted.
(** The cell at 80N 80E itself, between parents at 75N 60E and 78N 95E. *)
Lemma apart_itself p : apart2 p p = 0. Proof. rewrite apart2_dot, dot_self. ring. Qed.
Lemma apart_pos p q : -90 < fst p < 90 -> -180 < snd p <= 180 -> -90 <= fst q <= 90 -> -180 < snd q <= 180 -> p <> q -> 0 < apart2 p q.
Proof.
  intros A B C D Ne. assert (N : 0 <= apart2 p q) by (unfold apart2; assert (T := pow2_ge_0); specialize (T (px p - px q)) as T1; specialize (T (py p - py q)) as T2; specialize (T (pz p - pz q)); lra).
  destruct (Rle_lt_or_eq_dec _ _ N) as [L|E]; [exact L|]. exfalso. apply Ne. symmetry in E. unfold apart2 in E.
  assert (T1 := pow2_ge_0 (px p - px q)). assert (T2 := pow2_ge_0 (py p - py q)). assert (T3 := pow2_ge_0 (pz p - pz q)).
  assert (Z0 : forall t, t ^ 2 = 0 -> t = 0) by (intros t Ht; apply Rsqr_0_uniq; unfold Rsqr; lra).
  assert (X : px p - px q = 0) by (apply Z0; lra). assert (Y : py p - py q = 0) by (apply Z0; lra). assert (W : pz p - pz q = 0) by (apply Z0; lra).
  rewrite !px_ux in X. rewrite !py_uy in Y. rewrite !pz_uz in W. apply unit_inj; auto; lra.
Qed.
Example C112_case : centroid_labels 77 [true] (parent_rows [(75, 60); (78, 95)]) [5%Z; 6%Z] [(80, 80)] = [77%Z].
Proof.
  assert (E : nth_error (centroid_labels 77 [true] (parent_rows [(75, 60); (78, 95)]) [5%Z; 6%Z] [(80, 80)]) 0 = Some 77%Z).
  { apply C112_nearest_parent_refuted with (p := (80, 80)); [cbn; lia|reflexivity|reflexivity|reflexivity|].
    intros [|[|i]] q H; cbn in H; [injection H as <-|injection H as <-|destruct i; discriminate]; rewrite apart_itself; apply apart_pos; cbn [fst snd]; try lra; intro F; injection F; lra. }
  cbn in E |- *. congruence.
Qed.
(** The cell at 75N 60E goes to the parent there. *)
Example C112_case' : centroid_labels 77 [true] (parent_rows [(75, 60); (78, 95)]) [5%Z; 6%Z] [(75, 60)] = [5%Z].
Proof.
  destruct (C112_nearest_parent_partial 77 [true] [(75, 60); (78, 95)] [5%Z; 6%Z] [(75, 60)] 0 (75, 60) 0 (75, 60)) as (j & q & id & N & I & E & A & _); try reflexivity; [cbn; lia| |].
  - rewrite apart_itself. left. apply apart_pos; cbn [fst snd]; try lra. intro F; injection F; lra.
  - specialize (A 0%nat (75, 60) eq_refl). rewrite apart_itself in A. destruct j as [|[|j]]; cbn in N, I; [| |destruct j; discriminate].
    + injection I as <-. cbn in E |- *. congruence.
    + injection N as <-. assert (0 < apart2 (75, 60) (78, 95)) by (apply apart_pos; cbn [fst snd]; try lra; intro F; injection F; lra). lra.
Qed.

(** ** C113 *)
(** The table of objects is never cut short by the buffer: there is one entry for
    every ID of every time step, in order, with the area and centroid of its
    cells, and the areas add up to the area covered. *)
Definition entry_of (cells : list geo) (f : list Z) (e : Z * (R * (R * R))) : Prop :=
  let own := carrying (fun z => Z.eqb z (fst e)) f cells in
  fst (snd e) = total g_area own /\ snd (snd e) = sphere_centroid own.
Theorem C113_object_table : forall fields cells, exists tables,
  mesh_properties fields cells = Some (concat tables) /\
  Forall2 (fun f t =>
    StronglySorted Z.lt (map fst t) /\
    (forall id, In id (map fst t) <-> (0 < id)%Z /\ In id f) /\
    Forall (entry_of cells f) t /\
    total (fun e => fst (snd e)) t = total g_area (carrying (Z.ltb 0) f cells)) fields tables.
Proof.
  intros fields cells. exists (map (step_entries cells) fields). split; [apply mesh_properties_ok|].
  induction fields as [|f fields IH]; cbn [map]; constructor; [|exact IH].
  assert (E : map fst (step_entries cells f) = unique_pos f) by (unfold step_entries; rewrite map_map; apply map_id).
  rewrite E. split; [apply unique_pos_sorted|]. split; [intro id; apply unique_pos_In|]. split; [|apply step_area].
  apply Forall_forall. intros e He. unfold step_entries in He. apply in_map_iff in He. destruct He as (id & <- & _).
  unfold entry_of. cbn [fst snd object_entry]. rewrite carrying_cells, total_sum. split; reflexivity.
Qed.
Print Assumptions C113_object_table.
Example C113_case : exists t,
  mesh_properties [[1; 0; 1; 2]; [3; 3; 0; 3]]%Z [mkGeo 1 10 20; mkGeo 2 11 20; mkGeo 4 12 20; mkGeo 8 (-45) 180] = Some t /\
  map fst t = [1; 2; 3]%Z /\ map (fun e => fst (snd e)) t = [1 + (4 + 0); 8 + 0; 1 + (2 + (8 + 0))] /\ nth_error t 1 = Some (2%Z, (8 + 0, (-45, 180))).
Proof.
  eexists. split; [apply mesh_properties_ok|]. split; [reflexivity|]. split; [reflexivity|].
  change (Some (2%Z, (8 + 0, sphere_centroid [mkGeo 8 (-45) 180])) = Some (2%Z, (8 + 0, (-45, 180)))). do 3 f_equal.
  apply (C111_centroid_of_one_place [mkGeo 8 (-45) 180] (-45, 180)); cbn [fst snd]; try lra; [discriminate|].
  intros c [<-|[]]. split; [cbn; lra|reflexivity].
Qed.

(** ** C114 *)
(** Per time step the properties of events: an event marked present with a cell has
    its area and centroid, the others have none. *)
Theorem C114_event_table : forall event_ids present ids cells k id b,
  nth_error event_ids k = Some id -> nth_error present k = Some b ->
  exists e, nth_error (event_entries event_ids present ids cells) k = Some e /\
    (e = None <-> b = false \/ ~ In id ids) /\
    (forall a c, e = Some (a, c) ->
       let own := carrying (fun z => Z.eqb z id) ids cells in a = total g_area own /\ c = sphere_centroid own).
Proof.
  intros evs pres ids cells k id b E P.
  assert (C : nth_error (combine evs pres) k = Some (id, b)).
  { revert evs pres E P. induction k as [|k IH]; intros [|x evs] [|y pres] E P; cbn in *; try discriminate; [congruence|]. apply IH; assumption. }
  unfold event_entries. rewrite (map_nth_error _ _ _ C). eexists. split; [reflexivity|]. cbn [fst snd].
  assert (X : existsb (Z.eqb id) ids = true <-> In id ids).
  { rewrite existsb_exists. split; [intros (z & I & Q); apply Z.eqb_eq in Q; subst z; exact I|intro I; exists id; split; [exact I|apply Z.eqb_refl]]. }
  destruct b; cbn [andb].
  - destruct (existsb (Z.eqb id) ids) eqn:F.
    + split; [split; [discriminate|]; intros [D|D]; [discriminate|]; exfalso; apply D, X; reflexivity|].
      intros a c Q. injection Q as <- <-. rewrite carrying_cells, total_sum. split; reflexivity.
    + split; [split; [|reflexivity]; intros _; right; intro I; apply X in I; discriminate|]. discriminate.
  - split; [tauto|discriminate].
Qed.
Print Assumptions C114_event_table.
Example C114_case :
  map (option_map fst) (event_entries [1; 2; 3]%Z [true; true; false] [3; 1; 1]%Z [mkGeo 1 10 20; mkGeo 2 11 20; mkGeo 4 12 20]) = [Some (2 + (4 + 0)); None; None].
Proof. reflexivity. Qed.
