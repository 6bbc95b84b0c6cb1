(** C178: regional_tracker. *)
From Coq Require Import String.
From Verif Require Import Base Config ConfigSpec ConfigProofs ConfigProps Regional.
Open Scope string_scope.

(** The arguments of tracker(...) with the units stated and regional_mode=[r], everything else as in [i]. *)
Definition stated (r : bool) (u : string) (i i' : input) : Prop :=
  i_regional i' = r /\ i_units i' = Some u /\ i_unstructured i' = i_unstructured i /\
  i_lon_min i' = i_lon_min i /\ i_lon_max i' = i_lon_max i /\ i_dims i' = i_dims i /\ i_coords i' = i_coords i /\
  i_timedim i' = i_timedim i /\ i_xdim i' = i_xdim i /\ i_ydim i' = i_ydim i /\
  i_timecoord i' = i_timecoord i /\ i_xcoord i' = i_xcoord i /\ i_ycoord i' = i_ycoord i /\
  i_dask i' = i_dask i /\ i_dtype_bool i' = i_dtype_bool i /\ i_temp_dir i' = i_temp_dir i /\
  i_neighbours i' = i_neighbours i /\ i_cell_areas i' = i_cell_areas i /\ i_gridres i' = i_gridres i /\
  i_mask_bool i' = i_mask_bool i /\ i_mask i' = i_mask i /\ i_quartile i' = i_quartile i /\ i_absolute i' = i_absolute i /\ i_T_fill i' = i_T_fill i.

(** The keywords a caller may add. *)
Definition allowed (kw : list string) : Prop := forall s, In s kw -> s <> "regional_mode" /\ In s other_keywords.

Lemma mems_In s l : mems s l = true <-> In s l.
Proof. unfold mems. rewrite existsb_exists. split; [intros (x & I & E); apply String.eqb_eq in E; subst; exact I|intro I; exists s; split; [exact I|apply String.eqb_refl]]. Qed.

Lemma keywords_ok kw u i : (allowed kw -> regional_tracker kw u i = Answer (construct (as_region u i))) /\ (~ allowed kw -> regional_tracker kw u i = TypeErr).
Proof.
  unfold regional_tracker. destruct (mems "regional_mode" kw) eqn:M.
  - split; [|reflexivity]. intro A. exfalso. apply mems_In in M. destruct (A _ M) as [N _]. apply N. reflexivity.
  - destruct (forallb (fun s => mems s other_keywords) kw) eqn:F; cbn [negb].
    + split; [reflexivity|]. intro N. exfalso. apply N. intros s I. split; [intros ->; apply mems_In in I; congruence|].
      rewrite forallb_forall in F. apply mems_In, F, I.
    + split; [|reflexivity]. intro A. exfalso. assert (X : forallb (fun s => mems s other_keywords) kw = true); [|congruence].
      apply forallb_forall. intros s I. apply mems_In, (A s I).
Qed.

(** On a structured grid regional_tracker answers as tracker does in global mode when the units are stated there; the tracker
    has the stated units, whatever the longitudes; on a mesh there is no tracker; a keyword
    that tracker does not know, or regional_mode once more, is refused before anything else. *)
Theorem C178_regional_tracker (kw : list string) (u : string) (i i' : input) :
  stated false u i i' ->
  (~ allowed kw -> regional_tracker kw u i = TypeErr) /\
  (allowed kw -> i_unstructured i = false -> regional_tracker kw u i = Answer (construct i')) /\
  (forall c, regional_tracker kw u i = Answer (Ok c) -> allowed kw /\ i_unstructured i = false /\ g_units c = u /\ valid_unit u).
Proof.
  intros (E1 & E2 & E3 & E4 & E5 & E6 & E7 & E8 & E9 & E10 & E11 & E12 & E13 & E14 & E15 & E16 & E17 & E18 & E19 & E20 & E21 & E22 & E23 & E24).
  destruct (keywords_ok kw u i) as [K1 K2]. split; [exact K2|]. split.
  - intros A S. rewrite (K1 A). f_equal. destruct i' as [x0 x1 x2 x3 x4 x5 x6 x7 x8 x9 x10 x11 x12 x13 x14 x15 x16 x17 x18 x19 x20 x21 x22 x23]. cbn [i_regional i_units i_unstructured i_lon_min i_lon_max i_dims i_coords i_timedim i_xdim i_ydim i_timecoord i_xcoord i_ycoord i_dask i_dtype_bool i_temp_dir i_neighbours i_cell_areas i_gridres i_mask_bool i_mask i_quartile i_absolute i_T_fill] in *. subst.
    unfold construct, validate_inputs, indexable. cbn [as_region i_regional i_units i_unstructured i_lon_min i_lon_max i_dims i_coords i_timedim i_xdim i_ydim i_timecoord i_xcoord i_ycoord i_dask i_dtype_bool i_temp_dir i_neighbours i_cell_areas i_gridres i_mask_bool i_mask i_quartile i_absolute i_T_fill].
    rewrite S. reflexivity.
  - intros c R. assert (A : allowed kw).
    { unfold regional_tracker in R. destruct (mems "regional_mode" kw) eqn:M; [discriminate|]. destruct (forallb (fun s => mems s other_keywords) kw) eqn:F; [|discriminate].
      intros s I. split; [intros ->; apply mems_In in I; congruence|]. rewrite forallb_forall in F. apply mems_In, F, I. }
    split; [exact A|]. rewrite (K1 A) in R. injection R as R. unfold construct in R.
    destruct (check (indexable (as_region u i) _) _); [|discriminate]. cbn [bind] in R.
    destruct (check (indexable (as_region u i) _) _); [|discriminate]. cbn [bind] in R.
    destruct (detect_units _ _ _ _) as [v|] eqn:D; [|discriminate]. cbn [bind] in R. cbn [as_region i_regional i_units] in D.
    apply (C03_explicit_and_regional true (Some u)) in D. destruct D as [V ->].
    destruct (resolve_area _ _) as [[[q9 a9] b9]|e9]; [|discriminate]. cbn [bind] in R.
    destruct (check _ _); [|discriminate]. cbn [bind] in R. destruct (check _ _); [|discriminate]. cbn [bind] in R.
    destruct (validate_inputs _ _ _ _) eqn:Vi; [|discriminate]. cbn [bind] in R.
    assert (S : i_unstructured i = false).
    { unfold validate_inputs in Vi. cbn [as_region i_regional i_unstructured] in Vi. destruct (i_unstructured i); [discriminate|reflexivity]. }
    split; [exact S|]. cbn [as_region i_unstructured] in R. rewrite S in R. cbn [bind] in R. injection R as <-. split; [reflexivity|exact V].
Qed.
Print Assumptions C178_regional_tracker.

(** A part of the Mediterranean: units cannot be detected from the longitudes, regional_tracker takes them as stated. *)
Definition basin (r : bool) (units : option string) : input :=
  mkInput r false units (-6) 36 ["time"; "lat"; "lon"] ["time"; "lat"; "lon"] "time" "lon" "lat" "time" "lon" "lat"
    true true None None None None true [true; false] None (Some 5%Z) 2.
Example C178_case :
  stated false "degrees" (basin false None) (basin false (Some "degrees")) /\ construct (basin false None) = Err CoordinateErr /\
  regional_tracker ["T_fill"] "degrees" (basin false None) = Answer (Ok (mkConfig "degrees" 0 5 true)) /\
  regional_tracker ["regional_mode"] "degrees" (basin false None) = TypeErr /\
  regional_tracker [] "metres" (basin false None) = Answer (Err CoordinateErr).
Proof. split; [unfold stated; cbn; tauto|]. split; [reflexivity|]. split; [reflexivity|]. split; reflexivity. Qed.
