(** Concrete inputs for [Config]: non-vacuity cases and refutation witnesses. *)
From Coq Require Import String Qabs.
From Verif Require Import Base Config ConfigSpec ConfigProofs.
Open Scope Q_scope.
Open Scope string_scope.

Definition good_structured : input := {|
  i_regional := false; i_unstructured := false; i_units := None;
  i_lon_min := 0; i_lon_max := 1439 # 4;
  i_dims := ["lat"; "time"; "lon"]; i_coords := ["time"; "lat"; "lon"];
  i_timedim := "time"; i_xdim := "lon"; i_ydim := "lat";
  i_timecoord := "time"; i_xcoord := "lon"; i_ycoord := "lat";
  i_dask := true; i_dtype_bool := true; i_temp_dir := None; i_neighbours := None;
  i_cell_areas := Some ["lon"; "lat"]; i_gridres := Some (Some (1 # 4));
  i_mask_bool := true; i_mask := [false; true]; i_quartile := None;
  i_absolute := Some 5%Z; i_T_fill := 2%Z |}.

Definition good_unstructured : input := {|
  i_regional := false; i_unstructured := true; i_units := Some "radians";
  i_lon_min := 0; i_lon_max := 3;
  i_dims := ["time"; "ncells"]; i_coords := ["time"; "lat"; "lon"];
  i_timedim := "time"; i_xdim := "ncells"; i_ydim := "lat";
  i_timecoord := "time"; i_xcoord := "lon"; i_ycoord := "lat";
  i_dask := true; i_dtype_bool := true; i_temp_dir := Some "/tmp";
  i_neighbours := Some (3%nat, ["nv"; "ncells"]);
  i_cell_areas := Some ["ncells"]; i_gridres := None;
  i_mask_bool := true; i_mask := [true]; i_quartile := Some (3 # 4);
  i_absolute := None; i_T_fill := 0%Z |}.

Definition bad_two_faults : input := {|
  i_regional := true; i_unstructured := false; i_units := Some "degrees";
  i_lon_min := 0; i_lon_max := 10;
  i_dims := ["time"; "lat"; "lon"]; i_coords := ["time"; "lat"; "lon"];
  i_timedim := "time"; i_xdim := "lon"; i_ydim := "lat";
  i_timecoord := "time"; i_xcoord := "lon"; i_ycoord := "lat";
  i_dask := true; i_dtype_bool := false; i_temp_dir := None; i_neighbours := None;
  i_cell_areas := None; i_gridres := None;
  i_mask_bool := false; i_mask := [false]; i_quartile := Some 2;
  i_absolute := None; i_T_fill := 3%Z |}.

Definition missing_lon : input := {|
  i_regional := true; i_unstructured := false; i_units := Some "degrees";
  i_lon_min := 0; i_lon_max := 10;
  i_dims := ["time"; "y"; "x"]; i_coords := ["time"; "lat"];
  i_timedim := "time"; i_xdim := "x"; i_ydim := "y";
  i_timecoord := "time"; i_xcoord := "lon"; i_ycoord := "lat";
  i_dask := true; i_dtype_bool := true; i_temp_dir := None; i_neighbours := None;
  i_cell_areas := None; i_gridres := None;
  i_mask_bool := true; i_mask := [true]; i_quartile := None;
  i_absolute := None; i_T_fill := 2%Z |}.

Lemma good_structured_builds : exists c, construct good_structured = Ok c /\ g_use_abs c = true.
Proof. eexists. split; vm_compute; reflexivity. Qed.
Lemma good_structured_ok : exists c, construct good_structured = Ok c.
Proof. eexists. vm_compute. reflexivity. Qed.
Lemma good_unstructured_ok : exists c, construct good_unstructured = Ok c.
Proof. eexists. vm_compute. reflexivity. Qed.
Lemma bad_two_faults_err : construct bad_two_faults = Err (DataValidationErr "dtype").
Proof. vm_compute. reflexivity. Qed.

Lemma missing_lon_keyerror :
  exists i, ~ In (i_xcoord i) (i_coords i) /\
            (forall e, construct i = Err e -> e = KeyError "x coordinate") /\
            (exists e, construct i = Err e).
Proof.
  exists missing_lon. split; [|split].
  - simpl. intros [H|[H|[]]]; discriminate.
  - intros e H. vm_compute in H. injection H as <-. reflexivity.
  - eexists. vm_compute. reflexivity.
Qed.

Definition rad_coords : coords := mkCoords [0; np_pi; 2 * np_pi] [0].

Lemma radians_twice :
  exists c r1 c1 t1 t2 c2,
    construct_coords false (Some "radians") c = (r1, c1) /\ r1 = Ok t1 /\
    construct_coords false (Some "radians") c1 = (Ok t2, c2) /\
    ~ Forall2 Qeq (c_lon c1) (c_lon c) /\ ~ Forall2 Qeq (tc_lon t2) (tc_lon t1) /\
    ~ Forall2 Qeq (tc_lon_init t2) (tc_lon_init t1).
Proof.
  exists rad_coords. do 5 eexists.
  split; [reflexivity|]. split; [reflexivity|]. split; [reflexivity|].
  split; [|split]; intro K; inversion K as [|? ? ? ? _ K1]; clear K;
    inversion K1 as [|? ? ? ? K2 _]; vm_compute in K2; discriminate.
Qed.

Lemma radians_then_degrees :
  exists c t1 c1 t2 c2,
    construct_coords false None c = (Ok t1, c1) /\
    construct_coords false None c1 = (Ok t2, c2) /\
    tc_units t1 = "radians" /\ tc_units t2 = "degrees".
Proof.
  exists rad_coords. do 4 eexists.
  split; [vm_compute; reflexivity|]. split; [vm_compute; reflexivity|].
  split; reflexivity.
Qed.
