(** Specification of the constructor's accept/reject rule, readable without
    the model's control flow: an ordered table of requirements, each with the
    error raised when it is the first one violated. *)
From Coq Require Import String Qabs.
From Verif Require Import Base Config.
Open Scope Q_scope.
Open Scope string_scope.

Definition valid_unit (u : string) : Prop := u = "degrees" \/ u = "radians".

(** The unit a tracker must end up with, or no unit at all. *)
Definition unit_of (regional : bool) (units : option string) (range : Q) (u : string) : Prop :=
  match units with
  | Some v => valid_unit v /\ u = v
  | None => regional = false /\
      ((Qabs (range - 360) <= 1 /\ u = "degrees") \/
       (1 < Qabs (range - 360) /\ Qabs (range - 2 * np_pi) <= 2 # 100 /\ u = "radians"))
  end.

Definition exactly (req have : list string) : Prop :=
  (forall s, In s req <-> In s have) /\ List.length req = List.length have.

Definition requirements (i : input) : list (Prop * err) :=
  let uns := i_unstructured i = true in
  let str := i_unstructured i = false in
  [ (In (i_ycoord i) (i_coords i) \/ In (i_ycoord i) (i_dims i), KeyError "y coordinate");
    (In (i_xcoord i) (i_coords i) \/ In (i_xcoord i) (i_dims i), KeyError "x coordinate");
    (exists u, unit_of (i_regional i) (i_units i) (i_lon_max i - i_lon_min i) u, CoordinateErr);
    (i_quartile i = None \/ i_absolute i = None, ConfigurationErr "both area filters");
    (i_dask i = true, DataValidationErr "chunked");
    (In (i_timedim i) (i_dims i), ValueError "time dimension");
    (i_regional i = false \/ str, NotImplementedErr);
    (uns -> exactly [i_timedim i; i_xdim i] (i_dims i), DataValidationErr "dimensions unstructured");
    (str -> exactly [i_timedim i; i_ydim i; i_xdim i] (i_dims i), DataValidationErr "dimensions gridded");
    (In (i_timecoord i) (i_coords i) /\ In (i_xcoord i) (i_coords i) /\ In (i_ycoord i) (i_coords i),
       DataValidationErr "missing coordinates");
    (i_dtype_bool i = true, DataValidationErr "dtype");
    (uns -> i_temp_dir i <> None, DataValidationErr "temp_dir");
    (uns -> i_neighbours i <> None, DataValidationErr "neighbours");
    (uns -> i_cell_areas i <> None, DataValidationErr "cell_areas");
    (str -> forall ds, i_cell_areas i = Some ds ->
            forall s, In s ds <-> In s [i_ydim i; i_xdim i], DataValidationErr "cell_areas dims");
    (uns -> i_gridres i = None, DataValidationErr "grid_resolution unstructured");
    (str -> forall g, i_gridres i = Some g -> exists r, g = Some r /\ 0 < r,
            DataValidationErr "grid_resolution positive");
    (i_mask_bool i = true, DataValidationErr "mask dtype");
    (In true (i_mask i), DataValidationErr "mask all false");
    (forall q, i_quartile i = Some q -> 0 <= q <= 1, ConfigurationErr "quartile range");
    (forall a, i_absolute i = Some a -> (0 < a)%Z, ConfigurationErr "absolute positive");
    (Z.Even (i_T_fill i), ConfigurationErr "T_fill odd");
    (uns -> i_temp_dir i <> Some "", ConfigurationErr "temp_dir empty");
    (uns -> forall n ds, i_neighbours i = Some (n, ds) -> n = 3%nat, DataValidationErr "neighbours shape");
    (uns -> forall n ds, i_neighbours i = Some (n, ds) -> ds = ["nv"; i_xdim i],
            DataValidationErr "neighbours dims") ].

(** [r] is the first violated requirement of the table. *)
Definition first_violated (table : list (Prop * err)) (e : err) : Prop :=
  exists pre P post, table = (pre ++ (P, e) :: post)%list /\
    Forall (fun r => fst r) pre /\ ~ P.
