(** The names of time: the dimension's name [timedim], the coordinate's name [timecoord], and the coordinates of the arrays that
    carry them from the tracker's input to its events (track.py:378-392, 545-576, 1382-1408, 2933-2935, 3321-3328, 4404, 4749). *)
Require Import List Bool String.
From Verif Require Import Base.
Import ListNotations.
Open Scope string_scope.

Section Times.
(** The type of time values. *)
Context {V : Type}.
(** The coordinates of an xarray object: name, dimension and values.  Only one-dimensional coordinates are modelled
    (track.py:545-576). *)
Definition coordinates := list (string * (string * list V)).
(** [da.coords[name]], track.py:2934. *)
Fixpoint coord (c : coordinates) (name : string) : option (string * list V) :=
  match c with [] => None | (n, x) :: r => if String.eqb n name then Some x else coord r name end.
(** [drop_vars], track.py:1408. *)
Definition drop_coord (name : string) (c : coordinates) : coordinates := filter (fun e => negb (String.eqb (fst e) name)) c.
(** [assign_coords], track.py:1405: an existing coordinate of that name is replaced. *)
Definition assign_coord (name : string) (x : string * list V) (c : coordinates) : coordinates := (drop_coord name c ++ [(name, x)])%list.

(** Ways to fail: the coordinate is missing (track.py:546-566), it does not lie along the time dimension (xarray's [set_index], 576), or
    a coordinate is looked up under a name that is not there (4404, 4749, 2934). *)
Inductive time_error := MissingCoordinate | WrongDimension | KeyError (name : string).
(** [set_index({timedim: timecoord})] of xarray, track.py:576: the values of the coordinate become those of the dimension, and the
    coordinate's own name is gone. *)
Definition set_index (timedim timecoord : string) (c : coordinates) : result time_error coordinates :=
  match coord c timecoord with
  | None => Err MissingCoordinate
  | Some (d, v) => if String.eqb d timedim then Ok (assign_coord timedim (timedim, v) (drop_coord timecoord c)) else Err WrongDimension
  end.
(** track.py:545-576, for the time coordinate.  xarray names the index of a dimension after the dimension, so the index's name
    differs from [timecoord] whenever the two names differ. *)
Definition validated (timedim timecoord : string) (c : coordinates) : result time_error coordinates :=
  match coord c timecoord with
  | None => Err MissingCoordinate
  | Some _ => if String.eqb timecoord timedim then Ok c else set_index timedim timecoord c
  end.
(** The coordinates of what [run_tracking] has before line 1401.  Without merging they are those of the data (1393-1394).  On a mesh
    the merging step reads [timecoord] (4749); with merging the times are read under the dimension's name (2934), become the coordinate
    [timecoord] of the properties (2935), and are merged with those of the field (3321-3328). *)
Definition tracked_coords (timedim timecoord : string) (merging mesh : bool) (c : coordinates) : result time_error coordinates :=
  if merging || mesh then
    match (if mesh then coord c timecoord else Some (timedim, [])) with
    | None => Err (KeyError timecoord)
    | Some _ =>
        match coord c timedim with
        | None => Err (KeyError timedim)
        | Some (_, v) => Ok (if String.eqb timecoord timedim then c else assign_coord timecoord (timedim, v) c)
        end
    end
  else Ok c.
(** Is there a coordinate of that name? track.py:1401. *)
Definition present (c : coordinates) (name : string) : bool := match coord c name with Some _ => true | None => false end.
(** track.py:1400-1408. *)
Definition restore_name (timedim timecoord : string) (c : coordinates) : coordinates :=
  if negb (String.eqb timecoord timedim) && present c timedim && negb (present c timecoord) then
    match coord c timedim with
    | Some x => drop_coord timedim (assign_coord timecoord x c)
    | None => c
    end
  else c.
(** From the tracker's input to the events it returns (track.py:545-576, 1382-1412). *)
Definition event_coords (timedim timecoord : string) (merging mesh : bool) (c : coordinates) : result time_error coordinates :=
  bind (validated timedim timecoord c) (fun c =>
  bind (tracked_coords timedim timecoord merging mesh c) (fun c => Ok (restore_name timedim timecoord c))).
End Times.
