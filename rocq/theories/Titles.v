(** Model of the titles of panels and frames: _get_title (base.py:321-329) as called by multi_plot
    (base.py:352, 369), and the dates animate hands to make_frame (base.py:475-487, 679-680);
    and of the colour bar of a figure with panels (base.py:295-319, 394-404).

    Coordinates lie along one dimension.  A time stamp is the date and the minute of the
    day as xarray's dt accessor gives them, of any calendar; strftime pads years to four
    digits (datetime64[ns] spans the years 1677 to 2262). *)
From Coq Require Import String.
From Verif Require Import Base Errors Support Histogram Plot Draw.
Open Scope string_scope.
Open Scope list_scope.
Open Scope nat_scope.

Record stamp := mkStamp { s_year : nat; s_month : nat; s_day : nat; s_minute : nat }.
(** A coordinate (base.py:328-329): its dimension, its values as text, and as times if they are. *)
Record coordinate := mkCoordinate { k_dim : string; k_text : list string; k_times : option (list stamp) }.
(** A DataArray: sizes of its dimensions, coordinates by name (base.py:352). *)
Record labelled := mkLabelled { l_dims : list (string * nat); l_coords : list (string * coordinate) }.
(** base.py:327-329, 475-487. *)
Inductive title_err :=
| NoKey (name : string)    (* KeyError: of the mapping or of the array *)
| NotAlong (dim : string)  (* isel along a dimension the coordinate does not have: ValueError *)
| NoDates                  (* dt of something that is no time: AttributeError *)
| NoIndex.                 (* isel out of bounds: IndexError *)

(** self.da[name] (base.py:328, 329, 352, 482, 487): a coordinate, or the numbers along a dimension without one. *)
Definition item (da : labelled) (name : string) : result title_err coordinate :=
  match lookup name (l_coords da) with
  | Some c => Ok c
  | None => match lookup name (l_dims da) with
            | Some n => Ok (mkCoordinate name (map digits (seq 0 n)) None)
            | None => Err (NoKey name)
            end
  end.
(** strftime("%Y-%m-%d") (base.py:328, 487). *)
Definition date_text (s : stamp) : string :=
  (pad_number 4 (s_year s) ++ "-" ++ pad_number 2 (s_month s) ++ "-" ++ pad_number 2 (s_day s))%string.
(** da[coord].isel({dim: i}).dt.strftime("%Y-%m-%d").values (base.py:328, 487). *)
Definition date_at (da : labelled) (coord dim : string) (i : nat) : result title_err string :=
  bind (item da coord) (fun c =>
    if String.eqb (k_dim c) dim then
      match nth_error (k_text c) i, k_times c with
      | None, _ => Err NoIndex
      | Some _, None => Err NoDates
      | Some _, Some l => match nth_error l i with Some s => Ok (date_text s) | None => Err NoIndex end
      end
    else Err (NotAlong dim)).
(** f"{col}={da[col].isel({col: i}).values}" (base.py:329). *)
Definition value_at (da : labelled) (col : string) (i : nat) : result title_err string :=
  bind (item da col) (fun c =>
    if String.eqb (k_dim c) col then
      match nth_error (k_text c) i with Some s => Ok (col ++ "=" ++ s)%string | None => Err NoIndex end
    else Err (NotAlong col)).

(** _get_title (base.py:321-329) with the dimensions of the configuration and the coordinates of the plotter. *)
Definition get_title (da : labelled) (config_dims own_coords : mapping) (col : string) (i : nat) : result title_err string :=
  match lookup "time" config_dims with
  | None => Err (NoKey "time")
  | Some t =>
    if String.eqb col t then date_at da (match lookup "time" own_coords with Some c => c | None => "time" end) col i
    else value_at da col i
  end.
Fixpoint all_of {A} (l : list (result title_err A)) : result title_err (list A) :=
  match l with [] => Ok [] | r :: t => bind r (fun a => bind (all_of t) (fun b => Ok (a :: b))) end.
(** The titles of the panels (base.py:352, 367-369). *)
Definition panel_titles (da : labelled) (config_dims own_coords : mapping) (col : string) : result title_err (list string) :=
  bind (item da col) (fun c => all_of (map (get_title da config_dims own_coords col) (seq 0 (length (k_text c))))).

(** base.py:475-476: empty mappings are falsy. *)
Definition time_dim (config_dims : mapping) : result title_err string :=
  match config_dims with
  | [] => Ok "time"
  | _ => match lookup "time" config_dims with Some t => Ok t | None => Err (NoKey "time") end
  end.
Definition time_coord (config_coords : mapping) (dim : string) : string :=
  match config_coords with
  | [] => dim
  | _ => match lookup "time" config_coords with Some c => c | None => dim end
  end.
(** The titles of the frames (base.py:475-487, 679-680). *)
Definition frame_titles (da : labelled) (config_dims config_coords : mapping) : result title_err (list string) :=
  bind (time_dim config_dims) (fun t =>
  bind (item da t) (fun c => all_of (map (date_at da (time_coord config_coords t) t) (seq 0 (length (k_text c)))))).

(** The colour bar of a figure with panels (base.py:394-404, 295-319): the colour map with
    the norm, else with the limits; its label, if any, and its extension. *)
Record bar := mkBar { b_scale : cmap * (norm + option (option (Q * Q))); b_label : option string; b_extend : string }.
Definition figure_bar (has_time : bool) (steps : list (list value)) (c : config) : result draw_err (option bar) :=
  bind (setup has_time steps c) (fun sb =>
    Ok (if c_colorbar c then
          Some (mkBar (scale (fst sb)) (match fst (snd sb) with "" => None | u => Some u end) (snd (snd sb)))
        else None)).
