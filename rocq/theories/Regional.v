(** Model of regional_tracker.  Source: /repo/marEx/track.py:5471-5558. *)
From Coq Require Import String.
From Verif Require Import Base Config.
Open Scope string_scope.

(** The same arguments with regional_mode=True and the given units (track.py:5549-5558). *)
Definition as_region (u : string) (i : input) : input :=
  mkInput true (i_unstructured i) (Some u) (i_lon_min i) (i_lon_max i) (i_dims i) (i_coords i)
    (i_timedim i) (i_xdim i) (i_ydim i) (i_timecoord i) (i_xcoord i) (i_ycoord i) (i_dask i) (i_dtype_bool i)
    (i_temp_dir i) (i_neighbours i) (i_cell_areas i) (i_gridres i) (i_mask_bool i) (i_mask i)
    (i_quartile i) (i_absolute i) (i_T_fill i).

(** The parameters of tracker.__init__ that are left for **kwargs: those regional_tracker does not take itself
    (track.py:323-349, 5471-5479). *)
Definition other_keywords : list string :=
  ["temp_dir"; "T_fill"; "allow_merging"; "nn_partitioning"; "overlap_threshold"; "unstructured_grid"; "dimensions"; "coordinates";
   "neighbours"; "cell_areas"; "grid_resolution"; "max_iteration"; "checkpoint"; "debug"; "verbose"; "quiet"; "regional_mode"].

(** What a call gives: Python rejects the call, or the constructor answers. *)
Inductive called : Type :=
| TypeErr
| Answer (r : result err config).

(** [kw] the names in **kwargs, whose values are in [i].  A name given twice to tracker (regional_mode) or unknown to it
    is a TypeError (track.py:5479, 5549-5558). *)
Definition regional_tracker (kw : list string) (u : string) (i : input) : called :=
  if mems "regional_mode" kw then TypeErr
  else if negb (forallb (fun s => mems s other_keywords) kw) then TypeErr
  else Answer (construct (as_region u i)).
