(** Chunks of the tracker's inputs: _validate_spatial_chunking and
    _validate_unstructured_chunking (track.py:750-917), and the two places where the
    chunks of [neighbours] matter. Values are not part of the model: xarray's chunk()
    leaves them alone. *)
From Coq Require Import String.
From Verif Require Import Base.
Open Scope nat_scope.

(** An array: its dimensions, and for dask-backed arrays the sizes of the chunks
    along each of them (DataArray.chunksizes); numpy-backed arrays have none (track.py:750-758). *)
Record arr := mkArr { a_dask : bool; a_axes : list (string * list nat) }.

(** track.py:783-786, 1098. *)
Inductive chunk_err := ValueErr (what : string) | AttributeErr (what : string).

(** [d in a.chunksizes] with its value: empty for numpy-backed arrays (track.py:756). *)
Fixpoint lookup (d : string) (l : list (string * list nat)) : option (list nat) :=
  match l with
  | [] => None
  | (k, v) :: r => if String.eqb k d then Some v else lookup d r
  end.
(** track.py:756. *)
Definition chunksizes (a : arr) (d : string) : option (list nat) := if a_dask a then lookup d (a_axes a) else None.
(** More than one chunk along [d] (e.g. track.py:756-758). *)
Definition multiple (a : arr) (d : string) : option nat :=
  match chunksizes a d with
  | Some cs => if Nat.ltb 1 (length cs) then Some (length cs) else None
  | None => None
  end.

(** a.chunk({d: -1 for d in ds}): ValueError for unknown dimensions (xarray
    Dataset.chunk); numpy-backed arrays become dask arrays (track.py:783-786). *)
Definition merged (ds : list string) (kv : string * list nat) : string * list nat :=
  if existsb (String.eqb (fst kv)) ds then (fst kv, [fold_right Nat.add 0 (snd kv)]) else kv.
(** track.py:783-786. *)
Definition chunk (ds : list string) (a : arr) : result chunk_err arr :=
  if forallb (fun d => existsb (String.eqb d) (map fst (a_axes a))) ds
  then Ok (mkArr true (map (merged ds) (a_axes a)))
  else Err (ValueErr "chunks keys").

(** track.py:750-857. *)
Record held := mkHeld { h_data : arr; h_mask : arr; h_lon : arr; h_lat : arr; h_x : string; h_y : option string }.
(** track.py:759-764. *)
Definition warning := (string * string * nat)%type.   (** array, dimension, number of chunks *)

(** One check: a warning and a dimension to rechunk (e.g. track.py:756-767). *)
Definition check_dim (name : string) (a : arr) (d : option string) : list warning :=
  match d with
  | Some d => match multiple a d with Some n => [(name, d, n)] | None => [] end
  | None => []
  end.
Definition dims_of (ws : list warning) : list string := map (fun w => snd (fst w)) ws.
(** if ..._rechunk_needed: a = a.chunk(...) (e.g. track.py:783-786). *)
Definition rechunk_if (ws : list warning) (a : arr) : result chunk_err arr :=
  match ws with [] => Ok a | _ => chunk (dims_of ws) a end.

(** _validate_spatial_chunking (track.py:750-857): data, mask, and for the
    coordinates longitude along x and latitude along y; both coordinates are
    rechunked along the dimensions found on either (track.py:855-857). *)
Definition validate_spatial_chunking (h : held) : result chunk_err (held * list warning) :=
  let wd := check_dim "data_bin" (h_data h) (Some (h_x h)) ++ check_dim "data_bin" (h_data h) (h_y h) in
  bind (rechunk_if wd (h_data h)) (fun data =>
  let wm := check_dim "mask" (h_mask h) (Some (h_x h)) ++ check_dim "mask" (h_mask h) (h_y h) in
  bind (rechunk_if wm (h_mask h)) (fun mask =>
  let wc := check_dim "lon" (h_lon h) (Some (h_x h)) ++ check_dim "lat" (h_lat h) (h_y h) in
  bind (rechunk_if wc (h_lat h)) (fun lat =>
  bind (rechunk_if wc (h_lon h)) (fun lon =>
  Ok (mkHeld data mask lon lat (h_x h) (h_y h), wd ++ wm ++ wc))))).

(** _validate_unstructured_chunking (track.py:859-917): warnings only; nothing is
    rechunked, neither here nor in the caller (track.py:1057-1060). *)
Definition validate_unstructured_chunking (x : string) (neighbours areas : arr) : list warning :=
  check_dim "neighbours" neighbours (Some x) ++ check_dim "neighbours" neighbours (Some "nv"%string) ++
  check_dim "cell_areas" areas (Some x).

(** self.neighbours_int.data.compute() (track.py:1098): numpy arrays have no
    compute. *)
Definition build_matrix (neighbours : arr) : result chunk_err unit :=
  if a_dask neighbours then Ok tt else Err (AttributeErr "compute").

(** xr.apply_ufunc(..., dask="parallelized") of identify_objects on meshes
    (track.py:1988-2001): core dimensions of dask arguments must be in one chunk. *)
Definition core_ok (a : arr) (ds : list string) : bool :=
  forallb (fun d => match chunksizes a d with Some cs => Nat.eqb (length cs) 1 | None => true end) ds.
Definition identify_chunks (x : string) (data neighbours : arr) : result chunk_err unit :=
  if core_ok data [x] && core_ok neighbours ["nv"%string; x] then Ok tt else Err (ValueErr "core dimension").

(** Construction on a mesh and the first identify_objects (track.py:750-917, 1094-1098, 1988-2001). *)
Definition mesh_chunks (h : held) (neighbours areas : arr) : result chunk_err (held * list warning) :=
  bind (validate_spatial_chunking h) (fun p =>
  let ws := snd p ++ validate_unstructured_chunking (h_x h) neighbours areas in
  bind (build_matrix neighbours) (fun _ =>
  bind (identify_chunks (h_x h) (h_data (fst p)) neighbours) (fun _ => Ok (fst p, ws)))).
