(** Model of how a mesh reaches the tracker: preprocess_data attaches neighbours and cell_areas to
    its dataset (detect.py:698-709), tracker casts them (track.py:477-484, 1060), checks the shape
    (track.py:1063-1075), builds the sparse matrix (track.py:1094-1115) and clusters
    (track.py:1954-1969).

    Chunks and names of dimensions are in Chunks.v; the sums of the mean are exact. *)
From Verif Require Import Base Support Overlap Instrument Rounding Morph.

(** An entry of the table neighbours as the user has it: a whole number or a float (track.py:1060). *)
Inductive entry := EInt (z : Z) | EFloat (q : Q) | ENaN.
(** NumPy's int32 arithmetic wraps (detect.py:702, track.py:1060). *)
Definition wrap32 (z : Z) : Z := (z + 2 ^ 31) mod 2 ^ 32 - 2 ^ 31.
(** astype(np.int32) (detect.py:702, track.py:1060): floats are cut off.  What NaN and floats beyond
    the range become depends on the processor: [odd], -2^31 on x86 and 0 for NaN on ARM. *)
Definition as_int32 (odd : Z) (e : entry) : Z :=
  match e with
  | EInt z => wrap32 z
  | EFloat q => let z := Z.quot (Qnum q) (Zpos (Qden q)) in
                if Z.leb (- 2 ^ 31) z && Z.ltb z (2 ^ 31) then z else odd
  | ENaN => odd
  end.
(** ds["neighbours"] (detect.py:699-702); rows of the table are the three directions. *)
Definition attached (odd : Z) (t : list (list entry)) : list (list entry) := map (map (fun e => EInt (as_int32 odd e))) t.
(** ds["cell_areas"] (detect.py:706-709). *)
Definition attached_areas (w : list Q) : list Q := map single w.

Inductive mesh_err := WrongShape | ColumnIndex | IndexOutOfBounds.
(** self.neighbours_int (track.py:1060). *)
Definition neighbours_int (odd : Z) (t : list (list entry)) : list (list Z) := map (map (fun e => wrap32 (as_int32 odd e - 1))) t.
(** neighbours_int.shape[1] (track.py:1097, 1106). *)
Definition ncells (t : list (list Z)) : nat := match t with r :: _ => length r | [] => 0%nat end.
(** One row of three entries for each cell (track.py:1098, the transpose). *)
Definition by_cell (t : list (list Z)) : mesh := map (fun i => map (fun r => nth i r (-1)%Z) t) (seq 0 (ncells t)).
(** The constructor (track.py:1060-1115): scipy's coo_matrix refuses a column beyond the matrix;
    negative entries are left out before. *)
Definition built (odd : Z) (t : list (list entry)) : result mesh_err mesh :=
  let m := neighbours_int odd t in
  if negb (Nat.eqb (length m) 3) then Err WrongShape
  else if existsb (existsb (fun j => Z.leb (Z.of_nat (ncells m)) j)) m then Err ColumnIndex
  else Ok (by_cell m).
(** arr[i][neighbours_int] of the first step (track.py:1958): negative entries count from the end,
    and below -ncells raise IndexError. *)
Definition clustered (m : mesh) : result mesh_err mesh :=
  if existsb (existsb (fun j => Z.ltb j (- Z.of_nat (length m)))) m then Err IndexOutOfBounds else Ok m.
(** Construction and the first identify_objects (track.py:1060-1115, 1954-1969). *)
Definition read_mesh (odd : Z) (t : list (list entry)) : result mesh_err mesh := bind (built odd t) clustered.

(** self.cell_area (track.py:477). *)
Definition cell_area (w : list Q) : list Q := map single w.
(** self.mean_cell_area (track.py:481, 484): of the areas as given, before the cast. *)
Definition mean_cell_area (w : list Q) : Q := (fold_right Qplus 0 w / inject_Z (Z.of_nat (length w)))%Q.
