(** Model of the floating-point arithmetic of the overlap decisions:
    check_overlap_slice, find_overlapping_objects, calculate_object_properties (areas)
    and enforce_overlap_threshold (track.py:2109-2552), which Overlap.v models with
    exact numbers.

    Rounding is to nearest, ties to even, with an unbounded range of exponents: no
    overflow and no subnormal numbers.  IDs are exact (float64 holds all of int32). *)
From Coq Require Import Qround.
From Verif Require Import Base Filter Overlap Support Instrument.
Open Scope nat_scope.

(** The exponent e with 2^(p-1) <= q / 2^e < 2^p, for q > 0 (formats of track.py:2438, 2542). *)
Definition exponent (p : Z) (q : Q) : Z :=
  let e := (Z.log2 (Qnum q) - Z.log2 (Zpos (Qden q)) - p)%Z in
  if Qle_bool (pow2 p) (q / pow2 e) then (e + 1)%Z else e.
(** Rounding of a positive number to [p] binary digits (track.py:2438-2439, 2542). *)
Definition rounded (p : Z) (q : Q) : Q :=
  if Qle_bool q 0 then 0%Q else
  let q := Qred q in let e := exponent p q in (inject_Z (half_even (q / pow2 e)) * pow2 e)%Q.
(** np.float32, track.py:477, 2190, 2438, 2498. *)
Definition single : Q -> Q := rounded 24.
(** Python's float and np.float64, track.py:2542. *)
Definition float64 : Q -> Q := rounded 53.

(** np.add.at on a float32 array of zeros adds one value after the other
    (track.py:2190, 2203, 2438-2439, 2498-2499). *)
Definition sum32 (l : list Q) : Q := fold_left (fun s a => single (s + a)) l 0%Q.

(** calculate_object_properties on a mesh: the area of an object (track.py:2190-2203). *)
Definition area32 (w : list Q) (id : Z) (f : list Z) : Q :=
  sum32 (map snd (filter (fun c => Z.eqb id (fst c)) (combine f w))).

(** check_overlap_slice on a mesh (track.py:2412-2450). *)
Definition check_overlap32 (w : list Q) (a b : list Z) : list row :=
  let valid := filter both_pos (cells3 w a b) in
  match valid with
  | [] => []
  | _ =>
    let m := pair_base a b in
    let code c := (c_from c * m + c_to c)%Z in
    map (fun k => mkRow (k / m) (k mod m)
                        (sum32 (map snd (filter (fun c => Z.eqb (code c) k) valid))))
        (unique_codes (map code valid))
  end.
(** find_overlapping_objects on a mesh (track.py:2474-2504). *)
Definition find_overlapping32 (w : list Q) (fields : list (list Z)) : list row :=
  let all := flat_map (fun p => check_overlap32 w (fst p) (snd p)) (combine fields (shifted fields)) in
  map (fun p => mkRow (fst p) (snd p)
                  (sum32 (map r_area (filter (fun r => pair_eqb (row_pair r) p) all))))
      (unique_pairs (map row_pair all)).

(** enforce_overlap_threshold (track.py:2529-2552): the quotient of two floats is a
    float64, compared with the float64 overlap_threshold. *)
Definition fraction64 (ps : props) (r : row) : option Q :=
  match lookup (r_from r) ps, lookup (r_to r) ps with
  | Some p0, Some p1 => Some (float64 (r_area r / Qminb (p_area p0) (p_area p1)))
  | _, _ => None
  end.
(** track.py:2549. *)
Definition over_threshold64 (thr : Q) (ps : props) (r : row) : bool :=
  match fraction64 ps r with Some f => Qle_bool thr f | None => false end.
(** track.py:2526-2552. *)
Definition enforce_threshold64 (thr : Q) (ps : props) (l : list row) : list row :=
  filter (over_threshold64 thr ps) l.

(** np.percentile(object_areas, area_filter_quartile * 100) in float64 (track.py:1838,
    1888): NumPy divides by 100 again, takes the position (n - 1) * q in the sorted
    areas and interpolates from the nearer side (numpy's _lerp).  Areas are integers. *)
Definition percentile64 (q : Q) (areas : list nat) : Q :=
  let s := sort_nat areas in
  let n := length s in
  let pos := float64 (nat_Q (n - 1) * float64 (float64 (q * 100) / 100)) in
  let lo := Z.to_nat (Qfloor pos) in
  let a := nat_Q (nth lo s 0) in
  let b := nat_Q (nth (Nat.min (S lo) (n - 1)) s 0) in
  let t := float64 (pos - inject_Z (Qfloor pos)) in
  if Qle_bool (1 # 2) t then float64 (b - float64 ((b - a) * float64 (1 - t)))
  else float64 (a + float64 ((b - a) * t)).
