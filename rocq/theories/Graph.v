(** Connected components of a finite graph, the meaning of
    scipy.sparse.csgraph.connected_components and of the merging step of
    dask_image.ndmeasure.label.  The numbering (by first occurrence) is that of
    scipy; theorems never depend on it beyond contiguity. *)
From Verif Require Import Base.
Open Scope nat_scope.

(** a row and column index of csr_matrix, track.py:1972-1978. *)
Definition edge := (nat * nat)%type.

(** Replace every occurrence of one representative by another (part of connected_components, used at track.py:1979 and 2875-2883). *)
Definition relabel (a b : nat) (lab : list nat) : list nat :=
  map (fun l => if Nat.eqb l b then a else l) lab.

(** part of connected_components, used at track.py:1979 and 2875-2883. *)
Definition lab_at (lab : list nat) (i : nat) : nat := nth i lab i.

(** Join the classes of the two ends of an edge (part of connected_components, used at track.py:1979 and 2875-2883). *)
Definition join (lab : list nat) (e : edge) : list nat :=
  relabel (lab_at lab (fst e)) (lab_at lab (snd e)) lab.

(** Representative of every node (part of connected_components, used at track.py:1979 and 2875-2883). *)
Definition roots (n : nat) (es : list edge) : list nat :=
  fold_left join es (seq 0 n).

(** Distinct values in order of first occurrence (part of connected_components, used at track.py:1979 and 2875-2883). *)
Definition add_new (seen : list nat) (x : nat) : list nat :=
  if memN x seen then seen else seen ++ [x].
(** part of connected_components, used at track.py:1979 and 2875-2883. *)
Definition firsts (l : list nat) : list nat := fold_left add_new l [].

(** part of connected_components, used at track.py:1979 and 2875-2883. *)
Fixpoint index_of (x : nat) (l : list nat) : nat :=
  match l with
  | [] => 0
  | y :: r => if Nat.eqb x y then 0 else S (index_of x r)
  end.

(** connected_components(..., directed=False): one label per node (track.py:1979, 2875-2883). *)
Definition components (n : nat) (es : list edge) : list nat :=
  let rt := roots n es in map (fun r => index_of r (firsts rt)) rt.
(** first result of connected_components, track.py:1979, 2875-2883. *)
Definition n_components (n : nat) (es : list edge) : nat := length (firsts (roots n es)).

(** ** Specification *)
(** meaning of connected_components, used at track.py:1979 and 2875-2883. *)
Inductive linked (es : list edge) : nat -> nat -> Prop :=
| linked_refl i : linked es i i
| linked_fwd i j k : In (i, j) es -> linked es j k -> linked es i k
| linked_bwd i j k : In (j, i) es -> linked es j k -> linked es i k.
