(** Specification of size filtering. *)
From Verif Require Import Base Label LabelSpec Morph MorphSpec.
Open Scope nat_scope.

(** The object a cell belongs to: the extreme cells of the same time step that
    can be reached through touching extreme cells.  [l] lists it without
    repetition. *)
Definition joined (regional : bool) (nt ny nx : nat) (data : list bool) : cell -> cell -> Prop :=
  chain false (negb regional) nt ny nx (extreme ny nx data).
Definition object_cells (regional : bool) (nt ny nx : nat) (data : list bool) (c : cell) (l : list cell) : Prop :=
  NoDup l /\
  forall d, In d l <-> in_range nt ny nx d /\ extreme ny nx data d /\ joined regional nt ny nx data c d.

(** The earliest extreme cell in (time, latitude, longitude) order. *)
Definition first_extreme (nt ny nx : nat) (data : list bool) (c : cell) : Prop :=
  in_range nt ny nx c /\ extreme ny nx data c /\
  forall d, in_range nt ny nx d -> extreme ny nx data d -> flat ny nx c <= flat ny nx d.

(** Value of a per-time-step field at a cell. *)
Definition kept_at (nx : nat) (keep : list (list bool)) (c : cell) : Prop :=
  match c with (t, y, x) => nth (y * nx + x) (nth t keep []) false = true end.

(** [n] is the number of objects made of the cells satisfying [P]. *)
Definition counts_objects (regional : bool) (nt ny nx : nat) (data : list bool) (n : nat) (P : cell -> Prop) : Prop :=
  exists reps, length reps = n /\
    (forall c, In c reps -> in_range nt ny nx c /\ P c) /\
    ForallOrdPairs (fun a b => ~ joined regional nt ny nx data a b) reps /\
    (forall c, in_range nt ny nx c -> P c -> exists r, In r reps /\ joined regional nt ny nx data c r).

(** ** Meshes *)
Definition ocean_extreme (m : mesh) (mask data : list bool) (i : nat) : Prop :=
  i < length m /\ nth i mask false = true /\ nth i data false = true.
Definition mesh_object (m : mesh) (mask data : list bool) (i : nat) (l : list nat) : Prop :=
  NoDup l /\
  forall j, In j l <-> ocean_extreme m mask data j /\ mesh_chain m (ocean_extreme m mask data) i j.
Definition mesh_inputs_ok (m : mesh) (mask : list bool) (datas : list (list bool)) : Prop :=
  mesh_ok m /\ length mask = length m /\ forall d, In d datas -> length d = length m.
Definition mesh_kept (keep : list (list bool)) (t i : nat) : Prop := nth i (nth t keep []) false = true.

(** A stricter rule of the same kind. *)
From Verif Require Import Filter.
Definition rule_le (r1 r2 : area_rule) : Prop :=
  match r1, r2 with
  | ByAbsolute a, ByAbsolute b => (a <= b)%Z
  | ByQuartile p, ByQuartile q => (0 <= p)%Q /\ (p <= q)%Q /\ (q <= 1)%Q
  | _, _ => False
  end.
