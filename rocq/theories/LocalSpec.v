(** Vocabulary for the locality of events on meshes. *)
From Verif Require Import Base Morph MorphSpec.
Open Scope nat_scope.

(** A cell outside the region [U] next to a cell of it. *)
Definition on_border (m : mesh) (U : nat -> bool) (c : nat) : Prop :=
  c < length m /\ U c = false /\ exists u, u < length m /\ U u = true /\ (adj m u c \/ adj m c u).
(** The two series have the same values on every cell at most [H] steps away from the region or its border. *)
Definition same_around (m : mesh) (H : nat) (U : nat -> bool) (data data' : list (list bool)) : Prop :=
  forall t c l, t < length data -> c < length m -> U c = true \/ on_border m U c -> within m H c l ->
    nth l (nth t data []) false = nth l (nth t data' []) false.
