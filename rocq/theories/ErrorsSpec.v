(** What it means for a text to carry pieces of information in order. *)
From Coq Require Import String List.
Import ListNotations.
Open Scope list_scope.

(** The pieces occur in [t] one after the other without overlap. *)
Fixpoint in_order (pieces : list string) (t : string) : Prop :=
  match pieces with
  | [] => True
  | p :: r => exists before after, t = (before ++ p ++ after)%string /\ in_order r after
  end.
Definition opt (o : option string) : list string := match o with Some s => [s] | None => [] end.
