(** What an entry of a neighbour table stands for, and which tables are good. *)
From Verif Require Import Base MeshInput.

(** The entry is the whole number z, of whatever type. *)
Definition worth (e : entry) (z : Z) : Prop :=
  match e with EInt x => x = z | EFloat q => (q == inject_Z z)%Q | ENaN => False end.
(** Three directions for each of n cells. *)
Definition table_of (n : nat) (t : list (list entry)) : Prop := length t = 3%nat /\ forall r, In r t -> length r = n.
(** In some direction the table names the cell with number z for the cell in position i. *)
Definition listed (t : list (list entry)) (i : nat) (z : Z) : Prop := exists r, In r t /\ worth (nth i r ENaN) z.
(** The range of int32. *)
Definition int32 (z : Z) : Prop := (- 2 ^ 31 <= z < 2 ^ 31)%Z.
