(** Vocabulary for the overlap properties, independent of the model's helpers. *)
From Verif Require Import Base.
Open Scope nat_scope.

Fixpoint totalQ (f : nat -> Q) (n : nat) : Q :=
  match n with O => 0%Q | S k => (totalQ f k + f k)%Q end.

(** Some cell carries [i] in the first field and [j] in the second. *)
Definition meets (a b : list Z) (i j : Z) : Prop :=
  exists k, k < length a /\ nth k a 0%Z = i /\ nth k b 0%Z = j.

(** Total area of the cells that carry [i] in the first field and [j] in the second. *)
Definition shared_area (w : list Q) (a b : list Z) (i j : Z) : Q :=
  totalQ (fun k => if Z.eqb (nth k a 0%Z) i && Z.eqb (nth k b 0%Z) j then nth k w 0%Q else 0%Q)
         (length a).

(** Total area of the cells of object [i]. *)
Definition object_area (w : list Q) (a : list Z) (i : Z) : Q :=
  totalQ (fun k => if Z.eqb (nth k a 0%Z) i then nth k w 0%Q else 0%Q) (length a).

(** Object [p] of the earlier field and [c] of the later one overlap enough:
    areas as recorded in the object table [area]. *)
Definition accepted (w : list Q) (thr : Q) (area : Z -> option Q) (f2 f1 : list Z) (p c : Z) : Prop :=
  (0 < p)%Z /\ (0 < c)%Z /\ meets f2 f1 p c /\
  exists ap ac, area p = Some ap /\ area c = Some ac /\
    ((ap <= ac /\ thr * ap <= shared_area w f2 f1 p c) \/
     (ac <= ap /\ thr * ac <= shared_area w f2 f1 p c))%Q.
