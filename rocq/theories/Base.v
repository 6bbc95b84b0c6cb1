(** Shared definitions and lemmas.  Nothing in this file models marEx code. *)
From Coq Require Export List Arith ZArith QArith Lia Bool.
From Coq Require Export ZifyBool ZifyNat.
Export ListNotations.
Open Scope list_scope.
Open Scope nat_scope.

(** Exceptions are values. *)
Inductive result (E A : Type) : Type :=
| Ok (a : A)
| Err (e : E).
Arguments Ok {E A} a.
Arguments Err {E A} e.

Definition bind {E A B} (r : result E A) (f : A -> result E B) : result E B :=
  match r with Ok a => f a | Err e => Err e end.

(** Rational comparisons as booleans that reflect [Qle], [Qlt]. *)
Definition Qltb (x y : Q) : bool := negb (Qle_bool y x).

Lemma Qltb_spec x y : Qltb x y = true <-> (x < y)%Q.
Proof.
  unfold Qltb. rewrite negb_true_iff. split; intro H.
  - apply Qnot_le_lt. intro C. apply Qle_bool_iff in C. congruence.
  - destruct (Qle_bool y x) eqn:E; auto. apply Qle_bool_iff in E.
    exfalso. apply (Qlt_not_le _ _ H E).
Qed.

Lemma Qltb_false x y : Qltb x y = false <-> (y <= x)%Q.
Proof.
  unfold Qltb. rewrite negb_false_iff. apply Qle_bool_iff.
Qed.

Lemma Qle_bool_false x y : Qle_bool x y = false <-> (y < x)%Q.
Proof.
  rewrite <- Qltb_spec. unfold Qltb. rewrite negb_true_iff. reflexivity.
Qed.

(** Number of elements satisfying a test. *)
Definition count {A} (f : A -> bool) (l : list A) : nat := length (filter f l).

Lemma count_app {A} (f : A -> bool) a b : count f (a ++ b) = count f a + count f b.
Proof. unfold count. rewrite filter_app, app_length. reflexivity. Qed.

Lemma count_cons {A} (f : A -> bool) x l :
  count f (x :: l) = (if f x then 1 else 0) + count f l.
Proof. unfold count. simpl. destruct (f x); reflexivity. Qed.

Lemma count_le {A} (f g : A -> bool) l :
  (forall x, In x l -> f x = true -> g x = true) -> count f l <= count g l.
Proof.
  induction l as [|x l IH]; intro H; [reflexivity|].
  rewrite !count_cons.
  assert (IH' := IH (fun y Hy => H y (or_intror Hy))).
  destruct (f x) eqn:F.
  - rewrite (H x (or_introl eq_refl) F). lia.
  - destruct (g x); lia.
Qed.

Lemma count_ext {A} (f g : A -> bool) l :
  (forall x, In x l -> f x = g x) -> count f l = count g l.
Proof.
  induction l as [|x l IH]; intro H; [reflexivity|].
  rewrite !count_cons, (H x (or_introl eq_refl)), IH; auto.
  intros y Hy. apply H. right. exact Hy.
Qed.

Lemma count_length {A} (f : A -> bool) l : count f l <= length l.
Proof. induction l as [|x l IH]; [reflexivity|]. rewrite count_cons. simpl. destruct (f x); lia. Qed.

Lemma count_zero {A} (f : A -> bool) l :
  count f l = 0 <-> (forall x, In x l -> f x = false).
Proof.
  induction l as [|x l IH]; [split; [intros _ y []| reflexivity]|].
  rewrite count_cons. split.
  - intros H y [<-|Hy]; destruct (f x) eqn:F; try lia; auto.
    apply IH; auto.
  - intro H. rewrite (H x (or_introl eq_refl)). simpl. apply IH.
    intros y Hy. apply H. right; exact Hy.
Qed.

Lemma count_pos {A} (f : A -> bool) l :
  0 < count f l <-> (exists x, In x l /\ f x = true).
Proof.
  induction l as [|x l IH]; [split; [cbv; lia | intros (y & [] & _)]|].
  rewrite count_cons. split.
  - intro H. destruct (f x) eqn:F; [exists x; split; [left; auto|auto]|].
    apply IH in H. destruct H as (y & Hy & G). exists y; split; [right; auto|auto].
  - intros (y & [->|Hy] & G).
    + rewrite G. lia.
    + assert (0 < count f l) by (apply IH; exists y; auto). lia.
Qed.

(** Membership tests. *)
Definition memZ (x : Z) (l : list Z) : bool := existsb (Z.eqb x) l.
Lemma memZ_In x l : memZ x l = true <-> In x l.
Proof.
  unfold memZ. rewrite existsb_exists. split.
  - intros (y & Hy & E). apply Z.eqb_eq in E. subst. exact Hy.
  - intro H. exists x. split; auto. apply Z.eqb_refl.
Qed.
Lemma memZ_false x l : memZ x l = false <-> ~ In x l.
Proof. rewrite <- memZ_In. destruct (memZ x l); split; congruence. Qed.

Definition memN (x : nat) (l : list nat) : bool := existsb (Nat.eqb x) l.
Lemma memN_In x l : memN x l = true <-> In x l.
Proof.
  unfold memN. rewrite existsb_exists. split.
  - intros (y & Hy & E). apply Nat.eqb_eq in E. subst. exact Hy.
  - intro H. exists x. split; auto. apply Nat.eqb_refl.
Qed.

(** Unique values in order of first occurrence. *)
Fixpoint nubZ (l : list Z) : list Z :=
  match l with
  | [] => []
  | x :: r => let n := nubZ r in if memZ x n then n else x :: n
  end.
Lemma nubZ_In x l : In x (nubZ l) <-> In x l.
Proof.
  induction l as [|y l IH]; simpl; [tauto|].
  destruct (memZ y (nubZ l)) eqn:M.
  - rewrite IH. split; [auto|]. intros [->|H]; auto. apply memZ_In in M. tauto.
  - simpl. rewrite IH. tauto.
Qed.
Lemma nubZ_NoDup l : NoDup (nubZ l).
Proof.
  induction l as [|y l IH]; simpl; [constructor|].
  destruct (memZ y (nubZ l)) eqn:M; auto.
  constructor; auto. now apply memZ_false.
Qed.
