(** Property C181: under which name the events carry the input's times. *)
Require Import List Bool String.
From Verif Require Import Base Names.
Import ListNotations.
Open Scope string_scope.

Section Coords.
Context {V : Type}.
Implicit Types c : coordinates (V := V).
Lemma coord_drop n m : forall c, coord (drop_coord n c) m = if String.eqb m n then None else coord c m.
Proof.
  unfold drop_coord. induction c as [|(k, x) c IH]; cbn.
  - destruct (String.eqb m n); reflexivity.
  - destruct (String.eqb_spec k n) as [->|N]; cbn.
    + rewrite IH. destruct (String.eqb_spec m n) as [->|M]; [reflexivity|].
      destruct (String.eqb_spec n m); [congruence|reflexivity].
    + rewrite IH. destruct (String.eqb_spec k m) as [->|M]; [|reflexivity].
      apply String.eqb_neq in N. rewrite N. reflexivity.
Qed.
Lemma coord_app m : forall c c', coord (c ++ c')%list m = match coord c m with Some x => Some x | None => coord c' m end.
Proof. induction c as [|(k, x) c IH]; intro c'; cbn; [reflexivity|]. destruct (String.eqb k m); [reflexivity|apply IH]. Qed.
Lemma coord_assign n x m c : coord (assign_coord n x c) m = if String.eqb m n then Some x else coord c m.
Proof.
  unfold assign_coord. rewrite coord_app, coord_drop. cbn. destruct (String.eqb_spec m n) as [->|N].
  - rewrite String.eqb_refl. reflexivity.
  - destruct (coord c m); [reflexivity|]. destruct (String.eqb_spec n m); [congruence|reflexivity].
Qed.
End Coords.

(** ** C181 *)
(** On a grid, and on a mesh when both names agree, a run whose coordinate lies along the time dimension returns it under the name
    given, with the input's values.  No other coordinate changes.  When the two names differ, the dimension's own name is no longer a
    coordinate without merging, and holds the times with merging, whatever it held before. *)
Theorem C181_times_keep_their_name_partial : forall (V : Type) timedim timecoord merging mesh (c : coordinates (V := V)) times,
  coord c timecoord = Some (timedim, times) -> mesh = false \/ timecoord = timedim ->
  exists out, event_coords timedim timecoord merging mesh c = Ok out /\
    coord out timecoord = Some (timedim, times) /\
    (forall n, n <> timecoord -> n <> timedim -> coord out n = coord c n) /\
    (timecoord <> timedim -> coord out timedim = if merging then Some (timedim, times) else None).
Proof.
  intros V timedim timecoord merging mesh c times E M. unfold event_coords, validated. rewrite E.
  destruct (String.eqb_spec timecoord timedim) as [->|N].
  - cbn [bind]. exists c. unfold tracked_coords. rewrite E, String.eqb_refl.
    assert (R : restore_name timedim timedim c = c) by (unfold restore_name; rewrite String.eqb_refl; reflexivity).
    split; [destruct merging, mesh; cbn [orb bind]; rewrite R; reflexivity|]. split; [reflexivity || exact E|]. split; [reflexivity|]. intro X. congruence.
  - assert (mesh = false) as -> by (destruct M as [->|M]; [reflexivity|contradiction]).
    unfold set_index. rewrite E, String.eqb_refl. cbn [bind]. unfold tracked_coords. rewrite orb_false_r.
    assert (D : String.eqb timecoord timedim = false) by (apply String.eqb_neq; exact N).
    assert (D' : String.eqb timedim timecoord = false) by (apply String.eqb_neq; congruence).
    set (c1 := assign_coord timedim (timedim, times) (drop_coord timecoord c)).
    assert (C1 : forall n, coord c1 n = if String.eqb n timedim then Some (timedim, times) else if String.eqb n timecoord then None else coord c n).
    { intro n. unfold c1. rewrite coord_assign, coord_drop. reflexivity. }
    destruct merging.
    + rewrite C1, String.eqb_refl, D. cbn [bind]. eexists. split; [reflexivity|]. unfold restore_name, present.
      rewrite !coord_assign, String.eqb_refl, andb_false_r.
      split; [rewrite coord_assign, String.eqb_refl; reflexivity|]. split.
      * intros n X Y. apply String.eqb_neq in X, Y. rewrite coord_assign, C1, X, Y. reflexivity.
      * intros _. rewrite coord_assign, C1, D', String.eqb_refl. reflexivity.
    + cbn [bind]. eexists. split; [reflexivity|]. unfold restore_name, present. rewrite !C1, String.eqb_refl, D, String.eqb_refl. cbn [negb andb].
      split; [rewrite coord_drop, coord_assign, D, String.eqb_refl; reflexivity|]. split.
      * intros n X Y. apply String.eqb_neq in X, Y. rewrite coord_drop, coord_assign, C1, X, Y. reflexivity.
      * intros _. rewrite coord_drop, String.eqb_refl. reflexivity.
Qed.
Print Assumptions C181_times_keep_their_name_partial.

(** On a mesh a coordinate with a name of its own never gets that far: the constructor takes it away, and the merging step asks for it. *)
Theorem C181_mesh_names_refuted : forall (V : Type) timedim timecoord merging (c : coordinates (V := V)) times,
  coord c timecoord = Some (timedim, times) -> timecoord <> timedim ->
  event_coords timedim timecoord merging true c = Err (KeyError timecoord).
Proof.
  intros V timedim timecoord merging c times E N. unfold event_coords, validated. rewrite E.
  assert (D : String.eqb timecoord timedim = false) by (apply String.eqb_neq; exact N). rewrite D.
  unfold set_index. rewrite E, String.eqb_refl. cbn [bind]. unfold tracked_coords. rewrite orb_true_r, coord_assign, coord_drop, D, String.eqb_refl.
  reflexivity.
Qed.
Print Assumptions C181_mesh_names_refuted.

(** A run is refused before tracking exactly when the coordinate is missing or lies along another dimension. *)
Theorem C181_refused : forall (V : Type) timedim timecoord (c : coordinates (V := V)),
  ((exists e, validated timedim timecoord c = Err e) <->
   coord c timecoord = None \/ (timecoord <> timedim /\ exists d v, coord c timecoord = Some (d, v) /\ d <> timedim)).
Proof.
  intros V timedim timecoord c. unfold validated, set_index. destruct (coord c timecoord) as [(d, v)|].
  - destruct (String.eqb_spec timecoord timedim) as [->|N]; [|destruct (String.eqb_spec d timedim) as [->|M]].
    + split; [intros (e & E); discriminate E|]. intros [E|(E & _)]; [discriminate E|contradiction].
    + split; [intros (e & E); discriminate E|]. intros [E|(_ & d & w & E & X)]; [discriminate E|]. injection E as <- <-. contradiction.
    + split; [intros _; right; split; [exact N|]; exists d, v; split; [reflexivity|exact M]|]. intros _. eexists. reflexivity.
  - split; [intros _; left; reflexivity|]. intros _. eexists. reflexivity.
Qed.
Print Assumptions C181_refused.

(** The example of the project's tests: dimension t with its own numbers, coordinate T. *)
Definition named_times : coordinates (V := nat) := [("t", ("t", [0; 1])); ("T", ("t", [1990; 1991])); ("longitude", ("x", [5]))].
Example C181_case :
  event_coords "t" "T" false false named_times = Ok [("longitude", ("x", [5])); ("T", ("t", [1990; 1991]))] /\
  event_coords "t" "T" true false named_times = Ok [("longitude", ("x", [5])); ("t", ("t", [1990; 1991])); ("T", ("t", [1990; 1991]))] /\
  event_coords "t" "T" true true named_times = Err (KeyError "T") /\
  event_coords "t" "t" true true named_times = Ok named_times.
Proof. vm_compute. split; [reflexivity|]. split; [reflexivity|]. split; reflexivity. Qed.
