(** Property theorems C194 (outlines of objects in animations) and C122 (centroids in them). *)
From Coq Require Import String.
From Verif Require Import Base Plot Outline PlotProps.
Open Scope nat_scope.

(** ** C194 *)

(** The object_ids at the first time [d]. *)
Inductive ids_on (d : Z) : list Z -> list (list (list cell)) -> list (list cell) -> Prop :=
| ids_here : forall ts s r, ids_on d (d :: ts) (s :: r) s
| ids_later : forall t ts s r x, t <> d -> ids_on d ts r x -> ids_on d (t :: ts) (s :: r) x.
(** A cell with an ID. *)
Definition object_in (step : list (list cell)) (y x : nat) : Prop :=
  exists row z, nth_error step y = Some row /\ nth_error row x = Some (Some z) /\ (0 < z)%Z.
Definition outlined (m : list (list bool)) (y x : nat) : Prop := exists row, nth_error m y = Some row /\ nth_error row x = Some true.
Definition of_shape (ny nx : nat) (step : list (list cell)) : Prop := length step = ny /\ forall row, In row step -> length row = nx.

Lemma mask_object step y x : outlined (object_mask step) y x <-> object_in step y x.
Proof.
  unfold outlined, object_in, object_mask. split.
  - intros (row & A & B). rewrite nth_error_map in A. destruct (nth_error step y) as [r|]; [|discriminate]. injection A as <-. rewrite nth_error_map in B.
    destruct (nth_error r x) as [c|] eqn:C; [|discriminate]. injection B as B. destruct c as [z|]; [|discriminate]. exists r, z. split; [reflexivity|]. split; [exact C|]. apply Z.ltb_lt. exact B.
  - intros (row & z & A & B & C). exists (map has_object row). rewrite nth_error_map, A. split; [reflexivity|]. rewrite nth_error_map, B. cbn. apply Z.ltb_lt in C. rewrite C. reflexivity.
Qed.
Lemma any_iff m : any_object m = true <-> exists y x, outlined m y x.
Proof.
  unfold any_object, outlined. rewrite existsb_exists. split.
  - intros (row & I & E). apply existsb_exists in E. destruct E as (b & J & ->). apply In_nth_error in I. apply In_nth_error in J. destruct I as (y & I). destruct J as (x & J). exists y, x, row. split; assumption.
  - intros (y & x & row & I & J). exists row. split; [exact (nth_error_In _ _ I)|]. apply existsb_exists. exists true. split; [exact (nth_error_In _ _ J)|reflexivity].
Qed.
Lemma takes_iff ny nx step : contour_takes ny nx (object_mask step) = true <-> 2 <= ny /\ 2 <= nx /\ of_shape ny nx step.
Proof.
  unfold contour_takes, of_shape, object_mask. rewrite !andb_true_iff, !Nat.leb_le, Nat.eqb_eq, forallb_forall, map_length. split.
  - intros (((A & B) & C) & D). split; [exact A|]. split; [exact B|]. split; [exact C|]. intros row I. specialize (D (map has_object row) (in_map _ _ _ I)). apply Nat.eqb_eq in D. rewrite map_length in D. exact D.
  - intros (A & B & C & D). split; [split; [split; assumption|exact C]|]. intros row I. apply in_map_iff in I. destruct I as (r & <- & I). apply Nat.eqb_eq. rewrite map_length. apply D. exact I.
Qed.

(** On a grid of at least two by two cells, with object_ids at the times of the animation: one
    frame per time, and the frame of a date outlines exactly the cells with an ID at that date; no
    outline means that there is none.  Missing from the full claim: meshes, object_ids at
    other times, narrower grids. *)
Theorem C194_outlines_partial (a : animated) (r : id_record) :
  a_mesh a = false -> 2 <= a_ny a -> 2 <= a_nx a -> o_has_time r = true -> o_times r = a_times a -> NoDup (a_times a) ->
  length (o_steps r) = length (o_times r) -> (forall s, In s (o_steps r) -> of_shape (a_ny a) (a_nx a) s) ->
  map fst (outlines a (Some r)) = a_times a /\
  forall d m step, In (d, m) (outlines a (Some r)) -> ids_on d (o_times r) (o_steps r) step ->
    match m with
    | Some mask => (forall y x, outlined mask y x <-> object_in step y x) /\ exists y x, outlined mask y x
    | None => forall y x, ~ object_in step y x
    end.
Proof.
  intros Gr Ny Nx Ht Ti Nd Ln Sh. unfold outlines. split.
  - rewrite map_map. cbn [fst]. assert (C : forall l k, map (fun p : nat * Z => snd p) (combine (seq k (length l)) l) = l).
    { induction l as [|t l IH]; intro k; [reflexivity|]. cbn [length seq combine map snd]. rewrite IH. reflexivity. }
    apply C.
  - intros d m step I O. apply in_map_iff in I. destruct I as ((i & d') & E & I). injection E as -> E. cbn [fst] in E.
    assert (At : forall l k, In (i, d) (combine (seq k (length l)) l) -> k <= i /\ nth_error l (i - k) = Some d).
    { induction l as [|t l IH]; intros k J; [destruct J|]. cbn [length seq combine] in J. destruct J as [J|J].
      - injection J as <- <-. split; [lia|]. rewrite Nat.sub_diag. reflexivity.
      - destruct (IH _ J) as [A B]. split; [lia|]. replace (i - k) with (S (i - S k)) by lia. exact B. }
    destruct (At _ _ I) as [_ N]. rewrite Nat.sub_0_r in N. rewrite Ti in O, Ln. clear At I Ti.
    assert (S : nth_error (o_steps r) i = Some step).
    { clear E Sh. revert i N Nd Ln O. generalize (o_steps r) as ss. induction (a_times a) as [|t ts IH]; intros ss i N Nd Ln O; [destruct i; discriminate|].
      inversion Nd as [|? ? T1 T2]; subst. inversion O as [ts' s r' E1 E2|t' ts' s r' x Ne O' E1 E2]; subst.
      - destruct i as [|i]; [reflexivity|]. cbn in N. destruct T1. exact (nth_error_In _ _ N).
      - destruct i as [|i]; [injection N as X; congruence|]. cbn in N, Ln |- *. apply IH; [exact N|exact T2|lia|exact O']. }
    unfold outline, ids_at in E. rewrite Ht, S, Gr in E.
    assert (Tk : contour_takes (a_ny a) (a_nx a) (object_mask step) = true) by (apply takes_iff; split; [exact Ny|]; split; [exact Nx|]; apply Sh; exact (nth_error_In _ _ S)).
    rewrite Tk in E. destruct (any_object (object_mask step)) eqn:An; subst m.
    + split; [intros y x; apply mask_object|]. apply any_iff. exact An.
    + intros y x O1. apply mask_object in O1. assert (T : any_object (object_mask step) = true) by (apply any_iff; eauto). congruence.
Qed.
Print Assumptions C194_outlines_partial.

(** For every array and object_ids, whatever their times and shapes: an outline is that of the
    cells with an ID in one step of object_ids, the one with the number of the frame, it has at
    least one of them and the shape of the frame. *)
Theorem C194_only_ids (a : animated) (ids : option id_record) (i : nat) (d : Z) (mask : list (list bool)) :
  nth_error (outlines a ids) i = Some (d, Some mask) ->
  a_mesh a = false /\ nth_error (a_times a) i = Some d /\ exists r step, ids = Some r /\ o_has_time r = true /\ nth_error (o_steps r) i = Some step /\
  of_shape (a_ny a) (a_nx a) step /\ (forall y x, outlined mask y x <-> object_in step y x) /\ exists y x, outlined mask y x.
Proof.
  intros E. unfold outlines in E. rewrite nth_error_map in E.
  assert (At : forall (l : list Z) k j, nth_error (combine (seq k (length l)) l) j = match nth_error l j with Some t => Some (k + j, t) | None => None end).
  { induction l as [|t l IH]; intros k j; [destruct j; reflexivity|]. cbn [length seq combine]. destruct j as [|j]; [cbn; rewrite Nat.add_0_r; reflexivity|]. cbn [nth_error]. rewrite IH. destruct (nth_error l j); [|reflexivity]. rewrite <- Nat.add_succ_comm. reflexivity. }
  rewrite At in E. destruct (nth_error (a_times a) i) as [t|]; [|discriminate]. cbn in E. injection E as -> E. unfold outline, ids_at in E.
  destruct ids as [r|]; [|discriminate]. destruct (o_has_time r) eqn:H; [|discriminate]. destruct (nth_error (o_steps r) i) as [step|] eqn:S; [|discriminate].
  destruct (any_object (object_mask step)) eqn:An; [|discriminate]. destruct (a_mesh a); [discriminate|]. destruct (contour_takes (a_ny a) (a_nx a) (object_mask step)) eqn:Tk; [|discriminate].
  injection E as <-. split; [reflexivity|]. split; [reflexivity|]. exists r, step. split; [reflexivity|]. split; [exact H|]. split; [exact S|]. split; [apply takes_iff in Tk; tauto|].
  split; [intros y x; apply mask_object|]. apply any_iff. exact An.
Qed.
Print Assumptions C194_only_ids.

(** As claimed, every frame outlines the objects of its date.  False on meshes: none has an outline ... *)
Theorem C194_meshes_refuted (a : animated) (ids : option id_record) (d : Z) (m : option (list (list bool))) :
  a_mesh a = true -> In (d, m) (outlines a ids) -> m = None.
Proof.
  intros M I. unfold outlines in I. apply in_map_iff in I. destruct I as (p & E & _). injection E as _ <-. unfold outline. destruct (ids_at ids (fst p)); [|reflexivity].
  rewrite M. destruct (any_object _); reflexivity.
Qed.
Print Assumptions C194_meshes_refuted.
(** ... false on a single latitude or longitude, where the contour is refused without notice ... *)
Theorem C194_narrow_refuted (a : animated) (ids : option id_record) (d : Z) (m : option (list (list bool))) :
  a_ny a <= 1 \/ a_nx a <= 1 -> In (d, m) (outlines a ids) -> m = None.
Proof.
  intros N I. apply In_nth_error in I. destruct I as (i & I). destruct m as [m|]; [exfalso|reflexivity].
  unfold outlines in I. rewrite nth_error_map in I. destruct (nth_error _ i) as [p|]; [|discriminate]. cbn in I. injection I as _ I. unfold outline in I.
  destruct (ids_at ids (fst p)) as [step|]; [|discriminate]. destruct (any_object _); [|discriminate]. destruct (a_mesh a); [discriminate|].
  destruct (contour_takes _ _ _) eqn:T; [|discriminate]. apply takes_iff in T. lia.
Qed.
Print Assumptions C194_narrow_refuted.
Example C194_narrow_case : let r := mkIds true [3]%Z [[[Some 0; Some 4]]]%Z in
  object_in [[Some 0; Some 4]]%Z 0 1 /\ outlines (mkAnimated [3]%Z 1 2 false) (Some r) = [(3%Z, None)].
Proof. split; [exists [Some 0; Some 4]%Z, 4%Z; split; [reflexivity|split; [reflexivity|lia]]|reflexivity]. Qed.
(** ... and steps are paired by number, not by date: with object_ids that begin one step later
    a frame outlines the objects of another day, and the last has none. *)
Theorem C194_other_times_refuted : exists a r d m step, a_mesh a = false /\ 2 <= a_ny a /\ 2 <= a_nx a /\ o_has_time r = true /\
  (forall t, In t (o_times r) -> In t (a_times a)) /\ (forall s, In s (o_steps r) -> of_shape (a_ny a) (a_nx a) s) /\
  In (d, Some m) (outlines a (Some r)) /\ ids_on d (o_times r) (o_steps r) step /\ object_in step 0 0 /\ ~ outlined m 0 0 /\
  exists d', In (d', None) (outlines a (Some r)) /\ exists step', ids_on d' (o_times r) (o_steps r) step' /\ exists y x, object_in step' y x.
Proof.
  set (s1 := [[Some 1; Some 0]; [Some 0; Some 0]]%Z). set (s2 := [[Some 0; Some 0]; [Some 0; Some 1]]%Z).
  exists (mkAnimated [0; 1; 2]%Z 2 2 false), (mkIds true [1; 2]%Z [s1; s2]), 1%Z, [[false; false]; [false; true]], s1.
  split; [reflexivity|]. split; [cbn; lia|]. split; [cbn; lia|]. split; [reflexivity|]. split; [cbn; tauto|]. split.
  { intros s [<-|[<-|[]]]; (split; [reflexivity|]); intros row [<-|[<-|[]]]; reflexivity. }
  split; [right; left; reflexivity|]. split; [constructor|]. split; [exists [Some 1; Some 0]%Z, 1%Z; split; [reflexivity|split; [reflexivity|lia]]|]. split.
  { intros (row & A & B). cbn in A. injection A as <-. discriminate. }
  exists 2%Z. split; [right; right; left; reflexivity|]. exists s2. split; [apply ids_later; [lia|constructor]|]. exists 1, 1. exists [Some 0; Some 1]%Z, 1%Z. split; [reflexivity|]. split; [reflexivity|lia].
Qed.
Print Assumptions C194_other_times_refuted.
Example C194_case :
  outlines (mkAnimated [3; 5]%Z 2 3 false) (Some (mkIds true [3; 5]%Z [[[Some 0; None; Some 4]; [Some 0; Some 0; Some 4]]; [[Some 0; None; Some 0]; [Some 0; Some 0; Some 0]]]%Z)) =
  [(3%Z, Some [[false; false; true]; [false; false; true]]); (5%Z, None)].
Proof. reflexivity. Qed.

(** ** C122 over whole animations *)

(** The first entry of a record at the time [d]. *)
Inductive at_time {A : Type} (d : Z) : list Z -> list A -> A -> Prop :=
| time_here : forall ts s r, at_time d (d :: ts) (s :: r) s
| time_later : forall t ts s r x, t <> d -> at_time d ts r x -> at_time d (t :: ts) (s :: r) x.
Lemma at_time_nth {A} d ts (l : list A) x : at_time d ts l x -> NoDup ts -> forall i, nth_error ts i = Some d -> nth_error l i = Some x.
Proof.
  induction 1 as [ts s r|t ts s r x Ne H IH]; intros Nd i N; inversion Nd as [|? ? T1 T2]; subst.
  - destruct i as [|i]; [reflexivity|]. destruct T1. exact (nth_error_In ts i N).
  - destruct i as [|i]; [injection N as N; congruence|]. apply IH; assumption.
Qed.
Lemma points_nth times : forall data k i j, nth_error (points_from i times data k) j =
  match nth_error times j, nth_error data j with Some t, Some d => Some (t, points_of d k (i + j)) | _, _ => None end.
Proof.
  induction times as [|t times IH]; intros data k i j; [destruct j; reflexivity|]. destruct data as [|d data].
  - cbn. destruct j; cbn; [reflexivity|]. destruct (nth_error times j); reflexivity.
  - destruct j as [|j]; cbn [points_from nth_error]; [rewrite Nat.add_0_r; reflexivity|]. rewrite IH, <- Nat.add_succ_comm. reflexivity.
Qed.
(** With centroids at the times of the animation, the frame of a date marks exactly the centroids
    at that date of the IDs plotted at that date.  Missing from the full claim: centroids at
    other times, objects of object_ids. *)
Theorem C122_dates_partial (times : list Z) (data : list (list (option Q))) (r : centroid_record) (d : Z) (here : list (option Q)) (table : list (Z * (option Q * option Q))) :
  k_has_time r = true -> k_times r = times -> NoDup times -> at_time d times data here -> at_time d (k_times r) (k_tables r) table -> NoDup (map fst table) ->
  exists p, In (d, p) (points times data (Some r)) /\ (forall q, In (d, q) (points times data (Some r)) -> q = p) /\
  forall x y, In (x, y) p <-> exists id v, In (Some v) here /\ (v == inject_Z id)%Q /\ (0 < id)%Z /\ In (id, (Some y, Some x)) table.
Proof.
  intros Ht Ti Nd Dh Th Nt. rewrite Ti in Th. exists (frame_centroids here None table).
  assert (K : forall i, nth_error times i = Some d -> nth_error (points times data (Some r)) i = Some (d, frame_centroids here None table)).
  { intros i N. unfold points. rewrite points_nth, N, (at_time_nth _ _ _ _ Dh Nd i N). cbn [Nat.add points_of]. rewrite Ht, (at_time_nth _ _ _ _ Th Nd i N). reflexivity. }
  assert (Ex : exists i, nth_error times i = Some d).
  { apply In_nth_error. clear - Dh. induction Dh; [left; reflexivity|right; assumption]. }
  destruct Ex as (i & N). split; [exact (nth_error_In _ _ (K i N))|]. split.
  - intros q I. apply In_nth_error in I. destruct I as (j & J). assert (Nj : nth_error times j = Some d).
    { unfold points in J. rewrite points_nth in J. destruct (nth_error times j) as [t|]; [|discriminate]. destruct (nth_error data j); [|discriminate]. injection J as -> _. reflexivity. }
    rewrite (K j Nj) in J. injection J as J. symmetry. exact J.
  - intros x y. apply (C122_centroids_of_plotted_ids_partial here None table Nt).
Qed.
Print Assumptions C122_dates_partial.
(** Centroids that begin a step later are marked on the wrong day. *)
Theorem C122_other_times_refuted : exists times data r d p table here, k_has_time r = true /\ NoDup times /\ (forall t, In t (k_times r) -> In t times) /\
  In (d, p) (points times data (Some r)) /\ at_time d times data here /\ In (Some 1%Q) here /\ at_time d (k_times r) (k_tables r) table /\ NoDup (map fst table) /\
  (exists x y, In (1%Z, (Some y, Some x)) table /\ ~ In (x, y) p) /\ exists x y, In (x, y) p /\ forall id, ~ In (id, (Some y, Some x)) table.
Proof.
  exists [0; 1; 2]%Z, [[Some 1]; [Some 1]; [Some 1]]%Q, (mkCentroids true [1; 2]%Z [[(1%Z, (Some 10, Some 20))]; [(1%Z, (Some 11, Some 21))]]%Q), 1%Z, [(21, 11)]%Q, [(1%Z, (Some 10, Some 20))]%Q, [Some 1]%Q.
  split; [reflexivity|]. split; [repeat constructor; cbn; intuition discriminate|]. split; [cbn; tauto|]. split; [right; left; reflexivity|]. split; [apply time_later; [lia|constructor]|]. split; [left; reflexivity|].
  split; [constructor|]. split; [repeat constructor; cbn; tauto|]. split.
  - exists 20%Q, 10%Q. split; [left; reflexivity|]. intros [H|[]]; discriminate.
  - exists 21%Q, 11%Q. split; [left; reflexivity|]. intros id [H|[]]; discriminate.
Qed.
Print Assumptions C122_other_times_refuted.
Example C122_dates_case : points [3; 5]%Z [[Some 1; None]; [Some 2; Some 1]]%Q (Some (mkCentroids true [3; 5]%Z [[(1%Z, (Some 10, Some 20)); (2%Z, (None, None))]; [(1%Z, (Some 11, Some 21)); (2%Z, (Some 30, Some 40))]]%Q)) =
  [(3%Z, [(20, 10)]%Q); (5%Z, [(21, 11); (40, 30)]%Q)].
Proof. reflexivity. Qed.
