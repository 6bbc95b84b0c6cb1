(** Property theorems C20-C22 (overlaps between consecutive times). *)
From Coq Require Import Qminmax.
From Verif Require Import Base Overlap OverlapSpec OverlapProofs OverlapFraction.
Open Scope nat_scope.

(** C20: the rows for two fields are exactly the pairs of IDs sharing a cell,
    each once, with the shared area. *)
Theorem C20_overlap_rows_exact (w : list Q) (a b : list Z) :
  length a = length b -> length a = length w ->
  (forall i j, (exists n, In (mkRow i j n) (check_overlap w a b)) <-> (0 < i)%Z /\ (0 < j)%Z /\ meets a b i j) /\
  (forall i j n, In (mkRow i j n) (check_overlap w a b) -> (n == shared_area w a b i j)%Q) /\
  NoDup (map row_pair (check_overlap w a b)).
Proof.
  intros La Lw. split; [|split].
  - intros i j. split.
    + intros (n & H). apply check_overlap_sound in H; auto. cbn in H. tauto.
    + intros (I & J & M). destruct (check_overlap_complete w a b La Lw i j I J M) as (r & R & E1 & E2).
      exists (r_area r). rewrite <- E1, <- E2. destruct r; exact R.
  - intros i j n H. apply check_overlap_sound in H; auto. apply H.
  - apply check_overlap_NoDup; assumption.
Qed.
Print Assumptions C20_overlap_rows_exact.

(** On structured grids the area is the number of shared cells. *)
Theorem C20_structured_counts_cells (a b : list Z) (i j : Z) (n : Q) :
  length a = length b -> In (mkRow i j n) (check_overlap (map (fun _ => 1%Q) a) a b) ->
  (n == inject_Z (Z.of_nat (length (filter (fun k => Z.eqb (nth k a 0%Z) i && Z.eqb (nth k b 0%Z) j) (seq 0 (length a))))))%Q.
Proof.
  intros L H. apply check_overlap_sound in H; auto; [|rewrite map_length; reflexivity].
  destruct H as (_ & _ & _ & E). rewrite <- count_area. exact E.
Qed.
Print Assumptions C20_structured_counts_cells.

Example C20_case :
  check_overlap [1; 1; 1; 1; 1; 1]%Q [1; 1; 2; 2; 0; 7]%Z [5; 6; 6; 6; 6; 0]%Z =
    [mkRow 1 5 (1 + 0); mkRow 1 6 (1 + 0); mkRow 2 6 (1 + (1 + 0))]%Q.
Proof. vm_compute. reflexivity. Qed.

(** C21: over a series, every consecutive pair of times and nothing else. *)
Theorem C21_series_overlaps_exact (w : list Q) (fields : list (list Z)) :
  (forall f, In f fields -> length f = length w) ->
  (forall i j, (exists n, In (mkRow i j n) (find_overlapping w fields)) <->
     (0 < i)%Z /\ (0 < j)%Z /\
     exists t, S t < length fields /\ meets (nth t fields []) (nth (S t) fields []) i j) /\
  (forall i j n, In (mkRow i j n) (find_overlapping w fields) ->
     (n == totalQ (fun t => shared_area w (nth t fields []) (nth (S t) fields []) i j) (length fields - 1))%Q) /\
  NoDup (map row_pair (find_overlapping w fields)).
Proof.
  intro L. split; [|split].
  - exact (find_overlapping_pair w fields L).
  - intros i j n H. exact (find_overlapping_area w fields L _ H).
  - exact (find_overlapping_NoDup w fields).
Qed.
Print Assumptions C21_series_overlaps_exact.

Example C21_case :
  find_overlapping [1; 1; 1]%Q [[1; 1; 0]; [1; 2; 2]; [3; 3; 2]; [9; 0; 2]]%Z =
    [mkRow 1 1 (1 + 0 + 0); mkRow 1 2 (1 + 0 + 0); mkRow 1 3 (1 + 0 + 0);
     mkRow 2 2 (1 + 0 + (1 + 0 + 0)); mkRow 2 3 (1 + 0 + 0); mkRow 3 9 (1 + 0 + 0)]%Q.
Proof. vm_compute. reflexivity. Qed.

(** C22: the threshold keeps exactly the rows whose area divided by the smaller
    of the two recorded areas reaches it, in order and once each. *)
Theorem C22_threshold_exact (thr : Q) (ps : props) (l : list row) (r : row) :
  (In r (enforce_threshold thr ps l) <->
   In r l /\ exists p0 p1, lookup (r_from r) ps = Some p0 /\ lookup (r_to r) ps = Some p1 /\
     (thr <= r_area r / Qmin (p_area p0) (p_area p1))%Q) /\
  (NoDup (map row_pair l) -> NoDup (map row_pair (enforce_threshold thr ps l))).
Proof. split; [apply enforce_fraction|apply enforce_subsequence]. Qed.
Print Assumptions C22_threshold_exact.

(** The fraction is at most 1 for two consecutive fields, when the table holds
    the areas of their objects. *)
Theorem C22_fraction_at_most_one (w : list Q) (a b : list Z) (r : row) (pa pb : Q) :
  length a = length b -> length a = length w ->
  (forall q, In q w -> (0 <= q)%Q) -> In r (check_overlap w a b) ->
  (0 < pa)%Q -> (0 < pb)%Q ->
  (pa == object_area w a (r_from r))%Q -> (pb == object_area w b (r_to r))%Q ->
  (r_area r / Qmin pa pb <= 1)%Q.
Proof. exact (slice_fraction w a b r pa pb). Qed.
Print Assumptions C22_fraction_at_most_one.

(** The same over a series in which each ID is used at one time only, as it is
    until objects are renamed into events. *)
Theorem C22_series_fraction_at_most_one (w : list Q) (fields : list (list Z)) (r : row) (pa pb : Q) (t u : nat) :
  (forall f, In f fields -> length f = length w) -> (forall q, In q w -> (0 <= q)%Q) ->
  (forall x j k, (0 < x)%Z -> In x (nth j fields []) -> In x (nth k fields []) -> j = k) ->
  In r (find_overlapping w fields) ->
  (0 < pa)%Q -> (0 < pb)%Q ->
  In (r_from r) (nth t fields []) -> In (r_to r) (nth u fields []) ->
  (pa == object_area w (nth t fields []) (r_from r))%Q -> (pb == object_area w (nth u fields []) (r_to r))%Q ->
  (r_area r / Qmin pa pb <= 1)%Q.
Proof. exact (series_fraction w fields r pa pb t u). Qed.
Print Assumptions C22_series_fraction_at_most_one.

(** Half of the smaller object (1 of 2 cells) is kept at threshold 1/2, a third
    is not. *)
Example C22_case :
  let o := (0%Q, 0%Q) in
  let ps := [(1%Z, mkProp 2 o); (2%Z, mkProp 4 o); (3%Z, mkProp 3 o)] in
  enforce_threshold (1#2) ps [mkRow 1 2 1; mkRow 3 2 1; mkRow 1 3 2]%Q = [mkRow 1 2 1; mkRow 1 3 2]%Q.
Proof. vm_compute. reflexivity. Qed.
