(** Property theorems C39, C41-C43 and C79-C81 (parallel merging on meshes). *)
From Verif Require Import Base Graph Label LabelProofs Filter FilterProofs Overlap OverlapSpec OverlapProofs Merge MergeProofs MergeSpec
  MergeWitness Partition PartitionProofs Cluster ClusterProofs MeshPart Parallel ParallelSpec ParallelProofs ParallelMore ParallelFinal ParallelRecord ParallelLimits.
Open Scope nat_scope.

(** A straight mesh of [n] cells and tables for the examples. *)
Definition line_nbs (n : nat) : list (list Z) :=
  [map (fun k => Z.of_nat k - 1)%Z (seq 0 n);
   map (fun k => if Nat.eqb (S k) n then (-1)%Z else Z.of_nat (S k)) (seq 0 n); repeat (-1)%Z n].
Definition no_centroid (m : list bool) : Q * Q := (0, 0)%Q.
Definition as_given (l : list Z) : list Z := l.
Definition line_run (n tc limit : nat) (thr : Q) (fields : list (list Z)) : result par_err pstate :=
  parallel_merge (repeat 1%Q n) thr (part_nn_mesh (line_nbs n) (fun _ _ => 1%Q) (fun _ => 40)) as_given tc limit
    (initial_props (repeat 1%Q n) no_centroid fields) None fields.

(** ** C39 *)

(** Centroid partitioning on a mesh: a run that returns has divided nothing,
    unless at some time one ID covers the whole mesh. *)
Theorem C39_centroid_partitioning_never_divides_partial (w : list Q) (thr : Q) (dist : nat -> nat -> Q) (junk : nat -> Z)
    (order : list Z -> list Z) (tc limit : nat) (ps : props) (store : option (list (list Z))) (fields : list (list Z)) (st : pstate) :
  (forall t id, t < length fields -> exists k, k < length (nth t fields []) /\ nth k (nth t fields []) 0%Z <> id) ->
  parallel_merge w thr (part_centroid_mesh dist junk) order tc limit ps store fields = Ok st ->
  pt_fields st = fields /\ pt_events st = [].
Proof.
  intros V H. apply (parallel_same w thr dist junk order tc limit ps store fields st); [|exact H].
  intros t T id. apply V. exact T.
Qed.
Print Assumptions C39_centroid_partitioning_never_divides_partial.

(** C39 is false: two objects becoming one make the run fail. *)
Definition join3 : list (list Z) := [[1; 2; 0]; [3; 3; 0]]%Z.
Lemma join3_series : labelled_series 3 join3.
Proof.
  split; [|split; [|split]].
  - intros f [<-|[<-|[]]]; reflexivity.
  - intros f x [<-|[<-|[]]] I; cbn in I; intuition lia.
  - assert (B : forall j x, (0 < x)%Z -> In x (nth j join3 []) -> j = 0 /\ (x < 3)%Z \/ j = 1 /\ x = 3%Z).
    { intros [|[|[|j]]] x P I; cbn in I; intuition lia. }
    intros x j k P J K. apply B in J; [|exact P]. apply B in K; [|exact P]. lia.
  - exists 0, 1%Z. split; [lia|left; reflexivity].
Qed.
Theorem C39_every_cell_assigned_refuted : exists w thr order tc limit fields,
  length w = 3 /\ labelled_series 3 fields /\
  forall dist junk, parallel_merge w thr (part_centroid_mesh dist junk) order tc limit
    (initial_props w no_centroid fields) None fields = Err ShapeMismatch.
Proof.
  exists (repeat 1%Q 3), (1#2)%Q, as_given, 2, 10, join3.
  split; [reflexivity|]. split; [exact join3_series|]. intros dist junk. vm_compute. reflexivity.
Qed.
Print Assumptions C39_every_cell_assigned_refuted.
Example C39_case : forall t id, t < 2 -> exists k, k < length (nth t join3 []) /\ nth k (nth t join3 []) 0%Z <> id.
Proof. intros [|[|t]] id T; [| |lia]; (destruct (Z.eq_dec id 0); [exists 0|exists 2]; cbn; lia). Qed.

(** ** C41 *)

(** One iteration from a consistent state: the new IDs are exactly the IDs from
    the counter before to the counter after, and each time step has its own. *)
Theorem C41_new_ids_are_a_fresh_range (w : list Q) (thr : Q) (nbs : list (list Z)) (dist : nat -> nat -> Q) (reach : list Z -> nat)
    (tc : nat) (s : pstate) (objs : list Z) (s' : pstate) (objs' : list Z) :
  pt_store s = None \/ pt_store s = Some (pt_fields s) -> (0 < pt_counter s)%Z -> ids_below (pt_counter s) (pt_fields s) ->
  (forall c, In c objs -> (0 < c)%Z) -> 0 < length (pt_fields s) ->
  iteration w thr (part_nn_mesh nbs dist reach) tc s objs = Ok (s', objs') ->
  exists evs, pt_events s' = pt_events s ++ evs /\
    (forall x, (pt_counter s <= x < pt_counter s')%Z <-> In x (new_ids evs)) /\
    (forall t, t < length (pt_fields s) -> NoDup (new_ids (filter (fun e => Nat.eqb (e_time e) t) evs))).
Proof.
  intros A B C Ho Pos H. assert (G : good s) by (split; [exact A|split; assumption]).
  destruct (iteration_events w thr _ (part_nn_valid nbs dist reach) tc s objs s' objs' G Ho H) as (evs & E & _ & _ & R).
  destruct (iteration_new_ids w thr _ (part_nn_valid nbs dist reach) tc s objs s' objs' G Ho H 0 0 [] Pos (NoDup_nil _)) as (evs' & E' & N & _).
  - intros x [].
  - reflexivity.
  - intros x [].
  - rewrite E in E'. apply app_inv_head in E'. subst evs'. exists evs. split; [exact E|]. split; [|exact N].
    intro x. rewrite R. unfold new_ids. rewrite in_flat_map. reflexivity.
Qed.
Print Assumptions C41_new_ids_are_a_fresh_range.

(** C41, distinctness across time steps: when no time step hands out more IDs
    than the largest number of queued objects at a time step times the block
    length. *)
Theorem C41_ids_distinct_partial (w : list Q) (thr : Q) (nbs : list (list Z)) (dist : nat -> nat -> Q) (reach : list Z -> nat)
    (tc : nat) (s : pstate) (objs : list Z) (s' : pstate) (objs' : list Z) (t0 : nat) (l : list Z) :
  pt_store s = None \/ pt_store s = Some (pt_fields s) -> (0 < pt_counter s)%Z -> ids_below (pt_counter s) (pt_fields s) ->
  (forall c, In c objs -> (0 < c)%Z) ->
  iteration w thr (part_nn_mesh nbs dist reach) tc s objs = Ok (s', objs') ->
  t0 < length (pt_fields s) -> NoDup l -> incl l objs ->
  (forall c, In c l -> In c (nth t0 (pt_fields s) []) /\ forall t, t < t0 -> ~ In c (nth t (pt_fields s) [])) ->
  exists evs, pt_events s' = pt_events s ++ evs /\
    ((forall t, t < length (pt_fields s) -> length (new_ids (filter (fun e => Nat.eqb (e_time e) t) evs)) <= length l * tc) ->
     NoDup (new_ids evs)).
Proof.
  intros A B C Ho H T0 Nl Il Hl. assert (G : good s) by (split; [exact A|split; assumption]).
  destruct (iteration_new_ids w thr _ (part_nn_valid nbs dist reach) tc s objs s' objs' G Ho H (length l) t0 l T0 Nl Il eq_refl) as (evs & E & _ & N).
  - intros c I. destruct (Hl c I) as [H1 H2]. split; [|split; assumption].
    apply (C (nth t0 (pt_fields s) []) c); [apply nth_In; exact T0|exact H1].
  - exists evs. split; assumption.
Qed.
Print Assumptions C41_ids_distinct_partial.

(** C41 is false: an object with four parents in one time step and one with two
    in the next; the last ID of the first is handed out again. *)
Definition collide : list (list Z) := [[1; 2; 3; 4; 0; 0]; [5; 5; 5; 5; 5; 6]; [0; 0; 0; 0; 7; 7]; [0; 0; 0; 0; 0; 0]]%Z.
Lemma collide_series : labelled_series 6 collide.
Proof.
  split; [|split; [|split]].
  - intros f [<-|[<-|[<-|[<-|[]]]]]; reflexivity.
  - intros f x [<-|[<-|[<-|[<-|[]]]]] I; cbn in I; intuition lia.
  - assert (B : forall j x, (0 < x)%Z -> In x (nth j collide []) -> j = 0 /\ (x < 5)%Z \/ j = 1 /\ (5 <= x < 7)%Z \/ j = 2 /\ x = 7%Z).
    { intros [|[|[|[|[|j]]]]] x P I; cbn in I; intuition lia. }
    intros x j k P J K. apply B in J; [|exact P]. apply B in K; [|exact P]. lia.
  - exists 0, 1%Z. split; [lia|left; reflexivity].
Qed.
Theorem C41_ids_distinct_refuted : exists n tc limit thr fields st e1 e2 x t1 t2,
  labelled_series n fields /\ line_run n tc limit thr fields = Ok st /\
  In e1 (pt_events st) /\ In e2 (pt_events st) /\ e_time e1 <> e_time e2 /\
  In x (tl (e_children e1)) /\ In x (tl (e_children e2)) /\
  (* and one ID marks objects of two time steps that do not overlap in a cell *)
  t1 <> t2 /\ In x (nth t1 (pt_fields st) []) /\ In x (nth t2 (pt_fields st) []) /\
  forall k, nth k (nth t1 (pt_fields st) []) 0%Z = x -> nth k (nth t2 (pt_fields st) []) 0%Z <> x.
Proof.
  exists 6, 2, 10, (1#2)%Q, collide. eexists.
  exists (mkEvent 1 [5; 8; 9; 10]%Z [1; 2; 3; 4]%Z [1; 1; 1; 1]%Q), (mkEvent 2 [7; 10]%Z [5; 6]%Z [1; 1]%Q), 10%Z, 1, 2.
  split; [exact collide_series|]. split; [vm_compute; reflexivity|]. cbn [pt_events pt_fields e_time e_children tl].
  split; [left; reflexivity|]. split; [right; left; reflexivity|]. split; [lia|]. split; [cbn; tauto|]. split; [cbn; tauto|].
  split; [lia|]. split; [cbn; tauto|]. split; [cbn; tauto|].
  intro k. do 6 (destruct k as [|k]; [cbn; lia|]). destruct k; cbn; lia.
Qed.
Print Assumptions C41_ids_distinct_refuted.

(** ** C42 *)

(** The loop stops early only when nothing is left to process. *)
Theorem C42_stops_when_done_partial (w : list Q) (thr : Q) (part : list Z -> list bool -> list Z -> list Z -> result par_err (list Z))
    (order : list Z -> list Z) (tc limit : nat) (s : pstate) (objs : list Z) (s' : pstate) (left_over : list Z) (n : nat) :
  merge_loop w thr part order tc limit s objs [] 0 = Ok (s', left_over, n) ->
  n <= limit /\ (n < limit -> left_over = []).
Proof. intro H. apply loop_count in H. cbn in H. destruct H as [A B]. split; [lia|exact B]. Qed.
Print Assumptions C42_stops_when_done_partial.

Lemma rounds_run (w : list Q) (thr : Q) (part : list Z -> list bool -> list Z -> list Z -> result par_err (list Z)) (order : list Z -> list Z) (tc fuel : nat) :
  forall s objs processed it s' left_over it', merge_loop w thr part order tc fuel s objs processed it = Ok (s', left_over, it') ->
  exists n (st : nat -> pstate) (queue reported : nat -> list Z), it' = it + n /\
    st 0 = s /\ queue 0 = objs /\ st n = s' /\ queue n = left_over /\
    forall i, i < n -> queue i <> [] /\ iteration w thr part tc (st i) (order (queue i)) = Ok (st (S i), reported i) /\ NoDup (queue (S i)) /\
      forall x, In x (queue (S i)) <-> In x (reported i) /\ ~ In x processed /\ forall j, j < i -> ~ In x (reported j).
Proof.
  induction fuel as [|fuel IH]; intros s objs processed it s' left_over it' H.
  - assert (E : s' = s /\ left_over = objs /\ it' = it) by (destruct objs; cbn in H; injection H as <- <- <-; auto). destruct E as (-> & -> & ->).
    exists 0, (fun _ => s), (fun _ => objs), (fun _ => []). split; [lia|]. do 4 (split; [reflexivity|]). intros i L. lia.
  - destruct objs as [|o objs].
    + cbn in H. injection H as <- <- <-. exists 0, (fun _ => s), (fun _ => []), (fun _ => []). split; [lia|]. do 4 (split; [reflexivity|]). intros i L. lia.
    + cbn [merge_loop] in H. apply bind_ok in H. destruct H as ((s1, o1) & H1 & H). cbn [fst snd] in H.
      destruct (IH _ _ _ _ _ _ _ H) as (n & st & qu & re & N & S0 & Q0 & Sn & Qn & St).
      exists (S n), (fun i => match i with 0 => s | S i => st i end), (fun i => match i with 0 => o :: objs | S i => qu i end), (fun i => match i with 0 => o1 | S i => re i end).
      split; [lia|]. split; [reflexivity|]. split; [reflexivity|]. split; [exact Sn|]. split; [exact Qn|]. intros [|i] L.
      * split; [discriminate|]. rewrite S0, Q0. split; [exact H1|]. unfold set_minus. split; [apply NoDup_filter, unique_codes_NoDup|].
        intro x. rewrite filter_In, unique_codes_In, negb_true_iff.
        rewrite memZ_false. split; [intros [A B]; split; [exact A|split; [exact B|lia]]|intros (A & B & _); split; assumption].
      * destruct (St i ltac:(lia)) as (A & B & C & D). split; [exact A|]. split; [exact B|]. split; [exact C|]. intro x. rewrite D. rewrite in_app_iff. split.
        -- intros (I & P & J). split; [exact I|]. split; [tauto|]. intros [|j] L2; [tauto|]. apply J. lia.
        -- intros (I & P & J). split; [exact I|]. split; [intros [K|K]; [exact (J 0 ltac:(lia) K)|tauto]|]. intros j L2. exact (J (S j) ltac:(lia)).
Qed.
(** The rounds of the loop: the first works on the objects given, each later one, once
    each, on those the round before reported and no earlier round had; so no object is
    in the queue of two later rounds.  The number of rounds is the one compared with the limit. *)
Theorem C42_rounds (w : list Q) (thr : Q) (part : list Z -> list bool -> list Z -> list Z -> result par_err (list Z))
    (order : list Z -> list Z) (tc limit : nat) (s : pstate) (objs : list Z) (s' : pstate) (left_over : list Z) (n : nat) :
  merge_loop w thr part order tc limit s objs [] 0 = Ok (s', left_over, n) ->
  exists (st : nat -> pstate) (queue reported : nat -> list Z),
    st 0 = s /\ queue 0 = objs /\ st n = s' /\ queue n = left_over /\
    (forall i, i < n -> queue i <> [] /\ iteration w thr part tc (st i) (order (queue i)) = Ok (st (S i), reported i) /\ NoDup (queue (S i)) /\
       forall x, In x (queue (S i)) <-> In x (reported i) /\ forall j, j < i -> ~ In x (reported j)) /\
    (forall i j x, 0 < i < j -> j <= n -> In x (queue i) -> ~ In x (queue j)).
Proof.
  intro H. destruct (rounds_run _ _ _ _ _ _ _ _ _ _ _ _ _ H) as (n' & st & qu & re & N & S0 & Q0 & Sn & Qn & St). cbn in N. subst n'.
  exists st, qu, re. do 4 (split; [assumption|]). split.
  - intros i L. destruct (St i L) as (A & B & C & D). do 3 (split; [assumption|]). intro x. rewrite D. cbn [In]. tauto.
  - intros i j x L1 L2 I J. destruct i as [|i]; [lia|]. destruct j as [|j]; [lia|].
    apply (St i ltac:(lia)) in I. apply (St j ltac:(lia)) in J. destruct I as (I & _). destruct J as (_ & _ & J). exact (J i ltac:(lia) I).
Qed.
Print Assumptions C42_rounds.

(** A run that returns went through fewer rounds than allowed, with nothing left. *)
Theorem C42_result_is_converged_partial (w : list Q) (thr : Q) (part : list Z -> list bool -> list Z -> list Z -> result par_err (list Z))
    (order : list Z -> list Z) (tc limit : nat) (ps : props) (store : option (list (list Z))) (fields : list (list Z)) (st : pstate) :
  parallel_merge w thr part order tc limit ps store fields = Ok st ->
  exists n, n < limit /\
    merge_loop w thr part order tc limit (mkPState fields store (arr_max (prop_ids ps) + 1) [])
      (merging_children (enforce_threshold thr ps (find_overlapping w fields))) [] 0 = Ok (st, [], n).
Proof.
  intro H. unfold parallel_merge in H. apply bind_ok in H. destruct H as (((s, o), n) & H & E). cbn [fst snd] in E.
  destruct (Nat.eqb_spec n limit) as [X|X]; [discriminate|]. injection E as <-. exists n.
  assert (C := loop_count _ _ _ _ _ _ _ _ _ _ _ _ _ H). cbn in C. split; [lia|]. rewrite H. rewrite (proj2 C) by lia. reflexivity.
Qed.
Print Assumptions C42_result_is_converged_partial.

(** C42 is false in both directions: a run that is done after exactly the allowed
    number of rounds is reported as failed ... *)
Theorem C42_failure_means_unfinished_refuted : exists n tc limit thr fields st st2,
  line_run n tc limit thr fields = Err MaxIteration /\
  merge_loop (repeat 1%Q n) thr (part_nn_mesh (line_nbs n) (fun _ _ => 1%Q) (fun _ => 40)) as_given tc limit
    (mkPState fields None 4 []) [3%Z] [] 0 = Ok (st, [], limit) /\
  line_run n tc (S limit) thr fields = Ok st2 /\ pt_fields st2 = pt_fields st.
Proof. exists 2, 2, 1, (1#2)%Q, [[1; 2]; [3; 3]]%Z. eexists. eexists.
  split; [vm_compute; reflexivity|]. split; [vm_compute; reflexivity|]. split; [vm_compute; reflexivity|]. reflexivity.
Qed.
Print Assumptions C42_failure_means_unfinished_refuted.

(** ... and a result can be returned in which an object still has two parents with
    enough overlap. *)
Theorem C42_result_is_converged_refuted : exists n tc limit thr fields st,
  line_run n tc limit thr fields = Ok st /\
  exists p q c t, p <> q /\
    let w := repeat 1%Q n in
    accepted w thr (fun i => Some (object_area w (nth t (pt_fields st) []) i + object_area w (nth (S t) (pt_fields st) []) i)%Q)
      (nth t (pt_fields st) []) (nth (S t) (pt_fields st) []) p c /\
    accepted w thr (fun i => Some (object_area w (nth t (pt_fields st) []) i + object_area w (nth (S t) (pt_fields st) []) i)%Q)
      (nth t (pt_fields st) []) (nth (S t) (pt_fields st) []) q c.
Proof.
  exists 4, 3, 10, (1#2)%Q, [[1; 0; 2; 0]; [3; 3; 3; 3]; [0; 4; 4; 0]]%Z. eexists. split; [vm_compute; reflexivity|].
  exists 3%Z, 5%Z, 4%Z, 1. split; [lia|]. cbv zeta. cbn [pt_fields]. split.
  - split; [lia|]. split; [lia|]. split; [exists 1; vm_compute; auto|]. eexists. eexists. split; [reflexivity|]. split; [reflexivity|].
    left. split; vm_compute; discriminate.
  - split; [lia|]. split; [lia|]. split; [exists 2; vm_compute; auto|]. eexists. eexists. split; [reflexivity|]. split; [reflexivity|].
    left. split; vm_compute; discriminate.
Qed.
Print Assumptions C42_result_is_converged_refuted.

(** ** C43 *)

(** The two checks on the number of merges can never report anything. *)
Theorem C43_checks_never_fire (w : list Q) (thr : Q) (nbs : list (list Z)) (dist : nat -> nat -> Q) (reach : list Z -> nat)
    (junk : nat -> Z) (order : list Z -> list Z) (tc limit : nat) (ps : props) (store : option (list (list Z))) (fields : list (list Z)) :
  (forall part, part = part_nn_mesh nbs dist reach \/ part = part_centroid_mesh dist junk ->
   parallel_merge w thr part order tc limit ps store fields <> Err TooManyMerges /\
   parallel_merge w thr part order tc limit ps store fields <> Err ExcessiveMerges).
Proof.
  intros part Hp. assert (Pe : forall prev mask parents ids e, part prev mask parents ids = Err e -> ~ limit_err e).
  { destruct Hp as [-> | ->]; [apply part_nn_err|apply part_centroid_err]. }
  split; intro H; apply (parallel_limit w thr part Pe) in H; apply H; [left|right]; reflexivity.
Qed.
Print Assumptions C43_checks_never_fire.

(** C43 is false: 21 merges in one time step, one more than the buffer holds, end
    in an index past the buffer. *)
Definition many (n : nat) : list (list Z) :=
  [map Z.of_nat (seq 1 (2 * n)); flat_map (fun k => [Z.of_nat (2 * n + 1 + k); Z.of_nat (2 * n + 1 + k)]) (seq 0 n)].
Theorem C43_limit_reported_refuted : exists n tc limit thr fields,
  (forall f, In f fields -> length f = n) /\ line_run n tc limit thr fields = Err BufferIndex.
Proof.
  exists 42, 2, 10, (1#2)%Q, (many 21). split; [|vm_compute; reflexivity].
  intros f [<-|[<-|[]]]; reflexivity.
Qed.
Print Assumptions C43_limit_reported_refuted.

(** What a time step records stays within the buffers. *)
Theorem C43_recorded_merges_fit_partial (w : list Q) (thr : Q) (nbs : list (list Z)) (dist : nat -> nat -> Q) (reach : list Z -> nat)
    (prev cur nxt : list Z) (queue : list Z) (start : Z) (s : pstep) (l : list Z) :
  (forall c, In c queue -> (0 < c < start)%Z) ->
  process_queue w thr (part_nn_mesh nbs dist reach) prev nxt queue (start_step cur start) = Ok (s, l) ->
  length (ps_merges s) <= 20 /\ length (ps_ids s) <= 180 /\
  forall m, In m (ps_merges s) -> 2 <= length (pm_parents m) <= 10 /\ length (pm_children m) = length (pm_parents m).
Proof.
  intros Hq H. assert (O := queue_step w thr _ (part_nn_valid nbs dist reach) cur start prev nxt queue _ s l Hq (start_ok cur start) H).
  assert (C := so_count _ _ _ O). assert (T := so_total _ _ _ O). unfold max_merges_step in C. split; [exact C|]. split; [lia|].
  intros m I. destruct (so_merges _ _ _ O m I) as (A & B & _). split; assumption.
Qed.
Print Assumptions C43_recorded_merges_fit_partial.
Example C43_case : exists st, line_run 40 2 10 (1#2) (many 20) = Ok st /\ length (pt_events st) = 20.
Proof. eexists. split; vm_compute; reflexivity. Qed.

(** ** C79, C80 *)
Lemma initial_children w thr ps fields c :
  In c (merging_children (enforce_threshold thr ps (find_overlapping w fields))) ->
  (forall f, In f fields -> length f = length w) -> (0 < c)%Z.
Proof.
  intros I Hl. rewrite (merging_children_In w (fun _ => True) (map (fun _ => 0%Z) w)) in I by apply map_length. assert (P : 0 < count (fun r => Z.eqb (r_to r) c) (enforce_threshold thr ps (find_overlapping w fields))) by lia.
  apply count_pos in P. destruct P as (r & R & E). apply Z.eqb_eq in E. subst c.
  unfold enforce_threshold in R. apply filter_In in R. destruct R as [R _]. destruct r as [i j a].
  assert (X : exists n, In (mkRow i j n) (find_overlapping w fields)) by (exists a; exact R).
  rewrite find_overlapping_pair in X by assumption. cbn. tauto.
Qed.

(** C79: the parallel merging only divides objects: every cell keeps its ID or
    gets a new one, the footprint of every time step stays, and cells of one
    object of the result at a time were in one object before. *)
Theorem C79_parallel_merging_divides (w : list Q) (thr : Q) (nbs : list (list Z)) (dist : nat -> nat -> Q) (reach : list Z -> nat)
    (order : list Z -> list Z) (tc limit : nat) (ps : props) (store : option (list (list Z))) (fields : list (list Z)) (st : pstate) :
  store = None \/ store = Some fields ->
  labelled_series (length w) fields ->
  (forall t x, (0 < x)%Z -> In x (nth t fields []) -> In x (map fst ps)) ->
  (forall l x, In x (order l) -> In x l) ->
  parallel_merge w thr (part_nn_mesh nbs dist reach) order tc limit ps store fields = Ok st ->
  divides (arr_max (map fst ps) + 1) (pt_counter st) fields (pt_fields st) /\
  (pt_store st = None \/ pt_store st = Some (pt_fields st)).
Proof.
  intros Hst S Ht Ho H. destruct (C42_result_is_converged_partial _ _ _ _ _ _ _ _ _ _ H) as (n & _ & L).
  assert (S' := S). destruct S' as (S1 & S2 & S3 & (t0 & x0 & P0 & I0)).
  assert (G : good (mkPState fields store (arr_max (prop_ids ps) + 1) [])).
  { split; [exact Hst|]. cbn [pt_counter pt_fields].
    assert (A := arr_max_ge _ _ (Ht t0 x0 P0 I0)). unfold prop_ids. split; [lia|]. intros f x F X. split; [apply (S2 f x F X)|].
    destruct (Z.lt_ge_cases 0 x) as [P|P]; [|lia]. apply (In_nth _ _ []) in F. destruct F as (t & _ & <-).
    assert (B := arr_max_ge _ _ (Ht t x P X)). lia. }
  destruct (loop_ok w thr _ (part_nn_valid nbs dist reach) tc order Ho limit _ _ _ _ _ _ _ G
    (fun c I => initial_children w thr ps fields c I S1) L) as (G' & _ & D & _).
  split; [exact D|]. apply G'.
Qed.
Print Assumptions C79_parallel_merging_divides.
Example C79_case : labelled_series 6 collide /\
  (forall t x, (0 < x)%Z -> In x (nth t collide []) -> In x (map fst (initial_props (repeat 1%Q 6) no_centroid collide))) /\
  exists st, line_run 6 2 10 (1#2) collide = Ok st /\ pt_fields st <> collide.
Proof.
  split; [exact collide_series|]. split.
  - intros t x P I. change (map fst (initial_props (repeat 1%Q 6) no_centroid collide)) with (unique_pos (concat collide)) || idtac.
    do 5 (destruct t as [|t]; [cbn in I; vm_compute; intuition lia|]). destruct t; contradiction.
  - eexists. split; [vm_compute; reflexivity|]. discriminate.
Qed.

(** C80: every recorded merge names a time step after the first, two to ten
    distinct parents, as many distinct children, an area per parent, and new IDs
    for all children but the first. *)
Theorem C80_recorded_merges_are_sound (w : list Q) (thr : Q) (nbs : list (list Z)) (dist : nat -> nat -> Q) (reach : list Z -> nat)
    (order : list Z -> list Z) (tc limit : nat) (ps : props) (store : option (list (list Z))) (fields : list (list Z)) (st : pstate) :
  store = None \/ store = Some fields ->
  labelled_series (length w) fields ->
  (forall t x, (0 < x)%Z -> In x (nth t fields []) -> In x (map fst ps)) ->
  (forall l x, In x (order l) -> In x l) ->
  parallel_merge w thr (part_nn_mesh nbs dist reach) order tc limit ps store fields = Ok st ->
  forall e, In e (pt_events st) -> sound_merge (length fields) (arr_max (map fst ps) + 1) (pt_counter st) e.
Proof.
  intros Hst S Ht Ho H. destruct (C42_result_is_converged_partial _ _ _ _ _ _ _ _ _ _ H) as (n & _ & L).
  assert (S' := S). destruct S' as (S1 & S2 & S3 & (t0 & x0 & P0 & I0)).
  assert (G : good (mkPState fields store (arr_max (prop_ids ps) + 1) [])).
  { split; [exact Hst|]. cbn [pt_counter pt_fields].
    assert (A := arr_max_ge _ _ (Ht t0 x0 P0 I0)). unfold prop_ids. split; [lia|]. intros f x F X. split; [apply (S2 f x F X)|].
    destruct (Z.lt_ge_cases 0 x) as [P|P]; [|lia]. apply (In_nth _ _ []) in F. destruct F as (t & _ & <-).
    assert (B := arr_max_ge _ _ (Ht t x P X)). lia. }
  destruct (loop_ok w thr _ (part_nn_valid nbs dist reach) tc order Ho limit _ _ _ _ _ _ _ G
    (fun c I => initial_children w thr ps fields c I S1) L) as (_ & _ & _ & evs & E & Sm).
  cbn [pt_events app] in E. intros e I. rewrite E in I. apply Sm. exact I.
Qed.
Print Assumptions C80_recorded_merges_are_sound.
Example C80_case : exists st, line_run 6 2 10 (1#2) collide = Ok st /\ length (pt_events st) = 2.
Proof. eexists. split; vm_compute; reflexivity. Qed.

(** C80, one iteration: the parents of a merge at time t are objects of time t-1,
    before or after the iteration. *)
Theorem C80_parents_are_objects_of_the_step_before (w : list Q) (thr : Q) (nbs : list (list Z)) (dist : nat -> nat -> Q) (reach : list Z -> nat)
    (tc : nat) (s : pstate) (objs : list Z) (s' : pstate) (objs' : list Z) :
  pt_store s = None \/ pt_store s = Some (pt_fields s) -> (0 < pt_counter s)%Z -> ids_below (pt_counter s) (pt_fields s) ->
  (forall c, In c objs -> (0 < c)%Z) ->
  iteration w thr (part_nn_mesh nbs dist reach) tc s objs = Ok (s', objs') ->
  exists evs, pt_events s' = pt_events s ++ evs /\
    forall e p, In e evs -> In p (e_parents e) ->
      In p (nth (e_time e - 1) (pt_fields s) []) \/ In p (nth (e_time e - 1) (pt_fields s') []).
Proof.
  intros A B C Ho H. assert (G : good s) by (split; [exact A|split; assumption]).
  destruct (iteration_events w thr _ (part_nn_valid nbs dist reach) tc s objs s' objs' G Ho H) as (evs & E & _ & P & _).
  exists evs. split; assumption.
Qed.
Print Assumptions C80_parents_are_objects_of_the_step_before.

(** ** C158 *)

(** C158: the merges recorded are the overlaps.  Each names a time step after the
    first; there are divisions of the objects given at the step before and at that
    step such that the parents are exactly the objects that share with the first
    child at least the threshold of the smaller one's area, each once, and the
    areas recorded are the areas shared. *)
Theorem C158_merges_are_overlaps (w : list Q) (thr : Q) (nbs : list (list Z)) (dist : nat -> nat -> Q) (reach : list Z -> nat)
    (order : list Z -> list Z) (tc limit : nat) (ps : props) (store : option (list (list Z))) (fields : list (list Z)) (st : pstate) :
  (forall q, In q w -> (0 < q)%Q) ->
  store = None \/ store = Some fields ->
  labelled_series (length w) fields ->
  (forall t x, (0 < x)%Z -> In x (nth t fields []) -> In x (map fst ps)) ->
  (forall l x, In x (order l) -> In x l) ->
  parallel_merge w thr (part_nn_mesh nbs dist reach) order tc limit ps store fields = Ok st ->
  forall e, In e (pt_events st) ->
    1 <= e_time e < length fields /\ NoDup (e_parents e) /\ 2 <= length (e_parents e) /\
    exists before now, finer (nth (e_time e - 1) fields []) before /\ finer (nth (e_time e) fields []) now /\
      recorded_overlaps w thr before now e.
Proof.
  intros Hw Hst S Ht Ho H. destruct (C42_result_is_converged_partial _ _ _ _ _ _ _ _ _ _ H) as (n & _ & L).
  assert (S' := S). destruct S' as (S1 & S2 & S3 & (t0 & x0 & P0 & I0)).
  assert (G : good (mkPState fields store (arr_max (prop_ids ps) + 1) [])).
  { split; [exact Hst|]. cbn [pt_counter pt_fields].
    assert (A := arr_max_ge _ _ (Ht t0 x0 P0 I0)). unfold prop_ids. split; [lia|]. intros f x F X. split; [apply (S2 f x F X)|].
    destruct (Z.lt_ge_cases 0 x) as [P|P]; [|lia]. apply (In_nth _ _ []) in F. destruct F as (t & _ & <-).
    assert (B := arr_max_ge _ _ (Ht t x P X)). lia. }
  destruct (loop_records w thr Hw _ (part_nn_valid nbs dist reach) tc order Ho limit _ _ _ _ _ _ _ G
    (fun c I => initial_children w thr ps fields c I S1) S1 L) as (evs & E & R).
  cbn [pt_events pt_fields app] in E, R. intros e I.
  assert (Sm := C80_recorded_merges_are_sound w thr nbs dist reach order tc limit ps store fields st Hst S Ht Ho H e I).
  destruct Sm as (T & (N & _) & _ & _ & D & _). split; [exact T|]. split; [exact D|]. split; [exact N|].
  rewrite E in I. exact (R e I).
Qed.
Print Assumptions C158_merges_are_overlaps.
Example C158_case : labelled_series (length (repeat 1%Q 6)) collide /\
  exists st, line_run 6 2 10 (1#2) collide = Ok st /\
    map e_areas (pt_events st) = [[1; 1; 1; 1]; [1; 1]]%Q /\ map e_time (pt_events st) = [1; 2].
Proof. split; [exact collide_series|]. eexists. split; [vm_compute; reflexivity|]. split; reflexivity. Qed.

(** ** C81 *)

(** C81 is false: a series with more than a hundred times as many time steps as
    IDs cannot be processed if any object has two parents. *)
Theorem C81_long_series_refuted (w : list Q) (thr : Q) (part : list Z -> list bool -> list Z -> list Z -> result par_err (list Z))
    (order : list Z -> list Z) (tc limit : nat) (ps : props) (store : option (list (list Z))) (fields : list (list Z)) :
  merging_children (enforce_threshold thr ps (find_overlapping w fields)) <> [] -> 0 < limit ->
  (0 <= arr_max (map fst ps))%Z -> (100 * (arr_max (map fst ps) + 1) < Z.of_nat (length fields))%Z ->
  (exists f x, In f fields /\ In x f) ->
  parallel_merge w thr part order tc limit ps store fields = Err PadTooSmall.
Proof.
  intros Ne L Pm N Ex. unfold parallel_merge. destruct (merging_children _) as [|c r]; [congruence|].
  destruct limit as [|limit]; [lia|]. cbn [merge_loop]. rewrite pad_fails; [reflexivity| | |]; cbn [pt_counter pt_fields]; unfold prop_ids.
  - lia.
  - exact N.
  - exact Ex.
Qed.
Print Assumptions C81_long_series_refuted.
(** What is true: the pad suffices exactly when no step has more distinct IDs than a
    hundred times the IDs per step, and then each ID present is found at its first step. *)
Theorem C81_time_index_exact_partial (counter : Z) (fields : list (list Z)) :
  (pads_ok counter fields = true <->
   forall f, In f fields -> (Z.of_nat (length (nodup Z.eq_dec f)) * Z.of_nat (length fields) <= 100 * counter)%Z) /\
  (forall id t, (0 <= id < counter)%Z -> t < length fields -> In id (nth t fields []) ->
     (forall t', t' < t -> ~ In id (nth t' fields [])) -> id_time counter fields id = Some t).
Proof. split; [apply pads_enough|intros id t; apply id_time_exact]. Qed.
Print Assumptions C81_time_index_exact_partial.
Example C81_exact_case : pads_ok 4 [[1; 2; 0]; [0; 3; 3]]%Z = true /\ id_time 4 [[1; 2; 0]; [0; 3; 3]]%Z 3 = Some 1.
Proof. split; vm_compute; reflexivity. Qed.
(** Its hypotheses can be met: two objects become one at the start of 450 steps. *)
Definition sparse : list (list Z) := [[1; 2]; [3; 3]]%Z ++ repeat [0; 0]%Z 448.
Example C81_case : merging_children (enforce_threshold (1#2) (initial_props [1; 1]%Q no_centroid sparse) (find_overlapping [1; 1]%Q sparse)) = [3%Z] /\
  arr_max (map fst (initial_props [1; 1]%Q no_centroid sparse)) = 3%Z /\ length sparse = 450.
Proof. split; [vm_compute; reflexivity|]. split; vm_compute; reflexivity. Qed.
