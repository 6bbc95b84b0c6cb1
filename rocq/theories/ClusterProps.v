(** Property theorems C33-C37, C25 (whole tracking) and C75. *)
From Verif Require Import Base Label LabelSpec LabelProofs Overlap OverlapSpec OverlapProofs Merge MergeSpec MergeMore MergeWitness Partition PartitionMore
  Cluster ClusterSpec ClusterProofs ClusterMore ClusterFinal ClusterPipe.
Open Scope nat_scope.

(** C33: clustering cannot fail on what tracking hands to it. *)
Theorem C33_clustering_succeeds (ca : list Q) (fields : list (list Z)) (pairs : list (Z * Z)) (mg : merges) :
  cluster_input fields pairs (m_parents mg) -> exists ev, cluster_rename ca fields pairs mg = Ok ev.
Proof. intro H. destruct (cluster_built ca fields pairs mg H) as (tab & n & E & _). eauto. Qed.
Print Assumptions C33_clustering_succeeds.

(** Events are the classes of IDs joined by pairs; background stays 0; the IDs
    used are 1..v_count. *)
Theorem C33_events_are_chains (ca : list Q) (fields : list (list Z)) (pairs : list (Z * Z)) (mg : merges) (ev : events) :
  cluster_input fields pairs (m_parents mg) -> cluster_rename ca fields pairs mg = Ok ev ->
  (length (v_field ev) = length fields /\ forall t, length (nth t (v_field ev) []) = length (nth t fields [])) /\
  (forall t k, t < length fields -> k < length (nth t fields []) ->
     (id_at (v_field ev) t k = 0%Z <-> id_at fields t k = 0%Z)) /\
  (forall t k u l, t < length fields -> k < length (nth t fields []) -> u < length fields -> l < length (nth u fields []) ->
     (0 < id_at fields t k)%Z -> (0 < id_at fields u l)%Z ->
     (id_at (v_field ev) t k = id_at (v_field ev) u l <->
      chained (fun a b => In (a, b) pairs) (id_at fields t k) (id_at fields u l))) /\
  (forall k, (1 <= k <= Z.of_nat (v_count ev))%Z <->
     exists t c, t < length fields /\ c < length (nth t fields []) /\ (0 < id_at fields t c)%Z /\ id_at (v_field ev) t c = k).
Proof.
  intros H E. destruct (built_of ca fields pairs mg ev H E) as (tab & n & -> & F).
  split; [exact (new_shape ca fields mg tab n)|]. split; [|split].
  - intros t k T K. apply (new_background ca fields pairs mg H tab n F t k T K).
  - intros t k u l T K U L P Q0. apply (new_same ca fields pairs mg tab n F); assumption.
  - intro k. apply (new_onto ca fields pairs mg H tab n F).
Qed.
Print Assumptions C33_events_are_chains.

(** The same for the whole of tracking with merging: two extreme cells are in
    one event exactly when their objects (after merging) are joined by overlaps
    of at least the threshold between consecutive times. *)
Theorem C33_tracked_events_are_overlap_chains (nn regional : bool) (ny nx : nat) (cent : list bool -> Q * Q) (thr : Q)
    (w ca : list Q) (sizes : list nat) (lab : list (list Z)) :
  length w = ny * nx -> (forall q, In q w -> (0 < q)%Q) ->
  fold_right Nat.add 0 sizes = length lab -> labelled_series (ny * nx) lab ->
  exists ev mg, track_objects cent thr (part_grid nn regional ny nx) w ca sizes lab = Ok (ev, mg) /\
  let objs := fst (split_and_merge w cent thr (part_grid nn regional ny nx) (split_by sizes lab)) in
  (forall t k u l, t < length lab -> k < ny * nx -> u < length lab -> l < ny * nx ->
     (0 < id_at lab t k)%Z -> (0 < id_at lab u l)%Z ->
     (id_at (v_field ev) t k = id_at (v_field ev) u l <->
      chained (consecutive_overlap w thr objs) (id_at objs t k) (id_at objs u l))) /\
  n_events ev = Z.of_nat (v_count ev) /\
  (forall k, (1 <= k <= n_events ev)%Z <-> exists t, (0 < k)%Z /\ present_at (v_field ev) t k).
Proof.
  intros L Hw Hs Hl. rewrite <- L in Hl. assert (Cov := part_grid_covers nn regional ny nx). rewrite <- L in Cov.
  destruct (track_result cent thr _ w ca sizes lab Cov Hw Hs Hl) as (I & ev & E & Tr).
  exists ev. eexists. split; [exact Tr|]. cbv zeta. assert (Ec := split_by_concat sizes lab Hs).
  assert (Hl' : labelled_series (length w) (concat (split_by sizes lab))) by (rewrite Ec; exact Hl).
  set (st := split_and_merge w cent thr (part_grid nn regional ny nx) (split_by sizes lab)) in *.
  assert (Len : length (fst st) = length lab).
  { unfold st. rewrite (final_length w cent thr _ Cov _ Hl'), Ec. reflexivity. }
  assert (Ls := objs_series w cent thr _ Cov _ Hl'). fold st in Ls.
  assert (Ln : forall t, t < length lab -> length (nth t (fst st) []) = ny * nx).
  { intros t T. rewrite <- L. apply Ls. apply nth_In. lia. }
  assert (Foot : forall t k, t < length lab -> ((0 < id_at (fst st) t k)%Z <-> (0 < id_at lab t k)%Z)).
  { intros t k T. unfold id_at. assert (Ff := final_foot w cent thr _ Cov _ Hl' t). fold st in Ff. rewrite Ec in Ff.
    destruct (Ff T) as [_ G]. apply G. }
  destruct (C33_events_are_chains _ _ _ _ _ I E) as ((S1 & S2) & B & Sm & On).
  assert (Pos : forall t k, present_at (v_field ev) t k -> (0 <= k <= Z.of_nat (v_count ev))%Z).
  { intros t k P. unfold present_at in P. assert (T : t < length (fst st)).
    { destruct (Nat.lt_ge_cases t (length (fst st))) as [H|H]; [exact H|]. rewrite nth_overflow in P by (rewrite S1; exact H). destruct P. }
    destruct (In_nth _ _ 0%Z P) as (c & C & Ek). rewrite S2 in C.
    destruct (Z.eq_dec k 0) as [->|Nz]; [lia|].
    assert (P0 : (0 < id_at (fst st) t c)%Z).
    { assert (N : (0 <= id_at (fst st) t c)%Z) by (destruct Ls as (_ & N & _); apply (N (nth t (fst st) [])); apply nth_In; assumption).
      destruct (Z.eq_dec (id_at (fst st) t c) 0) as [Z0|Z0]; [|lia]. exfalso. apply Nz. apply (B t c T C) in Z0.
      unfold id_at in Z0. rewrite Ek in Z0. exact Z0. }
    assert (X : (1 <= k <= Z.of_nat (v_count ev))%Z) by (apply On; exists t, c; unfold id_at in *; auto). lia. }
  assert (Mx : n_events ev = Z.of_nat (v_count ev)).
  { unfold n_events. destruct Ls as (_ & _ & _ & t & x & P & X).
    assert (T : t < length (fst st)). { destruct (Nat.lt_ge_cases t (length (fst st))) as [H|H]; [exact H|]. rewrite nth_overflow in X by exact H. destruct X. }
    destruct (In_nth _ _ 0%Z X) as (c & C & Ex).
    assert (In1 : exists k, (1 <= k <= Z.of_nat (v_count ev))%Z).
    { exists (id_at (v_field ev) t c). apply On. exists t, c. split; [exact T|]. split; [exact C|]. split; [|reflexivity]. unfold id_at. lia. }
    assert (Top : In (Z.of_nat (v_count ev)) (concat (v_field ev))).
    { assert (H : exists t c, t < length (fst st) /\ c < length (nth t (fst st) []) /\ (0 < id_at (fst st) t c)%Z /\ id_at (v_field ev) t c = Z.of_nat (v_count ev))
        by (apply On; destruct In1; lia).
      destruct H as (t' & c' & T' & C' & _ & <-). apply concat_In_nth. exists t'. split; [lia|]. apply nth_In. rewrite S2. exact C'. }
    apply Z.le_antisymm; [|apply arr_max_ge; exact Top].
    destruct (concat (v_field ev)) as [|v r] eqn:Ev; [destruct Top|].
    assert (Z0 : In (arr_max (v :: r)) (v :: r)).
    { cbn [arr_max]. clear. revert v. induction r as [|y r IH]; intro v; cbn [list_max]; [left; reflexivity|].
      destruct (IH (Z.max v y)) as [H|H]; [|right; right; exact H]. rewrite <- H.
      destruct (Z.max_spec v y) as [[_ ->]|[_ ->]]; [right; left; reflexivity|left; reflexivity]. }
    rewrite <- Ev in Z0 at 2. apply concat_In_nth in Z0. destruct Z0 as (u & U & Z0). apply Pos in Z0. lia. }
  split; [|split; [exact Mx|]].
  - intros t k u l T K U L' P Q0. rewrite <- (Foot t k T) in P. rewrite <- (Foot u l U) in Q0.
    rewrite (Sm t k u l) by (try assumption; rewrite ?Len, ?Ln by assumption; assumption).
    assert (Pr := fun i j => objs_pair w cent thr _ Cov Hw _ Hl' i j). fold st in Pr.
    split; intro H; eapply chained_mono; try exact H; cbv beta; intros a b AB; apply Pr; exact AB.
  - intro k. rewrite Mx. split.
    + intro K. destruct (proj1 (On k) K) as (t & c & T & C & P & <-). exists t. split; [lia|]. apply nth_In. rewrite S2. exact C.
    + intros (t & P & Q0). apply Pos in Q0. lia.
Qed.
Print Assumptions C33_tracked_events_are_overlap_chains.

(** A periodic row of six cells at three times: two objects merge into one, then
    another appears; chunks of two and one steps. *)
Definition case_data : list bool :=
  [true; true; false; true; true; false;  true; true; true; true; true; false;  false; false; false; false; false; true].
Definition case_run := track_grid true false 3 1 6 row_centroid (1#2) (repeat 2%Q 6) [2; 1] case_data.
Definition case_events : events := mkEvents
  [[1; 1; 0; 2; 2; 0]; [1; 1; 1; 2; 2; 0]; [0; 0; 0; 0; 0; 3]]%Z 3
  [[1; 2; 0]; [3; 5; 0]; [0; 0; 4]]%Z
  [[true; true; false]; [true; true; false]; [false; false; true]] [0; 0; 2] [1; 1; 2]
  [[Some (2 + (2 + 0)); Some (2 + (2 + 0)); None]; [Some (2 + (2 + (2 + 0))); Some (2 + (2 + 0)); None]; [None; None; Some (2 + 0)]]%Q
  [[[-1; -1]; [-1; -1]; [-1; -1]]; [[1; 1]; [2; 2]; [-1; -1]]; [[-1; -1]; [-1; -1]; [-1; -1]]]%Z.
Definition case_merges : merges := mkMerges [[1; 2]%Z] [[3; 5]%Z] [1] [2%Z] [2%Z] [[2; 2]%Q].
Lemma case_run_result : case_run = Ok (case_events, case_merges).
Proof. vm_compute. reflexivity. Qed.
Example C33_case : case_run = Ok (case_events, case_merges) /\ n_events case_events = 3%Z.
Proof. split; [exact case_run_result|reflexivity]. Qed.

(** C25, whole of tracking: the cells with an event ID are exactly the cells of
    the preprocessed data that are True. *)
Theorem C25_tracked_cells_are_the_data (nn regional : bool) (nt ny nx : nat) (cent : list bool -> Q * Q) (thr : Q)
    (ca : list Q) (sizes : list nat) (data : list bool) :
  length data = nt * ny * nx -> fold_right Nat.add 0 sizes = nt -> (exists k, nth k data false = true) ->
  exists ev mg, track_grid nn regional nt ny nx cent thr ca sizes data = Ok (ev, mg) /\
    length (v_field ev) = nt /\
    (forall t, t < nt -> length (nth t (v_field ev) []) = ny * nx) /\
    forall t y x, t < nt -> y < ny -> x < nx ->
      (nth ((t * ny + y) * nx + x) data false = true -> (0 < id_at (v_field ev) t (y * nx + x))%Z) /\
      (nth ((t * ny + y) * nx + x) data false = false -> id_at (v_field ev) t (y * nx + x) = 0%Z).
Proof.
  intros Ld Hs Ex. unfold track_grid. set (w := repeat 1%Q (ny * nx)).
  assert (Lw : length w = ny * nx) by apply repeat_length.
  assert (Hw : forall q, In q w -> (0 < q)%Q) by (intros q Q0; apply repeat_spec in Q0; subst; reflexivity).
  set (lab := time_fields nt ny nx (fst (identify_grid regional false nt ny nx data))).
  assert (Hl : labelled_series (ny * nx) lab) by (apply fields_series; assumption).
  assert (Ll : length lab = nt) by apply fields_length.
  rewrite <- Lw in Hl. assert (Cov := part_grid_covers nn regional ny nx). rewrite <- Lw in Cov. rewrite <- Ll in Hs.
  destruct (track_result cent thr _ w ca sizes lab Cov Hw Hs Hl) as (I & ev & E & Tr).
  exists ev. eexists. split; [exact Tr|]. assert (Ec := split_by_concat sizes lab Hs).
  assert (Hl' : labelled_series (length w) (concat (split_by sizes lab))) by (rewrite Ec; exact Hl).
  set (st := split_and_merge w cent thr (part_grid nn regional ny nx) (split_by sizes lab)) in *.
  assert (Len : length (fst st) = nt). { unfold st. rewrite (final_length w cent thr _ Cov _ Hl'), Ec. exact Ll. }
  assert (Ls := objs_series w cent thr _ Cov _ Hl'). fold st in Ls.
  assert (Ln : forall t, t < nt -> length (nth t (fst st) []) = ny * nx).
  { intros t T. rewrite <- Lw. apply Ls. apply nth_In. lia. }
  destruct (C33_events_are_chains _ _ _ _ _ I E) as ((S1 & S2) & B & _ & On).
  split; [lia|]. split; [intros t T; rewrite S2; apply Ln; exact T|].
  intros t y x T Y X. set (k := y * nx + x).
  assert (K : k < length (nth t (fst st) [])) by (rewrite Ln by exact T; unfold k; nia).
  assert (T' : t < length (fst st)) by lia. specialize (B t k T' K).
  assert (Foot : (0 < id_at (fst st) t k)%Z <-> (0 < id_at lab t k)%Z).
  { unfold id_at. assert (Ff := final_foot w cent thr _ Cov _ Hl' t). fold st in Ff. rewrite Ec in Ff.
    destruct (Ff ltac:(lia)) as [_ G]. apply G. }
  assert (Fc := fields_cell regional nt ny nx data Ld t y x T Y X). fold lab in Fc. fold k in Fc.
  change (flat ny nx (t, y, x)) with ((t * ny + y) * nx + x) in Fc.
  assert (N : (0 <= id_at (fst st) t k)%Z) by (destruct Ls as (_ & N & _); apply (N (nth t (fst st) [])); apply nth_In; assumption).
  split; intro D.
  - assert (P : (0 < id_at (fst st) t k)%Z) by tauto.
    assert (Q0 : (1 <= id_at (v_field ev) t k <= Z.of_nat (v_count ev))%Z) by (apply On; exists t, k; auto). lia.
  - apply B. rewrite D in Fc. destruct (Z.eq_dec (id_at (fst st) t k) 0) as [H|H]; [exact H|].
    assert (P : (0 < id_at (fst st) t k)%Z) by lia. apply Foot, Fc in P. discriminate.
Qed.
Print Assumptions C25_tracked_cells_are_the_data.
Example C25_case : case_run = Ok (case_events, case_merges) /\
  length case_data = 3 * 1 * 6 /\ fold_right Nat.add 0 [2; 1] = 3.
Proof. split; [exact case_run_result|split; reflexivity]. Qed.

(** C34: presence and first/last time. *)
Theorem C34_presence_and_times (ca : list Q) (fields : list (list Z)) (pairs : list (Z * Z)) (mg : merges) (ev : events) :
  cluster_input fields pairs (m_parents mg) -> cluster_rename ca fields pairs mg = Ok ev ->
  (forall t i, t < length fields -> i < v_count ev ->
     (nth i (nth t (v_presence ev) []) false = true <-> present_at (v_field ev) t (Z.of_nat i + 1))) /\
  (forall i, i < v_count ev ->
     present_at (v_field ev) (nth i (v_start ev) 0) (Z.of_nat i + 1) /\
     present_at (v_field ev) (nth i (v_end ev) 0) (Z.of_nat i + 1) /\
     forall t, present_at (v_field ev) t (Z.of_nat i + 1) -> nth i (v_start ev) 0 <= t <= nth i (v_end ev) 0).
Proof.
  intros H E. destruct (built_of ca fields pairs mg ev H E) as (tab & n & -> & F). split.
  - intros t i T I. apply (presence_value ca fields pairs mg H tab n F t i T I).
  - intros i I. apply (times_spec ca fields pairs mg H tab n F i I).
Qed.
Print Assumptions C34_presence_and_times.
Example C34_case : case_run = Ok (case_events, case_merges) /\ v_start case_events = [0; 0; 2] /\ v_end case_events = [1; 1; 2].
Proof. split; [exact case_run_result|split; reflexivity]. Qed.

(** C35: areas of the events, and their sum. *)
Theorem C35_event_areas (ca : list Q) (fields : list (list Z)) (pairs : list (Z * Z)) (mg : merges) (ev : events) :
  cluster_input fields pairs (m_parents mg) -> cluster_rename ca fields pairs mg = Ok ev ->
  (forall f, In f fields -> length f = length ca) ->
  (forall t i, t < length fields -> i < v_count ev ->
     match nth i (nth t (v_area ev) []) None with
     | Some a => present_at (v_field ev) t (Z.of_nat i + 1) /\ (a == object_area ca (nth t (v_field ev) []) (Z.of_nat i + 1))%Q
     | None => ~ present_at (v_field ev) t (Z.of_nat i + 1)
     end) /\
  (forall t, t < length fields ->
     (totalQ (fun i => match nth i (nth t (v_area ev) []) None with Some a => a | None => 0 end) (v_count ev) ==
      totalQ (fun k => if Z.ltb 0 (id_at fields t k) then nth k ca 0 else 0) (length ca))%Q).
Proof.
  intros H E L. destruct (built_of ca fields pairs mg ev H E) as (tab & n & -> & F).
  assert (Lt : forall t, t < length fields -> length (nth t fields []) = length ca) by (intros; apply L, nth_In; assumption). split.
  - intros t i T I. rewrite (area_value ca fields pairs mg H tab n F t i T I).
    destruct (memZ (Z.of_nat i + 1) (nth t (v_field (built ca fields mg tab n)) [])) eqn:M.
    + split; [apply memZ_In; exact M|]. apply field_area. rewrite (proj2 (new_shape ca fields mg tab n)). apply Lt. exact T.
    + apply memZ_false. exact M.
  - intros t T. apply (area_total ca fields pairs mg H tab n F t T). apply Lt. exact T.
Qed.
Print Assumptions C35_event_areas.
Example C35_case : case_run = Ok (case_events, case_merges) /\
  map (map (option_map Qred)) (v_area case_events) = [[Some 4; Some 4; None]; [Some 6; Some 4; None]; [None; None; Some 2]]%Q.
Proof. split; [exact case_run_result|reflexivity]. Qed.

(** C36 as claimed (the row of an event lists the events it merges with): false,
    the row of event 1 holds only 1. *)
Theorem C36_ledger_lists_siblings_refuted :
  exists nn regional ny nx thr w ca sizes lab ev mg t k l,
    track_objects row_centroid thr (part_grid nn regional ny nx) w ca sizes lab = Ok (ev, mg) /\
    length w = ny * nx /\ labelled_series (ny * nx) lab /\ fold_right Nat.add 0 sizes = length lab /\
    let objs := fst (split_and_merge w row_centroid thr (part_grid nn regional ny nx) (split_by sizes lab)) in
    k <> l /\ k < v_count ev /\ l < v_count ev /\
    merge_siblings (m_time mg) (m_parents mg) objs (v_field ev) t (Z.of_nat k + 1) (Z.of_nat l + 1) /\
    ~ In (Z.of_nat l + 1)%Z (nth k (nth t (v_ledger ev) []) []).
Proof.
  destruct (track_objects row_centroid (1#2) (part_grid true false 1 6) (ones 6) (ones 6) [2] [merge_before; merge_after])
    as [[ev mg]|] eqn:E; [|vm_compute in E; discriminate].
  exists true, false, 1, 6, (1#2), (ones 6), (ones 6), [2], [merge_before; merge_after], ev, mg, 1, 0, 1.
  split; [exact E|]. split; [reflexivity|]. split; [exact small_input|]. split; [reflexivity|]. cbv zeta.
  assert (Eo := proj1 small_run_result). unfold small_run in Eo. cbn [split_by firstn skipn].
  rewrite Eo. clear Eo. vm_compute in E. injection E as <- <-.
  split; [lia|]. split; [cbn; lia|]. split; [cbn; lia|]. split.
  - exists 0, 1%Z, 2%Z. cbn. split; [lia|]. split; [reflexivity|]. split; [tauto|]. split; [tauto|]. split; [lia|]. split; [lia|].
    split; [exists 0, 0|exists 0, 3]; cbn; repeat split; lia.
  - cbn. intuition discriminate.
Qed.
Print Assumptions C36_ledger_lists_siblings_refuted.

(** What holds: the row of an event at a time is -1 in every slot unless the
    event takes part in a merge recorded for that time, and then every slot holds
    the event's own ID.  Missing: the siblings. *)
Theorem C36_ledger_marks_merging_events_partial (ca : list Q) (fields : list (list Z)) (pairs : list (Z * Z)) (mg : merges) (ev : events) :
  cluster_input fields pairs (m_parents mg) -> length (m_time mg) = length (m_parents mg) ->
  cluster_rename ca fields pairs mg = Ok ev ->
  forall t i s, t < length fields -> i < v_count ev -> s < max_len (m_parents mg) ->
    let v := nth s (nth i (nth t (v_ledger ev) []) []) 0%Z in
    let merging := merging_event (m_time mg) (m_parents mg) fields (v_field ev) t (Z.of_nat i + 1) in
    (merging -> v = (Z.of_nat i + 1)%Z) /\ (~ merging -> v = (-1)%Z).
Proof.
  intros H Lm E. destruct (built_of ca fields pairs mg ev H E) as (tab & n & -> & F).
  intros t i s T I S. exact (ledger_value ca fields pairs mg H tab n F t i s Lm T I S).
Qed.
Print Assumptions C36_ledger_marks_merging_events_partial.
Example C36_case : case_run = Ok (case_events, case_merges) /\ v_ledger case_events =
  [[[-1; -1]; [-1; -1]; [-1; -1]]; [[1; 1]; [2; 2]; [-1; -1]]; [[-1; -1]; [-1; -1]; [-1; -1]]]%Z.
Proof. split; [exact case_run_result|reflexivity]. Qed.

(** C37: global_ID is 0 for absent events and otherwise the largest original ID
    among the objects of the event at that time. *)
Theorem C37_global_id (ca : list Q) (fields : list (list Z)) (pairs : list (Z * Z)) (mg : merges) (ev : events) (t i : nat) :
  cluster_input fields pairs (m_parents mg) -> cluster_rename ca fields pairs mg = Ok ev ->
  t < length fields -> i < v_count ev ->
  let v := nth i (nth t (v_global ev) []) 0%Z in
  let original x := exists k, k < length (nth t fields []) /\ id_at fields t k = x /\ id_at (v_field ev) t k = (Z.of_nat i + 1)%Z in
  (~ present_at (v_field ev) t (Z.of_nat i + 1) -> v = 0%Z) /\
  (present_at (v_field ev) t (Z.of_nat i + 1) -> (0 < v)%Z /\ original v /\ forall x, original x -> (x <= v)%Z).
Proof.
  intros H E T I. destruct (built_of ca fields pairs mg ev H E) as (tab & n & -> & F). cbn [v_count built] in I. cbv zeta.
  assert (Eg := global_out ca fields mg tab n t i T I). cbv zeta in Eg.
  rewrite Eg. apply (global_value ca fields pairs mg H tab n F t i T). lia.
Qed.
Print Assumptions C37_global_id.
Example C37_case : case_run = Ok (case_events, case_merges) /\ v_global case_events = [[1; 2; 0]; [3; 5; 0]; [0; 0; 4]]%Z.
Proof. split; [exact case_run_result|reflexivity]. Qed.

(** C75: an event is present at every time between its first and its last. *)
Theorem C75_events_have_no_gaps (nn regional : bool) (ny nx : nat) (cent : list bool -> Q * Q) (thr : Q)
    (w ca : list Q) (sizes : list nat) (lab : list (list Z)) :
  length w = ny * nx -> (forall q, In q w -> (0 < q)%Q) ->
  fold_right Nat.add 0 sizes = length lab -> labelled_series (ny * nx) lab ->
  exists ev mg, track_objects cent thr (part_grid nn regional ny nx) w ca sizes lab = Ok (ev, mg) /\
  (forall k a b t, (0 < k)%Z -> present_at (v_field ev) a k -> present_at (v_field ev) b k -> a <= t <= b -> present_at (v_field ev) t k) /\
  (forall i t, i < v_count ev -> (nth i (v_start ev) 0 <= t <= nth i (v_end ev) 0 <-> present_at (v_field ev) t (Z.of_nat i + 1))).
Proof.
  intros L Hw Hs Hl. rewrite <- L in Hl. assert (Cov := part_grid_covers nn regional ny nx). rewrite <- L in Cov.
  destruct (track_result cent thr _ w ca sizes lab Cov Hw Hs Hl) as (I & ev & E & Tr).
  exists ev. eexists. split; [exact Tr|]. assert (Ec := split_by_concat sizes lab Hs).
  assert (Hl' : labelled_series (length w) (concat (split_by sizes lab))) by (rewrite Ec; exact Hl).
  assert (Ls := objs_series w cent thr _ Cov _ Hl').
  assert (Pr := fun i j => objs_pair w cent thr _ Cov Hw _ Hl' i j).
  set (st := split_and_merge w cent thr (part_grid nn regional ny nx) (split_by sizes lab)) in *.
  destruct (C33_events_are_chains _ _ _ _ _ I E) as ((S1 & S2) & B & Sm & On).
  assert (Cell : forall t k, (0 < k)%Z -> present_at (v_field ev) t k -> exists c, t < length (fst st) /\ c < length (nth t (fst st) []) /\
            (0 < id_at (fst st) t c)%Z /\ id_at (v_field ev) t c = k).
  { intros t k Pk P. unfold present_at in P. assert (T : t < length (fst st)).
    { destruct (Nat.lt_ge_cases t (length (fst st))) as [H|H]; [exact H|]. rewrite nth_overflow in P by (rewrite S1; exact H). destruct P. }
    destruct (In_nth _ _ 0%Z P) as (c & C & Ek). rewrite S2 in C. exists c. split; [exact T|]. split; [exact C|]. split; [|exact Ek].
    assert (N : (0 <= id_at (fst st) t c)%Z) by (destruct Ls as (_ & N & _); apply (N (nth t (fst st) [])); apply nth_In; assumption).
    destruct (Z.eq_dec (id_at (fst st) t c) 0) as [Z0|Z0]; [|lia]. exfalso. apply (B t c T C) in Z0. unfold id_at in Z0. rewrite Ek in Z0. lia. }
  assert (G : forall k a b t, (0 < k)%Z -> present_at (v_field ev) a k -> present_at (v_field ev) b k -> a <= t <= b -> present_at (v_field ev) t k).
  { intros k a b t Pk A Bp T. destruct (Cell a k Pk A) as (c & Ta & Ca & Pa & Ea). destruct (Cell b k Pk Bp) as (d & Tb & Cb & Pb & Eb).
    assert (Ch : chained (consecutive_overlap w thr (fst st)) (id_at (fst st) a c) (id_at (fst st) b d)).
    { apply (chained_mono (fun x y => In (x, y) (final_overlaps w thr (fst st) (snd st)))); [intros x y; apply Pr|].
      apply (Sm a c b d); auto. congruence. }
    destruct (chain_visits w thr (fst st) Ls Hw _ _ Ch Pa a b t) as (z & Pz & Z0 & Chz).
    { apply nth_In; exact Ca. } { apply nth_In; exact Cb. } { left. exact T. }
    destruct (In_nth _ _ 0%Z Z0) as (e & Ce & Ee). assert (Te : t < length (fst st)) by lia.
    assert (Eq : id_at (v_field ev) a c = id_at (v_field ev) t e).
    { apply (Sm a c t e); auto; [unfold id_at at 1; lia|].
      apply (chained_mono (consecutive_overlap w thr (fst st))); [intros x y; apply Pr|]. unfold id_at at 2. rewrite Ee. exact Chz. }
    unfold present_at. rewrite <- Ea, Eq. apply nth_In. rewrite S2. exact Ce. }
  split; [exact G|]. intros i t Ii. destruct (C34_presence_and_times _ _ _ _ _ I E) as [_ T34]. destruct (T34 i Ii) as (A & B' & C).
  split; [|apply C]. intro T. apply (G _ _ _ t) with (2 := A) (3 := B'); [lia|exact T].
Qed.
Print Assumptions C75_events_have_no_gaps.
Example C75_case : case_run = Ok (case_events, case_merges) /\ v_presence case_events =
  [[true; true; false]; [true; true; false]; [false; false; true]].
Proof. split; [exact case_run_result|reflexivity]. Qed.

(** The same without merging. *)
Lemma space_time_chain_visits wrap nt ny nx on c d : chain true wrap nt ny nx on c d -> in_range nt ny nx c -> on c ->
  forall t, fst (fst c) <= t <= fst (fst d) \/ fst (fst d) <= t <= fst (fst c) ->
  exists e, in_range nt ny nx e /\ on e /\ fst (fst e) = t /\ chain true wrap nt ny nx on c e.
Proof.
  induction 1 as [c|c d e R O T C IH]; intros Rc Oc t Ht.
  - exists c. split; [exact Rc|]. split; [exact Oc|]. split; [lia|constructor].
  - destruct (Nat.eq_dec t (fst (fst c))) as [->|Ne].
    + exists c. split; [exact Rc|]. split; [exact Oc|]. split; [reflexivity|constructor].
    + assert (D : dist1 (fst (fst c)) (fst (fst d))).
      { destruct c as [[tc yc] xc], d as [[td yd] xd]. unfold touching in T. cbn. tauto. }
      unfold dist1 in D. destruct (IH R O t) as (f & Rf & Of & Tf & Cf); [lia|].
      exists f. split; [exact Rf|]. split; [exact Of|]. split; [exact Tf|]. apply (chain_step _ _ _ _ _ _ c d f); assumption.
Qed.
Theorem C75_events_without_merging_have_no_gaps (regional : bool) (nt ny nx : nat) (data : list bool) (lab : list Z) (n : nat) :
  length data = nt * ny * nx -> run_tracking_simple regional nt ny nx data = (lab, n) ->
  forall a b t, in_range nt ny nx a -> in_range nt ny nx b ->
    (0 < label_of ny nx lab a)%Z -> label_of ny nx lab a = label_of ny nx lab b ->
    fst (fst a) <= t <= fst (fst b) ->
    exists y x, y < ny /\ x < nx /\ label_of ny nx lab (t, y, x) = label_of ny nx lab a.
Proof.
  intros L E a b t Ra Rb P Eq T. destruct (run_tracking_simple_spec regional nt ny nx data lab n L E) as (_ & Z0 & Sm & _).
  assert (X : forall c, in_range nt ny nx c -> (0 < label_of ny nx lab c)%Z -> extreme ny nx data c).
  { intros c Rc Pc. specialize (Z0 c Rc). unfold extreme in *. destruct (nth (flat ny nx c) data false); [reflexivity|].
    assert (label_of ny nx lab c = 0%Z) by (apply Z0; discriminate). lia. }
  assert (Xa := X a Ra P). assert (Xb : extreme ny nx data b) by (apply X; [exact Rb|lia]).
  apply (Sm a b Ra Rb Xa Xb) in Eq.
  destruct (space_time_chain_visits _ _ _ _ _ _ _ Eq Ra Xa t) as ([[t' y] x] & Re & Xe & Te & Ce); [left; exact T|].
  cbn in Te. subst t'. exists y, x. destruct Re as (R1 & R2 & R3). split; [exact R2|]. split; [exact R3|].
  symmetry. apply Sm; auto. repeat split; assumption.
Qed.
Print Assumptions C75_events_without_merging_have_no_gaps.
Example C75_case_simple : run_tracking_simple true 3 1 2 [true; false; false; true; true; true] = ([1; 0; 0; 1; 1; 1]%Z, 1).
Proof. vm_compute. reflexivity. Qed.
