(** Property theorems C23-C28 and C72-C74 (consolidation and merging). *)
From Verif Require Import Base Overlap OverlapSpec ConsolidateProofs ConsolidateMore Merge MergeSpec MergeProofs
  MergeMore MergeChunks MergeWitness Partition PartitionMore.
Open Scope nat_scope.

(** C23: consolidation returns a field with the same footprint, and renames
    objects as wholes. *)
Theorem C23_keeps_footprint (w : list Q) (cent : list bool -> Q * Q) (thr : Q) (f2 f1 : list Z) (ps : props) :
  length f2 = length f1 -> length f2 = length w ->
  let f := fst (consolidate w cent thr f2 f1 ps) in
  length f = length f1 /\
  (forall k, (0 < nth k f 0)%Z <-> (0 < nth k f1 0)%Z) /\
  (forall k l, k < length f1 -> l < length f1 -> nth k f1 0%Z = nth l f1 0%Z -> nth k f 0%Z = nth l f 0%Z).
Proof.
  intros L1 L2. destruct (consolidate_foot w cent thr f2 f1 ps L1 L2) as [A B]. cbv zeta.
  split; [symmetry; exact A|]. split; [intro k; symmetry; apply B|].
  intros k l K L E. destruct (consolidate_map w cent thr f2 f1 ps) as (g & ->).
  rewrite !nth_map0 by assumption. congruence.
Qed.
Print Assumptions C23_keeps_footprint.

(** C23, the claim that children of one parent end up with one ID: false when a
    child overlaps two parents. *)
Theorem C23_children_of_one_parent_share_id_refuted :
  exists w cent thr f2 f1 p k l, let ps := initial_props w cent [f2; f1] in
    length f2 = length f1 /\ length f2 = length w /\ k < length f1 /\ l < length f1 /\
    accepted w thr (areas_in ps) f2 f1 p (nth k f1 0%Z) /\
    accepted w thr (areas_in ps) f2 f1 p (nth l f1 0%Z) /\
    nth k (fst (consolidate w cent thr f2 f1 ps)) 0%Z <> nth l (fst (consolidate w cent thr f2 f1 ps)) 0%Z.
Proof.
  exists (ones 4), row_centroid, (1#2), two_parents, three_children, 2%Z, 2, 3. cbv zeta.
  destruct shared_child_not_joined as (A & B & C).
  split; [reflexivity|]. split; [reflexivity|]. split; [cbn; lia|]. split; [cbn; lia|].
  split; [exact A|]. split; [exact B|exact C].
Qed.
Print Assumptions C23_children_of_one_parent_share_id_refuted.

(** What holds: when no object has two accepted parents, children of one parent
    share an ID, and an object is renamed only to a sibling.  Missing from the
    full claim: objects with two parents. *)
Theorem C23_children_share_id_partial (w : list Q) (cent : list bool -> Q * Q) (thr : Q) (f2 f1 : list Z) (ps : props) :
  length f2 = length f1 -> length f2 = length w ->
  (forall id q, lookup id ps = Some q -> (0 < p_area q)%Q) ->
  (forall x, (0 < x)%Z -> In x f2 -> ~ In x f1) ->
  (forall p q c, accepted w thr (areas_in ps) f2 f1 p c -> accepted w thr (areas_in ps) f2 f1 q c -> p = q) ->
  let f := fst (consolidate w cent thr f2 f1 ps) in
  (forall p k l, k < length f1 -> l < length f1 ->
     accepted w thr (areas_in ps) f2 f1 p (nth k f1 0%Z) ->
     accepted w thr (areas_in ps) f2 f1 p (nth l f1 0%Z) -> nth k f 0%Z = nth l f 0%Z) /\
  (forall k, k < length f1 -> nth k f 0%Z <> nth k f1 0%Z ->
     exists p, accepted w thr (areas_in ps) f2 f1 p (nth k f1 0%Z) /\
               accepted w thr (areas_in ps) f2 f1 p (nth k f 0%Z)).
Proof. exact (consolidate_identifies w cent thr f2 f1 ps). Qed.
Print Assumptions C23_children_share_id_partial.

Example C23_case :
  fst (consolidate (ones 5) row_centroid (1#2) [1; 1; 1; 0; 7]%Z [2; 0; 3; 9; 8]%Z
        (initial_props (ones 5) row_centroid [[1; 1; 1; 0; 7]%Z; [2; 0; 3; 9; 8]%Z])) = [2; 0; 2; 9; 8]%Z.
Proof. vm_compute. reflexivity. Qed.

(** C24: dividing an object touched by several parents gives each of its cells
    one of the child IDs and changes no other cell. *)
Theorem C24_division_covers_child (nn regional : bool) (ny nx : nat) (w : list Q) (cent : list bool -> Q * Q)
    (t : nat) (prev : list Z) (ov : list row) (cur : list Z) (s : mstate) (child : Z) :
  length prev = ny * nx -> length cur = ny * nx ->
  2 <= length (filter (fun r => Z.eqb (r_to r) child) ov) ->
  exists e, let st := divide_child w cent (part_grid nn regional ny nx) t prev ov (cur, s) child in
    s_events (snd st) = s_events s ++ [e] /\
    hd 0%Z (e_children e) = child /\
    length (e_children e) = length (filter (fun r => Z.eqb (r_to r) child) ov) /\
    length (fst st) = ny * nx /\
    forall k, k < ny * nx ->
      (nth k cur 0%Z <> child -> nth k (fst st) 0%Z = nth k cur 0%Z) /\
      (nth k cur 0%Z = child -> In (nth k (fst st) 0%Z) (e_children e)).
Proof.
  intros Lp Lc C2.
  destruct (divide_cells w cent _ _ (part_grid_covers nn regional ny nx) t prev ov cur s child Lp Lc C2)
    as (e & E & _ & Ch & Pa & _ & _ & L & K).
  exists e. cbv zeta. split; [exact E|]. rewrite Ch. split; [reflexivity|]. split; [|split; [exact L|]].
  - cbn [length]. rewrite arangeZ_length, Pa, map_length. unfold count in C2. lia.
  - rewrite <- Ch. exact K.
Qed.
Print Assumptions C24_division_covers_child.

Example C24_case : fst small_run = [merge_before; [3; 3; 3; 4; 4; 0]%Z].
Proof. apply small_run_result. Qed.

(** C25, merging loop: every time step keeps its footprint, and the result is
    again a labelling with each ID at one time. *)
Theorem C25_merging_keeps_footprint (nn regional : bool) (ny nx : nat) (w : list Q) (cent : list bool -> Q * Q)
    (thr : Q) (chunks : list (list (list Z))) :
  length w = ny * nx -> labelled_series (ny * nx) (concat chunks) ->
  let fields := fst (split_and_merge w cent thr (part_grid nn regional ny nx) chunks) in
  length fields = length (concat chunks) /\ labelled_series (ny * nx) fields /\
  forall t, t < length (concat chunks) -> forall k,
    ((0 < nth k (nth t fields []) 0)%Z <-> (0 < nth k (nth t (concat chunks) []) 0)%Z).
Proof.
  intros L S. rewrite <- L in S. assert (C := part_grid_covers nn regional ny nx). rewrite <- L in C. cbv zeta.
  split; [exact (final_length w cent thr _ C chunks S)|]. split.
  - rewrite <- L. exact (final_series w cent thr _ C chunks S).
  - intros t T k. apply (final_foot w cent thr _ C chunks S t T).
Qed.
Print Assumptions C25_merging_keeps_footprint.

(** C26: IDs invented for divided objects are new and distinct. *)
Theorem C26_new_ids_fresh (nn regional : bool) (ny nx : nat) (w : list Q) (cent : list bool -> Q * Q)
    (thr : Q) (chunks : list (list (list Z))) :
  length w = ny * nx -> labelled_series (ny * nx) (concat chunks) ->
  let st := split_and_merge w cent thr (part_grid nn regional ny nx) chunks in
  NoDup (new_ids (s_events (snd st))) /\
  (forall x, In x (new_ids (s_events (snd st))) -> (0 < x)%Z /\ forall t, ~ In x (nth t (concat chunks) [])) /\
  (forall t x, In x (nth t (fst st) []) -> In x (nth t (concat chunks) []) \/ In x (new_ids (s_events (snd st)))).
Proof.
  intros L S. rewrite <- L in S. assert (C := part_grid_covers nn regional ny nx). rewrite <- L in C. cbv zeta.
  exact (final_fresh w cent thr _ C chunks S).
Qed.
Print Assumptions C26_new_ids_fresh.

(** C27: recorded merges. *)
Theorem C27_events_well_formed (nn regional : bool) (ny nx : nat) (w : list Q) (cent : list bool -> Q * Q)
    (thr : Q) (chunks : list (list (list Z))) (e : event) :
  length w = ny * nx -> labelled_series (ny * nx) (concat chunks) ->
  let st := split_and_merge w cent thr (part_grid nn regional ny nx) chunks in
  In e (s_events (snd st)) ->
  1 <= e_time e < length (concat chunks) /\
  2 <= length (e_parents e) /\ length (e_children e) = length (e_parents e) /\
  length (e_areas e) = length (e_parents e) /\
  NoDup (e_parents e) /\ NoDup (e_children e) /\
  (forall p, In p (e_parents e) -> (0 < p)%Z /\ In p (nth (e_time e - 1) (fst st) [])) /\
  (forall c, In c (tl (e_children e)) -> In c (new_ids (s_events (snd st)))) /\
  (In (hd 0%Z (e_children e)) (nth (e_time e) (concat chunks) []) \/
   In (hd 0%Z (e_children e)) (new_ids (s_events (snd st)))).
Proof.
  intros L S. rewrite <- L in S. assert (C := part_grid_covers nn regional ny nx). rewrite <- L in C. cbv zeta.
  exact (final_events w cent thr _ C chunks S e).
Qed.
Print Assumptions C27_events_well_formed.

(** The merges table: rows of one length, the event's IDs followed by -1. *)
Lemma max_len_ge ls l : In l ls -> length l <= max_len ls.
Proof.
  intro H. assert (G : length l <= fold_right Nat.max 0 (map (@length Z) ls)).
  { induction ls as [|x ls IH]; [destruct H|]. cbn. destruct H as [->|H]; [lia|]. specialize (IH H). lia. }
  destruct ls; [destruct H|exact G].
Qed.
Lemma pad_spec n l : length l <= n -> length (pad_to n l) = n /\
  forall i, i < n -> nth i (pad_to n l) 0%Z = if Nat.ltb i (length l) then nth i l 0%Z else (-1)%Z.
Proof.
  intro H. unfold pad_to. split; [rewrite app_length, repeat_length; lia|].
  intros i I. destruct (Nat.ltb_spec i (length l)); [apply app_nth1; assumption|].
  rewrite app_nth2 by lia. apply (repeat_spec (n - length l)). apply nth_In. rewrite repeat_length. lia.
Qed.
Theorem C27_rows_padded_with_minus_one (evs : list event) (i : nat) :
  let m := merge_dataset evs in
  i < length evs ->
  let e := nth i evs (mkEvent 0 [] [] []) in
  nth i (m_time m) 0 = e_time e /\
  length (nth i (m_parents m) []) = max_len (map e_parents evs) /\
  length (nth i (m_children m) []) = max_len (map e_children evs) /\
  (forall j, j < max_len (map e_parents evs) -> nth j (nth i (m_parents m) []) 0%Z =
     if Nat.ltb j (length (e_parents e)) then nth j (e_parents e) 0%Z else (-1)%Z) /\
  (forall j, j < max_len (map e_children evs) -> nth j (nth i (m_children m) []) 0%Z =
     if Nat.ltb j (length (e_children e)) then nth j (e_children e) 0%Z else (-1)%Z) /\
  (length (e_areas e) = length (e_parents e) ->
     length (nth i (m_areas m) []) = max_len (map e_parents evs) /\
     forall j, j < max_len (map e_parents evs) -> nth j (nth i (m_areas m) []) 0%Q =
       if Nat.ltb j (length (e_parents e)) then nth j (e_areas e) 0%Q else (-1)%Q) /\
  (length (e_parents e) < 128 -> nth i (m_n_parents m) 0%Z = Z.of_nat (length (e_parents e))).
Proof.
  intros m I e. unfold m, merge_dataset. cbn [m_time m_parents m_children m_n_parents m_areas].
  assert (Ie : In e evs) by (apply nth_In; exact I).
  assert (Hp : nth i (map (pad_to (max_len (map e_parents evs))) (map e_parents evs)) [] =
               pad_to (max_len (map e_parents evs)) (e_parents e)).
  { rewrite map_map. rewrite (nth_indep _ [] ((fun x => pad_to (max_len (map e_parents evs)) (e_parents x)) (mkEvent 0 [] [] []))) by (rewrite map_length; exact I).
    rewrite (map_nth (fun x => pad_to (max_len (map e_parents evs)) (e_parents x))). reflexivity. }
  assert (Hc : nth i (map (pad_to (max_len (map e_children evs))) (map e_children evs)) [] =
               pad_to (max_len (map e_children evs)) (e_children e)).
  { rewrite map_map. rewrite (nth_indep _ [] ((fun x => pad_to (max_len (map e_children evs)) (e_children x)) (mkEvent 0 [] [] []))) by (rewrite map_length; exact I).
    rewrite (map_nth (fun x => pad_to (max_len (map e_children evs)) (e_children x))). reflexivity. }
  rewrite Hp, Hc.
  destruct (pad_spec (max_len (map e_parents evs)) (e_parents e)) as [A B]; [apply max_len_ge, in_map; exact Ie|].
  destruct (pad_spec (max_len (map e_children evs)) (e_children e)) as [C D]; [apply max_len_ge, in_map; exact Ie|].
  split; [|do 4 (split; [assumption|]); split].
  - exact (map_nth e_time evs (mkEvent 0 [] [] []) i).
  - intro La.
    rewrite (nth_indep _ [] ((fun x => pad_areas (max_len (map e_parents evs)) (e_areas x)) (mkEvent 0 [] [] []))) by (rewrite map_length; exact I).
    rewrite (map_nth (fun x => pad_areas (max_len (map e_parents evs)) (e_areas x))). fold e.
    assert (W : length (e_parents e) <= max_len (map e_parents evs)) by (apply max_len_ge, in_map; exact Ie).
    unfold pad_areas. split; [rewrite app_length, repeat_length; lia|]. intros j J. rewrite <- La.
    destruct (Nat.ltb_spec j (length (e_areas e))) as [K|K]; [apply app_nth1; exact K|].
    rewrite app_nth2 by exact K. apply (repeat_spec (max_len (map e_parents evs) - length (e_areas e))). apply nth_In. rewrite repeat_length. lia.
  - intro Lt. rewrite map_map.
    rewrite (nth_indep _ 0%Z ((fun x => wrap_int8 (length (e_parents x))) (mkEvent 0 [] [] []))) by (rewrite map_length; exact I).
    rewrite (map_nth (fun x => wrap_int8 (length (e_parents x)))). fold e. unfold wrap_int8.
    rewrite Z.mod_small by lia. lia.
Qed.
Print Assumptions C27_rows_padded_with_minus_one.

(** n_parents as claimed (the number of parents) is false from 128 parents on:
    the merge of 128 objects into one, recorded from their overlap rows. *)
Theorem C27_n_parents_counts_parents_refuted :
  exists (ny nx : nat) (w : list Q) (prev cur : list Z) (child : Z), length w = ny * nx /\ length prev = ny * nx /\ length cur = ny * nx /\
    (forall cent t nn regional ps next,
    let st := divide_child w cent (part_grid nn regional ny nx) t prev (check_overlap w prev cur)
                (cur, mkState ps next []) child in
    m_n_parents (merge_dataset (s_events (snd st))) <>
    map (fun e => Z.of_nat (length (e_parents e))) (s_events (snd st))).
Proof.
  exists 1, 256, (ones 256), many_parents, one_child, 1000%Z.
  split; [reflexivity|]. split; [reflexivity|]. split; [reflexivity|]. intros cent t nn regional ps next. cbv zeta.
  fold many_rows. assert (C := many_rows_count).
  destruct (divide_cells (ones 256) cent _ _ (part_grid_covers nn regional 1 256) t many_parents many_rows one_child
              (mkState ps next []) 1000) as (e & E & _ & _ & Pa & _); [reflexivity|reflexivity|unfold count; rewrite C; lia|].
  rewrite E. cbn [s_events app map merge_dataset m_n_parents]. rewrite Pa, map_length, C. discriminate.
Qed.
Print Assumptions C27_n_parents_counts_parents_refuted.

Example C27_case : s_events (snd small_run) = [mkEvent 1 [3; 4]%Z [1; 2]%Z [2; 2]%Q].
Proof. apply small_run_result. Qed.
Example C26_case : labelled_series (1 * 6) (concat [[merge_before; merge_after]]) /\ new_ids (s_events (snd small_run)) = [4%Z].
Proof. split; [exact small_input|]. destruct small_run_result as [_ ->]. reflexivity. Qed.

(** C28, as claimed: the chunking does not matter.  False with a chunk of one
    time step. *)
Theorem C28_chunking_irrelevant_refuted :
  exists ny nx w thr chunks chunks', length w = ny * nx /\ concat chunks = concat chunks' /\
    split_and_merge w row_centroid thr (part_grid true true ny nx) chunks <>
    split_and_merge w row_centroid thr (part_grid true true ny nx) chunks'.
Proof.
  exists 1, 3, (ones 3), (1#2), [[before_split; after_split]], [[before_split]; [after_split]].
  split; [reflexivity|]. split; [reflexivity|exact single_step_chunk_differs].
Qed.
Print Assumptions C28_chunking_irrelevant_refuted.

(** What holds: two chunkings give the same result whenever all chunks after the
    first have at least two steps.  Missing: one-step chunks. *)
Theorem C28_chunking_irrelevant_partial (w : list Q) (cent : list bool -> Q * Q) (thr : Q)
    (part : props -> list Z -> list bool -> list Z -> list Z -> list Z)
    (c : list (list Z)) (r : list (list (list Z))) (c' : list (list Z)) (r' : list (list (list Z))) :
  c ++ concat r = c' ++ concat r' -> 1 <= length c -> 1 <= length c' ->
  (forall x, In x r -> 2 <= length x) -> (forall x, In x r' -> 2 <= length x) ->
  split_and_merge w cent thr part (c :: r) = split_and_merge w cent thr part (c' :: r').
Proof. exact (chunking_irrelevant w cent thr part c r c' r'). Qed.
Print Assumptions C28_chunking_irrelevant_partial.

Example C28_case : let f := [before_split; after_split; [4; 4; 4]%Z; [5; 0; 6]%Z] in
  split_and_merge (ones 3) row_centroid (1#2) (part_grid true true 1 3) [f] =
  split_and_merge (ones 3) row_centroid (1#2) (part_grid true true 1 3) [firstn 2 f; skipn 2 f].
Proof. vm_compute. reflexivity. Qed.

(** C72: after the loop the object table describes exactly the final fields. *)
Theorem C72_table_matches_fields (nn regional : bool) (ny nx : nat) (w : list Q) (cent : list bool -> Q * Q)
    (thr : Q) (chunks : list (list (list Z))) :
  length w = ny * nx -> labelled_series (ny * nx) (concat chunks) ->
  let st := split_and_merge w cent thr (part_grid nn regional ny nx) chunks in
  table_for w cent (fst st) (s_props (snd st)).
Proof.
  intros L S. rewrite <- L in S. assert (C := part_grid_covers nn regional ny nx). rewrite <- L in C. cbv zeta.
  exact (final_table w cent thr _ C chunks S).
Qed.
Print Assumptions C72_table_matches_fields.
Example C72_case : map (fun e => (fst e, Qred (p_area (snd e)), Qred (snd (p_cent (snd e))))) (s_props (snd small_run)) =
  [(1%Z, 2%Q, (1#2)%Q); (2%Z, 2%Q, (7#2)%Q); (3%Z, 3%Q, 1%Q); (4%Z, 2%Q, (7#2)%Q)].
Proof. vm_compute. reflexivity. Qed.

(** C73: a round divides exactly the objects with two accepted parents, and the
    parents it records are all the accepted ones. *)
Theorem C73_merge_parents_exact (w : list Q) (thr : Q) (ps : props) (prev cur : list Z) (c : Z) :
  length prev = length cur -> length prev = length w ->
  (forall id q, lookup id ps = Some q -> (0 < p_area q)%Q) ->
  let ov := enforce_threshold thr ps (check_overlap w prev cur) in
  (In c (merging_children ov) <->
   exists p q, p <> q /\ accepted w thr (areas_in ps) prev cur p c /\ accepted w thr (areas_in ps) prev cur q c) /\
  (forall p, In p (map r_from (filter (fun r => Z.eqb (r_to r) c) ov)) <-> accepted w thr (areas_in ps) prev cur p c).
Proof. exact (round_children w thr ps prev cur c). Qed.
Print Assumptions C73_merge_parents_exact.
Theorem C73_recorded_event (nn regional : bool) (ny nx : nat) (w : list Q) (cent : list bool -> Q * Q)
    (t : nat) (prev : list Z) (ov : list row) (cur : list Z) (s : mstate) (child : Z) :
  length prev = ny * nx -> length cur = ny * nx ->
  2 <= length (filter (fun r => Z.eqb (r_to r) child) ov) ->
  exists e, s_events (snd (divide_child w cent (part_grid nn regional ny nx) t prev ov (cur, s) child)) = s_events s ++ [e] /\
    e_time e = t /\
    e_parents e = map r_from (filter (fun r => Z.eqb (r_to r) child) ov) /\
    e_areas e = map r_area (filter (fun r => Z.eqb (r_to r) child) ov).
Proof.
  intros Lp Lc C2.
  destruct (divide_cells w cent _ _ (part_grid_covers nn regional ny nx) t prev ov cur s child Lp Lc C2)
    as (e & E & T & _ & Pa & Ar & _). exists e. auto.
Qed.
Print Assumptions C73_recorded_event.
Example C73_case :
  merging_children (enforce_threshold (1#2) (initial_props (ones 6) row_centroid [merge_before; merge_after])
    (check_overlap (ones 6) merge_before merge_after)) = [3%Z].
Proof. vm_compute. reflexivity. Qed.

(** C74: after a time step was processed no object has two accepted parents,
    unless at least ten merges were recorded for it. *)
Theorem C74_no_second_parent_left (w : list Q) (cent : list bool -> Q * Q) (thr : Q)
    (part : props -> list Z -> list bool -> list Z -> list Z -> list Z)
    (t : nat) (prev cur : list Z) (s : mstate) :
  let st := settle w cent thr part 10 t prev cur s in
  length prev = length (fst st) -> length prev = length w ->
  (forall id q, lookup id (s_props (snd st)) = Some q -> (0 < p_area q)%Q) ->
  length (s_events (snd st)) < length (s_events s) + 10 ->
  forall c p q, accepted w thr (areas_in (s_props (snd st))) prev (fst st) p c ->
    accepted w thr (areas_in (s_props (snd st))) prev (fst st) q c -> p = q.
Proof.
  cbv zeta. intros L1 L2 Pa Few c p q A B.
  destruct (settle_done w cent thr part t prev 10 cur s) as [E|E]; [|lia].
  destruct (Z.eq_dec p q) as [H|N]; [exact H|]. exfalso.
  assert (I := round_children w thr _ prev _ c L1 L2 Pa). cbv zeta in I. destruct I as [[_ I] _].
  rewrite E in I. apply I. exists p, q. auto.
Qed.
Print Assumptions C74_no_second_parent_left.
Example C74_case : length (s_events (snd small_run)) < 10 /\
  merging_children (enforce_threshold (1#2) (s_props (snd small_run))
    (check_overlap (ones 6) merge_before (nth 1 (fst small_run) []))) = [].
Proof. vm_compute. split; [lia|reflexivity]. Qed.
