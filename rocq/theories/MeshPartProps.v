(** Property theorem C40 (nearest-neighbour partitioning on meshes). *)
From Verif Require Import Base Graph Partition PartitionProofs ClusterFinal MeshPart MeshPartSpec MeshPartProofs.
Open Scope nat_scope.

Lemma index_of_some v ids : forall i j, index_of v ids i = Some j -> i <= j < i + length ids /\ nth (j - i) ids 0%Z = v.
Proof.
  induction ids as [|x r IH]; intros i j H; cbn [index_of length] in *; [discriminate|].
  destruct (Z.eqb_spec v x) as [E|N].
  - injection H as <-. rewrite Nat.sub_diag. split; [lia|]. symmetry. exact E.
  - apply IH in H. destruct H as [B E]. split; [lia|]. replace (j - i) with (S (j - S i)) by lia. exact E.
Qed.
Lemma index_of_in ids : NoDup ids -> forall i q, q < length ids -> index_of (nth q ids 0%Z) ids i = Some (i + q).
Proof.
  induction 1 as [|x r N D IH]; intros i q Q; cbn [length] in Q; [lia|]. destruct q as [|q]; cbn [nth index_of].
  - rewrite Z.eqb_refl. f_equal. lia.
  - destruct (Z.eqb_spec (nth q r 0%Z) x) as [E|_]; [exfalso; apply N; rewrite <- E; apply nth_In; lia|].
    rewrite IH by lia. f_equal. lia.
Qed.
Section Frontier.
Variables (ids prev : list Z).
Hypothesis Nd : NoDup ids.
Hypothesis Few : length ids <= max_parents.
Lemma frontier_length : length (parent_frontier ids prev) = length prev.
Proof. apply map_length. Qed.
Lemma frontier_at q k : q < length ids -> k < length prev ->
  nth k (parent_frontier ids prev) unvisited = q <-> nth k prev 0%Z = nth q ids 0%Z.
Proof.
  intros Q K. unfold parent_frontier. rewrite (nth_map_gen _ _ _ 0%Z) by exact K.
  destruct (index_of (nth k prev 0%Z) ids 0) as [i|] eqn:E.
  - assert (S := index_of_some _ _ _ _ E). destruct S as [B S]. rewrite Nat.sub_0_r in S. split.
    + intros ->. symmetry. exact S.
    + intro H. rewrite H in E. rewrite index_of_in in E by assumption. injection E as <-. lia.
  - split.
    + intro H. unfold unvisited, max_parents in *. lia.
    + intro H. rewrite H in E. rewrite index_of_in in E by assumption. discriminate.
Qed.
Lemma frontier_visited k : nth k (parent_frontier ids prev) unvisited <> unvisited <->
  k < length prev /\ In (nth k prev 0%Z) ids.
Proof.
  split.
  - intro H. assert (K : k < length prev).
    { destruct (Nat.lt_ge_cases k (length prev)) as [A|A]; [exact A|]. rewrite nth_overflow in H by (rewrite frontier_length; exact A). congruence. }
    split; [exact K|]. unfold parent_frontier in H. rewrite (nth_map_gen _ _ _ 0%Z) in H by exact K.
    destruct (index_of (nth k prev 0%Z) ids 0) as [i|] eqn:E; [|congruence].
    destruct (index_of_some _ _ _ _ E) as [B S]. rewrite <- S. apply nth_In. lia.
  - intros [K I] H. apply (In_nth _ _ 0%Z) in I. destruct I as (q & Q & E).
    assert (X := proj2 (frontier_at q k Q K) (eq_sym E)). unfold unvisited, max_parents in *. lia.
Qed.
Lemma frontier_small : values_lt (length ids) (parent_frontier ids prev).
Proof.
  intros k H. destruct (proj1 (frontier_visited k) H) as [K I]. apply (In_nth _ _ 0%Z) in I. destruct I as (q & Q & E).
  rewrite (proj2 (frontier_at q k Q K) (eq_sym E)). exact Q.
Qed.
Lemma frontier_count : frontier_parents (parent_frontier ids prev) <= max 1 (length ids).
Proof.
  unfold frontier_parents.
  assert (M : list_max (filter (fun v => Nat.ltb v unvisited) (parent_frontier ids prev)) <= length ids - 1).
  { apply list_max_le, Forall_forall. intros v I. apply filter_In in I. destruct I as [I V]. apply Nat.ltb_lt in V.
    apply (In_nth _ _ unvisited) in I. destruct I as (k & _ & <-). assert (S := frontier_small k). lia. }
  lia.
Qed.
End Frontier.

(** C40 for children every cell of which can be walked to from the parents inside
    the child within the distance limit: each cell gets one of the parents, the
    right one where a parent covers it, and one at most three times as many hops
    away as the nearest. *)
Theorem C40_reachable_cells_get_a_near_parent_partial (nbs : list (list Z)) (dist : nat -> nat -> Q) (limit : nat)
    (child : list bool) (ids prev : list Z) :
  NoDup ids -> length ids <= 10 -> length prev = length child ->
  (forall k, nth k child false = true ->
     exists e, e <= limit /\ walk_in nbs (fun c => nth c child false = true) (fun c => In (nth c prev 0%Z) ids) e k) ->
  exists label, partition_nn_mesh nbs dist limit child (parent_frontier ids prev) =
                map label (filter (fun k => nth k child false) (seq 0 (length child))) /\
    forall k, nth k child false = true ->
      label k < length ids /\
      (forall q, q < length ids -> nth k prev 0%Z = nth q ids 0%Z -> label k = q) /\
      (forall q d, q < length ids -> within nbs (length child) (fun c => nth c prev 0%Z = nth q ids 0%Z) d k ->
         within nbs (length child) (fun c => nth c prev 0%Z = nth (label k) ids 0%Z) (length nbs * d) k).
Proof.
  intros Nd Few Lp Reach. set (fr := parent_frontier ids prev).
  assert (Lf : length fr = length child) by (unfold fr; rewrite frontier_length; exact Lp).
  set (n := frontier_parents fr). set (out := spread nbs child n limit fr).
  exists (fun k => if Nat.eqb (nth k out unvisited) unvisited then nearest_row dist k else nth k out unvisited).
  split; [reflexivity|]. intros k Ck.
  assert (Fc : n <= max 1 (length ids)) by (apply frontier_count; assumption).
  assert (Hn : n <= unvisited) by (unfold unvisited; lia).
  assert (V0 : values_lt n fr).
  { destruct (frontier_values fr) as [V|(j & J)]; [exact V|]. exfalso.
    assert (S := frontier_small ids prev Nd Few j). unfold fr, unvisited in *. lia. }
  destruct (spread_ok nbs child (length child) fr Lf eq_refl n Hn limit 0 fr) as (r & So & Va & Gr & Co & Ap);
    [exact (state_init nbs child (length child) fr Lf eq_refl n Hn V0)|].
  fold out in So, Va, Gr, Co, Ap.
  assert (Wk : forall c, nth c child false = true -> exists e, walk nbs child fr e c /\ e <= 0 + limit).
  { intros c C. destruct (Reach c C) as (e & Le & W). exists e. split; [|lia]. clear Le C. induction W as [c C P|e j c W IH A C].
    - apply walk_here; [exact C|]. apply (frontier_visited ids prev Nd Few). split; [|exact P]. rewrite Lp.
      destruct (Nat.lt_ge_cases c (length child)) as [X|X]; [exact X|]. rewrite nth_overflow in C by exact X. discriminate.
    - apply walk_hop with j; assumption. }
  assert (Nv : nth k out unvisited <> unvisited).
  { destruct (Wk k Ck) as (e & W & Le).
    apply (spread_complete nbs child (length child) fr Lf eq_refl n Hn V0 limit 0 fr e k); try assumption.
    exact (state_init nbs child (length child) fr Lf eq_refl n Hn V0). }
  destruct (Nat.eqb_spec (nth k out unvisited) unvisited) as [E|_]; [congruence|].
  assert (Lk : k < length child).
  { destruct (Nat.lt_ge_cases k (length child)) as [X|X]; [exact X|]. rewrite nth_overflow in Ck by exact X. discriminate. }
  assert (Sm : forall p c, p < length ids -> c < length child -> from fr p c <-> nth c prev 0%Z = nth p ids 0%Z).
  { intros p c P C. unfold from, fr. apply frontier_at; try assumption. lia. }
  assert (Wm : forall p d c, p < length ids -> within nbs (length child) (from fr p) d c <->
                 within nbs (length child) (fun x => nth x prev 0%Z = nth p ids 0%Z) d c).
  { intros p d c P. split; intro W.
    - induction W as [c C H|d c W IH|d j c W IH A C];
        [apply within_here; [exact C|apply Sm; assumption]|apply within_stay; exact IH|apply within_hop with j; assumption].
    - induction W as [c C H|d c W IH|d j c W IH A C];
        [apply within_here; [exact C|apply Sm; assumption]|apply within_stay; exact IH|apply within_hop with j; assumption]. }
  assert (Lo : nth k out unvisited < length ids).
  { destruct So as [_ So]. assert (W := So k _ Nv eq_refl).
    assert (X : forall d c, within nbs (length child) (from fr (nth k out unvisited)) d c -> exists c0, from fr (nth k out unvisited) c0).
    { intros d c H. induction H as [c C H|d c H IH|d j c H IH A C]; [exists c; exact H|exact IH|exact IH]. }
    destruct (X _ _ W) as (c0 & H0). unfold from in H0.
    assert (S := frontier_small ids prev Nd Few c0). fold fr in S. rewrite H0 in S. apply S. exact Nv. }
  split; [exact Lo|]. split.
  - intros q Q E. destruct Gr as [_ Gr]. assert (F : nth k fr unvisited = q) by (apply Sm; assumption).
    rewrite (Gr k); [exact F|]. rewrite F. unfold unvisited. lia.
  - intros q d Q W. apply (Wm _ _ _ Lo). apply (Ap k (nth k out unvisited) q d Nv eq_refl).
    + destruct (Nat.lt_ge_cases q n) as [A|A]; [exact A|]. exfalso. apply (Wm q d k Q) in W.
      assert (X : forall d c, within nbs (length child) (from fr q) d c -> exists c0, from fr q c0).
      { intros d' c H. induction H as [c C H|d' c H IH|d' j c H IH A' C]; [exists c; exact H|exact IH|exact IH]. }
      destruct (X _ _ W) as (c0 & H0). unfold from in H0. assert (S := V0 c0). rewrite H0 in S. unfold unvisited in *. lia.
    + apply (Wm q d k Q). exact W.
Qed.
Print Assumptions C40_reachable_cells_get_a_near_parent_partial.

(** C40 as claimed, with the least number of hops, is false: a chain of six cells
    between two parents; the third cell from the first parent goes to it although
    the other parent is two hops away. *)
Definition chain6 : list (list Z) := [ [1; 0; 1; 2; 3; 4]; [-1; 2; -1; 4; 5; -1]; [-1; -1; 3; -1; -1; -1] ]%Z.
Definition chain_child : list bool := [true; true; true; true; true; true].
Definition chain_prev : list Z := [8; 0; 0; 0; 0; 9]%Z.
Theorem C40_least_hops_refuted :
  exists nbs child ids prev, forall dist limit, 3 <= limit ->
    NoDup ids /\ length prev = length child /\
    (forall k, nth k child false = true ->
       exists e, e <= limit /\ walk_in nbs (fun c => nth c child false = true) (fun c => In (nth c prev 0%Z) ids) e k) /\
    nth 3 child false = true /\
    nth 3 (partition_nn_mesh nbs dist limit child (parent_frontier ids prev)) 99 = 0 /\
    within nbs 6 (fun c => nth c prev 0%Z = nth 1 ids 0%Z) 2 3 /\
    ~ within nbs 6 (fun c => nth c prev 0%Z = nth 0 ids 0%Z) 2 3.
Proof.
  exists chain6, chain_child, [8; 9]%Z, chain_prev. intros dist limit L.
  assert (A : forall j k nb, In nb chain6 -> nth j nb (-1)%Z = Z.of_nat k -> adjacent chain6 j k) by (intros j k nb I E; exists nb; tauto).
  split; [repeat constructor; cbn; intuition lia|]. split; [reflexivity|]. split.
  - assert (W0 : walk_in chain6 (fun c => nth c chain_child false = true) (fun c => In (nth c chain_prev 0%Z) [8; 9]%Z) 0 0)
      by (apply walk_start; [reflexivity|left; reflexivity]).
    assert (W5 : walk_in chain6 (fun c => nth c chain_child false = true) (fun c => In (nth c chain_prev 0%Z) [8; 9]%Z) 0 5)
      by (apply walk_start; [reflexivity|right; left; reflexivity]).
    assert (W1 := walk_step _ _ _ 0 0 1 W0 (A 0 1 _ (or_introl eq_refl) eq_refl) eq_refl).
    assert (W2 := walk_step _ _ _ 1 1 2 W1 (A 1 2 _ (or_intror (or_introl eq_refl)) eq_refl) eq_refl).
    assert (W4 := walk_step _ _ _ 0 5 4 W5 (A 5 4 _ (or_introl eq_refl) eq_refl) eq_refl).
    assert (W3 := walk_step _ _ _ 1 4 3 W4 (A 4 3 _ (or_introl eq_refl) eq_refl) eq_refl).
    intros k C. destruct k as [|[|[|[|[|[|k]]]]]].
    + exists 0. split; [lia|exact W0].
    + exists 1. split; [lia|exact W1].
    + exists 2. split; [lia|exact W2].
    + exists 2. split; [lia|exact W3].
    + exists 1. split; [lia|exact W4].
    + exists 0. split; [lia|exact W5].
    + cbn in C. destruct k; discriminate.
  - split; [reflexivity|]. split; [|split].
    + destruct limit as [|[|[|d]]]; try lia. destruct d as [|d]; vm_compute; reflexivity.
    + apply within_hop with 4; [|apply (A 4 3 [1; 0; 1; 2; 3; 4]%Z (or_introl eq_refl) eq_refl)|lia].
      apply within_hop with 5; [|apply (A 5 4 [1; 0; 1; 2; 3; 4]%Z (or_introl eq_refl) eq_refl)|lia].
      apply within_here; [lia|reflexivity].
    + assert (Adj : forall j k, adjacent chain6 j k -> k <= S j \/ j = 0 /\ k = 1).
      { intros j k (nb & I & E). destruct I as [<-|[<-|[<-|[]]]]; do 6 (destruct j as [|j]; [cbn in E; lia|]); destruct j; cbn in E; lia. }
      assert (B : forall d k, within chain6 6 (fun c => nth c chain_prev 0%Z = nth 0 [8; 9]%Z 0%Z) d k -> k <= d).
      { intros d k W. induction W as [k K P|d k W IH|d j k W IH A' K].
        - do 6 (destruct k as [|k]; [cbn in P; lia|]). lia.
        - lia.
        - apply Adj in A'. lia. }
      intro W. apply B in W. lia.
Qed.
Print Assumptions C40_least_hops_refuted.

(** C40, that every cell of the child gets one of the parents, is false as well:
    cells no parent can walk to go to the nearest row of the array of centroids,
    filler rows included. *)
Theorem C40_every_cell_gets_a_parent_refuted :
  exists nbs dist limit child ids prev,
    NoDup ids /\ length prev = length child /\ length ids = 2 /\
    (forall q, q < 2 -> exists k, nth k child false = true /\ nth k prev 0%Z = nth q ids 0%Z) /\
    (forall i j, (0 < dist i j)%Q) /\
    exists l, In l (partition_nn_mesh nbs dist limit child (parent_frontier ids prev)) /\ length ids <= l.
Proof.
  exists [[-1; -1; -1]; [-1; -1; -1]; [-1; -1; -1]]%Z, (fun k j => if Nat.ltb j 2 then 3 else 1)%Q, 40,
    [true; true; true], [8; 9]%Z, [8; 0; 9]%Z.
  split; [repeat constructor; cbn; intuition lia|]. split; [reflexivity|]. split; [reflexivity|]. split; [|split].
  - intros [|[|q]] Q; [exists 0|exists 2|lia]; split; reflexivity.
  - intros i j. destruct (Nat.ltb j 2); reflexivity.
  - exists 2. split; [vm_compute; tauto|cbn; lia].
Qed.
Print Assumptions C40_every_cell_gets_a_parent_refuted.

Example C40_case : partition_nn_mesh chain6 (fun _ _ => 1%Q) 20 chain_child (parent_frontier [8; 9]%Z chain_prev) = [0; 0; 0; 0; 1; 1].
Proof. vm_compute. reflexivity. Qed.

(** C112 in terms of [partition_centroid_mesh]: every cell of the child gets the new ID of a
    parent with the nearest centroid, the first one of equals, unless a filler row
    is strictly nearer than all of them; all other cells get 0. *)
Theorem C112_mesh_labels_nearest (dist : nat -> nat -> Q) (junk : nat -> Z) (child : list bool) (ids : list Z) (k : nat) :
  0 < length ids <= 10 -> k < length child ->
  let label := nth k (partition_centroid_mesh dist junk child ids) 0%Z in
  (nth k child false = false -> label = 0%Z) /\
  (nth k child false = true ->
     (forall j, length ids <= j < 10 -> exists i, i < length ids /\ (dist k i <= dist k j)%Q) ->
     exists i, i < length ids /\ label = nth i ids 0%Z /\
       (forall j, j < length ids -> (dist k i <= dist k j)%Q) /\ (forall j, j < i -> (dist k i < dist k j)%Q)) /\
  (nth k child false = true ->
     (exists j, length ids <= j < 10 /\ forall i, i < length ids -> (dist k j < dist k i)%Q) -> label = junk k).
Proof.
  intros L K label.
  assert (E : label = if nth k child false then nth (nearest_row dist k) ids (junk k) else 0%Z).
  { unfold label, partition_centroid_mesh.
    set (g := fun k0 => if nth k0 child false then nth (nearest_row dist k0) ids (junk k0) else 0%Z).
    rewrite (nth_indep _ 0%Z (g 0)) by (rewrite map_length, seq_length; exact K).
    rewrite map_nth, seq_nth by exact K. reflexivity. }
  assert (Ne : map (dist k) (seq 0 max_parents) <> []) by (cbn; discriminate).
  destruct (nearest_spec _ Ne) as (B & Mn & Fi). fold (nearest_row dist k) in B, Mn, Fi. rewrite map_length, seq_length in B, Mn. change max_parents with 10 in B, Mn.
  assert (V : forall m, m < 10 -> nth m (map (dist k) (seq 0 max_parents)) 0%Q = dist k m).
  { intros m Hm. rewrite (nth_indep _ 0%Q (dist k 0)) by (rewrite map_length, seq_length; exact Hm). rewrite map_nth, seq_nth by exact Hm. reflexivity. }
  split; [|split].
  - intro C. rewrite E, C. reflexivity.
  - intros C Hf. rewrite E, C. set (r := nearest_row dist k) in *.
    assert (R : r < length ids).
    { destruct (Nat.lt_ge_cases r (length ids)) as [H|H]; [exact H|]. destruct (Hf r (conj H B)) as (i & I & D).
      assert (F := Fi i ltac:(lia)). rewrite !V in F by lia. exfalso. exact (Qlt_not_le _ _ F D). }
    exists r. split; [exact R|]. split; [apply nth_indep; exact R|]. split.
    + intros j J. assert (M := Mn j ltac:(lia)). rewrite !V in M by lia. exact M.
    + intros j J. assert (M := Fi j J). rewrite !V in M by lia. exact M.
  - intros C (j & J & H). rewrite E, C. apply nth_overflow. set (r := nearest_row dist k) in *.
    destruct (Nat.lt_ge_cases r (length ids)) as [R|R]; [|exact R]. assert (M := Mn j ltac:(lia)). rewrite !V in M by lia. exfalso. exact (Qlt_not_le _ _ (H r R) M).
Qed.
Print Assumptions C112_mesh_labels_nearest.
Example C112_mesh_case :
  partition_centroid_mesh (fun k j => if Nat.ltb j 2 then (natQ k - natQ (3 * j)) * (natQ k - natQ (3 * j)) else 4)%Q (fun _ => 77%Z) [true; false; true; true; true; true; true] [8; 9]%Z =
    [8; 0; 9; 9; 9; 9; 77]%Z.
Proof. reflexivity. Qed.
