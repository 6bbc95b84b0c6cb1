(** Quiet steps around a record tracked with merging on a grid: labels, the merging loop and the clustering. *)
From Coq Require Import Sorting.Sorted.
From Verif Require Import Base Graph GraphProofs Morph Label LabelSpec LabelProofs LabelProps Filter FilterProofs
  Overlap OverlapSpec OverlapProofs Merge MergeProofs MergeChunks Partition Cluster ClusterProofs ClusterFinal ClusterPipe Run RunProofs GridRunProps RelateSpec RelateProofs MeshRunLoop MeshRunLimits FilterGridProofs.
Open Scope nat_scope.

(** ** Numbers by first occurrence depend only on which entries are equal *)

Definition same_pattern (l l' : list nat) : Prop :=
  length l = length l' /\ forall i j, i < length l -> j < length l -> (nth i l 0 = nth j l 0 <-> nth i l' 0 = nth j l' 0).

Lemma index_of_app x l r : In x l -> index_of x (l ++ r) = index_of x l.
Proof.
  induction l as [|y l IH]; cbn; [tauto|]. intro H. destruct (Nat.eqb_spec x y); [reflexivity|]. destruct H as [H|H]; [congruence|]. rewrite IH by exact H. reflexivity.
Qed.
Lemma index_of_new x l : ~ In x l -> index_of x (l ++ [x]) = length l.
Proof.
  induction l as [|y l IH]; cbn; intro H; [rewrite Nat.eqb_refl; reflexivity|].
  destruct (Nat.eqb_spec x y) as [E|E]; [exfalso; apply H; left; congruence|]. rewrite IH by tauto. reflexivity.
Qed.
Lemma firsts_snoc l x : firsts (l ++ [x]) = add_new (firsts l) x.
Proof. unfold firsts. rewrite fold_left_app. reflexivity. Qed.

Lemma firsts_pattern l : forall l', same_pattern l l' ->
  map (fun r => index_of r (firsts l)) l = map (fun r => index_of r (firsts l')) l' /\ length (firsts l) = length (firsts l').
Proof.
  induction l as [|x l IH] using rev_ind; intros l' [L P].
  - destruct l'; [|discriminate]. split; reflexivity.
  - destruct l' as [|x' l' _] using rev_ind; [rewrite app_length in L; cbn in L; lia|].
    rewrite (app_length l [x]) in L, P. rewrite (app_length l' [x']) in L. cbn [length] in L, P. assert (L0 : length l = length l') by lia.
    assert (P0 : forall i j, i < length l -> j < length l -> (nth i l 0 = nth j l 0 <-> nth i l' 0 = nth j l' 0)).
    { intros i j I J. assert (Q0 := P i j). rewrite (app_nth1 l [x] 0 I), (app_nth1 l [x] 0 J) in Q0. rewrite (app_nth1 l' [x'] 0), (app_nth1 l' [x'] 0) in Q0 by lia. apply Q0; lia. }
    assert (Px : forall i, i < length l -> (nth i l 0 = x <-> nth i l' 0 = x')).
    { intros i I. assert (Q0 := P i (length l)). rewrite (app_nth1 l [x] 0 I), (app_nth1 l' [x'] 0) in Q0 by lia.
      rewrite (app_nth2 l [x]), Nat.sub_diag in Q0 by lia. rewrite (app_nth2 l' [x']), L0, Nat.sub_diag in Q0 by lia. apply Q0; lia. }
    destruct (IH l' (conj L0 P0)) as [Mp Ln]. clear IH P.
    rewrite !firsts_snoc, !map_app. cbn [map].
    assert (Keep : forall m y, map (fun r => index_of r (add_new (firsts m) y)) m = map (fun r => index_of r (firsts m)) m).
    { intros m y. apply map_ext_in. intros r Ir. unfold add_new. destruct (memN y (firsts m)); [reflexivity|]. apply index_of_app. apply firsts_In. exact Ir. }
    rewrite !Keep, Mp. unfold add_new.
    destruct (memN x (firsts l)) eqn:M.
    + apply memN_In in M. apply (firsts_In l x) in M. apply (In_nth l x 0) in M. destruct M as (i & I & E).
      assert (E' : nth i l' 0 = x') by (apply Px; assumption).
      assert (M' : In x' (firsts l')) by (apply firsts_In; rewrite <- E'; apply nth_In; lia).
      rewrite (proj2 (memN_In x' (firsts l')) M'). split; [|exact Ln]. f_equal. f_equal.
      assert (N := f_equal (fun v => nth i v 0) Mp). cbn beta in N.
      rewrite (nth_map_gen _ l i 0) in N by exact I. rewrite (nth_map_gen _ l' i 0) in N by lia.
      rewrite E, E' in N. exact N.
    + assert (Mn : ~ In x (firsts l)) by (intro C; apply memN_In in C; congruence).
      assert (Mn' : ~ In x' (firsts l')).
      { intro C. apply Mn. apply (firsts_In l' x') in C. apply firsts_In. apply (In_nth l' x' 0) in C. destruct C as (i & I & E). rewrite <- (proj2 (Px i ltac:(lia)) E). apply nth_In. lia. }
      destruct (memN x' (firsts l')) eqn:M'; [apply memN_In in M'; contradiction|].
      rewrite !index_of_new by assumption. rewrite !app_length, Ln. split; reflexivity.
Qed.

Lemma components_pattern n es es' : (forall a b, In (a, b) es -> a < n /\ b < n) -> (forall a b, In (a, b) es' -> a < n /\ b < n) ->
  (forall i j, i < n -> j < n -> (linked es i j <-> linked es' i j)) -> components n es = components n es'.
Proof.
  intros R R' H. destruct (roots_good n es R) as [L G]. destruct (roots_good n es' R') as [L' G'].
  apply firsts_pattern. split; [lia|]. rewrite L. intros i j I J. specialize (G i j I J). specialize (G' i j I J). unfold lab_at in G, G'.
  rewrite (nth_indep _ i 0), (nth_indep _ j 0) in G by lia. rewrite (nth_indep _ i 0), (nth_indep _ j 0) in G' by lia. rewrite G, G'. apply H; assumption.
Qed.

(** ** Labels of a field with empty cells put before and after it *)

Lemma true_indices_around on D E :
  true_indices (repeat false D ++ on ++ repeat false E) = map (Nat.add D) (true_indices on).
Proof.
  unfold true_indices. rewrite !app_length, !repeat_length, !seq_app, !filter_app. cbn [plus].
  assert (Nil : forall l, (forall i, In i l -> onb (repeat false D ++ on ++ repeat false E) i = false) -> filter (onb (repeat false D ++ on ++ repeat false E)) l = []).
  { induction l as [|i l IH]; intro H; [reflexivity|]. cbn [filter]. rewrite (H i (or_introl eq_refl)). apply IH. intros j J. apply H. right. exact J. }
  rewrite (Nil (seq 0 D)).
  2:{ intros i I. apply in_seq in I. unfold onb. rewrite app_nth1 by (rewrite repeat_length; lia). apply nth_repeat. }
  rewrite (Nil (seq (D + length on) E)).
  2:{ intros i I. apply in_seq in I. unfold onb. rewrite app_nth2 by (rewrite repeat_length; lia). rewrite repeat_length. rewrite app_nth2 by lia. apply nth_repeat. }
  rewrite app_nil_r. cbn [app].
  assert (Sq : forall n s, seq (D + s) n = map (Nat.add D) (seq s n)).
  { induction n as [|n IH]; intro s; [reflexivity|]. cbn [seq map]. f_equal. rewrite <- IH. f_equal. lia. }
  rewrite <- (Nat.add_0_r D) at 2. rewrite Sq.
  assert (Fm : forall l, (forall i, In i l -> i < length on) -> filter (onb (repeat false D ++ on ++ repeat false E)) (map (Nat.add D) l) = map (Nat.add D) (filter (onb on) l)).
  { induction l as [|i l IH]; intro H; [reflexivity|]. cbn [map filter].
    assert (Ei : onb (repeat false D ++ on ++ repeat false E) (D + i) = onb on i).
    { unfold onb. rewrite app_nth2 by (rewrite repeat_length; lia). rewrite repeat_length. replace (D + i - D) with i by lia. apply app_nth1. apply H. left. reflexivity. }
    rewrite Ei. destruct (onb on i); cbn [map]; rewrite IH by (intros j J; apply H; right; exact J); reflexivity. }
  apply Fm. intros i I. apply in_seq in I. lia.
Qed.
Lemma index_of_shift D i l : index_of (D + i) (map (Nat.add D) l) = index_of i l.
Proof.
  induction l as [|j l IH]; [reflexivity|]. cbn [map index_of]. destruct (Nat.eqb_spec (D + i) (D + j)), (Nat.eqb_spec i j); try lia; congruence.
Qed.

Lemma label_around on D E es es' : let on' := repeat false D ++ on ++ repeat false E in
  (forall i j, onb on i = true -> onb on j = true ->
     (nth (D + i) (label_on on' es') 0%Z = nth (D + j) (label_on on' es') 0%Z <-> nth i (label_on on es) 0%Z = nth j (label_on on es) 0%Z)) ->
  label_on on' es' = repeat 0%Z D ++ label_on on es ++ repeat 0%Z E.
Proof.
  intros on' H. assert (Ti := true_indices_around on D E). fold on' in Ti.
  assert (Lt : length (true_indices on') = length (true_indices on)) by (rewrite Ti, map_length; reflexivity).
  assert (Ll : length on' = D + (length on + E)) by (unfold on'; rewrite !app_length, !repeat_length; reflexivity).
  assert (Mid : forall i, i < length on -> onb on' (D + i) = onb on i).
  { intros i I. unfold onb, on'. rewrite app_nth2 by (rewrite repeat_length; lia). rewrite repeat_length. replace (D + i - D) with i by lia. apply app_nth1. exact I. }
  assert (Cp : components (length (true_indices on')) (compact_edges on' es') = components (length (true_indices on)) (compact_edges on es)).
  { assert (Ra := compact_range on' es'). assert (Rb := compact_range on es). rewrite Lt in Ra |- *. apply components_pattern; [exact Ra|exact Rb|].
    intros p q Pp Pq. set (ti := true_indices on) in *. set (i := nth p ti 0). set (j := nth q ti 0).
    assert (Nd : NoDup ti) by (apply NoDup_filter, seq_NoDup).
    assert (Oi : onb on i = true) by (apply ti_In, nth_In; exact Pp). assert (Oj : onb on j = true) by (apply ti_In, nth_In; exact Pq).
    assert (Bi := onb_lt on i Oi). assert (Bj := onb_lt on j Oj).
    specialize (H i j Oi Oj). rewrite !label_on_nth in H by lia. rewrite !Mid, Oi, Oj in H by assumption.
    rewrite Ti in H. fold ti in H. rewrite !index_of_shift in H. unfold i, j in H. rewrite !index_of_nth in H by assumption.
    rewrite map_length in H.
    destruct (components_spec (length ti) (compact_edges on' es') 0 Ra) as [C1 _]. destruct (components_spec (length ti) (compact_edges on es) 0 Rb) as [C2 _].
    rewrite <- (C1 p q Pp Pq), <- (C2 p q Pp Pq). lia. }
  apply (nth_ext _ _ 0%Z 0%Z); [rewrite label_on_length, !app_length, !repeat_length, label_on_length; exact Ll|].
  intros k K. rewrite label_on_length in K. rewrite label_on_nth by exact K.
  destruct (Nat.ltb_spec k D) as [A|A].
  - rewrite app_nth1 by (rewrite repeat_length; exact A). rewrite nth_repeat.
    replace (onb on' k) with false; [reflexivity|]. unfold onb, on'. rewrite app_nth1 by (rewrite repeat_length; exact A). symmetry. apply nth_repeat.
  - rewrite app_nth2 by (rewrite repeat_length; exact A). rewrite repeat_length. set (i := k - D). replace k with (D + i) by (unfold i; lia).
    destruct (Nat.ltb_spec i (length on)) as [B|B].
    + rewrite Mid by exact B. rewrite app_nth1 by (rewrite label_on_length; exact B). rewrite label_on_nth by exact B.
      rewrite Ti, index_of_shift, map_length. rewrite Lt in Cp. rewrite Cp. reflexivity.
    + rewrite app_nth2 by (rewrite label_on_length; exact B). rewrite nth_repeat.
      replace (onb on' (D + i)) with false; [reflexivity|]. unfold onb, on'. rewrite app_nth2 by (rewrite repeat_length; lia). rewrite repeat_length, app_nth2 by lia. symmetry. apply nth_repeat.
Qed.

(** ** The merging loop *)

Definition later_event (a : nat) (e : event) : event := mkEvent (e_time e + a) (e_children e) (e_parents e) (e_areas e).
Definition later_state (a : nat) (s : mstate) : mstate := mkState (s_props s) (s_next s) (map (later_event a) (s_events s)).
Definition later_merges (a : nat) (m : merges) : merges :=
  mkMerges (m_parents m) (m_children m) (map (fun t => t + a) (m_time m)) (m_n_parents m) (m_n_children m) (m_areas m).

Lemma rev_repeat_same {A} (x : A) n : rev (repeat x n) = repeat x n.
Proof. induction n as [|n IH]; [reflexivity|]. cbn [repeat rev]. rewrite IH. clear IH. induction n as [|n IH]; [reflexivity|]. cbn [repeat app]. rewrite IH. reflexivity. Qed.

Section Around.
Variables (w : list Q) (cent : list bool -> Q * Q) (thr : Q).
Variable part : props -> list Z -> list bool -> list Z -> list Z -> list Z.
Variable P : nat.
Notation z := (repeat 0%Z P).
Notation run_chunk := (run_chunk w cent thr part).
Notation settle := (settle w cent thr part).
Notation consolidate_st := (consolidate_st w cent thr).

Lemma z_zeros : zeros_like z = z.
Proof. unfold zeros_like. induction P as [|n IH]; [reflexivity|]. cbn [repeat map]. rewrite IH. reflexivity. Qed.
Lemma overlap_z_l f : check_overlap w z f = [].
Proof. rewrite <- z_zeros. apply check_overlap_zero_l. Qed.
Lemma check_overlap_zero_r a b : check_overlap w a (zeros_like b) = [].
Proof.
  unfold check_overlap.
  assert (E : filter both_pos (cells3 w a (zeros_like b)) = []).
  { assert (E : forall l, (forall c, In c l -> In (c_to c) (zeros_like b)) -> filter both_pos l = []).
    { induction l as [|c l IH]; intro Hl; [reflexivity|]. cbn [filter].
      assert (C := Hl c (or_introl eq_refl)). unfold zeros_like in C. apply in_map_iff in C. destruct C as (q & C & _).
      unfold both_pos at 1. rewrite <- C. rewrite andb_false_r. apply IH. intros d D. apply Hl. right. exact D. }
    apply E. intros c C. apply cells3_In in C. tauto. }
  rewrite E. reflexivity.
Qed.
Lemma overlap_z_r f : check_overlap w f z = [].
Proof. rewrite <- z_zeros. apply check_overlap_zero_r. Qed.
Lemma settle_none n t prev cur s : check_overlap w prev cur = [] -> settle n t prev cur s = (cur, s).
Proof. intro E. destruct n; cbn [Merge.settle]; [reflexivity|]. rewrite E. reflexivity. Qed.
Lemma consolidate_none a f s : check_overlap w a f = [] -> consolidate_st a f s = (f, s).
Proof.
  intro E. unfold Merge.consolidate_st, consolidate. rewrite E. cbn [enforce_threshold filter splitting_parents unique_codes map fold_right fold_left].
  unfold with_props. destruct s; reflexivity.
Qed.

Lemma divide_later a t prev ov cur s child :
  divide_child w cent part (t + a) prev ov (cur, later_state a s) child =
  let (c', s') := divide_child w cent part t prev ov (cur, s) child in (c', later_state a s').
Proof. unfold divide_child, later_state. cbn [s_props s_next s_events]. rewrite map_app. reflexivity. Qed.
Lemma divides_later a t prev ov : forall ch cur s,
  fold_left (divide_child w cent part (t + a) prev ov) ch (cur, later_state a s) =
  let (c', s') := fold_left (divide_child w cent part t prev ov) ch (cur, s) in (c', later_state a s').
Proof.
  induction ch as [|c ch IH]; intros cur s; [reflexivity|]. cbn [fold_left]. rewrite divide_later.
  destruct (divide_child w cent part t prev ov (cur, s) c) as [c' s']. apply IH.
Qed.
Lemma settle_later a : forall n t prev cur s, settle n (t + a) prev cur (later_state a s) = let (c', s') := settle n t prev cur s in (c', later_state a s').
Proof.
  induction n as [|n IH]; intros t prev cur s; [reflexivity|]. cbn [Merge.settle]. cbn [later_state s_props].
  set (ov := enforce_threshold thr (s_props s) (check_overlap w prev cur)).
  destruct (merging_children ov) as [|c ch]; [reflexivity|]. rewrite divides_later.
  destruct (fold_left (divide_child w cent part t prev ov) (c :: ch) (cur, s)) as [c' s']. apply IH.
Qed.
Lemma consolidate_later a f2 f1 s : consolidate_st f2 f1 (later_state a s) = let (f', s') := consolidate_st f2 f1 s in (f', later_state a s').
Proof. unfold Merge.consolidate_st. cbn [later_state s_props]. destruct (consolidate w cent thr f2 f1 (s_props s)). reflexivity. Qed.
Lemma run_chunk_later a Q0 : forall todo d t s, run_chunk Q0 d todo (t + a) (later_state a s) = let (d', s') := run_chunk Q0 d todo t s in (d', later_state a s').
Proof.
  induction todo as [|cur rest IH]; intros d t s; cbn [Merge.run_chunk].
  - destruct d as [|last [|second r]]; try reflexivity. rewrite consolidate_later. destruct (consolidate_st second last s). reflexivity.
  - destruct d as [|m1 older].
    + rewrite settle_later. destruct (settle 10 t _ cur s) as [c' s']. apply (IH [c'] (S t)).
    + rewrite consolidate_later. destruct (consolidate_st _ m1 s) as [m1' s1]. rewrite settle_later. destruct (settle 10 t m1' cur s1) as [c' s']. apply (IH (c' :: m1' :: older) (S t)).
Qed.

Lemma run_chunk_lead : forall a k X t s, run_chunk [] (repeat z k) (repeat z a ++ X) t s = run_chunk [] (repeat z (k + a)) X (t + a) s.
Proof.
  induction a as [|a IH]; intros k X t s; [rewrite !Nat.add_0_r; reflexivity|]. cbn [repeat app Merge.run_chunk].
  rewrite !Nat.add_succ_r. change (S (t + a)) with (S t + a). change (S (k + a)) with (S k + a). rewrite <- (IH (S k) X (S t) s).
  destruct k as [|k]; cbn [repeat].
  - rewrite settle_none by (rewrite z_zeros; apply overlap_z_l). reflexivity.
  - rewrite consolidate_none by apply overlap_z_r. rewrite settle_none by apply overlap_z_l. reflexivity.
Qed.
Lemma run_chunk_after k : forall todo d t s, run_chunk [] (d ++ repeat z k) todo t s = let (d', s') := run_chunk [] d todo t s in (d' ++ repeat z k, s').
Proof.
  induction todo as [|cur rest IH]; intros d t s; cbn [Merge.run_chunk].
  - destruct d as [|last [|second r]]; cbn [app].
    + destruct k as [|[|k]]; cbn [repeat]; try reflexivity. rewrite consolidate_none by apply overlap_z_l. reflexivity.
    + destruct k as [|k]; cbn [repeat app]; [reflexivity|]. rewrite consolidate_none by apply overlap_z_l. reflexivity.
    + destruct (consolidate_st second last s). reflexivity.
  - destruct d as [|m1 older]; cbn [app].
    + destruct k as [|k]; cbn [repeat].
      * rewrite (settle_none 10 t (zeros_like cur)) by apply check_overlap_zero_l. exact (IH [cur] (S t) s).
      * rewrite consolidate_none by (destruct k; cbn [repeat]; [apply check_overlap_zero_l|apply overlap_z_l]). rewrite settle_none by apply overlap_z_l. rewrite settle_none by apply check_overlap_zero_l. exact (IH [cur] (S t) s).
    + assert (E : forall f, consolidate_st (match older ++ repeat z k with m2 :: _ => m2 | [] => f end) m1 s = consolidate_st (match older with m2 :: _ => m2 | [] => zeros_like cur end) m1 s \/ (older = [] /\ k = 0)).
      { intro f. destruct older as [|o r]; cbn [app]; [|left; reflexivity]. destruct k as [|k]; cbn [repeat]; [right; auto|left].
        rewrite !consolidate_none by (apply overlap_z_l || apply check_overlap_zero_l). reflexivity. }
      destruct (E (zeros_like cur)) as [E1|[-> ->]].
      * rewrite E1. destruct (consolidate_st _ m1 s) as [m1' s1]. destruct (settle 10 t m1' cur s1) as [c' s']. exact (IH (c' :: m1' :: older) (S t) s').
      * cbn [repeat app]. destruct (consolidate_st _ m1 s) as [m1' s1]. destruct (settle 10 t m1' cur s1) as [c' s']. exact (IH [c'; m1'] (S t) s').
Qed.
Lemma run_chunk_zeros : forall b d t s m1 older, d = m1 :: older ->
  run_chunk [] d (repeat z b) t s = let (d', s') := run_chunk [] d [] t s in (repeat z b ++ d', s').
Proof.
  induction b as [|b IH]; intros d t s m1 older ->; [cbn [repeat app]; destruct (run_chunk [] (m1 :: older) [] t s); reflexivity|].
  cbn [repeat]. cbn [Merge.run_chunk].
  assert (E : forall q, (match older with [] => (m1 :: older, s) | second :: r => let (last', s') := consolidate_st second m1 s in (last' :: second :: r, s') end)
    = let (m1', s1) := consolidate_st (match older with [] => zeros_like q | m2 :: _ => m2 end) m1 s in (m1' :: older, s1)).
  { intro q. destruct older as [|o r]; [rewrite consolidate_none by apply check_overlap_zero_l; reflexivity|reflexivity]. }
  rewrite (E z). destruct (consolidate_st _ m1 s) as [m1' s1]. rewrite settle_none by apply overlap_z_r.
  rewrite (IH (z :: m1' :: older) (S t) s1 z (m1' :: older) eq_refl). cbn [Merge.run_chunk]. rewrite consolidate_none by apply overlap_z_r.
  f_equal. change (repeat z b ++ [z] ++ m1' :: older = repeat z (S b) ++ m1' :: older). rewrite app_assoc. f_equal.
  clear. induction b as [|b IH]; [reflexivity|]. cbn [repeat app] in *. rewrite IH. reflexivity.
Qed.
Lemma run_chunk_tail b : forall X d t s, d ++ X <> [] ->
  run_chunk [] d (X ++ repeat z b) t s = let (d', s') := run_chunk [] d X t s in (repeat z b ++ d', s').
Proof.
  induction X as [|cur rest IH]; intros d t s Ne.
  - cbn [app]. destruct d as [|m1 older]; [contradiction|]. apply (run_chunk_zeros b _ t s m1 older eq_refl).
  - cbn [app Merge.run_chunk]. destruct d as [|m1 older].
    + destruct (settle 10 t _ cur s) as [c' s']. apply IH. discriminate.
    + destruct (consolidate_st _ m1 s) as [m1' s1]. destruct (settle 10 t m1' cur s1) as [c' s']. apply IH. discriminate.
Qed.

Lemma props_z : object_properties w cent z = [].
Proof. unfold object_properties, unique_pos. replace (filter (Z.ltb 0) z) with (@nil Z); [reflexivity|]. induction P as [|n IH]; [reflexivity|]. cbn [repeat filter]. rewrite <- IH. reflexivity. Qed.
Lemma initial_around a b L : initial_props w cent (repeat z a ++ L ++ repeat z b) = initial_props w cent L.
Proof.
  unfold initial_props. rewrite !flat_map_app.
  assert (E : forall n, flat_map (object_properties w cent) (repeat z n) = []) by (induction n as [|n IH]; [reflexivity|]; cbn [repeat flat_map]; rewrite props_z; exact IH).
  rewrite !E, app_nil_r. reflexivity.
Qed.

Lemma split_around a b L : L <> [] -> split_and_merge w cent thr part [repeat z a ++ L ++ repeat z b] =
  let (fs, s) := split_and_merge w cent thr part [L] in (repeat z a ++ fs ++ repeat z b, later_state a s).
Proof.
  intro Ne. unfold split_and_merge. cbn [concat]. rewrite !app_nil_r, initial_around.
  set (s0 := mkState (initial_props w cent L) (arr_max (prop_ids (initial_props w cent L)) + 1) []).
  cbn [run_chunks]. assert (Le := run_chunk_lead a 0 (L ++ repeat z b) 0 s0). cbn [plus repeat] in Le. rewrite Le. clear Le.
  rewrite run_chunk_tail by (destruct (repeat z a); [destruct L; [contradiction|discriminate]|discriminate]).
  change (repeat z a) with ([] ++ repeat z a) at 1. rewrite (run_chunk_after a L [] a s0). assert (La := run_chunk_later a [] L [] 0 s0). cbn [plus] in La. change (later_state a s0) with s0 in La. rewrite La.
  destruct (run_chunk [] [] L 0 s0) as [d' s']. cbn [app]. rewrite !rev_app_distr, !rev_repeat_same, app_assoc. reflexivity.
Qed.

(** *** The overlaps *)
Fixpoint steps_overlap (l : list (list Z)) : list row :=
  match l with
  | x :: r => match r with y :: _ => check_overlap w x y ++ steps_overlap r | [] => [] end
  | [] => []
  end.
Lemma overlap_steps l : flat_map (fun p => check_overlap w (fst p) (snd p)) (combine l (shifted l)) = steps_overlap l.
Proof.
  destruct l as [|x r]; [reflexivity|]. cbn [shifted]. fold (zeros_like x). generalize x at 2 as q. revert x.
  induction r as [|y r IH]; intros x q.
  - cbn [app combine flat_map fst snd steps_overlap]. rewrite check_overlap_zero_r. reflexivity.
  - change (combine (x :: y :: r) ((y :: r) ++ [zeros_like q])) with ((x, y) :: combine (y :: r) (r ++ [zeros_like q])). cbn [flat_map fst snd]. rewrite IH. reflexivity.
Qed.
Lemma steps_lead a l : steps_overlap (repeat z a ++ l) = steps_overlap l.
Proof. induction a as [|a IH]; [reflexivity|]. cbn [repeat app]. cbn [steps_overlap]. destruct (repeat z a ++ l) as [|y r] eqn:E; [|rewrite overlap_z_l]; rewrite <- IH; reflexivity. Qed.
Lemma steps_zeros b : steps_overlap (repeat z b) = [].
Proof. rewrite <- (app_nil_r (repeat z b)), steps_lead. reflexivity. Qed.
Lemma steps_tail b l : steps_overlap (l ++ repeat z b) = steps_overlap l.
Proof.
  induction l as [|x r IH]; [apply steps_zeros|]. cbn [app steps_overlap].
  destruct r as [|y r]; [|cbn [app] in *; rewrite IH; reflexivity].
  cbn [app]. destruct b as [|b]; cbn [repeat]; [reflexivity|]. rewrite overlap_z_r. change (z :: repeat z b) with (repeat z (S b)). apply steps_zeros.
Qed.
Lemma overlaps_around a b l s : final_overlaps w thr (repeat z a ++ l ++ repeat z b) (later_state a s) = final_overlaps w thr l s.
Proof. unfold final_overlaps, find_overlapping. rewrite !overlap_steps, steps_lead, steps_tail. reflexivity. Qed.
End Around.

Lemma dataset_later a evs : merge_dataset (map (later_event a) evs) = later_merges a (merge_dataset evs).
Proof. unfold merge_dataset, later_merges. cbn. rewrite !map_map. reflexivity. Qed.

(** ** The clustering *)
Lemma sorted_same (l l' : list Z) : StronglySorted Z.lt l -> StronglySorted Z.lt l' -> (forall x, In x l <-> In x l') -> l = l'.
Proof.
  intro S1. revert l'. induction S1 as [|x l S1 IH F]; intros l' S2 E.
  - destruct l' as [|y l']; [reflexivity|]. destruct (proj2 (E y) (or_introl eq_refl)).
  - destruct S2 as [|y l' S2 F']; [destruct (proj1 (E x) (or_introl eq_refl))|].
    rewrite Forall_forall in F, F'.
    assert (x = y).
    { destruct (proj1 (E x) (or_introl eq_refl)) as [A|A]; [congruence|]. destruct (proj2 (E y) (or_introl eq_refl)) as [B|B]; [congruence|].
      apply F' in A. apply F in B. lia. }
    subst y. f_equal. apply IH; [exact S2|]. intro v. split; intro V.
    + destruct (proj1 (E v) (or_intror V)) as [<-|A]; [apply F in V; lia|exact A].
    + destruct (proj2 (E v) (or_intror V)) as [<-|A]; [apply F' in V; lia|exact A].
Qed.
Lemma sorted_filter (p : Z -> bool) l : StronglySorted Z.lt l -> StronglySorted Z.lt (filter p l).
Proof.
  induction 1 as [|x l S1 IH F]; [constructor|]. cbn [filter]. destruct (p x); [|exact IH]. constructor; [exact IH|].
  rewrite Forall_forall in *. intros y Y. apply filter_In in Y. apply F. tauto.
Qed.
Lemma positive_same l l' : (forall x, (0 < x)%Z -> (In x l <-> In x l')) -> positive_ids l = positive_ids l'.
Proof.
  intro H. unfold positive_ids. apply sorted_same; try (apply sorted_filter, unique_codes_sorted).
  intro x. rewrite !filter_In, !unique_codes_In. split; intros [A B]; (split; [apply H|]; try assumption; apply Z.ltb_lt; exact B).
Qed.
Lemma max_same l l' : (exists x, In x l /\ (0 < x)%Z) -> (forall x, (0 < x)%Z -> (In x l <-> In x l')) -> arr_max l = arr_max l'.
Proof.
  intros (x & X & Px) H. assert (X' : In x l') by (apply H; assumption).
  assert (G := arr_max_ge l x X). assert (G' := arr_max_ge l' x X').
  assert (I := arr_max_In l ltac:(intros ->; destruct X)). assert (I' := arr_max_In l' ltac:(intros ->; destruct X')).
  apply H in I; [|lia]. apply H in I'; [|lia]. apply arr_max_ge in I. apply arr_max_ge in I'. lia.
Qed.
Lemma concat_around P a b (L : list (list Z)) x : (0 < x)%Z -> (In x (concat L) <-> In x (concat (repeat (repeat 0%Z P) a ++ L ++ repeat (repeat 0%Z P) b))).
Proof.
  intro Px. rewrite !concat_app, !in_app_iff.
  assert (N : forall n, ~ In x (concat (repeat (repeat 0%Z P) n))).
  { intros n I. apply in_concat in I. destruct I as (l & Il & Ix). apply repeat_spec in Il. subst l. apply repeat_spec in Ix. lia. }
  split; [tauto|]. intros [A|[A|A]]; [destruct (N _ A)|exact A|destruct (N _ A)].
Qed.
Lemma table_around P a b fs pairs : (exists x, In x (concat fs) /\ (0 < x)%Z) ->
  event_table (repeat (repeat 0%Z P) a ++ fs ++ repeat (repeat 0%Z P) b) pairs = event_table fs pairs.
Proof.
  intro Ex. unfold event_table, valid_ids.
  rewrite <- (max_same _ _ Ex (concat_around P a b fs)), <- (positive_same _ _ (concat_around P a b fs)). reflexivity.
Qed.

Lemma map_ids_z tab P : map_ids tab (repeat 0%Z P) = repeat 0%Z P.
Proof. unfold map_ids. induction P as [|n IH]; [reflexivity|]. cbn [repeat map]. rewrite IH. reflexivity. Qed.
Lemma map_repeat {A B} (f : A -> B) x n : map f (repeat x n) = repeat (f x) n.
Proof. induction n as [|n IH]; [reflexivity|]. cbn. rewrite IH. reflexivity. Qed.

(** Tracking the objects of a record with empty steps around it, all steps in one chunk. *)
Lemma track_around cent thr part w ca P a b L ev mg : L <> [] ->
  track_objects cent thr part w ca [length L] L = Ok (ev, mg) -> (exists x, In x (concat (v_field ev)) /\ (0 < x)%Z) ->
  exists ev', track_objects cent thr part w ca [a + length L + b] (repeat (repeat 0%Z P) a ++ L ++ repeat (repeat 0%Z P) b) = Ok (ev', later_merges a mg) /\
    v_field ev' = repeat (repeat 0%Z P) a ++ v_field ev ++ repeat (repeat 0%Z P) b.
Proof.
  intros Ne T Ex. unfold track_objects in *. cbn [split_by] in *.
  set (L' := repeat (repeat 0%Z P) a ++ L ++ repeat (repeat 0%Z P) b).
  assert (Ll : length L' = a + length L + b) by (unfold L'; rewrite !app_length, !repeat_length; lia).
  rewrite <- Ll, firstn_all. rewrite firstn_all in T. unfold L'. rewrite (split_around w cent thr part P a b L Ne).
  destruct (split_and_merge w cent thr part [L]) as [fs s]. cbn [fst snd] in *.
  rewrite overlaps_around. set (pairs := final_overlaps w thr fs s) in *.
  cbn [later_state s_events]. rewrite dataset_later. set (mg0 := merge_dataset (s_events s)) in *.
  unfold cluster_rename in *. destruct (event_table fs pairs) as [[tab n]|e] eqn:Et; [|discriminate].
  cbn [later_merges m_parents m_time].
  destruct (forallb _ (map (parent_events tab) (m_parents mg0))) eqn:Fb; [|discriminate].
  cbn [bind] in T. injection T as <- <-. cbn [v_field] in Ex |- *.
  assert (Exf : exists x, In x (concat fs) /\ (0 < x)%Z).
  { destruct Ex as (x & X & Px). apply in_concat in X. destruct X as (l & Il & Ix). apply in_map_iff in Il. destruct Il as (l1 & <- & Il1).
    apply in_map_iff in Il1. destruct Il1 as (l0 & <- & Il0). apply in_map_iff in Ix. destruct Ix as (v1 & E1 & I1). unfold map_ids in I1. apply in_map_iff in I1. destruct I1 as (v & E & Iv).
    destruct (Z.ltb_spec 0 v) as [Pv|Pv]; [exists v; split; [apply in_concat; exists l0; auto|exact Pv]|]. subst v1. cbn in E1. lia. }
  rewrite (table_around P a b fs pairs Exf), Et, Fb. cbn [bind]. eexists. split; [reflexivity|]. cbn [v_field].
  rewrite !map_app, !map_repeat, map_ids_z. rewrite !map_repeat. reflexivity.
Qed.
