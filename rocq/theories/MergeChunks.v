(** When the time chunking does not matter. *)
From Verif Require Import Base Filter FilterProofs Overlap OverlapSpec OverlapProofs ConsolidateProofs
  ConsolidateMore Merge MergeProofs.
Open Scope nat_scope.

Section Chunks.
Variables (w : list Q) (cent : list bool -> Q * Q) (thr : Q).
Variable part : props -> list Z -> list bool -> list Z -> list Z -> list Z.
Notation run_chunk := (run_chunk w cent thr part).
Notation run_chunks := (run_chunks w cent thr part).
Notation consolidate_st := (consolidate_st w cent thr).
Notation settle := (settle w cent thr part).

Lemma check_overlap_zero_l a b : check_overlap w (zeros_like a) b = [].
Proof.
  unfold check_overlap.
  assert (E : filter both_pos (cells3 w (zeros_like a) b) = []).
  { assert (E : forall l, (forall c, In c l -> In (c_from c) (zeros_like a)) -> filter both_pos l = []).
    { induction l as [|c l IH]; intro Hl; [reflexivity|]. cbn [filter].
      assert (C := Hl c (or_introl eq_refl)). unfold zeros_like in C. apply in_map_iff in C. destruct C as (z & C & _).
      unfold both_pos at 1. rewrite <- C. cbn [Z.ltb Z.compare andb]. apply IH.
      intros d D. apply Hl. right. exact D. }
    apply E. intros c C. apply cells3_In in C. tauto. }
  rewrite E. reflexivity.
Qed.
Lemma consolidate_zero a f s : consolidate_st (zeros_like a) f s = (f, s).
Proof.
  unfold Merge.consolidate_st, consolidate. rewrite check_overlap_zero_l.
  cbn [enforce_threshold filter splitting_parents unique_codes map fold_right fold_left].
  unfold with_props. destruct s; reflexivity.
Qed.

Lemma run_chunk_length : forall todo P d t s, length (fst (run_chunk P d todo t s)) = length d + length todo.
Proof.
  induction todo as [|cur rest IH]; intros P d t s; cbn [Merge.run_chunk].
  - destruct d as [|last [|second r]]; cbn [fst length]; try lia.
    destruct (Merge.consolidate_st w cent thr second last s). cbn [fst length]. lia.
  - destruct d as [|m1 older].
    + destruct (Merge.settle _ _ _ _ _ _ _ _ _) as [cur' s']. rewrite IH. simpl. lia.
    + destruct (Merge.consolidate_st _ _ _ _ _ _) as [m1' s1]. destruct (Merge.settle _ _ _ _ _ _ _ _ _) as [cur' s'].
      rewrite IH. simpl. lia.
Qed.

(** Only the latest step of the previous chunk is read. *)
Lemma run_chunk_hd p Q Q' : forall todo d t s, run_chunk (p :: Q) d todo t s = run_chunk (p :: Q') d todo t s.
Proof.
  induction todo as [|cur rest IH]; intros d t s; cbn [Merge.run_chunk]; [reflexivity|].
  destruct d as [|m1 older].
  - destruct (Merge.settle _ _ _ _ _ _ _ _ _) as [cur' s']. apply IH.
  - destruct (Merge.consolidate_st _ _ _ _ _ _) as [m1' s1].
    destruct (Merge.settle _ _ _ _ _ _ _ _ _) as [cur' s']. apply IH.
Qed.

(** Steps already done may as well be the previous chunk. *)
Lemma run_chunk_split P Q : Q <> [] -> forall todo d t s,
  1 <= length d -> 2 <= length d + length todo ->
  run_chunk P (d ++ Q) todo t s = let (d', s') := run_chunk Q d todo t s in (d' ++ Q, s').
Proof.
  intro NQ. induction todo as [|cur rest IH]; intros d t s L1 L2; cbn [Merge.run_chunk].
  - destruct d as [|last [|second r]]; simpl in L1, L2; try lia. cbn [app].
    destruct (Merge.consolidate_st w cent thr second last s) as [last' s']. reflexivity.
  - destruct d as [|m1 older]; [simpl in L1; lia|]. cbn [app].
    assert (E : match older ++ Q with m2 :: _ => m2 | [] => match P with p :: _ => p | [] => zeros_like cur end end
              = match older with m2 :: _ => m2 | [] => match Q with p :: _ => p | [] => zeros_like cur end end).
    { destruct older as [|o r]; [|reflexivity]. destruct Q; [contradiction|reflexivity]. }
    rewrite E. destruct (Merge.consolidate_st _ _ _ _ _ _) as [m1' s1].
    destruct (Merge.settle _ _ _ _ _ _ _ _ _) as [cur' s'].
    apply (IH (cur' :: m1' :: older)); simpl; lia.
Qed.

Lemma run_chunk_join P b : 2 <= length b -> forall a d t s,
  (P = [] /\ 1 <= length d + length a) \/ 2 <= length d + length a ->
  run_chunk P d (a ++ b) t s =
  let (d', s1) := run_chunk P d a t s in
  let (d2, s2) := run_chunk d' [] b (t + length a) s1 in (d2 ++ d', s2).
Proof.
  intro Lb. induction a as [|cur rest IH]; intros d t s H.
  - cbn [app length]. rewrite Nat.add_0_r. destruct b as [|cur rest]; [simpl in Lb; lia|].
    destruct d as [|m1 older]; [simpl in H; lia|].
    assert (Fin : forall m1' cur' s', 
      run_chunk P (cur' :: m1' :: older) rest (S t) s' =
      let (d2, s2) := run_chunk (m1' :: older) [cur'] rest (S t) s' in (d2 ++ m1' :: older, s2)).
    { intros m1' cur' s'. change (cur' :: m1' :: older) with ([cur'] ++ (m1' :: older)).
      apply run_chunk_split; [discriminate|simpl; lia|simpl in *; lia]. }
    destruct older as [|m2 o].
    + destruct H as [[-> _]|H]; [|simpl in H; lia].
      cbn [Merge.run_chunk]. rewrite consolidate_zero.
      destruct (Merge.settle _ _ _ _ _ _ _ _ _) as [cur' s'].
      apply (Fin m1).
    + cbn [Merge.run_chunk]. destruct (Merge.consolidate_st w cent thr m2 m1 s) as [m1' s1].
      destruct (Merge.settle _ _ _ _ _ _ _ _ _) as [cur' s'].
      apply (Fin m1').
  - cbn [app length]. cbn [Merge.run_chunk]. rewrite Nat.add_succ_r.
    destruct d as [|m1 older].
    + destruct (Merge.settle _ _ _ _ _ _ _ _ _) as [cur' s']. apply (IH [cur'] (S t) s').
      destruct H as [[HP HL]|H]; [left; split; [exact HP|simpl in *; lia]|right; simpl in *; lia].
    + destruct (Merge.consolidate_st _ _ _ _ _ _) as [m1' s1].
      destruct (Merge.settle _ _ _ _ _ _ _ _ _) as [cur' s']. apply (IH (cur' :: m1' :: older) (S t) s').
      destruct H as [[HP HL]|H]; [left; split; [exact HP|simpl in *; lia]|right; simpl in *; lia].
Qed.

Lemma run_chunks_hd p Q Q' r t s : run_chunks (p :: Q) r t s = run_chunks (p :: Q') r t s.
Proof.
  destruct r as [|c r]; [reflexivity|]. cbn [Merge.run_chunks]. rewrite (run_chunk_hd p Q Q'). reflexivity.
Qed.

Lemma run_chunks_join P c1 c2 r t s :
  (P = [] /\ 1 <= length c1) \/ 2 <= length c1 -> 2 <= length c2 ->
  run_chunks P (c1 :: c2 :: r) t s = run_chunks P ((c1 ++ c2) :: r) t s.
Proof.
  intros H1 H2. cbn [Merge.run_chunks]. rewrite (run_chunk_join P c2 H2 c1 [] t s) by (simpl; exact H1).
  destruct (run_chunk P [] c1 t s) as [d1 s1].
  assert (L := run_chunk_length c2 d1 [] (t + length c1) s1).
  destruct (run_chunk d1 [] c2 (t + length c1) s1) as [d2 s2]. cbn [fst length plus] in L.
  rewrite app_length, Nat.add_assoc. destruct d2 as [|p d2]; [simpl in L; lia|].
  cbn [app]. rewrite (run_chunks_hd p (d2 ++ d1) d2).
  destruct (run_chunks (p :: d2) r (t + length c1 + length c2) s2) as [l s3]. rewrite <- app_assoc. reflexivity.
Qed.

(** Chunks of at least two steps (the first may have one) give the result of a
    single chunk. *)
Lemma run_chunks_single r : (forall c, In c r -> 2 <= length c) -> forall c t s,
  1 <= length c -> run_chunks [] (c :: r) t s = run_chunks [] [c ++ concat r] t s.
Proof.
  induction r as [|c2 r IH]; intros Hr c t s L.
  - cbn [concat]. rewrite app_nil_r. reflexivity.
  - rewrite run_chunks_join; [|left; auto|apply Hr; left; reflexivity].
    rewrite IH; [cbn [concat]; rewrite app_assoc; reflexivity| |rewrite app_length; lia].
    intros x X. apply Hr. right. exact X.
Qed.

Lemma chunking_irrelevant c r c' r' :
  c ++ concat r = c' ++ concat r' -> 1 <= length c -> 1 <= length c' ->
  (forall x, In x r -> 2 <= length x) -> (forall x, In x r' -> 2 <= length x) ->
  split_and_merge w cent thr part (c :: r) = split_and_merge w cent thr part (c' :: r').
Proof.
  intros E L L' H H'. unfold split_and_merge. cbn [concat]. rewrite E.
  rewrite (run_chunks_single r H), (run_chunks_single r' H') by assumption. rewrite E. reflexivity.
Qed.
End Chunks.
