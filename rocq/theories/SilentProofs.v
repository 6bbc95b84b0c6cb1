(** When the loop over a grid records no merge. *)
From Verif Require Import Base Filter FilterProofs Overlap OverlapSpec OverlapProofs ConsolidateProofs ConsolidateMore
  Merge MergeSpec MergeProofs MergeLoop MergeMore MergeChunks Cluster ClusterSpec ClusterFinal ClusterPipe SteadyProofs.
Open Scope nat_scope.

Section Counts.
Variables (w : list Q) (cent : list bool -> Q * Q) (thr : Q).
Variable part : props -> list Z -> list bool -> list Z -> list Z -> list Z.
Notation recorded s := (length (s_events s)).

Lemma divide_recorded t prev ov ch : forall st, recorded (snd (fold_left (divide_child w cent part t prev ov) ch st)) = recorded (snd st) + length ch.
Proof.
  induction ch as [|c ch IH]; intros [cur s]; cbn [fold_left length]; [lia|]. rewrite IH. cbn [divide_child snd s_events]. rewrite app_length. cbn [length]. lia.
Qed.
Lemma settle_recorded k : forall t prev cur s, recorded s <= recorded (snd (settle w cent thr part k t prev cur s)).
Proof.
  induction k as [|k IH]; intros t prev cur s; cbn [settle]; [cbn; lia|].
  destruct (merging_children _) as [|c r]; [cbn; lia|].
  assert (D := divide_recorded t prev (enforce_threshold thr (s_props s) (check_overlap w prev cur)) (c :: r) (cur, s)).
  destruct (fold_left _ (c :: r) (cur, s)) as [cur' s']. cbn [snd] in D. specialize (IH t prev cur' s'). lia.
Qed.
Lemma settle_silent t prev cur s : recorded (snd (settle w cent thr part 10 t prev cur s)) = recorded s ->
  settle w cent thr part 10 t prev cur s = (cur, s) /\ merging_children (enforce_threshold thr (s_props s) (check_overlap w prev cur)) = [].
Proof.
  change 10 with (S 9). generalize 9 as k. intro k. cbn [settle]. destruct (merging_children _) as [|c r] eqn:E; [auto|]. intro H. exfalso.
  assert (D := divide_recorded t prev (enforce_threshold thr (s_props s) (check_overlap w prev cur)) (c :: r) (cur, s)).
  destruct (fold_left _ (c :: r) (cur, s)) as [cur' s']. cbn [snd length] in D. assert (M := settle_recorded k t prev cur' s'). lia.
Qed.
Lemma consolidate_recorded a b s : recorded (snd (consolidate_st w cent thr a b s)) = recorded s.
Proof. unfold consolidate_st. destruct (consolidate _ _ _ _ _ _). reflexivity. Qed.
Lemma chunk_recorded : forall todo prevc done t s, recorded s <= recorded (snd (run_chunk w cent thr part prevc done todo t s)).
Proof.
  induction todo as [|cur rest IH]; intros prevc done t s; cbn [run_chunk].
  - destruct done as [|a [|b r]]; try (cbn; lia). assert (C := consolidate_recorded b a s). destruct (consolidate_st _ _ _ _ _ _). cbn [snd] in *. lia.
  - destruct done as [|m1 older].
    + match goal with |- context [settle _ _ _ _ 10 ?t ?p ?c ?s] => assert (S1 := settle_recorded 10 t p c s); destruct (settle w cent thr part 10 t p c s) as [cur' s'] end.
      cbn [snd] in S1. specialize (IH prevc [cur'] (S t) s'). lia.
    + match goal with |- context [consolidate_st _ _ _ ?a ?b ?s] => assert (C := consolidate_recorded a b s); destruct (consolidate_st w cent thr a b s) as [m1' s1] end. cbn [snd] in C.
      assert (S1 := settle_recorded 10 t m1' cur s1). destruct (settle w cent thr part 10 t m1' cur s1) as [cur' s']. cbn [snd] in S1.
      specialize (IH prevc (cur' :: m1' :: older) (S t) s'). lia.
Qed.
Lemma chunks_recorded : forall chunks prevc t s, recorded s <= recorded (snd (run_chunks w cent thr part prevc chunks t s)).
Proof.
  induction chunks as [|c r IH]; intros prevc t s; cbn [run_chunks]; [cbn; lia|].
  assert (C := chunk_recorded c prevc [] t s). destruct (run_chunk _ _ _ _ _ _ _ _ _) as [done s1]. cbn [snd] in C.
  specialize (IH done (t + length c) s1). destruct (run_chunks _ _ _ _ done r _ s1). cbn [snd] in *. lia.
Qed.
End Counts.

Section Silent.
Variables (w : list Q) (cent : list bool -> Q * Q) (thr : Q).
Variable part : props -> list Z -> list bool -> list Z -> list Z -> list Z.
Variable lab : list (list Z).
Hypothesis Hl : labelled_series (length w) lab.
Hypothesis Hw : forall q, In q w -> (0 < q)%Q.
Hypothesis Down : forall p c d, consecutive_overlap w thr lab p c -> consecutive_overlap w thr lab p d -> c = d.
Let ps := initial_props w cent lab.
Notation recorded s := (length (s_events s)).
Lemma silent_accepted t p c : S t < length lab ->
  accepted w thr (areas_in ps) (nth t lab []) (nth (S t) lab []) p c -> consecutive_overlap w thr lab p c.
Proof.
  intros T (Pp & Pc & M & ap & ac & Ep & Ec & O). exists t. split; [exact T|]. split; [exact Pp|]. split; [exact Pc|]. split; [exact M|].
  destruct (table_area w cent lab ps Hl (start_table w cent lab Hl) Hw t p) as (q & E & A & _); [eapply meets_left; exact M|exact Pp|].
  destruct (table_area w cent lab ps Hl (start_table w cent lab Hl) Hw (S t) c) as (q' & E' & A' & _).
  { refine (meets_right w thr Hw (nth t lab []) (nth (S t) lab []) p c _ M). rewrite !(row_length w lab Hl) by lia. reflexivity. } { exact Pc. }
  unfold areas_in in Ep, Ec. rewrite E in Ep. rewrite E' in Ec. injection Ep as <-. injection Ec as <-. rewrite A, A' in O. exact O.
Qed.
Lemma silent_splitting t : S t < length lab ->
  splitting_parents (enforce_threshold thr ps (check_overlap w (nth t lab []) (nth (S t) lab []))) = [].
Proof.
  intro T. set (a := nth t lab []). set (b := nth (S t) lab []). set (ov := enforce_threshold thr ps (check_overlap w a b)).
  destruct (splitting_parents ov) as [|p r] eqn:E; [reflexivity|]. exfalso.
  assert (I : In p (splitting_parents ov)) by (rewrite E; left; reflexivity).
  unfold splitting_parents in I. apply filter_In in I. destruct I as [_ I]. apply Nat.ltb_lt in I. unfold count in I.
  assert (L1 : length a = length b) by (unfold a, b; rewrite !(row_length w lab Hl) by lia; reflexivity).
  assert (L2 : length a = length w) by (apply (row_length w lab Hl); lia).
  assert (Nd : NoDup (map row_pair ov)) by (apply enforce_subsequence, check_overlap_NoDup; assumption).
  assert (Nf : forall r1 r2 rs l, filter (fun r => Z.eqb (r_from r) p) l = r1 :: r2 :: rs -> NoDup (map row_pair l) -> r_to r1 <> r_to r2).
  { intros r1 r2 rs l F N X. assert (F1 : In r1 (filter (fun r => Z.eqb (r_from r) p) l)) by (rewrite F; left; reflexivity).
    assert (F2 : In r2 (filter (fun r => Z.eqb (r_from r) p) l)) by (rewrite F; right; left; reflexivity).
    apply filter_In in F1, F2. destruct F1 as [_ F1], F2 as [_ F2]. apply Z.eqb_eq in F1, F2.
    assert (N' : NoDup (map row_pair (filter (fun r => Z.eqb (r_from r) p) l))).
    { clear F. induction l as [|y l IH]; [constructor|]. cbn [map] in N. inversion N as [|? ? Ny N']; subst. cbn [filter].
      destruct (Z.eqb _ _); [|apply IH; exact N']. cbn [map]. constructor; [|apply IH; exact N'].
      intro C. apply Ny. apply in_map_iff in C. destruct C as (z & Ez & Z0). apply filter_In in Z0. apply in_map_iff. exists z. tauto. }
    rewrite F in N'. cbn [map] in N'. inversion N' as [|? ? Ny _]; subst. apply Ny. left. unfold row_pair. congruence. }
  destruct (filter (fun r => Z.eqb (r_from r) p) ov) as [|r1 [|r2 rs]] eqn:F; cbn [length] in I; try lia.
  apply (Nf r1 r2 rs ov F Nd).
  assert (Row : forall y, In y (filter (fun r => Z.eqb (r_from r) p) ov) -> consecutive_overlap w thr lab p (r_to y)).
  { intros y Y. apply filter_In in Y. destruct Y as [Y Ey]. apply Z.eqb_eq in Ey. apply (silent_accepted t); [exact T|]. fold a b.
    apply (accepted_row w thr ps a b p (r_to y) L1 L2 (table_pos w cent lab ps Hl (start_table w cent lab Hl) Hw)). exists y. auto. }
  apply (Down p); apply Row; rewrite F; [left|right; left]; reflexivity.
Qed.

Lemma silent_consolidate a b s : follows lab a b -> s_props s = ps -> consolidate_st w cent thr a b s = (b, s).
Proof.
  intros F E. destruct F as [(z & ->)|(t & T & -> & ->)]; [apply consolidate_zero|].
  unfold consolidate_st, consolidate. rewrite E, silent_splitting by exact T. cbn [fold_left]. unfold with_props. rewrite <- E. destruct s; reflexivity.
Qed.
Lemma silent_follows l1 a b l2 : lab = l1 ++ a :: b :: l2 -> follows lab a b.
Proof.
  intro E. right. exists (length l1). rewrite E. split; [rewrite app_length; simpl; lia|]. split.
  - rewrite app_nth2 by lia. rewrite Nat.sub_diag. reflexivity.
  - rewrite app_nth2 by lia. replace (S (length l1) - length l1) with 1 by lia. reflexivity.
Qed.
Lemma silent_before prevc P b cur l2 : seen prevc P -> lab = rev P ++ b :: l2 -> follows lab (before prevc cur) b.
Proof.
  intros [->|(p & Q & Q' & -> & ->)] E; [left; eexists; reflexivity|]. cbn [before].
  cbn [rev] in E. rewrite <- app_assoc in E. apply (silent_follows (rev Q') p b l2). exact E.
Qed.

(** No object of step [S i] has two parents. *)
Definition calm (i : nat) : Prop := merging_children (enforce_threshold thr ps (check_overlap w (nth i lab []) (nth (S i) lab []))) = [].

Definition known (prevc P : list (list Z)) : Prop := (prevc = [] /\ P = []) \/ exists p Q Q', prevc = p :: Q /\ P = p :: Q'.
Lemma known_seen prevc P : known prevc P -> seen prevc P.
Proof. intros [[-> _]|H]; [left; reflexivity|right; exact H]. Qed.

Lemma nth_after (X : list (list Z)) b l : nth (length X) (rev X ++ b :: l) [] = b.
Proof. rewrite app_nth2 by (rewrite rev_length; lia). rewrite rev_length, Nat.sub_diag. reflexivity. Qed.
Lemma nth_last (X : list (list Z)) a l : nth (length X) (rev (a :: X) ++ l) [] = a.
Proof. cbn [rev]. rewrite <- app_assoc. apply nth_after. Qed.

Lemma chunk_silent : forall todo done prevc P tail t s, s_props s = ps ->
  lab = rev (done ++ P) ++ todo ++ tail -> known prevc P ->
  recorded (snd (run_chunk w cent thr part prevc done todo t s)) = recorded s ->
  run_chunk w cent thr part prevc done todo t s = (rev todo ++ done, s) /\
  forall i, length (done ++ P) <= S i < length (done ++ P) + length todo -> calm i.
Proof.
  induction todo as [|cur rest IH]; intros done prevc P tail t s E El Se; cbn [run_chunk rev app].
  - intros _. split; [|cbn; lia]. destruct done as [|last [|second r]]; try reflexivity.
    rewrite silent_consolidate; [reflexivity| |exact E]. cbn [app rev] in El. rewrite <- !app_assoc in El. cbn [app] in El.
    apply (silent_follows _ _ _ _ El).
  - destruct done as [|m1 older].
    + set (prev := match prevc with p :: _ => p | [] => zeros_like cur end). intro Rc.
      assert (S1 := settle_recorded w cent thr part 10 t prev cur s).
      destruct (settle w cent thr part 10 t prev cur s) as [cur' s'] eqn:Es. cbn [snd] in S1.
      assert (S2 := chunk_recorded w cent thr part rest prevc [cur'] (S t) s').
      destruct (settle_silent w cent thr part t prev cur s) as [Eq Mc]; [rewrite Es; cbn [snd]; lia|]. rewrite Es in Eq. injection Eq as -> ->.
      destruct (IH [cur] prevc P tail (S t) s E) as [Er Ec]; [cbn [app rev]; rewrite <- app_assoc; exact El|exact Se|exact Rc|].
      split; [rewrite Er, <- app_assoc; reflexivity|].
      intros i Hi. cbn [app length] in Hi, Ec. destruct (Nat.eq_dec (S i) (length P)) as [Ei|Ni]; [|apply Ec; lia].
      cbn [app] in El. destruct Se as [[-> ->]|(p & Q & Q' & -> & ->)]; [discriminate Ei|]. cbn [length] in Ei. injection Ei as Ei. unfold calm.
      assert (E1 : nth i lab [] = p) by (rewrite El, Ei; apply nth_last).
      assert (E2 : nth (S i) lab [] = cur) by (rewrite El, Ei; change (S (length Q')) with (length (p :: Q')); apply nth_after).
      rewrite E1, E2. rewrite E in Mc. exact Mc.
    + assert (F1 : follows lab (match older with m2 :: _ => m2 | [] => before prevc cur end) m1).
      { destruct older as [|m2 o2].
        - apply (silent_before prevc P m1 cur (cur :: rest ++ tail) (known_seen _ _ Se)). cbn [app rev] in El. rewrite <- app_assoc in El. exact El.
        - cbn [app rev] in El. rewrite <- !app_assoc in El. cbn [app] in El. apply (silent_follows _ _ _ _ El). }
      unfold before in F1. rewrite silent_consolidate; [|exact F1|exact E]. intro Rc.
      assert (S1 := settle_recorded w cent thr part 10 t m1 cur s).
      destruct (settle w cent thr part 10 t m1 cur s) as [cur' s'] eqn:Es. cbn [snd] in S1.
      assert (S2 := chunk_recorded w cent thr part rest prevc (cur' :: m1 :: older) (S t) s').
      destruct (settle_silent w cent thr part t m1 cur s) as [Eq Mc]; [rewrite Es; cbn [snd]; lia|]. rewrite Es in Eq. injection Eq as -> ->.
      destruct (IH (cur :: m1 :: older) prevc P tail (S t) s E) as [Er Ec];
        [cbn [app rev] in El |- *; rewrite <- !app_assoc in El; cbn [app] in El; rewrite El at 1; rewrite <- !app_assoc; reflexivity|exact Se|exact Rc|].
      split; [rewrite Er, <- app_assoc; reflexivity|].
      intros i Hi. cbn [app length] in Hi, Ec. destruct (Nat.eq_dec i (length (older ++ P))) as [Ei|Ni]; [|apply Ec; lia].
      cbn [app] in El. unfold calm. rewrite Ei.
      assert (E1 : nth (length (older ++ P)) lab [] = m1) by (rewrite El; apply nth_last).
      assert (E2 : nth (S (length (older ++ P))) lab [] = cur) by (rewrite El; change (S (length (older ++ P))) with (length (m1 :: older ++ P)); apply nth_after).
      rewrite E1, E2. rewrite E in Mc. exact Mc.
Qed.

Lemma chunks_silent : forall chunks prevc P t s, Forall (fun c => c <> []) chunks -> s_props s = ps -> lab = rev P ++ concat chunks -> known prevc P ->
  recorded (snd (run_chunks w cent thr part prevc chunks t s)) = recorded s ->
  forall i, length P <= S i < length lab -> calm i.
Proof.
  induction chunks as [|c r IH]; intros prevc P t s Ne E El Se; cbn [run_chunks concat] in *.
  - intros _ i Hi. rewrite app_nil_r in El. rewrite El, rev_length in Hi. lia.
  - intro Rc. inversion Ne as [|? ? Nc Nr]; subst.
    assert (C1 := chunk_recorded w cent thr part c prevc [] t s). destruct (run_chunk w cent thr part prevc [] c t s) as [done s1] eqn:Ec. cbn [snd] in C1.
    assert (C2 := chunks_recorded w cent thr part r done (t + length c) s1). destruct (run_chunks w cent thr part done r (t + length c) s1) as [later s2] eqn:Er. cbn [snd] in C2, Rc.
    destruct (chunk_silent c [] prevc P (concat r) t s E El Se) as [Eq Cm]; [rewrite Ec; cbn [snd]; lia|]. rewrite Ec, app_nil_r in Eq. injection Eq as -> ->.
    intros i Hi. destruct (Nat.lt_ge_cases (S i) (length P + length c)) as [Lt|Ge]; [apply Cm; cbn [app]; lia|].
    refine (IH (rev c) (rev c ++ P) (t + length c) s Nr E _ _ _ i _).
    + rewrite rev_app_distr, rev_involutive, <- app_assoc. exact El.
    + right. destruct (rev c) as [|p Q] eqn:Rv; [exfalso; apply Nc; rewrite <- (rev_involutive c), Rv; reflexivity|]. exists p, Q, (Q ++ P). split; reflexivity.
    + rewrite Er. cbn [snd]. lia.
    + rewrite app_length, rev_length. lia.
Qed.

(** An empty list of merges: no object has two parents. *)
Lemma silent_loop sizes : fold_right Nat.add 0 sizes = length lab -> Forall (fun n => 1 <= n) sizes ->
  s_events (snd (split_and_merge w cent thr part (split_by sizes lab))) = [] ->
  forall p q c, consecutive_overlap w thr lab p c -> consecutive_overlap w thr lab q c -> p = q.
Proof.
  intros Hs Pos Em p q c A B. unfold split_and_merge in Em. rewrite (split_by_concat sizes lab Hs) in Em. fold ps in Em.
  set (s0 := mkState ps (arr_max (prop_ids ps) + 1) []) in Em.
  destruct (run_chunks w cent thr part [] (split_by sizes lab) 0 s0) as [fields s] eqn:Er. cbn [snd] in Em.
  assert (Ne : Forall (fun c => c <> []) (split_by sizes lab)).
  { clear Er. revert Hs. generalize lab. induction Pos as [|n r Pn _ IH]; intros l Hs; cbn [split_by]; constructor.
    - intro X. cbn [fold_right] in Hs. apply (f_equal (@length _)) in X. rewrite firstn_length in X. cbn in X. lia.
    - apply IH. cbn [fold_right] in Hs. rewrite skipn_length. lia. }
  assert (Calm : forall i, S i < length lab -> calm i).
  { intros i Hi. apply (chunks_silent (split_by sizes lab) [] [] 0 s0 Ne eq_refl); [cbn [rev app]; symmetry; apply split_by_concat; exact Hs|left; auto| |cbn; lia].
    rewrite Er. cbn [snd]. rewrite Em. reflexivity. }
  assert (Acc : forall t p c, S t < length lab -> overlap_enough w thr (nth t lab []) (nth (S t) lab []) p c ->
    accepted w thr (areas_in ps) (nth t lab []) (nth (S t) lab []) p c).
  { intros t p0 c0 T (Pp & Pc & M & O). split; [exact Pp|]. split; [exact Pc|]. split; [exact M|].
    destruct (table_area w cent lab ps Hl (start_table w cent lab Hl) Hw t p0) as (p1 & E1 & A1 & _); [eapply meets_left; exact M|exact Pp|].
    destruct (table_area w cent lab ps Hl (start_table w cent lab Hl) Hw (S t) c0) as (c1 & E2 & A2 & _).
    { refine (meets_right w thr Hw (nth t lab []) (nth (S t) lab []) p0 c0 _ M). rewrite !(row_length w lab Hl) by lia. reflexivity. } { exact Pc. }
    exists (p_area p1), (p_area c1). unfold areas_in. rewrite E1, E2. split; [reflexivity|]. split; [reflexivity|]. rewrite A1, A2. exact O. }
  destruct A as (t & T & A), B as (u & U & B).
  assert (t = u).
  { destruct Hl as (L & _ & One & _). assert (Pc := proj1 (proj2 A)).
    assert (I1 : In c (nth (S t) lab [])) by (destruct A as (_ & _ & M & _); refine (meets_right w thr Hw _ _ _ _ _ M); rewrite !(row_length w lab Hl) by lia; reflexivity).
    assert (I2 : In c (nth (S u) lab [])) by (destruct B as (_ & _ & M & _); refine (meets_right w thr Hw _ _ _ _ _ M); rewrite !(row_length w lab Hl) by lia; reflexivity).
    assert (X := One c (S t) (S u) Pc I1 I2). lia. }
  subst u. destruct (Z.eq_dec p q) as [Eq|Nq]; [exact Eq|exfalso].
  assert (C := Calm t T). unfold calm in C.
  assert (I : In c (merging_children (enforce_threshold thr ps (check_overlap w (nth t lab []) (nth (S t) lab []))))); [|rewrite C in I; destruct I].
  apply (round_children w thr ps); [rewrite !(row_length w lab Hl) by lia; reflexivity|apply (row_length w lab Hl); lia|exact (table_pos w cent lab ps Hl (start_table w cent lab Hl) Hw)|].
  exists p, q. split; [exact Nq|]. split; apply Acc; assumption.
Qed.
End Silent.
