(** The invariant of the whole loop over time steps and chunks. *)
From Coq Require Import Sorted.
From Verif Require Import Base Filter FilterProofs Overlap OverlapSpec OverlapProofs ConsolidateProofs
  ConsolidateMore Merge MergeProofs.
Open Scope nat_scope.

(** IDs of all times but [i]. *)
Definition others (all : list (list Z)) (i : nat) (x : Z) : Prop :=
  (0 < x)%Z /\ exists j, j <> i /\ In x (nth j all []).

Lemma good_ext w cent (O O' : Z -> Prop) f ps st : (forall x, O x <-> O' x) ->
  good_at w cent O f ps st -> good_at w cent O' f ps st.
Proof.
  intros E [A B C D F G]. constructor; auto.
  - intros x P X Y. apply E in Y. apply (C x); auto.
  - intro x. rewrite F, E. tauto.
Qed.

Lemma nth_upd {A} (l1 : list A) f f' l2 d j :
  nth j (l1 ++ f' :: l2) d = if Nat.eqb j (length l1) then f' else nth j (l1 ++ f :: l2) d.
Proof.
  destruct (Nat.eqb_spec j (length l1)) as [->|N].
  - rewrite app_nth2 by lia. rewrite Nat.sub_diag. reflexivity.
  - destruct (Nat.lt_ge_cases j (length l1)) as [L|L]; [rewrite !app_nth1 by exact L; reflexivity|].
    rewrite !app_nth2 by exact L. destruct (j - length l1) as [|m] eqn:E; [lia|reflexivity].
Qed.
Lemma nth_mid {A} (l1 : list A) f l2 d : nth (length l1) (l1 ++ f :: l2) d = f.
Proof. rewrite app_nth2 by lia. rewrite Nat.sub_diag. reflexivity. Qed.

Lemma others_upd l1 f f' l2 x : others (l1 ++ f' :: l2) (length l1) x <-> others (l1 ++ f :: l2) (length l1) x.
Proof.
  unfold others. split; intros (P & j & N & X); (split; [exact P|]); exists j; (split; [exact N|]).
  - rewrite (nth_upd l1 f f' l2) in X. apply Nat.eqb_neq in N. rewrite N in X. exact X.
  - rewrite (nth_upd l1 f f' l2). apply Nat.eqb_neq in N. rewrite N. exact X.
Qed.

Section Loop.
Variables (w : list Q) (cent : list bool -> Q * Q) (thr : Q).
Variable part : props -> list Z -> list bool -> list Z -> list Z -> list Z.
Hypothesis Cov : covers (length w) part.

Record consistent (all : list (list Z)) (s : mstate) : Prop := mkCons {
  c_good : forall i, i < length all -> good_at w cent (others all i) (nth i all []) (s_props s) None;
  c_bound : forall i x, In x (nth i all []) -> (x < s_next s)%Z }.

Lemma consistent_update t prev l1 f l2 s f' s' :
  consistent (l1 ++ f :: l2) s ->
  steps_to w cent (others (l1 ++ f :: l2) (length l1)) t prev f s f' s' ->
  consistent (l1 ++ f' :: l2) s'.
Proof.
  intros [G B] S. set (k := length l1) in *. set (all := l1 ++ f :: l2) in *.
  assert (Hn : forall j, nth j (l1 ++ f' :: l2) [] = if Nat.eqb j k then f' else nth j all []).
  { intro j. apply nth_upd. }
  assert (Hk : nth k all [] = f) by apply nth_mid.
  assert (Lk : k < length all) by (unfold all, k; rewrite app_length; simpl; lia).
  assert (Gk := G k Lk). rewrite Hk in Gk.
  constructor.
  - intros i I. rewrite Hn. destruct (Nat.eqb_spec i k) as [->|Ni].
    + eapply good_ext; [|apply S]. intro x. symmetry. apply others_upd.
    + assert (I' : i < length all) by (unfold all in *; rewrite app_length in *; simpl in *; lia).
      assert (Gi := G i I'). constructor.
      * apply Gi.
      * apply Gi.
      * intros x P X (_ & j & Nj & Y). rewrite Hn in Y. destruct (Nat.eqb_spec j k) as [->|Nk].
        -- apply (st_new _ _ _ _ _ _ _ _ _ S) in Y. destruct Y as [Y|Y].
           ++ apply (g_sep _ _ _ _ _ _ Gi x P X). split; [exact P|]. exists k. split; [lia|]. rewrite Hk. exact Y.
           ++ specialize (B i x X). lia.
        -- apply (g_sep _ _ _ _ _ _ Gi x P X). split; [exact P|]. exists j. auto.
      * apply (st_good _ _ _ _ _ _ _ _ _ S).
      * intro x. rewrite (g_ids _ _ _ _ _ _ (st_good _ _ _ _ _ _ _ _ _ S)).
        split; intros [P X]; (split; [exact P|]).
        -- destruct X as [X|(_ & j & Nj & X)].
           ++ right. split; [exact P|]. exists k. split; [lia|]. rewrite Hn, Nat.eqb_refl. exact X.
           ++ destruct (Nat.eq_dec j i) as [->|Nji]; [left; exact X|].
              right. split; [exact P|]. exists j. split; [exact Nji|]. rewrite Hn.
              destruct (Nat.eqb_spec j k); [contradiction|exact X].
        -- destruct X as [X|(_ & j & Nj & X)].
           ++ right. split; [exact P|]. exists i. auto.
           ++ rewrite Hn in X. destruct (Nat.eqb_spec j k) as [->|Nk]; [left; exact X|].
              right. split; [exact P|]. exists j. auto.
      * intros x p X _ L.
        assert (P : (0 < x)%Z).
        { apply (g_ids _ _ _ _ _ _ (st_good _ _ _ _ _ _ _ _ _ S)). apply lookup_ids. exists p. exact L. }
        assert (Ox : others all k x) by (split; [exact P|]; exists i; auto).
        rewrite (st_frame _ _ _ _ _ _ _ _ _ S x Ox) in L.
        apply (g_measure _ _ _ _ _ _ Gi); auto. discriminate.
  - intros i x X. rewrite Hn in X. destruct (Nat.eqb_spec i k) as [->|Ni].
    + apply (st_bound _ _ _ _ _ _ _ _ _ S). left. exact X.
    + apply (Z.lt_le_trans _ (s_next s)); [apply (B i); exact X|apply S].
Qed.

(** Consolidation as a step without merges. *)
Lemma consolidate_step t prev l1 f l2 s f2 :
  consistent (l1 ++ f :: l2) s -> length f2 = length w ->
  let st := consolidate_st w cent thr f2 f s in
  steps_to w cent (others (l1 ++ f :: l2) (length l1)) t prev f s (fst st) (snd st).
Proof.
  intros [G B] L2. assert (Lk : length l1 < length (l1 ++ f :: l2)) by (rewrite app_length; simpl; lia).
  assert (Gk := G _ Lk). rewrite nth_mid in Gk.
  unfold consolidate_st.
  destruct (consolidate_good w cent (others (l1 ++ f :: l2) (length l1)) thr f2 f (s_props s)) as (A & S & I & R & _).
  { rewrite L2. symmetry. apply Gk. }
  { exact Gk. }
  destruct (consolidate w cent thr f2 f (s_props s)) as [f' ps']. cbn [fst snd with_props s_props s_next s_events] in *.
  constructor; cbn [with_props s_props s_next s_events]; auto; try lia.
  - intros x [X|(P & j & N & X)].
    + apply (B (length l1)). rewrite nth_mid. apply I. exact X.
    + apply (B j). exact X.
  - exists []. rewrite app_nil_r, Z.sub_diag. repeat split; auto.
Qed.

Lemma settle_step t prev l1 f l2 s :
  consistent (l1 ++ f :: l2) s -> length prev = length w ->
  let st := settle w cent thr part 10 t prev f s in
  steps_to w cent (others (l1 ++ f :: l2) (length l1)) t prev f s (fst st) (snd st).
Proof.
  intros [G B] L. assert (Lk : length l1 < length (l1 ++ f :: l2)) by (rewrite app_length; simpl; lia).
  assert (Gk := G _ Lk). rewrite nth_mid in Gk.
  apply settle_steps; auto.
  intros x [X|(P & j & N & X)].
  - apply (B (length l1)). rewrite nth_mid. exact X.
  - apply (B j). exact X.
Qed.

Record invariant (orig : list (list Z)) (s0 : mstate) (all : list (list Z)) (s : mstate) (T : nat) : Prop := mkInv {
  i_foot : Forall2 same_foot orig all;
  i_cons : consistent all s;
  i_next : (s_next s0 <= s_next s)%Z;
  i_ids : forall i x, In x (nth i all []) -> In x (nth i orig []) \/ (s_next s0 <= x)%Z;
  i_events : Forall (fun e => 1 <= e_time e < T /\ wf_event (e_time e) (nth (e_time e - 1) all []) e) (s_events s);
  i_created : created (s_events s) = arangeZ (s_next s0) (Z.to_nat (s_next s - s_next s0));
  i_heads : Forall (fun e => In (hd 0%Z (e_children e)) (nth (e_time e) orig []) \/
                             (s_next s0 <= hd 0%Z (e_children e) < s_next s)%Z) (s_events s) }.

Lemma Forall2_upd {A B} (R : A -> B -> Prop) l (l1 : list B) f f' l2 :
  Forall2 R l (l1 ++ f :: l2) -> (forall a, R a f -> R a f') -> Forall2 R l (l1 ++ f' :: l2).
Proof.
  intros H Hf. apply Forall2_app_inv_r in H. destruct H as (a1 & a2 & H1 & H2 & ->).
  inversion H2 as [|x y lx ly Hx Hl]; subst. apply Forall2_app; [exact H1|]. constructor; auto.
Qed.

(** A step at index [length l1], with [T - 1 <= length l1] so that no recorded
    merge has its parents there. *)
Lemma invariant_update orig s0 l1 f l2 s T t prev f' s' T' :
  invariant orig s0 (l1 ++ f :: l2) s T -> T <= S (length l1) -> T <= T' -> t = length l1 ->
  steps_to w cent (others (l1 ++ f :: l2) (length l1)) t prev f s f' s' ->
  (forall evs, s_events s' = s_events s ++ evs -> Forall (wf_event t prev) evs ->
     Forall (fun e => 1 <= e_time e < T' /\ wf_event (e_time e) (nth (e_time e - 1) (l1 ++ f' :: l2) []) e) evs) ->
  invariant orig s0 (l1 ++ f' :: l2) s' T'.
Proof.
  intros [F C N I E K Hd] HT HT' Ht S Hev.
  destruct (st_events _ _ _ _ _ _ _ _ _ S) as (evs & Ev & Wf & Cr & _ & Hh).
  constructor.
  - eapply Forall2_upd; [exact F|]. intros a A. exact (same_foot_trans _ _ _ A (st_foot _ _ _ _ _ _ _ _ _ S)).
  - exact (consistent_update _ _ _ _ _ _ _ _ C S).
  - assert (H := st_next _ _ _ _ _ _ _ _ _ S). lia.
  - intros i x X. rewrite (nth_upd l1 f f' l2) in X. destruct (Nat.eqb_spec i (length l1)) as [->|Ni].
    + apply (st_new _ _ _ _ _ _ _ _ _ S) in X. destruct X as [X|X].
      * apply (I (length l1)). rewrite nth_mid. exact X.
      * right. lia.
    + apply I. exact X.
  - rewrite Ev. apply Forall_app. split; [|apply Hev; assumption].
    rewrite Forall_forall in *. intros e He. destruct (E e He) as (A & B). split; [lia|].
    rewrite (nth_upd l1 f f' l2). destruct (Nat.eqb_spec (e_time e - 1) (length l1)) as [Eq|]; [lia|exact B].
  - assert (H := st_next _ _ _ _ _ _ _ _ _ S). rewrite Ev. unfold created in *. rewrite flat_map_app, K, Cr.
    replace (s_next s) with (s_next s0 + Z.of_nat (Z.to_nat (s_next s - s_next s0)))%Z at 2 by lia.
    rewrite arangeZ_app. f_equal. lia.
  - assert (H := st_next _ _ _ _ _ _ _ _ _ S). rewrite Ev. apply Forall_app. split.
    + eapply Forall_impl; [|exact Hd]. intros e [X|X]; [left; exact X|right; lia].
    + rewrite Forall_forall in *. intros e He. destruct (Wf e He) as (Et & _). rewrite Et, Ht.
      destruct (Hh e He) as [X|X]; [|right; lia].
      destruct (I (length l1) (hd 0%Z (e_children e))) as [Y|Y]; [rewrite nth_mid; exact X|left; exact Y|].
      right. split; [exact Y|]. eapply Z.lt_le_trans; [|exact H].
      apply (c_bound _ _ C (length l1)). rewrite nth_mid. exact X.
Qed.

Lemma invariant_length orig s0 all s T f : invariant orig s0 all s T -> In f all -> length f = length w.
Proof.
  intros [_ [G _] _ _ _ _ _] H. apply (In_nth _ _ []) in H. destruct H as (i & I & <-). apply (G i I).
Qed.

Lemma consolidate_invariant orig s0 l1 f l2 s T f2 :
  invariant orig s0 (l1 ++ f :: l2) s T -> T <= S (length l1) -> length f2 = length w ->
  let st := consolidate_st w cent thr f2 f s in
  invariant orig s0 (l1 ++ fst st :: l2) (snd st) T.
Proof.
  intros V HT L. cbv zeta.
  assert (S := consolidate_step (length l1) [] l1 f l2 s f2 (i_cons _ _ _ _ _ V) L). cbv zeta in S.
  eapply invariant_update; [exact V|exact HT|lia|reflexivity|exact S|].
  intros evs Ev _. assert (E : evs = []).
  { unfold consolidate_st in Ev. destruct (consolidate w cent thr f2 f (s_props s)) as [a b].
    cbn [snd with_props s_events] in Ev. rewrite <- app_nil_r in Ev at 1. apply app_inv_head in Ev. congruence. }
  rewrite E. constructor.
Qed.

Lemma settle_invariant orig s0 l1 f l2 s prev :
  invariant orig s0 (l1 ++ f :: l2) s (length l1) ->
  length prev = length w ->
  (forall x, In x prev -> (x <= 0)%Z) \/ (exists l0, l1 = l0 ++ [prev]) ->
  let st := settle w cent thr part 10 (length l1) prev f s in
  invariant orig s0 (l1 ++ fst st :: l2) (snd st) (S (length l1)).
Proof.
  intros V L Hp. cbv zeta.
  assert (S := settle_step (length l1) prev l1 f l2 s (i_cons _ _ _ _ _ V) L). cbv zeta in S.
  eapply invariant_update; [exact V|lia|lia|reflexivity|exact S|].
  intros evs _ Wf. rewrite Forall_forall in *. intros e He. specialize (Wf e He).
  destruct Hp as [Hz|(l0 & ->)].
  - destruct Wf as (_ & N2 & _ & _ & _ & _ & Hpar & _).
    destruct (e_parents e) as [|p r]; [simpl in N2; lia|]. destruct (Hpar p (or_introl eq_refl)) as [A B].
    specialize (Hz p B). lia.
  - assert (Et : e_time e = length (l0 ++ [prev])) by apply Wf. rewrite Et. rewrite app_length in *. simpl in *.
    split; [lia|]. replace (length l0 + 1 - 1) with (length l0) by lia.
    rewrite <- app_assoc. cbn [app]. rewrite nth_mid. exact Wf.
Qed.

Lemma run_chunk_invariant orig s0 prevc pre F : 
  prevc = [] \/ (exists P, pre = P ++ rev prevc) ->
  forall todo done s,
  invariant orig s0 (pre ++ rev done ++ todo ++ F) s (length (pre ++ rev done)) ->
  let st := run_chunk w cent thr part prevc done todo (length (pre ++ rev done)) s in
  invariant orig s0 (pre ++ rev (fst st) ++ F) (snd st) (length (pre ++ rev done) + length todo) /\
  length (fst st) = length done + length todo.
Proof.
  intro Hpre. induction todo as [|cur rest IH]; intros done s V; cbn [run_chunk].
  - cbn [app length] in *. rewrite Nat.add_0_r.
    destruct done as [|last [|second r]]; [cbn [fst snd]; split; [exact V|reflexivity]|cbn [fst snd]; split; [exact V|simpl; lia]|].
    assert (E : pre ++ rev (last :: second :: r) ++ F = (pre ++ rev (second :: r)) ++ last :: F).
    { cbn [rev]. rewrite <- !app_assoc. reflexivity. }
    rewrite E in V.
    assert (L2 : length second = length w).
    { apply (invariant_length _ _ _ _ _ second V). apply in_or_app. left. apply in_or_app. right.
      apply -> in_rev. left. reflexivity. }
    assert (V' := consolidate_invariant orig s0 (pre ++ rev (second :: r)) last F s _ second V).
    destruct (consolidate_st w cent thr second last s) as [last' s'] eqn:Ec. cbn [fst snd] in *.
    split; [|cbn [length]; lia].
    assert (E' : pre ++ rev (last' :: second :: r) ++ F = (pre ++ rev (second :: r)) ++ last' :: F).
    { cbn [rev]. rewrite <- !app_assoc. reflexivity. }
    rewrite E'. apply V'; [|exact L2]. rewrite !app_length. simpl. rewrite !app_length. simpl. lia.
  - destruct done as [|m1 older].
    + cbn [rev app] in *. rewrite app_nil_r in *.
      set (prev := match prevc with p :: _ => p | [] => zeros_like cur end).
      assert (Lc : length cur = length w).
      { apply (invariant_length _ _ _ _ _ cur V). apply in_or_app. right. left. reflexivity. }
      assert (Hp : length prev = length w /\ ((forall x, In x prev -> (x <= 0)%Z) \/ (exists l0, pre = l0 ++ [prev]))).
      { unfold prev. destruct prevc as [|p pc].
        - split; [unfold zeros_like; rewrite map_length; exact Lc|]. left. intros x X.
          apply in_map_iff in X. destruct X as (? & <- & _). lia.
        - destruct Hpre as [C|(P & ->)]; [discriminate|]. cbn [rev] in *. split.
          + apply (invariant_length _ _ _ _ _ p V). rewrite !in_app_iff; simpl; intuition.
          + right. exists (P ++ rev pc). rewrite app_assoc. reflexivity. }
      assert (V' := settle_invariant orig s0 pre cur (rest ++ F) s prev V (proj1 Hp) (proj2 Hp)).
      destruct (settle w cent thr part 10 (length pre) prev cur s) as [cur' s'] eqn:Es. cbn [fst snd] in *.
      assert (Hl : length (pre ++ rev [cur']) = S (length pre)) by (rewrite app_length; simpl; lia).
      assert (IH' := IH [cur'] s'). rewrite Hl in IH'.
      destruct IH' as [A B]; [exact V'|].
      cbn [length] in *. split; [|lia].
      replace (length pre + S (length rest)) with (S (length pre) + length rest) by lia. exact A.
    + set (m2 := match older with m2 :: _ => m2 | [] => match prevc with p :: _ => p | [] => zeros_like cur end end).
      assert (E : forall m, pre ++ rev (m :: older) ++ (cur :: rest) ++ F = (pre ++ rev older) ++ m :: (cur :: rest) ++ F).
      { intro m. cbn [rev]. rewrite <- !app_assoc. reflexivity. }
      rewrite E in V.
      assert (Lc : length cur = length w).
      { apply (invariant_length _ _ _ _ _ cur V). rewrite !in_app_iff; simpl; intuition. }
      assert (L2 : length m2 = length w).
      { unfold m2. destruct older as [|o older'].
        - destruct prevc as [|p pc]; [unfold zeros_like; rewrite map_length; exact Lc|].
          destruct Hpre as [C|(P & ->)]; [discriminate|].
          apply (invariant_length _ _ _ _ _ p V). cbn [rev]. rewrite !in_app_iff; simpl; intuition.
        - apply (invariant_length _ _ _ _ _ o V). cbn [rev]. rewrite !in_app_iff; simpl; intuition. }
      assert (Hlen : length (pre ++ rev (m1 :: older)) = S (length (pre ++ rev older))).
      { cbn [rev]. rewrite app_assoc, app_length. simpl. lia. }
      assert (V1 := consolidate_invariant orig s0 (pre ++ rev older) m1 ((cur :: rest) ++ F) s _ m2 V).
      destruct (consolidate_st w cent thr m2 m1 s) as [m1' s1] eqn:Ec. cbn [fst snd] in V1.
      specialize (V1 ltac:(lia) L2). rewrite <- E in V1.
      assert (Hlen' : length (pre ++ rev (m1' :: older)) = S (length (pre ++ rev older))).
      { cbn [rev]. rewrite app_assoc, app_length. simpl. lia. }
      assert (V2 : invariant orig s0 ((pre ++ rev (m1' :: older)) ++ cur :: (rest ++ F)) s1 (length (pre ++ rev (m1' :: older)))).
      { rewrite Hlen', <- Hlen. rewrite <- app_assoc. exact V1. }
      assert (L1' : length m1' = length w).
      { apply (invariant_length _ _ _ _ _ m1' V2). cbn [rev]. rewrite !in_app_iff; simpl; intuition. }
      assert (V3 := settle_invariant orig s0 (pre ++ rev (m1' :: older)) cur (rest ++ F) s1 m1' V2 L1').
      rewrite Hlen', <- Hlen in V3.
      destruct (settle w cent thr part 10 (length (pre ++ rev (m1 :: older))) m1' cur s1) as [cur' s'] eqn:Es.
      cbn [fst snd] in V3.
      assert (IH' := IH (cur' :: m1' :: older) s').
      assert (Hl : length (pre ++ rev (cur' :: m1' :: older)) = S (length (pre ++ rev (m1 :: older)))).
      { rewrite !app_length, !rev_length. simpl. lia. }
      rewrite Hl in IH'. destruct IH' as [A B].
      * assert (Hl0 : exists l0, pre ++ rev (m1' :: older) = l0 ++ [m1']).
        { exists (pre ++ rev older). cbn [rev]. rewrite app_assoc. reflexivity. }
        assert (V4 := V3 (or_intror Hl0)).
        cbn [rev] in *. rewrite <- !app_assoc in *. exact V4.
      * cbn [length] in *. split; [|lia].
        replace (length (pre ++ rev (m1 :: older)) + S (length rest)) with (S (length (pre ++ rev (m1 :: older))) + length rest) by lia.
        exact A.
Qed.

Lemma run_chunks_invariant orig s0 : forall chunks prevc pre s,
  prevc = [] \/ (exists P, pre = P ++ rev prevc) ->
  invariant orig s0 (pre ++ concat chunks) s (length pre) ->
  let st := run_chunks w cent thr part prevc chunks (length pre) s in
  invariant orig s0 (pre ++ rev (fst st)) (snd st) (length pre + length (concat chunks)) /\
  length (fst st) = length (concat chunks).
Proof.
  induction chunks as [|c r IH]; intros prevc pre s Hp V; cbn [run_chunks concat].
  - cbn [fst snd rev length concat] in *. rewrite Nat.add_0_r. split; [exact V|reflexivity].
  - cbn [concat] in V.
    destruct (run_chunk_invariant orig s0 prevc pre (concat r) Hp c [] s) as [V1 L1].
    { cbn [rev app]. rewrite app_nil_r. exact V. }
    cbn [rev app] in V1, L1. rewrite app_nil_r in V1, L1.
    destruct (run_chunk w cent thr part prevc [] c (length pre) s) as [done s1]. cbn [fst snd] in *.
    cbn [length plus] in L1.
    assert (Hl : length (pre ++ rev done) = length pre + length c) by (rewrite app_length, rev_length; lia).
    assert (IH' := IH done (pre ++ rev done) s1). rewrite Hl in IH'.
    destruct IH' as [V2 L2].
    + right. exists pre. reflexivity.
    + rewrite <- app_assoc. exact V1.
    + destruct (run_chunks w cent thr part done r (length pre + length c) s1) as [later s2]. cbn [fst snd] in *.
      rewrite app_length. split; [|rewrite app_length; lia].
      rewrite rev_app_distr, app_assoc. replace (length pre + (length c + length (concat r))) with (length pre + length c + length (concat r)) by lia.
      exact V2.
Qed.

(** ** The initial state *)

Definition initial (all : list (list Z)) : mstate :=
  let ps := initial_props w cent all in mkState ps (arr_max (prop_ids ps) + 1) [].

Lemma initial_ids all x : In x (prop_ids (initial_props w cent all)) <-> (0 < x)%Z /\ exists i, In x (nth i all []).
Proof.
  unfold initial_props. induction all as [|f all IH]; cbn [flat_map].
  - split; [intros []|intros (_ & [|i] & [])].
  - unfold prop_ids in *. rewrite map_app, in_app_iff, IH.
    change (map fst (object_properties w cent f)) with (prop_ids (object_properties w cent f)).
    rewrite object_properties_ids, unique_pos_In. split.
    + intros [[P X]|(P & i & X)]; (split; [exact P|]); [exists 0|exists (S i)]; exact X.
    + intros (P & [|i] & X); [left|right]; simpl in X; [auto|]. split; [exact P|]. exists i. exact X.
Qed.

Lemma initial_lookup all : forall i x,
  (forall j k, In x (nth j all []) -> In x (nth k all []) -> j = k) -> (0 < x)%Z ->
  In x (nth i all []) -> lookup x (initial_props w cent all) = Some (measure w cent x (nth i all [])).
Proof.
  induction all as [|f all IH]; intros i x U P X; [destruct i; destruct X|].
  cbn [initial_props flat_map]. rewrite lookup_app, object_properties_lookup.
  destruct (Z.ltb_spec 0 x) as [_|]; [|lia]. cbn [andb].
  destruct i as [|i]; cbn [nth] in X.
  - apply memZ_In in X. rewrite X. reflexivity.
  - destruct (memZ x f) eqn:M.
    + apply memZ_In in M. specialize (U 0 (S i) M X). discriminate.
    + apply (IH i); auto. intros j k J K. specialize (U (S j) (S k) J K). lia.
Qed.

Definition one_time (all : list (list Z)) : Prop :=
  forall x j k, (0 < x)%Z -> In x (nth j all []) -> In x (nth k all []) -> j = k.

Lemma initial_NoDup all : one_time all -> NoDup (prop_ids (initial_props w cent all)).
Proof.
  induction all as [|f all IH]; intro U; [constructor|]. unfold initial_props, prop_ids in *. cbn [flat_map]. rewrite map_app.
  apply NoDup_app_iff_local.
  - change (NoDup (prop_ids (object_properties w cent f))). rewrite object_properties_ids. apply unique_pos_NoDup.
  - apply IH. intros x j k P J K. assert (E := U x (S j) (S k) P J K). lia.
  - intros x X Y. change (In x (prop_ids (object_properties w cent f))) in X. rewrite object_properties_ids, unique_pos_In in X.
    change (In x (prop_ids (initial_props w cent all))) in Y. apply initial_ids in Y. destruct Y as (P & i & Y).
    assert (E := U x 0 (S i) P (proj2 X) Y). discriminate.
Qed.

Lemma initial_invariant all :
  (forall f, In f all -> length f = length w) -> (forall f x, In f all -> In x f -> (0 <= x)%Z) ->
  one_time all -> (exists i x, (0 < x)%Z /\ In x (nth i all [])) ->
  invariant all (initial all) all (initial all) 0.
Proof.
  intros L N U (i0 & x0 & P0 & X0). constructor; unfold initial; cbn [s_props s_next s_events].
  - clear. induction all as [|f all IH]; constructor; auto. apply same_foot_refl.
  - constructor; cbn [s_props s_next].
    + intros i I. assert (Hin : In (nth i all []) all) by (apply nth_In; exact I). constructor.
      * apply L. exact Hin.
      * intros x X. apply (N _ x Hin X).
      * intros x P X (_ & j & Nj & Y). apply Nj. apply (U x j i P Y X).
      * apply initial_NoDup. exact U.
      * intro x. rewrite initial_ids. split; intros [P X]; (split; [exact P|]).
        -- destruct X as (j & X). destruct (Nat.eq_dec j i) as [->|Nj]; [left; exact X|].
           right. split; [exact P|]. exists j. auto.
        -- destruct X as [X|(_ & j & _ & X)]; eauto.
      * intros x p X _ E.
        assert (P : (0 < x)%Z) by (apply (initial_ids all x); apply lookup_ids; exists p; exact E).
        rewrite (initial_lookup all i x) in E; auto. { inversion E. reflexivity. }
        intros j k J K. apply (U x); auto.
    + intros i x X.
      assert (A : In x0 (prop_ids (initial_props w cent all))) by (apply initial_ids; eauto).
      apply arr_max_ge in A.
      destruct (Z.lt_ge_cases 0 x) as [P|P]; [|lia].
      assert (Bx : In x (prop_ids (initial_props w cent all))) by (apply initial_ids; eauto).
      apply arr_max_ge in Bx. lia.
  - lia.
  - auto.
  - constructor.
  - rewrite Z.sub_diag. reflexivity.
  - constructor.
Qed.

(** Everything the loop guarantees about its result. *)
Lemma split_and_merge_invariant chunks :
  let all := concat chunks in
  (forall f, In f all -> length f = length w) -> (forall f x, In f all -> In x f -> (0 <= x)%Z) ->
  one_time all -> (exists i x, (0 < x)%Z /\ In x (nth i all [])) ->
  let st := split_and_merge w cent thr part chunks in
  invariant all (initial all) (fst st) (snd st) (length all).
Proof.
  intros all L N U E. unfold split_and_merge. fold all.
  change (mkState (initial_props w cent all) (arr_max (prop_ids (initial_props w cent all)) + 1) []) with (initial all).
  destruct (run_chunks_invariant all (initial all) chunks [] [] (initial all)) as [V Ll].
  - left. reflexivity.
  - cbn [app length]. apply initial_invariant; assumption.
  - cbn [length] in V, Ll. destruct (run_chunks w cent thr part [] chunks 0 (initial all)) as [fields s].
    cbn [fst snd app plus] in *. exact V.
Qed.
End Loop.
