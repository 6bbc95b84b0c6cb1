(** Further facts about consolidation and the merging loop. *)
From Verif Require Import Base Filter Overlap OverlapSpec OverlapProofs ConsolidateProofs ConsolidateMore
  Merge MergeSpec MergeProofs MergeLoop MergeChunks.
Open Scope nat_scope.

(** ** Consolidation: footprint without any assumption on the table *)

Lemma rename_children_foot first rest : (0 < first)%Z -> (forall c, In c rest -> (0 < c)%Z) ->
  forall f ps, same_foot f (fst (fold_left (rename_child first) rest (f, ps))).
Proof.
  intros P. induction rest as [|c rest IH]; intros Pc f ps; cbn [fold_left]; [apply same_foot_refl|].
  unfold rename_child at 2. destruct (memZ c (prop_ids ps)).
  - eapply same_foot_trans; [apply (rename_foot c first f); [apply Pc; left; reflexivity|exact P]|].
    apply IH. intros d D. apply Pc. right. exact D.
  - apply IH. intros d D. apply Pc. right. exact D.
Qed.
Lemma consolidate_parent_foot w cent ov f ps p : (forall r, In r ov -> (0 < r_to r)%Z) ->
  same_foot f (fst (consolidate_parent w cent ov (f, ps) p)).
Proof.
  intro Po. unfold consolidate_parent.
  destruct (negb (memZ p (prop_ids ps))); [apply same_foot_refl|].
  destruct (map r_to (filter (fun r => Z.eqb (r_from r) p) ov)) as [|first rest] eqn:E; [apply same_foot_refl|].
  assert (Pall : forall c, In c (first :: rest) -> (0 < c)%Z).
  { intros c C. rewrite <- E in C. apply in_map_iff in C. destruct C as (r & <- & R). apply filter_In in R. apply Po. tauto. }
  destruct rest as [|c rest]; [apply same_foot_refl|].
  destruct (negb (memZ first (prop_ids ps))); [apply same_foot_refl|].
  assert (S := rename_children_foot first (c :: rest) (Pall first (or_introl eq_refl)) (fun d D => Pall d (or_intror D)) f ps).
  destruct (fold_left (rename_child first) (c :: rest) (f, ps)) as [f' ps']. cbn [fst] in S.
  destruct (memZ first f'); exact S.
Qed.
Lemma consolidate_foot w cent thr f2 f1 ps : length f2 = length f1 -> length f2 = length w ->
  same_foot f1 (fst (consolidate w cent thr f2 f1 ps)).
Proof.
  intros L1 L2. unfold consolidate. set (ov := enforce_threshold thr ps (check_overlap w f2 f1)).
  assert (Po : forall r, In r ov -> (0 < r_to r)%Z).
  { intros r R. apply filter_In in R. destruct R as [R _]. apply check_overlap_sound in R; auto. tauto. }
  generalize (splitting_parents ov). intro l. revert f1 ps L1 ov Po.
  assert (G : forall l ov f ps, (forall r, In r ov -> (0 < r_to r)%Z) ->
            same_foot f (fst (fold_left (consolidate_parent w cent ov) l (f, ps)))).
  { clear. induction l as [|p l IH]; intros ov f ps Po; cbn [fold_left]; [apply same_foot_refl|].
    assert (S := consolidate_parent_foot w cent ov f ps p Po).
    destruct (consolidate_parent w cent ov (f, ps) p) as [f' ps']. eapply same_foot_trans; [exact S|]. apply IH. exact Po. }
  intros. apply G. exact Po.
Qed.

(** ** Dividing one child *)

Section Divide.
Variables (w : list Q) (cent : list bool -> Q * Q) (part : props -> list Z -> list bool -> list Z -> list Z -> list Z).
Variable n : nat.
Hypothesis Cov : covers n part.

Lemma divide_cells t prev ov cur s child : length prev = n -> length cur = n ->
  2 <= count (fun r => Z.eqb (r_to r) child) ov ->
  exists e, let st := divide_child w cent part t prev ov (cur, s) child in
    s_events (snd st) = s_events s ++ [e] /\ e_time e = t /\
    e_children e = child :: arangeZ (s_next s) (length (e_parents e) - 1) /\
    e_parents e = map r_from (filter (fun r => Z.eqb (r_to r) child) ov) /\
    e_areas e = map r_area (filter (fun r => Z.eqb (r_to r) child) ov) /\
    s_next (snd st) = (s_next s + Z.of_nat (length (e_parents e) - 1))%Z /\
    length (fst st) = n /\
    forall k, k < n ->
      (nth k cur 0%Z <> child -> nth k (fst st) 0%Z = nth k cur 0%Z) /\
      (nth k cur 0%Z = child -> In (nth k (fst st) 0%Z) (e_children e)).
Proof.
  intros Lp Lc C2. unfold divide_child. cbv zeta.
  set (grp := filter (fun r => Z.eqb (r_to r) child) ov). set (parents := map r_from grp).
  set (ids := child :: arangeZ (s_next s) (length parents - 1)).
  exists (mkEvent t ids parents (map r_area grp)). cbn [fst snd s_events e_time e_children e_parents e_areas s_next].
  assert (Hn : length parents = length ids).
  { unfold ids. cbn [length]. rewrite arangeZ_length. unfold parents. rewrite map_length. unfold grp. unfold count in C2. lia. }
  repeat (split; [reflexivity|]).
  destruct (Cov (s_props s) prev (mask_of child cur) parents ids) as [L1 L2].
  { rewrite mask_length. exact Lc. } { exact Lp. } { exact Hn. } { discriminate. }
  split; [rewrite assign_length; exact Lc|].
  intros k K.
  destruct (assign_nth (mask_of child cur) (part (s_props s) prev (mask_of child cur) parents ids) cur k) as [A B];
    [apply mask_length|lia|lia|].
  rewrite (mask_nth child cur k) in A, B by lia. split; intro E.
  - apply A. apply Z.eqb_neq. congruence.
  - apply L2. apply B. apply Z.eqb_eq. congruence.
Qed.
End Divide.

(** The children divided in a round are those with two accepted parents, and the
    parents recorded are exactly the accepted ones. *)
Lemma round_children w thr ps prev cur c :
  length prev = length cur -> length prev = length w ->
  (forall id q, lookup id ps = Some q -> (0 < p_area q)%Q) ->
  let ov := enforce_threshold thr ps (check_overlap w prev cur) in
  (In c (merging_children ov) <->
   exists p q, p <> q /\ accepted w thr (areas_in ps) prev cur p c /\ accepted w thr (areas_in ps) prev cur q c) /\
  (forall p, In p (map r_from (filter (fun r => Z.eqb (r_to r) c) ov)) <-> accepted w thr (areas_in ps) prev cur p c).
Proof.
  intros L1 L2 Pa ov.
  assert (Acc : forall p, In p (map r_from (filter (fun r => Z.eqb (r_to r) c) ov)) <-> accepted w thr (areas_in ps) prev cur p c).
  { intro p. rewrite (accepted_row w thr ps prev cur p c L1 L2 Pa). fold ov. rewrite in_map_iff. split.
    - intros (r & E & R). apply filter_In in R. destruct R as [R T]. apply Z.eqb_eq in T. exists r. auto.
    - intros (r & R & E & T). exists r. split; [exact E|]. apply filter_In. split; [exact R|]. apply Z.eqb_eq. exact T. }
  split; [|exact Acc].
  rewrite (merging_children_In w (fun _ => True) prev L2). unfold count.
  assert (Nd : NoDup (map r_from (filter (fun r => Z.eqb (r_to r) c) ov))).
  { assert (N0 : NoDup (map row_pair ov)) by (apply enforce_subsequence, check_overlap_NoDup; congruence).
    clear - N0. induction ov as [|r l IH]; [constructor|]. cbn [map] in N0. inversion N0 as [|? ? Nr N']; subst.
    cbn [filter]. destruct (Z.eqb_spec (r_to r) c) as [E|]; [|apply IH; exact N']. cbn [map]. constructor; [|apply IH; exact N'].
    intro C. apply in_map_iff in C. destruct C as (r' & Ef & R). apply filter_In in R. destruct R as [R Et].
    apply Z.eqb_eq in Et. apply Nr. apply in_map_iff. exists r'. split; [|exact R]. unfold row_pair. congruence. }
  rewrite <- (map_length r_from). revert Nd Acc. generalize (map r_from (filter (fun r => Z.eqb (r_to r) c) ov)). intros l Nd Acc. split.
  - intro H. destruct l as [|p [|q l]]; try (simpl in H; lia).
    exists p, q. inversion Nd as [|? ? Np _]; subst. split; [intros ->; apply Np; left; reflexivity|].
    rewrite <- !Acc. cbn. auto.
  - intros (p & q & Ne & A & B). rewrite <- Acc in A, B. destruct l as [|x [|y l]]; cbn in *; lia.
Qed.

(** ** What is left after the rounds of one time step *)

Lemma divide_children_events w cent part t prev ov : forall ch cur s,
  length (s_events (snd (fold_left (divide_child w cent part t prev ov) ch (cur, s)))) =
  length (s_events s) + length ch.
Proof.
  induction ch as [|c ch IH]; intros cur s; cbn [fold_left length]; [rewrite Nat.add_0_r; reflexivity|].
  unfold divide_child at 2. cbv zeta. rewrite IH. cbn [s_events]. rewrite app_length. cbn [length]. lia.
Qed.
Lemma settle_done w cent thr part t prev : forall fuel cur s,
  let st := settle w cent thr part fuel t prev cur s in
  merging_children (enforce_threshold thr (s_props (snd st)) (check_overlap w prev (fst st))) = [] \/
  length (s_events s) + fuel <= length (s_events (snd st)).
Proof.
  induction fuel as [|k IH]; intros cur s; cbn [settle]; cbv zeta.
  - right. cbn [snd]. lia.
  - destruct (merging_children (enforce_threshold thr (s_props s) (check_overlap w prev cur))) as [|c ch] eqn:E.
    + left. exact E.
    + assert (Le := divide_children_events w cent part t prev (enforce_threshold thr (s_props s) (check_overlap w prev cur)) (c :: ch) cur s).
      destruct (fold_left _ (c :: ch) (cur, s)) as [cur' s'] eqn:Ef. cbn [snd] in Le.
      assert (IH' := IH cur' s'). cbv zeta in IH'. cbn [length] in Le. destruct IH' as [H|H]; [left; exact H|right; lia].
Qed.

(** ** The invariant in the vocabulary of the specification *)

Section Final.
Variables (w : list Q) (cent : list bool -> Q * Q) (thr : Q).
Variable part : props -> list Z -> list bool -> list Z -> list Z -> list Z.
Hypothesis Cov : covers (length w) part.
Variable chunks : list (list (list Z)).
Let all := concat chunks.
Hypothesis In0 : labelled_series (length w) all.
Let st := split_and_merge w cent thr part chunks.

Lemma final_invariant : invariant w cent all (initial w cent all) (fst st) (snd st) (length all).
Proof. destruct In0 as (A & B & C & D). apply split_and_merge_invariant; assumption. Qed.

Lemma final_length : length (fst st) = length all.
Proof. assert (F := i_foot _ _ _ _ _ _ _ final_invariant). clear - F. induction F; simpl; congruence. Qed.
Lemma Forall2_nth_local {A B} (R : A -> B -> Prop) l l' a b i : Forall2 R l l' -> i < length l -> R (nth i l a) (nth i l' b).
Proof. intro F. revert i. induction F; intros [|i] H0; simpl in *; try lia; auto. apply IHF. lia. Qed.
Lemma final_foot t : t < length all ->
  length (nth t (fst st) []) = length (nth t all []) /\
  forall k, (0 < nth k (nth t (fst st) []) 0)%Z <-> (0 < nth k (nth t all []) 0)%Z.
Proof.
  intro T. destruct (Forall2_nth_local _ _ _ [] [] t (i_foot _ _ _ _ _ _ _ final_invariant) T) as [L F].
  split; [symmetry; exact L|]. intro k. symmetry. apply F.
Qed.
Lemma final_nonneg t x : In x (nth t (fst st) []) -> (0 <= x)%Z.
Proof.
  intro X. destruct (Nat.lt_ge_cases t (length (fst st))) as [T|T]; [|rewrite nth_overflow in X by exact T; destruct X].
  exact (g_nonneg _ _ _ _ _ _ (c_good _ _ _ _ (i_cons _ _ _ _ _ _ _ final_invariant) t T) x X).
Qed.
Lemma final_one_time x j k : (0 < x)%Z -> In x (nth j (fst st) []) -> In x (nth k (fst st) []) -> j = k.
Proof.
  intros P J K. destruct (Nat.eq_dec j k) as [E|N]; [exact E|]. exfalso.
  destruct (Nat.lt_ge_cases j (length (fst st))) as [T|T]; [|rewrite nth_overflow in J by exact T; destruct J].
  apply (g_sep _ _ _ _ _ _ (c_good _ _ _ _ (i_cons _ _ _ _ _ _ _ final_invariant) j T) x P J).
  split; [exact P|]. exists k. auto.
Qed.
Lemma final_some : exists t x, (0 < x)%Z /\ In x (nth t (fst st) []).
Proof.
  destruct In0 as (_ & _ & _ & t & x & P & X).
  destruct (Nat.lt_ge_cases t (length all)) as [T|T]; [|rewrite nth_overflow in X by exact T; destruct X].
  destruct (In_nth _ _ 0%Z X) as (k & K & E). destruct (final_foot t T) as [L F].
  assert (Q0 : (0 < nth k (nth t (fst st) []) 0)%Z) by (apply F; lia).
  exists t, (nth k (nth t (fst st) []) 0%Z). split; [exact Q0|]. apply nth_In. lia.
Qed.
Lemma final_lengths f : In f (fst st) -> length f = length w.
Proof. apply (invariant_length _ _ _ _ _ _ _ _ final_invariant). Qed.

Lemma final_series : labelled_series (length w) (fst st).
Proof.
  split; [exact final_lengths|]. split.
  - intros f x F X. apply (In_nth _ _ []) in F. destruct F as (i & I & <-). apply (final_nonneg i). exact X.
  - split; [exact final_one_time|exact final_some].
Qed.

Lemma final_table : table_for w cent (fst st) (s_props (snd st)).
Proof.
  assert (C := i_cons _ _ _ _ _ _ _ final_invariant).
  assert (Nd : NoDup (prop_ids (s_props (snd st)))).
  { destruct final_some as (t & x & P & X).
    destruct (Nat.lt_ge_cases t (length (fst st))) as [T|T]; [|rewrite nth_overflow in X by exact T; destruct X].
    exact (g_nodup _ _ _ _ _ _ (c_good _ _ _ _ C t T)). }
  split; [exact Nd|]. split.
  - intro x. change (map fst (s_props (snd st))) with (prop_ids (s_props (snd st))). split.
    + intro X. destruct final_some as (t & y & _ & Y).
      destruct (Nat.lt_ge_cases t (length (fst st))) as [T|T]; [|rewrite nth_overflow in Y by exact T; destruct Y].
      apply (g_ids _ _ _ _ _ _ (c_good _ _ _ _ C t T)) in X. destruct X as [P [X|(_ & j & _ & X)]]; eauto.
    + intros (P & t & X).
      destruct (Nat.lt_ge_cases t (length (fst st))) as [T|T]; [|rewrite nth_overflow in X by exact T; destruct X].
      apply (g_ids _ _ _ _ _ _ (c_good _ _ _ _ C t T)). auto.
  - intros t x p X Hp.
    destruct (Nat.lt_ge_cases t (length (fst st))) as [T|T]; [|rewrite nth_overflow in X by exact T; destruct X].
    assert (G := c_good _ _ _ _ C t T). apply (In_lookup _ _ _ Nd) in Hp.
    apply (g_measure _ _ _ _ _ _ G) in Hp; [|exact X|discriminate]. subst p. split; [|reflexivity].
    apply area_of_object. apply G.
Qed.

Lemma old_bound t x : In x (nth t all []) -> (x < s_next (initial w cent all))%Z.
Proof.
  intro X. unfold initial. cbn [s_next]. destruct (Z.lt_ge_cases 0 x) as [P|P].
  - assert (I : In x (prop_ids (initial_props w cent all))) by (apply initial_ids; eauto). apply arr_max_ge in I. lia.
  - destruct In0 as (_ & _ & _ & t0 & y & P0 & Y).
    assert (I : In y (prop_ids (initial_props w cent all))) by (apply initial_ids; eauto). apply arr_max_ge in I. lia.
Qed.

Lemma final_fresh :
  NoDup (new_ids (s_events (snd st))) /\
  (forall x, In x (new_ids (s_events (snd st))) -> (0 < x)%Z /\ forall t, ~ In x (nth t all [])) /\
  (forall t x, In x (nth t (fst st) []) -> In x (nth t all []) \/ In x (new_ids (s_events (snd st)))).
Proof.
  assert (V := final_invariant). assert (K := i_created _ _ _ _ _ _ _ V).
  change (created (s_events (snd st))) with (new_ids (s_events (snd st))) in K. rewrite K.
  split; [apply arangeZ_NoDup|]. split.
  - intros x X. apply arangeZ_In in X. split.
    + destruct In0 as (_ & _ & _ & t0 & y & P0 & Y). assert (B := old_bound t0 y Y). lia.
    + intros t Y. apply old_bound in Y. lia.
  - intros t x X. destruct (i_ids _ _ _ _ _ _ _ V t x X) as [Y|Y]; [left; exact Y|right].
    apply arangeZ_In. assert (B := c_bound _ _ _ _ (i_cons _ _ _ _ _ _ _ V) t x X).
    assert (N := i_next _ _ _ _ _ _ _ V). lia.
Qed.

Lemma final_events e : In e (s_events (snd st)) ->
  1 <= e_time e < length all /\
  2 <= length (e_parents e) /\ length (e_children e) = length (e_parents e) /\
  length (e_areas e) = length (e_parents e) /\
  NoDup (e_parents e) /\ NoDup (e_children e) /\
  (forall p, In p (e_parents e) -> (0 < p)%Z /\ In p (nth (e_time e - 1) (fst st) [])) /\
  (forall c, In c (tl (e_children e)) -> In c (new_ids (s_events (snd st)))) /\
  (In (hd 0%Z (e_children e)) (nth (e_time e) all []) \/ In (hd 0%Z (e_children e)) (new_ids (s_events (snd st)))).
Proof.
  intro He. assert (V := final_invariant).
  assert (Ev := proj1 (Forall_forall _ _) (i_events _ _ _ _ _ _ _ V) e He). cbv beta in Ev.
  destruct Ev as (T & _ & A & B & C & D & E & F & G). repeat (split; [assumption|]). split.
  - intros c X. unfold new_ids. apply in_flat_map. exists e. auto.
  - assert (Hh := proj1 (Forall_forall _ _) (i_heads _ _ _ _ _ _ _ V) e He). cbv beta in Hh.
    destruct Hh as [X|X]; [left; exact X|right].
    change (new_ids (s_events (snd st))) with (created (s_events (snd st))).
    rewrite (i_created _ _ _ _ _ _ _ V). apply arangeZ_In. lia.
Qed.
End Final.
