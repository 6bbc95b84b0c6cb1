(** Splitting and merging never put two cells in one object that the data does
    not connect. *)
From Coq Require Import Sorted.
From Verif Require Import Base Filter FilterProofs Overlap OverlapSpec OverlapProofs ConsolidateProofs
  ConsolidateMore Merge MergeSpec MergeProofs MergeLoop MergeMore MergeChunks ClusterSpec.
Open Scope nat_scope.

Section Refine.
Variables (w : list Q) (cent : list bool -> Q * Q) (thr : Q).
Variable part : props -> list Z -> list bool -> list Z -> list Z -> list Z.
Hypothesis Cov : covers (length w) part.
Variable orig : list (list Z).
(** Cells (time, position) that belong together. *)
Variable E : nat -> nat -> nat -> nat -> Prop.
Hypothesis Esym : forall t k u l, E t k u l -> E u l t k.
Hypothesis Etr : forall t k u l v m, E t k u l -> E u l v m -> E t k v m.
Hypothesis Estep : forall t k, k < length w -> (0 < id_at orig t k)%Z -> (0 < id_at orig (S t) k)%Z -> E t k (S t) k.

Definition tied_at (t : nat) (f : list Z) : Prop :=
  forall k l, k < length w -> l < length w -> (0 < nth k f 0)%Z -> nth k f 0%Z = nth l f 0%Z -> E t k t l.
Definition tied (all : list (list Z)) : Prop := forall t, t < length all -> tied_at t (nth t all []).

Lemma tied_update l1 f f' l2 : tied (l1 ++ f :: l2) -> tied_at (length l1) f' -> tied (l1 ++ f' :: l2).
Proof.
  intros H N t T. rewrite (nth_upd l1 f f' l2). destruct (Nat.eqb_spec t (length l1)) as [->|D]; [exact N|].
  apply H. rewrite app_length in *. exact T.
Qed.
Lemma tied_here l1 f l2 : tied (l1 ++ f :: l2) -> tied_at (length l1) f.
Proof.
  intro H. assert (T : length l1 < length (l1 ++ f :: l2)) by (rewrite app_length; simpl; lia).
  specialize (H _ T). rewrite nth_mid in H. exact H.
Qed.

(** Division refines. *)
Definition refines (f f' : list Z) : Prop :=
  forall k l, k < length w -> l < length w -> nth k f' 0%Z = nth l f' 0%Z -> nth k f 0%Z = nth l f 0%Z.
Definition below (f : list Z) (b : Z) : Prop := forall k, k < length w -> (nth k f 0 < b)%Z.

Lemma divide_refines t prev ov cur s child : length prev = length w -> length cur = length w ->
  2 <= count (fun r => Z.eqb (r_to r) child) ov -> below cur (s_next s) ->
  let st := divide_child w cent part t prev ov (cur, s) child in
  refines cur (fst st) /\ below (fst st) (s_next (snd st)) /\ length (fst st) = length w.
Proof.
  intros Lp Lc C2 B. destruct (divide_cells w cent part _ Cov t prev ov cur s child Lp Lc C2) as (e & _ & _ & Ec & _ & _ & En & Ln & Cells).
  cbv zeta in *. set (st := divide_child w cent part t prev ov (cur, s) child) in *.
  assert (New : forall x, In x (e_children e) -> x = child \/ (s_next s <= x < s_next (snd st))%Z).
  { intros x X. rewrite Ec in X. destruct X as [X|X]; [left; congruence|]. right. unfold arangeZ in X. apply in_map_iff in X.
    destruct X as (j & <- & J). apply in_seq in J. lia. }
  split; [|split; [|exact Ln]].
  - intros k l K L Eq. destruct (Cells k K) as [Ka Kb]. destruct (Cells l L) as [La Lb].
    assert (Bk := B k K). assert (Bl := B l L).
    destruct (Z.eq_dec (nth k cur 0%Z) child) as [Ek|Nk], (Z.eq_dec (nth l cur 0%Z) child) as [El|Nl].
    + congruence.
    + specialize (Kb Ek). specialize (La Nl). apply New in Kb. destruct Kb; [congruence|lia].
    + specialize (Ka Nk). specialize (Lb El). apply New in Lb. destruct Lb; [congruence|lia].
    + rewrite <- Ka, <- La by assumption. exact Eq.
  - intros k K. destruct (Cells k K) as [Ka Kb]. assert (Bk := B k K).
    destruct (Z.eq_dec (nth k cur 0%Z) child) as [Ek|Nk].
    + specialize (Kb Ek). apply New in Kb. destruct Kb as [Kb|Kb]; [rewrite Kb; lia|lia].
    + rewrite Ka by exact Nk. lia.
Qed.
Lemma divide_all_refines t prev ov : length prev = length w -> forall ch cur s, length cur = length w ->
  (forall c, In c ch -> 2 <= count (fun r => Z.eqb (r_to r) c) ov) -> below cur (s_next s) ->
  let st := fold_left (divide_child w cent part t prev ov) ch (cur, s) in
  refines cur (fst st) /\ below (fst st) (s_next (snd st)) /\ length (fst st) = length w.
Proof.
  intro Lp. induction ch as [|c ch IH]; intros cur s Lc C2 B; cbn [fold_left].
  - split; [intros k l _ _ H; exact H|]. split; assumption.
  - destruct (divide_refines t prev ov cur s c Lp Lc (C2 c (or_introl eq_refl)) B) as (R & B' & L').
    destruct (divide_child w cent part t prev ov (cur, s) c) as [cur1 s1]. cbn [fst snd] in R, B', L'.
    destruct (IH cur1 s1 L' (fun d D => C2 d (or_intror D)) B') as (R2 & B2 & L2).
    split; [|split; assumption]. intros k l K L Eq. apply R; try assumption. apply R2; assumption.
Qed.
Lemma settle_refines t prev : length prev = length w -> forall fuel cur s, length cur = length w -> below cur (s_next s) ->
  refines cur (fst (settle w cent thr part fuel t prev cur s)).
Proof.
  intro Lp. induction fuel as [|fuel IH]; intros cur s Lc B; cbn [settle]; cbv zeta; [intros k l _ _ H; exact H|].
  set (ov := enforce_threshold thr (s_props s) (check_overlap w prev cur)).
  destruct (merging_children ov) as [|c ch] eqn:M; [intros k l _ _ H; exact H|].
  assert (C2 : forall d, In d (c :: ch) -> 2 <= count (fun r => Z.eqb (r_to r) d) ov).
  { intros d D. rewrite <- M in D. unfold merging_children in D. apply filter_In in D. destruct D as [_ D]. apply Nat.ltb_lt in D. lia. }
  destruct (divide_all_refines t prev ov Lp (c :: ch) cur s Lc C2 B) as (R & B' & L').
  destruct (fold_left (divide_child w cent part t prev ov) (c :: ch) (cur, s)) as [cur1 s1]. cbn [fst snd] in R, B', L'.
  assert (R2 := IH cur1 s1 L' B'). intros k l K L Eq. apply R; try assumption. apply R2; assumption.
Qed.

(** Consolidation joins only pieces that meet one earlier object. *)
Section Join.
Variables (t : nat) (f2 f1 : list Z).
Hypothesis L2 : length f2 = length w.
Hypothesis L1 : length f1 = length w.
Hypothesis T2 : tied_at t f2.
Hypothesis Foot2 : forall k, k < length w -> (0 < nth k f2 0)%Z -> (0 < id_at orig t k)%Z.
Hypothesis Foot1 : forall k, k < length w -> (0 < nth k f1 0)%Z -> (0 < id_at orig (S t) k)%Z.

Definition joint (f : list Z) (ps : props) : Prop :=
  tied_at (S t) f /\ length f = length w /\
  forall x k, In x (prop_ids ps) -> k < length w -> nth k f1 0%Z = x -> nth k f 0%Z = x.

Lemma rename_joint f ps first child kf kc : joint f ps -> first <> child -> In first (prop_ids ps) -> In child (prop_ids ps) ->
  kf < length w -> nth kf f1 0%Z = first -> kc < length w -> nth kc f1 0%Z = child -> E (S t) kf (S t) kc ->
  (0 < first)%Z -> (0 < child)%Z ->
  joint (rename child first f) (drop_id child ps).
Proof.
  intros (T & L & O) Ne Pf Pc Kf Ef Kc Ec J P P'.
  assert (Vf : nth kf f 0%Z = first) by (apply O; assumption). assert (Vc : nth kc f 0%Z = child) by (apply O; assumption).
  assert (N : forall k, k < length w -> nth k (rename child first f) 0%Z = if Z.eqb (nth k f 0%Z) child then first else nth k f 0%Z).
  { intros k K. unfold rename. set (g := fun v : Z => if Z.eqb v child then first else v). rewrite (nth_map0 g) by (rewrite L; exact K). reflexivity. }
  split; [|split].
  - intros k l K Kl Pk Eq. rewrite !N in Eq by assumption. rewrite N in Pk by assumption.
    destruct (Z.eqb_spec (nth k f 0%Z) child) as [A|A], (Z.eqb_spec (nth l f 0%Z) child) as [B|B].
    + apply T; solve [assumption|lia|congruence].
    + apply (Etr _ _ (S t) kc); [apply T; solve [assumption|lia|congruence]|]. apply (Etr _ _ (S t) kf); [apply Esym; exact J|].
      apply T; solve [assumption|lia|congruence].
    + apply (Etr _ _ (S t) kf); [apply T; solve [assumption|lia|congruence]|]. apply (Etr _ _ (S t) kc); [exact J|].
      apply T; solve [assumption|lia|congruence].
    + apply T; assumption.
  - unfold rename. rewrite map_length. exact L.
  - intros x k X K V. apply drop_ids in X. destruct X as [X Nx]. rewrite N by exact K. rewrite (O x k X K V).
    destruct (Z.eqb_spec x child); [contradiction|reflexivity].
Qed.

(** All children of one parent. *)
Lemma rename_all_joint p first rest : (0 < p)%Z -> (0 < first)%Z -> meets f2 f1 p first ->
  (forall c, In c rest -> (0 < c)%Z /\ meets f2 f1 p c) -> ~ In first rest ->
  forall f ps, joint f ps -> In first (prop_ids ps) ->
  let st := fold_left (rename_child first) rest (f, ps) in joint (fst st) (snd st).
Proof.
  intros Pp Pf Mf. induction rest as [|c rest IH]; intros Mc Nf f ps J I; cbn [fold_left]; [exact J|].
  assert (Nf' : ~ In first rest) by (intro C; apply Nf; right; exact C).
  assert (Mc' : forall d, In d rest -> (0 < d)%Z /\ meets f2 f1 p d) by (intros d D; apply Mc; right; exact D).
  unfold rename_child at 2 4. destruct (memZ c (prop_ids ps)) eqn:M; [|apply IH; assumption].
  apply memZ_In in M. destruct (Mc c (or_introl eq_refl)) as (Pc & kc & Kc & Ac & Bc). destruct Mf as (kf & Kf & Af & Bf).
  rewrite L2 in Kc, Kf.
  assert (Ne : first <> c) by (intros ->; apply Nf; left; reflexivity).
  apply IH; try assumption.
  - apply (rename_joint f ps first c kf kc); try assumption.
    apply (Etr _ _ t kf); [apply Esym, Estep; [exact Kf|apply Foot2; [exact Kf|lia]|apply Foot1; [exact Kf|lia]]|].
    apply (Etr _ _ t kc); [apply T2; solve [assumption|lia|congruence]|].
    apply Estep; [exact Kc|apply Foot2; [exact Kc|lia]|apply Foot1; [exact Kc|lia]].
  - apply drop_ids. split; assumption.
Qed.

Lemma parent_joint ov p f ps : NoDup (group ov p) ->
  (forall r, In r ov -> (0 < r_from r)%Z /\ (0 < r_to r)%Z /\ meets f2 f1 (r_from r) (r_to r)) ->
  joint f ps -> let st := consolidate_parent w cent ov (f, ps) p in joint (fst st) (snd st).
Proof.
  intros Nd Ho J. unfold consolidate_parent. destruct (negb (memZ p (prop_ids ps))); [exact J|].
  fold (group ov p). destruct (group ov p) as [|first [|c rest]] eqn:G; [exact J|exact J|].
  destruct (memZ first (prop_ids ps)) eqn:M; cbn [negb]; [|exact J]. apply memZ_In in M.
  assert (Hg : forall x, In x (first :: c :: rest) -> (0 < p)%Z /\ (0 < x)%Z /\ meets f2 f1 p x).
  { intros x X. rewrite <- G in X. apply group_In in X. destruct X as (r & R & <- & <-). apply Ho. exact R. }
  inversion Nd as [|? ? Nf Nd']; subst.
  destruct (Hg first (or_introl eq_refl)) as (Pp & Pf & Mf).
  assert (A := rename_all_joint p first (c :: rest) Pp Pf Mf (fun x X => proj2 (Hg x (or_intror X))) Nf f ps J M).
  cbv zeta in A. destruct (fold_left (rename_child first) (c :: rest) (f, ps)) as [f' ps']. cbn [fst snd] in A.
  destruct (memZ first f'); [|exact A]. cbn [fst snd]. destruct A as (A & B & C). split; [exact A|]. split; [exact B|].
  intros x k X. apply C. rewrite set_prop_ids in X. exact X.
Qed.

Lemma consolidate_tied s : tied_at (S t) f1 -> tied_at (S t) (fst (consolidate_st w cent thr f2 f1 s)).
Proof.
  intro T1. unfold consolidate_st, consolidate.
  set (ov := enforce_threshold thr (s_props s) (check_overlap w f2 f1)).
  assert (Nd : NoDup (map row_pair ov)) by (apply enforce_subsequence, check_overlap_NoDup; [rewrite L1; exact L2|exact L2]).
  assert (Ho : forall r, In r ov -> (0 < r_from r)%Z /\ (0 < r_to r)%Z /\ meets f2 f1 (r_from r) (r_to r)).
  { intros r R. apply filter_In in R. destruct R as [R _].
    destruct (check_overlap_sound w f2 f1 ltac:(rewrite L1; exact L2) L2 r R) as (A & B & C & _). auto. }
  assert (J0 : joint f1 (s_props s)) by (split; [exact T1|split; [exact L1|auto]]).
  assert (J : let st := fold_left (consolidate_parent w cent ov) (splitting_parents ov) (f1, s_props s) in joint (fst st) (snd st)).
  { generalize (splitting_parents ov). intro l. set (g := f1) in J0 |- * at 1. generalize (s_props s), g, J0. clear J0.
    induction l as [|p l IH]; intros ps f J; cbn [fold_left]; [exact J|].
    assert (A := parent_joint ov p f ps (group_NoDup ov p Nd) Ho J). cbv zeta in A.
    destruct (consolidate_parent w cent ov (f, ps) p) as [f' ps']. apply IH. exact A. }
  cbv zeta in J. destruct (fold_left (consolidate_parent w cent ov) (splitting_parents ov) (f1, s_props s)) as [f' ps']. apply J.
Qed.
End Join.

(** The loop. *)
Variable s0 : mstate.
Definition inv2 (all : list (list Z)) (s : mstate) (T : nat) : Prop := invariant w cent orig s0 all s T /\ tied all.

Lemma inv_foot all s T t k : invariant w cent orig s0 all s T -> t < length all ->
  (0 < nth k (nth t all []) 0)%Z -> (0 < id_at orig t k)%Z.
Proof.
  intros V Ht P. assert (F := i_foot _ _ _ _ _ _ _ V).
  assert (L : length orig = length all) by (clear - F; induction F; simpl; congruence).
  destruct (Forall2_nth_local _ _ _ [] [] t F ltac:(rewrite L; exact Ht)) as [_ S]. apply S. exact P.
Qed.
Lemma inv_below all s T t : invariant w cent orig s0 all s T -> t < length all -> below (nth t all []) (s_next s).
Proof.
  intros V Ht k K. apply (c_bound _ _ _ _ (i_cons _ _ _ _ _ _ _ V) t). apply nth_In.
  rewrite (invariant_length _ _ _ _ _ _ _ _ V (nth_In _ _ Ht)). exact K.
Qed.

Lemma consolidate_inv2 l1 f l2 s T f2 : inv2 (l1 ++ f :: l2) s T -> T <= S (length l1) -> length f2 = length w ->
  (exists a, f2 = zeros_like a) \/ (exists l0, l1 = l0 ++ [f2]) ->
  let st := consolidate_st w cent thr f2 f s in inv2 (l1 ++ fst st :: l2) (snd st) T.
Proof.
  intros [V Td] HT L2 Hf. split; [apply consolidate_invariant; assumption|].
  destruct Hf as [(a & ->)|(l0 & ->)]; [rewrite consolidate_zero; exact Td|].
  apply (tied_update _ f); [exact Td|]. rewrite app_length. cbn [length]. rewrite Nat.add_1_r.
  assert (Lf : length f = length w) by (apply (invariant_length _ _ _ _ _ _ _ _ V); rewrite !in_app_iff; simpl; intuition).
  apply consolidate_tied; try assumption.
  - apply (tied_here l0 f2 (f :: l2)). rewrite <- app_assoc in Td. exact Td.
  - intros k K P. apply (inv_foot _ _ _ (length l0) k V); [rewrite !app_length; simpl; lia|].
    rewrite <- app_assoc. cbn [app]. rewrite nth_mid. exact P.
  - intros k K P. apply (inv_foot _ _ _ (S (length l0)) k V); [rewrite !app_length; simpl; lia|].
    assert (X := nth_mid (l0 ++ [f2]) f l2 []). rewrite app_length in X. cbn [length] in X. rewrite Nat.add_1_r in X. rewrite X. exact P.
  - assert (X := tied_here _ _ _ Td). rewrite app_length in X. cbn [length] in X. rewrite Nat.add_1_r in X. exact X.
Qed.
Lemma settle_inv2 l1 f l2 s prev : inv2 (l1 ++ f :: l2) s (length l1) -> length prev = length w ->
  (forall x, In x prev -> (x <= 0)%Z) \/ (exists l0, l1 = l0 ++ [prev]) ->
  let st := settle w cent thr part 10 (length l1) prev f s in inv2 (l1 ++ fst st :: l2) (snd st) (S (length l1)).
Proof.
  intros [V Td] Lp Hp. split; [apply settle_invariant; assumption|].
  apply (tied_update _ f); [exact Td|]. assert (Tf := tied_here _ _ _ Td).
  assert (Ti : length l1 < length (l1 ++ f :: l2)) by (rewrite app_length; simpl; lia).
  assert (Lf : length f = length w) by (apply (invariant_length _ _ _ _ _ _ _ _ V); rewrite !in_app_iff; simpl; intuition).
  assert (B := inv_below _ _ _ _ V Ti). rewrite nth_mid in B.
  assert (R := settle_refines (length l1) prev Lp 10 f s Lf B).
  intros k l K L P Eq. apply Tf; try assumption; [|apply R; assumption].
  assert (S := settle_step w cent thr part Cov (length l1) prev l1 f l2 s (i_cons _ _ _ _ _ _ _ V) Lp).
  apply (st_foot _ _ _ _ _ _ _ _ _ S). exact P.
Qed.

Lemma run_chunk_inv2 prevc pre F :
  prevc = [] \/ (exists P, pre = P ++ rev prevc) ->
  forall todo done s,
  inv2 (pre ++ rev done ++ todo ++ F) s (length (pre ++ rev done)) ->
  let st := run_chunk w cent thr part prevc done todo (length (pre ++ rev done)) s in
  inv2 (pre ++ rev (fst st) ++ F) (snd st) (length (pre ++ rev done) + length todo) /\
  length (fst st) = length done + length todo.
Proof.
  intro Hpre. induction todo as [|cur rest IH]; intros done s V; cbn [run_chunk].
  - cbn [app length] in *. rewrite Nat.add_0_r.
    destruct done as [|last [|second r]]; [cbn [fst snd]; split; [exact V|reflexivity]|cbn [fst snd]; split; [exact V|simpl; lia]|].
    assert (Eq : forall x, pre ++ rev (x :: second :: r) ++ F = (pre ++ rev (second :: r)) ++ x :: F).
    { intro x. cbn [rev]. rewrite <- !app_assoc. reflexivity. }
    rewrite Eq in V.
    assert (L2 : length second = length w).
    { apply (invariant_length _ _ _ _ _ _ _ second (proj1 V)). cbn [rev]. rewrite !in_app_iff; simpl; intuition. }
    assert (V' := consolidate_inv2 (pre ++ rev (second :: r)) last F s _ second V).
    destruct (consolidate_st w cent thr second last s) as [last' s'] eqn:Ec. cbn [fst snd] in *.
    split; [|cbn [length]; lia]. rewrite Eq. apply V'; [|exact L2|].
    + rewrite !app_length. simpl. rewrite !app_length. simpl. lia.
    + right. exists (pre ++ rev r). cbn [rev]. rewrite app_assoc. reflexivity.
  - destruct done as [|m1 older].
    + cbn [rev app] in *. rewrite app_nil_r in *.
      set (prev := match prevc with p :: _ => p | [] => zeros_like cur end).
      assert (Lc : length cur = length w).
      { apply (invariant_length _ _ _ _ _ _ _ cur (proj1 V)). rewrite in_app_iff. simpl. intuition. }
      assert (Hp : length prev = length w /\ ((forall x, In x prev -> (x <= 0)%Z) \/ (exists l0, pre = l0 ++ [prev]))).
      { unfold prev. destruct prevc as [|p pc].
        - split; [unfold zeros_like; rewrite map_length; exact Lc|]. left. intros x X.
          apply in_map_iff in X. destruct X as (? & <- & _). lia.
        - destruct Hpre as [C|(P & ->)]; [discriminate|]. cbn [rev] in *. split.
          + apply (invariant_length _ _ _ _ _ _ _ p (proj1 V)). rewrite !in_app_iff; simpl; intuition.
          + right. exists (P ++ rev pc). rewrite app_assoc. reflexivity. }
      assert (V' := settle_inv2 pre cur (rest ++ F) s prev V (proj1 Hp) (proj2 Hp)).
      destruct (settle w cent thr part 10 (length pre) prev cur s) as [cur' s'] eqn:Es. cbn [fst snd] in *.
      assert (Hl : length (pre ++ rev [cur']) = S (length pre)) by (rewrite app_length; simpl; lia).
      assert (IH' := IH [cur'] s'). rewrite Hl in IH'.
      destruct IH' as [A B]; [exact V'|].
      cbn [length] in *. split; [|lia].
      replace (length pre + S (length rest)) with (S (length pre) + length rest) by lia. exact A.
    + set (m2 := match older with m2 :: _ => m2 | [] => match prevc with p :: _ => p | [] => zeros_like cur end end).
      assert (Eq : forall m, pre ++ rev (m :: older) ++ (cur :: rest) ++ F = (pre ++ rev older) ++ m :: (cur :: rest) ++ F).
      { intro m. cbn [rev]. rewrite <- !app_assoc. reflexivity. }
      rewrite Eq in V.
      assert (Lc : length cur = length w).
      { apply (invariant_length _ _ _ _ _ _ _ cur (proj1 V)). rewrite !in_app_iff; simpl; intuition. }
      assert (H2 : (exists a, m2 = zeros_like a) \/ (exists l0, pre ++ rev older = l0 ++ [m2])).
      { unfold m2. destruct older as [|o older'].
        - destruct prevc as [|p pc]; [left; exists cur; reflexivity|].
          destruct Hpre as [C|(P & ->)]; [discriminate|]. right. exists (P ++ rev pc). cbn [rev]. rewrite app_nil_r, app_assoc. reflexivity.
        - right. exists (pre ++ rev older'). cbn [rev]. rewrite app_assoc. reflexivity. }
      assert (L2 : length m2 = length w).
      { destruct H2 as [(a & Ea)|(l0 & El)].
        - unfold m2 in *. destruct older as [|o older'].
          + destruct prevc as [|p pc]; [unfold zeros_like; rewrite map_length; exact Lc|].
            destruct Hpre as [C|(P & ->)]; [discriminate|].
            apply (invariant_length _ _ _ _ _ _ _ p (proj1 V)). cbn [rev]. rewrite !in_app_iff; simpl; intuition.
          + apply (invariant_length _ _ _ _ _ _ _ o (proj1 V)). cbn [rev]. rewrite !in_app_iff; simpl; intuition.
        - rewrite El in V. apply (invariant_length _ _ _ _ _ _ _ m2 (proj1 V)). rewrite !in_app_iff; simpl; intuition. }
      assert (Hlen : length (pre ++ rev (m1 :: older)) = S (length (pre ++ rev older))).
      { cbn [rev]. rewrite app_assoc, app_length. simpl. lia. }
      assert (V1 := consolidate_inv2 (pre ++ rev older) m1 ((cur :: rest) ++ F) s _ m2 V).
      destruct (consolidate_st w cent thr m2 m1 s) as [m1' s1] eqn:Ec. cbn [fst snd] in V1.
      specialize (V1 ltac:(lia) L2 H2). rewrite <- Eq in V1.
      assert (Hlen' : length (pre ++ rev (m1' :: older)) = S (length (pre ++ rev older))).
      { cbn [rev]. rewrite app_assoc, app_length. simpl. lia. }
      assert (V2 : inv2 ((pre ++ rev (m1' :: older)) ++ cur :: (rest ++ F)) s1 (length (pre ++ rev (m1' :: older)))).
      { rewrite Hlen', <- Hlen. rewrite <- app_assoc. exact V1. }
      assert (L1' : length m1' = length w).
      { apply (invariant_length _ _ _ _ _ _ _ m1' (proj1 V2)). cbn [rev]. rewrite !in_app_iff; simpl; intuition. }
      assert (V3 := settle_inv2 (pre ++ rev (m1' :: older)) cur (rest ++ F) s1 m1' V2 L1').
      rewrite Hlen', <- Hlen in V3.
      destruct (settle w cent thr part 10 (length (pre ++ rev (m1 :: older))) m1' cur s1) as [cur' s'] eqn:Es.
      cbn [fst snd] in V3.
      assert (IH' := IH (cur' :: m1' :: older) s').
      assert (Hl : length (pre ++ rev (cur' :: m1' :: older)) = S (length (pre ++ rev (m1 :: older)))).
      { rewrite !app_length, !rev_length. simpl. lia. }
      rewrite Hl in IH'. destruct IH' as [A B].
      * assert (Hl0 : exists l0, pre ++ rev (m1' :: older) = l0 ++ [m1']).
        { exists (pre ++ rev older). cbn [rev]. rewrite app_assoc. reflexivity. }
        assert (V4 := V3 (or_intror Hl0)).
        cbn [rev] in *. rewrite <- !app_assoc in *. exact V4.
      * cbn [length] in *. split; [|lia].
        replace (length (pre ++ rev (m1 :: older)) + S (length rest)) with (S (length (pre ++ rev (m1 :: older))) + length rest) by lia.
        exact A.
Qed.

Lemma run_chunks_inv2 : forall chunks prevc pre s,
  prevc = [] \/ (exists P, pre = P ++ rev prevc) ->
  inv2 (pre ++ concat chunks) s (length pre) ->
  let st := run_chunks w cent thr part prevc chunks (length pre) s in
  inv2 (pre ++ rev (fst st)) (snd st) (length pre + length (concat chunks)).
Proof.
  induction chunks as [|c r IH]; intros prevc pre s Hp V; cbn [run_chunks concat].
  - cbn [fst snd rev length concat] in *. rewrite Nat.add_0_r. exact V.
  - cbn [concat] in V.
    destruct (run_chunk_inv2 prevc pre (concat r) Hp c [] s) as [V1 L1].
    { cbn [rev app]. rewrite app_nil_r. exact V. }
    cbn [rev app] in V1, L1. rewrite app_nil_r in V1, L1.
    destruct (run_chunk w cent thr part prevc [] c (length pre) s) as [done s1]. cbn [fst snd] in *.
    cbn [length plus] in L1.
    assert (Hl : length (pre ++ rev done) = length pre + length c) by (rewrite app_length, rev_length; lia).
    assert (IH' := IH done (pre ++ rev done) s1). rewrite Hl in IH'.
    assert (V2 := IH' (or_intror (ex_intro _ pre eq_refl))). rewrite <- app_assoc in V2. specialize (V2 V1). cbv zeta in V2.
    destruct (run_chunks w cent thr part done r (length pre + length c) s1) as [later s2]. cbn [fst snd] in *.
    rewrite app_length. rewrite rev_app_distr, app_assoc.
    replace (length pre + (length c + length (concat r))) with (length pre + length c + length (concat r)) by lia.
    rewrite <- app_assoc. rewrite <- app_assoc in V2. exact V2.
Qed.
End Refine.

(** Cells of one final object belong together, and so do cells of chained ones. *)
Section Final.
Variables (w : list Q) (cent : list bool -> Q * Q) (thr : Q).
Variable part : props -> list Z -> list bool -> list Z -> list Z -> list Z.
Hypothesis Cov : covers (length w) part.
Variable chunks : list (list (list Z)).
Let all := concat chunks.
Hypothesis In0 : labelled_series (length w) all.
Variable E : nat -> nat -> nat -> nat -> Prop.
Hypothesis Esym : forall t k u l, E t k u l -> E u l t k.
Hypothesis Etr : forall t k u l v m, E t k u l -> E u l v m -> E t k v m.
Hypothesis Estep : forall t k, k < length w -> (0 < id_at all t k)%Z -> (0 < id_at all (S t) k)%Z -> E t k (S t) k.
Hypothesis Eobj : forall t k l, k < length w -> l < length w -> (0 < id_at all t k)%Z -> id_at all t k = id_at all t l -> E t k t l.
Let st := split_and_merge w cent thr part chunks.

Lemma final_tied : tied w E (fst st).
Proof.
  destruct In0 as (A & B & C & D). unfold st, split_and_merge. fold all.
  change (mkState (initial_props w cent all) (arr_max (prop_ids (initial_props w cent all)) + 1) []) with (initial w cent all).
  assert (H := run_chunks_inv2 w cent thr part Cov all E Esym Etr Estep (initial w cent all) chunks [] [] (initial w cent all) (or_introl eq_refl)).
  cbn [app length] in H. fold all in H.
  assert (I : inv2 w cent all E (initial w cent all) all (initial w cent all) 0).
  { split; [apply initial_invariant; assumption|]. intros t _ k l K L P Eq. apply Eobj; assumption. }
  specialize (H I). cbv zeta in H.
  destruct (run_chunks w cent thr part [] chunks 0 (initial w cent all)) as [fields s]. cbn [fst snd] in *. apply H.
Qed.

Lemma chained_tied t k u l : t < length all -> k < length w -> u < length all -> l < length w ->
  (0 < id_at (fst st) t k)%Z -> (0 < id_at (fst st) u l)%Z ->
  chained (consecutive_overlap w thr (fst st)) (id_at (fst st) t k) (id_at (fst st) u l) -> E t k u l.
Proof.
  intros Ht Hk Hu Hl Pk Pl H.
  assert (Len := final_length w cent thr part Cov chunks In0). fold st in Len.
  assert (Ln : forall v, v < length all -> length (nth v (fst st) []) = length w).
  { intros v V. apply (final_lengths w cent thr part Cov chunks In0). apply nth_In. fold st. fold all in Len. lia. }
  assert (Pres : forall v j, v < length all -> j < length w -> In (id_at (fst st) v j) (nth v (fst st) [])).
  { intros v j V J. apply nth_In. rewrite Ln by exact V. exact J. }
  assert (Same : forall v j v' j', v < length all -> j < length w -> v' < length all -> j' < length w -> (0 < id_at (fst st) v j)%Z ->
            id_at (fst st) v j = id_at (fst st) v' j' -> E v j v' j').
  { intros v j v' j' V J V' J' P Eq.
    assert (v = v').
    { apply (final_one_time w cent thr part Cov chunks In0 (id_at (fst st) v j)); [exact P|apply Pres; assumption|rewrite Eq; apply Pres; assumption]. }
    subst v'. apply final_tied; try assumption. fold all in Len. lia. }
  assert (Step : forall v j, S v < length all -> j < length w -> (0 < id_at (fst st) v j)%Z -> (0 < id_at (fst st) (S v) j)%Z -> E v j (S v) j).
  { intros v j V J P Q0.
    apply Estep; [exact J|apply (proj2 (final_foot w cent thr part Cov chunks In0 v ltac:(fold all; lia))); exact P|apply (proj2 (final_foot w cent thr part Cov chunks In0 (S v) V)); exact Q0]. }
  remember (id_at (fst st) t k) as a eqn:Ea. remember (id_at (fst st) u l) as b eqn:Eb.
  revert t k Ht Hk Ea. induction H as [x|x y z R H IH|x y z R H IH]; intros t k Ht Hk Ea.
  - apply Same; try assumption; [rewrite <- Ea; assumption|congruence].
  - destruct R as (v & V & Px & Py & (j & J & Jx & Jy) & _). fold all in Len. rewrite Len in V. rewrite Ln in J by lia.
    apply (Etr _ _ v j); [apply Same; try solve [assumption|lia]; unfold id_at in *; congruence|].
    apply (Etr _ _ (S v) j); [apply Step; try assumption; unfold id_at; lia|].
    apply IH; try assumption. unfold id_at. congruence.
  - destruct R as (v & V & Py & Px & (j & J & Jy & Jx) & _). fold all in Len. rewrite Len in V. rewrite Ln in J by lia.
    apply (Etr _ _ (S v) j); [apply Same; try solve [assumption|lia]; unfold id_at in *; congruence|].
    apply (Etr _ _ v j); [apply Esym, Step; try assumption; unfold id_at; lia|].
    apply IH; try assumption; try lia. unfold id_at. congruence.
Qed.
End Final.
