(** Invariants of the splitting and merging loop. *)
From Coq Require Import Sorted.
From Verif Require Import Base Filter FilterProofs Overlap OverlapSpec OverlapProofs ConsolidateProofs
  ConsolidateMore Merge.
Open Scope nat_scope.

Lemma arangeZ_In a n x : In x (arangeZ a n) <-> (a <= x < a + Z.of_nat n)%Z.
Proof.
  unfold arangeZ. rewrite in_map_iff. split.
  - intros (k & <- & K). apply in_seq in K. lia.
  - intro H. exists (Z.to_nat (x - a)). split; [lia|]. apply in_seq. lia.
Qed.
Lemma arangeZ_length a n : length (arangeZ a n) = n.
Proof. unfold arangeZ. rewrite map_length, seq_length. reflexivity. Qed.
Lemma arangeZ_NoDup a n : NoDup (arangeZ a n).
Proof. apply NoDup_map_inj; [|apply seq_NoDup]. intros x y _ _ E. lia. Qed.
Lemma arangeZ_app a n m : arangeZ a n ++ arangeZ (a + Z.of_nat n) m = arangeZ a (n + m).
Proof.
  unfold arangeZ. rewrite seq_app, map_app. f_equal.
  assert (E : forall b, map (fun k => (a + Z.of_nat n + Z.of_nat k)%Z) (seq b m) =
              map (fun k => (a + Z.of_nat k)%Z) (seq (b + n) m)).
  { induction m as [|m IH]; intro b; [reflexivity|]. cbn [seq map]. f_equal; [lia|]. exact (IH (S b)). }
  exact (E 0).
Qed.

(** ** Writing labels into the cells of a mask *)

Lemma assign_length : forall mask labels f, length (assign mask labels f) = length f.
Proof.
  induction mask as [|[] mask IH]; intros labels [|v f]; simpl; auto.
  destruct labels; simpl; rewrite IH; reflexivity.
Qed.
Lemma assign_nth : forall mask labels f k, length mask = length f ->
  count (fun b => b) mask <= length labels -> k < length f ->
  (nth k mask false = false -> nth k (assign mask labels f) 0%Z = nth k f 0%Z) /\
  (nth k mask false = true -> In (nth k (assign mask labels f) 0%Z) labels).
Proof.
  induction mask as [|b mask IH]; intros labels [|v f] k L C K; simpl in L, K; try lia.
  rewrite count_cons in C. destruct b.
  - destruct labels as [|l ls]; [simpl in C; lia|]. cbn [assign]. simpl in C.
    destruct k as [|k]; cbn [nth]; [split; [discriminate|left; reflexivity]|].
    destruct (IH ls f k) as [A B]; [lia|lia|lia|]. split; [exact A|right; apply B; assumption].
  - cbn [assign]. destruct k as [|k]; cbn [nth]; [split; [reflexivity|discriminate]|].
    apply IH; lia.
Qed.

Lemma mask_nth id f k : k < length f -> nth k (mask_of id f) false = Z.eqb id (nth k f 0%Z).
Proof.
  intro K. unfold mask_of. rewrite (nth_indep _ false (Z.eqb id 0)) by (rewrite map_length; exact K).
  apply map_nth.
Qed.
Lemma mask_length id f : length (mask_of id f) = length f.
Proof. apply map_length. Qed.

Lemma lookup_app id a b : lookup id (a ++ b) = match lookup id a with Some p => Some p | None => lookup id b end.
Proof.
  induction a as [|[k q] a IH]; [reflexivity|]. simpl. destruct (Z.eqb k id); [reflexivity|exact IH].
Qed.
Lemma lookup_filter id (g : Z -> bool) ps :
  lookup id (filter (fun e => g (fst e)) ps) = if g id then lookup id ps else None.
Proof.
  induction ps as [|[k q] ps IH]; [simpl; destruct (g id); reflexivity|]. cbn [filter fst].
  destruct (g k) eqn:G; simpl; rewrite IH.
  - destruct (Z.eqb_spec k id) as [E|E]; [rewrite <- E, G; reflexivity|reflexivity].
  - destruct (Z.eqb_spec k id) as [E|E]; [rewrite <- E, G; reflexivity|reflexivity].
Qed.

(** ** Recorded merges *)

Definition created (evs : list event) : list Z := flat_map (fun e => tl (e_children e)) evs.

Definition wf_event (t : nat) (prev : list Z) (e : event) : Prop :=
  e_time e = t /\ 2 <= length (e_parents e) /\ length (e_children e) = length (e_parents e) /\
  length (e_areas e) = length (e_parents e) /\ NoDup (e_parents e) /\ NoDup (e_children e) /\
  (forall p, In p (e_parents e) -> (0 < p)%Z /\ In p prev) /\
  (forall c, In c (e_children e) -> (0 < c)%Z).

(** A labelling function that covers the child: one of the child IDs per cell. *)
Definition covers (n : nat) (part : props -> list Z -> list bool -> list Z -> list Z -> list Z) : Prop :=
  forall ps prev mask parents ids,
    length mask = n -> length prev = n -> length parents = length ids -> ids <> [] ->
    length (part ps prev mask parents ids) = count (fun b => b) mask /\
    forall l, In l (part ps prev mask parents ids) -> In l ids.

Section Step.
Variables (w : list Q) (cent : list bool -> Q * Q) (thr : Q).
Variable part : props -> list Z -> list bool -> list Z -> list Z -> list Z.
Hypothesis Cov : covers (length w) part.
Variable O : Z -> Prop.
Variables (t : nat) (prev : list Z).
Hypothesis Lprev : length prev = length w.

(** What a step guarantees about field and state. *)
Record steps_to (cur : list Z) (s : mstate) (cur' : list Z) (s' : mstate) : Prop := mkStep {
  st_good : good_at w cent O cur' (s_props s') None;
  st_foot : same_foot cur cur';
  st_frame : forall x, O x -> lookup x (s_props s') = lookup x (s_props s);
  st_next : (s_next s <= s_next s')%Z;
  st_new : forall x, In x cur' -> In x cur \/ (s_next s <= x < s_next s')%Z;
  st_bound : forall x, In x cur' \/ O x -> (x < s_next s')%Z;
  st_events : exists evs, s_events s' = s_events s ++ evs /\ Forall (wf_event t prev) evs /\
     created evs = arangeZ (s_next s) (Z.to_nat (s_next s' - s_next s)) /\
     Forall (fun e => forall c, In c (e_children e) -> (c < s_next s')%Z) evs /\
     Forall (fun e => In (hd 0%Z (e_children e)) cur \/ (s_next s <= hd 0%Z (e_children e) < s_next s')%Z) evs }.

Lemma steps_refl cur s : good_at w cent O cur (s_props s) None ->
  (forall x, In x cur \/ O x -> (x < s_next s)%Z) -> steps_to cur s cur s.
Proof.
  intros G B. constructor; auto; try lia; try apply same_foot_refl.
  exists []. rewrite app_nil_r, Z.sub_diag. repeat split; auto.
Qed.
Lemma steps_trans c0 s0 c1 s1 c2 s2 :
  steps_to c0 s0 c1 s1 -> steps_to c1 s1 c2 s2 -> steps_to c0 s0 c2 s2.
Proof.
  intros [G1 F1 R1 N1 W1 B1 (e1 & E1 & V1 & C1 & D1 & H1)] [G2 F2 R2 N2 W2 B2 (e2 & E2 & V2 & C2 & D2 & H2)].
  constructor; auto.
  - exact (same_foot_trans _ _ _ F1 F2).
  - intros x X. rewrite R2, R1 by exact X. reflexivity.
  - lia.
  - intros x X. apply W2 in X. destruct X as [X|X]; [|right; lia]. apply W1 in X. destruct X; [auto|right; lia].
  - exists (e1 ++ e2). split; [rewrite E2, E1, app_assoc; reflexivity|]. split; [apply Forall_app; auto|]. split.
    + unfold created in *. rewrite flat_map_app, C1, C2.
      replace (s_next s1) with (s_next s0 + Z.of_nat (Z.to_nat (s_next s1 - s_next s0)))%Z at 2 by lia.
      rewrite arangeZ_app. f_equal. lia.
    + split.
      * apply Forall_app. split; [|exact D2]. eapply Forall_impl; [|exact D1].
        intros e H c X. specialize (H c X). cbv beta in H. lia.
      * apply Forall_app. split.
        -- eapply Forall_impl; [|exact H1]. intros e [H|H]; [left; exact H|right; lia].
        -- eapply Forall_impl; [|exact H2]. intros e [H|H]; [|right; lia].
           apply W1 in H. destruct H as [H|H]; [left; exact H|right; lia].
Qed.

Section Divide.
Variables (ov : list row) (cur : list Z) (s : mstate) (child : Z).
Hypothesis G : good_at w cent O cur (s_props s) None.
Hypothesis Bd : forall x, In x cur \/ O x -> (x < s_next s)%Z.
Hypothesis Hc : In child cur.
Hypothesis Pc : (0 < child)%Z.
Hypothesis Cnt : 1 < count (fun r => Z.eqb (r_to r) child) ov.
Hypothesis Nd : NoDup (map row_pair ov).
Hypothesis Hov : forall r, In r ov -> (0 < r_from r)%Z /\ In (r_from r) prev.

Let grp := filter (fun r => Z.eqb (r_to r) child) ov.
Let parents := map r_from grp.
Let n := length parents.
Let news := arangeZ (s_next s) (n - 1).
Let ids := child :: news.
Let labels := part (s_props s) prev (mask_of child cur) parents ids.
Let cur' := assign (mask_of child cur) labels cur.

Lemma n_ge : 2 <= n.
Proof. unfold n, parents, grp. rewrite map_length. exact Cnt. Qed.

Lemma labels_ok : length labels = count (fun b => b) (mask_of child cur) /\ forall l, In l labels -> In l ids.
Proof.
  apply Cov; auto.
  - rewrite mask_length. apply G.
  - unfold ids, news. cbn [length]. rewrite arangeZ_length. fold n. assert (H := n_ge). lia.
  - discriminate.
Qed.

Lemma news_fresh x : In x news -> (0 < x)%Z /\ ~ In x cur /\ ~ O x /\ ~ In x (prop_ids (s_props s)).
Proof.
  intro H. apply arangeZ_In in H. assert (Hb := Bd child (or_introl Hc)).
  assert (A : ~ In x cur) by (intro C; specialize (Bd x (or_introl C)); lia).
  assert (B : ~ O x) by (intro C; specialize (Bd x (or_intror C)); lia).
  split; [lia|]. split; [exact A|]. split; [exact B|]. intro C. apply (g_ids _ _ _ _ _ _ G) in C. tauto.
Qed.
Lemma ids_pos x : In x ids -> (0 < x)%Z.
Proof. intros [<-|H]; [exact Pc|apply news_fresh; exact H]. Qed.

Lemma cur'_nth k : k < length cur ->
  (nth k cur 0%Z <> child -> nth k cur' 0%Z = nth k cur 0%Z) /\
  (nth k cur 0%Z = child -> In (nth k cur' 0%Z) ids).
Proof.
  intro K. destruct labels_ok as [L1 L2].
  destruct (assign_nth (mask_of child cur) labels cur k) as [A B]; [apply mask_length|lia|exact K|].
  rewrite (mask_nth child cur k K) in A, B. split; intro E.
  - apply A. apply Z.eqb_neq. congruence.
  - apply L2. apply B. apply Z.eqb_eq. congruence.
Qed.
Lemma cur'_length : length cur' = length cur.
Proof. apply assign_length. Qed.

Lemma cur'_In x : In x cur' -> (In x cur /\ x <> child) \/ In x ids.
Proof.
  intro H. apply (In_nth _ _ 0%Z) in H. destruct H as (k & K & <-). rewrite cur'_length in K.
  destruct (cur'_nth k K) as [A B]. destruct (Z.eq_dec (nth k cur 0%Z) child) as [E|E].
  - right. apply B. exact E.
  - left. rewrite A by exact E. split; [apply nth_In; exact K|exact E].
Qed.
Lemma cur'_keeps x : In x cur -> x <> child -> In x cur'.
Proof.
  intros H N. apply (In_nth _ _ 0%Z) in H. destruct H as (k & K & E).
  destruct (cur'_nth k K) as [A _]. rewrite E in A. rewrite <- (A N). apply nth_In. rewrite cur'_length. exact K.
Qed.
Lemma cur'_mask x : ~ In x ids -> mask_of x cur' = mask_of x cur.
Proof.
  intro N. apply (nth_ext _ _ false false); rewrite !mask_length; [apply cur'_length|].
  intros k K. rewrite cur'_length in K. rewrite !mask_nth by (rewrite ?cur'_length; exact K).
  destruct (cur'_nth k K) as [A B]. destruct (Z.eq_dec (nth k cur 0%Z) child) as [E|E].
  - specialize (B E). rewrite E. destruct (Z.eqb_spec x (nth k cur' 0%Z)) as [E1|]; [exfalso; apply N; rewrite E1; exact B|].
    destruct (Z.eqb_spec x child) as [E2|]; [exfalso; apply N; rewrite E2; left; reflexivity|reflexivity].
  - rewrite A by exact E. reflexivity.
Qed.

Lemma divide_steps :
  let st := divide_child w cent part t prev ov (cur, s) child in
  steps_to cur s (fst st) (snd st) /\ fst st = cur' /\
  (forall x, In x cur -> x <> child -> In x (fst st)) /\
  (forall k, k < length cur -> (nth k cur 0%Z <> child -> nth k (fst st) 0%Z = nth k cur 0%Z) /\
     (nth k cur 0%Z = child -> In (nth k (fst st) 0%Z) (child :: arangeZ (s_next s) (n - 1)))).
Proof.
  unfold divide_child. fold grp. fold parents. fold n. fold news. fold ids. fold labels. fold cur'.
  set (nps := object_properties w cent cur').
  set (ps1 := match lookup child nps with Some p => set_prop child p (s_props s) | None => drop_id child (s_props s) end).
  cbn [fst snd].
  assert (Mi : memZ child (prop_ids (s_props s)) = true).
  { apply memZ_In. apply (g_ids _ _ _ _ _ _ G). auto. }
  assert (Hnps : forall x, (0 < x)%Z -> lookup x nps = if memZ x cur' then Some (measure w cent x cur') else None).
  { intros x X. unfold nps. rewrite object_properties_lookup. destruct (Z.ltb_spec 0 x); [reflexivity|lia]. }
  assert (Hps1 : forall x, lookup x ps1 = if Z.eqb x child then lookup child nps else lookup x (s_props s)).
  { intro x. unfold ps1. destruct (lookup child nps) as [p|] eqn:E.
    - rewrite set_prop_lookup, Mi. reflexivity.
    - rewrite drop_lookup. reflexivity. }
  assert (Hps2 : forall x, lookup x (ps1 ++ filter (fun e => memZ (fst e) news) nps) =
     if memZ x news then lookup x nps else if Z.eqb x child then lookup child nps else lookup x (s_props s)).
  { intro x. rewrite lookup_app, Hps1, (lookup_filter x (fun k => memZ k news)).
    destruct (memZ x news) eqn:M.
    - apply memZ_In in M. assert (Fr := news_fresh x M). destruct Fr as (_ & F1 & _ & F2).
      destruct (Z.eqb_spec x child) as [E|E]; [subst; contradiction|].
      assert (E' : lookup x (s_props s) = None) by (apply lookup_None; exact F2). rewrite E'. reflexivity.
    - destruct (if Z.eqb x child then lookup child nps else lookup x (s_props s)); reflexivity. }
  assert (Sg : good_at w cent O cur' (ps1 ++ filter (fun e => memZ (fst e) news) nps) None).
  { constructor.
    - rewrite cur'_length. apply G.
    - intros x X. apply cur'_In in X. destruct X as [[X _]|X]; [apply (g_nonneg _ _ _ _ _ _ G); exact X|].
      apply ids_pos in X. lia.
    - intros x P X. apply cur'_In in X. destruct X as [[X _]|[<-|X]].
      + apply (g_sep _ _ _ _ _ _ G); auto.
      + apply (g_sep _ _ _ _ _ _ G); auto.
      + apply news_fresh. exact X.
    - unfold prop_ids. rewrite map_app. apply NoDup_app_iff_local.
      + unfold ps1. destruct (lookup child nps) as [p|].
        * change (NoDup (prop_ids (set_prop child p (s_props s)))). rewrite set_prop_ids. apply G.
        * apply drop_NoDup. apply G.
      + apply NoDup_map_filter. change (NoDup (prop_ids nps)). unfold nps. rewrite object_properties_ids. apply unique_pos_NoDup.
      + intros x X Y. apply in_map_iff in Y. destruct Y as ([k q] & <- & Y). apply filter_In in Y. destruct Y as [_ Y].
        apply memZ_In in Y. cbn [fst] in *. destruct (news_fresh k Y) as (_ & F1 & _ & F2). apply F2.
        unfold ps1 in X. destruct (lookup child nps) as [p|].
        * change (In k (prop_ids (set_prop child p (s_props s)))) in X. rewrite set_prop_ids in X. exact X.
        * change (In k (prop_ids (drop_id child (s_props s)))) in X. apply drop_ids in X. tauto.
    - intro x. rewrite lookup_ids. split.
      + intros (p & E). rewrite Hps2 in E. destruct (memZ x news) eqn:M.
        * apply memZ_In in M. assert (Px := news_fresh x M). split; [tauto|]. rewrite Hnps in E by tauto.
          destruct (memZ x cur') eqn:M'; [left; apply memZ_In; exact M'|discriminate].
        * destruct (Z.eqb_spec x child) as [->|N].
          -- split; [exact Pc|]. rewrite Hnps in E by exact Pc.
             destruct (memZ child cur') eqn:M'; [left; apply memZ_In; exact M'|discriminate].
          -- assert (X : In x (prop_ids (s_props s))) by (apply lookup_ids; exists p; exact E).
             apply (g_ids _ _ _ _ _ _ G) in X. destruct X as [X [Y|Y]]; [|auto].
             split; [exact X|left; apply cur'_keeps; assumption].
      + intros [P X].
        assert (E : exists p, (if memZ x news then lookup x nps else if Z.eqb x child then lookup child nps else lookup x (s_props s)) = Some p).
        { destruct (memZ x news) eqn:M.
          - apply memZ_In in M. rewrite Hnps by exact P. destruct X as [X|X]; [|destruct (news_fresh x M) as (_ & _ & F & _); contradiction].
            apply memZ_In in X. rewrite X. eauto.
          - destruct (Z.eqb_spec x child) as [->|N].
            + rewrite Hnps by exact Pc. destruct X as [X|X]; [apply memZ_In in X; rewrite X; eauto|].
              exfalso. apply (g_sep _ _ _ _ _ _ G child); auto.
            + apply lookup_ids. apply (g_ids _ _ _ _ _ _ G). split; [exact P|]. destruct X as [X|X]; [|auto].
              apply cur'_In in X. destruct X as [[X _]|[X|X]]; [auto|congruence|].
              apply memZ_false in M. contradiction. }
        destruct E as (p & E). exists p. rewrite Hps2. exact E.
    - intros x p X _ E. rewrite Hps2 in E. destruct (memZ x news) eqn:M.
      + apply memZ_In in M. rewrite Hnps in E by (apply news_fresh; exact M).
        assert (X' := X). apply memZ_In in X'. rewrite X' in E. inversion E. reflexivity.
      + destruct (Z.eqb_spec x child) as [->|N].
        * rewrite Hnps in E by exact Pc. apply memZ_In in X. rewrite X in E. inversion E. reflexivity.
        * assert (Nx : ~ In x ids) by (intros [C|C]; [congruence|apply memZ_false in M; contradiction]).
          rewrite (measure_mask w cent x cur' cur (cur'_mask x Nx)).
          apply (g_measure _ _ _ _ _ _ G); [|discriminate|exact E].
          apply cur'_In in X. destruct X as [[X _]|X]; [exact X|contradiction]. }
  split; [|split; [reflexivity|split; [intros x; apply cur'_keeps|intros k K; apply cur'_nth; exact K]]].
  assert (Hn := n_ge). assert (Hcb := Bd child (or_introl Hc)).
  constructor; cbn [s_props s_next s_events].
  - exact Sg.
  - split; [symmetry; apply cur'_length|]. intro k. destruct (Nat.lt_ge_cases k (length cur)) as [K|K].
    + destruct (cur'_nth k K) as [A B]. destruct (Z.eq_dec (nth k cur 0%Z) child) as [E|E].
      * specialize (B E). apply ids_pos in B. split; lia.
      * rewrite A by exact E. tauto.
    + rewrite !nth_overflow; [tauto| |exact K]. rewrite cur'_length. exact K.
  - intros x X. rewrite Hps2. destruct (memZ x news) eqn:M.
    + apply memZ_In in M. destruct (news_fresh x M) as (_ & _ & F & _); contradiction.
    + destruct (Z.eqb_spec x child) as [->|]; [|reflexivity]. exfalso. apply (g_sep _ _ _ _ _ _ G child); auto.
  - lia.
  - intros x X. apply cur'_In in X. destruct X as [[X _]|[<-|X]]; [auto|auto|]. right. apply arangeZ_In in X. lia.
  - intros x [X|X].
    + apply cur'_In in X. destruct X as [[X _]|[<-|X]].
      * specialize (Bd x (or_introl X)). lia.
      * lia.
      * apply arangeZ_In in X. lia.
    + specialize (Bd x (or_intror X)). lia.
  - exists [mkEvent t ids parents (map r_area grp)]. split; [reflexivity|].
    assert (Ipar : forall p, In p parents -> exists r, In r ov /\ r_to r = child /\ r_from r = p).
    { intros p P. apply in_map_iff in P. destruct P as (r & <- & R). apply filter_In in R. destruct R as [R E].
      apply Z.eqb_eq in E. exists r. auto. }
    split; [|split; [|split]].
    + constructor; [|constructor]. unfold wf_event. cbn [e_time e_parents e_children e_areas].
      split; [reflexivity|]. split; [exact Hn|]. split; [unfold ids; cbn [length]; unfold news; rewrite arangeZ_length; fold n; lia|].
      split; [unfold parents; rewrite !map_length; reflexivity|].
      split; [|split; [|split]].
      * unfold parents. clear - Nd. induction ov as [|r l IH]; [constructor|]. cbn [map] in Nd.
        inversion Nd as [|? ? Nr Nd']; subst. unfold grp. cbn [filter].
        destruct (Z.eqb_spec (r_to r) child) as [E|]; [|apply IH; exact Nd'].
        cbn [map]. constructor; [|apply IH; exact Nd'].
        intro C. apply in_map_iff in C. destruct C as (r' & Ef & R). apply filter_In in R. destruct R as [R Et].
        apply Z.eqb_eq in Et. apply Nr. apply in_map_iff. exists r'. split; [|exact R]. unfold row_pair. congruence.
      * unfold ids. constructor; [|apply arangeZ_NoDup]. intro C. apply arangeZ_In in C. lia.
      * intros p P. destruct (Ipar p P) as (r & R & _ & <-). apply Hov. exact R.
      * apply ids_pos.
    + cbn [created flat_map e_children tl ids app]. rewrite app_nil_r. unfold news. f_equal. lia.
    + constructor; [|constructor]. cbn [e_children]. intros c [<-|X]; [lia|]. apply arangeZ_In in X. lia.
    + constructor; [|constructor]. left. exact Hc.
Qed.
End Divide.

Lemma divide_children_steps ov : NoDup (map row_pair ov) ->
  (forall r, In r ov -> (0 < r_from r)%Z /\ In (r_from r) prev) ->
  forall ch cur s, NoDup ch ->
  (forall c, In c ch -> (0 < c)%Z /\ In c cur /\ 1 < count (fun r => Z.eqb (r_to r) c) ov) ->
  good_at w cent O cur (s_props s) None -> (forall x, In x cur \/ O x -> (x < s_next s)%Z) ->
  let st := fold_left (divide_child w cent part t prev ov) ch (cur, s) in
  steps_to cur s (fst st) (snd st).
Proof.
  intros Nd Hov. induction ch as [|c ch IH]; intros cur s N Hch G B; cbn [fold_left].
  - cbn [fst snd]. apply steps_refl; assumption.
  - inversion N as [|? ? Nc N']; subst. destruct (Hch c (or_introl eq_refl)) as (Pc & Ic & Cc).
    destruct (divide_steps ov cur s c G B Ic Pc Cc Nd Hov) as (S1 & _ & K1 & _).
    destruct (divide_child w cent part t prev ov (cur, s) c) as [cur1 s1]. cbn [fst snd] in *.
    eapply steps_trans; [exact S1|]. apply IH; auto.
    + intros d D. destruct (Hch d (or_intror D)) as (Pd & Id & Cd). split; [exact Pd|]. split; [|exact Cd].
      apply K1; [exact Id|]. intros ->. contradiction.
    + apply S1.
    + apply S1.
Qed.

Lemma merging_children_In ov c : In c (merging_children ov) <-> 1 < count (fun r => Z.eqb (r_to r) c) ov.
Proof.
  unfold merging_children. rewrite filter_In, unique_codes_In, Nat.ltb_lt. split; [tauto|]. intro H. split; [|exact H].
  assert (H' : 0 < count (fun r => Z.eqb (r_to r) c) ov) by lia. apply count_pos in H'.
  destruct H' as (r & R & E). apply Z.eqb_eq in E. subst. apply in_map. exact R.
Qed.

Lemma settle_steps fuel : forall cur s,
  good_at w cent O cur (s_props s) None -> (forall x, In x cur \/ O x -> (x < s_next s)%Z) ->
  let st := settle w cent thr part fuel t prev cur s in steps_to cur s (fst st) (snd st).
Proof.
  induction fuel as [|fuel IH]; intros cur s G B; cbn [settle]; [cbn [fst snd]; apply steps_refl; assumption|].
  set (ov := enforce_threshold thr (s_props s) (check_overlap w prev cur)).
  assert (Lc : length prev = length cur) by (rewrite (g_len _ _ _ _ _ _ G); exact Lprev).
  assert (Hov : forall r, In r ov -> ((0 < r_from r)%Z /\ In (r_from r) prev) /\ (0 < r_to r)%Z /\ In (r_to r) cur).
  { intros r R. unfold ov, enforce_threshold in R. apply filter_In in R. destruct R as [R _].
    destruct (check_overlap_sound w prev cur Lc Lprev r R) as (P1 & P2 & (k & K & A & C) & _).
    split; [split; [exact P1|rewrite <- A; apply nth_In; exact K]|].
    split; [exact P2|]. rewrite <- C. apply nth_In. lia. }
  assert (Nd : NoDup (map row_pair ov)) by (apply enforce_subsequence, check_overlap_NoDup; assumption).
  destruct (merging_children ov) as [|c ch] eqn:E; [cbn [fst snd]; apply steps_refl; assumption|].
  assert (S1 : let st := fold_left (divide_child w cent part t prev ov) (c :: ch) (cur, s) in
               steps_to cur s (fst st) (snd st)).
  { apply divide_children_steps; auto.
    - intros r R. apply Hov. exact R.
    - rewrite <- E. unfold merging_children. apply NoDup_filter, unique_codes_NoDup.
    - intros d D. rewrite <- E in D. apply merging_children_In in D.
      assert (D' : 0 < count (fun r => Z.eqb (r_to r) d) ov) by lia. apply count_pos in D'.
      destruct D' as (r & R & Er). apply Z.eqb_eq in Er. subst d. split; [apply Hov; exact R|].
      split; [apply Hov; exact R|exact D]. }
  cbv zeta in S1.
  destruct (fold_left (divide_child w cent part t prev ov) (c :: ch) (cur, s)) as [cur1 s1]. cbn [fst snd] in *.
  eapply steps_trans; [exact S1|]. apply IH; apply S1.
Qed.

End Step.
