(** When the merging loop on a grid changes nothing: no object overlaps enough with two objects
    of the step before, nor with two of the step after. *)
From Verif Require Import Base Filter FilterProofs Overlap OverlapSpec OverlapProofs ConsolidateProofs ConsolidateMore
  Merge MergeSpec MergeProofs MergeLoop MergeMore MergeChunks Cluster ClusterSpec ClusterFinal ClusterPipe.
Open Scope nat_scope.

Section Steady.
Variables (w : list Q) (cent : list bool -> Q * Q) (thr : Q).
Variable part : props -> list Z -> list bool -> list Z -> list Z -> list Z.
Variable lab : list (list Z).
Hypothesis Hl : labelled_series (length w) lab.
Hypothesis Hw : forall q, In q w -> (0 < q)%Q.
Hypothesis Up : forall p q c, consecutive_overlap w thr lab p c -> consecutive_overlap w thr lab q c -> p = q.
Hypothesis Down : forall p c d, consecutive_overlap w thr lab p c -> consecutive_overlap w thr lab p d -> c = d.
Let ps := initial_props w cent lab.

Lemma row_length t : t < length lab -> length (nth t lab []) = length w.
Proof. intro T. destruct Hl as (L & _). apply L, nth_In. exact T. Qed.

Lemma start_table : table_for w cent lab ps.
Proof.
  destruct Hl as (L & _ & U & _). assert (U' : one_time lab) by exact U.
  assert (Nd := initial_NoDup w cent lab U'). split; [exact Nd|]. split; [intro x; apply initial_ids|].
  intros t x p X I. assert (E := In_lookup _ _ _ Nd I).
  assert (P : (0 < x)%Z) by (apply (initial_ids w cent lab x); apply lookup_ids; eauto).
  rewrite (initial_lookup w cent lab t x) in E; [|intros j k; apply U; exact P|exact P|exact X]. injection E as <-.
  split; [|reflexivity]. apply area_of_object. apply L. apply nth_In.
  destruct (Nat.lt_ge_cases t (length lab)) as [T|T]; [exact T|]. rewrite nth_overflow in X by exact T. destruct X.
Qed.

Lemma accepted_overlap t p c : S t < length lab ->
  accepted w thr (areas_in ps) (nth t lab []) (nth (S t) lab []) p c -> consecutive_overlap w thr lab p c.
Proof.
  intros T (Pp & Pc & M & ap & ac & Ep & Ec & O). exists t. split; [exact T|]. split; [exact Pp|]. split; [exact Pc|]. split; [exact M|].
  destruct (table_area w cent lab ps Hl start_table Hw t p) as (q & E & A & _); [eapply meets_left; exact M|exact Pp|].
  destruct (table_area w cent lab ps Hl start_table Hw (S t) c) as (q' & E' & A' & _).
  { refine (meets_right w thr Hw (nth t lab []) (nth (S t) lab []) p c _ M). rewrite !row_length by lia. reflexivity. } { exact Pc. }
  unfold areas_in in Ep, Ec. rewrite E in Ep. rewrite E' in Ec. injection Ep as <-. injection Ec as <-. rewrite A, A' in O. exact O.
Qed.

Lemma no_merging t : S t < length lab ->
  merging_children (enforce_threshold thr ps (check_overlap w (nth t lab []) (nth (S t) lab []))) = [].
Proof.
  intro T. destruct (merging_children _) as [|c r] eqn:E; [reflexivity|]. exfalso.
  assert (I : In c (merging_children (enforce_threshold thr ps (check_overlap w (nth t lab []) (nth (S t) lab []))))) by (rewrite E; left; reflexivity).
  apply (round_children w thr ps) in I; [|rewrite !row_length by lia; reflexivity|apply row_length; lia|exact (table_pos w cent lab ps Hl start_table Hw)].
  destruct I as (p & q & N & A & B). apply N. apply (Up p q c); apply (accepted_overlap t); assumption.
Qed.

Lemma no_splitting t : S t < length lab ->
  splitting_parents (enforce_threshold thr ps (check_overlap w (nth t lab []) (nth (S t) lab []))) = [].
Proof.
  intro T. set (a := nth t lab []). set (b := nth (S t) lab []). set (ov := enforce_threshold thr ps (check_overlap w a b)).
  destruct (splitting_parents ov) as [|p r] eqn:E; [reflexivity|]. exfalso.
  assert (I : In p (splitting_parents ov)) by (rewrite E; left; reflexivity).
  unfold splitting_parents in I. apply filter_In in I. destruct I as [_ I]. apply Nat.ltb_lt in I. unfold count in I.
  assert (L1 : length a = length b) by (unfold a, b; rewrite !row_length by lia; reflexivity).
  assert (L2 : length a = length w) by (apply row_length; lia).
  assert (Nd : NoDup (map row_pair ov)) by (apply enforce_subsequence, check_overlap_NoDup; assumption).
  assert (Nf : forall r1 r2 rs l, filter (fun r => Z.eqb (r_from r) p) l = r1 :: r2 :: rs -> NoDup (map row_pair l) -> r_to r1 <> r_to r2).
  { intros r1 r2 rs l F N X. assert (F1 : In r1 (filter (fun r => Z.eqb (r_from r) p) l)) by (rewrite F; left; reflexivity).
    assert (F2 : In r2 (filter (fun r => Z.eqb (r_from r) p) l)) by (rewrite F; right; left; reflexivity).
    apply filter_In in F1, F2. destruct F1 as [_ F1], F2 as [_ F2]. apply Z.eqb_eq in F1, F2.
    assert (N' : NoDup (map row_pair (filter (fun r => Z.eqb (r_from r) p) l))).
    { clear F. induction l as [|y l IH]; [constructor|]. cbn [map] in N. inversion N as [|? ? Ny N']; subst. cbn [filter].
      destruct (Z.eqb _ _); [|apply IH; exact N']. cbn [map]. constructor; [|apply IH; exact N'].
      intro C. apply Ny. apply in_map_iff in C. destruct C as (z & Ez & Z0). apply filter_In in Z0. apply in_map_iff. exists z. tauto. }
    rewrite F in N'. cbn [map] in N'. inversion N' as [|? ? Ny _]; subst. apply Ny. left. unfold row_pair. congruence. }
  destruct (filter (fun r => Z.eqb (r_from r) p) ov) as [|r1 [|r2 rs]] eqn:F; cbn [length] in I; try lia.
  apply (Nf r1 r2 rs ov F Nd).
  assert (Row : forall y, In y (filter (fun r => Z.eqb (r_from r) p) ov) -> consecutive_overlap w thr lab p (r_to y)).
  { intros y Y. apply filter_In in Y. destruct Y as [Y Ey]. apply Z.eqb_eq in Ey. apply (accepted_overlap t); [exact T|]. fold a b.
    apply (accepted_row w thr ps a b p (r_to y) L1 L2 (table_pos w cent lab ps Hl start_table Hw)). exists y. auto. }
  apply (Down p); apply Row; rewrite F; [left|right; left]; reflexivity.
Qed.

(** [a] then [b]: no step before, or consecutive steps. *)
Definition follows (a b : list Z) : Prop :=
  (exists z, a = zeros_like z) \/ exists t, S t < length lab /\ a = nth t lab [] /\ b = nth (S t) lab [].

Lemma settle_same a b u s : follows a b -> s_props s = ps -> settle w cent thr part 10 u a b s = (b, s).
Proof.
  intros F E. cbn [settle]. rewrite E. destruct F as [(z & ->)|(t & T & -> & ->)].
  - rewrite check_overlap_zero_l. reflexivity.
  - rewrite no_merging by exact T. reflexivity.
Qed.
Lemma consolidate_same a b s : follows a b -> s_props s = ps -> consolidate_st w cent thr a b s = (b, s).
Proof.
  intros F E. destruct F as [(z & ->)|(t & T & -> & ->)]; [apply consolidate_zero|].
  unfold consolidate_st, consolidate. rewrite E, no_splitting by exact T. cbn [fold_left]. unfold with_props. rewrite <- E. destruct s; reflexivity.
Qed.
Lemma follows_at l1 a b l2 : lab = l1 ++ a :: b :: l2 -> follows a b.
Proof.
  intro E. right. exists (length l1). rewrite E. split; [rewrite app_length; simpl; lia|]. split.
  - rewrite app_nth2 by lia. rewrite Nat.sub_diag. reflexivity.
  - rewrite app_nth2 by lia. replace (S (length l1) - length l1) with 1 by lia. reflexivity.
Qed.

Definition seen (prevc P : list (list Z)) : Prop := prevc = [] \/ exists p Q Q', prevc = p :: Q /\ P = p :: Q'.
Definition before (prevc : list (list Z)) (cur : list Z) : list Z := match prevc with p :: _ => p | [] => zeros_like cur end.
Lemma before_follows prevc P b cur l2 : seen prevc P -> lab = rev P ++ b :: l2 -> follows (before prevc cur) b.
Proof.
  intros [->|(p & Q & Q' & -> & ->)] E; [left; eexists; reflexivity|]. cbn [before].
  cbn [rev] in E. rewrite <- app_assoc in E. apply (follows_at (rev Q') p b l2). exact E.
Qed.

Lemma run_chunk_same : forall todo done prevc P tail t s, s_props s = ps ->
  lab = rev (done ++ P) ++ todo ++ tail -> seen prevc P ->
  run_chunk w cent thr part prevc done todo t s = (rev todo ++ done, s).
Proof.
  induction todo as [|cur rest IH]; intros done prevc P tail t s E El Se; cbn [run_chunk rev app].
  - destruct done as [|last [|second r]]; try reflexivity.
    rewrite consolidate_same; [reflexivity| |exact E]. cbn [app rev] in El. rewrite <- !app_assoc in El. cbn [app] in El.
    apply (follows_at _ _ _ _ El).
  - destruct done as [|m1 older].
    + rewrite settle_same; [|apply (before_follows prevc P cur cur (rest ++ tail) Se); exact El|exact E].
      rewrite (IH [cur] prevc P tail (S t) s E); [rewrite <- app_assoc; reflexivity| |exact Se].
      cbn [app rev]. rewrite <- app_assoc. exact El.
    + assert (F1 : follows (match older with m2 :: _ => m2 | [] => before prevc cur end) m1).
      { destruct older as [|m2 o2].
        - apply (before_follows prevc P m1 cur (cur :: rest ++ tail) Se). cbn [app rev] in El. rewrite <- app_assoc in El. exact El.
        - cbn [app rev] in El. rewrite <- !app_assoc in El. cbn [app] in El. apply (follows_at _ _ _ _ El). }
      unfold before in F1. rewrite consolidate_same; [|exact F1|exact E].
      rewrite settle_same; [| |exact E].
      2:{ cbn [app rev] in El. rewrite <- app_assoc in El. cbn [app] in El. apply (follows_at _ _ _ _ El). }
      rewrite (IH (cur :: m1 :: older) prevc P tail (S t) s E); [rewrite <- app_assoc; reflexivity| |exact Se].
      cbn [app rev] in El |- *. rewrite <- !app_assoc in El. cbn [app] in El. rewrite El, <- !app_assoc. reflexivity.
Qed.

Lemma run_chunks_same : forall chunks prevc P t s, s_props s = ps -> lab = rev P ++ concat chunks -> seen prevc P ->
  run_chunks w cent thr part prevc chunks t s = (rev (concat chunks), s).
Proof.
  induction chunks as [|c r IH]; intros prevc P t s E El Se; cbn [run_chunks concat]; [reflexivity|].
  rewrite (run_chunk_same c [] prevc P (concat r) t s E El Se), app_nil_r.
  rewrite (IH (rev c) (rev c ++ P) _ s E).
  - rewrite rev_app_distr. reflexivity.
  - rewrite rev_app_distr, rev_involutive, <- app_assoc. exact El.
  - destruct (rev c) as [|p Q]; [left; reflexivity|]. right. exists p, Q, (Q ++ P). split; reflexivity.
Qed.

Lemma steady_loop sizes : fold_right Nat.add 0 sizes = length lab ->
  split_and_merge w cent thr part (split_by sizes lab) = (lab, initial w cent lab).
Proof.
  intro Hs. unfold split_and_merge. rewrite (split_by_concat sizes lab Hs).
  change (mkState (initial_props w cent lab) (arr_max (prop_ids (initial_props w cent lab)) + 1) []) with (initial w cent lab).
  rewrite (run_chunks_same (split_by sizes lab) [] [] 0 (initial w cent lab)); [|reflexivity|cbn [rev app]; symmetry; apply split_by_concat; exact Hs|left; reflexivity].
  rewrite (split_by_concat sizes lab Hs), rev_involutive. reflexivity.
Qed.
End Steady.

(** ** Two labellings of the same objects *)
Section Relabel.
Variables (w : list Q) (thr : Q) (a b : list (list Z)).
Hypothesis Len : length a = length b.
Hypothesis La : forall t, t < length a -> length (nth t a []) = length w.
Hypothesis Lb : forall t, t < length b -> length (nth t b []) = length w.
Hypothesis Pos : forall t k, t < length a -> k < length w -> ((0 < id_at a t k)%Z <-> (0 < id_at b t k)%Z).
Hypothesis Eqs : forall t k u l, t < length a -> k < length w -> u < length a -> l < length w -> (0 < id_at a t k)%Z -> (0 < id_at a u l)%Z ->
  (id_at a t k = id_at a u l <-> id_at b t k = id_at b u l).

Lemma same_test t i j : t < length a -> i < length w -> j < length w -> (0 < id_at a t j)%Z ->
  Z.eqb (id_at a t i) (id_at a t j) = Z.eqb (id_at b t i) (id_at b t j).
Proof.
  intros T I J P. destruct (Z.lt_ge_cases 0 (id_at a t i)) as [Q0|Q0].
  - destruct (Z.eqb_spec (id_at a t i) (id_at a t j)) as [X|X]; destruct (Z.eqb_spec (id_at b t i) (id_at b t j)) as [Y|Y]; try reflexivity; exfalso.
    + apply Y. apply Eqs; assumption.
    + apply X. apply Eqs; assumption.
  - assert (P' : (0 < id_at b t j)%Z) by (apply Pos; assumption). assert (Q1 : ~ (0 < id_at b t i)%Z) by (rewrite <- Pos by assumption; lia).
    destruct (Z.eqb_spec (id_at a t i) (id_at a t j)); destruct (Z.eqb_spec (id_at b t i) (id_at b t j)); try reflexivity; lia.
Qed.

Lemma relabel_overlap t j : S t < length a -> j < length w ->
  overlap_enough w thr (nth t a []) (nth (S t) a []) (id_at a t j) (id_at a (S t) j) ->
  overlap_enough w thr (nth t b []) (nth (S t) b []) (id_at b t j) (id_at b (S t) j).
Proof.
  intros T J (P1 & P2 & _ & O). assert (T0 : t < length a) by lia.
  assert (P1' : (0 < id_at b t j)%Z) by (apply Pos; assumption). assert (P2' : (0 < id_at b (S t) j)%Z) by (apply Pos; assumption).
  split; [exact P1'|]. split; [exact P2'|].
  split; [exists j; split; [rewrite Lb by lia; exact J|split; reflexivity]|].
  assert (Ar : forall u, u < length a -> (0 < id_at a u j)%Z -> object_area w (nth u a []) (id_at a u j) = object_area w (nth u b []) (id_at b u j)).
  { intros u U P. unfold object_area. rewrite La, Lb by lia. clear O.
    assert (G : forall n, n <= length w -> totalQ (fun k => if Z.eqb (nth k (nth u a []) 0%Z) (id_at a u j) then nth k w 0%Q else 0%Q) n
                                       = totalQ (fun k => if Z.eqb (nth k (nth u b []) 0%Z) (id_at b u j) then nth k w 0%Q else 0%Q) n).
    { induction n as [|n IH]; intro N; [reflexivity|]. cbn [totalQ]. rewrite IH by lia.
      change (nth n (nth u a []) 0%Z) with (id_at a u n). change (nth n (nth u b []) 0%Z) with (id_at b u n).
      rewrite (same_test u n j) by (assumption || lia). reflexivity. }
    apply G. lia. }
  assert (Sh : shared_area w (nth t a []) (nth (S t) a []) (id_at a t j) (id_at a (S t) j) = shared_area w (nth t b []) (nth (S t) b []) (id_at b t j) (id_at b (S t) j)).
  { unfold shared_area. rewrite La, Lb by lia. clear O.
    assert (G : forall n, n <= length w ->
       totalQ (fun k => if Z.eqb (nth k (nth t a []) 0%Z) (id_at a t j) && Z.eqb (nth k (nth (S t) a []) 0%Z) (id_at a (S t) j) then nth k w 0%Q else 0%Q) n
     = totalQ (fun k => if Z.eqb (nth k (nth t b []) 0%Z) (id_at b t j) && Z.eqb (nth k (nth (S t) b []) 0%Z) (id_at b (S t) j) then nth k w 0%Q else 0%Q) n).
    { induction n as [|n IH]; intro N; [reflexivity|]. cbn [totalQ]. rewrite IH by lia.
      change (nth n (nth t a []) 0%Z) with (id_at a t n). change (nth n (nth t b []) 0%Z) with (id_at b t n).
      change (nth n (nth (S t) a []) 0%Z) with (id_at a (S t) n). change (nth n (nth (S t) b []) 0%Z) with (id_at b (S t) n).
      rewrite (same_test t n j), (same_test (S t) n j) by (assumption || lia). reflexivity. }
    apply G. lia. }
  rewrite <- (Ar t T0 P1), <- (Ar (S t) T P2), <- Sh. exact O.
Qed.

(** A pair of overlapping objects is found at one cell. *)
Lemma overlap_cell p c : consecutive_overlap w thr a p c -> exists t j, S t < length a /\ j < length w /\
  p = id_at a t j /\ c = id_at a (S t) j /\ (0 < p)%Z /\ (0 < c)%Z /\ consecutive_overlap w thr b (id_at b t j) (id_at b (S t) j).
Proof.
  intros (t & T & O). assert (O0 := O). destruct O0 as (P1 & P2 & (j & J & E1 & E2) & _). rewrite La in J by lia.
  change (nth j (nth t a []) 0%Z) with (id_at a t j) in E1. change (nth j (nth (S t) a []) 0%Z) with (id_at a (S t) j) in E2.
  exists t, j. split; [exact T|]. split; [exact J|]. split; [congruence|]. split; [congruence|]. split; [exact P1|]. split; [exact P2|].
  exists t. split; [lia|]. apply relabel_overlap; [exact T|exact J|]. rewrite E1, E2. exact O.
Qed.

Lemma relabel_chained p q : chained (consecutive_overlap w thr a) p q ->
  forall t j u k, t < length a -> j < length w -> u < length a -> k < length w -> p = id_at a t j -> q = id_at a u k -> (0 < p)%Z ->
    chained (consecutive_overlap w thr b) (id_at b t j) (id_at b u k).
Proof.
  induction 1 as [x|x y z R C IH|x y z R C IH]; intros t j u k T J U K Ex Ez Px.
  - assert (E : id_at b t j = id_at b u k) by (apply Eqs; try assumption; [congruence|congruence|congruence]). rewrite E. constructor.
  - destruct (overlap_cell _ _ R) as (t' & i & T' & I & E1 & E2 & P1 & P2 & R').
    assert (E : id_at b t j = id_at b t' i) by (apply Eqs; try assumption; [lia|congruence|congruence|congruence]).
    rewrite E. eapply chained_fwd; [exact R'|]. apply IH; try assumption.
  - destruct (overlap_cell _ _ R) as (t' & i & T' & I & E1 & E2 & P1 & P2 & R').
    assert (E : id_at b t j = id_at b (S t') i) by (apply Eqs; try assumption; [congruence|congruence|congruence]).
    rewrite E. eapply chained_bwd; [exact R'|]. apply IH; try assumption. lia.
Qed.
End Relabel.
