(** What the merges recorded by the parallel algorithm say about overlaps. *)
From Verif Require Import Base Graph Label LabelProofs Filter FilterProofs Overlap OverlapProofs ConsolidateProofs Merge MergeProofs
  Partition PartitionProofs Cluster ClusterProofs ClusterMore ClusterFinal ClusterPipe MeshPart Parallel ParallelProofs ParallelMore ParallelFinal
  OverlapSpec ClusterSpec MergeSpec ParallelSpec.
Open Scope nat_scope.

Lemma filter_combine_flip w a b i j :
  sumQ (map snd (filter (fun c => Z.eqb i (c_from c) && Z.eqb j (c_to c)) (cells3 w a b))) =
  sumQ (map snd (filter (fun c => Z.eqb (c_from c) i && Z.eqb (c_to c) j) (cells3 w a b))).
Proof. f_equal. f_equal. apply filter_ext. intro c. rewrite (Z.eqb_sym i), (Z.eqb_sym j). reflexivity. Qed.
Lemma shared_is w a b p c : length a = length b -> length a = length w ->
  (Parallel.shared_area w p c a b == OverlapSpec.shared_area w a b p c)%Q.
Proof. intros L L'. unfold Parallel.shared_area. rewrite filter_combine_flip. apply cells3_shared; assumption. Qed.

Lemma masked_In mask f x : In x (masked mask f) <-> exists k, k < length mask /\ k < length f /\ nth k mask false = true /\ nth k f 0%Z = x.
Proof.
  unfold masked. rewrite in_map_iff. split.
  - intros ((b, v) & <- & I). apply filter_In in I. destruct I as [I T]. cbn [fst snd] in *. subst b.
    apply (In_nth _ _ (false, 0%Z)) in I. destruct I as (k & K & E). rewrite combine_length in K. exists k. split; [lia|]. split; [lia|].
    assert (N : nth k (combine mask f) (false, 0%Z) = (nth k mask false, nth k f 0%Z)).
    { clear - K. revert f k K. induction mask as [|b m IH]; intros [|v f] k K; cbn [length] in K; try lia. destruct k as [|k]; [reflexivity|]. cbn. apply IH. lia. }
    rewrite N in E. injection E as -> ->. split; reflexivity.
  - intros (k & K1 & K2 & M & <-). exists (true, nth k f 0%Z). split; [reflexivity|]. apply filter_In. split; [|reflexivity]. rewrite <- M.
    revert f k K1 K2 M. induction mask as [|b m IH]; intros [|v f] k K1 K2 M; cbn [length] in K1, K2; try lia. destruct k as [|k]; [left; reflexivity|].
    right. apply (IH f k); [lia|lia|exact M].
Qed.

Section Record.
Variables (w : list Q) (thr : Q).
Hypothesis W : forall q, In q w -> (0 < q)%Q.

Lemma parents_in_spec prev cur c p : length prev = length w -> length cur = length w -> (0 < c)%Z ->
  In p (parents_in w thr prev cur c) <-> overlap_enough w thr prev cur p c.
Proof.
  intros Lp Lc Pc. unfold parents_in. rewrite filter_In, unique_pos_In, masked_In, negb_true_iff.
  assert (Mt : (exists k, k < length (mask_of c cur) /\ k < length prev /\ nth k (mask_of c cur) false = true /\ nth k prev 0%Z = p) <-> meets prev cur p c).
  { split.
    - intros (k & K1 & K2 & M & E). rewrite mask_length in K1. rewrite mask_nth in M by exact K1. apply Z.eqb_eq in M. exists k. auto.
    - intros (k & K & E & M). exists k. rewrite mask_length. split; [lia|]. split; [lia|]. split; [|exact E]. rewrite mask_nth by lia. apply Z.eqb_eq. congruence. }
  rewrite Mt. unfold overlap_enough.
  assert (Th : meets prev cur p c -> Qltb (Parallel.shared_area w p c prev cur / Qminb (area_of w p prev) (area_of w c cur)) thr = false <->
    ((object_area w prev p <= object_area w cur c /\ thr * object_area w prev p <= OverlapSpec.shared_area w prev cur p c) \/
     (object_area w cur c <= object_area w prev p /\ thr * object_area w cur c <= OverlapSpec.shared_area w prev cur p c))%Q).
  { intros (k & K & E & M).
    assert (P1 : (0 < object_area w prev p)%Q) by (apply object_area_pos; [exact Lp|exact W|rewrite <- E; apply nth_In; exact K]).
    assert (P2 : (0 < object_area w cur c)%Q) by (apply object_area_pos; [exact Lc|exact W|rewrite <- M; apply nth_In; lia]).
    assert (S := shared_is w prev cur p c ltac:(lia) Lp). set (sm := Parallel.shared_area w p c prev cur) in *. rewrite <- S.
    assert (A1 := area_of_object w prev p Lp). assert (A2 := area_of_object w cur c Lc).
    set (a := area_of w p prev) in *. set (b := area_of w c cur) in *. rewrite <- A1, <- A2. rewrite <- A1 in P1. rewrite <- A2 in P2. clearbody sm a b. clear - P1 P2.
    assert (Fr : forall d, (0 < d)%Q -> (Qltb (sm / d) thr = false <-> (thr * d <= sm)%Q)).
    { intros d D. split.
      - intro H. assert (N : ~ (sm / d < thr)%Q) by (intro X; apply Qltb_spec in X; congruence). apply Qnot_lt_le in N.
        apply (Qmult_le_compat_r _ _ d) in N; [|apply Qlt_le_weak; exact D]. setoid_replace (sm / d * d)%Q with sm in N; [exact N|]. field. intro Z. rewrite Z in D. exact (Qlt_irrefl _ D).
      - intro H. destruct (Qltb (sm / d) thr) eqn:X; [|reflexivity]. exfalso. apply Qltb_spec in X. apply (Qmult_lt_r _ _ d D) in X.
        setoid_replace (sm / d * d)%Q with sm in X; [|field; intro Z; rewrite Z in D; exact (Qlt_irrefl _ D)]. apply (Qlt_irrefl sm). eapply Qlt_le_trans; [exact X|exact H]. }
    destruct (Qminb_cases a b) as [[E L]|[E L]].
    - assert (D : (0 < Qminb a b)%Q) by (rewrite E; exact P1). rewrite (Fr _ D), E. split; [intro H; left; split; assumption|].
      intros [[_ H]|[L' H]]; [exact H|]. assert (Eab : (a == b)%Q) by (apply Qle_antisym; assumption). rewrite Eab. exact H.
    - assert (D : (0 < Qminb a b)%Q) by (rewrite E; exact P2). rewrite (Fr _ D), E. split; [intro H; right; split; assumption|].
      intros [[L' H]|[_ H]]; [|exact H]. assert (Eab : (b == a)%Q) by (apply Qle_antisym; assumption). rewrite Eab. exact H. }
  split.
  - intros ((P & M) & H). split; [exact P|]. split; [exact Pc|]. split; [exact M|]. apply Th; assumption.
  - intros (P & _ & M & H). split; [split; assumption|]. apply Th; assumption.
Qed.

(** Renaming the objects of the step before. *)
Lemma totalQ_same f g : forall n, (forall k, k < n -> f k = g k) -> totalQ f n = totalQ g n.
Proof. induction n as [|n IH]; intro H; [reflexivity|]. cbn [totalQ]. rewrite IH by (intros k K; apply H; lia). rewrite H by lia. reflexivity. Qed.
Section Renamed.
Variables (prev before now : list Z) (ren : Z -> Z) (c : Z).
Hypothesis L : length before = length prev.
Hypothesis V : forall k, k < length prev -> nth k before 0%Z = ren (nth k prev 0%Z).
Hypothesis Inj : forall x y, In x prev -> In y prev -> ren x = ren y -> x = y.
Hypothesis Pos : forall x, In x prev -> (0 < ren x)%Z <-> (0 < x)%Z.
Lemma same_cell p k : In p prev -> k < length prev -> Z.eqb (nth k before 0%Z) (ren p) = Z.eqb (nth k prev 0%Z) p.
Proof.
  intros I K. rewrite V by exact K. destruct (Z.eqb_spec (nth k prev 0%Z) p) as [->|N]; [apply Z.eqb_refl|]. apply Z.eqb_neq. intro E. apply N. apply Inj; [apply nth_In; exact K|exact I|exact E].
Qed.
Lemma renamed_shared p : In p prev -> OverlapSpec.shared_area w before now (ren p) c = OverlapSpec.shared_area w prev now p c.
Proof. intro I. unfold OverlapSpec.shared_area. rewrite L. apply totalQ_same. intros k K. rewrite same_cell by assumption. reflexivity. Qed.
Lemma renamed_enough p : In p prev -> overlap_enough w thr before now (ren p) c <-> overlap_enough w thr prev now p c.
Proof.
  intro I. unfold overlap_enough. rewrite (renamed_shared p I), (Pos p I).
  assert (O : object_area w before (ren p) = object_area w prev p).
  { unfold object_area. rewrite L. apply totalQ_same. intros k K. rewrite same_cell by assumption. reflexivity. }
  rewrite O. assert (M : meets before now (ren p) c <-> meets prev now p c); [|rewrite M; reflexivity].
  split; intros (k & K & E & N); exists k.
  - rewrite L in K. split; [exact K|]. split; [|exact N]. apply Z.eqb_eq. rewrite <- (same_cell p k I K). apply Z.eqb_eq. exact E.
  - split; [lia|]. split; [|exact N]. apply Z.eqb_eq. rewrite (same_cell p k I K). apply Z.eqb_eq. exact E.
Qed.
Lemma renamed_record t parents areas rest : length prev = length w -> length now = length w -> (0 < c)%Z -> ren c = c ->
  parents = parents_in w thr prev now c -> areas = map (fun p => Parallel.shared_area w p c prev now) parents ->
  recorded_overlaps w thr before now (mkEvent t (map ren (c :: rest)) (map ren parents) areas).
Proof.
  intros Lp Ln Pc Rc -> ->. assert (In1 : forall p, In p (parents_in w thr prev now c) -> In p prev).
  { intros p I. apply parents_in_spec in I; [|assumption..]. destruct I as (_ & _ & (k & K & <- & _) & _). apply nth_In. exact K. }
  exists c, (map ren rest). cbn [e_children e_parents e_areas map]. rewrite Rc. split; [reflexivity|]. split.
  - intro q. rewrite in_map_iff. split.
    + intros (p & <- & I). apply renamed_enough; [apply In1; exact I|]. apply parents_in_spec; assumption.
    + intro H. assert (M := H). destruct M as (_ & _ & (k & K & E & _) & _). rewrite L in K. rewrite V in E by exact K. subst q.
      assert (I : In (nth k prev 0%Z) prev) by (apply nth_In; exact K). apply renamed_enough in H; [|exact I]. exists (nth k prev 0%Z). split; [reflexivity|]. apply parents_in_spec; assumption.
  - revert In1. generalize (parents_in w thr prev now c). induction l as [|p l IH]; intro In1; cbn [map]; constructor.
    + rewrite renamed_shared by (apply In1; left; reflexivity). apply shared_is; [lia|exact Lp].
    + apply IH. intros q I. apply In1. right. exact I.
Qed.
End Renamed.

Lemma finer_step f start s : step_ok f start s -> (forall k, k < length f -> (nth k f 0 < start)%Z) -> finer f (ps_cur s).
Proof.
  intros O B. split; [apply (so_cur _ _ _ O)|]. split.
  - intros k K. assert (X := so_foot _ _ _ O k K). lia.
  - intros j k J K E. apply (so_refine _ _ _ O B); assumption.
Qed.
Lemma finer_trans f g h : finer f g -> finer g h -> finer f h.
Proof.
  intros (A1 & A2 & A3) (B1 & B2 & B3). split; [lia|]. split.
  - intros k K. rewrite B2 by lia. apply A2. exact K.
  - intros j k J K E. apply A3; try assumption. apply B3; [lia|lia|exact E].
Qed.
Lemma divides_finer c c' F G t : divides c c' F G -> t < length F -> finer (nth t F []) (nth t G []).
Proof.
  intros ((_ & A) & _ & B & C) T. split; [apply A; exact T|]. split.
  - intros k K. apply (B t k). split; assumption.
  - intros j k J K E. apply (C t j k); [split; assumption|split; assumption|exact E].
Qed.

Variable part : list Z -> list bool -> list Z -> list Z -> result par_err (list Z).
Hypothesis Pv : part_valid part.
Variable tc : nat.
Lemma iteration_records s objs s' objs' : good s -> (forall c, In c objs -> (0 < c)%Z) ->
  (forall f, In f (pt_fields s) -> length f = length w) ->
  iteration w thr part tc s objs = Ok (s', objs') ->
  exists evs, pt_events s' = pt_events s ++ evs /\ forall e, In e evs -> e_time e < length (pt_fields s) /\ 1 <= e_time e /\
    exists before now, (before = nth (e_time e - 1) (pt_fields s) [] \/ before = nth (e_time e - 1) (pt_fields s') []) /\
      finer (nth (e_time e) (pt_fields s) []) now /\ recorded_overlaps w thr before now e.
Proof.
  intros G Ho Lf Hit. destruct (iteration_events w thr part Pv tc s objs s' objs' G Ho Hit) as (evs & Ee & So & _).
  destruct (iteration_steps w thr part Pv tc s objs s' objs' G Ho Hit) as (steps & A & Mg & Ef & Fs & Ec & Ee' & Ob).
  destruct (iteration_divides w thr part Pv tc s objs s' objs' G Ho Hit) as (Dv & _).
  assert (G' := G). destruct G' as (_ & Cp & Ib). set (F := pt_fields s) in *. set (counter := pt_counter s) in *.
  set (temps := temp_ids counter steps) in *. set (rename := permanent counter temps) in *.
  rewrite Ee' in Ee. apply app_inv_head in Ee. subst evs. exists (renamed_merges rename steps). split; [exact Ee'|].
  intros e I. destruct (So e I) as (Te & _). split; [apply Te|]. split; [apply Te|].
  assert (Rl : forall x, (x < counter)%Z -> rename x = x) by (intros x X; exact (permanent_low counter steps x Cp X)).
  unfold renamed_merges in I. apply in_flat_map in I. destruct I as ((t, st) & I & J). assert (A' := A). destruct A' as [La O].
  apply (In_nth _ _ (0, no_step)) in I. destruct I as (i & I & E). rewrite combine_length, seq_length in I. rewrite nth_combine in E by (rewrite seq_length; reflexivity).
  rewrite seq_nth in E by lia. injection E as <- <-. cbn [fst snd Nat.add] in J. apply in_map_iff in J. destruct J as (m & <- & J). cbn [e_time] in *.
  assert (T : i < length F) by lia.
  assert (Ln : length (nth i F []) = length w) by (apply Lf, nth_In; exact T).
  assert (Sa := start_at tc s objs i T). fold F counter in Sa.
  assert (Fi : forall s0, step_ok (nth i F []) (nth i (id_starts counter tc (map (objects_at counter F objs) (seq 0 (length F)))) 0%Z) s0 -> finer (nth i F []) (ps_cur s0)).
  { intros s0 O0. apply (finer_step _ _ _ O0). intros k K. assert (B := Ib (nth i F []) (nth k (nth i F []) 0%Z) (nth_In _ _ T) (nth_In _ _ K)). lia. }
  destruct (Mg i m T J) as [g|(i' & Ei & g)]; destruct g as (_ & _ & c & news & Ech & Bc & _ & _ & s0 & O0 & Ep & Ea).
  - destruct i as [|i]; [lia|]. rewrite shift_nth in Ep, Ea by exact T. replace (S i - 1) with i by lia.
    assert (Lp : length (nth i F []) = length w) by (apply Lf, nth_In; lia).
    assert (Lo : forall x, In x (nth i F []) -> (x < counter)%Z) by (intros x X; apply (Ib (nth i F []) x); [apply nth_In; lia|exact X]).
    exists (nth i F []), (ps_cur s0). split; [left; reflexivity|]. split; [apply Fi; exact O0|]. rewrite Ech.
    apply (renamed_record (nth i F []) (nth i F []) (ps_cur s0) rename c); auto.
    + intros k K. rewrite Rl; [reflexivity|]. apply Lo, nth_In, K.
    + intros x y X Y E. rewrite !Rl in E by (apply Lo; assumption). exact E.
    + intros x X. rewrite Rl by (apply Lo; exact X). reflexivity.
    + rewrite (so_cur _ _ _ O0). exact Ln.
    + lia.
    + apply Rl. lia.
  - subst i. replace (S i' - 1) with i' by lia. assert (T' : i' < length F) by lia. assert (Ot := O i' T').
    assert (Lp : length (nth i' F []) = length w) by (apply Lf, nth_In; exact T').
    assert (Lc : length (ps_cur (nth i' steps no_step)) = length w) by (rewrite (so_cur _ _ _ Ot); exact Lp).
    assert (Lb : length (nth i' (pt_fields s') []) = length w) by (destruct Dv as ((_ & D2) & _); rewrite D2; [exact Lp|exact T']).
    assert (Nv : forall k, k < length w -> nth k (nth i' (pt_fields s') []) 0%Z = rename (nth k (ps_cur (nth i' steps no_step)) 0%Z)).
    { intros k K. apply (new_value tc s objs s' G Ho steps i' k A); [split; [exact T'|fold F; lia]|exact Ef]. }
    assert (Cv : forall x, In x (ps_cur (nth i' steps no_step)) -> (0 <= x < counter)%Z \/ (In x temps /\ (counter <= x)%Z)).
    { intros x X. apply (In_nth _ _ 0%Z) in X. destruct X as (k & K & <-). destruct (cur_value tc s objs G Ho steps i' k A) as [[_ B]|B]; [split; [exact T'|fold F; lia]| |]; [left; exact B|right; exact B]. }
    exists (nth i' (pt_fields s') []), (ps_cur s0). split; [right; reflexivity|]. split; [apply Fi; exact O0|]. rewrite Ech.
    apply (renamed_record (ps_cur (nth i' steps no_step)) (nth i' (pt_fields s') []) (ps_cur s0) rename c); auto.
    + lia.
    + intros k K. apply Nv. lia.
    + intros x y X Y E. apply Cv in X. apply Cv in Y. apply (permanent_inj counter steps x y Cp); [| |exact E]; [destruct X as [X|X]|destruct Y as [Y|Y]]; solve [left; lia|right; apply X|right; apply Y].
    + intros x X. apply Cv in X. destruct X as [X|[X Xc]]; [rewrite Rl by lia; reflexivity|]. assert (R := permanent_in counter steps x X). fold temps rename in R. lia.
    + rewrite (so_cur _ _ _ O0). exact Ln.
    + lia.
    + apply Rl. lia.
Qed.

Variable order : list Z -> list Z.
Hypothesis Hord : forall l x, In x (order l) -> In x l.
Lemma loop_records fuel : forall s objs processed it s' objs' it',
  good s -> (forall c, In c objs -> (0 < c)%Z) -> (forall f, In f (pt_fields s) -> length f = length w) ->
  merge_loop w thr part order tc fuel s objs processed it = Ok (s', objs', it') ->
  exists evs, pt_events s' = pt_events s ++ evs /\ forall e, In e evs ->
    exists before now, finer (nth (e_time e - 1) (pt_fields s) []) before /\
      finer (nth (e_time e) (pt_fields s) []) now /\ recorded_overlaps w thr before now e.
Proof.
  induction fuel as [|fuel IH]; intros s objs processed it s' objs' it' G Ho Lf H.
  - assert (E : s' = s) by (destruct objs; cbn in H; congruence). subst s'. exists []. rewrite app_nil_r. split; [reflexivity|contradiction].
  - destruct objs as [|o objs0].
    + cbn in H. assert (E : s' = s) by congruence. subst s'. exists []. rewrite app_nil_r. split; [reflexivity|contradiction].
    + cbn [merge_loop] in H. apply bind_ok in H. destruct H as ((s1, o1) & H1 & H). cbn [fst snd] in H.
      assert (Ho1 : forall c, In c (order (o :: objs0)) -> (0 < c)%Z) by (intros c I; apply Ho, Hord, I).
      destruct (iteration_divides w thr part Pv tc s _ s1 o1 G Ho1 H1) as (D1 & G1 & L1 & O1).
      destruct (iteration_records s _ s1 o1 G Ho1 Lf H1) as (ev1 & E1 & R1).
      assert (Ho2 : forall c, In c (set_minus o1 processed) -> (0 < c)%Z).
      { intros c I. unfold set_minus in I. apply filter_In in I. destruct I as [I _]. rewrite unique_codes_In in I. apply O1 in I. lia. }
      assert (Sh := D1). destruct Sh as ((S1 & S2) & _).
      assert (Lf1 : forall f, In f (pt_fields s1) -> length f = length w).
      { intros f I. apply (In_nth _ _ []) in I. destruct I as (t & T & <-). rewrite S1 in T. rewrite S2 by exact T. apply Lf, nth_In, T. }
      destruct (IH _ _ _ _ _ _ _ G1 Ho2 Lf1 H) as (ev2 & E2 & R2).
      exists (ev1 ++ ev2). split; [rewrite E2, E1, app_assoc; reflexivity|]. intros e I. apply in_app_iff in I.
      assert (Rf : forall f, finer f f) by (intro f; split; [reflexivity|]; split; [reflexivity|auto]).
      destruct I as [I|I].
      * destruct (R1 e I) as (T & T1 & before & now & B & N & R). exists before, now. split; [|split; assumption].
        destruct B as [-> | ->]; [apply Rf|]. apply (divides_finer _ _ _ _ _ D1). lia.
      * destruct (R2 e I) as (before & now & B & N & R). exists before, now.
        assert (Fn : forall t, finer (nth t (pt_fields s) []) (nth t (pt_fields s1) [])).
        { intro t. destruct (Nat.lt_ge_cases t (length (pt_fields s))) as [T|T]; [exact (divides_finer _ _ _ _ _ D1 T)|]. rewrite !nth_overflow by lia. apply Rf. }
        split; [exact (finer_trans _ _ _ (Fn _) B)|]. split; [exact (finer_trans _ _ _ (Fn _) N)|exact R].
Qed.
End Record.
