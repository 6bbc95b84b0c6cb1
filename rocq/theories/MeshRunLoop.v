(** Parents recorded by the parallel merging never exceed the largest ID of the
    final field; clustering on a mesh cannot fail. *)
From Coq Require Import Lia.
From Verif Require Import Base Graph Morph MorphSpec Label LabelSpec LabelProofs Filter FilterProofs FilterMoreProofs Overlap OverlapSpec OverlapProofs
  ConsolidateProofs Merge MergeSpec MergeProofs MergeLoop MergeMore Partition Cluster ClusterSpec ClusterProofs ClusterMore ClusterFinal ClusterPipe
  MeshPart Parallel ParallelSpec ParallelProofs ParallelMore ParallelFinal MeshRun MeshRunProofs.
Open Scope nat_scope.

Definition top (F : list (list Z)) : Z := arr_max (concat F).
Lemma divides_top c c' F G x : ids_below c F -> divides c c' F G -> In x (concat F) -> (x <= top G)%Z.
Proof.
  intros B ((S1 & S2) & V & _) X. apply concat_In_nth in X. destruct X as (t & T & X).
  apply (In_nth _ _ 0%Z) in X. destruct X as (k & K & E). assert (Sh : in_shape F t k) by (split; assumption).
  assert (I : In (value G t k) (concat G)).
  { apply concat_In_nth. exists t. split; [lia|]. apply nth_In. rewrite S2; assumption. }
  apply arr_max_ge in I. fold (top G) in I.
  assert (Bx : (0 <= x < c)%Z) by (rewrite <- E; apply (B (nth t F [])); apply nth_In; assumption).
  destruct (V t k Sh) as [H|H]; [|lia]. unfold value in H at 2. lia.
Qed.

Section Loop.
Variables (w : list Q) (thr : Q).
Variable part : list Z -> list bool -> list Z -> list Z -> result par_err (list Z).
Hypothesis Pv : part_valid part.
Variable tc : nat.
Variable order : list Z -> list Z.
Hypothesis Hord : forall l x, In x (order l) -> In x l.

Lemma loop_parents fuel : forall s objs processed it s' objs' it',
  good s -> (forall c, In c objs -> (0 < c)%Z) ->
  merge_loop w thr part order tc fuel s objs processed it = Ok (s', objs', it') ->
  exists evs, pt_events s' = pt_events s ++ evs /\
    forall e p, In e evs -> In p (e_parents e) -> (0 < p <= top (pt_fields s'))%Z.
Proof.
  induction fuel as [|fuel IH]; intros s objs processed it s' objs' it' G Ho H.
  - assert (E : s' = s) by (destruct objs; cbn in H; congruence). subst s'. exists []. rewrite app_nil_r. split; [reflexivity|intros e p []].
  - destruct objs as [|o objs0].
    + cbn in H. assert (E : s' = s) by congruence. subst s'. exists []. rewrite app_nil_r. split; [reflexivity|intros e p []].
    + cbn [merge_loop] in H. apply bind_ok in H. destruct H as ((s1, o1) & H1 & H). cbn [fst snd] in H.
      assert (Ho1 : forall c, In c (order (o :: objs0)) -> (0 < c)%Z) by (intros c I; apply Ho, Hord, I).
      destruct (iteration_divides w thr part Pv tc s _ s1 o1 G Ho1 H1) as (D1 & G1 & L1 & O1).
      destruct (iteration_events w thr part Pv tc s _ s1 o1 G Ho1 H1) as (ev1 & E1 & Sm1 & Pa & _).
      assert (Ho2 : forall c, In c (set_minus o1 processed) -> (0 < c)%Z).
      { intros c I. unfold set_minus in I. apply filter_In in I. destruct I as [I _]. rewrite unique_codes_In in I. apply O1 in I. lia. }
      destruct (IH _ _ _ _ _ _ _ G1 Ho2 H) as (ev2 & E2 & P2).
      destruct (loop_ok w thr part Pv tc order Hord fuel _ _ _ _ _ _ _ G1 Ho2 H) as (G2 & L2 & D2 & _).
      exists (ev1 ++ ev2). split; [rewrite E2, E1, app_assoc; reflexivity|].
      intros e p I J. apply in_app_iff in I. destruct I as [I|I]; [|exact (P2 e p I J)].
      destruct (Sm1 e I) as (Te & _ & _ & _ & _ & _ & Pp & _). split; [apply Pp; exact J|].
      assert (Bs := proj2 (proj2 G)). assert (Bs1 := proj2 (proj2 G1)).
      destruct (Pa e p I J) as [X|X].
      * apply (divides_top (pt_counter s) (pt_counter s') (pt_fields s)); [exact Bs|eapply (divides_trans 0); [exact L1|exact L2|exact D1|exact D2]|].
        apply concat_In_nth. exists (e_time e - 1). split; [lia|exact X].
      * apply (divides_top (pt_counter s1) (pt_counter s') (pt_fields s1)); [exact Bs1|exact D2|].
        apply concat_In_nth. exists (e_time e - 1). split; [|exact X]. destruct D1 as ((Ln & _) & _). lia.
Qed.

(** Without events nothing changes. *)
Lemma loop_quiet fuel : forall s objs processed it s' objs' it',
  good s -> (forall c, In c objs -> (0 < c)%Z) ->
  merge_loop w thr part order tc fuel s objs processed it = Ok (s', objs', it') ->
  pt_events s' = pt_events s -> pt_counter s' = pt_counter s.
Proof.
  induction fuel as [|fuel IH]; intros s objs processed it s' objs' it' G Ho H E.
  - assert (E' : s' = s) by (destruct objs; cbn in H; congruence). subst s'. reflexivity.
  - destruct objs as [|o objs0].
    + cbn in H. assert (E' : s' = s) by congruence. subst s'. reflexivity.
    + cbn [merge_loop] in H. apply bind_ok in H. destruct H as ((s1, o1) & H1 & H). cbn [fst snd] in H.
      assert (Ho1 : forall c, In c (order (o :: objs0)) -> (0 < c)%Z) by (intros c I; apply Ho, Hord, I).
      destruct (iteration_divides w thr part Pv tc s _ s1 o1 G Ho1 H1) as (D1 & G1 & L1 & O1).
      destruct (iteration_events w thr part Pv tc s _ s1 o1 G Ho1 H1) as (ev1 & E1 & _ & _ & New).
      assert (Ho2 : forall c, In c (set_minus o1 processed) -> (0 < c)%Z).
      { intros c I. unfold set_minus in I. apply filter_In in I. destruct I as [I _]. rewrite unique_codes_In in I. apply O1 in I. lia. }
      destruct (loop_ok w thr part Pv tc order Hord fuel _ _ _ _ _ _ _ G1 Ho2 H) as (_ & _ & _ & ev2 & E2 & _).
      rewrite E1 in E2. rewrite E2, <- app_assoc in E.
      assert (N : ev1 ++ ev2 = []) by (apply (app_inv_head (pt_events s)); rewrite app_nil_r; exact E).
      apply app_eq_nil in N. destruct N as [-> ->].
      rewrite (IH _ _ _ _ _ _ _ G1 Ho2 H) by (rewrite E2, app_nil_r, E1; reflexivity).
      destruct (Z.eq_dec (pt_counter s1) (pt_counter s)) as [Q0|Q0]; [exact Q0|].
      exfalso. destruct (proj1 (New (pt_counter s)) ltac:(lia)) as (e & [] & _).
Qed.
End Loop.

Lemma divides_nothing c F G : divides c c F G -> G = F.
Proof.
  intros ((S1 & S2) & V & _). apply (nth_ext _ _ [] []); [exact S1|]. intros t T. rewrite S1 in T.
  apply (nth_ext _ _ 0%Z 0%Z); [apply S2; exact T|]. intros k K. rewrite S2 in K by exact T.
  destruct (V t k (conj T K)) as [E|E]; [exact E|lia].
Qed.

(** ** Clustering when parents are only known to be at most the largest ID *)

Definition no_merges : merges := mkMerges [] [] [] [] [] [].
Definition same_but_ledger (a b : events) : Prop :=
  v_field a = v_field b /\ v_count a = v_count b /\ v_global a = v_global b /\ v_presence a = v_presence b /\
  v_start a = v_start b /\ v_end a = v_end b /\ v_area a = v_area b.

Section Cluster.
Variables (ca : list Q) (fields : list (list Z)) (pairs : list (Z * Z)) (mg : merges).
Hypothesis Hn : forall f x, In f fields -> In x f -> (0 <= x)%Z.
Hypothesis Hp : forall a b, In (a, b) pairs -> (0 < a)%Z /\ (0 < b)%Z /\ In a (concat fields) /\ In b (concat fields).
Hypothesis Hm : forall row p, In row (m_parents mg) -> In p row -> (0 < p)%Z -> (p <= arr_max (concat fields))%Z.
Hypothesis Hne : (0 <= arr_max (concat fields))%Z.

Lemma plain_input : cluster_input fields pairs (m_parents no_merges).
Proof. split; [exact Hn|]. split; [exact Hp|]. intros row p []. Qed.

Lemma cluster_bounded : exists ev ev0, cluster_rename ca fields pairs mg = Ok ev /\
  cluster_rename ca fields pairs no_merges = Ok ev0 /\ same_but_ledger ev ev0.
Proof.
  destruct (event_table_spec fields pairs Hp) as (tab & n & E & L & _).
  unfold cluster_rename. rewrite E.
  assert (G : forallb (fun r => match r with Some _ => true | None => false end) (map (parent_events tab) (m_parents mg)) = true).
  { apply forallb_forall. intros r R. apply in_map_iff in R. destruct R as (row & <- & R). unfold parent_events.
    replace (forallb (fun p => Z.ltb p (Z.of_nat (length tab))) row) with true; [reflexivity|]. symmetry. apply forallb_forall.
    intros p P. apply Z.ltb_lt. rewrite L. destruct (Z.lt_ge_cases 0 p) as [Q0|Q0]; [|lia].
    assert (B := Hm row p R P Q0). lia. }
  rewrite G. cbn [m_parents no_merges map forallb]. eexists. eexists. split; [reflexivity|]. split; [reflexivity|].
  unfold same_but_ledger. cbn [v_field v_count v_global v_presence v_start v_end v_area]. tauto.
Qed.
End Cluster.

(** ** The whole of tracking *)
Section Run.
Variables (m : mesh) (mask : list bool) (w : list Q) (cent : list bool -> Q * Q) (thr : Q).
Variable part : list Z -> list bool -> list Z -> list Z -> result par_err (list Z).
Hypothesis Pv : part_valid part.
Variable order : list Z -> list Z.
Hypothesis Hord : forall l x, In x (order l) -> In x l.
Variables (tc limit : nat) (data : list (list bool)).
Hypothesis Hm : mesh_ok m.
Hypothesis Lm : length mask = length m.
Hypothesis Lw : length w = length m.
Hypothesis Ld : forall d, In d data -> length d = length m.
Hypothesis Hw : forall q, In q w -> (0 < q)%Q.
Let lab := mesh_objects m mask data.
Let ps := initial_props w cent lab.

Lemma some_object : ps <> [] -> exists t k, t < length data /\ on_at m mask data t k.
Proof.
  intro N. destruct ps as [|[x p] r] eqn:E; [congruence|].
  assert (I : In x (prop_ids ps)) by (rewrite E; left; reflexivity).
  unfold ps in I. apply initial_ids in I. destruct I as (P & t & X).
  assert (T : t < length data).
  { destruct (Nat.lt_ge_cases t (length data)) as [H|H]; [exact H|].
    rewrite nth_overflow in X by (unfold lab; rewrite lab_length; exact H). destruct X. }
  apply (In_nth _ _ 0%Z) in X. destruct X as (k & K & <-). unfold lab in K. rewrite lab_row in K by assumption.
  exists t, k. split; [exact T|]. apply (lab_cell m mask data Hm Lm Ld t k T K). exact P.
Qed.

Section Loop_done.
Variable st : pstate.
Hypothesis Ne : ps <> [].
Hypothesis Hst : parallel_merge w thr part order tc limit ps (Some lab) lab = Ok st.
Let objs := pt_fields st.

Lemma lab_labelled : labelled_series (length m) lab.
Proof. exact (lab_series m mask data Hm Lm Ld (some_object Ne)). Qed.
Lemma start_good : good (mkPState lab (Some lab) (arr_max (prop_ids ps) + 1) []).
Proof.
  destruct lab_labelled as (_ & N & _ & t0 & x0 & P0 & X0). split; [right; reflexivity|]. cbn [pt_counter pt_fields].
  assert (B : forall t x, In x (nth t lab []) -> (0 < x)%Z -> (x <= arr_max (prop_ids ps))%Z).
  { intros t x X P. apply arr_max_ge. unfold ps. apply initial_ids. eauto. }
  assert (B0 := B t0 x0 X0 P0). split; [lia|]. intros f x F X. assert (Nx := N f x F X).
  apply (In_nth _ _ []) in F. destruct F as (t & _ & <-). destruct (Z.eq_dec x 0) as [->|Z0]; [lia|].
  assert (Bx := B t x X). lia.
Qed.
Lemma queue_positive c : In c (merging_children (enforce_threshold thr ps (find_overlapping w lab))) -> (0 < c)%Z.
Proof.
  intro I. unfold merging_children in I. apply filter_In in I. destruct I as [I _]. rewrite unique_codes_In in I.
  apply in_map_iff in I. destruct I as (r & <- & R).
  assert (Hl : forall f, In f lab -> length f = length w) by (rewrite Lw; apply lab_labelled).
  assert (Tp : table_for w cent lab ps).
  { apply series_table; [exact Hl|]. rewrite props_ids. apply flat_unique_NoDup. exact (lab_once m mask data Hm Lm Ld). }
  assert (Sl : labelled_series (length w) lab) by (rewrite Lw; exact lab_labelled).
  apply (enforce_spec thr ps _ r (table_pos w cent lab ps Sl Tp Hw)) in R. destruct R as (R & _).
  assert (X : exists n, In (mkRow (r_from r) (r_to r) n) (find_overlapping w lab)) by (exists (r_area r); destruct r; exact R).
  apply (find_overlapping_pair w lab Hl) in X. apply X.
Qed.
Lemma loop_result : exists objs' it', it' <> limit /\
  merge_loop w thr part order tc limit (mkPState lab (Some lab) (arr_max (prop_ids ps) + 1) [])
    (merging_children (enforce_threshold thr ps (find_overlapping w lab))) [] 0 = Ok (st, objs', it').
Proof.
  unfold parallel_merge in Hst. apply bind_ok in Hst. destruct Hst as ([[s o] it] & H & E). cbn [fst snd] in E.
  destruct (Nat.eqb_spec it limit) as [->|Nq]; [discriminate|]. injection E as ->. eauto.
Qed.
Lemma objs_divide : divides (arr_max (prop_ids ps) + 1) (pt_counter st) lab objs /\ good st.
Proof.
  destruct loop_result as (o & it & _ & H).
  destruct (loop_ok w thr part Pv tc order Hord _ _ _ _ _ _ _ _ start_good queue_positive H) as (G & _ & D & _).
  split; [exact D|exact G].
Qed.
Lemma objs_parents e p : In e (pt_events st) -> In p (e_parents e) -> (0 < p <= top objs)%Z.
Proof.
  destruct loop_result as (o & it & _ & H).
  destruct (loop_parents w thr part Pv tc order Hord _ _ _ _ _ _ _ _ start_good queue_positive H) as (evs & E & P).
  cbn [pt_events app] in E. rewrite E. apply P.
Qed.
Lemma objs_unmerged : pt_events st = [] -> objs = lab.
Proof.
  intro E. destruct loop_result as (o & it & _ & H).
  assert (Q0 := loop_quiet w thr part Pv tc order Hord _ _ _ _ _ _ _ _ start_good queue_positive H E). cbn [pt_counter] in Q0.
  destruct objs_divide as [D _]. rewrite Q0 in D. exact (divides_nothing _ _ _ D).
Qed.
Lemma objs_length : length objs = length data.
Proof. destruct objs_divide as [((L & _) & _) _]. rewrite L. unfold lab. apply lab_length. Qed.
Lemma objs_row t : t < length data -> length (nth t objs []) = length m.
Proof.
  intro T. destruct objs_divide as [((_ & L) & _) _]. rewrite L by (unfold lab; rewrite lab_length; exact T).
  unfold lab. apply lab_row; assumption.
Qed.
Lemma objs_cell t k : t < length data -> k < length m ->
  (0 <= id_at objs t k)%Z /\ ((0 < id_at objs t k)%Z <-> on_at m mask data t k).
Proof.
  intros T K. destruct objs_divide as [(_ & _ & Fo & _) (_ & _ & B)]. 
  assert (Sh : in_shape lab t k) by (split; [unfold lab; rewrite lab_length; exact T|unfold lab; rewrite lab_row; assumption]).
  split.
  - apply (B (nth t objs [])); apply nth_In; fold objs; [rewrite objs_length; exact T|rewrite objs_row; assumption].
  - rewrite <- (proj2 (lab_cell m mask data Hm Lm Ld t k T K)). apply (Fo t k Sh).
Qed.
Lemma objs_within t j k : t < length data -> on_at m mask data t j -> on_at m mask data t k ->
  id_at objs t j = id_at objs t k -> mesh_chain m (on_at m mask data t) j k.
Proof.
  intros T J K E. apply (lab_same m mask data Hm Lm Ld t j k T J K).
  destruct objs_divide as [(_ & _ & _ & Co) _].
  assert (Sh : forall i, on_at m mask data t i -> in_shape lab t i).
  { intros i I. split; [unfold lab; rewrite lab_length; exact T|unfold lab; rewrite lab_row; [apply I|assumption..]]. }
  exact (Co t j k (Sh j J) (Sh k K) E).
Qed.

Hypothesis Dist : NoDup (prop_ids (final_props w cent objs)).
Lemma objs_labelled : labelled_series (length m) objs.
Proof.
  split; [|split; [|split]].
  - intros f I. apply (In_nth _ _ []) in I. destruct I as (t & T & <-). rewrite objs_length in T. apply objs_row. exact T.
  - intros f x I X. destruct objs_divide as [_ (_ & _ & B)]. exact (proj1 (B f x I X)).
  - intros x j k P J K. unfold final_props in Dist. rewrite props_ids in Dist. exact (flat_unique_once objs x Dist j k P J K).
  - destruct (some_object Ne) as (t & k & T & O). exists t, (id_at objs t k). split; [apply (objs_cell t k T (proj1 O)); exact O|].
    apply nth_In. rewrite objs_row by exact T. apply O.
Qed.
Lemma objs_w : labelled_series (length w) objs.
Proof. rewrite Lw. exact objs_labelled. Qed.
Lemma objs_tab : table_for w cent objs (final_props w cent objs).
Proof. apply series_table; [apply objs_w|exact Dist]. Qed.
Lemma pair_iff i j : In (i, j) (final_pairs w cent thr objs) <-> consecutive_overlap w thr objs i j.
Proof.
  exact (final_pair w cent thr objs (final_props w cent objs) objs_w objs_tab Hw i j (mkState (final_props w cent objs) 0%Z []) eq_refl).
Qed.
Lemma pair_occurs a b : In (a, b) (final_pairs w cent thr objs) ->
  (0 < a)%Z /\ (0 < b)%Z /\ In a (concat objs) /\ In b (concat objs).
Proof.
  intro P. apply pair_iff in P. destruct (overlap_times w thr objs objs_w Hw a b P) as (t & T & A & B & Pa & Pb).
  split; [exact Pa|]. split; [exact Pb|]. split; apply concat_In_nth; [exists t|exists (S t)]; (split; [lia|assumption]).
Qed.
Lemma mesh_clusters : exists ev ev0, mesh_events w cent thr st = Ok (ev, merge_dataset (pt_events st)) /\
  cluster_rename w objs (final_pairs w cent thr objs) no_merges = Ok ev0 /\ same_but_ledger ev ev0.
Proof.
  assert (Hn : forall f x, In f objs -> In x f -> (0 <= x)%Z) by apply objs_labelled.
  assert (Hp : forall row p, In row (m_parents (merge_dataset (pt_events st))) -> In p row -> (0 < p)%Z -> (p <= arr_max (concat objs))%Z).
  { intros row p R P Q0. unfold merge_dataset in R. cbn [m_parents] in R.
    apply in_map_iff in R. destruct R as (l & <- & R). apply in_map_iff in R. destruct R as (e & <- & E).
    apply pad_In in P; [|exact Q0]. apply (objs_parents e p E P). }
  assert (H0 : (0 <= arr_max (concat objs))%Z).
  { destruct objs_labelled as (_ & _ & _ & t & x & P & X). assert (I : In x (concat objs)).
    { apply concat_In_nth. exists t. split; [|exact X]. destruct (Nat.lt_ge_cases t (length objs)) as [H|H]; [exact H|].
      rewrite nth_overflow in X by exact H. destruct X. }
    apply arr_max_ge in I. lia. }
  destruct (cluster_bounded w objs (final_pairs w cent thr objs) (merge_dataset (pt_events st)) Hn pair_occurs Hp H0) as (ev & ev0 & E & E0 & Sm).
  assert (I0 := plain_input objs (final_pairs w cent thr objs) Hn pair_occurs).
  destruct (built_of w objs _ no_merges ev0 I0 E0) as (tab & n & Eb & F).
  exists (mkEvents (map (map (fun v => if Z.ltb 0 v then v else 0%Z)) (v_field ev)) (v_count ev) (v_global ev)
            (v_presence ev) (v_start ev) (v_end ev) (v_area ev) (v_ledger ev)), ev0.
  split; [|split; [exact E0|]].
  - unfold mesh_events. fold objs. rewrite (distinctZ_of _ Dist). cbv zeta. rewrite E. reflexivity.
  - destruct Sm as (S1 & S2 & S3 & S4 & S5 & S6 & S7). unfold same_but_ledger.
    cbn [v_field v_count v_global v_presence v_start v_end v_area].
    split; [|tauto]. rewrite S1, Eb. unfold built. cbn [v_field].
    rewrite map_map. apply map_ext_in. intros f Ff. unfold map_ids. rewrite map_map. apply map_ext_in. intros v V.
    destruct (Z.ltb_spec 0 v) as [P|P]; [|reflexivity].
    assert (O : In v (concat objs)) by (apply in_concat; eauto).
    assert (R := t_range _ _ _ _ F v P O). destruct (Z.ltb_spec 0 (nth (Z.to_nat v) tab 0%Z)); [reflexivity|lia].
Qed.
End Loop_done.
End Run.

(** ** Numbering of the events *)
Lemma arr_max_In l : l <> [] -> In (arr_max l) l.
Proof.
  destruct l as [|v r]; [congruence|]. intros _. cbn [arr_max]. revert v. induction r as [|y r IH]; intro v; cbn [list_max]; [left; reflexivity|].
  destruct (IH (Z.max v y)) as [H|H]; [|right; right; exact H]. rewrite <- H.
  destruct (Z.max_spec v y) as [[_ ->]|[_ ->]]; [right; left; reflexivity|left; reflexivity].
Qed.
Lemma numbered (F E : list (list Z)) (n : nat) :
  (forall f x, In f F -> In x f -> (0 <= x)%Z) -> (exists t c, t < length F /\ c < length (nth t F []) /\ (0 < id_at F t c)%Z) ->
  length E = length F -> (forall t, length (nth t E []) = length (nth t F [])) ->
  (forall t k, t < length F -> k < length (nth t F []) -> (id_at E t k = 0%Z <-> id_at F t k = 0%Z)) ->
  (forall k, (1 <= k <= Z.of_nat n)%Z <->
     exists t c, t < length F /\ c < length (nth t F []) /\ (0 < id_at F t c)%Z /\ id_at E t c = k) ->
  arr_max (concat E) = Z.of_nat n /\
  (forall t k, t < length F -> k < length (nth t F []) -> (0 <= id_at E t k)%Z) /\
  (forall k, (1 <= k <= Z.of_nat n)%Z <-> exists t, (0 < k)%Z /\ present_at E t k).
Proof.
  intros Nn (t0 & c0 & T0 & C0 & P0) S1 S2 B On.
  assert (Pc : forall t c, t < length F -> c < length (nth t F []) -> (0 <= id_at E t c <= Z.of_nat n)%Z).
  { intros t c T C. destruct (Z.eq_dec (id_at F t c) 0) as [Z0|Z0]; [apply (B t c T C) in Z0; lia|].
    assert (N : (0 <= id_at F t c)%Z) by (apply (Nn (nth t F [])); apply nth_In; assumption).
    assert (X : (1 <= id_at E t c <= Z.of_nat n)%Z) by (apply On; exists t, c; split; [exact T|]; split; [exact C|]; split; [lia|reflexivity]). lia. }
  assert (Pos : forall t k, present_at E t k -> (0 <= k <= Z.of_nat n)%Z).
  { intros t k P. unfold present_at in P. assert (T : t < length F).
    { destruct (Nat.lt_ge_cases t (length F)) as [H|H]; [exact H|]. rewrite nth_overflow in P by (rewrite S1; exact H). destruct P. }
    destruct (In_nth _ _ 0%Z P) as (c & C & <-). rewrite S2 in C. exact (Pc t c T C). }
  assert (Np : (1 <= Z.of_nat n)%Z).
  { assert (X : (1 <= id_at E t0 c0 <= Z.of_nat n)%Z) by (apply On; eauto 8). lia. }
  split; [|split].
  - assert (Top : In (Z.of_nat n) (concat E)).
    { destruct (proj1 (On (Z.of_nat n)) ltac:(lia)) as (t & c & T & C & _ & <-). apply concat_In_nth. exists t. split; [lia|].
      apply nth_In. rewrite S2. exact C. }
    apply Z.le_antisymm; [|apply arr_max_ge; exact Top].
    assert (Z0 : In (arr_max (concat E)) (concat E)) by (apply arr_max_In; intro H; rewrite H in Top; destruct Top).
    apply concat_In_nth in Z0. destruct Z0 as (u & U & Z0). apply Pos in Z0. lia.
  - intros t k T K. apply (Pc t k T K).
  - intro k. split.
    + intro K. destruct (proj1 (On k) K) as (t & c & T & C & P & <-). exists t. split; [lia|]. apply nth_In. rewrite S2. exact C.
    + intros (t & P & Q0). apply Pos in Q0. lia.
Qed.
