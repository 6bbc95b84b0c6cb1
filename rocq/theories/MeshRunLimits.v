(** One-step blocks; tracking without merging objects. *)
From Coq Require Import Lia.
From Verif Require Import Base Graph Morph MorphSpec Label LabelSpec LabelProofs Filter FilterProofs FilterMoreProofs Overlap OverlapSpec OverlapProofs
  ConsolidateProofs Merge MergeSpec MergeProofs MergeLoop MergeMore Partition Cluster ClusterSpec ClusterProofs ClusterMore ClusterFinal ClusterPipe
  MeshPart Parallel ParallelSpec ParallelProofs ParallelMore ParallelFinal ParallelLimits HistogramWindow MeshRun MeshRunProofs MeshRunLoop.
Open Scope nat_scope.

Lemma collect_fails {A} (l : list (result par_err A)) e : In (Err e) l -> forall v, collect l <> Ok v.
Proof.
  induction l as [|r l IH]; intros I v H; [destruct I|]. cbn [collect] in H.
  apply bind_ok in H. destruct H as (a & Ea & H). apply bind_ok in H. destruct H as (b & Eb & H).
  destruct I as [->|I]; [discriminate|]. exact (IH I b Eb).
Qed.
Lemma split_by_length {A} sizes (l : list A) : length (split_by sizes l) = length sizes.
Proof. revert l. induction sizes as [|k r IH]; intro l; cbn [split_by length]; [reflexivity|]. rewrite IH. reflexivity. Qed.
Lemma split_by_piece {A} sizes : forall (l : list A), fold_right Nat.add 0 sizes = length l ->
  forall i, i < length sizes -> length (nth i (split_by sizes l) []) = nth i sizes 0.
Proof.
  induction sizes as [|k r IH]; intros l E i I; [cbn in I; lia|]. cbn [fold_right] in E. cbn [split_by].
  destruct i as [|i]; cbn [nth]; [apply firstn_length_le; lia|].
  apply IH; [rewrite skipn_length; lia|cbn [length] in I; lia].
Qed.
Lemma shift_length F : length (shift_m1 F) = length F.
Proof.
  destruct F as [|f r]; [reflexivity|]. cbn [shift_m1 length]. f_equal.
  assert (E : f :: r <> []) by discriminate. assert (H := app_removelast_last [] E).
  apply (f_equal (@length _)) in H. rewrite app_length in H. cbn [length] in H. lia.
Qed.

(** Blocks of a single time step. *)
Definition one_step_block (tc nt : nat) : Prop := nt mod tc = 1 \/ (tc = 1 /\ 0 < nt).
Lemma one_step_size tc nt : one_step_block tc nt <-> In 1 (block_sizes tc nt).
Proof.
  unfold one_step_block, block_sizes. rewrite in_app_iff. split.
  - intros [H|[-> P]].
    + right. rewrite H. cbn. auto.
    + left. rewrite Nat.div_1_r. destruct nt; [lia|]. left. reflexivity.
  - intros [H|H].
    + assert (E := repeat_spec _ _ _ H). subst tc. right. split; [reflexivity|]. rewrite Nat.div_1_r in H. destruct nt; [destruct H|lia].
    + destruct (Nat.eqb_spec (nt mod tc) 0); [destruct H|]. left. destruct H as [H|[]]. exact H.
Qed.

Section Blocks.
Variables (w : list Q) (thr : Q).
Variable part : list Z -> list bool -> list Z -> list Z -> result par_err (list Z).
Variable tc : nat.

Section Shape.
Variables (s : pstate) (objs : list Z).
Let F := pt_fields s.
Let queues := map (objects_at (pt_counter s) F objs) (seq 0 (length F)).
Let sizes := block_sizes tc (length F).
Let blocks := combine (combine (split_by sizes (shift_m1 F)) (split_by sizes (shifted F)))
                (combine (split_by sizes queues) (split_by sizes (id_starts (pt_counter s) tc queues))).
Lemma blocks_nth i : i < length sizes ->
  length (fst (fst (nth i blocks ([], [], ([], []))))) = nth i sizes 0 /\ In (nth i blocks ([], [], ([], []))) blocks.
Proof.
  intro I. assert (L : length blocks = length sizes) by (unfold blocks; rewrite !combine_length, !split_by_length; lia).
  split; [|apply nth_In; lia]. unfold blocks. rewrite nth_combine by (rewrite !combine_length, !split_by_length; reflexivity).
  rewrite nth_combine by (rewrite !split_by_length; reflexivity). cbn [fst].
  apply split_by_piece; [|exact I]. rewrite shift_length. apply block_sizes_sum.
Qed.
Lemma block_size b : In b blocks -> In (length (fst (fst b))) sizes.
Proof.
  intro I. apply (In_nth _ _ ([], [], ([], []))) in I. destruct I as (i & I & <-).
  assert (L : length blocks = length sizes) by (unfold blocks; rewrite !combine_length, !split_by_length; lia).
  rewrite L in I. rewrite (proj1 (blocks_nth i I)). apply nth_In. exact I.
Qed.
Lemma one_step_fails : one_step_block tc (length F) -> forall r, iteration w thr part tc s objs <> Ok r.
Proof.
  intros O r H. apply one_step_size in O. fold sizes in O. apply (In_nth _ _ 0) in O. destruct O as (i & I & E).
  unfold iteration in H. destruct (pads_ok _ _); [|discriminate]. cbv zeta in H. fold F in H. fold queues in H. fold sizes in H. fold blocks in H.
  apply bind_ok in H. destruct H as (outs & H & _). revert H. apply (collect_fails _ OneStepBlock). apply in_map_iff.
  destruct (blocks_nth i I) as [Ln In0]. exists (nth i blocks ([], [], ([], []))). split; [|exact In0].
  rewrite E in Ln. unfold process_chunk. destruct (fst (fst (nth i blocks ([], [], ([], []))))) as [|a [|b l]]; cbn [length] in Ln; try lia; reflexivity.
Qed.
End Shape.

Hypothesis Pe : forall prev mask parents ids, part prev mask parents ids <> Err OneStepBlock.
Lemma child_multi prev nxt s child : process_child w thr part prev nxt s child <> Err OneStepBlock.
Proof.
  intro H. unfold process_child in H. apply bind_err in H. destruct H as [H|(ps & _ & H)]; [apply scan_err in H; discriminate|].
  destruct (Nat.ltb _ 2); [discriminate|]. destruct (Nat.ltb _ _); [discriminate|]. destruct (Nat.leb _ _); [discriminate|].
  apply bind_err in H. destruct H as [H|(labels & _ & H)]; [exact (Pe _ _ _ _ H)|].
  apply bind_err in H. destruct H as [H|(ui & _ & H)]; [|discriminate].
  apply record_err in H. destruct H as [H|H]; discriminate.
Qed.
Lemma queue_multi prev nxt q : forall s, process_queue w thr part prev nxt q s <> Err OneStepBlock.
Proof.
  induction q as [|c q IH]; intros s H; cbn [process_queue] in H; [discriminate|].
  apply bind_err in H. destruct H as [H|((s1, l1) & _ & H)]; [exact (child_multi _ _ _ _ H)|].
  apply bind_err in H. destruct H as [H|(r & _ & H)]; [exact (IH _ H)|discriminate].
Qed.
Lemma final_multi l : forall q, fold_left enqueue_final l q = Err OneStepBlock -> q = Err OneStepBlock.
Proof.
  induction l as [|x l IH]; intros q H; cbn [fold_left] in H; [exact H|]. apply IH in H. unfold enqueue_final in H.
  apply bind_err in H. destruct H as [H|(v & _ & H)]; [exact H|].
  destruct (Nat.ltb _ _); [discriminate|]. destruct (memZ x v); [discriminate|]. destruct (Nat.leb _ _); discriminate.
Qed.
Lemma steps_multi : forall nexts prev cur queues starts, process_steps w thr part prev cur nexts queues starts <> Err OneStepBlock.
Proof.
  induction nexts as [|nxt nr IH]; intros prev cur queues starts H; [discriminate|].
  destruct queues as [|q qr]; [discriminate|]. destruct starts as [|st sr]; [discriminate|]. cbn [process_steps] in H.
  apply bind_err in H. destruct H as [H|((s, l) & _ & H)]; [exact (queue_multi _ _ _ _ H)|]. cbn [fst snd] in H.
  destruct nr as [|n2 nr].
  - apply bind_err in H. destruct H as [H|(f & _ & H)]; [|discriminate]. apply final_multi in H. discriminate.
  - apply bind_err in H. destruct H as [H|(f & _ & H)]; [exact (IH _ _ _ _ H)|discriminate].
Qed.
Lemma iteration_multi s objs : ~ one_step_block tc (length (pt_fields s)) -> 0 < tc -> iteration w thr part tc s objs <> Err OneStepBlock.
Proof.
  intros O T H. unfold iteration in H. destruct (pads_ok _ _); [|discriminate].
  cbv zeta in H. apply bind_err in H. destruct H as [H|(outs & _ & H)].
  - apply collect_err in H. apply in_map_iff in H. destruct H as (b & H & B). apply block_size in B.
    assert (N1 : length (fst (fst b)) <> 1) by (intro E; apply O, one_step_size; rewrite <- E; exact B).
    assert (N0 : length (fst (fst b)) <> 0).
    { intro E. rewrite E in B. unfold block_sizes in B. apply in_app_iff in B. destruct B as [B|B].
      - assert (X := repeat_spec _ _ _ B). lia.
      - destruct (Nat.eqb_spec (length (pt_fields s) mod tc) 0); [destruct B|]. destruct B as [B|[]]. congruence. }
    unfold process_chunk in H. destruct (fst (fst b)) as [|x [|y r]]; cbn [length] in N1, N0; try lia. exact (steps_multi _ _ _ _ _ H).
  - destruct (update_store _ _ _ _ _). discriminate.
Qed.
End Blocks.

Section Loop.
Variables (w : list Q) (thr : Q).
Variable part : list Z -> list bool -> list Z -> list Z -> result par_err (list Z).
Hypothesis Pv : part_valid part.
Hypothesis Pe : forall prev mask parents ids, part prev mask parents ids <> Err OneStepBlock.
Variable tc : nat.
Hypothesis Htc : 0 < tc.
Variable order : list Z -> list Z.
Hypothesis Hord : forall l x, In x (order l) -> In x l.

Lemma loop_multi fuel : forall s objs processed it,
  good s -> (forall c, In c objs -> (0 < c)%Z) -> ~ one_step_block tc (length (pt_fields s)) ->
  merge_loop w thr part order tc fuel s objs processed it <> Err OneStepBlock.
Proof.
  induction fuel as [|fuel IH]; intros s objs processed it G Ho O H; [destruct objs; discriminate|].
  destruct objs as [|o objs0]; [discriminate|]. cbn [merge_loop] in H. apply bind_err in H.
  destruct H as [H|((s1, o1) & H1 & H)]; [exact (iteration_multi w thr part tc Pe s _ O Htc H)|]. cbn [fst snd] in H.
  assert (Ho1 : forall c, In c (order (o :: objs0)) -> (0 < c)%Z) by (intros c I; apply Ho, Hord, I).
  destruct (iteration_divides w thr part Pv tc s _ s1 o1 G Ho1 H1) as (((Ln & _) & _) & G1 & L1 & O1).
  revert H. apply IH; [exact G1| |rewrite Ln; exact O].
  intros c I. unfold set_minus in I. apply filter_In in I. destruct I as [I _]. rewrite unique_codes_In in I. apply O1 in I. lia.
Qed.
End Loop.

(** No object with two parents: nothing to do. *)
Lemma one_row (ov : list row) c : NoDup (map row_pair ov) ->
  (forall p q, In (p, c) (map row_pair ov) -> In (q, c) (map row_pair ov) -> p = q) ->
  count (fun r => Z.eqb (r_to r) c) ov <= 1.
Proof.
  intros D P. unfold count. set (f := fun r => Z.eqb (r_to r) c).
  assert (Z0 : forall r l, NoDup (map row_pair (r :: l)) -> r_to r = c -> (forall x, In x (r :: l) -> In x ov) -> filter f l = []).
  { intros r l D' E I. destruct (filter f l) as [|r' l'] eqn:Ef; [reflexivity|]. exfalso.
    assert (I' : In r' (filter f l)) by (rewrite Ef; left; reflexivity).
    apply filter_In in I'. destruct I' as [I' E']. apply Z.eqb_eq in E'. inversion D' as [|? ? Nr _]; subst. apply Nr.
    apply in_map_iff. exists r'. split; [|exact I']. unfold row_pair. rewrite E'. f_equal.
    apply P; apply in_map_iff; [exists r'|exists r]; (split; [unfold row_pair; congruence|apply I; cbn; auto]). }
  assert (K : forall l, NoDup (map row_pair l) -> (forall x, In x l -> In x ov) -> length (filter f l) <= 1); [|apply K; auto].
  induction l as [|r l IH]; intros D' I; [cbn; lia|]. cbn [filter]. destruct (f r) eqn:E.
  - apply Z.eqb_eq in E. rewrite (Z0 r l D' E I). cbn. lia.
  - inversion D' as [|? ? _ D'']; subst. apply IH; [exact D''|]. intros x J. apply I. right. exact J.
Qed.
Lemma merging_none (w : list Q) (thr : Q) (cent : list bool -> Q * Q) (lab : list (list Z)) :
  labelled_series (length w) lab -> (forall q, In q w -> (0 < q)%Q) ->
  (forall p q c, consecutive_overlap w thr lab p c -> consecutive_overlap w thr lab q c -> p = q) ->
  merging_children (enforce_threshold thr (initial_props w cent lab) (find_overlapping w lab)) = [].
Proof.
  intros Sl Hw One. set (ov := enforce_threshold thr (initial_props w cent lab) (find_overlapping w lab)).
  assert (Hl : forall f, In f lab -> length f = length w) by apply Sl.
  assert (Nd : NoDup (prop_ids (initial_props w cent lab))) by (rewrite props_ids; apply flat_unique_NoDup; apply Sl).
  assert (Tp := series_table w cent lab Hl Nd).
  assert (Pr : forall i j, In (i, j) (map row_pair ov) <-> consecutive_overlap w thr lab i j).
  { intros i j. exact (final_pair w cent thr lab _ Sl Tp Hw i j (mkState (initial_props w cent lab) 0%Z []) eq_refl). }
  assert (Dp : NoDup (map row_pair ov)).
  { apply enforce_subsequence, find_overlapping_NoDup. }
  unfold merging_children. apply filter_none. intros c _. apply Nat.ltb_ge. apply one_row; [exact Dp|].
  intros p q A B. exact (One p q c (proj1 (Pr _ _) A) (proj1 (Pr _ _) B)).
Qed.

(** ** Labellings of the connected objects agree up to renaming *)
Section Transfer.
Variables (m : mesh) (mask : list bool) (data : list (list bool)).
Let on := on_at m mask data.

(** One ID per connected object: used at one time only, 0 where there is none. *)
Definition component_labelling (A : list (list Z)) : Prop :=
  length A = length data /\ (forall t, t < length data -> length (nth t A []) = length m) /\
  (forall t k, t < length data -> k < length m -> (0 <= id_at A t k)%Z /\ ((0 < id_at A t k)%Z <-> on t k)) /\
  (forall t j k, t < length data -> on t j -> on t k -> (id_at A t j = id_at A t k <-> mesh_chain m (on t) j k)) /\
  (forall x s t, (0 < x)%Z -> In x (nth s A []) -> In x (nth t A []) -> s = t).

Variables (A B : list (list Z)).
Hypothesis (HA : component_labelling A) (HB : component_labelling B).
Lemma same_cells t j k : t < length data -> on t j -> k < length m ->
  Z.eqb (id_at A t k) (id_at A t j) = Z.eqb (id_at B t k) (id_at B t j).
Proof.
  intros T J K. destruct HA as (_ & _ & Pa & Ca & _). destruct HB as (_ & _ & Pb & Cb & _).
  destruct (Pa t k T K) as [Na Oa]. destruct (Pb t k T K) as [Nb Ob].
  destruct (Pa t j T (proj1 J)) as [_ Ja]. destruct (Pb t j T (proj1 J)) as [_ Jb].
  apply Ja in J as Ja'. apply Jb in J as Jb'.
  destruct (Z.ltb_spec 0 (id_at A t k)) as [P|P].
  - apply Oa in P. assert (Ea := Ca t k j T P J). assert (Eb := Cb t k j T P J).
    destruct (Z.eqb_spec (id_at A t k) (id_at A t j)) as [E|E]; destruct (Z.eqb_spec (id_at B t k) (id_at B t j)) as [F|F]; try reflexivity.
    + exfalso. apply F, Eb, Ea, E.
    + exfalso. apply E, Ea, Eb, F.
  - assert (Q0 : ~ (0 < id_at B t k)%Z) by (intro X; apply Ob in X; apply Oa in X; lia).
    destruct (Z.eqb_spec (id_at A t k) (id_at A t j)); [lia|]. destruct (Z.eqb_spec (id_at B t k) (id_at B t j)); [lia|reflexivity].
Qed.
Lemma same_object_area w t j : t < length data -> on t j ->
  (object_area w (nth t A []) (id_at A t j) == object_area w (nth t B []) (id_at B t j))%Q.
Proof.
  intros T J. unfold object_area. destruct HA as (_ & La & _). destruct HB as (_ & Lb & _). rewrite La, Lb by exact T.
  apply totalQ_ext. intros k K. assert (E := same_cells t j k T J K). unfold id_at in E at 1 3. rewrite E. reflexivity.
Qed.
Lemma same_shared_area w t j k : S t < length data -> on t j -> on (S t) k ->
  (OverlapSpec.shared_area w (nth t A []) (nth (S t) A []) (id_at A t j) (id_at A (S t) k) ==
   OverlapSpec.shared_area w (nth t B []) (nth (S t) B []) (id_at B t j) (id_at B (S t) k))%Q.
Proof.
  intros T J K. assert (T' : t < length data) by lia. unfold OverlapSpec.shared_area. destruct HA as (_ & La & _). destruct HB as (_ & Lb & _).
  rewrite La, Lb by exact T'. apply totalQ_ext. intros i I.
  assert (E := same_cells t j i T' J I). assert (F := same_cells (S t) k i T K I). unfold id_at in E at 1 3. unfold id_at in F at 1 3.
  rewrite E, F. reflexivity.
Qed.
Lemma overlap_cells w thr p c : consecutive_overlap w thr A p c ->
  exists t j k, S t < length data /\ on t j /\ on (S t) k /\ p = id_at A t j /\ c = id_at A (S t) k /\
    consecutive_overlap w thr B (id_at B t j) (id_at B (S t) k).
Proof.
  intros (t & T & Pp & Pc & (k & K & Ep & Ec) & Ar). destruct HA as (Ln & La & Pa & _).
  rewrite Ln in T. assert (T' : t < length data) by lia. rewrite La in K by exact T'.
  assert (J : on t k) by (apply (Pa t k T' K); unfold id_at; rewrite Ep; exact Pp).
  assert (J' : on (S t) k) by (apply (Pa (S t) k T K); unfold id_at; rewrite Ec; exact Pc).
  exists t, k, k. split; [exact T|]. split; [exact J|]. split; [exact J'|]. split; [symmetry; exact Ep|]. split; [symmetry; exact Ec|].
  assert (A1 := same_object_area w t k T' J). assert (A2 := same_object_area w (S t) k T J'). assert (A3 := same_shared_area w t k k T J J').
  assert (Xp : id_at A t k = p) by exact Ep. assert (Xc : id_at A (S t) k = c) by exact Ec. rewrite Xp in A1, A3. rewrite Xc in A2, A3.
  destruct HB as (Lnb & Lb & Pb & _). exists t. split; [rewrite Lnb; exact T|].
  split; [apply (Pb t k T' K); exact J|]. split; [apply (Pb (S t) k T K); exact J'|].
  split; [exists k; split; [rewrite Lb; assumption|split; reflexivity]|]. rewrite <- A1, <- A2, <- A3. exact Ar.
Qed.
Lemma overlap_of w thr t j k : t < length data -> S t < length data -> on t j -> on (S t) k ->
  consecutive_overlap w thr A (id_at A t j) (id_at A (S t) k) -> consecutive_overlap w thr B (id_at B t j) (id_at B (S t) k).
Proof.
  intros T T' J K H. apply overlap_cells in H. destruct H as (u & j' & k' & U & J' & K' & Ej & Ek & H).
  destruct HA as (_ & La & Pa & Ca & Oa).
  assert (Eu : t = u).
  { apply (Oa (id_at A t j)); [apply Pa; try assumption; apply J|apply nth_In; rewrite La; [apply J|exact T]|].
    rewrite Ej. apply nth_In. rewrite La by lia. apply J'. }
  subst u. apply (Ca t j j' T J J') in Ej. apply (Ca (S t) k k' T' K K') in Ek.
  destruct HB as (_ & _ & _ & Cb & _). apply (Cb t j j' T J J') in Ej. apply (Cb (S t) k k' T' K K') in Ek. congruence.
Qed.
End Transfer.

Section Single.
Variables (m : mesh) (mask : list bool) (data : list (list bool)) (w : list Q) (thr : Q).
Definition single_parents (A : list (list Z)) : Prop :=
  forall p q c, consecutive_overlap w thr A p c -> consecutive_overlap w thr A q c -> p = q.
Lemma single_transfer A B : component_labelling m mask data A -> component_labelling m mask data B -> single_parents A -> single_parents B.
Proof.
  intros HA HB Sg p q c Hp Hq.
  destruct (overlap_cells m mask data B A HB HA w thr p c Hp) as (t & j & k & T & J & K & Ep & Ec & H).
  destruct (overlap_cells m mask data B A HB HA w thr q c Hq) as (t' & j' & k' & T' & J' & K' & Eq & Ec' & H').
  assert (Et : S t = S t').
  { destruct HB as (_ & Lb & Pb & _ & Ob). apply (Ob c); [rewrite Ec; apply Pb; try assumption; apply K| |].
    - rewrite Ec. apply nth_In. rewrite Lb by exact T. apply K.
    - rewrite Ec'. apply nth_In. rewrite Lb by exact T'. apply K'. }
  injection Et as <-. rewrite Ec in Ec'.
  apply (proj1 (proj2 (proj2 (proj2 HB))) (S t) k k' T K K') in Ec'. apply (proj1 (proj2 (proj2 (proj2 HA))) (S t) k k' T K K') in Ec'.
  rewrite <- Ec' in H'. assert (X := Sg _ _ _ H H'). assert (Tl : t < length data) by lia.
  apply (proj1 (proj2 (proj2 (proj2 HA))) t j j' Tl J J') in X. apply (proj1 (proj2 (proj2 (proj2 HB))) t j j' Tl J J') in X. congruence.
Qed.
Hypothesis (Hm : mesh_ok m) (Lm : length mask = length m) (Ld : forall d, In d data -> length d = length m).
Lemma lab_components : component_labelling m mask data (mesh_objects m mask data).
Proof.
  split; [apply lab_length|]. split; [intros t T; apply lab_row; assumption|].
  split; [intros t k T K; apply lab_cell; assumption|]. split; [intros t j k T J K; apply lab_same; assumption|].
  intros x s t P I J. exact (lab_once m mask data Hm Lm Ld x s t P I J).
Qed.
End Single.

Section Chains.
Variables (m : mesh) (mask : list bool) (data : list (list bool)) (w : list Q) (thr : Q).
Variables (A B : list (list Z)).
Hypothesis (HA : component_labelling m mask data A) (HB : component_labelling m mask data B).
Lemma same_place t j u k : t < length data -> u < length data -> on_at m mask data t j -> on_at m mask data u k ->
  id_at A t j = id_at A u k -> id_at B t j = id_at B u k.
Proof.
  intros T U J K E. destruct HA as (_ & La & Pa & Ca & Oa).
  assert (Eu : t = u).
  { apply (Oa (id_at A t j)); [apply Pa; try assumption; apply J|apply nth_In; rewrite La; [apply J|exact T]|].
    rewrite E. apply nth_In. rewrite La by exact U. apply K. }
  subst u. apply (Ca t j k T J K) in E. destruct HB as (_ & _ & _ & Cb & _). apply (Cb t j k T J K). exact E.
Qed.
Lemma chain_transfer x y : chained (consecutive_overlap w thr A) x y ->
  forall t j u k, t < length data -> u < length data -> on_at m mask data t j -> on_at m mask data u k ->
  x = id_at A t j -> y = id_at A u k -> chained (consecutive_overlap w thr B) (id_at B t j) (id_at B u k).
Proof.
  induction 1 as [x|x y z H C IH|x y z H C IH]; intros t j u k T U J K Ex Ey.
  - rewrite (same_place t j u k T U J K); [apply chained_refl|congruence].
  - destruct (overlap_cells m mask data A B HA HB w thr _ _ H) as (t1 & j1 & k1 & T1 & J1 & K1 & E1 & E2 & H1).
    rewrite (same_place t j t1 j1); try assumption; [|lia|congruence].
    eapply chained_fwd; [exact H1|]. apply IH; assumption.
  - destruct (overlap_cells m mask data A B HA HB w thr _ _ H) as (t1 & j1 & k1 & T1 & J1 & K1 & E1 & E2 & H1).
    rewrite (same_place t j (S t1) k1); try assumption; [|congruence].
    eapply chained_bwd; [exact H1|]. apply IH; try assumption. lia.
Qed.
End Chains.

Lemma two_rows (ov : list row) c p q : p <> q -> In (p, c) (map row_pair ov) -> In (q, c) (map row_pair ov) ->
  1 < count (fun r => Z.eqb (r_to r) c) ov.
Proof.
  intros N P Q0. unfold count. apply in_map_iff in P. destruct P as (r & E & R). apply in_map_iff in Q0. destruct Q0 as (r' & E' & R').
  unfold row_pair in E, E'. injection E as E1 E2. injection E' as E3 E4.
  assert (I : In r (filter (fun r => Z.eqb (r_to r) c) ov)) by (apply filter_In; split; [exact R|apply Z.eqb_eq, E2]).
  assert (I' : In r' (filter (fun r => Z.eqb (r_to r) c) ov)) by (apply filter_In; split; [exact R'|apply Z.eqb_eq, E4]).
  destruct (filter (fun r => Z.eqb (r_to r) c) ov) as [|a [|b l]]; [destruct I| |cbn; lia].
  destruct I as [->|[]]. destruct I' as [->|[]]. congruence.
Qed.
Lemma merging_some (w : list Q) (thr : Q) (cent : list bool -> Q * Q) (lab : list (list Z)) p q c :
  labelled_series (length w) lab -> (forall q, In q w -> (0 < q)%Q) ->
  p <> q -> consecutive_overlap w thr lab p c -> consecutive_overlap w thr lab q c ->
  In c (merging_children (enforce_threshold thr (initial_props w cent lab) (find_overlapping w lab))).
Proof.
  intros Sl Hw N P Q0. set (ov := enforce_threshold thr (initial_props w cent lab) (find_overlapping w lab)).
  assert (Hl : forall f, In f lab -> length f = length w) by apply Sl.
  assert (Nd : NoDup (prop_ids (initial_props w cent lab))) by (rewrite props_ids; apply flat_unique_NoDup; apply Sl).
  assert (Tp := series_table w cent lab Hl Nd).
  assert (Pr : forall i j, In (i, j) (map row_pair ov) <-> consecutive_overlap w thr lab i j).
  { intros i j. exact (final_pair w cent thr lab _ Sl Tp Hw i j (mkState (initial_props w cent lab) 0%Z []) eq_refl). }
  apply Pr in P. apply Pr in Q0. unfold merging_children. apply filter_In. split; [|apply Nat.ltb_lt, (two_rows ov c p q); assumption].
  apply unique_codes_In. apply in_map_iff in P. destruct P as (r & E & R). apply in_map_iff. exists r. split; [|exact R].
  unfold row_pair in E. congruence.
Qed.
