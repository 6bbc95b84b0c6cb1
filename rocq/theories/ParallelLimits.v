(** Errors of the parallel merging, and what centroid partitioning does on meshes. *)
From Coq Require Import Permutation Qround Lqa.
From Verif Require Import Base Graph Label LabelProofs Filter FilterProofs Overlap OverlapProofs Merge MergeProofs
  Partition PartitionProofs Cluster ClusterProofs ClusterMore ClusterFinal ClusterPipe MeshPart Parallel ParallelProofs ParallelMore
  MergeSpec ParallelSpec ParallelFinal.
Open Scope nat_scope.

Lemma bind_err {E A B} (r : result E A) (f : A -> result E B) e :
  bind r f = Err e <-> r = Err e \/ exists a, r = Ok a /\ f a = Err e.
Proof.
  destruct r as [a|e']; cbn; split.
  - intro H. right. exists a. tauto.
  - intros [D|(a' & E1 & E2)]; [discriminate|]. injection E1 as <-. exact E2.
  - intro H. left. congruence.
  - intros [H|(a & D & _)]; [congruence|discriminate].
Qed.

(** ** The limit checks never fire *)
Definition limit_err (e : par_err) : Prop := e = TooManyMerges \/ e = ExcessiveMerges.
Section Limits.
Variables (w : list Q) (thr : Q).
Variable part : list Z -> list bool -> list Z -> list Z -> result par_err (list Z).
Hypothesis Pe : forall prev mask parents ids e, part prev mask parents ids = Err e -> ~ limit_err e.

Lemma scan_err prev cur child pots : forall acc e, scan_parents w thr prev cur child pots acc = Err e -> e = TooManyParents.
Proof.
  induction pots as [|p r IH]; intros acc e H; cbn [scan_parents] in H; [discriminate|].
  destruct (Nat.leb _ _); [congruence|]. destruct (Qltb _ _); apply IH in H; exact H.
Qed.
Lemma record_err mask cur' news : forall s e, fold_left (record_update mask cur') news s = Err e ->
  s = Err e \/ e = BufferIndex.
Proof.
  induction news as [|id r IH]; intros s e H; cbn [fold_left] in H; [left; exact H|].
  apply IH in H. destruct H as [H|H]; [|right; exact H]. unfold record_update in H. apply bind_err in H.
  destruct H as [H|((u, i) & _ & H)]; [left; exact H|]. destruct (Nat.leb _ _); [right; congruence|discriminate].
Qed.
Lemma child_limit prev nxt s child e : length (ps_merges s) <= max_merges_step ->
  process_child w thr part prev nxt s child = Err e -> ~ limit_err e.
Proof.
  intros L H. unfold process_child in H. apply bind_err in H. destruct H as [H|(ps & _ & H)].
  - apply scan_err in H. subst. intros [D|D]; discriminate.
  - destruct (Nat.ltb _ 2); [discriminate|]. destruct (Nat.ltb_spec max_merges_step (length (ps_merges s))); [lia|].
    destruct (Nat.leb _ _); [injection H as <-; intros [D|D]; discriminate|].
    apply bind_err in H. destruct H as [H|(labels & _ & H)]; [apply (Pe _ _ _ _ _ H)|].
    apply bind_err in H. destruct H as [H|(ui & _ & H)]; [|discriminate].
    apply record_err in H. destruct H as [H|H]; [discriminate|]. subst. intros [D|D]; discriminate.
Qed.
Lemma child_count prev nxt s child s' l : length (ps_merges s) <= max_merges_step ->
  process_child w thr part prev nxt s child = Ok (s', l) -> length (ps_merges s') <= max_merges_step.
Proof.
  intros L H. unfold process_child in H. apply bind_ok in H. destruct H as (ps & _ & H).
  destruct (Nat.ltb _ 2); [injection H as <- <-; exact L|]. destruct (Nat.ltb _ _); [discriminate|].
  destruct (Nat.leb_spec max_merges_step (length (ps_merges s))); [discriminate|].
  apply bind_ok in H. destruct H as (labels & _ & H). apply bind_ok in H. destruct H as (ui & _ & H).
  injection H as <- _. cbn [ps_merges]. rewrite app_length. cbn [length]. lia.
Qed.
Lemma queue_limit prev nxt q : forall s e, length (ps_merges s) <= max_merges_step ->
  process_queue w thr part prev nxt q s = Err e -> ~ limit_err e.
Proof.
  induction q as [|c q IH]; intros s e L H; cbn [process_queue] in H; [discriminate|].
  apply bind_err in H. destruct H as [H|((s1, l1) & H1 & H)]; [apply (child_limit _ _ _ _ _ L H)|].
  apply bind_err in H. destruct H as [H|(r & _ & H)]; [|discriminate]. cbn [fst] in H.
  apply (IH s1 e); [apply (child_count _ _ _ _ _ _ L H1)|exact H].
Qed.
Lemma final_limit l : forall q e, length q <= max_merges_step -> fold_left enqueue_final l (Ok q) = Err e -> ~ limit_err e.
Proof.
  induction l as [|x l IH]; intros q e L H; cbn [fold_left] in H; [discriminate|].
  cbn [enqueue_final bind] in H. destruct (Nat.ltb_spec max_merges_step (length q)); [lia|].
  destruct (memZ x q); [apply (IH q e L H)|]. destruct (Nat.leb_spec max_merges_step (length q)).
  - rewrite final_err in H. injection H as <-. intros [D|D]; discriminate.
  - apply (IH (q ++ [x]) e); [|exact H]. rewrite app_length. cbn [length]. lia.
Qed.
Lemma steps_limit : forall nexts prev cur queues starts e,
  process_steps w thr part prev cur nexts queues starts = Err e -> ~ limit_err e.
Proof.
  induction nexts as [|nxt nr IH]; intros prev cur queues starts e H; [discriminate|].
  destruct queues as [|q qr]; [discriminate|]. destruct starts as [|st sr]; [discriminate|]. cbn [process_steps] in H.
  apply bind_err in H. destruct H as [H|((s, l) & _ & H)]; [apply (queue_limit prev nxt q (start_step cur st) e); [cbn; lia|exact H]|]. cbn [fst snd] in H.
  destruct nr as [|n2 nr].
  - apply bind_err in H. destruct H as [H|(f & _ & H)]; [|discriminate]. apply (final_limit l [] e); [cbn; lia|exact H].
  - apply bind_err in H. destruct H as [H|(f & _ & H)]; [|discriminate]. apply (IH _ _ _ _ _ H).
Qed.
Lemma chunk_limit m1 p1 queues starts e : process_chunk w thr part m1 p1 queues starts = Err e -> ~ limit_err e.
Proof.
  intro H. unfold process_chunk in H. destruct m1 as [|a [|b r]]; try (injection H as <-; intros [D|D]; discriminate).
  apply (steps_limit _ _ _ _ _ _ H).
Qed.
Lemma collect_err {A} (l : list (result par_err A)) e : collect l = Err e -> In (Err e) l.
Proof.
  induction l as [|r l IH]; intro H; cbn [collect] in H; [discriminate|]. apply bind_err in H.
  destruct H as [H|(a & _ & H)]; [left; exact H|]. apply bind_err in H. destruct H as [H|(b & _ & H)]; [|discriminate].
  right. apply IH. exact H.
Qed.
Lemma iteration_limit tc s objs e : iteration w thr part tc s objs = Err e -> ~ limit_err e.
Proof.
  intro H. unfold iteration in H. destruct (pads_ok _ _); [|injection H as <-; intros [D|D]; discriminate].
  cbv zeta in H. apply bind_err in H. destruct H as [H|(outs & _ & H)].
  - apply collect_err in H. apply in_map_iff in H. destruct H as (b & H & _). apply (chunk_limit _ _ _ _ _ H).
  - destruct (update_store _ _ _ _ _). discriminate.
Qed.
Lemma loop_limit order tc fuel : forall s objs processed it e, merge_loop w thr part order tc fuel s objs processed it = Err e -> ~ limit_err e.
Proof.
  induction fuel as [|fuel IH]; intros s objs processed it e H; [destruct objs; discriminate|].
  destruct objs as [|o objs]; [discriminate|]. cbn [merge_loop] in H. apply bind_err in H.
  destruct H as [H|(r & _ & H)]; [apply (iteration_limit _ _ _ _ H)|apply (IH _ _ _ _ _ H)].
Qed.
Lemma parallel_limit order tc mi ps store fields e : parallel_merge w thr part order tc mi ps store fields = Err e -> ~ limit_err e.
Proof.
  intro H. unfold parallel_merge in H. apply bind_err in H. destruct H as [H|(r & _ & H)]; [apply (loop_limit _ _ _ _ _ _ _ _ H)|].
  destruct (Nat.eqb _ _); [injection H as <-; intros [D|D]; discriminate|discriminate].
Qed.
End Limits.
Lemma part_nn_err nbs dist reach prev mask parents ids e : part_nn_mesh nbs dist reach prev mask parents ids = Err e -> ~ limit_err e.
Proof. unfold part_nn_mesh. destruct (forallb _ _); [discriminate|]. intro H. injection H as <-. intros [D|D]; discriminate. Qed.
Lemma part_centroid_err dist junk prev mask parents ids e : part_centroid_mesh dist junk prev mask parents ids = Err e -> ~ limit_err e.
Proof. unfold part_centroid_mesh. destruct (Nat.eqb _ _); [discriminate|]. intro H. injection H as <-. intros [D|D]; discriminate. Qed.

(** ** Centroid partitioning never divides an object that leaves a cell free *)
Definition varied (f : list Z) : Prop := forall id, exists k, k < length f /\ nth k f 0%Z <> id.
Lemma filter_le {A} (p : A -> bool) l : length (filter p l) <= length l.
Proof. induction l as [|x l IH]; [reflexivity|]. cbn. destruct (p x); cbn; lia. Qed.
Lemma count_all (l : list bool) : count (fun b => b) l = length l -> forall k, k < length l -> nth k l false = true.
Proof.
  induction l as [|b l IH]; intros H k K; [cbn in K; lia|]. unfold count in *. cbn [filter length] in H.
  assert (B := filter_le (fun b : bool => b) l). destruct b; cbn [length] in H; [|lia].
  destruct k as [|k]; [reflexivity|]. cbn [nth]. apply IH; [lia|cbn in K; lia].
Qed.
Section Centroid.
Variables (w : list Q) (thr : Q) (dist : nat -> nat -> Q) (junk : nat -> Z).
Notation part := (part_centroid_mesh dist junk).
Lemma child_same prev nxt s child s' l : varied (ps_cur s) ->
  process_child w thr part prev nxt s child = Ok (s', l) -> s' = s /\ l = [].
Proof.
  intros V H. unfold process_child in H. apply bind_ok in H. destruct H as (ps & _ & H).
  destruct (Nat.ltb _ 2); [injection H as <- <-; split; reflexivity|]. destruct (Nat.ltb _ _); [discriminate|]. destruct (Nat.leb _ _); [discriminate|].
  apply bind_ok in H. destruct H as (labels & Pl & _). exfalso. unfold part_centroid_mesh in Pl.
  destruct (Nat.eqb_spec (length (partition_centroid_mesh dist junk (mask_of child (ps_cur s)) (child :: arangeZ (ps_next s) (length ps - 1))))
     (length (points (mask_of child (ps_cur s))))) as [E|E]; [|discriminate].
  unfold partition_centroid_mesh in E. rewrite map_length, seq_length, points_count in E.
  destruct (V child) as (k & K & N). apply N.
  assert (T := count_all _ (eq_sym E) k). rewrite mask_length in T. specialize (T K). rewrite mask_nth in T by exact K.
  apply Z.eqb_eq in T. symmetry. exact T.
Qed.
Lemma queue_same prev nxt q : forall s s' l, varied (ps_cur s) ->
  process_queue w thr part prev nxt q s = Ok (s', l) -> s' = s /\ l = [].
Proof.
  induction q as [|c q IH]; intros s s' l V H; cbn [process_queue] in H; [injection H as <- <-; split; reflexivity|].
  apply bind_ok in H. destruct H as ((s1, l1) & H1 & H). apply bind_ok in H. destruct H as ((s2, l2) & H2 & H).
  cbn [fst snd] in *. destruct (child_same _ _ _ _ _ _ V H1) as [-> ->]. destruct (IH _ _ _ V H2) as [-> ->].
  injection H as <- <-. split; reflexivity.
Qed.
Lemma steps_same : forall nexts prev cur queues starts steps fin,
  process_steps w thr part prev cur nexts queues starts = Ok (steps, fin) -> varied cur ->
  (forall i, S i < length nexts -> varied (nth i nexts [])) ->
  fin = [] /\ forall s, In s steps -> ps_merges s = [].
Proof.
  induction nexts as [|nxt nr IH]; intros prev cur queues starts steps fin H V Vn.
  - cbn in H. injection H as <- <-. split; [reflexivity|contradiction].
  - destruct queues as [|q qr]; [cbn in H; injection H as <- <-; split; [reflexivity|contradiction]|].
    destruct starts as [|st sr]; [cbn in H; injection H as <- <-; split; [reflexivity|contradiction]|].
    cbn [process_steps] in H. apply bind_ok in H. destruct H as ((s, l) & H1 & H). cbn [fst snd] in H.
    destruct (queue_same prev nxt q (start_step cur st) s l V H1) as [-> ->]. destruct nr as [|n2 nr].
    + cbn in H. injection H as <- <-. split; [reflexivity|]. intros s [<-|[]]. reflexivity.
    + apply bind_ok in H. destruct H as ((steps', fin') & H2 & H). cbn [fst snd] in H. injection H as <- <-.
      apply IH in H2.
      * destruct H2 as [A B]. split; [exact A|]. intros s [<-|I]; [reflexivity|apply B; exact I].
      * apply (Vn 0). cbn. lia.
      * intros i I. apply (Vn (S i)). cbn in *. lia.
Qed.
Lemma blocks_same : forall sizes F M P Qs Ss outs,
  run_blocks w thr part sizes M P Qs Ss = Ok outs ->
  fold_right Nat.add 0 sizes = length F -> length M = length F -> length P = length F ->
  (forall i, S i < length F -> nth (S i) M [] = nth i F []) ->
  (forall i, S i < length F -> nth i P [] = nth (S i) F []) ->
  (forall t, t < length F -> varied (nth t F [])) ->
  flat_map snd outs = [] /\ forall s, In s (flat_map fst outs) -> ps_merges s = [].
Proof.
  induction sizes as [|k r IH]; intros F M P Qs Ss outs H Hs LM LP HM HP V; cbn [fold_right] in Hs.
  - unfold run_blocks in H. cbn in H. injection H as <-. split; [reflexivity|contradiction].
  - unfold run_blocks in H. cbn [split_by combine map collect] in H. cbn [fst snd] in H.
    apply bind_ok in H. destruct H as ((steps, fin) & H1 & H). apply bind_ok in H. destruct H as (outs' & H2 & H).
    injection H as <-. fold (run_blocks w thr part r (skipn k M) (skipn k P) (skipn k Qs) (skipn k Ss)) in H2.
    assert (K2 : 2 <= k /\ exists prev, process_steps w thr part prev (nth 0 F []) (firstn k P) (firstn k Qs) (firstn k Ss) = Ok (steps, fin)).
    { unfold process_chunk in H1. destruct (firstn k M) as [|prev [|cur rest]] eqn:E; try discriminate.
      assert (L := firstn_le_length k M). rewrite E in L. cbn [length] in L.
      assert (Lk : length (firstn k M) <= k) by apply firstn_le_length. rewrite E in Lk. cbn [length] in Lk. split; [lia|].
      exists prev. replace (nth 0 F []) with cur; [exact H1|].
      rewrite <- (HM 0) by lia. rewrite <- (firstn_skipn k M), E. reflexivity. }
    destruct K2 as [K2 (prev & H1')].
    apply steps_same in H1'; [|apply V; lia|].
    + destruct H1' as [-> A]. destruct (IH (skipn k F) (skipn k M) (skipn k P) (skipn k Qs) (skipn k Ss) outs' H2) as (B1 & B2).
      * rewrite skipn_length. lia.
      * rewrite !skipn_length. lia.
      * rewrite !skipn_length. lia.
      * rewrite skipn_length. intros i I. rewrite !nth_skipn. replace (k + S i) with (S (k + i)) by lia. apply HM. lia.
      * rewrite skipn_length. intros i I. rewrite !nth_skipn. replace (k + S i) with (S (k + i)) by lia. apply HP. lia.
      * rewrite skipn_length. intros t T. rewrite nth_skipn. apply V. lia.
      * cbn [flat_map fst snd]. split; [exact B1|]. intros s I. apply in_app_iff in I. destruct I as [I|I]; [apply A|apply B2]; exact I.
    + rewrite firstn_length. intros i I. rewrite nth_firstn_lt by lia. rewrite HP by lia. apply V. lia.
Qed.
Lemma iteration_same tc s objs s' objs' :
  (forall t, t < length (pt_fields s) -> varied (nth t (pt_fields s) [])) ->
  iteration w thr part tc s objs = Ok (s', objs') ->
  objs' = [] /\ pt_fields s' = pt_fields s /\ pt_counter s' = pt_counter s /\ pt_events s' = pt_events s.
Proof.
  intros V H. unfold iteration in H. destruct (pads_ok _ _); [|discriminate]. cbv zeta in H.
  apply bind_ok in H. destruct H as (outs & R & H). set (F := pt_fields s) in *.
  match type of R with collect (map _ (combine _ (combine (split_by _ ?Q) (split_by _ ?S)))) = _ =>
    fold (run_blocks w thr part (block_sizes tc (length F)) (shift_m1 F) (shifted F) Q S) in R end.
  destruct (blocks_same _ F _ _ _ _ outs R) as [A B].
  - apply block_sizes_sum.
  - apply shift_length.
  - apply shifted_length.
  - intros i I. apply shift_nth. exact I.
  - intros i I. apply shifted_nth_in. exact I.
  - exact V.
  - rewrite A in H. set (steps := flat_map fst outs) in *.
    assert (Ex : existsb has_merge steps = false).
    { destruct (existsb has_merge steps) eqn:E; [|reflexivity]. apply existsb_exists in E. destruct E as (x & I & E).
      unfold has_merge in E. rewrite (B x I) in E. discriminate. }
    unfold update_store in H. rewrite Ex in H. injection H as <- <-. cbn [pt_fields pt_counter pt_events].
    assert (Z0 : forall l : list pstep, (forall x, In x l -> ps_merges x = []) -> flat_map (fun x => flat_map pm_children (ps_merges x)) l = []).
    { induction l as [|x l IH]; intro Hl; [reflexivity|]. cbn [flat_map]. rewrite (Hl x (or_introl eq_refl)). cbn. apply IH.
      intros y I. apply Hl. right. exact I. }
    assert (Z1 : forall rename (l : list pstep) a, (forall x, In x l -> ps_merges x = []) -> renamed_from rename a l = []).
    { intros rename. induction l as [|x l IH]; intros a Hl; [reflexivity|]. unfold renamed_from. cbn [length seq combine flat_map fst snd].
      rewrite (Hl x (or_introl eq_refl)). cbn [map app]. apply IH. intros y I. apply Hl. right. exact I. }
    split; [reflexivity|]. split; [reflexivity|]. rewrite renamed_is, Z1, app_nil_r by exact B. split; [|reflexivity].
    unfold temp_ids. rewrite (Z0 steps B). cbn. lia.
Qed.
Lemma parallel_same order tc mi ps store fields st :
  (forall t, t < length fields -> varied (nth t fields [])) ->
  parallel_merge w thr part order tc mi ps store fields = Ok st -> pt_fields st = fields /\ pt_events st = [].
Proof.
  intros V H. unfold parallel_merge in H. apply bind_ok in H. destruct H as (((s, o), it) & H & E). cbn [fst snd] in E.
  destruct (Nat.eqb _ _); [discriminate|]. injection E as <-. revert H.
  generalize (merging_children (enforce_threshold thr ps (find_overlapping w fields))) as objs.
  generalize (@nil Z) as processed. generalize 0 as it0.
  assert (L : forall fuel it0 processed objs s0, pt_fields s0 = fields -> pt_events s0 = [] ->
     merge_loop w thr part order tc fuel s0 objs processed it0 = Ok (s, o, it) -> pt_fields s = fields /\ pt_events s = []).
  { induction fuel as [|fuel IH]; intros it0 processed objs s0 E1 E2 H.
    - destruct objs; cbn in H; injection H as <- <- <-; split; assumption.
    - destruct objs as [|x objs]; [cbn in H; injection H as <- <- <-; split; assumption|].
      cbn [merge_loop] in H. apply bind_ok in H. destruct H as ((s1, o1) & H1 & H). cbn [fst snd] in H.
      apply iteration_same in H1; [|rewrite E1; exact V]. destruct H1 as (_ & F1 & _ & F2).
      apply (IH _ _ _ s1) in H; [exact H|congruence|congruence]. }
  intros it0 processed objs H. eapply L; [| |exact H]; reflexivity.
Qed.
End Centroid.

(** ** The padding *)
Lemma pad_small c nt : (0 < c)%Z -> (100 * c < Z.of_nat nt)%Z -> pad_size c nt = 0%Z.
Proof.
  intros C N. unfold pad_size. assert (P : (0 < Z.of_nat nt)%Z) by lia.
  unfold Qdiv, Qmult, Qinv, inject_Z, Qround.Qfloor. cbn [Qnum Qden].
  destruct (Z.of_nat nt) as [|p|p] eqn:E; try lia. cbn [Qnum Qden Z.mul]. apply Z.div_small. lia.
Qed.
Lemma pad_fails w thr part tc s objs : (0 < pt_counter s)%Z -> (100 * pt_counter s < Z.of_nat (length (pt_fields s)))%Z ->
  (exists f x, In f (pt_fields s) /\ In x f) -> iteration w thr part tc s objs = Err PadTooSmall.
Proof.
  intros C N (f & x & I & J). unfold iteration. destruct (pads_ok _ _) eqn:E; [|reflexivity].
  unfold pads_ok in E. rewrite forallb_forall in E. apply E in I. apply Z.leb_le in I. rewrite pad_small in I by assumption.
  apply unique_codes_In in J. destruct (unique_codes f); [contradiction|]. cbn in I. lia.
Qed.

(** When the pad suffices. *)
Lemma unique_nodup f : length (unique_codes f) = length (nodup Z.eq_dec f).
Proof.
  apply Permutation_length, NoDup_Permutation; [apply unique_codes_NoDup|apply NoDup_nodup|]. intro x. rewrite unique_codes_In, nodup_In. reflexivity.
Qed.
Lemma pads_enough c fields : pads_ok c fields = true <->
  forall f, In f fields -> (Z.of_nat (length (nodup Z.eq_dec f)) * Z.of_nat (length fields) <= 100 * c)%Z.
Proof.
  unfold pads_ok. rewrite forallb_forall. split; intros H f I; specialize (H f I); rewrite unique_nodup in *.
  all: assert (L : (0 < Z.of_nat (length fields))%Z) by (destruct fields; [destruct I|cbn; lia]).
  all: set (k := Z.of_nat (length (nodup Z.eq_dec f))) in *; set (n := Z.of_nat (length fields)) in *.
  all: assert (E : (inject_Z c / inject_Z n * 100 == inject_Z (100 * c) / inject_Z n)%Q)
    by (rewrite inject_Z_mult; change (inject_Z 100) with 100%Q; field; change 0%Q with (inject_Z 0); rewrite inject_Z_injective; lia).
  all: assert (Np : (0 < inject_Z n)%Q) by (change 0%Q with (inject_Z 0); rewrite <- Zlt_Qlt; exact L).
  - apply Z.leb_le in H. unfold pad_size in H. fold n in H. rewrite E in H.
    assert (F := Qfloor_le (inject_Z (100 * c) / inject_Z n)). assert (G : (inject_Z k <= inject_Z (100 * c) / inject_Z n)%Q) by (rewrite Zle_Qle in H; eapply Qle_trans; [exact H|exact F]).
    rewrite Zle_Qle, inject_Z_mult. apply (Qmult_le_r _ _ _ Np) in G. eapply Qle_trans; [exact G|]. unfold Qdiv. rewrite <- Qmult_assoc, (Qmult_comm (/ _)), Qmult_inv_r, Qmult_1_r; [apply Qle_refl|]. intro Z. rewrite Z in Np. discriminate.
  - apply Z.leb_le. unfold pad_size. fold n. rewrite E.
    assert (G : (inject_Z k <= inject_Z (100 * c) / inject_Z n)%Q) by (apply Qle_shift_div_l; [exact Np|]; rewrite <- inject_Z_mult, <- Zle_Qle; exact H).
    apply Qfloor_resp_le in G. rewrite Qfloor_Z in G. exact G.
Qed.
Lemma id_time_exact c fields id t : (0 <= id < c)%Z -> t < length fields -> In id (nth t fields []) -> (forall t', t' < t -> ~ In id (nth t' fields [])) ->
  id_time c fields id = Some t.
Proof.
  intros B T I F. unfold id_time. destruct (Z.leb_spec 0 id); [|lia]. destruct (Z.ltb_spec id c); [|lia]. cbn. f_equal. apply time_of_first; assumption.
Qed.
