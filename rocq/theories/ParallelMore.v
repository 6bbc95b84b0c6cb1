(** Blocks and iterations of the parallel merging. *)
From Verif Require Import Base Graph Label LabelProofs Filter FilterProofs Overlap OverlapProofs Merge MergeProofs
  Partition PartitionProofs Cluster ClusterProofs ClusterFinal ClusterPipe MeshPart Parallel ParallelProofs.
Open Scope nat_scope.

Definition no_step : pstep := mkPStep [] 0 [] [] [].

Lemma enqueue_In l : forall q c, In c (fold_left enqueue l q) -> In c q \/ In c l.
Proof.
  induction l as [|x l IH]; intros q c I; cbn [fold_left] in I; [left; exact I|].
  apply IH in I. destruct I as [I|I]; [|right; right; exact I].
  unfold enqueue in I. destruct (memZ x q); [left; exact I|].
  apply in_app_iff in I. destruct I as [I|[<-|[]]]; [left; exact I|right; left; reflexivity].
Qed.
Lemma final_err l : forall e, fold_left enqueue_final l (Err e) = Err e.
Proof. induction l as [|x l IH]; intro e; [reflexivity|]. cbn. apply IH. Qed.
Lemma final_In l : forall q r c, fold_left enqueue_final l (Ok q) = Ok r -> In c r -> In c q \/ In c l.
Proof.
  induction l as [|x l IH]; intros q r c H I; cbn [fold_left] in H.
  - injection H as <-. left. exact I.
  - cbn [enqueue_final bind] in H. destruct (Nat.ltb _ _); [rewrite final_err in H; discriminate|].
    destruct (memZ x q).
    + destruct (IH _ _ _ H I); [left|right; right]; assumption.
    + destruct (Nat.leb _ _); [rewrite final_err in H; discriminate|].
      destruct (IH _ _ _ H I) as [J|J]; [|right; right; exact J].
      apply in_app_iff in J. destruct J as [J|[<-|[]]]; [left; exact J|right; left; reflexivity].
Qed.

Section Blocks.
Variables (w : list Q) (thr : Q).
Variable part : list Z -> list bool -> list Z -> list Z -> result par_err (list Z).
Hypothesis Pv : part_valid part.
Variable lim : Z.

Lemma steps_ok : forall nexts prev cur queues starts steps fin,
  process_steps w thr part prev cur nexts queues starts = Ok (steps, fin) ->
  length queues = length nexts -> length starts = length nexts ->
  (forall f x, In f nexts -> In x f -> (x < lim)%Z) ->
  (forall q c, In q queues -> In c q -> (0 < c < lim)%Z) ->
  (forall st, In st starts -> (lim <= st)%Z) ->
  length steps = length nexts /\
  (forall i, i < length nexts -> step_ok (nth i (cur :: nexts) []) (nth i starts 0%Z) (nth i steps no_step)) /\
  (forall i m, i < length nexts -> In m (ps_merges (nth i steps no_step)) ->
     merge_good w thr (nth i (prev :: map ps_cur steps) []) (nth i (cur :: nexts) []) lim (nth i starts 0%Z) m) /\
  (forall c, In c fin -> (0 < c < lim)%Z).
Proof.
  induction nexts as [|nxt nr IH]; intros prev cur queues starts steps fin H Lq Ls Hn Hq Hs.
  - cbn in H. injection H as <- <-. split; [reflexivity|]. split; [intros i I; cbn in I; lia|].
    split; [intros i m I; cbn in I; lia|contradiction].
  - destruct queues as [|q qr]; [discriminate|]. destruct starts as [|st sr]; [discriminate|].
    cbn [process_steps] in H. apply bind_ok in H. destruct H as ((s, l) & H1 & H). cbn [fst snd] in H.
    assert (So : step_ok cur st s).
    { apply (queue_step w thr part Pv cur st prev nxt q (start_step cur st) s l); [|apply start_ok|exact H1].
      intros c I. assert (A := Hq q c (or_introl eq_refl) I). assert (B := Hs st (or_introl eq_refl)). lia. }
    assert (Mg : forall m, In m (ps_merges s) -> merge_good w thr prev cur lim st m).
    { intros m I. destruct (queue_merges w thr part Pv cur prev nxt lim st q (start_step cur st) s l) with (m := m) as [[]|J]; auto; [|apply Hs; left; reflexivity|cbn; lia|apply start_ok].
      intros c J. exact (Hq q c (or_introl eq_refl) J). }
    assert (Nx : forall c, In c l -> (0 < c < lim)%Z).
    { intros c I. destruct (queue_next w thr part prev nxt q _ _ _ H1 c I) as [P J].
      assert (A := Hn nxt c (or_introl eq_refl) J). lia. }
    destruct nr as [|nxt2 nr].
    + apply bind_ok in H. destruct H as (fin' & F & H). injection H as <- <-. split; [reflexivity|]. split.
      * intros [|i] I; [exact So|]. cbn in I. lia.
      * split; [intros [|i] m I J; [exact (Mg m J)|cbn in I; lia]|]. intros c I. destruct (final_In _ _ _ _ F I) as [[]|J]. apply Nx. exact J.
    + apply bind_ok in H. destruct H as ((steps', fin') & H2 & H). cbn [fst snd] in H. injection H as <- <-.
      destruct qr as [|q2 qr]; [discriminate|].
      destruct (IH (ps_cur s) nxt (fold_left enqueue l q2 :: qr) sr steps' fin' H2) as (A & B & B' & C).
      * cbn [length] in *. lia.
      * cbn [length] in *. lia.
      * intros f x I J. apply (Hn f x); [right; exact I|exact J].
      * intros q' c [<-|I] J.
        -- apply enqueue_In in J. destruct J as [J|J]; [|apply Nx; exact J].
           apply (Hq q2 c); [right; left; reflexivity|exact J].
        -- apply (Hq q' c); [right; right; exact I|exact J].
      * intros x I. apply Hs. right. exact I.
      * split; [cbn [length] in *; lia|]. split; [|split; [|exact C]].
        -- intros [|i] I; [exact So|]. apply (B i). cbn [length] in *. lia.
        -- intros [|i] m I J; [exact (Mg m J)|]. apply (B' i m); [cbn [length] in *; lia|exact J].
Qed.

Lemma nth_skipn {A} (l : list A) k i d : nth i (skipn k l) d = nth (k + i) l d.
Proof.
  revert l. induction k as [|k IH]; intro l; [reflexivity|].
  destruct l as [|x l]; cbn [skipn Nat.add]; [destruct i; reflexivity|]. apply IH.
Qed.
Lemma In_firstn {A} k (l : list A) x : In x (firstn k l) -> In x l.
Proof. intro I. rewrite <- (firstn_skipn k l). apply in_app_iff. left. exact I. Qed.
Lemma In_skipn {A} k (l : list A) x : In x (skipn k l) -> In x l.
Proof. intro I. rewrite <- (firstn_skipn k l). apply in_app_iff. right. exact I. Qed.

Definition run_blocks (sizes : list nat) (M P : list (list Z)) (Qs : list (list Z)) (Ss : list Z) :=
  collect (map (fun b => process_chunk w thr part (fst (fst b)) (snd (fst b)) (fst (snd b)) (snd (snd b)))
    (combine (combine (split_by sizes M) (split_by sizes P)) (combine (split_by sizes Qs) (split_by sizes Ss)))).

Lemma blocks_ok : forall sizes F M P Qs Ss outs,
  run_blocks sizes M P Qs Ss = Ok outs ->
  fold_right Nat.add 0 sizes = length F -> length M = length F -> length P = length F ->
  length Qs = length F -> length Ss = length F ->
  (forall i, S i < length F -> nth (S i) M [] = nth i F []) ->
  (forall i, S i < length F -> nth i P [] = nth (S i) F []) ->
  (forall f x, In f P -> In x f -> (x < lim)%Z) ->
  (forall q c, In q Qs -> In c q -> (0 < c < lim)%Z) ->
  (forall st, In st Ss -> (lim <= st)%Z) ->
  (length (flat_map fst outs) = length F) /\
  (forall t, t < length F -> step_ok (nth t F []) (nth t Ss 0%Z) (nth t (flat_map fst outs) no_step)) /\
  (forall t m, t < length F -> In m (ps_merges (nth t (flat_map fst outs) no_step)) ->
     merge_good w thr (nth t M []) (nth t F []) lim (nth t Ss 0%Z) m \/
     exists t', t = S t' /\ merge_good w thr (ps_cur (nth t' (flat_map fst outs) no_step)) (nth t F []) lim (nth t Ss 0%Z) m) /\
  (forall c, In c (flat_map snd outs) -> (0 < c < lim)%Z).
Proof.
  induction sizes as [|k r IH]; intros F M P Qs Ss outs H Hs LM LP LQ LS HM HP Hp Hq Hst; cbn [fold_right] in Hs.
  - unfold run_blocks in H. cbn in H. injection H as <-. cbn. split; [lia|]. split; [intros; lia|]. split; [intros; lia|contradiction].
  - unfold run_blocks in H. cbn [split_by combine map collect] in H. cbn [fst snd] in H.
    apply bind_ok in H. destruct H as ((steps, fin) & H1 & H). apply bind_ok in H. destruct H as (outs' & H2 & H).
    injection H as <-. fold (run_blocks r (skipn k M) (skipn k P) (skipn k Qs) (skipn k Ss)) in H2.
    assert (K2 : 2 <= k /\ exists prev, prev = nth 0 M [] /\ process_steps w thr part prev (nth 0 F []) (firstn k P) (firstn k Qs) (firstn k Ss) = Ok (steps, fin)).
    { unfold process_chunk in H1. destruct (firstn k M) as [|prev [|cur rest]] eqn:E; try discriminate.
      assert (L := firstn_le_length k M). rewrite E in L. cbn [length] in L.
      assert (Lk : length (firstn k M) <= k) by apply firstn_le_length. rewrite E in Lk. cbn [length] in Lk. split; [lia|].
      exists prev. split; [rewrite <- (firstn_skipn k M), E; reflexivity|]. replace (nth 0 F []) with cur; [exact H1|].
      rewrite <- (HM 0) by lia. rewrite <- (firstn_skipn k M), E. reflexivity. }
    destruct K2 as [K2 (prev & Ep & H1')].
    destruct (steps_ok (firstn k P) prev (nth 0 F []) (firstn k Qs) (firstn k Ss) steps fin H1') as (A1 & A2 & A4 & A3).
    + rewrite !firstn_length. lia.
    + rewrite !firstn_length. lia.
    + intros f x I. apply Hp. apply (In_firstn k). exact I.
    + intros q c I. apply Hq. apply (In_firstn k). exact I.
    + intros st I. apply Hst. apply (In_firstn k). exact I.
    + rewrite firstn_length in A1, A2, A4.
      destruct (IH (skipn k F) (skipn k M) (skipn k P) (skipn k Qs) (skipn k Ss) outs' H2) as (B1 & B2 & B4 & B3).
      * rewrite skipn_length. lia.
      * rewrite !skipn_length. lia.
      * rewrite !skipn_length. lia.
      * rewrite !skipn_length. lia.
      * rewrite !skipn_length. lia.
      * rewrite skipn_length. intros i I. rewrite !nth_skipn. replace (k + S i) with (S (k + i)) by lia. apply HM. lia.
      * rewrite skipn_length. intros i I. rewrite !nth_skipn. replace (k + S i) with (S (k + i)) by lia. apply HP. lia.
      * intros f x I. apply Hp. apply (In_skipn k). exact I.
      * intros q c I. apply Hq. apply (In_skipn k). exact I.
      * intros st I. apply Hst. apply (In_skipn k). exact I.
      * rewrite skipn_length in B1, B2, B4. cbn [flat_map fst snd]. rewrite app_length. split; [lia|]. split.
        -- intros t T. destruct (Nat.lt_ge_cases t k) as [C|C].
           ++ rewrite app_nth1 by lia. assert (Z := A2 t ltac:(lia)).
              rewrite nth_firstn_lt in Z by exact C. replace (nth t F []) with (nth t (nth 0 F [] :: firstn k P) []); [exact Z|].
              destruct t as [|t]; [reflexivity|]. cbn [nth]. rewrite nth_firstn_lt by lia. apply HP. lia.
           ++ rewrite app_nth2 by lia. rewrite A1, Nat.min_l by lia.
              assert (Z := B2 (t - k) ltac:(lia)). rewrite !nth_skipn in Z. replace (k + (t - k)) with t in Z by lia. exact Z.
        -- split.
        ++ intros t m T I. destruct (Nat.lt_ge_cases t k) as [C|C].
           ** rewrite app_nth1 in I by lia. assert (G := A4 t m ltac:(lia) I). rewrite nth_firstn_lt in G by exact C.
              replace (nth t (nth 0 F [] :: firstn k P) []) with (nth t F []) in G
                by (destruct t as [|t]; [reflexivity|]; cbn [nth]; rewrite nth_firstn_lt by lia; symmetry; apply HP; lia).
              destruct t as [|t]; [left; cbn [nth] in G; rewrite Ep in G; exact G|].
              right. exists t. split; [reflexivity|]. rewrite app_nth1 by lia. cbn [nth] in G.
              rewrite (nth_map_gen _ _ _ no_step) in G by lia. exact G.
           ** rewrite app_nth2 in I by lia. rewrite A1, Nat.min_l in I by lia.
              assert (G := B4 (t - k) m ltac:(lia) I). rewrite !nth_skipn in G. replace (k + (t - k)) with t in G by lia.
              destruct G as [G|(t' & Et & G)]; [left; exact G|]. right. exists (t - 1). split; [lia|].
              rewrite app_nth2 by lia. rewrite A1, Nat.min_l by lia. replace (t - 1 - k) with t' by lia. exact G.
        ++ intros c I. apply in_app_iff in I. destruct I as [I|I]; [apply A3|apply B3]; exact I.
Qed.
End Blocks.

Lemma block_sizes_sum tc nt : fold_right Nat.add 0 (block_sizes tc nt) = nt.
Proof.
  unfold block_sizes. assert (R : forall q r, fold_right Nat.add 0 (repeat tc q ++ r) = q * tc + fold_right Nat.add 0 r).
  { induction q as [|q IH]; intro r; [reflexivity|]. cbn. rewrite IH. lia. }
  rewrite R. assert (D := Nat.div_mod_eq nt tc). destruct (Nat.eqb_spec (nt mod tc) 0); cbn [fold_right]; lia.
Qed.
Lemma removelast_length {A} (l : list A) : length (removelast l) = length l - 1.
Proof.
  induction l as [|x [|y l] IH]; try reflexivity. change (removelast (x :: y :: l)) with (x :: removelast (y :: l)).
  cbn [length] in *. lia.
Qed.
Lemma removelast_nth {A} (l : list A) i d : S i < length l -> nth i (removelast l) d = nth i l d.
Proof.
  revert i. induction l as [|x [|y l] IH]; intros i I; try (cbn in I; lia).
  change (removelast (x :: y :: l)) with (x :: removelast (y :: l)).
  destruct i as [|i]; [reflexivity|]. cbn [nth]. apply IH. cbn [length] in *. lia.
Qed.
Lemma shift_length F : length (shift_m1 F) = length F.
Proof. destruct F as [|f r]; [reflexivity|]. cbn [shift_m1]. cbn [length]. rewrite removelast_length. cbn [length]. lia. Qed.
Lemma shift_nth F i : S i < length F -> nth (S i) (shift_m1 F) [] = nth i F [].
Proof.
  intro I. destruct F as [|f r]; [cbn in I; lia|]. unfold shift_m1.
  change (nth (S i) (map (fun _ => 0%Z) f :: removelast (f :: r)) []) with (nth i (removelast (f :: r)) []).
  apply removelast_nth. exact I.
Qed.
Lemma shifted_length F : length (shifted F) = length F.
Proof. destruct F as [|f r]; [reflexivity|]. cbn [shifted]. rewrite app_length. cbn [length]. lia. Qed.
Lemma shifted_nth_in F i : S i < length F -> nth i (shifted F) [] = nth (S i) F [].
Proof. intro I. destruct F as [|f r]; [cbn in I; lia|]. cbn [shifted length] in *. rewrite app_nth1 by lia. reflexivity. Qed.
Lemma shifted_In F f x : In f (shifted F) -> In x f -> x = 0%Z \/ In f F.
Proof.
  destruct F as [|g r]; [contradiction|]. cbn [shifted]. intros I J. apply in_app_iff in I. destruct I as [I|[<-|[]]].
  - right. right. exact I.
  - left. apply in_map_iff in J. destruct J as (y & <- & _). reflexivity.
Qed.
Lemma starts_length c tc q : length (id_starts c tc q) = length q.
Proof. unfold id_starts. rewrite map_length, seq_length. reflexivity. Qed.
Lemma starts_nth c tc q t : t < length q ->
  nth t (id_starts c tc q) 0%Z = (Z.of_nat t * Z.of_nat (most_objects q) * Z.of_nat tc + c)%Z.
Proof.
  intro T. unfold id_starts. rewrite (nth_map_gen _ _ _ 0) by (rewrite seq_length; exact T).
  rewrite seq_nth by exact T. reflexivity.
Qed.
Lemma starts_ge c tc q s : In s (id_starts c tc q) -> (c <= s)%Z.
Proof. unfold id_starts. intro I. apply in_map_iff in I. destruct I as (t & <- & _). nia. Qed.
Lemma objects_at_In c F objs t b : In b (objects_at c F objs t) -> In b objs /\ (0 <= b < c)%Z.
Proof.
  unfold objects_at. intro I. apply filter_In in I. destruct I as [I J]. split; [exact I|].
  unfold id_time in J. destruct (Z.leb_spec 0 b), (Z.ltb_spec b c); cbn in J; try discriminate. lia.
Qed.

(** ** Renaming *)
Section Rename.
Variables (counter : Z) (steps : list pstep).
Let temps := temp_ids counter steps.
Lemma temps_In v : (0 < counter)%Z ->
  In v temps <-> (counter <= v)%Z /\ exists s m, In s steps /\ In m (ps_merges s) /\ In v (pm_children m).
Proof.
  intro C. unfold temps, temp_ids. rewrite filter_In, unique_codes_In, in_map_iff. split.
  - intros [(x & E & I) P]. destruct (Z.leb_spec counter x) as [L|L]; subst v.
    + split; [exact L|]. apply in_flat_map in I. destruct I as (s & Is & I). apply in_flat_map in I.
      destruct I as (m & Im & I). exists s, m. auto.
    + apply Z.ltb_lt in P. lia.
  - intros [L (s & m & Is & Im & I)]. split; [|apply Z.ltb_lt; lia]. exists v. split.
    + destruct (Z.leb_spec counter v); [reflexivity|lia].
    + apply in_flat_map. exists s. split; [exact Is|]. apply in_flat_map. exists m. auto.
Qed.
Lemma temps_NoDup : NoDup temps.
Proof. unfold temps, temp_ids. apply NoDup_filter, unique_codes_NoDup. Qed.
Lemma permanent_in v : In v temps ->
  (counter <= permanent counter temps v < counter + Z.of_nat (length temps))%Z.
Proof.
  intro I. unfold permanent. rewrite (proj2 (memZ_In _ _) I). assert (L := index_ofZ_lt _ _ I). lia.
Qed.
Lemma permanent_out v : ~ In v temps -> permanent counter temps v = v.
Proof. intro I. unfold permanent. destruct (memZ v temps) eqn:E; [|reflexivity]. apply memZ_In in E. contradiction. Qed.
Lemma permanent_onto x : (counter <= x < counter + Z.of_nat (length temps))%Z ->
  exists v, In v temps /\ permanent counter temps v = x.
Proof.
  intro R. set (i := Z.to_nat (x - counter)). assert (Hi : i < length temps) by (unfold i; lia).
  exists (nth i temps 0%Z). assert (I := nth_In temps 0%Z Hi). split; [exact I|].
  unfold permanent. rewrite (proj2 (memZ_In _ _) I).
  rewrite index_ofZ_nth; [unfold i; lia|apply temps_NoDup|exact Hi].
Qed.
Lemma permanent_inj u v : (0 < counter)%Z -> (u < counter)%Z \/ In u temps -> (v < counter)%Z \/ In v temps ->
  permanent counter temps u = permanent counter temps v -> u = v.
Proof.
  intros C Hu Hv E.
  assert (Low : forall x, (x < counter)%Z -> ~ In x temps) by (intros x X I; apply temps_In in I; lia).
  destruct Hu as [U|U], Hv as [V|V].
  - rewrite !permanent_out in E by (apply Low; assumption). exact E.
  - rewrite (permanent_out u) in E by (apply Low; assumption). apply permanent_in in V. lia.
  - rewrite (permanent_out v) in E by (apply Low; assumption). apply permanent_in in U. lia.
  - unfold permanent in E. rewrite (proj2 (memZ_In _ _) U), (proj2 (memZ_In _ _) V) in E.
    apply (index_ofZ_inj u v temps U V). lia.
Qed.
Lemma permanent_low v : (0 < counter)%Z -> (v < counter)%Z -> permanent counter temps v = v.
Proof. intros C V. apply permanent_out. intro I. apply temps_In in I; lia. Qed.
End Rename.

(** ** The store *)
Lemma updates_nth rename f s k : length f = length (ps_upd s) -> k < length f ->
  nth k (apply_updates rename f s) 0%Z =
  if Nat.ltb (nth k (ps_upd s) unvisited) (length (ps_ids s))
  then rename (nth (nth k (ps_upd s) unvisited) (ps_ids s) 0%Z) else nth k f 0%Z.
Proof.
  intros L K. unfold apply_updates. rewrite (nth_map_gen _ _ _ (0%Z, unvisited)) by (rewrite combine_length; lia).
  rewrite nth_combine by exact L. reflexivity.
Qed.
Lemma updates_length rename f s : length f = length (ps_upd s) -> length (apply_updates rename f s) = length f.
Proof. intro L. unfold apply_updates. rewrite map_length, combine_length. lia. Qed.
Lemma updates_none rename f start s : step_ok f start s -> has_merge s = false -> apply_updates rename f s = f.
Proof.
  intros O H. assert (E : ps_ids s = []).
  { rewrite <- (so_children _ _ _ O). unfold step_ids. unfold has_merge in H. destruct (ps_merges s); [reflexivity|discriminate]. }
  apply (nth_ext _ _ 0%Z 0%Z); [apply updates_length; symmetry; apply (so_upd _ _ _ O)|].
  rewrite updates_length by (symmetry; apply (so_upd _ _ _ O)). intros k K.
  rewrite updates_nth; [|symmetry; apply (so_upd _ _ _ O)|exact K]. rewrite E. cbn [length].
  destruct (Nat.ltb_spec (nth k (ps_upd s) unvisited) 0); [lia|reflexivity].
Qed.
Definition all_ok (F : list (list Z)) (Ss : list Z) (steps : list pstep) : Prop :=
  length steps = length F /\ forall t, t < length F -> step_ok (nth t F []) (nth t Ss 0%Z) (nth t steps no_step).
Lemma all_none rename F Ss steps : all_ok F Ss steps -> existsb has_merge steps = false ->
  map (fun p => apply_updates rename (fst p) (snd p)) (combine F steps) = F.
Proof.
  intros [L O] N. apply (nth_ext _ _ [] []); [rewrite map_length, combine_length; lia|].
  rewrite map_length, combine_length. intros t T.
  rewrite (nth_map_gen _ _ _ ([], no_step)) by (rewrite combine_length; lia). rewrite nth_combine by lia. cbn [fst snd].
  apply (updates_none _ _ _ _ (O t ltac:(lia))).
  destruct (has_merge (nth t steps no_step)) eqn:E; [|reflexivity].
  assert (X : existsb has_merge steps = true); [|congruence].
  apply existsb_exists. exists (nth t steps no_step). split; [apply nth_In; lia|exact E].
Qed.
Lemma combine_app2 {A B} (a : list A) : forall (b : list B) a' b', length a = length b ->
  combine (a ++ a') (b ++ b') = combine a b ++ combine a' b'.
Proof.
  induction a as [|x a IH]; intros [|y b] a' b' L; cbn in L; try discriminate; [reflexivity|].
  cbn. rewrite IH by lia. reflexivity.
Qed.
Lemma all_split k F Ss steps : k <= length F -> length Ss = length F -> all_ok F Ss steps ->
  all_ok (firstn k F) (firstn k Ss) (firstn k steps) /\ all_ok (skipn k F) (skipn k Ss) (skipn k steps).
Proof.
  intros K LS [L O]. split; (split; [rewrite ?firstn_length, ?skipn_length; lia|]); intros t T.
  - rewrite firstn_length in T. rewrite !nth_firstn_lt by lia. apply O. lia.
  - rewrite skipn_length in T. rewrite !nth_skipn. apply O. lia.
Qed.
Lemma store_blocks rename : forall sizes F Ss steps, fold_right Nat.add 0 sizes = length F -> length Ss = length F ->
  all_ok F Ss steps ->
  concat (map (fun b =>
        let '(old, fs, ss) := b in
        if existsb has_merge ss then map (fun p => apply_updates rename (fst p) (snd p)) (combine fs ss) else old)
      (combine (combine (split_by sizes F) (split_by sizes F)) (split_by sizes steps))) =
  map (fun p => apply_updates rename (fst p) (snd p)) (combine F steps).
Proof.
  induction sizes as [|k r IH]; intros F Ss steps Hs LS O; cbn [fold_right] in Hs.
  - destruct F; [reflexivity|discriminate].
  - cbn [split_by combine map concat]. destruct (all_split k F Ss steps ltac:(lia) LS O) as [O1 O2].
    rewrite (IH (skipn k F) (skipn k Ss) (skipn k steps)); [|rewrite skipn_length; lia|rewrite !skipn_length; lia|exact O2].
    replace (combine F steps) with (combine (firstn k F) (firstn k steps) ++ combine (skipn k F) (skipn k steps)).
    + rewrite map_app. f_equal. destruct (existsb has_merge (firstn k steps)) eqn:E; [reflexivity|].
      symmetry. apply (all_none rename _ _ _ O1 E).
    + rewrite <- combine_app2.
      * rewrite !firstn_skipn. reflexivity.
      * destruct O as [L _]. rewrite !firstn_length. lia.
Qed.

Definition fresh_store (s : pstate) : Prop := pt_store s = None \/ pt_store s = Some (pt_fields s).
Lemma update_store_ok tc rename store F Ss steps : store = None \/ store = Some F -> length Ss = length F -> all_ok F Ss steps ->
  exists store', update_store tc rename store F steps =
    (map (fun p => apply_updates rename (fst p) (snd p)) (combine F steps), store') /\
    (store' = None \/ store' = Some (map (fun p => apply_updates rename (fst p) (snd p)) (combine F steps))).
Proof.
  intros Hs LS O. unfold update_store. destruct (existsb has_merge steps) eqn:E.
  - assert (B : match store with Some s => s | None => F end = F) by (destruct Hs as [-> | ->]; reflexivity).
    rewrite B, (store_blocks rename _ F Ss steps (block_sizes_sum tc (length F)) LS O).
    eexists. split; [reflexivity|]. right. reflexivity.
  - rewrite (all_none rename F Ss steps O E). exists store. split; [reflexivity|exact Hs].
Qed.
