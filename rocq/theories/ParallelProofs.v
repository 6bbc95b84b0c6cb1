(** Invariants of one time step of the parallel merging. *)
From Coq Require Import Lqa.
From Verif Require Import Base Graph Label Filter FilterProofs Overlap OverlapProofs Merge MergeProofs
  Partition PartitionProofs Cluster ClusterProofs ClusterFinal MeshPart Parallel.
Open Scope nat_scope.

Lemma bind_ok {E A B} (r : result E A) (f : A -> result E B) b :
  bind r f = Ok b <-> exists a, r = Ok a /\ f a = Ok b.
Proof.
  destruct r as [a|e]; cbn; split.
  - intro H. exists a. tauto.
  - intros (a' & E1 & E2). injection E1 as <-. exact E2.
  - discriminate.
  - intros (a & D & _). discriminate.
Qed.

(** What a partitioning must deliver. *)
Definition part_valid (part : list Z -> list bool -> list Z -> list Z -> result par_err (list Z)) : Prop :=
  forall prev mask parents ids labels, part prev mask parents ids = Ok labels ->
  length labels = length (points mask) /\ forall l, In l labels -> In l ids.
Lemma part_nn_valid nbs dist reach : part_valid (part_nn_mesh nbs dist reach).
Proof.
  intros prev mask parents ids labels H. unfold part_nn_mesh in H.
  destruct (forallb _ _) eqn:E; [|discriminate]. injection H as <-.
  unfold partition_nn_mesh in *. rewrite map_length, map_length. split; [reflexivity|].
  intros l I. apply in_map_iff in I. destruct I as (i & <- & I).
  rewrite forallb_forall in E. apply E in I. apply Nat.ltb_lt in I. apply nth_In. exact I.
Qed.

Lemma nth_combine {A B} (l : list A) (r : list B) k a b : length l = length r ->
  nth k (combine l r) (a, b) = (nth k l a, nth k r b).
Proof. intro H. apply combine_nth. exact H. Qed.

Section Record.
Variables (mask : list bool) (cur' : list Z).

Definition mark_one (ids : list Z) (upd : list nat) (id : Z) : list nat :=
  map (fun c => if fst (fst c) && Z.eqb (snd (fst c)) id then length ids else snd c) (combine (combine mask cur') upd).
Lemma mark_length ids upd id : length mask = length upd -> length cur' = length upd ->
  length (mark_one ids upd id) = length upd.
Proof. intros A B. unfold mark_one. rewrite map_length, !combine_length. lia. Qed.
Lemma mark_nth ids upd id k : length mask = length upd -> length cur' = length upd -> k < length upd ->
  nth k (mark_one ids upd id) unvisited =
  if nth k mask false && Z.eqb (nth k cur' 0%Z) id then length ids else nth k upd unvisited.
Proof.
  intros A B K. unfold mark_one.
  rewrite (nth_map_gen _ _ _ ((false, 0%Z), unvisited)) by (rewrite !combine_length; lia).
  rewrite nth_combine by (rewrite combine_length; lia). rewrite nth_combine by lia. reflexivity.
Qed.

Lemma record_fold news : forall upd ids, NoDup news -> length mask = length upd -> length cur' = length upd ->
  length ids + length news <= update_slots ->
  exists upd', fold_left (record_update mask cur') news (Ok (upd, ids)) = Ok (upd', ids ++ news) /\
    length upd' = length upd /\
    (forall k, k < length upd -> nth k mask false = true -> In (nth k cur' 0%Z) news ->
       length ids <= nth k upd' unvisited < length (ids ++ news) /\
       nth (nth k upd' unvisited) (ids ++ news) 0%Z = nth k cur' 0%Z) /\
    (forall k, k < length upd -> nth k mask false = false \/ ~ In (nth k cur' 0%Z) news ->
       nth k upd' unvisited = nth k upd unvisited).
Proof.
  induction news as [|id news IH]; intros upd ids N A B L; cbn [fold_left length] in *.
  - exists upd. rewrite app_nil_r. repeat split; auto; contradiction.
  - inversion N as [|x y Nx Ny]; subst.
    assert (E : record_update mask cur' (Ok (upd, ids)) id = Ok (mark_one ids upd id, ids ++ [id])).
    { cbn [record_update bind]. destruct (Nat.leb_spec update_slots (length ids)); [lia|reflexivity]. }
    rewrite E. destruct (IH (mark_one ids upd id) (ids ++ [id]) Ny) as (upd' & F & Lu & In1 & Out1).
    + rewrite mark_length; assumption.
    + rewrite mark_length; assumption.
    + rewrite app_length. cbn [length]. lia.
    + rewrite mark_length in * by assumption. rewrite <- app_assoc in *. cbn [app] in *.
      exists upd'. split; [exact F|]. split; [exact Lu|]. split.
      * intros k K M [I|I].
        -- subst id. rewrite Out1 by (try exact K; right; exact Nx).
           rewrite mark_nth by assumption. rewrite M, Z.eqb_refl. cbn [andb].
           rewrite app_length. cbn [length]. split; [lia|]. rewrite app_nth2 by lia. rewrite Nat.sub_diag. reflexivity.
        -- destruct (In1 k K M I) as [R1 R2]. split; [|exact R2]. rewrite app_length in R1. cbn [length] in R1. lia.
      * intros k K D. rewrite Out1.
        -- rewrite mark_nth by assumption. destruct (nth k mask false) eqn:M; cbn [andb]; [|reflexivity].
           destruct (Z.eqb_spec (nth k cur' 0%Z) id) as [Eq|Nq]; [|reflexivity].
           destruct D as [D|D]; [discriminate|]. exfalso. apply D. left. congruence.
        -- exact K.
        -- destruct D as [D|D]; [left; exact D|]. right. intro I. apply D. right. exact I.
Qed.
End Record.

(** ** The state of a time step *)
Definition merge_ok (m : pmerge) : Prop :=
  2 <= length (pm_parents m) <= max_parents /\ length (pm_children m) = length (pm_parents m) /\
  length (pm_areas m) = length (pm_parents m).
Definition step_ids (s : pstep) : list Z := flat_map (fun m => tl (pm_children m)) (ps_merges s).

Record step_ok (cur0 : list Z) (start : Z) (s : pstep) : Prop := mkStepOk {
  so_cur : length (ps_cur s) = length cur0;
  so_upd : length (ps_upd s) = length cur0;
  so_ids : ps_ids s = arangeZ start (length (ps_ids s));
  so_next : ps_next s = (start + Z.of_nat (length (ps_ids s)))%Z;
  so_slot : forall k, k < length cur0 -> nth k (ps_upd s) unvisited = unvisited \/
              nth k (ps_upd s) unvisited < length (ps_ids s);
  so_replay : forall k, k < length cur0 -> nth k (ps_cur s) 0%Z =
              if Nat.ltb (nth k (ps_upd s) unvisited) (length (ps_ids s))
              then nth (nth k (ps_upd s) unvisited) (ps_ids s) 0%Z else nth k cur0 0%Z;
  so_count : length (ps_merges s) <= max_merges_step;
  so_merges : forall m, In m (ps_merges s) -> merge_ok m;
  so_children : step_ids s = ps_ids s;
  so_total : length (ps_ids s) <= 9 * length (ps_merges s);
  so_foot : forall k, k < length cur0 -> (nth k (ps_cur s) 0 > 0)%Z <-> (nth k cur0 0 > 0)%Z;
  so_refine : (forall k, k < length cur0 -> (nth k cur0 0 < start)%Z) ->
              forall k j, k < length cur0 -> j < length cur0 -> nth k (ps_cur s) 0%Z = nth j (ps_cur s) 0%Z ->
              nth k cur0 0%Z = nth j cur0 0%Z
}.
Lemma step_below cur0 start s k : step_ok cur0 start s -> k < length cur0 -> (nth k cur0 0 < start)%Z ->
  (nth k (ps_cur s) 0 < ps_next s)%Z.
Proof.
  intros O K B. rewrite (so_replay _ _ _ O k K), (so_next _ _ _ O).
  destruct (Nat.ltb_spec (nth k (ps_upd s) unvisited) (length (ps_ids s))) as [C|C]; [|lia].
  assert (I := nth_In (ps_ids s) 0%Z C). rewrite (so_ids _ _ _ O) in I at 2. apply arangeZ_In in I. lia.
Qed.

Lemma nth_map_const {A B} (l : list A) (v : B) k : nth k (map (fun _ => v) l) v = v.
Proof. revert k. induction l as [|x l IH]; intros [|k]; cbn; auto. Qed.
Lemma start_ok cur start : step_ok cur start (start_step cur start).
Proof.
  constructor; cbn [start_step ps_cur ps_next ps_merges ps_upd ps_ids length]; auto.
  - rewrite map_length. reflexivity.
  - lia.
  - intros k _. left. apply nth_map_const.
  - lia.
  - contradiction.
  - intros k _. reflexivity.
Qed.

Section Step.
Variables (w : list Q) (thr : Q).
Variable part : list Z -> list bool -> list Z -> list Z -> result par_err (list Z).
Hypothesis Pv : part_valid part.

Lemma scan_length prev cur child pots : forall acc ps, length acc <= max_parents ->
  scan_parents w thr prev cur child pots acc = Ok ps -> length ps <= max_parents.
Proof.
  induction pots as [|p r IH]; intros acc ps L H; cbn [scan_parents] in H.
  - injection H as <-. exact L.
  - destruct (Nat.leb_spec max_parents (length acc)) as [A|A]; [discriminate|].
    destruct (Qltb _ _); apply IH in H; try exact H; [exact L|]. rewrite app_length. cbn. lia.
Qed.
(** Accepted parents: those with enough overlap, with the overlap area. *)
Definition enough (prev cur : list Z) (child p : Z) : Prop :=
  (thr <= shared_area w p child prev cur / Qminb (area_of w p prev) (area_of w child cur))%Q.
Lemma scan_spec prev cur child pots : forall acc ps,
  scan_parents w thr prev cur child pots acc = Ok ps ->
  ps = acc ++ map (fun p => (p, shared_area w p child prev cur))
                  (filter (fun p => negb (Qltb (shared_area w p child prev cur /
                                        Qminb (area_of w p prev) (area_of w child cur)) thr)) pots).
Proof.
  induction pots as [|p r IH]; intros acc ps H; cbn [scan_parents filter map] in *.
  - injection H as <-. rewrite app_nil_r. reflexivity.
  - destruct (Nat.leb_spec max_parents (length acc)) as [A|A]; [discriminate|].
    destruct (Qltb _ thr) eqn:E; cbn [negb]; apply IH in H; rewrite H; [reflexivity|].
    cbn [map]. rewrite <- app_assoc. reflexivity.
Qed.

Lemma slots_enough n (merges : list pmerge) (ids : list Z) : length merges < max_merges_step -> length ids <= 9 * length merges ->
  n <= max_parents -> 1 <= n -> length ids + (n - 1) <= update_slots.
Proof. unfold max_merges_step, max_parents, update_slots. lia. Qed.

Lemma mask_length id (f : list Z) : length (mask_of id f) = length f.
Proof. unfold mask_of. apply map_length. Qed.
Lemma mask_nth id (f : list Z) k : k < length f -> nth k (mask_of id f) false = Z.eqb id (nth k f 0%Z).
Proof. intro K. unfold mask_of. apply nth_map_gen. exact K. Qed.

Lemma child_step cur0 start prev nxt s child s' l :
  (0 < child < start)%Z ->
  step_ok cur0 start s -> process_child w thr part prev nxt s child = Ok (s', l) ->
  step_ok cur0 start s'.
Proof.
  intros Pc O H. unfold process_child in H. apply bind_ok in H. destruct H as (ps & Sc & H).
  assert (Ln := scan_length _ _ _ _ [] _ (Nat.le_0_l _) Sc).
  destruct (Nat.ltb_spec (length ps) 2) as [A|A]; [injection H as <- <-; exact O|].
  destruct (Nat.ltb_spec max_merges_step (length (ps_merges s))) as [B|B]; [discriminate|].
  destruct (Nat.leb_spec max_merges_step (length (ps_merges s))) as [C|C]; [discriminate|].
  apply bind_ok in H. destruct H as (labels & Pl & H).
  set (mask := mask_of child (ps_cur s)) in *. set (news := arangeZ (ps_next s) (length ps - 1)) in *.
  destruct (Pv _ _ _ _ _ Pl) as [Ll Il].
  assert (Bl := fun k => step_below cur0 start s k O).
  destruct O as [Oc Ou Oi On Os Or Om Ome Och Oto Of Ore].
  assert (Lm : length mask = length cur0) by (unfold mask; rewrite mask_length; exact Oc).
  assert (Ln' : length news = length ps - 1) by apply arangeZ_length.
  destruct (record_fold mask (assign mask labels (ps_cur s)) news (ps_upd s) (ps_ids s)) as (upd' & F & Lu & I1 & O1).
  - apply arangeZ_NoDup.
  - lia.
  - rewrite assign_length. lia.
  - rewrite Ln'. apply (slots_enough _ (ps_merges s)); assumption || lia.
  - rewrite F in H. cbn [bind fst snd] in H. injection H as <- <-.
    assert (Li : length (ps_ids s ++ news) = length (ps_ids s) + (length ps - 1)) by (rewrite app_length; lia).
    assert (Asn : forall k, k < length cur0 ->
      (nth k mask false = false -> nth k (assign mask labels (ps_cur s)) 0%Z = nth k (ps_cur s) 0%Z) /\
      (nth k mask false = true -> In (nth k (assign mask labels (ps_cur s)) 0%Z) labels)).
    { intros k K. apply assign_nth; [lia| |lia]. rewrite <- points_count. lia. }
    assert (Mk : forall k, k < length cur0 -> nth k mask false = true -> nth k (ps_cur s) 0%Z = child).
    { intros k K M. unfold mask in M. rewrite mask_nth in M by lia. apply Z.eqb_eq in M. congruence. }
    assert (Nc : ~ In child news).
    { intro I. apply arangeZ_In in I. rewrite On in I. lia. }
    assert (Cn : forall x, In x (child :: news) -> (0 < x)%Z).
    { intros x [<-|I]; [lia|]. apply arangeZ_In in I. rewrite On in I. lia. }
    assert (Cs : forall k, k < length cur0 -> nth k mask false = true ->
        nth k (assign mask labels (ps_cur s)) 0%Z = child \/ In (nth k (assign mask labels (ps_cur s)) 0%Z) news).
    { intros k K M. destruct (Asn k K) as [_ J]. apply Il in J; [|exact M]. destruct J; [left; congruence|right; assumption]. }
    (* cells not given a new ID keep their update and value *)
    assert (Keep : forall k, k < length cur0 -> nth k mask false = false \/ ~ In (nth k (assign mask labels (ps_cur s)) 0%Z) news ->
        nth k upd' unvisited = nth k (ps_upd s) unvisited /\
        nth k (assign mask labels (ps_cur s)) 0%Z = nth k (ps_cur s) 0%Z).
    { intros k K D. split; [apply O1; [lia|exact D]|]. destruct (nth k mask false) eqn:M.
      - destruct D as [D|D]; [discriminate|]. destruct (Cs k K M) as [E|E]; [|contradiction].
        rewrite E, (Mk k K M). reflexivity.
      - apply Asn; assumption. }
    assert (Dec : forall k, k < length cur0 ->
        (nth k mask false = true /\ In (nth k (assign mask labels (ps_cur s)) 0%Z) news) \/
        (nth k mask false = false \/ ~ In (nth k (assign mask labels (ps_cur s)) 0%Z) news)).
    { intros k K. destruct (nth k mask false) eqn:M; [|right; left; reflexivity].
      destruct (in_dec Z.eq_dec (nth k (assign mask labels (ps_cur s)) 0%Z) news) as [I|I]; tauto. }
    constructor; cbn [ps_cur ps_next ps_merges ps_upd ps_ids].
    + rewrite assign_length. exact Oc.
    + lia.
    + rewrite Li, <- arangeZ_app, <- Oi. unfold news. rewrite On. reflexivity.
    + rewrite Li, On. lia.
    + intros k K. destruct (Dec k K) as [[M I]|D].
      * right. destruct (I1 k ltac:(lia) M I) as [R _]. lia.
      * destruct (Keep k K D) as [-> _]. rewrite Li. destruct (Os k K); [left; assumption|right; lia].
    + intros k K. destruct (Dec k K) as [[M I]|D].
      * destruct (I1 k ltac:(lia) M I) as [R E]. destruct (Nat.ltb_spec (nth k upd' unvisited) (length (ps_ids s ++ news))) as [Q|Q]; [|lia].
        symmetry. exact E.
      * destruct (Keep k K D) as [-> ->]. rewrite (Or k K). destruct (Os k K) as [U|U].
        -- rewrite U. assert (U1 : length (ps_ids s ++ news) <= unvisited).
           { rewrite Li. unfold unvisited. change 255 with update_slots. apply (slots_enough _ (ps_merges s)); assumption || lia. }
           destruct (Nat.ltb_spec unvisited (length (ps_ids s))); [lia|].
           destruct (Nat.ltb_spec unvisited (length (ps_ids s ++ news))); [lia|]. reflexivity.
        -- destruct (Nat.ltb_spec (nth k (ps_upd s) unvisited) (length (ps_ids s))); [|lia].
           destruct (Nat.ltb_spec (nth k (ps_upd s) unvisited) (length (ps_ids s ++ news))); [|lia].
           rewrite app_nth1 by assumption. reflexivity.
    + rewrite app_length. cbn [length]. lia.
    + intros m I. apply in_app_iff in I. destruct I as [I|[<-|[]]]; [apply Ome; exact I|].
      unfold merge_ok. cbn [pm_parents pm_children pm_areas length]. rewrite !map_length.
      fold news. rewrite Ln'. lia.
    + unfold step_ids. cbn [ps_merges]. rewrite flat_map_app. cbn [flat_map pm_children tl]. rewrite app_nil_r.
      fold (step_ids s). rewrite Och. reflexivity.
    + rewrite Li, app_length. cbn [length]. unfold max_parents in Ln. lia.
    + intros k K. rewrite <- (Of k K). destruct (Dec k K) as [[M I]|D].
      * rewrite (Mk k K M). assert (0 < nth k (assign mask labels (ps_cur s)) 0)%Z by (apply Cn; right; exact I). lia.
      * destruct (Keep k K D) as [_ ->]. reflexivity.
    + intros Hb k j K J E. apply (Ore Hb k j K J).
      assert (Bk := Bl k K (Hb k K)). assert (Bj := Bl j J (Hb j J)).
      destruct (Dec k K) as [[Mk1 Ik]|Dk], (Dec j J) as [[Mj1 Ij]|Dj].
      * rewrite (Mk k K Mk1), (Mk j J Mj1). reflexivity.
      * destruct (Keep j J Dj) as [_ Ej]. apply arangeZ_In in Ik. lia.
      * destruct (Keep k K Dk) as [_ Ek]. apply arangeZ_In in Ij. lia.
      * destruct (Keep k K Dk) as [_ Ek]. destruct (Keep j J Dj) as [_ Ej]. congruence.
Qed.

Lemma queue_step cur0 start prev nxt q : forall s s' l,
  (forall c, In c q -> (0 < c < start)%Z) ->
  step_ok cur0 start s -> process_queue w thr part prev nxt q s = Ok (s', l) -> step_ok cur0 start s'.
Proof.
  induction q as [|c q IH]; intros s s' l Hq O H; cbn [process_queue] in H.
  - injection H as <- <-. exact O.
  - apply bind_ok in H. destruct H as ((s1, l1) & H1 & H). apply bind_ok in H. destruct H as ((s2, l2) & H2 & H).
    cbn [fst snd] in *. injection H as <- <-.
    apply (IH s1 s2 l2); [intros x I; apply Hq; right; exact I| |exact H2].
    apply (child_step _ _ _ _ _ _ _ _ (Hq c (or_introl eq_refl)) O H1).
Qed.

(** Objects handed on are IDs of the next field. *)
Lemma child_next prev nxt s child s' l :
  process_child w thr part prev nxt s child = Ok (s', l) -> forall c, In c l -> (0 < c)%Z /\ In c nxt.
Proof.
  intros H c I. unfold process_child in H. apply bind_ok in H. destruct H as (ps & Sc & H).
  destruct (Nat.ltb _ 2); [injection H as <- <-; contradiction|].
  destruct (Nat.ltb max_merges_step _); [discriminate|]. destruct (Nat.leb max_merges_step _); [discriminate|].
  apply bind_ok in H. destruct H as (labels & Pl & H). apply bind_ok in H. destruct H as (ui & _ & H).
  assert (E := f_equal snd (f_equal (fun r => match r with Ok a => a | Err _ => (s', []) end) H)). cbn [snd] in E.
  rewrite <- E in I. unfold next_objects in I. rewrite in_flat_map in I. destruct I as (id & _ & I).
  apply filter_In in I. destruct I as [I _]. apply unique_pos_In in I. destruct I as [P I]. split; [exact P|].
  unfold masked in I. apply in_map_iff in I. destruct I as ((b, v) & <- & I). apply filter_In in I.
  destruct I as [I _]. apply in_combine_r in I. exact I.
Qed.
Lemma queue_next prev nxt q : forall s s' l,
  process_queue w thr part prev nxt q s = Ok (s', l) -> forall c, In c l -> (0 < c)%Z /\ In c nxt.
Proof.
  induction q as [|c0 q IH]; intros s s' l H c I; cbn [process_queue] in H.
  - injection H as <- <-. contradiction.
  - apply bind_ok in H. destruct H as ((s1, l1) & H1 & H). apply bind_ok in H. destruct H as ((s2, l2) & H2 & H).
    cbn [fst snd] in *. injection H as <- <-. apply in_app_iff in I. destruct I as [I|I].
    + apply (child_next _ _ _ _ _ _ H1 c I).
    + apply (IH _ _ _ H2 c I).
Qed.

(** What a recorded merge looks like: [s] is the step as it stood. *)
Definition parents_in (prev cur : list Z) (child : Z) : list Z :=
  filter (fun p => negb (Qltb (shared_area w p child prev cur / Qminb (area_of w p prev) (area_of w child cur)) thr))
         (unique_pos (masked (mask_of child cur) prev)).
Definition merge_good (prev cur0 : list Z) (lim start : Z) (m : pmerge) : Prop :=
  NoDup (pm_parents m) /\ (forall p, In p (pm_parents m) -> (0 < p)%Z /\ In p prev) /\
  exists c news, pm_children m = c :: news /\ (0 < c < lim)%Z /\ NoDup news /\ (forall x, In x news -> (start <= x)%Z) /\
  exists s, step_ok cur0 start s /\ pm_parents m = parents_in prev (ps_cur s) c /\
    pm_areas m = map (fun p => shared_area w p c prev (ps_cur s)) (pm_parents m).
Lemma child_merges cur0 prev nxt s child s' l lim start :
  (0 < child < lim)%Z -> (start <= ps_next s)%Z -> step_ok cur0 start s ->
  process_child w thr part prev nxt s child = Ok (s', l) ->
  (start <= ps_next s')%Z /\
  forall m, In m (ps_merges s') -> In m (ps_merges s) \/ merge_good prev cur0 lim start m.
Proof.
  intros Pc Pn O H. unfold process_child in H. apply bind_ok in H. destruct H as (ps & Sc & H).
  destruct (Nat.ltb_spec (length ps) 2) as [A|A]; [injection H as <- <-; split; [exact Pn|left; assumption]|].
  destruct (Nat.ltb max_merges_step _); [discriminate|]. destruct (Nat.leb max_merges_step _); [discriminate|].
  apply bind_ok in H. destruct H as (labels & Pl & H). apply bind_ok in H. destruct H as (ui & _ & H).
  injection H as <- _. cbn [ps_merges ps_next]. split; [lia|]. intros m I. apply in_app_iff in I. destruct I as [I|[<-|[]]]; [left; exact I|right].
  apply scan_spec in Sc. cbn [app] in Sc. unfold merge_good. cbn [pm_parents pm_children pm_areas].
  fold (parents_in prev (ps_cur s) child) in Sc.
  assert (E : map fst ps = parents_in prev (ps_cur s) child).
  { rewrite Sc, map_map. cbn [fst]. apply map_id. }
  assert (E2 : map snd ps = map (fun p => shared_area w p child prev (ps_cur s)) (parents_in prev (ps_cur s) child)).
  { rewrite Sc, map_map. reflexivity. }
  rewrite E, E2. split; [apply NoDup_filter, unique_pos_NoDup|]. split.
  - intros p I. apply filter_In in I. destruct I as [I _]. apply unique_pos_In in I. destruct I as [P I]. split; [exact P|].
    unfold masked in I. apply in_map_iff in I. destruct I as ((b, v) & <- & I). apply filter_In in I.
    destruct I as [I _]. apply in_combine_r in I. exact I.
  - exists child, (arangeZ (ps_next s) (length ps - 1)). split; [reflexivity|]. split; [exact Pc|].
    split; [apply arangeZ_NoDup|]. split; [intros x I; apply arangeZ_In in I; lia|]. exists s. split; [exact O|]. split; reflexivity.
Qed.
Lemma queue_merges cur0 prev nxt lim start q : forall s s' l,
  (forall c, In c q -> (0 < c < lim)%Z) -> (lim <= start)%Z -> (start <= ps_next s)%Z -> step_ok cur0 start s ->
  process_queue w thr part prev nxt q s = Ok (s', l) ->
  forall m, In m (ps_merges s') -> In m (ps_merges s) \/ merge_good prev cur0 lim start m.
Proof.
  induction q as [|c0 q IH]; intros s s' l Hq Ls Pn O H m I; cbn [process_queue] in H.
  - injection H as <- <-. left. exact I.
  - apply bind_ok in H. destruct H as ((s1, l1) & H1 & H). apply bind_ok in H. destruct H as ((s2, l2) & H2 & H).
    cbn [fst snd] in *. injection H as <- <-. assert (Pc := Hq c0 (or_introl eq_refl)).
    destruct (child_merges cur0 _ _ _ _ _ _ lim start Pc Pn O H1) as [Pn' G].
    assert (O1 : step_ok cur0 start s1) by (apply (child_step cur0 start prev nxt s c0 s1 l1); [lia|exact O|exact H1]).
    destruct (IH s1 s2 l2 (fun c J => Hq c (or_intror J)) Ls Pn' O1 H2 m I) as [J|J]; [apply G; exact J|right; exact J].
Qed.
End Step.
