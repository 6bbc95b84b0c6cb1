(** What an iteration and the whole loop of the parallel merging do. *)
From Verif Require Import Base Graph Label LabelProofs Filter FilterProofs Overlap OverlapProofs Merge MergeProofs
  Partition PartitionProofs Cluster ClusterProofs ClusterMore ClusterFinal ClusterPipe MeshPart Parallel ParallelProofs ParallelMore
  MergeSpec ParallelSpec.
Open Scope nat_scope.

Lemma shift_first F x : In x (nth 0 (shift_m1 F) []) -> x = 0%Z.
Proof.
  destruct F as [|f r]; [contradiction|]. unfold shift_m1.
  change (nth 0 (map (fun _ => 0%Z) f :: removelast (f :: r)) []) with (map (fun _ : Z => 0%Z) f).
  intro I. apply in_map_iff in I. destruct I as (y & <- & _). reflexivity.
Qed.
Lemma NoDup_map_on {A B} (f : A -> B) l : (forall x y, In x l -> In y l -> f x = f y -> x = y) -> NoDup l -> NoDup (map f l).
Proof. intros H N. apply NoDup_map_inj; assumption. Qed.

Lemma max_ge l x : In x l -> x <= fold_right Nat.max 0 l.
Proof. induction l as [|y l IH]; [contradiction|]. cbn. intros [<-|I]; [lia|]. apply IH in I. lia. Qed.

Lemma time_of_first F t0 c : t0 < length F -> In c (nth t0 F []) -> (forall t, t < t0 -> ~ In c (nth t F [])) ->
  time_of F c = t0.
Proof.
  intros T I B. unfold time_of. fold (start_of (map (memZ c) F)).
  assert (Nt : forall t, t < length F -> nth t (map (memZ c) F) false = memZ c (nth t F [])).
  { intros t H. apply nth_map_gen. exact H. }
  destruct (start_of_spec (map (memZ c) F) t0) as [S1 S2]; [rewrite Nt by exact T; apply memZ_In; exact I|].
  rewrite Nt in S1 by lia. apply memZ_In in S1.
  destruct (Nat.lt_ge_cases (start_of (map (memZ c) F)) t0) as [L|L]; [|lia]. exfalso. apply (B _ L S1).
Qed.

(** ** New IDs of the recorded merges *)
Definition event_at (rename : Z -> Z) (t : nat) (m : pmerge) : event :=
  mkEvent t (map rename (pm_children m)) (map rename (pm_parents m)) (pm_areas m).
Definition renamed_from (rename : Z -> Z) (a : nat) (steps : list pstep) : list event :=
  flat_map (fun p => map (event_at rename (fst p)) (ps_merges (snd p))) (combine (seq a (length steps)) steps).
Lemma tl_map {A B} (f : A -> B) l : tl (map f l) = map f (tl l).
Proof. destruct l; reflexivity. Qed.
Lemma flat_map_map {A B C} (f : A -> B) (g : B -> list C) l : flat_map g (map f l) = flat_map (fun x => g (f x)) l.
Proof. induction l as [|x l IH]; [reflexivity|]. cbn. rewrite IH. reflexivity. Qed.
Lemma map_flat_map {A B C} (f : B -> C) (g : A -> list B) l : map f (flat_map g l) = flat_map (fun x => map f (g x)) l.
Proof. induction l as [|x l IH]; [reflexivity|]. cbn. rewrite map_app, IH. reflexivity. Qed.
Lemma new_ids_app a b : new_ids (a ++ b) = new_ids a ++ new_ids b.
Proof. unfold new_ids. apply flat_map_app. Qed.
Lemma new_ids_step rename t s : new_ids (map (event_at rename t) (ps_merges s)) = map rename (step_ids s).
Proof.
  unfold new_ids, step_ids. rewrite flat_map_map, map_flat_map. apply flat_map_ext. intro m. apply tl_map.
Qed.
Lemma new_ids_renamed rename : forall steps a, new_ids (renamed_from rename a steps) = map rename (flat_map step_ids steps).
Proof.
  induction steps as [|s r IH]; intro a; [reflexivity|]. unfold renamed_from. cbn [length seq combine flat_map fst snd].
  rewrite new_ids_app, new_ids_step, map_app. f_equal. apply IH.
Qed.
Lemma filter_time rename t b l : filter (fun e => Nat.eqb (e_time e) t) (map (event_at rename b) l) =
  if Nat.eqb b t then map (event_at rename b) l else [].
Proof.
  induction l as [|m l IH]; [destruct (Nat.eqb b t); reflexivity|].
  cbn [map filter]. change (e_time (event_at rename b m)) with b. rewrite IH. destruct (Nat.eqb b t); reflexivity.
Qed.
Lemma new_ids_at rename t : forall steps a, a <= t < a + length steps ->
  new_ids (filter (fun e => Nat.eqb (e_time e) t) (renamed_from rename a steps)) = map rename (step_ids (nth (t - a) steps no_step)).
Proof.
  induction steps as [|s r IH]; intros a B; [cbn in B; lia|]. unfold renamed_from. cbn [length seq combine flat_map fst snd].
  rewrite filter_app, new_ids_app, filter_time. fold (renamed_from rename (S a) r).
  destruct (Nat.eqb_spec a t) as [E|N].
  - subst t. rewrite Nat.sub_diag, new_ids_step. cbn [nth]. 
    replace (new_ids _) with (@nil Z); [apply app_nil_r|].
    assert (X : forall l b, a < b -> filter (fun e => Nat.eqb (e_time e) a) (renamed_from rename b l) = []).
    { induction l as [|s' r' IH']; intros b Hb; [reflexivity|]. unfold renamed_from. cbn [length seq combine flat_map fst snd].
      rewrite filter_app, filter_time. destruct (Nat.eqb_spec b a); [lia|]. apply IH'. lia. }
    rewrite X by lia. reflexivity.
  - cbn [length] in B. cbn [new_ids flat_map app]. rewrite IH by lia. replace (t - a) with (S (t - S a)) by lia. reflexivity.
Qed.
Lemma renamed_is rename steps : renamed_merges rename steps = renamed_from rename 0 steps.
Proof. reflexivity. Qed.
Lemma nth_flat_map_disjoint (g : pstep -> list Z) : forall l,
  (forall i, i < length l -> NoDup (g (nth i l no_step))) ->
  (forall i j x, i < j -> j < length l -> In x (g (nth i l no_step)) -> ~ In x (g (nth j l no_step))) ->
  NoDup (flat_map g l).
Proof.
  induction l as [|s r IH]; intros N D; [constructor|]. cbn [flat_map]. apply NoDup_app_iff_local; [apply (N 0); cbn; lia| |].
  - apply IH.
    + intros i I. apply (N (S i)). cbn. lia.
    + intros i j x Hij J. apply (D (S i) (S j) x); cbn; lia.
  - intros x I J. apply in_flat_map in J. destruct J as (s' & Is & J). apply (In_nth _ _ no_step) in Is.
    destruct Is as (j & Hj & <-). apply (D 0 (S j) x); [lia|cbn; lia|exact I|exact J].
Qed.

Definition good (s : pstate) : Prop :=
  fresh_store s /\ (0 < pt_counter s)%Z /\ ids_below (pt_counter s) (pt_fields s).

Section Iteration.
Variables (w : list Q) (thr : Q).
Variable part : list Z -> list bool -> list Z -> list Z -> result par_err (list Z).
Hypothesis Pv : part_valid part.
Variable tc : nat.

Section One.
Variables (s : pstate) (objs : list Z) (s' : pstate) (objs' : list Z).
Hypothesis G : good s.
Hypothesis Ho : forall c, In c objs -> (0 < c)%Z.
Hypothesis Hit : iteration w thr part tc s objs = Ok (s', objs').
Let F := pt_fields s.
Let counter := pt_counter s.
Let queues := map (objects_at counter F objs) (seq 0 (length F)).
Let Ss := id_starts counter tc queues.

Lemma iteration_steps : exists steps,
  let temps := temp_ids counter steps in let rename := permanent counter temps in
  all_ok F Ss steps /\
  (forall t m, t < length F -> In m (ps_merges (nth t steps no_step)) ->
     merge_good w thr (nth t (shift_m1 F) []) (nth t F []) counter (nth t Ss 0%Z) m \/
     exists t', t = S t' /\ merge_good w thr (ps_cur (nth t' steps no_step)) (nth t F []) counter (nth t Ss 0%Z) m) /\
  pt_fields s' = map (fun p => apply_updates rename (fst p) (snd p)) (combine F steps) /\
  fresh_store s' /\
  pt_counter s' = (counter + Z.of_nat (length temps))%Z /\
  pt_events s' = pt_events s ++ renamed_merges rename steps /\
  (forall c, In c objs' -> (0 < c < counter)%Z).
Proof.
  destruct G as (Fs & Cp & Ib). unfold iteration in Hit. fold F counter in Hit.
  destruct (pads_ok counter F); [|discriminate]. fold queues in Hit. fold Ss in Hit. cbv zeta in Hit.
  apply bind_ok in Hit. destruct Hit as (outs & R & H).
  assert (Lq : length queues = length F) by (unfold queues; rewrite map_length, seq_length; reflexivity).
  assert (LS : length Ss = length F) by (unfold Ss; rewrite starts_length; exact Lq).
  fold (run_blocks w thr part (block_sizes tc (length F)) (shift_m1 F) (shifted F) queues Ss) in R.
  destruct (blocks_ok w thr part Pv counter _ F _ _ _ _ outs R) as (A & B & D & E).
  - apply block_sizes_sum.
  - apply shift_length.
  - apply shifted_length.
  - exact Lq.
  - exact LS.
  - intros i I. apply shift_nth. exact I.
  - intros i I. apply shifted_nth_in. exact I.
  - intros f x I J. destruct (shifted_In _ _ _ I J) as [-> |K]; [exact Cp|]. apply (Ib f x K J).
  - intros q c I J. unfold queues in I. apply in_map_iff in I. destruct I as (t & <- & _).
    apply objects_at_In in J. destruct J as [J L]. assert (P := Ho c J). unfold counter in *. lia.
  - intros st I. apply (starts_ge _ _ _ _ I).
  - exists (flat_map fst outs). cbv zeta. set (steps := flat_map fst outs) in *.
    destruct (update_store_ok tc (permanent counter (temp_ids counter steps)) (pt_store s) F Ss steps Fs LS (conj A B))
      as (store' & U & Fs').
    rewrite U in H. injection H as <- <-. split; [split; assumption|]. split; [exact D|]. cbn [pt_fields pt_store pt_counter pt_events].
    split; [reflexivity|]. split; [exact Fs'|]. split; [reflexivity|]. split; [reflexivity|].
    intros c I. apply in_map_iff in I. destruct I as (v & <- & I). apply filter_In in I. destruct I as [I _].
    apply E in I. rewrite permanent_low; lia.
Qed.

Lemma start_at t : t < length F -> (counter <= nth t Ss 0)%Z.
Proof.
  intro T. apply (starts_ge counter tc queues). apply nth_In. unfold Ss. rewrite starts_length.
  unfold queues. rewrite map_length, seq_length. exact T.
Qed.

(** Values of a step's field: old IDs or temporary ones. *)
Lemma cur_value steps t k : all_ok F Ss steps -> in_shape F t k ->
  let v := nth k (ps_cur (nth t steps no_step)) 0%Z in
  (v = value F t k /\ (0 <= v < counter)%Z) \/ (In v (temp_ids counter steps) /\ (counter <= v)%Z).
Proof.
  destruct G as (_ & Cp & Ib). fold counter in Cp, Ib. fold F in Ib.
  intros [L O] [T K] v. assert (Ot := O t T). assert (R := so_replay _ _ _ Ot k K). fold v in R.
  destruct (Nat.ltb_spec (nth k (ps_upd (nth t steps no_step)) unvisited) (length (ps_ids (nth t steps no_step)))) as [C|C].
  - right. assert (I : In v (ps_ids (nth t steps no_step))) by (rewrite R; apply nth_In; exact C).
    assert (Lv : (counter <= v)%Z).
    { assert (J := I). rewrite (so_ids _ _ _ Ot) in J. apply arangeZ_In in J. assert (S := start_at t T). lia. }
    split; [|exact Lv]. apply temps_In; [exact Cp|]. split; [exact Lv|].
    rewrite <- (so_children _ _ _ Ot) in I. unfold step_ids in I. apply in_flat_map in I. destruct I as (m & Im & I).
    exists (nth t steps no_step), m. split; [apply nth_In; lia|]. split; [exact Im|].
    destruct (pm_children m); [contradiction|]. right. exact I.
  - left. split; [exact R|]. rewrite R. apply (Ib (nth t F [])); apply nth_In; assumption.
Qed.
Lemma new_value steps t k : all_ok F Ss steps -> in_shape F t k ->
  let rename := permanent counter (temp_ids counter steps) in
  pt_fields s' = map (fun p => apply_updates rename (fst p) (snd p)) (combine F steps) ->
  value (pt_fields s') t k = rename (nth k (ps_cur (nth t steps no_step)) 0%Z).
Proof.
  intros A Sh rename E. assert (A' := A). destruct A' as [L O]. assert (Sh' := Sh). destruct Sh' as [T K].
  assert (Ot := O t T). unfold value. rewrite E, (nth_map_gen _ _ _ ([], no_step)) by (rewrite combine_length; lia).
  rewrite nth_combine by lia. cbn [fst snd].
  rewrite updates_nth; [|symmetry; apply (so_upd _ _ _ Ot)|exact K].
  assert (R := so_replay _ _ _ Ot k K).
  destruct (Nat.ltb_spec (nth k (ps_upd (nth t steps no_step)) unvisited) (length (ps_ids (nth t steps no_step)))) as [C|C].
  - rewrite R. reflexivity.
  - rewrite R. unfold rename. rewrite permanent_low; [reflexivity| |]; destruct G as (_ & Cp & Ib); [exact Cp|].
    apply (Ib (nth t F [])); apply nth_In; assumption.
Qed.

Lemma iteration_divides :
  divides counter (pt_counter s') F (pt_fields s') /\ good s' /\ (counter <= pt_counter s')%Z /\
  (forall c, In c objs' -> (0 < c < pt_counter s')%Z).
Proof.
  destruct iteration_steps as (steps & A & _ & Ef & Fs & Ec & _ & Ob). assert (G' := G). destruct G' as (_ & Cp & Ib).
  fold counter in Cp. set (rename := permanent counter (temp_ids counter steps)) in *.
  assert (Sh : same_shape F (pt_fields s')).
  { destruct A as [L O]. rewrite Ef. split; [rewrite map_length, combine_length; lia|].
    intros t T. rewrite (nth_map_gen _ _ _ ([], no_step)) by (rewrite combine_length; lia).
    rewrite nth_combine by lia. cbn [fst snd]. apply updates_length. symmetry. apply (so_upd _ _ _ (O t T)). }
  assert (V : forall t k, in_shape F t k ->
     (value (pt_fields s') t k = value F t k /\ (0 <= value F t k < counter)%Z) \/
     (counter <= value (pt_fields s') t k < pt_counter s')%Z).
  { intros t k S. rewrite (new_value steps t k A S Ef). fold rename.
    destruct (cur_value steps t k A S) as [[E B]|[I B]].
    - left. unfold rename. rewrite permanent_low by (try exact Cp; apply B). rewrite <- E. split; [reflexivity|exact B].
    - right. rewrite Ec. apply permanent_in. exact I. }
  split; [|split; [|split]].
  - split; [exact Sh|]. split; [|split].
    + intros t k S. destruct (V t k S) as [[E _]|E]; tauto.
    + intros t k S. destruct A as [L O]. assert (Ot := O t (proj1 S)). assert (Ft := so_foot _ _ _ Ot k (proj2 S)).
      destruct (V t k S) as [[E _]|E]; [rewrite E; reflexivity|].
      assert (X := new_value steps t k (conj L O) S Ef). fold rename in X.
      destruct (cur_value steps t k (conj L O) S) as [[Ev Bv]|[I B]].
      * exfalso. unfold rename in X. rewrite permanent_low in X by (try exact Cp; apply Bv). lia.
      * unfold value at 2. lia.
    + intros t j k Sj Sk E. rewrite (new_value steps t j A Sj Ef), (new_value steps t k A Sk Ef) in E.
      apply permanent_inj in E.
      * destruct A as [L O]. apply (so_refine _ _ _ (O t (proj1 Sj))); try apply Sj; try apply Sk; [|exact E].
        intros i I. assert (B := start_at t (proj1 Sj)). assert (Bi := Ib (nth t F []) (nth i (nth t F []) 0%Z) (nth_In _ _ (proj1 Sj)) (nth_In _ _ I)).
        fold counter in Bi. lia.
      * exact Cp.
      * destruct (cur_value steps t j A Sj) as [[_ B]|[B _]]; [left; lia|right; exact B].
      * destruct (cur_value steps t k A Sk) as [[_ B]|[B _]]; [left; lia|right; exact B].
  - split; [exact Fs|]. split; [rewrite Ec; lia|]. intros f x I J.
    apply (In_nth _ _ []) in I. destruct I as (t & T & <-). apply (In_nth _ _ 0%Z) in J. destruct J as (k & K & <-).
    destruct Sh as [S1 S2]. rewrite S1 in T. rewrite S2 in K by exact T.
    change (nth k (nth t (pt_fields s') []) 0%Z) with (value (pt_fields s') t k).
    destruct (V t k (conj T K)) as [[E B]|B]; lia.
  - rewrite Ec. lia.
  - intros c I. apply Ob in I. rewrite Ec. lia.
Qed.

Lemma iteration_events : exists evs, pt_events s' = pt_events s ++ evs /\
  (forall e, In e evs -> sound_merge (length F) counter (pt_counter s') e) /\
  (forall e p, In e evs -> In p (e_parents e) ->
     In p (nth (e_time e - 1) F []) \/ In p (nth (e_time e - 1) (pt_fields s') [])) /\
  (forall x, (counter <= x < pt_counter s')%Z <-> exists e, In e evs /\ In x (tl (e_children e))).
Proof.
  destruct iteration_steps as (steps & A & Mg & Ef & Fs & Ec & Ee & Ob). assert (G' := G). destruct G' as (_ & Cp & Ib).
  fold counter in Cp. fold counter F in Ib. set (temps := temp_ids counter steps) in *. set (rename := permanent counter temps) in *.
  exists (renamed_merges rename steps). split; [exact Ee|].
  assert (Rl : forall x, (x < counter)%Z -> rename x = x) by (intros x X; exact (permanent_low counter steps x Cp X)).
  assert (Ev : forall e, In e (renamed_merges rename steps) <->
     exists t m, t < length F /\ In m (ps_merges (nth t steps no_step)) /\
       e = mkEvent t (map rename (pm_children m)) (map rename (pm_parents m)) (pm_areas m)).
  { intro e. unfold renamed_merges. rewrite in_flat_map. destruct A as [L _]. split.
    - intros ((t, st) & I & J). apply (In_nth _ _ (0, no_step)) in I. destruct I as (i & I & E).
      rewrite combine_length, seq_length in I. rewrite nth_combine in E by (rewrite seq_length; reflexivity).
      rewrite seq_nth in E by lia. injection E as <- <-. cbn [fst snd Nat.add] in J. apply in_map_iff in J. destruct J as (m & <- & J).
      exists i, m. split; [lia|]. split; [exact J|reflexivity].
    - intros (t & m & T & I & ->). exists (t, nth t steps no_step). split.
      + replace (t, nth t steps no_step) with (nth t (combine (seq 0 (length steps)) steps) (0, no_step)).
        * apply nth_In. rewrite combine_length, seq_length. lia.
        * rewrite nth_combine by apply seq_length. rewrite seq_nth by lia. reflexivity.
      + cbn [fst snd]. apply in_map_iff. exists m. split; [reflexivity|exact I]. }
  (* children of a recorded merge *)
  assert (Ch : forall t m x, t < length F -> In m (ps_merges (nth t steps no_step)) -> In x (pm_children m) ->
     (0 < x < counter)%Z \/ In x temps).
  { intros t m x T I J. destruct A as [L O]. destruct (Z.lt_ge_cases x counter) as [C|C].
    - left. assert (Sa := start_at t T). destruct (Mg t m T I) as [g|(t' & _ & g)]; destruct g as (_ & _ & c & news & E & B & _ & Hn & _);
        rewrite E in J; destruct J as [<-|J]; try lia; apply Hn in J; lia.
    - right. apply temps_In; [exact Cp|]. split; [exact C|]. exists (nth t steps no_step), m. split; [apply nth_In; lia|]. auto. }
  assert (Pa : forall t m p, t < length F -> In m (ps_merges (nth t steps no_step)) -> In p (pm_parents m) ->
     1 <= t /\ (0 < p)%Z /\ ((p < counter)%Z \/ In p temps) /\
     (In (rename p) (nth (t - 1) F []) \/ In (rename p) (nth (t - 1) (pt_fields s') []))).
  { intros t m p T I J. destruct (Mg t m T I) as [g|(t' & -> & g)]; destruct g as (_ & Hp & _); destruct (Hp p J) as [P0 P1].
    - destruct t as [|t]; [apply shift_first in P1; lia|]. rewrite shift_nth in P1 by exact T.
      assert (B := Ib (nth t F []) p ltac:(apply nth_In; lia) P1). split; [lia|]. split; [exact P0|]. split; [left; apply B|].
      left. rewrite Rl by apply B. replace (S t - 1) with t by lia. exact P1.
    - assert (A' := A). destruct A' as [L O]. apply (In_nth _ _ 0%Z) in P1. destruct P1 as (k & K & E).
      assert (Ot := O t' ltac:(lia)). rewrite (so_cur _ _ _ Ot) in K. assert (Sh : in_shape F t' k) by (split; [lia|exact K]).
      split; [lia|]. split; [exact P0|]. split.
      + destruct (cur_value steps t' k A Sh) as [[_ B]|[B _]]; rewrite E in B; [left; lia|right; exact B].
      + right. replace (S t' - 1) with t' by lia. assert (X := new_value steps t' k A Sh Ef). fold temps rename in X. rewrite E in X.
        rewrite <- X. unfold value. apply nth_In. destruct iteration_divides as (((_ & S2) & _) & _). rewrite S2 by lia. exact K. }
  assert (Rg : forall x, (0 < x)%Z -> (x < counter)%Z \/ In x temps -> (0 < rename x < pt_counter s')%Z).
  { intros x P [X|X].
    - rewrite Rl by assumption. rewrite Ec. lia.
    - assert (R := permanent_in counter steps x X). fold temps rename in R. rewrite Ec. lia. }
  assert (Inj : forall x y, (x < counter)%Z \/ In x temps -> (y < counter)%Z \/ In y temps -> rename x = rename y -> x = y).
  { intros x y X Y E. apply (permanent_inj counter steps x y Cp X Y E). }
  assert (Tp : forall x, In x temps -> (counter <= x)%Z) by (intros x I; apply temps_In in I; [apply I|exact Cp]).
  split; [|split].
  - intros e I. apply Ev in I. destruct I as (t & m & T & I & ->). destruct A as [L O]. assert (Ot := O t T).
    destruct (so_merges _ _ _ Ot m I) as (N1 & N2 & N3).
    assert (Gm : NoDup (pm_parents m) /\ exists c news, pm_children m = c :: news /\ (0 < c < counter)%Z /\ NoDup news /\
                   forall x, In x news -> (nth t Ss 0 <= x)%Z).
    { destruct (Mg t m T I) as [g|(t' & _ & g)]; destruct g as (g1 & _ & c & news & g2 & g3 & g4 & g5 & _); (split; [exact g1|exists c, news; auto]). }
    destruct Gm as (Np & c & news & Ecn & Bc & Nn & Hn). assert (Sa := start_at t T).
    unfold sound_merge. cbn [e_time e_children e_parents e_areas]. rewrite !map_length.
    assert (T1 : 1 <= t). { destruct (pm_parents m) as [|p r] eqn:Ep; [cbn in N1; lia|]. apply (Pa t m p T I). rewrite Ep. left. reflexivity. }
    split; [lia|]. unfold max_parents in N1. split; [exact N1|]. split; [exact N2|]. split; [exact N3|].
    split; [|split; [|split; [|split]]].
    + apply NoDup_map_on; [|exact Np]. intros x y X Y E. apply Inj; [apply (Pa t m x T I X)|apply (Pa t m y T I Y)|exact E].
    + apply NoDup_map_on.
      * intros x y X Y E. apply Inj; [| |exact E].
        -- destruct (Ch t m x T I X); [left; lia|right; assumption].
        -- destruct (Ch t m y T I Y); [left; lia|right; assumption].
      * rewrite Ecn. constructor; [|exact Nn]. intro J. apply Hn in J. lia.
    + intros p J. apply in_map_iff in J. destruct J as (q & <- & J). destruct (Pa t m q T I J) as (_ & P0 & Pr & _). apply Rg; assumption.
    + intros x J. apply in_map_iff in J. destruct J as (y & <- & J). destruct (Ch t m y T I J) as [C|C]; apply Rg; auto; try lia; try (left; lia); apply Tp in C; lia.
    + intros x J. rewrite Ecn in J. cbn [map tl] in J. apply in_map_iff in J. destruct J as (y & <- & J).
      assert (Y : In y temps).
      { destruct (Ch t m y T I) as [C|C]; [rewrite Ecn; right; exact J| |exact C]. apply Hn in J. lia. }
      apply (permanent_in counter steps y Y).
  - intros e p I J. apply Ev in I. destruct I as (t & m & T & I & ->). cbn [e_time e_parents] in *.
    apply in_map_iff in J. destruct J as (q & <- & J). apply (Pa t m q T I J).
  - intro x. split.
    + intro R. rewrite Ec in R. destruct (permanent_onto counter steps x R) as (v & I & <-). fold temps in I |- *. fold rename.
      assert (J := I). apply temps_In in J; [|exact Cp]. destruct J as (Lv & st & m & Is & Im & Iv).
      apply (In_nth _ _ no_step) in Is. destruct Is as (t & T & <-). destruct A as [L O]. rewrite L in T.
      exists (mkEvent t (map rename (pm_children m)) (map rename (pm_parents m)) (pm_areas m)). split.
      * apply Ev. exists t, m. auto.
      * cbn [e_children]. assert (Gm : exists c news, pm_children m = c :: news /\ (c < counter)%Z).
        { destruct (Mg t m T Im) as [g|(t' & _ & g)]; destruct g as (_ & _ & c & news & E & B & _); exists c, news; (split; [exact E|lia]). }
        destruct Gm as (c & news & E & B). rewrite E in *. cbn [map tl]. destruct Iv as [<-|Iv]; [lia|]. apply in_map. exact Iv.
    + intros (e & I & J). apply Ev in I. destruct I as (t & m & T & I & ->). cbn [e_children] in J.
      destruct (Mg t m T I) as [g|(t' & _ & g)]; destruct g as (_ & _ & c & news & E & B & _ & Hn & _);
        (rewrite E in J; cbn [map tl] in J; apply in_map_iff in J; destruct J as (y & <- & J);
         assert (Y : In y temps) by
           (destruct (Ch t m y T I) as [C|C]; [rewrite E; right; exact J|assert (Sa := start_at t T); apply Hn in J; lia|exact C]);
         rewrite Ec; exact (permanent_in counter steps y Y)).
Qed.

Lemma iteration_new_ids M t0 l :
  t0 < length F -> NoDup l -> incl l objs -> M = length l ->
  (forall c, In c l -> (c < counter)%Z /\ In c (nth t0 F []) /\ forall t, t < t0 -> ~ In c (nth t F [])) ->
  exists evs, pt_events s' = pt_events s ++ evs /\
    (forall t, t < length F -> NoDup (new_ids (filter (fun e => Nat.eqb (e_time e) t) evs))) /\
    ((forall t, t < length F -> length (new_ids (filter (fun e => Nat.eqb (e_time e) t) evs)) <= M * tc) ->
     NoDup (new_ids evs)).
Proof.
  intros T0 Nl Il EM Hl. destruct iteration_steps as (steps & A & Mg & Ef & Fs & Ec & Ee & Ob).
  assert (G' := G). destruct G' as (_ & Cp & Ib). fold counter in Cp.
  set (temps := temp_ids counter steps) in *. set (rename := permanent counter temps) in *.
  exists (renamed_merges rename steps). split; [exact Ee|]. rewrite renamed_is, new_ids_renamed.
  destruct A as [L O].
  assert (At : forall t, t < length F -> new_ids (filter (fun e => Nat.eqb (e_time e) t) (renamed_from rename 0 steps)) =
     map rename (step_ids (nth t steps no_step))).
  { intros t T. rewrite new_ids_at by lia. rewrite Nat.sub_0_r. reflexivity. }
  assert (Tm : forall t x, t < length F -> In x (step_ids (nth t steps no_step)) -> In x temps).
  { intros t x T I. assert (Ot := O t T). apply temps_In; [exact Cp|]. split.
    - rewrite (so_children _ _ _ Ot), (so_ids _ _ _ Ot) in I. apply arangeZ_In in I. assert (Sa := start_at t T). lia.
    - unfold step_ids in I. apply in_flat_map in I. destruct I as (m & Im & I). exists (nth t steps no_step), m.
      split; [apply nth_In; lia|]. split; [exact Im|]. destruct (pm_children m); [contradiction|]. right. exact I. }
  assert (Nt : forall t, t < length F -> NoDup (step_ids (nth t steps no_step))).
  { intros t T. assert (Ot := O t T). rewrite (so_children _ _ _ Ot), (so_ids _ _ _ Ot). apply arangeZ_NoDup. }
  assert (Inj : forall x y, In x temps -> In y temps -> rename x = rename y -> x = y).
  { intros x y X Y E. apply (permanent_inj counter steps x y Cp (or_intror X) (or_intror Y) E). }
  split.
  - intros t T. rewrite At by exact T. apply NoDup_map_on; [|apply Nt; exact T].
    intros x y X Y. apply Inj; apply (Tm t); assumption.
  - intro Few. apply NoDup_map_on.
    + intros x y X Y. apply Inj.
      * apply in_flat_map in X. destruct X as (st & Is & X). apply (In_nth _ _ no_step) in Is. destruct Is as (t & T & <-).
        apply (Tm t); [lia|exact X].
      * apply in_flat_map in Y. destruct Y as (st & Is & Y). apply (In_nth _ _ no_step) in Is. destruct Is as (t & T & <-).
        apply (Tm t); [lia|exact Y].
    + apply nth_flat_map_disjoint; [intros i I; apply Nt; lia|].
      intros i j x Hij Hj Ii Ij. rewrite L in Hj. assert (Oi := O i ltac:(lia)). assert (Oj := O j Hj).
      assert (Fi := Few i ltac:(lia)). rewrite At, map_length, (so_children _ _ _ Oi) in Fi by lia.
      rewrite (so_children _ _ _ Oi), (so_ids _ _ _ Oi) in Ii. rewrite (so_children _ _ _ Oj), (so_ids _ _ _ Oj) in Ij.
      apply arangeZ_In in Ii. apply arangeZ_In in Ij.
      assert (Lq : length queues = length F) by (unfold queues; rewrite map_length, seq_length; reflexivity).
      assert (Mo : M <= most_objects queues).
      { rewrite EM. transitivity (length (objects_at counter F objs t0)).
        - apply NoDup_incl_length; [exact Nl|]. intros c I. unfold objects_at. apply filter_In. split; [apply Il; exact I|].
          destruct (Hl c I) as (C1 & C2 & C3). unfold id_time. assert (C0 := Ho c (Il c I)).
          destruct (Z.leb_spec 0 c); [|lia]. destruct (Z.ltb_spec c counter); [|lia]. cbn [andb]. apply Nat.eqb_eq.
          apply time_of_first; assumption.
        - unfold most_objects. apply max_ge. apply in_map. unfold queues. apply in_map. apply in_seq. lia. }
      unfold Ss in Ii, Ij. rewrite !starts_nth in Ii, Ij by lia. clear - Fi Ii Ij Mo Hij.
      set (a := most_objects queues) in *. assert (X : (M * tc <= a * tc)) by (apply Nat.mul_le_mono_r; exact Mo).
      assert (Y : (Z.of_nat i * Z.of_nat a * Z.of_nat tc + Z.of_nat a * Z.of_nat tc <= Z.of_nat j * Z.of_nat a * Z.of_nat tc)%Z).
      { rewrite <- !Z.mul_assoc. rewrite <- (Z.mul_1_l (Z.of_nat a * Z.of_nat tc)) at 2. rewrite <- Z.mul_add_distr_r.
        apply Z.mul_le_mono_nonneg_r; lia. }
      lia.
Qed.
End One.

Lemma divides_refl c F : divides c c F F.
Proof. split; [split; auto|]. split; [left; reflexivity|]. split; [reflexivity|auto]. Qed.
Lemma divides_trans c c' c'' F F' F'' : (c <= c')%Z -> (c' <= c'')%Z -> divides c c' F F' -> divides c' c'' F' F'' -> divides c c'' F F''.
Proof.
  intros L1 L2 ([A1 A2] & A3 & A4 & A5) ([B1 B2] & B3 & B4 & B5).
  assert (Sh : forall t k, in_shape F t k -> in_shape F' t k).
  { intros t k [T K]. split; [lia|]. rewrite A2; assumption. }
  split; [split; [lia|]|split; [|split]].
  - intros t T. rewrite B2 by lia. apply A2. exact T.
  - intros t k S. destruct (B3 t k (Sh t k S)) as [E|E]; [|right; lia]. destruct (A3 t k S) as [D|D]; [left; congruence|right; lia].
  - intros t k S. rewrite (B4 t k (Sh t k S)). apply A4. exact S.
  - intros t j k Sj Sk E. apply (A5 t j k Sj Sk). apply (B5 t j k); auto.
Qed.
Lemma sound_weaken nt c1 c1' c c' e : (c <= c1)%Z -> (c1' <= c')%Z -> sound_merge nt c1 c1' e -> sound_merge nt c c' e.
Proof.
  intros L1 L2 (A & B & C & D & E & F & X & Y & W). repeat (split; [assumption|]). split; [|split].
  - intros p I. apply X in I. lia.
  - intros p I. apply Y in I. lia.
  - intros p I. apply W in I. lia.
Qed.

Variable order : list Z -> list Z.
Hypothesis Hord : forall l x, In x (order l) -> In x l.
Lemma loop_ok fuel : forall s objs processed it s' objs' it',
  good s -> (forall c, In c objs -> (0 < c)%Z) ->
  merge_loop w thr part order tc fuel s objs processed it = Ok (s', objs', it') ->
  good s' /\ (pt_counter s <= pt_counter s')%Z /\
  divides (pt_counter s) (pt_counter s') (pt_fields s) (pt_fields s') /\
  exists evs, pt_events s' = pt_events s ++ evs /\
    forall e, In e evs -> sound_merge (length (pt_fields s)) (pt_counter s) (pt_counter s') e.
Proof.
  induction fuel as [|fuel IH]; intros s objs processed it s' objs' it' G Ho H.
  - assert (E : s' = s) by (destruct objs; cbn in H; congruence). subst s'. split; [exact G|]. split; [lia|].
    split; [apply divides_refl|]. exists []. rewrite app_nil_r. split; [reflexivity|contradiction].
  - destruct objs as [|o objs0].
    + cbn in H. assert (E : s' = s) by congruence. subst s'. split; [exact G|]. split; [lia|].
      split; [apply divides_refl|]. exists []. rewrite app_nil_r. split; [reflexivity|contradiction].
    + cbn [merge_loop] in H. apply bind_ok in H. destruct H as ((s1, o1) & H1 & H). cbn [fst snd] in H.
      assert (Ho1 : forall c, In c (order (o :: objs0)) -> (0 < c)%Z) by (intros c I; apply Ho, Hord, I).
      destruct (iteration_divides s _ s1 o1 G Ho1 H1) as (D1 & G1 & L1 & O1).
      destruct (iteration_events s _ s1 o1 G Ho1 H1) as (ev1 & E1 & Sm1 & _).
      assert (Ho2 : forall c, In c (set_minus o1 processed) -> (0 < c)%Z).
      { intros c I. unfold set_minus in I. apply filter_In in I. destruct I as [I _]. rewrite unique_codes_In in I. apply O1 in I. lia. }
      destruct (IH _ _ _ _ _ _ _ G1 Ho2 H) as (G2 & L2 & D2 & ev2 & E2 & Sm2).
      split; [exact G2|]. split; [lia|]. split; [exact (divides_trans _ _ _ _ _ _ L1 L2 D1 D2)|].
      exists (ev1 ++ ev2). split; [rewrite E2, E1, app_assoc; reflexivity|].
      intros e I. apply in_app_iff in I. destruct I as [I|I].
      * apply (sound_weaken _ (pt_counter s) (pt_counter s1)); [lia|exact L2|apply Sm1; exact I].
      * apply (sound_weaken _ (pt_counter s1) (pt_counter s')); [lia|lia|].
        destruct D1 as ((Ln & _) & _). rewrite <- Ln. apply Sm2. exact I.
Qed.
Lemma loop_count fuel : forall s objs processed it s' objs' it',
  merge_loop w thr part order tc fuel s objs processed it = Ok (s', objs', it') ->
  it <= it' <= it + fuel /\ (it' < it + fuel -> objs' = []).
Proof.
  clear Hord. induction fuel as [|fuel IH]; intros s objs processed it s' objs' it' H.
  - assert (E : it' = it) by (destruct objs; cbn in H; congruence). subst. split; [lia|]. lia.
  - destruct objs as [|o objs0].
    + cbn in H. injection H as <- <- <-. split; [lia|]. reflexivity.
    + cbn [merge_loop] in H. apply bind_ok in H. destruct H as (r & _ & H). apply IH in H. destruct H as [A B].
      split; [lia|]. intro C. apply B. lia.
Qed.
End Iteration.
