(** Proofs about trackers on one file system. *)
From Coq Require Import String.
From Verif Require Import Base Graph Morph Label Overlap Merge Cluster Parallel Run MeshRun Scratch.
Open Scope nat_scope.

Definition tracked (j : job) : result mesh_err (events * merges) :=
  track_mesh (j_mesh j) (j_mask j) (j_w j) (j_cent j) (j_thr j) (j_part j) (j_order j) (j_tc j) (j_limit j) (j_data j).

Lemma put_same d x v : put d x v x = v.
Proof. unfold put. rewrite String.eqb_refl. reflexivity. Qed.
Lemma put_other d x v y : y <> x -> put d x v y = d y.
Proof. intro N. unfold put. apply String.eqb_neq in N. rewrite N. reflexivity. Qed.
Lemma step_other j s d x : x <> j_dir j -> snd (step j s d) x = d x.
Proof.
  intro N. destruct s as [| | |r|f r|o]; cbn [step]; try (cbn [snd]; apply put_other; exact N); try reflexivity.
  - destruct (d (j_dir j)); [|reflexivity]. destruct (initial_props _ _ _); reflexivity.
  - destruct (r_objs r), (r_fuel r); repeat (match goal with |- context [if ?b then _ else _] => destruct b | |- context [d (j_dir j)] => destruct (d (j_dir j)) | |- context [match iteration ?a ?b ?c ?e ?g ?h with _ => _ end] => destruct (iteration a b c e g h) as [[? ?]|?] end); reflexivity.
Qed.

(** What the loop still has to give. *)
Definition rest_of (j : job) (f : list (list Z)) (r : rounds) : result mesh_err (events * merges) :=
  match merge_loop (j_w j) (j_thr j) (j_part j) (j_order j) (j_tc j) (r_fuel r) (mkPState f (Some f) (r_counter r) (r_events r)) (r_objs r) (r_done r) (r_it r) with
  | Err e => Err (MergeFails e)
  | Ok q => if Nat.eqb (snd q) (j_limit j) then Err (MergeFails MaxIteration) else mesh_events (j_w j) (j_cent j) (j_thr j) (fst (fst q))
  end.
Definition on_track (j : job) (s : stage) (d : disk) : Prop :=
  match s with
  | New | Built => True
  | Refreshed => d (j_dir j) = Some (mesh_objects (j_mesh j) (j_mask j) (j_data j))
  | Before r => exists f, d (j_dir j) = Some f /\ rest_of j f r = tracked j
  | Writing f r => exists g, f = Some g /\ rest_of j g r = tracked j
  | Done o => o = with_err (tracked j)
  end.
Definition left_over (j : job) (s : stage) : nat :=
  match s with
  | New => 2 * j_limit j + 4 | Built => 2 * j_limit j + 3 | Refreshed => 2 * j_limit j + 2
  | Before r => 2 * r_fuel r + 1 | Writing _ r => 2 * r_fuel r + 2 | Done _ => 0
  end.

Lemma iteration_store w thr part tc f c ev objs s' new :
  iteration w thr part tc (mkPState f (Some f) c ev) objs = Ok (s', new) -> s' = mkPState (pt_fields s') (Some (pt_fields s')) (pt_counter s') (pt_events s').
Proof.
  unfold iteration. cbn [pt_fields pt_counter pt_store pt_events]. destruct (pads_ok c f); [|discriminate].
  match goal with |- context [collect ?l] => destruct (collect l) as [outs|e] end; [|discriminate]. cbn [bind].
  unfold update_store. destruct (existsb has_merge _); intro H; injection H as <- <-; reflexivity.
Qed.
Lemma step_on_track j s d : on_track j s d -> on_track j (fst (step j s d)) (snd (step j s d)).
Proof.
  destruct s as [| | |r|f r|o]; cbn [on_track step fst snd]; intro H; try exact H.
  - apply put_same.
  - rewrite H. destruct (initial_props (j_w j) (j_cent j) _) as [|p ps] eqn:E; cbn [fst snd on_track].
    + unfold tracked, track_mesh. rewrite E. reflexivity.
    + exists (mesh_objects (j_mesh j) (j_mask j) (j_data j)). split; [exact H|]. unfold rest_of, tracked, track_mesh. rewrite E. unfold parallel_merge. cbn [r_fuel r_counter r_events r_objs r_done r_it].
      match goal with |- context [merge_loop ?a ?b ?c ?e ?g ?h ?i ?k ?l ?m] => destruct (merge_loop a b c e g h i k l m) as [q|x] end; [|reflexivity]. cbn [bind]. destruct (Nat.eqb (snd q) (j_limit j)); reflexivity.
  - destruct H as (f & D & R). destruct r as [c ev objs pr it fuel]. unfold rest_of in R. cbn [r_fuel r_counter r_events r_objs r_done r_it] in *.
    assert (Stop : (merge_loop (j_w j) (j_thr j) (j_part j) (j_order j) (j_tc j) fuel (mkPState f (Some f) c ev) objs pr it = Ok (mkPState f (Some f) c ev, objs, it)) ->
      on_track j (fst (if Nat.eqb it (j_limit j) then (Done (Err (TrackingFails (MergeFails MaxIteration))), d) else match d (j_dir j) with None => (Done (Err StoreGone), d) | Some f => (Done (with_err (mesh_events (j_w j) (j_cent j) (j_thr j) (mkPState f None c ev))), d) end))
                 (snd (if Nat.eqb it (j_limit j) then (Done (Err (TrackingFails (MergeFails MaxIteration))), d) else match d (j_dir j) with None => (Done (Err StoreGone), d) | Some f => (Done (with_err (mesh_events (j_w j) (j_cent j) (j_thr j) (mkPState f None c ev))), d) end))).
    { intro E. rewrite E in R. cbn [fst snd] in R. rewrite D. destruct (Nat.eqb it (j_limit j)); cbn [fst snd on_track]; rewrite <- R; reflexivity. }
    destruct objs as [|x objs]; [apply Stop; destruct fuel; reflexivity|]. destruct fuel as [|k]; [apply Stop; reflexivity|]. clear Stop.
    rewrite D. cbn [merge_loop] in R. destruct (iteration _ _ _ _ _ _) as [[s' new]|e] eqn:E; cbn [bind fst snd] in R; cbn [fst snd on_track].
    + exists (pt_fields s'). assert (Es := iteration_store _ _ _ _ _ _ _ _ _ _ E). split; [rewrite Es at 1; reflexivity|]. unfold rest_of. cbn [r_fuel r_counter r_events r_objs r_done r_it]. rewrite <- Es. exact R.
    + rewrite <- R. reflexivity.
  - destruct H as (g & -> & R). exists g. split; [apply put_same|exact R].
Qed.
Lemma step_left j s d : on_track j s d -> s <> Done (with_err (tracked j)) -> left_over j (fst (step j s d)) < left_over j s.
Proof.
  destruct s as [| | |r|f r|o]; cbn [on_track step fst left_over]; intros H N; try lia.
  - rewrite H. destruct (initial_props _ _ _); cbn [fst left_over r_fuel]; lia.
  - destruct H as (f & D & _). rewrite D. destruct (r_objs r), (r_fuel r); repeat (match goal with |- context [if ?b then _ else _] => destruct b | |- context [match iteration ?a ?b ?c ?e ?g ?h with _ => _ end] => destruct (iteration a b c e g h) as [[? ?]|?] end); cbn [fst left_over r_fuel]; lia.
  - exfalso. apply N. rewrite H. reflexivity.
Qed.
Lemma left_done j s d : on_track j s d -> left_over j s = 0 -> s = Done (with_err (tracked j)).
Proof. destruct s; cbn [on_track left_over]; intros H L; try lia. rewrite H. reflexivity. Qed.
Lemma done_stays j s d o : s = Done o -> fst (step j s d) = Done o.
Proof. intros ->. reflexivity. Qed.
Lemma done_on jobs i o : forall sched w, fst w i = Done o -> fst (executed jobs w sched) i = Done o.
Proof.
  induction sched as [|k sched IH]; intros w H; [exact H|]. cbn [executed fold_left]. apply IH. unfold act. destruct (step (jobs k) (fst w k) (snd w)) as [s d] eqn:E. cbn [fst].
  destruct (Nat.eqb_spec i k) as [->|N]; [|exact H]. rewrite H in E. cbn [step] in E. injection E as <- _. reflexivity.
Qed.
Lemma act_on_track jobs w i k : (k <> i -> j_dir (jobs k) <> j_dir (jobs i)) -> on_track (jobs i) (fst w i) (snd w) ->
  on_track (jobs i) (fst (act jobs w k) i) (snd (act jobs w k)).
Proof.
  intros N H. unfold act. destruct (step (jobs k) (fst w k) (snd w)) as [s d] eqn:E. cbn [fst snd]. destruct (Nat.eqb_spec i k) as [->|Nk].
  - assert (A := step_on_track (jobs k) (fst w k) (snd w) H). rewrite E in A. exact A.
  - assert (O := step_other (jobs k) (fst w k) (snd w) (j_dir (jobs i)) (fun e => N (fun e' => Nk (eq_sym e')) (eq_sym e))). rewrite E in O. cbn [snd] in O.
    destruct (fst w i); cbn [on_track] in *; try exact H; rewrite O; exact H.
Qed.
Lemma executed_on_track jobs i : forall sched w, (forall k, In k sched -> k <> i -> j_dir (jobs k) <> j_dir (jobs i)) -> on_track (jobs i) (fst w i) (snd w) ->
  on_track (jobs i) (fst (executed jobs w sched) i) (snd (executed jobs w sched)) /\
  left_over (jobs i) (fst (executed jobs w sched) i) <= left_over (jobs i) (fst w i) - count_occ Nat.eq_dec sched i.
Proof.
  induction sched as [|k sched IH]; intros w N H; [cbn; split; [exact H|lia]|]. cbn [executed fold_left].
  destruct (IH (act jobs w k) (fun x I => N x (or_intror I)) (act_on_track jobs w i k (N k (or_introl eq_refl)) H)) as [A B]. split; [exact A|].
  apply Nat.le_trans with (1 := B). cbn [count_occ]. destruct (Nat.eq_dec k i) as [->|Nk].
  - assert (L : fst (act jobs w i) i = fst (step (jobs i) (fst w i) (snd w))) by (unfold act; destruct (step _ _ _); cbn [fst]; rewrite Nat.eqb_refl; reflexivity). rewrite L.
    destruct (Nat.eq_dec (left_over (jobs i) (fst w i)) 0) as [Z|Z].
    + rewrite (left_done _ _ _ H Z). cbn. lia.
    + assert (S := step_left (jobs i) (fst w i) (snd w) H ltac:(intro e; rewrite e in Z; apply Z; reflexivity)). lia.
  - assert (L : fst (act jobs w k) i = fst w i) by (unfold act; destruct (step _ _ _); cbn [fst]; destruct (Nat.eqb_spec i k); [congruence|reflexivity]). rewrite L. lia.
Qed.
