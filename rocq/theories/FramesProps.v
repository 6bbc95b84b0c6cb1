(** Property theorems C190 (frames made at the same time). *)
From Verif Require Import Base Frames FramesProofs.
Open Scope nat_scope.

(** ** C190 *)

(** The figures open before hold the user's axes. *)
Definition users_figures (us : list figure) : Prop := forall f a, In f us -> In a (snd f) -> exists k, a = Users k.

(** In every schedule the user's figures are left alone and stay in their order, so that the
    active one is again active when no frame is under way. *)
Theorem C190_users_figures_untouched (us : list figure) (schedule : list nat) : users_figures us ->
  (exists extra, c_figs (s_canvas (animate us schedule)) = us ++ extra) /\
  ((forall i, s_place (animate us schedule) i = Waiting \/ s_place (animate us schedule) i = Finished) ->
   c_figs (s_canvas (animate us schedule)) = us).
Proof.
  intro U. destruct (kept_always us U schedule) as (e & E & _ & _ & Own & _). split; [exists e; exact E|]. intro D. rewrite E.
  destruct e as [|f e]; [apply app_nil_r|]. exfalso. destruct (proj1 (Own (fst f))) as (i & I); [left; reflexivity|].
  destruct (D i) as [H|H]; rewrite H in I; discriminate.
Qed.
Print Assumptions C190_users_figures_untouched.

(** As claimed, a frame's file shows that frame.  False: with two threads the first frame
    can find the second one's figure active; its file is empty and the other shows both. *)
Theorem C190_own_picture_refuted : exists schedule,
  s_place (animate [] schedule) 0 = Finished /\ s_place (animate [] schedule) 1 = Finished /\
  c_files (s_canvas (animate [] schedule)) = [(0, []); (1, [OfFrame 0 true; OfFrame 1 true])].
Proof. exists [0; 1; 0; 1; 0; 1; 0; 1; 0; 1]. split; [reflexivity|]. split; reflexivity. Qed.
Print Assumptions C190_own_picture_refuted.

(** It does in every schedule in which no frame makes its figure while another has a figure
    without axes.  Missing from the full claim: the schedules of threads that do. *)
Theorem C190_own_picture_partial (us : list figure) (schedule : list nat) : users_figures us ->
  (forall before i after, schedule = before ++ i :: after -> s_place (animate us before) i = Waiting ->
     forall j n, s_place (animate us before) j <> HasFigure n) ->
  forall i picture, In (i, picture) (c_files (s_canvas (animate us schedule))) -> picture = [OfFrame i true].
Proof. intros U A. exact (proj2 (proj2 (proj2 (right_always us U schedule A)))). Qed.
Print Assumptions C190_own_picture_partial.

Lemma fresh_not_in us : ~ In (next_number us) (map fst us).
Proof. intro I. apply in_map_iff in I. destruct I as (f & E & I). apply next_fresh in I. lia. Qed.
Lemma five us s i : users_figures us -> c_figs (s_canvas s) = us -> s_place s i = Waiting ->
  let s' := fold_left advance (repeat i 5) s in
  c_figs (s_canvas s') = us /\ c_files (s_canvas s') = c_files (s_canvas s) ++ [(i, [OfFrame i true])] /\
  s_place s' i = Finished /\ forall j, j <> i -> s_place s' j = s_place s j.
Proof.
  intros U E P. destruct s as [pl [figs files]]. cbn [s_canvas s_place c_figs c_files] in *. subst figs.
  cbn [repeat fold_left]. unfold advance. cbn [s_place s_canvas]. rewrite P. cbn [step s_place s_canvas c_figs c_files].
  rewrite Nat.eqb_refl. cbn [step s_place s_canvas c_figs c_files]. rewrite Nat.eqb_refl. cbn [step s_place s_canvas c_figs c_files].
  rewrite Nat.eqb_refl. cbn [step s_place s_canvas c_figs c_files]. rewrite Nat.eqb_refl. cbn [step s_place s_canvas c_figs c_files].
  rewrite add_axes_last, draw_app, (draw_users i us U). cbn [fst snd app draw map draw_axes]. rewrite !Nat.eqb_refl.
  set (n := next_number us). assert (N := fresh_not_in us). fold n in N. rewrite close_app, (close_none n us N). cbn [close filter fst]. rewrite Nat.eqb_refl. cbn [negb].
  split; [apply app_nil_r|]. split; [|split; [reflexivity|]].
  - do 2 f_equal. unfold axes_of. assert (F : forall a, ~ In n (map fst a) -> find (fun f : nat * list axes => Nat.eqb (fst f) n) (a ++ [(n, [OfFrame i true])]) = Some (n, [OfFrame i true])).
    { induction a as [|f a IH]; intro A; cbn [app find fst]; [rewrite Nat.eqb_refl; reflexivity|]. destruct (Nat.eqb_spec (fst f) n) as [X|X]; [destruct A; left; exact X|].
      apply IH. intro J. apply A. right. exact J. }
    assert (F' := F us N). unfold figure in *. rewrite F'. reflexivity.
  - intros j J. cbn [s_place]. destruct (Nat.eqb_spec j i); [congruence|]. reflexivity.
Qed.
(** One thread per process, as start_local_cluster does unless told otherwise: whatever the
    order, each frame given to the process gets one file, showing that frame alone, and pyplot
    is left as it was. *)
Theorem C190_one_at_a_time (us : list figure) (frames : list nat) : users_figures us -> NoDup frames ->
  let s := animate us (flat_map (fun i => repeat i 5) frames) in
  c_files (s_canvas s) = map (fun i => (i, [OfFrame i true])) frames /\ c_figs (s_canvas s) = us /\
  forall i, In i frames -> s_place s i = Finished.
Proof.
  intros U Nd. cbv zeta. unfold animate.
  assert (G : forall s, c_figs (s_canvas s) = us -> (forall i, In i frames -> s_place s i = Waiting) ->
    let s' := fold_left advance (flat_map (fun i => repeat i 5) frames) s in
    c_files (s_canvas s') = c_files (s_canvas s) ++ map (fun i => (i, [OfFrame i true])) frames /\ c_figs (s_canvas s') = us /\
    (forall i, In i frames -> s_place s' i = Finished) /\ (forall i, ~ In i frames -> s_place s' i = s_place s i)).
  { induction Nd as [|i l N Nd IH]; intros s E W; cbv zeta.
    - cbn [flat_map fold_left map]. rewrite app_nil_r. split; [reflexivity|]. split; [exact E|]. split; [intros i []|reflexivity].
    - cbn [flat_map]. rewrite fold_left_app. destruct (five us s i U E (W i (or_introl eq_refl))) as (E1 & F1 & P1 & O1).
      set (s1 := fold_left advance (repeat i 5) s) in *. destruct (IH s1 E1) as (F2 & E2 & P2 & O2).
      { intros j J. rewrite O1; [apply W; right; exact J|]. intros ->. exact (N J). }
      split; [rewrite F2, F1, <- app_assoc; reflexivity|]. split; [exact E2|]. split.
      + intros j [<-|J]; [rewrite O2 by exact N; exact P1|exact (P2 j J)].
      + intros j J. rewrite O2 by (intro K; apply J; right; exact K). apply O1. intros ->. apply J. left. reflexivity. }
  destruct (G (mkStudio (fun _ => Waiting) (mkCanvas us [])) eq_refl ltac:(reflexivity)) as (A & B & C & _). auto.
Qed.
Print Assumptions C190_one_at_a_time.

(** A user's figure is open; frames 1 and 0 overlap after their axes are made. *)
Example C190_case :
  let us := [(3, [Users 0; Users 1])] in let schedule := [1; 1; 0; 0; 1; 0; 0; 1; 0; 1] in
  users_figures us /\
  (forall before i after, schedule = before ++ i :: after -> s_place (animate us before) i = Waiting -> forall j n, s_place (animate us before) j <> HasFigure n) /\
  c_files (s_canvas (animate us schedule)) = [(0, [OfFrame 0 true]); (1, [OfFrame 1 true])] /\ c_figs (s_canvas (animate us schedule)) = us.
Proof.
  split; [intros f a [<-|[]] [<-|[<-|[]]]; eexists; reflexivity|]. split; [|split; reflexivity].
  intros before i after E W j n. do 10 (destruct before as [|? before]; [injection E as <- <-; cbn in W; try discriminate; destruct j as [|[|j]]; cbn; discriminate|injection E as <- E]).
  destruct before; discriminate.
Qed.
