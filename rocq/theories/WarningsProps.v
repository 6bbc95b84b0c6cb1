(** Properties C179 and C180: what building trackers hides of the scheduler's log and of Python's warnings. *)
Require Import List Arith ZArith Bool String Ascii Lia.
From Verif Require Import Base Support Warnings WarningsSpec WarningsProofs.
Import ListNotations.
Open Scope string_scope.

(** ** C179 *)
(** After any session a record of the scheduler's logger reaches its handlers exactly when its level reaches the last level given to the
    logger (or to its parents, while it has none) and, for every tracker that was built with debug below 2, the text has no message
    about run_spec nor, while that tracker's attribute is 0, one about large graphs. *)
Theorem C179_scheduler_records : forall h own above root level msg,
  has_level h "distributed.scheduler" own -> has_level h "distributed" above -> has_level h "" root ->
  (handled (session h) level msg = true <->
   ((own <> 0%Z -> (own <= level)%Z) /\ (own = 0%Z -> above <> 0%Z -> (above <= level)%Z) /\ (own = 0%Z -> above = 0%Z -> (root <= level)%Z)) /\
   forall k given now, nth_error (built h) k = Some given -> (given < 2)%Z -> debug_now h k now ->
     ~ occurs "Detected different `run_spec`" msg /\
     (now = 0%Z -> ~ occurs "Sending large graph" msg /\ ~ occurs "This may cause some slowdown" msg)).
Proof.
  intros h own above root level msg Lo La Lr. unfold handled, scheduler_level.
  rewrite (level_is _ _ _ Lo), (level_is _ _ _ La), (level_is _ _ _ Lr), andb_true_iff, forallb_forall.
  assert (L : Z.leb (if Z.eqb own 0 then if Z.eqb above 0 then root else above else own) level = true <->
    (own <> 0%Z -> (own <= level)%Z) /\ (own = 0%Z -> above <> 0%Z -> (above <= level)%Z) /\ (own = 0%Z -> above = 0%Z -> (root <= level)%Z)).
  { rewrite Z.leb_le. destruct (Z.eqb_spec own 0) as [->|N]; [destruct (Z.eqb_spec above 0) as [->|M]|].
    - split; [intro H; split; [congruence|]; split; [congruence|intros; exact H]|]. intros (_ & _ & H). exact (H eq_refl eq_refl).
    - split; [intro H; split; [congruence|]; split; [intros; exact H|intros; contradiction]|]. intros (_ & H & _). exact (H eq_refl M).
    - split; [intro H; split; [intro; exact H|]; split; intro; contradiction|]. intros (H & _). exact (H N). }
  rewrite L. clear L.
  assert (F : (forall k, In k (attached (session h)) -> filter_dask_warnings (nth k (debugs (session h)) 0%Z) msg = true) <->
    forall k given now, nth_error (built h) k = Some given -> (given < 2)%Z -> debug_now h k now ->
     ~ occurs "Detected different `run_spec`" msg /\
     (now = 0%Z -> ~ occurs "Sending large graph" msg /\ ~ occurs "This may cause some slowdown" msg)).
  { split.
    - intros H k given now E D N. rewrite <- (debug_is _ _ _ N). apply filter_lets_through. apply H. apply attached_after.
      exists given. split; assumption.
    - intros H k I. apply attached_after in I as (d & E & D). apply filter_lets_through. apply (H k d _ E D). apply debug_after.
      apply nth_error_Some. congruence. }
  rewrite F. reflexivity.
Qed.
Print Assumptions C179_scheduler_records.

(** Once a tracker with debug 0 or 1 is built, no record below ERROR reaches the handlers, whatever its text, until the user sets the
    level of that logger. *)
Theorem C179_warnings_hidden : forall h v debug later level msg, (debug < 2)%Z -> (level < 40)%Z ->
  (forall l, ~ In (SetLevel "distributed.scheduler" l) later) -> handled (session (h ++ Build v true debug :: later)) level msg = false.
Proof.
  intros h v debug later level msg D L N. unfold handled.
  assert (E : levels (session (h ++ Build v true debug :: later)) "distributed.scheduler" = 40%Z).
  { revert N. induction later as [|e later IH] using rev_ind; intro N.
    - apply level_is. apply given_snoc_yes. apply gives_tracker; [reflexivity|exact D].
    - rewrite app_comm_cons, app_assoc.
      assert (P : has_level (h ++ Build v true debug :: later) "distributed.scheduler" 40).
      { rewrite <- IH; [apply level_after|]. intros l I. apply (N l). apply in_or_app. left. exact I. }
      apply level_is.
      assert (G : (exists v', gives "distributed.scheduler" e v') \/ forall v', ~ gives "distributed.scheduler" e v').
      { destruct e as [|[|]|[|] a d|k d|m l|p i].
        - right. intros v' G. inversion G. discriminate.
        - left. exists 40%Z. constructor. left. reflexivity.
        - right. intros v' G. inversion G.
        - left. exists 40%Z. apply gives_verbosity. left. reflexivity.
        - destruct a; [|right; intros v' G; inversion G]. destruct (Z.ltb_spec d 2) as [X|X].
          + left. exists 40%Z. apply gives_tracker; [reflexivity|exact X].
          + right. intros v' G. inversion G. lia.
        - right. intros v' G. inversion G.
        - destruct (string_dec m "distributed.scheduler") as [->|M].
          + exfalso. apply (N l). apply in_or_app. right. left. reflexivity.
          + right. intros v' G. inversion G. congruence.
        - right. intros v' G. inversion G. }
      destruct G as [(v' & G)|G]; [|apply given_snoc_no; [exact G|exact P]].
      assert (v' = 40%Z) as ->.
      { inversion G; subst; try reflexivity. exfalso. apply (N v'). apply in_or_app. right. left. reflexivity. }
      apply given_snoc_yes. exact G. }
  unfold scheduler_level. rewrite E. change (40 =? 0)%Z with false. cbn iota. replace (Z.leb 40 level) with false; [reflexivity|].
  symmetry. apply Z.leb_gt. exact L.
Qed.
Print Assumptions C179_warnings_hidden.

(** What a tracker's filter hides stays hidden whatever is built or configured later, at any level the user sets. *)
Theorem C179_filters_accumulate : forall h later k given now level msg, nth_error (built h) k = Some given -> (given < 2)%Z -> debug_now h k now ->
  (occurs "Detected different `run_spec`" msg \/ (now = 0%Z /\ (occurs "Sending large graph" msg \/ occurs "This may cause some slowdown" msg))) ->
  (forall d, ~ In (AssignDebug k d) later) -> handled (session (h ++ later)) level msg = false.
Proof.
  intros h later k given now level msg E D N M A. destruct (handled (session (h ++ later)) level msg) eqn:H; [|reflexivity]. exfalso.
  apply (C179_scheduler_records _ _ _ _ _ _ (level_after _ _) (level_after _ _) (level_after _ _)) in H as (_ & H).
  assert (E' : nth_error (built (h ++ later)) k = Some given).
  { rewrite built_app, nth_error_app1; [exact E|]. apply nth_error_Some. congruence. }
  assert (N' : debug_now (h ++ later) k now).
  { destruct N as (h1 & e & h2 & -> & G & L). exists h1, e, (h2 ++ later)%list. split; [rewrite <- app_assoc; reflexivity|].
    split; [exact G|]. intros d I. apply in_app_or in I as [I|I]; [exact (L _ I)|exact (A _ I)]. }
  destruct (H k given now E' D N') as (H1 & H2). destruct M as [M|(Z0 & M)]; [exact (H1 M)|].
  destruct (H2 Z0) as (H3 & H4). destruct M; contradiction.
Qed.
Print Assumptions C179_filters_accumulate.

(** A session with three trackers: the level CRITICAL the user asked for is lowered to ERROR by the first, debug 1 hides a warning that
    has nothing to do with run_spec, and a tracker with debug 2 changes nothing of that. *)
Definition three_trackers : list happening :=
  [Import; SetLevel "distributed.scheduler" 50; Build false true 1; Build true false 0; Build false true 2].
Example C179_case :
  handled (session [Import]) 30 "Worker lost" = true /\
  handled (session [SetLevel "distributed.scheduler" 50]) 40 "Worker lost" = false /\
  handled (session three_trackers) 40 "Worker lost" = true /\
  handled (session three_trackers) 30 "Worker lost" = false /\
  handled (session three_trackers) 40 "Detected different `run_spec` for key x" = false /\
  handled (session three_trackers) 40 "Sending large graph of size 20 MiB." = true /\
  handled (session (three_trackers ++ [AssignDebug 0 0])) 40 "Sending large graph of size 20 MiB." = false /\
  handled (session (three_trackers ++ [SetLevel "distributed.scheduler" 10])) 30 "Worker lost" = true.
Proof. vm_compute. repeat split. Qed.
Example C179_session : has_level three_trackers "distributed.scheduler" 40 /\ has_level three_trackers "distributed" 0 /\
  has_level three_trackers "" 30 /\ debug_now three_trackers 0 1.
Proof.
  split; [exact (level_after three_trackers "distributed.scheduler")|]. split; [exact (level_after three_trackers "distributed")|].
  split; [exact (level_after three_trackers "")|]. apply (debug_after three_trackers 0). cbn. lia.
Qed.

(** ** C180 *)
(** After any session a Python warning is ignored exactly when the last event that settles it says so: a rule added by the user that
    applies to it, or a tracker built with debug 0 when it is a UserWarning from distributed.client or about large graphs. *)
Theorem C180_python_warnings : forall h w,
  last_given (settles w) h false (negb (shown (session h) w)) /\
  (shown (session h) w = false <-> exists h1 e h2, h = (h1 ++ e :: h2)%list /\ settles w e true /\ forall e' i, In e' h2 -> ~ settles w e' i).
Proof.
  intros h w. split; [exact (shown_after h w)|]. pose proof (shown_after h w) as S. split.
  - intro E. rewrite E in S. destruct S as [S|(S & _)]; [exact S|discriminate S].
  - intros (h1 & e & h2 & E & G & L).
    assert (T : last_given (settles w) h false true) by (left; exists h1, e, h2; split; [exact E|split; assumption]).
    pose proof (given_unique (settles w) (settles_one w) _ _ _ _ S T) as U. destruct (shown (session h) w); [discriminate U|reflexivity].
Qed.
Print Assumptions C180_python_warnings.

(** A session without a tracker of debug 0 leaves Python's warnings to the user's own rules. *)
Theorem C180_other_trackers_leave_warnings : forall h w, (forall v, ~ In (Build v true 0) h) ->
  shown (session h) w = shown (session (filter (fun e => match e with AddRule _ _ => true | _ => false end) h)) w.
Proof.
  intros h w N. set (own := fun e : happening => match e with AddRule _ _ => true | _ => false end).
  assert (T : last_given (settles w) h false (negb (shown (session (filter own h)) w))).
  { pose proof (shown_after (filter own h) w) as S. revert N S. generalize (negb (shown (session (filter own h)) w)) as i. intros i N S.
    assert (O : forall e i', In e h -> settles w e i' -> own e = true).
    { intros e i' I St. inversion St; subst; [reflexivity|]. exfalso. exact (N _ I). }
    destruct S as [(h1 & e & h2 & E & G & L)|(-> & L)].
    - left. clear N. revert h1 E. induction h as [|x h IH]; intros h1 E; [destruct h1; discriminate E|].
      assert (O' : forall e i', In e h -> settles w e i' -> own e = true) by (intros e' i' I; apply O; right; exact I).
      cbn [filter] in E. destruct (own x) eqn:X.
      + destruct h1 as [|y h1].
        * injection E as <- E. exists [], x, h. split; [reflexivity|]. split; [exact G|]. intros e' i' I St.
          apply (L e' i'); [|exact St]. rewrite <- E. apply filter_In. split; [exact I|]. exact (O' _ _ I St).
        * injection E as <- E. destruct (IH O' h1 E) as (g1 & e' & g2 & -> & P). exists (x :: g1), e', g2. split; [reflexivity|exact P].
      + destruct (IH O' h1 E) as (g1 & e' & g2 & -> & P). exists (x :: g1), e', g2. split; [reflexivity|exact P].
    - right. split; [reflexivity|]. intros e i' I St. apply (L e i'); [|exact St]. apply filter_In. split; [exact I|]. exact (O _ _ I St). }
  pose proof (given_unique (settles w) (settles_one w) _ _ _ _ (shown_after h w) T) as U.
  destruct (shown (session h) w), (shown (session (filter own h)) w); reflexivity || discriminate U.
Qed.
Print Assumptions C180_other_trackers_leave_warnings.

(** The text of Dask's warning, one of another module, and what a user's rule can and cannot do. *)
Definition dask_warning : warning :=
  {| w_user := true; w_module := "distributed.client"; w_text := "Sending large graph of size 20 MiB." ++ String newline "This may cause some slowdown." |}.
Definition other_warning : warning := {| w_user := true; w_module := "xarray"; w_text := "Sending large graph, this may cause some slowdown" |}.
Definition show_all : happening := AddRule (fun _ => true) false.
Example C180_case :
  shown (session [Import]) dask_warning = true /\
  shown (session [Build false true 1]) dask_warning = true /\
  shown (session [show_all; Build false true 0]) dask_warning = false /\
  shown (session [Build false true 0; show_all]) dask_warning = true /\
  shown (session [Build false true 0; show_all; Build false true 0]) dask_warning = false /\
  shown (session [Build false true 0; show_all; Build false false 0]) dask_warning = true /\
  shown (session [Build false true 0]) other_warning = true /\
  large_graph (w_text dask_warning) = true /\ large_graph (w_text other_warning) = false.
Proof. vm_compute. repeat split. Qed.
