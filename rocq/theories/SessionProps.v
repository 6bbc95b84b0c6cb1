(** Property theorems C150-C152 (Dask settings, temporary directories and connection
    information over a session). *)
From Coq Require Import String Ascii Lia.
From Verif Require Import Base Errors Support Session.
Open Scope string_scope.
Open Scope list_scope.
Open Scope nat_scope.

(** ** Dictionaries *)
Lemma get_set k k' v d : get_key k (set_key k' v d) = if String.eqb k k' then Some v else get_key k d.
Proof.
  induction d as [|(k0, v0) d IH]; cbn [set_key get_key]; [reflexivity|]. destruct (String.eqb_spec k' k0) as [->|N]; cbn [get_key].
  - destruct (String.eqb k k0); reflexivity.
  - rewrite IH. destruct (String.eqb_spec k k0) as [->|N0]; [|reflexivity]. destruct (String.eqb_spec k0 k') as [E|_]; [congruence|reflexivity].
Qed.
Lemma get_set_all k e : forall d, (forall v, ~ In (k, v) e) -> get_key k (set_all e d) = get_key k d.
Proof.
  induction e as [|(k0, v0) e IH]; intros d H; [reflexivity|]. unfold set_all. cbn [fold_left fst snd]. fold (set_all e (set_key k0 v0 d)).
  rewrite IH by (intros v I; apply (H v); right; exact I). rewrite get_set. destruct (String.eqb_spec k k0) as [->|_]; [|reflexivity]. destruct (H v0). left. reflexivity.
Qed.
Lemma get_set_all_in k v e : forall d, NoDup (map fst e) -> In (k, v) e -> get_key k (set_all e d) = Some v.
Proof.
  induction e as [|(k0, v0) e IH]; intros d N I; [contradiction|]. cbn [map fst] in N. apply NoDup_cons_iff in N. destruct N as [N0 N].
  unfold set_all. cbn [fold_left fst snd]. fold (set_all e (set_key k0 v0 d)). destruct I as [E|I]; [|apply IH; assumption]. injection E as -> ->.
  rewrite get_set_all, get_set, String.eqb_refl; [reflexivity|]. intros w W. apply N0. apply (in_map fst) in W. exact W.
Qed.

(** ** C150 *)
(** No act sets the directory by hand. *)
Definition leaves_temp (a : act) : Prop :=
  match a with
  | SetOwn k _ => k <> temp_key
  | Configure _ config => forall v, ~ In (temp_key, v) config
  | _ => True
  end.
(** Acts that call configure_dask. *)
Definition configures (a : act) : bool :=
  match a with Configure _ _ | StartLocal _ _ _ => true | StartDistributed _ w _ _ => negb (Nat.eqb w 0) | _ => false end.
(** The number of the object an act returns, if it returns. *)
Definition returns (a : act) : option nat :=
  match a with
  | Configure h _ => Some h
  | StartLocal h n link => if Nat.eqb n 0 then None else match find_port link with Some _ => Some h | None => None end
  | StartDistributed h w m link =>
      if Nat.eqb w 0 then None else match client_memory m, find_port link with Some _, Some _ => Some h | _, _ => None end
  | _ => None
  end.
Definition temp_exists (s : session) : Prop := exists d, get_key temp_key (s_settings s) = Some (Dir d) /\ In d (s_dirs s).

Lemma no_temp_default v : ~ In (temp_key, v) default_settings.
Proof. intro H. cbn in H. repeat (destruct H as [H|H]; [discriminate|]). exact H. Qed.
Lemma configured_temp config s : (forall v, ~ In (temp_key, v) config) -> get_key temp_key (s_settings (fst (configure_dask config s))) = Some (Dir (s_next s)).
Proof. intro H. cbn [configure_dask fst s_settings]. rewrite get_set_all by exact H. rewrite get_set_all by apply no_temp_default. rewrite get_set, String.eqb_refl. reflexivity. Qed.

(** Existing directories are exactly those of living objects, and all are older than
    the next. *)
Definition sane (s : session) : Prop :=
  (forall d, In d (s_dirs s) <-> In d (map snd (s_holders s))) /\ (forall h d, In (h, d) (s_holders s) -> d < s_next s) /\
  (forall h h' d, In (h, d) (s_holders s) -> In (h', d) (s_holders s) -> h = h').
Lemma in_remove d x s : In x (s_dirs (remove_dir d s)) <-> In x (s_dirs s) /\ x <> d.
Proof. cbn. rewrite filter_In, negb_true_iff, Nat.eqb_neq. reflexivity. Qed.
Lemma in_remove_all l : forall s x, In x (s_dirs (fold_left (fun s d => remove_dir d s) l s)) <-> In x (s_dirs s) /\ ~ In x l.
Proof.
  induction l as [|d l IH]; intros s x; cbn [fold_left]; [cbn; tauto|]. rewrite IH, in_remove. cbn [In]. split; intros (A & B); [|split; [split|]]; try tauto.
  - split; [tauto|]. intros [->|I]; tauto.
  - intro E. apply B. left. congruence.
Qed.
Lemma remove_all_rest l : forall s, s_settings (fold_left (fun s d => remove_dir d s) l s) = s_settings s /\ s_next (fold_left (fun s d => remove_dir d s) l s) = s_next s /\
  s_holders (fold_left (fun s d => remove_dir d s) l s) = s_holders s.
Proof. induction l as [|d l IH]; intro s; [split; [|split]; reflexivity|]. cbn [fold_left]. destruct (IH (remove_dir d s)) as (A & B & C). rewrite A, B, C. split; [|split]; reflexivity. Qed.

Lemma sane_new config h s : sane s -> sane (hold h (s_next s) (fst (configure_dask config s))).
Proof.
  intros (A & B & C). split; [|split]; cbn [hold configure_dask fst s_dirs s_holders s_next map snd In].
  - intro d. rewrite A. reflexivity.
  - intros h' d [E|I]; [injection E as <- <-; lia|]. assert (X := B h' d I). lia.
  - intros h1 h2 d [E1|I1] [E2|I2]; [congruence| | |apply (C h1 h2 d); assumption].
    + injection E1 as <- <-. assert (X := B h2 (s_next s) I2). lia.
    + injection E2 as <- <-. assert (X := B h1 (s_next s) I1). lia.
Qed.
Lemma sane_lost config s : sane s -> sane (remove_dir (s_next s) (fst (configure_dask config s))).
Proof.
  intros (A & B & C). split; [|split].
  - intro d. rewrite in_remove. cbn [configure_dask fst s_dirs remove_dir s_holders In]. rewrite A. split.
    + intros ([<-|I] & N); [congruence|exact I].
    + intro I. split; [right; exact I|]. apply in_map_iff in I. destruct I as ((h, d') & <- & I). cbn [snd]. assert (X := B h d' I). lia.
  - cbn [configure_dask fst remove_dir s_holders s_next]. intros h d I. assert (X := B h d I). lia.
  - exact C.
Qed.
Lemma sane_token s : sane s -> sane (set_token s).
Proof. intro H. exact H. Qed.
Lemma sane_step s a : sane s -> sane (act_step s a).
Proof.
  intro H. destruct a as [h config|h n link|h w m link|h|k v]; cbn [act_step].
  - apply (sane_new config h s H).
  - destruct (Nat.eqb n 0); [apply (sane_lost [] s H)|]. unfold started. destruct (find_port link); [apply (sane_new [] h s H)|apply (sane_lost [] s H)].
  - destruct (Nat.eqb w 0); [exact H|]. cbn [configure_dask]. destruct (client_memory m); [|apply (sane_lost [] s H)]. unfold started. destruct (find_port link); [apply (sane_new [] h s H)|apply (sane_lost [] s H)].
  - destruct H as (A & B & C). set (gone := map snd (filter (fun p => Nat.eqb (fst p) h) (s_holders s))). set (s1 := mkSession _ _ _ _).
    destruct (remove_all_rest gone s1) as (_ & E2 & E3). split; [|split].
    + intro d. rewrite in_remove_all, E3. cbn [s1 s_dirs s_holders]. rewrite A. unfold gone. rewrite !in_map_iff. split.
      * intros (((h0, d0) & <- & I) & N). exists (h0, d0). split; [reflexivity|]. apply filter_In. split; [exact I|]. cbn [fst]. apply negb_true_iff, Nat.eqb_neq. intros ->. apply N. exists (h, d0). split; [reflexivity|]. apply filter_In. split; [exact I|apply Nat.eqb_refl].
      * intros ((h0, d0) & <- & I). apply filter_In in I. destruct I as [I N]. cbn [fst] in N. apply negb_true_iff, Nat.eqb_neq in N. split; [exists (h0, d0); split; [reflexivity|exact I]|].
        intros ((h1, d1) & E & I1). cbn [snd] in E. subst d1. apply filter_In in I1. destruct I1 as [I1 N1]. cbn [fst] in N1. apply Nat.eqb_eq in N1. subst h1. apply N. exact (C _ _ _ I I1).
    + rewrite E2, E3. cbn [s1 s_holders s_next]. intros h0 d0 I. apply filter_In in I. apply (B h0 d0). tauto.
    + rewrite E3. cbn [s1 s_holders]. intros h1 h2 d I1 I2. apply filter_In in I1, I2. apply (C h1 h2 d); tauto.
  - exact H.
Qed.
Lemma sane_after acts : sane (session_after acts).
Proof.
  unfold session_after. assert (G : forall l s, sane s -> sane (fold_left act_step l s)) by (induction l as [|a l IH]; intros s H; [exact H|apply IH, sane_step, H]).
  apply G. split; [|split]; cbn; [tauto|tauto|tauto].
Qed.
Lemma step_temp s a : leaves_temp a -> configures a = false -> get_key temp_key (s_settings (act_step s a)) = get_key temp_key (s_settings s).
Proof.
  intros L F. destruct a as [h config|h n link|h w m link|h|k v]; cbn [configures] in F; try discriminate; cbn [act_step].
  - apply negb_false_iff in F. rewrite F. reflexivity.
  - destruct (remove_all_rest (map snd (filter (fun p => Nat.eqb (fst p) h) (s_holders s))) (mkSession (s_settings s) (s_next s) (s_dirs s) (filter (fun p => negb (Nat.eqb (fst p) h)) (s_holders s)))) as (E & _). rewrite E. reflexivity.
  - cbn [s_settings leaves_temp] in *. rewrite get_set. destruct (String.eqb_spec temp_key k) as [E|_]; [congruence|reflexivity].
Qed.
Lemma step_keeps_holder s a h d : In (h, d) (s_holders s) -> configures a = false -> (forall h', a = Drop h' -> h' <> h) -> In (h, d) (s_holders (act_step s a)).
Proof.
  intros I F N. destruct a as [h0 config|h0 n link|h0 w m link|h0|k v]; cbn [configures] in F; try discriminate; cbn [act_step].
  - apply negb_false_iff in F. rewrite F. exact I.
  - destruct (remove_all_rest (map snd (filter (fun p => Nat.eqb (fst p) h0) (s_holders s))) (mkSession (s_settings s) (s_next s) (s_dirs s) (filter (fun p => negb (Nat.eqb (fst p) h0)) (s_holders s)))) as (_ & _ & E). rewrite E. cbn [s_holders].
    apply filter_In. split; [exact I|]. cbn [fst]. apply negb_true_iff, Nat.eqb_neq. assert (X := N h0 eq_refl). congruence.
  - exact I.
Qed.

(** Dask's temporary directory exists as long as what the last call that configured
    Dask returned is kept. *)
Theorem C150_directory_exists_partial (before after : list act) (a : act) (h : nat) :
  returns a = Some h -> Forall leaves_temp (a :: after) -> Forall (fun x => configures x = false) after -> ~ In (Drop h) after ->
  temp_exists (session_after (before ++ a :: after)).
Proof.
  intros R L F N. unfold session_after. rewrite fold_left_app. cbn [fold_left]. set (s := fold_left act_step before fresh_session).
  assert (Sn : sane s) by apply sane_after. inversion L as [|? ? La Lafter]. subst.
  assert (T : In (h, s_next s) (s_holders (act_step s a)) /\ get_key temp_key (s_settings (act_step s a)) = Some (Dir (s_next s)) /\ sane (act_step s a)).
  { split; [|split; [|apply sane_step; exact Sn]].
    - destruct a as [h0 config|h0 n link|h0 w m link|h0|k v]; cbn [returns act_step] in *; try discriminate.
      + injection R as ->. left. reflexivity.
      + destruct (Nat.eqb n 0); [discriminate|]. unfold started. cbn [configure_dask]. destruct (find_port link); [|discriminate]. injection R as ->. left. reflexivity.
      + destruct (Nat.eqb w 0); [discriminate|]. cbn [configure_dask]. destruct (client_memory m); [|discriminate]. unfold started. destruct (find_port link); [|discriminate]. injection R as ->. left. reflexivity.
    - assert (Tk : forall s0, get_key temp_key (s_settings (set_token s0)) = get_key temp_key (s_settings s0)) by (intro s0; cbn [set_token s_settings]; rewrite get_set; reflexivity).
      assert (C0 : get_key temp_key (s_settings (fst (configure_dask [] s))) = Some (Dir (s_next s))) by (apply configured_temp; intros v []).
      destruct a as [h0 config|h0 n link|h0 w m link|h0|k v]; cbn [returns act_step leaves_temp] in *; try discriminate.
      + exact (configured_temp config s La).
      + destruct (Nat.eqb n 0); [discriminate|]. unfold started. destruct (find_port link); [|discriminate]. cbn [configure_dask fst] in C0 |- *. cbn [hold s_settings]. rewrite Tk. exact C0.
      + destruct (Nat.eqb w 0); [discriminate|]. cbn [configure_dask fst] in C0 |- *. destruct (client_memory m); [|discriminate]. unfold started. destruct (find_port link); [|discriminate]. cbn [hold s_settings]. rewrite Tk. exact C0. }
  destruct T as (T1 & T2 & T3). clear L La R Sn. revert T1 T2 T3. generalize (s_next s) as d. generalize (act_step s a) as s1. clear s a before. intros s1 d. revert s1.
  induction after as [|b after IH]; intros s1 T1 T2 T3; cbn [fold_left].
  - exists d. split; [exact T2|]. destruct T3 as (A & _). apply A, in_map_iff. exists (h, d). split; [reflexivity|exact T1].
  - inversion Lafter as [|? ? Lb Lr]. inversion F as [|? ? Fb Fr]. subst. apply IH; try assumption.
    + intro I. apply N. right. exact I.
    + apply step_keeps_holder; [exact T1|exact Fb|]. intros h' -> E. apply N. left. congruence.
    + rewrite step_temp; assumption.
    + apply sane_step. exact T3.
Qed.
Print Assumptions C150_directory_exists_partial.

(** Refuted in general: after any session, a refused start (for example with the
    node_memory of the documentation) leaves Dask with a directory that no longer
    exists, whatever clusters are running. *)
Theorem C150_refused_starts_refuted (before : list act) (h w m : nat) (link : string) :
  (w <> 0 -> client_memory m = None -> ~ temp_exists (session_after (before ++ [StartDistributed h w m link]))) /\
  ~ temp_exists (session_after (before ++ [StartLocal h 0 link])).
Proof.
  assert (G : forall s, sane s -> forall s', get_key temp_key (s_settings s') = Some (Dir (s_next s)) -> s_dirs s' = s_dirs (remove_dir (s_next s) (fst (configure_dask [] s))) -> ~ temp_exists s').
  { intros s Sn s' K D (d & E & I). rewrite K in E. injection E as <-. rewrite D in I. apply in_remove in I. tauto. }
  assert (C0 : forall s, get_key temp_key (s_settings (fst (configure_dask [] s))) = Some (Dir (s_next s))) by (intro s; apply configured_temp; intros v []).
  unfold session_after. rewrite !fold_left_app. cbn [fold_left]. set (s := fold_left act_step before fresh_session). assert (Sn : sane s) by apply sane_after. split.
  - intros W M. apply (G s Sn); cbn [act_step]; destruct (Nat.eqb_spec w 0) as [?|_]; try contradiction; cbn [configure_dask]; rewrite M; [exact (C0 s)|reflexivity].
  - apply (G s Sn); [exact (C0 s)|reflexivity].
Qed.
Print Assumptions C150_refused_starts_refuted.
(** Closing the newer of two clusters does the same to the older one. *)
Theorem C150_closed_newer_cluster_refuted : exists acts h d, In (h, d) (s_holders (session_after acts)) /\ ~ temp_exists (session_after acts).
Proof.
  exists [StartLocal 1 4 "http://127.0.0.1:8787/status"; StartLocal 2 4 "http://127.0.0.1:8788/status"; Drop 2], 1, 0. split; [vm_compute; left; reflexivity|].
  intros (d & E & I). vm_compute in E. injection E as <-. vm_compute in I. destruct I as [I|[]]. discriminate.
Qed.
Print Assumptions C150_closed_newer_cluster_refuted.
Example C150_case : temp_exists (session_after [StartLocal 1 4 "http://127.0.0.1:8787/status"; SetOwn "array.chunk-size" "1MiB"; Drop 7]).
Proof. exists 0. split; [vm_compute; reflexivity|left; reflexivity]. Qed.

(** ** C151 *)
(** The settings Dask has: the user's last word on every key marEx does not set,
    until the next configuration also on the others. *)
Lemma own_other s a k : (forall k' v, a = SetOwn k' v -> k' <> k) -> k <> temp_key -> k <> token_key -> (forall v, ~ In (k, v) default_settings) ->
  (forall h config, a = Configure h config -> forall v, ~ In (k, v) config) ->
  get_key k (s_settings (act_step s a)) = get_key k (s_settings s).
Proof.
  intros Ho Nt Nk Nd Nc.
  assert (Cf : forall config, (forall v, ~ In (k, v) config) -> get_key k (s_settings (fst (configure_dask config s))) = get_key k (s_settings s)).
  { intros config H. cbn [configure_dask fst s_settings]. rewrite get_set_all by exact H. rewrite get_set_all by exact Nd. rewrite get_set. destruct (String.eqb_spec k temp_key) as [E|_]; [contradiction|reflexivity]. }
  assert (St : forall h d link s0, get_key k (s_settings (started h d link s0)) = get_key k (s_settings s0)).
  { intros h d link s0. unfold started. destruct (find_port link); cbn [hold remove_dir set_token s_settings]; rewrite get_set; (destruct (String.eqb_spec k token_key) as [E|_]; [contradiction|reflexivity]). }
  assert (C0 := Cf [] ltac:(intros v [])).
  destruct a as [h config|h n link|h w m link|h|k' v]; cbn [act_step].
  - exact (Cf config (Nc h config eq_refl)).
  - destruct (Nat.eqb n 0); [exact C0|]. cbn [configure_dask fst] in C0 |- *. rewrite St. exact C0.
  - destruct (Nat.eqb w 0); [reflexivity|]. cbn [configure_dask fst] in C0 |- *. destruct (client_memory m); [rewrite St; exact C0|exact C0].
  - destruct (remove_all_rest (map snd (filter (fun p => Nat.eqb (fst p) h) (s_holders s))) (mkSession (s_settings s) (s_next s) (s_dirs s) (filter (fun p => negb (Nat.eqb (fst p) h)) (s_holders s)))) as (E & _). rewrite E. reflexivity.
  - cbn [s_settings]. rewrite get_set. destruct (String.eqb_spec k k') as [E|_]; [destruct (Ho k' v eq_refl); congruence|reflexivity].
Qed.
(** The keys configure_dask sets. *)
Definition set_by_marex : list string :=
  ["temporary-directory"; "array.slicing.split-large-chunks"; "array.chunk-size"; "distributed.worker.memory.target"; "distributed.worker.memory.spill"; "distributed.worker.memory.pause";
   "distributed.worker.memory.terminate"; "distributed.worker.memory.recent-to-old-time"; "distributed.worker.daemon"; "distributed.scheduler.allowed-failures"; "distributed.scheduler.work-stealing";
   "distributed.scheduler.worker-ttl"; "distributed.comm.timeouts.connect"; "distributed.comm.timeouts.tcp"; "distributed.comm.retry.count"; "distributed.comm.retry.delay.min";
   "distributed.comm.retry.delay.max"; "distributed.admin.log-format"].
Lemma defaults_listed k w : In (k, w) default_settings -> In k set_by_marex.
Proof. intro I. unfold default_settings in I. cbn [In] in I. repeat (destruct I as [I|I]; [injection I as <- _; cbn; tauto|]). destruct I. Qed.
Lemma listed_defaults k : In k set_by_marex -> k = temp_key \/ exists w, In (k, w) default_settings.
Proof. intro I. unfold set_by_marex in I. cbn [In] in I. destruct I as [<-|I]; [left; reflexivity|right]. repeat (destruct I as [<-|I]; [eexists; unfold default_settings; cbn [In]; tauto|]). destruct I. Qed.
Theorem C151_own_settings_kept_partial (before after : list act) (k v : string) :
  ~ In k set_by_marex -> k <> "distributed.scheduler.dashboard.bokeh-application.session-token-expiration" ->
  (forall k' v', In (SetOwn k' v') after -> k' <> k) -> (forall h config, In (Configure h config) after -> forall w, ~ In (k, w) config) ->
  get_key k (s_settings (session_after (before ++ SetOwn k v :: after))) = Some (Val v).
Proof.
  intros Nm Nk No Nc. assert (Nt : k <> temp_key) by (intros ->; apply Nm; left; reflexivity). assert (Nd : forall w, ~ In (k, w) default_settings) by (intros w I; exact (Nm (defaults_listed k w I))).
  unfold session_after. rewrite fold_left_app. cbn [fold_left].
  assert (E : get_key k (s_settings (act_step (fold_left act_step before fresh_session) (SetOwn k v))) = Some (Val v)) by (cbn [act_step s_settings]; rewrite get_set, String.eqb_refl; reflexivity).
  revert E. generalize (act_step (fold_left act_step before fresh_session) (SetOwn k v)) as s. induction after as [|a after IH]; intros s E; [exact E|]. cbn [fold_left]. apply IH.
  - intros k' v' I. apply (No k' v'). right. exact I.
  - intros h config I. apply (Nc h config). right. exact I.
  - rewrite own_other; [exact E| |exact Nt|exact Nk|exact Nd|].
    + intros k' v' ->. apply (No k' v'). left. reflexivity.
    + intros h config ->. apply (Nc h config). left. reflexivity.
Qed.
Print Assumptions C151_own_settings_kept_partial.
(** Starting any cluster replaces the user's choice for every default key, and there
    is no argument to prevent it; configure_dask's own argument wins. *)
Theorem C151_own_settings_replaced_refuted (before : list act) (k : string) (h n : nat) (link : string) (config : settings_map) :
  In k set_by_marex -> k <> "temporary-directory" -> exists w, (forall v',
  get_key k (s_settings (session_after (before ++ [SetOwn k v'; StartLocal h n link]))) = Some w) /\
  (NoDup (map fst config) -> forall u, In (k, u) config -> get_key k (s_settings (session_after (before ++ [Configure h config]))) = Some u).
Proof.
  intros I0 I1. destruct (listed_defaults k I0) as [E|[w I]]; [contradiction|]. exists w. assert (Nd : NoDup (map fst default_settings)).
  { cbn [map fst default_settings]. repeat (constructor; [cbn [In]; intro H; repeat (destruct H as [H|H]; [discriminate|]); exact H|]). constructor. }
  assert (Nt : k <> temp_key) by (intros ->; exact (no_temp_default w I)).
  assert (Nk : k <> token_key) by (intros ->; cbn in I; repeat (destruct I as [I|I]; [discriminate|]); exact I).
  split.
  - intro v'. unfold session_after. rewrite fold_left_app. cbn [fold_left]. set (s := act_step _ (SetOwn k v')).
    assert (C0 : get_key k (s_settings (fst (configure_dask [] s))) = Some w) by (cbn [configure_dask fst s_settings]; exact (get_set_all_in k w default_settings _ Nd I)).
    cbn [act_step]. cbn [configure_dask fst] in C0 |- *. destruct (Nat.eqb n 0); [exact C0|]. unfold started. destruct (find_port link); cbn [hold remove_dir set_token s_settings] in *; rewrite get_set; (destruct (String.eqb_spec k token_key) as [E|_]; [contradiction|exact C0]).
  - intros Nc u Iu. unfold session_after. rewrite fold_left_app. cbn [fold_left act_step configure_dask hold s_settings]. apply get_set_all_in; assumption.
Qed.
Print Assumptions C151_own_settings_replaced_refuted.
Example C151_case : get_key "array.chunk-size" (s_settings (session_after [SetOwn "array.chunk-size" "1MiB"; StartLocal 1 4 ":1/"])) = Some (Val "24MiB") /\
  get_key "optimization.fuse.active" (s_settings (session_after [SetOwn "optimization.fuse.active" "True"; StartLocal 1 4 ":1/"])) = Some (Val "True").
Proof. split; vm_compute; reflexivity. Qed.

(** ** C152 *)
Fixpoint all_chars (p : ascii -> bool) (s : string) : bool := match s with EmptyString => true | String c r => p c && all_chars p r end.
Definition not_slash (c : ascii) : bool := negb (Ascii.eqb c "/"%char).
Lemma digits_slash p r : all_chars is_digit p = true -> digits_then_slash (p ++ String "/"%char r)%string = Some p.
Proof.
  induction p as [|c p IH]; intro H; [reflexivity|]. cbn [all_chars] in H. apply andb_true_iff in H. destruct H as [D H]. cbn [append digits_then_slash]. rewrite D, (IH H). reflexivity.
Qed.
Lemma digits_no_slash a b : all_chars not_slash a = true -> (exists c r, b = String c r /\ is_digit c = false /\ Ascii.eqb c "/"%char = false) -> digits_then_slash (a ++ b)%string = None.
Proof.
  intros H (c & r & -> & D & E). induction a as [|x a IH]; cbn [append digits_then_slash]; [rewrite D, E; reflexivity|]. cbn [all_chars] in H. apply andb_true_iff in H. destruct H as [N H].
  apply negb_true_iff in N. rewrite N, (IH H). destruct (is_digit x); reflexivity.
Qed.
Lemma find_port_host host port rest : all_chars not_slash host = true -> all_chars is_digit port = true -> port <> "" ->
  find_port (host ++ String ":"%char (port ++ String "/"%char rest))%string = Some port.
Proof.
  intros H D N. induction host as [|c host IH].
  - cbn [append find_port]. change (Ascii.eqb ":" ":") with true. cbv iota. rewrite (digits_slash port rest D). destruct port; [contradiction|reflexivity].
  - cbn [all_chars] in H. apply andb_true_iff in H. destruct H as [_ H]. cbn [append find_port]. destruct (Ascii.eqb c ":"); [|exact (IH H)].
    rewrite (digits_no_slash host (String ":"%char (port ++ String "/"%char rest)) H); [exact (IH H)|]. exists ":"%char, (port ++ String "/"%char rest)%string. split; [reflexivity|]. split; reflexivity.
Qed.

(** The ten digits. *)
Definition digit (c : ascii) : bool := existsb (Ascii.eqb c) ["0"; "1"; "2"; "3"; "4"; "5"; "6"; "7"; "8"; "9"]%char.
Lemma digit_is c : digit c = true -> is_digit c = true.
Proof. intro D. unfold digit in D. apply existsb_exists in D. destruct D as (d & I & E). apply Ascii.eqb_eq in E. subst d. cbn [In] in I. repeat (destruct I as [<-|I]; [reflexivity|]). destruct I. Qed.
(** For every dashboard at scheme://host:port/path: the port, and a local link with it. *)
Theorem C152_connection_partial (hostname scheme host port rest : string) :
  all_chars (fun c => not_slash c && negb (Ascii.eqb c ":"%char)) scheme = true -> all_chars not_slash host = true -> all_chars digit port = true -> port <> "" ->
  exists short, cluster_info hostname (scheme ++ "://" ++ host ++ String ":"%char (port ++ String "/"%char rest))%string = Some (short, port, ("localhost:" ++ port ++ "/status")%string) /\
    all_chars (fun c => negb (Ascii.eqb c "."%char)) short = true /\ exists domain, hostname = (short ++ domain)%string.
Proof.
  intros Sc H D0 N. assert (D : all_chars is_digit port = true).
  { clear - D0. induction port as [|c p IH]; [reflexivity|]. cbn [all_chars] in *. apply andb_true_iff in D0. destruct D0 as [A B]. rewrite (digit_is c A), (IH B). reflexivity. }
  assert (F : find_port (scheme ++ "://" ++ host ++ String ":"%char (port ++ String "/"%char rest))%string = Some port).
  { induction scheme as [|c scheme IH].
    - cbn [append find_port]. change (Ascii.eqb ":" ":") with true. change (Ascii.eqb "/" ":") with false. cbn [digits_then_slash]. change (is_digit "/") with false. change (Ascii.eqb "/" "/") with true. cbv iota. apply find_port_host; assumption.
    - cbn [all_chars] in Sc. apply andb_true_iff in Sc. destruct Sc as [C Sc]. apply andb_true_iff in C. destruct C as [_ C]. apply negb_true_iff in C. cbn [append find_port]. rewrite C. exact (IH Sc). }
  unfold cluster_info. rewrite F. exists (before_dot hostname). split; [reflexivity|]. clear. induction hostname as [|c r IH]; [split; [reflexivity|exists ""; reflexivity]|].
  cbn [before_dot]. destruct (Ascii.eqb c ".") eqn:E; [split; [reflexivity|exists (String c r); reflexivity]|]. destruct IH as (A & dom & B). cbn [all_chars]. rewrite E, A. split; [reflexivity|]. exists dom. cbn [append]. f_equal. exact B.
Qed.
Print Assumptions C152_connection_partial.
(** Links without a port, as behind a proxy, raise after the cluster has been started. *)
Theorem C152_no_port_refuted (link : string) (hostname : string) : all_chars (fun c => negb (Ascii.eqb c ":"%char)) link = true -> cluster_info hostname link = None.
Proof.
  intro H. unfold cluster_info. assert (F : find_port link = None); [|rewrite F; reflexivity]. induction link as [|c r IH]; [reflexivity|]. cbn [all_chars] in H. apply andb_true_iff in H. destruct H as [C H]. apply negb_true_iff in C. cbn [find_port]. rewrite C. exact (IH H).
Qed.
Print Assumptions C152_no_port_refuted.
Example C152_case : cluster_info "levante1.dkrz.de" "http://[::1]:8787/status" = Some ("levante1", "8787", "localhost:8787/status") /\ cluster_info "hub" "/user/me/proxy/8787/status" = None.
Proof. split; reflexivity. Qed.
