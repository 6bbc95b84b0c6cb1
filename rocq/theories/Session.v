(** Model of the Dask settings and temporary directories over a session:
    configure_dask (helper.py:90-138), get_cluster_info (212-229), and the order of
    steps in start_local_cluster (351-411) and start_distributed_cluster (555-638).

    dask.config is a dictionary; keys are compared with hyphens and underscores
    identified, so every key is written with hyphens here.  A TemporaryDirectory is
    deleted when its object is collected: when the client that holds it goes, or, if the
    start fails before there is a client, once the exception has been handled. *)
From Coq Require Import String Ascii.
From Verif Require Import Base Errors Support.
Open Scope string_scope.
Open Scope list_scope.
Open Scope nat_scope.

(** get_cluster_info: the first ":digits/" of the dashboard link; None = ValueError (helper.py:215). *)
Definition is_digit (c : ascii) : bool := let n := nat_of_ascii c in Nat.leb 48 n && Nat.leb n 57.
(** helper.py:215. *)
Fixpoint digits_then_slash (s : string) : option string :=
  match s with
  | EmptyString => None
  | String c r => if is_digit c then option_map (String c) (digits_then_slash r)
                  else if Ascii.eqb c "/"%char then Some "" else None
  end.
(** helper.py:215-218. *)
Fixpoint find_port (s : string) : option string :=
  match s with
  | EmptyString => None
  | String c r =>
      if Ascii.eqb c ":"%char then
        match digits_then_slash r with Some (String x y) => Some (String x y) | _ => find_port r end
      else find_port r
  end.
(** The first word before a dot: hostname without domain (helper.py:214). *)
Fixpoint before_dot (s : string) : string := match s with EmptyString => "" | String c r => if Ascii.eqb c "."%char then "" else String c (before_dot r) end.
(** helper.py:213-229. *)
Definition cluster_info (hostname link : string) : option (string * string * string) :=
  match find_port link with Some p => Some (before_dot hostname, p, ("localhost:" ++ p ++ "/status")%string) | None => None end.

(** helper.py:44-69, 124. *)
Inductive setting := Dir (n : nat) | Val (text : string).
(** helper.py:44. *)
Definition settings_map := list (string * setting).
(** dask.config.set({k: v}), helper.py:124, 129. *)
Fixpoint set_key (k : string) (v : setting) (d : settings_map) : settings_map :=
  match d with
  | [] => [(k, v)]
  | (k', v') :: r => if String.eqb k k' then (k, v) :: r else (k', v') :: set_key k v r
  end.
(** dask.config.get, helper.py:686. *)
Fixpoint get_key (k : string) (d : settings_map) : option setting :=
  match d with [] => None | (k', v) :: r => if String.eqb k k' then Some v else get_key k r end.
(** helper.py:128-135. *)
Definition set_all (e : settings_map) (d : settings_map) : settings_map := fold_left (fun d kv => set_key (fst kv) (snd kv) d) e d.

(** DEFAULT_DASK_CONFIG, helper.py:45-69. *)
Definition default_settings : settings_map :=
  [("array.slicing.split-large-chunks", Val "False"); ("array.chunk-size", Val "24MiB");
   ("distributed.worker.memory.target", Val "0.4"); ("distributed.worker.memory.spill", Val "0.5");
   ("distributed.worker.memory.pause", Val "0.6"); ("distributed.worker.memory.terminate", Val "0.8");
   ("distributed.worker.memory.recent-to-old-time", Val "10s"); ("distributed.worker.daemon", Val "False");
   ("distributed.scheduler.allowed-failures", Val "50"); ("distributed.scheduler.work-stealing", Val "False");
   ("distributed.scheduler.worker-ttl", Val "600s"); ("distributed.comm.timeouts.connect", Val "300s");
   ("distributed.comm.timeouts.tcp", Val "300s"); ("distributed.comm.retry.count", Val "15");
   ("distributed.comm.retry.delay.min", Val "3s"); ("distributed.comm.retry.delay.max", Val "30s");
   ("distributed.admin.log-format", Val "%(name)s - %(levelname)s - %(message)s")].
(** helper.py:124. *)
Definition temp_key : string := "temporary-directory".
(** helper.py:387, 597. *)
Definition token_key : string := "distributed.scheduler.dashboard.bokeh-application.session-token-expiration".

(** [next]: number of directories made; a new one gets a new name.  [dirs]: those that
    exist.  [holders]: living objects that keep a directory, by number (helper.py:120, 395, 633). *)
Record session := mkSession { s_settings : settings_map; s_next : nat; s_dirs : list nat; s_holders : list (nat * nat) }.
(** no settings and no directories, helper.py:44-69. *)
Definition fresh_session : session := mkSession [] 0 [] [].
(** configure_dask: the new directory and settings; the caller holds the object (helper.py:111-138). *)
Definition configure_dask (config : settings_map) (s : session) : session * nat :=
  let d := s_next s in
  let m := set_key temp_key (Dir d) (s_settings s) in
  let m := set_all default_settings m in
  (mkSession (set_all config m) (S d) (d :: s_dirs s) (s_holders s), d).
(** the finaliser of TemporaryDirectory, helper.py:120. *)
Definition remove_dir (d : nat) (s : session) : session :=
  mkSession (s_settings s) (s_next s) (filter (fun x => negb (Nat.eqb x d)) (s_dirs s)) (s_holders s).
(** client._temp_dir = temp_dir, helper.py:395, 633. *)
Definition hold (h d : nat) (s : session) : session := mkSession (s_settings s) (s_next s) (s_dirs s) ((h, d) :: s_holders s).
(** helper.py:387, 597. *)
Definition set_token (s : session) : session := mkSession (set_key token_key (Val "86400000") (s_settings s)) (s_next s) (s_dirs s) (s_holders s).

(** What a user does.  [h] numbers the object they get (helper.py:90-639). *)
Inductive act :=
| Configure (h : nat) (config : settings_map)                  (* configure_dask, keeping its result *)
| StartLocal (h : nat) (n_workers : nat) (link : string)       (* memory.total / n_workers, helper.py:379; [link]: its dashboard *)
| StartDistributed (h : nat) (workers_per_node node_memory : nat) (link : string)  (* n_workers // workers_per_node, helper.py:552; 570 *)
| Drop (h : nat)                                               (* client closed and forgotten *)
| SetOwn (k : string) (v : string).                            (* dask.config.set *)
(** start_local_cluster and start_distributed_cluster; without a port in the link
    get_cluster_info raises (helper.py:214-216); the client, which nobody has, is assumed to be
    collected with the exception. *)
Definition started (h d : nat) (link : string) (s : session) : session :=
  match find_port link with Some _ => hold h d (set_token s) | None => remove_dir d (set_token s) end.
(** helper.py:351-398, 552-636. *)
Definition act_step (s : session) (a : act) : session :=
  match a with
  | Configure h config => let (s', d) := configure_dask config s in hold h d s'
  | StartLocal h n link =>
      let (s', d) := configure_dask [] s in
      if Nat.eqb n 0 then remove_dir d s' else started h d link s'
  | StartDistributed h w m link =>
      if Nat.eqb w 0 then s
      else let (s', d) := configure_dask [] s in
           match client_memory m with None => remove_dir d s' | Some _ => started h d link s' end
  | Drop h =>
      let gone := map snd (filter (fun p => Nat.eqb (fst p) h) (s_holders s)) in
      fold_left (fun s d => remove_dir d s) gone (mkSession (s_settings s) (s_next s) (s_dirs s) (filter (fun p => negb (Nat.eqb (fst p) h)) (s_holders s)))
  | SetOwn k v => mkSession (set_key k (Val v) (s_settings s)) (s_next s) (s_dirs s) (s_holders s)
  end.
(** a sequence of calls, helper.py:90-639. *)
Definition session_after (acts : list act) : session := fold_left act_step acts fresh_session.
