(** Properties C62-C64, C67, C93 and C94: checkpoints of intermediates, logging modes,
    dependency checks and clusters. *)
From Coq Require Import String Ascii.
From Verif Require Import Base Errors ErrorsSpec ErrorsProps Support.
Open Scope string_scope.
Open Scope list_scope.
Open Scope nat_scope.

(** ** C62 *)
Lemma uniform_repeat c n r : 0 < c -> r < c -> uniform_rest c (repeat c n ++ (if Nat.ltb 0 r then [r] else [])) = true.
Proof.
  intros C R. induction n as [|n IH]; cbn [repeat app].
  - destruct (Nat.ltb 0 r); [cbn; apply Nat.leb_le; lia|reflexivity].
  - destruct (repeat c n ++ (if Nat.ltb 0 r then [r] else [])) as [|x l] eqn:E; [cbn; apply Nat.leb_le; lia|]. cbn [uniform_rest]. rewrite Nat.eqb_refl. exact IH.
Qed.
Lemma sum_repeat c n : fold_right Nat.add 0 (repeat c n) = n * c.
Proof. induction n as [|n IH]; [reflexivity|]. cbn. rewrite IH. lia. Qed.
Lemma fold_app a b : fold_right Nat.add 0 (a ++ b) = fold_right Nat.add 0 a + fold_right Nat.add 0 b.
Proof. induction a as [|x a IH]; [reflexivity|]. cbn. rewrite IH. lia. Qed.
(** The new chunks cover the whole axis and suit Zarr. *)
Theorem C62_regular_chunks : forall first rest, 0 < first ->
  fold_right Nat.add 0 (regular_chunks (first :: rest)) = fold_right Nat.add 0 (first :: rest) /\ zarr_accepts (regular_chunks (first :: rest)) = true /\
  forall c, In c (regular_chunks (first :: rest)) -> 0 < c /\ c <= first.
Proof.
  intros first rest F. set (total := fold_right Nat.add 0 (first :: rest)). assert (T : first <= total) by (unfold total; cbn; lia).
  assert (D := Nat.div_mod total first ltac:(lia)). assert (M := Nat.mod_upper_bound total first ltac:(lia)).
  assert (E : regular_chunks (first :: rest) = repeat first (total / first) ++ (if Nat.ltb 0 (total mod first) then [total mod first] else [])) by reflexivity.
  rewrite E. split; [|split].
  - rewrite fold_app, sum_repeat. destruct (Nat.ltb_spec 0 (total mod first)); cbn [fold_right]; generalize dependent (total mod first); generalize dependent (total / first); intros; nia.
  - assert (Q := Nat.div_str_pos total first (conj F T)). destruct (total / first) as [|n]; [lia|]. cbn [repeat app zarr_accepts]. apply uniform_repeat; assumption.
  - intros c I. apply in_app_or in I. destruct I as [I|I]; [apply repeat_spec in I; lia|]. destruct (Nat.ltb_spec 0 (total mod first)); [|destruct I]. destruct I as [<-|[]]. lia.
Qed.
Print Assumptions C62_regular_chunks.
Lemma all_equal_accepted chunks : all_equal chunks = true -> zarr_accepts chunks = true.
Proof.
  destruct chunks as [|c r]; [reflexivity|]. cbn. induction r as [|x r IH]; [reflexivity|]. cbn [forallb]. intro H. apply andb_true_iff in H. destruct H as (A & B). apply Nat.eqb_eq in A. subst x.
  destruct r as [|y r]; [cbn; apply Nat.leb_refl|]. cbn [uniform_rest]. rewrite Nat.eqb_refl. apply IH. exact B.
Qed.
(** Datasets, and DataArrays whose chunks Zarr accepts, come back unchanged whatever
    fails, as long as the store is kept: from disk, else from memory, else as given. *)
Theorem C62_transparent_partial : forall (A : Type) (data : A) k chunks w, (forall c, In c chunks -> 0 < c) -> (k = Dataset \/ zarr_accepts chunks = true) ->
  read_back data (checkpoint k chunks false w) = Some data /\
  (o_value (checkpoint k chunks false w) = Lazy <-> disk_fails w = false) /\
  (o_value (checkpoint k chunks false w) = Persisted <-> disk_fails w = true /\ persist_fails w = false).
Proof.
  intros A data k chunks w P H. assert (Z : zarr_accepts (normalised k chunks) = true).
  { destruct k; [destruct H as [H|H]; [discriminate|exact H]|]. cbn [normalised]. destruct (all_equal chunks) eqn:E; [rewrite andb_false_r; apply all_equal_accepted; exact E|].
    destruct (Nat.ltb_spec 1 (List.length chunks)) as [L|L]; cbn [andb negb].
    - destruct chunks as [|c r]; [cbn in L; lia|]. apply C62_regular_chunks. apply P. left. reflexivity.
    - destruct chunks as [|c [|c' r]]; [reflexivity|reflexivity|cbn in L; lia]. }
  unfold checkpoint. rewrite Z. cbn [negb]. destruct w as [[|] [|]]; cbn; intuition (try discriminate; try reflexivity).
Qed.
Print Assumptions C62_transparent_partial.
Example C62_case : regular_chunks [3; 2; 3; 4] = [3; 3; 3; 3] /\ regular_chunks [4; 2; 3] = [4; 4; 1] /\
  read_back 7 (checkpoint Dataset [4; 2; 3] false {| disk_fails := true; persist_fails := false |}) = Some 7.
Proof. repeat split. Qed.
(** A DataArray with irregular chunks is lost: the function returns None, whatever works. *)
Theorem C62_irregular_array_refuted : forall (A : Type) (data : A) chunks cleanup w, zarr_accepts chunks = false ->
  o_value (checkpoint DataArray chunks cleanup w) = NoneReturned /\ read_back data (checkpoint DataArray chunks cleanup w) = None.
Proof. intros A data chunks cleanup w H. unfold checkpoint. cbn [normalised]. rewrite H. split; reflexivity. Qed.
Print Assumptions C62_irregular_array_refuted.
Example C62_irregular_case : zarr_accepts [3; 2; 3] = false.
Proof. reflexivity. Qed.
(** With cleanup=True a successful write leaves a result that can no longer be read. *)
Theorem C62_cleanup_refuted : forall (A : Type) (data : A) k chunks w, zarr_accepts (normalised k chunks) = true -> disk_fails w = false ->
  read_back data (checkpoint k chunks true w) = None.
Proof. intros A data k chunks w H D. unfold checkpoint. rewrite H, D. reflexivity. Qed.
Print Assumptions C62_cleanup_refuted.

(** ** C63 *)
Definition requested (arg : option bool) (from_environment : bool) : Prop := arg = Some true \/ (arg = None /\ from_environment = true).
Lemma requested_iff arg d : requested arg d <-> or_env arg d = true.
Proof. destruct arg as [[|]|], d; unfold requested; cbn; intuition (try discriminate; auto). Qed.
Lemma run_last env h c : log_run env (h ++ [c]) = log_step env c (log_run env h).
Proof. unfold log_run. rewrite fold_left_app. reflexivity. Qed.
Theorem C63_mode : forall env h level log_file console_output verbose quiet,
  let s := log_run env (h ++ [Configure level log_file console_output verbose quiet]) in
  (l_mode s = Quiet <-> requested quiet (env_quiet env)) /\
  (l_mode s = Verbose <-> ~ requested quiet (env_quiet env) /\ requested verbose (env_verbose env)) /\
  (l_mode s = Normal <-> ~ requested quiet (env_quiet env) /\ ~ requested verbose (env_verbose env)).
Proof.
  intros env h level f co v q s. unfold s. rewrite run_last. cbn [log_step]. unfold configure_logging. rewrite !requested_iff.
  destruct (or_env q (env_quiet env)), (or_env v (env_verbose env)); cbn; intuition (try discriminate; auto).
Qed.
Print Assumptions C63_mode.
(** The level constants of the logging module, and a name written in any mixture of
    cases: character by character the same capital letter or its small one. *)
Definition standard_levels : list (string * Z) :=
  [("CRITICAL", 50%Z); ("FATAL", 50%Z); ("ERROR", 40%Z); ("WARNING", 30%Z); ("WARN", 30%Z); ("INFO", 20%Z); ("DEBUG", 10%Z); ("NOTSET", 0%Z)]%string.
Definition small_letters := list_ascii_of_string "abcdefghijklmnopqrstuvwxyz".
Definition capitals := list_ascii_of_string "ABCDEFGHIJKLMNOPQRSTUVWXYZ".
Fixpoint in_any_case (name capital : string) : Prop :=
  match name, capital with
  | EmptyString, EmptyString => True
  | String c r, String d s => (c = d \/ In (c, d) (combine small_letters capitals)) /\ in_any_case r s
  | _, _ => False
  end.
Lemma upper_capital c d : In d capitals -> c = d \/ In (c, d) (combine small_letters capitals) -> upper_char c = d.
Proof.
  intros I [->|J].
  - cbn in I. repeat (destruct I as [<-|I]; [reflexivity|]). destruct I.
  - cbn in J. repeat (destruct J as [J|J]; [injection J as <- <-; reflexivity|]). destruct J.
Qed.
Lemma upper_name name : forall u, in_any_case name u -> Forall (fun d => In d capitals) (list_ascii_of_string u) -> upper name = u.
Proof.
  induction name as [|c r IH]; intros [|d s]; cbn [in_any_case]; intros H F; try destruct H; [reflexivity|].
  cbn [list_ascii_of_string] in F. inversion F; subst. cbn. rewrite (upper_capital c d) by assumption. f_equal. exact (IH s H0 H4).
Qed.
Lemma standard_capitals u n : In (u, n) standard_levels -> Forall (fun d => In d capitals) (list_ascii_of_string u) /\ level_of_name u = n.
Proof.
  intro I. cbn in I. repeat (destruct I as [I|I]; [injection I as <- <-; split; [repeat (constructor; [cbn; tauto|]); constructor|reflexivity]|]). destruct I.
Qed.
(** An explicit level, as a number or a standard name in any case, is the level of the
    logger and of every handler, in every mode; without one the mode decides. *)
Theorem C63_level : forall env h level log_file console_output verbose quiet,
  let s := log_run env (h ++ [Configure level log_file console_output verbose quiet]) in
  (forall n, level = Some (LevelNumber n) -> l_level s = n) /\
  (forall name u n, level = Some (LevelName name) -> In (u, n) standard_levels -> in_any_case name u -> l_level s = n) /\
  (level = None -> (l_mode s = Quiet -> l_level s = 30%Z) /\ (l_mode s = Verbose -> l_level s = 10%Z)) /\
  console (l_handlers s) = (if console_output then Some (l_level s) else None) /\
  (forall f, log_file = Some f -> file (l_handlers s) = Some (f, l_level s)).
Proof.
  intros env h level f co v q s. unfold s. rewrite run_last. cbn [log_step]. unfold configure_logging.
  split; [|split; [|split; [|split]]].
  - intros n ->. destruct (or_env q (env_quiet env)), (or_env v (env_verbose env)); reflexivity.
  - intros name u n -> I A. destruct (standard_capitals u n I) as (Cu & Lu).
    assert (L : level_of_name (upper name) = n) by (rewrite (upper_name name u A Cu); exact Lu).
    destruct (or_env q (env_quiet env)), (or_env v (env_verbose env)); cbn; exact L.
  - intros ->. destruct (or_env q (env_quiet env)), (or_env v (env_verbose env)); cbn; split; intro; try discriminate; reflexivity.
  - destruct (or_env q (env_quiet env)), (or_env v (env_verbose env)), level as [[|]|], co; reflexivity.
  - intros g ->. destruct (or_env q (env_quiet env)), (or_env v (env_verbose env)), level as [[|]|]; reflexivity.
Qed.
Print Assumptions C63_level.
(** The setters decide the mode by themselves, whatever the environment and the
    calls before say. *)
Theorem C63_setters : forall env h b,
  (let s := log_run env (h ++ [SetQuiet b]) in l_mode s = (if b then Quiet else Normal) /\
     l_level s = (if b then 30%Z else level_of_name (env_level env)) /\ console (l_handlers s) = Some (l_level s)) /\
  (let s := log_run env (h ++ [SetVerbose b]) in l_mode s = (if b then Verbose else Normal) /\
     l_level s = (if b then 10%Z else level_of_name (env_level env)) /\ console (l_handlers s) = Some (l_level s)) /\
  (let s := log_run env (h ++ [SetNormal]) in l_mode s = Normal /\
     l_level s = level_of_name (env_level env) /\ console (l_handlers s) = Some (l_level s)).
Proof. intros env h b. rewrite !run_last. destruct b; cbn; repeat split. Qed.
Print Assumptions C63_setters.
Definition quiet_env := {| env_verbose := false; env_quiet := true; env_level := "INFO"; env_file := None |}.
Definition plain_env := {| env_verbose := false; env_quiet := false; env_level := "INFO"; env_file := None |}.
Example C63_case : l_mode (log_run quiet_env [SetNormal; Configure (Some (LevelName "error")) None true (Some true) None]) = Quiet /\
  l_level (log_run quiet_env [SetNormal; Configure (Some (LevelName "error")) None true (Some true) None]) = 40%Z /\
  l_mode (log_run quiet_env [Configure None None true (Some true) (Some false)]) = Verbose.
Proof. repeat split. Qed.

(** ** C93. A configured mode stays until the next configuration.  False for the first
    get_logger("marEx"), which reconfigures from the environment. *)
Theorem C93_first_get_logger_refuted : forall env level f co, env_quiet env = false -> env_verbose env = false ->
  l_mode (log_run env [Configure level f co None (Some true)]) = Quiet /\
  l_mode (log_run env [Configure level f co None (Some true); GetLogger "marEx"]) = Normal /\
  console (l_handlers (log_run env [Configure level f co None (Some true); GetLogger "marEx"])) <> None.
Proof.
  intros env level f co Q V. unfold log_run. cbn [fold_left log_step]. unfold configure_logging at 1 3 5. cbn [or_env]. cbn [andb].
  destruct (env_verbose env) eqn:E; [discriminate|]. cbn. unfold configure_logging. cbn. rewrite Q, E. cbn. repeat split; discriminate.
Qed.
Print Assumptions C93_first_get_logger_refuted.
Theorem C93_later_get_logger_partial : forall env h h', In (GetLogger "marEx") h -> (forall c, In c h' -> exists name, c = GetLogger name) ->
  log_run env (h ++ h') = log_run env h.
Proof.
  intros env h h' I G. unfold log_run. rewrite fold_left_app.
  assert (K : forall l s, l_configured s = true -> l_configured (fold_left (fun s c => log_step env c s) l s) = true).
  { induction l as [|c l IH]; intros s C; [exact C|]. cbn [fold_left]. apply IH. destruct c as [a1 a2 a3 a4 a5|b|b| |name]; cbn [log_step];
      [| | | |rewrite C; exact C]; unfold configure_logging;
      repeat match goal with |- context [or_env ?x ?y] => destruct (or_env x y) end; exact C. }
  assert (C : l_configured (fold_left (fun s c => log_step env c s) h logging_start) = true).
  { generalize logging_start. induction h as [|c h IH]; intro s; [destruct I|]. cbn [fold_left]. destruct I as [->|I]; [|apply IH; exact I].
    apply K. cbn [log_step]. destruct (l_configured s) eqn:E; cbn; [exact E|reflexivity]. }
  generalize dependent (fold_left (fun s c => log_step env c s) h logging_start). intros s C. induction h' as [|c h' IH]; [reflexivity|]. cbn [fold_left].
  destruct (G c (or_introl eq_refl)) as (name & ->). cbn [log_step]. rewrite C. cbn [negb andb]. apply IH. intros c' I'. apply G. right. exact I'.
Qed.
Print Assumptions C93_later_get_logger_partial.
Example C93_case : l_mode (log_run plain_env [GetLogger "marEx"; SetQuiet true; GetLogger "marEx"; GetLogger "marEx.track"]) = Quiet.
Proof. reflexivity. Qed.

(** ** C64 *)
(** Relative to the table: an ImportError exactly when something is unavailable, and
    the text names every missing package. *)
Theorem C64_missing_are_named_partial : forall table deps feature,
  (require_dependencies table deps feature = None <-> forall d, In d deps -> has_dependency table d = true) /\
  (forall text, require_dependencies table deps feature = Some text ->
     in_order (feature :: filter (fun d => negb (has_dependency table d)) deps) text).
Proof.
  intros table deps feature. unfold require_dependencies. split.
  - split.
    + intros H d I. destruct (has_dependency table d) eqn:E; [reflexivity|]. assert (F : In d (filter (fun d => negb (has_dependency table d)) deps)) by (apply filter_In; rewrite E; auto).
      destruct (filter _ deps) as [|a [|b l]]; [destruct F|discriminate|discriminate].
    + intro H. assert (F : filter (fun d => negb (has_dependency table d)) deps = []); [|rewrite F; reflexivity].
      induction deps as [|d l IH]; [reflexivity|]. cbn. rewrite (H d (or_introl eq_refl)). cbn. apply IH. intros e I. apply H. right. exact I.
  - intros text. destruct (filter (fun d => negb (has_dependency table d)) deps) as [|a [|b l]]; intro H; [discriminate| |]; injection H as <-.
    + exists "", (" requires " ++ a ++ ". " ++ "Install with: " ++ install_command a)%string. split; [reflexivity|]. apply (in_order_left _ " requires "). eexists "", _. split; [reflexivity|exact I].
    + exists "". eexists. split; [reflexivity|]. apply (in_order_left _ " requires the following dependencies: "). rewrite <- (app_nil_r (a :: b :: l)). apply in_order_app; [|exact I].
      change (in_order (a :: b :: l) (join ", " (a :: b :: l))). generalize (a :: b :: l). intro m.
      assert (J : in_order (concat (map (fun x => [x]) m)) (join ", " m)).
      { apply in_order_join. induction m as [|x m IH]; constructor; [apply in_order_one|exact IH]. }
      replace (concat (map (fun x => [x]) m)) with m in J; [exact J|]. clear. induction m as [|x m IH]; [reflexivity|]. cbn. rewrite <- IH. reflexivity.
Qed.
Print Assumptions C64_missing_are_named_partial.
Example C64_case : require_dependencies [("jax", true); ("pillow", false)] ["jax"; "pillow"; "h5py"] "X" =
  Some "X requires the following dependencies: pillow, h5py. Install with: pip install marEx[full]".
Proof. reflexivity. Qed.
(** Relative to the table: the profile reported is the most comprehensive one whose
    packages are all available. *)
Theorem C64_profile_partial : forall table,
  let here d := has_dependency table d = true in
  let p := installation_profile table in
  (p = "full" <-> here "jax" /\ here "jaxlib" /\ here "dask_jobqueue" /\ here "seaborn" /\ here "cmocean") /\
  (p = "plotting" <-> here "seaborn" /\ here "cmocean" /\ ~ (here "jax" /\ here "jaxlib" /\ here "dask_jobqueue")) /\
  (p = "hpc" <-> here "dask_jobqueue" /\ here "psutil" /\ ~ (here "seaborn" /\ here "cmocean")) /\
  (p = "performance" <-> here "jax" /\ here "jaxlib" /\ ~ (here "seaborn" /\ here "cmocean") /\ ~ (here "dask_jobqueue" /\ here "psutil")) /\
  (p = "minimal" <-> ~ (here "seaborn" /\ here "cmocean") /\ ~ (here "dask_jobqueue" /\ here "psutil") /\ ~ (here "jax" /\ here "jaxlib")).
Proof.
  intros table here p. subst here p. unfold installation_profile, profile_table. cbn [find forallb snd fst].
  destruct (has_dependency table "jax"), (has_dependency table "jaxlib"), (has_dependency table "dask_jobqueue"),
    (has_dependency table "seaborn"), (has_dependency table "cmocean"), (has_dependency table "psutil"); cbn;
    (do 4 (split; [split; intro H; first [discriminate H|reflexivity|intuition discriminate]|]));
    split; intro H; first [discriminate H|reflexivity|intuition discriminate].
Qed.
Print Assumptions C64_profile_partial.
Example C64_profile_case : installation_profile [("jax", true); ("jaxlib", true); ("dask_jobqueue", true); ("psutil", false); ("seaborn", true)] = "performance".
Proof. reflexivity. Qed.
(** But the table never looks at the machine: on any installation all nine count as
    available, none is ever reported, and the SLURM cluster fails on None instead. *)
Definition optional_packages : list string := ["jax"; "jaxlib"; "dask_jobqueue"; "psutil"; "matplotlib"; "cartopy"; "seaborn"; "cmocean"; "pillow"].
Theorem C64_never_reported_refuted : forall installed deps feature, (forall d, In d deps -> In d optional_packages) ->
  require_dependencies (check_all installed) deps feature = None /\ installation_profile (check_all installed) = "full".
Proof.
  intros installed deps feature H. split; [|reflexivity]. apply C64_missing_are_named_partial. intros d I. specialize (H d I). cbn in H.
  repeat (destruct H as [<-|H]; [reflexivity|]). destruct H.
Qed.
Print Assumptions C64_never_reported_refuted.
Theorem C64_slurm_refuted : forall installed n w runtime memory, w <> 0 -> client_memory memory <> None ->
  start_distributed (check_all installed) false n w runtime memory = Err NotCallable.
Proof.
  intros installed n w runtime memory W M. unfold start_distributed. destruct (Nat.eqb_spec w 0); [congruence|].
  change (require_dependencies (check_all installed) ["dask_jobqueue"] "SLURM cluster functionality") with (@None string). destruct (client_memory memory); [reflexivity|congruence].
Qed.
Print Assumptions C64_slurm_refuted.

(** ** C67. Whatever is requested is started: the reduction at 372 is dead code. *)
Theorem C67_oversubscribes_refuted : forall physical logical n threads, physical <= logical -> 0 < n ->
  local_workers physical logical n threads = Some n.
Proof.
  intros physical logical n threads P N. unfold local_workers. destruct (Nat.ltb_spec physical (n * threads)) as [L|L].
  - destruct (Nat.eqb_spec n 0); [lia|reflexivity].
  - destruct (Nat.ltb_spec logical (n * threads)); [lia|]. destruct (Nat.eqb_spec n 0); [lia|reflexivity].
Qed.
Print Assumptions C67_oversubscribes_refuted.
Theorem C67_within_cores_partial : forall physical logical n threads m, physical <= logical -> n * threads <= logical -> local_workers physical logical n threads = Some m ->
  m * threads <= logical.
Proof.
  intros physical logical n threads m P L H. unfold local_workers in H. destruct (Nat.ltb_spec physical (n * threads)); [|destruct (Nat.ltb_spec logical (n * threads)); [lia|]];
  (destruct (Nat.eqb n 0); [discriminate|]; injection H as <-; exact L).
Qed.
Print Assumptions C67_within_cores_partial.
Example C67_case : local_workers 4 8 100 2 = Some 100 /\ local_workers 4 8 4 2 = Some 4.
Proof. split; reflexivity. Qed.

(** ** C94. SLURM requests. *)
Definition digit (c : ascii) : nat := nat_of_ascii c - 48.
Fixpoint value_from (acc : nat) (s : string) : nat := match s with EmptyString => acc | String c r => value_from (10 * acc + digit c) r end.
Definition value := value_from 0.
Fixpoint all_digits (s : string) : bool := match s with EmptyString => true | String c r => Nat.leb 48 (nat_of_ascii c) && Nat.leb (nat_of_ascii c) 57 && all_digits r end.
Lemma digit_char k : k < 10 -> digit (ascii_of_nat (48 + k)) = k /\ all_digits (String (ascii_of_nat (48 + k)) "") = true.
Proof. intro K. do 10 (destruct k as [|k]; [split; reflexivity|]). lia. Qed.
Lemma value_zeros k s : value (zeros k ++ s)%string = value s.
Proof. induction k as [|k IH]; [reflexivity|]. exact IH. Qed.
Lemma digits_fuel_value : forall f n acc, n < f -> value (digits_fuel f n acc) = value_from n acc.
Proof.
  induction f as [|f IH]; intros n acc L; [lia|]. cbn [digits_fuel]. destruct (digit_char (n mod 10) ltac:(apply Nat.mod_upper_bound; lia)) as (D & _).
  destruct (Nat.ltb_spec n 10) as [S|S].
  - unfold value. cbn [value_from]. rewrite D, Nat.mod_small by exact S. reflexivity.
  - rewrite IH. { cbn [value_from]. rewrite D, <- Nat.div_mod by lia. reflexivity. }
    assert (n / 10 < n) by (apply Nat.div_lt; lia). lia.
Qed.
Lemma digits_value n : value (digits n) = n.
Proof. unfold digits. rewrite digits_fuel_value by lia. reflexivity. Qed.
Lemma pad_value w n : value (pad_number w n) = n.
Proof. unfold pad_number. rewrite value_zeros. apply digits_value. Qed.
Lemma digits_fuel_digits : forall f n acc, all_digits acc = true -> all_digits (digits_fuel f n acc) = true.
Proof.
  induction f as [|f IH]; intros n acc A; [exact A|]. cbn [digits_fuel]. destruct (digit_char (n mod 10) ltac:(apply Nat.mod_upper_bound; lia)) as (_ & D).
  assert (B : all_digits (String (ascii_of_nat (48 + n mod 10)) acc) = true) by (cbn [all_digits] in D |- *; rewrite A; exact D).
  destruct (Nat.ltb n 10); [exact B|]. apply IH. exact B.
Qed.
Lemma pad_digits w n : all_digits (pad_number w n) = true.
Proof. unfold pad_number, digits. induction (w - _) as [|k IH]; [apply digits_fuel_digits; reflexivity|]. exact IH. Qed.
Lemma length_app a b : String.length (a ++ b)%string = String.length a + String.length b.
Proof. induction a as [|c a IH]; [reflexivity|]. cbn. rewrite IH. reflexivity. Qed.
Lemma pad_length w n : w <= String.length (pad_number w n).
Proof. unfold pad_number. rewrite length_app. assert (Z : forall k, String.length (zeros k) = k) by (induction k as [|k IH]; [reflexivity|cbn; rewrite IH; reflexivity]). rewrite Z. lia. Qed.
(** The walltime reads hh:mm:00 with hh*60+mm equal to the requested minutes; the rest
    of the request is what was asked for, and other node sizes are refused. *)
Theorem C94_slurm_request : forall table n w runtime memory r, start_distributed table true n w runtime memory = Ok r ->
  (exists hh mm, r_walltime r = (hh ++ ":" ++ mm ++ ":00")%string /\ all_digits hh = true /\ all_digits mm = true /\
     2 <= String.length hh /\ 2 <= String.length mm /\ value hh * 60 + value mm = runtime /\ value mm < 60) /\
  r_scale r = n /\ r_processes r = w /\ r_cores r = w /\ In (memory, r_memory r) [(256, 250); (512, 500); (1024, 1000)].
Proof.
  intros table n w runtime memory r H. unfold start_distributed in H. destruct (Nat.eqb w 0); [discriminate|]. unfold client_memory in H.
  assert (W : exists hh mm, walltime runtime = (hh ++ ":" ++ mm ++ ":00")%string /\ all_digits hh = true /\ all_digits mm = true /\
     2 <= String.length hh /\ 2 <= String.length mm /\ value hh * 60 + value mm = runtime /\ value mm < 60).
  { exists (pad_number 2 (runtime / 60)), (pad_number 2 (runtime mod 60)). split; [reflexivity|]. split; [apply pad_digits|]. split; [apply pad_digits|]. split; [apply pad_length|]. split; [apply pad_length|].
    rewrite !pad_value. assert (D := Nat.div_mod runtime 60 ltac:(lia)). assert (B := Nat.mod_upper_bound runtime 60 ltac:(lia)). lia. }
  destruct (Nat.eqb_spec memory 256) as [->|]; [injection H as <-; cbn; intuition|]. destruct (Nat.eqb_spec memory 512) as [->|]; [injection H as <-; cbn; intuition|].
  destruct (Nat.eqb_spec memory 1024) as [->|]; [injection H as <-; cbn; intuition|discriminate].
Qed.
Print Assumptions C94_slurm_request.
Theorem C94_unsupported_memory : forall table n w runtime memory, w <> 0 -> memory <> 256 -> memory <> 512 -> memory <> 1024 ->
  start_distributed table true n w runtime memory = Err UnsupportedMemory.
Proof.
  intros table n w runtime memory W A B C. unfold start_distributed, client_memory. destruct (Nat.eqb_spec w 0); [congruence|]. destruct (Nat.eqb_spec memory 256); [congruence|].
  destruct (Nat.eqb_spec memory 512); [congruence|]. destruct (Nat.eqb_spec memory 1024); [congruence|]. reflexivity.
Qed.
Print Assumptions C94_unsupported_memory.
Example C94_case : walltime 135 = "02:15:00" /\ walltime 9 = "00:09:00" /\ value "02" * 60 + value "15" = 135.
Proof. repeat split. Qed.
