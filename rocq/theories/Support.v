(** Model of logging_config.py (mode and level), _dependencies.py, and of
    checkpoint_to_zarr and the cluster start-up in helper.py. *)
From Coq Require Import String Ascii.
From Verif Require Import Base Errors.
Open Scope string_scope.
Open Scope list_scope.
Open Scope nat_scope.

(** str.upper() / str.lower() on ASCII letters (logging_config.py:39, 121). *)
Definition upper_char (c : ascii) : ascii :=
  let n := nat_of_ascii c in if Nat.leb 97 n && Nat.leb n 122 then ascii_of_nat (n - 32) else c.
(** logging_config.py:41-42. *)
Definition lower_char (c : ascii) : ascii :=
  let n := nat_of_ascii c in if Nat.leb 65 n && Nat.leb n 90 then ascii_of_nat (n + 32) else c.
(** logging_config.py:39-42. *)
Fixpoint map_string (f : ascii -> ascii) (s : string) : string :=
  match s with EmptyString => EmptyString | String c r => String (f c) (map_string f r) end.
(** logging_config.py:39, 121. *)
Definition upper := map_string upper_char.
(** logging_config.py:41-42. *)
Definition lower := map_string lower_char.

(** ** Logging *)
(** logging_config.py:46. *)
Inductive mode := Quiet | Normal | Verbose.
(** logging_config.py:72. *)
Inductive level_arg := LevelNumber (n : Z) | LevelName (s : string).
(** getattr(logging, name, INFO) for the level constants of the logging module (logging_config.py:118, 121). *)
Definition level_names : list (string * Z) :=
  [("CRITICAL", 50%Z); ("FATAL", 50%Z); ("ERROR", 40%Z); ("WARNING", 30%Z); ("WARN", 30%Z); ("INFO", 20%Z); ("DEBUG", 10%Z); ("NOTSET", 0%Z)].
(** logging_config.py:118, 121. *)
Definition level_of_name (s : string) : Z := match lookup s level_names with Some n => n | None => 20%Z end.
(** MAREX_VERBOSE, MAREX_QUIET, MAREX_LOG_LEVEL (already upper case), MAREX_LOG_FILE as
    read at import, logging_config.py:38-42. *)
Record environment := { env_verbose : bool; env_quiet : bool; env_level : string; env_file : option string }.
(** logging_config.py:144-168. *)
Record handlers := { console : option Z; file : option (string * Z) }.
(** The module state: mode, level of the marEx logger, its handlers, and
    _logger_configured (logging_config.py:45-46). *)
Record logging_state := { l_mode : mode; l_level : Z; l_handlers : handlers; l_configured : bool }.
(** logging_config.py:45-46. *)
Definition logging_start : logging_state :=
  {| l_mode := Normal; l_level := 0%Z; l_handlers := {| console := None; file := None |}; l_configured := false |}.

(** logging_config.py:97-100. *)
Definition or_env (o : option bool) (d : bool) : bool := match o with Some b => b | None => d end.
(** configure_logging, logging_config.py:71-180 (formats, external loggers and the messages it logs left out). *)
Definition configure_logging (env : environment) (level : option level_arg) (log_file : option string) (console_output : bool)
    (verbose quiet : option bool) (s : logging_state) : logging_state :=
  let v := or_env verbose (env_verbose env) in
  let q := or_env quiet (env_quiet env) in
  let v := if q && v then false else v in
  let '(m, lvl) :=
    if q then (Quiet, match level with None => LevelNumber 30 | Some l => l end)
    else if v then (Verbose, match level with None => LevelNumber 10 | Some l => l end)
    else (Normal, match level with None => LevelNumber (level_of_name (env_level env)) | Some l => l end) in
  let n := match lvl with LevelNumber n => n | LevelName s => level_of_name (upper s) end in
  let f := match log_file with Some f => Some f | None => match env_file env with Some "" => None | x => x end end in
  {| l_mode := m; l_level := n;
     l_handlers := {| console := if console_output then Some n else None; file := match f with Some f => Some (f, n) | None => None end |};
     l_configured := l_configured s |}.

(** The public calls: configure_logging, set_verbose_mode (logging_config.py:183-190), set_quiet_mode
    (193-200), set_normal_logging (203-205), get_logger (49-68). *)
Inductive log_call :=
  | Configure (level : option level_arg) (log_file : option string) (console_output : bool) (verbose quiet : option bool)
  | SetVerbose (b : bool) | SetQuiet (b : bool) | SetNormal | GetLogger (name : string).
(** logging_config.py:49-68, 183-205. *)
Definition log_step (env : environment) (c : log_call) (s : logging_state) : logging_state :=
  match c with
  | Configure l f co v q => configure_logging env l f co v q s
  | SetVerbose b => configure_logging env None None true (Some b) (Some false) s
  | SetQuiet b => configure_logging env None None true (Some false) (Some b) s
  | SetNormal => configure_logging env None None true (Some false) (Some false) s
  | GetLogger name =>
      if negb (l_configured s) && String.eqb name "marEx" then
        let s' := configure_logging env None None true None None s in
        {| l_mode := l_mode s'; l_level := l_level s'; l_handlers := l_handlers s'; l_configured := true |}
      else s
  end.
(** a sequence of calls, logging_config.py:49-205. *)
Definition log_run (env : environment) (calls : list log_call) : logging_state := fold_left (fun s c => log_step env c s) calls logging_start.

(** ** Dependencies (_dependencies.py).  [installed] tells which packages can be
    imported; the try blocks at _dependencies.py:18-84 contain only [pass], so it is never consulted (_dependencies.py:17-84). *)
Definition tracked : list string := ["jax"; "jaxlib"; "dask_jobqueue"; "psutil"; "matplotlib"; "cartopy"; "seaborn"; "cmocean"; "pillow"].
(** _dependencies.py:15-84. *)
Definition check_all (installed : string -> bool) : list (string * bool) := map (fun d => (d, true)) tracked.
(** _dependencies.py:86-88. *)
Definition has_dependency (table : list (string * bool)) (d : string) : bool := match lookup d table with Some b => b | None => false end.
(** _dependencies.py:140-149. *)
Definition install_commands : list (string * string) :=
  [("jax", "pip install marEx[performance]"); ("jaxlib", "pip install marEx[performance]"); ("dask_jobqueue", "pip install marEx[hpc]");
   ("pillow", "pip install pillow"); ("matplotlib", "pip install marEx[plotting]"); ("cartopy", "pip install marEx[plotting]");
   ("seaborn", "pip install marEx[plotting]"); ("cmocean", "pip install marEx[plotting]")].
(** _dependencies.py:138-151. *)
Definition install_command (d : string) : string := match lookup d install_commands with Some c => c | None => ("pip install " ++ d)%string end.
(** require_dependencies, _dependencies.py:90-116: [Some text] is an ImportError. *)
Definition require_dependencies (table : list (string * bool)) (deps : list string) (feature : string) : option string :=
  match filter (fun d => negb (has_dependency table d)) deps with
  | [] => None
  | [d] => Some (feature ++ " requires " ++ d ++ ". " ++ "Install with: " ++ install_command d)%string
  | missing => Some (feature ++ " requires the following dependencies: " ++ join ", " missing ++ ". " ++ "Install with: " ++ "pip install marEx[full]")%string
  end.
(** get_installation_profile, _dependencies.py:157-179. *)
Definition profile_table : list (string * list string) :=
  [("full", ["jax"; "jaxlib"; "dask_jobqueue"; "seaborn"; "cmocean"]); ("plotting", ["seaborn"; "cmocean"]); ("hpc", ["dask_jobqueue"; "psutil"]);
   ("performance", ["jax"; "jaxlib"]); ("minimal", [])].
(** _dependencies.py:157-179. *)
Definition installation_profile (table : list (string * bool)) : string :=
  match find (fun p => forallb (has_dependency table) (snd p)) profile_table with Some p => fst p | None => "minimal" end.

(** ** start_local_cluster, helper.py:340-392: the numbers handed to LocalCluster.  [None]: the
    division memory.total / n_workers at helper.py:379 fails. *)
Definition local_workers (physical logical n_workers threads : nat) : option nat :=
  let total := n_workers * threads in
  let n := if Nat.ltb physical total then n_workers
           else if Nat.ltb logical total then logical / threads
           else n_workers in
  if Nat.eqb n 0 then None else Some n.

(** ** start_distributed_cluster, helper.py:552-637: checks in order, then the request.  *)
(** helper.py:552-607. *)
Inductive cluster_error := DependencyMissing (text : string) | UnsupportedMemory | NotCallable | DivisionByZero.
(** helper.py:607-629. *)
Record slurm_request := { r_cores : nat; r_processes : nat; r_memory : nat; r_walltime : string; r_scale : nat }.
(** the digits of an f-string, helper.py:590, 615. *)
Fixpoint digits_fuel (fuel n : nat) (acc : string) : string :=
  match fuel with
  | O => acc
  | S f => let acc := String (ascii_of_nat (48 + n mod 10)) acc in if Nat.ltb n 10 then acc else digits_fuel f (n / 10) acc
  end.
(** helper.py:590, 615. *)
Definition digits (n : nat) : string := digits_fuel (S n) n "".
(** helper.py:590, 615. *)
Fixpoint zeros (k : nat) : string := match k with O => "" | S k => String "0"%char (zeros k) end.
(** f"{n:0wd}" (helper.py:590, 615). *)
Definition pad_number (w n : nat) : string := (zeros (w - String.length (digits n)) ++ digits n)%string.
(** MEMORY_CONFIGS, helper.py:75-87, 569. *)
Definition client_memory (node_memory : nat) : option nat :=
  if Nat.eqb node_memory 256 then Some 250 else if Nat.eqb node_memory 512 then Some 500 else if Nat.eqb node_memory 1024 then Some 1000 else None.
(** helper.py:587-590, 615. *)
Definition walltime (runtime : nat) : string := (pad_number 2 (runtime / 60) ++ ":" ++ pad_number 2 (runtime mod 60) ++ ":00")%string.
(** [slurm] tells whether dask_jobqueue could be imported (helper.py:33-38). *)
Definition start_distributed (table : list (string * bool)) (slurm : bool) (n_workers workers_per_node runtime node_memory : nat) : result cluster_error slurm_request :=
  if Nat.eqb workers_per_node 0 then Err DivisionByZero
  else match (if slurm then None else require_dependencies table ["dask_jobqueue"] "SLURM cluster functionality") with
  | Some text => Err (DependencyMissing text)
  | None =>
    match client_memory node_memory with
    | None => Err UnsupportedMemory
    | Some m => if slurm then Ok {| r_cores := workers_per_node; r_processes := workers_per_node; r_memory := m; r_walltime := walltime runtime; r_scale := n_workers |}
                else Err NotCallable
    end
  end.

(** ** checkpoint_to_zarr, helper.py:642-777 *)
(** helper.py:643. *)
Inductive container := DataArray | Dataset.
(** What happens outside: the write may fail for another reason than chunking, and so
    may persist() (helper.py:728, 756). *)
Record world := { disk_fails : bool; persist_fails : bool }.
(** Zarr accepts equal chunks with a final one that is not larger (helper.py:741-742). *)
Fixpoint uniform_rest (first : nat) (chunks : list nat) : bool :=
  match chunks with [] => true | [c] => Nat.leb c first | c :: r => Nat.eqb c first && uniform_rest first r end.
(** helper.py:741-742. *)
Definition zarr_accepts (chunks : list nat) : bool := match chunks with [] => true | c :: r => uniform_rest c r end.
(** helper.py:706-723. *)
Definition regular_chunks (chunks : list nat) : list nat :=
  match chunks with
  | [] => []
  | first :: _ =>
    let total := fold_right Nat.add 0 chunks in
    repeat first (total / first) ++ (if Nat.ltb 0 (total mod first) then [total mod first] else [])
  end.
(** len(set(time_chunks)) > 1, helper.py:704. *)
Definition all_equal (chunks : list nat) : bool := match chunks with [] => true | c :: r => forallb (Nat.eqb c) r end.
(** "timedim in data.chunks" is a key lookup for a Dataset, but for a DataArray asks
    whether a string is an element of a tuple of tuples: never (helper.py:702). *)
Definition normalised (k : container) (chunks : list nat) : list nat :=
  match k with
  | DataArray => chunks
  | Dataset => if Nat.ltb 1 (List.length chunks) && negb (all_equal chunks) then regular_chunks chunks else chunks
  end.
(** The value returned: lazily backed by the store, in memory, the argument itself, or
    Python's None (helper.py:739, 761, 765). *)
Inductive returned := Lazy | Persisted | Original | NoneReturned.
(** helper.py:739-777. *)
Record outcome := { o_value : returned; o_store : bool }.
(** helper.py:682-777. *)
Definition checkpoint (k : container) (chunks : list nat) (cleanup : bool) (w : world) : outcome :=
  let chunks := normalised k chunks in
  let finish v stored := {| o_value := v; o_store := stored && negb cleanup |} in
  if negb (zarr_accepts chunks) then finish NoneReturned false (* helper.py:741-748: swallowed, falls off the end *)
  else if disk_fails w then finish (if persist_fails w then Original else Persisted) false
  else finish Lazy true.
(** Reading the result later (the chunks of the store are read when computed, helper.py:733-736, 769-772). *)
Definition read_back {A} (data : A) (o : outcome) : option A :=
  match o_value o with
  | Lazy => if o_store o then Some data else None
  | Persisted | Original => Some data
  | NoneReturned => None
  end.
