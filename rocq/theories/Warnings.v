(** Suppression of other libraries' messages: the loggers set by logging_config.py:229-243 and detect.py:45, and
    [_configure_warnings] of track.py:1119-1156, over a whole Python session. *)
Require Import List Arith ZArith Bool String Ascii.
From Verif Require Import Base Support.
Import ListNotations.
Open Scope string_scope.

(** [p in s] for Python strings, track.py:1131-1148. *)
Fixpoint contains (p s : string) : bool :=
  String.prefix p s || match s with EmptyString => false | String _ r => contains p r end.

(** The newline character of the pattern of track.py:1154. *)
Definition newline : ascii := Ascii.ascii_of_nat 10.
(** The part of a text before its first newline, and the part after it (track.py:1154: [.] does not match a newline). *)
Fixpoint cut_line (s : string) : string * option string :=
  match s with
  | EmptyString => (EmptyString, None)
  | String c r => if Ascii.eqb c newline then (EmptyString, Some r) else let '(l, o) := cut_line r in (String c l, o)
  end.
(** [re.match] of the message pattern of track.py:1154, which [warnings.filterwarnings] compiles ignoring case. *)
Definition large_graph (text : string) : bool :=
  match cut_line (lower text) with
  | (first, Some rest) => contains "sending large graph" first && contains "this may cause some slowdown" (fst (cut_line rest))
  | (_, None) => false
  end.
(** [re.match] of the module pattern "distributed.client" of track.py:1151, where [.] stands for any character but a newline. *)
Definition client_module (name : string) : bool :=
  String.prefix "distributed" name &&
  match String.substring 11 (String.length name) name with
  | String c r => negb (Ascii.eqb c newline) && String.prefix "client" r
  | EmptyString => false
  end.

(** A Python warning: whether its category is UserWarning or below, its module and text (track.py:1151-1156). *)
Record warning := { w_user : bool; w_module : string; w_text : string }.
(** An entry of [warnings.filters]: the two of track.py:1151-1156, or one added by the user with the warnings it applies to and whether
    it ignores them. *)
Inductive warning_filter := IgnoreClient | IgnoreLarge | UserRule (applies : warning -> bool) (ignores : bool).
(** Does an entry apply (track.py:1151-1156)? *)
Definition applies (f : warning_filter) (w : warning) : bool :=
  match f with
  | IgnoreClient => w_user w && client_module (w_module w)
  | IgnoreLarge => w_user w && large_graph (w_text w)
  | UserRule p _ => p w
  end.
(** Does it ignore what it applies to (track.py:1151-1156)? *)
Definition ignores (f : warning_filter) : bool := match f with UserRule _ i => i | _ => true end.
(** Equality as used by the removal below, which only concerns the tracker's own entries (track.py:1151-1156). *)
Definition same_filter (f g : warning_filter) : bool :=
  match f, g with IgnoreClient, IgnoreClient => true | IgnoreLarge, IgnoreLarge => true | _, _ => false end.
(** [warnings.filterwarnings] (track.py:1151-1156): an equal entry is removed and the new one goes to the front. *)
Definition insert_filter (f : warning_filter) (l : list warning_filter) : list warning_filter :=
  f :: filter (fun g => negb (same_filter f g)) l.
(** The first entry that applies decides; without one the warning is shown (track.py:1149-1156). *)
Fixpoint shown_by (l : list warning_filter) (w : warning) : bool :=
  match l with [] => true | f :: r => if applies f w then negb (ignores f) else shown_by r w end.

(** The state shared by the session: the levels set on loggers (0 when not set), the [debug] attribute of every tracker built, the
    trackers whose function was added as a filter to the scheduler's logger, and [warnings.filters]
    (track.py:1119-1156, logging_config.py:229-243). *)
Record shared := { levels : string -> Z; debugs : list Z; attached : list nat; rules : list warning_filter }.
(** At the start no level is set but the root's, which is WARNING (logging_config.py:229-243, detect.py:45). *)
Definition fresh_session : shared :=
  {| levels := fun n => if String.eqb n "" then 30%Z else 0%Z; debugs := []; attached := []; rules := [] |}.
(** [logging.getLogger(name).setLevel(level)], logging_config.py:243, track.py:1124, detect.py:45. *)
Definition set_level (name : string) (level : Z) (s : shared) : shared :=
  {| levels := fun n => if String.eqb n name then level else levels s n; debugs := debugs s; attached := attached s; rules := rules s |}.
(** logging_config.py:231-241. *)
Definition external_loggers : list string :=
  ["distributed.scheduler"; "distributed.worker"; "distributed.shuffle._scheduler_plugin"; "distributed.comm"; "distributed.core";
   "tornado.access"; "asyncio"; "matplotlib.font_manager"; "PIL.PngImagePlugin"].
(** [_configure_external_loggers], logging_config.py:229-243. *)
Definition quiet_external (s : shared) : shared := fold_left (fun s n => set_level n 40 s) external_loggers s.

(** [_configure_warnings], track.py:1119-1156, for the tracker built last. *)
Definition configure_warnings (debug : Z) (s : shared) : shared :=
  let k := (List.length (debugs s) - 1)%nat in
  if Z.ltb debug 2 then
    let s := set_level "distributed.scheduler" 40 s in
    let s := {| levels := levels s; debugs := debugs s; attached := attached s ++ [k]; rules := rules s |} in
    if Z.eqb debug 0 then
      {| levels := levels s; debugs := debugs s; attached := attached s;
         rules := insert_filter IgnoreLarge (insert_filter IgnoreClient (rules s)) |}
    else s
  else s.

(** What happens in a session.  [Import]: detect.py:45.  [ConfigureLogging]: configure_logging with disable_external_loggers given
    (logging_config.py:71-180).  [Build]: the tracker's constructor (track.py:313-491), whether verbose or quiet is given (350-352),
    whether its inputs are accepted, and [debug].  The rest is done by the user: assigning to [tracker.debug], setting a logger's
    level, adding a warnings filter. *)
Inductive happening :=
  | Import
  | ConfigureLogging (external : bool)
  | Build (verbosity : bool) (accepted : bool) (debug : Z)
  | AssignDebug (k : nat) (debug : Z)
  | SetLevel (name : string) (level : Z)
  | AddRule (p : warning -> bool) (ignore : bool).
(** Replaces one place of a list (assignment to the attribute read at track.py:1129). *)
Fixpoint replace {A} (k : nat) (x : A) (l : list A) : list A :=
  match l, k with [], _ => [] | _ :: r, O => x :: r | y :: r, S k => y :: replace k x r end.
(** track.py:350-352, 421, 491, 1119-1156; logging_config.py:171-173, 229-243; detect.py:45. *)
Definition happen (s : shared) (e : happening) : shared :=
  match e with
  | Import => set_level "distributed.shuffle._scheduler_plugin" 40 s
  | ConfigureLogging external => if external then quiet_external s else s
  | Build verbosity accepted debug =>
      let s := if verbosity then quiet_external s else s in
      if accepted then
        configure_warnings debug {| levels := levels s; debugs := debugs s ++ [debug]; attached := attached s; rules := rules s |}
      else s
  | AssignDebug k d => {| levels := levels s; debugs := replace k d (debugs s); attached := attached s; rules := rules s |}
  | SetLevel n l => set_level n l s
  | AddRule p i => {| levels := levels s; debugs := debugs s; attached := attached s; rules := insert_filter (UserRule p i) (rules s) |}
  end.
(** A whole session (track.py:313-491, logging_config.py:71-180). *)
Definition session (h : list happening) : shared := fold_left happen h fresh_session.

(** [getEffectiveLevel] of the scheduler's logger: the nearest level that is set among it and its parents (track.py:1124). *)
Definition scheduler_level (s : shared) : Z :=
  if Z.eqb (levels s "distributed.scheduler") 0 then
    if Z.eqb (levels s "distributed") 0 then levels s "" else levels s "distributed"
  else levels s "distributed.scheduler".
(** [filter_dask_warnings], track.py:1126-1146; the attribute is read when a record comes. *)
Definition filter_dask_warnings (debug : Z) (msg : string) : bool :=
  if Z.eqb debug 0 then
    if existsb (fun p => contains p msg) ["Detected different `run_spec`"; "Sending large graph"; "This may cause some slowdown"]
    then false else true
  else if contains "Detected different `run_spec`" msg then false else true.
(** Is a record of the scheduler's logger passed to its handlers?  Its level must reach the logger's and every filter must let it
    through (track.py:1124-1148). *)
Definition handled (s : shared) (level : Z) (msg : string) : bool :=
  Z.leb (scheduler_level s) level && forallb (fun k => filter_dask_warnings (nth k (debugs s) 0%Z) msg) (attached s).
(** Is a Python warning shown (track.py:1149-1156)? *)
Definition shown (s : shared) (w : warning) : bool := shown_by (rules s) w.
