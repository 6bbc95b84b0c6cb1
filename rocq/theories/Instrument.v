(** Model of the instrumentation of logging_config.py (timing, progress, call and
    dask logging, 246-543).

    Simplified: a log record is the level and the message as a constructor with
    the parts of the text that identify it (numbers formatted into the text are
    left out, but the expressions that compute them are evaluated); whether a
    handler shows the record is [Support.configure_logging]'s business. *)
From Coq Require Import String Qround.
From Verif Require Import Base Support.
Open Scope nat_scope.

(** logging_config.py:332, 336, 442, 495. *)
Inductive exn := ZeroDivisionError | AttributeErr | Raised (what : string).

(** logging_config.py:284, 315-339, 410, 441-445, 485-498, 506-543. *)
Inductive note :=
  | Initializing (op : string) | Memory (at_ : string) | Starting (op : string) | Completed (op : string)
  | Failed (op : string) (e : exn) | Progress (op : string) (current total : Z)
  | Calling (f params : string) | DaskShape (msg : string) | DaskGraph | NoDaskInfo (e : exn).
(** logging_config.py:284, 320. *)
Record entry := mkEntry { e_logger : string; e_level : Z; e_note : note }.
(** logging_config.py:264. *)
Definition DEBUG : Z := 10. Definition INFO : Z := 20. Definition ERROR : Z := 40.

(** Everything the instrumentation looks at or changes: the module's mode, the
    successive readings of time.perf_counter, how many were taken, the error of
    psutil if any, the records so far, progress bars opened and closed (logging_config.py:208-261, 311, 401). *)
Record world := mkWorld {
  w_mode : mode; w_clock : nat -> Q; w_ticks : nat; w_memory : option exn; w_log : list entry; w_bars : list bool }.
(** logging_config.py:287-340. *)
Definition action (A : Type) : Type := world -> world * result exn A.

(** logging_config.py:218-220. *)
Definition is_verbose (w : world) : bool := match w_mode w with Verbose => true | _ => false end.
(** logging_config.py:223-225. *)
Definition is_quiet (w : world) : bool := match w_mode w with Quiet => true | _ => false end.
(** logging_config.py:284, 320. *)
Definition record_entry (e : entry) (w : world) : world :=
  mkWorld (w_mode w) (w_clock w) (w_ticks w) (w_memory w) (w_log w ++ [e]) (w_bars w).
(** time.perf_counter() (logging_config.py:311, 324). *)
Definition read_clock (w : world) : world * Q :=
  (mkWorld (w_mode w) (w_clock w) (S (w_ticks w)) (w_memory w) (w_log w) (w_bars w), w_clock w (w_ticks w)).

(** log_memory_usage (logging_config.py:264-284): psutil is asked first (246-261). *)
Definition log_memory_usage (logger message : string) (level : Z) : action unit := fun w =>
  match w_memory w with
  | Some e => (w, Err e)
  | None => (record_entry (mkEntry logger level (Memory message)) w, Ok tt)
  end.

(** ** log_timing (logging_config.py:287-340) around a block *)

(** The optional memory record (logging_config.py:318-319, 328-329). *)
Definition maybe_memory (logger message : string) (level : Z) (log_memory : bool) : action unit := fun w =>
  if log_memory && (is_verbose w || (level <=? INFO)%Z) then log_memory_usage logger message DEBUG w else (w, Ok tt).

(** logging_config.py:340 and the handler: the record and the same exception. *)
Definition failing (logger op : string) (e : exn) (w : world) {A : Type} : world * result exn A :=
  let (w, _) := read_clock w in (record_entry (mkEntry logger ERROR (Failed op e)) w, Err e).

(** logging_config.py:324-334, inside the try: the clock, the memory record, the closing record,
    whose text in verbose mode needs 1/duration. *)
Definition timing_end (logger op : string) (level : Z) (log_memory : bool) (start : Q) : action unit := fun w =>
  let (w, stop) := read_clock w in
  match maybe_memory logger op level log_memory w with
  | (w, Err e) => (w, Err e)
  | (w, Ok _) =>
    if is_verbose w then
      if Qeq_bool (stop - start) 0 then (w, Err ZeroDivisionError)
      else (record_entry (mkEntry logger DEBUG (Completed op)) w, Ok tt)
    else (record_entry (mkEntry logger level (Completed op)) w, Ok tt)
  end.

(** logging_config.py:287-340. *)
Definition log_timing {A : Type} (logger op : string) (level : Z) (log_memory show_progress : bool) (body : action A) : action A := fun w =>
  let (w, start) := read_clock w in
  let w := if is_verbose w && show_progress then record_entry (mkEntry logger DEBUG (Initializing op)) w else w in
  match maybe_memory logger op level log_memory w with
  | (w, Err e) => (w, Err e)
  | (w, Ok _) =>
    match body (record_entry (mkEntry logger level (Starting op)) w) with
    | (w, Err e) => failing logger op e w
    | (w, Ok a) =>
      match timing_end logger op level log_memory start w with
      | (w, Err e) => failing logger op e w
      | (w, Ok _) => (w, Ok a)
      end
    end
  end.

(** ** progress_bar (logging_config.py:343-410) around a block that is given the bar or None *)

(** create_progress_bar (logging_config.py:343-376) with disable=None: whether there is a bar. *)
Definition has_bar (tqdm : bool) (w : world) : bool := negb (is_quiet w || negb tqdm).
(** logging_config.py:401, 407. *)
Definition set_bars (b : list bool) (w : world) : world := mkWorld (w_mode w) (w_clock w) (w_ticks w) (w_memory w) (w_log w) b.
(** [w_bars]: one entry per bar created, true while it is open (logging_config.py:401). *)
Definition open_bar (w : world) : world := set_bars (w_bars w ++ [true]) w.
(** logging_config.py:407. *)
Fixpoint close_nth (n : nat) (l : list bool) : list bool :=
  match l, n with [], _ => [] | _ :: r, 0 => false :: r | b :: r, S m => b :: close_nth m r end.
(** logging_config.py:378-410. *)
Definition progress_bar {A : Type} (tqdm : bool) (desc : string) (logger : option string) (body : option nat -> action A) : action A := fun w =>
  if has_bar tqdm w then
    let k := length (w_bars w) in
    let (w, r) := body (Some k) (open_bar w) in
    (set_bars (close_nth k (w_bars w)) w, r)
  else
    let (w, r) := body None w in
    (match logger with
     | Some l => if is_quiet w then w else record_entry (mkEntry l INFO (Completed desc)) w
     | None => w
     end, r).

(** ** log_progress (logging_config.py:413-445) *)

(** IEEE double rounding, to nearest, ties to even, of a positive rational
    (exponent range unbounded, so no overflow and no subnormals) (logging_config.py:436). *)
Definition pow2 (e : Z) : Q := Qpower 2 e.
(** logging_config.py:436. *)
Definition half_even (q : Q) : Z :=
  let f := Qfloor q in
  match Qcompare (q - inject_Z f) (1 # 2) with
  | Lt => f
  | Gt => f + 1
  | Eq => if Z.even f then f else f + 1
  end%Z.
(** The exponent e with 2^52 <= q / 2^e < 2^53 (logging_config.py:436). *)
Definition exponent (q : Q) : Z :=
  let e := (Z.log2 (Qnum q) - Z.log2 (Zpos (Qden q)) - 53)%Z in
  if Qle_bool (pow2 53) (q / pow2 e) then (e + 1)%Z else e.
(** logging_config.py:436. *)
Definition double (q : Q) : Q :=
  if Qle_bool q 0 then 0%Q else
  let q := Qred q in let e := exponent q in (inject_Z (half_even (q / pow2 e)) * pow2 e)%Q.

(** percentage = (current / total) * 100 in doubles; the remainder of a double by
    an integer is exact. Negative counts are left out ([double] is 0 there) (logging_config.py:436). *)
Definition percentage (current total : Z) : Q := double (double (inject_Z current / inject_Z total) * 100).
(** logging_config.py:439. *)
Definition divides (freq : Z) (q : Q) : bool := Qeq_bool (q / inject_Z freq) (inject_Z (Qfloor (q / inject_Z freq))).
(** logging_config.py:430-445. *)
Definition log_progress (logger : string) (current total : Z) (op : string) (freq : Z) : action unit := fun w =>
  if is_quiet w then (w, Ok tt)
  else if (total <=? 0)%Z then (w, Ok tt)
  else if (freq =? 0)%Z then (w, Err ZeroDivisionError)
  else if divides freq (percentage current total) || (current =? total)%Z then
    if is_verbose w then
      let (w, now) := read_clock w in
      if Qeq_bool now 0 then (w, Err ZeroDivisionError)
      else (record_entry (mkEntry logger DEBUG (Progress op current total)) w, Ok tt)
    else (record_entry (mkEntry logger INFO (Progress op current total)) w, Ok tt)
  else (w, Ok tt).

(** ** log_function_call (logging_config.py:448-503) *)

(** [repr arg] or its error, for the arguments in order (logging_config.py:473, 477). *)
Fixpoint reprs (l : list (result exn string)) : result exn (list string) :=
  match l with
  | [] => Ok []
  | r :: rest => bind r (fun s => bind (reprs rest) (fun t => Ok (s :: t)))
  end.
(** logging_config.py:471-483: the first three positional and keyword arguments, at most 200
    characters. Keywords are given as k=repr already (logging_config.py:475, 479). *)
Definition more (n : nat) : string := ("... +" ++ digits (n - 3) ++ " more")%string.
(** logging_config.py:473-483. *)
Definition summary (args kwargs : list (result exn string)) : result exn string :=
  bind (reprs (firstn 3 args)) (fun a =>
  bind (reprs (firstn 3 kwargs)) (fun k =>
  let a := if 3 <? length args then a ++ [more (length args)] else a in
  let k := if 3 <? length kwargs then k ++ [more (length kwargs)] else k in
  let params := String.concat ", " (a ++ k) in
  Ok (if 200 <? String.length params then (substring 0 200 params ++ "...")%string else params))).

(** The wrapper (logging_config.py:466-499). *)
Definition call_logged {A : Type} (logger : string) (level : Z) (fname : string) (args kwargs : list (result exn string)) (func : action A) : action A := fun w =>
  match summary args kwargs with
  | Err e => (w, Err e)
  | Ok params =>
    let w := record_entry (mkEntry logger level (Calling fname params)) w in
    let (w, _) := read_clock w in
    match func w with
    | (w, Err e) => failing logger fname e w
    | (w, Ok a) => let (w, _) := read_clock w in (record_entry (mkEntry logger level (Completed fname)) w, Ok a)
    end
  end.

(** The decorator object: log_function_call(logger) makes a cell that the first
    decorated function fills (logging_config.py:462-465) and all wrappers read when called (logging_config.py:462-465). *)
Definition decorate (cell : option string) (module_ : string) : option string :=
  match cell with Some l => Some l | None => Some module_ end.
(** logging_config.py:462-465. *)
Definition decorate_all (cell : option string) (modules : list string) : option string := fold_left decorate modules cell.

(** ** log_dask_info (logging_config.py:506-543) *)

(** What the object has: chunks, shape (a Dataset has none), a dask graph (logging_config.py:519-541). *)
Record object_info := mkObject { has_chunks : bool; has_shape : bool; is_dask : bool; graph_fails : option exn }.
(** logging_config.py:519-543. *)
Definition log_dask_info (logger : string) (o : object_info) (message : string) : action unit := fun w =>
  if has_chunks o then
    if has_shape o then
      let w := record_entry (mkEntry logger DEBUG (DaskShape message)) w in
      if is_dask o then
        match graph_fails o with
        | Some e => (record_entry (mkEntry logger DEBUG (NoDaskInfo e)) w, Ok tt)
        | None => (record_entry (mkEntry logger DEBUG DaskGraph) w, Ok tt)
        end
      else (w, Ok tt)
    else (record_entry (mkEntry logger DEBUG (NoDaskInfo AttributeErr)) w, Ok tt)
  else (w, Ok tt).
