(** Specification for C179 and C180: which event of a session was the last to decide. *)
Require Import List Arith ZArith Bool String Ascii.
From Verif Require Import Base Support Warnings.
Import ListNotations.
Open Scope string_scope.

(** [p] occurs in [s]. *)
Definition occurs (p s : string) : Prop := exists a b, s = a ++ p ++ b.
(** No newline in [s]. *)
Definition one_line (s : string) : Prop := ~ occurs (String newline "") s.
(** Dask's warning about large graphs, in any case: the first line holds one sentence, the second the other. *)
Definition about_large_graph (text : string) : Prop := exists a b c rest, one_line a /\ one_line b /\ one_line c /\
  lower text = a ++ "sending large graph" ++ b ++ String newline (c ++ "this may cause some slowdown" ++ rest).
(** The module's name starts with distributed.client, the dot being any character. *)
Definition from_client (name : string) : Prop := exists c r, c <> newline /\ name = "distributed" ++ String c ("client" ++ r).

(** The loggers that configure_logging quietens. *)
Definition noisy (n : string) : Prop := In n
  ["distributed.scheduler"; "distributed.worker"; "distributed.shuffle._scheduler_plugin"; "distributed.comm"; "distributed.core";
   "tornado.access"; "asyncio"; "matplotlib.font_manager"; "PIL.PngImagePlugin"].
(** An event gives the logger [n] the level [v]. *)
Inductive gives (n : string) : happening -> Z -> Prop :=
  | gives_set v : gives n (SetLevel n v) v
  | gives_import : n = "distributed.shuffle._scheduler_plugin" -> gives n Import 40
  | gives_configured : noisy n -> gives n (ConfigureLogging true) 40
  | gives_verbosity a d : noisy n -> gives n (Build true a d) 40
  | gives_tracker v d : n = "distributed.scheduler" -> (d < 2)%Z -> gives n (Build v true d) 40.
(** The last event of [h] that gives a value gave [v]; [start] when there is none. *)
Definition last_given {A} (g : happening -> A -> Prop) (h : list happening) (start v : A) : Prop :=
  (exists h1 e h2, h = (h1 ++ e :: h2)%list /\ g e v /\ (forall e' v', In e' h2 -> ~ g e' v')) \/
  (v = start /\ forall e v', In e h -> ~ g e v').
(** The level of a logger after [h]. *)
Definition has_level (h : list happening) (n : string) (v : Z) : Prop :=
  last_given (gives n) h (if string_dec n "" then 30%Z else 0%Z) v.

(** The [debug] given to the trackers built, in order. *)
Definition built (h : list happening) : list Z :=
  flat_map (fun e => match e with Build _ true d => [d] | _ => [] end) h.
(** The [debug] attribute of tracker [k] is [d] after [h]: the last to be given. *)
Definition debug_now (h : list happening) (k : nat) (d : Z) : Prop :=
  exists h1 e h2, h = (h1 ++ e :: h2)%list /\
    ((exists v, e = Build v true d /\ List.length (built h1) = k) \/ (e = AssignDebug k d /\ k < List.length (built h1))) /\
    forall d', ~ In (AssignDebug k d') h2.

(** An event settles whether the warning [w] is ignored. *)
Inductive settles (w : warning) : happening -> bool -> Prop :=
  | settles_rule p i : p w = true -> settles w (AddRule p i) i
  | settles_tracker v : w_user w = true -> from_client (w_module w) \/ about_large_graph (w_text w) -> settles w (Build v true 0) true.
