(** Specifications for the instrumentation of logging_config.py. *)
From Coq Require Import String.
From Verif Require Import Base Support Instrument.
Open Scope nat_scope.

(** Only bookkeeping happened: records were added, the clock was read. *)
Definition only_logged (w w' : world) : Prop :=
  w_mode w' = w_mode w /\ w_clock w' = w_clock w /\ w_memory w' = w_memory w /\ w_bars w' = w_bars w /\
  w_ticks w <= w_ticks w' /\ exists added, w_log w' = w_log w ++ added.

Definition last_entry (w : world) (e : entry) : Prop := exists before, w_log w = before ++ [e].

(** [wrapped] runs [block] exactly once, logging before and after, and gives back
    its result or error. *)
Definition transparent {A : Type} (wrapped block : action A) (w : world) : Prop :=
  exists w1, only_logged w w1 /\ only_logged (fst (block w1)) (fst (wrapped w)) /\ snd (wrapped w) = snd (block w1).

(** current of total is a multiple of freq percent. *)
Definition multiple_percent (freq current total : Z) : Prop := exists k, (100 * current = k * freq * total)%Z.
Definition logs_progress (logger : string) (current total : Z) (op : string) (freq : Z) (w : world) : Prop :=
  exists level, w_log (fst (log_progress logger current total op freq w)) =
    w_log w ++ [mkEntry logger level (Progress op current total)].
