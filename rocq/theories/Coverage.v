(** Model of _coverage_init.py:26-71, run by the first import of marEx (__init__.py:26-30), and of
    initialize_coverage (_coverage_init.py:10-23), which nothing calls. *)
From Coq Require Import String.
From Verif Require Import Base.
Open Scope string_scope.

(** Functions of numbagg, as far as they are replaced (_coverage_init.py:48-65). *)
Inductive impl := Compiled | PureNumpy.
Record numbagg := mkNumbagg { nanquantile : impl; nanpercentile : option impl; kept_quantile : option impl; kept_percentile : option impl }.
(** What the module touches of a process: os.environ, numba.config and numbagg; None where the
    package is not installed.  numpy always is (_coverage_init.py:30-45). *)
Record process := mkProcess { environ : string -> option string; jit_disabled : option bool; aggregation : option numbagg; measuring : bool }.

(** os.environ.get(name) as a condition: an empty text counts as not set (_coverage_init.py:13, 28). *)
Definition given (env : string -> option string) (name : string) : bool :=
  match env name with None => false | Some "" => false | Some _ => true end.
(** os.environ[name] = value (_coverage_init.py:30-31). *)
Definition set_env (env : string -> option string) (name value : string) : string -> option string :=
  fun x => if String.eqb x name then Some value else env x.
(** _coverage_init.py:47-65; hasattr(numbagg, "_coverage_original_nanquantile") is the first test. *)
Definition patched (a : numbagg) : numbagg :=
  match kept_quantile a with
  | Some _ => a
  | None =>
    match nanpercentile a with
    | Some f => mkNumbagg PureNumpy (Some PureNumpy) (Some (nanquantile a)) (Some f)
    | None => mkNumbagg PureNumpy None (Some (nanquantile a)) (kept_percentile a)
    end
  end.
(** disable_numba_if_coverage (_coverage_init.py:26-67, called in line 71). *)
Definition disable_numba_if_coverage (p : process) : process :=
  if given (environ p) "COVERAGE_PROCESS_START" || given (environ p) "PYTEST_COVERAGE" then
    mkProcess (set_env (set_env (environ p) "NUMBA_DISABLE_JIT" "1") "NUMBA_CACHE_DIR" "/tmp")
              (option_map (fun _ => true) (jit_disabled p)) (option_map patched (aggregation p)) (measuring p)
  else p.
(** initialize_coverage (_coverage_init.py:10-23); [ok]: coverage can be imported and starts. *)
Definition initialize_coverage (ok : bool) (p : process) : process :=
  if (given (environ p) "COVERAGE_PROCESS_START" || given (environ p) "PYTEST_COVERAGE") && given (environ p) "DASK_WORKER_PROCESS"
  then mkProcess (environ p) (jit_disabled p) (aggregation p) (measuring p || ok) else p.
(** Imports and reloads of marEx (__init__.py:26-30, _coverage_init.py:71). *)
Fixpoint imported (k : nat) (p : process) : process :=
  match k with O => p | S k => disable_numba_if_coverage (imported k p) end.
