(** Model of the rest of _dependencies.py: warnings and the printed status.  The check mark and the
    cross of the printed lines are left out of the words after them. *)
From Coq Require Import String List Bool.
Import ListNotations.
From Verif Require Import Errors Support.
Open Scope string_scope.
Open Scope list_scope.

(** warn_missing_dependency, _dependencies.py:118-136: the text of the ImportWarning, if there is one. *)
Definition warn_missing (table : list (string * bool)) (d feature : string) : option string :=
  if negb (has_dependency table d) then
    Some (d ++ " not installed. " ++ feature ++ " will be slower or unavailable. " ++ "For best performance, install with: " ++ install_command d)%string
  else None.
(** get_missing_dependencies, _dependencies.py:153-155. *)
Definition missing_dependencies (table : list (string * bool)) : list string := map fst (filter (fun p => negb (snd p)) table).
(** The categories, _dependencies.py:189-194. *)
Definition categories : list (string * list string) :=
  [("Performance", ["jax"; "jaxlib"]); ("HPC", ["dask_jobqueue"; "psutil"]); ("Visualisation", ["matplotlib"; "cartopy"; "seaborn"; "cmocean"]); ("Core", ["pillow"])].
(** A printed line. *)
Inductive line := Title (s : string) | Rule | Profile (p : string) | Category (c : string) | Status (d : string) (available : bool) | Suggest (s : string).
(** _dependencies.py:196-201: only names the table has are printed. *)
Definition status_lines (table : list (string * bool)) : list line :=
  flat_map (fun c => Category (fst c) ::
    flat_map (fun d => match lookup d table with Some b => [Status d b] | None => [] end) (snd c)) categories.
(** print_dependency_status, _dependencies.py:181-209. *)
Definition print_status (table : list (string * bool)) : list line :=
  [Title "marEx Dependency Status:"; Rule; Profile (installation_profile table)]
  ++ status_lines table
  ++ match missing_dependencies table with
     | [] => []
     | _ => [Title "Installation suggestions:"; Suggest "All features:     pip install marEx[full]"; Suggest "Performance:      pip install marEx[performance]";
             Suggest "HPC:              pip install marEx[hpc]"; Suggest "Visualisation:    pip install marEx[plotting]"]
     end.
(** _check_optional_dependencies_on_import, _dependencies.py:243-250: what importing marEx warns of. *)
Definition warn_on_import (table : list (string * bool)) : option string :=
  if negb (has_dependency table "jax") then warn_missing table "jax" "Some operations" else None.
