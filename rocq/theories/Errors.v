(** Model of exceptions.py.  Values inside messages and contexts are the strings they
    print as; dictionaries are association lists in insertion order. *)
From Coq Require Import String Ascii List.
Import ListNotations.
Open Scope string_scope.
Open Scope list_scope.

(** exceptions.py:63-73. *)
Definition newline : string := String (ascii_of_nat 10) "".
(** sep.join(parts) (exceptions.py:63-73). *)
Fixpoint join (sep : string) (parts : list string) : string :=
  match parts with
  | [] => ""
  | [p] => p
  | p :: r => p ++ sep ++ join sep r
  end%string.

(** The classes, exceptions.py:84-335; [MarExError] itself, 11. *)
Inductive error_class := MarExError | DataValidationError | CoordinateError | ProcessingError | ConfigurationError
  | DependencyError | TrackingError | VisualisationError.
(** Default of the error_code parameter: exceptions.py:41, 115, 144, ... *)
Definition default_code (c : error_class) : option string :=
  match c with
  | MarExError => None
  | DataValidationError => Some "DATA_VALIDATION"
  | CoordinateError => Some "COORDINATE_ERROR"
  | ProcessingError => Some "PROCESSING_ERROR"
  | ConfigurationError => Some "CONFIGURATION_ERROR"
  | DependencyError => Some "DEPENDENCY_ERROR"
  | TrackingError => Some "TRACKING_ERROR"
  | VisualisationError => Some "VISUALISATION_ERROR"
  end.

Record exn := { exn_name : string; exn_text : string }.
Record error := { e_class : error_class; e_message : string; e_details : option string; e_suggestions : list string;
  e_code : option string; e_context : list (string * string); e_text : string; e_cause : option exn }.

Definition nonempty (s : option string) : option string := match s with Some "" => None | x => x end.
(** _format_error_message, exceptions.py:55-73.  [if self.details] is false for the empty string. *)
Definition format_error (message : string) (details : option string) (suggestions : list string) (code : option string)
    (context : list (string * string)) : string :=
  join newline (
    [message]
    ++ match nonempty details with Some d => ["Details: " ++ d]%string | None => [] end
    ++ match context with [] => [] | _ => ["Context: " ++ join ", " (map (fun kv => fst kv ++ "=" ++ snd kv) context)]%string end
    ++ match suggestions with [] => [] | _ => ["Suggestions:" ++ newline ++ join newline (map (fun s => "  - " ++ s) suggestions)]%string end
    ++ match nonempty code with Some c => ["Error Code: " ++ c]%string | None => [] end).
(** __init__, exceptions.py:36-53: the text is fixed at construction. *)
Definition make_error (c : error_class) (message : string) (details : option string) (suggestions : list string)
    (code : option string) (context : list (string * string)) : error :=
  {| e_class := c; e_message := message; e_details := details; e_suggestions := suggestions; e_code := code; e_context := context;
     e_text := format_error message details suggestions code context; e_cause := None |}.

(** add_suggestion, exceptions.py:75-77, and add_context, 79-81: the fields change, not the text. *)
Definition add_suggestion (s : string) (e : error) : error :=
  {| e_class := e_class e; e_message := e_message e; e_details := e_details e; e_suggestions := e_suggestions e ++ [s];
     e_code := e_code e; e_context := e_context e; e_text := e_text e; e_cause := e_cause e |}.
Fixpoint put (k v : string) (d : list (string * string)) : list (string * string) :=
  match d with
  | [] => [(k, v)]
  | (k', v') :: r => if String.eqb k k' then (k, v) :: r else (k', v') :: put k v r
  end.
Definition add_context (k v : string) (e : error) : error :=
  {| e_class := e_class e; e_message := e_message e; e_details := e_details e; e_suggestions := e_suggestions e;
     e_code := e_code e; e_context := put k v (e_context e); e_text := e_text e; e_cause := e_cause e |}.

(** create_data_validation_error, exceptions.py:338-360, with [context] given as a dictionary or left
    out, and the other keyword arguments at their defaults. *)
Definition update (d extra : list (string * string)) : list (string * string) := fold_left (fun acc kv => put (fst kv) (snd kv) acc) extra d.
Definition create_data_validation_error (message : string) (data_info context : list (string * string)) : error :=
  make_error DataValidationError message None [] (default_code DataValidationError) (update context data_info).

(** EXCEPTION_MAP, exceptions.py:423-431, and wrap_exception, 434-476. *)
Definition exception_map : list (string * error_class) :=
  [("ValueError", DataValidationError); ("RuntimeError", ProcessingError); ("TypeError", DataValidationError); ("KeyError", ConfigurationError);
   ("AttributeError", ConfigurationError); ("ImportError", DependencyError); ("ModuleNotFoundError", DependencyError)].
Fixpoint lookup {A} (k : string) (d : list (string * A)) : option A :=
  match d with [] => None | (k', v) :: r => if String.eqb k k' then Some v else lookup k r end.
Definition wrap_exception (original : exn) (message : option string) (cls : option error_class) : error :=
  let c := match cls with Some c => c | None => match lookup (exn_name original) exception_map with Some c => c | None => MarExError end end in
  let m := match message with Some m => m | None => exn_text original end in
  let e := make_error c m (Some ("Original " ++ exn_name original ++ ": " ++ exn_text original)%string) [] (default_code c)
             [("original_exception_type", exn_name original)] in
  {| e_class := e_class e; e_message := e_message e; e_details := e_details e; e_suggestions := e_suggestions e; e_code := e_code e;
     e_context := e_context e; e_text := e_text e; e_cause := Some original |}.
