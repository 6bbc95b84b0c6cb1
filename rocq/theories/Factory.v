(** Model of exceptions.py as objects that share dictionaries and lists.  Errors.v takes contexts as
    values; here they are objects, so that it can be said who sees whose changes.  A dictionary or a
    list is known by its place in the world.  Values are the strings they print as.  Keyword
    arguments the classes do not have (a TypeError) and subclasses made by the caller are left out. *)
From Coq Require Import String List Bool Arith.
Import ListNotations.
From Verif Require Import Errors.
Open Scope string_scope.
Open Scope list_scope.

(** What a MarExError holds, exceptions.py:46-53: the context and the suggestions are references. *)
Record held := { h_class : error_class; h_message : string; h_details : option string; h_code : option string; h_text : string;
  h_suggestions : nat; h_context : nat }.
Record world := { dicts : list (list (string * string)); lists : list (list string); made : list held }.
Definition dict_at (w : world) (a : nat) : list (string * string) := nth a (dicts w) [].
Definition list_at (w : world) (a : nat) : list string := nth a (lists w) [].
Fixpoint set_at {A} (a : nat) (x : A) (l : list A) : list A :=
  match l, a with [], _ => [] | _ :: r, 0 => x :: r | y :: r, S b => y :: set_at b x r end.
Definition set_dict (a : nat) (d : list (string * string)) (w : world) : world :=
  {| dicts := set_at a d (dicts w); lists := lists w; made := made w |}.
Definition set_list (a : nat) (l : list string) (w : world) : world := {| dicts := dicts w; lists := set_at a l (lists w); made := made w |}.
(** A dictionary or list display: a new object. *)
Definition new_dict (d : list (string * string)) (w : world) : nat * world :=
  (length (dicts w), {| dicts := dicts w ++ [d]; lists := lists w; made := made w |}).
Definition new_list (l : list string) (w : world) : nat * world :=
  (length (lists w), {| dicts := dicts w; lists := lists w ++ [l]; made := made w |}).

(** [context or {}], exceptions.py:50: an empty dictionary is replaced by a new one. *)
Definition dict_or_new (given : option nat) (w : world) : nat * world :=
  match given with
  | Some a => match dict_at w a with [] => new_dict [] w | _ => (a, w) end
  | None => new_dict [] w
  end.
(** [suggestions or []], exceptions.py:48. *)
Definition list_or_new (given : option nat) (w : world) : nat * world :=
  match given with
  | Some a => match list_at w a with [] => new_list [] w | _ => (a, w) end
  | None => new_list [] w
  end.
(** __init__, exceptions.py:36-53. *)
Definition construct (c : error_class) (message : string) (details : option string) (suggestions : option nat) (code : option string)
    (context : option nat) (w : world) : world :=
  let (l, w1) := list_or_new suggestions w in
  let (d, w2) := dict_or_new context w1 in
  {| dicts := dicts w2; lists := lists w2; made := made w2 ++
      [{| h_class := c; h_message := message; h_details := details; h_code := code;
          h_text := format_error message details (list_at w2 l) code (dict_at w2 d); h_suggestions := l; h_context := d |}] |}.

(** The [context] keyword of the factories: left out, given as None, or a dictionary. *)
Inductive keyword := Left_out | Given_none | Given (a : nat).
(** What create_data_validation_error (338-360), create_coordinate_error (363-394) and
    create_processing_error (397-419) share: kwargs.get('context', {}), the entries written into it,
    the class called with it.  None stands for the AttributeError (TypeError for
    create_coordinate_error) of writing into None. *)
Definition create_with (c : error_class) (message : string) (details : option string) (suggestions : option nat)
    (context : keyword) (entries : list (string * string)) (w : world) : option world :=
  match context with
  | Left_out => let (a, w1) := new_dict [] w in
      let w2 := match entries with [] => w1 | _ => set_dict a (update (dict_at w1 a) entries) w1 end in
      Some (construct c message details suggestions (default_code c) (Some a) w2)
  | Given_none => match entries with
      | [] => Some (construct c message details suggestions (default_code c) None w)
      | _ => None
      end
  | Given a => let w1 := match entries with [] => w | _ => set_dict a (update (dict_at w a) entries) w end in
      Some (construct c message details suggestions (default_code c) (Some a) w1)
  end.
(** create_data_validation_error, exceptions.py:338-360; [data_info] empty when not given. *)
Definition data_validation_error (message : string) (data_info : list (string * string)) details suggestions context (w : world) : option world :=
  create_with DataValidationError message details suggestions context data_info w.
(** create_coordinate_error, exceptions.py:363-394.  [ranges] is None when not given or empty, else
    what the dictionary prints as; [if detected_system] is false for the empty string. *)
Definition coordinate_error (message : string) (ranges detected : option string) details suggestions context (w : world) : option world :=
  create_with CoordinateError message details suggestions context
    (match ranges with Some r => [("coordinate_ranges", r)] | None => [] end
     ++ match nonempty detected with Some d => [("detected_system", d)] | None => [] end) w.
(** create_processing_error, exceptions.py:397-419. *)
Definition processing_error (message : string) (computation_info : list (string * string)) details suggestions context (w : world) : option world :=
  create_with ProcessingError message details suggestions context computation_info w.

(** What a program can do with these objects; errors are numbered as they are made. *)
Inductive action :=
  | Make_dict (d : list (string * string))
  | Make_list (l : list string)
  | Set_item (a : nat) (k v : string)
  | Append (a : nat) (s : string)
  | Raise (c : error_class) (message : string) (details : option string) (suggestions : option nat) (code : option string) (context : option nat)
  | Create_data (message : string) (info : list (string * string)) (details : option string) (suggestions : option nat) (context : keyword)
  | Create_coordinate (message : string) (ranges detected : option string) (details : option string) (suggestions : option nat) (context : keyword)
  | Create_processing (message : string) (info : list (string * string)) (details : option string) (suggestions : option nat) (context : keyword)
  | Add_suggestion (e : nat) (s : string)
  | Add_context (e : nat) (k v : string).
(** One action; an action that fails leaves everything as it was. *)
Definition act (x : action) (w : world) : world :=
  match x with
  | Make_dict d => snd (new_dict d w)
  | Make_list l => snd (new_list l w)
  | Set_item a k v => set_dict a (put k v (dict_at w a)) w
  | Append a s => set_list a (list_at w a ++ [s]) w
  | Raise c m d s code k => construct c m d s code k w
  | Create_data m i d s k => match data_validation_error m i d s k w with Some w' => w' | None => w end
  | Create_coordinate m r t d s k => match coordinate_error m r t d s k w with Some w' => w' | None => w end
  | Create_processing m i d s k => match processing_error m i d s k w with Some w' => w' | None => w end
  (* add_suggestion, exceptions.py:75-77 *)
  | Add_suggestion e s => match nth_error (made w) e with
      | Some h => set_list (h_suggestions h) (list_at w (h_suggestions h) ++ [s]) w | None => w end
  (* add_context, exceptions.py:79-81 *)
  | Add_context e k v => match nth_error (made w) e with
      | Some h => set_dict (h_context h) (put k v (dict_at w (h_context h))) w | None => w end
  end.
Definition acts (h : list action) (w : world) : world := fold_left (fun w x => act x w) h w.
