(** Property C65: error messages. *)
From Coq Require Import String Ascii List Lia.
From Verif Require Import Errors ErrorsSpec.
Import ListNotations.
Open Scope string_scope.
Open Scope list_scope.

Lemma app_assoc_s a b c : ((a ++ b) ++ c = a ++ b ++ c)%string.
Proof. induction a as [|x a IH]; cbn; [reflexivity|]. rewrite IH. reflexivity. Qed.
Lemma app_nil_s a : (a ++ "" = a)%string.
Proof. induction a as [|x a IH]; cbn; [reflexivity|]. rewrite IH. reflexivity. Qed.
Lemma in_order_left ps a t : in_order ps t -> in_order ps (a ++ t)%string.
Proof. destruct ps as [|p r]; [intro; exact I|]. intros (b & c & -> & H). exists (a ++ b)%string, c. split; [rewrite app_assoc_s; reflexivity|exact H]. Qed.
Lemma in_order_app ps qs s t : in_order ps s -> in_order qs t -> in_order (ps ++ qs) (s ++ t)%string.
Proof.
  revert s. induction ps as [|p r IH]; intros s P Q; [apply in_order_left; exact Q|]. destruct P as (a & b & -> & P). exists a, (b ++ t)%string.
  split; [rewrite !app_assoc_s; reflexivity|]. apply IH; assumption.
Qed.
Lemma in_order_one p : in_order [p] p.
Proof. exists "", "". split; [cbn; rewrite app_nil_s; reflexivity|exact I]. Qed.
Lemma in_order_join sep pss parts : Forall2 in_order pss parts -> in_order (concat pss) (join sep parts).
Proof.
  induction 1 as [|ps p pss parts P F IH]; [exact I|]. cbn [concat]. destruct parts as [|p' parts].
  - inversion F. subst. cbn. rewrite app_nil_r. exact P.
  - change (join sep (p :: p' :: parts)) with (p ++ sep ++ join sep (p' :: parts))%string. apply in_order_app; [exact P|]. apply in_order_left. exact IH.
Qed.
Lemma Forall2_app' {A B} (R : A -> B -> Prop) a b a' b' : Forall2 R a b -> Forall2 R a' b' -> Forall2 R (a ++ a') (b ++ b').
Proof. induction 1; intro H'; cbn; [exact H'|constructor; auto]. Qed.
Lemma Forall2_map' {A} (f g : A -> string) (R : list string -> string -> Prop) l : (forall x, R [f x] (g x)) -> Forall2 R (map (fun x => [f x]) l) (map g l).
Proof. intro H. induction l; cbn; constructor; auto. Qed.
Lemma concat_singles {A} (f : A -> string) l : concat (map (fun x => [f x]) l) = map f l.
Proof. induction l as [|x l IH]; [reflexivity|]. cbn. rewrite IH. reflexivity. Qed.

Lemma in_order_empty ps qs t : in_order (ps ++ qs) t -> in_order (ps ++ "" :: qs) t.
Proof.
  revert t. induction ps as [|p r IH]; intros t H; [exists "", t; split; [reflexivity|exact H]|]. destruct H as (a & b & -> & H). exists a, b. split; [reflexivity|]. apply IH. exact H.
Qed.
Lemma in_order_nonempty ps o qs t : in_order (ps ++ opt (nonempty o) ++ qs) t -> in_order (ps ++ opt o ++ qs) t.
Proof. destruct o as [[|c s]|]; cbn; intro H; [apply in_order_empty; exact H|exact H|exact H]. Qed.
Definition item (kv : string * string) : string := (fst kv ++ "=" ++ snd kv)%string.
Lemma format_in_order message details suggestions code context :
  in_order (message :: opt details ++ map item context ++ suggestions ++ opt code) (format_error message details suggestions code context).
Proof.
  change (message :: opt details ++ map item context ++ suggestions ++ opt code) with ([message] ++ opt details ++ (map item context ++ suggestions ++ opt code)).
  apply in_order_nonempty.
  assert (R : ([message] ++ opt (nonempty details) ++ map item context ++ suggestions ++ opt code) = ([message] ++ opt (nonempty details) ++ map item context ++ suggestions) ++ opt code ++ []) by (rewrite app_nil_r, <- !app_assoc; reflexivity).
  rewrite R. apply in_order_nonempty. rewrite app_nil_r, <- !app_assoc. clear R. unfold format_error.
  assert (E : [message] ++ opt (nonempty details) ++ map item context ++ suggestions ++ opt (nonempty code) =
              concat ([[message]] ++ match nonempty details with Some d => [[d]] | None => [] end ++ match context with [] => [] | _ => [map item context] end
                      ++ match suggestions with [] => [] | _ => [suggestions] end ++ match nonempty code with Some c => [[c]] | None => [] end)).
  { rewrite !concat_app. cbn [concat]. rewrite !app_nil_r. f_equal. f_equal; [destruct (nonempty details); reflexivity|]. f_equal; [destruct context; cbn; rewrite ?app_nil_r; reflexivity|].
    f_equal; [destruct suggestions; cbn; rewrite ?app_nil_r; reflexivity|destruct (nonempty code); reflexivity]. }
  rewrite E. apply in_order_join.
  apply Forall2_app'; [constructor; [apply in_order_one|constructor]|].
  apply Forall2_app'; [destruct (nonempty details); constructor; [apply (in_order_left _ "Details: "), in_order_one|constructor]|].
  apply Forall2_app'; [destruct context as [|kv c]; constructor; [|constructor]|].
  { apply (in_order_left _ "Context: "). rewrite <- (concat_singles item). apply in_order_join, Forall2_map'. intro x. apply in_order_one. }
  apply Forall2_app'; [destruct suggestions as [|x l]; constructor; [|constructor]|].
  { apply (in_order_left _ "Suggestions:"), in_order_left. rewrite <- (map_id (x :: l)) at 1. rewrite <- (concat_singles (fun s => s)). apply in_order_join, (Forall2_map' (fun s => s)). intro y. apply (in_order_left _ "  - "), in_order_one. }
  destruct (nonempty code); constructor; [apply (in_order_left _ "Error Code: "), in_order_one|constructor].
Qed.

(** C65. Everything given at construction is in the text, in order. *)
Theorem C65_text_carries_everything_partial : forall c message details suggestions code context,
  let e := make_error c message details suggestions code context in
  in_order (message :: opt details ++ map (fun kv => fst kv ++ "=" ++ snd kv)%string context ++ suggestions ++ opt code) (e_text e) /\
  e_class e = c /\ e_message e = message /\ e_suggestions e = suggestions /\ e_code e = code /\ e_context e = context.
Proof. intros c message details suggestions code context e. split; [apply format_in_order|]. repeat split. Qed.
Print Assumptions C65_text_carries_everything_partial.
Example C65_case : e_text (make_error ConfigurationError "bad" (Some "why") ["a"; "b"] (Some "X") [("k", "1"); ("l", "2")]) =
  ("bad" ++ newline ++ "Details: why" ++ newline ++ "Context: k=1, l=2" ++ newline ++ "Suggestions:" ++ newline ++ "  - a" ++ newline ++ "  - b" ++ newline ++ "Error Code: X")%string.
Proof. reflexivity. Qed.
(** Suggestions and context added later are not: the text never changes. *)
Theorem C65_added_later_refuted : forall e s k v, e_text (add_suggestion s e) = e_text e /\ e_text (add_context k v e) = e_text e /\
  In s (e_suggestions (add_suggestion s e)).
Proof. intros e s k v. split; [reflexivity|]. split; [reflexivity|]. cbn. apply in_or_app. right. left. reflexivity. Qed.
Print Assumptions C65_added_later_refuted.

(** Context items: the newest value of a key is the one kept, the others stay. *)
Lemma put_In k v d k' v' : NoDup (map fst d) -> (In (k', v') (put k v d) <-> (k' = k /\ v' = v) \/ (k' <> k /\ In (k', v') d)).
Proof.
  induction d as [|(a, b) d IH]; intro N; cbn.
  - split; [intros [H|[]]; injection H as <- <-; left; split; reflexivity|]. intros [[-> ->]|[_ []]]. left. reflexivity.
  - inversion N as [|? ? Na Nd]; subst. specialize (IH Nd). destruct (String.eqb_spec k a) as [->|D]; cbn.
    + split.
      * intros [H|H]; [injection H as <- <-; left; split; reflexivity|]. right. split; [|right; exact H]. intros ->. apply Na. apply (in_map fst) in H. exact H.
      * intros [[-> ->]|[H [E|I]]]; [left; reflexivity|injection E as -> ->; congruence|right; exact I].
    + rewrite IH. split.
      * intros [H|[H|[H I]]]; [injection H as <- <-; right; split; [congruence|left; reflexivity]|left; exact H|right; split; [exact H|right; exact I]].
      * intros [H|[H [E|I]]]; [right; left; exact H|left; exact E|right; right; split; assumption].
Qed.
Lemma put_keys k v d x : In x (map fst (put k v d)) <-> x = k \/ In x (map fst d).
Proof.
  induction d as [|(a, b) d IH]; cbn; [intuition|]. destruct (String.eqb_spec k a) as [->|D]; cbn; [intuition|]. rewrite IH. intuition.
Qed.
Lemma put_NoDup k v d : NoDup (map fst d) -> NoDup (map fst (put k v d)).
Proof.
  induction d as [|(a, b) d IH]; intro N; cbn; [constructor; [intros []|constructor]|]. inversion N as [|? ? Na Nd]; subst.
  destruct (String.eqb_spec k a) as [->|D]; cbn; [exact N|]. constructor; [|apply IH; exact Nd]. rewrite put_keys. intros [->|H]; [congruence|contradiction].
Qed.
Theorem C65_newest_context_wins : forall e k v, NoDup (map fst (e_context e)) ->
  NoDup (map fst (e_context (add_context k v e))) /\
  forall k' v', In (k', v') (e_context (add_context k v e)) <-> (k' = k /\ v' = v) \/ (k' <> k /\ In (k', v') (e_context e)).
Proof. intros e k v N. split; [apply put_NoDup; exact N|]. intros k' v'. apply put_In. exact N. Qed.
Print Assumptions C65_newest_context_wins.
(** create_data_validation_error: what is known about the data replaces what the
    caller's context says under the same name, and the text shows it. *)
Theorem C65_data_info_wins : forall message data_info context, NoDup (map fst context) -> NoDup (map fst data_info) ->
  let e := create_data_validation_error message data_info context in
  NoDup (map fst (e_context e)) /\
  (forall k v, In (k, v) (e_context e) <-> In (k, v) data_info \/ (In (k, v) context /\ ~ In k (map fst data_info))) /\
  (forall k v, In (k, v) (e_context e) -> in_order [message; k; v; "DATA_VALIDATION"] (e_text e)).
Proof.
  intros message data_info context Nc Nd e.
  assert (K : forall d c, NoDup (map fst c) -> NoDup (map fst d) -> NoDup (map fst (update c d)) /\
    forall k v, In (k, v) (update c d) <-> In (k, v) d \/ (In (k, v) c /\ ~ In k (map fst d))).
  { induction d as [|(a, b) d IH]; intros c Hc Hd; [split; [exact Hc|]; intros k v; cbn; intuition|].
    cbn [map fst] in Hd. inversion Hd as [|? ? Ha Hd']; subst. change (update c ((a, b) :: d)) with (update (put a b c) d).
    destruct (IH (put a b c) (put_NoDup a b c Hc) Hd') as [I1 I2]. split; [exact I1|]. intros k v. rewrite I2, put_In by exact Hc. cbn [In map fst]. split.
    - intros [H|[[[-> ->]|[H1 H2]] H3]]; [left; right; exact H|left; left; reflexivity|right; split; [exact H2|]; intros [->|H4]; [congruence|contradiction]].
    - intros [[H|H]|[H1 H2]]; [injection H as -> ->; right; split; [left; split; reflexivity|exact Ha]|left; exact H|].
      right. split; [right; split; [intros ->; apply H2; left; reflexivity|exact H1]|]. intro H3. apply H2. right. exact H3. }
  destruct (K data_info context Nc Nd) as [K1 K2]. split; [exact K1|]. split; [exact K2|].
  intros k v H. unfold e, create_data_validation_error. cbn [e_text make_error e_context] in H |- *.
  pose proof (format_in_order message None [] (default_code DataValidationError) (update context data_info)) as F. cbn [opt app default_code] in F.
  change (e_context e) with (update context data_info) in H. apply in_split in H. destruct H as (l1 & l2 & E). rewrite E in F |- *. rewrite map_app in F. cbn [map] in F.
  destruct F as (a & b & Eb & F). exists a, b. split; [exact Eb|]. clear Eb a.
  assert (S1 : forall ps qs t, in_order (ps ++ qs) t -> in_order qs t).
  { induction ps as [|p ps IH]; intros qs t G; [exact G|]. destruct G as (x & y & -> & G). apply (IH qs) in G. apply in_order_left, in_order_left. exact G. }
  rewrite <- app_assoc in F. apply S1 in F. cbn [app] in F. destruct F as (x & y & -> & F). unfold item. cbn [fst snd].
  apply S1 in F. exists x, ("=" ++ v ++ y)%string. split; [rewrite <- !app_assoc_s; reflexivity|]. exists "=", y. split; [reflexivity|]. exact F.
Qed.
Print Assumptions C65_data_info_wins.
Example C65_data_info_case : e_context (create_data_validation_error "bad" [("shape", "(3,)"); ("units", "K")] [("units", "C"); ("file", "a.nc")]) =
  [("units", "K"); ("file", "a.nc"); ("shape", "(3,)")].
Proof. reflexivity. Qed.

(** Wrapping keeps the cause, picks the class, and shows name and text of the original. *)
Theorem C65_wrap : forall original message cls, let e := wrap_exception original message cls in
  e_cause e = Some original /\
  (forall c, cls = Some c -> e_class e = c) /\
  (cls = None -> In (exn_name original) ["ValueError"; "TypeError"] -> e_class e = DataValidationError) /\
  (cls = None -> exn_name original = "RuntimeError" -> e_class e = ProcessingError) /\
  (cls = None -> In (exn_name original) ["KeyError"; "AttributeError"] -> e_class e = ConfigurationError) /\
  (cls = None -> In (exn_name original) ["ImportError"; "ModuleNotFoundError"] -> e_class e = DependencyError) /\
  (cls = None -> ~ In (exn_name original) ["ValueError"; "TypeError"; "RuntimeError"; "KeyError"; "AttributeError"; "ImportError"; "ModuleNotFoundError"] ->
     e_class e = MarExError) /\
  e_code e = match e_class e with
    | MarExError => None | DataValidationError => Some "DATA_VALIDATION" | CoordinateError => Some "COORDINATE_ERROR"
    | ProcessingError => Some "PROCESSING_ERROR" | ConfigurationError => Some "CONFIGURATION_ERROR"
    | DependencyError => Some "DEPENDENCY_ERROR" | TrackingError => Some "TRACKING_ERROR" | VisualisationError => Some "VISUALISATION_ERROR"
    end /\
  in_order [match message with Some m => m | None => exn_text original end; exn_name original; exn_text original; exn_name original] (e_text e).
Proof.
  intros [name text] message cls e. split; [reflexivity|]. split; [intros c ->; reflexivity|].
  split; [intros -> H; cbn in H; destruct H as [<-|[<-|[]]]; reflexivity|].
  split; [intros -> H; cbn in H; subst name; reflexivity|].
  split; [intros -> H; cbn in H; destruct H as [<-|[<-|[]]]; reflexivity|].
  split; [intros -> H; cbn in H; destruct H as [<-|[<-|[]]]; reflexivity|].
  split; [|split].
  - intros -> N. unfold e, wrap_exception. cbn [e_class make_error exn_name]. cbn [exn_name] in N.
    assert (L : lookup name exception_map = None); [|rewrite L; reflexivity].
    unfold exception_map. cbn [lookup].
    repeat match goal with |- context [String.eqb name ?k] => destruct (String.eqb_spec name k) as [X|_]; [exfalso; apply N; rewrite X; cbn; tauto|] end. reflexivity.
  - unfold e, wrap_exception. cbn. reflexivity.
  - set (m := match message with Some m => m | None => text end). set (c := e_class e).
    assert (T : e_text e = format_error m (Some ("Original " ++ name ++ ": " ++ text)%string) [] (default_code c) [("original_exception_type", name)]) by reflexivity.
    rewrite T. cbn [exn_name exn_text]. change [match message with Some m0 => m0 | None => text end; name; text; name] with ([m] ++ [name; text] ++ [name]).
    pose proof (format_in_order m (Some ("Original " ++ name ++ ": " ++ text)%string) [] (default_code c) [("original_exception_type", name)]) as F.
    cbn [opt map app] in F. destruct F as (a & b & E1 & a' & b' & E2 & a'' & b'' & E3 & _). exists a, b. split; [exact E1|]. rewrite E2, E3.
    apply in_order_left. apply (in_order_app [name; text] [name]).
    + apply (in_order_left _ "Original "). exists "", (": " ++ text)%string. split; [reflexivity|]. apply (in_order_left _ ": "), in_order_one.
    + apply in_order_left. unfold item. cbn [fst snd]. exists "original_exception_type=", b''. split; [rewrite <- app_assoc_s; reflexivity|exact I].
Qed.
Print Assumptions C65_wrap.
Example C65_wrap_case : e_class (wrap_exception {| exn_name := "KeyError"; exn_text := "'lat'" |} None None) = ConfigurationError /\
  e_class (wrap_exception {| exn_name := "OSError"; exn_text := "disk" |} None None) = MarExError.
Proof. split; reflexivity. Qed.
