(** Properties of error objects that share dictionaries and lists. *)
From Coq Require Import String List Bool Arith Lia.
Import ListNotations.
From Verif Require Import Errors ErrorsSpec ErrorsProps Factory.
Open Scope string_scope.
Open Scope list_scope.

(** ** Specification: what the program itself did to an error, and what it passed on. *)
Definition own_context (e : nat) (h : list action) : list (string * string) :=
  flat_map (fun x => match x with Add_context e' k v => if Nat.eqb e' e then [(k, v)] else [] | _ => [] end) h.
Definition own_suggestions (e : nat) (h : list action) : list string :=
  flat_map (fun x => match x with Add_suggestion e' s => if Nat.eqb e' e then [s] else [] | _ => [] end) h.
(** The action names dictionary [a], or list [a]. *)
Definition names_dict (a : nat) (x : action) : Prop :=
  match x with
  | Set_item a' _ _ => a' = a
  | Raise _ _ _ _ _ k => k = Some a
  | Create_data _ _ _ _ k | Create_coordinate _ _ _ _ _ k | Create_processing _ _ _ _ k => k = Given a
  | _ => False
  end.
Definition names_list (a : nat) (x : action) : Prop :=
  match x with
  | Append a' _ => a' = a
  | Raise _ _ _ s _ _ | Create_data _ _ _ s _ | Create_coordinate _ _ _ _ s _ | Create_processing _ _ _ s _ => s = Some a
  | _ => False
  end.
(** No other error holds the dictionary or the list of error [e]. *)
Definition alone (w : world) (e : nat) (h : held) : Prop :=
  forall e' h', e' <> e -> nth_error (made w) e' = Some h' -> h_context h' <> h_context h /\ h_suggestions h' <> h_suggestions h.
Definition empty_world : world := {| dicts := []; lists := []; made := [] |}.
Definition reachable (w : world) : Prop := exists h, w = acts h empty_world.

(** ** Proofs *)
Lemma set_at_length {A} a (x : A) l : length (set_at a x l) = length l.
Proof. revert a. induction l as [|y l IH]; intros [|a]; cbn; try reflexivity. rewrite IH. reflexivity. Qed.
Lemma set_at_same {A} a (x d : A) l : a < length l -> nth a (set_at a x l) d = x.
Proof. revert a. induction l as [|y l IH]; intros [|a] H; cbn in *; try lia; [reflexivity|]. apply IH. lia. Qed.
Lemma set_at_other {A} a b (x d : A) l : b <> a -> nth b (set_at a x l) d = nth b l d.
Proof. revert a b. induction l as [|y l IH]; intros [|a] [|b] H; cbn; try reflexivity; try lia. apply IH. lia. Qed.

(** What [construct] does to the world. *)
Record grown (w w' : world) (c : error_class) (m : string) (det : option string) (code : option string)
    (s k : option nat) (h : held) : Prop := {
  g_made : made w' = made w ++ [h];
  g_class : h_class h = c; g_message : h_message h = m; g_details : h_details h = det; g_code : h_code h = code;
  g_text : h_text h = format_error m det (list_at w' (h_suggestions h)) code (dict_at w' (h_context h));
  g_dicts : exists r, dicts w' = dicts w ++ r; g_lists : exists r, lists w' = lists w ++ r;
  g_context : dict_at w' (h_context h) = match k with Some a => dict_at w a | None => [] end;
  g_suggestions : list_at w' (h_suggestions h) = match s with Some a => list_at w a | None => [] end;
  g_dict_in : h_context h < length (dicts w'); g_list_in : h_suggestions h < length (lists w');
  g_dict_from : length (dicts w) <= h_context h \/ k = Some (h_context h);
  g_list_from : length (lists w) <= h_suggestions h \/ s = Some (h_suggestions h) }.
Lemma in_range {A} a (l : list (list A)) x r : nth a l [] = x :: r -> a < length l.
Proof. intro H. destruct (Nat.lt_ge_cases a (length l)) as [L|L]; [exact L|]. rewrite nth_overflow in H by exact L. discriminate H. Qed.
Lemma construct_grown c m det s code k w : exists h, grown w (construct c m det s code k w) c m det code s k h.
Proof.
  assert (N : forall {A} (l : list (list A)), nth (length l) (l ++ [[]]) [] = []) by (intros A l; rewrite app_nth2 by lia; rewrite Nat.sub_diag; reflexivity).
  unfold construct, list_or_new, dict_or_new, new_list, new_dict, list_at, dict_at.
  destruct s as [s|]; [destruct (nth s (lists w) []) as [|s0 sr] eqn:Es|]; (destruct k as [k|]; [cbn [dicts]; destruct (nth k (dicts w) []) as [|k0 kr] eqn:Ek|]);
    cbn [dicts lists made fst snd];
    (eexists; constructor; unfold list_at, dict_at; cbn [dicts lists made h_class h_message h_details h_code h_text h_suggestions h_context];
     [reflexivity|reflexivity|reflexivity|reflexivity|reflexivity|reflexivity| | | | | | | | ]);
    cbn [dicts lists made h_class h_message h_details h_code h_text h_suggestions h_context];
    try (rewrite !N; congruence); try congruence;
    try (eexists; reflexivity); try (exists []; rewrite app_nil_r; reflexivity);
    try (rewrite app_length; cbn; lia); try (left; lia); try (right; reflexivity); try (eapply in_range; eassumption).
Qed.
(** Everything an action can do, seen from one dictionary and one list. *)
Definition sound (w : world) : Prop := forall e h, nth_error (made w) e = Some h ->
  h_context h < length (dicts w) /\ h_suggestions h < length (lists w).
Record changed (w w' : world) (a b : nat) (hs : list held) (d : list (string * string) -> list (string * string)) (l : list string -> list string) : Prop := {
  c_made : made w' = made w ++ hs;
  c_dicts : length (dicts w) <= length (dicts w'); c_lists : length (lists w) <= length (lists w');
  c_dict : a < length (dicts w) -> dict_at w' a = d (dict_at w a);
  c_list : b < length (lists w) -> list_at w' b = l (list_at w b);
  c_in : forall h, In h hs -> h_context h < length (dicts w') /\ h_suggestions h < length (lists w') /\
    (a < length (dicts w) -> h_context h = a -> False) /\ (b < length (lists w) -> h_suggestions h = b -> False) }.
Lemma grown_changed w w' c m det code s k h a b : grown w w' c m det code s k h -> k <> Some a -> s <> Some b ->
  changed w w' a b [h] (fun x => x) (fun x => x).
Proof.
  intros [G1 _ _ _ _ _ [r1 G2] [r2 G3] _ _ G4 G5 G6 G7] Nk Ns. constructor.
  - exact G1.
  - rewrite G2, app_length. lia.
  - rewrite G3, app_length. lia.
  - intro L. unfold dict_at. rewrite G2. apply app_nth1. exact L.
  - intro L. unfold list_at. rewrite G3. apply app_nth1. exact L.
  - intros x [<-|[]]. split; [exact G4|]. split; [exact G5|]. split; intros L E.
    + destruct G6 as [G6|G6]; [lia|]. subst a. exact (Nk G6).
    + destruct G7 as [G7|G7]; [lia|]. subst b. exact (Ns G7).
Qed.
Lemma changed_refl w a b : changed w w a b [] (fun x => x) (fun x => x).
Proof. constructor; try reflexivity; try lia. - rewrite app_nil_r. reflexivity. - intros h []. Qed.
Lemma changed_after w w1 w2 a b hs : changed w1 w2 a b hs (fun x => x) (fun x => x) ->
  made w1 = made w -> length (dicts w) <= length (dicts w1) -> lists w1 = lists w -> (a < length (dicts w) -> dict_at w1 a = dict_at w a) ->
  changed w w2 a b hs (fun x => x) (fun x => x).
Proof.
  intros [C1 C2 C3 C4 C5 C6] M L E D. constructor.
  - rewrite C1, M. reflexivity.
  - lia.
  - rewrite <- E. exact C3.
  - intro H. rewrite C4 by lia. apply D. exact H.
  - intro H. rewrite <- E in H. rewrite (C5 H). unfold list_at. rewrite E. reflexivity.
  - intros h Hh. destruct (C6 h Hh) as (I1 & I2 & I3 & I4). split; [exact I1|]. split; [exact I2|]. split; [|rewrite <- E; exact I4]. intro H. apply I3. lia.
Qed.
Lemma create_changed c m det s k entries w w' a b : create_with c m det s k entries w = Some w' -> k <> Given a -> s <> Some b ->
  exists hs, changed w w' a b hs (fun x => x) (fun x => x).
Proof.
  unfold create_with. intros E Nk Ns. destruct k as [| |k].
  - unfold new_dict in E. cbn [fst snd] in E.
    set (w1 := {| dicts := dicts w ++ [[]]; lists := lists w; made := made w |}) in *.
    set (w2 := match entries with [] => w1 | _ :: _ => set_dict (length (dicts w)) (update (dict_at w1 (length (dicts w))) entries) w1 end) in *.
    injection E as <-.
    assert (F : made w2 = made w /\ lists w2 = lists w /\ length (dicts w2) = S (length (dicts w)) /\ (a < length (dicts w) -> dict_at w2 a = dict_at w a)).
    { unfold w2. destruct entries as [|x r]; cbn [made lists dicts set_dict w1].
      - split; [reflexivity|]. split; [reflexivity|]. split; [rewrite app_length; cbn; lia|]. intro L. unfold dict_at. cbn [dicts]. apply app_nth1. exact L.
      - split; [reflexivity|]. split; [reflexivity|]. split; [rewrite set_at_length, app_length; cbn; lia|]. intro L. unfold dict_at at 1. cbn [dicts set_dict].
        rewrite set_at_other by lia. unfold w1. cbn [dicts]. rewrite app_nth1 by exact L. reflexivity. }
    destruct F as (F1 & F2 & F3 & F4). destruct (construct_grown c m det s (default_code c) (Some (length (dicts w))) w2) as [h G]. exists [h].
    destruct (Nat.lt_ge_cases a (length (dicts w))) as [L|L].
    + apply (changed_after w w2); [|exact F1|lia|exact F2|exact F4]. apply (grown_changed _ _ _ _ _ _ _ _ _ _ _ G); [|exact Ns]. intro X. injection X as X. lia.
    + destruct G as [G1 _ _ _ _ _ [r1 G2] [r2 G3] _ _ G4 G5 G6 G7]. constructor.
      * rewrite G1, F1. reflexivity.
      * rewrite G2, app_length. lia.
      * rewrite G3, app_length, F2. lia.
      * lia.
      * intro H. unfold list_at. rewrite G3, F2. apply app_nth1. exact H.
      * intros x [<-|[]]. split; [exact G4|]. split; [exact G5|]. split; [lia|]. intros H X. destruct G7 as [G7|G7]; [rewrite F2 in G7; lia|]. subst b. exact (Ns G7).
  - destruct entries as [|x r]; [|discriminate E]. injection E as <-. destruct (construct_grown c m det s (default_code c) None w) as [h G]. exists [h].
    apply (grown_changed _ _ _ _ _ _ _ _ _ _ _ G); [discriminate|exact Ns].
  - set (w1 := match entries with [] => w | _ :: _ => set_dict k (update (dict_at w k) entries) w end) in *. injection E as <-.
    destruct (construct_grown c m det s (default_code c) (Some k) w1) as [h G]. exists [h]. assert (N : k <> a) by congruence.
    apply (changed_after w w1).
    + apply (grown_changed _ _ _ _ _ _ _ _ _ _ _ G); [congruence|exact Ns].
    + unfold w1. destruct entries; reflexivity.
    + unfold w1. destruct entries; [lia|]. cbn. rewrite set_at_length. lia.
    + unfold w1. destruct entries; reflexivity.
    + intros _. unfold w1. destruct entries; [reflexivity|]. unfold dict_at at 1. cbn [dicts set_dict]. apply set_at_other. congruence.
Qed.
Lemma act_keeps x w a b : ~ names_dict a x -> ~ names_list b x ->
  (forall e k v h, x = Add_context e k v -> nth_error (made w) e = Some h -> h_context h <> a) ->
  (forall e s h, x = Add_suggestion e s -> nth_error (made w) e = Some h -> h_suggestions h <> b) ->
  exists hs, changed w (act x w) a b hs (fun x => x) (fun x => x).
Proof.
  intros Nd Nl Ok Os. destruct x as [d|l|a' k v|a' s|c m d s code k|m i d s k|m r t d s k|m i d s k|e s|e k v]; cbn [act].
  - exists []. constructor; cbn; try reflexivity.
    + rewrite app_nil_r. reflexivity.
    + rewrite app_length. lia.
    + intro L. unfold dict_at. cbn. apply app_nth1. exact L.
    + intros h [].
  - exists []. constructor; cbn; try reflexivity.
    + rewrite app_nil_r. reflexivity.
    + rewrite app_length. lia.
    + intro L. unfold list_at. cbn. apply app_nth1. exact L.
    + intros h [].
  - exists []. constructor; cbn; try reflexivity.
    + rewrite app_nil_r. reflexivity.
    + rewrite set_at_length. lia.
    + intros _. unfold dict_at at 1. cbn. apply set_at_other. intros ->. apply Nd. reflexivity.
    + intros h [].
  - exists []. constructor; cbn; try reflexivity.
    + rewrite app_nil_r. reflexivity.
    + rewrite set_at_length. lia.
    + intros _. unfold list_at at 1. cbn. apply set_at_other. intros ->. apply Nl. reflexivity.
    + intros h [].
  - destruct (construct_grown c m d s code k w) as [h G]. exists [h]. exact (grown_changed _ _ _ _ _ _ _ _ _ _ _ G Nd Nl).
  - destruct (data_validation_error m i d s k w) as [w'|] eqn:E; [|exists []; apply changed_refl]. exact (create_changed _ _ _ _ _ _ _ _ _ _ E Nd Nl).
  - destruct (coordinate_error m r t d s k w) as [w'|] eqn:E; [|exists []; apply changed_refl]. exact (create_changed _ _ _ _ _ _ _ _ _ _ E Nd Nl).
  - destruct (processing_error m i d s k w) as [w'|] eqn:E; [|exists []; apply changed_refl]. exact (create_changed _ _ _ _ _ _ _ _ _ _ E Nd Nl).
  - destruct (nth_error (made w) e) as [h|] eqn:E; [|exists []; apply changed_refl]. exists []. constructor; cbn; try reflexivity.
    + rewrite app_nil_r. reflexivity.
    + rewrite set_at_length. lia.
    + intros _. unfold list_at at 1. cbn. apply set_at_other. intro X. exact (Os e s h eq_refl E (eq_sym X)).
    + intros h' [].
  - destruct (nth_error (made w) e) as [h|] eqn:E; [|exists []; apply changed_refl]. exists []. constructor; cbn; try reflexivity.
    + rewrite app_nil_r. reflexivity.
    + rewrite set_at_length. lia.
    + intros _. unfold dict_at at 1. cbn. apply set_at_other. intro X. exact (Ok e k v h eq_refl E (eq_sym X)).
    + intros h' [].
Qed.
(** No action ever takes an error away or changes what it holds, and what the errors hold exists. *)
Lemma act_made x w : sound w -> (exists hs, made (act x w) = made w ++ hs) /\ sound (act x w) /\
  length (dicts w) <= length (dicts (act x w)) /\ length (lists w) <= length (lists (act x w)).
Proof.
  intro So.
  assert (K : exists hs, made (act x w) = made w ++ hs /\ length (dicts w) <= length (dicts (act x w)) /\ length (lists w) <= length (lists (act x w)) /\
    forall h, In h hs -> h_context h < length (dicts (act x w)) /\ h_suggestions h < length (lists (act x w))).
  { set (a := S (length (dicts (act x w)) + length (dicts w)
               + match x with Set_item a _ _ => a | Raise _ _ _ _ _ (Some a) => a | Create_data _ _ _ _ (Given a) | Create_coordinate _ _ _ _ _ (Given a) | Create_processing _ _ _ _ (Given a) => a | _ => 0 end)).
    set (b := S (length (lists (act x w)) + length (lists w)
               + match x with Append a _ => a | Raise _ _ _ (Some a) _ _ | Create_data _ _ _ (Some a) _ | Create_coordinate _ _ _ _ (Some a) _ | Create_processing _ _ _ (Some a) _ => a | _ => 0 end)).
    destruct (act_keeps x w a b) as [hs [C1 C2 C3 _ _ C6]].
    - subst a. intro N. destruct x as [| |? ? ?|? ?|? ? ? ? ? k|? ? ? ? k|? ? ? ? ? k|? ? ? ? k| | ]; cbn [names_dict] in N; try contradiction; [lia|..];
        destruct k; try discriminate N; injection N as N; lia.
    - subst b. intro N. destruct x as [| |? ? ?|? ?|? ? ? s ? ?|? ? ? s ?|? ? ? ? s ?|? ? ? s ?| | ]; cbn [names_list] in N; try contradiction; [lia|..];
        destruct s; try discriminate N; injection N as N; lia.
    - intros e k v h _ E. pose proof (proj1 (So e h E)). unfold a. lia.
    - intros e s h _ E. pose proof (proj2 (So e h E)). unfold b. lia.
    - exists hs. split; [exact C1|]. split; [exact C2|]. split; [exact C3|]. intros h Hh. destruct (C6 h Hh) as (I1 & I2 & _). split; assumption. }
  destruct K as (hs & K1 & K2 & K3 & K4). split; [exists hs; exact K1|]. split; [|split; assumption].
  intros e h E. rewrite K1 in E. destruct (Nat.lt_ge_cases e (length (made w))) as [L|L].
  - rewrite nth_error_app1 in E by exact L. destruct (So e h E). split; lia.
  - rewrite nth_error_app2 in E by exact L. apply K4. exact (nth_error_In _ _ E).
Qed.

Lemma acts_made hist : forall w, sound w -> (exists hs, made (acts hist w) = made w ++ hs) /\ sound (acts hist w) /\
  length (dicts w) <= length (dicts (acts hist w)) /\ length (lists w) <= length (lists (acts hist w)).
Proof.
  induction hist as [|x hist IH]; intros w So.
  - cbn. split; [exists []; rewrite app_nil_r; reflexivity|]. split; [exact So|]. split; lia.
  - change (acts (x :: hist) w) with (acts hist (act x w)). destruct (act_made x w So) as ([h1 M1] & S1 & L1 & L2).
    destruct (IH _ S1) as ([h2 M2] & S2 & L3 & L4). split; [exists (h1 ++ h2); rewrite M2, M1, app_assoc; reflexivity|]. split; [exact S2|]. split; lia.
Qed.
Lemma reachable_sound w : reachable w -> sound w.
Proof. intros [h ->]. apply acts_made. intros e x E. destruct e; discriminate E. Qed.
Lemma old_error w hs e (h : held) w' : made w' = made w ++ hs -> nth_error (made w) e = Some h -> nth_error (made w') e = Some h.
Proof. intros M E. rewrite M, nth_error_app1; [exact E|]. apply nth_error_Some. rewrite E. discriminate. Qed.

(** ** C173: an error keeps to itself *)
(** Whatever happens afterwards, an error stays what it was, and says what it said. *)
Theorem C173_text_stays : forall w e h hist, reachable w -> nth_error (made w) e = Some h -> nth_error (made (acts hist w)) e = Some h.
Proof. intros w e h hist R E. destruct (acts_made hist w (reachable_sound w R)) as ([hs M] & _). exact (old_error w hs e h _ M E). Qed.
Print Assumptions C173_text_stays.

(** The claim: what is added to one error, or to a dictionary handed over before, is not
    seen in another.  False: errors built with the same dictionary, or the same list, share it. *)
Definition shared_program : list action :=
  [Make_dict [("file", "a.nc")]; Make_list ["look"]; Raise ConfigurationError "first" None (Some 0) (Some "X") (Some 0);
   Raise TrackingError "second" None (Some 0) (Some "Y") (Some 0)].
Theorem C173_own_context_refuted : exists w e e' h h', reachable w /\ e <> e' /\ nth_error (made w) e = Some h /\ nth_error (made w) e' = Some h' /\
  dict_at (act (Add_context e "step" "7") w) (h_context h') <> dict_at w (h_context h') /\
  list_at (act (Add_suggestion e "retry") w) (h_suggestions h') <> list_at w (h_suggestions h') /\
  exists a k v, dict_at (act (Set_item a k v) w) (h_context h') <> dict_at w (h_context h').
Proof.
  exists (acts shared_program empty_world), 0, 1. eexists. eexists. split; [exists shared_program; reflexivity|]. split; [discriminate|].
  split; [reflexivity|]. split; [reflexivity|]. split; [cbn; discriminate|]. split; [cbn; discriminate|]. exists 0, "file", "b.nc". cbn. discriminate.
Qed.
Print Assumptions C173_own_context_refuted.

(** Proved: an error whose dictionary and list no other error holds, and that the program does not
    hand over or write to again, holds at any later time exactly what it was built with and what
    was added to it, whatever else is built and changed in between. *)
Theorem C173_own_context_partial : forall w e h hist, reachable w -> nth_error (made w) e = Some h -> alone w e h ->
  (forall x, In x hist -> ~ names_dict (h_context h) x /\ ~ names_list (h_suggestions h) x) ->
  dict_at (acts hist w) (h_context h) = update (dict_at w (h_context h)) (own_context e hist) /\
  list_at (acts hist w) (h_suggestions h) = list_at w (h_suggestions h) ++ own_suggestions e hist.
Proof.
  intros w e h hist R E A N. apply reachable_sound in R. revert w R E A. induction hist as [|x hist IH]; intros w So E A.
  - cbn. rewrite app_nil_r. split; reflexivity.
  - change (acts (x :: hist) w) with (acts hist (act x w)). destruct (So e h E) as [Ld Ll].
    destruct (N x (or_introl eq_refl)) as [Nd Nl]. destruct (act_made x w So) as ([hs M] & So' & _).
    pose proof (old_error w hs e h _ M E) as E'.
    assert (D : (exists k v, x = Add_context e k v) \/ (exists s, x = Add_suggestion e s) \/
      ((forall k v, x <> Add_context e k v) /\ (forall s, x <> Add_suggestion e s))).
    { destruct x as [| | | | | | | |e0 s|e0 k v]; try (right; right; split; intros; discriminate).
      - destruct (Nat.eq_dec e0 e) as [->|D]; [right; left; eexists; reflexivity|]. right. right. split; intros; congruence.
      - destruct (Nat.eq_dec e0 e) as [->|D]; [left; eexists; eexists; reflexivity|]. right. right. split; intros; congruence. }
    destruct D as [(k & v & ->)|[(s & ->)|[D1 D2]]].
    + assert (A' : alone (act (Add_context e k v) w) e h) by (cbn [act]; rewrite E; exact A).
      destruct (IH (fun y Hy => N y (or_intror Hy)) _ So' E' A') as [I1 I2]. rewrite I1, I2. cbn [act]. rewrite E.
      assert (P : forall d, dict_at (set_dict (h_context h) d w) (h_context h) = d) by (intro d; unfold dict_at; cbn; apply set_at_same; exact Ld).
      rewrite P. unfold own_context, own_suggestions. cbn [flat_map]. rewrite Nat.eqb_refl. split; reflexivity.
    + assert (A' : alone (act (Add_suggestion e s) w) e h) by (cbn [act]; rewrite E; exact A).
      destruct (IH (fun y Hy => N y (or_intror Hy)) _ So' E' A') as [I1 I2]. rewrite I1, I2. cbn [act]. rewrite E.
      assert (P : forall l, list_at (set_list (h_suggestions h) l w) (h_suggestions h) = l) by (intro l; unfold list_at; cbn; apply set_at_same; exact Ll).
      rewrite P. unfold own_context, own_suggestions. cbn [flat_map]. rewrite Nat.eqb_refl.
      split; [reflexivity|]. rewrite <- app_assoc. reflexivity.
    + destruct (act_keeps x w (h_context h) (h_suggestions h) Nd Nl) as [hs' [C1 C2 C3 C4 C5 C6]].
      * intros e0 k v h0 -> E0. destruct (Nat.eq_dec e0 e) as [->|D]; [destruct (D1 k v); reflexivity|]. exact (proj1 (A e0 h0 D E0)).
      * intros e0 s h0 -> E0. destruct (Nat.eq_dec e0 e) as [->|D]; [destruct (D2 s); reflexivity|]. exact (proj2 (A e0 h0 D E0)).
      * assert (A' : alone (act x w) e h).
        { intros e0 h0 D E0. rewrite C1 in E0. destruct (Nat.lt_ge_cases e0 (length (made w))) as [L|L].
          - rewrite nth_error_app1 in E0 by exact L. exact (A e0 h0 D E0).
          - rewrite nth_error_app2 in E0 by exact L. destruct (C6 h0 (nth_error_In _ _ E0)) as (_ & _ & I3 & I4). split; [exact (I3 Ld)|exact (I4 Ll)]. }
        destruct (IH (fun y Hy => N y (or_intror Hy)) _ So' E' A') as [I1 I2]. rewrite I1, I2, (C4 Ld), (C5 Ll).
        assert (O1 : own_context e (x :: hist) = own_context e hist).
        { unfold own_context. cbn [flat_map]. destruct x as [| | | | | | | | |e0 k v]; try reflexivity. destruct (Nat.eqb_spec e0 e) as [->|_]; [destruct (D1 k v); reflexivity|reflexivity]. }
        assert (O2 : own_suggestions e (x :: hist) = own_suggestions e hist).
        { unfold own_suggestions. cbn [flat_map]. destruct x as [| | | | | | | |e0 s|]; try reflexivity. destruct (Nat.eqb_spec e0 e) as [->|_]; [destruct (D2 s); reflexivity|reflexivity]. }
        rewrite O1, O2. split; reflexivity.
Qed.
Print Assumptions C173_own_context_partial.
(** An error built from a dictionary and a list that no error holds yet, from empty ones, or from
    none, is alone. *)
Theorem C173_alone_when_built : forall w c message details s code k, reachable w ->
  (forall a, k = Some a -> dict_at w a = [] \/ forall e h, nth_error (made w) e = Some h -> h_context h <> a) ->
  (forall a, s = Some a -> list_at w a = [] \/ forall e h, nth_error (made w) e = Some h -> h_suggestions h <> a) ->
  let w' := act (Raise c message details s code k) w in
  exists h, nth_error (made w') (length (made w)) = Some h /\ alone w' (length (made w)) h /\
    dict_at w' (h_context h) = match k with Some a => dict_at w a | None => [] end /\
    list_at w' (h_suggestions h) = match s with Some a => list_at w a | None => [] end /\
    h_text h = format_error message details (match s with Some a => list_at w a | None => [] end) code (match k with Some a => dict_at w a | None => [] end).
Proof.
  intros w c message details s code k R Hk Hs w'. apply reachable_sound in R. unfold w'. cbn [act].
  destruct (construct_grown c message details s code k w) as [h [G1 _ _ _ _ G0 _ _ G8 G9 G4 G5 G6 G7]]. exists h.
  split; [rewrite G1, nth_error_app2, Nat.sub_diag by lia; reflexivity|].
  split; [|split; [exact G8|split; [exact G9|rewrite G0, G8, G9; reflexivity]]].
  intros e' h' D E. rewrite G1 in E. destruct (Nat.lt_ge_cases e' (length (made w))) as [L|L].
  - rewrite nth_error_app1 in E by exact L. destruct (R e' h' E) as [R1 R2]. split; intro X.
    + destruct G6 as [G6|G6]; [lia|]. destruct (Hk _ G6) as [H|H]; [|exact (H e' h' E X)].
      clear - H X G6 R1 G1 w'. subst k.
      assert (Q : h_context h = length (dicts w)); [|lia].
      assert (HH : made (construct c message details s code (Some (h_context h)) w) = made w ++ [h]) by exact G1.
      unfold construct, list_or_new, new_list in HH. destruct s as [s|]; [destruct (list_at w s)|]; unfold dict_or_new in HH;
        (replace (dict_at _ (h_context h)) with (@nil (string * string)) in HH by (symmetry; exact H)); cbn in HH;
        apply app_inv_head in HH; injection HH as HH; rewrite <- HH at 1; reflexivity.
    + destruct G7 as [G7|G7]; [lia|]. destruct (Hs _ G7) as [H|H]; [|exact (H e' h' E X)].
      clear - H X G7 R2 G1 w'. subst s.
      assert (Q : h_suggestions h = length (lists w)); [|lia].
      assert (HH : made (construct c message details (Some (h_suggestions h)) code k w) = made w ++ [h]) by exact G1.
      unfold construct, list_or_new, new_list in HH. rewrite H in HH. destruct (dict_or_new k _) as [d w2] eqn:Ed. cbn in HH.
      assert (M2 : made w2 = made w) by (unfold dict_or_new, new_dict in Ed; destruct k as [k|]; [destruct (dict_at _ k)|]; injection Ed as <- <-; reflexivity).
      rewrite M2 in HH. apply app_inv_head in HH. injection HH as HH. rewrite <- HH at 1. reflexivity.
  - rewrite nth_error_app2 in E by exact L. assert (e' - length (made w) <> 0) by lia. destruct (e' - length (made w)) as [|j]; [lia|]. destruct j; discriminate E.
Qed.
Print Assumptions C173_alone_when_built.
Definition apart_program : list action :=
  [Make_dict [("file", "a.nc")]; Raise ConfigurationError "first" None None (Some "X") (Some 0); Raise TrackingError "second" None None (Some "Y") None].
Definition later_program : list action :=
  [Add_context 1 "step" "7"; Add_context 0 "step" "8"; Set_item 0 "file" "b.nc"; Add_suggestion 0 "retry"; Create_data "third" [("n", "1")] None None (Given 0); Add_context 1 "step" "9"].
Example C173_case : let w := acts apart_program empty_world in
  exists h, reachable w /\ nth_error (made w) 1 = Some h /\ alone w 1 h /\
  (forall x, In x later_program -> ~ names_dict (h_context h) x /\ ~ names_list (h_suggestions h) x) /\
  dict_at (acts later_program w) (h_context h) = [("step", "9")] /\
  dict_at (acts later_program w) 0 = [("file", "b.nc"); ("step", "8"); ("n", "1")].
Proof.
  eexists. split; [exists apart_program; reflexivity|]. split; [reflexivity|]. split.
  - intros [|[|[|e']]] h' D E; cbn in E; try discriminate E; try lia. injection E as <-. cbn. split; discriminate.
  - split; [|split; reflexivity]. intros x H. cbn in H. repeat (destruct H as [<-|H]; [cbn; split; congruence|]). destruct H.
Qed.

(** ** C174: the error factories *)
Definition factory_entries (x : action) : option (error_class * string * list (string * string) * keyword) :=
  match x with
  | Create_data m i _ _ k => Some (DataValidationError, m, i, k)
  | Create_coordinate m r t _ _ k => Some (CoordinateError, m,
      (match r with Some r => [("coordinate_ranges", r)] | None => [] end)
      ++ (match t with Some t => if String.eqb t "" then [] else [("detected_system", t)] | None => [] end), k)
  | Create_processing m i _ _ k => Some (ProcessingError, m, i, k)
  | _ => None
  end.
Definition code_of (c : error_class) : string :=
  match c with DataValidationError => "DATA_VALIDATION" | CoordinateError => "COORDINATE_ERROR" | _ => "PROCESSING_ERROR" end.
Lemma factory_is x w c m entries k : factory_entries x = Some (c, m, entries, k) -> exists det s,
  act x w = match create_with c m det s k entries w with Some w' => w' | None => w end /\ default_code c = Some (code_of c).
Proof.
  intro F. destruct x as [| | | | |m' i d s k'|m' r t d s k'|m' i d s k'| | ]; cbn in F; try discriminate F; injection F as <- <- <- <-; exists d, s; cbn [act].
  - split; reflexivity.
  - split; [|reflexivity]. unfold coordinate_error. destruct t as [[|a t]|]; reflexivity.
  - split; reflexivity.
Qed.
Lemma update_nonempty entries : forall d, d <> [] -> update d entries <> [].
Proof.
  induction entries as [|[k v] r IH]; intros d D; [exact D|]. change (update d ((k, v) :: r)) with (update (put k v d) r). apply IH.
  destruct d as [|[a b] d]; cbn; [discriminate|]. destruct (String.eqb k a); discriminate.
Qed.
(** A factory that is told something about the data with [context=None] fails and builds nothing.
    Otherwise it builds one error of its class, with the class's code, whose context is the given
    one with the entries written over it, and whose text shows every item of it. *)
Theorem C174_factories : forall w x c m entries k, factory_entries x = Some (c, m, entries, k) ->
  (forall a, k = Given a -> a < length (dicts w)) ->
  (k = Given_none -> entries <> [] -> act x w = w) /\
  (k <> Given_none \/ entries = [] -> exists h, made (act x w) = made w ++ [h] /\ h_class h = c /\ h_message h = m /\ h_code h = Some (code_of c) /\
     dict_at (act x w) (h_context h) = update (match k with Given a => dict_at w a | _ => [] end) entries /\
     forall key v, In (key, v) (dict_at (act x w) (h_context h)) -> in_order [m; key; v; code_of c] (h_text h)).
Proof.
  intros w x c m entries k F In_k. destruct (factory_is x w c m entries k F) as (det & s & -> & Code). split.
  - intros -> Ne. cbn. destruct entries; [congruence|reflexivity].
  - intro Ok.
    assert (K : exists w1 g, create_with c m det s k entries w = Some (construct c m det s (default_code c) g w1) /\ made w1 = made w /\
      match g with Some a => dict_at w1 a | None => [] end = update (match k with Given a => dict_at w a | _ => [] end) entries).
    { unfold create_with. destruct k as [| |a].
      - unfold new_dict. cbn [fst snd]. eexists. exists (Some (length (dicts w))). split; [reflexivity|]. destruct entries as [|e0 r]; cbn [made set_dict]; (split; [reflexivity|]).
        + unfold dict_at. cbn [dicts]. rewrite app_nth2, Nat.sub_diag by lia. reflexivity.
        + unfold dict_at at 1. cbn [dicts set_dict]. rewrite set_at_same by (rewrite app_length; cbn; lia). unfold dict_at. cbn [dicts]. rewrite app_nth2, Nat.sub_diag by lia. reflexivity.
      - destruct Ok as [Ok| ->]; [congruence|]. exists w, None. split; [reflexivity|]. split; reflexivity.
      - eexists. exists (Some a). split; [reflexivity|]. destruct entries as [|e0 r]; [split; reflexivity|]. split; [reflexivity|].
        unfold dict_at at 1. cbn [dicts set_dict]. rewrite set_at_same by (apply In_k; reflexivity). reflexivity. }
    destruct K as (w1 & g & -> & M & D). destruct (construct_grown c m det s (default_code c) g w1) as [h [G1 G2 G3 _ G5 G6 _ _ G7 _ _ _ _ _]]. exists h.
    split; [rewrite G1, M; reflexivity|]. split; [exact G2|]. split; [exact G3|]. split; [rewrite G5; exact Code|]. split; [rewrite G7; exact D|].
    intros key v Hin. rewrite G6, Code. rewrite Code in Hin.
    set (ctx := dict_at _ (h_context h)) in *. set (sug := list_at _ _). clearbody ctx sug. clear - Hin.
    destruct (in_split _ _ Hin) as (l1 & l2 & ->).
    pose proof (format_in_order m det sug (Some (code_of c)) (l1 ++ (key, v) :: l2)) as O.
    assert (Sub : forall ps qs t, in_order (ps ++ qs) t -> in_order qs t).
    { induction ps as [|p ps IH]; intros qs t H; [exact H|]. destruct H as (b & a & -> & H). apply IH in H. apply in_order_left. apply in_order_left. exact H. }
    assert (Dr : forall ps q qs t, in_order (ps ++ q ++ qs) t -> in_order (ps ++ qs) t).
    { induction ps as [|p ps IH]; intros q qs t H; [exact (Sub q qs t H)|]. destruct H as (b & a & E & H). exists b, a. split; [exact E|]. exact (IH q qs a H). }
    assert (O1 : in_order ([m] ++ [(key ++ "=" ++ v)%string] ++ opt (Some (code_of c))) (format_error m det sug (Some (code_of c)) (l1 ++ (key, v) :: l2))).
    { rewrite map_app in O. cbn [map fst snd] in O.
      pose proof (Dr [m] (opt det) _ _ O) as P1. rewrite <- app_assoc in P1. pose proof (Dr [m] _ _ _ P1) as P2.
      change ([m] ++ (key ++ "=" ++ v)%string :: map (fun kv => fst kv ++ "=" ++ snd kv)%string l2 ++ sug ++ opt (Some (code_of c))) with
        ([m; (key ++ "=" ++ v)%string] ++ map (fun kv => fst kv ++ "=" ++ snd kv)%string l2 ++ sug ++ opt (Some (code_of c))) in P2.
      pose proof (Dr [m; (key ++ "=" ++ v)%string] _ _ _ P2) as P3. exact (Dr [m; (key ++ "=" ++ v)%string] _ _ _ P3). }
    cbn [app opt] in O1. destruct O1 as (b1 & a1 & E1 & b2 & a2 & E2 & b3 & a3 & E3 & _). exists b1, a1. split; [exact E1|].
    exists b2, ("=" ++ v ++ a2)%string. split; [rewrite E2, !app_assoc_s; reflexivity|]. exists "="%string, a2. split; [reflexivity|].
    exists b3, a3. split; [exact E3|exact I].
Qed.
Print Assumptions C174_factories.
(** The claim: a factory leaves the dictionaries it is given alone.  It writes into the caller's
    context, whichever factory it is. *)
Theorem C174_dictionary_kept_refuted : forall c, In c [DataValidationError; CoordinateError; ProcessingError] ->
  exists w x m entries a, reachable w /\ factory_entries x = Some (c, m, entries, Given a) /\ dict_at (act x w) a <> dict_at w a.
Proof.
  intros c [<-|[<-|[<-|[]]]]; exists (acts [Make_dict [("file", "a.nc")]] empty_world).
  - exists (Create_data "m" [("n", "1")] None None (Given 0)). eexists. eexists. exists 0. split; [eexists; reflexivity|]. split; [reflexivity|]. cbn. discriminate.
  - exists (Create_coordinate "m" None (Some "degrees") None None (Given 0)). eexists. eexists. exists 0. split; [eexists; reflexivity|]. split; [reflexivity|]. cbn. discriminate.
  - exists (Create_processing "m" [("n", "1")] None None (Given 0)). eexists. eexists. exists 0. split; [eexists; reflexivity|]. split; [reflexivity|]. cbn. discriminate.
Qed.
Print Assumptions C174_dictionary_kept_refuted.
(** Proved: it touches no other dictionary, it leaves the given one alone when it has nothing to say
    itself, and otherwise only writes its own entries over it. *)
Theorem C174_dictionary_kept_partial : forall w x c m entries k a, factory_entries x = Some (c, m, entries, k) -> a < length (dicts w) ->
  (k <> Given a \/ entries = [] -> dict_at (act x w) a = dict_at w a) /\
  (k = Given a -> dict_at (act x w) a = update (dict_at w a) entries).
Proof.
  intros w x c m entries k a F L. destruct (factory_is x w c m entries k F) as (det & s & -> & _).
  assert (U : k = Given a -> dict_at (match create_with c m det s k entries w with Some w' => w' | None => w end) a = update (dict_at w a) entries).
  { intros ->. cbn [create_with]. set (w1 := match entries with [] => w | _ :: _ => _ end). destruct (construct_grown c m det s (default_code c) (Some a) w1) as [h [_ _ _ _ _ _ [r G] _ _ _ _ _ _ _]].
    assert (D : dict_at w1 a = update (dict_at w a) entries /\ a < length (dicts w1)).
    { unfold w1. destruct entries; [split; [reflexivity|exact L]|]. split; [|cbn; rewrite set_at_length; exact L]. unfold dict_at at 1. cbn [dicts set_dict]. apply set_at_same. exact L. }
    destruct D as [D1 D2]. rewrite <- D1. unfold dict_at. rewrite G. apply app_nth1. exact D2. }
  split; [|exact U]. intros [N| ->].
  - destruct (create_with c m det s k entries w) as [w'|] eqn:E; [|reflexivity].
    set (b := S match s with Some b => b | None => 0 end).
    assert (Ns : s <> Some b) by (unfold b; destruct s as [s|]; [intro X; injection X as X; lia|discriminate]).
    destruct (create_changed _ _ _ _ _ _ _ _ a b E N Ns) as [hs C]. exact (c_dict _ _ _ _ _ _ _ C L).
  - destruct k as [| |a'].
    3: destruct (Nat.eq_dec a' a) as [->|D]; [rewrite (U eq_refl); reflexivity|].
    all: destruct (create_with c m det s _ [] w) as [w'|] eqn:E; [|reflexivity].
    all: set (b := S match s with Some b => b | None => 0 end).
    all: assert (Ns : s <> Some b) by (unfold b; destruct s as [s|]; [intro X; injection X as X; lia|discriminate]).
    all: assert (Nk : forall k, create_with c m det s k [] w = Some w' -> k <> Given a -> dict_at w' a = dict_at w a)
      by (intros k0 E0 N0; destruct (create_changed _ _ _ _ _ _ _ _ a b E0 N0 Ns) as [hs C]; exact (c_dict _ _ _ _ _ _ _ C L)).
    all: apply (Nk _ E); congruence.
Qed.
Print Assumptions C174_dictionary_kept_partial.
Example C174_case : let w := acts apart_program empty_world in
  let x := Create_coordinate "bad" (Some "{'lat': (0, 7)}") (Some "radians") None None (Given 0) in
  factory_entries x = Some (CoordinateError, "bad", [("coordinate_ranges", "{'lat': (0, 7)}"); ("detected_system", "radians")], Given 0) /\
  option_map h_text (nth_error (made (act x w)) 2) =
    Some ("bad" ++ newline ++ "Context: file=a.nc, coordinate_ranges={'lat': (0, 7)}, detected_system=radians" ++ newline ++ "Error Code: COORDINATE_ERROR")%string /\
  act (Create_processing "bad" [("n", "1")] None None Given_none) w = w.
Proof. split; [reflexivity|]. split; reflexivity. Qed.
