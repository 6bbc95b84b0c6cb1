(** Proofs for C179 and C180. *)
Require Import List Arith ZArith Bool String Ascii Lia.
From Verif Require Import Base Support Warnings WarningsSpec.
Import ListNotations.
Open Scope string_scope.

Lemma app_nil (s : string) : s ++ "" = s.
Proof. induction s; cbn; congruence. Qed.
Lemma app_assoc_str (a b c : string) : (a ++ b) ++ c = a ++ b ++ c.
Proof. induction a; cbn; congruence. Qed.
Lemma prefix_iff p : forall s, String.prefix p s = true <-> exists b, s = p ++ b.
Proof.
  induction p as [|c p IH]; intro s.
  - split; [intros _; exists s; reflexivity|]. destruct s; reflexivity.
  - destruct s as [|d s]; cbn.
    + split; [discriminate|]. intros (b & E). discriminate E.
    + destruct (ascii_dec c d) as [->|N].
      * rewrite IH. split; intros (b & E); exists b; [congruence|]. injection E as E. exact E.
      * split; [discriminate|]. intros (b & E). injection E as E _. congruence.
Qed.
Lemma contains_iff p : forall s, contains p s = true <-> occurs p s.
Proof.
  induction s as [|c s IH]; cbn [contains].
  - rewrite orb_false_r, prefix_iff. split.
    + intros (b & E). exists "", b. exact E.
    + intros (a & b & E). destruct a; [|discriminate E]. exists b. exact E.
  - rewrite orb_true_iff, prefix_iff, IH. split.
    + intros [(b & E)|(a & b & E)]; [exists "", b; exact E|]. exists (String c a), b. cbn. congruence.
    + intros (a & b & E). destruct a as [|a0 a].
      * left. exists b. exact E.
      * right. cbn in E. injection E as _ E. exists a, b. exact E.
Qed.

Lemma one_line_cons c s : one_line (String c s) <-> c <> newline /\ one_line s.
Proof.
  unfold one_line, occurs. split.
  - intro N. split.
    + intros ->. apply N. exists "", s. reflexivity.
    + intros (a & b & E). apply N. exists (String c a), b. rewrite E. reflexivity.
  - intros (D & N) (a & b & E). destruct a as [|a0 a]; [apply D; injection E as E1 _; exact E1|].
    apply N. exists a, b. injection E as _ E2. exact E2.
Qed.
Lemma one_line_nil : one_line "".
Proof. intros (a & b & E). destruct a; discriminate E. Qed.
Lemma one_line_app a b : one_line (a ++ b) <-> one_line a /\ one_line b.
Proof.
  induction a as [|c a IH]; cbn.
  - split; [intro H; split; [exact one_line_nil|exact H]|tauto].
  - rewrite !one_line_cons, IH. tauto.
Qed.
Lemma cut_spec : forall s l o, cut_line s = (l, o) ->
  one_line l /\ s = l ++ match o with Some r => String newline r | None => "" end.
Proof.
  induction s as [|c s IH]; cbn [cut_line]; intros l o E.
  - injection E as <- <-. split; [exact one_line_nil|reflexivity].
  - destruct (Ascii.eqb_spec c newline) as [->|N].
    + injection E as <- <-. split; [exact one_line_nil|reflexivity].
    + destruct (cut_line s) as [l' o'] eqn:C. injection E as <- <-. destruct (IH _ _ eq_refl) as (H1 & H2).
      split; [apply one_line_cons; tauto|]. rewrite H2 at 1. reflexivity.
Qed.
Lemma cut_newline : forall a r, one_line a -> cut_line (a ++ String newline r) = (a, Some r).
Proof.
  induction a as [|c a IH]; intros r H; cbn [append cut_line].
  - rewrite Ascii.eqb_refl. reflexivity.
  - apply one_line_cons in H as (D & H). apply Ascii.eqb_neq in D. rewrite D, (IH r H). reflexivity.
Qed.
Lemma cut_no_newline : forall a, one_line a -> cut_line a = (a, None).
Proof.
  induction a as [|c a IH]; intro H; cbn [cut_line]; [reflexivity|].
  apply one_line_cons in H as (D & H). apply Ascii.eqb_neq in D. rewrite D, (IH H). reflexivity.
Qed.
(** A text whose beginning is on one line begins with it in its first line. *)
Lemma first_line_holds a s : one_line a -> exists b, fst (cut_line (a ++ s)) = a ++ b.
Proof.
  induction a as [|c a IH]; intro H; cbn [append cut_line].
  - exists (fst (cut_line s)). reflexivity.
  - apply one_line_cons in H as (D & H). apply Ascii.eqb_neq in D. rewrite D. destruct (IH H) as (b & E).
    destruct (cut_line (a ++ s)) as [l o]. cbn in *. exists b. congruence.
Qed.

Lemma large_graph_iff text : large_graph text = true <-> about_large_graph text.
Proof.
  unfold large_graph, about_large_graph. destruct (cut_line (lower text)) as [first o] eqn:C.
  destruct (cut_spec _ _ _ C) as (H1 & H2). split.
  - destruct o as [rest|]; [|discriminate]. intro H. apply andb_true_iff in H as (P & Q).
    apply contains_iff in P as (a & b & E1). apply contains_iff in Q as (c & d & E2).
    destruct (cut_line rest) as [second o2] eqn:C2. cbn [fst] in E2. destruct (cut_spec _ _ _ C2) as (H3 & H4).
    rewrite E1 in H1. apply one_line_app in H1 as (A & H1). apply one_line_app in H1 as (_ & B).
    rewrite E2 in H3. apply one_line_app in H3 as (D & _).
    exists a, b, c, (d ++ match o2 with Some r => String newline r | None => "" end).
    split; [exact A|]. split; [exact B|]. split; [exact D|].
    rewrite H2, H4, E1, E2. rewrite !app_assoc_str. reflexivity.
  - intros (a & b & c & rest & A & B & D & E).
    assert (O : one_line (a ++ "sending large graph" ++ b)).
    { apply one_line_app. split; [exact A|]. apply one_line_app. split; [|exact B].
      intro X. apply contains_iff in X. discriminate X. }
    assert (E' : lower text = (a ++ "sending large graph" ++ b) ++ String newline (c ++ "this may cause some slowdown" ++ rest))
      by (rewrite E, !app_assoc_str; reflexivity).
    rewrite E', cut_newline in C by exact O. injection C as <- <-.
    apply andb_true_iff. split.
    + apply contains_iff. exists a, b. reflexivity.
    + apply contains_iff.
      destruct (first_line_holds (c ++ "this may cause some slowdown") rest) as (b' & F).
      * apply one_line_app. split; [exact D|]. intro X. apply contains_iff in X. discriminate X.
      * rewrite app_assoc_str in F. exists c, b'. rewrite <- app_assoc_str. exact F.
Qed.

Lemma substring_all : forall s m, String.length s <= m -> String.substring 0 m s = s.
Proof.
  induction s as [|c s IH]; intros m H; destruct m; cbn in *; try reflexivity; [lia|]. rewrite IH by lia. reflexivity.
Qed.
Lemma client_module_iff name : client_module name = true <-> from_client name.
Proof.
  unfold client_module, from_client. rewrite andb_true_iff, prefix_iff. split.
  - intros ((b & E) & H). rewrite E in H.
    assert (S : String.substring 11 (String.length ("distributed" ++ b)) ("distributed" ++ b) = b)
      by (cbn; apply substring_all; lia).
    rewrite S in H. destruct b as [|c r]; [discriminate H|]. apply andb_true_iff in H as (N & P).
    apply prefix_iff in P as (r' & ->). exists c, r'. split; [|exact E]. intros ->. discriminate N.
  - intros (c & r & N & E). split; [exists (String c ("client" ++ r)); exact E|]. rewrite E.
    assert (S : String.substring 11 (String.length ("distributed" ++ String c ("client" ++ r))) ("distributed" ++ String c ("client" ++ r))
      = String c ("client" ++ r)).
    { cbn -[append]. change (append "distributed" ?x) with ("distributed" ++ x). cbn. f_equal. repeat f_equal. apply substring_all. lia. }
    rewrite S. apply andb_true_iff. split.
    + apply Ascii.eqb_neq in N. rewrite N. reflexivity.
    + apply prefix_iff. exists r. reflexivity.
Qed.

(** ** Sessions *)
Lemma session_snoc h e : session (h ++ [e])%list = happen (session h) e.
Proof. unfold session. rewrite fold_left_app. reflexivity. Qed.

Section LastGiven.
  Context {A : Type} (g : happening -> A -> Prop).
  Lemma given_snoc_yes h start e v : g e v -> last_given g (h ++ [e])%list start v.
  Proof. intro G. left. exists h, e, []. split; [reflexivity|]. split; [exact G|]. intros e' v' []. Qed.
  Lemma given_snoc_no h start e v : (forall v', ~ g e v') -> last_given g h start v -> last_given g (h ++ [e])%list start v.
  Proof.
    intros N [(h1 & x & h2 & -> & G & L)|(-> & L)].
    - left. exists h1, x, (h2 ++ [e])%list. split; [rewrite <- app_assoc; reflexivity|]. split; [exact G|].
      intros e' v' I. apply in_app_or in I as [I|[<-|[]]]; [exact (L _ _ I)|apply N].
    - right. split; [reflexivity|]. intros e' v' I. apply in_app_or in I as [I|[<-|[]]]; [exact (L _ _ I)|apply N].
  Qed.
  Lemma given_unique : (forall e v v', g e v -> g e v' -> v = v') -> forall h start v v',
    last_given g h start v -> last_given g h start v' -> v = v'.
  Proof.
    intros U h. induction h as [|e h IH] using rev_ind; intros start v v' H H'.
    - assert (X : forall u, last_given g [] start u -> u = start).
      { intros u [(h1 & x & h2 & E & _)|(-> & _)]; [destruct h1; discriminate E|reflexivity]. }
      rewrite (X _ H), (X _ H'). reflexivity.
    - assert (X : forall u, last_given g (h ++ [e])%list start u -> g e u \/ ((forall w, ~ g e w) /\ last_given g h start u)).
      { intros u [(h1 & x & h2 & E & G & L)|(-> & L)].
        - destruct h2 as [|y h2] using rev_ind.
          + apply app_inj_tail in E as (_ & ->). left. exact G.
          + clear IHh2. rewrite app_comm_cons, app_assoc in E. apply app_inj_tail in E as (-> & ->). right. split.
            * intros w W. apply (L y w); [apply in_or_app; right; left; reflexivity|exact W].
            * left. exists h1, x, h2. split; [reflexivity|]. split; [exact G|]. intros e' w I. apply L. apply in_or_app. left. exact I.
        - right. split; [intro w; apply L; apply in_or_app; right; left; reflexivity|]. right. split; [reflexivity|].
          intros e' w I. apply L. apply in_or_app. left. exact I. }
      destruct (X _ H) as [G|(N & G)], (X _ H') as [G'|(N' & G')].
      + exact (U _ _ _ G G').
      + exfalso. exact (N' _ G).
      + exfalso. exact (N _ G').
      + exact (IH _ _ _ G G').
  Qed.
End LastGiven.

Lemma gives_one n e v v' : gives n e v -> gives n e v' -> v = v'.
Proof. intros G G'. inversion G; subst; inversion G'; subst; reflexivity || congruence. Qed.

Lemma quiet_external_level s n : levels (quiet_external s) n = if existsb (String.eqb n) external_loggers then 40%Z else levels s n.
Proof.
  unfold quiet_external, external_loggers. cbn [fold_left set_level levels existsb].
  repeat match goal with |- context [String.eqb n ?x] => destruct (String.eqb n x); cbn [orb]; try reflexivity end.
Qed.
Lemma noisy_iff n : existsb (String.eqb n) external_loggers = true <-> noisy n.
Proof.
  rewrite existsb_exists. split.
  - intros (x & I & E). apply String.eqb_eq in E as ->. exact I.
  - intro I. exists n. split; [exact I|apply String.eqb_refl].
Qed.
Lemma quiet_external_rest s : debugs (quiet_external s) = debugs s /\ attached (quiet_external s) = attached s /\ rules (quiet_external s) = rules s.
Proof. split; [reflexivity|]. split; reflexivity. Qed.
Lemma configure_level d s n : levels (configure_warnings d s) n =
  if Z.ltb d 2 && String.eqb n "distributed.scheduler" then 40%Z else levels s n.
Proof. unfold configure_warnings. destruct (Z.ltb d 2); [|reflexivity]. destruct (Z.eqb d 0); reflexivity. Qed.

Lemma level_after h n : has_level h n (levels (session h) n).
Proof.
  induction h as [|e h IH] using rev_ind.
  - right. split; [|intros ? ? []]. cbn. destruct (string_dec n "") as [->|N]; [reflexivity|].
    apply String.eqb_neq in N. rewrite N. reflexivity.
  - rewrite session_snoc.
    assert (Y : forall v, gives n e v -> v = levels (happen (session h) e) n -> has_level (h ++ [e]) n (levels (happen (session h) e) n)).
    { intros v G <-. apply given_snoc_yes. exact G. }
    assert (N : (forall v', ~ gives n e v') -> levels (session h) n = levels (happen (session h) e) n ->
                has_level (h ++ [e]) n (levels (happen (session h) e) n)).
    { intros G E. apply given_snoc_no; [exact G|]. rewrite <- E. exact IH. }
    destruct e as [|b|v a d|k d|m l|p i].
    + destruct (String.eqb_spec n "distributed.shuffle._scheduler_plugin") as [E|E].
      * apply (Y 40%Z); [constructor; exact E|]. cbn. apply String.eqb_eq in E. rewrite E. reflexivity.
      * apply N; [intros v' G; inversion G; contradiction|]. cbn. apply String.eqb_neq in E. rewrite E. reflexivity.
    + destruct b; cbn [happen].
      * rewrite quiet_external_level in *. destruct (existsb (String.eqb n) external_loggers) eqn:E.
        -- apply given_snoc_yes. constructor. apply noisy_iff. exact E.
        -- apply given_snoc_no; [|exact IH]. intros v' G. inversion G; subst.
           match goal with H : noisy n |- _ => apply noisy_iff in H; congruence end.
      * apply N; [intros v' G; inversion G|reflexivity].
    + destruct (existsb (String.eqb n) external_loggers && v) eqn:E1.
      * apply andb_true_iff in E1 as (E1 & ->). apply (Y 40%Z); [apply gives_verbosity; apply noisy_iff; exact E1|].
        cbn [happen]. destruct a; [|rewrite quiet_external_level, E1; reflexivity].
        rewrite configure_level. cbn [levels]. rewrite quiet_external_level, E1. destruct (_ && _); reflexivity.
      * destruct (a && Z.ltb d 2 && String.eqb n "distributed.scheduler") eqn:E2.
        -- apply andb_true_iff in E2 as (E2 & E4). apply andb_true_iff in E2 as (-> & E3).
           apply (Y 40%Z); [apply gives_tracker; [apply String.eqb_eq; exact E4|apply Z.ltb_lt; exact E3]|].
           cbn [happen]. rewrite configure_level, E3, E4. reflexivity.
        -- apply N.
           ++ intros v' G. inversion G; subst.
              ** match goal with H : noisy n |- _ => apply noisy_iff in H; rewrite H in E1; discriminate E1 end.
              ** match goal with H : (_ < 2)%Z |- _ => apply Z.ltb_lt in H; rewrite H in E2 end. discriminate E2.
           ++ cbn [happen].
              assert (Q : levels (if v then quiet_external (session h) else session h) n = levels (session h) n).
              { destruct v; [|reflexivity]. rewrite quiet_external_level. rewrite andb_true_r in E1. rewrite E1. reflexivity. }
              destruct a; [|symmetry; exact Q]. rewrite configure_level. cbn [andb] in E2. rewrite E2. cbn [levels]. symmetry. exact Q.
    + apply N; [intros v' G; inversion G|reflexivity].
    + destruct (String.eqb_spec n m) as [->|E].
      * apply (Y l); [constructor|]. cbn. rewrite String.eqb_refl. reflexivity.
      * apply N; [intros v' G; inversion G; congruence|]. cbn. apply String.eqb_neq in E. rewrite E. reflexivity.
    + apply N; [intros v' G; inversion G|reflexivity].
Qed.
Lemma level_is h n v : has_level h n v -> levels (session h) n = v.
Proof. intro H. exact (given_unique (gives n) (gives_one n) _ _ _ _ (level_after h n) H). Qed.

(** The trackers built. *)
Lemma replace_length {A} (x : A) : forall l k, List.length (replace k x l) = List.length l.
Proof. induction l as [|y l IH]; intro k; destruct k; cbn; try reflexivity. rewrite IH. reflexivity. Qed.
Lemma nth_replace {A} (x d : A) : forall l k i, nth i (replace k x l) d = if Nat.eqb i k && Nat.ltb i (List.length l) then x else nth i l d.
Proof.
  induction l as [|y l IH]; intros k i.
  - destruct k, i; cbn; rewrite ?andb_false_r; reflexivity.
  - destruct k, i; cbn [replace nth Nat.eqb]; try reflexivity. rewrite IH. reflexivity.
Qed.
Lemma configure_debugs d s : debugs (configure_warnings d s) = debugs s.
Proof. unfold configure_warnings. destruct (Z.ltb d 2); [|reflexivity]. destruct (Z.eqb d 0); reflexivity. Qed.
Lemma debugs_build v a d s : debugs (happen s (Build v a d)) = if a then (debugs s ++ [d])%list else debugs s.
Proof. cbn [happen]. destruct a; [rewrite configure_debugs; cbn|]; destruct v; reflexivity. Qed.
Lemma built_snoc h e : built (h ++ [e]) = (built h ++ match e with Build _ true d => [d] | _ => [] end)%list.
Proof. unfold built. rewrite flat_map_app. cbn. rewrite app_nil_r. reflexivity. Qed.
Lemma debugs_length h : List.length (debugs (session h)) = List.length (built h).
Proof.
  induction h as [|e h IH] using rev_ind; [reflexivity|]. rewrite session_snoc, built_snoc, app_length.
  destruct e as [|b|v a d|k d|m l|p i]; try (cbn; rewrite IH; lia).
  - destruct b; cbn; rewrite IH; lia.
  - rewrite debugs_build. destruct a; rewrite ?app_length, IH; cbn; lia.
  - cbn. rewrite replace_length, IH. lia.
Qed.

Lemma debug_after h k : k < List.length (built h) -> debug_now h k (nth k (debugs (session h)) 0%Z).
Proof.
  induction h as [|e h IH] using rev_ind; [cbn; lia|]. intro B. rewrite session_snoc.
  assert (K : (forall d', e <> AssignDebug k d') -> k < List.length (built h) ->
    nth k (debugs (session h)) 0%Z = nth k (debugs (happen (session h) e)) 0%Z -> debug_now (h ++ [e]) k (nth k (debugs (happen (session h) e)) 0%Z)).
  { intros N C E. rewrite <- E. destruct (IH C) as (h1 & x & h2 & Eh & G & L).
    exists h1, x, (h2 ++ [e])%list. split; [rewrite Eh, <- app_assoc; reflexivity|]. split; [exact G|].
    intros d' I. apply in_app_or in I as [I|[I|[]]]; [exact (L _ I)|exact (N _ I)]. }
  rewrite built_snoc, app_length in B.
  destruct e as [|b|v a d|k' d|m l|p i]; try (apply K; [discriminate|cbn in B; lia|reflexivity]).
  - apply K; [discriminate|cbn in B; lia|]. destruct b; reflexivity.
  - rewrite debugs_build in *. destruct a; [|apply K; [discriminate|cbn in B; lia|reflexivity]].
    destruct (Nat.eq_dec k (List.length (built h))) as [->|N].
    + exists h, (Build v true d), []. split; [reflexivity|]. split; [|intros d' []]. left. exists v.
      split; [|reflexivity]. rewrite <- debugs_length, nth_middle. reflexivity.
    + apply K; [discriminate|cbn in B; lia|]. rewrite app_nth1; [reflexivity|]. rewrite debugs_length. cbn in B. lia.
  - cbn in B. cbn [happen debugs] in *. destruct (Nat.eq_dec k k') as [<-|N].
    + exists h, (AssignDebug k d), []. split; [reflexivity|]. split; [|intros d' []]. right. split; [|lia].
      f_equal. rewrite nth_replace, Nat.eqb_refl. cbn [andb]. rewrite debugs_length.
      replace (Nat.ltb k (List.length (built h))) with true by (symmetry; apply Nat.ltb_lt; lia). reflexivity.
    + apply K; [congruence|lia|]. rewrite nth_replace. apply Nat.eqb_neq in N. rewrite N. reflexivity.
Qed.
Lemma built_app h1 h2 : built (h1 ++ h2) = (built h1 ++ built h2)%list.
Proof. apply flat_map_app. Qed.
Lemma debug_is h k d : debug_now h k d -> nth k (debugs (session h)) 0%Z = d.
Proof.
  revert d. induction h as [|e h IH] using rev_ind; intros d (h1 & x & h2 & E & G & L); [destruct h1; discriminate E|].
  rewrite session_snoc. destruct h2 as [|y h2] using rev_ind.
  - apply app_inj_tail in E as (<- & <-). destruct G as [(v & -> & K)|(-> & K)].
    + rewrite debugs_build, <- K, <- debugs_length, nth_middle. reflexivity.
    + cbn [happen debugs]. rewrite nth_replace, Nat.eqb_refl, debugs_length. apply Nat.ltb_lt in K. rewrite K. reflexivity.
  - clear IHh2. rewrite app_comm_cons, app_assoc in E. apply app_inj_tail in E as (-> & ->).
    assert (P : debug_now (h1 ++ x :: h2) k d).
    { exists h1, x, h2. split; [reflexivity|]. split; [exact G|]. intros d' I. apply (L d'). apply in_or_app. left. exact I. }
    assert (B : k < List.length (debugs (session (h1 ++ x :: h2)%list))).
    { rewrite debugs_length, built_app, app_length. destruct G as [(v & -> & K)|(_ & K)]; [cbn [built flat_map app]; cbn; lia|lia]. }
    rewrite <- (IH _ P).
    destruct y as [|b|v a d'|k' d'|m l|p i]; try reflexivity.
    + destruct b; reflexivity.
    + rewrite debugs_build. destruct a; [|reflexivity]. apply app_nth1. exact B.
    + cbn [happen debugs]. rewrite nth_replace. destruct (Nat.eqb_spec k k') as [<-|N]; [|reflexivity].
      exfalso. apply (L d'). apply in_or_app. right. left. reflexivity.
Qed.

Lemma attached_after h k : In k (attached (session h)) <-> exists d, nth_error (built h) k = Some d /\ (d < 2)%Z.
Proof.
  induction h as [|e h IH] using rev_ind.
  - cbn. split; [intros []|]. intros (d & E & _). destruct k; discriminate E.
  - rewrite session_snoc, built_snoc.
    assert (K : attached (happen (session h) e) = attached (session h) -> match e with Build _ true d => [d] | _ => [] end = [] ->
       (In k (attached (happen (session h) e)) <-> exists d, nth_error (built h ++ match e with Build _ true d => [d] | _ => [] end) k = Some d /\ (d < 2)%Z)).
    { intros -> ->. rewrite app_nil_r. exact IH. }
    destruct e as [|b|v a d|k' d|m l|p i]; try (apply K; reflexivity).
    + apply K; [|reflexivity]. destruct b; reflexivity.
    + destruct a; [|apply K; [destruct v; reflexivity|reflexivity]]. clear K.
      assert (A : attached (happen (session h) (Build v true d)) =
        if Z.ltb d 2 then (attached (session h) ++ [List.length (built h)])%list else attached (session h)).
      { cbn [happen]. unfold configure_warnings. cbn [debugs attached].
        replace (List.length (debugs (if v then quiet_external (session h) else session h) ++ [d]) - 1) with (List.length (built h)).
        2:{ rewrite app_length. destruct v; cbn [debugs]; rewrite ?(proj1 (quiet_external_rest _)), debugs_length; cbn; lia. }
        destruct (Z.ltb d 2); [|destruct v; reflexivity]. destruct (Z.eqb d 0), v; reflexivity. }
      rewrite A. destruct (Z.ltb_spec d 2) as [D|D].
      * rewrite in_app_iff, IH. split.
        -- intros [(d' & E & D')|[<-|[]]].
           ++ exists d'. split; [|exact D']. rewrite nth_error_app1; [exact E|]. apply nth_error_Some. congruence.
           ++ exists d. split; [|exact D]. rewrite nth_error_app2, Nat.sub_diag by lia. reflexivity.
        -- intros (d' & E & D'). destruct (Nat.lt_ge_cases k (List.length (built h))) as [B|B].
           ++ left. exists d'. split; [|exact D']. rewrite nth_error_app1 in E by exact B. exact E.
           ++ right. left. assert (C : k < List.length (built h ++ [d])) by (apply nth_error_Some; congruence).
              rewrite app_length in C. cbn in C. lia.
      * rewrite IH. split; intros (d' & E & D'); exists d'; (split; [|exact D']).
        -- rewrite nth_error_app1; [exact E|]. apply nth_error_Some. congruence.
        -- destruct (Nat.lt_ge_cases k (List.length (built h))) as [B|B]; [rewrite nth_error_app1 in E by exact B; exact E|].
           rewrite nth_error_app2 in E by exact B. destruct (k - List.length (built h)); [|destruct n; discriminate E].
           cbn in E. injection E as E. lia.
Qed.

Lemma filter_lets_through d msg : filter_dask_warnings d msg = true <->
  ~ occurs "Detected different `run_spec`" msg /\ (d = 0%Z -> ~ occurs "Sending large graph" msg /\ ~ occurs "This may cause some slowdown" msg).
Proof.
  unfold filter_dask_warnings. cbn [existsb]. rewrite orb_false_r, <- !contains_iff.
  destruct (Z.eqb_spec d 0) as [->|N];
  destruct (contains "Detected different `run_spec`" msg), (contains "Sending large graph" msg), (contains "This may cause some slowdown" msg);
  cbn [orb]; (split; [intro H; try discriminate H|]); try tauto; try (intro H; exfalso; destruct H as (H1 & H2); try (apply H1; reflexivity);
  destruct (H2 eq_refl) as (H3 & H4); [apply H3; reflexivity] || (destruct (H2 eq_refl) as (H3 & H4); apply H4; reflexivity) || fail);
  try (split; [discriminate|]; intro; try contradiction; split; discriminate);
  try (intros (H1 & H2); destruct (H2 eq_refl) as (H3 & H4); exfalso; first [apply H3; reflexivity|apply H4; reflexivity]);
  try (intro; reflexivity).
Qed.

(** ** Python warnings *)
Lemma shown_without f w : forall l, (forall g, same_filter f g = true -> applies f w = applies g w) -> applies f w = false ->
  shown_by (filter (fun g => negb (same_filter f g)) l) w = shown_by l w.
Proof.
  intros l S A. induction l as [|g l IH]; [reflexivity|]. cbn. destruct (same_filter f g) eqn:E; cbn.
  - rewrite <- (S g E), A. exact IH.
  - rewrite IH. reflexivity.
Qed.
Lemma shown_insert f w l : shown_by (insert_filter f l) w = if applies f w then negb (ignores f) else shown_by l w.
Proof.
  unfold insert_filter. cbn. destruct (applies f w) eqn:A; [reflexivity|]. apply shown_without; [|exact A].
  intros g E. destruct f, g; cbn in E; try discriminate E; reflexivity.
Qed.
Lemma settles_one w e i i' : settles w e i -> settles w e i' -> i = i'.
Proof. intros S S'. inversion S; subst; inversion S'; subst; reflexivity || congruence. Qed.
Lemma shown_after h w : last_given (settles w) h false (negb (shown (session h) w)).
Proof.
  induction h as [|e h IH] using rev_ind.
  - right. split; [reflexivity|]. intros ? ? [].
  - rewrite session_snoc.
    assert (N : (forall i, ~ settles w e i) -> shown (happen (session h) e) w = shown (session h) w ->
      last_given (settles w) (h ++ [e]) false (negb (shown (happen (session h) e) w))).
    { intros S ->. apply given_snoc_no; assumption. }
    destruct e as [|b|v a d|k d|m l|p i].
    + apply N; [intros i S; inversion S|reflexivity].
    + apply N; [intros i S; inversion S|]. destruct b; reflexivity.
    + destruct (a && Z.eqb d 0) eqn:E.
      * apply andb_true_iff in E as (-> & E). apply Z.eqb_eq in E as ->.
        assert (R : shown (happen (session h) (Build v true 0)) w =
          if applies IgnoreLarge w || applies IgnoreClient w then false else shown (session h) w).
        { unfold shown. cbn [happen]. unfold configure_warnings.
          change (0 <? 2)%Z with true. change (0 =? 0)%Z with true. cbn [rules]. rewrite shown_insert. destruct (applies IgnoreLarge w); [reflexivity|].
          cbn [orb]. rewrite shown_insert. destruct (applies IgnoreClient w); [reflexivity|].
          destruct v; reflexivity. }
        rewrite R. destruct (applies IgnoreLarge w || applies IgnoreClient w) eqn:A.
        -- apply given_snoc_yes. cbn [applies] in A. apply orb_true_iff in A as [A|A]; apply andb_true_iff in A as (A1 & A2).
           ++ apply settles_tracker; [exact A1|]. right. apply large_graph_iff. exact A2.
           ++ apply settles_tracker; [exact A1|]. left. apply client_module_iff. exact A2.
        -- apply given_snoc_no; [|exact IH]. intros i S. inversion S; subst. cbn [applies] in A.
           match goal with H : w_user w = true |- _ => rewrite H in A end. cbn [andb] in A. apply orb_false_iff in A as (A1 & A2).
           match goal with H : _ \/ _ |- _ => destruct H as [H|H]; [apply client_module_iff in H|apply large_graph_iff in H] end; congruence.
      * apply N.
        -- intros i S. inversion S; subst. discriminate E.
        -- unfold shown. cbn [happen]. destruct a; [|destruct v; reflexivity]. cbn [andb] in E. unfold configure_warnings.
           rewrite E. destruct (Z.ltb d 2), v; reflexivity.
    + apply N; [intros i S; inversion S|reflexivity].
    + apply N; [intros i S; inversion S|reflexivity].
    + unfold shown in *. cbn [happen rules]. rewrite shown_insert. cbn [applies ignores]. destruct (p w) eqn:P.
      * rewrite negb_involutive. apply given_snoc_yes. constructor. exact P.
      * apply given_snoc_no; [|exact IH]. intros i' S. inversion S; subst. congruence.
Qed.
