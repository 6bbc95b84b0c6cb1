(** Lemmas on the spreading of parent frontiers over a mesh. *)
From Verif Require Import Base Partition PartitionProofs MeshPart MeshPartSpec ClusterFinal.
Open Scope nat_scope.

Lemma within_le nbs m P a b k : a <= b -> within nbs m P a k -> within nbs m P b k.
Proof. induction 1; intro H'; [exact H'|]. apply within_stay. auto. Qed.
Lemma within_lt nbs m P a k : within nbs m P a k -> k < m.
Proof. induction 1; auto. Qed.

(** One direction. *)
Lemma expand_dir_length nb p fr : length (expand_dir nb p fr) = length fr.
Proof. unfold expand_dir. rewrite map_length, seq_length. reflexivity. Qed.
Lemma expand_dir_nth nb p fr j : j < length fr ->
  nth j (expand_dir nb p fr) unvisited =
  if Nat.eqb (nth j fr unvisited) unvisited && reached nb p fr j then p else nth j fr unvisited.
Proof.
  intro H. unfold expand_dir. rewrite (nth_map_gen _ _ _ 0) by (rewrite seq_length; exact H).
  rewrite seq_nth by exact H. reflexivity.
Qed.
Lemma reached_spec nb p fr j : reached nb p fr j = true <->
  exists k, k < length fr /\ nth k fr unvisited = p /\ nth k nb (-1)%Z = Z.of_nat j.
Proof.
  unfold reached. rewrite existsb_exists. split.
  - intros (k & I & E). apply in_seq in I. apply andb_true_iff in E. destruct E as [E1 E2].
    apply Nat.eqb_eq in E1. apply Z.eqb_eq in E2. exists k. repeat split; [lia|assumption|assumption].
  - intros (k & K & E1 & E2). exists k. rewrite in_seq. split; [lia|].
    rewrite E1, E2, Nat.eqb_refl, Z.eqb_refl. reflexivity.
Qed.

(** Frontiers only grow. *)
Definition grows (fr fr' : list nat) : Prop :=
  length fr' = length fr /\
  forall j, nth j fr unvisited <> unvisited -> nth j fr' unvisited = nth j fr unvisited.
Lemma grows_refl fr : grows fr fr. Proof. split; reflexivity. Qed.
Lemma grows_trans a b c : grows a b -> grows b c -> grows a c.
Proof.
  intros [L1 H1] [L2 H2]. split; [congruence|]. intros j N. rewrite H2, H1; auto. rewrite H1; auto.
Qed.
Lemma expand_dir_grows nb p fr : grows fr (expand_dir nb p fr).
Proof.
  split; [apply expand_dir_length|]. intros j N.
  destruct (Nat.lt_ge_cases j (length fr)) as [A|A].
  - rewrite expand_dir_nth by exact A. destruct (Nat.eqb_spec (nth j fr unvisited) unvisited); [contradiction|reflexivity].
  - rewrite nth_overflow in N by exact A. congruence.
Qed.

Section Mesh.
Variables (nbs : list (list Z)) (child : list bool) (m : nat) (fr0 : list nat).
Hypothesis L0 : length fr0 = m.
Hypothesis Lc : length child = m.
Definition from (p : nat) (k : nat) : Prop := nth k fr0 unvisited = p.

(** Soundness: a cell of parent p is within b p hops of an original cell. *)
Definition sound (b : nat -> nat) (fr : list nat) : Prop :=
  length fr = m /\
  forall k p, p <> unvisited -> nth k fr unvisited = p -> within nbs m (from p) (b p) k.

Lemma sound_dir nb p b fr : In nb nbs -> p <> unvisited -> sound b fr ->
  sound (fun q => if Nat.eqb q p then S (b q) else b q) (expand_dir nb p fr).
Proof.
  intros Inb Np [L S]. split; [rewrite expand_dir_length; exact L|]. intros k q Nq E.
  destruct (Nat.lt_ge_cases k (length fr)) as [A|A].
  2:{ rewrite nth_overflow in E by (rewrite expand_dir_length; exact A). congruence. }
  rewrite expand_dir_nth in E by exact A.
  destruct (Nat.eqb_spec (nth k fr unvisited) unvisited) as [U|U]; cbn [andb] in E.
  - destruct (reached nb p fr k) eqn:R; [|congruence]. subst q. rewrite Nat.eqb_refl.
    apply reached_spec in R. destruct R as (j & J & Ej & Nb).
    apply within_hop with j; [apply S; assumption| |lia]. exists nb. tauto.
  - assert (W := S k q Nq E). destruct (Nat.eqb q p); [apply within_stay|]; exact W.
Qed.
Lemma sound_le b b' fr : (forall q, b q <= b' q) -> sound b fr -> sound b' fr.
Proof. intros H [L S]. split; [exact L|]. intros k p N E. apply (within_le _ _ _ (b p)); auto. Qed.

Definition dirs_step (p : nat) (s : list nat * bool) (nb : list Z) : list nat * bool :=
  let fr' := expand_dir nb p (fst s) in (fr', snd s || grew child (fst s) fr').

Lemma dirs_grows p l s : grows (fst s) (fst (fold_left (dirs_step p) l s)).
Proof.
  revert s. induction l as [|nb l IH]; intro s; cbn [fold_left]; [apply grows_refl|].
  eapply grows_trans; [|apply IH]. apply expand_dir_grows.
Qed.
Lemma dirs_sound p l b s : incl l nbs -> p <> unvisited -> sound b (fst s) ->
  sound (fun q => if Nat.eqb q p then b q + length l else b q) (fst (fold_left (dirs_step p) l s)).
Proof.
  revert b s. induction l as [|nb l IH]; intros b s I N S; cbn [fold_left length].
  - apply (sound_le b); [|exact S]. intro q. destruct (Nat.eqb q p); lia.
  - apply (sound_le (fun q => if Nat.eqb q p then (if Nat.eqb q p then Datatypes.S (b q) else b q) + length l
                              else (if Nat.eqb q p then Datatypes.S (b q) else b q))).
    + intro q. destruct (Nat.eqb q p); lia.
    + apply IH; [intros x J; apply I; right; exact J|exact N|].
      apply sound_dir; [apply I; left; reflexivity|exact N|exact S].
Qed.
Lemma dirs_complete p l s nb j k : length (fst s) = m -> In nb l -> j < m -> k < m ->
  nth j (fst s) unvisited = p -> p <> unvisited -> nth j nb (-1)%Z = Z.of_nat k ->
  nth k (fst (fold_left (dirs_step p) l s)) unvisited <> unvisited.
Proof.
  revert s. induction l as [|nb0 l IH]; intros s L I J K E N Nb; [contradiction|].
  cbn [fold_left]. destruct I as [->|I].
  - assert (G : nth k (fst (dirs_step p s nb)) unvisited <> unvisited).
    { cbn [dirs_step fst]. rewrite expand_dir_nth by lia.
      destruct (Nat.eqb_spec (nth k (fst s) unvisited) unvisited) as [U|U]; [|exact U]. cbn [andb].
      replace (reached nb p (fst s) k) with true; [exact N|]. symmetry. apply reached_spec. exists j.
      repeat split; [lia|exact E|exact Nb]. }
    destruct (dirs_grows p l (dirs_step p s nb)) as [_ G']. rewrite G'; exact G.
  - apply IH; try assumption.
    + cbn [dirs_step fst]. rewrite expand_dir_length. exact L.
    + cbn [dirs_step fst]. destruct (expand_dir_grows nb0 p (fst s)) as [_ G]. rewrite G; congruence.
Qed.

(** The flag tells whether a child cell was reached. *)
Definition flag_ok (fr : list nat) (s : list nat * bool) : Prop :=
  forall k, nth k child false = true -> nth k fr unvisited = unvisited -> nth k (fst s) unvisited <> unvisited ->
  snd s = true.
Lemma flag_step fr p s nb : length (fst s) = m -> flag_ok fr s -> flag_ok fr (dirs_step p s nb).
Proof.
  intros L H k C U V. cbn [dirs_step fst snd] in *. apply orb_true_iff.
  destruct (Nat.eq_dec (nth k (fst s) unvisited) unvisited) as [E|E].
  - right. unfold grew. apply existsb_exists. exists k. split.
    + apply in_seq. split; [lia|]. destruct (Nat.lt_ge_cases k (length child)) as [A|A]; [lia|].
      rewrite nth_overflow in C by exact A. discriminate.
    + rewrite C, E, Nat.eqb_refl. cbn [andb]. apply negb_true_iff, Nat.eqb_neq. exact V.
  - left. apply (H k C U E).
Qed.
Lemma dirs_flag fr p l s : length (fst s) = m -> flag_ok fr s -> flag_ok fr (fold_left (dirs_step p) l s).
Proof.
  revert s. induction l as [|nb l IH]; intros s L H; cbn [fold_left]; [exact H|].
  apply IH; [cbn [dirs_step fst]; rewrite expand_dir_length; exact L|]. apply flag_step; assumption.
Qed.

(** One parent. *)
Lemma parent_unfold s p : expand_parent nbs child s p =
  if existsb (Nat.eqb p) (fst s) then fold_left (dirs_step p) nbs s else s.
Proof. reflexivity. Qed.
Lemma parent_grows s p : grows (fst s) (fst (expand_parent nbs child s p)).
Proof. rewrite parent_unfold. destruct (existsb _ _); [apply dirs_grows|apply grows_refl]. Qed.
Lemma parent_sound b s p : p <> unvisited -> sound b (fst s) ->
  sound (fun q => if Nat.eqb q p then b q + length nbs else b q) (fst (expand_parent nbs child s p)).
Proof.
  intros N S. rewrite parent_unfold. destruct (existsb _ _).
  - apply dirs_sound; [apply incl_refl|exact N|exact S].
  - apply (sound_le b); [|exact S]. intro q. destruct (Nat.eqb q p); lia.
Qed.
Lemma parent_complete s p j k : length (fst s) = m -> j < m -> k < m -> adjacent nbs j k ->
  nth j (fst s) unvisited = p -> p <> unvisited ->
  nth k (fst (expand_parent nbs child s p)) unvisited <> unvisited.
Proof.
  intros L J K (nb & I & Nb) E N. rewrite parent_unfold.
  replace (existsb (Nat.eqb p) (fst s)) with true.
  - apply (dirs_complete p nbs s nb j k); assumption.
  - symmetry. apply existsb_exists. exists p. split; [|apply Nat.eqb_refl]. rewrite <- E. apply nth_In. lia.
Qed.
Lemma parent_flag fr s p : length (fst s) = m -> flag_ok fr s -> flag_ok fr (expand_parent nbs child s p).
Proof. intros L H. rewrite parent_unfold. destruct (existsb _ _); [apply dirs_flag; assumption|exact H]. Qed.

(** A round over a list of parents. *)
Lemma fold_grows l s : grows (fst s) (fst (fold_left (expand_parent nbs child) l s)).
Proof.
  revert s. induction l as [|p l IH]; intro s; cbn [fold_left]; [apply grows_refl|].
  eapply grows_trans; [apply parent_grows|apply IH].
Qed.
Lemma fold_sound l b s : NoDup l -> ~ In unvisited l -> sound b (fst s) ->
  sound (fun q => b q + length nbs) (fst (fold_left (expand_parent nbs child) l s)).
Proof.
  intros N U S.
  assert (G : sound (fun q => if in_dec Nat.eq_dec q l then b q + length nbs else b q)
                (fst (fold_left (expand_parent nbs child) l s))).
  { revert b s N U S. induction l as [|p l IH]; intros b s N U S; cbn [fold_left].
    - apply (sound_le b); [|exact S]. intro q. destruct (in_dec _ _ _); lia.
    - inversion N as [|x y Hx Hy]; subst.
      eapply sound_le; [|apply IH; [exact Hy|intro I; apply U; right; exact I|
        apply parent_sound; [intro E; apply U; left; exact E|exact S]]].
      intro q. cbv beta. destruct (in_dec Nat.eq_dec q l) as [A|A], (in_dec Nat.eq_dec q (p :: l)) as [B|B];
        destruct (Nat.eqb_spec q p) as [C|C]; subst; cbn in *; try tauto; try lia;
        try (exfalso; destruct B; [congruence|tauto]). }
  eapply sound_le; [|exact G]. intro q. cbv beta. destruct (in_dec _ _ _); lia.
Qed.
Lemma fold_complete l s j k p : length (fst s) = m -> In p l -> j < m -> k < m -> adjacent nbs j k ->
  nth j (fst s) unvisited = p -> p <> unvisited ->
  nth k (fst (fold_left (expand_parent nbs child) l s)) unvisited <> unvisited.
Proof.
  revert s. induction l as [|q l IH]; intros s L I J K A E N; [contradiction|]. cbn [fold_left].
  destruct I as [->|I].
  - assert (G := parent_complete s p j k L J K A E N).
    destruct (fold_grows l (expand_parent nbs child s p)) as [_ G']. rewrite G'; exact G.
  - destruct (parent_grows s q) as [L' G]. apply IH; try assumption; [congruence|].
    rewrite G; congruence.
Qed.
Lemma fold_flag fr l s : length (fst s) = m -> flag_ok fr s -> flag_ok fr (fold_left (expand_parent nbs child) l s).
Proof.
  revert s. induction l as [|p l IH]; intros s L H; cbn [fold_left]; [exact H|].
  apply IH; [|apply parent_flag; assumption]. destruct (parent_grows s p) as [L' _]. congruence.
Qed.

(** Values. *)
Definition values_lt (n : nat) (fr : list nat) : Prop :=
  forall k, nth k fr unvisited <> unvisited -> nth k fr unvisited < n.
Lemma dir_values n nb p fr : p < n -> values_lt n fr -> values_lt n (expand_dir nb p fr).
Proof.
  intros P H k N. destruct (Nat.lt_ge_cases k (length fr)) as [A|A].
  - rewrite expand_dir_nth in * by exact A. destruct (_ && _); [exact P|apply H; exact N].
  - rewrite nth_overflow in N by (rewrite expand_dir_length; exact A). congruence.
Qed.
Lemma dirs_values n p l s : p < n -> values_lt n (fst s) -> values_lt n (fst (fold_left (dirs_step p) l s)).
Proof.
  revert s. induction l as [|nb l IH]; intros s P H; cbn [fold_left]; [exact H|].
  apply IH; [exact P|]. apply dir_values; assumption.
Qed.
Lemma fold_values n l s : (forall p, In p l -> p < n) -> values_lt n (fst s) ->
  values_lt n (fst (fold_left (expand_parent nbs child) l s)).
Proof.
  revert s. induction l as [|p l IH]; intros s P H; cbn [fold_left]; [exact H|].
  apply IH; [intros q I; apply P; right; exact I|]. rewrite parent_unfold.
  destruct (existsb _ _); [|exact H]. apply dirs_values; [apply P; left; reflexivity|exact H].
Qed.

(** ** The loop *)
Variable n : nat.
Hypothesis Hn : n <= unvisited.
Hypothesis V0 : values_lt n fr0.

(** After r rounds: everything within r hops of any parent is assigned, and the
    assigned parent is at most (number of directions) times further than any
    other. *)
Definition state_ok (r : nat) (fr : list nat) : Prop :=
  sound (fun _ => length nbs * r) fr /\ values_lt n fr /\ grows fr0 fr /\
  (forall q k, q < n -> within nbs m (from q) r k -> nth k fr unvisited <> unvisited) /\
  (forall k p q d, p <> unvisited -> nth k fr unvisited = p -> q < n -> within nbs m (from q) d k ->
    within nbs m (from p) (length nbs * d) k).

Lemma state_init : state_ok 0 fr0.
Proof.
  split; [|split; [|split; [|split]]].
  - split; [exact L0|]. intros k p N E. rewrite Nat.mul_0_r. apply within_here; [|exact E].
    destruct (Nat.lt_ge_cases k m) as [A|A]; [exact A|]. rewrite nth_overflow in E by lia. congruence.
  - exact V0.
  - apply grows_refl.
  - intros q k Q W. inversion W; subst. match goal with H : from q k |- _ => unfold from in H; rewrite H end. lia.
  - intros k p q d N E Q W. apply (within_le _ _ _ 0); [lia|]. apply within_here; [|exact E].
    apply within_lt in W. exact W.
Qed.

Lemma state_round r fr : state_ok r fr ->
  state_ok (S r) (fst (expand_round nbs child n fr)) /\ flag_ok fr (expand_round nbs child n fr).
Proof.
  intros (So & Va & Gr & Co & Ap). unfold expand_round.
  assert (L : length fr = m) by apply So.
  assert (Nu : ~ In unvisited (seq 0 n)) by (rewrite in_seq; lia).
  assert (So' := fold_sound (seq 0 n) _ (fr, false) (seq_NoDup n 0) Nu So).
  assert (Gr' := fold_grows (seq 0 n) (fr, false)).
  assert (Va' := fold_values n (seq 0 n) (fr, false) ltac:(intros p I; apply in_seq in I; lia) Va).
  set (s' := fold_left (expand_parent nbs child) (seq 0 n) (fr, false)) in *.
  assert (So2 : sound (fun _ => length nbs * S r) (fst s')) by (eapply sound_le; [|exact So']; intro; cbn; lia).
  split; [|apply fold_flag; [exact L|]; intros k _ U V; cbn [fst] in V; congruence].
  split; [exact So2|]. split; [exact Va'|]. split; [exact (grows_trans _ _ _ Gr Gr')|]. split.
  - intros q k Q W. inversion W as [|a b W'|a j b W' A K]; subst.
    + destruct Gr' as [_ G]. cbn [fst] in G. rewrite G; apply (Co q k Q W').
    + assert (J := Co q j Q W'). assert (Jm := within_lt _ _ _ _ _ W').
      apply (fold_complete (seq 0 n) (fr, false) j k (nth j fr unvisited)); try assumption; [|reflexivity].
      apply in_seq. split; [lia|]. cbn. apply Va. exact J.
  - intros k p q d N E Q W. destruct (Nat.eq_dec (nth k fr unvisited) unvisited) as [U|U].
    + destruct (Nat.le_gt_cases d r) as [D|D].
      * exfalso. apply (Co q k Q); [|exact U]. apply (within_le _ _ _ d); [lia|exact W].
      * destruct So2 as [_ S2]. apply (within_le _ _ _ (length nbs * S r)); [nia|]. apply S2; assumption.
    + destruct Gr' as [_ G]. cbn [fst] in G. rewrite G in E by exact U. apply (Ap k p q d N E Q W).
Qed.

Lemma any_unassigned_spec fr : length fr = m ->
  any_unassigned child fr = true <-> exists k, nth k child false = true /\ nth k fr unvisited = unvisited.
Proof.
  intro L. unfold any_unassigned. rewrite existsb_exists. split.
  - intros ((c, v) & I & E). apply andb_true_iff in E. destruct E as [E1 E2]. cbn in E1, E2. subst c.
    apply Nat.eqb_eq in E2. subst v. apply In_nth with (d := (false, unvisited)) in I. destruct I as (k & K & E).
    rewrite combine_nth in E by lia. injection E as E1 E2. exists k. tauto.
  - intros (k & C & U). exists (true, unvisited). split; [|reflexivity].
    assert (K : k < m). { destruct (Nat.lt_ge_cases k m) as [A|A]; [exact A|]. rewrite nth_overflow in C by lia. discriminate. }
    replace (true, unvisited) with (nth k (combine child fr) (false, unvisited)).
    + apply nth_In. rewrite combine_length. lia.
    + rewrite combine_nth by lia. rewrite C, U. reflexivity.
Qed.

Lemma spread_ok d r fr : state_ok r fr -> exists r', state_ok r' (spread nbs child n d fr).
Proof.
  revert r fr. induction d as [|d IH]; intros r fr H; cbn [spread]; [exists r; exact H|].
  destruct (any_unassigned child fr); [|exists r; exact H].
  destruct (state_round r fr H) as [H' _].
  destruct (expand_round nbs child n fr) as [fr' upd]. destruct upd; [apply (IH (S r)); exact H'|exists (S r); exact H'].
Qed.

(** Children that can be walked from the parents never fall back. *)
Definition in_child (k : nat) : Prop := nth k child false = true.
Inductive walk : nat -> nat -> Prop :=
| walk_here k : in_child k -> nth k fr0 unvisited <> unvisited -> walk 0 k
| walk_hop e j k : walk e j -> adjacent nbs j k -> in_child k -> walk (S e) k.
Lemma walk_child e k : walk e k -> in_child k. Proof. destruct 1; assumption. Qed.
Lemma child_lt k : in_child k -> k < m.
Proof.
  intro C. destruct (Nat.lt_ge_cases k m) as [A|A]; [exact A|]. unfold in_child in C.
  rewrite nth_overflow in C by lia. discriminate.
Qed.
Lemma walk_within e k : walk e k -> exists q, q < n /\ within nbs m (from q) e k.
Proof.
  induction 1 as [k C U|e j k W IH A C].
  - exists (nth k fr0 unvisited). split; [apply V0; exact U|]. apply within_here; [apply child_lt; exact C|reflexivity].
  - destruct IH as (q & Q & Wq). exists q. split; [exact Q|]. apply within_hop with j; [exact Wq|exact A|apply child_lt; exact C].
Qed.
(** An unassigned child cell with a walk has an unassigned one next to an
    assigned one. *)
Lemma walk_border fr e k : grows fr0 fr -> walk e k -> nth k fr unvisited = unvisited ->
  exists j k', adjacent nbs j k' /\ j < m /\ in_child k' /\ nth j fr unvisited <> unvisited /\ nth k' fr unvisited = unvisited.
Proof.
  intros [_ G] W. induction W as [k C U|e j k W IH A C]; intro E.
  - exfalso. apply U. rewrite <- (G k U). exact E.
  - destruct (Nat.eq_dec (nth j fr unvisited) unvisited) as [F|F]; [apply IH; exact F|].
    exists j, k. split; [exact A|]. split; [apply child_lt, (walk_child e), W|]. tauto.
Qed.

Lemma spread_complete d r fr e k : state_ok r fr -> (forall k', in_child k' -> exists e', walk e' k' /\ e' <= r + d) ->
  walk e k -> e <= r + d -> nth k (spread nbs child n d fr) unvisited <> unvisited.
Proof.
  revert r fr. induction d as [|d IH]; intros r fr H All W Le; cbn [spread].
  - destruct H as (_ & _ & _ & Co & _). destruct (walk_within e k W) as (q & Q & Wq).
    apply (Co q k Q). apply (within_le _ _ _ e); [lia|exact Wq].
  - assert (L : length fr = m) by apply H.
    destruct (any_unassigned child fr) eqn:E.
    + apply (any_unassigned_spec fr L) in E. destruct E as (k0 & C0 & U0).
      destruct (All k0 C0) as (e0 & W0 & Le0).
      destruct (walk_border fr e0 k0) as (j & k1 & A & J & C1 & Nj & U1); [apply H|exact W0|exact U0|].
      destruct (state_round r fr H) as [H' F].
      assert (Up : snd (expand_round nbs child n fr) = true).
      { apply (F k1 C1 U1). unfold expand_round.
        apply (fold_complete (seq 0 n) (fr, false) j k1 (nth j fr unvisited)); try assumption;
          [|apply child_lt; exact C1|reflexivity].
        apply in_seq. destruct H as (_ & Va & _). specialize (Va j Nj). lia. }
      destruct (expand_round nbs child n fr) as [fr' upd]. cbn [fst snd] in *. subst upd.
      apply (IH (S r)); [exact H'| |exact W|lia].
      intros k' C'. destruct (All k' C') as (e' & W' & Le'). exists e'. split; [exact W'|lia].
    + intro U. assert (T : any_unassigned child fr = true).
      { apply (any_unassigned_spec fr L). exists k. split; [apply (walk_child e), W|exact U]. }
      congruence.
Qed.
End Mesh.

(** The number of parents found in the frontier bounds its values. *)
Lemma frontier_values fr : values_lt (frontier_parents fr) fr \/ exists k, nth k fr unvisited > unvisited.
Proof.
  destruct (existsb (Nat.ltb unvisited) fr) eqn:E.
  - right. apply existsb_exists in E. destruct E as (v & I & E). apply Nat.ltb_lt in E.
    apply In_nth with (d := unvisited) in I. destruct I as (k & _ & I). exists k. lia.
  - left. intros k N. unfold frontier_parents.
    assert (K : k < length fr). { destruct (Nat.lt_ge_cases k (length fr)) as [A|A]; [exact A|]. rewrite nth_overflow in N by exact A. congruence. }
    assert (I := nth_In fr unvisited K).
    assert (Lv : nth k fr unvisited < unvisited).
    { destruct (Nat.ltb unvisited (nth k fr unvisited)) eqn:G.
      - assert (T : existsb (Nat.ltb unvisited) fr = true) by (apply existsb_exists; exists (nth k fr unvisited); tauto). congruence.
      - apply Nat.ltb_ge in G. lia. }
    assert (M : Forall (fun v => v <= list_max (filter (fun v => Nat.ltb v unvisited) fr)) (filter (fun v => Nat.ltb v unvisited) fr))
      by (apply list_max_le; lia).
    rewrite Forall_forall in M. specialize (M (nth k fr unvisited)).
    assert (nth k fr unvisited <= list_max (filter (fun v => Nat.ltb v unvisited) fr)); [|lia].
    apply M. apply filter_In. split; [exact I|apply Nat.ltb_lt; exact Lv].
Qed.
