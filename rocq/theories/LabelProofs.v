(** Proofs about [Label]. *)
From Verif Require Import Base Graph GraphProofs Morph MorphSpec Label LabelSpec.
Open Scope nat_scope.

Lemma ti_In on i : In i (true_indices on) <-> onb on i = true.
Proof.
  unfold true_indices. rewrite filter_In, in_seq. split; [tauto|]. intro H. split; auto.
  split; [lia|]. unfold onb in H. destruct (Nat.ltb_spec i (length on)); [lia|].
  rewrite nth_overflow in H by assumption. discriminate.
Qed.

Lemma onb_lt on i : onb on i = true -> i < length on.
Proof.
  intro H. destruct (Nat.ltb_spec i (length on)); auto. unfold onb in H.
  rewrite nth_overflow in H by assumption. discriminate.
Qed.

Definition on_edges (on : list bool) (es : list edge) : list edge :=
  filter (fun e => onb on (fst e) && onb on (snd e)) es.

Lemma on_edges_In on es a b : In (a, b) (on_edges on es) <-> In (a, b) es /\ onb on a = true /\ onb on b = true.
Proof. unfold on_edges. rewrite filter_In. cbn [fst snd]. rewrite andb_true_iff. tauto. Qed.

Lemma linked_map (f : nat -> nat) (P : nat -> Prop) es :
  (forall a b, In (a, b) es -> P a /\ P b) ->
  (forall a b, P a -> P b -> f a = f b -> a = b) ->
  forall i j, P i -> P j ->
  (linked (map (fun e => (f (fst e), f (snd e))) es) (f i) (f j) <-> linked es i j).
Proof.
  intros R I i j Hi Hj. split.
  - remember (f i) as a eqn:Ea. remember (f j) as b eqn:Eb. intro L. revert i Ea Hi.
    induction L as [x|x y z H L IH|x y z H L IH]; intros i Ea Hi.
    + assert (i = j) by (apply I; auto; congruence). subst. constructor.
    + apply in_map_iff in H. destruct H as ([p q] & E & H). cbn [fst snd] in E. injection E as E1 E2.
      destruct (R _ _ H) as [Pp Pq].
      assert (p = i) by (apply I; auto; congruence). subst p.
      eapply linked_fwd; [exact H|]. apply IH; auto.
    + apply in_map_iff in H. destruct H as ([p q] & E & H). cbn [fst snd] in E. injection E as E1 E2.
      destruct (R _ _ H) as [Pp Pq].
      assert (q = i) by (apply I; auto; congruence). subst q.
      eapply linked_bwd; [exact H|]. apply IH; auto.
  - intro L. induction L as [x|x y z H L IH|x y z H L IH].
    + constructor.
    + destruct (R _ _ H) as [Px Py]. eapply linked_fwd; [|apply IH; auto].
      apply in_map_iff. exists (x, y). auto.
    + destruct (R _ _ H) as [Py Px]. eapply linked_bwd; [|apply IH; auto].
      apply in_map_iff. exists (y, x). auto.
Qed.

Lemma compact_range on es a b : In (a, b) (compact_edges on es) ->
  a < length (true_indices on) /\ b < length (true_indices on).
Proof.
  unfold compact_edges. intro H. apply in_map_iff in H. destruct H as ([p q] & E & H).
  cbn [fst snd] in E. injection E as <- <-. apply on_edges_In in H. destruct H as (_ & H1 & H2).
  split; apply index_of_lt; apply ti_In; assumption.
Qed.

Lemma label_on_length on es : length (label_on on es) = length on.
Proof. unfold label_on. rewrite map_length, seq_length. reflexivity. Qed.

Lemma label_on_nth on es i : i < length on ->
  nth i (label_on on es) 0%Z =
  if onb on i then (Z.of_nat (nth (index_of i (true_indices on))
     (components (length (true_indices on)) (compact_edges on es)) 0%nat) + 1)%Z else 0%Z.
Proof.
  intro H. unfold label_on.
  match goal with |- nth i (map ?F _) _ = _ => set (G := F) end.
  rewrite (nth_indep _ 0%Z (G 0)) by (rewrite map_length, seq_length; exact H).
  rewrite (map_nth G), seq_nth by exact H. reflexivity.
Qed.

Lemma label_on_zero on es i : nth i (label_on on es) 0%Z = 0%Z <-> onb on i = false.
Proof.
  destruct (Nat.ltb_spec i (length on)) as [H|H].
  - rewrite label_on_nth by exact H. destruct (onb on i); split; intro; try reflexivity; try discriminate; lia.
  - rewrite nth_overflow by (rewrite label_on_length; exact H). unfold onb. rewrite nth_overflow by exact H. tauto.
Qed.

Lemma label_on_nonneg on es i : (0 <= nth i (label_on on es) 0)%Z.
Proof.
  destruct (Nat.ltb_spec i (length on)) as [H|H].
  - rewrite label_on_nth by exact H. destruct (onb on i); lia.
  - rewrite nth_overflow by (rewrite label_on_length; exact H). lia.
Qed.

Lemma label_on_eq on es i j : onb on i = true -> onb on j = true ->
  (nth i (label_on on es) 0%Z = nth j (label_on on es) 0%Z <-> linked (on_edges on es) i j).
Proof.
  intros Hi Hj. rewrite !label_on_nth by (apply onb_lt; assumption). rewrite Hi, Hj.
  set (ti := true_indices on). set (ce := compact_edges on es).
  destruct (components_spec (length ti) ce 0 (compact_range on es)) as [E _].
  assert (Bi : index_of i ti < length ti) by (apply index_of_lt, ti_In; exact Hi).
  assert (Bj : index_of j ti < length ti) by (apply index_of_lt, ti_In; exact Hj).
  specialize (E _ _ Bi Bj).
  assert (M : linked ce (index_of i ti) (index_of j ti) <-> linked (on_edges on es) i j).
  { unfold ce, compact_edges. fold (on_edges on es). fold ti.
    apply (linked_map (fun x => index_of x ti) (fun x => onb on x = true)); auto.
    - intros a b H. apply on_edges_In in H. tauto.
    - intros a b Ha Hb. apply index_of_inj; apply ti_In; assumption. }
  rewrite <- M, <- E. lia.
Qed.

Lemma label_on_range on es :
  (forall i, onb on i = true -> (1 <= nth i (label_on on es) 0 <= Z.of_nat (label_count on es))%Z) /\
  (forall k, (1 <= k <= Z.of_nat (label_count on es))%Z ->
     exists i, onb on i = true /\ nth i (label_on on es) 0%Z = k).
Proof.
  set (ti := true_indices on). set (ce := compact_edges on es).
  destruct (components_spec (length ti) ce 0 (compact_range on es)) as (_ & U & S).
  split.
  - intros i Hi. rewrite label_on_nth by (apply onb_lt; exact Hi). rewrite Hi.
    assert (Bi : index_of i ti < length ti) by (apply index_of_lt, ti_In; exact Hi).
    specialize (U _ Bi). unfold label_count. fold ti ce. lia.
  - intros k Hk. unfold label_count in Hk. fold ti ce in Hk.
    destruct (S (Z.to_nat (k - 1)) ltac:(lia)) as (c & Hc & Ec).
    exists (nth c ti 0).
    assert (Ic : In (nth c ti 0) ti) by (apply nth_In; exact Hc).
    assert (Oc : onb on (nth c ti 0) = true) by (apply ti_In; exact Ic).
    split; auto. rewrite label_on_nth by (apply onb_lt; exact Oc). rewrite Oc. fold ti ce.
    rewrite index_of_nth; [lia| |exact Hc].
    unfold ti, true_indices. apply NoDup_filter. apply seq_NoDup.
Qed.

(** *** Structured grid *)
Lemma cells_In nt ny nx c : In c (cells nt ny nx) <-> in_range nt ny nx c.
Proof.
  destruct c as [[t y] x]. unfold cells, in_range. rewrite (in_prod_iff _ _ (t,y) x), in_prod_iff, !in_seq. lia.
Qed.

Lemma flat_inj nt ny nx c c' : in_range nt ny nx c -> in_range nt ny nx c' ->
  flat ny nx c = flat ny nx c' -> c = c'.
Proof.
  destruct c as [[t y] x], c' as [[t' y'] x']. unfold in_range, flat. intros (Ht & Hy & Hx) (Ht' & Hy' & Hx') E.
  assert (A : t * ny + y = t' * ny + y' /\ x = x').
  { pose proof (Nat.div_mod_unique nx (t * ny + y) (t' * ny + y') x x'). nia. }
  destruct A as [A ->].
  assert (B : t = t' /\ y = y').
  { pose proof (Nat.div_mod_unique ny t t' y y'). nia. }
  destruct B as [-> ->]. reflexivity.
Qed.

Lemma flat_lt nt ny nx c : in_range nt ny nx c -> flat ny nx c < nt * ny * nx.
Proof.
  destruct c as [[t y] x]. unfold in_range, flat. intros (Ht & Hy & Hx).
  assert (t * ny + y < nt * ny) by nia. nia.
Qed.

Lemma steps_In n k j : In j (steps n k) <-> j < n /\ dist1 k j.
Proof.
  unfold steps, dist1. rewrite filter_In. rewrite Nat.ltb_lt.
  destruct k; simpl; split; lia.
Qed.

Lemma mod_minus1 n k : k < n -> (k + n - 1) mod n = if Nat.eqb k 0 then n - 1 else k - 1.
Proof.
  intro H. destruct (Nat.eqb_spec k 0) as [->|N].
  - simpl. apply Nat.mod_small. lia.
  - replace (k + n - 1) with (k - 1 + 1 * n) by lia. rewrite Nat.mod_add by lia. apply Nat.mod_small. lia.
Qed.
Lemma mod_plus1 n k : k < n -> (k + 1) mod n = if Nat.eqb (k + 1) n then 0 else k + 1.
Proof.
  intro H. destruct (Nat.eqb_spec (k + 1) n) as [->|N].
  - apply Nat.mod_same. lia.
  - apply Nat.mod_small. lia.
Qed.

Lemma steps_wrap_In n k j : k < n -> (In j (steps_wrap n k) <-> j < n /\ col_next true n k j).
Proof.
  intro H. unfold steps_wrap, col_next, dist1. simpl. rewrite mod_minus1, mod_plus1, Nat.mod_small by exact H.
  destruct (Nat.eqb_spec k 0) as [N|N]; destruct (Nat.eqb_spec (k + 1) n) as [E|E];
    split; intro K; intuition (try lia).
Qed.

Lemma neighbour_cells_In tconn wrap nt ny nx c c' : in_range nt ny nx c ->
  (In c' (neighbour_cells tconn wrap nt ny nx c) <-> in_range nt ny nx c' /\ touching tconn wrap nx c c').
Proof.
  destruct c as [[t y] x], c' as [[t' y'] x']. unfold in_range at 1. intros (Ht & Hy & Hx).
  unfold neighbour_cells, in_range, touching. rewrite (in_prod_iff _ _ (t', y') x'), in_prod_iff, steps_In.
  assert (T : In t' (if tconn then steps nt t else [t]) <-> t' < nt /\ (if tconn then dist1 t t' else t = t')).
  { destruct tconn; [apply steps_In|]. simpl. split; [intros [->|[]]; auto|intros [_ ->]; auto]. }
  assert (X : In x' (if wrap then steps_wrap nx x else steps nx x) <-> x' < nx /\ col_next wrap nx x x').
  { destruct wrap; [apply steps_wrap_In; exact Hx|]. rewrite steps_In. unfold col_next.
    split; [tauto|]. intros [H [K|[K _]]]; [auto|discriminate]. }
  rewrite T, X. tauto.
Qed.

Lemma grid_edges_In tconn wrap nt ny nx a b :
  In (a, b) (grid_edges tconn wrap nt ny nx) <->
  exists c c', in_range nt ny nx c /\ in_range nt ny nx c' /\ touching tconn wrap nx c c' /\
               a = flat ny nx c /\ b = flat ny nx c'.
Proof.
  unfold grid_edges. rewrite in_flat_map. split.
  - intros (c & Hc & H). apply cells_In in Hc. apply in_map_iff in H. destruct H as (c' & E & H).
    apply neighbour_cells_In in H; auto. injection E as <- <-. exists c, c'. tauto.
  - intros (c & c' & Hc & Hc' & T & -> & ->). exists c. split; [apply cells_In; exact Hc|].
    apply in_map_iff. exists c'. split; auto. apply neighbour_cells_In; auto.
Qed.

Lemma touching_sym tconn wrap nx c c' : touching tconn wrap nx c c' -> touching tconn wrap nx c' c.
Proof.
  destruct c as [[t y] x], c' as [[t' y'] x']. unfold touching, col_next, dist1.
  destruct tconn; intros (H1 & H2 & H3); repeat split; try tauto; intuition lia.
Qed.

Lemma chain_linked tconn wrap nt ny nx data c c' :
  in_range nt ny nx c -> extreme ny nx data c ->
  in_range nt ny nx c' -> extreme ny nx data c' ->
  (chain tconn wrap nt ny nx (extreme ny nx data) c c' <->
   linked (on_edges data (grid_edges tconn wrap nt ny nx)) (flat ny nx c) (flat ny nx c')).
Proof.
  intros Rc Xc Rc' Xc'. split.
  - intro H. revert Rc Xc. induction H as [c|c d e Rd Xd T _ IH]; intros Rc Xc; [constructor|].
    eapply linked_fwd; [|apply IH; auto].
    apply on_edges_In. split; [|split; [exact Xc|exact Xd]].
    apply grid_edges_In. exists c, d. auto.
  - intro H. remember (flat ny nx c) as a eqn:Ea. remember (flat ny nx c') as b eqn:Eb.
    revert c Ea Rc Xc. induction H as [a|a k b K _ IH|a k b K _ IH]; intros c Ea Rc Xc.
    + assert (c = c') by (eapply flat_inj; eauto; congruence). subst. constructor.
    + apply on_edges_In in K. destruct K as (K & Oa & Ok).
      apply grid_edges_In in K. destruct K as (p & q & Rp & Rq & T & Ep & Eq).
      assert (p = c) by (eapply flat_inj; eauto; congruence). subst p. subst k.
      eapply chain_step; [exact Rq|exact Ok|exact T|]. apply IH; auto.
    + apply on_edges_In in K. destruct K as (K & Ok & Oa).
      apply grid_edges_In in K. destruct K as (p & q & Rp & Rq & T & Ep & Eq).
      assert (q = c) by (eapply flat_inj; eauto; congruence). subst q. subst k.
      eapply chain_step; [exact Rp|exact Ok|apply touching_sym; exact T|]. apply IH; auto.
Qed.

Lemma identify_grid_spec regional tconn nt ny nx data lab n :
  length data = nt * ny * nx ->
  identify_grid regional tconn nt ny nx data = (lab, n) ->
  length lab = length data /\
  (forall c, in_range nt ny nx c -> (label_of ny nx lab c = 0%Z <-> ~ extreme ny nx data c)) /\
  (forall c c', in_range nt ny nx c -> in_range nt ny nx c' -> extreme ny nx data c -> extreme ny nx data c' ->
     (label_of ny nx lab c = label_of ny nx lab c' <->
      chain tconn (negb regional) nt ny nx (extreme ny nx data) c c')) /\
  (forall k, (1 <= k <= Z.of_nat n)%Z <->
     exists i, i < length data /\ nth i data false = true /\ nth i lab 0%Z = k).
Proof.
  intros L E. unfold identify_grid in E. injection E as <- <-.
  split; [apply label_on_length|]. split; [|split].
  - intros c Rc. unfold label_of, extreme. rewrite label_on_zero. unfold onb.
    destruct (nth (flat ny nx c) data false); split; congruence.
  - intros c c' Rc Rc' Xc Xc'. unfold label_of. rewrite label_on_eq by assumption.
    symmetry. apply chain_linked; assumption.
  - intro k. destruct (label_on_range data (grid_edges tconn (negb regional) nt ny nx)) as [A B]. split.
    + intro Hk. destruct (B k Hk) as (i & Oi & Ei). exists i. split; [apply onb_lt; exact Oi|auto].
    + intros (i & Hi & Oi & Ei). rewrite <- Ei. apply A. exact Oi.
Qed.

Lemma run_tracking_simple_eq regional nt ny nx data :
  run_tracking_simple regional nt ny nx data = identify_grid regional true nt ny nx data.
Proof.
  unfold run_tracking_simple. unfold identify_grid. f_equal.
  rewrite <- (map_id (label_on data _)) at 2. apply map_ext_in. intros v Hv.
  destruct (In_nth _ _ 0%Z Hv) as (i & _ & <-).
  pose proof (label_on_nonneg data (grid_edges true (negb regional) nt ny nx) i).
  destruct (Z.ltb_spec 0 (nth i (label_on data (grid_edges true (negb regional) nt ny nx)) 0%Z)); lia.
Qed.

Lemma run_tracking_simple_spec regional nt ny nx data lab n :
  length data = nt * ny * nx ->
  run_tracking_simple regional nt ny nx data = (lab, n) ->
  length lab = length data /\
  (forall c, in_range nt ny nx c -> (label_of ny nx lab c = 0%Z <-> ~ extreme ny nx data c)) /\
  (forall c c', in_range nt ny nx c -> in_range nt ny nx c' -> extreme ny nx data c -> extreme ny nx data c' ->
     (label_of ny nx lab c = label_of ny nx lab c' <->
      chain true (negb regional) nt ny nx (extreme ny nx data) c c')) /\
  (forall k, (1 <= k <= Z.of_nat n)%Z <->
     exists i, i < length data /\ nth i data false = true /\ nth i lab 0%Z = k).
Proof. intros L E. rewrite run_tracking_simple_eq in E. apply (identify_grid_spec regional true); assumption. Qed.

(** *** Mesh *)
Lemma mesh_edges_In m a b : In (a, b) (mesh_edges m) <-> b < length m /\ adj m b a.
Proof.
  unfold mesh_edges, adj. rewrite in_flat_map. split.
  - intros (c & Hc & H). apply in_seq in Hc. apply in_map_iff in H. destruct H as (r & E & H).
    injection E as <- <-. apply filter_In in H. destruct H as [H1 H2]. split; [lia|].
    rewrite Z2Nat.id by lia. exact H1.
  - intros [Hb H]. exists b. split; [apply in_seq; lia|]. apply in_map_iff.
    exists (Z.of_nat a). split; [rewrite Nat2Z.id; reflexivity|]. apply filter_In. split; [exact H|lia].
Qed.

Lemma masked_at mask data i : length mask = length data ->
  nth i (map (fun p => fst p && snd p) (combine mask data)) false = nth i mask false && nth i data false.
Proof.
  intro L. etransitivity; [exact (map_nth (fun p : bool * bool => fst p && snd p) (combine mask data) (false, false) i)|].
  rewrite combine_nth by exact L. reflexivity.
Qed.

Lemma identify_mesh_spec m mask data :
  mesh_ok m -> length mask = length m -> length data = length m ->
  let lab := identify_mesh m mask data in
  let on := fun i => i < length m /\ nth i mask false = true /\ nth i data false = true in
  length lab = length m /\
  (forall i, i < length m -> (nth i lab 0%Z = 0%Z <-> ~ on i)) /\
  (forall i, (0 <= nth i lab 0)%Z) /\
  (forall i j, on i -> on j -> (nth i lab 0%Z = nth j lab 0%Z <-> mesh_chain m on i j)).
Proof.
  intros OK Lm Ld lab on.
  set (ob := map (fun p => fst p && snd p) (combine mask data)).
  assert (Lo : length ob = length m) by (unfold ob; rewrite map_length, combine_length; lia).
  assert (On : forall i, onb ob i = true <-> on i).
  { intro i. unfold onb, on, ob. rewrite masked_at by lia. rewrite andb_true_iff. split; [|tauto].
    intros [H1 H2]. split; auto. destruct (Nat.ltb_spec i (length m)); auto.
    rewrite nth_overflow in H1 by lia. discriminate. }
  assert (Nth : forall i, nth i lab 0%Z = if nth i mask false then nth i (label_on ob (mesh_edges m)) 0%Z else 0%Z).
  { intro i. unfold lab, identify_mesh. fold ob.
    etransitivity; [exact (map_nth (fun p : bool * Z => if fst p then snd p else 0%Z) _ (false, 0%Z) i)|].
    rewrite combine_nth by (rewrite label_on_length; lia). reflexivity. }
  assert (Nth1 : forall i, on i -> nth i lab 0%Z = nth i (label_on ob (mesh_edges m)) 0%Z).
  { intros i (_ & H & _). rewrite Nth, H. reflexivity. }
  split; [|split; [|split]].
  - unfold lab, identify_mesh. fold ob. rewrite map_length, combine_length, label_on_length. lia.
  - intros i Hi. rewrite Nth. destruct (nth i mask false) eqn:M.
    + rewrite label_on_zero. rewrite <- On. destruct (onb ob i); split; congruence.
    + split; [|reflexivity]. intros _ (_ & C & _). congruence.
  - intro i. rewrite Nth. destruct (nth i mask false); [apply label_on_nonneg|lia].
  - intros i j Hi Hj. rewrite !Nth1 by assumption. rewrite label_on_eq by (apply On; assumption). split.
    + intro H. revert Hi. induction H as [a|a k b K _ IH|a k b K _ IH]; intro Ha; [constructor|..];
      apply on_edges_In in K; destruct K as (K & O1 & O2);
      apply mesh_edges_In in K; destruct K as [B A]; apply On in O1; apply On in O2.
      * eapply mchain_step; [exact O2|right; exact A|exact B|]. apply IH; auto.
      * eapply mchain_step; [exact O1|left; exact A|destruct O1; assumption|]. apply IH; auto.
    + intro H. revert Hi. induction H as [a|a k b O A B _ IH]; intro Ha; [constructor|].
      destruct A as [A|A].
      * eapply linked_bwd; [|apply IH; auto]. apply on_edges_In. split; [|split; apply On; auto].
        apply mesh_edges_In. split; [destruct Ha; assumption|exact A].
      * eapply linked_fwd; [|apply IH; auto]. apply on_edges_In. split; [|split; apply On; auto].
        apply mesh_edges_In. split; assumption.
Qed.

(** A decidable form of [mesh_ok], for examples. *)
Definition mesh_okb (m : mesh) : bool := forallb (forallb (fun j => Z.ltb j (Z.of_nat (length m)))) m.
Lemma mesh_okb_ok m : mesh_okb m = true -> mesh_ok m.
Proof.
  unfold mesh_okb, mesh_ok, row. rewrite forallb_forall. intros H i j Hj.
  destruct (Nat.ltb_spec i (length m)) as [Hi|Hi].
  - specialize (H _ (nth_In _ [] Hi)). rewrite forallb_forall in H. specialize (H _ Hj). apply Z.ltb_lt. exact H.
  - rewrite nth_overflow in Hj by exact Hi. destruct Hj.
Qed.
