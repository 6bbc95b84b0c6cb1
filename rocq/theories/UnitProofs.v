(** Mesh tracking with cell areas in another unit. *)
From Coq Require Import Qfield.
From Verif Require Import Base Graph Morph Label Filter Overlap Merge Partition Cluster MeshPart Parallel Run MeshRun RelateSpec MeshMoveSpec UnitSpec.
Open Scope nat_scope.

Lemma both_bind {E A A' B B'} (R : A -> A' -> Prop) (S : B -> B' -> Prop) (r : result E A) (r' : result E A') f f' :
  both R r r' -> (forall a a', R a a' -> both S (f a) (f' a')) -> both S (bind r f) (bind r' f').
Proof. intros H K. destruct r as [a|e], r' as [a'|e']; cbn in *; try contradiction; [apply K; exact H|congruence]. Qed.

Lemma F2_app {A B} (R : A -> B -> Prop) l1 l2 k1 k2 : Forall2 R l1 k1 -> Forall2 R l2 k2 -> Forall2 R (l1 ++ l2) (k1 ++ k2).
Proof. intros H K. induction H; cbn; [exact K|constructor; assumption]. Qed.
Lemma F2_len {A B} (R : A -> B -> Prop) l k : Forall2 R l k -> length l = length k.
Proof. intro H. induction H; cbn; congruence. Qed.
Lemma F2_refl {A} (R : A -> A -> Prop) l : (forall x, In x l -> R x x) -> Forall2 R l l.
Proof. induction l; intro H; constructor; [apply H; left; reflexivity|apply IHl; intros x X; apply H; right; exact X]. Qed.
Lemma F2_map {A B C D} (R : A -> B -> Prop) (S : C -> D -> Prop) f g l k : Forall2 R l k -> (forall a b, R a b -> S (f a) (g b)) -> Forall2 S (map f l) (map g k).
Proof. intros H K. induction H; cbn; constructor; auto. Qed.
Lemma F2_map_eq {A B C} (R : A -> B -> Prop) (f : A -> C) g l k : Forall2 R l k -> (forall a b, R a b -> f a = g b) -> map f l = map g k.
Proof. intros H K. induction H; cbn; [reflexivity|]. f_equal; auto. Qed.
Lemma F2_same {A C D} (S : C -> D -> Prop) (f : A -> C) g l : (forall a, In a l -> S (f a) (g a)) -> Forall2 S (map f l) (map g l).
Proof. induction l as [|a l IH]; intro H; cbn; constructor; [apply H; left; reflexivity|apply IH; intros x X; apply H; right; exact X]. Qed.
Lemma F2_filter {A B} (R : A -> B -> Prop) p q l k : Forall2 R l k -> (forall a b, R a b -> p a = q b) -> Forall2 R (filter p l) (filter q k).
Proof. intros H K. induction H as [|a b l k H0 H IH]; cbn; [constructor|]. rewrite (K a b H0). destruct (q b); [constructor; assumption|exact IH]. Qed.
Lemma F2_flat {A B C D} (R : A -> B -> Prop) (S : C -> D -> Prop) f g l k : Forall2 R l k -> (forall a b, R a b -> Forall2 S (f a) (g b)) -> Forall2 S (flat_map f l) (flat_map g k).
Proof. intros H K. induction H; cbn; [constructor|]. apply F2_app; auto. Qed.
Lemma F2_flat_eq {A B C} (R : A -> B -> Prop) (f : A -> list C) g l k : Forall2 R l k -> (forall a b, R a b -> f a = g b) -> flat_map f l = flat_map g k.
Proof. intros H K. induction H; cbn; [reflexivity|]. f_equal; auto. Qed.
Lemma F2_firstn {A B} (R : A -> B -> Prop) n l k : Forall2 R l k -> Forall2 R (firstn n l) (firstn n k).
Proof. intro H. revert n. induction H; intro n; destruct n; cbn; constructor; auto. Qed.
Lemma F2_skipn {A B} (R : A -> B -> Prop) n l k : Forall2 R l k -> Forall2 R (skipn n l) (skipn n k).
Proof. intro H. revert n. induction H; intro n; destruct n; cbn; try constructor; auto. Qed.
Lemma F2_split {A B} (R : A -> B -> Prop) sizes : forall l k, Forall2 R l k -> Forall2 (Forall2 R) (split_by sizes l) (split_by sizes k).
Proof. induction sizes as [|n r IH]; intros l k H; cbn [split_by]; constructor; [apply F2_firstn; exact H|apply IH, F2_skipn; exact H]. Qed.
Lemma F2_combine_l {A B C} (R : A -> B -> Prop) (x : list C) l k : Forall2 R l k -> Forall2 (fun p q => fst p = fst q /\ R (snd p) (snd q)) (combine x l) (combine x k).
Proof. intro H. revert x. induction H as [|a b l k H0 H IH]; intro z; destruct z; cbn; constructor; auto. Qed.

Section Unit.
Variable c : Q.
Hypothesis Cp : (0 < c)%Q.
Local Notation sc := (in_unit c).

Lemma sc_div a b a' b' : sc a a' -> sc b b' -> (a' / b' == a / b)%Q.
Proof.
  unfold in_unit. intros H K. rewrite H, K. destruct (Qeq_dec b 0) as [Z|N].
  - rewrite Z, Qmult_0_r. unfold Qdiv. change (/ 0)%Q with 0%Q. ring.
  - field. split; [exact N|]. intro Z. rewrite Z in Cp. exact (Qlt_irrefl 0 Cp).
Qed.
Lemma sc_min a b a' b' : sc a a' -> sc b b' -> sc (Qminb a b) (Qminb a' b').
Proof.
  unfold in_unit, Qminb. intros H K. destruct (Qle_bool a b) eqn:E; destruct (Qle_bool a' b') eqn:E'; auto; exfalso.
  - apply Qle_bool_iff in E. assert (X : (a' <= b')%Q) by (rewrite H, K; apply Qmult_le_l; assumption). apply Qle_bool_iff in X. congruence.
  - apply Qle_bool_iff in E'. rewrite H, K in E'. apply Qmult_le_l in E'; [|exact Cp]. apply Qle_bool_iff in E'. congruence.
Qed.
Lemma ltb_eq a a' b : (a' == a)%Q -> Qltb a' b = Qltb a b.
Proof. intro H. unfold Qltb. f_equal. apply eq_true_iff_eq. rewrite !Qle_bool_iff, H. reflexivity. Qed.
Lemma ltb_eq_r a a' b : (a' == a)%Q -> Qltb b a' = Qltb b a.
Proof. intro H. unfold Qltb. f_equal. apply eq_true_iff_eq. rewrite !Qle_bool_iff, H. reflexivity. Qed.
Lemma leb_eq_r a a' b : (a' == a)%Q -> Qle_bool b a' = Qle_bool b a.
Proof. intro H. apply eq_true_iff_eq. rewrite !Qle_bool_iff, H. reflexivity. Qed.
Lemma sc_sum l k : Forall2 sc l k -> sc (sumQ l) (sumQ k).
Proof. intro H. unfold in_unit. induction H as [|a b l k H0 H IH]; cbn [sumQ]; [ring|]. unfold in_unit in H0. rewrite H0, IH. ring. Qed.

Definition keyed {K} (p q : K * Q) : Prop := fst p = fst q /\ sc (snd p) (snd q).
Definition row_unit (a b : row) : Prop := r_from a = r_from b /\ r_to a = r_to b /\ sc (r_area a) (r_area b).
Definition prop_unit (a b : Z * prop) : Prop := fst a = fst b /\ sc (p_area (snd a)) (p_area (snd b)).
Definition pm_unit (a b : pmerge) : Prop := pm_children a = pm_children b /\ pm_parents a = pm_parents b /\ Forall2 sc (pm_areas a) (pm_areas b).
Definition step_unit (a b : pstep) : Prop :=
  ps_cur a = ps_cur b /\ ps_next a = ps_next b /\ ps_upd a = ps_upd b /\ ps_ids a = ps_ids b /\ Forall2 pm_unit (ps_merges a) (ps_merges b).
Definition event_unit (a b : event) : Prop := e_time a = e_time b /\ e_children a = e_children b /\ e_parents a = e_parents b /\ Forall2 sc (e_areas a) (e_areas b).
Definition state_unit (a b : pstate) : Prop :=
  pt_fields a = pt_fields b /\ pt_store a = pt_store b /\ pt_counter a = pt_counter b /\ Forall2 event_unit (pt_events a) (pt_events b).

Lemma sc_cells {K} (l : list K) w w' p : Forall2 sc w w' -> sc (sumQ (map snd (filter (fun x => p (fst x)) (combine l w)))) (sumQ (map snd (filter (fun x => p (fst x)) (combine l w')))).
Proof.
  intro H. apply sc_sum. apply (F2_map keyed); [|intros a b [_ X]; exact X]. apply F2_filter; [apply F2_combine_l; exact H|]. intros a b [X _]. rewrite X. reflexivity.
Qed.

Variables (w w' : list Q).
Hypothesis Hw : Forall2 sc w w'.

Lemma area_unit id f : sc (area_of w id f) (area_of w' id f).
Proof. exact (sc_cells f w w' (Z.eqb id) Hw). Qed.
Lemma shared_unit a b prev cur : sc (shared_area w a b prev cur) (shared_area w' a b prev cur).
Proof. exact (sc_cells (combine prev cur) w w' (fun p => Z.eqb a (fst p) && Z.eqb b (snd p)) Hw). Qed.

Lemma overlap_unit a b : Forall2 row_unit (check_overlap w a b) (check_overlap w' a b).
Proof.
  unfold check_overlap, cells3.
  assert (V : Forall2 keyed (filter both_pos (combine (combine a b) w)) (filter both_pos (combine (combine a b) w'))).
  { apply F2_filter; [apply F2_combine_l; exact Hw|]. intros x y [X _]. unfold both_pos, c_from, c_to. rewrite X. reflexivity. }
  set (v := filter both_pos (combine (combine a b) w)) in *. set (v' := filter both_pos (combine (combine a b) w')) in *. clearbody v v'.
  assert (G : forall m, Forall2 row_unit
     (map (fun k => mkRow (k / m) (k mod m) (sumQ (map snd (filter (fun x => Z.eqb (c_from x * m + c_to x) k) v)))) (unique_codes (map (fun x => (c_from x * m + c_to x)%Z) v)))
     (map (fun k => mkRow (k / m) (k mod m) (sumQ (map snd (filter (fun x => Z.eqb (c_from x * m + c_to x) k) v')))) (unique_codes (map (fun x => (c_from x * m + c_to x)%Z) v')))).
  { intro m. replace (map (fun x => (c_from x * m + c_to x)%Z) v') with (map (fun x => (c_from x * m + c_to x)%Z) v) by (apply (F2_map_eq keyed); [exact V|intros x y [X _]; unfold c_from, c_to; rewrite X; reflexivity]).
    apply F2_same. intros k _. split; [reflexivity|]. split; [reflexivity|]. cbn [r_area]. apply sc_sum. apply (F2_map keyed); [|intros x y [_ X]; exact X].
    apply F2_filter; [exact V|]. intros x y [X _]. unfold c_from, c_to. rewrite X. reflexivity. }
  inversion V; [constructor|]. subst. apply G.
Qed.

Lemma found_unit fields : Forall2 row_unit (find_overlapping w fields) (find_overlapping w' fields).
Proof.
  unfold find_overlapping.
  assert (V : Forall2 row_unit (flat_map (fun p => check_overlap w (fst p) (snd p)) (combine fields (shifted fields))) (flat_map (fun p => check_overlap w' (fst p) (snd p)) (combine fields (shifted fields)))).
  { apply (F2_flat eq); [apply F2_refl; reflexivity|]. intros a b <-. apply overlap_unit. }
  set (v := flat_map (fun p => check_overlap w (fst p) (snd p)) (combine fields (shifted fields))) in *. set (v' := flat_map (fun p => check_overlap w' (fst p) (snd p)) (combine fields (shifted fields))) in *. clearbody v v'.
  replace (map row_pair v') with (map row_pair v) by (apply (F2_map_eq row_unit); [exact V|intros x y (X & Y & _); unfold row_pair; rewrite X, Y; reflexivity]).
  apply F2_same. intros k _. split; [reflexivity|]. split; [reflexivity|]. cbn [r_area]. apply sc_sum. apply (F2_map row_unit); [|intros x y (_ & _ & X); exact X].
  apply F2_filter; [exact V|]. intros x y (X & Y & _). unfold row_pair. rewrite X, Y. reflexivity.
Qed.

Lemma lookup_unit id ps ps' : Forall2 prop_unit ps ps' ->
  match lookup id ps, lookup id ps' with Some p, Some p' => sc (p_area p) (p_area p') | None, None => True | _, _ => False end.
Proof.
  intro H. induction H as [|[k p] [k' p'] l l' [E A] H IH]; cbn [lookup]; [exact I|]. cbn [fst snd] in E, A. subst k'. destruct (Z.eqb k id); [exact A|exact IH].
Qed.
Lemma enforce_unit thr ps ps' l l' : Forall2 prop_unit ps ps' -> Forall2 row_unit l l' -> Forall2 row_unit (enforce_threshold thr ps l) (enforce_threshold thr ps' l').
Proof.
  intros P H. unfold enforce_threshold. apply F2_filter; [exact H|]. intros a b (X & Y & A). unfold over_threshold. rewrite X, Y.
  assert (L0 := lookup_unit (r_from b) ps ps' P). assert (L1 := lookup_unit (r_to b) ps ps' P).
  destruct (lookup (r_from b) ps), (lookup (r_from b) ps'); try contradiction; [|reflexivity]. destruct (lookup (r_to b) ps), (lookup (r_to b) ps'); try contradiction; [|reflexivity].
  symmetry. apply leb_eq_r. apply sc_div; [exact A|apply sc_min; assumption].
Qed.
Lemma props_unit cent fields : Forall2 prop_unit (initial_props w cent fields) (initial_props w' cent fields).
Proof.
  unfold initial_props. apply (F2_flat eq); [apply F2_refl; reflexivity|]. intros f f' <-. unfold object_properties. apply F2_same. intros id _. split; [reflexivity|]. cbn [snd measure p_area]. apply area_unit.
Qed.
Lemma prop_ids_unit ps ps' : Forall2 prop_unit ps ps' -> prop_ids ps = prop_ids ps'.
Proof. intro H. apply (F2_map_eq prop_unit); [exact H|]. intros a b [X _]. exact X. Qed.

Variable thr : Q.
Variable part : list Z -> list bool -> list Z -> list Z -> result par_err (list Z).

Lemma scan_unit prev cur child pots : forall acc acc', Forall2 keyed acc acc' ->
  both (Forall2 keyed) (scan_parents w thr prev cur child pots acc) (scan_parents w' thr prev cur child pots acc').
Proof.
  induction pots as [|p r IH]; intros acc acc' H; cbn [scan_parents]; [exact H|]. rewrite (F2_len _ _ _ H). destruct (Nat.leb max_parents (length acc')); [reflexivity|].
  rewrite (ltb_eq _ _ thr (sc_div _ _ _ _ (shared_unit p child prev cur) (sc_min _ _ _ _ (area_unit p prev) (area_unit child cur)))).
  destruct (Qltb _ thr); apply IH; [exact H|]. apply F2_app; [exact H|]. constructor; [|constructor]. split; [reflexivity|]. apply shared_unit.
Qed.
Lemma next_unit cur' nxt ids : next_objects w thr cur' nxt ids = next_objects w' thr cur' nxt ids.
Proof.
  unfold next_objects. apply flat_map_ext. intro id. apply filter_ext. intro k. symmetry. apply ltb_eq_r. apply sc_div; [apply shared_unit|apply sc_min; apply area_unit].
Qed.
Lemma child_unit prev nxt s s' child : step_unit s s' ->
  both (fun a b => step_unit (fst a) (fst b) /\ snd a = snd b) (process_child w thr part prev nxt s child) (process_child w' thr part prev nxt s' child).
Proof.
  intros (E1 & E2 & E3 & E4 & M). unfold process_child. rewrite E1. eapply both_bind; [apply scan_unit; constructor|]. intros ps ps' P. rewrite (F2_len _ _ _ P), (F2_len _ _ _ M).
  replace (map fst ps') with (map fst ps) by (apply (F2_map_eq keyed); [exact P|intros a b [X _]; exact X]). rewrite E2, E3, E4.
  destruct (Nat.ltb (length ps') 2); [split; [repeat (split; [assumption|]); assumption|reflexivity]|]. destruct (Nat.ltb max_merges_step (length (ps_merges s'))); [reflexivity|].
  destruct (Nat.leb max_merges_step (length (ps_merges s'))); [reflexivity|].
  destruct (part prev (mask_of child (ps_cur s')) (map fst ps) (child :: arangeZ (ps_next s') (length ps' - 1))) as [labels|e]; [|reflexivity]. cbn [bind].
  destruct (fold_left _ _ _) as [ui|e]; [|reflexivity]. cbn [bind both fst snd]. split; [|rewrite next_unit; reflexivity].
  unfold step_unit. cbn [ps_cur ps_next ps_upd ps_ids ps_merges]. split; [reflexivity|]. split; [reflexivity|]. split; [reflexivity|]. split; [reflexivity|].
  apply F2_app; [exact M|]. constructor; [|constructor]. split; [reflexivity|]. split; [reflexivity|]. cbn [pm_areas]. apply (F2_map keyed); [exact P|]. intros a b [_ X]. exact X.
Qed.
Lemma queue_unit prev nxt q : forall s s', step_unit s s' ->
  both (fun a b => step_unit (fst a) (fst b) /\ snd a = snd b) (process_queue w thr part prev nxt q s) (process_queue w' thr part prev nxt q s').
Proof.
  induction q as [|k r IH]; intros s s' H; cbn [process_queue]; [split; [exact H|reflexivity]|]. eapply both_bind; [apply child_unit; exact H|]. intros a a' [S1 Q1].
  eapply both_bind; [apply IH; exact S1|]. intros b b' [S2 Q2]. split; [exact S2|]. cbn [snd]. congruence.
Qed.
Lemma steps_unit nexts : forall prev cur queues starts,
  both (fun a b => Forall2 step_unit (fst a) (fst b) /\ snd a = snd b) (process_steps w thr part prev cur nexts queues starts) (process_steps w' thr part prev cur nexts queues starts).
Proof.
  assert (St : forall cur st, step_unit (start_step cur st) (start_step cur st)) by (intros; unfold step_unit; repeat (split; [reflexivity|]); constructor).
  induction nexts as [|nxt nr IH]; intros prev cur queues starts; [split; [constructor|reflexivity]|]. destruct queues as [|q qr]; [split; [constructor|reflexivity]|]. destruct starts as [|st sr]; [split; [constructor|reflexivity]|].
  cbn [process_steps]. eapply both_bind; [apply queue_unit, St|]. intros a a' [S1 Q1]. destruct nr as [|n2 nr].
  - rewrite Q1. destruct (fold_left enqueue_final (snd a') (Ok [])); [|reflexivity]. split; [constructor; [exact S1|constructor]|reflexivity].
  - rewrite Q1. destruct S1 as (E1 & S1). rewrite E1. eapply both_bind; [apply IH|]. intros b b' [S2 Q2]. split; [constructor; [split; assumption|exact S2]|exact Q2].
Qed.
Lemma chunk_unit m1 p1 queues starts :
  both (fun a b => Forall2 step_unit (fst a) (fst b) /\ snd a = snd b) (process_chunk w thr part m1 p1 queues starts) (process_chunk w' thr part m1 p1 queues starts).
Proof. unfold process_chunk. destruct m1 as [|a [|b r]]; [reflexivity|reflexivity|apply steps_unit]. Qed.
Lemma collect_unit {A} (R : A -> A -> Prop) l l' : Forall2 (both R) l l' -> both (Forall2 R) (collect l) (collect l').
Proof. intro H. induction H as [|r r' l l' H0 H IH]; cbn [collect]; [constructor|]. eapply both_bind; [exact H0|]. intros a a' Ra. eapply both_bind; [exact IH|]. intros b b' Rb. constructor; assumption. Qed.

Lemma temps_unit counter st st' : Forall2 step_unit st st' -> temp_ids counter st = temp_ids counter st'.
Proof.
  intro H. unfold temp_ids. do 3 f_equal. apply (F2_flat_eq step_unit); [exact H|]. intros a b (_ & _ & _ & _ & M). apply (F2_flat_eq pm_unit); [exact M|]. intros x y (X & _). exact X.
Qed.
Lemma has_unit a b : step_unit a b -> has_merge a = has_merge b.
Proof. intros (_ & _ & _ & _ & M). unfold has_merge. inversion M; reflexivity. Qed.
Lemma any_unit st st' : Forall2 step_unit st st' -> existsb has_merge st = existsb has_merge st'.
Proof. intro H. induction H as [|a b l k H0 H IH]; cbn [existsb]; [reflexivity|]. rewrite (has_unit a b H0), IH. reflexivity. Qed.
Lemma store_unit tc ren store fields st st' : Forall2 step_unit st st' -> update_store tc ren store fields st = update_store tc ren store fields st'.
Proof.
  intro H. unfold update_store. rewrite (any_unit st st' H). destruct (existsb has_merge st'); [|reflexivity].
  set (l := combine (split_by _ (match store with Some s => s | None => fields end)) _). 
  assert (E : map (fun b : list (list Z) * list (list Z) * list pstep => let '(old, fs, ss) := b in if existsb has_merge ss then map (fun p => apply_updates ren (fst p) (snd p)) (combine fs ss) else old) (combine l (split_by (block_sizes tc (length fields)) st)) =
              map (fun b : list (list Z) * list (list Z) * list pstep => let '(old, fs, ss) := b in if existsb has_merge ss then map (fun p => apply_updates ren (fst p) (snd p)) (combine fs ss) else old) (combine l (split_by (block_sizes tc (length fields)) st'))).
  { apply (F2_map_eq (fun p q : list (list Z) * list (list Z) * list pstep => fst p = fst q /\ Forall2 step_unit (snd p) (snd q))); [apply F2_combine_l, F2_split; exact H|].
    intros [[old fs] ss] [[old' fs'] ss'] [X S]. cbn [fst snd] in X, S. injection X as <- <-. rewrite (any_unit ss ss' S). destruct (existsb has_merge ss'); [|reflexivity].
    apply (F2_map_eq (fun p q : list Z * pstep => fst p = fst q /\ step_unit (snd p) (snd q))); [apply F2_combine_l; exact S|]. intros [f s] [f' s'] [Y (_ & _ & U & I & _)]. cbn [fst snd] in *. subst f'. unfold apply_updates. rewrite U, I. reflexivity. }
  rewrite E. reflexivity.
Qed.
Lemma renamed_unit ren st st' : Forall2 step_unit st st' -> Forall2 event_unit (renamed_merges ren st) (renamed_merges ren st').
Proof.
  intro H. unfold renamed_merges. rewrite (F2_len _ _ _ H). apply (F2_flat (fun p q : nat * pstep => fst p = fst q /\ step_unit (snd p) (snd q))); [apply F2_combine_l; exact H|].
  intros a b [X (_ & _ & _ & _ & M)]. apply (F2_map pm_unit); [exact M|]. intros x y (C1 & P1 & A1). unfold event_unit. cbn [e_time e_children e_parents e_areas]. rewrite X, C1, P1. auto.
Qed.

Lemma iteration_unit tc s s' objs : state_unit s s' ->
  both (fun a b => state_unit (fst a) (fst b) /\ snd a = snd b) (iteration w thr part tc s objs) (iteration w' thr part tc s' objs).
Proof.
  intros (E1 & E2 & E3 & M). unfold iteration. rewrite E1, E2, E3. destruct (pads_ok (pt_counter s') (pt_fields s')); [|reflexivity].
  eapply both_bind; [apply collect_unit; apply F2_same; intros b _; apply chunk_unit|]. intros outs outs' O.
  assert (S : Forall2 step_unit (flat_map fst outs) (flat_map fst outs')) by (apply (F2_flat (fun a b : list pstep * list Z => Forall2 step_unit (fst a) (fst b) /\ snd a = snd b)); [exact O|intros a b [X _]; exact X]).
  assert (Q : flat_map snd outs = flat_map snd outs') by (apply (F2_flat_eq (fun a b : list pstep * list Z => Forall2 step_unit (fst a) (fst b) /\ snd a = snd b)); [exact O|intros a b [_ X]; exact X]).
  rewrite (temps_unit _ _ _ S), Q, (store_unit tc _ (pt_store s') (pt_fields s') _ _ S). destruct (update_store _ _ _ _ _) as [f st]. split; [|reflexivity]. cbn [fst].
  unfold state_unit. cbn [pt_fields pt_store pt_counter pt_events]. split; [reflexivity|]. split; [reflexivity|]. split; [reflexivity|]. apply F2_app; [exact M|apply renamed_unit; exact S].
Qed.
Variable order : list Z -> list Z.
Lemma loop_unit tc fuel : forall s s' objs processed it, state_unit s s' ->
  both (fun a b => state_unit (fst (fst a)) (fst (fst b)) /\ snd (fst a) = snd (fst b) /\ snd a = snd b) (merge_loop w thr part order tc fuel s objs processed it) (merge_loop w' thr part order tc fuel s' objs processed it).
Proof.
  induction fuel as [|k IH]; intros s s' objs processed it H; destruct objs as [|o r]; cbn [merge_loop]; try (split; [exact H|split; reflexivity]).
  eapply both_bind; [apply iteration_unit; exact H|]. intros a b [S Q]. rewrite Q. apply IH. exact S.
Qed.
Lemma parallel_unit tc lim ps ps' store fields : Forall2 prop_unit ps ps' ->
  both state_unit (parallel_merge w thr part order tc lim ps store fields) (parallel_merge w' thr part order tc lim ps' store fields).
Proof.
  intro P. unfold parallel_merge. rewrite (prop_ids_unit _ _ P).
  assert (O := enforce_unit thr _ _ _ _ P (found_unit fields)).
  assert (M : merging_children (enforce_threshold thr ps (find_overlapping w fields)) = merging_children (enforce_threshold thr ps' (find_overlapping w' fields))).
  { clear -O. set (l := enforce_threshold thr ps (find_overlapping w fields)) in *. set (l' := enforce_threshold thr ps' (find_overlapping w' fields)) in *. clearbody l l'. unfold merging_children.
    replace (map r_to l') with (map r_to l) by (apply (F2_map_eq row_unit); [exact O|intros a b (_ & X & _); exact X]).
    apply filter_ext. intro k. f_equal. unfold count. clear -O. induction O as [|a b l k' (X & Y & _) O IH]; cbn [filter length]; [reflexivity|]. rewrite Y. destruct (Z.eqb (r_to b) k); cbn [length]; congruence. }
  rewrite M. eapply both_bind; [apply loop_unit; unfold state_unit; repeat (split; [reflexivity|]); constructor|]. intros a b (S & _ & I). rewrite I. destruct (Nat.eqb (snd b) lim); [reflexivity|exact S].
Qed.

Lemma dataset_unit evs evs' : Forall2 event_unit evs evs' -> merges_in_unit c (merge_dataset evs) (merge_dataset evs').
Proof.
  intro H. unfold merge_dataset, merges_in_unit. cbn [m_parents m_children m_time m_n_parents m_n_children m_areas].
  assert (EP : map e_parents evs = map e_parents evs') by (apply (F2_map_eq event_unit); [exact H|intros a b (_ & _ & X & _); exact X]).
  assert (EC : map e_children evs = map e_children evs') by (apply (F2_map_eq event_unit); [exact H|intros a b (_ & X & _); exact X]).
  assert (ET : map e_time evs = map e_time evs') by (apply (F2_map_eq event_unit); [exact H|intros a b (X & _); exact X]).
  rewrite EP, EC, ET. repeat (split; [reflexivity|]). apply (F2_map event_unit); [exact H|]. intros a b (_ & _ & _ & A). unfold pad_areas. rewrite (F2_len _ _ _ A). apply F2_app.
  - clear -A. induction A; constructor; auto.
  - apply F2_refl. intros x X. apply repeat_spec in X. auto.
Qed.

Lemma rename_unit fields pairs mg mg' : m_parents mg' = m_parents mg -> m_time mg' = m_time mg ->
  both (events_in_unit c) (cluster_rename w fields pairs mg) (cluster_rename w' fields pairs mg').
Proof.
  intros E1 E3. unfold cluster_rename. rewrite E1, E3. destruct (event_table fields pairs) as [[tab n]|e]; [|reflexivity]. cbv zeta.
  destruct (forallb _ _); [|reflexivity]. unfold both, events_in_unit. cbn [v_field v_count v_global v_presence v_start v_end v_area v_ledger]. repeat (split; [reflexivity|]).
  rewrite !map_map. apply F2_same. intros p _. apply F2_firstn. unfold event_areas. apply F2_same. intros i _. destruct (nth i (snd p) false && memZ (Z.of_nat i + 1) (fst p)); [|exact I]. apply (sc_cells (fst p) w w' (Z.eqb (Z.of_nat i + 1)) Hw).
Qed.

Lemma mesh_unit m mask cent tc lim data :
  both (fun a b => events_in_unit c (fst a) (fst b) /\ merges_in_unit c (snd a) (snd b))
    (track_mesh m mask w cent thr part order tc lim data) (track_mesh m mask w' cent thr part order tc lim data).
Proof.
  unfold track_mesh. set (lab := mesh_objects m mask data). assert (P := props_unit cent lab).
  destruct (initial_props w cent lab) as [|p ps], (initial_props w' cent lab) as [|p' ps']; [reflexivity|inversion P|inversion P|]. cbv beta iota zeta.
  assert (K := parallel_unit tc lim (p :: ps) (p' :: ps') (Some lab) lab P).
  destruct (parallel_merge w thr part order tc lim (p :: ps) (Some lab) lab) as [st|e], (parallel_merge w' thr part order tc lim (p' :: ps') (Some lab) lab) as [st'|e']; cbn in K; try contradiction; [|rewrite K; reflexivity].
  destruct K as (F & _ & _ & M). unfold mesh_events. rewrite F. unfold final_pairs, final_props. assert (P2 := props_unit cent (pt_fields st')).
  rewrite (prop_ids_unit _ _ P2). destruct (distinctZ _); [|reflexivity].
  assert (O := enforce_unit thr _ _ _ _ P2 (found_unit (pt_fields st'))).
  replace (map row_pair (enforce_threshold thr (initial_props w cent (pt_fields st')) (find_overlapping w (pt_fields st')))) with (map row_pair (enforce_threshold thr (initial_props w' cent (pt_fields st')) (find_overlapping w' (pt_fields st'))))
    by (symmetry; apply (F2_map_eq row_unit); [exact O|intros a b (X & Y & _); unfold row_pair; rewrite X, Y; reflexivity]).
  assert (D := dataset_unit _ _ M). assert (R := rename_unit (pt_fields st') (map row_pair (enforce_threshold thr (initial_props w' cent (pt_fields st')) (find_overlapping w' (pt_fields st')))) _ _ (proj1 D) (proj1 (proj2 (proj2 D)))).
  destruct (cluster_rename w _ _ _) as [ev|e], (cluster_rename w' _ _ _) as [ev'|e']; cbn in R; try contradiction; [|rewrite R; reflexivity].
  split; [|exact D]. destruct R as (R1 & R2 & R3 & R4 & R5 & R6 & R7 & R8). cbn [fst]. unfold events_in_unit. cbn [v_field v_count v_global v_presence v_start v_end v_area v_ledger]. rewrite R1. auto 10.
Qed.
Lemma total_unit (h h' : mesh_setup) (f : field) : h_area h = w -> h_area h' = w' -> sc (area_mesh h f) (area_mesh h' f).
Proof.
  intros E E'. unfold area_mesh. rewrite E, E'.
  assert (H : Forall2 sc (map snd (filter fst (flat_map (fun v => combine v w) f))) (map snd (filter fst (flat_map (fun v => combine v w') f)))).
  { apply (F2_map (fun p q : bool * Q => fst p = fst q /\ sc (snd p) (snd q))); [|intros a b [_ X]; exact X]. apply F2_filter; [|intros a b [X _]; exact X].
    apply (F2_flat eq); [apply F2_refl; reflexivity|]. intros a b <-. apply F2_combine_l. exact Hw. }
  unfold in_unit. induction H as [|a b l k H0 H IH]; cbn [fold_right]; [ring|]. unfold in_unit in H0. rewrite H0, IH. ring.
Qed.
Lemma sc_zero a a' : sc a a' -> Qeq_bool a' 0 = Qeq_bool a 0.
Proof.
  unfold in_unit. intro H. apply eq_true_iff_eq. rewrite !Qeq_bool_iff. rewrite H. split; intro Z; [|rewrite Z; ring].
  destruct (Qmult_integral _ _ Z) as [X|X]; [|exact X]. exfalso. rewrite X in Cp. exact (Qlt_irrefl 0 Cp).
Qed.
End Unit.
