(** Runs on meshes over records that begin alike. *)
From Verif Require Import Base Graph Morph MorphSpec MorphProofs MorphTimeProofs MorphMeshProofs Label LabelSpec Filter FilterSpec FilterProofs FilterMeshProofs FilterProps Overlap OverlapSpec
  Merge MergeSpec Cluster ClusterSpec ClusterProofs ClusterPipe MeshPart Parallel Run RunSpec MeshRun MeshRunProps StatsRunProps RelateProofs ExtendProofs MeshMoveSpec MeshMoveProofs MeshMoveRunProofs UnmergedProofs LocalSpec LocalProofs.
Open Scope nat_scope.

(** ** Filling *)
Lemma close_prefix T l l' e t c c' : Z.even T = true -> (0 <= T)%Z -> e <= length l -> e <= length l' -> (forall u, u < e -> nth u l false = nth u l' false) ->
  close_time T l = Some c -> close_time T l' = Some c' -> (Z.of_nat t + T < Z.of_nat e)%Z -> nth t c false = nth t c' false.
Proof.
  intros Ev T0 E1 E2 Ag C C' Te.
  destruct (close_time_gaps T l c T0 Ev C) as [Lc Gc]. destruct (close_time_gaps T l' c' T0 Ev C') as [Lc' Gc'].
  assert (Pre : firstn e l = firstn e l').
  { apply (nth_ext _ _ false false); [rewrite !firstn_length; lia|]. intros u U. rewrite firstn_length in U. assert (D : u < e) by lia.
    assert (F : forall x : list bool, u < e -> nth u (firstn e x) false = nth u x false) by (intros x _; clear - D; revert u e D; induction x as [|a x IH]; intros [|u] [|e] D; try lia; cbn; try reflexivity; apply IH; lia).
    rewrite !F by exact D. apply Ag. exact D. }
  assert (X := closed_early T (firstn e l) (skipn e l) (Z.of_nat t) ltac:(rewrite firstn_length; lia) T0). rewrite firstn_skipn in X.
  assert (Y := closed_early T (firstn e l) (skipn e l') (Z.of_nat t) ltac:(rewrite firstn_length; lia) T0). rewrite Pre, firstn_skipn in Y. rewrite Pre in X.
  specialize (Gc (Z.of_nat t)). specialize (Gc' (Z.of_nat t)). rewrite X in Gc. rewrite Y in Gc'.
  assert (A1 : forall x, t < length x -> at_t x (Z.of_nat t) = nth t x false).
  { intros x Lx. unfold at_t. destruct (Z.leb_spec 0 (Z.of_nat t)); [|lia]. destruct (Z.ltb_spec (Z.of_nat t) (Z.of_nat (length x))); [|lia]. cbn [andb]. rewrite Nat2Z.id. reflexivity. }
  unfold ext in Gc at 1. unfold ext in Gc' at 1. rewrite A1 in Gc, Gc' by lia.
  apply eq_true_iff_eq. rewrite Gc, Gc' by lia. reflexivity.
Qed.

Lemma filled_prefix h data data' s s' e : setup_ok h data -> setup_ok h data' -> Z.even (h_T h) = true -> e <= length data -> e <= length data' ->
  (forall t, t < e -> nth t data [] = nth t data' []) ->
  fill_time_gaps_mesh h (map (fill_holes_mesh (h_nbs h) (h_R h) (h_mask h)) data) = Some s ->
  fill_time_gaps_mesh h (map (fill_holes_mesh (h_nbs h) (h_R h) (h_mask h)) data') = Some s' ->
  forall t, (Z.of_nat t + h_T h < Z.of_nat e)%Z -> (0 <= h_T h)%Z /\ nth t s [] = nth t s' [].
Proof.
  intros Hs Hs' Ev E1 E2 Ag Es Es' t Te. unfold fill_time_gaps_mesh in Es, Es'. destruct (Z.eqb_spec (h_T h) 0) as [Z0|Z0].
  - injection Es as <-. injection Es' as <-. split; [lia|]. rewrite !(map_nth0 _ _ t []) by lia. rewrite Ag by lia. reflexivity.
  - destruct (Z.ltb_spec (h_T h + 1) 0); [discriminate|]. assert (T0 : (0 <= h_T h)%Z).
    { destruct (Z.le_gt_cases 0 (h_T h)); [assumption|]. assert (X : h_T h = (-1)%Z) by lia. rewrite X in Ev. discriminate Ev. }
    split; [exact T0|]. injection Es as <-. injection Es' as <-. rewrite !map_length.
    rewrite !(map_nth0 _ _ t 0) by (rewrite seq_length; lia). rewrite !seq_nth by lia. cbn [Nat.add]. f_equal. apply map_ext. intro i.
    destruct (close_time_total (h_T h) (map (fun v => atb v i) (map (fill_holes_mesh (h_nbs h) (h_R h) (h_mask h)) data)) T0) as (c & C).
    destruct (close_time_total (h_T h) (map (fun v => atb v i) (map (fill_holes_mesh (h_nbs h) (h_R h) (h_mask h)) data')) T0) as (c' & C').
    rewrite C, C'. refine (close_prefix (h_T h) _ _ e t c c' Ev T0 _ _ _ C C' Te); rewrite ?map_length; try assumption.
    intros u U. rewrite !(map_nth0 (fun v => atb v i) _ u []) by (rewrite map_length; lia). rewrite !(map_nth0 _ _ u []) by lia. rewrite Ag by exact U. reflexivity.
Qed.

(** ** The filter works step by step *)
Lemma kept_step m mask s s' A f f' t : mesh_inputs_ok m mask s -> mesh_inputs_ok m mask s' ->
  filter_small_mesh (ByAbsolute A) m mask s = Ok f -> filter_small_mesh (ByAbsolute A) m mask s' = Ok f' -> t < length s -> t < length s' ->
  nth t s [] = nth t s' [] -> nth t (f_keep f) [] = nth t (f_keep f') [].
Proof.
  intros Hi Hi' Hf Hf' T T' E. assert (Rk := kept_length _ _ _ _ _ Hi Hf). assert (Rk' := kept_length _ _ _ _ _ Hi' Hf').
  destruct (C18_mesh_keeps_objects_above_threshold _ _ _ _ _ Hi Hf) as [Lk Kp]. destruct (C18_mesh_keeps_objects_above_threshold _ _ _ _ _ Hi' Hf') as [Lk' Kp'].
  rewrite (absolute_threshold m mask A f s Hf) in Kp. rewrite (absolute_threshold m mask A f' s' Hf') in Kp'.
  apply (nth_ext _ _ false false); [rewrite (Rk (nth t (f_keep f) [])), (Rk' (nth t (f_keep f') [])) by (apply nth_In; lia); reflexivity|].
  intros i _. apply eq_true_iff_eq. assert (X := Kp t i T). assert (Y := Kp' t i T'). rewrite <- E in Y. unfold mesh_kept in X, Y. rewrite X, Y. reflexivity.
Qed.

(** ** Events without merges are trees: their earlier parts stay together by themselves *)
Lemma nth_first {A} (l : list A) e t d : t < e -> nth t (firstn e l) d = nth t l d.
Proof. revert e t. induction l as [|a l IH]; intros [|e] [|t] L; try lia; cbn; try reflexivity. apply IH. lia. Qed.

Inductive descends (R : Z -> Z -> Prop) (r : Z) : Z -> Prop :=
| descends_refl : descends R r r
| descends_step p c : descends R r p -> R p c -> descends R r c.
Lemma common_root (R : Z -> Z -> Prop) a b : (forall p q c, R p c -> R q c -> p = q) -> chained R a b -> exists r, descends R r a /\ descends R r b.
Proof.
  intros One C. induction C as [x|x y z H C (r & D1 & D2)|x y z H C (r & D1 & D2)].
  - exists x. split; constructor.
  - inversion D1 as [E|p c D P E]; subst.
    + exists x. split; [constructor|]. clear - H D2. induction D2 as [|p c D IH P]; [apply (descends_step _ _ x); [constructor|exact H]|apply (descends_step _ _ p); assumption].
    + rewrite (One p x y P H) in D. exists r. split; assumption.
  - exists r. split; [apply (descends_step _ _ y); assumption|exact D2].
Qed.
Lemma descends_chained R r a : descends R r a -> chained R r a.
Proof. intro D. induction D as [|p c D IH P]; [constructor|]. apply (chained_trans R r p c IH). apply (chained_fwd _ _ c); [exact P|constructor]. Qed.

Section Early.
Variables (m : mesh) (mask : list bool) (w : list Q) (thr : Q) (k : list (list bool)) (objs : list (list Z)) (e : nat).
Hypothesis Lab : object_labelling m mask k objs.
Hypothesis He : e <= length k.

Lemma labelling_first : object_labelling m mask (firstn e k) (firstn e objs).
Proof.
  destruct Lab as (L1 & L2 & L3 & L4 & L5). assert (Ef : length (firstn e k) = e) by (rewrite firstn_length; lia).
  assert (N1 : forall t, t < e -> nth t (firstn e k) [] = nth t k []) by (intros; apply nth_first; assumption).
  assert (N2 : forall t, t < e -> nth t (firstn e objs) [] = nth t objs []) by (intros; apply nth_first; assumption).
  unfold object_labelling, extreme_ocean, id_at in *. rewrite Ef. split; [rewrite firstn_length; lia|]. split; [intros t T; rewrite N2 by exact T; apply L2; lia|].
  split; [intros t i T I; rewrite N1, N2 by exact T; apply L3; [lia|exact I]|]. split; [intros t j i T; rewrite N1, N2 by exact T; apply L4; lia|].
  intros x s t X I J. assert (Out : forall u, In x (nth u (firstn e objs) []) -> u < e).
  { intros u V. destruct (Nat.lt_ge_cases u e); [assumption|]. rewrite nth_overflow in V by (rewrite firstn_length; lia). destruct V. }
  assert (S1 := Out s I). assert (S2 := Out t J). rewrite N2 in I, J by assumption. exact (L5 x s t X I J).
Qed.

Lemma overlap_first p c : consecutive_overlap w thr (firstn e objs) p c -> consecutive_overlap w thr objs p c.
Proof. intros (t & T & O). rewrite firstn_length in T. rewrite !nth_first in O by lia. exists t. split; [lia|exact O]. Qed.

(** An ancestor of an early object is early, and so is the path to it. *)
Lemma descends_first r a : descends (consecutive_overlap w thr objs) r a -> forall t j, t < e -> j < length m -> id_at objs t j = a -> (0 < a)%Z ->
  descends (consecutive_overlap w thr (firstn e objs)) r a /\ exists u i, u <= t /\ i < length m /\ id_at objs u i = r /\ (0 < r)%Z.
Proof.
  destruct Lab as (L1 & L2 & _ & _ & L5).
  intro D. induction D as [|p c D IH P]; intros t j T J E Pa.
  - split; [constructor|]. exists t, j. split; [lia|]. split; [exact J|]. split; [exact E|exact Pa].
  - destruct P as (v & V & O). assert (O1 := O). destruct O1 as (Pp & Pc & (q & Q0 & E1 & E2) & _). rewrite L2 in Q0 by lia.
    assert (v < t).
    { assert (S v = t); [|lia]. apply (L5 c); [exact Pa|rewrite <- E2; apply nth_In; rewrite L2 by lia; exact Q0|rewrite <- E; apply nth_In; rewrite L2 by lia; exact J]. }
    assert (S v = t) by (apply (L5 c); [exact Pa|rewrite <- E2; apply nth_In; rewrite L2 by lia; exact Q0|rewrite <- E; apply nth_In; rewrite L2 by lia; exact J]).
    destruct (IH v q ltac:(lia) Q0 E1 Pp) as (D' & u & i & U & I & Er & Pr). split; [|exists u, i; split; [lia|auto]].
    apply (descends_step _ _ p); [exact D'|]. exists v. split; [rewrite firstn_length; lia|]. rewrite !nth_first by lia. exact O.
Qed.

Lemma chained_first t j u i : one_parent w thr objs -> t < e -> u < e -> j < length m -> i < length m -> (0 < id_at objs t j)%Z -> (0 < id_at objs u i)%Z ->
  (chained (consecutive_overlap w thr objs) (id_at objs t j) (id_at objs u i) <-> chained (consecutive_overlap w thr (firstn e objs)) (id_at objs t j) (id_at objs u i)).
Proof.
  intros One T U J I Pj Pi. split; [|apply chained_mono; exact overlap_first].
  intro C. destruct (common_root _ _ _ One C) as (r & D1 & D2).
  destruct (descends_first r _ D1 t j T J eq_refl Pj) as [D1' _]. destruct (descends_first r _ D2 u i U I eq_refl Pi) as [D2' _].
  apply (chained_trans _ _ r); [apply chained_sym; apply descends_chained; exact D1'|apply descends_chained; exact D2'].
Qed.
End Early.
