(** Events on a mesh depend only on nearby data: the filling, the filter, the overlaps. *)
From Verif Require Import Base Graph Morph MorphSpec MorphMeshProofs Label LabelSpec Filter FilterSpec FilterProofs FilterMeshProofs FilterProps Overlap OverlapSpec
  Merge MergeSpec Cluster ClusterSpec ClusterProofs ClusterPipe MeshPart Parallel Run RunSpec MeshRun MeshRunProps StatsRunProps RelateProofs MeshMoveSpec MeshMoveProofs MeshMoveRunProofs UnmergedProofs LocalSpec.
Open Scope nat_scope.

Lemma within_add m a b i j k : within m a i j -> within m b j k -> within m (a + b) i k.
Proof.
  intros W. revert b k. induction W as [a i|a i j l A W IH]; intros b k V.
  - induction V as [b i|b i j k A V IH]; [constructor|]. replace (a + S b) with (S (a + b)) by lia. exact (within_step m _ _ _ _ A IH).
  - exact (within_step m _ _ _ _ A (IH _ _ V)).
Qed.

(** ** Filling *)
Lemma fill_local m R mask v v' i : mesh_ok m -> length mask = length m -> length v = length m -> length v' = length m -> i < length m ->
  (forall l, within m (4 * R) i l -> atb v l = atb v' l) -> atb (fill_holes_mesh m R mask v) i = atb (fill_holes_mesh m R mask v') i.
Proof.
  intros OK Lm Lv Lv' I E. apply eq_true_iff_eq. rewrite !fill_mesh_at by assumption.
  split; intros (c & W & H); exists c; (split; [exact W|]); intros j Wj; (destruct (H j Wj) as [D|D]; [left; exact D|right]); intros k Wk;
    (destruct (D k Wk) as [X|(l & Wl & X)]; [left; exact X|right; exists l; split; [exact Wl|]]); rewrite <- X; [symmetry|]; apply E;
    replace (4 * R) with (R + (R + (R + R))) by lia; eauto using within_add.
Qed.

Lemma filled_local h data data' s s' i : setup_ok h data -> setup_ok h data' -> length data' = length data ->
  fill_time_gaps_mesh h (map (fill_holes_mesh (h_nbs h) (h_R h) (h_mask h)) data) = Some s ->
  fill_time_gaps_mesh h (map (fill_holes_mesh (h_nbs h) (h_R h) (h_mask h)) data') = Some s' ->
  i < length (h_nbs h) ->
  (forall t l, t < length data -> within (h_nbs h) (4 * h_R h + 4 * (h_R h / 2)) i l -> nth l (nth t data []) false = nth l (nth t data' []) false) ->
  forall t, t < length data -> nth i (nth t s []) false = nth i (nth t s' []) false.
Proof.
  intros (B1 & B2 & B3 & B4 & B5) (_ & _ & _ & _ & B5') L Es Es' I E t T.
  assert (One : forall j u, within (h_nbs h) (4 * (h_R h / 2)) i j -> u < length data ->
    atb (nth u (map (fill_holes_mesh (h_nbs h) (h_R h) (h_mask h)) data) []) j = atb (nth u (map (fill_holes_mesh (h_nbs h) (h_R h) (h_mask h)) data') []) j).
  { intros j u W V. rewrite !(map_nth0 _ _ u []) by lia. assert (J : j < length (h_nbs h)) by (eapply within_range; eauto).
    apply fill_local; [exact B1|exact B2|apply B5, nth_In; lia|apply B5', nth_In; lia|exact J|]. intros l Wl. apply (E u l V).
    replace (4 * h_R h + 4 * (h_R h / 2)) with (4 * (h_R h / 2) + 4 * h_R h) by lia. exact (within_add _ _ _ _ _ _ W Wl). }
  unfold fill_time_gaps_mesh in Es, Es'. destruct (Z.eqb (h_T h) 0).
  - injection Es as <-. injection Es' as <-. apply (One i t); [constructor|exact T].
  - destruct (Z.ltb (h_T h + 1) 0); [discriminate|]. injection Es as <-. injection Es' as <-.
    rewrite !map_length, L. rewrite !(map_nth0 _ _ t 0) by (rewrite seq_length; lia). rewrite !seq_nth by lia. cbn [Nat.add].
    apply fill_local; [exact B1|exact B2|rewrite map_length, seq_length; reflexivity|rewrite map_length, seq_length; reflexivity|exact I|].
    intros l W. assert (Ll : l < length (h_nbs h)) by (eapply within_range; eauto). unfold atb at 1 3.
    rewrite !(map_nth0 _ _ l 0) by (rewrite seq_length; lia). rewrite !seq_nth by lia. cbn [Nat.add].
    replace (map (fun v => atb v l) (map (fill_holes_mesh (h_nbs h) (h_R h) (h_mask h)) data'))
      with (map (fun v => atb v l) (map (fill_holes_mesh (h_nbs h) (h_R h) (h_mask h)) data)); [reflexivity|].
    apply (nth_ext _ _ false false); [rewrite !map_length; lia|]. intros u V. rewrite !map_length in V.
    rewrite !(map_nth0 (fun v => atb v l) _ u []) by (rewrite !map_length; lia). exact (One l u W V).
Qed.

(** ** Objects inside the region *)
Section Chain.
Variables (m : mesh) (U : nat -> bool) (on on' keep : nat -> Prop).
Hypothesis Hb : forall c, on_border m U c -> ~ keep c.
Hypothesis Hag : forall c, c < length m -> U c = true -> on c -> on' c.

(** A chain that starts in the region and whose cells are all kept stays in it. *)
Lemma chain_inside i j : (forall c, mesh_chain m on i c -> on c -> keep c) -> i < length m -> U i = true -> mesh_chain m on i j ->
  U j = true /\ mesh_chain m on' i j.
Proof.
  intros K I Ui C. induction C as [i|i j k O A J C IH]; [split; [exact Ui|constructor]|].
  assert (Kj : keep j) by (apply K; [apply (mchain_step _ _ i j j); auto; constructor|exact O]).
  assert (Uj : U j = true).
  { destruct (U j) eqn:E; [reflexivity|exfalso]. apply (Hb j); [|exact Kj]. split; [exact J|]. split; [exact E|]. exists i. auto. }
  destruct IH as [X Y]; [|exact J|exact Uj|].
  - intros c Cc Oc. apply K; [apply (mchain_step _ _ i j c); auto|exact Oc].
  - split; [exact X|]. apply (mchain_step _ _ i j k); auto.
Qed.
End Chain.

(** ** The filter *)
Lemma mesh_chain_trans m (P : nat -> Prop) i j k : mesh_chain m P i j -> mesh_chain m P j k -> mesh_chain m P i k.
Proof. intros C D. induction C as [i|i j l O A J C IH]; [exact D|]. apply (mchain_step _ _ i j k); auto. Qed.
Lemma mesh_chain_sym m (P : nat -> Prop) i j : P i -> i < length m -> mesh_chain m P i j -> mesh_chain m P j i.
Proof.
  intros Pi I C. induction C as [i|i j k O A J C IH]; [constructor|]. apply (mesh_chain_trans m P k j i); [apply IH; assumption|].
  apply (mchain_step _ _ j i i); [exact Pi|tauto|exact I|constructor].
Qed.

Section Filter.
Variables (m : mesh) (mask : list bool) (s s' : list (list bool)) (A : Z) (f f' : filtered) (U : nat -> bool).
Hypothesis Hi : mesh_inputs_ok m mask s.
Hypothesis Hi' : mesh_inputs_ok m mask s'.
Hypothesis Hl : length s' = length s.
Hypothesis Hf : filter_small_mesh (ByAbsolute A) m mask s = Ok f.
Hypothesis Hf' : filter_small_mesh (ByAbsolute A) m mask s' = Ok f'.
Hypothesis Hsame : forall t c, t < length s -> c < length m -> U c = true \/ on_border m U c -> nth c (nth t s []) false = nth c (nth t s' []) false.
Hypothesis Hb : forall t c, t < length s -> on_border m U c -> nth c (nth t (f_keep f) []) false = false.

Lemma absolute_threshold g x : filter_small_mesh (ByAbsolute A) m mask x = Ok g -> f_threshold g = inject_Z A.
Proof. intro E. unfold filter_small_mesh, filter_mesh in E. destruct (filter _ _); [discriminate|]. injection E as <-. reflexivity. Qed.

(** An object kept in the region is kept in the other series as well. *)
Lemma kept_local t i : t < length s -> i < length m -> U i = true -> nth i (nth t (f_keep f) []) false = true -> nth i (nth t (f_keep f') []) false = true.
Proof.
  intros T I Ui K. destruct (C18_mesh_keeps_objects_above_threshold _ _ _ _ _ Hi Hf) as [Lk Kp]. destruct (C18_mesh_keeps_objects_above_threshold _ _ _ _ _ Hi' Hf') as [Lk' Kp'].
  rewrite (absolute_threshold f s Hf) in Kp. rewrite (absolute_threshold f' s' Hf') in Kp'.
  apply (Kp t i T) in K. apply (Kp' t i ltac:(lia)). destruct K as (O & l & (ND & M) & Big).
  set (on := ocean_extreme m mask (nth t s [])) in *. set (on' := ocean_extreme m mask (nth t s' [])) in *.
  assert (Same : forall c, c < length m -> U c = true \/ on_border m U c -> (on c <-> on' c)).
  { intros c C Uc. unfold on, on', ocean_extreme. rewrite (Hsame t c T C Uc). tauto. }
  assert (All : forall c, mesh_chain m on i c -> on c -> mesh_kept (f_keep f) t c).
  { intros c C Oc. apply (Kp t c T). split; [exact Oc|]. exists l. split; [|exact Big]. split; [exact ND|]. intro j. rewrite M. split; intros [X Y]; (split; [exact X|]).
    - apply (mesh_chain_trans _ _ c i j); [apply mesh_chain_sym; assumption|exact Y].
    - exact (mesh_chain_trans _ _ i c j C Y). }
  assert (Nb : forall c, on_border m U c -> ~ mesh_kept (f_keep f) t c) by (intros c C; unfold mesh_kept; rewrite (Hb t c T C); discriminate).
  assert (Stay : forall j, mesh_chain m on i j -> U j = true /\ mesh_chain m on' i j).
  { intros j C. apply (chain_inside m U on on' _ Nb); [|exact All|exact I|exact Ui|exact C]. intros c Cc Uc Oc. apply Same; auto. }
  split; [apply Same; auto|]. exists l. split; [|exact Big]. split; [exact ND|].
  assert (Back : forall j c, mesh_chain m on' j c -> mesh_chain m on i j -> mesh_chain m on i c).
  { intros j c C. induction C as [j|j k c Ok Ak Kk C IH]; intro D; [exact D|]. apply IH. apply (mesh_chain_trans _ _ i j k D).
    destruct (Stay j D) as [Uj _]. assert (J : j < length m) by (destruct D as [|a b c0 Oc Ac Jc D]; [exact I|clear - D Jc; induction D; auto]).
    assert (Reg : U k = true \/ on_border m U k) by (destruct (U k) eqn:E; [left; reflexivity|right; split; [exact Kk|split; [exact E|exists j; auto]]]).
    apply (mchain_step _ _ j k k); [apply Same; assumption|exact Ak|exact Kk|constructor]. }
  intro j. rewrite M. split; intros [X Y].
  - destruct (Stay j Y) as [Uj C]. split; [apply Same; auto; apply X|exact C].
  - assert (C := Back i j Y (mchain_here _ _ i)). split; [|exact C]. destruct (Stay j C) as [Uj _]. apply Same; auto. apply X.
Qed.
End Filter.

(** ** Overlaps *)
Section Overlap.
Variables (m : mesh) (mask : list bool) (w : list Q) (thr : Q) (U : nat -> bool).

(** Two cleaned series that agree in the region and leave its border free. *)
Definition agree_inside (k k' : list (list bool)) : Prop :=
  length k' = length k /\
  (forall t c, t < length k -> c < length m -> U c = true -> nth c (nth t k []) false = nth c (nth t k' []) false) /\
  (forall t c, t < length k -> on_border m U c -> nth c (nth t k []) false = false) /\
  (forall t c, t < length k -> on_border m U c -> nth c (nth t k' []) false = false).
Lemma agree_sym k k' : agree_inside k k' -> agree_inside k' k.
Proof. intros (L & A & B & C). split; [congruence|]. split; [intros t c T I V; symmetry; apply A; [lia|exact I|exact V]|]. split; intros t c T; [apply C|apply B]; lia. Qed.

Lemma totalQ_same f g n : (forall i, i < n -> f i = g i) -> totalQ f n = totalQ g n.
Proof. induction n as [|n IH]; intro H; [reflexivity|]. cbn [totalQ]. rewrite IH by (intros; apply H; lia). rewrite H by lia. reflexivity. Qed.

(** The cells of an object of the region belong to one object of the other series. *)
Lemma object_transfer k k' objs objs' t j i : object_labelling m mask k objs -> object_labelling m mask k' objs' -> agree_inside k k' ->
  t < length k -> j < length m -> U j = true -> (0 < id_at objs t j)%Z -> i < length m -> id_at objs t i = id_at objs t j ->
  U i = true /\ (0 < id_at objs' t j)%Z /\ id_at objs' t i = id_at objs' t j.
Proof.
  intros (L1 & L2 & L3 & L4 & _) (M1 & M2 & M3 & M4 & _) (L & Ag & Bk & _) T J Uj Pos I E.
  assert (Oj : extreme_ocean m mask k t j) by (apply L3; assumption).
  assert (Oi : extreme_ocean m mask k t i) by (apply L3; [exact T|exact I|congruence]).
  assert (Same : forall c, c < length m -> U c = true -> extreme_ocean m mask k t c -> extreme_ocean m mask k' t c).
  { intros c C Uc (A1 & A2 & A3). split; [exact A1|]. split; [exact A2|]. rewrite <- Ag; assumption. }
  assert (C := proj1 (L4 t j i T Oj Oi) (eq_sym E)).
  destruct (chain_inside m U (extreme_ocean m mask k t) (extreme_ocean m mask k' t) (extreme_ocean m mask k t)
    ltac:(intros c Bc (_ & _ & X); rewrite (Bk t c T Bc) in X; discriminate) Same j i ltac:(auto) J Uj C) as [Ui C'].
  split; [exact Ui|]. split; [apply M3; [lia|exact J|apply Same; assumption]|]. symmetry. apply M4; [lia|apply Same; assumption|apply Same; assumption|exact C'].
Qed.

Section Two.
Variables (k k' : list (list bool)) (objs objs' : list (list Z)).
Hypothesis Lab : object_labelling m mask k objs.
Hypothesis Lab' : object_labelling m mask k' objs'.
Hypothesis Ag : agree_inside k k'.

Lemma same_object t j i : t < length k -> j < length m -> U j = true -> (0 < id_at objs t j)%Z -> i < length m ->
  (id_at objs t i = id_at objs t j <-> id_at objs' t i = id_at objs' t j).
Proof.
  intros T J Uj Pos I. assert (P' := proj1 (proj2 (object_transfer k k' objs objs' t j j Lab Lab' Ag T J Uj Pos J eq_refl))). assert (L := proj1 Ag). split; intro E.
  - apply (object_transfer k k' objs objs' t j i Lab Lab' Ag T J Uj Pos I E).
  - apply (object_transfer k' k objs' objs t j i Lab' Lab (agree_sym _ _ Ag) ltac:(lia) J Uj P' I E).
Qed.

(** Two objects that overlap enough, sharing the cell [q] of the region. *)
Lemma overlap_transfer t q : S t < length k -> q < length m -> U q = true -> (0 < id_at objs t q)%Z -> (0 < id_at objs (S t) q)%Z ->
  overlap_enough w thr (nth t objs []) (nth (S t) objs []) (id_at objs t q) (id_at objs (S t) q) ->
  overlap_enough w thr (nth t objs' []) (nth (S t) objs' []) (id_at objs' t q) (id_at objs' (S t) q).
Proof.
  intros T Q0 Uq P1 P2 (_ & _ & _ & O).
  assert (P1' := proj1 (proj2 (object_transfer k k' objs objs' t q q Lab Lab' Ag ltac:(lia) Q0 Uq P1 Q0 eq_refl))).
  assert (P2' := proj1 (proj2 (object_transfer k k' objs objs' (S t) q q Lab Lab' Ag T Q0 Uq P2 Q0 eq_refl))).
  assert (R1 := same_object t q). assert (R2 := same_object (S t) q). destruct Lab as (L1 & L2 & _). destruct Lab' as (M1 & M2 & _). assert (Ln := proj1 Ag).
  assert (B1 : forall i, i < length m -> Z.eqb (nth i (nth t objs []) 0%Z) (id_at objs t q) = Z.eqb (nth i (nth t objs' []) 0%Z) (id_at objs' t q)).
  { intros i I. apply eq_true_iff_eq. rewrite !Z.eqb_eq. apply (R1 i ltac:(lia) Q0 Uq P1 I). }
  assert (B2 : forall i, i < length m -> Z.eqb (nth i (nth (S t) objs []) 0%Z) (id_at objs (S t) q) = Z.eqb (nth i (nth (S t) objs' []) 0%Z) (id_at objs' (S t) q)).
  { intros i I. apply eq_true_iff_eq. rewrite !Z.eqb_eq. apply (R2 i T Q0 Uq P2 I). }
  assert (A1 : object_area w (nth t objs []) (id_at objs t q) = object_area w (nth t objs' []) (id_at objs' t q)).
  { unfold object_area. rewrite (L2 t ltac:(lia)), (M2 t ltac:(lia)). apply totalQ_same. intros i I. rewrite (B1 i I). reflexivity. }
  assert (A2 : object_area w (nth (S t) objs []) (id_at objs (S t) q) = object_area w (nth (S t) objs' []) (id_at objs' (S t) q)).
  { unfold object_area. rewrite (L2 (S t) T), (M2 (S t) ltac:(lia)). apply totalQ_same. intros i I. rewrite (B2 i I). reflexivity. }
  assert (A3 : OverlapSpec.shared_area w (nth t objs []) (nth (S t) objs []) (id_at objs t q) (id_at objs (S t) q) = OverlapSpec.shared_area w (nth t objs' []) (nth (S t) objs' []) (id_at objs' t q) (id_at objs' (S t) q)).
  { unfold OverlapSpec.shared_area. rewrite (L2 t ltac:(lia)), (M2 t ltac:(lia)). apply totalQ_same. intros i I. rewrite (B1 i I), (B2 i I). reflexivity. }
  rewrite A1, A2, A3 in O. split; [exact P1'|]. split; [exact P2'|]. split; [|exact O]. exists q. split; [rewrite (M2 t ltac:(lia)); exact Q0|]. split; reflexivity.
Qed.

(** Chains of overlapping objects that start in the region stay in it. *)
Lemma chain_transfer a b : chained (consecutive_overlap w thr objs) a b -> forall t j u l,
  t < length k -> u < length k -> j < length m -> l < length m -> U j = true -> id_at objs t j = a -> id_at objs u l = b -> (0 < a)%Z -> (0 < b)%Z ->
  U l = true /\ chained (consecutive_overlap w thr objs') (id_at objs' t j) (id_at objs' u l).
Proof.
  assert (Row : forall t i, t < length k -> i < length m -> In (id_at objs t i) (nth t objs [])) by (intros t i T I; apply nth_In; rewrite (proj1 (proj2 Lab) t T); exact I).
  assert (Uni : forall t u j i, t < length k -> u < length k -> j < length m -> i < length m -> (0 < id_at objs t j)%Z -> id_at objs u i = id_at objs t j -> u = t).
  { intros t u j i T V J I P E. apply (proj2 (proj2 (proj2 (proj2 Lab))) (id_at objs t j)); [exact P|rewrite <- E; apply Row; assumption|apply Row; assumption]. }
  assert (Lo := proj1 Lab). assert (Lo' := proj1 Lab'). assert (Ln := proj1 Ag).
  assert (Wid : forall t, t < length k -> length (nth t objs []) = length m) by apply Lab.
  intro C. induction C as [x|x y z R C IH|x y z R C IH]; intros t j u l T V J L Uj Ej El Px Pz.
  - assert (u = t) by (apply (Uni t u j l); congruence). subst u.
    destruct (object_transfer k k' objs objs' t j l Lab Lab' Ag T J Uj ltac:(congruence) L ltac:(congruence)) as (Ul & _ & E). split; [exact Ul|]. rewrite E. constructor.
  - destruct R as (r & Hr & Ov). assert (Ov1 := Ov). destruct Ov1 as (_ & Py & (q & Q0 & E1 & E2) & _). rewrite Wid in Q0 by lia. change (id_at objs r q = x) in E1. change (id_at objs (S r) q = y) in E2.
    assert (r = t) by (apply (Uni t r j q); try congruence; lia). subst r.
    destruct (object_transfer k k' objs objs' t j q Lab Lab' Ag T J Uj ltac:(congruence) Q0 ltac:(congruence)) as (Uq & _ & Eq).
    destruct (IH (S t) q u l ltac:(lia) V Q0 L Uq E2 El Py Pz) as [Ul C']. split; [exact Ul|]. apply (chained_fwd _ _ (id_at objs' (S t) q)); [|exact C']. rewrite <- Eq.
    exists t. split; [lia|]. apply overlap_transfer; [lia|exact Q0|exact Uq|congruence|congruence|]. rewrite E1, E2. exact Ov.
  - destruct R as (r & Hr & Ov). assert (Ov1 := Ov). destruct Ov1 as (Py & _ & (q & Q0 & E1 & E2) & _). rewrite Wid in Q0 by lia. change (id_at objs r q = y) in E1. change (id_at objs (S r) q = x) in E2.
    assert (S r = t) by (apply (Uni t (S r) j q); try congruence; lia). subst t.
    destruct (object_transfer k k' objs objs' (S r) j q Lab Lab' Ag T J Uj ltac:(congruence) Q0 ltac:(congruence)) as (Uq & _ & Eq).
    destruct (IH r q u l ltac:(lia) V Q0 L Uq E1 El Py Pz) as [Ul C']. split; [exact Ul|]. apply (chained_bwd _ _ (id_at objs' r q)); [|exact C']. rewrite <- Eq.
    exists r. split; [lia|]. apply overlap_transfer; [lia|exact Q0|exact Uq|congruence|congruence|]. rewrite E1, E2. exact Ov.
Qed.
End Two.
End Overlap.
