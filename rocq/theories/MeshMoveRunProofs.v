(** Tracking on a mesh with other cell numbers. *)
From Coq Require Import FinFun Permutation.
From Verif Require Import Base Graph Morph MorphSpec Label LabelSpec Filter FilterSpec FilterProofs FilterMeshProofs Overlap OverlapSpec
  Merge MergeSpec Cluster ClusterSpec MeshPart Parallel Run RunSpec MeshRun MeshRunProps StatsRunProps RelateProofs MeshMoveSpec MeshMoveProofs.
Open Scope nat_scope.

Lemma fresh_parts h y data o st : fresh_mesh_run h y data = Ok (o, st) <-> exists s f,
  fill_time_gaps_mesh h (map (fill_holes_mesh (h_nbs h) (h_R h) (h_mask h)) data) = Some s /\
  filter_small_mesh (h_rule h) (h_nbs h) (h_mask h) s = Ok f /\ stats_of (area_mesh h) data f (f_keep f) = Ok st /\
  track_on_mesh h (y_cent y) (y_thr y) (part_nn_mesh (y_nbs y) (y_dist y) (y_reach y)) (y_order y) (y_block y) (y_limit y) (f_keep f) = Ok o.
Proof.
  unfold fresh_mesh_run, run, run_preprocess. cbn [t_data t_scratch]. unfold clean_mesh. split.
  - destruct (fill_time_gaps_mesh _ _) as [s|]; [|discriminate]. destruct (filter_small_mesh _ _ _ _) as [f|e] eqn:Ef; [|discriminate]. cbn.
    destruct (stats_of _ _ _ _) as [s0|e] eqn:Es; [|discriminate]. cbn. destruct (track_on_mesh _ _ _ _ _ _ _ _) as [o0|e] eqn:Et; [|discriminate]. cbn. intro E. injection E as <- <-.
    exists s, f. split; [reflexivity|]. split; [exact Ef|]. split; [exact Es|exact Et].
  - intros (s & f & -> & -> & Es & Et). cbn. rewrite Es. cbn. rewrite Et. reflexivity.
Qed.

Section Tracks.
Variables (h h' : mesh_setup) (sig : nat -> nat).
Let n := length (h_nbs h).
Hypothesis Sm : same_mesh sig h h'.
Let Ln' : length (h_nbs h') = n := proj1 Sm.
Let Rn : renumbers n sig := proj1 (proj2 Sm).
Let Ad : forall i j, i < n -> j < n -> (adj (h_nbs h') (sig i) (sig j) <-> adj (h_nbs h) i j) := proj1 (proj2 (proj2 Sm)).
Let Mk : moved_step false n sig (h_mask h) (h_mask h') := proj1 (proj2 (proj2 (proj2 Sm))).
Let Ar : moved_step 0%Q n sig (h_area h) (h_area h') := proj1 (proj2 (proj2 (proj2 (proj2 Sm)))).

Lemma object_area_moved f f' p : moved_step 0%Z n sig f f' -> (object_area (h_area h') f' p == object_area (h_area h) f p)%Q.
Proof.
  intros (L & L' & E). destruct Ar as (_ & _ & A). unfold object_area. rewrite L, L'. symmetry. apply (total_moved n sig Rn). intros k K. rewrite E, A by exact K. reflexivity.
Qed.
Lemma shared_area_moved f f' g g' p c : moved_step 0%Z n sig f f' -> moved_step 0%Z n sig g g' ->
  (OverlapSpec.shared_area (h_area h') f' g' p c == OverlapSpec.shared_area (h_area h) f g p c)%Q.
Proof.
  intros (L & L' & E) (_ & _ & G). destruct Ar as (_ & _ & A). unfold OverlapSpec.shared_area. rewrite L, L'. symmetry. apply (total_moved n sig Rn). intros k K. rewrite E, G, A by exact K. reflexivity.
Qed.
Lemma meets_moved f f' g g' p c : moved_step 0%Z n sig f f' -> moved_step 0%Z n sig g g' -> (meets f' g' p c <-> meets f g p c).
Proof.
  intros (L & L' & E) (_ & _ & G). unfold meets. rewrite L, L'. split.
  - intros (k & K & A & B). destruct (sig_onto n sig Rn k K) as (i & I & <-). rewrite E in A by exact I. rewrite G in B by exact I. exists i. split; [exact I|split; assumption].
  - intros (k & K & A & B). exists (sig k). rewrite E, G by exact K. split; [exact (sig_range n sig Rn k K)|split; assumption].
Qed.
Lemma enough_moved thr f f' g g' p c : moved_step 0%Z n sig f f' -> moved_step 0%Z n sig g g' ->
  (overlap_enough (h_area h') thr f' g' p c <-> overlap_enough (h_area h) thr f g p c).
Proof.
  intros F G. unfold overlap_enough. rewrite (meets_moved f f' g g' p c F G), (object_area_moved f f' p F), (object_area_moved g g' c G), (shared_area_moved f f' g g' p c F G). reflexivity.
Qed.
Lemma overlap_moved thr objs objs' p c : moved_steps 0%Z n sig objs objs' ->
  (consecutive_overlap (h_area h') thr objs' p c <-> consecutive_overlap (h_area h) thr objs p c).
Proof.
  intros [L M]. unfold consecutive_overlap. rewrite L. split; intros (t & T & O); exists t; (split; [exact T|]); apply (enough_moved thr _ _ _ _ p c (M t ltac:(lia)) (M (S t) T)); exact O.
Qed.
Lemma chained_iff R S a b : (forall p c, R p c <-> S p c) -> chained R a b <-> chained S a b.
Proof.
  intro E. split; intro C; induction C as [x|x y z H C IH|x y z H C IH]; try apply chained_refl; apply E in H; [eapply chained_fwd|eapply chained_bwd|eapply chained_fwd|eapply chained_bwd]; eassumption.
Qed.
Definition renumbered (objs : list (list Z)) : list (list Z) := map (fun r => map (fun j => nth (back n sig j) r 0%Z) (seq 0 n)) objs.
Lemma renumbered_moved objs : (forall t, t < length objs -> length (nth t objs []) = n) -> moved_steps 0%Z n sig objs (renumbered objs).
Proof.
  intro L. unfold moved_steps, renumbered. rewrite map_length. split; [reflexivity|]. intros t T. rewrite (map_nth0 _ _ t []) by exact T.
  unfold moved_step. rewrite map_length, seq_length. split; [exact (L t T)|]. split; [reflexivity|]. intros k K. assert (R := sig_range n sig Rn k K).
  rewrite (map_nth0 _ _ _ 0) by (rewrite seq_length; exact R). rewrite seq_nth by exact R. cbn [Nat.add]. rewrite (back_sig n sig Rn k K). reflexivity.
Qed.
Lemma extreme_moved data data' t k : moved_steps false n sig data data' -> t < length data -> k < n ->
  (extreme_ocean (h_nbs h') (h_mask h') data' t (sig k) <-> extreme_ocean (h_nbs h) (h_mask h) data t k).
Proof.
  intros [L M] T K. destruct (M t T) as (_ & _ & E). destruct Mk as (_ & _ & F). unfold extreme_ocean. rewrite Ln', E, F by exact K. fold n.
  assert (R := sig_range n sig Rn k K). split; intros (_ & B); (split; [assumption|exact B]).
Qed.
Lemma labelling_moved data data' objs : moved_steps false n sig data data' -> object_labelling (h_nbs h) (h_mask h) data objs ->
  object_labelling (h_nbs h') (h_mask h') data' (renumbered objs).
Proof.
  intros Md (L & Rw & Cell & Ch & Un). assert (Mo := renumbered_moved objs ltac:(rewrite L; exact Rw)). assert (Md2 := Md). destruct Md2 as [Ld M]. destruct Mo as [Lo Mo].
  assert (At : forall t k, t < length data -> k < n -> id_at (renumbered objs) t (sig k) = id_at objs t k) by (intros t k T K; apply (Mo t ltac:(lia)); exact K).
  split; [congruence|]. rewrite Ld, Ln'. split; [intros t T; apply (Mo t); lia|]. split; [|split].
  - intros t j T J. destruct (sig_onto n sig Rn j J) as (k & K & <-). rewrite At, (extreme_moved data data' t k Md T K) by assumption. apply Cell; assumption.
  - intros t j0 k0 T J K. assert (Rj : j0 < n) by (destruct J as [J _]; rewrite Ln' in J; exact J). assert (Rk : k0 < n) by (destruct K as [K _]; rewrite Ln' in K; exact K).
    destruct (sig_onto n sig Rn j0 Rj) as (j & Hj & <-). destruct (sig_onto n sig Rn k0 Rk) as (k & Hk & <-).
    apply (extreme_moved data data' t _ Md T Hj) in J. apply (extreme_moved data data' t _ Md T Hk) in K. rewrite !At by assumption. rewrite (Ch t j k T J K). symmetry.
    apply (chain_moved n sig Rn (h_nbs h) (h_nbs h') eq_refl Ln' Ad); [|exact Hj|exact Hk]. intros i I. exact (extreme_moved data data' t i Md T I).
  - assert (Inv : forall x s, In x (nth s (renumbered objs) []) -> In x (nth s objs [])).
    { intros x s I. destruct (Nat.lt_ge_cases s (length objs)) as [S|S]; [|rewrite nth_overflow in I by lia; destruct I].
      destruct (Mo s S) as (A1 & A2 & A3). destruct (In_nth _ _ 0%Z I) as (j & J & <-). rewrite A2 in J. destruct (sig_onto n sig Rn j J) as (k & K & <-). rewrite A3 by exact K. apply nth_In. lia. }
    intros x s t X I J. apply (Un x s t X); apply Inv; assumption.
Qed.
Lemma single_moved thr objs : (forall t, t < length objs -> length (nth t objs []) = n) ->
  (forall p q c, consecutive_overlap (h_area h) thr objs p c -> consecutive_overlap (h_area h) thr objs q c -> p = q) ->
  forall p q c, consecutive_overlap (h_area h') thr (renumbered objs) p c -> consecutive_overlap (h_area h') thr (renumbered objs) q c -> p = q.
Proof. intros L S p q c A B. apply (overlap_moved thr objs _ _ _ (renumbered_moved objs L)) in A, B. exact (S p q c A B). Qed.

Lemma mesh_chain_ext m (P Q : nat -> Prop) j k : (forall i, P i -> Q i) -> mesh_chain m P j k -> mesh_chain m Q j k.
Proof. intros E C. induction C as [i|i x z O A L C IH]; [constructor|]. apply (mchain_step m Q i x z); auto. Qed.
Lemma labelling_ext m mask a b objs : length b = length a -> (forall t k, t < length a -> (extreme_ocean m mask a t k <-> extreme_ocean m mask b t k)) ->
  object_labelling m mask a objs -> object_labelling m mask b objs.
Proof.
  intros L E (L0 & Rw & Cell & Ch & Un). split; [congruence|]. rewrite L. split; [exact Rw|]. split; [intros t k T K; rewrite <- (E t k T); exact (Cell t k T K)|]. split; [|exact Un].
  intros t j k T J K. apply (E t j T) in J. apply (E t k T) in K. rewrite (Ch t j k T J K).
  split; intro C; (eapply mesh_chain_ext; [|exact C]); intro i; apply E; exact T.
Qed.

Lemma runs_moved y y' data data' objs F N mg st :
  setup_ok h data -> setup_ok h' data' -> moved_steps false n sig data data' -> y_thr y' = y_thr y ->
  set_order (y_order y) -> set_order (y_order y') -> 0 < y_limit y -> 0 < y_limit y' ->
  fresh_mesh_run h y data = Ok (F, N, mg, st) -> object_labelling (h_nbs h) (h_mask h) (with_id F) objs ->
  (forall p q c, consecutive_overlap (h_area h) (y_thr y) objs p c -> consecutive_overlap (h_area h) (y_thr y) objs q c -> p = q) ->
  exists F' mg' st', fresh_mesh_run h' y' data' = Ok (F', N, mg', st') /\ moved_events n sig F F' /\ same_stats st' st.
Proof.
  intros Hs Hs' Md Et Ho Ho' Li Li' R Lab Sg. apply fresh_parts in R. destruct R as (s & f & Es & Ef & St & Tr).
  assert (Ok1 := proj1 Hs). assert (Ok2 := proj1 Hs'). destruct (filled_moved h h' sig Sm Ok1 Ok2 data data' s Md Es) as (s' & Es' & Ms).
  assert (Er : h_rule h' = h_rule h) by apply Sm.
  destruct (kept_moved h h' sig Sm Ok1 Ok2 (h_rule h) s s' f Ms Ef) as (f' & Ef' & T1 & T2 & T3 & T4 & T5 & Mf). rewrite <- Er in Ef'.
  assert (Ao := area_moved h h' sig Sm _ _ Mf). assert (Ai := area_moved h h' sig Sm _ _ Md).
  assert (Ms2 := proj2 Mf). fold n in Ms2, Mf.
  assert (In1 : mesh_input (h_nbs h) (h_mask h) (h_area h) (f_keep f)).
  { destruct Hs as (B1 & B2 & B3 & B4 & _). split; [exact B1|]. split; [exact B2|]. split; [exact B3|]. split; [exact B4|]. intros d I. destruct (In_nth _ _ [] I) as (t & T & <-). apply (Ms2 t T). }
  assert (In2 : mesh_input (h_nbs h') (h_mask h') (h_area h') (f_keep f')).
  { destruct Hs' as (B1 & B2 & B3 & B4 & _). split; [exact B1|]. split; [exact B2|]. split; [exact B3|]. split; [exact B4|]. intros d I. destruct (In_nth _ _ [] I) as (t & T & <-). rewrite Ln'. apply (Ms2 t). rewrite (proj1 Mf) in T. exact T. }
  unfold track_on_mesh in Tr. destruct (track_mesh _ _ _ _ _ _ _ _ _ (f_keep f)) as [[ev0 mg0]|e] eqn:Tk; [|discriminate]. injection Tr as <- <- <-.
  destruct (C103_mesh_events _ _ _ _ _ _ _ _ _ _ _ _ ev0 mg0 In1 Ho Tk) as (Lf & Rows & Cell & Cnt & obj2 & Ser2 & Len2 & Cell2 & _).
  assert (Ex : exists t k, t < length (f_keep f) /\ extreme_ocean (h_nbs h) (h_mask h) (f_keep f) t k).
  { destruct Ser2 as (S1 & S2 & S3 & t & x & X & I). assert (T : t < length obj2) by (destruct (Nat.lt_ge_cases t (length obj2)); [assumption|rewrite nth_overflow in I by lia; destruct I]).
    destruct (In_nth _ _ 0%Z I) as (k & K & E). rewrite (S1 _ (nth_In obj2 [] T)) in K. exists t, k. split; [lia|]. apply Cell2; [lia|exact K|]. unfold id_at. rewrite E. exact X. }
  assert (Same : forall t k, t < length (f_keep f) -> (extreme_ocean (h_nbs h) (h_mask h) (with_id (v_field ev0)) t k <-> extreme_ocean (h_nbs h) (h_mask h) (f_keep f) t k)).
  { intros t k T.
    assert (W : k < n -> (nth k (nth t (with_id (v_field ev0)) []) false = true <-> id_at (v_field ev0) t k <> 0%Z)).
    { intro K. unfold with_id. rewrite (map_nth0 _ _ t []) by lia. rewrite (map_nth0 _ _ k 0%Z) by (rewrite (Rows t T); exact K). unfold id_at. rewrite negb_true_iff, Z.eqb_neq. reflexivity. }
    assert (D : extreme_ocean (h_nbs h) (h_mask h) (f_keep f) t k \/ ~ extreme_ocean (h_nbs h) (h_mask h) (f_keep f) t k).
    { unfold extreme_ocean. destruct (Nat.lt_ge_cases k (length (h_nbs h))); [|right; lia]. destruct (nth k (h_mask h) false), (nth k (nth t (f_keep f) []) false); [left; repeat split; auto|right; intros (_ & _ & Q); discriminate|right; intros (_ & Q & _); discriminate|right; intros (_ & Q & _); discriminate]. }
    split.
    - intros (K & M & Wt). apply W in Wt; [|exact K]. destruct D as [D|D]; [exact D|]. apply (Cell t k T K) in D. contradiction.
    - intro O. assert (K := proj1 O). split; [exact K|]. split; [apply O|]. apply W; [exact K|]. apply (Cell t k T K) in O. lia. }
  assert (Lab1 : object_labelling (h_nbs h) (h_mask h) (f_keep f) objs).
  { apply (labelling_ext _ _ (with_id (v_field ev0))); [unfold with_id; rewrite map_length; congruence|unfold with_id at 1; rewrite map_length, Lf; exact Same|exact Lab]. }
  destruct (C106_unmerged_objects _ _ _ (y_cent y) (y_thr y) (y_nbs y) (y_dist y) (y_reach y) (y_order y) (y_block y) (y_limit y) _ objs In1 Ho Li Ex Lab1 Sg) as (ev1 & mg1 & Tk1 & _ & Ev1).
  assert (E01 : Ok (ev1, mg1) = Ok (ev0, mg0)) by (rewrite <- Tk1, <- Tk; reflexivity). injection E01 as -> ->.
  assert (Lab2 := labelling_moved _ _ objs Mf Lab1).
  assert (Row1 : forall t, t < length objs -> length (nth t objs []) = n) by (destruct Lab1 as (L1 & L2 & _); rewrite L1; exact L2).
  assert (Sg2 := single_moved (y_thr y) objs Row1 Sg). rewrite <- Et in Sg2.
  assert (Ex' : exists t k, t < length (f_keep f') /\ extreme_ocean (h_nbs h') (h_mask h') (f_keep f') t k).
  { destruct Ex as (t & k & T & O). exists t, (sig k). split; [rewrite (proj1 Mf); exact T|]. apply (extreme_moved _ _ t k Mf T (proj1 O)). exact O. }
  destruct (C106_unmerged_objects _ _ _ (y_cent y') (y_thr y') (y_nbs y') (y_dist y') (y_reach y') (y_order y') (y_block y') (y_limit y') _ _ In2 Ho' Li' Ex' Lab2 Sg2) as (ev' & mg' & Tk' & _ & Ev').
  destruct (C103_mesh_events _ _ _ _ _ _ _ _ _ _ _ _ ev' mg' In2 Ho' Tk') as (Lf' & Rows' & Cell' & Cnt' & _).
  assert (Lk : length (f_keep f') = length (f_keep f)) by apply Mf.
  assert (Zero : forall t k, t < length (f_keep f) -> k < n -> (id_at (v_field ev') t (sig k) = 0%Z <-> id_at (v_field ev0) t k = 0%Z)).
  { intros t k T K. assert (X := extreme_moved _ _ t k Mf T K). assert (C1 := Cell t k T K). assert (C2 := Cell' t (sig k) ltac:(lia) ltac:(rewrite Ln'; exact (sig_range n sig Rn k K))).
    assert (D : extreme_ocean (h_nbs h) (h_mask h) (f_keep f) t k \/ ~ extreme_ocean (h_nbs h) (h_mask h) (f_keep f) t k).
    { unfold extreme_ocean. destruct (nth k (h_mask h) false), (nth k (nth t (f_keep f) []) false); [left; repeat split; auto|right; intros (_ & _ & Q); discriminate|right; intros (_ & Q & _); discriminate|right; intros (_ & Q & _); discriminate]. }
    destruct D as [D|D].
    - apply C1 in D as D1. apply X in D. apply C2 in D. split; lia.
    - assert (D' : ~ extreme_ocean (h_nbs h') (h_mask h') (f_keep f') t (sig k)) by (intro Q; apply D; apply X; exact Q). apply C1 in D. apply C2 in D'. rewrite D, D'. reflexivity. }
  assert (On : forall t k, t < length (f_keep f) -> k < n -> id_at (v_field ev0) t k <> 0%Z -> extreme_ocean (h_nbs h) (h_mask h) (f_keep f) t k).
  { intros t k T K Nz. unfold extreme_ocean. destruct (nth k (h_mask h) false) eqn:E1; [destruct (nth k (nth t (f_keep f) []) false) eqn:E2; [repeat split; auto|]|]; exfalso; apply Nz, (Cell t k T K); intros (_ & Q1 & Q2); congruence. }
  assert (Same2 : forall t j u k, t < length (f_keep f) -> u < length (f_keep f) -> j < n -> k < n -> id_at (v_field ev0) t j <> 0%Z -> id_at (v_field ev0) u k <> 0%Z ->
     (id_at (v_field ev') t (sig j) = id_at (v_field ev') u (sig k) <-> id_at (v_field ev0) t j = id_at (v_field ev0) u k)).
  { intros t j u k T U J K Nj Nk. assert (Oj := On t j T J Nj). assert (Oku := On u k U K Nk).
    rewrite (Ev1 t j u k T U Oj Oku), (Ev' t (sig j) u (sig k)); [|lia|lia|apply (extreme_moved _ _ t j Mf T J); exact Oj|apply (extreme_moved _ _ u k Mf U K); exact Oku].
    destruct (renumbered_moved objs Row1) as [_ Mo]. destruct Lab1 as (L1 & _). unfold id_at.
    rewrite (proj2 (proj2 (Mo t ltac:(lia))) j J), (proj2 (proj2 (Mo u ltac:(lia))) k K). rewrite Et. apply chained_iff. intros p c. apply (overlap_moved (y_thr y) objs _ p c (renumbered_moved objs Row1)). }
  assert (Num : n_events ev' = n_events ev0).
  { set (P := fun a b => exists t k, t < length (f_keep f) /\ k < n /\ id_at (v_field ev0) t k = a /\ a <> 0%Z /\ id_at (v_field ev') t (sig k) = b).
    assert (N0 : (0 <= n_events ev0)%Z).
    { destruct Ex as (t & k & T & O). assert (K := proj1 O). apply (Cell t k T K) in O. assert (B : (1 <= id_at (v_field ev0) t k <= n_events ev0)%Z); [|lia]. apply Cnt. exists t. split; [exact O|]. apply nth_In. rewrite (Rows t T). exact K. }
    assert (N0' : (0 <= n_events ev')%Z).
    { destruct Ex' as (t & k & T & O). assert (K := proj1 O). apply (Cell' t k T K) in O. assert (B : (1 <= id_at (v_field ev') t k <= n_events ev')%Z); [|lia]. apply Cnt'. exists t. split; [exact O|]. apply nth_In. rewrite (Rows' t T). exact K. }
    apply Z.le_antisymm.
    - apply (count_le (fun b a => P a b)); [| |exact N0].
      + intros b B. apply Cnt' in B. destruct B as (t & Pb & I). assert (T : t < length (v_field ev')) by (destruct (Nat.lt_ge_cases t (length (v_field ev'))); [assumption|unfold present_at in I; rewrite nth_overflow in I by lia; destruct I]).
        destruct (In_nth _ _ 0%Z I) as (j & J & E). rewrite Rows' in J by lia. rewrite Ln' in J. destruct (sig_onto n sig Rn j J) as (k & K & <-).
        assert (T0 : t < length (f_keep f)) by lia. assert (Nz : id_at (v_field ev0) t k <> 0%Z) by (intro Q; apply (Zero t k T0 K) in Q; unfold id_at in Q; lia).
        exists (id_at (v_field ev0) t k). split; [|exists t, k; repeat split; try assumption; exact E].
        apply Cnt. exists t. split; [assert (C := Cell t k T0 K); assert (O := On t k T0 K Nz); apply C in O; exact O|]. apply nth_In. rewrite (Rows t T0). exact K.
      + intros a b c _ _ (t & k & T & K & E1 & Nz & E2) (u & j & U & J & E3 & Nz' & E4). rewrite <- E2, <- E4. apply (Same2 t k u j T U K J); congruence.
    - apply (count_le P); [| |exact N0'].
      + intros a A. apply Cnt in A. destruct A as (t & Pa & I). assert (T : t < length (v_field ev0)) by (destruct (Nat.lt_ge_cases t (length (v_field ev0))); [assumption|unfold present_at in I; rewrite nth_overflow in I by lia; destruct I]).
        destruct (In_nth _ _ 0%Z I) as (k & K & E). rewrite Rows in K by lia. fold n in K. assert (T0 : t < length (f_keep f)) by lia.
        assert (Nz : id_at (v_field ev0) t k <> 0%Z) by (unfold id_at; lia). assert (Nz' : id_at (v_field ev') t (sig k) <> 0%Z) by (intro Q; apply (Zero t k T0 K) in Q; contradiction).
        exists (id_at (v_field ev') t (sig k)). split; [|exists t, k; repeat split; try assumption; lia]. assert (Rk := sig_range n sig Rn k K).
        apply Cnt'. exists t. split; [|apply nth_In; rewrite Rows' by lia; rewrite Ln'; exact Rk].
        assert (O := On t k T0 K Nz). apply (extreme_moved _ _ t k Mf T0 K) in O. apply (Cell' t (sig k)) in O; [exact O|lia|rewrite Ln'; exact Rk].
      + intros a b c _ _ (t & k & T & K & E1 & Nz & E2) (u & j & U & J & E3 & Nz' & E4). rewrite <- E1, <- E3. apply (Same2 t k u j T U K J); congruence. }
  assert (St' : exists st', stats_of (area_mesh h') data' f' (f_keep f') = Ok st' /\ same_stats st' st).
  { unfold stats_of in *. rewrite T4. destruct (Nat.eqb (total_area_IDed f) 0); [discriminate|]. destruct (Qeq_bool (area_mesh h (f_keep f)) 0) eqn:A0; [discriminate|]. injection St as <-.
    assert (A0' : Qeq_bool (area_mesh h' (f_keep f')) 0 = false) by (destruct (Qeq_bool (area_mesh h' (f_keep f')) 0) eqn:Q; [|reflexivity]; apply Qeq_bool_eq in Q; rewrite Ao in Q; apply Qeq_bool_neq in A0; contradiction).
    rewrite A0'. eexists. split; [reflexivity|]. unfold same_stats. cbn [s_total s_before s_after s_threshold s_accepted s_processed]. unfold accepted_area_fraction. rewrite T1, T2, T3, T4, T5.
    split; [reflexivity|]. split; [reflexivity|]. split; [reflexivity|]. split; [reflexivity|]. split; [reflexivity|]. rewrite Ao, Ai. reflexivity. }
  destruct St' as (st' & St' & Ss). exists (v_field ev'), (Some mg'), st'. split; [|split; [|exact Ss]].
  - apply fresh_parts. exists s', f'. split; [exact Es'|]. split; [exact Ef'|]. split; [exact St'|]. unfold track_on_mesh. rewrite Tk', Num. reflexivity.
  - split; [lia|]. rewrite Lf. split; [exact Zero|exact Same2].
Qed.
End Tracks.
