(** Taking whole objects away from a series on a mesh: labels, overlaps. *)
From Verif Require Import Base Graph Morph MorphSpec Label LabelSpec Filter FilterSpec FilterProofs FilterMeshProofs FilterProps Overlap OverlapSpec
  Merge MergeSpec Cluster ClusterSpec ClusterProofs ClusterPipe MeshPart Parallel Run RunSpec MeshRun MeshRunProps StatsRunProps RelateProofs MeshMoveSpec MeshMoveProofs MeshMoveRunProofs UnmergedProofs LocalProofs.
Open Scope nat_scope.

(** The labels of the cells that are left. *)
Definition only (k' : list (list bool)) (objs : list (list Z)) : list (list Z) :=
  map (fun p => map (fun q : bool * Z => if fst q then snd q else 0%Z) (combine (fst p) (snd p))) (combine k' objs).

Section Thin.
Variables (m : mesh) (mask : list bool) (k k' : list (list bool)) (objs : list (list Z)).
Hypothesis Lab : object_labelling m mask k objs.
Hypothesis Lk : length k' = length k.
Hypothesis Rk : forall t, t < length k -> length (nth t k' []) = length m.
Hypothesis Sub : forall t i, t < length k -> extreme_ocean m mask k' t i -> extreme_ocean m mask k t i.
Hypothesis Whole : forall t i j, t < length k -> extreme_ocean m mask k' t i -> extreme_ocean m mask k t j ->
  mesh_chain m (extreme_ocean m mask k t) i j -> extreme_ocean m mask k' t j.
Let objs' := only k' objs.

Lemma only_length : length objs' = length k.
Proof. unfold objs', only. rewrite map_length, combine_length. destruct Lab as (L & _). lia. Qed.
Lemma only_at t i : t < length k -> i < length m -> id_at objs' t i = if nth i (nth t k' []) false then id_at objs t i else 0%Z.
Proof.
  intros T I. destruct Lab as (L & W & _). unfold id_at, objs', only.
  rewrite (map_nth0 _ _ t ([], [])) by (rewrite combine_length; lia). rewrite combine_nth by lia. cbn [fst snd].
  rewrite (map_nth0 _ _ i (false, 0%Z)) by (rewrite combine_length, (W t T), (Rk t T); lia). rewrite combine_nth by (rewrite (W t T), (Rk t T); reflexivity). reflexivity.
Qed.
Lemma only_row t : t < length k -> length (nth t objs' []) = length m.
Proof.
  intro T. destruct Lab as (L & W & _). unfold objs', only.
  rewrite (map_nth0 _ _ t ([], [])) by (rewrite combine_length; lia). rewrite combine_nth by lia. cbn [fst snd]. rewrite map_length, combine_length, (W t T), (Rk t T). lia.
Qed.
Lemma only_pos t i : t < length k -> i < length m -> ((0 < id_at objs' t i)%Z <-> extreme_ocean m mask k' t i).
Proof.
  intros T I. rewrite (only_at t i T I). destruct Lab as (_ & _ & P & _). destruct (P t i T I) as [P0 P1]. destruct (nth i (nth t k' []) false) eqn:E.
  - rewrite P1. split; [intros (A & B & _); split; [exact A|split; [exact B|exact E]]|apply Sub; exact T].
  - split; [lia|]. intros (_ & _ & X). congruence.
Qed.
Lemma only_same t j i : t < length k -> j < length m -> i < length m -> (0 < id_at objs' t j)%Z -> (id_at objs t i = id_at objs t j <-> id_at objs' t i = id_at objs' t j).
Proof.
  intros T J I P. assert (O := proj1 (only_pos t j T J) P). assert (Vj : nth j (nth t k' []) false = true) by apply O. assert (Oj := Sub t j T O).
  destruct Lab as (_ & _ & Ps & Sm & _). assert (Pj := proj2 (proj2 (Ps t j T J)) Oj). rewrite (only_at t j T J), Vj in *. rewrite (only_at t i T I). split; intro E.
  - assert (Oi : extreme_ocean m mask k t i) by (apply (Ps t i T I); congruence).
    assert (O' : extreme_ocean m mask k' t i) by (apply (Whole t j i T O Oi); apply Sm; [exact T|exact Oj|exact Oi|congruence]).
    destruct O' as (_ & _ & ->). exact E.
  - destruct (nth i (nth t k' []) false); [exact E|]. lia.
Qed.
Lemma only_labelling : object_labelling m mask k' objs'.
Proof.
  assert (P := only_pos). destruct Lab as (L & W & Ps & Sm & Un). split; [rewrite only_length; lia|]. rewrite Lk. split; [apply only_row|]. split; [|split].
  - intros t i T I. split; [|apply P; assumption]. rewrite (only_at t i T I). destruct (nth i (nth t k' []) false); [apply Ps; assumption|lia].
  - intros t i j T Oi Oj. assert (I : i < length m) by apply Oi. assert (J : j < length m) by apply Oj.
    assert (Q0 := only_same t j i T J I (proj2 (P t j T J) Oj)). rewrite <- Q0, (Sm t i j T (Sub t i T Oi) (Sub t j T Oj)). split; [|apply mesh_chain_ext; intro c; apply Sub; exact T].
    intro C. clear Q0 Oj J. induction C as [i|i x j Ox A X C IH]; [constructor|].
    assert (Ox' : extreme_ocean m mask k' t x) by (apply (Whole t i x T Oi Ox); apply (mchain_step _ _ i x x); [exact Ox|exact A|exact X|constructor]).
    apply (mchain_step _ _ i x j); [exact Ox'|exact A|exact X|]. apply IH; assumption.
  - assert (Back : forall t x, (0 < x)%Z -> In x (nth t objs' []) -> In x (nth t objs [])).
    { intros t x X Hx. destruct (Nat.lt_ge_cases t (length k)) as [T|T]; [|rewrite nth_overflow in Hx by (rewrite only_length; exact T); destruct Hx].
      destruct (In_nth _ _ 0%Z Hx) as (i & I & E). rewrite (only_row t T) in I. change (id_at objs' t i = x) in E. rewrite (only_at t i T I) in E.
      destruct (nth i (nth t k' []) false); [|lia]. rewrite <- E. apply nth_In. rewrite (W t T). exact I. }
    intros x s t X A B. apply (Un x s t X); apply Back; assumption.
Qed.

Section Overlap.
Variables (w : list Q) (thr : Q).
Lemma only_overlap p c : consecutive_overlap w thr objs' p c -> consecutive_overlap w thr objs p c.
Proof.
  intros (t & T & Pp & Pc & (q & Q0 & E1 & E2) & O). rewrite only_length in T. rewrite (only_row t ltac:(lia)) in Q0. change (id_at objs' t q = p) in E1. change (id_at objs' (S t) q = c) in E2.
  destruct Lab as (L & W & Ps & _). assert (T0 : t < length k) by lia.
  assert (A1 : forall i, i < length m -> Z.eqb (nth i (nth t objs' []) 0%Z) p = Z.eqb (nth i (nth t objs []) 0%Z) p).
  { intros i I. apply eq_true_iff_eq. rewrite !Z.eqb_eq. change (id_at objs' t i = p <-> id_at objs t i = p).
    assert (Hp : p = id_at objs t q) by (rewrite <- E1, (only_at t q T0 Q0); rewrite <- E1, (only_at t q T0 Q0) in Pp; destruct (nth q (nth t k' []) false); [reflexivity|lia]).
    rewrite Hp at 2. rewrite <- E1. symmetry. apply only_same; [exact T0|exact Q0|exact I|lia]. }
  assert (A2 : forall i, i < length m -> Z.eqb (nth i (nth (S t) objs' []) 0%Z) c = Z.eqb (nth i (nth (S t) objs []) 0%Z) c).
  { intros i I. apply eq_true_iff_eq. rewrite !Z.eqb_eq. change (id_at objs' (S t) i = c <-> id_at objs (S t) i = c).
    assert (Hp : c = id_at objs (S t) q) by (rewrite <- E2, (only_at (S t) q T Q0); rewrite <- E2, (only_at (S t) q T Q0) in Pc; destruct (nth q (nth (S t) k' []) false); [reflexivity|lia]).
    rewrite Hp at 2. rewrite <- E2. symmetry. apply only_same; [exact T|exact Q0|exact I|lia]. }
  assert (B1 : object_area w (nth t objs' []) p = object_area w (nth t objs []) p).
  { unfold object_area. rewrite (only_row t T0), (W t T0). apply (LocalProofs.totalQ_same (fun _ => true)). intros i I. rewrite (A1 i I). reflexivity. }
  assert (B2 : object_area w (nth (S t) objs' []) c = object_area w (nth (S t) objs []) c).
  { unfold object_area. rewrite (only_row (S t) T), (W (S t) T). apply (LocalProofs.totalQ_same (fun _ => true)). intros i I. rewrite (A2 i I). reflexivity. }
  assert (B3 : OverlapSpec.shared_area w (nth t objs' []) (nth (S t) objs' []) p c = OverlapSpec.shared_area w (nth t objs []) (nth (S t) objs []) p c).
  { unfold OverlapSpec.shared_area. rewrite (only_row t T0), (W t T0). apply (LocalProofs.totalQ_same (fun _ => true)). intros i I. rewrite (A1 i I), (A2 i I). reflexivity. }
  rewrite B1, B2, B3 in O. exists t. split; [lia|]. split; [exact Pp|]. split; [exact Pc|]. split; [|exact O].
  exists q. split; [rewrite (W t T0); exact Q0|]. split; [|].
  - apply Z.eqb_eq. rewrite <- (A1 q Q0). apply Z.eqb_eq. exact E1.
  - apply Z.eqb_eq. rewrite <- (A2 q Q0). apply Z.eqb_eq. exact E2.
Qed.
End Overlap.
End Thin.
