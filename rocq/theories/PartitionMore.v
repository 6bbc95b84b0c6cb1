(** The partition covers the child, and who is nearest. *)
From Coq Require Import Qround Lqa.
From Verif Require Import Base Filter Overlap Merge MergeProofs Partition PartitionSpec PartitionProofs.
Open Scope nat_scope.

Lemma nn_parent_lt ny nx wrap max_d parents cents k :
  length cents = length parents -> parents <> [] ->
  nn_parent ny nx wrap max_d parents cents k < length parents.
Proof.
  intros L Ne. unfold nn_parent.
  destruct (nn_looked wrap (bin_size max_d) ny nx k (natQ max_d * natQ max_d)%Q parents) as [_ Hs].
  destruct (se_best _) as [d|] eqn:E.
  - destruct (Hs d eq_refl) as (_ & _ & _ & P & _). exact P.
  - destruct (nearest_spec (map (centroid_dist2 dist2 wrap nx k) cents)) as [H _].
    + intro E0. apply map_eq_nil in E0. subst. destruct parents; [congruence|discriminate].
    + rewrite map_length, L in H. exact H.
Qed.

Lemma part_grid_covers nn regional ny nx : covers (ny * nx) (part_grid nn regional ny nx).
Proof.
  intros ps prev mask parents ids _ _ L Ne. unfold part_grid.
  assert (Np : parents <> []) by (destruct parents; [destruct ids; [congruence|discriminate]|discriminate]).
  destruct nn.
  - unfold partition_nn_grid. rewrite map_length. split; [apply points_count|].
    intros l H. apply in_map_iff in H. destruct H as (k & <- & _). apply nth_In. rewrite <- L.
    eapply Nat.lt_le_trans; [apply nn_parent_lt|].
    + rewrite !map_length. reflexivity.
    + intro E. apply map_eq_nil, map_eq_nil in E. congruence.
    + rewrite !map_length. lia.
  - unfold partition_centroid. rewrite map_length. split; [apply points_count|].
    intros l H. apply in_map_iff in H. destruct H as (k & <- & _). apply nth_In. rewrite <- L.
    match goal with |- nearest ?ds < _ => destruct (nearest_spec ds) as [H _] end.
    + intro E. apply map_eq_nil, map_eq_nil in E. congruence.
    + rewrite !map_length in H. exact H.
Qed.

(** Nearest parent cell, when one lies within a bin width. *)
Lemma cell_row ny nx k : 0 < nx -> k < ny * nx -> cell_y nx k < ny.
Proof. intros N K. unfold cell_y. apply Nat.div_lt_upper_bound; lia. Qed.

Lemma parent_cell_In parents i p : i < length parents ->
  (parent_cell parents i p <-> In p (nth i (map points parents) [])).
Proof.
  intro I. unfold parent_cell. rewrite (nth_indep _ [] (points [])) by (rewrite map_length; exact I).
  rewrite map_nth, points_In. split.
  - intros [_ H]. split; [|exact H]. destruct (Nat.lt_ge_cases p (length (nth i parents []))) as [L|L]; [exact L|].
    rewrite nth_overflow in H by exact L. discriminate.
  - intros [_ H]. split; assumption.
Qed.

Lemma nn_nearest ny nx wrap max_d parents cents k i0 p0 : 0 < nx ->
  k < ny * nx -> (forall m, In m parents -> length m = ny * nx) ->
  (wrap = true -> nx mod bin_size max_d = 0) ->
  bin_size max_d <= max_d ->
  parent_cell parents i0 p0 ->
  (cell_dist2 wrap nx k p0 <= natQ (bin_size max_d) * natQ (bin_size max_d))%Q ->
  let i := nn_parent ny nx wrap max_d (map points parents) cents k in
  exists p, parent_cell parents i p /\
    (forall j q, parent_cell parents j q -> (cell_dist2 wrap nx k p <= cell_dist2 wrap nx k q)%Q) /\
    (forall j q, j < i -> parent_cell parents j q -> (cell_dist2 wrap nx k p < cell_dist2 wrap nx k q)%Q).
Proof.
  intros N K Lm W G P0 D0. cbn zeta.
  set (g := bin_size max_d) in *. set (max2 := (natQ max_d * natQ max_d)%Q).
  assert (Gp : 0 < g) by (unfold g, bin_size; lia).
  assert (GM : (natQ g * natQ g <= max2)%Q).
  { unfold max2, natQ. rewrite <- !inject_Z_mult, <- Zle_Qle. nia. }
  assert (InC : forall j q, parent_cell parents j q -> (cell_dist2 wrap nx k q <= natQ g * natQ g)%Q ->
     In q (candidates g ny nx k (nth j (map points parents) [])) /\ (cell_dist2 wrap nx k q <= max2)%Q).
  { intros j q Hq Dq. split; [|eapply Qle_trans; eassumption].
    assert (J := Hq). destruct J as [J _]. apply (parent_cell_In _ j q J) in Hq.
    apply (candidates_complete wrap); try assumption.
    - apply cell_row; assumption.
    - apply cell_row; [exact N|].
      rewrite (nth_indep _ [] (points [])) in Hq by (rewrite map_length; exact J).
      rewrite map_nth, points_In in Hq. rewrite <- (Lm (nth j parents []) (nth_In _ _ J)). tauto. }
  unfold nn_parent. fold g max2.
  destruct (nn_looked wrap g ny nx k max2 (map points parents)) as [Hn Hs].
  set (st := fold_left _ _ _) in *. rewrite map_length in Hn, Hs.
  destruct (InC i0 p0 P0 D0) as [C0 M0].
  destruct (se_best st) as [d|] eqn:E.
  - destruct (Hs d eq_refl) as (_ & _ & _ & Pl & (p & Ip & Ed) & A & S0).
    assert (Dg : (d <= natQ g * natQ g)%Q).
    { eapply Qle_trans; [apply (A i0 p0); [apply P0|exact C0|exact M0]|exact D0]. }
    exists p. split; [apply parent_cell_In; assumption|]. rewrite <- Ed. split.
    + intros j q Hq. destruct (Qlt_le_dec (natQ g * natQ g) (cell_dist2 wrap nx k q)) as [Far|Near].
      * apply Qlt_le_weak. eapply Qle_lt_trans; [exact Dg|exact Far].
      * destruct (InC j q Hq Near) as [C M]. apply (A j q); [apply Hq|exact C|exact M].
    + intros j q J Hq. destruct (Qlt_le_dec (natQ g * natQ g) (cell_dist2 wrap nx k q)) as [Far|Near].
      * eapply Qle_lt_trans; [exact Dg|exact Far].
      * destruct (InC j q Hq Near) as [C M]. apply (S0 j q); assumption.
  - destruct (Hn eq_refl) as [_ A]. exfalso. apply (Qlt_not_le _ _ (A i0 p0 ltac:(apply P0) C0)). exact M0.
Qed.

(** The same in terms of the labels returned and of [apart]. *)
Lemma partition_nn_nearest ny nx wrap max_d child parents ids cents n p0 i0 d0 : 0 < nx ->
  length child = ny * nx -> (forall m, In m parents -> length m = ny * nx) ->
  (wrap = true -> nx mod bin_size max_d = 0) -> 2 <= max_d ->
  n < length (points child) ->
  parent_cell parents i0 p0 -> apart wrap nx (nth n (points child) 0) p0 d0 ->
  (d0 <= toQ (bin_size max_d) * toQ (bin_size max_d))%Q ->
  exists i p d, nth n (partition_nn_grid ny nx wrap max_d child parents ids cents) 0%Z = nth i ids 0%Z /\
    parent_cell parents i p /\ apart wrap nx (nth n (points child) 0) p d /\
    (forall j q e, parent_cell parents j q -> apart wrap nx (nth n (points child) 0) q e -> (d <= e)%Q) /\
    (forall j q e, j < i -> parent_cell parents j q -> apart wrap nx (nth n (points child) 0) q e -> (d < e)%Q).
Proof.
  intros N Lc Lm W M2 Hn P0 A0 D0. set (k := nth n (points child) 0) in *.
  assert (Hk : k < ny * nx).
  { assert (I : In k (points child)) by (apply nth_In; exact Hn). apply points_In in I. lia. }
  assert (G : bin_size max_d <= max_d).
  { unfold bin_size. assert (max_d / 4 <= max_d) by (apply Nat.div_le_upper_bound; lia). lia. }
  rewrite (apart_eq _ _ _ _ _ N A0) in D0.
  destruct (nn_nearest ny nx wrap max_d parents cents k i0 p0 N Hk Lm W G P0 D0) as (p & Pp & Le & Lt).
  set (i := nn_parent ny nx wrap max_d (map points parents) cents k) in *.
  exists i, p, (cell_dist2 wrap nx k p). split; [|split; [exact Pp|split; [apply cell_apart; exact N|split]]].
  - unfold partition_nn_grid.
    set (f := fun k0 => nth (nn_parent ny nx wrap max_d (map points parents) cents k0) ids 0%Z).
    rewrite (nth_indep _ 0%Z (f 0)) by (rewrite map_length; exact Hn). rewrite map_nth. reflexivity.
  - intros j q e Hq He. rewrite (apart_eq _ _ _ _ _ N He). apply (Le j q Hq).
  - intros j q e J Hq He. rewrite (apart_eq _ _ _ _ _ N He). apply (Lt j q J Hq).
Qed.

(** Nearest centroid, lowest index among ties. *)
Lemma nearest_centroid_spec dist wrap nx k cents : cents <> [] ->
  let i := nearest (map (centroid_dist2 dist wrap nx k) cents) in
  i < length cents /\
  (forall j, j < length cents ->
     (centroid_dist2 dist wrap nx k (nth i cents (0, 0)) <= centroid_dist2 dist wrap nx k (nth j cents (0, 0)))%Q) /\
  (forall j, j < i ->
     (centroid_dist2 dist wrap nx k (nth i cents (0, 0)) < centroid_dist2 dist wrap nx k (nth j cents (0, 0)))%Q).
Proof.
  intro Ne. cbn zeta. set (f := centroid_dist2 dist wrap nx k).
  destruct (nearest_spec (map f cents)) as (B & A & S0).
  { intro E. apply map_eq_nil in E. congruence. }
  rewrite map_length in *. split; [exact B|].
  assert (Nf : forall j, j < length cents -> nth j (map f cents) 0%Q = f (nth j cents (0%Q, 0%Q))).
  { intros j J. rewrite (nth_indep _ 0%Q (f (0%Q, 0%Q))) by (rewrite map_length; exact J). apply map_nth. }
  split.
  - intros j J. rewrite <- !Nf by assumption. apply A. exact J.
  - intros j J. rewrite <- !Nf by lia. apply S0. exact J.
Qed.

Lemma partition_centroid_nearest nx wrap child ids cents n ds : cents <> [] -> 0 < nx ->
  (forall c, In c cents -> (0 <= snd c)%Q /\ (snd c <= toQ nx)%Q) ->
  n < length (points child) ->
  length ds = length cents ->
  (forall j, j < length cents ->
     is_dist2 wrap nx (toQ (nth n (points child) 0 / nx)) (toQ (nth n (points child) 0 mod nx))
       (fst (nth j cents (0, 0)%Q)) (snd (nth j cents (0, 0)%Q)) (nth j ds 0%Q)) ->
  exists i, i < length cents /\
    nth n (partition_centroid nx wrap child ids cents) 0%Z = nth i ids 0%Z /\
    (forall j, j < length cents -> (nth i ds 0 <= nth j ds 0)%Q) /\
    (forall j, j < i -> (nth i ds 0 < nth j ds 0)%Q).
Proof.
  intros Ne N Rc Hn Ld Hd. set (k := nth n (points child) 0) in *.
  destruct (nearest_centroid_spec dist2_mask wrap nx k cents Ne) as (B & A & S0).
  set (i := nearest (map (centroid_dist2 dist2_mask wrap nx k) cents)) in *.
  assert (Eq : forall j, j < length cents -> (nth j ds 0 == centroid_dist2 dist2_mask wrap nx k (nth j cents (0, 0)))%Q).
  { intros j J. unfold centroid_dist2. rewrite dist2_mask_same. eapply is_dist2_unique; [apply (Hd j J)|].
    destruct (Rc (nth j cents (0, 0)%Q) (nth_In _ _ J)) as [C0 C1].
    assert (X : cell_x nx k < nx) by (apply Nat.mod_upper_bound; lia).
    assert (X1 : (0 <= natQ (cell_x nx k))%Q) by apply natQ_nonneg.
    assert (X2 : (natQ (cell_x nx k) <= natQ nx)%Q).
    { unfold natQ. rewrite <- Zle_Qle. lia. }
    rewrite <- natQ_toQ in C1. apply dist2_is; lra. }
  exists i. split; [exact B|]. split; [|split].
  - unfold partition_centroid.
    set (f := fun k0 => nth (nearest (map (centroid_dist2 dist2_mask wrap nx k0) cents)) ids 0%Z).
    rewrite (nth_indep _ 0%Z (f 0)) by (rewrite map_length; exact Hn). rewrite map_nth. reflexivity.
  - intros j J. rewrite !Eq by assumption. apply A. exact J.
  - intros j J. rewrite !Eq by lia. apply S0. exact J.
Qed.

(** The distance is symmetric and vanishes only for coinciding cells. *)
Lemma is_dist2_sym wrap nx y1 x1 y2 x2 d : is_dist2 wrap nx y1 x1 y2 x2 d -> is_dist2 wrap nx y2 x2 y1 x1 d.
Proof.
  unfold is_dist2, image2. destruct wrap.
  - intros [(j & J) A]. split.
    + exists (- j)%Z. rewrite J, inject_Z_opp. ring.
    + intro m. specialize (A (- m)%Z). rewrite inject_Z_opp in A. eapply Qle_trans; [exact A|].
      apply Qle_lteq. right. ring.
  - intro E. rewrite E. change (inject_Z 0) with 0%Q. ring.
Qed.
