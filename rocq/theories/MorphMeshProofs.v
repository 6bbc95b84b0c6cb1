(** Proofs about the mesh part of [Morph]. *)
From Verif Require Import Base Morph MorphSpec MorphProofs.
Open Scope nat_scope.

Lemma sparse_row_In m i j : In j (sparse_row m i) <-> j = i \/ adj m i j.
Proof.
  unfold sparse_row, adj. simpl. rewrite in_map_iff. split.
  - intros [->|(k & <- & H)]; [auto|]. apply filter_In in H. destruct H as [H1 H2].
    right. rewrite Z2Nat.id by lia. exact H1.
  - intros [->|H]; [auto|]. right. exists (Z.of_nat j). split; [lia|]. apply filter_In. split; [auto|lia].
Qed.

Lemma dilate_mesh1_at m v i : i < length m ->
  (atb (dilate_mesh1 m v) i = true <-> exists j, (j = i \/ adj m i j) /\ atb v j = true).
Proof.
  intro Hi. unfold dilate_mesh1, atb at 1.
  rewrite (nth_indep _ false (existsb (atb v) (sparse_row m 0))) by (rewrite map_length, seq_length; exact Hi).
  rewrite (map_nth (fun i => existsb (atb v) (sparse_row m i))), seq_nth by exact Hi.
  simpl (0 + i). rewrite existsb_exists. split; intros (j & H1 & H2); exists j; split; auto; apply sparse_row_In; auto.
Qed.

Lemma within_0 m i j : within m 0 i j -> j = i.
Proof. inversion 1; auto. Qed.

Lemma within_mono m n i j : within m n i j -> within m (S n) i j.
Proof. induction 1; [constructor|econstructor; eauto]. Qed.

Lemma within_snoc m n i k :
  within m (S n) i k <-> exists j, within m n i j /\ (k = j \/ adj m j k).
Proof.
  split.
  - revert i. induction n as [|n IH]; intros i H.
    + inversion H as [|? ? j ? A W]; subst; [exists k; split; [constructor|auto]|].
      apply within_0 in W. subst. exists i. split; [constructor|auto].
    + inversion H as [|? ? j ? A W]; subst; [exists k; split; [constructor|auto]|].
      apply IH in W. destruct W as (l & W & C). exists l. split; [econstructor; eauto|auto].
  - intros (j & W & [->|A]); [apply within_mono; exact W|].
    induction W as [n i|n i j l A' W IH]; [econstructor; [exact A|constructor]|].
    econstructor; [exact A'|]. apply IH. exact A.
Qed.

Lemma within_range m n i j : mesh_ok m -> i < length m -> within m n i j -> j < length m.
Proof.
  intros OK Hi W. induction W as [|n i j k A W IH]; auto.
  apply IH. apply OK in A. lia.
Qed.

Lemma sparse_power_at m n : mesh_ok m -> forall v i, i < length m ->
  (atb (sparse_power m n v) i = true <-> exists j, within m n i j /\ atb v j = true).
Proof.
  intro OK. induction n as [|n IH]; intros v i Hi; simpl.
  - split; [intro H; exists i; split; [constructor|auto]|].
    intros (j & W & H). apply within_0 in W. subst. exact H.
  - rewrite IH by exact Hi. split.
    + intros (j & W & H). apply dilate_mesh1_at in H; [|eapply within_range; eauto].
      destruct H as (k & C & H). exists k. split; auto. apply within_snoc. exists j.
      split; auto.
    + intros (k & W & H). apply within_snoc in W. destruct W as (j & W & C).
      exists j. split; auto. apply dilate_mesh1_at; [eapply within_range; eauto|]. exists k. auto.
Qed.

Lemma sparse_power_length m n : forall v, length v = length m -> length (sparse_power m n v) = length m.
Proof.
  induction n as [|n IH]; intros v H; simpl; auto. apply IH. unfold dilate_mesh1.
  rewrite map_length, seq_length. reflexivity.
Qed.

Lemma not_all_at v i : i < length v -> atb (not_all v) i = negb (atb v i).
Proof.
  intro H. unfold atb, not_all. rewrite (nth_indep _ false (negb false)) by (rewrite map_length; exact H).
  apply map_nth.
Qed.
Lemma not_all_length v : length (not_all v) = length v.
Proof. apply map_length. Qed.

Lemma set_land_length mask v : length mask = length v -> length (set_land mask v) = length v.
Proof. intro H. unfold set_land. rewrite map_length, combine_length. lia. Qed.

Lemma set_land_at mask v i : length mask = length v -> i < length v ->
  atb (set_land mask v) i = negb (atb mask i) || atb v i.
Proof.
  intros H Hi. unfold atb, set_land.
  rewrite (nth_indep _ false ((fun p => negb (fst p) || snd p) (false, false)))
    by (rewrite map_length, combine_length; lia).
  rewrite (map_nth (fun p => negb (fst p) || snd p)). rewrite combine_nth by exact H. reflexivity.
Qed.

Lemma erode_mesh_length m R v : length v = length m -> length (erode_mesh m R v) = length m.
Proof. intro H. unfold erode_mesh. rewrite not_all_length. apply sparse_power_length. rewrite not_all_length. exact H. Qed.

Lemma erode_mesh_at m R v i : mesh_ok m -> length v = length m -> i < length m ->
  (atb (erode_mesh m R v) i = true <-> forall j, within m R i j -> atb v j = true).
Proof.
  intros OK L Hi. unfold erode_mesh. rewrite not_all_at
    by (rewrite sparse_power_length; [exact Hi|rewrite not_all_length; exact L]).
  rewrite negb_true_iff. split.
  - intros H j W. destruct (atb v j) eqn:E; auto. exfalso.
    assert (C : atb (sparse_power m R (not_all v)) i = true).
    { apply sparse_power_at; auto. exists j. split; auto. rewrite not_all_at, E; auto.
      rewrite L. eapply within_range; eauto. }
    congruence.
  - intro H. destruct (atb (sparse_power m R (not_all v)) i) eqn:E; auto. exfalso.
    apply sparse_power_at in E; auto. destruct E as (j & W & E).
    rewrite not_all_at in E by (rewrite L; eapply within_range; eauto).
    rewrite (H j W) in E. discriminate.
Qed.

Section FillMesh.
  Variables (m : mesh) (R : nat) (mask v : list bool).
  Hypotheses (OK : mesh_ok m) (Lm : length mask = length m) (Lv : length v = length m).

  Lemma fill_mesh_length : length (fill_holes_mesh m R mask v) = length m.
  Proof.
    unfold fill_holes_mesh.
    assert (L1 : length (sparse_power m R v) = length m) by (apply sparse_power_length; exact Lv).
    assert (L2 : length (set_land mask (sparse_power m R v)) = length m) by (rewrite set_land_length; lia).
    assert (L3 := erode_mesh_length m R _ L2).
    assert (L4 : length (set_land mask (erode_mesh m R (set_land mask (sparse_power m R v)))) = length m)
      by (rewrite set_land_length; lia).
    assert (L5 := erode_mesh_length m R _ L4).
    apply sparse_power_length. exact L5.
  Qed.

  (** Declarative description of the six steps. *)
  Lemma fill_mesh_at i : i < length m ->
    (atb (fill_holes_mesh m R mask v) i = true <->
     exists c, within m R i c /\
       forall j, within m R c j ->
         atb mask j = false \/
         forall k, within m R j k -> atb mask k = false \/ exists l, within m R k l /\ atb v l = true).
  Proof.
    intro Hi. unfold fill_holes_mesh.
    assert (L1 : length (sparse_power m R v) = length m) by (apply sparse_power_length; exact Lv).
    assert (L2 : length (set_land mask (sparse_power m R v)) = length m) by (rewrite set_land_length; lia).
    assert (L3 := erode_mesh_length m R _ L2).
    assert (L4 : length (set_land mask (erode_mesh m R (set_land mask (sparse_power m R v)))) = length m)
      by (rewrite set_land_length; lia).
    assert (S2 : forall k, k < length m -> (atb (set_land mask (sparse_power m R v)) k = true <->
              (atb mask k = false \/ exists l, within m R k l /\ atb v l = true))).
    { intros k Hk. rewrite set_land_at by lia. rewrite orb_true_iff, negb_true_iff, sparse_power_at by auto. tauto. }
    assert (S4 : forall j, j < length m ->
        (atb (set_land mask (erode_mesh m R (set_land mask (sparse_power m R v)))) j = true <->
         (atb mask j = false \/
         forall k, within m R j k -> atb mask k = false \/ exists l, within m R k l /\ atb v l = true))).
    { intros j Hj. rewrite set_land_at by lia. rewrite orb_true_iff, negb_true_iff, erode_mesh_at by auto.
      split; intros [H|H]; auto; right; intros k W; apply S2; auto; eapply within_range; eauto. }
    rewrite sparse_power_at by auto.
    split; intros (c & W & H); exists c; (split; [exact W|]).
    - rewrite erode_mesh_at in H; auto; [|eapply within_range; eauto].
      intros j Wj. apply S4; auto. eapply within_range; [..|exact Wj]; auto. eapply within_range; eauto.
    - rewrite erode_mesh_at; auto; [|eapply within_range; eauto].
      intros j Wj. apply S4; auto. eapply within_range; [..|exact Wj]; auto. eapply within_range; eauto.
  Qed.
End FillMesh.

Lemma within_sym m n i j : mesh_sym m -> within m n i j -> within m n j i.
Proof.
  intros S W. induction W as [|n i j k A W IH]; [constructor|].
  apply within_snoc. exists j. split; [exact IH|]. right. apply S. exact A.
Qed.

Lemma shore_survives m R mask v i :
  mesh_ok m -> mesh_sym m -> length mask = length m -> length v = length m -> i < length m ->
  (forall j, within m R i j -> atb mask j = false \/ atb v j = true) ->
  atb (fill_holes_mesh m R mask v) i = true.
Proof.
  intros OK S Lm Lv Hi H. apply fill_mesh_at; auto.
  exists i. split; [constructor|]. intros j Wj. destruct (H j Wj) as [C|C]; [left; exact C|right].
  intros k Wk. right. exists j. split; [apply within_sym; auto|exact C].
Qed.

Lemma fill_mesh_stays_near m R mask v i :
  mesh_ok m -> mesh_sym m -> length mask = length m -> length v = length m -> i < length m -> atb mask i = true ->
  atb (fill_holes_mesh m R mask v) i = true ->
  exists l, within m R i l /\ atb v l = true.
Proof.
  intros OK S Lm Lv Hi M H. apply fill_mesh_at in H; auto.
  destruct H as (c & W & H). specialize (H i (within_sym _ _ _ _ S W)).
  destruct H as [H|H]; [congruence|]. destruct (H i (within_here m R i)) as [C|C]; [congruence|exact C].
Qed.

Lemma fill_mesh_mono m R mask v w : mesh_ok m ->
  length mask = length m -> length v = length m -> length w = length m ->
  (forall i, atb v i = true -> atb w i = true) ->
  forall i, i < length m ->
  atb (fill_holes_mesh m R mask v) i = true -> atb (fill_holes_mesh m R mask w) i = true.
Proof.
  intros OK Lm Lv Lw H i Hi E. apply fill_mesh_at in E; auto. apply fill_mesh_at; auto.
  destruct E as (c & W & E). exists c. split; auto. intros j Wj. destruct (E j Wj) as [C|C]; auto. right.
  intros k Wk. destruct (C k Wk) as [D|(l & Wl & D)]; auto. right. exists l. auto.
Qed.
