(** Exact and approximate day-of-year samples inside a year. *)
From Coq Require Import Lqa Qround Sorted Permutation.
From Verif Require Import Base Filter FilterProofs FilterMoreProofs Overlap OverlapProofs Partition PartitionProofs Cluster ClusterProofs ClusterFinal Detect DetectProofs Climatology ClimatologySpec ClimatologyProofs Detrend DetrendProofs Histogram HistogramSpec HistogramProofs HistogramWindow HistogramGlobal HistogramExact.
Open Scope nat_scope.

Definition one (v : option Q) : list Q := match v with Some a => [a] | None => [] end.
Lemma present_one l : present l = flat_map one l.
Proof. induction l as [|[a|] l IH]; [reflexivity| |]; cbn; [f_equal|]; exact IH. Qed.
Lemma NoDup_app_local {B} (a b : list B) : NoDup a -> NoDup b -> (forall x, In x a -> In x b -> False) -> NoDup (a ++ b).
Proof.
  induction 1 as [|x a X D IH]; intros E J; cbn; [exact E|]. constructor.
  - rewrite in_app_iff. intros [I|I]; [exact (X I)|exact (J x (or_introl eq_refl) I)].
  - apply IH; [exact E|]. intros y Y Z. apply (J y); [right|]; assumption.
Qed.
Lemma NoDup_flat {A B} (f : A -> list B) l : NoDup l -> (forall x, In x l -> NoDup (f x)) -> (forall x y b, In x l -> In y l -> In b (f x) -> In b (f y) -> x = y) -> NoDup (flat_map f l).
Proof.
  induction 1 as [|x l X D IH]; intros F J; cbn; [constructor|]. apply NoDup_app_local; [apply F; left; reflexivity| |].
  - apply IH; [intros y Y; apply F; right; exact Y|]. intros y z b Y Z I1 I2. apply (J y z b); [right; exact Y|right; exact Z|exact I1|exact I2].
  - intros b I1 I2. apply in_flat_map in I2. destruct I2 as (y & Y & I2). assert (x = y) by (apply (J x y b); [left; reflexivity|right; exact Y|exact I1|exact I2]). congruence.
Qed.
Lemma flat_perm {A B} (f : A -> list B) a b : Permutation a b -> Permutation (flat_map f a) (flat_map f b).
Proof.
  induction 1; cbn; [constructor|apply Permutation_app_head; assumption|rewrite !app_assoc; apply Permutation_app_tail, Permutation_app_comm|eapply Permutation_trans; eassumption].
Qed.

Section Year.
Variables (doys : list nat) (values : series) (d k : nat).
Notation T := (length doys).
Notation doy t := (nth t doys 0).
Hypothesis (len : length values = T) (Dk : k < d) (Dl : d + k <= 366).
(** steps around a step of day d carry the neighbouring days *)
Hypothesis H1 : forall t t', t < T -> doy t = d -> t' < T -> t' <= t + k -> t <= t' + k -> doy t' + t = d + t'.
(** every step of a day within k of d has its step of day d in the record *)
Hypothesis H2 : forall t', t' < T -> d <= doy t' + k -> doy t' <= d + k -> exists t, t < T /\ doy t = d /\ doy t' + t = d + t'.

Definition exact_steps : list nat := flat_map (fun t => if Nat.eqb (doy t) d then filter (fun t' => Nat.leb t' (t + k) && Nat.leb t (t' + k)) (seq 0 T) else []) (seq 0 T).
Definition pooled_steps : list nat := flat_map (fun e => filter (fun t => Nat.eqb (doy t) e) (seq 0 T)) (days_near d k).

Lemma days_inside e : In e (days_near d k) <-> d <= e + k /\ e <= d + k.
Proof.
  unfold days_near, around. rewrite in_map_iff. split.
  - intros (c & <- & C). apply in_map_iff in C. destruct C as (j & <- & J). apply in_seq in J. rewrite Z.mod_small by lia. lia.
  - intros (A & B). exists (e - 1). split; [lia|]. apply in_map_iff. exists (e + k - d). rewrite in_seq. split; [rewrite Z.mod_small by lia; lia|lia].
Qed.
Lemma days_NoDup : NoDup (days_near d k).
Proof.
  unfold days_near, around. rewrite map_map. apply NoDup_map_inj; [|apply seq_NoDup]. intros i j I J E. apply in_seq in I, J. rewrite !Z.mod_small in E by lia. lia.
Qed.
Lemma steps_perm : Permutation exact_steps pooled_steps.
Proof.
  apply NoDup_Permutation.
  - apply NoDup_flat; [apply seq_NoDup| |].
    + intros t _. destruct (Nat.eqb (doy t) d); [apply NoDup_filter, seq_NoDup|constructor].
    + intros t u b I J B C. apply in_seq in I, J. destruct (Nat.eqb_spec (doy t) d); [|destruct B]. destruct (Nat.eqb_spec (doy u) d); [|destruct C].
      apply filter_In in B, C. rewrite in_seq, andb_true_iff, !Nat.leb_le in B, C.
      assert (X := H1 t b ltac:(lia) e ltac:(lia) ltac:(lia) ltac:(lia)). assert (Y := H1 u b ltac:(lia) e0 ltac:(lia) ltac:(lia) ltac:(lia)). lia.
  - apply NoDup_flat; [apply days_NoDup|intros; apply NoDup_filter, seq_NoDup|]. intros e f b _ _ B C. apply filter_In in B, C. rewrite Nat.eqb_eq in B, C. lia.
  - intro t'. unfold exact_steps, pooled_steps. rewrite !in_flat_map. split.
    + intros (t & I & B). apply in_seq in I. destruct (Nat.eqb_spec (doy t) d); [|destruct B]. apply filter_In in B. rewrite in_seq, andb_true_iff, !Nat.leb_le in B.
      assert (X := H1 t t' ltac:(lia) e ltac:(lia) ltac:(lia) ltac:(lia)). exists (doy t'). split; [apply days_inside; lia|]. apply filter_In. rewrite in_seq, Nat.eqb_eq. lia.
    + intros (e & I & B). apply days_inside in I. apply filter_In in B. rewrite in_seq, Nat.eqb_eq in B. destruct B as (B & <-).
      destruct (H2 t' ltac:(lia) ltac:(lia) ltac:(lia)) as (t & A & C & X). exists t. rewrite in_seq. split; [lia|]. rewrite C, Nat.eqb_refl. apply filter_In. rewrite in_seq, andb_true_iff, !Nat.leb_le. lia.
Qed.

Lemma window_present t : t < T -> present (window_values (2 * k + 1) values t) = flat_map (fun t' => one (nth t' values None)) (filter (fun t' => Nat.leb t' (t + k) && Nat.leb t (t' + k)) (seq 0 T)).
Proof using len.
  clear H1 H2 Dk Dl.
  intro Ht. rewrite present_one. unfold window_values. rewrite half_odd. rewrite flat_map_concat_map, map_map, <- flat_map_concat_map.
  (* drop the positions outside the record *)
  transitivity (flat_map (fun j => one (nth (t + j - k) values None)) (filter (fun j => Nat.leb k (t + j) && Nat.ltb (t + j - k) T) (seq 0 (2 * k + 1)))).
  - induction (seq 0 (2 * k + 1)) as [|j l IH]; [reflexivity|]. cbn [flat_map filter]. rewrite IH. destruct (Nat.ltb_spec (t + j) k), (Nat.leb_spec k (t + j)); try lia; cbn [andb]; [reflexivity|].
    destruct (Nat.ltb_spec (t + j - k) T); [reflexivity|]. rewrite nth_overflow by lia. reflexivity.
  - assert (E : filter (fun t' => Nat.leb t' (t + k) && Nat.leb t (t' + k)) (seq 0 T) = map (fun j => t + j - k) (filter (fun j => Nat.leb k (t + j) && Nat.ltb (t + j - k) T) (seq 0 (2 * k + 1)))).
    { transitivity (filter (fun t' => Nat.leb (t - k) t' && Nat.leb t' (Nat.min (t + k) (T - 1))) (seq 0 T)).
      - apply filter_ext_in. intros j J. apply in_seq in J. destruct (Nat.leb_spec j (t + k)), (Nat.leb_spec t (j + k)), (Nat.leb_spec (t - k) j), (Nat.leb_spec j (Nat.min (t + k) (T - 1))); cbn; lia.
      - rewrite filter_interval by lia. transitivity (map (fun j => t + j - k) (filter (fun j => Nat.leb (k - t) j && Nat.leb j (Nat.min (t + k) (T - 1) + k - t)) (seq 0 (2 * k + 1)))).
        + rewrite filter_interval by lia. rewrite (seq_offset (k - t)), map_map, (seq_offset (t - k)). replace (S (Nat.min (t + k) (T - 1)) - (t - k)) with (S (Nat.min (t + k) (T - 1) + k - t) - (k - t)) by lia. apply map_ext_in. intros j J. lia.
        + f_equal. apply filter_ext_in. intros j J. apply in_seq in J. destruct (Nat.leb_spec k (t + j)), (Nat.ltb_spec (t + j - k) T), (Nat.leb_spec (k - t) j), (Nat.leb_spec j (Nat.min (t + k) (T - 1) + k - t)); cbn; lia. }
    rewrite E, flat_map_concat_map, flat_map_concat_map, map_map. reflexivity.
Qed.

Lemma exact_sample : present (flat_map (fun t => if Nat.eqb (doy t) d then window_values (2 * k + 1) values t else []) (seq 0 T)) = flat_map (fun t' => one (nth t' values None)) exact_steps.
Proof using len.
  clear H1 H2 Dk Dl.
  rewrite present_one, flat_map_flat_map. unfold exact_steps. rewrite flat_map_flat_map. apply flat_map_ext_in. intros t I. apply in_seq in I. destruct (Nat.eqb (doy t) d); [|reflexivity].
  rewrite <- present_one. apply window_present. lia.
Qed.
Lemma pooled_sample_steps : pooled_sample 1 1 doys (fun t _ => nth t values None) None k 0 0 d = flat_map (fun t' => one (nth t' values None)) pooled_steps.
Proof.
  unfold pooled_sample, pooled_steps. cbn [flat_map]. rewrite !app_nil_r, flat_map_flat_map. apply flat_map_ext_in. intros e _. unfold values_on.
  induction (seq 0 T) as [|t l IH]; [reflexivity|]. cbn [flat_map filter]. rewrite IH. destruct (Nat.eqb (doy t) e); reflexivity.
Qed.
Theorem same_sample q : exists s, exact_day_threshold q (2 * k + 1) doys values d = quantile q s /\ Permutation s (pooled_sample 1 1 doys (fun t _ => nth t values None) None k 0 0 d).
Proof. eexists. split; [reflexivity|]. rewrite exact_sample, pooled_sample_steps. apply flat_perm, steps_perm. Qed.
End Year.
