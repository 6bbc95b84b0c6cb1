(** Proofs for StandardisedProps.v. *)
From Coq Require Import String Qround Lqa.
From Verif Require Import Base Filter FilterProofs FilterMoreProofs Overlap OverlapProofs Partition PartitionProofs Cluster ClusterProofs ClusterFinal Detect DetectProofs DetectProps
  Climatology ClimatologySpec ClimatologyProofs Detrend DetrendSpec DetrendProofs Histogram HistogramProofs DetectRun DetectRunSpec DetectRunProofs ScaleProofs Standardised.
Open Scope nat_scope.

(** ** Labels of the table *)
Lemma has_duplicates_spec l : has_duplicates l = false <-> NoDup l.
Proof.
  induction l as [|x r IH]; [split; [constructor|reflexivity]|]. cbn. rewrite orb_false_iff, IH. split.
  - intros [A B]. constructor; [|exact B]. intro I. assert (existsb (Nat.eqb x) r = true) by (apply existsb_exists; exists x; split; [exact I|apply Nat.eqb_refl]). congruence.
  - intro N. inversion N; subst. split; [|assumption]. destruct (existsb (Nat.eqb x) r) eqn:E; [exfalso|reflexivity]. apply existsb_exists in E. destruct E as (y & Iy & Ey). apply Nat.eqb_eq in Ey. subst y. auto.
Qed.
Lemma labels_all doys data : (forall d, 1 <= d <= 366 -> In d doys) -> map fst (std_table doys data) = seq 1 366.
Proof.
  intro H. assert (L : length (days_present doys) = 366) by (rewrite (days_all _ H), seq_length; reflexivity).
  apply (nth_ext _ _ 0 0); [rewrite map_length, std_table_length, seq_length, L; reflexivity|].
  intros i I. rewrite map_length, std_table_length, L in I. change (Nat.min 366 (366 + 16)) with 366 in I.
  rewrite (nth_map_gen _ _ i (0, None)) by (rewrite std_table_length, L; exact I). rewrite std_table_nth by lia. cbn [fst].
  rewrite L, (days_all _ H). unfold wrap_index. change (Z.of_nat 0) with 0%Z. rewrite Z.sub_0_r. rewrite Z.mod_small by lia. rewrite Nat2Z.id. reflexivity.
Qed.
Lemma no_repeat (l : list (nat * option Q)) (d : nat * option Q) i j : NoDup (map fst l) -> i < j < length l -> fst (nth i l d) = fst (nth j l d) -> False.
Proof.
  intros N Ij E. assert (X := proj1 (NoDup_nth (map fst l) 0) N i j). rewrite map_length in X. rewrite !(nth_map_gen fst l _ d) in X by lia.
  specialize (X ltac:(lia) ltac:(lia) E). lia.
Qed.
Lemma days_missing doys d : 1 <= d <= 366 -> ~ In d doys -> length (days_present doys) < 366.
Proof.
  intros D N. unfold days_present. rewrite <- (seq_length 366 1) at 2. apply (filter_short _ _ d); [apply in_seq; lia|].
  destruct (existsb (Nat.eqb d) doys) eqn:E; [exfalso|reflexivity]. apply existsb_exists in E. destruct E as (e & Ie & Ee). apply Nat.eqb_eq in Ee. subst e. exact (N Ie).
Qed.
Lemma days_some doys : doys <> [] -> (forall d, In d doys -> 1 <= d <= 366) -> 0 < length (days_present doys).
Proof.
  intros Ne R. destruct doys as [|e l]; [congruence|]. assert (J : In e (days_present (e :: l))) by (apply days_present_In; split; [apply R; left; reflexivity|left; reflexivity]).
  destruct (days_present (e :: l)); [destruct J|cbn; lia].
Qed.
Lemma duplicates_all doys : (forall d, 1 <= d <= 366 -> In d doys) -> NoDup (std_labels doys).
Proof. intro H. unfold std_labels. rewrite labels_all by exact H. apply seq_NoDup. Qed.
Lemma repeat_core (tb : list (nat * option Q)) : (exists i j, i < j < length tb /\ fst (nth i tb (0, None)) = fst (nth j tb (0, None))) -> ~ NoDup (map fst tb).
Proof. intros (i & j & Ij & E) H. exact (no_repeat tb (0, None) i j H Ij E). Qed.
Lemma duplicates_some doys d : doys <> [] -> (forall d, In d doys -> 1 <= d <= 366) -> 1 <= d <= 366 -> ~ In d doys -> ~ NoDup (std_labels doys).
Proof.
  intros Ne R D N. assert (A := days_some doys Ne R). assert (B := days_missing doys d D N). unfold std_labels.
  apply repeat_core. apply duplicate_labels. split; assumption.
Qed.
Lemma duplicates_iff doys : doys <> [] -> (forall d, In d doys -> 1 <= d <= 366) ->
  (has_duplicates (std_labels doys) = false <-> forall d, 1 <= d <= 366 -> In d doys).
Proof.
  intros Ne R. rewrite has_duplicates_spec. split.
  - intros H d D. destruct (in_dec Nat.eq_dec d doys) as [I|N]; [exact I|exfalso]. exact (duplicates_some doys d Ne R D N H).
  - apply duplicates_all.
Qed.

Lemma find_label {A} (l : list (nat * A)) (d0 : nat * A) a n day : map fst l = seq a n -> a <= day < a + n ->
  find (fun row => Nat.eqb (fst row) day) l = Some (nth (day - a) l d0).
Proof.
  revert l a. induction n as [|n IH]; intros l a M D; [lia|]. destruct l as [|x l]; [discriminate|]. cbn in M. injection M as Mx Ml. cbn [find].
  destruct (Nat.eqb_spec (fst x) day) as [E|E]; [replace (day - a) with 0 by lia; reflexivity|].
  rewrite (IH l (S a)) by (auto; lia). replace (day - a) with (S (day - S a)) by lia. reflexivity.
Qed.
Lemma rolling_std_eq root doys data day : (forall d, 1 <= d <= 366 -> In d doys) -> 1 <= day <= 366 ->
  rolling_std root doys data day = option_map root (snd (nth (day - 1) (std_table doys data) (0, None))).
Proof.
  intros H D. unfold rolling_std. rewrite (find_label _ (0, None) 1 366) by (auto using labels_all; lia).
  destruct (nth (day - 1) (std_table doys data) (0, None)) as [a [v|]]; reflexivity.
Qed.
Lemma standardise_length root doys data : length doys = length data -> length (standardise root doys data) = length data.
Proof. intro L. unfold standardise. rewrite map_length, combine_length. lia. Qed.
Lemma standardise_nth root doys data t : length doys = length data -> t < length data ->
  nth t (standardise root doys data) None = odiv (nth t data None) (rolling_std root doys data (nth t doys 0)).
Proof.
  intros L T. unfold standardise. rewrite (nth_map_gen _ _ t (0, None)) by (rewrite combine_length; lia). rewrite combine_nth by exact L. reflexivity.
Qed.

(** ** Scaled data *)
Lemma square_scal k m m' l l' : (m' == k * m)%Q -> Forall2 (scal k) l l' ->
  Forall2 (scal (k * k)) (map (fun v => match v with Some x => Some ((x - m) * (x - m))%Q | None => None end) l)
    (map (fun v => match v with Some x => Some ((x - m') * (x - m'))%Q | None => None end) l').
Proof.
  intros M. induction 1 as [|a b l l' R H IH]; [constructor|]. cbn. constructor; [|exact IH]. destruct a, b; cbn in *; try contradiction; auto. rewrite R, M. ring.
Qed.
Lemma variance_scal k l l' : Forall2 (scal k) l l' -> scal (k * k) (variance l) (variance l').
Proof.
  intro H. unfold variance. assert (M := nanmean_scal k l l' H). destruct (nanmean l) as [m|], (nanmean l') as [m'|]; cbn in M; try contradiction; [|exact Logic.I].
  apply nanmean_scal, square_scal; assumption.
Qed.
Lemma filter_Forall2 {A B} (R : A -> B -> Prop) P P' a b : (forall x y, R x y -> P x = P' y) -> Forall2 R a b -> Forall2 R (filter P a) (filter P' b).
Proof. intros E H. induction H as [|x y a b Hx H IH]; [constructor|]. cbn. rewrite <- (E x y Hx). destruct (P x); [constructor|]; auto. Qed.
Lemma map_Forall2 {A B C D} (R : A -> B -> Prop) (S : C -> D -> Prop) f g a b : (forall x y, R x y -> S (f x) (g y)) -> Forall2 R a b -> Forall2 S (map f a) (map g b).
Proof. intros E H. induction H; cbn; constructor; auto. Qed.
Lemma day_variance_scal k doys a b d : Forall2 (scal k) a b -> scal (k * k) (day_variance doys a d) (day_variance doys b d).
Proof.
  intro H. unfold day_variance. apply variance_scal. apply (map_Forall2 (fun x y : nat * option Q => fst x = fst y /\ scal k (snd x) (snd y))); [intros x y [_ E]; exact E|].
  apply filter_Forall2; [intros x y [E _]; rewrite E; reflexivity|]. apply combine_Forall2. exact H.
Qed.
Lemma std_table_scal k doys a b : Forall2 (scal k) a b -> forall i, i < 366 -> 0 < length (days_present doys) -> i < length (days_present doys) + 16 ->
  scal (k * k) (snd (nth i (std_table doys a) (0, None))) (snd (nth i (std_table doys b) (0, None))).
Proof.
  intros H i I Pos J. rewrite !std_table_nth by assumption. cbn [snd].
  apply rolling_mean_scal; rewrite ?wrap_pad_length, ?map_length; try lia. intros j Jj.
  rewrite !wrap_pad_nth by (rewrite map_length; lia). rewrite !map_length.
  destruct (Nat.lt_ge_cases (wrap_index (length (days_present doys)) 16 j) (length (days_present doys))) as [W|W].
  - rewrite !(nth_map_gen _ (days_present doys) _ 0) by exact W. apply day_variance_scal. exact H.
  - rewrite !nth_overflow by (rewrite map_length; lia). exact Logic.I.
Qed.
Lemma odiv_scal k a b s s' : (0 < k)%Q -> scal k a b -> scal k s s' ->
  (match s, s' with Some x, Some y => (smallest_std < x)%Q <-> (smallest_std < y)%Q | _, _ => True end) -> same (odiv a s) (odiv b s').
Proof.
  intros K A B C. destruct a as [x|], b as [y|]; cbn in A; try contradiction; [|destruct s, s'; exact Logic.I].
  destruct s as [u|], s' as [v|]; cbn in B; try contradiction; [|exact Logic.I]. cbn [odiv].
  destruct (Qltb smallest_std u) eqn:E1, (Qltb smallest_std v) eqn:E2; try exact Logic.I.
  - apply Qltb_spec in E1. cbn. rewrite A, B.
    assert (P : (0 < u)%Q) by (apply (Qlt_trans _ smallest_std); [reflexivity|exact E1]). field. split; intro Z0; [rewrite Z0 in P|rewrite Z0 in K]; exact (Qlt_irrefl _ ltac:(eassumption)).
  - exfalso. apply Qltb_spec in E1. apply C in E1. apply Qltb_spec in E1. congruence.
  - exfalso. apply Qltb_spec in E2. apply C in E2. apply Qltb_spec in E2. congruence.
Qed.
Definition crossing (s s' : option Q) : Prop :=
  match s, s' with Some x, Some y => (smallest_std < x)%Q <-> (smallest_std < y)%Q | _, _ => True end.
Lemma quotients_same k (f g : nat -> option Q) doys a b : (0 < k)%Q -> length doys = length a -> Forall2 (scal k) a b ->
  (forall t, t < length a -> scal k (f (nth t doys 0)) (g (nth t doys 0)) /\ crossing (f (nth t doys 0)) (g (nth t doys 0))) ->
  Forall2 same (map (fun p => odiv (snd p) (f (fst p))) (combine doys a)) (map (fun p => odiv (snd p) (g (fst p))) (combine doys b)).
Proof.
  intros K L F. revert doys L. induction F as [|x y a b R F IH]; intros [|d doys] L H; try discriminate; cbn; constructor.
  - destruct (H 0 ltac:(cbn; lia)) as [A B]. cbn [nth] in A, B. apply (odiv_scal k); assumption.
  - apply IH; [cbn in L; lia|]. intros t T. exact (H (S t) ltac:(cbn; lia)).
Qed.
Lemma standardise_same root k doys a b : (0 < k)%Q -> length doys = length a -> Forall2 (scal k) a b ->
  (forall t, t < length a -> scal k (rolling_std root doys a (nth t doys 0)) (rolling_std root doys b (nth t doys 0)) /\
     crossing (rolling_std root doys a (nth t doys 0)) (rolling_std root doys b (nth t doys 0))) ->
  Forall2 same (standardise root doys a) (standardise root doys b).
Proof. intros K L F H. unfold standardise. apply (quotients_same k); assumption. Qed.
Lemma crossing_intro s s' : (forall u v, s = Some u -> s' = Some v -> ((1 # 10000000000) < u <-> (1 # 10000000000) < v)%Q) -> crossing s s'.
Proof. destruct s as [u|], s' as [v|]; cbn; try tauto. intro H. apply H; reflexivity. Qed.
