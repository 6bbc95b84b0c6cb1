(** Proofs about climatologies. *)
From Coq Require Import Lqa Sorted.
From Verif Require Import Base Filter FilterProofs Overlap OverlapProofs Partition PartitionProofs Cluster ClusterProofs ClusterFinal Detect DetectProofs Climatology ClimatologySpec.
Open Scope nat_scope.

Lemma sum_sumQ l : sum l = sumQ l.
Proof. induction l as [|x l IH]; [reflexivity|]. cbn. rewrite IH. reflexivity. Qed.
Lemma natQ_nonzero n : 0 < n -> ~ (natQ n == 0)%Q.
Proof. intros H E. assert (P := natQ_pos n H). rewrite E in P. apply (Qlt_irrefl 0 P). Qed.

Lemma nanmean_mean l : mean_of (present l) (nanmean l).
Proof.
  unfold nanmean. destruct (present l) as [|x p] eqn:E; [reflexivity|]. split; [discriminate|].
  change sum with sumQ. change (inject_Z (Z.of_nat (length (x :: p)))) with (natQ (length (x :: p))).
  field. apply natQ_nonzero. cbn. lia.
Qed.
Lemma nanmean_present a b : present a = present b -> nanmean a = nanmean b.
Proof. unfold nanmean. intros ->. reflexivity. Qed.

Lemma present_flat {A} (f : A -> option Q) (P : A -> bool) l :
  present (map f (filter P l)) = flat_map (fun x => if P x then match f x with Some q => [q] | None => [] end else []) l.
Proof.
  induction l as [|x l IH]; [reflexivity|]. cbn [filter flat_map]. destruct (P x); [|exact IH].
  cbn [map]. unfold present in *. cbn [flat_map]. rewrite IH. reflexivity.
Qed.

Lemma flat_map_flat_map {A B C} (f : A -> list B) (g : B -> list C) l : flat_map g (flat_map f l) = flat_map (fun x => flat_map g (f x)) l.
Proof. induction l as [|x l IH]; [reflexivity|]. cbn. rewrite flat_map_app, IH. reflexivity. Qed.
Lemma flat_map_ext_in {A B} (f g : A -> list B) l : (forall x, In x l -> f x = g x) -> flat_map f l = flat_map g l.
Proof. induction l as [|x l IH]; intro H; [reflexivity|]. cbn. rewrite (H x), IH; auto; [intros; apply H; right; assumption|left; reflexivity]. Qed.
Lemma flat_map_none {A B} (f : A -> list B) l : (forall x, In x l -> f x = []) -> flat_map f l = [].
Proof. induction l as [|x l IH]; intro H; [reflexivity|]. cbn. rewrite (H x), IH; auto; [intros; apply H; right; assumption|left; reflexivity]. Qed.
Lemma flat_map_one {B} (f : Z -> list B) l y : NoDup l -> (forall x, In x l -> x <> y -> f x = []) -> flat_map f l = if memZ y l then f y else [].
Proof.
  induction l as [|x l IH]; intros ND H; [reflexivity|]. inversion ND as [|? ? Nx ND']; subst. cbn [flat_map memZ existsb].
  destruct (Z.eqb_spec y x) as [->|N]; cbn [orb].
  - rewrite (flat_map_none f l); [apply app_nil_r|]. intros z Z0. apply H; [right; exact Z0|]. intros ->. exact (Nx Z0).
  - rewrite (H x) by (auto; left; reflexivity). cbn. apply IH; [exact ND'|]. intros z Z0. apply H. right. exact Z0.
Qed.

Lemma combine_seq {A} (d : A) l : combine (seq 0 (length l)) l = map (fun t => (t, nth t l d)) (seq 0 (length l)).
Proof.
  assert (G : forall p, combine (seq (length p) (length l)) l = map (fun t => (t, nth t (p ++ l) d)) (seq (length p) (length l))).
  { induction l as [|x l IH]; intro p; [reflexivity|]. cbn [length seq combine map].
    rewrite app_nth2, Nat.sub_diag by lia. f_equal. specialize (IH (p ++ [x])). rewrite app_length, <- app_assoc in IH. cbn in IH. rewrite Nat.add_1_r in IH. exact IH. }
  apply (G []).
Qed.
Lemma combine_years years (doys : list nat) : length doys = length years ->
  combine (seq 0 (length years)) (combine years doys) = map (fun t => (t, (nth t years 0%Z, nth t doys 0))) (seq 0 (length years)).
Proof.
  intro L. assert (Lc : length (combine years doys) = length years) by (rewrite combine_length; lia). rewrite <- Lc.
  rewrite (combine_seq (0%Z, 0)). apply map_ext. intro t. rewrite combine_nth by auto. reflexivity.
Qed.

Definition in_window (w : Z) (years : list Z) (doys : list nat) (target : Z) (d t : nat) : bool :=
  Nat.eqb (nth t doys 0) d && (Z.ltb (nth t years 0%Z) target && Z.leb target (nth t years 0%Z + w)).

Lemma minZ_unique years : years <> [] -> minZ (unique_codes years) = minZ years.
Proof.
  intro Ne. assert (Nu : unique_codes years <> []).
  { destruct years as [|y r]; [congruence|]. intro E. assert (I : In y (unique_codes (y :: r))) by (apply unique_codes_In; left; reflexivity). rewrite E in I. destruct I. }
  destruct (minZ_spec years Ne) as [I1 L1]. destruct (minZ_spec _ Nu) as [I2 L2].
  apply (proj1 (unique_codes_In _ _)) in I2. assert (A := L1 _ I2). assert (B := L2 _ (proj2 (unique_codes_In years _) I1)). lia.
Qed.

Lemma group_samples w years doys data target d : length doys = length years -> length data = length years -> In target years ->
  climatology_group w years doys data target d =
  if Z.leb (minZ years + w) target
  then nanmean (map (fun t => nth t data None) (filter (in_window w years doys target d) (seq 0 (length years)))) else None.
Proof.
  intros L1 L2 I. assert (Ne : years <> []) by (intros ->; destruct I). unfold climatology_group.
  assert (G : present (map (fun c => nth (fst (fst c)) data None)
      (filter (fun c : nat * Z * nat => Z.eqb (snd (fst c)) target && Nat.eqb (snd c) d) (contributions w years doys))) =
    if Z.leb (minZ years + w) target
    then present (map (fun t => nth t data None) (filter (in_window w years doys target d) (seq 0 (length years)))) else []).
  { rewrite present_flat. unfold contributions. rewrite combine_years by exact L1. rewrite minZ_unique by exact Ne.
    rewrite flat_map_flat_map. rewrite present_flat.
    assert (St : forall t, flat_map (fun x : nat * Z * nat => if Z.eqb (snd (fst x)) target && Nat.eqb (snd x) d then match nth (fst (fst x)) data None with Some q => [q] | None => [] end else [])
        (map (fun tg => (t, tg, nth t doys 0)) (filter (fun u => Z.leb (minZ years + w) u)
           (filter (fun u => Z.ltb (nth t years 0%Z) u && Z.leb u (nth t years 0%Z + w)) (unique_codes years)))) =
      if Z.leb (minZ years + w) target && in_window w years doys target d t then match nth t data None with Some q => [q] | None => [] end else []).
    { intro t. rewrite flat_map_concat_map, map_map, <- flat_map_concat_map. cbn [fst snd].
      set (P := fun u => Z.ltb (nth t years 0%Z) u && Z.leb u (nth t years 0%Z + w)). set (R := fun u => Z.leb (minZ years + w) u).
      rewrite (flat_map_one _ _ target).
      - rewrite Z.eqb_refl. cbn [andb]. unfold in_window.
        destruct (memZ target (filter R (filter P (unique_codes years)))) eqn:M.
        + apply memZ_In in M. apply filter_In in M. destruct M as [M Hr]. apply filter_In in M. destruct M as [_ Hp]. unfold R in Hr. unfold P in Hp. change (R target) with (Z.leb (minZ years + w) target). rewrite Hr, Hp.
          rewrite andb_true_r. reflexivity.
        + change (R target) with (Z.leb (minZ years + w) target). destruct (Z.leb (minZ years + w) target) eqn:Hr; [|reflexivity]. destruct (Z.ltb (nth t years 0%Z) target && Z.leb target (nth t years 0%Z + w)) eqn:Hp.
          * exfalso. apply memZ_false in M. apply M. apply filter_In. split; [|exact Hr]. apply filter_In. split; [apply unique_codes_In; exact I|exact Hp].
          * rewrite andb_false_r. reflexivity.
      - apply NoDup_filter, NoDup_filter, unique_codes_NoDup.
      - intros u _ N. apply Z.eqb_neq in N. rewrite N. reflexivity. }
    rewrite flat_map_concat_map, map_map, <- flat_map_concat_map. cbn [fst snd].
    destruct (Z.leb (minZ years + w) target) eqn:Hr.
    - apply flat_map_ext_in. intros t _. rewrite St. reflexivity.
    - apply flat_map_none. intros t _. rewrite St. reflexivity. }
  destruct (Z.leb (minZ years + w) target).
  - apply nanmean_present. exact G.
  - unfold nanmean. rewrite G. reflexivity.
Qed.

Lemma rolling_nth w years doys data t : length doys = length years -> length data = length years -> t < length years ->
  1 <= nth t doys 0 <= 366 ->
  nth t (rolling_climatology w years doys data) None =
  if Z.leb (minZ years + w) (nth t years 0%Z)
  then nanmean (map (fun i => nth i data None) (filter (in_window w years doys (nth t years 0%Z) (nth t doys 0)) (seq 0 (length years)))) else None.
Proof.
  intros L1 L2 T D. unfold rolling_climatology.
  rewrite (nth_map_gen _ (combine years doys) t (0%Z, 0)) by (rewrite combine_length; lia). rewrite combine_nth by auto. cbn [fst snd].
  assert (I : In (nth t years 0%Z) years) by (apply nth_In; exact T).
  assert (Iu : In (nth t years 0%Z) (unique_codes years)) by (apply unique_codes_In; exact I).
  rewrite (nth_map_gen _ (unique_codes years) _ 0%Z) by (apply index_ofZ_lt; exact Iu).
  rewrite nth_index_ofZ by exact Iu. rewrite (nth_map_gen _ (seq 1 366) _ 0) by (rewrite seq_length; lia). rewrite seq_nth by lia.
  replace (1 + (nth t doys 0 - 1)) with (nth t doys 0) by lia. apply group_samples; assumption.
Qed.

Lemma present_samples data P : present (map (fun i => nth i data None) (filter P (seq 0 (length data)))) = samples data P.
Proof. apply present_flat. Qed.
Lemma rolling_length w years doys data : length doys = length years -> length (rolling_climatology w years doys data) = length years.
Proof. intro L. unfold rolling_climatology. rewrite map_length, combine_length. lia. Qed.

(** Smoothing. *)
Lemma rolling_mean_length W data : length (rolling_mean W data) = length data.
Proof. unfold rolling_mean. rewrite map_length, seq_length. reflexivity. Qed.
Lemma rolling_mean_nth W data i : i < length data -> nth i (rolling_mean W data) None =
  if Nat.leb (W / 2) i && Nat.ltb (i + (W - 1 - W / 2)) (length data)
  then let win := map (fun k => nth (i - W / 2 + k) data None) (seq 0 W) in
       if forallb (fun v => match v with Some _ => true | None => false end) win then Some (sumQ (present win) / natQ W)%Q else None
  else None.
Proof. intro I. unfold rolling_mean. rewrite (nth_map_gen _ _ _ 0) by (rewrite seq_length; exact I). rewrite seq_nth by exact I. reflexivity. Qed.

Lemma rolling_mean_agree W a b i : length a = length b -> i < length a ->
  (forall k, k <= i + (W - 1 - W / 2) -> nth k a None = nth k b None) -> 0 < W ->
  nth i (rolling_mean W a) None = nth i (rolling_mean W b) None.
Proof.
  intros L I E Wp. rewrite !rolling_mean_nth by lia. rewrite <- L.
  destruct (Nat.leb_spec (W / 2) i); [|reflexivity]. destruct (Nat.ltb_spec (i + (W - 1 - W / 2)) (length a)); [|reflexivity]. cbn [andb]. cbv zeta.
  assert (Dv : W / 2 < W) by (apply Nat.div_lt; lia).
  replace (map (fun k => nth (i - W / 2 + k) b None) (seq 0 W)) with (map (fun k => nth (i - W / 2 + k) a None) (seq 0 W)); [reflexivity|].
  apply map_ext_in. intros k K. apply in_seq in K. apply E. lia.
Qed.

(** Fixed baseline. *)
Lemma combine_nth_lists (doys : list nat) (data : list (option Q)) : length doys = length data ->
  combine doys data = map (fun i => (nth i doys 0, nth i data None)) (seq 0 (length data)).
Proof.
  intro L. apply (nth_ext _ _ (0, None) (0, None)).
  - rewrite combine_length, map_length, seq_length. lia.
  - intros n N. rewrite combine_length in N. rewrite combine_nth by exact L.
    rewrite (nth_map_gen _ _ _ 0) by (rewrite seq_length; lia). rewrite seq_nth by lia. reflexivity.
Qed.
Lemma filter_map_comm {A B} (f : A -> B) P l : filter P (map f l) = map f (filter (fun x => P (f x)) l).
Proof. induction l as [|x l IH]; [reflexivity|]. cbn. destruct (P (f x)); cbn; rewrite IH; reflexivity. Qed.
Lemma daily_samples doys data d : length doys = length data ->
  daily_climatology doys data d = nanmean (map (fun i => nth i data None) (filter (fun i => Nat.eqb (nth i doys 0) d) (seq 0 (length data)))).
Proof. intro L. unfold daily_climatology. rewrite combine_nth_lists by exact L. rewrite filter_map_comm, map_map. reflexivity. Qed.
Lemma fixed_nth doys data i : length doys = length data -> i < length data ->
  nth i (fixed_baseline doys data) None = osub (nth i data None) (daily_climatology doys data (nth i doys 0)).
Proof. intros L I. unfold fixed_baseline. rewrite (nth_map_gen _ (combine doys data) i (0, None)) by (rewrite combine_length; lia). rewrite combine_nth by exact L. reflexivity. Qed.
Lemma fixed_length doys data : length doys = length data -> length (fixed_baseline doys data) = length data.
Proof. intro L. unfold fixed_baseline. rewrite map_length, combine_length. lia. Qed.

Lemma flat_map_map_in {A B C} (f : A -> list B) (g : A -> list C) (h : B -> C) l : (forall x, In x l -> g x = map h (f x)) -> flat_map g l = map h (flat_map f l).
Proof. induction l as [|x l IH]; intro H; [reflexivity|]. cbn. rewrite map_app, (H x), IH; auto; [intros; apply H; right; assumption|left; reflexivity]. Qed.

Lemma sumQ_sub m l : (sumQ (map (fun x => x - m) l) == sumQ l - m * natQ (length l))%Q.
Proof.
  induction l as [|x l IH]; cbn [map sumQ length]; [change (natQ 0) with 0%Q; ring|]. rewrite IH. unfold natQ. rewrite Nat2Z.inj_succ. unfold Z.succ. rewrite inject_Z_plus.
  change (inject_Z 1) with 1%Q. ring.
Qed.

(** The available anomalies of a day are the data minus the mean. *)
Lemma fixed_samples doys data d m : length doys = length data -> daily_climatology doys data d = Some m ->
  samples (fixed_baseline doys data) (fun i => Nat.eqb (nth i doys 0) d) = map (fun x => x - m)%Q (samples data (fun i => Nat.eqb (nth i doys 0) d)).
Proof.
  intros L Dm. unfold samples. rewrite fixed_length by exact L. apply flat_map_map_in. intros i I. apply in_seq in I.
  destruct (Nat.eqb_spec (nth i doys 0) d) as [E|]; [|reflexivity]. rewrite fixed_nth by (auto; lia). rewrite E, Dm. destruct (nth i data None); reflexivity.
Qed.
Lemma fixed_samples_none doys data d : length doys = length data -> daily_climatology doys data d = None ->
  samples (fixed_baseline doys data) (fun i => Nat.eqb (nth i doys 0) d) = [].
Proof.
  intros L Dm. unfold samples. rewrite fixed_length by exact L. apply flat_map_none. intros i I. apply in_seq in I.
  destruct (Nat.eqb_spec (nth i doys 0) d) as [E|]; [|reflexivity]. rewrite fixed_nth by (auto; lia). rewrite E, Dm. destruct (nth i data None); reflexivity.
Qed.
Lemma daily_some doys data i v : length doys = length data -> i < length data -> nth i data None = Some v ->
  exists m, daily_climatology doys data (nth i doys 0) = Some m.
Proof.
  intros L I V. rewrite daily_samples by exact L. unfold nanmean. rewrite present_samples.
  destruct (samples data (fun j => Nat.eqb (nth j doys 0) (nth i doys 0))) as [|x l] eqn:E; [exfalso|eauto].
  assert (J : In v (samples data (fun j => Nat.eqb (nth j doys 0) (nth i doys 0)))).
  { unfold samples. apply in_flat_map. exists i. split; [apply in_seq; lia|]. rewrite Nat.eqb_refl, V. left. reflexivity. }
  rewrite E in J. destruct J.
Qed.

Lemma fixed_zero_sum doys data d : length doys = length data ->
  (sum (samples (fixed_baseline doys data) (fun i => Nat.eqb (nth i doys 0%nat) d)) == 0)%Q.
Proof.
  intro L. change sum with sumQ. destruct (daily_climatology doys data d) as [m|] eqn:E; [|rewrite fixed_samples_none by auto; reflexivity].
  rewrite (fixed_samples doys data d m L E), sumQ_sub.
  assert (M := nanmean_mean (map (fun i => nth i data None) (filter (fun i => Nat.eqb (nth i doys 0) d) (seq 0 (length data))))).
  rewrite <- daily_samples in M by exact L. rewrite E, present_samples in M. destruct M as [_ M]. change sum with sumQ in M. fold (natQ (length (samples data (fun i => Nat.eqb (nth i doys 0) d)))) in M. rewrite M. lra.
Qed.

Lemma fixed_missing doys data i : length doys = length data -> i < length data ->
  (nth i (fixed_baseline doys data) None = None <-> nth i data None = None).
Proof.
  intros L I. rewrite fixed_nth by assumption. split; [|intros ->; reflexivity].
  destruct (nth i data None) as [v|] eqn:V; [|reflexivity]. destruct (daily_some doys data i v L I V) as (m & ->). discriminate.
Qed.

Lemma fixed_twice doys data i : length doys = length data -> i < length data ->
  same (nth i (fixed_baseline doys (fixed_baseline doys data)) None) (nth i (fixed_baseline doys data) None).
Proof.
  intros L I. assert (L2 : length doys = length (fixed_baseline doys data)) by (rewrite fixed_length; auto).
  rewrite (fixed_nth doys (fixed_baseline doys data)) by (auto; rewrite <- L2, L; exact I).
  destruct (nth i (fixed_baseline doys data) None) as [v|] eqn:V; [|cbn; exact Logic.I].
  destruct (daily_some doys _ i v L2 ltac:(lia) V) as (m & M). rewrite M. cbn.
  assert (Mm := nanmean_mean (map (fun i => nth i (fixed_baseline doys data) None) (filter (fun j => Nat.eqb (nth j doys 0) (nth i doys 0)) (seq 0 (length (fixed_baseline doys data)))))).
  rewrite <- daily_samples in Mm by exact L2. rewrite M, present_samples in Mm. destruct Mm as [Ne Mm].
  rewrite fixed_zero_sum in Mm by exact L. destruct (samples (fixed_baseline doys data) (fun j => Nat.eqb (nth j doys 0) (nth i doys 0))) as [|x l]; [congruence|].
  assert (Nz := natQ_nonzero (length (x :: l)) ltac:(cbn; lia)). fold (natQ (length (x :: l))) in Mm.
  apply Qmult_integral in Mm. destruct Mm as [Mm|Mm]; [|contradiction]. rewrite Mm. lra.
Qed.

(** Shifted series. *)
Definition rel (c : Q) (a b : option Q) : Prop :=
  match a, b with Some x, Some y => (y == x + c)%Q | None, None => True | _, _ => False end.
Lemma present_rel c l l' : Forall2 (rel c) l l' -> Forall2 (fun x y => y == x + c)%Q (present l) (present l').
Proof.
  induction 1 as [|a b l l' R H IH]; [constructor|]. unfold present in *. cbn [flat_map].
  destruct a, b; cbn in R; try contradiction; [constructor; assumption|exact IH].
Qed.
Lemma sumQ_rel c l l' : Forall2 (fun x y => y == x + c)%Q l l' -> length l' = length l /\ (sumQ l' == sumQ l + c * natQ (length l))%Q.
Proof.
  induction 1 as [|a b l l' R H [IL IH]]; [split; [reflexivity|]; change (natQ (length (@nil Q))) with 0%Q; cbn; ring|].
  split; [cbn; rewrite IL; reflexivity|]. cbn [sumQ length]. rewrite R, IH. unfold natQ. rewrite Nat2Z.inj_succ. unfold Z.succ. rewrite inject_Z_plus.
  change (inject_Z 1) with 1%Q. ring.
Qed.
Lemma nanmean_rel c l l' : Forall2 (rel c) l l' -> rel c (nanmean l) (nanmean l').
Proof.
  intro H. apply present_rel in H. unfold nanmean. inversion H as [E1 E2|x y p p' R H' E1 E2]; [exact Logic.I|].
  rewrite <- E1, <- E2 in H. destruct (sumQ_rel _ _ _ H) as [L E]. rewrite L. unfold rel. rewrite E. field. apply natQ_nonzero. cbn. lia.
Qed.
Lemma Forall2_map_same {A B C} (R : B -> C -> Prop) (f : A -> B) (g : A -> C) l : (forall x, In x l -> R (f x) (g x)) -> Forall2 R (map f l) (map g l).
Proof. induction l as [|x l IH]; intro H; cbn; constructor; [apply H; left; reflexivity|apply IH; intros; apply H; right; assumption]. Qed.

Lemma rolling_mean_rel c W a b : 0 < W -> length a = length b -> (forall i, i < length a -> rel c (nth i a None) (nth i b None)) ->
  forall i, i < length a -> rel c (nth i (rolling_mean W a) None) (nth i (rolling_mean W b) None).
Proof.
  intros Wp L H i I. rewrite !rolling_mean_nth by lia. rewrite <- L.
  destruct (Nat.leb_spec (W / 2) i); [|exact Logic.I]. destruct (Nat.ltb_spec (i + (W - 1 - W / 2)) (length a)); [|exact Logic.I]. cbn [andb]. cbv zeta.
  assert (Dv : W / 2 < W) by (apply Nat.div_lt; lia).
  assert (F : Forall2 (rel c) (map (fun k => nth (i - W / 2 + k) a None) (seq 0 W)) (map (fun k => nth (i - W / 2 + k) b None) (seq 0 W))).
  { apply Forall2_map_same. intros k K. apply in_seq in K. apply H. lia. }
  assert (Fb : forallb (fun v : option Q => match v with Some _ => true | None => false end) (map (fun k => nth (i - W / 2 + k) a None) (seq 0 W)) =
    forallb (fun v : option Q => match v with Some _ => true | None => false end) (map (fun k => nth (i - W / 2 + k) b None) (seq 0 W))).
  { clear - F. induction F as [|x y l l' R F IH]; [reflexivity|]. cbn. rewrite IH. destruct x, y; cbn in R; try contradiction; reflexivity. }
  rewrite <- Fb. destruct (forallb _ (map (fun k => nth (i - W / 2 + k) a None) (seq 0 W))) eqn:Ea; [|exact Logic.I].
  destruct (sumQ_rel _ _ _ (present_rel _ _ _ F)) as [Lp E].
  assert (Lw : length (present (map (fun k => nth (i - W / 2 + k) a None) (seq 0 W))) = W).
  { transitivity (length (map (fun k => nth (i - W / 2 + k) a None) (seq 0 W))); [|rewrite map_length, seq_length; reflexivity].
    clear - Ea. induction (map (fun k => nth (i - W / 2 + k) a None) (seq 0 W)) as [|x l IH]; [reflexivity|]. cbn in Ea. apply andb_prop in Ea. destruct Ea as [E1 E2].
    destruct x; [|discriminate]. unfold present in *. cbn. rewrite (IH E2). reflexivity. }
  unfold rel. rewrite E, Lw. field. apply natQ_nonzero. exact Wp.
Qed.
Lemma rolling_climatology_rel c w years doys a b : length doys = length years -> length a = length years -> length b = length years ->
  (forall i, i < length years -> 1 <= nth i doys 0 <= 366) -> (forall i, i < length a -> rel c (nth i a None) (nth i b None)) ->
  forall i, i < length years -> rel c (nth i (rolling_climatology w years doys a) None) (nth i (rolling_climatology w years doys b) None).
Proof.
  intros L1 L2 L3 D H i I. rewrite !rolling_nth by auto. destruct (Z.leb _ _); [|exact Logic.I].
  apply nanmean_rel, Forall2_map_same. intros k K. apply filter_In in K. destruct K as [K _]. apply in_seq in K. apply H. lia.
Qed.
Lemma shifting_nth w W years doys data i : length doys = length years -> length data = length years -> i < length data ->
  nth i (shifting_baseline w W years doys data) None = osub (nth i data None) (nth i (smoothed_rolling_climatology w W years doys data) None).
Proof.
  intros L1 L2 I. unfold shifting_baseline. assert (Ls : length data = length (smoothed_rolling_climatology w W years doys data)).
  { unfold smoothed_rolling_climatology. rewrite rolling_length by exact L1. exact L2. }
  rewrite (nth_map_gen _ (combine data _) i (None, None)) by (rewrite combine_length; lia). rewrite combine_nth by exact Ls. reflexivity.
Qed.
Lemma osub_rel c a a' b b' : rel c a a' -> rel c b b' -> same (osub a' b') (osub a b).
Proof. destruct a, a', b, b'; cbn; intros H1 H2; try contradiction; try exact Logic.I. rewrite H1, H2. ring. Qed.
Lemma shifting_constant c w W years doys a b : 0 < W -> length doys = length years -> length a = length years -> length b = length years ->
  (forall i, i < length years -> 1 <= nth i doys 0 <= 366) -> (forall i, i < length years -> rel c (nth i a None) (nth i b None)) ->
  forall i, i < length years -> same (nth i (shifting_baseline w W years doys b) None) (nth i (shifting_baseline w W years doys a) None).
Proof.
  intros Wp L1 L2 L3 D H i I. rewrite !shifting_nth by (auto; lia). apply (osub_rel c); [apply H; exact I|].
  unfold smoothed_rolling_climatology. apply rolling_climatology_rel; auto; [rewrite rolling_mean_length; exact L2|rewrite rolling_mean_length; exact L3|].
  rewrite rolling_mean_length. apply rolling_mean_rel; [exact Wp|lia|]. intros j J. apply H. lia.
Qed.
Lemma fixed_seasonal (s : nat -> Q) doys a b : length doys = length a -> length b = length a ->
  (forall i, i < length a -> rel (s (nth i doys 0)) (nth i a None) (nth i b None)) ->
  forall i, i < length a -> same (nth i (fixed_baseline doys b) None) (nth i (fixed_baseline doys a) None).
Proof.
  intros L1 L2 H i I. rewrite !fixed_nth by lia. apply (osub_rel (s (nth i doys 0))); [apply H; exact I|].
  rewrite !daily_samples by lia. rewrite L2. apply nanmean_rel, Forall2_map_same. intros k K. apply filter_In in K. destruct K as [K E]. apply in_seq in K. apply Nat.eqb_eq in E.
  rewrite <- E. apply H. lia.
Qed.
