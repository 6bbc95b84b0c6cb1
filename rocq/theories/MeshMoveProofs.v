(** Proofs about the same data on a mesh with other cell numbers. *)
From Coq Require Import FinFun Permutation.
From Verif Require Import Base Graph Morph MorphSpec MorphMeshProofs Label LabelSpec LabelProofs Filter FilterSpec FilterAreaProofs FilterProofs FilterMeshProofs Overlap OverlapSpec
  Merge Cluster ClusterSpec MeshPart Parallel Run MeshRun MeshRunLimits MeshMoveSpec.
Open Scope nat_scope.

Lemma map_nth0 {A B} (f : A -> B) (l : list A) t (d : A) (e : B) : t < length l -> nth t (map f l) e = f (nth t l d).
Proof. intro T. rewrite (nth_indep (map f l) e (f d)) by (rewrite map_length; exact T). apply map_nth. Qed.

Section Numbers.
Variables (n : nat) (sig : nat -> nat).
Hypothesis Rn : renumbers n sig.
Lemma sig_range k : k < n -> sig k < n.
Proof. apply Rn. Qed.
Lemma sig_once j k : j < n -> k < n -> sig j = sig k -> j = k.
Proof. apply Rn. Qed.
Lemma sig_onto j : j < n -> exists k, k < n /\ sig k = j.
Proof.
  destruct Rn as [B I]. assert (S : bSurjective n sig) by (apply bInjective_bSurjective; [exact B|exact I]). intro J.
  destruct (S j J) as (k & K & E). exists k. split; assumption.
Qed.
Definition back (j : nat) : nat := match find (fun k => Nat.eqb (sig k) j) (seq 0 n) with Some k => k | None => 0 end.
Lemma back_sig k : k < n -> back (sig k) = k.
Proof.
  intro K. unfold back. destruct (find _ _) as [q|] eqn:F.
  - apply find_some in F. destruct F as [I E]. apply in_seq in I. apply Nat.eqb_eq in E. apply sig_once; [lia|exact K|exact E].
  - exfalso. assert (X := find_none _ _ F k ltac:(apply in_seq; lia)). cbv beta in X. rewrite Nat.eqb_refl in X. discriminate.
Qed.
Lemma cells_permuted : Permutation (map sig (seq 0 n)) (seq 0 n).
Proof.
  apply NoDup_Permutation; [|apply seq_NoDup|].
  - assert (G : forall l, NoDup l -> (forall x, In x l -> x < n) -> NoDup (map sig l)).
    { induction l as [|x l IH]; intros N B; [constructor|]. inversion N; subst. cbn. constructor; [|apply IH; [assumption|intros y I; apply B; right; exact I]].
      intro I. apply in_map_iff in I. destruct I as (y & E & Iy). apply sig_once in E; [subst; contradiction|apply B; right; exact Iy|apply B; left; reflexivity]. }
    apply G; [apply seq_NoDup|]. intros x I. apply in_seq in I. lia.
  - intro j. split.
    + intro I. apply in_map_iff in I. destruct I as (k & <- & I). apply in_seq in I. apply in_seq. assert (H := sig_range k). lia.
    + intro I. apply in_seq in I. destruct (sig_onto j ltac:(lia)) as (k & K & <-). apply in_map. apply in_seq. lia.
Qed.
Lemma total_moved (f g : nat -> Q) : (forall k, k < n -> g (sig k) = f k) -> (totalQ f n == totalQ g n)%Q.
Proof.
  intro H. assert (T : forall h m, (totalQ h m == fold_right Qplus 0 (map h (seq 0 m)))%Q).
  { intros h m. induction m as [|m IH]; [reflexivity|]. rewrite seq_S, map_app. cbn [totalQ].
    assert (A : forall a b, (fold_right Qplus 0 (a ++ b) == fold_right Qplus 0 a + fold_right Qplus 0 b)%Q) by (induction a as [|x a IHa]; intro b; cbn; [ring|rewrite IHa; ring]).
    rewrite A, IH. cbn. ring. }
  rewrite !T. assert (P : forall a b, Permutation a b -> (fold_right Qplus 0 a == fold_right Qplus 0 b)%Q).
  { intros a b Pm. induction Pm; cbn; [reflexivity|rewrite IHPm; reflexivity|ring|rewrite IHPm1; exact IHPm2]. }
  rewrite <- (P _ _ (Permutation_map g cells_permuted)). rewrite map_map.
  assert (E : map f (seq 0 n) = map (fun x => g (sig x)) (seq 0 n)) by (apply map_ext_in; intros k I; apply in_seq in I; symmetry; apply H; lia).
  rewrite E. reflexivity.
Qed.

(** ** Filling *)
Variables (m m' : mesh).
Hypothesis Lm : length m = n.
Hypothesis Lm' : length m' = n.
Hypothesis Ok1 : mesh_ok m.
Hypothesis Ok2 : mesh_ok m'.
Hypothesis Ad : forall i j, i < n -> j < n -> (adj m' (sig i) (sig j) <-> adj m i j).
Notation moved := (moved_step false n sig).
Notation moveds := (moved_steps false n sig).
Lemma adj_range (q : mesh) i j : length q = n -> mesh_ok q -> adj q i j -> j < n.
Proof. intros L O A. apply O in A. lia. Qed.
Lemma bool_iff (a b : bool) : (a = true <-> b = true) -> a = b.
Proof. destruct a, b; intuition congruence. Qed.
Lemma dilate_moved v v' : moved v v' -> moved (dilate_mesh1 m v) (dilate_mesh1 m' v').
Proof.
  intros (L & L' & E). unfold moved_step, dilate_mesh1. rewrite !map_length, !seq_length. split; [exact Lm|]. split; [exact Lm'|].
  intros k K. apply bool_iff. change (atb (dilate_mesh1 m' v') (sig k) = true <-> atb (dilate_mesh1 m v) k = true).
  rewrite !dilate_mesh1_at by (rewrite ?Lm, ?Lm'; auto using sig_range). split.
  - intros (j & C & A). assert (J : j < n) by (destruct C as [->|C]; [apply sig_range; exact K|exact (adj_range m' _ _ Lm' Ok2 C)]).
    destruct (sig_onto j J) as (i & I & <-). exists i. split; [|unfold atb in *; rewrite <- E by exact I; exact A].
    destruct C as [C|C]; [left; apply sig_once; assumption|right; apply Ad; assumption].
  - intros (j & C & A). assert (J : j < n) by (destruct C as [->|C]; [exact K|exact (adj_range m _ _ Lm Ok1 C)]).
    exists (sig j). split; [|unfold atb in *; rewrite E by exact J; exact A]. destruct C as [->|C]; [left; reflexivity|right; apply Ad; assumption].
Qed.
Lemma power_moved R : forall v v', moved v v' -> moved (sparse_power m R v) (sparse_power m' R v').
Proof. induction R as [|R IH]; intros v v' M; [exact M|]. cbn [sparse_power]. apply IH, dilate_moved, M. Qed.
Lemma not_moved v v' : moved v v' -> moved (not_all v) (not_all v').
Proof.
  intros (L & L' & E). unfold moved_step. rewrite !not_all_length. split; [exact L|]. split; [exact L'|]. intros k K.
  change (atb (not_all v') (sig k) = atb (not_all v) k). rewrite !not_all_at by (rewrite ?L, ?L'; auto using sig_range). unfold atb. rewrite E by exact K. reflexivity.
Qed.
Lemma land_moved mask mask' v v' : moved mask mask' -> moved v v' -> moved (set_land mask v) (set_land mask' v').
Proof.
  intros (A & A' & B) (L & L' & E). unfold moved_step. rewrite !set_land_length by congruence. split; [exact L|]. split; [exact L'|]. intros k K.
  change (atb (set_land mask' v') (sig k) = atb (set_land mask v) k).
  assert (S : forall (mk v0 : list bool) i, length mk = n -> length v0 = n -> i < n -> atb (set_land mk v0) i = negb (nth i mk false) || nth i v0 false).
  { intros mk v0 i H1 H2 H3. unfold atb, set_land. rewrite (map_nth0 (fun p => negb (fst p) || snd p) (combine mk v0) i (false, false)) by (rewrite combine_length; lia).
    rewrite combine_nth by congruence. reflexivity. }
  rewrite !S by (auto using sig_range). rewrite B, E by exact K. reflexivity.
Qed.
Lemma erode_moved R v v' : moved v v' -> moved (erode_mesh m R v) (erode_mesh m' R v').
Proof. intro M. apply not_moved, power_moved, not_moved, M. Qed.
Lemma fill_moved R mask mask' v v' : moved mask mask' -> moved v v' -> moved (fill_holes_mesh m R mask v) (fill_holes_mesh m' R mask' v').
Proof. intros Mk M. unfold fill_holes_mesh. apply power_moved, erode_moved, land_moved, erode_moved, land_moved, power_moved, M; exact Mk. Qed.

(** ** Objects *)
Variables (mask mask' : list bool).
Hypothesis Mk : moved mask mask'.
Lemma ocean_moved v v' k : moved v v' -> k < n -> (ocean_extreme m' mask' v' (sig k) <-> ocean_extreme m mask v k).
Proof.
  intros (L & L' & E) K. destruct Mk as (A & A' & B). unfold ocean_extreme. rewrite B, E by exact K. rewrite Lm, Lm'. assert (H := sig_range k K). tauto.
Qed.
Lemma ocean_range v k : ocean_extreme m mask v k -> k < n.
Proof. unfold ocean_extreme. rewrite Lm. tauto. Qed.
Lemma ocean_range' v k : ocean_extreme m' mask' v k -> k < n.
Proof. unfold ocean_extreme. rewrite Lm'. tauto. Qed.
Lemma chain_moved (on on' : nat -> Prop) : (forall k, k < n -> (on' (sig k) <-> on k)) -> forall j k, j < n -> k < n ->
  (mesh_chain m' on' (sig j) (sig k) <-> mesh_chain m on j k).
Proof.
  intros O j k J K. split.
  - intro C. remember (sig j) as a eqn:Ea. remember (sig k) as b eqn:Eb. revert j J Ea. induction C as [a|a i b Oi A Li C IH]; intros j J Ea.
    + rewrite (sig_once j k J K); [constructor|congruence].
    + rewrite Lm' in Li. destruct (sig_onto i Li) as (q & Q & <-). subst a. apply (mchain_step _ _ j q k); [apply O; assumption| |rewrite Lm; exact Q|].
      * destruct A as [A|A]; [left|right]; apply Ad; assumption.
      * apply IH; [exact Eb|exact Q|reflexivity].
  - intro C. induction C as [a|a i b Oi A Li C IH]; [constructor|]. rewrite Lm in Li. apply (mchain_step _ _ (sig a) (sig i) (sig b)); [apply O; assumption| |rewrite Lm'; apply sig_range; exact Li|].
    + destruct A as [A|A]; [left|right]; apply Ad; assumption.
    + apply IH; assumption.
Qed.
Lemma object_moved v v' k l : moved v v' -> k < n -> mesh_object m mask v k l -> mesh_object m' mask' v' (sig k) (map sig l).
Proof.
  intros M K (N & O). split.
  - assert (B : forall x, In x l -> x < n) by (intros x I; apply O in I; apply (ocean_range v); apply I). clear O.
    induction N as [|x l X N IH]; [constructor|]. cbn. constructor; [|apply IH; intros y I; apply B; right; exact I].
    intro I. apply in_map_iff in I. destruct I as (y & E & I). apply X. rewrite (sig_once x y); [exact I|apply B; left; reflexivity|apply B; right; exact I|congruence].
  - intro j. split.
    + intro I. apply in_map_iff in I. destruct I as (i & <- & I). apply O in I. destruct I as [A C]. assert (I := ocean_range v i A).
      split; [apply (ocean_moved v v'); assumption|]. apply (chain_moved (ocean_extreme m mask v) (ocean_extreme m' mask' v')); [intros q Q; apply ocean_moved; assumption|exact K|exact I|exact C].
    + intros [A C]. destruct (sig_onto j (ocean_range' v' j A)) as (i & I & <-). apply in_map. apply O.
      split; [apply (ocean_moved v v'); assumption|]. apply (chain_moved (ocean_extreme m mask v) (ocean_extreme m' mask' v')); [intros q Q; apply ocean_moved; assumption|exact K|exact I|exact C].
Qed.

(** ** Sizes of the objects of one step *)
Lemma sizes_moved v v' : moved v v' ->
  Permutation (map (fun id => cells_with id (identify_mesh m mask v)) (unique_pos (identify_mesh m mask v)))
              (map (fun id => cells_with id (identify_mesh m' mask' v')) (unique_pos (identify_mesh m' mask' v'))).
Proof.
  intro M. assert (M' := M). destruct M' as (L & L' & E). destruct Mk as (A & A' & B).
  set (ids := identify_mesh m mask v). set (ids' := identify_mesh m' mask' v').
  destruct (identify_mesh_spec m mask v Ok1 ltac:(congruence) ltac:(congruence)) as (I1 & I2 & I3 & I4). fold ids in I1, I2, I3, I4.
  destruct (identify_mesh_spec m' mask' v' Ok2 ltac:(congruence) ltac:(congruence)) as (J1 & J2 & J3 & J4). fold ids' in J1, J2, J3, J4.
  fold (ocean_extreme m mask v) in I2, I4. fold (ocean_extreme m' mask' v') in J2, J4.
  assert (On : forall k, k < n -> ((0 < nth k ids 0)%Z <-> ocean_extreme m mask v k)).
  { intros k K. specialize (I2 k ltac:(lia)). specialize (I3 k). unfold ocean_extreme in *. destruct (nth k mask false), (nth k v false); split; intro H; try (split; [lia|split; congruence]); try lia; intuition (try congruence; try lia). }
  assert (On' : forall k, k < n -> ((0 < nth k ids' 0)%Z <-> ocean_extreme m' mask' v' k)).
  { intros k K. specialize (J2 k ltac:(lia)). specialize (J3 k). unfold ocean_extreme in *. destruct (nth k mask' false), (nth k v' false); split; intro H; try (split; [lia|split; congruence]); try lia; intuition (try congruence; try lia). }
  set (phi := fun id => nth (sig (match find (fun k => Z.eqb (nth k ids 0%Z) id) (seq 0 n) with Some k => k | None => 0 end)) ids' 0%Z).
  assert (Ph : forall id, In id (unique_pos ids) -> exists k, k < n /\ nth k ids 0%Z = id /\ phi id = nth (sig k) ids' 0%Z /\ ocean_extreme m mask v k).
  { intros id I. apply unique_pos_In in I. destruct I as [P I]. destruct (In_nth _ _ 0%Z I) as (q & Q & Eq). rewrite I1, Lm in Q. unfold phi.
    destruct (find _ _) as [k|] eqn:F.
    - apply find_some in F. destruct F as [Ik Ek]. apply in_seq in Ik. apply Z.eqb_eq in Ek. exists k. split; [lia|]. split; [exact Ek|]. split; [reflexivity|]. apply On; [lia|rewrite Ek; exact P].
    - exfalso. assert (X := find_none _ _ F q ltac:(apply in_seq; lia)). cbv beta in X. rewrite Eq, Z.eqb_refl in X. discriminate. }
  assert (Same : forall j k, j < n -> k < n -> ocean_extreme m mask v j -> ocean_extreme m mask v k -> (nth (sig j) ids' 0%Z = nth (sig k) ids' 0%Z <-> nth j ids 0%Z = nth k ids 0%Z)).
  { intros j k J K Oj Ok. rewrite (I4 j k Oj Ok). rewrite (J4 (sig j) (sig k)) by (apply (ocean_moved v v'); assumption).
    apply (chain_moved (ocean_extreme m mask v) (ocean_extreme m' mask' v')); [intros q Q; apply ocean_moved; assumption|exact J|exact K]. }
  assert (Sz : forall id, In id (unique_pos ids) -> cells_with id ids = cells_with (phi id) ids').
  { intros id I. destruct (Ph id I) as (k & K & Ek & Epk & O).
    assert (OK : mesh_inputs_ok m mask [v]) by (split; [exact Ok1|split; [congruence|intros d [<-|[]]; congruence]]).
    assert (OK' : mesh_inputs_ok m' mask' [v']) by (split; [exact Ok2|split; [congruence|intros d [<-|[]]; congruence]]).
    destruct (object_exists_mesh m mask [v] OK 0 k ltac:(cbn; lia) O) as (l & Ol).
    assert (S1 := object_size_mesh m mask [v] OK 0 k l ltac:(cbn; lia) O Ol).
    assert (S2 := object_size_mesh m' mask' [v'] OK' 0 (sig k) (map sig l) ltac:(cbn; lia) (proj2 (ocean_moved v v' k M K) O) (object_moved v v' k l M K Ol)).
    cbn [map nth] in S1, S2. fold ids in S1. fold ids' in S2. rewrite map_length in S2. rewrite Ek in S1. rewrite <- Epk in S2. congruence. }
  rewrite (map_ext_in _ (fun id => cells_with (phi id) ids') _ Sz). rewrite <- (map_map phi (fun id => cells_with id ids')). apply Permutation_map. apply NoDup_Permutation; [|apply unique_pos_NoDup|].
  - assert (N := unique_pos_NoDup ids). assert (G : forall l, incl l (unique_pos ids) -> NoDup l -> NoDup (map phi l)).
    { induction l as [|x l IH]; intros Ic Nl; [constructor|]. inversion Nl as [|? ? Nx Nl']; subst. cbn. constructor; [|apply IH; [intros y Y; apply Ic; right; exact Y|exact Nl']].
      intro I. apply in_map_iff in I. destruct I as (y & Ey & Iy). apply Nx. replace x with y; [exact Iy|].
      destruct (Ph x (Ic x (or_introl eq_refl))) as (k & K & Ek & Epk & Ok). destruct (Ph y (Ic y (or_intror Iy))) as (j & J & Ej & Epj & Oj).
      rewrite <- Ek, <- Ej. apply Same; try assumption. congruence. }
    apply G; [apply incl_refl|exact N].
  - intro x. split.
    + intro I. apply in_map_iff in I. destruct I as (id & <- & I). destruct (Ph id I) as (k & K & Ek & Epk & O). rewrite Epk. apply unique_pos_In.
      split; [apply On'; [apply sig_range; exact K|apply (ocean_moved v v'); assumption]|]. apply nth_In. rewrite J1, Lm'. apply sig_range, K.
    + intro I. apply unique_pos_In in I. destruct I as [P I]. destruct (In_nth _ _ 0%Z I) as (q & Q & Eq). rewrite J1, Lm' in Q. destruct (sig_onto q Q) as (k & K & <-).
      assert (O : ocean_extreme m mask v k) by (apply (ocean_moved v v'); [exact M|exact K|]; apply On'; [exact Q|rewrite Eq; exact P]).
      apply in_map_iff. exists (nth k ids 0%Z). assert (Iu : In (nth k ids 0%Z) (unique_pos ids)) by (apply unique_pos_In; split; [apply On; assumption|apply nth_In; rewrite I1, Lm; exact K]).
      split; [|exact Iu]. destruct (Ph _ Iu) as (j & J & Ej & Epj & Oj). rewrite Epj, <- Eq. apply Same; assumption.
Qed.
End Numbers.

(** ** Lists of steps *)
Section Steps.
Variables (h h' : mesh_setup) (sig : nat -> nat).
Let n := length (h_nbs h).
Hypothesis Sm : same_mesh sig h h'.
Hypothesis Ok1 : mesh_ok (h_nbs h).
Hypothesis Ok2 : mesh_ok (h_nbs h').
Notation moved := (moved_step false n sig).
Notation moveds := (moved_steps false n sig).
Let Ln' : length (h_nbs h') = n := proj1 Sm.
Let Rn : renumbers n sig := proj1 (proj2 Sm).
Let Ad : forall i j, i < n -> j < n -> (adj (h_nbs h') (sig i) (sig j) <-> adj (h_nbs h) i j) := proj1 (proj2 (proj2 Sm)).
Let Mk : moved (h_mask h) (h_mask h') := proj1 (proj2 (proj2 (proj2 Sm))).
Let Ar : moved_step 0%Q n sig (h_area h) (h_area h') := proj1 (proj2 (proj2 (proj2 (proj2 Sm)))).
Lemma steps_forall s s' : moveds s s' -> Forall2 moved s s'.
Proof.
  intros [L M]. revert s' L M. induction s as [|v s IH]; intros [|v' s'] L M; try discriminate; [constructor|].
  constructor; [exact (M 0 ltac:(cbn; lia))|]. apply IH; [cbn in L; lia|]. intros t T. exact (M (S t) ltac:(cbn; lia)).
Qed.
Lemma holes_moved R s s' : moveds s s' -> moveds (map (fill_holes_mesh (h_nbs h) R (h_mask h)) s) (map (fill_holes_mesh (h_nbs h') R (h_mask h')) s').
Proof.
  intros [L M]. unfold moved_steps. rewrite !map_length. split; [exact L|]. intros t T.
  rewrite !(map_nth0 _ _ t []) by lia. exact (fill_moved n sig Rn _ _ eq_refl Ln' Ok1 Ok2 Ad R _ _ _ _ Mk (M t T)).
Qed.
Lemma gaps_moved s s' r : moveds s s' -> fill_time_gaps_mesh h s = Some r -> exists r', fill_time_gaps_mesh h' s' = Some r' /\ moveds r r'.
Proof.
  intros [L M]. assert (ER : h_R h' = h_R h) by apply Sm. assert (ET : h_T h' = h_T h) by apply Sm. unfold fill_time_gaps_mesh. rewrite ET, ER.
  destruct (Z.eqb (h_T h) 0); [intro E; injection E as <-; exists s'; split; [reflexivity|split; assumption]|].
  destruct (Z.ltb (h_T h + 1) 0); [discriminate|]. intro E. injection E as <-. eexists. split; [reflexivity|].
  unfold moved_steps. rewrite !map_length, !seq_length. split; [exact L|]. intros t T.
  rewrite !(map_nth0 _ _ t 0) by (rewrite seq_length; lia). rewrite !seq_nth by lia. cbn [Nat.add].
  apply (fill_moved n sig Rn _ _ eq_refl Ln' Ok1 Ok2 Ad); [exact Mk|]. unfold moved_step. rewrite !map_length, !seq_length. split; [reflexivity|]. split; [exact Ln'|].
  intros k K. rewrite !(map_nth0 _ _ _ 0) by (rewrite seq_length, ?Ln'; auto using (sig_range n sig Rn)).
  rewrite !seq_nth by (rewrite ?Ln'; auto using (sig_range n sig Rn)). cbn [Nat.add].
  assert (E : map (fun v => atb v (sig k)) s' = map (fun v => atb v k) s).
  { apply (nth_ext _ _ false false); [rewrite !map_length; exact L|]. intros u U. rewrite map_length in U. rewrite !(map_nth0 _ _ u []) by lia.
    destruct (M u ltac:(lia)) as (_ & _ & X). apply X. exact K. }
  rewrite E. reflexivity.
Qed.
Lemma filled_moved data data' s : moveds data data' ->
  fill_time_gaps_mesh h (map (fill_holes_mesh (h_nbs h) (h_R h) (h_mask h)) data) = Some s ->
  exists s', fill_time_gaps_mesh h' (map (fill_holes_mesh (h_nbs h') (h_R h') (h_mask h')) data') = Some s' /\ moveds s s'.
Proof.
  intros M E. assert (ER : h_R h' = h_R h) by apply Sm. rewrite ER. apply (gaps_moved _ _ s (holes_moved (h_R h) data data' M) E).
Qed.

(** *** Filtering *)
Lemma filter_permuted (q : nat -> bool) a b : Permutation a b -> Permutation (filter q a) (filter q b).
Proof.
  intro P. induction P; cbn; [constructor| | |econstructor; eassumption].
  - destruct (q x); [constructor|]; assumption.
  - destruct (q x), (q y); try reflexivity. apply perm_swap.
Qed.
Lemma filter_repeat0 (q : nat -> bool) k : q 0 = false -> filter q (repeat 0 k) = [].
Proof. intro Q. induction k as [|k IH]; [reflexivity|]. cbn. rewrite Q. exact IH. Qed.
Lemma filtered_sizes (q : nat -> bool) a b s s' : q 0 = false -> moveds s s' ->
  Permutation (filter q (flat_map fst (map (cluster_sizes a) (map (identify_mesh (h_nbs h) (h_mask h)) s))))
              (filter q (flat_map fst (map (cluster_sizes b) (map (identify_mesh (h_nbs h') (h_mask h')) s')))).
Proof.
  intros Q M. apply steps_forall in M. induction M as [|v v' s s' V M IH]; [constructor|]. cbn [map flat_map]. rewrite !filter_app. apply Permutation_app; [|exact IH].
  unfold cluster_sizes, pad0. cbn [fst]. rewrite !filter_app, !filter_repeat0, !app_nil_r by exact Q. apply filter_permuted.
  exact (sizes_moved n sig Rn _ _ eq_refl Ln' Ok1 Ok2 Ad _ _ Mk v v' V).
Qed.
Lemma sumN_permuted a b : Permutation a b -> sumN a = sumN b.
Proof. intro P. unfold sumN. induction P as [|x l l0 P IH|x y l|l l1 l2 P1 I1 P2 I2]; cbn [fold_right]; lia. Qed.
Lemma sumN_positive l : sumN l = sumN (filter (Nat.ltb 0) l).
Proof. induction l as [|x l IH]; [reflexivity|]. cbn [filter sumN fold_right]. destruct (Nat.ltb_spec 0 x); cbn [sumN fold_right]; unfold sumN in IH; lia. Qed.
Lemma filter_both (p q : nat -> bool) l : filter p (filter q l) = filter (fun x => q x && p x) l.
Proof. induction l as [|x l IH]; [reflexivity|]. cbn [filter]. destruct (q x); cbn [andb filter]; [destruct (p x); rewrite IH; reflexivity|exact IH]. Qed.
Lemma kept_moved (r : area_rule) s s' f : moveds s s' -> filter_small_mesh r (h_nbs h) (h_mask h) s = Ok f ->
  exists f', filter_small_mesh r (h_nbs h') (h_mask h') s' = Ok f' /\ f_threshold f' = f_threshold f /\ f_before f' = f_before f /\ f_after f' = f_after f /\
    total_area_IDed f' = total_area_IDed f /\ accepted_area f' = accepted_area f /\ moveds (f_keep f) (f_keep f').
Proof.
  intros M E. assert (E0 := E). unfold filter_small_mesh, filter_mesh in E.
  set (fields := map (identify_mesh (h_nbs h) (h_mask h)) s) in E. set (fields' := map (identify_mesh (h_nbs h') (h_mask h')) s').
  set (cut := if is_absolute r then 5 else 50) in E.
  assert (P : forall q, q 0 = false -> Permutation (filter q (flat_map fst (map (cluster_sizes (max_id fields)) fields))) (filter q (flat_map fst (map (cluster_sizes (max_id fields')) fields')))).
  { intros q Q. apply filtered_sizes; assumption. }
  assert (Pc := P (Nat.ltb cut) ltac:(unfold cut; destruct (is_absolute r); reflexivity)).
  set (pre := filter (Nat.ltb cut) (flat_map fst (map (cluster_sizes (max_id fields)) fields))) in *.
  set (pre' := filter (Nat.ltb cut) (flat_map fst (map (cluster_sizes (max_id fields')) fields'))) in *.
  destruct pre as [|p0 pre0] eqn:Ep; [discriminate|]. rewrite <- Ep in *.
  assert (E' : exists f', filter_small_mesh r (h_nbs h') (h_mask h') s' = Ok f' /\ f_threshold f' = threshold_of r pre' /\ f_before f' = length pre' /\
     f_after f' = count (fun a => Qltb (threshold_of r pre') (nat_Q a)) pre' /\ f_areas f' = flat_map fst (map (cluster_sizes (max_id fields')) fields')).
  { unfold filter_small_mesh, filter_mesh. fold fields'. fold cut. fold pre'. destruct pre' as [|p1 pre1] eqn:Ep'; [apply Permutation_sym, Permutation_nil in Pc; congruence|].
    eexists. split; [reflexivity|]. cbn [f_threshold f_before f_after f_areas]. repeat split; reflexivity. }
  destruct E' as (f' & Ef' & T' & B' & A' & S'). exists f'. split; [exact Ef'|].
  assert (T : f_threshold f = threshold_of r pre) by (injection E as <-; reflexivity).
  assert (Be : f_before f = length pre) by (injection E as <-; reflexivity).
  assert (Af : f_after f = count (fun a => Qltb (threshold_of r pre) (nat_Q a)) pre) by (injection E as <-; reflexivity).
  assert (S : f_areas f = flat_map fst (map (cluster_sizes (max_id fields)) fields)) by (injection E as <-; reflexivity).
  assert (TT : f_threshold f' = f_threshold f) by (rewrite T, T'; symmetry; apply threshold_permuted; exact Pc).
  split; [exact TT|]. split; [rewrite Be, B'; symmetry; apply Permutation_length; exact Pc|].
  split; [rewrite Af, A', <- (threshold_permuted r pre pre' Pc); symmetry; unfold count; apply Permutation_length, filter_permuted; exact Pc|].
  split; [unfold total_area_IDed; rewrite S, S', sumN_positive, (sumN_positive (flat_map fst (map (cluster_sizes (max_id fields)) fields))); apply sumN_permuted, Permutation_sym, P; reflexivity|].
  split; [unfold accepted_area; rewrite TT, S, S', sumN_positive, (sumN_positive (filter _ (flat_map fst (map (cluster_sizes (max_id fields)) fields)))); rewrite !filter_both; apply sumN_permuted, Permutation_sym, P; cbv beta; apply andb_false_r|].
  assert (M2 := M). destruct M2 as [L M2].
  assert (Lk : length (h_mask h) = length (h_nbs h)) by apply Mk. assert (Lk' : length (h_mask h') = length (h_nbs h')) by (rewrite Ln'; apply Mk).
  assert (OK : mesh_inputs_ok (h_nbs h) (h_mask h) s) by (split; [exact Ok1|split; [exact Lk|intros d I; destruct (In_nth _ _ [] I) as (t & Tt & <-); apply (M2 t Tt)]]).
  assert (OK' : mesh_inputs_ok (h_nbs h') (h_mask h') s') by (split; [exact Ok2|split; [exact Lk'|intros d I; destruct (In_nth _ _ [] I) as (t & Tt & <-); rewrite Ln'; apply (M2 t); lia]]).
  destruct (filter_small_mesh_spec _ _ _ OK _ _ E0) as [K1 K2]. destruct (filter_small_mesh_spec _ _ _ OK' _ _ Ef') as [K1' K2'].
  split; [congruence|]. rewrite K1. intros t Tt.
  assert (Lt : forall q mask fs g tt, filter_small_mesh r q mask fs = Ok g -> mesh_inputs_ok q mask fs -> tt < length fs -> length (nth tt (f_keep g) []) = length q).
  { clear. intros q mask fs g tt E (Q1 & Q2 & Q3) Tt. unfold filter_small_mesh, filter_mesh in E. destruct (filter _ _) as [|p0 pre]; [discriminate|]. injection E as <-. cbn [f_keep].
    set (fields := map (identify_mesh q mask) fs). assert (Lf : length fields = length fs) by apply map_length.
    rewrite (map_nth0 _ _ tt ([], [], [])) by (rewrite combine_length, map_length; lia). rewrite combine_nth by (rewrite map_length; reflexivity). unfold keep_mesh. rewrite map_length. cbn [snd].
    unfold fields. rewrite (map_nth0 _ _ tt []) by exact Tt. apply (identify_mesh_spec q mask (nth tt fs [])); [exact Q1|exact Q2|apply Q3, nth_In, Tt]. }
  split; [exact (Lt _ _ _ _ _ E0 OK Tt)|]. split; [rewrite (Lt _ _ _ _ t Ef' OK') by lia; exact Ln'|]. intros k K. apply bool_iff.
  change (mesh_kept (f_keep f') t (sig k) <-> mesh_kept (f_keep f) t k). rewrite (K2 t k Tt), (K2' t (sig k)) by lia. rewrite TT.
  assert (V := M2 t Tt). assert (Oc := ocean_moved n sig Rn _ _ eq_refl Ln' _ _ Mk _ _ k V K).
  split; intros (O & l & Ol & Q); (split; [apply Oc; exact O|]).
  - destruct (object_exists_mesh _ _ _ OK t k Tt (proj1 Oc O)) as (l0 & O0). exists l0. split; [exact O0|].
    assert (O1 := object_moved n sig Rn _ _ eq_refl Ln' Ad _ _ Mk _ _ k l0 V K O0).
    rewrite <- (object_size_mesh _ _ _ OK' t (sig k) l ltac:(lia) O Ol), (object_size_mesh _ _ _ OK' t (sig k) _ ltac:(lia) O O1), map_length in Q. exact Q.
  - exists (map sig l). split; [exact (object_moved n sig Rn _ _ eq_refl Ln' Ad _ _ Mk _ _ k l V K Ol)|rewrite map_length; exact Q].
Qed.

(** *** Areas *)
Lemma area_total v w : length v = n -> length w = n ->
  (fold_right Qplus 0 (map snd (filter fst (combine v w))) == totalQ (fun k => if nth k v false then nth k w 0%Q else 0%Q) n)%Q.
Proof.
  intros Lv Lw. rewrite <- Lv. assert (L : length v = length w) by congruence. clear Lv Lw. revert w L.
  assert (Sh : forall f m, (totalQ f (S m) == f 0%nat + totalQ (fun k => f (S k)) m)%Q) by (intros f m; induction m as [|m IH]; [cbn; ring|]; cbn [totalQ] in *; rewrite IH; ring).
  induction v as [|b v IH]; intros [|q w] L; try discriminate; [reflexivity|]. cbn [combine filter fst length]. rewrite Sh. cbn [nth].
  cbn in L. destruct b; cbn [map snd fold_right]; rewrite IH by lia; ring.
Qed.
Lemma area_moved s s' : moveds s s' -> (area_mesh h' s' == area_mesh h s)%Q.
Proof.
  intro M. apply steps_forall in M. unfold area_mesh. destruct Ar as (A1 & A2 & A3).
  assert (App : forall (a b : list (bool * Q)), (fold_right Qplus 0 (map snd (filter fst (a ++ b))) == fold_right Qplus 0 (map snd (filter fst a)) + fold_right Qplus 0 (map snd (filter fst b)))%Q).
  { intros a b. induction a as [|[[|] q] a IH]; cbn; [ring|rewrite IH; ring|exact IH]. }
  induction M as [|v v' s s' (V1 & V2 & V3) M IH]; [reflexivity|]. cbn [flat_map]. rewrite !App, IH. apply Qplus_comp; [|reflexivity].
  rewrite !area_total by assumption. symmetry. apply (total_moved n sig Rn). intros k K. rewrite V3, A3 by exact K. reflexivity.
Qed.
End Steps.
