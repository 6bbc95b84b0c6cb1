(** Size filtering on structured grids. *)
From Coq Require Import Sorted Permutation Qround.
From Verif Require Import Base Graph GraphProofs Label LabelSpec LabelProofs Morph MorphSpec
  Filter FilterSpec FilterProofs.
Open Scope nat_scope.

(** *** The first extreme cell gets label 1 *)
Lemma firsts_prefix l : forall seen, exists rest, fold_left add_new l seen = seen ++ rest.
Proof.
  induction l as [|y l IH]; intro seen; simpl; [exists []; rewrite app_nil_r; reflexivity|].
  unfold add_new at 2. destruct (memN y seen).
  - apply IH.
  - destruct (IH (seen ++ [y])) as [r E]. exists (y :: r). rewrite E, <- app_assoc. reflexivity.
Qed.

Lemma components_first n es : (forall a b, In (a, b) es -> a < n /\ b < n) -> 0 < n ->
  nth 0 (components n es) 0 = 0.
Proof.
  intros R H. rewrite components_nth by assumption. destruct (roots_good n es R) as [L _].
  unfold lab_at. destruct (roots n es) as [|r l] eqn:E; [simpl in L; lia|].
  change (firsts (r :: l)) with (fold_left add_new l [r]). destruct (firsts_prefix l [r]) as [rest ->]. simpl. rewrite Nat.eqb_refl. reflexivity.
Qed.

Lemma index_first (P : nat -> bool) i : forall n a, a <= i < a + n -> P i = true ->
  (forall j, P j = true -> i <= j) -> index_of i (filter P (seq a n)) = 0.
Proof.
  induction n as [|n IH]; intros a H Pi M; [lia|]. cbn [seq filter].
  destruct (P a) eqn:Pa.
  - specialize (M a Pa). assert (i = a) by lia. subst. simpl. rewrite Nat.eqb_refl. reflexivity.
  - apply IH; auto. destruct (Nat.eq_dec a i); [subst; congruence|lia].
Qed.

Lemma label_first on es i : onb on i = true -> (forall j, onb on j = true -> i <= j) ->
  nth i (label_on on es) 0%Z = 1%Z.
Proof.
  intros H M. rewrite label_on_nth by (apply onb_lt; exact H). rewrite H.
  assert (E : index_of i (true_indices on) = 0).
  { unfold true_indices. apply index_first; auto. pose proof (onb_lt _ _ H). lia. }
  rewrite E, components_first; [reflexivity|apply compact_range|].
  assert (In i (true_indices on)) as I by (apply ti_In; exact H). destruct (true_indices on); [destruct I|simpl; lia].
Qed.

Section Grid.
Variables (regional : bool) (nt ny nx : nat) (data : list bool).
Hypothesis L : length data = nt * ny * nx.

Let es := grid_edges false (negb regional) nt ny nx.
Let lab := label_on data es.
Let slices := map (slice ny nx 0%Z lab) (seq 0 nt).
Notation jn := (joined regional nt ny nx data).

Lemma chain_trans (c d e : cell) : jn c d -> jn d e -> jn c e.
Proof. unfold joined. induction 1; auto. intro. eapply chain_step; eauto. Qed.

Lemma chain_time (c d : cell) : jn c d -> fst (fst c) = fst (fst d).
Proof.
  unfold joined. induction 1 as [|[[t y] x] [[t' y'] x'] e R X T _ IH]; auto. rewrite <- IH. simpl.
  unfold touching in T. tauto.
Qed.

Lemma chain_sym (c d : cell) : in_range nt ny nx c -> extreme ny nx data c -> jn c d -> jn d c.
Proof.
  unfold joined. intros R X H. revert R X. induction H as [|c d e Rd Xd T _ IH]; intros R X; [constructor|].
  eapply chain_trans; [apply IH; auto|]. eapply chain_step; [exact R|exact X|apply touching_sym; exact T|constructor].
Qed.

Lemma lab_spec :
  (forall c, in_range nt ny nx c -> (label_of ny nx lab c = 0%Z <-> ~ extreme ny nx data c)) /\
  (forall c c', in_range nt ny nx c -> in_range nt ny nx c' -> extreme ny nx data c -> extreme ny nx data c' ->
     (label_of ny nx lab c = label_of ny nx lab c' <-> jn c c')) /\
  (forall k, (1 <= k <= Z.of_nat (label_count data es))%Z <->
     exists i, i < length data /\ nth i data false = true /\ nth i lab 0%Z = k).
Proof.
  destruct (identify_grid_spec regional false nt ny nx data lab (label_count data es) L eq_refl) as (_ & A & B & C).
  auto.
Qed.

Lemma lab_nonneg c : (0 <= label_of ny nx lab c)%Z.
Proof. apply label_on_nonneg. Qed.

Lemma lab_pos c : in_range nt ny nx c -> ((0 < label_of ny nx lab c)%Z <-> extreme ny nx data c).
Proof.
  intro R. destruct lab_spec as (A & _). specialize (A c R). pose proof (lab_nonneg c).
  unfold extreme in *. destruct (nth (flat ny nx c) data false).
  - split; [reflexivity|]. intros _. assert (label_of ny nx lab c <> 0%Z); [|lia]. intro E. apply A in E. auto.
  - split; [|discriminate]. intro P. assert (label_of ny nx lab c = 0%Z) by (apply A; discriminate). lia.
Qed.

Lemma slice_has t id : t < nt -> (0 < id)%Z ->
  (In id (slice ny nx 0%Z lab t) <->
   exists c, in_range nt ny nx c /\ fst (fst c) = t /\ extreme ny nx data c /\ label_of ny nx lab c = id).
Proof.
  intros Ht P. rewrite slice_In. split.
  - intros (y & x & Hy & Hx & E). exists (t, y, x).
    assert (R : in_range nt ny nx (t, y, x)) by (simpl; auto).
    split; [exact R|]. split; [reflexivity|]. split; [|exact E]. apply lab_pos; auto. unfold label_of. lia.
  - intros ([[t' y] x] & (_ & Hy & Hx) & Et & X & E). simpl in Et. subst t'. exists y, x. auto.
Qed.

Lemma slices_nth t : nth t slices [] = if Nat.ltb t nt then slice ny nx 0%Z lab t else [].
Proof.
  unfold slices. destruct (Nat.ltb_spec t nt).
  - rewrite (nth_indep _ [] (slice ny nx 0%Z lab 0)) by (rewrite map_length, seq_length; exact H).
    rewrite (map_nth (slice ny nx 0%Z lab)), seq_nth by exact H. reflexivity.
  - apply nth_overflow. rewrite map_length, seq_length. exact H.
Qed.

Lemma slices_disjoint : time_disjoint slices.
Proof.
  intros t t' id P H H'. rewrite slices_nth in H, H'.
  destruct (Nat.ltb_spec t nt) as [Ht|_]; [|destruct H]. destruct (Nat.ltb_spec t' nt) as [Ht'|_]; [|destruct H'].
  apply slice_has in H; auto. apply slice_has in H'; auto.
  destruct H as (c & R & T & X & E), H' as (c' & R' & T' & X' & E').
  destruct lab_spec as (_ & B & _). assert (J : jn c c') by (apply B; auto; congruence).
  apply chain_time in J. congruence.
Qed.

(** Size of an object = number of its cells. *)
Lemma object_size c l : in_range nt ny nx c -> extreme ny nx data c -> object_cells regional nt ny nx data c l ->
  cells_with (label_of ny nx lab c) (slice ny nx 0%Z lab (fst (fst c))) = length l.
Proof.
  intros R X (N & M). unfold cells_with, slice, count.
  set (t := fst (fst c)).
  set (g := fun d => Z.eqb (label_of ny nx lab c) (label_of ny nx lab d)).
  transitivity (length (filter g (slice_cells ny nx t))).
  { unfold g, label_of. clear. induction (slice_cells ny nx t) as [|d r IH]; simpl; [reflexivity|].
    destruct (Z.eqb (nth (flat ny nx c) lab 0%Z) (nth (flat ny nx d) lab 0%Z)); simpl; rewrite IH; reflexivity. }
  apply Permutation_length. apply NoDup_Permutation; [apply NoDup_filter, slice_cells_NoDup|exact N|].
  intro d. rewrite filter_In, slice_cells_In, M. unfold g. rewrite Z.eqb_eq.
  destruct lab_spec as (_ & B & _). split.
  - intros ((T & Hy & Hx) & E).
    assert (Rd : in_range nt ny nx d).
    { destruct d as [[t' y] x], c as [[tc yc] xc]. simpl in *. subst t'. unfold t. tauto. }
    assert (Xd : extreme ny nx data d).
    { apply lab_pos; auto. rewrite <- E. apply lab_pos; auto. }
    split; [exact Rd|]. split; [exact Xd|]. apply B; auto.
  - intros (Rd & Xd & J). split; [|apply B; auto].
    apply chain_time in J. destruct d as [[t' y] x]. simpl in *. unfold t. split; [congruence|]. tauto.
Qed.

Lemma object_cells_exist c : in_range nt ny nx c -> extreme ny nx data c ->
  exists l, object_cells regional nt ny nx data c l.
Proof.
  intros R X.
  exists (filter (fun d => Z.eqb (label_of ny nx lab c) (label_of ny nx lab d)) (slice_cells ny nx (fst (fst c)))).
  split; [apply NoDup_filter, slice_cells_NoDup|]. intro d. rewrite filter_In, slice_cells_In, Z.eqb_eq.
  destruct lab_spec as (_ & B & _). split.
  - intros ((T & Hy & Hx) & E).
    assert (Rd : in_range nt ny nx d).
    { destruct d as [[t' y] x], c as [[tc yc] xc]. simpl in *. subst t'. tauto. }
    assert (Xd : extreme ny nx data d).
    { apply lab_pos; auto. rewrite <- E. apply lab_pos; auto. }
    split; [exact Rd|]. split; [exact Xd|]. apply B; auto.
  - intros (Rd & Xd & J). split; [|apply B; auto].
    apply chain_time in J. destruct d as [[t' y] x]. simpl in *. split; [congruence|]. tauto.
Qed.

(** *** The overwritten first entry *)
Lemma first_exists c : in_range nt ny nx c -> extreme ny nx data c ->
  exists f, first_extreme nt ny nx data f.
Proof.
  intros R X. remember (flat ny nx c) as k eqn:E. revert c R X E.
  induction k as [k IH] using lt_wf_ind. intros c R X ->.
  destruct (existsb (fun d => nth (flat ny nx d) data false && Nat.ltb (flat ny nx d) (flat ny nx c)) (cells nt ny nx)) eqn:B.
  - apply existsb_exists in B. destruct B as (d & Hd & B). apply andb_true_iff in B. destruct B as [B1 B2].
    apply Nat.ltb_lt in B2. apply cells_In in Hd. apply (IH _ B2 d Hd B1 eq_refl).
  - exists c. split; [exact R|]. split; [exact X|]. intros d Rd Xd.
    destruct (Nat.leb_spec (flat ny nx c) (flat ny nx d)) as [|C]; [assumption|]. exfalso.
    assert (T : existsb (fun d => nth (flat ny nx d) data false && Nat.ltb (flat ny nx d) (flat ny nx c)) (cells nt ny nx) = true).
    { apply existsb_exists. exists d. split; [apply cells_In; exact Rd|]. unfold extreme in Xd. rewrite Xd. apply Nat.ltb_lt in C. rewrite C. reflexivity. }
    congruence.
Qed.

Lemma flat_surj i : i < nt * ny * nx -> exists c, in_range nt ny nx c /\ flat ny nx c = i.
Proof.
  intro H. assert (nx <> 0) by nia. assert (ny <> 0) by nia.
  exists (i / nx / ny, i / nx mod ny, i mod nx). simpl.
  pose proof (Nat.div_mod i nx ltac:(auto)). pose proof (Nat.div_mod (i / nx) ny ltac:(auto)).
  pose proof (Nat.mod_upper_bound i nx ltac:(auto)). pose proof (Nat.mod_upper_bound (i / nx) ny ltac:(auto)).
  assert (i / nx < nt * ny) by (apply Nat.div_lt_upper_bound; [auto|nia]).
  assert (i / nx / ny < nt) by (apply Nat.div_lt_upper_bound; [auto|nia]).
  split; [auto|]. nia.
Qed.

Lemma first_label f : first_extreme nt ny nx data f -> label_of ny nx lab f = 1%Z.
Proof.
  intros (R & X & M). unfold label_of, lab. apply label_first; [exact X|].
  intros j Oj. pose proof (onb_lt _ _ Oj) as Lj. rewrite L in Lj. destruct (flat_surj j Lj) as (d & Rd & <-).
  apply M; auto.
Qed.

Lemma flat_time c d : in_range nt ny nx c -> in_range nt ny nx d ->
  flat ny nx c <= flat ny nx d -> fst (fst c) <= fst (fst d).
Proof.
  destruct c as [[t y] x], d as [[t' y'] x']. unfold in_range, flat. simpl. intros (_ & Hy & Hx) (_ & Hy' & Hx') H.
  destruct (Nat.leb_spec t t'); auto. exfalso.
  assert (t' * ny + y' + 1 <= t * ny + y) by nia. nia.
Qed.

Lemma hd_flat_map {A B} (f : A -> list B) (l1 : list A) a l2 b :
  (forall x, In x l1 -> f x = []) -> hd_error (f a) = Some b ->
  hd_error (flat_map f (l1 ++ a :: l2)) = Some b.
Proof.
  intros E H. induction l1 as [|x l1 IH]; simpl.
  - destruct (f a); [discriminate|exact H].
  - rewrite (E x (or_introl eq_refl)). apply IH. intros y Hy. apply E. right; exact Hy.
Qed.

Lemma head_is_one f : first_extreme nt ny nx data f ->
  hd_error (flat_map unique_pos slices) = Some 1%Z.
Proof.
  intros F. pose proof (first_label f F) as LF. destruct F as (R & X & M).
  set (t := fst (fst f)). assert (Ht : t < nt) by (destruct f as [[tf y] x]; simpl in *; tauto).
  assert (S : slices = map (slice ny nx 0%Z lab) (seq 0 t) ++ slice ny nx 0%Z lab t :: map (slice ny nx 0%Z lab) (seq (S t) (nt - S t))).
  { unfold slices. replace nt with (t + S (nt - S t)) at 1 by lia. rewrite seq_app, map_app. reflexivity. }
  rewrite S. apply hd_flat_map.
  - intros s Hs. apply in_map_iff in Hs. destruct Hs as (t' & <- & Ht'). apply in_seq in Ht'.
    destruct (unique_pos (slice ny nx 0%Z lab t')) as [|id r] eqn:U; [reflexivity|]. exfalso.
    assert (I : In id (unique_pos (slice ny nx 0%Z lab t'))) by (rewrite U; left; auto).
    apply unique_pos_In in I. destruct I as [P I]. apply slice_has in I; [|lia|exact P].
    destruct I as (c & Rc & Tc & Xc & _). specialize (M c Rc Xc). apply flat_time in M; auto. unfold t in Ht'. lia.
  - assert (I : In 1%Z (unique_pos (slice ny nx 0%Z lab t))).
    { apply unique_pos_In. split; [lia|]. apply slice_has; [exact Ht|lia|]. exists f. auto. }
    pose proof (unique_pos_sorted (slice ny nx 0%Z lab t)) as St.
    assert (P : forall z, In z (unique_pos (slice ny nx 0%Z lab t)) -> (0 < z)%Z) by (intros z Hz; apply unique_pos_In in Hz; tauto).
    destruct (unique_pos (slice ny nx 0%Z lab t)) as [|z r]; [destruct I|]. simpl. f_equal.
    destruct I as [I|I]; [auto|]. apply StronglySorted_inv in St. destruct St as [_ F]. rewrite Forall_forall in F.
    specialize (F _ I). specialize (P z (or_introl eq_refl)). lia.
Qed.

Lemma keep_label thr c : in_range nt ny nx c ->
  (In (label_of ny nx lab c) (ids_keep thr (grid_props slices)) <->
   extreme ny nx data c /\
   (exists l, object_cells regional nt ny nx data c l /\ (thr <= nat_Q (length l))%Q) /\
   ~ (exists f, first_extreme nt ny nx data f /\ jn c f)).
Proof.
  intro R. rewrite (keep_In thr slices _ slices_disjoint (lab_nonneg c)). rewrite lab_pos by exact R.
  destruct lab_spec as (_ & B & _).
  split; intros (X & H1 & H2); split; auto.
  - split.
    + destruct (object_cells_exist c R X) as [l O]. exists l. split; [exact O|].
      rewrite <- (object_size c l R X O). destruct H2 as (s & Hs & Hi & Q).
      assert (Es : s = slice ny nx 0%Z lab (fst (fst c))).
      { unfold slices in Hs. apply in_map_iff in Hs. destruct Hs as (t & <- & Ht). apply in_seq in Ht.
        apply slice_has in Hi; [|lia|apply lab_pos; auto]. destruct Hi as (d & Rd & Td & Xd & E).
        apply B in E; auto. apply chain_time in E. congruence. }
      subst s. exact Q.
    + intros (f & F & J). pose proof (first_label f F) as LF. rewrite (head_is_one f F) in H1. apply H1. f_equal.
      rewrite <- LF. destruct F as (Rf & Xf & _). symmetry. apply B; auto.
  - destruct H1 as (l & O & Q). split.
    + intro C. apply H2. destruct (first_exists c R X) as [f F]. exists f. split; [exact F|].
      pose proof (first_label f F) as LF. rewrite (head_is_one f F) in C. injection C as C.
      destruct F as (Rf & Xf & _). apply B; auto. congruence.
    + exists (slice ny nx 0%Z lab (fst (fst c))). rewrite (object_size c l R X O).
      assert (Ht : fst (fst c) < nt) by (destruct c as [[t y] x]; simpl in *; tauto).
      split; [apply in_map; apply in_seq; lia|]. split; [|exact Q].
      apply slice_has; [exact Ht|apply lab_pos; auto|]. exists c. auto.
Qed.

(** *** Counting objects through labels *)
Lemma counts_by_labels (ks : list Z) (P : cell -> Prop) :
  NoDup ks -> (forall c, in_range nt ny nx c -> P c -> extreme ny nx data c) ->
  (forall k, In k ks -> exists c, in_range nt ny nx c /\ P c /\ label_of ny nx lab c = k) ->
  (forall c, in_range nt ny nx c -> P c -> In (label_of ny nx lab c) ks) ->
  counts_objects regional nt ny nx data (length ks) P.
Proof.
  intros N X Hk Hc.
  assert (E : exists reps, length reps = length ks /\ (forall c, In c reps -> in_range nt ny nx c /\ P c) /\
     ForallOrdPairs (fun a b => ~ jn a b) reps /\ (forall k, In k ks <-> exists r, In r reps /\ label_of ny nx lab r = k)).
  { clear Hc. induction ks as [|k ks IH].
    - exists []. split; [reflexivity|]. split; [intros c []|]. split; [constructor|]. intro k; split; [intros []|intros (r & [] & _)].
    - inversion N as [|? ? Nk N']; subst. destruct IH as (reps & A & B & C & D); auto; [intros; apply Hk; right; auto|].
      destruct (Hk k (or_introl eq_refl)) as (c & R & Pc & Lc).
      exists (c :: reps). split; [simpl; congruence|]. split; [intros d [<-|Hd]; auto|]. split.
      + constructor; [|exact C]. apply Forall_forall. intros d Hd J. destruct (B d Hd) as [Rd Pd].
        destruct lab_spec as (_ & S & _). apply S in J; auto. apply Nk. apply D. exists d. split; auto. congruence.
      + intro j. simpl. rewrite D. split.
        * intros [<-|(r & Hr & Er)]; [exists c; auto|exists r; auto].
        * intros (r & [<-|Hr] & Er); [left; congruence|right; exists r; auto]. }
  destruct E as (reps & A & B & C & D). exists reps. split; [exact A|]. split; [exact B|]. split; [exact C|].
  intros c R Pc. specialize (Hc c R Pc). apply D in Hc. destruct Hc as (r & Hr & Er). exists r. split; [exact Hr|].
  destruct (B r Hr) as [Rr Pr]. destruct lab_spec as (_ & S & _). apply S; auto.
Qed.

Lemma count_before : counts_objects regional nt ny nx data (label_count data es) (extreme ny nx data).
Proof.
  destruct lab_spec as (_ & _ & K).
  replace (label_count data es) with (length (map (fun k => Z.of_nat (S k)) (seq 0 (label_count data es))))
    by (rewrite map_length, seq_length; reflexivity).
  apply counts_by_labels; auto.
  - apply FinFun.Injective_map_NoDup; [intros a b E; lia|apply seq_NoDup].
  - intros k Hk. apply in_map_iff in Hk. destruct Hk as (j & <- & Hj). apply in_seq in Hj.
    destruct (proj1 (K (Z.of_nat (S j))) ltac:(lia)) as (i & Hi & Xi & Ei). rewrite L in Hi.
    destruct (flat_surj i Hi) as (c & R & <-). exists c. auto.
  - intros c R X. apply in_map_iff.
    assert (B : (1 <= label_of ny nx lab c <= Z.of_nat (label_count data es))%Z).
    { apply K. exists (flat ny nx c). split; [rewrite L; apply flat_lt; exact R|]. auto. }
    exists (Z.to_nat (label_of ny nx lab c) - 1). split; [lia|]. apply in_seq. lia.
Qed.

Lemma count_after thr :
  counts_objects regional nt ny nx data (count (Z.ltb 0) (ids_keep thr (grid_props slices)))
    (fun c => In (label_of ny nx lab c) (ids_keep thr (grid_props slices))).
Proof.
  set (keep := ids_keep thr (grid_props slices)). unfold count.
  assert (Pos : forall p, In p (grid_props slices) -> (0 < fst p)%Z).
  { intros [i a] H. apply props_In in H. destruct H as (s & _ & _ & H & _). exact H. }
  apply counts_by_labels.
  - unfold keep. rewrite keep_positive by exact Pos. apply NoDup_map_filter.
    pose proof (props_NoDup slices slices_disjoint) as N. destruct (grid_props slices); [constructor|].
    simpl in *. inversion N; auto.
  - intros c R H. apply keep_label in H; tauto.
  - intros k Hk. apply filter_In in Hk. destruct Hk as [Hk P]. apply Z.ltb_lt in P.
    pose proof Hk as Hk0. unfold keep in Hk. apply keep_In in Hk; [|apply slices_disjoint|lia].
    destruct Hk as (_ & _ & s & Hs & Hi & _). unfold slices in Hs. apply in_map_iff in Hs.
    destruct Hs as (t & <- & Ht). apply in_seq in Ht. apply slice_has in Hi; [|lia|exact P].
    destruct Hi as (c & R & _ & X & <-). exists c. auto.
  - intros c R H. apply filter_In. split; [exact H|]. apply Z.ltb_lt. apply lab_pos; auto.
    apply keep_label in H; tauto.
Qed.

(** *** The whole function *)
Lemma kept_is_label keep c : in_range nt ny nx c ->
  (kept_at nx (map (map (fun id => memZ id keep)) slices) c <-> In (label_of ny nx lab c) keep).
Proof.
  destruct c as [[t y] x]. intros (Ht & Hy & Hx). unfold kept_at.
  assert (E : nth t (map (map (fun id => memZ id keep)) slices) [] = map (fun id => memZ id keep) (slice ny nx 0%Z lab t)).
  { change (@nil bool) with (map (fun id => memZ id keep) []). rewrite (map_nth (map (fun id => memZ id keep))).
    rewrite slices_nth. apply Nat.ltb_lt in Ht. rewrite Ht. reflexivity. }
  rewrite E.
  rewrite (nth_indep _ false (memZ 0%Z keep)) by (rewrite map_length; unfold slice; rewrite map_length, slice_cells_length; nia).
  rewrite (map_nth (fun id => memZ id keep)). rewrite slice_nth by assumption. rewrite memZ_In. reflexivity.
Qed.

Lemma filter_grid_eq r :
  filter_grid regional r nt ny nx data =
  match grid_props slices with
  | [] => Err NoObjects
  | _ => let thr := threshold_of r (map snd (grid_props slices)) in
         let keep := ids_keep thr (grid_props slices) in
         Ok (mkFiltered (map (map (fun id => memZ id keep)) slices) thr (map snd (grid_props slices)) (label_count data es)
               (count (Z.ltb 0) keep))
  end.
Proof. reflexivity. Qed.

Lemma filter_grid_spec r f : filter_grid regional r nt ny nx data = Ok f ->
  (forall c, in_range nt ny nx c ->
     (kept_at nx (f_keep f) c <->
      extreme ny nx data c /\
      (exists l, object_cells regional nt ny nx data c l /\ (f_threshold f <= nat_Q (length l))%Q) /\
      ~ (exists g, first_extreme nt ny nx data g /\ jn c g))) /\
  counts_objects regional nt ny nx data (f_before f) (extreme ny nx data) /\
  counts_objects regional nt ny nx data (f_after f) (kept_at nx (f_keep f)).
Proof.
  rewrite filter_grid_eq. destruct (grid_props slices) as [|p0 l0] eqn:G; [discriminate|]. rewrite <- G. clear G p0 l0.
  intro E. injection E as <-. cbn [f_keep f_threshold f_before f_after].
  set (thr := threshold_of r (map snd (grid_props slices))).
  split; [|split].
  - intros c R. rewrite kept_is_label by exact R. apply keep_label. exact R.
  - apply count_before.
  - destruct (count_after thr) as (reps & A & B & C & D). exists reps. split; [exact A|]. split.
    + intros c Hc. destruct (B c Hc) as [R H]. split; [exact R|]. apply kept_is_label; auto.
    + split; [exact C|]. intros c R H. apply D; auto. apply kept_is_label in H; auto.
Qed.

Lemma filter_grid_fails r e : filter_grid regional r nt ny nx data = Err e ->
  e = NoObjects /\ forall c, in_range nt ny nx c -> ~ extreme ny nx data c.
Proof.
  rewrite filter_grid_eq. destruct (grid_props slices) as [|p0 l0] eqn:G; [|discriminate].
  intro E. injection E as <-. split; [reflexivity|]. intros c R X.
  assert (I : In (label_of ny nx lab c, cells_with (label_of ny nx lab c) (slice ny nx 0%Z lab (fst (fst c)))) (grid_props slices)).
  { apply props_In. exists (slice ny nx 0%Z lab (fst (fst c))).
    assert (Ht : fst (fst c) < nt) by (destruct c as [[t y] x]; simpl in *; tauto).
    split; [apply in_map; apply in_seq; lia|]. split; [|split; [apply lab_pos; auto|reflexivity]].
    apply slice_has; [exact Ht|apply lab_pos; auto|]. exists c. auto. }
  rewrite G in I. destruct I.
Qed.

End Grid.
