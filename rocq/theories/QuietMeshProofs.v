(** Meshes: quiet steps before and after a record. *)
From Verif Require Import Base Graph Morph MorphSpec MorphProofs MorphMeshProofs MorphTimeProofs MorphProps Label LabelSpec LabelProofs Filter FilterSpec FilterProofs FilterAreaProofs FilterMeshProofs FilterProps Overlap OverlapSpec
  Merge MergeSpec Cluster ClusterSpec ClusterProofs MeshPart Parallel Run RunSpec MeshRun MeshRunProps StatsRunProps RelateProofs RelateProps MeshMoveSpec MeshMoveProofs MeshMoveRunProofs UnmergedProofs RetrackProps.
Open Scope nat_scope.

(** A list between [a] and [b] copies of [z]. *)
Definition padded {A} (z : A) (a b : nat) (l : list A) : list A := repeat z a ++ l ++ repeat z b.
Lemma padded_length {A} (z : A) a b l : length (padded z a b l) = a + length l + b.
Proof. unfold padded. rewrite !app_length, !repeat_length. lia. Qed.
Lemma padded_in {A} (z : A) a b l d t : t < length l -> nth (a + t) (padded z a b l) d = nth t l d.
Proof. intro T. unfold padded. rewrite app_nth2; rewrite repeat_length; [|lia]. rewrite app_nth1 by lia. f_equal. lia. Qed.
Lemma padded_out {A} (z : A) a b l t : ~ a <= t < a + length l -> nth t (padded z a b l) z = z.
Proof.
  intro T. unfold padded. destruct (Nat.lt_ge_cases t a); [rewrite app_nth1 by (rewrite repeat_length; lia); apply nth_repeat|].
  rewrite app_nth2; rewrite repeat_length; [|lia]. rewrite app_nth2 by lia. apply nth_repeat.
Qed.
Lemma padded_map {A B} (f : A -> B) z a b l : map f (padded z a b l) = padded (f z) a b (map f l).
Proof. unfold padded. rewrite !map_app. f_equal; [|f_equal]; rewrite <- (map_id (repeat (f z) _)); generalize a b; intros; match goal with |- map f (repeat z ?k) = _ => induction k; cbn; congruence end. Qed.
Lemma padded_In {A} (z : A) a b l x : In x (padded z a b l) -> x = z \/ In x l.
Proof. unfold padded. rewrite !in_app_iff. intros [I|[I|I]]; [left; apply repeat_spec in I; exact I|right; exact I|left; apply repeat_spec in I; exact I]. Qed.

(** *** Filling *)
Lemma pad_closed T l a b c c' : (0 <= T)%Z -> Z.even T = true -> close_time T l = Some c -> close_time T (padded false a b l) = Some c' -> c' = padded false a b c.
Proof.
  intros T0 Te E E'. destruct (close_time_gaps _ _ _ T0 Te E) as [L G]. destruct (close_time_gaps _ _ _ T0 Te E') as [L' G']. rewrite padded_length in L'.
  assert (Out : forall u, ext l u -> (0 <= u < Z.of_nat (length l))%Z).
  { intros u U. unfold ext, at_t in U. destruct (Z.leb_spec 0 u), (Z.ltb_spec u (Z.of_nat (length l))); cbn in U; try discriminate. lia. }
  assert (Nt : forall l0 t, t < length l0 -> (ext l0 (Z.of_nat t) <-> nth t l0 false = true)).
  { intros l0 t I. unfold ext, at_t. destruct (Z.leb_spec 0 (Z.of_nat t)); [|lia]. destruct (Z.ltb_spec (Z.of_nat t) (Z.of_nat (length l0))); [|lia]. cbn [andb]. rewrite Nat2Z.id. reflexivity. }
  apply (nth_ext _ _ false false); [rewrite padded_length; lia|]. intros t I. apply eq_true_iff_eq. rewrite <- Nt by exact I.
  rewrite (G' (Z.of_nat t)) by (rewrite padded_length; lia). unfold padded at 1 2. rewrite ext_pad, gap_pad.
  destruct (Nat.le_gt_cases a t) as [A|A]; [destruct (Nat.lt_ge_cases t (a + length l)) as [B|B]|].
  - replace t with (a + (t - a)) at 3 by lia. rewrite padded_in by lia. rewrite <- Nt by lia. replace (Z.of_nat t - Z.of_nat a)%Z with (Z.of_nat (t - a)) by lia. symmetry. apply G. lia.
  - rewrite padded_out by lia. split; [|discriminate]. intros [H|(p & q & H & _ & P & Q0 & _)]; [apply Out in H; lia|apply Out in P; apply Out in Q0; lia].
  - rewrite padded_out by lia. split; [|discriminate]. intros [H|(p & q & H & _ & P & Q0 & _)]; [apply Out in H; lia|apply Out in P; apply Out in Q0; lia].
Qed.

Section Quiet.
Variables (m : mesh) (mask : list bool).
Hypothesis Hm : mesh_ok m.
Hypothesis Hsym : mesh_sym m.
Hypothesis Lm : length mask = length m.
Let n := length m.
Let dark := repeat false n.
Definition masked (v : list bool) : list bool := map (fun p => fst p && snd p) (combine mask v).

Lemma masked_at v i : length v = n -> i < n -> nth i (masked v) false = (nth i mask false && nth i v false)%bool.
Proof.
  intros L I. unfold masked. rewrite (map_nth0 _ _ i (false, false)) by (rewrite combine_length, L, Lm; fold n; lia).
  rewrite combine_nth by (rewrite L, Lm; reflexivity). reflexivity.
Qed.
Lemma masked_length v : length v = n -> length (masked v) = n.
Proof. intro L. unfold masked. rewrite map_length, combine_length, L, Lm. apply Nat.min_id. Qed.
Lemma masked_eq v v' : length v = n -> length v' = n -> (forall i, i < n -> atb mask i = true -> atb v i = atb v' i) -> masked v = masked v'.
Proof.
  intros L L' H. apply (nth_ext _ _ false false); [rewrite !masked_length by assumption; reflexivity|]. intros i I. rewrite masked_length in I by exact L. rewrite !masked_at by assumption.
  destruct (nth i mask false) eqn:M; [|reflexivity]. cbn [andb]. apply H; assumption.
Qed.
Lemma masked_val v v' i : length v = n -> length v' = n -> masked v = masked v' -> i < n -> atb mask i = true -> atb v i = atb v' i.
Proof. intros L L' E I M. assert (X := masked_at v i L I). rewrite E, (masked_at v' i L' I) in X. unfold atb in *. rewrite M in X. cbn [andb] in X. symmetry. exact X. Qed.
Lemma dark_length : length dark = n.
Proof. apply repeat_length. Qed.
Lemma dark_at i : atb dark i = false.
Proof. unfold atb, dark. destruct (Nat.lt_ge_cases i n); [apply nth_repeat|apply nth_overflow; rewrite repeat_length; assumption]. Qed.
Lemma masked_dark : masked dark = dark.
Proof. apply (nth_ext _ _ false false); [rewrite masked_length; rewrite dark_length; reflexivity|]. intros i I. rewrite masked_length in I by apply dark_length. rewrite masked_at by (try apply dark_length; exact I). fold (atb dark i). rewrite dark_at. apply andb_false_r. Qed.

(** A quiet step stays quiet in the ocean. *)
Lemma fill_dark R v : length v = n -> masked v = dark -> R = 0 \/ (forall i, i < n -> atb mask i = true) \/ v = dark -> masked (fill_holes_mesh m R mask v) = dark.
Proof.
  intros L E C. rewrite <- masked_dark. apply masked_eq; [apply fill_mesh_length; [exact Lm|exact L]|apply dark_length|]. intros i I M. rewrite dark_at.
  destruct C as [->|C]; [rewrite unfilled_at by assumption; rewrite <- masked_dark in E; rewrite (masked_val v dark i L dark_length E I M); apply dark_at|].
  assert (V : v = dark).
  { destruct C as [O| ->]; [|reflexivity]. apply (nth_ext _ _ false false); [rewrite L, dark_length; reflexivity|]. intros k K. rewrite L in K. rewrite <- masked_dark in E. apply (masked_val v dark k L dark_length E K (O k K)). }
  destruct (atb (fill_holes_mesh m R mask v) i) eqn:F; [|reflexivity]. destruct (C12_marks_only_near_extremes m R mask v i Hm Hsym Lm L I M F) as (l & _ & X). rewrite V, dark_at in X. discriminate.
Qed.
Lemma fill_masked R v v' : length v = n -> length v' = n -> masked v = masked v' -> R = 0 \/ (forall i, i < n -> atb mask i = true) -> masked (fill_holes_mesh m R mask v) = masked (fill_holes_mesh m R mask v').
Proof.
  intros L L' E [->|O].
  - apply masked_eq; [apply fill_mesh_length; assumption..|]. intros i I M. rewrite !unfilled_at by assumption. apply (masked_val v v' i L L' E I M).
  - replace v' with v; [reflexivity|]. apply (nth_ext _ _ false false); [congruence|]. intros k K. rewrite L in K. apply (masked_val v v' k L L' E K (O k K)).
Qed.

(** *** Labelling and filtering *)
Lemma identify_masked v v' : masked v = masked v' -> identify_mesh m mask v = identify_mesh m mask v'.
Proof. intro E. unfold identify_mesh. cbv zeta. fold (masked v). fold (masked v'). rewrite E. reflexivity. Qed.
Lemma identify_dark : identify_mesh m mask dark = repeat 0%Z n.
Proof.
  destruct (identify_mesh_spec m mask dark Hm Lm dark_length) as (L & Z0 & _). apply (nth_ext _ _ 0%Z 0%Z); [rewrite L, repeat_length; reflexivity|]. intros i I. rewrite L in I. rewrite nth_repeat.
  apply (Z0 i I). intros (_ & _ & V). assert (X := dark_at i). unfold atb in X. congruence.
Qed.
Lemma identify_padded a b s s' : map masked s' = padded dark a b (map masked s) -> map (identify_mesh m mask) s' = padded (repeat 0%Z n) a b (map (identify_mesh m mask) s).
Proof.
  intro E. assert (Le : length s' = a + length s + b) by (rewrite <- (map_length masked s'), E, padded_length, map_length; reflexivity).
  apply (nth_ext _ _ (repeat 0%Z n) (repeat 0%Z n)); [rewrite map_length, padded_length, map_length; exact Le|]. intros t T. rewrite map_length in T. rewrite (map_nth0 _ _ t dark) by exact T.
  assert (Mt : masked (nth t s' dark) = nth t (padded dark a b (map masked s)) dark) by (rewrite <- E; symmetry; apply map_nth0; exact T).
  destruct (Nat.le_gt_cases a t) as [A|A]; [destruct (Nat.lt_ge_cases t (a + length s)) as [B|B]|].
  - destruct (Nat.le_exists_sub a t A) as (u & -> & _). rewrite (Nat.add_comm u a) in *. assert (Lt : u < length s) by lia. rewrite padded_in in Mt by (rewrite map_length; exact Lt). rewrite padded_in by (rewrite map_length; exact Lt). rewrite (map_nth0 _ _ u dark) in Mt by exact Lt. rewrite (map_nth0 _ _ u dark) by exact Lt. apply identify_masked. exact Mt.
  - rewrite padded_out in Mt by (rewrite map_length; lia). rewrite padded_out by (rewrite map_length; lia). rewrite <- identify_dark. apply identify_masked. rewrite masked_dark. exact Mt.
  - rewrite padded_out in Mt by (rewrite map_length; lia). rewrite padded_out by (rewrite map_length; lia). rewrite <- identify_dark. apply identify_masked. rewrite masked_dark. exact Mt.
Qed.
End Quiet.

Lemma maxZ_pad a b (l : list Z) : maxZ (padded 0%Z a b l) = maxZ l.
Proof.
  unfold maxZ, padded. rewrite !fold_right_app. assert (P : forall k x, (0 <= x)%Z -> fold_right Z.max x (repeat 0%Z k) = x) by (intros k x X; induction k as [|k IH]; cbn; lia).
  rewrite (P b 0%Z) by lia. apply P. induction l as [|x l IH]; cbn; lia.
Qed.
Lemma unique_zeros n : unique_pos (repeat 0%Z n) = [].
Proof. unfold unique_pos. replace (filter (Z.ltb 0) (repeat 0%Z n)) with (@nil Z); [reflexivity|]. induction n as [|n IH]; [reflexivity|]. cbn. exact IH. Qed.
Lemma maxZ_zeros n : maxZ (repeat 0%Z n) = 0%Z.
Proof. unfold maxZ. induction n as [|n IH]; cbn; lia. Qed.
Lemma flat_zeros k c : flat_map fst (repeat (repeat 0 k, repeat 0%Z k) c) = repeat 0 (c * k).
Proof. induction c as [|c IH]; [reflexivity|]. cbn [repeat flat_map fst]. rewrite IH, <- repeat_app. reflexivity. Qed.
Lemma filter_zeros (p : nat -> bool) k : p 0 = false -> filter p (repeat 0 k) = [].
Proof. intro P. induction k as [|k IH]; [reflexivity|]. cbn [repeat filter]. rewrite P. exact IH. Qed.
Lemma sum_zeros k : sumN (repeat 0 k) = 0.
Proof. unfold sumN. induction k as [|k IH]; [reflexivity|]. exact IH. Qed.
Lemma sum_app a b : sumN (a ++ b) = sumN a + sumN b.
Proof. unfold sumN. induction a as [|x a IH]; [reflexivity|]. cbn [app fold_right]. lia. Qed.
Lemma sum_filter_zeros (p : nat -> bool) k : sumN (filter p (repeat 0 k)) = 0.
Proof. unfold sumN. induction k as [|k IH]; [reflexivity|]. cbn [repeat filter]. destruct (p 0); exact IH. Qed.
Lemma combine_pad {A B} (x : A) (y : B) a b l r : length l = length r -> combine (padded x a b l) (padded y a b r) = padded (x, y) a b (combine l r).
Proof.
  intro L. assert (P : forall k, combine (repeat x k) (repeat y k) = repeat (x, y) k) by (induction k; cbn; congruence).
  unfold padded. induction a as [|a IH]; [|cbn; rewrite IH; reflexivity]. cbn [repeat app]. revert r L. induction l as [|u l IH]; intros [|v r] L; try discriminate; [apply P|]. cbn. rewrite IH by (cbn in L; lia). reflexivity.
Qed.

Lemma filter_padded r n a b fs f : filter_mesh r fs = Ok f -> exists f', filter_mesh r (padded (repeat 0%Z n) a b fs) = Ok f' /\
  f_keep f' = padded (repeat false n) a b (f_keep f) /\ f_threshold f' = f_threshold f /\ f_before f' = f_before f /\ f_after f' = f_after f /\
  total_area_IDed f' = total_area_IDed f /\ accepted_area f' = accepted_area f.
Proof.
  unfold filter_mesh. set (q := if is_absolute r then 5 else 50). assert (Q0 : Nat.ltb q 0 = false) by (destruct q; reflexivity).
  assert (M : max_id (padded (repeat 0%Z n) a b fs) = max_id fs) by (unfold max_id; rewrite padded_map, maxZ_zeros, maxZ_pad; reflexivity). rewrite M. set (k := max_id fs).
  assert (Z0 : cluster_sizes k (repeat 0%Z n) = (repeat 0 k, repeat 0%Z k)) by (unfold cluster_sizes, pad0; rewrite unique_zeros; cbn; rewrite Nat.sub_0_r; reflexivity).
  rewrite padded_map, Z0. set (tb := map (cluster_sizes k) fs).
  assert (Fl : flat_map fst (padded (repeat 0 k, repeat 0%Z k) a b tb) = repeat 0 (a * k) ++ flat_map fst tb ++ repeat 0 (b * k)) by (unfold padded; rewrite !flat_map_app, !flat_zeros; reflexivity).
  rewrite Fl. rewrite !filter_app, !filter_zeros, app_nil_r by exact Q0. cbn [app].
  destruct (filter (Nat.ltb q) (flat_map fst tb)) as [|x l] eqn:E; [discriminate|]. intro Eq. injection Eq as <-. eexists. split; [reflexivity|]. unfold total_area_IDed, accepted_area. cbn [f_keep f_threshold f_before f_after f_areas].
  split; [|split; [reflexivity|split; [reflexivity|split; [reflexivity|split]]]].
  - rewrite combine_pad by apply map_length. rewrite padded_map. f_equal. cbn [fst snd]. unfold keep_mesh. set (kp := filter _ _).
    assert (N0 : memZ 0 kp = false). { destruct (memZ 0 kp) eqn:I; [|reflexivity]. apply memZ_In in I. unfold kp in I. apply filter_In in I. destruct I as [_ I]. discriminate. }
    clear - N0. induction n as [|n IH]; [reflexivity|]. cbn [repeat map]. rewrite N0, IH. reflexivity.
  - rewrite !sum_app, !sum_zeros. lia.
  - rewrite !filter_app, !sum_app, !sum_filter_zeros. lia.
Qed.

(** *** The filled record *)
Lemma quiet_filled h a b data s : setup_ok h data -> mesh_sym (h_nbs h) -> Z.even (h_T h) = true ->
  h_T h = 0%Z \/ h_R h <= 1 \/ (forall i, i < length (h_nbs h) -> atb (h_mask h) i = true) ->
  let dark := repeat false (length (h_nbs h)) in
  fill_time_gaps_mesh h (map (fill_holes_mesh (h_nbs h) (h_R h) (h_mask h)) data) = Some s ->
  exists s', fill_time_gaps_mesh h (map (fill_holes_mesh (h_nbs h) (h_R h) (h_mask h)) (padded dark a b data)) = Some s' /\
    map (masked (h_mask h)) s' = padded dark a b (map (masked (h_mask h)) s).
Proof.
  intros (Hm & Lm & _ & _ & Ld) Hy Te Cd dark E. set (n := length (h_nbs h)) in *.
  assert (Dl : length dark = n) by apply repeat_length.
  assert (Qu : masked (h_mask h) (fill_holes_mesh (h_nbs h) (h_R h) (h_mask h) dark) = dark).
  { apply (fill_dark (h_nbs h) (h_mask h) Hm Hy Lm); [exact Dl|apply (masked_dark (h_nbs h)); exact Lm|right; right; reflexivity]. }
  set (u := map (fill_holes_mesh (h_nbs h) (h_R h) (h_mask h)) data) in *. set (z := fill_holes_mesh (h_nbs h) (h_R h) (h_mask h) dark) in *.
  rewrite padded_map. fold u. fold z. unfold fill_time_gaps_mesh in *. destruct (Z.eqb_spec (h_T h) 0) as [Z0|Z0].
  { injection E as <-. eexists. split; [reflexivity|]. rewrite padded_map, Qu. reflexivity. }
  destruct (Z.ltb_spec (h_T h + 1) 0) as [Ng|Ng]; [discriminate|]. injection E as <-.
  assert (T0 : (0 <= h_T h)%Z). { destruct (Z.eq_dec (h_T h) (-1)) as [X|X]; [rewrite X in Te; discriminate|lia]. }
  assert (Cd' : h_R h / 2 = 0 \/ (forall i, i < n -> atb (h_mask h) i = true)).
  { destruct Cd as [X|[X|X]]; [contradiction|left; apply Nat.div_small; lia|right; exact X]. }
  eexists. split; [reflexivity|]. set (ser := fun i => match close_time (h_T h) (map (fun v => atb v i) u) with Some l => l | None => [] end).
  set (ser' := fun i => match close_time (h_T h) (map (fun v => atb v i) (padded z a b u)) with Some l => l | None => [] end).
  assert (Lu : length u = length data) by apply map_length.
  assert (Rw : forall t k, t < n -> nth t (map k (seq 0 n)) false = k t) by (intros t k T; rewrite (map_nth0 _ _ t 0) by (rewrite seq_length; exact T); rewrite seq_nth by exact T; reflexivity).
  assert (Ls : forall i, length (ser i) = length u).
  { intro i. unfold ser. destruct (close_time_total (h_T h) (map (fun v => atb v i) u) T0) as (l & El). rewrite El. destruct (close_time_gaps _ _ _ T0 Te El) as [Ll _]. rewrite Ll. apply map_length. }
  assert (Sr : forall i, i < n -> atb (h_mask h) i = true -> ser' i = padded false a b (ser i)).
  { intros i I O. unfold ser, ser'. assert (Pd : map (fun v => atb v i) (padded z a b u) = padded false a b (map (fun v => atb v i) u)).
    { rewrite padded_map. f_equal. rewrite <- (dark_at (h_nbs h) i). fold n. fold dark. apply (masked_val (h_nbs h) (h_mask h) Lm z dark i); [apply fill_mesh_length; [exact Lm|exact Dl]|exact Dl| |exact I|exact O]. rewrite Qu. symmetry. apply (masked_dark (h_nbs h)). exact Lm. }
    rewrite Pd. destruct (close_time_total (h_T h) (map (fun v => atb v i) u) T0) as (l & El). destruct (close_time_total (h_T h) (padded false a b (map (fun v => atb v i) u)) T0) as (l' & El'). rewrite El, El'. apply (pad_closed _ _ _ _ _ _ T0 Te El El'). }
  set (row := fun t => map (fun i => nth t (ser i) false) (seq 0 n)). set (row' := fun t => map (fun i => nth t (ser' i) false) (seq 0 n)).
  assert (Lr : forall t, length (row t) = n) by (intro t; unfold row; rewrite map_length, seq_length; reflexivity).
  assert (Lr' : forall t, length (row' t) = n) by (intro t; unfold row'; rewrite map_length, seq_length; reflexivity).
  assert (Ra : forall t i, i < n -> atb (row t) i = nth t (ser i) false) by (intros t i I; exact (Rw i (fun i => nth t (ser i) false) I)).
  assert (Ra' : forall t i, i < n -> atb (row' t) i = nth t (ser' i) false) by (intros t i I; exact (Rw i (fun i => nth t (ser' i) false) I)).
  apply (nth_ext _ _ dark dark); [rewrite ?map_length, ?seq_length, ?padded_length, ?map_length, ?seq_length; reflexivity|]. intros t T. rewrite !map_length, seq_length, padded_length in T.
  rewrite map_map. rewrite (map_nth0 _ _ t 0) by (rewrite seq_length, padded_length; exact T). rewrite seq_nth by (rewrite padded_length; exact T). rewrite Nat.add_0_l. fold ser'. change (map (fun i => nth t (ser' i) false) (seq 0 n)) with (row' t).
  assert (Out : ~ a <= t < a + length u -> masked (h_mask h) (fill_holes_mesh (h_nbs h) (h_R h / 2) (h_mask h) (row' t)) = dark).
  { intro O. apply (fill_dark (h_nbs h) (h_mask h) Hm Hy Lm); [apply Lr'| |destruct Cd'; auto].
    rewrite <- (masked_dark (h_nbs h) (h_mask h) Lm). fold n. fold dark. apply (masked_eq (h_nbs h) (h_mask h) Lm); [apply Lr'|exact Dl|]. intros i I M. rewrite (Ra' t i I), (Sr i I M), padded_out by (rewrite Ls; exact O).
    symmetry. exact (dark_at (h_nbs h) i). }
  destruct (Nat.le_gt_cases a t) as [A|A]; [destruct (Nat.lt_ge_cases t (a + length u)) as [B|B]|].
  - destruct (Nat.le_exists_sub a t A) as (v & -> & _). rewrite (Nat.add_comm v a) in *. assert (V : v < length u) by lia. rewrite padded_in by (rewrite !map_length, seq_length; exact V).
    rewrite map_map. rewrite (map_nth0 _ _ v 0) by (rewrite seq_length; exact V). rewrite seq_nth by exact V. rewrite Nat.add_0_l. fold ser. change (map (fun i => nth v (ser i) false) (seq 0 n)) with (row v).
    apply (fill_masked (h_nbs h) (h_mask h) Hm Lm (h_R h / 2) (row' (a + v)) (row v)); [apply Lr'|apply Lr| |exact Cd']. apply (masked_eq (h_nbs h) (h_mask h) Lm); [apply Lr'|apply Lr|]. intros i I M. rewrite (Ra v i I), (Ra' (a + v) i I), (Sr i I M). apply padded_in. rewrite Ls. exact V.
  - rewrite padded_out by (rewrite !map_length, seq_length; lia). apply Out. lia.
  - rewrite padded_out by (rewrite !map_length, seq_length; lia). apply Out. lia.
Qed.

(** *** Objects and overlaps *)
Section Objects.
Variables (m : mesh) (mask : list bool) (a b : nat).
Let n := length m.
Lemma pad_at t k d (l : list (list bool)) : nth k (nth t (padded (repeat false n) a b l) d) false = true -> a <= t < a + length l /\ nth k (nth (t - a) l d) false = true \/ nth k d false = true.
Proof.
  intro V. destruct (Nat.lt_ge_cases t (a + length l + b)) as [T|T]; [|right; rewrite (nth_overflow (padded (repeat false n) a b l) d) in V by (rewrite padded_length; exact T); exact V]. left.
  destruct (Nat.le_gt_cases a t) as [A|A]; [destruct (Nat.lt_ge_cases t (a + length l)) as [B|B]|].
  - split; [lia|]. destruct (Nat.le_exists_sub a t A) as (v & -> & _). rewrite (Nat.add_comm v a) in *. rewrite padded_in in V by lia. replace (a + v - a) with v by lia. exact V.
  - rewrite (nth_indep _ d (repeat false n)), padded_out in V by (rewrite ?padded_length; lia). assert (X := dark_at m k). unfold atb in X. fold n in X. congruence.
  - rewrite (nth_indep _ d (repeat false n)), padded_out in V by (rewrite ?padded_length; lia). assert (X := dark_at m k). unfold atb in X. fold n in X. congruence.
Qed.
Lemma extreme_padded keep t k : extreme_ocean m mask (padded (repeat false n) a b keep) t k <-> a <= t < a + length keep /\ extreme_ocean m mask keep (t - a) k.
Proof.
  unfold extreme_ocean. split.
  - intros (K & O & V). apply pad_at in V. destruct V as [[B V]|V]; [split; [exact B|split; [exact K|split; [exact O|exact V]]]|destruct k; discriminate].
  - intros (B & K & O & V). split; [exact K|]. split; [exact O|]. destruct (Nat.le_exists_sub a t (proj1 B)) as (v & -> & _). rewrite (Nat.add_comm v a) in *. rewrite padded_in by lia. replace (a + v - a) with v in V by lia. exact V.
Qed.
Lemma id_padded objs t k : k < n -> id_at (padded (repeat 0%Z n) a b objs) t k = if (Nat.leb a t && Nat.ltb t (a + length objs))%bool then id_at objs (t - a) k else 0%Z.
Proof.
  intro K. unfold id_at. destruct (Nat.leb_spec a t) as [A|A], (Nat.ltb_spec t (a + length objs)) as [B|B]; cbn [andb].
  1: { destruct (Nat.le_exists_sub a t A) as (v & -> & _). rewrite (Nat.add_comm v a) in *. rewrite padded_in by lia. replace (a + v - a) with v by lia. reflexivity. }
  all: destruct (Nat.lt_ge_cases t (a + length objs + b)) as [T|T]; [|rewrite (nth_overflow (padded (repeat 0%Z n) a b objs) []) by (rewrite padded_length; exact T); destruct k; reflexivity].
  all: rewrite (nth_indep _ [] (repeat 0%Z n)), padded_out by (rewrite ?padded_length; lia); apply nth_repeat.
Qed.
Lemma labelling_padded keep objs : object_labelling m mask keep objs -> object_labelling m mask (padded (repeat false n) a b keep) (padded (repeat 0%Z n) a b objs).
Proof.
  intros (L & R & C & G & U). unfold object_labelling. rewrite !padded_length, L. split; [reflexivity|]. split; [|split; [|split]].
  - intros t T. destruct (Nat.le_gt_cases a t) as [A|A]; [destruct (Nat.lt_ge_cases t (a + length objs)) as [B|B]|].
    + destruct (Nat.le_exists_sub a t A) as (v & -> & _). rewrite (Nat.add_comm v a) in *. rewrite padded_in by lia. apply R. lia.
    + rewrite (nth_indep _ [] (repeat 0%Z n)), padded_out by (rewrite ?padded_length; lia). apply repeat_length.
    + rewrite (nth_indep _ [] (repeat 0%Z n)), padded_out by (rewrite ?padded_length; lia). apply repeat_length.
  - intros t k T K. rewrite id_padded by exact K. rewrite extreme_padded. rewrite L. destruct (Nat.leb_spec a t) as [A|A], (Nat.ltb_spec t (a + length keep)) as [B|B]; cbn [andb]; try (split; [lia|]; split; [lia|intros [X _]; lia]).
    destruct (C (t - a) k ltac:(lia) K) as [C1 C2]. split; [exact C1|]. rewrite C2. intuition lia.
  - intros t j k T J K. assert (Kj := proj1 J). assert (Kk := proj1 K). rewrite !id_padded by assumption. apply extreme_padded in J. apply extreme_padded in K. destruct J as [B J]. destruct K as [_ K]. rewrite L.
    destruct (Nat.leb_spec a t) as [A|A], (Nat.ltb_spec t (a + length keep)) as [B1|B1]; try lia. cbn [andb]. rewrite (G (t - a) j k ltac:(lia) J K).
    split; apply mesh_chain_ext; intro i; rewrite extreme_padded; intuition.
  - assert (V : forall x t, (0 < x)%Z -> In x (nth t (padded (repeat 0%Z n) a b objs) []) -> a <= t < a + length objs /\ In x (nth (t - a) objs [])).
    { intros x t X I. destruct (Nat.lt_ge_cases t (a + length objs + b)) as [T|T]; [|rewrite nth_overflow in I by (rewrite padded_length; exact T); destruct I].
      destruct (Nat.le_gt_cases a t) as [A|A]; [destruct (Nat.lt_ge_cases t (a + length objs)) as [B|B]|].
      - split; [lia|]. destruct (Nat.le_exists_sub a t A) as (v & -> & _). rewrite (Nat.add_comm v a) in *. rewrite padded_in in I by lia. replace (a + v - a) with v by lia. exact I.
      - rewrite (nth_indep _ [] (repeat 0%Z n)), padded_out in I by (rewrite ?padded_length; lia). apply repeat_spec in I. lia.
      - rewrite (nth_indep _ [] (repeat 0%Z n)), padded_out in I by (rewrite ?padded_length; lia). apply repeat_spec in I. lia. }
    intros x s t X Is It. apply (V x s X) in Is. apply (V x t X) in It. destruct Is as [Bs Is]. destruct It as [Bt It]. assert (Y := U x _ _ X Is It). lia.
Qed.
Lemma overlap_padded w thr objs p c : consecutive_overlap w thr (padded (repeat 0%Z n) a b objs) p c <-> consecutive_overlap w thr objs p c.
Proof.
  split; intros (t & T & O).
  - rewrite padded_length in T. assert (B : a <= t /\ S t < a + length objs).
    { destruct O as (P & C & (k & K & E1 & E2) & _). destruct (Nat.lt_ge_cases k n) as [Kn|Kn].
      - fold (id_at (padded (repeat 0%Z n) a b objs) t k) in E1. fold (id_at (padded (repeat 0%Z n) a b objs) (S t) k) in E2. rewrite id_padded in E1, E2 by exact Kn.
        destruct (Nat.leb_spec a t), (Nat.ltb_spec t (a + length objs)); cbn [andb] in E1; try lia. destruct (Nat.leb_spec a (S t)), (Nat.ltb_spec (S t) (a + length objs)); cbn [andb] in E2; lia.
      - assert (D : forall u, u < a + length objs + b -> ~ a <= u < a + length objs -> nth k (nth u (padded (repeat 0%Z n) a b objs) []) 0%Z = 0%Z).
        { intros u U N. rewrite (nth_indep _ [] (repeat 0%Z n)), padded_out by (rewrite ?padded_length; lia). apply nth_overflow. rewrite repeat_length. exact Kn. }
        destruct (Nat.lt_ge_cases t a) as [X|X]; [rewrite (D t) in E1 by lia; lia|]. destruct (Nat.lt_ge_cases (S t) (a + length objs)) as [Y|Y]; [lia|]. rewrite (D (S t)) in E2 by lia. lia. }
    destruct (Nat.le_exists_sub a t (proj1 B)) as (v & -> & _). rewrite (Nat.add_comm v a) in *. exists v. split; [lia|]. rewrite <- Nat.add_succ_r in O. rewrite !padded_in in O by lia. exact O.
  - exists (a + t). rewrite padded_length. split; [lia|]. rewrite <- Nat.add_succ_r. rewrite !padded_in by lia. exact O.
Qed.
End Objects.
