(** Thresholds, statistics, meshes and ID offsets. *)
From Coq Require Import Sorted Permutation Qround Lqa.
From Verif Require Import Base Graph GraphProofs Label LabelSpec LabelProofs Morph MorphSpec
  Filter FilterSpec FilterProofs FilterGridProofs.
Open Scope nat_scope.

(** *** numpy.percentile is monotone in the fraction *)
Lemma insert_nat_In x l y : In y (insert_nat x l) <-> y = x \/ In y l.
Proof.
  induction l as [|z l IH]; simpl; [intuition|]. destruct (Nat.leb x z); simpl; [intuition|]. rewrite IH. intuition.
Qed.
Lemma insert_nat_sorted x l : StronglySorted le l -> StronglySorted le (insert_nat x l).
Proof.
  induction l as [|z l IH]; intro S; simpl; [repeat constructor|].
  apply StronglySorted_inv in S. destruct S as [S F]. destruct (Nat.leb_spec x z).
  - constructor; [constructor; assumption|]. constructor; [assumption|]. eapply Forall_impl; [|exact F]. intros; lia.
  - constructor; [auto|]. apply Forall_forall. intros y Hy. apply insert_nat_In in Hy. rewrite Forall_forall in F.
    destruct Hy as [->|Hy]; [lia|auto].
Qed.
Lemma sort_nat_sorted l : StronglySorted le (sort_nat l).
Proof. induction l as [|x l IH]; simpl; [constructor|]. apply insert_nat_sorted. exact IH. Qed.
Lemma sort_nat_In l y : In y (sort_nat l) <-> In y l.
Proof. induction l as [|x l IH]; simpl; [tauto|]. rewrite insert_nat_In, IH. intuition. Qed.
Lemma insert_nat_length x l : length (insert_nat x l) = S (length l).
Proof. induction l as [|z l IH]; simpl; [reflexivity|]. destruct (Nat.leb x z); simpl; lia. Qed.
Lemma sort_nat_length l : length (sort_nat l) = length l.
Proof. induction l as [|x l IH]; simpl; [reflexivity|]. rewrite insert_nat_length. lia. Qed.

Lemma sorted_nth l : StronglySorted le l -> forall i j, i <= j -> j < length l -> nth i l 0 <= nth j l 0.
Proof.
  induction 1 as [|x l S IH F]; intros i j H B; simpl in B; [lia|].
  destruct j as [|j]; [assert (i = 0) by lia; subst; reflexivity|]. simpl. destruct i as [|i].
  - rewrite Forall_forall in F. apply F. apply nth_In. lia.
  - apply IH; lia.
Qed.

Lemma nat_Q_le a b : a <= b -> (nat_Q a <= nat_Q b)%Q.
Proof. intro H. unfold nat_Q. rewrite <- Zle_Qle. lia. Qed.

Lemma floor_bounds p : (inject_Z (Qfloor p) <= p)%Q /\ (p < inject_Z (Qfloor p) + 1)%Q.
Proof.
  split; [apply Qfloor_le|]. pose proof (Qlt_floor p) as H. rewrite inject_Z_plus in H. exact H.
Qed.

Lemma percentile_mono q q' areas : areas <> [] -> (0 <= q)%Q -> (q <= q')%Q -> (q' <= 1)%Q ->
  (percentile q areas <= percentile q' areas)%Q.
Proof.
  intros NE H0 H1 H2. unfold percentile.
  set (s := sort_nat areas). set (n := length s). assert (Hn : 0 < n).
  { unfold n, s. rewrite sort_nat_length. destruct areas; [congruence|simpl; lia]. }
  set (p := (q * nat_Q (n - 1))%Q). set (p' := (q' * nat_Q (n - 1))%Q).
  assert (M0 : (0 <= nat_Q (n - 1))%Q) by (change 0%Q with (nat_Q 0); apply nat_Q_le; lia).
  assert (P0 : (0 <= p)%Q) by (unfold p; nra).
  assert (PP : (p <= p')%Q) by (unfold p, p'; nra).
  assert (P1 : (p' <= nat_Q (n - 1))%Q) by (unfold p'; nra).
  assert (F0 : (0 <= Qfloor p)%Z). { change 0%Z with (Qfloor 0). apply Qfloor_resp_le. exact P0. }
  assert (FF : (Qfloor p <= Qfloor p')%Z) by (apply Qfloor_resp_le; exact PP).
  assert (F1 : (Qfloor p' <= Z.of_nat (n - 1))%Z).
  { rewrite <- (Qfloor_Z (Z.of_nat (n - 1))). apply Qfloor_resp_le. exact P1. }
  pose proof (sorted_nth s (sort_nat_sorted areas)) as SN. fold n in SN.
  pose proof (floor_bounds p) as [B1 B2]. pose proof (floor_bounds p') as [B1' B2'].
  set (F := Z.to_nat (Qfloor p)). set (F' := Z.to_nat (Qfloor p')).
  assert (E : (nat_Q (nth F s 0%nat) <= nat_Q (nth (Nat.min (S F) (n - 1)) s 0%nat))%Q) by (apply nat_Q_le, SN; lia).
  assert (E' : (nat_Q (nth F' s 0%nat) <= nat_Q (nth (Nat.min (S F') (n - 1)) s 0%nat))%Q) by (apply nat_Q_le, SN; lia).
  destruct (Z.eq_dec (Qfloor p) (Qfloor p')) as [EQ|NEQ].
  - assert (F = F') by (unfold F, F'; congruence).
    rewrite <- H. rewrite <- EQ. rewrite <- H in E'.
    set (a := nat_Q (nth F s 0%nat)) in *. set (b := nat_Q (nth (Nat.min (S F) (n - 1)) s 0%nat)) in *.
    nra.
  - assert (G : (nat_Q (nth (Nat.min (S F) (n - 1)) s 0%nat) <= nat_Q (nth F' s 0%nat))%Q) by (apply nat_Q_le, SN; lia).
    set (a := nat_Q (nth F s 0%nat)) in *. set (b := nat_Q (nth (Nat.min (S F) (n - 1)) s 0%nat)) in *.
    set (a' := nat_Q (nth F' s 0%nat)) in *. set (b' := nat_Q (nth (Nat.min (S F') (n - 1)) s 0%nat)) in *.
    assert (X : (a + (b - a) * (p - inject_Z (Qfloor p)) <= b)%Q).
    { set (z := (p - inject_Z (Qfloor p))%Q) in *. assert (0 <= z)%Q by (unfold z; lra). assert (z <= 1)%Q by (unfold z; lra). nra. }
    assert (Y : (a' <= a' + (b' - a') * (p' - inject_Z (Qfloor p')))%Q).
    { set (z := (p' - inject_Z (Qfloor p'))%Q) in *. assert (0 <= z)%Q by (unfold z; lra). nra. }
    lra.
Qed.

(** The threshold is between the smallest and the largest object. *)
Lemma percentile_max q areas : areas <> [] -> (0 <= q)%Q -> (q <= 1)%Q ->
  exists a, In a areas /\ (percentile q areas <= nat_Q a)%Q.
Proof.
  intros NE H0 H1. exists (nth (length areas - 1) (sort_nat areas) 0).
  assert (Hn : 0 < length areas) by (destruct areas; [congruence|simpl; lia]).
  split.
  - apply sort_nat_In. apply nth_In. rewrite sort_nat_length. lia.
  - eapply Qle_trans; [apply (percentile_mono q 1); auto; lra|]. unfold percentile. rewrite sort_nat_length.
    set (n := length areas) in *.
    assert (E : (1 * nat_Q (n - 1) == nat_Q (n - 1))%Q) by ring.
    assert (EF : Qfloor (1 * nat_Q (n - 1)) = Z.of_nat (n - 1)).
    { rewrite (Qfloor_comp _ _ E). apply Qfloor_Z. }
    rewrite EF. rewrite Nat2Z.id. rewrite Nat.min_r by lia.
    set (z := nat_Q (nth (n - 1) (sort_nat areas) 0%nat)). assert (z - z == 0)%Q by ring. nra.
Qed.

Section GridMore.
Variables (regional : bool) (nt ny nx : nat) (data : list bool).
Hypothesis L : length data = nt * ny * nx.
Notation jn := (joined regional nt ny nx data).

Lemma threshold_mono r1 r2 f1 f2 : rule_le r1 r2 ->
  filter_grid regional r1 nt ny nx data = Ok f1 -> filter_grid regional r2 nt ny nx data = Ok f2 ->
  (f_threshold f1 <= f_threshold f2)%Q.
Proof.
  intros M. rewrite !filter_grid_eq.
  set (gp := grid_props _). destruct gp as [|p l] eqn:G; [discriminate|]. rewrite <- G.
  intros E1 E2. injection E1 as <-. injection E2 as <-. cbn [f_threshold].
  assert (NE : map snd gp <> []) by (rewrite G; discriminate).
  destruct r1, r2; simpl in *; try tauto.
  - rewrite <- Zle_Qle. exact M.
  - apply percentile_mono; tauto.
Qed.

Lemma filter_mono r1 r2 f1 f2 : rule_le r1 r2 ->
  filter_grid regional r1 nt ny nx data = Ok f1 -> filter_grid regional r2 nt ny nx data = Ok f2 ->
  forall c, in_range nt ny nx c -> kept_at nx (f_keep f2) c -> kept_at nx (f_keep f1) c.
Proof.
  intros M E1 E2 c R K. pose proof (threshold_mono r1 r2 f1 f2 M E1 E2) as T.
  apply filter_grid_spec in E1; auto. apply filter_grid_spec in E2; auto.
  destruct E1 as (S1 & _), E2 as (S2 & _). apply S1; auto. apply S2 in K; auto.
  destruct K as (X & (l & O & Q) & N). split; [exact X|]. split; [|exact N]. exists l. split; [exact O|].
  eapply Qle_trans; eauto.
Qed.

Lemma filter_whole r f : filter_grid regional r nt ny nx data = Ok f ->
  forall c d, in_range nt ny nx c -> in_range nt ny nx d -> extreme ny nx data d -> jn c d ->
  kept_at nx (f_keep f) c -> kept_at nx (f_keep f) d.
Proof.
  intros E c d Rc Rd Xd J K. apply filter_grid_spec in E; auto. destruct E as (S & _).
  apply S in K; auto. apply S; auto. destruct K as (X & (l & O & Q) & N).
  pose proof (chain_sym regional nt ny nx data c d Rc X J) as J'.
  split; [exact Xd|]. split.
  - exists l. split; [|exact Q]. destruct O as [ND O]. split; [exact ND|]. intro e. rewrite O.
    split; intros (Re & Xe & Je); repeat split; auto; eapply chain_trans; eauto.
  - intros (g & F & Jg). apply N. exists g. split; [exact F|]. eapply chain_trans; eauto.
Qed.

(** *** Summed sizes *)
Lemma sumN_app a b : sumN (a ++ b) = sumN a + sumN b.
Proof. induction a as [|x a IH]; simpl; [reflexivity|]. rewrite IH. lia. Qed.

Lemma sum_counts ks s : NoDup ks ->
  sumN (map (fun k => cells_with k s) ks) = count (fun x => memZ x ks) s.
Proof.
  induction ks as [|k ks IH]; intro N.
  - unfold count. clear. induction s; simpl; auto.
  - inversion N as [|? ? Nk N']; subst.
    change (sumN (map (fun k => cells_with k s) (k :: ks))) with (cells_with k s + sumN (map (fun k => cells_with k s) ks)).
    rewrite IH by exact N'. unfold cells_with. clear IH N.
    induction s as [|x s IHs]; [reflexivity|]. rewrite !count_cons. cbv beta.
    assert (M : memZ x (k :: ks) = (Z.eqb k x || memZ x ks)%bool) by (unfold memZ; cbn [existsb]; rewrite (Z.eqb_sym x k); reflexivity).
    rewrite M. destruct (Z.eqb_spec k x) as [->|NE].
    + assert (F : memZ x ks = false) by (apply memZ_false; exact Nk). rewrite F. cbn [orb]. lia.
    + cbn [orb]. lia.
Qed.

Lemma slice_total s : (forall x, In x s -> (0 <= x)%Z) -> sumN (map snd (slice_props s)) = count (Z.ltb 0) s.
Proof.
  intro P. unfold slice_props. rewrite map_map. cbn [snd].
  rewrite sum_counts by apply unique_pos_NoDup. apply count_ext. intros x Hx.
  destruct (Z.ltb_spec 0 x).
  - apply memZ_In. apply unique_pos_In. auto.
  - apply memZ_false. rewrite unique_pos_In. lia.
Qed.

Lemma grid_total slices : (forall s, In s slices -> forall x, In x s -> (0 <= x)%Z) ->
  sumN (map snd (grid_props slices)) = sumN (map (count (Z.ltb 0)) slices).
Proof.
  induction slices as [|s r IH]; intro P; [reflexivity|]. unfold grid_props in *. simpl.
  rewrite map_app, sumN_app, IH by (intros; eapply P; [right; eassumption|assumption]).
  rewrite slice_total by (apply P; left; reflexivity). reflexivity.
Qed.

Lemma list_prod_app {A B} (a b : list A) (c : list B) : list_prod (a ++ b) c = list_prod a c ++ list_prod b c.
Proof. induction a as [|x a IH]; simpl; [reflexivity|]. rewrite IH, app_assoc. reflexivity. Qed.

Lemma cells_slices n m : list_prod (list_prod (seq m n) (seq 0 ny)) (seq 0 nx)
  = flat_map (slice_cells ny nx) (seq m n).
Proof.
  revert m. induction n as [|n IH]; intro m; [reflexivity|]. cbn [seq list_prod flat_map].
  rewrite list_prod_app, IH. unfold slice_cells. cbn [list_prod]. rewrite app_nil_r. reflexivity.
Qed.

Lemma count_flat_map {A B} (g : B -> bool) (f : A -> list B) l :
  count g (flat_map f l) = sumN (map (fun x => count g (f x)) l).
Proof. induction l as [|x l IH]; simpl; [reflexivity|]. rewrite count_app, IH. reflexivity. Qed.

Lemma count_cells (g : nat -> bool) :
  count (fun c => g (flat ny nx c)) (cells nt ny nx) = count g (seq 0 (nt * ny * nx)).
Proof.
  unfold count. rewrite <- (map_length (flat ny nx)).
  apply Permutation_length. apply NoDup_Permutation.
  - assert (G : forall l, NoDup l -> (forall c, In c l -> in_range nt ny nx c) -> NoDup (map (flat ny nx) l)).
    { induction l as [|c l IH]; intros N R; simpl; [constructor|]. inversion N as [|? ? Nc N']; subst. constructor.
      - intro C. apply in_map_iff in C. destruct C as (d & E & Hd).
        assert (d = c) by (eapply flat_inj; eauto; apply R; simpl; auto). subst. contradiction.
      - apply IH; auto. intros d Hd. apply R. right; auto. }
    apply G.
    + apply NoDup_filter. unfold cells. rewrite cells_slices.
      assert (H : forall n m, NoDup (flat_map (slice_cells ny nx) (seq m n))).
      { induction n as [|n IH]; intro m; simpl; [constructor|]. apply NoDup_app_iff_local; [apply slice_cells_NoDup|apply IH|].
        intros c H1 H2. apply slice_cells_In in H1. apply in_flat_map in H2. destruct H2 as (t & Ht & H2).
        apply slice_cells_In in H2. apply in_seq in Ht. lia. }
      apply H.
    + intros c Hc. apply filter_In in Hc. apply cells_In. tauto.
  - apply NoDup_filter, seq_NoDup.
  - intro i. rewrite in_map_iff, filter_In, in_seq. split.
    + intros (c & <- & H). apply filter_In in H. destruct H as [H1 H2]. apply cells_In in H1. apply flat_lt in H1. split; [lia|exact H2].
    + intros [Hi Gi]. destruct (flat_surj nt ny nx data L i ltac:(lia)) as (c & R & E). exists c. split; [exact E|].
      apply filter_In. split; [apply cells_In; exact R|]. rewrite E. exact Gi.
Qed.

Lemma count_nth (l : list bool) : count (fun b => b) l = count (fun i => nth i l false) (seq 0 (length l)).
Proof.
  unfold count. induction l as [|b l IH] using rev_ind; [reflexivity|].
  rewrite app_length. cbn [length]. rewrite Nat.add_1_r, seq_S, !filter_app, !app_length. cbn [Nat.add].
  f_equal.
  - rewrite IH. f_equal. apply filter_ext_in. intros i Hi. apply in_seq in Hi. rewrite app_nth1 by lia. reflexivity.
  - cbn [filter]. rewrite app_nth2 by lia. rewrite Nat.sub_diag. cbn [nth]. destruct b; reflexivity.
Qed.

Lemma total_area_is_extreme_cells r f : filter_grid regional r nt ny nx data = Ok f ->
  total_area_IDed f = count (fun b => b) data.
Proof.
  rewrite filter_grid_eq. set (slices := map _ _). destruct (grid_props slices) as [|p l] eqn:G; [discriminate|]. rewrite <- G.
  intro E. injection E as <-. unfold total_area_IDed. cbn [f_areas]. unfold slices.
  set (lab := label_on data (grid_edges false (negb regional) nt ny nx)).
  rewrite grid_total.
  - rewrite count_nth, L, <- count_cells. unfold cells. rewrite cells_slices, count_flat_map, map_map. f_equal.
    apply map_ext_in. intros t Ht. apply in_seq in Ht. unfold slice, count.
    assert (H : forall cs, (forall c, In c cs -> in_range nt ny nx c) ->
      length (filter (Z.ltb 0) (map (fun c => nth (flat ny nx c) lab 0%Z) cs)) =
      length (filter (fun c => nth (flat ny nx c) data false) cs)).
    { induction cs as [|c cs IH]; intro R; simpl; [reflexivity|].
      pose proof (lab_pos regional nt ny nx data L c (R c (or_introl eq_refl))) as P.
      unfold label_of, extreme in P. fold lab in P.
      destruct (nth (flat ny nx c) data false) eqn:D.
      - assert (Q : (0 <? nth (flat ny nx c) lab 0)%Z = true) by (apply Z.ltb_lt, P; reflexivity). rewrite Q. simpl. f_equal.
        apply IH. intros d Hd. apply R. right; auto.
      - assert (Q : (0 <? nth (flat ny nx c) lab 0)%Z = false).
        { apply Z.ltb_ge. destruct (Z.leb_spec (nth (flat ny nx c) lab 0%Z) 0); auto. apply P in H. discriminate. }
        rewrite Q. apply IH. intros d Hd. apply R. right; auto. }
    apply H. intros [[t' y] x] Hc. apply slice_cells_In in Hc. simpl in *. lia.
  - intros s Hs x Hx. apply in_map_iff in Hs. destruct Hs as (t & <- & _). unfold slice in Hx. apply in_map_iff in Hx.
    destruct Hx as (c & <- & _). apply label_on_nonneg.
Qed.

End GridMore.

Lemma accepted_le f : accepted_area f <= total_area_IDed f.
Proof.
  unfold accepted_area, total_area_IDed. induction (f_areas f) as [|a l IH]; simpl; [lia|].
  destruct (Qltb (f_threshold f) (nat_Q a)); simpl; lia.
Qed.

Lemma accepted_fraction_range f : 0 < total_area_IDed f ->
  (0 <= accepted_area_fraction f)%Q /\ (accepted_area_fraction f <= 1)%Q.
Proof.
  intro P. unfold accepted_area_fraction. pose proof (accepted_le f) as A.
  assert (T : (0 < nat_Q (total_area_IDed f))%Q) by (unfold nat_Q; change 0%Q with (inject_Z 0); rewrite <- Zlt_Qlt; lia).
  split.
  - apply Qle_shift_div_l; [exact T|]. rewrite Qmult_0_l. change 0%Q with (nat_Q 0). apply nat_Q_le. lia.
  - apply Qle_shift_div_r; [exact T|]. rewrite Qmult_1_l. apply nat_Q_le. exact A.
Qed.

Lemma total_positive_grid regional r nt ny nx data f : length data = nt * ny * nx ->
  filter_grid regional r nt ny nx data = Ok f -> 0 < total_area_IDed f.
Proof.
  intros L E. rewrite (total_area_is_extreme_cells _ _ _ _ _ L _ _ E). apply count_pos.
  rewrite filter_grid_eq in E. set (slices := map _ _) in E.
  destruct (grid_props slices) as [|[id a] l] eqn:G; [discriminate|].
  assert (I : In (id, a) (grid_props slices)) by (rewrite G; left; auto).
  apply props_In in I. destruct I as (s & Hs & Hi & P & _). unfold slices in Hs. apply in_map_iff in Hs.
  destruct Hs as (t & <- & Ht). apply in_seq in Ht. apply slice_has in Hi; auto; [|lia].
  destruct Hi as (c & R & _ & X & _). exists true. split; [|reflexivity]. rewrite <- X. apply nth_In.
  rewrite L. apply flat_lt. exact R.
Qed.

(** *** Meshes *)
Lemma maxZ_ge l x : In x l -> (x <= maxZ l)%Z.
Proof. induction l as [|y l IH]; simpl; [tauto|]. intros [->|H]; [lia|]. apply IH in H. lia. Qed.
Lemma maxZ_nonneg l : (0 <= maxZ l)%Z.
Proof. induction l; simpl; lia. Qed.

Lemma max_id_ge fields f x : In f fields -> In x f -> (x <= Z.of_nat (max_id fields))%Z.
Proof.
  intros Hf Hx. unfold max_id. pose proof (maxZ_ge f x Hx).
  pose proof (maxZ_ge (map maxZ fields) (maxZ f) (in_map _ _ _ Hf)). pose proof (maxZ_nonneg (map maxZ fields)). lia.
Qed.

Lemma unique_fits fields f : In f fields -> length (unique_pos f) <= max_id fields.
Proof.
  intro Hf. rewrite <- (seq_length (max_id fields) 1), <- (map_length Z.of_nat).
  apply NoDup_incl_length; [apply unique_pos_NoDup|]. intros x Hx. apply unique_pos_In in Hx.
  destruct Hx as [P Hx]. pose proof (max_id_ge fields f x Hf Hx). apply in_map_iff. exists (Z.to_nat x).
  split; [lia|]. apply in_seq. lia.
Qed.

Lemma combine_pad {A B} (a : list A) (b : list B) za zb n p : length a = length b ->
  In p (combine (pad0 za n a) (pad0 zb n b)) -> In p (combine a b) \/ p = (za, zb).
Proof.
  intros E. unfold pad0. rewrite E. revert b E. induction a as [|x a IH]; intros [|y b] E; simpl in E; try discriminate.
  - simpl. generalize (n - 0). intros k H. right. clear -H. induction k as [|k IH]; simpl in H; [destruct H|].
    destruct H as [<-|H]; auto.
  - simpl. intros [<-|H]; auto.
    destruct (n - S (length b)) eqn:K.
    + simpl in H. rewrite !app_nil_r in H. auto.
    + assert (M : n - length b = S (n - S (length b))) by lia.
      assert (G : In p (combine (a ++ repeat za (n - length b)) (b ++ repeat zb (n - length b)))).
      { rewrite M, K. clear -H E. injection E as E. revert b E H. induction a as [|u a IHa]; intros [|v b] E H; simpl in *; try discriminate.
        - destruct H as [H|H]; auto.
        - destruct H as [H|H]; [left; exact H|right; apply IHa; auto]. }
      injection E as E. specialize (IH b E G). tauto.
Qed.

Lemma combine_pad_in {A B} (a : list A) (b : list B) za zb n p : length a = length b ->
  In p (combine a b) -> In p (combine (pad0 za n a) (pad0 zb n b)).
Proof.
  intros E. unfold pad0. rewrite E. generalize (n - length b). intro k.
  revert b E. induction a as [|x a IH]; intros [|y b] E; simpl in *; try discriminate; [tauto|].
  intros [H|H]; auto.
Qed.

Lemma keep_mesh_spec thr n ids i : (forall x, In x ids -> (0 <= x)%Z) ->
  (nth i (keep_mesh thr (cluster_sizes n ids) ids) false = true <->
   (0 < nth i ids 0)%Z /\ (thr < nat_Q (cells_with (nth i ids 0%Z) ids))%Q).
Proof.
  intro P0. unfold keep_mesh, cluster_sizes. cbn [fst snd].
  set (u := unique_pos ids). set (cs := map (fun id => cells_with id ids) u).
  set (keep := filter (Z.ltb 0) _).
  assert (K : forall id, In id keep <-> (0 < id)%Z /\ In id ids /\ (thr < nat_Q (cells_with id ids))%Q).
  { intro id. unfold keep. rewrite filter_In, Z.ltb_lt, in_map_iff.
    assert (EL : length cs = length u) by (unfold cs; apply map_length).
    assert (C : forall p, In p (combine cs u) <-> exists id0, In id0 u /\ p = (cells_with id0 ids, id0)).
    { intro p. unfold cs. clear. induction u as [|x u IH]; simpl; [split; [tauto|intros (? & [] & _)]|].
      rewrite IH. split.
      - intros [<-|(z & Hz & ->)]; [exists x; auto|exists z; auto].
      - intros (z & [<-|Hz] & ->); [auto|right; exists z; auto]. }
    split.
    - intros [[p [E H]] P]. apply combine_pad in H; [|exact EL]. destruct H as [H| ->].
      + apply C in H. destruct H as (id0 & H & ->). cbn [fst snd] in E. destruct (Qltb thr (nat_Q (cells_with id0 ids))) eqn:T; [|lia].
        subst id0. apply unique_pos_In in H. apply Qltb_spec in T. tauto.
      + cbn [fst snd] in E. destruct (Qltb thr (nat_Q 0)); lia.
    - intros (P & I & T). split; [|exact P]. exists (cells_with id ids, id). cbn [fst snd].
      apply Qltb_spec in T. rewrite T. split; [reflexivity|]. apply combine_pad_in; [exact EL|]. apply C. exists id.
      split; [|reflexivity]. apply unique_pos_In. auto. }
  destruct (Nat.ltb_spec i (length ids)) as [H|H].
  - rewrite (nth_indep _ false (memZ 0%Z keep)) by (rewrite map_length; exact H).
    rewrite (map_nth (fun id => memZ id keep)). rewrite memZ_In, K. pose proof (nth_In ids 0%Z H). tauto.
  - rewrite (nth_overflow (map _ ids)) by (rewrite map_length; exact H). rewrite (nth_overflow ids) by exact H.
    split; [discriminate|lia].
Qed.

Lemma combine_map_l {A B} (g : A -> B) l : combine (map g l) l = map (fun x => (g x, x)) l.
Proof. induction l as [|x l IH]; simpl; [reflexivity|]. rewrite IH. reflexivity. Qed.

Lemma filter_mesh_spec r fields f : (forall s, In s fields -> forall x, In x s -> (0 <= x)%Z) ->
  filter_mesh r fields = Ok f ->
  length (f_keep f) = length fields /\
  forall t i, t < length fields ->
    (nth i (nth t (f_keep f) []) false = true <->
     (0 < nth i (nth t fields []) 0)%Z /\
     (f_threshold f < nat_Q (cells_with (nth i (nth t fields []) 0%Z) (nth t fields [])))%Q).
Proof.
  intros P0. unfold filter_mesh. set (n := max_id fields).
  set (sizes := flat_map _ _). set (pre := filter _ sizes). destruct pre as [|p0 l0] eqn:G; [discriminate|]. rewrite <- G.
  intro E. injection E as <-. cbn [f_keep f_threshold]. rewrite combine_map_l, map_map. cbn [fst snd].
  split; [apply map_length|]. intros t i Ht.
  set (thr := threshold_of r pre).
  rewrite (nth_indep _ [] (keep_mesh thr (cluster_sizes n []) [])) by (rewrite map_length; exact Ht).
  rewrite (map_nth (fun s => keep_mesh thr (cluster_sizes n s) s)).
  apply keep_mesh_spec. apply P0. apply nth_In. exact Ht.
Qed.

(** *** ID offsets *)
Lemma cumulative_length fields : forall k, length (cumulative k fields) = length fields.
Proof. induction fields as [|f r IH]; intro k; simpl; auto. Qed.

Lemma cumulative_step fields : forall k t t', t < t' -> t' < length fields ->
  (nth t (cumulative k fields) 0 + maxZ (nth t fields []) <= nth t' (cumulative k fields) 0)%Z.
Proof.
  induction fields as [|f r IH]; intros k t t' H B; simpl in B; [lia|].
  destruct t' as [|t']; [lia|]. destruct t as [|t]; simpl.
  - clear IH H. revert r k B. induction t' as [|t' IHt]; intros [|g r] k B; simpl in *; try lia.
    specialize (IHt r (k + maxZ g)%Z ltac:(lia)). pose proof (maxZ_nonneg g).
    assert (E : forall l a b j, j < length l -> nth j (cumulative (a + b) l) 0%Z = (b + nth j (cumulative a l) 0)%Z).
    { clear. induction l as [|x l IH]; intros a b j Hj; simpl in *; [lia|]. destruct j; [lia|].
      replace (a + b + maxZ x)%Z with (a + maxZ x + b)%Z by lia. apply IH. lia. }
    rewrite (E r (k + maxZ g)%Z (maxZ f) t' ltac:(lia)) in IHt.
    replace (k + maxZ f + maxZ g)%Z with (k + maxZ g + maxZ f)%Z by lia.
    rewrite (E r (k + maxZ g)%Z (maxZ f) t' ltac:(lia)). lia.
  - apply IH; lia.
Qed.

Lemma cumulative_nonneg fields : forall k t, (0 <= k)%Z -> (0 <= nth t (cumulative k fields) 0)%Z.
Proof.
  induction fields as [|f r IH]; intros k t H; simpl; [destruct t; lia|].
  destruct t; [exact H|]. apply IH. pose proof (maxZ_nonneg f). lia.
Qed.

Lemma offset_at fields t i : t < length fields -> i < length (nth t fields []) ->
  at2 (offset_ids fields) t i =
  if Z.ltb 0 (at2 fields t i) then (at2 fields t i + nth t (cumulative 0 fields) 0)%Z else 0%Z.
Proof.
  intros Ht Hi. unfold at2, offset_ids.
  set (g := fun p : list Z * Z => map (fun id => if Z.ltb 0 id then (id + snd p)%Z else 0%Z) (fst p)).
  rewrite (nth_indep _ [] (g ([], 0%Z))) by (rewrite map_length, combine_length, cumulative_length; lia).
  rewrite (map_nth g). rewrite combine_nth by (rewrite cumulative_length; reflexivity). unfold g. cbn [fst snd].
  set (h := fun id : Z => if (0 <? id)%Z then (id + nth t (cumulative 0 fields) 0)%Z else 0%Z).
  rewrite (nth_indep _ 0%Z (h 0%Z)) by (rewrite map_length; exact Hi). rewrite (map_nth h). reflexivity.
Qed.

Lemma offset_ids_spec fields : (forall s, In s fields -> forall x, In x s -> (0 <= x)%Z) ->
  (forall t i, t < length fields -> i < length (nth t fields []) ->
     (0 <= at2 (offset_ids fields) t i)%Z /\ (at2 (offset_ids fields) t i = 0%Z <-> at2 fields t i = 0%Z)) /\
  (forall t i j, t < length fields -> i < length (nth t fields []) -> j < length (nth t fields []) ->
     (at2 (offset_ids fields) t i = at2 (offset_ids fields) t j <-> at2 fields t i = at2 fields t j)) /\
  (forall t t' i j, t < length fields -> t' < length fields ->
     i < length (nth t fields []) -> j < length (nth t' fields []) -> t <> t' ->
     at2 (offset_ids fields) t i <> 0%Z -> at2 (offset_ids fields) t i <> at2 (offset_ids fields) t' j).
Proof.
  intro P0.
  assert (P : forall t i, t < length fields -> i < length (nth t fields []) -> (0 <= at2 fields t i <= maxZ (nth t fields []))%Z).
  { intros t i Ht Hi. unfold at2. pose proof (nth_In fields [] Ht) as I. pose proof (nth_In _ 0%Z Hi) as J.
    split; [eapply P0; eauto|apply maxZ_ge; exact J]. }
  assert (C : forall t, (0 <= nth t (cumulative 0 fields) 0)%Z) by (intro t; apply cumulative_nonneg; lia).
  split; [|split].
  - intros t i Ht Hi. rewrite offset_at by assumption. specialize (P t i Ht Hi). specialize (C t).
    destruct (Z.ltb_spec 0 (at2 fields t i)); lia.
  - intros t i j Ht Hi Hj. rewrite !offset_at by assumption. pose proof (P t i Ht Hi). pose proof (P t j Ht Hj). specialize (C t).
    destruct (Z.ltb_spec 0 (at2 fields t i)), (Z.ltb_spec 0 (at2 fields t j)); lia.
  - intros t t' i j Ht Ht' Hi Hj N. rewrite !offset_at by assumption. pose proof (P t i Ht Hi). pose proof (P t' j Ht' Hj).
    pose proof (C t). pose proof (C t').
    assert (K : (nth t (cumulative 0 fields) 0 + maxZ (nth t fields []) <= nth t' (cumulative 0 fields) 0)%Z \/
                (nth t' (cumulative 0 fields) 0 + maxZ (nth t' fields []) <= nth t (cumulative 0 fields) 0)%Z).
    { destruct (Nat.lt_ge_cases t t'); [left|right]; apply cumulative_step; lia. }
    destruct (Z.ltb_spec 0 (at2 fields t i)), (Z.ltb_spec 0 (at2 fields t' j)); lia.
Qed.
