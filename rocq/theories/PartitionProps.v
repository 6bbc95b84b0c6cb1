(** Property theorems C29-C32 (partitioning among parents on structured grids). *)
From Coq Require Import Lqa Qround.
From Verif Require Import Base Filter Overlap Merge Partition PartitionSpec PartitionProofs PartitionMore.
Open Scope nat_scope.

Definition mask_at (n : nat) (ks : list nat) : list bool := map (fun k => memN k ks) (seq 0 n).

(** C29, as claimed: the label of a cell belongs to a parent with a cell at
    minimal distance, if that is within max_distance.  False: only the nine bins
    around the cell are searched. *)
Theorem C29_nearest_parent_refuted :
  exists ny nx max_d child parents ids cents i j q d,
    length child = ny * nx /\ (forall m, In m parents -> length m = ny * nx) /\ NoDup ids /\
    partition_nn_grid ny nx false max_d child parents ids cents = [nth i ids 0%Z] /\
    parent_cell parents j q /\ apart false nx (nth 0 (points child) 0) q d /\ (d <= toQ max_d * toQ max_d)%Q /\
    (exists p, parent_cell parents i p) /\
    (forall p e, parent_cell parents i p -> apart false nx (nth 0 (points child) 0) p e -> (d < e)%Q).
Proof.
  exists 1, 100, 40, (mask_at 100 [50]), [mask_at 100 [39]; mask_at 100 [69]], [7; 8]%Z, [(0, 39); (0, 69)]%Q, 1, 0, 39, 121%Q.
  split; [reflexivity|]. split; [intros m [<-|[<-|[]]]; reflexivity|].
  split; [repeat constructor; cbn; intuition lia|]. split; [vm_compute; reflexivity|].
  split; [split; [cbn; lia|vm_compute; reflexivity]|]. split; [vm_compute; reflexivity|]. split; [vm_compute; discriminate|].
  split; [exists 69; split; [cbn; lia|vm_compute; reflexivity]|].
  intros p e [_ Hp] He. assert (p = 69).
  { assert (H : In p (points (mask_at 100 [69]))).
    { apply points_In. split; [|exact Hp]. destruct (Nat.lt_ge_cases p (length (mask_at 100 [69]))) as [L|L]; [exact L|].
      rewrite nth_overflow in Hp by exact L. discriminate. }
    change (points (mask_at 100 [69])) with [69] in H. destruct H as [<-|[]]. reflexivity. }
  subst p. apply apart_eq in He; [|lia]. rewrite He. vm_compute. reflexivity.
Qed.
Print Assumptions C29_nearest_parent_refuted.

(** Across the longitude seam parents are missed even within one bin width, when
    the bin width does not divide the number of columns. *)
Theorem C29_nearest_parent_seam_refuted :
  exists nx child parents ids cents,
    length child = nx /\ (forall m, In m parents -> length m = nx) /\
    partition_nn_grid 1 nx true 40 child parents ids cents = [nth 1 ids 0%Z] /\ NoDup ids /\
    (exists q d, parent_cell parents 0 q /\ apart true nx (nth 0 (points child) 0) q d /\
       (d <= toQ (bin_size 40) * toQ (bin_size 40))%Q /\
       forall p e, parent_cell parents 1 p -> apart true nx (nth 0 (points child) 0) p e -> (d < e)%Q).
Proof.
  exists 95, (mask_at 95 [0]), [mask_at 95 [89]; mask_at 95 [12]], [7; 8]%Z, [(0, 89); (0, 12)]%Q.
  split; [reflexivity|]. split; [intros m [<-|[<-|[]]]; reflexivity|].
  split; [vm_compute; reflexivity|]. split; [repeat constructor; cbn; intuition lia|].
  exists 89, (cell_dist2 true 95 0 89). split; [split; [cbn; lia|vm_compute; reflexivity]|].
  split; [apply cell_apart; lia|]. split; [vm_compute; discriminate|].
  intros p e [_ Hp] He. assert (p = 12).
  { assert (H : In p (points (mask_at 95 [12]))).
    { apply points_In. split; [|exact Hp]. destruct (Nat.lt_ge_cases p (length (mask_at 95 [12]))) as [L|L]; [exact L|].
      rewrite nth_overflow in Hp by exact L. discriminate. }
    change (points (mask_at 95 [12])) with [12] in H. destruct H as [<-|[]]. reflexivity. }
  subst p. apply apart_eq in He; [|lia]. rewrite He. vm_compute. reflexivity.
Qed.
Print Assumptions C29_nearest_parent_seam_refuted.

(** What holds: if some parent cell lies within one bin width of the child cell
    (a quarter of max_distance), and with wrapping the bins divide the grid, the
    label belongs to a parent with a cell at minimal distance among all parents'
    cells, the lowest such index.  Missing: cells whose nearest parent is
    farther away. *)
Theorem C29_nearest_parent_partial (ny nx : nat) (wrap : bool) (max_d : nat) (child : list bool)
    (parents : list (list bool)) (ids : list Z) (cents : list (Q * Q)) (n p0 i0 : nat) (d0 : Q) :
  0 < nx -> length child = ny * nx -> (forall m, In m parents -> length m = ny * nx) ->
  (wrap = true -> nx mod bin_size max_d = 0) -> 2 <= max_d ->
  n < length (points child) ->
  parent_cell parents i0 p0 -> apart wrap nx (nth n (points child) 0) p0 d0 ->
  (d0 <= toQ (bin_size max_d) * toQ (bin_size max_d))%Q ->
  exists i p d, nth n (partition_nn_grid ny nx wrap max_d child parents ids cents) 0%Z = nth i ids 0%Z /\
    parent_cell parents i p /\ apart wrap nx (nth n (points child) 0) p d /\
    (forall j q e, parent_cell parents j q -> apart wrap nx (nth n (points child) 0) q e -> (d <= e)%Q) /\
    (forall j q e, j < i -> parent_cell parents j q -> apart wrap nx (nth n (points child) 0) q e -> (d < e)%Q).
Proof. exact (partition_nn_nearest ny nx wrap max_d child parents ids cents n p0 i0 d0). Qed.
Print Assumptions C29_nearest_parent_partial.

(** The search radius of the tracker: three times the root of the largest parent
    area, rounded down, and at least 40 cells. *)
Definition search_radius (areas : list Q) (R : nat) : Prop :=
  40 <= R /\ (R = 40 \/ exists a, In a areas /\ (toQ R * toQ R <= 9 * a)%Q) /\
  forall a, In a areas -> (9 * a < toQ (R + 1) * toQ (R + 1))%Q.
Lemma largest_area l : (fold_right Qmaxb 0%Q l == 0)%Q /\ (forall a, In a l -> (a <= 0)%Q) \/
  In (fold_right Qmaxb 0%Q l) l /\ (forall a, In a l -> (a <= fold_right Qmaxb 0%Q l)%Q) /\ (0 <= fold_right Qmaxb 0%Q l)%Q.
Proof.
  induction l as [|b l IH]; cbn [fold_right]; [left; split; [reflexivity|intros a []]|]. revert IH. generalize (fold_right Qmaxb 0%Q l). intros m IH. unfold Qmaxb.
  destruct (Qle_bool b (m)) eqn:E.
  - apply Qle_bool_iff in E. destruct IH as [[Z0 A]|(I & A & P)].
    + left. split; [exact Z0|]. intros a [<-|Ia]; [lra|apply A; exact Ia].
    + right. split; [right; exact I|]. split; [|exact P]. intros a [<-|Ia]; [exact E|apply A; exact Ia].
  - assert (Lt : (m < b)%Q) by (apply Qnot_le_lt; intro G; apply Qle_bool_iff in G; congruence).
    right. split; [left; reflexivity|]. split.
    + intros a [<-|Ia]; [lra|]. destruct IH as [[Z0 A]|(I & A & P)]; specialize (A a Ia); lra.
    + destruct IH as [[Z0 A]|(I & A & P)]; lra.
Qed.
Lemma search_radius_eq ps parents R : search_radius (map (parent_area ps) parents) R -> search_distance ps parents = R.
Proof.
  unfold search_distance. generalize (map (parent_area ps) parents). intros l (G & W & U). set (M := fold_right Qmaxb 0%Q l).
  assert (M0 : (0 <= M)%Q) by (unfold M; destruct (largest_area l) as [[Z0 _]|(_ & _ & P)]; lra).
  set (s := Z.sqrt (Qfloor (9 * M))). assert (F0 : (0 <= Qfloor (9 * M))%Z) by (change 0%Z with (Qfloor 0); apply Qfloor_resp_le; lra).
  assert (S0 : (0 <= s)%Z) by apply Z.sqrt_nonneg. destruct (Z.sqrt_spec _ F0) as [S1 S2]. fold s in S1, S2.
  assert (Mu : (9 * M < toQ (R + 1) * toQ (R + 1))%Q).
  { unfold M. destruct (largest_area l) as [[Z0 _]|(I & _ & _)]; [|apply U; exact I]. rewrite Z0. unfold toQ, Qlt. cbn. lia. }
  assert (Sr : (s < Z.of_nat R + 1)%Z).
  { apply Z.nle_gt. intro H. assert (Hh : (inject_Z ((Z.of_nat R + 1) * (Z.of_nat R + 1)) <= 9 * M)%Q).
    { apply Qle_trans with (inject_Z (Qfloor (9 * M))); [|apply Qfloor_le]. rewrite <- Zle_Qle. nia. }
    rewrite inject_Z_mult in Hh. unfold toQ in Mu. rewrite Nat2Z.inj_add in Mu. change (Z.of_nat 1) with 1%Z in Mu. lra. }
  destruct W as [->|(a & Ia & Ra)]; [lia|].
  assert (aM : (a <= M)%Q) by (unfold M; destruct (largest_area l) as [[Z0 A]|(_ & A & _)]; specialize (A a Ia); lra).
  assert (Rs : (Z.of_nat R <= s)%Z).
  { apply Z.nlt_ge. intro H. assert (Rf : (Z.of_nat R * Z.of_nat R <= Qfloor (9 * M))%Z); [|nia].
    rewrite <- (Qfloor_Z (Z.of_nat R * Z.of_nat R)). apply Qfloor_resp_le. rewrite inject_Z_mult. unfold toQ in Ra. lra. }
  lia.
Qed.

(** What the merging loop of the tracker gets: distances in longitude wrap unless
    regional_mode is set, and the search reaches the search radius. *)
Theorem C29_tracker_nearest_parent_partial (regional : bool) (ny nx : nat) (ps : props) (prev : list Z) (mask : list bool) (parents ids : list Z)
    (R n p0 i0 : nat) (d0 : Q) :
  let masks := map (fun p => mask_of p prev) parents in
  0 < nx -> length mask = ny * nx -> length prev = ny * nx -> search_radius (map (parent_area ps) parents) R ->
  (regional = false -> nx mod (R / 4) = 0) -> n < length (points mask) ->
  parent_cell masks i0 p0 -> apart (negb regional) nx (nth n (points mask) 0) p0 d0 -> (d0 <= toQ (R / 4) * toQ (R / 4))%Q ->
  exists i p d, nth n (part_grid true regional ny nx ps prev mask parents ids) 0%Z = nth i ids 0%Z /\
    parent_cell masks i p /\ apart (negb regional) nx (nth n (points mask) 0) p d /\
    (forall j q e, parent_cell masks j q -> apart (negb regional) nx (nth n (points mask) 0) q e -> (d <= e)%Q) /\
    (forall j q e, j < i -> parent_cell masks j q -> apart (negb regional) nx (nth n (points mask) 0) q e -> (d < e)%Q).
Proof.
  cbv zeta. intros N Lm Lp Sr Wr Nn Pc Ap Le. assert (R40 : 40 <= R) by apply Sr. rewrite <- (search_radius_eq _ _ _ Sr) in *.
  unfold part_grid. assert (B : bin_size (search_distance ps parents) = search_distance ps parents / 4).
  { unfold bin_size. assert (10 <= search_distance ps parents / 4) by (apply Nat.div_le_lower_bound; lia). lia. }
  rewrite <- B in Wr, Le.
  eapply (C29_nearest_parent_partial ny nx (negb regional)); [exact N|exact Lm| | |lia|exact Nn|exact Pc|exact Ap|exact Le].
  - intros m I. apply in_map_iff in I. destruct I as (p & <- & _). unfold mask_of. rewrite map_length. exact Lp.
  - intro H. apply Wr. destruct regional; [discriminate|reflexivity].
Qed.
Print Assumptions C29_tracker_nearest_parent_partial.

Example C29_case :
  partition_nn_grid 1 20 true 40 (mask_at 20 [1; 2; 3; 18; 19]) [mask_at 20 [4]; mask_at 20 [17]] [5; 6]%Z
    [(0, 4); (0, 17)]%Q = [5; 5; 5; 6; 6]%Z.
Proof. vm_compute. reflexivity. Qed.

(** C30: with centroid partitioning each cell gets the ID of a parent whose
    centroid is at minimal distance, the lowest such index. *)
Theorem C30_nearest_centroid (nx : nat) (wrap : bool) (child : list bool) (ids : list Z) (cents : list (Q * Q))
    (n : nat) (ds : list Q) :
  cents <> [] -> 0 < nx -> (forall c, In c cents -> (0 <= snd c)%Q /\ (snd c <= toQ nx)%Q) ->
  n < length (points child) -> length ds = length cents ->
  (forall j, j < length cents ->
     is_dist2 wrap nx (toQ (nth n (points child) 0 / nx)) (toQ (nth n (points child) 0 mod nx))
       (fst (nth j cents (0, 0)%Q)) (snd (nth j cents (0, 0)%Q)) (nth j ds 0%Q)) ->
  length (partition_centroid nx wrap child ids cents) = length (points child) /\
  exists i, i < length cents /\
    nth n (partition_centroid nx wrap child ids cents) 0%Z = nth i ids 0%Z /\
    (forall j, j < length cents -> (nth i ds 0 <= nth j ds 0)%Q) /\
    (forall j, j < i -> (nth i ds 0 < nth j ds 0)%Q).
Proof.
  intros A B C D E F. split; [apply map_length|].
  exact (partition_centroid_nearest nx wrap child ids cents n ds A B C D E F).
Qed.
Print Assumptions C30_nearest_centroid.

Theorem C30_tracker_nearest_centroid (regional : bool) (ny nx : nat) (ps : props) (prev : list Z) (mask : list bool) (parents ids : list Z) (n : nat) (ds : list Q) :
  let cents := map (parent_centroid ps) parents in
  parents <> [] -> 0 < nx -> (forall c, In c cents -> (0 <= snd c)%Q /\ (snd c <= toQ nx)%Q) -> n < length (points mask) -> length ds = length parents ->
  (forall j, j < length parents ->
     is_dist2 (negb regional) nx (toQ (nth n (points mask) 0 / nx)) (toQ (nth n (points mask) 0 mod nx))
       (fst (nth j cents (0, 0)%Q)) (snd (nth j cents (0, 0)%Q)) (nth j ds 0%Q)) ->
  exists i, i < length parents /\ nth n (part_grid false regional ny nx ps prev mask parents ids) 0%Z = nth i ids 0%Z /\
    (forall j, j < length parents -> (nth i ds 0 <= nth j ds 0)%Q) /\ (forall j, j < i -> (nth i ds 0 < nth j ds 0)%Q).
Proof.
  cbv zeta. intros Ne N C Nn L H. assert (Lc : length (map (parent_centroid ps) parents) = length parents) by apply map_length.
  unfold part_grid. destruct (C30_nearest_centroid nx (negb regional) mask ids (map (parent_centroid ps) parents) n ds) as [_ E]; try assumption; rewrite ?Lc; try assumption.
  - intro E. apply map_eq_nil in E. contradiction.
  - rewrite Lc in E. exact E.
Qed.
Print Assumptions C30_tracker_nearest_centroid.
Example C30_case :
  partition_centroid 10 true (mask_at 20 [0; 1; 9; 14; 18]) [5; 6]%Z [(0, 1#2); (1, 8)]%Q = [5; 5; 6; 5; 6]%Z.
Proof. vm_compute. reflexivity. Qed.

(** C31: the distance used is the smallest over all longitude images (plain
    without wrapping); hence symmetric, at most the plain distance, and zero
    only at the same point. *)
Theorem C31_shortest_way_round (wrap : bool) (nx : nat) (y1 x1 y2 x2 : Q) :
  (0 <= x1)%Q -> (x1 < toQ nx)%Q -> (0 <= x2)%Q -> (x2 < toQ nx)%Q ->
  is_dist2 wrap nx y1 x1 y2 x2 (dist2 wrap nx y1 x1 y2 x2) /\
  (dist2_mask wrap nx y1 x1 y2 x2 == dist2 wrap nx y1 x1 y2 x2)%Q /\
  (dist2 wrap nx y1 x1 y2 x2 == dist2 wrap nx y2 x2 y1 x1)%Q /\
  (dist2 wrap nx y1 x1 y2 x2 <= dist2 false nx y1 x1 y2 x2)%Q /\
  ((dist2 wrap nx y1 x1 y2 x2 == 0)%Q <-> (y1 == y2)%Q /\ (x1 == x2)%Q).
Proof.
  intros A B C D. rewrite <- natQ_toQ in B, D. assert (N := natQ_nonneg nx).
  assert (I1 : is_dist2 wrap nx y1 x1 y2 x2 (dist2 wrap nx y1 x1 y2 x2)) by (apply dist2_is; lra).
  assert (I2 : is_dist2 wrap nx y2 x2 y1 x1 (dist2 wrap nx y2 x2 y1 x1)) by (apply dist2_is; lra).
  assert (P : (dist2 false nx y1 x1 y2 x2 == image2 nx y1 x1 y2 x2 0)%Q).
  { unfold dist2, image2. change (inject_Z 0) with 0%Q. ring. }
  split; [exact I1|]. split; [apply dist2_mask_same|]. split; [|split].
  - eapply is_dist2_unique; [exact I1|apply is_dist2_sym; exact I2].
  - rewrite P. destruct wrap; [apply I1|]. cbn in I1. rewrite I1. apply Qle_refl.
  - assert (H : exists j, (dist2 wrap nx y1 x1 y2 x2 == image2 nx y1 x1 y2 x2 j)%Q).
    { destruct wrap; [apply I1|]. exists 0%Z. exact I1. }
    destruct H as (j & J). split.
    + intro Z. rewrite Z in J. unfold image2 in J. set (dy := (y1 - y2)%Q) in *. set (dx := (x1 - x2 + inject_Z j * toQ nx)%Q) in *.
      assert (Sq : forall a : Q, (0 <= a * a)%Q) by (intro a; nra).
      assert (Hy := Sq dy). assert (Hx := Sq dx).
      assert (Zy : (dy == 0)%Q) by (assert (E : (dy * dy == 0)%Q) by lra; apply Qmult_integral in E; tauto).
      assert (Zx : (dx == 0)%Q) by (assert (E : (dx * dx == 0)%Q) by lra; apply Qmult_integral in E; tauto).
      unfold dy in Zy. split; [lra|]. unfold dx in Zx. rewrite <- natQ_toQ in Zx.
      destruct (Z.eq_dec j 0) as [->|Nj]; [change (inject_Z 0) with 0%Q in Zx; lra|].
      exfalso. destruct (Z_lt_le_dec j 0) as [Lj|Lj].
      * assert (J' : (inject_Z j <= -1)%Q) by (change (-1)%Q with (inject_Z (-1)); rewrite <- Zle_Qle; lia). nra.
      * assert (J' : (1 <= inject_Z j)%Q) by (change 1%Q with (inject_Z 1); rewrite <- Zle_Qle; lia). nra.
    + intros [Ey Ex]. assert (Z0 : (dist2 wrap nx y1 x1 y2 x2 <= 0)%Q).
      { assert (Pl : (image2 nx y1 x1 y2 x2 0 == 0)%Q).
        { unfold image2. rewrite Ey, Ex. change (inject_Z 0) with 0%Q. ring. }
        destruct wrap; [rewrite <- Pl; apply I1|]. cbn in I1. rewrite I1, Pl. apply Qle_refl. }
      assert (Z1 : (0 <= dist2 wrap nx y1 x1 y2 x2)%Q).
      { rewrite J. unfold image2. assert (Sq : forall a : Q, (0 <= a * a)%Q) by (intro a; nra).
        assert (Hy := Sq (y1 - y2)%Q). assert (Hx := Sq (x1 - x2 + inject_Z j * toQ nx)%Q). lra. }
      lra.
Qed.
Print Assumptions C31_shortest_way_round.
Example C31_case : (dist2 true 360 10 1 12 359 == 8)%Q /\ (dist2 false 360 10 1 12 359 == 128168)%Q.
Proof. vm_compute. split; reflexivity. Qed.

(** C32: bin (i, j) of the index holds exactly the points of its square, in
    order; every point of the grid is in one bin. *)
Theorem C32_index_complete (g ny nx : nat) (pts : list nat) :
  0 < g -> 0 < nx -> NoDup pts -> (forall k, In k pts -> k < ny * nx) ->
  (forall i j k, In k (grid_index g ny nx pts i j) <->
     In k pts /\ i * g <= k / nx < (i + 1) * g /\ j * g <= k mod nx < (j + 1) * g) /\
  (forall i j, NoDup (grid_index g ny nx pts i j)) /\
  (forall k, In k pts -> In k (grid_index g ny nx pts (k / nx / g) (k mod nx / g)) /\
     k / nx / g < n_bins g ny /\ k mod nx / g < n_bins g nx).
Proof.
  intros G N Nd R.
  assert (Spec : forall i j k, In k (grid_index g ny nx pts i j) <->
     In k pts /\ i = k / nx / g /\ j = k mod nx / g).
  { intros i j k. rewrite grid_index_spec, filter_In. unfold bin_eq. rewrite andb_true_iff, !Nat.eqb_eq. split.
    - intros (I & A & B). specialize (R k I). split; [exact I|].
      rewrite bin_of_lt in A by (try exact G; apply cell_row; assumption).
      rewrite bin_of_lt in B by (try exact G; apply Nat.mod_upper_bound; lia). auto.
    - intros (I & A & B). specialize (R k I). split; [exact I|].
      rewrite !bin_of_lt by (try exact G; first [apply cell_row; assumption|apply Nat.mod_upper_bound; lia]). auto. }
  assert (Div : forall i v, i = v / g <-> i * g <= v < (i + 1) * g).
  { intros i v. assert (H := Nat.div_mod v g ltac:(lia)). assert (M := Nat.mod_upper_bound v g ltac:(lia)). split; [intros ->; nia|].
    intros [A B]. assert (i = v / g) by (apply (Nat.div_unique v g i (v - i * g)); lia). assumption. }
  split; [|split].
  - intros i j k. rewrite Spec, !Div. reflexivity.
  - intros i j. rewrite grid_index_spec. apply NoDup_filter. exact Nd.
  - intros k I. split; [apply Spec; auto|]. specialize (R k I).
    assert (Y : k / nx < ny) by (apply cell_row; assumption).
    assert (X : k mod nx < nx) by (apply Nat.mod_upper_bound; lia).
    rewrite <- (bin_of_lt g ny (k / nx) G Y), <- (bin_of_lt g nx (k mod nx) G X). split; apply bin_lt; lia.
Qed.
Print Assumptions C32_index_complete.
Example C32_case : grid_index 2 4 5 [0; 3; 4; 9; 14; 19] 0 2 = [4; 9] /\ grid_index 2 4 5 [0; 3; 4; 9; 14; 19] 1 2 = [14; 19].
Proof. vm_compute. split; reflexivity. Qed.
