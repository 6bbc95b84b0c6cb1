(** Shifts, ranges and interpolation of centroids. *)
From Coq Require Import Qround Lqa Permutation.
From Verif Require Import Base Filter Overlap OverlapProofs Partition PartitionProofs Centroid CentroidSpec CentroidProofs.
Open Scope nat_scope.
Ltac Zify.zify_post_hook ::= Z.div_mod_to_equations.

(** Means as weighted means with weight per cell. *)
Lemma mean_averages mask : averages (fun _ => 1%Q) (points mask) mean.
Proof. intro f. apply mean_total. Qed.
Lemma wmean_averages ca mask :
  averages (fun k => nth k ca 0%Q) (points mask) (wmean (map (fun k => nth k ca 0%Q) (points mask))).
Proof. intro f. apply wmean_total. Qed.

(** Centre of mass of a moved shape. *)
Lemma moved_total d s (f : nat * Z -> Q) : total f (moved d s) = total (fun p => f (fst p, (snd p + d)%Z)) s.
Proof. unfold moved. rewrite total_map. reflexivity. Qed.
Lemma mul_cancel (a b t : Q) : (0 < t)%Q -> (a * t == b * t)%Q -> (a == b)%Q.
Proof. intros P H. apply (Qmult_inj_r a b t); [lra|exact H]. Qed.
Lemma centre_rows_moved (wt : nat -> Q) d s c c' : (0 < total (fun p => wt (fst p)) s)%Q ->
  centre_rows (fun p => wt (fst p)) s c -> centre_rows (fun p => wt (fst p)) (moved d s) c' -> (c' == c)%Q.
Proof.
  unfold centre_rows. rewrite !moved_total. cbn [fst snd]. intros P H H'.
  apply (mul_cancel _ _ _ P). rewrite H, H'. reflexivity.
Qed.
Lemma centre_cols_moved (wt : nat -> Q) d s c c' : (0 < total (fun p => wt (fst p)) s)%Q ->
  centre_cols (fun p => wt (fst p)) s c -> centre_cols (fun p => wt (fst p)) (moved d s) c' ->
  (c' == c + inject_Z d)%Q.
Proof.
  unfold centre_cols. rewrite !moved_total. cbn [fst snd]. intros P H H'.
  apply (mul_cancel _ _ _ P). rewrite Qmult_plus_distr_l, H, H'.
  rewrite (Qmult_comm (inject_Z d)), <- total_scale, <- total_plus. apply total_ext.
  intros p _. rewrite inject_Z_plus. lra.
Qed.

Section Shift.
Variables (ny nx : nat) (mask mask' : list bool) (s : shape) (d : Z).
Variables (w : nat -> Q) (wt : nat -> Q) (avg avg' : list Q -> Q).
Hypothesis Hnx : 0 < nx.
Hypothesis Hs : s <> [].
Hypothesis D : drawn ny nx mask s.
Hypothesis D' : drawn ny nx mask' (moved d s).
Hypothesis Av : averages w (points mask) avg.
Hypothesis Av' : averages w (points mask') avg'.
Hypothesis Ww : forall k, k < ny * nx -> (w k == wt (k / nx))%Q.
Hypothesis Wp : forall y, y < ny -> (0 < wt y)%Q.

Lemma shape_weight m s0 p : drawn ny nx m s0 -> In p s0 -> (w (shape_cell nx p) == wt (fst p))%Q.
Proof.
  intros D0 I. rewrite Ww.
  - change (shape_cell nx p / nx) with (cell_y nx (shape_cell nx p)). rewrite cell_row by exact Hnx. reflexivity.
  - assert (D1 := D0). destruct D0 as (L & _ & _ & H).
    assert (T : nth (shape_cell nx p) m false = true) by (apply H, in_map, I).
    destruct (Nat.lt_ge_cases (shape_cell nx p) (ny * nx)) as [A|A]; [exact A|].
    rewrite nth_overflow in T by lia. discriminate.
Qed.
Lemma weight_pos : (0 < total (fun p => wt (fst p)) s)%Q.
Proof. apply total_pos; [exact Hs|]. intros p I. apply Wp. destruct D as (_ & _ & R & _). apply R, I. Qed.
Lemma weight_pos' : (0 < total (fun p => wt (fst p)) (moved d s))%Q.
Proof. rewrite moved_total. cbn [fst]. exact weight_pos. Qed.

Lemma shift_rows : (avg' (map natQ (mask_rows nx mask')) == avg (map natQ (mask_rows nx mask)))%Q.
Proof.
  apply (centre_rows_moved wt d s); [exact weight_pos| |].
  - apply (rows_centre ny nx mask s w _ avg Hnx D Av); [|exact weight_pos].
    intros p I. apply (shape_weight mask s p D I).
  - apply (rows_centre ny nx mask' (moved d s) w _ avg' Hnx D' Av'); [|exact weight_pos'].
    intros p I. apply (shape_weight mask' _ p D' I).
Qed.
Lemma shift_cols : around_seam nx s -> near_both nx s -> inside nx (moved d s) -> ~ near_both nx (moved d s) ->
  same_col nx (col_centroid false nx avg' (mask_cols nx mask'))
              (col_centroid false nx avg (mask_cols nx mask) + inject_Z d).
Proof.
  intros A N I O.
  destruct (cols_seam ny nx mask s w (fun p => wt (fst p)) avg Hnx D Av) as (c & C & k & E);
    [intros p J; apply (shape_weight mask s p D J)|exact weight_pos|exact A|exact N|].
  assert (C' : centre_cols (fun p => wt (fst p)) (moved d s) (col_centroid false nx avg' (mask_cols nx mask'))).
  { apply (cols_inside ny nx mask' (moved d s) w _ avg' Hnx D' Av');
      [intros p J; apply (shape_weight mask' _ p D' J)|exact weight_pos'|exact I|right; exact O]. }
  assert (G := centre_cols_moved wt d s c _ weight_pos C C').
  exists (- k)%Z. rewrite G, E, Z.mul_opp_l, inject_Z_opp. lra.
Qed.
End Shift.

(** ** Ranges *)
Lemma avg_range (w : nat -> Q) pts avg (f : nat -> Q) lo hi : averages w pts avg -> pts <> [] ->
  (forall k, In k pts -> (0 < w k)%Q) -> (forall k, In k pts -> (lo <= f k <= hi)%Q) ->
  (lo <= avg (map f pts) <= hi)%Q.
Proof.
  intros Av N W B. assert (P : (0 < total w pts)%Q) by (apply total_pos; assumption).
  rewrite (Av f). split.
  - apply Qle_shift_div_l; [exact P|]. rewrite Qmult_comm, <- total_scale. apply total_le.
    intros k I. specialize (W k I). specialize (B k I). nra.
  - apply Qle_shift_div_r; [exact P|]. rewrite (Qmult_comm hi), <- total_scale. apply total_le.
    intros k I. specialize (W k I). specialize (B k I). nra.
Qed.
Lemma natQ_le a b : a <= b -> (natQ a <= natQ b)%Q.
Proof. intro H. unfold natQ. rewrite <- Zle_Qle. lia. Qed.
Lemma natQ_lt a b : a < b -> (natQ a < natQ b)%Q.
Proof. intro H. unfold natQ. rewrite <- Zlt_Qlt. lia. Qed.
Lemma natQ_sub a b : b <= a -> (natQ (a - b) == natQ a - natQ b)%Q.
Proof. intro H. unfold natQ. rewrite Nat2Z.inj_sub by exact H. unfold Zminus. rewrite inject_Z_plus, inject_Z_opp. lra. Qed.

Lemma col_range regional nx w mask avg : 0 < nx -> averages w (points mask) avg -> points mask <> [] ->
  (forall k, In k (points mask) -> (0 < w k)%Q) ->
  (0 <= col_centroid regional nx avg (mask_cols nx mask) /\ col_centroid regional nx avg (mask_cols nx mask) < natQ nx)%Q.
Proof.
  intros H Av N W.
  assert (P : (0 <= avg (map natQ (mask_cols nx mask)) <= natQ (nx - 1))%Q).
  { unfold mask_cols. rewrite map_map. apply (avg_range w); try assumption.
    intros k I. unfold cell_x. split; [apply natQ_nonneg|]. apply natQ_le.
    assert (k mod nx < nx) by (apply Nat.mod_upper_bound; lia). lia. }
  assert (L : (natQ (nx - 1) < natQ nx)%Q) by (apply natQ_lt; lia).
  assert (P' : (0 <= avg (map natQ (mask_cols nx mask)) /\ avg (map natQ (mask_cols nx mask)) < natQ nx)%Q) by (split; lra).
  unfold col_centroid. destruct regional; [exact P'|]. destruct (near_left _ && near_right _ _); [|exact P'].
  assert (S : (- natQ (nx - 1) <= avg (map (seam_col nx) (mask_cols nx mask)) <= natQ (nx - 1))%Q).
  { unfold mask_cols. rewrite map_map. apply (avg_range w); try assumption.
    intros k I. unfold seam_col, cell_x. assert (U : k mod nx < nx) by (apply Nat.mod_upper_bound; lia).
    assert (Z0 : (0 <= natQ (k mod nx))%Q) by apply natQ_nonneg.
    assert (Z1 : (natQ (k mod nx) <= natQ (nx - 1))%Q) by (apply natQ_le; lia).
    assert (Z2 := natQ_sub nx 1 ltac:(lia)). change (natQ 1) with 1%Q in Z2.
    destruct (Nat.ltb_spec (nx / 2) (k mod nx)) as [B|B]; [|split; lra].
    assert (Z3 : (natQ 1 <= natQ (k mod nx))%Q) by (apply natQ_le; lia). change (natQ 1) with 1%Q in Z3.
    split; lra. }
  unfold back_in. destruct (Qltb _ 0) eqn:E.
  - apply Qltb_spec in E. split; [|lra]. assert (Z2 := natQ_sub nx 1 ltac:(lia)). change (natQ 1) with 1%Q in Z2. lra.
  - apply Qltb_false in E. split; [exact E|]. lra.
Qed.
Lemma row_range w mask avg nx lo hi : averages w (points mask) avg -> points mask <> [] ->
  (forall k, In k (points mask) -> (0 < w k)%Q) ->
  (forall k, In k (points mask) -> lo <= k / nx <= hi) ->
  (natQ lo <= avg (map natQ (mask_rows nx mask)) <= natQ hi)%Q.
Proof.
  intros Av N W R. unfold mask_rows. rewrite map_map. apply (avg_range w); try assumption.
  intros k I. specialize (R k I). unfold cell_y. split; apply natQ_le; lia.
Qed.

(** ** Interpolation *)
Lemma floor_range c : (0 < c)%Q -> let j := Z.to_nat (Qfloor c) in (natQ j <= c /\ c < natQ (S j))%Q.
Proof.
  intros P j. assert (F : (0 <= Qfloor c)%Z).
  { change 0%Z with (Qfloor 0). apply Qfloor_resp_le. lra. }
  unfold j, natQ. rewrite Nat2Z.inj_succ, Z2Nat.id by exact F. split; [apply Qfloor_le|apply Qlt_floor].
Qed.
Lemma natQ_le_inv a b : (natQ a <= natQ b)%Q -> a <= b.
Proof. unfold natQ. rewrite <- Zle_Qle. lia. Qed.
Lemma natQ_lt_inv a b : (natQ a < natQ b)%Q -> a < b.
Proof. unfold natQ. rewrite <- Zlt_Qlt. lia. Qed.
Lemma interp_range vals c lo hi A B : hi < length vals -> (natQ lo <= c <= natQ hi)%Q ->
  (forall j, lo <= j <= hi -> (A <= nth j vals 0 <= B)%Q) -> (A <= interp vals c <= B)%Q.
Proof.
  intros Hh [C1 C2] H. assert (LH : lo <= hi) by (apply natQ_le_inv; lra).
  unfold interp. destruct (Qle_bool c 0) eqn:E1.
  - apply Qle_bool_iff in E1. apply H. assert (lo <= 0) by (apply natQ_le_inv; change (natQ 0) with 0%Q; lra). lia.
  - apply Qle_bool_false in E1. destruct (Qle_bool (natQ (length vals - 1)) c) eqn:E2.
    + apply Qle_bool_iff in E2. apply H. assert (length vals - 1 <= hi) by (apply natQ_le_inv; lra). lia.
    + apply Qle_bool_false in E2. destruct (floor_range c E1) as [F1 F2].
      set (j := Z.to_nat (Qfloor c)) in *.
      assert (J1 : lo < S j) by (apply natQ_lt_inv; lra). assert (J2 : j <= hi) by (apply natQ_le_inv; lra).
      assert (V1 := H j ltac:(lia)).
      destruct (Nat.eq_dec j hi) as [->|Nj].
      * assert (E : (c - natQ hi == 0)%Q) by lra. rewrite E. split; lra.
      * assert (V2 := H (S j) ltac:(lia)).
        assert (S1 : (natQ (S j) == natQ j + 1)%Q).
        { unfold natQ. rewrite Nat2Z.inj_succ. unfold Z.succ. rewrite inject_Z_plus. reflexivity. }
        split; nra.
Qed.

Lemma interp_evenly n l0 dl vals c : evenly n l0 dl vals -> 0 < n ->
  (0 <= c <= natQ (n - 1))%Q -> (interp vals c == l0 + dl * c)%Q.
Proof.
  intros [L E] Hn [C1 C2]. unfold interp. rewrite L. destruct (Qle_bool c 0) eqn:E1.
  - apply Qle_bool_iff in E1. assert (Z0 : (c == 0)%Q) by lra. rewrite Z0, (E 0) by lia. change (natQ 0) with 0%Q. reflexivity.
  - apply Qle_bool_false in E1. destruct (Qle_bool _ c) eqn:E2.
    + apply Qle_bool_iff in E2. rewrite (E (n - 1)) by lia. assert (Z0 : (c == natQ (n - 1))%Q) by lra. rewrite Z0. reflexivity.
    + apply Qle_bool_false in E2. destruct (floor_range c E1) as [F1 F2].
      set (j := Z.to_nat (Qfloor c)) in *.
      assert (J2 : j < n - 1) by (apply natQ_lt_inv; lra).
      rewrite (E j), (E (S j)) by lia.
      assert (S1 : (natQ (S j) == natQ j + 1)%Q).
      { unfold natQ. rewrite Nat2Z.inj_succ. unfold Z.succ. rewrite inject_Z_plus. reflexivity. }
      rewrite S1. ring.
Qed.
Lemma interp_clamped n l0 dl vals c : evenly n l0 dl vals -> 0 < n ->
  (natQ (n - 1) <= c)%Q -> (interp vals c == l0 + dl * natQ (n - 1))%Q.
Proof.
  intros [L E] Hn C. unfold interp. rewrite L. destruct (Qle_bool c 0) eqn:E1.
  - apply Qle_bool_iff in E1. assert (Z0 := natQ_nonneg (n - 1)).
    assert (n - 1 = 0) as -> by (apply natQ_le_inv in C || (assert (n - 1 <= 0) by (apply natQ_le_inv; change (natQ 0) with 0%Q; lra); lia)).
    apply E. lia.
  - assert (E2 : Qle_bool (natQ (n - 1)) c = true) by (apply Qle_bool_iff; exact C). rewrite E2. apply E. lia.
Qed.

(** ** Drawing *)
Lemma draw_drawn ny nx s : 0 < nx -> NoDup (map (shape_cell nx) s) -> (forall p, In p s -> fst p < ny) ->
  drawn ny nx (draw ny nx s) s.
Proof.
  intros H N R. unfold drawn, draw. rewrite map_length, seq_length. split; [reflexivity|].
  split; [exact N|]. split; [exact R|]. intro k.
  destruct (Nat.lt_ge_cases k (ny * nx)) as [A|A].
  - rewrite (nth_indep _ false (existsb (Nat.eqb 0) (map (shape_cell nx) s))) by (rewrite map_length, seq_length; exact A).
    rewrite (map_nth (fun k => existsb (Nat.eqb k) (map (shape_cell nx) s))). rewrite seq_nth by exact A.
    rewrite existsb_exists. split.
    + intros (x & I & E). apply Nat.eqb_eq in E. cbn in E. rewrite E. exact I.
    + intro I. exists k. split; [exact I|apply Nat.eqb_refl].
  - rewrite nth_overflow by (rewrite map_length, seq_length; exact A). split; [discriminate|].
    intro I. exfalso. apply in_map_iff in I. destruct I as (p & E & I). apply R in I.
    unfold shape_cell in E. assert (Z.to_nat (snd p mod Z.of_nat nx) < nx) by (assert (U := Z.mod_pos_bound (snd p) (Z.of_nat nx)); lia). nia.
Qed.
