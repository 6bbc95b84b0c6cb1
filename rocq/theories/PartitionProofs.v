(** Proofs about the partitioning functions. *)
From Coq Require Import Qround Lqa.
From Verif Require Import Base Filter Overlap Partition PartitionSpec.
Open Scope nat_scope.

(** ** Periodic distance *)

Lemma natQ_toQ n : natQ n = toQ n. Proof. reflexivity. Qed.

Lemma wrap_dx_same nx dx : wrap_dx2 nx dx = wrap_dx nx dx \/ (wrap_dx2 nx dx == wrap_dx nx dx)%Q.
Proof.
  unfold wrap_dx2, wrap_dx. destruct (Qltb (natQ nx / 2) dx) eqn:E.
  - left. apply Qltb_spec in E.
    assert (F : Qltb (dx - natQ nx) (- (natQ nx / 2)) = false).
    { apply Qltb_false. assert (H : (natQ nx / 2 == natQ nx * (1#2))%Q) by (unfold Qdiv; apply Qmult_comp; reflexivity).
      rewrite H in *. lra. }
    rewrite F. reflexivity.
  - left. reflexivity.
Qed.
Lemma dist2_mask_same wrap nx y1 x1 y2 x2 : (dist2_mask wrap nx y1 x1 y2 x2 == dist2 wrap nx y1 x1 y2 x2)%Q.
Proof.
  unfold dist2_mask, dist2. destruct wrap; [|reflexivity].
  destruct (wrap_dx_same nx (x1 - x2)) as [E|E]; [rewrite E; reflexivity|].
  rewrite E. reflexivity.
Qed.

Lemma half_eq nx : (natQ nx / 2 == natQ nx * (1#2))%Q.
Proof. unfold Qdiv. apply Qmult_comp; reflexivity. Qed.

Lemma natQ_pos nx : 0 < nx -> (0 < natQ nx)%Q.
Proof. intro H. unfold natQ. change 0%Q with (inject_Z 0). rewrite <- Zlt_Qlt. lia. Qed.
Lemma natQ_nonneg n : (0 <= natQ n)%Q.
Proof. unfold natQ. change 0%Q with (inject_Z 0). rewrite <- Zle_Qle. lia. Qed.

(** The corrected difference is one of the images and in [-nx/2, nx/2]. *)
Lemma wrap_dx_cases nx dx : (- natQ nx <= dx)%Q -> (dx <= natQ nx)%Q ->
  (exists j, wrap_dx nx dx == dx + inject_Z j * natQ nx)%Q /\
  (- natQ nx * (1#2) <= wrap_dx nx dx)%Q /\ (wrap_dx nx dx <= natQ nx * (1#2))%Q.
Proof.
  intros L U. assert (P := natQ_nonneg nx). assert (H := half_eq nx). unfold wrap_dx.
  destruct (Qltb (natQ nx / 2) dx) eqn:E.
  - apply Qltb_spec in E. rewrite H in E. split; [exists (-1)%Z; change (inject_Z (-1)) with (-1)%Q; ring|]. split; lra.
  - apply Qltb_false in E. rewrite H in E. destruct (Qltb dx (- (natQ nx / 2))) eqn:E2.
    + apply Qltb_spec in E2. rewrite H in E2. split; [exists 1%Z; change (inject_Z 1) with 1%Q; ring|]. split; lra.
    + apply Qltb_false in E2. rewrite H in E2. split; [exists 0%Z; change (inject_Z 0) with 0%Q; ring|]. split; lra.
Qed.

Lemma square_le_of a n j : (0 <= n)%Q -> (- n * (1#2) <= a)%Q -> (a <= n * (1#2))%Q ->
  (a * a <= (a + inject_Z j * n) * (a + inject_Z j * n))%Q.
Proof.
  intros P L U. destruct (Z.eq_dec j 0) as [->|Nz].
  - change (inject_Z 0) with 0%Q. assert (E : (a + 0 * n == a)%Q) by ring. rewrite E. apply Qle_refl.
  - assert (D : (0 <= inject_Z j * n * (2 * a + inject_Z j * n))%Q).
    { destruct (Z_lt_le_dec j 0) as [J|J].
      - assert (J' : (inject_Z j <= -1)%Q) by (change (-1)%Q with (inject_Z (-1)); rewrite <- Zle_Qle; lia).
        assert (X : (inject_Z j * n <= - n)%Q) by nra. assert (Y : (2 * a + inject_Z j * n <= 0)%Q) by lra. nra.
      - assert (J' : (1 <= inject_Z j)%Q) by (change 1%Q with (inject_Z 1); rewrite <- Zle_Qle; lia).
        assert (X : (n <= inject_Z j * n)%Q) by nra. assert (Y : (0 <= 2 * a + inject_Z j * n)%Q) by lra. nra. }
    nra.
Qed.

Lemma dist2_is nx y1 x1 y2 x2 wrap : (- natQ nx <= x1 - x2)%Q -> (x1 - x2 <= natQ nx)%Q ->
  is_dist2 wrap nx y1 x1 y2 x2 (dist2 wrap nx y1 x1 y2 x2).
Proof.
  intros L U. unfold is_dist2, dist2, image2. destruct wrap.
  - destruct (wrap_dx_cases nx (x1 - x2) L U) as ((j & J) & A & B). split.
    + exists j. rewrite J, natQ_toQ. reflexivity.
    + intro i. assert (E : (x1 - x2 == wrap_dx nx (x1 - x2) + inject_Z (- j) * natQ nx)%Q).
      { rewrite J, inject_Z_opp. ring. }
      set (a := wrap_dx nx (x1 - x2)) in *.
      assert (S := square_le_of a (natQ nx) (i - j) (natQ_nonneg nx) A B).
      assert (E2 : (x1 - x2 + inject_Z i * toQ nx == a + inject_Z (i - j) * natQ nx)%Q).
      { rewrite E at 1. unfold Zminus. rewrite inject_Z_plus, inject_Z_opp, natQ_toQ. ring. }
      rewrite E2. apply Qplus_le_compat; [apply Qle_refl|exact S].
  - change (inject_Z 0) with 0%Q. ring.
Qed.

Lemma is_dist2_unique wrap nx y1 x1 y2 x2 d d' :
  is_dist2 wrap nx y1 x1 y2 x2 d -> is_dist2 wrap nx y1 x1 y2 x2 d' -> (d == d')%Q.
Proof.
  unfold is_dist2. destruct wrap.
  - intros [(j & J) A] [(j' & J') A']. apply Qle_antisym.
    + rewrite J'. apply A.
    + rewrite J. apply A'.
  - intros E E'. rewrite E, E'. reflexivity.
Qed.

Lemma coord_range nx k p : 0 < nx ->
  (- natQ nx <= natQ (cell_x nx k) - natQ (cell_x nx p))%Q /\
  (natQ (cell_x nx k) - natQ (cell_x nx p) <= natQ nx)%Q.
Proof.
  intro P. unfold cell_x. assert (A := Nat.mod_upper_bound k nx ltac:(lia)). assert (B := Nat.mod_upper_bound p nx ltac:(lia)).
  unfold natQ. split.
  - unfold Qminus. rewrite <- !inject_Z_opp, <- inject_Z_plus, <- Zle_Qle. lia.
  - unfold Qminus. rewrite <- !inject_Z_opp, <- inject_Z_plus, <- Zle_Qle. lia.
Qed.

Lemma cell_apart wrap nx k p : 0 < nx -> apart wrap nx k p (cell_dist2 wrap nx k p).
Proof. intro P. destruct (coord_range nx k p P). unfold apart, cell_dist2. apply dist2_is; assumption. Qed.

Lemma apart_eq wrap nx k p d : 0 < nx -> apart wrap nx k p d -> (d == cell_dist2 wrap nx k p)%Q.
Proof. intros P A. eapply is_dist2_unique; [exact A|apply cell_apart; exact P]. Qed.

(** ** Integer form of the distance between cells *)

Definition zdx (wrap : bool) (nx k p : nat) : Z :=
  let dx := (Z.of_nat (cell_x nx k) - Z.of_nat (cell_x nx p))%Z in
  if wrap then
    if Z.ltb (Z.of_nat nx) (2 * dx) then (dx - Z.of_nat nx)%Z
    else if Z.ltb (2 * dx) (- Z.of_nat nx) then (dx + Z.of_nat nx)%Z else dx
  else dx.
Definition zdy (nx k p : nat) : Z := (Z.of_nat (cell_y nx k) - Z.of_nat (cell_y nx p))%Z.

Lemma inject_lt a b : Qltb (inject_Z a) (inject_Z b) = Z.ltb a b.
Proof.
  destruct (Z.ltb_spec a b) as [L|L].
  - apply Qltb_spec. rewrite <- Zlt_Qlt. exact L.
  - apply Qltb_false. rewrite <- Zle_Qle. exact L.
Qed.
Lemma Qltb_comp a b c d : (a == c)%Q -> (b == d)%Q -> Qltb a b = Qltb c d.
Proof. intros E F. unfold Qltb. rewrite E, F. reflexivity. Qed.
Lemma Qltb_scale a b : Qltb a b = Qltb (2 * a) (2 * b).
Proof.
  destruct (Qltb a b) eqn:E; symmetry.
  - apply Qltb_spec. apply Qltb_spec in E. lra.
  - apply Qltb_false. apply Qltb_false in E. lra.
Qed.

Lemma cell_dist2_int wrap nx k p :
  (cell_dist2 wrap nx k p == inject_Z (zdy nx k p * zdy nx k p + zdx wrap nx k p * zdx wrap nx k p))%Q.
Proof.
  unfold cell_dist2, dist2.
  set (dx := (natQ (cell_x nx k) - natQ (cell_x nx p))%Q).
  set (zx := (Z.of_nat (cell_x nx k) - Z.of_nat (cell_x nx p))%Z).
  assert (Ex : (dx == inject_Z zx)%Q).
  { unfold dx, zx, natQ, Zminus. rewrite inject_Z_plus, inject_Z_opp. reflexivity. }
  assert (Ey : (natQ (cell_y nx k) - natQ (cell_y nx p) == inject_Z (zdy nx k p))%Q).
  { unfold zdy, natQ, Zminus. rewrite inject_Z_plus, inject_Z_opp. reflexivity. }
  rewrite inject_Z_plus, !inject_Z_mult.
  assert (E : ((if wrap then wrap_dx nx dx else dx) == inject_Z (zdx wrap nx k p))%Q).
  { unfold zdx. fold zx. destruct wrap; [|exact Ex]. unfold wrap_dx.
    assert (H1 : Qltb (natQ nx / 2) dx = Z.ltb (Z.of_nat nx) (2 * zx)).
    { rewrite Qltb_scale, <- inject_lt. apply Qltb_comp.
      - rewrite half_eq. unfold natQ. ring.
      - rewrite Ex, inject_Z_mult. reflexivity. }
    assert (H2 : Qltb dx (- (natQ nx / 2)) = Z.ltb (2 * zx) (- Z.of_nat nx)).
    { rewrite Qltb_scale, <- inject_lt. apply Qltb_comp.
      - rewrite Ex, inject_Z_mult. reflexivity.
      - rewrite half_eq, inject_Z_opp. unfold natQ. ring. }
    rewrite H1, H2. destruct (Z.ltb (Z.of_nat nx) (2 * zx)).
    - unfold Zminus. rewrite inject_Z_plus, inject_Z_opp, Ex. reflexivity.
    - destruct (Z.ltb (2 * zx) (- Z.of_nat nx)).
      + rewrite inject_Z_plus, Ex. reflexivity.
      + exact Ex. }
  rewrite E, Ey. reflexivity.
Qed.

Lemma cell_dist2_nonneg wrap nx k p : (0 <= cell_dist2 wrap nx k p)%Q.
Proof. rewrite cell_dist2_int. change 0%Q with (inject_Z 0). rewrite <- Zle_Qle. nia. Qed.

Lemma cell_dist2_eps wrap nx k p : (cell_dist2 wrap nx k p < eps2)%Q -> (cell_dist2 wrap nx k p == 0)%Q.
Proof.
  rewrite cell_dist2_int. set (z := (_ + _)%Z). intro H. assert (z < 1)%Z.
  { rewrite Zlt_Qlt. eapply Qlt_trans; [exact H|]. reflexivity. }
  assert (z = 0)%Z by (unfold z in *; nia). rewrite H1. reflexivity.
Qed.

(** ** The spatial index *)

Definition bin_eq (g ny nx i j k : nat) : bool :=
  Nat.eqb i (bin_of g ny (cell_y nx k)) && Nat.eqb j (bin_of g nx (cell_x nx k)).

Lemma grid_index_aux g ny nx cap : forall pts tb used,
  (forall i j, length (tb i j) <= used) -> used + length pts <= cap ->
  forall i j, fold_left (index_point g ny nx cap) pts tb i j = tb i j ++ filter (bin_eq g ny nx i j) pts.
Proof.
  induction pts as [|k pts IH]; intros tb used Hu Hc i j; cbn [fold_left filter].
  - rewrite app_nil_r. reflexivity.
  - simpl in Hc.
    assert (Hidx : forall i j, index_point g ny nx cap tb k i j = if bin_eq g ny nx i j k then tb i j ++ [k] else tb i j).
    { intros i' j'. unfold index_point.
      assert (L := Hu (bin_of g ny (cell_y nx k)) (bin_of g nx (cell_x nx k))).
      destruct (Nat.ltb_spec (length (tb (bin_of g ny (cell_y nx k)) (bin_of g nx (cell_x nx k)))) cap); [|lia].
      reflexivity. }
    rewrite (IH _ (S used)).
    + rewrite Hidx. destruct (bin_eq g ny nx i j k); [rewrite <- app_assoc|]; reflexivity.
    + intros i' j'. rewrite Hidx. destruct (bin_eq g ny nx i' j' k); [rewrite app_length; simpl|]; specialize (Hu i' j'); lia.
    + lia.
Qed.
Lemma grid_index_spec g ny nx pts i j : grid_index g ny nx pts i j = filter (bin_eq g ny nx i j) pts.
Proof. unfold grid_index. rewrite (grid_index_aux g ny nx (length pts) pts _ 0); simpl; auto; lia. Qed.

Lemma points_In mask k : In k (points mask) <-> k < length mask /\ nth k mask false = true.
Proof. unfold points. rewrite filter_In, in_seq. intuition; lia. Qed.
Lemma points_NoDup mask : NoDup (points mask).
Proof. apply NoDup_filter, seq_NoDup. Qed.
Lemma points_count mask : length (points mask) = count (fun b => b) mask.
Proof.
  unfold points, count.
  assert (E : forall off l, length (filter (fun k => nth (k - off) l false) (seq off (length l))) = length (filter (fun b => b) l)).
  { intros off l. revert off. induction l as [|b l IH]; intro off; [reflexivity|]. cbn [length seq filter].
    rewrite Nat.sub_diag. change (nth 0 (b :: l) false) with b.
    assert (Ef : filter (fun k => nth (k - off) (b :: l) false) (seq (S off) (length l)) =
                 filter (fun k => nth (k - S off) l false) (seq (S off) (length l))).
    { apply filter_ext_in. intros k K. apply in_seq in K. replace (k - off) with (S (k - S off)) by lia. reflexivity. }
    rewrite Ef. destruct b; cbn [length]; rewrite IH; reflexivity. }
  rewrite <- (E 0). f_equal. apply filter_ext. intro k. rewrite Nat.sub_0_r. reflexivity.
Qed.

Lemma n_bins_pos g n : 0 < g -> 0 < n -> 0 < n_bins g n.
Proof. intros G N. unfold n_bins. apply Nat.div_str_pos. lia. Qed.
Lemma bin_lt g n v : 0 < g -> 0 < n -> bin_of g n v < n_bins g n.
Proof. intros G N. unfold bin_of. assert (H := n_bins_pos g n G N). lia. Qed.
Lemma bin_of_lt g n v : 0 < g -> v < n -> bin_of g n v = v / g.
Proof.
  intros G V. unfold bin_of. apply Nat.min_l. unfold n_bins.
  assert (v / g <= (n - 1) / g) by (apply Nat.div_le_mono; lia).
  assert (n + g - 1 = (n - 1) + 1 * g) by lia. rewrite H0, Nat.div_add by lia. lia.
Qed.
Lemma div_close g a b : 0 < g -> a <= b + g -> a / g <= b / g + 1.
Proof. intros G H. rewrite <- (Nat.div_add b 1 g) by lia. apply Nat.div_le_mono; lia. Qed.

Lemma shift_reaches n i j : i < n -> j < n -> (i <= j + 1 /\ j <= i + 1) ->
  In j (map (bin_shift n i) [(-1)%Z; 0%Z; 1%Z]).
Proof.
  intros I J C. apply in_map_iff. exists (Z.of_nat j - Z.of_nat i)%Z. split.
  - unfold bin_shift. replace (Z.of_nat i + (Z.of_nat j - Z.of_nat i))%Z with (Z.of_nat j) by lia.
    rewrite Z.mod_small by lia. lia.
  - simpl. lia.
Qed.

Lemma bins_reach_y g ny nx k p : 0 < g -> cell_y nx k < ny -> cell_y nx p < ny ->
  (Z.abs (zdy nx k p) <= Z.of_nat g)%Z ->
  In (bin_of g ny (cell_y nx p)) (map (bin_shift (n_bins g ny) (bin_of g ny (cell_y nx k))) [(-1)%Z; 0%Z; 1%Z]).
Proof.
  intros G K P D. unfold zdy in D.
  apply shift_reaches; [apply bin_lt; lia|apply bin_lt; lia|].
  rewrite !bin_of_lt by assumption. split; apply div_close; lia.
Qed.

Lemma bins_reach_x wrap g nx k p : 0 < g -> 0 < nx -> (wrap = true -> nx mod g = 0) ->
  (Z.abs (zdx wrap nx k p) <= Z.of_nat g)%Z ->
  In (bin_of g nx (cell_x nx p)) (map (bin_shift (n_bins g nx) (bin_of g nx (cell_x nx k))) [(-1)%Z; 0%Z; 1%Z]).
Proof.
  intros G N W D.
  assert (K : cell_x nx k < nx) by (apply Nat.mod_upper_bound; lia).
  assert (P : cell_x nx p < nx) by (apply Nat.mod_upper_bound; lia).
  set (a := cell_x nx k) in *. set (b := cell_x nx p) in *.
  assert (Near : a <= b + g -> b <= a + g -> In (bin_of g nx b) (map (bin_shift (n_bins g nx) (bin_of g nx a)) [(-1)%Z; 0%Z; 1%Z])).
  { intros A B. apply shift_reaches; [apply bin_lt; lia|apply bin_lt; lia|].
    rewrite !bin_of_lt by assumption. split; apply div_close; lia. }
  unfold zdx in D. fold a b in D. destruct wrap; [|apply Near; lia].
  specialize (W eq_refl).
  assert (Hdiv : exists m, nx = m * g /\ 0 < m).
  { exists (nx / g). assert (H := Nat.div_mod nx g ltac:(lia)). rewrite W in H. split; [lia|]. nia. }
  destruct Hdiv as (m & Hm & Mp).
  assert (Hb : n_bins g nx = m).
  { unfold n_bins. replace (nx + g - 1) with ((g - 1) + m * g) by lia. rewrite Nat.div_add by lia.
    rewrite Nat.div_small by lia. lia. }
  destruct (Z.ltb_spec (Z.of_nat nx) (2 * (Z.of_nat a - Z.of_nat b))).
  - (* a far right, b far left: bins m-1 and 0 *)
    assert (Ha : a / g = m - 1).
    { assert (a / g <= m - 1).
      { assert (a / g < m) by (apply Nat.div_lt_upper_bound; lia). lia. }
      assert (m - 1 <= a / g).
      { apply Nat.div_le_lower_bound; [lia|]. nia. }
      lia. }
    assert (Hbz : b / g = 0) by (apply Nat.div_small; lia).
    rewrite !bin_of_lt by assumption. rewrite Ha, Hbz, Hb.
    apply in_map_iff. exists 1%Z. split; [|simpl; auto].
    unfold bin_shift. replace (Z.of_nat (m - 1) + 1)%Z with (Z.of_nat m) by lia. rewrite Z.mod_same by lia. reflexivity.
  - destruct (Z.ltb_spec (2 * (Z.of_nat a - Z.of_nat b)) (- Z.of_nat nx)).
    + assert (Ha : b / g = m - 1).
      { assert (b / g <= m - 1).
        { assert (b / g < m) by (apply Nat.div_lt_upper_bound; lia). lia. }
        assert (m - 1 <= b / g).
        { apply Nat.div_le_lower_bound; [lia|]. nia. }
        lia. }
      assert (Hbz : a / g = 0) by (apply Nat.div_small; lia).
      rewrite !bin_of_lt by assumption. rewrite Ha, Hbz, Hb.
      apply in_map_iff. exists (-1)%Z. split; [|simpl; auto].
      unfold bin_shift.
      assert (Em : ((Z.of_nat 0 + -1) mod Z.of_nat m = Z.of_nat m - 1)%Z).
      { symmetry. apply Z.mod_unique with (-1)%Z; lia. }
      rewrite Em. lia.
    + apply Near; lia.
Qed.

Definition candidates (g ny nx k : nat) (pts : list nat) : list nat :=
  flat_map (fun b => grid_index g ny nx pts (fst b) (snd b)) (bins_around g ny nx k).

Lemma candidates_sound g ny nx k pts p : In p (candidates g ny nx k pts) -> In p pts.
Proof.
  unfold candidates. intro H. apply in_flat_map in H. destruct H as (b & _ & H).
  rewrite grid_index_spec in H. apply filter_In in H. tauto.
Qed.

Lemma within_le wrap nx k p (r : Z) : (0 <= r)%Z -> (cell_dist2 wrap nx k p <= inject_Z r * inject_Z r)%Q ->
  (Z.abs (zdy nx k p) <= r /\ Z.abs (zdx wrap nx k p) <= r)%Z.
Proof.
  intro R. rewrite cell_dist2_int, <- inject_Z_mult, <- Zle_Qle. intro H. split; nia.
Qed.

Lemma candidates_complete wrap g ny nx k pts p : 0 < g -> 0 < nx ->
  (wrap = true -> nx mod g = 0) -> cell_y nx k < ny -> cell_y nx p < ny ->
  In p pts -> (cell_dist2 wrap nx k p <= natQ g * natQ g)%Q -> In p (candidates g ny nx k pts).
Proof.
  intros G N W K P I D. apply within_le in D; [|lia]. destruct D as [Dy Dx].
  unfold candidates. apply in_flat_map.
  exists (bin_of g ny (cell_y nx p), bin_of g nx (cell_x nx p)). split.
  - unfold bins_around. apply in_prod; [apply bins_reach_y; assumption|apply (bins_reach_x wrap); assumption].
  - rewrite grid_index_spec. apply filter_In. split; [exact I|]. unfold bin_eq. cbn [fst snd]. rewrite !Nat.eqb_refl. reflexivity.
Qed.

(** ** Scanning candidates *)

Lemma scan_spec wrap nx max2 k : forall pts best m found,
  (forall b, best = Some b -> (0 <= b)%Q) ->
  scan wrap nx max2 k pts best = (m, found) ->
  (match m with
   | None => best = None /\ found = false /\ forall p, In p pts -> (max2 < cell_dist2 wrap nx k p)%Q
   | Some d =>
     (best = Some d \/ exists p, In p pts /\ d = cell_dist2 wrap nx k p /\ (d <= max2)%Q) /\
     (forall p, In p pts -> (cell_dist2 wrap nx k p <= max2)%Q -> (d <= cell_dist2 wrap nx k p)%Q) /\
     (forall b, best = Some b -> (d <= b)%Q) /\
     (found = true -> (d == 0)%Q)
   end).
Proof.
  induction pts as [|p pts IH]; intros best m found Nn H; cbn [scan] in H.
  - inversion H; subst. destruct m as [d|]; [|split; [reflexivity|split; [reflexivity|intros p []]]].
    split; [left; reflexivity|]. split; [intros p []|]. split; [|discriminate].
    intros b E. inversion E. apply Qle_refl.
  - assert (Pos := cell_dist2_nonneg wrap nx k p).
    set (d0 := cell_dist2 wrap nx k p) in *. destruct (Qltb max2 d0) eqn:F.
    + apply Qltb_spec in F. apply IH in H; [|exact Nn]. destruct m as [d|].
      * destruct H as (A & B & C & D). split; [|split; [|split; [exact C|exact D]]].
        -- destruct A as [A|(q & Q1 & Q2)]; [left; exact A|right; exists q; split; [right; exact Q1|exact Q2]].
        -- intros q [<-|Hq] Hm; [|apply B; assumption]. exfalso. apply (Qlt_not_le _ _ F). exact Hm.
      * destruct H as (A & B & C). split; [exact A|]. split; [exact B|]. intros q [<-|Hq]; [exact F|apply C; exact Hq].
    + apply Qltb_false in F. destruct (Qltb d0 eps2) eqn:Z0.
      * inversion H; subst. apply Qltb_spec in Z0. apply cell_dist2_eps in Z0.
        split; [right; exists p; split; [left; reflexivity|split; [reflexivity|exact F]]|].
        split; [|split].
        -- intros q _ _. unfold d0. rewrite Z0. apply cell_dist2_nonneg.
        -- intros b Hb. unfold d0. rewrite Z0. apply Nn. exact Hb.
        -- intros _. exact Z0.
      * apply IH in H.
        2:{ intros b Hb. destruct (lt_opt d0 best); [inversion Hb; subst; exact Pos|apply Nn; exact Hb]. }
        destruct m as [d|].
        -- destruct H as (A & B & C & D).
           assert (Hd0 : (d <= d0)%Q).
           { destruct (lt_opt d0 best) eqn:Lo.
             - apply (C d0 eq_refl).
             - destruct best as [b|]; [|discriminate]. cbn [lt_opt] in Lo. apply Qltb_false in Lo.
               eapply Qle_trans; [apply (C b eq_refl)|exact Lo]. }
           split; [|split; [|split]].
           ++ destruct A as [A|(q & Q1 & Q2)].
              ** destruct (lt_opt d0 best).
                 --- inversion A; subst. right. exists p. split; [left; reflexivity|]. split; [reflexivity|exact F].
                 --- left. exact A.
              ** right. exists q. split; [right; exact Q1|exact Q2].
           ++ intros q [<-|Hq] Hm; [exact Hd0|apply B; assumption].
           ++ intros b E. destruct (lt_opt d0 best) eqn:Lo.
              ** rewrite E in Lo. cbn [lt_opt] in Lo. apply Qltb_spec in Lo. eapply Qle_trans; [exact Hd0|]. apply Qlt_le_weak. exact Lo.
              ** apply C; assumption.
           ++ exact D.
        -- destruct H as (A & B & C). destruct (lt_opt d0 best) eqn:Lo; [discriminate|].
           rewrite A in Lo. discriminate.
Qed.

(** ** All parents *)

(** What is known of one child cell after looking at parents [0..n-1]. *)
Record looked (wrap : bool) (g ny nx k : nat) (max2 : Q) (parents : list (list nat)) (n : nat) (st : search) : Prop := mkLooked {
  lk_none : se_best st = None -> se_found st = false /\
    forall i p, i < n -> In p (candidates g ny nx k (nth i parents [])) -> (max2 < cell_dist2 wrap nx k p)%Q;
  lk_some : forall d, se_best st = Some d ->
    (se_found st = true -> (d == 0)%Q) /\
    (0 <= d)%Q /\ (d <= max2)%Q /\ se_parent st < n /\
    (exists p, In p (nth (se_parent st) parents []) /\ d = cell_dist2 wrap nx k p) /\
    (forall i p, i < n -> In p (candidates g ny nx k (nth i parents [])) ->
       (cell_dist2 wrap nx k p <= max2)%Q -> (d <= cell_dist2 wrap nx k p)%Q) /\
    (forall i p, i < se_parent st -> In p (candidates g ny nx k (nth i parents [])) ->
       (cell_dist2 wrap nx k p <= max2)%Q -> (d < cell_dist2 wrap nx k p)%Q) }.

Lemma candidates_nil g ny nx k : candidates g ny nx k [] = [].
Proof.
  unfold candidates. induction (bins_around g ny nx k) as [|b l IH]; [reflexivity|].
  cbn [flat_map]. rewrite grid_index_spec, IH. reflexivity.
Qed.

Lemma visit_looked wrap g ny nx k max2 parents n st : n < length parents ->
  looked wrap g ny nx k max2 parents n st ->
  looked wrap g ny nx k max2 parents (S n) (visit_parent g ny nx wrap max2 k st (n, nth n parents [])).
Proof.
  intros N [Hn Hs]. unfold visit_parent. destruct (nth n parents []) as [|p0 pts0] eqn:Ep.
  - (* empty parent *)
    constructor.
    + intro B. destruct (Hn B) as [F A]. split; [exact F|]. intros i p I C.
      destruct (Nat.eq_dec i n) as [->|Ne]; [rewrite Ep, candidates_nil in C; destruct C|]. apply (A i); [lia|exact C].
    + intros d B. destruct (Hs d B) as (F & Z0 & M & P & X & A & S0). split; [assumption|]; split; [assumption|]; split; [assumption|]; split; [lia|]; split; [assumption|]; split; [|assumption].
      * intros i p I C. destruct (Nat.eq_dec i n) as [->|Ne]; [rewrite Ep, candidates_nil in C; destruct C|]. apply (A i); [lia|exact C].
  - rewrite <- Ep. destruct (se_found st) eqn:Fo.
    + (* skipped: an exact match was already found *)
      constructor.
      * intro B. destruct (Hn B) as [F _]. congruence.
      * intros d B. destruct (Hs d B) as (F & Z0 & M & P & X & A & S0). split; [intros _; apply F; reflexivity|]; split; [assumption|]; split; [assumption|]; split; [lia|]; split; [assumption|]; split; [|assumption].
        -- intros i p _ _ _. rewrite (F eq_refl). apply cell_dist2_nonneg.
    + fold (candidates g ny nx k (nth n parents [])).
      destruct (scan wrap nx max2 k (candidates g ny nx k (nth n parents [])) None) as [m found] eqn:Es.
      apply scan_spec in Es; [|intros b Hb; discriminate]. destruct m as [d'|].
      * destruct Es as (A' & B' & _ & D'). destruct A' as [A'|(q & Q1 & Q2 & Q3)]; [discriminate|].
        assert (Nn : (0 <= d')%Q) by (rewrite Q2; apply cell_dist2_nonneg).
        destruct (lt_opt d' (se_best st)) eqn:Lo.
        -- (* new best *)
           constructor; cbn [se_best se_parent se_found]; [discriminate|]. intros d E. inversion E; subst d.
           split; [assumption|]; split; [assumption|]; split; [assumption|]; split; [|split; [|split]].
           ++ lia.
           ++ exists q. split; [apply (candidates_sound g ny nx k); exact Q1|exact Q2].
           ++ intros i p I C M. destruct (Nat.eq_dec i n) as [->|Ne]; [apply B'; assumption|].
              destruct (se_best st) as [b|] eqn:Eb.
              ** destruct (Hs b eq_refl) as (_ & _ & _ & _ & _ & A & _). cbn [lt_opt] in Lo. apply Qltb_spec in Lo.
                 eapply Qle_trans; [apply Qlt_le_weak; exact Lo|]. apply (A i); [lia|exact C|exact M].
              ** destruct (Hn eq_refl) as [_ A]. exfalso. apply (Qlt_not_le _ _ (A i p ltac:(lia) C)). exact M.
           ++ intros i p I C M. destruct (se_best st) as [b|] eqn:Eb.
              ** destruct (Hs b eq_refl) as (_ & _ & _ & _ & _ & A & _). cbn [lt_opt] in Lo. apply Qltb_spec in Lo.
                 eapply Qlt_le_trans; [exact Lo|]. apply (A i); [lia|exact C|exact M].
              ** destruct (Hn eq_refl) as [_ A]. exfalso. apply (Qlt_not_le _ _ (A i p I C)). exact M.
        -- destruct (se_best st) as [b|] eqn:Eb; [|discriminate]. cbn [lt_opt] in Lo. apply Qltb_false in Lo.
           destruct (Hs b eq_refl) as (F & Z0 & M & P & X & A & S0).
           constructor; cbn [se_best se_parent se_found]; [discriminate|]. intros d E. inversion E; subst d.
           split; [|split; [assumption|]; split; [assumption|]; split; [lia|]; split; [assumption|]; split; [|assumption]].
           ++ intro Ff. apply Qle_antisym; [rewrite <- (D' Ff); exact Lo|exact Z0].
           ++ intros i p I C Hm. destruct (Nat.eq_dec i n) as [->|Ne].
              ** eapply Qle_trans; [exact Lo|]. apply B'; assumption.
              ** apply (A i); [lia|exact C|exact Hm].
      * destruct Es as (_ & -> & C').
        constructor; cbn [se_best se_parent se_found].
        -- intro B. destruct (Hn B) as [_ A]. split; [reflexivity|]. intros i p I C.
           destruct (Nat.eq_dec i n) as [->|Ne]; [apply C'; exact C|]. apply (A i); [lia|exact C].
        -- intros d B. destruct (Hs d B) as (F & Z0 & M & P & X & A & S0). split; [discriminate|]; split; [assumption|]; split; [assumption|]; split; [lia|]; split; [assumption|]; split; [|assumption].
           ++ intros i p I C Hm. destruct (Nat.eq_dec i n) as [->|Ne].
              ** exfalso. apply (Qlt_not_le _ _ (C' p C)). exact Hm.
              ** apply (A i); [lia|exact C|exact Hm].
Qed.

Lemma combine_seq_snoc {A} (l : list A) (x : A) : combine (seq 0 (length (l ++ [x]))) (l ++ [x]) =
  combine (seq 0 (length l)) l ++ [(length l, x)].
Proof.
  rewrite app_length. cbn [length]. rewrite Nat.add_1_r, seq_S. cbn [plus].
  assert (E : forall (a : list nat) (b : list A) u v, length a = length b -> combine (a ++ [u]) (b ++ [v]) = combine a b ++ [(u, v)]).
  { induction a as [|a0 a IH]; intros [|b0 b] u v L; try discriminate; [reflexivity|]. cbn [app combine]. f_equal. apply IH. simpl in L. lia. }
  apply E. apply seq_length.
Qed.

Lemma visits_looked wrap g ny nx k max2 parents : forall n, n <= length parents ->
  looked wrap g ny nx k max2 parents n
    (fold_left (visit_parent g ny nx wrap max2 k) (combine (seq 0 n) (firstn n parents)) (mkSearch None 0 false)).
Proof.
  induction n as [|n IH]; intro H.
  - constructor; cbn; [|discriminate]. intros _. split; [reflexivity|]. intros; lia.
  - assert (E : firstn (S n) parents = firstn n parents ++ [nth n parents []]).
    { clear IH. revert n H. induction parents as [|a r IHr]; intros n H; [simpl in H; lia|].
      destruct n as [|n]; [reflexivity|]. cbn [firstn nth app]. f_equal. apply IHr. simpl in H. lia. }
    rewrite E. assert (L : length (firstn n parents) = n) by (rewrite firstn_length; lia).
    assert (C := combine_seq_snoc (firstn n parents) (nth n parents [])).
    rewrite app_length in C. cbn [length] in C. rewrite L, Nat.add_1_r in C. rewrite C, fold_left_app. cbn [fold_left].
    apply visit_looked; [lia|]. apply IH. lia.
Qed.

Lemma nn_looked wrap g ny nx k max2 parents :
  looked wrap g ny nx k max2 parents (length parents)
    (fold_left (visit_parent g ny nx wrap max2 k) (combine (seq 0 (length parents)) parents) (mkSearch None 0 false)).
Proof.
  assert (H := visits_looked wrap g ny nx k max2 parents (length parents) (le_n _)). rewrite firstn_all in H. exact H.
Qed.

(** ** Nearest centroid *)

Lemma nearest_from_spec : forall ds idx best arg,
  (match best with
   | None => True
   | Some b => True
   end) ->
  let r := nearest_from ds idx best arg in
  (exists n, n < length ds /\ r = idx + n /\
     (match best with None => True | Some b => (nth n ds 0 < b)%Q end) /\
     (forall m, m < length ds -> (nth n ds 0 <= nth m ds 0)%Q) /\
     (forall m, m < n -> (nth n ds 0 < nth m ds 0)%Q)) \/
  (r = arg /\ forall m, m < length ds -> exists b, best = Some b /\ (b <= nth m ds 0)%Q).
Proof.
  induction ds as [|d ds IH]; intros idx best arg _; cbn [nearest_from].
  - right. split; [reflexivity|]. cbn. intros; lia.
  - destruct (lt_opt d best) eqn:Lo.
    + left. destruct (IH (S idx) (Some d) idx I) as [(n & N & R & B & A & S0)|[R A]].
      * exists (S n). cbn [length nth]. split; [lia|]. split; [lia|]. split; [|split].
        -- destruct best as [b|]; [|exact I]. cbn [lt_opt] in Lo. apply Qltb_spec in Lo. eapply Qlt_trans; [exact B|exact Lo].
        -- intros [|m] M; [apply Qlt_le_weak; exact B|]. apply A. lia.
        -- intros [|m] M; [exact B|]. apply S0. lia.
      * exists 0. cbn [length nth]. split; [lia|]. split; [rewrite R; lia|]. split; [|split].
        -- destruct best as [b|]; [|exact I]. cbn [lt_opt] in Lo. apply Qltb_spec in Lo. exact Lo.
        -- intros [|m] M; [apply Qle_refl|]. destruct (A m ltac:(lia)) as (b & Eb & Hb). inversion Eb; subst. exact Hb.
        -- intros; lia.
    + destruct best as [b|]; [|discriminate]. cbn [lt_opt] in Lo. apply Qltb_false in Lo.
      destruct (IH (S idx) (Some b) arg I) as [(n & N & R & B & A & S0)|[R A]].
      * left. exists (S n). cbn [length nth]. split; [lia|]. split; [lia|]. split; [exact B|]. split.
        -- intros [|m] M; [apply Qlt_le_weak; eapply Qlt_le_trans; [exact B|exact Lo]|]. apply A. lia.
        -- intros [|m] M; [eapply Qlt_le_trans; [exact B|exact Lo]|]. apply S0. lia.
      * right. split; [exact R|]. intros [|m] M; [exists b; split; [reflexivity|exact Lo]|]. apply A. simpl in M. lia.
Qed.

Lemma nearest_spec ds : ds <> [] ->
  nearest ds < length ds /\
  (forall m, m < length ds -> (nth (nearest ds) ds 0 <= nth m ds 0)%Q) /\
  (forall m, m < nearest ds -> (nth (nearest ds) ds 0 < nth m ds 0)%Q).
Proof.
  intro Ne. unfold nearest. destruct (nearest_from_spec ds 0 None 0 I) as [(n & N & R & _ & A & S0)|[_ A]].
  - rewrite R. cbn [plus]. auto.
  - destruct ds as [|d ds]; [congruence|]. destruct (A 0 ltac:(simpl; lia)) as (b & E & _). discriminate.
Qed.
