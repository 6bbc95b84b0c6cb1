(** Geometry of the sphere. *)
From Coq Require Import Reals Lra Lia Psatz Permutation.
From Verif Require Import Base Filter FilterProofs Sphere.
Open Scope R_scope.

Lemma rad_deg r : rad (deg r) = r.
Proof. unfold rad, deg. field. apply PI_neq0. Qed.
Lemma deg_rad d : deg (rad d) = d.
Proof. unfold rad, deg. field. apply PI_neq0. Qed.
Lemma rad_le a b : a <= b -> rad a <= rad b.
Proof. intro H. unfold rad. assert (P := PI_RGT_0). nra. Qed.
Lemma rad_lt a b : a < b -> rad a < rad b.
Proof. intro H. unfold rad. assert (P := PI_RGT_0). nra. Qed.
Lemma rad_180 : rad 180 = PI. Proof. unfold rad. field. Qed.
Lemma rad_m180 : rad (-180) = - PI. Proof. unfold rad. field. Qed.
Lemma rad_90 : rad 90 = PI / 2. Proof. unfold rad. field. Qed.
Lemma rad_m90 : rad (-90) = - (PI / 2). Proof. unfold rad. field. Qed.
Lemma rad_plus a b : rad (a + b) = rad a + rad b. Proof. unfold rad. field. Qed.
Lemma rad_360 (k : Z) : rad (360 * IZR k) = 2 * IZR k * PI. Proof. unfold rad. field. Qed.

Lemma clip1_id x : -1 <= x <= 1 -> clip1 x = x.
Proof. intros [A B]. unfold clip1. rewrite Rmin_left by exact B. apply Rmax_right. exact A. Qed.
Lemma clip1_bound x : -1 <= clip1 x <= 1.
Proof.
  unfold clip1. split; [apply Rmax_l|]. apply Rmax_lub; [lra|apply Rmin_r].
Qed.

(** ** arctan2 *)
Lemma div_sq y x : x <> 0 -> sqrt (1 + (y / x)²) = sqrt (x ^ 2 + y ^ 2) / Rabs x.
Proof.
  intro N. rewrite <- (sqrt_Rsqr_abs x). rewrite <- sqrt_div_alt.
  - f_equal. unfold Rsqr. field. exact N.
  - apply Rsqr_pos_lt. exact N.
Qed.
Lemma root_pos x y : x <> 0 \/ y <> 0 -> 0 < sqrt (x ^ 2 + y ^ 2).
Proof. intro N. apply sqrt_lt_R0. destruct N as [N|N]; apply Rsqr_pos_lt in N; unfold Rsqr in N; nra. Qed.
Lemma atan2_spec y x : x <> 0 \/ y <> 0 ->
  cos (atan2 y x) * sqrt (x ^ 2 + y ^ 2) = x /\ sin (atan2 y x) * sqrt (x ^ 2 + y ^ 2) = y /\ - PI < atan2 y x <= PI.
Proof.
  intro N. assert (Pn := root_pos x y N). assert (Pp := PI_RGT_0). unfold atan2.
  assert (At := atan_bound (y / x)).
  destruct (Rlt_dec 0 x) as [P|P].
  - rewrite cos_atan, sin_atan, div_sq by lra. rewrite Rabs_right by lra.
    split; [field; lra|]. split; [field; lra|]. lra.
  - destruct (Rlt_dec x 0) as [M|M].
    + destruct (Rle_dec 0 y) as [Y|Y].
      * rewrite neg_cos, neg_sin, cos_atan, sin_atan, div_sq by lra. rewrite Rabs_left by lra.
        split; [field; lra|]. split; [field; lra|].
        assert (Q0 : y / x <= 0). { assert (E : y / x = - (y * / - x)) by (field; lra). rewrite E. assert (0 < / - x) by (apply Rinv_0_lt_compat; lra). nra. }
        assert (A0 : atan (y / x) <= 0). { destruct (Req_dec (y / x) 0) as [->|Ne]; [rewrite atan_0; lra|]. left. rewrite <- atan_0. apply atan_increasing. lra. }
        lra.
      * assert (Ec : cos (atan (y / x) - PI) = - cos (atan (y / x))) by (rewrite cos_minus, cos_PI, sin_PI; ring).
        assert (Es : sin (atan (y / x) - PI) = - sin (atan (y / x))) by (rewrite sin_minus, cos_PI, sin_PI; ring).
        rewrite Ec, Es, cos_atan, sin_atan, div_sq by lra. rewrite Rabs_left by lra.
        split; [field; lra|]. split; [field; lra|].
        assert (Q0 : 0 < y / x). { assert (E : y / x = (- y) * / - x) by (field; lra). rewrite E. assert (0 < / - x) by (apply Rinv_0_lt_compat; lra). nra. }
        assert (A0 : 0 < atan (y / x)). { rewrite <- atan_0. apply atan_increasing. exact Q0. }
        lra.
    + assert (x = 0) by lra. subst x. assert (Ny : y <> 0) by (destruct N; [lra|assumption]).
      assert (E : sqrt (0 ^ 2 + y ^ 2) = Rabs y) by (rewrite <- sqrt_Rsqr_abs; f_equal; unfold Rsqr; ring). rewrite E.
      destruct (Rlt_dec 0 y) as [Y|Y].
      * rewrite cos_PI2, sin_PI2, Rabs_right by lra. repeat split; lra.
      * destruct (Rlt_dec y 0) as [Y'|Y']; [|lra]. rewrite cos_neg, sin_neg, cos_PI2, sin_PI2, Rabs_left by lra. repeat split; lra.
Qed.
Lemma atan2_bound y x : - PI < atan2 y x <= PI.
Proof.
  destruct (Req_dec x 0) as [->|X]; [|apply atan2_spec; auto]. destruct (Req_dec y 0) as [->|Y]; [|apply atan2_spec; auto].
  assert (Pp := PI_RGT_0). unfold atan2. destruct (Rlt_dec 0 0); lra.
Qed.
Lemma atan2_first y x : 0 <= x -> 0 <= y -> 0 <= atan2 y x <= PI / 2.
Proof.
  intros X Y. assert (Pp := PI_RGT_0). unfold atan2. destruct (Rlt_dec 0 x) as [P|P].
  - assert (At := atan_bound (y / x)). split; [|lra].
    assert (Q0 : 0 <= y / x) by (apply Rmult_le_pos; [exact Y|left; apply Rinv_0_lt_compat, P]).
    destruct (Req_dec (y / x) 0) as [->|Ne]; [rewrite atan_0; lra|]. left. rewrite <- atan_0. apply atan_increasing. lra.
  - destruct (Rlt_dec x 0); [lra|]. destruct (Rlt_dec 0 y); [lra|]. destruct (Rlt_dec y 0); lra.
Qed.
Lemma wrap180_id l : -180 <= l <= 180 -> wrap180 l = l.
Proof. intro H. unfold wrap180. destruct (Rlt_dec 180 l); [lra|]. destruct (Rlt_dec l (-180)); [lra|reflexivity]. Qed.
Lemma deg_bound r : - PI < r <= PI -> -180 < deg r <= 180.
Proof.
  intros [A B]. assert (Pp := PI_RGT_0). assert (Ip : 0 < / PI) by (apply Rinv_0_lt_compat, Pp). unfold deg.
  assert (E1 : 180 = PI * 180 / PI) by (field; lra). assert (E2 : -180 = - PI * 180 / PI) by (field; lra).
  split; [rewrite E2|rewrite E1 at 2]; unfold Rdiv; [apply Rmult_lt_compat_r|apply Rmult_le_compat_r]; lra.
Qed.
Lemma deg_half r : - (PI / 2) <= r <= PI / 2 -> -90 <= deg r <= 90.
Proof.
  intros [A B]. assert (Pp := PI_RGT_0). assert (Ip : 0 < / PI) by (apply Rinv_0_lt_compat, Pp). unfold deg.
  assert (E1 : 90 = PI / 2 * 180 / PI) by (field; lra). assert (E2 : -90 = - (PI / 2) * 180 / PI) by (field; lra).
  split; [rewrite E2|rewrite E1]; unfold Rdiv; apply Rmult_le_compat_r; lra.
Qed.

(** ** The centroid points in the direction of the sum *)
Section Centroid.
Variable l : list geo.
Let x := sumR (fun c => g_area c * cell_x c) l.
Let y := sumR (fun c => g_area c * cell_y c) l.
Let z := sumR (fun c => g_area c * cell_z c) l.
Let n := sqrt (x ^ 2 + y ^ 2 + z ^ 2).
Lemma centroid_range : -90 <= fst (sphere_centroid l) <= 90 /\ -180 < snd (sphere_centroid l) <= 180.
Proof.
  unfold sphere_centroid. cbn [fst snd]. split; [apply deg_half, asin_bound|].
  rewrite wrap180_id; [apply deg_bound, atan2_bound|].
  match goal with |- context [deg ?t] => assert (B := deg_bound t (atan2_bound _ _)) end. lra.
Qed.
Lemma centroid_direction : 0 < n ->
  cos (rad (fst (sphere_centroid l))) * cos (rad (snd (sphere_centroid l))) * n = x /\
  cos (rad (fst (sphere_centroid l))) * sin (rad (snd (sphere_centroid l))) * n = y /\
  sin (rad (fst (sphere_centroid l))) * n = z.
Proof.
  intro Pn. unfold sphere_centroid. cbn [fst snd]. fold x y z. fold n. destruct (Rlt_dec 0 n) as [_|F]; [|contradiction].
  set (a := x / n). set (b := y / n). set (c := z / n).
  assert (N2 : n * n = x ^ 2 + y ^ 2 + z ^ 2) by (apply sqrt_sqrt; nra).
  assert (U : a ^ 2 + b ^ 2 + c ^ 2 = 1).
  { unfold a, b, c. replace ((x / n) ^ 2 + (y / n) ^ 2 + (z / n) ^ 2) with ((x ^ 2 + y ^ 2 + z ^ 2) / (n * n)) by (field; lra).
    rewrite <- N2. field. lra. }
  assert (Bc : -1 <= c <= 1) by nra.
  rewrite clip1_id by exact Bc. rewrite !rad_deg. rewrite wrap180_id.
  2: { assert (B := deg_bound _ (atan2_bound b a)). lra. }
  rewrite rad_deg, sin_asin, cos_asin by exact Bc.
  assert (R0 : 1 - c² = a ^ 2 + b ^ 2) by (unfold Rsqr; lra). rewrite R0.
  assert (Ex : a * n = x) by (unfold a; field; lra). assert (Ey : b * n = y) by (unfold b; field; lra). assert (Ez : c * n = z) by (unfold c; field; lra).
  split; [|split; [|exact Ez]].
  - destruct (Req_dec a 0) as [A0|A0]; [destruct (Req_dec b 0) as [B0|B0]|].
    + rewrite A0, B0. replace (0 ^ 2 + 0 ^ 2) with 0 by ring. rewrite sqrt_0. rewrite <- Ex, A0. ring.
    + destruct (atan2_spec b a) as (E & _); [auto|]. rewrite <- Ex. rewrite <- E at 3. ring.
    + destruct (atan2_spec b a) as (E & _); [auto|]. rewrite <- Ex. rewrite <- E at 3. ring.
  - destruct (Req_dec a 0) as [A0|A0]; [destruct (Req_dec b 0) as [B0|B0]|].
    + rewrite A0, B0. replace (0 ^ 2 + 0 ^ 2) with 0 by ring. rewrite sqrt_0. rewrite <- Ey, B0. ring.
    + destruct (atan2_spec b a) as (_ & E & _); [auto|]. rewrite <- Ey. rewrite <- E at 3. ring.
    + destruct (atan2_spec b a) as (_ & E & _); [auto|]. rewrite <- Ey. rewrite <- E at 3. ring.
Qed.
End Centroid.

(** ** Unit vectors *)
Definition ux (p : R * R) : R := cos (rad (fst p)) * cos (rad (snd p)).
Definition uy (p : R * R) : R := cos (rad (fst p)) * sin (rad (snd p)).
Definition uz (p : R * R) : R := sin (rad (fst p)).
Definition dotp (p q : R * R) : R := ux p * ux q + uy p * uy q + uz p * uz q.
Lemma unit_sq p : ux p ^ 2 + uy p ^ 2 + uz p ^ 2 = 1.
Proof.
  unfold ux, uy, uz. set (a := rad (fst p)). set (b := rad (snd p)).
  assert (A := sin2_cos2 a). assert (B := sin2_cos2 b). unfold Rsqr in A, B.
  replace ((cos a * cos b) ^ 2 + (cos a * sin b) ^ 2 + sin a ^ 2) with (cos a * cos a * (sin b * sin b + cos b * cos b) + sin a * sin a) by ring.
  rewrite B. lra.
Qed.
Lemma dot_bound p q : -1 <= dotp p q <= 1.
Proof.
  assert (P := unit_sq p). assert (Q := unit_sq q). unfold dotp.
  assert (T : forall t, 0 <= t ^ 2) by (intro t; apply pow2_ge_0).
  assert (A1 := T (ux p - ux q)). assert (A2 := T (uy p - uy q)). assert (A3 := T (uz p - uz q)).
  assert (B1 := T (ux p + ux q)). assert (B2 := T (uy p + uy q)). assert (B3 := T (uz p + uz q)). split; nra.
Qed.
Lemma hav_a p q :
  sin ((rad (fst q) - rad (fst p)) / 2) ^ 2 + cos (rad (fst p)) * cos (rad (fst q)) * sin ((rad (snd q) - rad (snd p)) / 2) ^ 2
  = (1 - dotp p q) / 2.
Proof.
  unfold dotp, ux, uy, uz. set (a := rad (fst p)). set (b := rad (snd p)). set (c := rad (fst q)). set (d := rad (snd q)).
  assert (H : forall t, sin (t / 2) ^ 2 = (1 - cos t) / 2).
  { intro t. assert (E := cos_2a_sin (t / 2)). replace (2 * (t / 2)) with t in E by field. rewrite E. field. }
  rewrite !H, !cos_minus. field.
Qed.
Lemma haversine_spec p q : cos (haversine p q) = dotp p q /\ 0 <= haversine p q <= PI.
Proof.
  unfold haversine. rewrite hav_a. assert (B := dot_bound p q). set (a := (1 - dotp p q) / 2) in *.
  assert (A : 0 <= a <= 1) by (unfold a; lra).
  assert (F := atan2_first (sqrt a) (sqrt (1 - a)) (sqrt_pos _) (sqrt_pos _)). split; [|lra].
  assert (S1 : sqrt (1 - a) * sqrt (1 - a) = 1 - a) by (apply sqrt_sqrt; lra).
  assert (S2 : sqrt a * sqrt a = a) by (apply sqrt_sqrt; lra).
  assert (N : sqrt (1 - a) <> 0 \/ sqrt a <> 0).
  { destruct (Req_dec (sqrt (1 - a)) 0) as [E|E]; [|auto]. right. intro E2. rewrite E in S1. rewrite E2 in S2. lra. }
  destruct (atan2_spec _ _ N) as (C & _). replace (sqrt (1 - a) ^ 2 + sqrt a ^ 2) with 1 in C by lra. rewrite sqrt_1, Rmult_1_r in C.
  rewrite cos_2a_cos, C. unfold a in *. lra.
Qed.
Lemma haversine_le p q p' q' : haversine p q <= haversine p' q' <-> dotp p' q' <= dotp p q.
Proof.
  destruct (haversine_spec p q) as [E1 [B1 B2]]. destruct (haversine_spec p' q') as [E2 [B3 B4]]. rewrite <- E1, <- E2. split; intro H.
  - apply cos_decr_1; lra.
  - apply cos_decr_0; lra.
Qed.
Lemma haversine_lt p q p' q' : haversine p q < haversine p' q' <-> dotp p' q' < dotp p q.
Proof. assert (H := haversine_le p' q' p q). split; intro L; apply Rnot_le_lt; intro F; apply H in F; lra. Qed.

(** ** The scan for the nearest *)
Lemma scan_spec d : forall ps j best least, (best < j)%nat ->
  let r := scan_nearest d ps j best least in
  (r = best /\ (forall p, In p ps -> least <= d p)) \/
  (exists i p, r = (j + i)%nat /\ nth_error ps i = Some p /\ d p < least /\
     (forall k q, nth_error ps k = Some q -> d p <= d q) /\ (forall k q, (k < i)%nat -> nth_error ps k = Some q -> d p < d q)).
Proof.
  induction ps as [|p ps IH]; intros j best least L; cbn [scan_nearest].
  - left. split; [reflexivity|]. intros q [].
  - destruct (Rlt_dec (d p) least) as [H|H].
    + destruct (IH (S j) j (d p) ltac:(lia)) as [[E A]|(i & q & E & Nq & Lq & A & B)].
      * right. exists 0%nat, p. split; [rewrite E; lia|]. split; [reflexivity|]. split; [exact H|]. split; [|intros; lia].
        intros [|k] q Hq; cbn in Hq; [injection Hq as <-; lra|]. apply A. eapply nth_error_In, Hq.
      * right. exists (S i), q. split; [rewrite E; lia|]. split; [exact Nq|]. split; [lra|]. split.
        -- intros [|k] q' Hq; cbn in Hq; [injection Hq as <-; lra|]. eapply A, Hq.
        -- intros [|k] q' Hk Hq; cbn in Hq; [injection Hq as <-; lra|]. eapply B; [|exact Hq]. lia.
    + destruct (IH (S j) best least ltac:(lia)) as [[E A]|(i & q & E & Nq & Lq & A & B)].
      * left. split; [exact E|]. intros q [<-|Hq]; [lra|]. apply A, Hq.
      * right. exists (S i), q. split; [rewrite E; lia|]. split; [exact Nq|]. split; [lra|]. split.
        -- intros [|k] q' Hq; cbn in Hq; [injection Hq as <-; lra|]. eapply A, Hq.
        -- intros [|k] q' Hk Hq; cbn in Hq; [injection Hq as <-; lra|]. eapply B; [|exact Hq]. lia.
Qed.
Lemma nearest_parent_spec point ps : ps <> [] ->
  exists p, nth_error ps (nearest_parent point ps) = Some p /\
    (forall k q, nth_error ps k = Some q -> haversine point p <= haversine point q) /\
    (forall k q, (k < nearest_parent point ps)%nat -> nth_error ps k = Some q -> haversine point p < haversine point q).
Proof.
  destruct ps as [|a ps]; [congruence|]. intros _. cbn [nearest_parent].
  destruct (scan_spec (haversine point) ps 1 0 (haversine point a) ltac:(lia)) as [[E A]|(i & q & E & Nq & Lq & A & B)]; rewrite E.
  - exists a. split; [reflexivity|]. split; [|intros; lia]. intros [|k] q Hq; cbn in Hq; [injection Hq as <-; lra|]. apply A. eapply nth_error_In, Hq.
  - exists q. split; [exact Nq|]. split.
    + intros [|k] q' Hq; cbn in Hq; [injection Hq as <-; lra|]. eapply A, Hq.
    + intros [|k] q' Hk Hq; cbn in Hq; [injection Hq as <-; lra|]. eapply B; [|exact Hq]. lia.
Qed.

(** ** Sums *)
Lemma sumR_cons f c l : sumR f (c :: l) = f c + sumR f l. Proof. reflexivity. Qed.
Lemma sumR_nil f : sumR f [] = 0. Proof. reflexivity. Qed.
Lemma sumR_ext f g l : (forall c, In c l -> f c = g c) -> sumR f l = sumR g l.
Proof. induction l as [|c l IH]; intro H; [reflexivity|]. rewrite !sumR_cons. rewrite H by (left; auto). f_equal. apply IH. intros d Hd. apply H. right. exact Hd. Qed.
Lemma sumR_map f h l : sumR f (map h l) = sumR (fun c => f (h c)) l.
Proof. induction l as [|c l IH]; [reflexivity|]. cbn [map]. rewrite !sumR_cons. f_equal. exact IH. Qed.
Lemma sumR_perm f l l' : Permutation l l' -> sumR f l = sumR f l'.
Proof. unfold sumR. induction 1; cbn [fold_right]; lra. Qed.
Lemma sumR_scale k f l : sumR (fun c => k * f c) l = k * sumR f l.
Proof. induction l as [|c l IH]; [cbn; ring|]. rewrite !sumR_cons, IH. ring. Qed.
Lemma sumR_plus f g l : sumR (fun c => f c + g c) l = sumR f l + sumR g l.
Proof. induction l as [|c l IH]; [cbn; ring|]. rewrite !sumR_cons, IH. ring. Qed.
Lemma sumR_le f g l : (forall c, In c l -> f c <= g c) -> sumR f l <= sumR g l.
Proof.
  induction l as [|c l IH]; intro H; [cbn; lra|]. rewrite !sumR_cons. assert (f c <= g c) by (apply H; left; auto).
  assert (sumR f l <= sumR g l) by (apply IH; intros d Hd; apply H; right; exact Hd). lra.
Qed.
Lemma sumR_zero l : sumR (fun _ => 0) l = 0.
Proof. induction l as [|c l IH]; [reflexivity|]. rewrite sumR_cons, IH. lra. Qed.
Lemma sumR_nonneg f l : (forall c, In c l -> 0 <= f c) -> 0 <= sumR f l.
Proof. intro H. rewrite <- (sumR_zero l). apply sumR_le. exact H. Qed.
Lemma sumR_pos f l : l <> [] -> (forall c, In c l -> 0 < f c) -> 0 < sumR f l.
Proof.
  destruct l as [|c l]; [congruence|]. intros _ H. rewrite sumR_cons. assert (0 < f c) by (apply H; left; auto).
  assert (0 <= sumR f l) by (apply sumR_nonneg; intros d Hd; left; apply H; right; exact Hd). lra.
Qed.
Lemma sumR_app f a b : sumR f (a ++ b) = sumR f a + sumR f b.
Proof. induction a as [|c a IH]; [cbn [app]; rewrite sumR_nil; ring|]. cbn [app]. rewrite !sumR_cons, IH. ring. Qed.

(** ** What the centroid does *)
Definition pt (c : geo) : R * R := (g_lat c, g_lon c).
Definition sx l := sumR (fun c => g_area c * cell_x c) l.
Definition sy l := sumR (fun c => g_area c * cell_y c) l.
Definition sz l := sumR (fun c => g_area c * cell_z c) l.
Definition norm l := sqrt (sx l ^ 2 + sy l ^ 2 + sz l ^ 2).
Lemma norm_sq l : norm l * norm l = sx l ^ 2 + sy l ^ 2 + sz l ^ 2.
Proof.
  apply sqrt_sqrt. assert (A := pow2_ge_0 (sx l)). assert (B := pow2_ge_0 (sy l)). assert (C := pow2_ge_0 (sz l)). lra.
Qed.
Lemma norm_nonneg l : 0 <= norm l. Proof. apply sqrt_pos. Qed.
Lemma norm_zero l : norm l = 0 -> sx l = 0 /\ sy l = 0 /\ sz l = 0.
Proof.
  intro E. assert (H := norm_sq l). rewrite E in H. assert (A := pow2_ge_0 (sx l)). assert (B := pow2_ge_0 (sy l)). assert (C := pow2_ge_0 (sz l)).
  repeat split; apply Rsqr_0_uniq; unfold Rsqr; nra.
Qed.
Lemma norm_pos l : (sx l <> 0 \/ sy l <> 0 \/ sz l <> 0) -> 0 < norm l.
Proof.
  intro H. destruct (Rle_lt_or_eq_dec _ _ (norm_nonneg l)) as [L|E]; [exact L|]. symmetry in E. apply norm_zero in E. exfalso. tauto.
Qed.
Lemma centroid_dir l : 0 < norm l ->
  ux (sphere_centroid l) * norm l = sx l /\ uy (sphere_centroid l) * norm l = sy l /\ uz (sphere_centroid l) * norm l = sz l.
Proof. exact (centroid_direction l). Qed.
Lemma sum_dot l p : sumR (fun c => g_area c * dotp (pt c) p) l = sx l * ux p + sy l * uy p + sz l * uz p.
Proof.
  unfold sx, sy, sz. induction l as [|c l IH]; [cbn; ring|]. rewrite !sumR_cons.
  rewrite IH. unfold dotp, cell_x, cell_y, cell_z, pt, ux, uy, uz. cbn [fst snd]. ring.
Qed.
Lemma sum_dot_centroid l p : 0 < norm l -> sumR (fun c => g_area c * dotp (pt c) p) l = norm l * dotp (sphere_centroid l) p.
Proof. intro P. rewrite sum_dot. destruct (centroid_dir l P) as (A & B & C). rewrite <- A, <- B, <- C. unfold dotp. ring. Qed.
Lemma dot_self p : dotp p p = 1.
Proof. rewrite <- (unit_sq p). unfold dotp. ring. Qed.
Lemma dot_comm p q : dotp p q = dotp q p. Proof. unfold dotp. ring. Qed.
Lemma centroid_best l p : sumR (fun c => g_area c * dotp (pt c) p) l <= sumR (fun c => g_area c * dotp (pt c) (sphere_centroid l)) l.
Proof.
  destruct (Rle_lt_or_eq_dec _ _ (norm_nonneg l)) as [L|E].
  - rewrite !sum_dot_centroid by exact L. rewrite dot_self. assert (B := dot_bound (sphere_centroid l) p). nra.
  - symmetry in E. apply norm_zero in E. destruct E as (A & B & C). rewrite !sum_dot, A, B, C. lra.
Qed.
Lemma norm_le_area l : (forall c, In c l -> 0 <= g_area c) -> norm l <= sumR g_area l.
Proof.
  intro P. destruct (Rle_lt_or_eq_dec _ _ (norm_nonneg l)) as [L|E].
  - replace (norm l) with (norm l * dotp (sphere_centroid l) (sphere_centroid l)) by (rewrite dot_self; ring).
    rewrite <- sum_dot_centroid by exact L. apply sumR_le. intros c Hc. assert (B := dot_bound (pt c) (sphere_centroid l)). specialize (P c Hc). nra.
  - rewrite <- E. apply sumR_nonneg. exact P.
Qed.
Lemma cap l p k : l <> [] -> (forall c, In c l -> 0 < g_area c) -> 0 < k -> (forall c, In c l -> k <= dotp p (pt c)) ->
  0 < norm l /\ k <= dotp p (sphere_centroid l).
Proof.
  intros Ne P K H. assert (A := sumR_pos g_area l Ne P).
  assert (D : k * sumR g_area l <= sumR (fun c => g_area c * dotp (pt c) p) l).
  { rewrite <- sumR_scale. apply sumR_le. intros c Hc. specialize (P c Hc). specialize (H c Hc). rewrite dot_comm in H. nra. }
  assert (N : 0 < norm l).
  { destruct (Rle_lt_or_eq_dec _ _ (norm_nonneg l)) as [L|E]; [exact L|]. symmetry in E. apply norm_zero in E. destruct E as (X & Y & Z0).
    rewrite sum_dot, X, Y, Z0 in D. nra. }
  split; [exact N|]. rewrite sum_dot_centroid in D by exact N. rewrite dot_comm.
  assert (L := norm_le_area l ltac:(intros c Hc; left; apply P, Hc)).
  apply Rmult_le_reg_l with (norm l); [exact N|]. nra.
Qed.

(** ** Invariance *)
Lemma centroid_of_sums l l' k : 0 < k -> sx l' = k * sx l -> sy l' = k * sy l -> sz l' = k * sz l ->
  sphere_centroid l' = sphere_centroid l.
Proof.
  intros K X Y Z0. unfold sphere_centroid. fold (sx l) (sy l) (sz l) (sx l') (sy l') (sz l'). fold (norm l) (norm l').
  assert (N : norm l' = k * norm l).
  { unfold norm. rewrite X, Y, Z0. replace ((k * sx l) ^ 2 + (k * sy l) ^ 2 + (k * sz l) ^ 2) with (k² * (sx l ^ 2 + sy l ^ 2 + sz l ^ 2)) by (unfold Rsqr; ring).
    rewrite sqrt_mult_alt by apply Rle_0_sqr. rewrite sqrt_Rsqr by lra. reflexivity. }
  rewrite N. destruct (Rlt_dec 0 (norm l)) as [P|P].
  - destruct (Rlt_dec 0 (k * norm l)) as [_|F]; [|exfalso; apply F; nra]. rewrite X, Y, Z0.
    assert (E : forall t, k * t / (k * norm l) = t / norm l) by (intro t; field; lra). rewrite !E. reflexivity.
  - destruct (Rlt_dec 0 (k * norm l)) as [F|_]; [exfalso; assert (Q := norm_nonneg l); nra|].
    assert (Q := norm_nonneg l). assert (E : norm l = 0) by lra. apply norm_zero in E. destruct E as (A & B & C). rewrite X, Y, Z0, A, B, C.
    rewrite !Rmult_0_r. reflexivity.
Qed.
Lemma centroid_perm l l' : Permutation l l' -> sphere_centroid l' = sphere_centroid l.
Proof.
  intro P. apply centroid_of_sums with 1; [lra|..]; rewrite Rmult_1_l; symmetry; apply sumR_perm; exact P.
Qed.
Lemma centroid_scale k l : 0 < k -> sphere_centroid (map (fun c => mkGeo (k * g_area c) (g_lat c) (g_lon c)) l) = sphere_centroid l.
Proof.
  intro K. apply centroid_of_sums with k; [exact K|..]; unfold sx, sy, sz; rewrite sumR_map, <- sumR_scale; apply sumR_ext; intros c _;
    unfold cell_x, cell_y, cell_z; cbn; ring.
Qed.
Lemma cos_turns x (k : Z) : cos (x + 2 * IZR k * PI) = cos x.
Proof.
  destruct k as [|p|p].
  - f_equal. ring.
  - rewrite <- (cos_period x (Pos.to_nat p)). rewrite INR_IPR. reflexivity.
  - rewrite <- (cos_period (x + 2 * IZR (Z.neg p) * PI) (Pos.to_nat p)). rewrite INR_IPR. f_equal. change (Z.neg p) with (Z.opp (Z.pos p)).
    rewrite opp_IZR. change (IZR (Z.pos p)) with (IPR p). ring.
Qed.
Lemma sin_turns x (k : Z) : sin (x + 2 * IZR k * PI) = sin x.
Proof.
  destruct k as [|p|p].
  - f_equal. ring.
  - rewrite <- (sin_period x (Pos.to_nat p)). rewrite INR_IPR. reflexivity.
  - rewrite <- (sin_period (x + 2 * IZR (Z.neg p) * PI) (Pos.to_nat p)). rewrite INR_IPR. f_equal. change (Z.neg p) with (Z.opp (Z.pos p)).
    rewrite opp_IZR. change (IZR (Z.pos p)) with (IPR p). ring.
Qed.
Lemma centroid_turns (turns : geo -> Z) l :
  sphere_centroid (map (fun c => mkGeo (g_area c) (g_lat c) (g_lon c + 360 * IZR (turns c))) l) = sphere_centroid l.
Proof.
  apply centroid_of_sums with 1; [lra|..]; unfold sx, sy, sz; rewrite sumR_map, Rmult_1_l; apply sumR_ext; intros c _;
    unfold cell_x, cell_y, cell_z; cbn [g_area g_lat g_lon]; rewrite ?rad_plus, ?rad_360, ?cos_turns, ?sin_turns; reflexivity.
Qed.
Lemma centroid_rotate d l : 0 < norm l ->
  let c := sphere_centroid l in
  let c' := sphere_centroid (map (fun c => mkGeo (g_area c) (g_lat c) (g_lon c + d)) l) in
  ux c' = ux (fst c, snd c + d) /\ uy c' = uy (fst c, snd c + d) /\ uz c' = uz (fst c, snd c + d).
Proof.
  intros P c c'. set (l' := map (fun c => mkGeo (g_area c) (g_lat c) (g_lon c + d)) l) in *.
  assert (X : sx l' = cos (rad d) * sx l + - sin (rad d) * sy l).
  { unfold sx, sy, l'. rewrite sumR_map, <- !sumR_scale, <- sumR_plus. apply sumR_ext. intros e _. unfold cell_x, cell_y. cbn [g_area g_lat g_lon].
    rewrite rad_plus, cos_plus. ring. }
  assert (Y : sy l' = sin (rad d) * sx l + cos (rad d) * sy l).
  { unfold sx, sy, l'. rewrite sumR_map, <- !sumR_scale, <- sumR_plus. apply sumR_ext. intros e _. unfold cell_x, cell_y. cbn [g_area g_lat g_lon].
    rewrite rad_plus, sin_plus. ring. }
  assert (Z0 : sz l' = sz l) by (unfold sz, l'; rewrite sumR_map; apply sumR_ext; reflexivity).
  assert (N : norm l' = norm l).
  { unfold norm. f_equal. rewrite X, Y, Z0. assert (T := sin2_cos2 (rad d)). unfold Rsqr in T.
    replace ((cos (rad d) * sx l + - sin (rad d) * sy l) ^ 2 + (sin (rad d) * sx l + cos (rad d) * sy l) ^ 2) with ((sin (rad d) * sin (rad d) + cos (rad d) * cos (rad d)) * (sx l ^ 2 + sy l ^ 2)) by ring.
    rewrite T. ring. }
  destruct (centroid_dir l P) as (A & B & C). destruct (centroid_dir l' ltac:(rewrite N; exact P)) as (A' & B' & C').
  rewrite N in A', B', C'. fold c in A, B, C. fold c' in A', B', C'. rewrite X, <- A, <- B in A'. rewrite Y, <- A, <- B in B'. rewrite Z0, <- C in C'.
  assert (Ex : ux (fst c, snd c + d) = cos (rad d) * ux c + - sin (rad d) * uy c) by (unfold ux, uy; cbn [fst snd]; rewrite rad_plus, cos_plus; ring).
  assert (Ey : uy (fst c, snd c + d) = sin (rad d) * ux c + cos (rad d) * uy c) by (unfold ux, uy; cbn [fst snd]; rewrite rad_plus, sin_plus; ring).
  rewrite Ex, Ey. repeat split; apply Rmult_eq_reg_r with (norm l); try lra; try (rewrite A'; ring); try (rewrite B'; ring). exact C'.
Qed.

(** ** Points determine their coordinates *)
Lemma sin_half_zero t : - PI < t < PI -> sin t = 0 -> t = 0.
Proof.
  intros [A B] E. destruct (Rtotal_order t 0) as [L|[->|G]]; [|reflexivity|].
  - assert (S1 : 0 < sin (- t)) by (apply sin_gt_0; lra). rewrite sin_neg in S1. lra.
  - assert (S1 : 0 < sin t) by (apply sin_gt_0; lra). lra.
Qed.
Lemma same_angle a b : - PI < a <= PI -> - PI < b <= PI -> cos a = cos b -> sin a = sin b -> a = b.
Proof.
  intros A B C D. assert (T : cos (a - b) = 1).
  { rewrite cos_minus, C, D. assert (U := sin2_cos2 b). unfold Rsqr in U. lra. }
  assert (E := cos_2a_sin ((a - b) / 2)). replace (2 * ((a - b) / 2)) with (a - b) in E by field. rewrite T in E.
  assert (Z0 : sin ((a - b) / 2) = 0) by (apply Rsqr_0_uniq; unfold Rsqr; lra).
  apply sin_half_zero in Z0; lra.
Qed.
Lemma unit_inj p q : -90 < fst p < 90 -> -180 < snd p <= 180 -> -90 <= fst q <= 90 -> -180 < snd q <= 180 ->
  ux p = ux q -> uy p = uy q -> uz p = uz q -> p = q.
Proof.
  intros A B C D X Y Z0. assert (Pp := PI_RGT_0).
  assert (R1 : - (PI / 2) < rad (fst p) < PI / 2) by (rewrite <- rad_m90, <- rad_90; split; apply rad_lt; lra).
  assert (R2 : - (PI / 2) <= rad (fst q) <= PI / 2) by (rewrite <- rad_m90, <- rad_90; split; apply rad_le; lra).
  assert (R3 : - PI < rad (snd p) <= PI) by (rewrite <- rad_m180, <- rad_180; split; [apply rad_lt|apply rad_le]; lra).
  assert (R4 : - PI < rad (snd q) <= PI) by (rewrite <- rad_m180, <- rad_180; split; [apply rad_lt|apply rad_le]; lra).
  assert (E : rad (fst p) = rad (fst q)) by (apply sin_inj; [lra|lra|exact Z0]).
  assert (K : 0 < cos (rad (fst p))) by (apply cos_gt_0; lra).
  unfold ux, uy in X, Y. rewrite <- E in X, Y. apply Rmult_eq_reg_l in X; [|lra]. apply Rmult_eq_reg_l in Y; [|lra].
  assert (F := same_angle _ _ R3 R4 X Y). destruct p, q. cbn [fst snd] in *. f_equal; [rewrite <- (deg_rad r), E, deg_rad|rewrite <- (deg_rad r0), F, deg_rad]; reflexivity.
Qed.
Lemma centroid_one_place l p : l <> [] -> (forall c, In c l -> 0 < g_area c /\ pt c = p) ->
  0 < norm l /\ ux (sphere_centroid l) = ux p /\ uy (sphere_centroid l) = uy p /\ uz (sphere_centroid l) = uz p.
Proof.
  intros Ne H. assert (A := sumR_pos g_area l Ne ltac:(intros c Hc; apply H, Hc)).
  assert (X : sx l = sumR g_area l * ux p).
  { unfold sx. rewrite Rmult_comm, <- sumR_scale. apply sumR_ext. intros c Hc. destruct (H c Hc) as [_ <-]. unfold cell_x, ux, pt. cbn [fst snd]. ring. }
  assert (Y : sy l = sumR g_area l * uy p).
  { unfold sy. rewrite Rmult_comm, <- sumR_scale. apply sumR_ext. intros c Hc. destruct (H c Hc) as [_ <-]. unfold cell_y, uy, pt. cbn [fst snd]. ring. }
  assert (Z0 : sz l = sumR g_area l * uz p).
  { unfold sz. rewrite Rmult_comm, <- sumR_scale. apply sumR_ext. intros c Hc. destruct (H c Hc) as [_ <-]. unfold cell_z, uz, pt. cbn [fst snd]. ring. }
  assert (N : norm l = sumR g_area l).
  { unfold norm. rewrite X, Y, Z0. replace ((sumR g_area l * ux p) ^ 2 + (sumR g_area l * uy p) ^ 2 + (sumR g_area l * uz p) ^ 2) with ((sumR g_area l)² * (ux p ^ 2 + uy p ^ 2 + uz p ^ 2)) by (unfold Rsqr; ring).
    rewrite unit_sq, Rmult_1_r. apply sqrt_Rsqr. lra. }
  assert (P : 0 < norm l) by lra. split; [exact P|]. destruct (centroid_dir l P) as (C1 & C2 & C3). rewrite N in C1, C2, C3.
  repeat split; apply Rmult_eq_reg_r with (sumR g_area l); lra.
Qed.

(** ** Nothing to point at *)
Lemma centroid_nowhere l : sx l = 0 -> sy l = 0 -> sz l = 0 -> sphere_centroid l = (0, 0).
Proof.
  intros A B C. unfold sphere_centroid. fold (sx l) (sy l) (sz l). rewrite A, B, C.
  replace (0 ^ 2 + 0 ^ 2 + 0 ^ 2) with 0 by ring. rewrite sqrt_0. destruct (Rlt_dec 0 0); [lra|].
  replace (0 / 1) with 0 by field. rewrite clip1_id by lra. rewrite asin_0. unfold atan2. destruct (Rlt_dec 0 0); [lra|].
  unfold deg. replace (0 * 180 / PI) with 0 by (field; apply PI_neq0). rewrite wrap180_id by lra. reflexivity.
Qed.

(** ** The filler rows *)
Lemma filler_place : ux filler = ux (80, 80) /\ uy filler = uy (80, 80) /\ uz filler = uz (80, 80).
Proof.
  assert (E : rad (-10000000000) = rad 80 + 2 * IZR (-27777778) * PI) by (unfold rad; field).
  unfold ux, uy, uz, filler. cbn [fst snd]. rewrite E, cos_turns, sin_turns. auto.
Qed.
Lemma dot_filler p : dotp p filler = dotp p (80, 80).
Proof. destruct filler_place as (A & B & C). unfold dotp. rewrite A, B, C. reflexivity. Qed.
Lemma haversine_filler p : haversine p filler = haversine p (80, 80).
Proof. apply Rle_antisym; apply haversine_le; rewrite dot_filler; lra. Qed.
