(** Proofs about [Morph]. *)
From Verif Require Import Base Morph MorphSpec.
Open Scope Z_scope.
Ltac Zify.zify_post_hook ::= Z.div_mod_to_equations.

Lemma zrange_In lo n k : In k (zrange lo n) <-> lo <= k < lo + Z.of_nat n.
Proof.
  unfold zrange. rewrite in_map_iff. split.
  - intros (i & <- & H). apply in_seq in H. lia.
  - intro H. exists (Z.to_nat (k - lo)). split; [lia|]. apply in_seq. lia.
Qed.

Lemma disk_In R dy dx : 0 <= R -> (In (dy, dx) (disk R) <-> in_disk R dy dx).
Proof.
  intro HR. unfold disk, in_disk. rewrite filter_In, in_prod_iff, !zrange_In. cbn [fst snd].
  rewrite Z.ltb_lt. split; [lia|]. intro H.
  assert (A : dy * dy <= R * R) by nia. assert (B : dx * dx <= R * R) by nia.
  assert (-R <= dy <= R) by nia. assert (-R <= dx <= R) by nia. lia.
Qed.

Lemma disk_bound R d : 0 <= R -> In d (disk R) -> -R <= fst d <= R /\ -R <= snd d <= R.
Proof.
  intros HR H. destruct d as [dy dx]. apply disk_In in H; auto. unfold in_disk in H. cbn [fst snd]. nia.
Qed.

Lemma disk_zero R : 0 <= R -> In (0, 0) (disk R).
Proof. intro H. apply disk_In; auto. unfold in_disk. nia. Qed.

(** *** Monotonicity *)
Lemma dilate_mono se h w f g : img_le f g -> img_le (dilate se h w f) (dilate se h w g).
Proof.
  intros H y x. unfold dilate. rewrite !existsb_exists. intros (d & Hd & E).
  exists d. split; auto. apply andb_true_iff in E. destruct E as [E1 E2]. rewrite E1. simpl. auto.
Qed.

Lemma erode_mono se h w f g : img_le f g -> img_le (erode se h w f) (erode se h w g).
Proof.
  intros H y x. unfold erode. rewrite !forallb_forall. intros E d Hd.
  specialize (E d Hd). apply andb_true_iff in E. destruct E as [E1 E2]. rewrite E1. simpl. auto.
Qed.

Lemma pad_mono m p ny nx f g : img_le f g -> img_le (pad m p ny nx f) (pad m p ny nx g).
Proof. intros H y x. destruct m; apply H. Qed.

Lemma fill_slice_mono reg R ny nx mask f g :
  img_le f g -> img_le (fill_holes_slice reg R ny nx mask f) (fill_holes_slice reg R ny nx mask g).
Proof.
  intros H y x. unfold fill_holes_slice. rewrite !andb_true_iff. intros [M E]. split; auto.
  destruct (R =? 0); [apply H; exact E|].
  revert E. apply (dilate_mono _ _ _ _ _). apply erode_mono. apply erode_mono. apply dilate_mono.
  apply pad_mono. exact H.
Qed.

(** *** Mask *)
Lemma fill_slice_mask reg R ny nx mask f : img_le (fill_holes_slice reg R ny nx mask f) mask.
Proof. intros y x. unfold fill_holes_slice. rewrite andb_true_iff. tauto. Qed.

Lemma fill_slice_R0 reg ny nx mask f y x :
  mask y x = true -> fill_holes_slice reg 0 ny nx mask f y x = f y x.
Proof. intro M. unfold fill_holes_slice. rewrite M. reflexivity. Qed.

Lemma preprocess_masked reg T R ny nx mask s s' :
  preprocess_morph reg T R ny nx mask s = Some s' ->
  length s' = length s /\ Forall (fun f => img_le f mask) s'.
Proof.
  unfold preprocess_morph, fill_time_gaps.
  destruct (T =? 0).
  - intro H; injection H as <-. unfold fill_holes. rewrite map_length. split; auto.
    apply Forall_forall. intros f Hf. apply in_map_iff in Hf. destruct Hf as (g & <- & _).
    apply fill_slice_mask.
  - destruct (T + 1 <? 0); [discriminate|].
    intro H; injection H as <-. unfold fill_holes. rewrite ?map_length, ?seq_length, ?map_length. split; auto.
    apply Forall_forall. intros f Hf. apply in_map_iff in Hf. destruct Hf as (g & <- & _).
    apply fill_slice_mask.
Qed.

(** *** Exactness away from the border of the padded array *)
Definition box (a h w y x : Z) : Prop := a <= y < h - a /\ a <= x < w - a.

Definition agrees (a h w : Z) (f : img) (S : Z -> Z -> Prop) : Prop :=
  forall y x, box a h w y x -> (f y x = true <-> S y x).
Definition below (f : img) (S : Z -> Z -> Prop) : Prop := forall y x, f y x = true -> S y x.

Lemma inb_true h w y x : inb h w y x = true <-> 0 <= y < h /\ 0 <= x < w.
Proof. unfold inb. lia. Qed.

Lemma dilate_agrees R a h w f S : 0 <= R -> 0 <= a ->
  agrees a h w f S -> agrees (a + R) h w (dilate (disk R) h w f) (grows R S).
Proof.
  intros HR Ha H y x B. unfold dilate, grows. rewrite existsb_exists. split.
  - intros ([dy dx] & Hd & E). cbn [fst snd] in E. apply andb_true_iff in E. destruct E as [_ E].
    pose proof (disk_bound R _ HR Hd) as K. cbn [fst snd] in K.
    exists dy, dx. split; [apply disk_In; auto|]. apply H; auto. unfold box in *. lia.
  - intros (dy & dx & Hd & E). apply disk_In in Hd; auto. exists (dy, dx). split; auto. cbn [fst snd].
    pose proof (disk_bound R _ HR Hd) as K. cbn [fst snd] in K.
    apply andb_true_iff. split; [apply inb_true; unfold box in B; lia|].
    apply H; auto. unfold box in *. lia.
Qed.

Lemma erode_agrees R a h w f S : 0 <= R -> 0 <= a ->
  agrees a h w f S -> agrees (a + R) h w (erode (disk R) h w f) (shrinks R S).
Proof.
  intros HR Ha H y x B. unfold erode, shrinks. rewrite forallb_forall. split.
  - intros E dy dx Hd. apply disk_In in Hd; auto. specialize (E _ Hd). cbn [fst snd] in E.
    apply andb_true_iff in E. destruct E as [_ E].
    pose proof (disk_bound R _ HR Hd) as K. cbn [fst snd] in K.
    apply H; auto. unfold box in *. lia.
  - intros E [dy dx] Hd. cbn [fst snd].
    pose proof (disk_bound R _ HR Hd) as K. cbn [fst snd] in K.
    apply andb_true_iff. split; [apply inb_true; unfold box in B; lia|].
    apply H; [unfold box in *; lia|]. apply E. apply disk_In; auto.
Qed.

Lemma dilate_below R h w f S : 0 <= R -> below f S -> below (dilate (disk R) h w f) (grows R S).
Proof.
  intros HR H y x. unfold dilate, grows. rewrite existsb_exists.
  intros ([dy dx] & Hd & E). cbn [fst snd] in E. apply andb_true_iff in E. destruct E as [_ E].
  exists dy, dx. split; [apply disk_In; auto|]. apply H; auto.
Qed.

Lemma erode_below R h w f S : 0 <= R -> below f S -> below (erode (disk R) h w f) (shrinks R S).
Proof.
  intros HR H y x. unfold erode, shrinks. rewrite forallb_forall. intros E dy dx Hd.
  apply disk_In in Hd; auto. specialize (E _ Hd). cbn [fst snd] in E.
  apply andb_true_iff in E. destruct E as [_ E]. apply H; auto.
Qed.

Definition shiftS (d : Z) (S : Z -> Z -> Prop) : Z -> Z -> Prop := fun y x => S (y - d) (x - d).

Lemma grows_shift R d S y x : grows R (shiftS d S) y x <-> shiftS d (grows R S) y x.
Proof.
  unfold grows, shiftS. split; intros (dy & dx & H & K); exists dy, dx; (split; [auto|]).
  - replace (y - d + dy) with (y + dy - d) by lia. replace (x - d + dx) with (x + dx - d) by lia. exact K.
  - replace (y + dy - d) with (y - d + dy) by lia. replace (x + dx - d) with (x - d + dx) by lia. exact K.
Qed.

Lemma shrinks_shift R d S y x : shrinks R (shiftS d S) y x <-> shiftS d (shrinks R S) y x.
Proof.
  unfold shrinks, shiftS. split; intros H dy dx K; specialize (H dy dx K).
  - replace (y - d + dy) with (y + dy - d) by lia. replace (x - d + dx) with (x + dx - d) by lia. exact H.
  - replace (y + dy - d) with (y - d + dy) by lia. replace (x + dx - d) with (x - d + dx) by lia. exact H.
Qed.

Definition eqS (S1 S2 : Z -> Z -> Prop) : Prop := forall y x, S1 y x <-> S2 y x.
Lemma grows_ext R S1 S2 : eqS S1 S2 -> eqS (grows R S1) (grows R S2).
Proof.
  intros H y x. unfold grows. split; intros (dy & dx & K & L); exists dy, dx; split; auto; apply H; auto.
Qed.
Lemma shrinks_ext R S1 S2 : eqS S1 S2 -> eqS (shrinks R S1) (shrinks R S2).
Proof. intros H y x. unfold shrinks. split; intros K dy dx L; apply H; auto. Qed.

Lemma eqS_trans S1 S2 S3 : eqS S1 S2 -> eqS S2 S3 -> eqS S1 S3.
Proof. intros H K y x. rewrite (H y x). apply K. Qed.

Lemma filter_shift R d S : eqS (plane_filter R (shiftS d S)) (shiftS d (plane_filter R S)).
Proof.
  unfold plane_filter.
  assert (E1 : eqS (grows R (shiftS d S)) (shiftS d (grows R S))) by (intros y x; apply grows_shift).
  assert (E2 := eqS_trans _ _ _ (shrinks_ext R _ _ E1) (fun y x => shrinks_shift R d (grows R S) y x)).
  assert (E3 := eqS_trans _ _ _ (shrinks_ext R _ _ E2) (fun y x => shrinks_shift R d (shrinks R (grows R S)) y x)).
  exact (eqS_trans _ _ _ (grows_ext R _ _ E3) (fun y x => grows_shift R d _ y x)).
Qed.

Lemma filter_ext R S1 S2 : eqS S1 S2 -> eqS (plane_filter R S1) (plane_filter R S2).
Proof. intro H. apply grows_ext, shrinks_ext, shrinks_ext, grows_ext, H. Qed.

Lemma pad_extend reg p ny nx f y x :
  pad (if reg : bool then Edge else Wrap) p ny nx f y x = true <-> shiftS p (extend reg ny nx f) y x.
Proof. unfold shiftS, extend, pad. destruct reg; tauto. Qed.

(** The code never marks more than the border-free filter ... *)
Lemma fill_slice_below reg R ny nx mask f y x : 0 < R ->
  fill_holes_slice reg R ny nx mask f y x = true ->
  mask y x = true /\ plane_filter R (extend reg ny nx f) y x.
Proof.
  intros HR H. unfold fill_holes_slice in H. apply andb_true_iff in H. destruct H as [M H].
  split; auto.
  destruct (Z.eqb_spec R 0) as [->|_]; [lia|].
  unfold opening, closing in H.
  set (g := pad _ _ _ _ _) in H.
  assert (B : below g (shiftS (2 * R) (extend reg ny nx f))) by (intros a b; apply pad_extend).
  set (h := ny + 2 * (2 * R)) in H. set (w := nx + 2 * (2 * R)) in H.
  assert (HR' : 0 <= R) by lia.
  assert (B1 := dilate_below R h w _ _ HR' B).
  assert (B2 := erode_below R h w _ _ HR' B1).
  assert (B3 := erode_below R h w _ _ HR' B2).
  assert (B' := dilate_below R h w _ _ HR' B3).
  apply B' in H. apply (filter_shift R (2 * R)) in H. unfold shiftS in H.
  replace (y + 2 * R - 2 * R) with y in H by lia. replace (x + 2 * R - 2 * R) with x in H by lia.
  exact H.
Qed.

(** ... and equals it at least 2R cells away from every edge of the grid. *)
Lemma fill_slice_exact reg R ny nx mask f y x : 0 < R ->
  2 * R <= y < ny - 2 * R -> 2 * R <= x < nx - 2 * R ->
  (fill_holes_slice reg R ny nx mask f y x = true <->
   mask y x = true /\ plane_filter R (extend reg ny nx f) y x).
Proof.
  intros HR Hy Hx. split; [apply fill_slice_below; exact HR|].
  intros [M P]. unfold fill_holes_slice. rewrite M. cbn [andb].
  destruct (Z.eqb_spec R 0) as [->|_]; [lia|].
  unfold opening, closing.
  set (g := pad _ _ _ _ _). set (h := ny + 2 * (2 * R)). set (w := nx + 2 * (2 * R)).
  assert (HR' : 0 <= R) by lia.
  assert (A0 : agrees 0 h w g (shiftS (2 * R) (extend reg ny nx f))) by (intros a b _; apply pad_extend).
  assert (A1 := dilate_agrees R 0 h w _ _ HR' ltac:(lia) A0).
  assert (A2 := erode_agrees R (0+R) h w _ _ HR' ltac:(lia) A1).
  assert (A3 := erode_agrees R (0+R+R) h w _ _ HR' ltac:(lia) A2).
  assert (A4 := dilate_agrees R (0+R+R+R) h w _ _ HR' ltac:(lia) A3).
  apply A4; [unfold box, h, w; lia|].
  apply (filter_shift R (2 * R)). unfold shiftS.
  replace (y + 2 * R - 2 * R) with y by lia. replace (x + 2 * R - 2 * R) with x by lia. exact P.
Qed.

(** Translation in longitude of the periodic continuation. *)
Definition transS (s : Z) (S : Z -> Z -> Prop) : Z -> Z -> Prop := fun y x => S y (x - s).
Lemma grows_trans R s S y x : grows R (transS s S) y x <-> transS s (grows R S) y x.
Proof.
  unfold grows, transS. split; intros (dy & dx & H & K); exists dy, dx; (split; [auto|]).
  - replace (x - s + dx) with (x + dx - s) by lia. exact K.
  - replace (x + dx - s) with (x - s + dx) by lia. exact K.
Qed.
Lemma shrinks_trans R s S y x : shrinks R (transS s S) y x <-> transS s (shrinks R S) y x.
Proof.
  unfold shrinks, transS. split; intros H dy dx K; specialize (H dy dx K).
  - replace (x - s + dx) with (x + dx - s) by lia. exact H.
  - replace (x + dx - s) with (x - s + dx) by lia. exact H.
Qed.
Lemma filter_trans R s S : eqS (plane_filter R (transS s S)) (transS s (plane_filter R S)).
Proof.
  unfold plane_filter.
  assert (E1 : eqS (grows R (transS s S)) (transS s (grows R S))) by (intros y x; apply grows_trans).
  assert (E2 := eqS_trans _ _ _ (shrinks_ext R _ _ E1) (fun y x => shrinks_trans R s (grows R S) y x)).
  assert (E3 := eqS_trans _ _ _ (shrinks_ext R _ _ E2) (fun y x => shrinks_trans R s (shrinks R (grows R S)) y x)).
  exact (eqS_trans _ _ _ (grows_ext R _ _ E3) (fun y x => grows_trans R s _ y x)).
Qed.

Lemma extend_shift ny nx s f : 0 < nx ->
  eqS (extend false ny nx (shift_lon nx s f)) (transS s (extend false ny nx f)).
Proof.
  intros Hn y x. unfold extend, transS, shift_lon.
  rewrite Zminus_mod_idemp_l. tauto.
Qed.

Lemma extend_periodic ny nx f : 0 < nx ->
  eqS (extend false ny nx f) (transS nx (extend false ny nx f)).
Proof.
  intros Hn y x. unfold extend, transS.
  replace (x - nx) with (x + (-1) * nx) by lia. rewrite Z.mod_add by lia. tauto.
Qed.

Lemma filter_periodic_k R ny nx f y x k : 0 < nx ->
  plane_filter R (extend false ny nx f) y (x + k * nx) <-> plane_filter R (extend false ny nx f) y x.
Proof.
  intro Hn.
  assert (E : eqS (transS (k * nx) (extend false ny nx f)) (extend false ny nx f)).
  { intros a b. unfold transS, extend.
    replace (b - k * nx) with (b + (-k) * nx) by lia. rewrite Z.mod_add by lia. tauto. }
  rewrite <- (filter_ext R _ _ E y (x + k * nx)).
  rewrite (filter_trans R (k * nx) _ y (x + k * nx)). unfold transS.
  replace (x + k * nx - k * nx) with x by lia. tauto.
Qed.

Lemma fill_seam_partial R ny nx s mask f y x :
  0 < R -> 0 < nx ->
  2 * R <= y < ny - 2 * R -> 2 * R <= x < nx - 2 * R ->
  2 * R <= (x + s) mod nx < nx - 2 * R ->
  fill_holes_slice false R ny nx (shift_lon nx s mask) (shift_lon nx s f) y ((x + s) mod nx)
  = fill_holes_slice false R ny nx mask f y x.
Proof.
  intros HR Hn Hy Hx Hs. apply eq_true_iff_eq.
  rewrite !fill_slice_exact by assumption.
  assert (M : shift_lon nx s mask y ((x + s) mod nx) = mask y x).
  { unfold shift_lon. rewrite Zminus_mod_idemp_l. replace (x + s - s) with x by lia.
    rewrite Z.mod_small by lia. reflexivity. }
  rewrite M.
  rewrite (filter_ext R _ _ (extend_shift ny nx s f Hn) y ((x + s) mod nx)).
  rewrite (filter_trans R s _ y ((x + s) mod nx)). unfold transS.
  replace ((x + s) mod nx - s) with (x + (- ((x + s) / nx)) * nx) by lia.
  rewrite filter_periodic_k by assumption. tauto.
Qed.

(** *** Rows far from the poles only see rows nearby *)
Definition agree_rows (a b : Z) (f g : img) : Prop := forall y x, a <= y <= b -> f y x = g y x.

Lemma dilate_rows R h w f g a b : 0 <= R -> agree_rows a b f g ->
  agree_rows (a + R) (b - R) (dilate (disk R) h w f) (dilate (disk R) h w g).
Proof.
  intros HR H y x B. unfold dilate. apply eq_true_iff_eq. rewrite !existsb_exists.
  split; intros (d & Hd & E); exists d; (split; [auto|]);
    pose proof (disk_bound R _ HR Hd) as K;
    [rewrite <- (H (y + fst d)) by lia|rewrite (H (y + fst d)) by lia]; exact E.
Qed.
Lemma erode_rows R h w f g a b : 0 <= R -> agree_rows a b f g ->
  agree_rows (a + R) (b - R) (erode (disk R) h w f) (erode (disk R) h w g).
Proof.
  intros HR H y x B. unfold erode. apply eq_true_iff_eq. rewrite !forallb_forall.
  split; intros E d Hd; specialize (E d Hd);
    pose proof (disk_bound R _ HR Hd) as K;
    [rewrite <- (H (y + fst d)) by lia|rewrite (H (y + fst d)) by lia]; exact E.
Qed.

Lemma fill_rows_local reg R ny nx mask f g y x :
  0 <= R -> 4 * R <= y < ny - 4 * R ->
  (forall y' x', y - 4 * R <= y' <= y + 4 * R -> f y' x' = g y' x') ->
  fill_holes_slice reg R ny nx mask f y x = fill_holes_slice reg R ny nx mask g y x.
Proof.
  intros HR Hy H. unfold fill_holes_slice. f_equal.
  destruct (Z.eqb_spec R 0) as [->|N]; [apply H; lia|].
  unfold opening, closing.
  set (pf := pad _ _ _ _ f). set (pg := pad _ _ _ _ g).
  assert (A0 : agree_rows (y - 4 * R + 2 * R) (y + 4 * R + 2 * R) pf pg).
  { intros Y X B. unfold pf, pg, pad. destruct reg.
    - apply H. unfold clampZ. lia.
    - apply H. rewrite Z.mod_small by lia. lia. }
  assert (A1 := dilate_rows R (ny + 2 * (2 * R)) (nx + 2 * (2 * R)) _ _ _ _ HR A0).
  assert (A2 := erode_rows R (ny + 2 * (2 * R)) (nx + 2 * (2 * R)) _ _ _ _ HR A1).
  assert (A3 := erode_rows R (ny + 2 * (2 * R)) (nx + 2 * (2 * R)) _ _ _ _ HR A2).
  assert (A4 := dilate_rows R (ny + 2 * (2 * R)) (nx + 2 * (2 * R)) _ _ _ _ HR A3).
  apply A4. lia.
Qed.
