(** Filling commutes with reversing the direction of an axis. *)
From Verif Require Import Base Morph MorphSpec MorphProofs MorphProps.
Open Scope Z_scope.

(** Index [k] of an axis of [n] cells counted from the other end. *)
Definition flipZ (b : bool) (n k : Z) : Z := if b then n - 1 - k else k.
Definition flip_img (by_ bx : bool) (ny nx : Z) (f : img) : img := fun y x => f (flipZ by_ ny y) (flipZ bx nx x).

Lemma flip_twice b n k : flipZ b n (flipZ b n k) = k.
Proof. unfold flipZ. destruct b; lia. Qed.
Definition signed (b : bool) (d : Z) : Z := if b then - d else d.
Lemma signed_twice b d : signed b (signed b d) = d.
Proof. unfold signed. destruct b; lia. Qed.
Lemma flip_add b n k d : flipZ b n (k + d) = flipZ b n k + signed b d.
Proof. unfold flipZ, signed. destruct b; lia. Qed.
Lemma disk_signed R b1 b2 d : 0 <= R -> In d (disk R) -> In (signed b1 (fst d), signed b2 (snd d)) (disk R).
Proof. intros R0 H. destruct d as [dy dx]. apply disk_In in H; [|exact R0]. apply disk_In; [exact R0|]. unfold in_disk, signed in *. cbn [fst snd]. destruct b1, b2; nia. Qed.
Lemma inb_flip b1 b2 h w y x : inb h w (flipZ b1 h y) (flipZ b2 w x) = inb h w y x.
Proof. unfold inb, flipZ. destruct b1, b2; apply eq_true_iff_eq; rewrite !andb_true_iff, !Z.leb_le, !Z.ltb_lt; lia. Qed.

Section Flip.
Variables (by_ bx : bool) (R : Z).
Hypothesis R0 : 0 <= R.

Lemma dilate_flip h w f g : (forall y x, g y x = f (flipZ by_ h y) (flipZ bx w x)) ->
  forall y x, dilate (disk R) h w g y x = dilate (disk R) h w f (flipZ by_ h y) (flipZ bx w x).
Proof.
  intros H y x. unfold dilate. apply eq_true_iff_eq. rewrite !existsb_exists.
  split; intros ([dy dx] & D & E); cbn [fst snd] in E; exists (signed by_ dy, signed bx dx); (split; [exact (disk_signed R by_ bx (dy, dx) R0 D)|]); cbn [fst snd].
  - rewrite <- !flip_add, inb_flip, <- H. exact E.
  - rewrite H, !flip_add, !signed_twice. rewrite <- (inb_flip by_ bx), !flip_add, !signed_twice. exact E.
Qed.
Lemma erode_flip h w f g : (forall y x, g y x = f (flipZ by_ h y) (flipZ bx w x)) ->
  forall y x, erode (disk R) h w g y x = erode (disk R) h w f (flipZ by_ h y) (flipZ bx w x).
Proof.
  intros H y x. unfold erode. apply eq_true_iff_eq. rewrite !forallb_forall.
  split; intros E [dy dx] D; cbn [fst snd]; assert (E' := E _ (disk_signed R by_ bx (dy, dx) R0 D)); cbn [fst snd] in E'.
  - rewrite H, !flip_add, !signed_twice in E'. rewrite <- (inb_flip by_ bx), !flip_add, !signed_twice in E'. exact E'.
  - rewrite <- !flip_add, inb_flip, <- H in E'. exact E'.
Qed.

Lemma clamp_flip b n p k : 0 < n -> clampZ n (flipZ b (n + 2 * p) k - p) = flipZ b n (clampZ n (k - p)).
Proof. intro N. unfold clampZ, flipZ. destruct b; lia. Qed.
Lemma mod_flip b n p k : 0 < n -> (flipZ b (n + 2 * p) k - p) mod n = flipZ b n ((k - p) mod n).
Proof.
  intro N. unfold flipZ. destruct b; [|reflexivity]. symmetry. apply (Z.mod_unique _ _ (- ((k - p) / n))).
  - left. assert (H := Z.mod_pos_bound (k - p) n N). lia.
  - assert (H := Z.div_mod (k - p) n ltac:(lia)). lia.
Qed.
Lemma pad_flip m p ny nx f g : 0 < ny -> 0 < nx -> (forall y x, in_grid ny nx y x -> g y x = f (flipZ by_ ny y) (flipZ bx nx x)) ->
  forall Y X, pad m p ny nx g Y X = pad m p ny nx f (flipZ by_ (ny + 2 * p) Y) (flipZ bx (nx + 2 * p) X).
Proof.
  intros Ny Nx H Y X. unfold pad. destruct m.
  - rewrite !mod_flip by assumption. apply H. split; apply Z.mod_pos_bound; assumption.
  - rewrite !clamp_flip by assumption. apply H. unfold in_grid, clampZ. lia.
Qed.

Lemma slice_flip regional ny nx mask mask' f g y x : 0 < ny -> 0 < nx ->
  (forall y x, in_grid ny nx y x -> mask' y x = mask (flipZ by_ ny y) (flipZ bx nx x)) ->
  (forall y x, in_grid ny nx y x -> g y x = f (flipZ by_ ny y) (flipZ bx nx x)) -> in_grid ny nx y x ->
  fill_holes_slice regional R ny nx mask' g y x = fill_holes_slice regional R ny nx mask f (flipZ by_ ny y) (flipZ bx nx x).
Proof.
  intros Ny Nx M H G. unfold fill_holes_slice. rewrite (M y x G). f_equal. destruct (Z.eqb_spec R 0) as [E|E]; [apply H; exact G|].
  assert (S1 : forall b n k, flipZ b (n + 2 * (2 * R)) (k + 2 * R) = flipZ b n k + 2 * R) by (intros b n k; unfold flipZ; destruct b; lia).
  unfold opening, closing.
  rewrite (dilate_flip _ _ (erode (disk R) (ny + 2 * (2 * R)) (nx + 2 * (2 * R)) (erode (disk R) (ny + 2 * (2 * R)) (nx + 2 * (2 * R)) (dilate (disk R) (ny + 2 * (2 * R)) (nx + 2 * (2 * R))
    (pad (if regional then Edge else Wrap) (2 * R) ny nx f))))).
  - rewrite !S1. reflexivity.
  - apply erode_flip. apply erode_flip. apply dilate_flip. apply pad_flip; assumption.
Qed.
End Flip.
