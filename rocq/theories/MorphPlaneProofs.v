(** The border-free filter is a well-behaved alternating filter. *)
From Verif Require Import Base Morph MorphSpec MorphProofs.
Open Scope Z_scope.
Ltac Zify.zify_post_hook ::= Z.div_mod_to_equations.

Definition leS (S1 S2 : Z -> Z -> Prop) : Prop := forall y x, S1 y x -> S2 y x.
Lemma grows_mono R S1 S2 : leS S1 S2 -> leS (grows R S1) (grows R S2).
Proof. intros H y x (dy & dx & D & K). exists dy, dx. split; auto. Qed.
Lemma shrinks_mono R S1 S2 : leS S1 S2 -> leS (shrinks R S1) (shrinks R S2).
Proof. intros H y x K dy dx D. apply H. auto. Qed.
Lemma in_disk_sym R dy dx : in_disk R dy dx -> in_disk R (- dy) (- dx).
Proof. unfold in_disk. nia. Qed.

Definition clo R S := shrinks R (grows R S).
Definition opn R S := grows R (shrinks R S).

Lemma clo_ext R S : leS S (clo R S).
Proof.
  intros y x H dy dx D. exists (- dy), (- dx). split; [apply in_disk_sym; auto|].
  replace (y + dy + - dy) with y by lia. replace (x + dx + - dx) with x by lia. exact H.
Qed.
Lemma opn_anti R S : leS (opn R S) S.
Proof.
  intros y x (dy & dx & D & H). specialize (H (- dy) (- dx) (in_disk_sym _ _ _ D)).
  replace (y + dy + - dy) with y in H by lia. replace (x + dx + - dx) with x in H by lia. exact H.
Qed.
Lemma clo_mono R S1 S2 : leS S1 S2 -> leS (clo R S1) (clo R S2).
Proof. intro H. apply shrinks_mono, grows_mono, H. Qed.
Lemma opn_mono R S1 S2 : leS S1 S2 -> leS (opn R S1) (opn R S2).
Proof. intro H. apply grows_mono, shrinks_mono, H. Qed.
Lemma clo_idem R S : leS (clo R (clo R S)) (clo R S).
Proof.
  (* shrink grow shrink grow = shrink grow because grow shrink <= id *)
  unfold clo. apply shrinks_mono. exact (opn_anti R (grows R S)).
Qed.
Lemma opn_idem R S : leS (opn R S) (opn R (opn R S)).
Proof. unfold opn. apply grows_mono. exact (clo_ext R (shrinks R S)). Qed.

Lemma plane_idem R S : eqS (plane_filter R (plane_filter R S)) (plane_filter R S).
Proof.
  change (plane_filter R) with (fun S => opn R (clo R S)).
  intros y x. cbv beta. split.
  - revert y x. apply opn_mono. intros y x H. apply clo_idem. revert y x H. apply clo_mono. apply opn_anti.
  - intro H. apply opn_idem in H. revert y x H. apply opn_mono. apply clo_ext.
Qed.

Lemma plane_near R S y x : 0 <= R -> plane_filter R S y x -> exists dy dx, in_disk R dy dx /\ S (y + dy) (x + dx).
Proof.
  intros HR H. change (opn R (clo R S) y x) in H. apply opn_anti in H.
  specialize (H 0 0 ltac:(unfold in_disk; nia)). replace (y + 0) with y in H by lia. replace (x + 0) with x in H by lia. exact H.
Qed.

Lemma plane_keeps_discs R (S : Z -> Z -> Prop) cy cx : 0 <= R ->
  (forall dy dx, in_disk R dy dx -> S (cy + dy) (cx + dx)) ->
  forall dy dx, in_disk R dy dx -> plane_filter R S (cy + dy) (cx + dx).
Proof.
  intros HR H dy dx D. change (opn R (clo R S) (cy + dy) (cx + dx)).
  exists (- dy), (- dx). split; [apply in_disk_sym; auto|].
  replace (cy + dy + - dy) with cy by lia. replace (cx + dx + - dx) with cx by lia.
  intros ey ex E. apply clo_ext. apply H. exact E.
Qed.

(** A hole every point of which is covered: if every disc around (y,x)'s
    neighbourhood meets the set, the point is filled by the closing. *)
Lemma plane_mono R S1 S2 : leS S1 S2 -> leS (plane_filter R S1) (plane_filter R S2).
Proof. intro H. apply grows_mono, shrinks_mono, shrinks_mono, grows_mono, H. Qed.

(** Locality: the filter at a point looks at most 4R away. *)
Definition agreeS (k y x : Z) (S1 S2 : Z -> Z -> Prop) : Prop :=
  forall y' x', y - k <= y' <= y + k -> x - k <= x' <= x + k -> (S1 y' x' <-> S2 y' x').

Lemma in_disk_bound R dy dx : 0 <= R -> in_disk R dy dx -> -R <= dy <= R /\ -R <= dx <= R.
Proof. unfold in_disk. nia. Qed.

Lemma grows_local R k y x S1 S2 : 0 <= R -> agreeS (k + R) y x S1 S2 -> agreeS k y x (grows R S1) (grows R S2).
Proof.
  intros HR H y' x' Hy Hx. unfold grows. split; intros (dy & dx & D & K); exists dy, dx; (split; [auto|]);
    pose proof (in_disk_bound R dy dx HR D); apply H; auto; lia.
Qed.
Lemma shrinks_local R k y x S1 S2 : 0 <= R -> agreeS (k + R) y x S1 S2 -> agreeS k y x (shrinks R S1) (shrinks R S2).
Proof.
  intros HR H y' x' Hy Hx. unfold shrinks. split; intros K dy dx D;
    pose proof (in_disk_bound R dy dx HR D); apply (H (y' + dy) (x' + dx)); auto; lia.
Qed.
Lemma plane_local R y x S1 S2 : 0 <= R -> agreeS (4 * R) y x S1 S2 ->
  (plane_filter R S1 y x <-> plane_filter R S2 y x).
Proof.
  intros HR H.
  assert (H' : agreeS (0 + R + R + R + R) y x S1 S2) by (intros y' x' A B; apply H; lia).
  apply (grows_local R 0 y x _ _ HR); [|lia|lia].
  apply shrinks_local; auto. apply shrinks_local; auto. apply grows_local; auto.
Qed.

(** Code-level corollaries on structured grids. *)
Lemma fill_slice_near reg R ny nx mask f y x : 0 < R ->
  fill_holes_slice reg R ny nx mask f y x = true ->
  exists dy dx, in_disk R dy dx /\ extend reg ny nx f (y + dy) (x + dx).
Proof.
  intros HR H. apply fill_slice_below in H; auto. destruct H as [_ H]. apply plane_near in H; [exact H|lia].
Qed.

Lemma extend_in reg ny nx f y x : 0 <= y < ny -> 0 <= x < nx -> (extend reg ny nx f y x <-> f y x = true).
Proof.
  intros Hy Hx. unfold extend. destruct reg.
  - unfold clampZ. replace (Z.max 0 (Z.min (ny - 1) y)) with y by lia.
    replace (Z.max 0 (Z.min (nx - 1) x)) with x by lia. tauto.
  - rewrite !Z.mod_small by lia. tauto.
Qed.

Lemma fill_keeps_discs reg R ny nx mask f cy cx dy dx : 0 < R ->
  2 * R <= cy + dy < ny - 2 * R -> 2 * R <= cx + dx < nx - 2 * R ->
  (forall ey ex, in_disk R ey ex -> f (cy + ey) (cx + ex) = true) ->
  in_disk R dy dx -> mask (cy + dy) (cx + dx) = true ->
  fill_holes_slice reg R ny nx mask f (cy + dy) (cx + dx) = true.
Proof.
  intros HR Hy Hx H D M. apply fill_slice_exact; auto. split; auto.
  apply plane_keeps_discs; [lia| |exact D].
  intros ey ex E. pose proof (in_disk_bound R dy dx ltac:(lia) D). pose proof (in_disk_bound R ey ex ltac:(lia) E).
  apply extend_in; [lia|lia|]. apply H. exact E.
Qed.

Lemma fill_stable reg R ny nx f y x : 0 < R ->
  6 * R <= y < ny - 6 * R -> 6 * R <= x < nx - 6 * R ->
  let all := fun _ _ => true in
  fill_holes_slice reg R ny nx all (fill_holes_slice reg R ny nx all f) y x
  = fill_holes_slice reg R ny nx all f y x.
Proof.
  intros HR Hy Hx all. apply eq_true_iff_eq.
  rewrite !fill_slice_exact by lia.
  assert (E : plane_filter R (extend reg ny nx (fill_holes_slice reg R ny nx all f)) y x
          <-> plane_filter R (plane_filter R (extend reg ny nx f)) y x).
  { apply plane_local; [lia|]. intros y' x' A B. rewrite extend_in by lia.
    rewrite fill_slice_exact by lia. unfold all. tauto. }
  rewrite E. rewrite (plane_idem R (extend reg ny nx f) y x). tauto.
Qed.

(** A disc centred anywhere in the grid and filled in the continued field is kept. *)
Lemma fill_keeps_disc_in_grid reg R ny nx mask f cy cx dy dx : 0 < R -> in_grid ny nx cy cx ->
  (forall ey ex, in_disk R ey ex -> extend reg ny nx f (cy + ey) (cx + ex)) ->
  in_disk R dy dx -> mask (cy + dy) (cx + dx) = true ->
  fill_holes_slice reg R ny nx mask f (cy + dy) (cx + dx) = true.
Proof.
  intros HR [Gy Gx] H D M. unfold fill_holes_slice. rewrite M. cbn [andb]. destruct (Z.eqb_spec R 0) as [->|_]; [lia|].
  unfold opening, closing. set (g := pad _ _ _ _ _). set (h := ny + 2 * (2 * R)). set (w := nx + 2 * (2 * R)).
  assert (HR' : 0 <= R) by lia.
  assert (G : forall ey ex, in_disk R ey ex -> g (cy + ey + 2 * R) (cx + ex + 2 * R) = true).
  { intros ey ex E. unfold g. apply (pad_extend reg (2 * R) ny nx f). unfold shiftS. replace (cy + ey + 2 * R - 2 * R) with (cy + ey) by lia. replace (cx + ex + 2 * R - 2 * R) with (cx + ex) by lia. apply H. exact E. }
  apply existsb_exists. exists (- dy, - dx). split; [apply disk_In; [exact HR'|apply in_disk_sym; exact D]|]. cbn [fst snd].
  replace (cy + dy + 2 * R + - dy) with (cy + 2 * R) by lia. replace (cx + dx + 2 * R + - dx) with (cx + 2 * R) by lia.
  assert (I0 : forall a b, - (2 * R) <= a <= 2 * R -> - (2 * R) <= b <= 2 * R -> inb h w (cy + 2 * R + a) (cx + 2 * R + b) = true).
  { intros a b A B. unfold inb, h, w. rewrite !andb_true_iff, !Z.leb_le, !Z.ltb_lt. lia. }
  apply andb_true_iff. split; [replace (cy + 2 * R) with (cy + 2 * R + 0) by lia; replace (cx + 2 * R) with (cx + 2 * R + 0) by lia; apply I0; lia|].
  apply forallb_forall. intros [ay ax] A. apply disk_In in A; [|exact HR']. cbn [fst snd] in *. assert (Ab := in_disk_bound R ay ax HR' A).
  apply andb_true_iff. split; [apply I0; lia|].
  apply forallb_forall. intros [b_y bx] B. apply disk_In in B; [|exact HR']. cbn [fst snd] in *. assert (Bb := in_disk_bound R b_y bx HR' B).
  apply andb_true_iff. split; [replace (cy + 2 * R + ay + b_y) with (cy + 2 * R + (ay + b_y)) by lia; replace (cx + 2 * R + ax + bx) with (cx + 2 * R + (ax + bx)) by lia; apply I0; lia|].
  apply existsb_exists. exists (- b_y, - bx). split; [apply disk_In; [exact HR'|apply in_disk_sym; exact B]|]. cbn [fst snd].
  replace (cy + 2 * R + ay + b_y + - b_y) with (cy + 2 * R + ay) by lia. replace (cx + 2 * R + ax + bx + - bx) with (cx + 2 * R + ax) by lia.
  apply andb_true_iff. split; [apply I0; lia|].
  replace (cy + 2 * R + ay) with (cy + ay + 2 * R) by lia. replace (cx + 2 * R + ax) with (cx + ax + 2 * R) by lia. apply G. exact A.
Qed.

(** In regional mode only the cells of the disc that exist matter. *)
Lemma fill_keeps_clipped_disc R ny nx mask f cy cx dy dx : 0 < R -> in_grid ny nx cy cx ->
  (forall ey ex, in_disk R ey ex -> in_grid ny nx (cy + ey) (cx + ex) -> f (cy + ey) (cx + ex) = true) ->
  in_disk R dy dx -> mask (cy + dy) (cx + dx) = true ->
  fill_holes_slice true R ny nx mask f (cy + dy) (cx + dx) = true.
Proof.
  intros HR [Gy Gx] H D M. apply fill_keeps_disc_in_grid; try assumption; [split; assumption|].
  intros ey ex E. unfold extend.
  assert (C : forall n c e, 0 <= c < n -> exists e', clampZ n (c + e) = c + e' /\ 0 <= c + e' < n /\ e' * e' <= e * e).
  { intros n c e Hc. exists (clampZ n (c + e) - c). unfold clampZ. split; [lia|]. split; [lia|].
    set (k := Z.max 0 (Z.min (n - 1) (c + e)) - c). assert (K : 0 <= k <= e \/ e <= k <= 0) by (unfold k; lia). destruct K; nia. }
  destruct (C ny cy ey Gy) as (a & Ea & Ga & Sa). destruct (C nx cx ex Gx) as (b & Eb & Gb & Sb). rewrite Ea, Eb. apply H; [unfold in_disk in *; lia|split; assumption].
Qed.
