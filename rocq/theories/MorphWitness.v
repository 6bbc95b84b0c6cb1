(** Concrete fields for [Morph]: refutation witnesses and non-vacuity cases. *)
From Verif Require Import Base Morph MorphSpec MorphProofs.
Open Scope Z_scope.

Definition all_ocean : img := fun _ _ => true.
(** A disc of radius R around (cy, cx) on a cylinder/torus of size ny x nx. *)
Definition disc_at (ny nx R cy cx : Z) : img :=
  fun y x => existsb (fun d => (y =? (cy + fst d) mod ny) && (x =? (cx + snd d) mod nx)) (disk R).

Lemma seam_witness :
  exists R ny nx s mask f y x,
    0 < R /\ in_grid ny nx y x /\
    fill_holes_slice false R ny nx (shift_lon nx s mask) (shift_lon nx s f) y ((x + s) mod nx)
    <> fill_holes_slice false R ny nx mask f y x.
Proof.
  exists 1, 9, 10, 4, all_ocean, (disc_at 9 10 1 4 5), 4, 6.
  split; [lia|]. split; [unfold in_grid; lia|]. vm_compute. discriminate.
Qed.

(** The same with R = 2: a disc of radius 2 centred on the column west of the
    seam loses everything east of the seam; moved away from the seam it is kept. *)
Lemma seam_witness_R2 :
  let f := disc_at 14 16 2 7 15 in
  f 7 0 = true /\ f 7 1 = true /\
  fill_holes_slice false 2 14 16 all_ocean f 7 15 = true /\
  fill_holes_slice false 2 14 16 all_ocean f 7 0 = false /\
  fill_holes_slice false 2 14 16 all_ocean f 7 1 = false /\
  fill_holes_slice false 2 14 16 all_ocean (shift_lon 16 8 f) 7 8 = true /\
  fill_holes_slice false 2 14 16 all_ocean (shift_lon 16 8 f) 7 9 = true.
Proof. vm_compute. repeat split; reflexivity. Qed.

Lemma pole_witness :
  exists R ny nx mask f g y x,
    0 < R /\ in_grid ny nx y x /\ y < 2 /\
    (forall y' x', y' < ny - 1 -> f y' x' = g y' x') /\
    fill_holes_slice false R ny nx mask f y x <> fill_holes_slice false R ny nx mask g y x.
Proof.
  exists 1, 9, 9, all_ocean, (disc_at 9 9 1 0 5),
    (fun y x => disc_at 9 9 1 0 5 y x && (y <? 8)), 0, 5.
  split; [lia|]. split; [unfold in_grid; lia|]. split; [lia|]. split.
  - intros y' x' H. assert (E : (y' <? 8) = true) by lia. rewrite E, andb_true_r. reflexivity.
  - vm_compute. discriminate.
Qed.

(** Regional mode: the westernmost column is extreme at every latitude.  Continued
    by its edge value it is an infinitely wide event, yet it is removed. *)
Lemma regional_edge_witness :
  exists R ny nx f y x,
    0 < R /\ in_grid ny nx y x /\ f y x = true /\
    plane_filter R (extend true ny nx f) y x /\
    fill_holes_slice true R ny nx all_ocean f y x = false.
Proof.
  exists 1, 9, 9, (fun _ x => x <=? 0), 4, 0.
  split; [lia|]. split; [unfold in_grid; lia|]. split; [reflexivity|]. split; [|vm_compute; reflexivity].
  exists 0, (-1). split; [unfold in_disk; lia|].
  intros dy dx D ey ex E.
  (* closing is extensive: the point itself is in the event *)
  exists (- ey), (- ex). split; [unfold in_disk in *; nia|].
  unfold extend, clampZ, in_disk in *.
  assert (B : dx <= 1) by nia. apply Z.leb_le. lia.
Qed.

Definition gap_series : list bool := [false; true; false; false; true; false; false; false; true].
Lemma gap_series_closed :
  close_time 2 gap_series = Some [false; true; true; true; true; false; false; false; true].
Proof. vm_compute. reflexivity. Qed.

(** Two triangles strips: cell i is next to i-1 and i+1; six cells, the last two are land. *)
Definition strip : mesh := [[1;-1;-1]; [0;2;-1]; [1;3;-1]; [2;4;-1]; [3;5;-1]; [4;-1;-1]].
Definition strip_mask : list bool := [true; true; true; true; false; false].
Definition strip_data : list bool := [false; false; true; true; false; false].

Lemma strip_ok : mesh_ok strip.
Proof.
  intros i j H. unfold row, strip in H.
  do 6 (destruct i as [|i]; [simpl in H; simpl length; lia|]).
  destruct i; simpl in H; contradiction.
Qed.
Lemma strip_sym : mesh_sym strip.
Proof.
  intros i j H. unfold adj, row, strip in *.
  do 6 (destruct i as [|i]; [simpl in H;
    repeat (destruct H as [H|H]; [destruct j as [|[|[|[|[|[|j]]]]]]; simpl in *; lia|]);
    contradiction|]).
  destruct i; simpl in H; contradiction.
Qed.
Lemma strip_shore : fill_holes_mesh strip 1 strip_mask strip_data = [false; false; true; true; true; true].
Proof. vm_compute. reflexivity. Qed.

(** Land cells come out as extreme. *)
Lemma mesh_land_flagged :
  exists m R mask v i, mesh_ok m /\ mesh_sym m /\ length mask = length m /\ length v = length m /\
    (i < length m)%nat /\
    (forall k, atb v k = true -> atb mask k = true) /\
    atb mask i = false /\ atb (fill_holes_mesh m R mask v) i = true.
Proof.
  exists strip, 1%nat, strip_mask, strip_data, 5%nat.
  split; [exact strip_ok|]. split; [exact strip_sym|]. split; [reflexivity|]. split; [reflexivity|].
  split; [simpl; lia|]. split; [|split; vm_compute; reflexivity].
  intros k. do 6 (destruct k as [|k]; [vm_compute; congruence|]). destruct k; vm_compute; congruence.
Qed.
