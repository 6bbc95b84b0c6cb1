(** Concrete cases for size filtering. *)
From Coq Require Import Qround.
From Verif Require Import Base Label LabelSpec LabelProofs Morph MorphSpec Filter FilterSpec
  FilterProofs FilterGridProofs FilterMoreProofs.
Open Scope nat_scope.

(** A 3 x 8 grid: objects of 1, 3 and 1 cells. *)
Definition three_objects : list bool :=
  [true; false; false; true; true; true; false; false;
   false; false; false; false; false; false; false; false;
   false; true; false; false; false; false; false; false].
(** Objects of 3 and 1 cells. *)
Definition two_objects : list bool :=
  [true; true; true; false; false; false; false; false;
   false; false; false; false; false; false; false; false;
   false; false; false; false; true; false; false; false].

Lemma first_object_lost :
  exists nt ny nx data r f c l,
    length data = nt * ny * nx /\ filter_grid false r nt ny nx data = Ok f /\
    in_range nt ny nx c /\ extreme ny nx data c /\ object_cells false nt ny nx data c l /\
    (f_threshold f <= nat_Q (length l))%Q /\ ~ kept_at nx (f_keep f) c.
Proof.
  assert (L : length two_objects = 1 * 3 * 8) by reflexivity.
  assert (R : in_range 1 3 8 (0, 0, 0)) by (simpl; lia).
  assert (X : extreme 3 8 two_objects (0, 0, 0)) by reflexivity.
  destruct (object_cells_exist false 1 3 8 two_objects L (0, 0, 0) R X) as [l O].
  assert (S : length l = 3).
  { rewrite <- (object_size false 1 3 8 two_objects L (0, 0, 0) l R X O). vm_compute. reflexivity. }
  exists 1, 3, 8, two_objects, (ByAbsolute 1).
  eexists. exists (0, 0, 0), l.
  split; [exact L|]. split; [vm_compute; reflexivity|]. split; [exact R|]. split; [exact X|]. split; [exact O|].
  cbn [f_threshold f_keep]. split; [rewrite S; discriminate|]. vm_compute. discriminate.
Qed.

Lemma fraction_mismatch :
  exists f, filter_grid false (ByAbsolute 1) 1 3 8 two_objects = Ok f /\
    (accepted_area_fraction f == 3 # 4)%Q /\ total_area_IDed f = 4 /\
    count (fun b => b) (concat (f_keep f)) = 1.
Proof. eexists. split; [vm_compute; reflexivity|]. repeat split. Qed.

(** Twelve cells in a row. *)
Definition long_row : mesh :=
  map (fun i => [Z.of_nat i - 1; if Nat.eqb i 11 then -1 else Z.of_nat i + 1; -1]%Z) (seq 0 12).
Definition all12 : list bool := repeat true 12.
Definition two_runs : list bool :=
  [true; true; true; true; true; true; false; true; true; true; false; false].
Definition one_run : list bool :=
  [false; false; false; false; false; false; false; true; true; true; false; false].

Lemma long_row_inputs : mesh_inputs_ok long_row all12 [two_runs; one_run].
Proof.
  split; [apply mesh_okb_ok; vm_compute; reflexivity|]. split; [reflexivity|].
  intros d [<-|[<-|[]]]; reflexivity.
Qed.

Lemma small_threshold_count :
  exists f, filter_small_mesh (ByAbsolute 2) long_row all12 [two_runs] = Ok f /\
    f_after f = 1 /\ nth 0 (nth 0 (f_keep f) []) false = true /\ nth 7 (nth 0 (f_keep f) []) false = true /\
    nth 0 (identify_mesh long_row all12 two_runs) 0%Z <> nth 7 (identify_mesh long_row all12 two_runs) 0%Z.
Proof. eexists. split; [vm_compute; reflexivity|]. repeat split. vm_compute. discriminate. Qed.

Lemma small_object_rejected :
  filter_small_mesh (ByAbsolute 2) long_row all12 [one_run] = Err NoObjects /\
  count (fun b => b) one_run = 3.
Proof. split; vm_compute; reflexivity. Qed.
