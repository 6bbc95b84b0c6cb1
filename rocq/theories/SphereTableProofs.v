(** The table of objects on meshes. *)
From Coq Require Import Reals Lra Lia Permutation Sorted.
From Verif Require Import Base Filter FilterProofs FilterMoreProofs Sphere SphereSpec SphereProofs.
Open Scope R_scope.

Lemma angle_rad d : angle d = rad d.
Proof. unfold angle, rad. field. Qed.
Lemma px_ux p : px p = ux p. Proof. unfold px, ux. rewrite !angle_rad. reflexivity. Qed.
Lemma py_uy p : py p = uy p. Proof. unfold py, uy. rewrite !angle_rad. reflexivity. Qed.
Lemma pz_uz p : pz p = uz p. Proof. unfold pz, uz. rewrite !angle_rad. reflexivity. Qed.
Lemma inner_dot p q : inner p q = dotp p q.
Proof. unfold inner, dotp. rewrite !px_ux, !py_uy, !pz_uz. reflexivity. Qed.
Lemma apart2_dot p q : apart2 p q = 2 - 2 * dotp p q.
Proof.
  unfold apart2, dotp. rewrite !px_ux, !py_uy, !pz_uz. assert (P := unit_sq p). assert (Q := unit_sq q). lra.
Qed.
Lemma same_point_iff p q : same_point p q <-> ux p = ux q /\ uy p = uy q /\ uz p = uz q.
Proof. unfold same_point. rewrite !px_ux, !py_uy, !pz_uz. reflexivity. Qed.
Lemma arc_haversine p q : is_arc p q (haversine p q).
Proof. destruct (haversine_spec p q) as [A B]. split; [exact B|]. rewrite inner_dot. exact A. Qed.
Lemma arc_unique p q t t' : is_arc p q t -> is_arc p q t' -> t = t'.
Proof. intros [A B] [C D]. apply cos_inj; [exact A|exact C|]. congruence. Qed.

Lemma total_sum f l : total f l = sumR f l.
Proof. induction l as [|c l IH]; [reflexivity|]. rewrite sumR_cons. cbn [total]. rewrite IH. reflexivity. Qed.

Lemma carrying_cells id ids cells : cells_of id ids cells = carrying (fun z => Z.eqb z id) ids cells.
Proof.
  revert cells. unfold cells_of. induction ids as [|z ids IH]; intros [|c cells]; try reflexivity.
  cbn [combine filter fst carrying]. destruct (Z.eqb z id); cbn [map snd]; rewrite IH; reflexivity.
Qed.

Lemma size_fits fields f : In f fields -> (length (unique_pos f) <= id_buffer_size (maxZ (map maxZ fields)) (length fields))%nat.
Proof.
  intro H. assert (U := unique_fits fields f H). unfold max_id in U. unfold id_buffer_size.
  assert (N := maxZ_nonneg (map maxZ fields)). etransitivity; [exact U|]. etransitivity; [|apply Nat.le_max_r]. apply Z2Nat.inj_le; lia.
Qed.

Definition step_entries (cells : list geo) (f : list Z) : list (Z * (R * (R * R))) :=
  map (fun id => (id, object_entry f cells id)) (unique_pos f).
Lemma all_some_map {A B} (g : A -> option B) (h : A -> B) l : (forall a, In a l -> g a = Some (h a)) -> all_some (map g l) = Some (map h l).
Proof.
  induction l as [|a l IH]; intro H; [reflexivity|]. cbn [map all_some]. rewrite H by (left; auto). rewrite IH; [reflexivity|].
  intros b Hb. apply H. right. exact Hb.
Qed.
Lemma filter_all {A} (g : A -> bool) l : (forall a, In a l -> g a = true) -> filter g l = l.
Proof. induction l as [|a l IH]; intro H; [reflexivity|]. cbn. rewrite H by (left; auto). f_equal. apply IH. intros b Hb. apply H. right. exact Hb. Qed.
Lemma filter_none' {A} (g : A -> bool) l : (forall a, In a l -> g a = false) -> filter g l = [].
Proof. induction l as [|a l IH]; intro H; [reflexivity|]. cbn. rewrite H by (left; auto). apply IH. intros b Hb. apply H. right. exact Hb. Qed.
Lemma filter_concat' {A} (g : A -> bool) ll : filter g (concat ll) = concat (map (filter g) ll).
Proof. induction ll as [|l ll IH]; [reflexivity|]. cbn. rewrite filter_app, IH. reflexivity. Qed.
Lemma mesh_properties_ok fields cells : mesh_properties fields cells = Some (concat (map (step_entries cells) fields)).
Proof.
  unfold mesh_properties. set (size := id_buffer_size _ _).
  rewrite (all_some_map _ (fun f => step_entries cells f ++ repeat (0%Z, (0, (0, 0))) (size - length (unique_pos f)))).
  - cbn [option_map]. f_equal. rewrite filter_concat', map_map. f_equal. apply map_ext. intro f. rewrite filter_app.
    rewrite filter_all, filter_none', app_nil_r; [reflexivity| |].
    + intros e He. apply repeat_spec in He. subst e. reflexivity.
    + intros e He. unfold step_entries in He. apply in_map_iff in He. destruct He as (id & <- & Hi). apply unique_pos_In in Hi. cbn [fst]. apply Z.ltb_lt. tauto.
  - intros f Hf. unfold properties_chunk. assert (L := size_fits fields f Hf). fold size in L. apply Nat.leb_le in L. rewrite L. reflexivity.
Qed.

(** Areas of the objects of a step add up to the covered area. *)
Fixpoint by_ids (us : list Z) (ids : list Z) (cells : list geo) : R :=
  match us with [] => 0 | u :: r => sumR g_area (cells_of u ids cells) + by_ids r ids cells end.
Lemma by_ids_nil us : forall cells, by_ids us [] cells = 0.
Proof. induction us as [|u us IH]; intro cells; [reflexivity|]. cbn [by_ids]. rewrite IH. unfold cells_of. cbn. lra. Qed.
Lemma by_ids_cells_nil us : forall ids, by_ids us ids [] = 0.
Proof. induction us as [|u us IH]; intro ids; [reflexivity|]. cbn [by_ids]. rewrite IH. unfold cells_of. rewrite combine_nil. cbn. lra. Qed.
Lemma by_ids_cons us z ids c cells : NoDup us ->
  by_ids us (z :: ids) (c :: cells) = (if in_dec Z.eq_dec z us then g_area c else 0) + by_ids us ids cells.
Proof.
  induction us as [|u us IH]; intro D; [cbn; lra|]. inversion D as [|? ? Nu Du]; subst. cbn [by_ids]. rewrite IH by exact Du.
  unfold cells_of at 1. cbn [combine filter fst]. fold (cells_of u ids cells).
  destruct (Z.eqb_spec z u) as [->|Ne].
  - cbn [map snd]. rewrite sumR_cons. fold (cells_of u ids cells).
    destruct (in_dec Z.eq_dec u us) as [F|_]; [contradiction|]. destruct (in_dec Z.eq_dec u (u :: us)) as [_|F]; [lra|exfalso; apply F; left; auto].
  - fold (cells_of u ids cells). destruct (in_dec Z.eq_dec z us) as [I|I]; destruct (in_dec Z.eq_dec z (u :: us)) as [I'|I']; try lra.
    + exfalso. apply I'. right. exact I.
    + exfalso. destruct I' as [<-|I']; [congruence|contradiction].
Qed.
Lemma by_ids_total us : NoDup us -> (forall u, In u us -> (0 < u)%Z) -> forall ids cells, (forall z, In z ids -> (0 < z)%Z -> In z us) ->
  by_ids us ids cells = sumR g_area (carrying (Z.ltb 0) ids cells).
Proof.
  intros D P. induction ids as [|z ids IH]; intros cells H; [apply by_ids_nil|]. destruct cells as [|c cells]; [apply by_ids_cells_nil|].
  rewrite by_ids_cons by exact D. rewrite IH by (intros w Hw; apply H; right; exact Hw). cbn [carrying].
  destruct (Z.ltb_spec 0 z) as [L|L]; destruct (in_dec Z.eq_dec z us) as [I|I].
  - rewrite sumR_cons. reflexivity.
  - exfalso. apply I, H; [left; auto|exact L].
  - specialize (P z I). lia.
  - lra.
Qed.
Lemma step_area cells f : total (fun e => fst (snd e)) (step_entries cells f) = total g_area (carrying (Z.ltb 0) f cells).
Proof.
  rewrite total_sum. rewrite <- (by_ids_total (unique_pos f)); [|apply unique_pos_NoDup|intros u Hu; apply unique_pos_In in Hu; tauto|].
  - unfold step_entries. induction (unique_pos f) as [|u us IH]; [reflexivity|]. cbn [map total by_ids fst snd object_entry]. rewrite IH. reflexivity.
  - intros z I L. apply unique_pos_In. auto.
Qed.
Lemma total_app {A} (g : A -> R) a b : total g (a ++ b) = total g a + total g b.
Proof. induction a as [|x a IH]; cbn; [ring|]. rewrite IH. ring. Qed.

(** The rows of the array of parents. *)
Lemma nth_error_firstn' {A} n : forall (l : list A) i, (i < n)%nat -> nth_error (firstn n l) i = nth_error l i.
Proof. induction n as [|n IH]; intros [|a l] [|i] H; try lia; try reflexivity. cbn. apply IH. lia. Qed.
Lemma rows_parent' cs i : (length cs <= 10)%nat -> (i < length cs)%nat -> nth_error (parent_rows cs) i = nth_error cs i.
Proof. intros L H. unfold parent_rows. rewrite nth_error_firstn' by lia. apply nth_error_app1. exact H. Qed.
Lemma rows_parent cs i q : (length cs <= 10)%nat -> nth_error cs i = Some q -> nth_error (parent_rows cs) i = Some q.
Proof. intros L H. rewrite rows_parent'; [exact H|exact L|]. apply nth_error_Some. congruence. Qed.
Lemma rows_filler cs j q : (length cs <= j)%nat -> nth_error (parent_rows cs) j = Some q -> q = filler.
Proof.
  intros L H. assert (J : (j < 10)%nat).
  { assert (J : (j < length (parent_rows cs))%nat) by (apply nth_error_Some; congruence). unfold parent_rows in J. assert (B := firstn_le_length 10 (cs ++ repeat filler 10)). lia. }
  unfold parent_rows in H. rewrite nth_error_firstn' in H by exact J. rewrite nth_error_app2 in H by exact L. apply nth_error_In, repeat_spec in H. exact H.
Qed.
Lemma rows_end cs : (length cs < 10)%nat -> nth_error (parent_rows cs) (length cs) = Some filler.
Proof. intro L. unfold parent_rows. rewrite nth_error_firstn' by exact L. rewrite nth_error_app2 by lia. rewrite Nat.sub_diag. reflexivity. Qed.
