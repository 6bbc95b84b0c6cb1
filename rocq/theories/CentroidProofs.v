(** Lemmas for CentroidProps.v. *)
From Coq Require Import Qround Lqa Permutation.
From Verif Require Import Base Filter Overlap OverlapProofs Partition PartitionProofs Centroid CentroidSpec.
Open Scope nat_scope.
Ltac Zify.zify_post_hook ::= Z.div_mod_to_equations.

Lemma Qeq_refl_Z a b : a = b -> (inject_Z a == inject_Z b)%Q.
Proof. intros ->. reflexivity. Qed.
Lemma sumQ_perm a b : Permutation a b -> (sumQ a == sumQ b)%Q.
Proof. induction 1; cbn [sumQ]; lra. Qed.
Lemma total_cons {A} (f : A -> Q) x l : total f (x :: l) = (f x + total f l)%Q.
Proof. reflexivity. Qed.
Lemma total_nil {A} (f : A -> Q) : total f [] = 0%Q.
Proof. reflexivity. Qed.
Lemma sumQ_map_total {A} (f : A -> Q) l : sumQ (map f l) = total f l.
Proof. induction l as [|x l IH]; [reflexivity|]. rewrite total_cons, <- IH. reflexivity. Qed.
Lemma total_ext {A} (f g : A -> Q) l : (forall x, In x l -> (f x == g x)%Q) -> (total f l == total g l)%Q.
Proof.
  induction l as [|x l IH]; intro H; [reflexivity|]. rewrite !total_cons.
  rewrite (H x (or_introl eq_refl)), IH; [reflexivity|]. intros y I. apply H. right. exact I.
Qed.
Lemma total_map {A B} (f : B -> Q) (h : A -> B) l : total f (map h l) = total (fun x => f (h x)) l.
Proof. induction l as [|x l IH]; [reflexivity|]. rewrite total_cons, <- IH. reflexivity. Qed.
Lemma total_plus {A} (f g : A -> Q) l : (total (fun x => f x + g x) l == total f l + total g l)%Q.
Proof. induction l as [|x l IH]; rewrite ?total_nil, ?total_cons; lra. Qed.
Lemma total_scale {A} (f : A -> Q) c l : (total (fun x => f x * c) l == total f l * c)%Q.
Proof. induction l as [|x l IH]; rewrite ?total_nil, ?total_cons; [lra|]. rewrite IH. lra. Qed.
Lemma total_le {A} (f g : A -> Q) l : (forall x, In x l -> (f x <= g x)%Q) -> (total f l <= total g l)%Q.
Proof.
  induction l as [|x l IH]; intro H; rewrite ?total_nil, ?total_cons; [lra|].
  assert (A1 := H x (or_introl eq_refl)). assert (A2 := IH (fun y I => H y (or_intror I))). lra.
Qed.
Lemma total_lt {A} (f g : A -> Q) l : l <> [] ->
  (forall x, In x l -> (f x < g x)%Q) -> (total f l < total g l)%Q.
Proof.
  destruct l as [|x l]; intros N H; [congruence|]. rewrite !total_cons.
  assert (A1 := H x (or_introl eq_refl)).
  assert (A2 := total_le f g l (fun y I => Qlt_le_weak _ _ (H y (or_intror I)))). lra.
Qed.
Lemma total_pos {A} (f : A -> Q) l : l <> [] -> (forall x, In x l -> (0 < f x)%Q) -> (0 < total f l)%Q.
Proof.
  intros N H. assert (E : (total (fun _ : A => 0) l == 0)%Q).
  { clear. induction l; rewrite ?total_nil, ?total_cons; lra. }
  rewrite <- E. apply total_lt; assumption.
Qed.
Lemma total_one {A} (l : list A) : (total (fun _ => 1) l == natQ (length l))%Q.
Proof.
  induction l as [|x l IH]; [reflexivity|]. rewrite total_cons, IH. unfold natQ. cbn [length].
  rewrite Nat2Z.inj_succ. unfold Z.succ. rewrite inject_Z_plus. change (inject_Z 1) with 1%Q. apply Qplus_comm.
Qed.

(** Weighted mean over the points of a mask. *)
Lemma combine_map_both {A B C} (f : A -> B) (g : A -> C) l :
  combine (map f l) (map g l) = map (fun x => (f x, g x)) l.
Proof. induction l as [|x l IH]; cbn; [reflexivity|]. rewrite IH. reflexivity. Qed.
Lemma wmean_total (w f : nat -> Q) pts :
  (wmean (map w pts) (map f pts) == total (fun k => w k * f k) pts / total w pts)%Q.
Proof.
  unfold wmean. rewrite combine_map_both, map_map. cbn [fst snd]. rewrite !sumQ_map_total.
  apply Qmult_comp; [|reflexivity]. apply total_ext. intros; lra.
Qed.
Lemma mean_total (f : nat -> Q) pts :
  (mean (map f pts) == total (fun k => 1 * f k) pts / total (fun _ => 1) pts)%Q.
Proof.
  unfold mean. rewrite sumQ_map_total, map_length, total_one.
  apply Qmult_comp; [|reflexivity]. apply total_ext. intros; lra.
Qed.

(** A shape and the points of its mask. *)
Lemma drawn_perm ny nx mask s : drawn ny nx mask s -> Permutation (points mask) (map (shape_cell nx) s).
Proof.
  intros (L & N & R & H). apply NoDup_Permutation; [apply points_NoDup|exact N|].
  intro k. rewrite points_In, <- H. split; [tauto|]. intro T. split; [|exact T].
  destruct (Nat.lt_ge_cases k (length mask)) as [A|A]; [exact A|].
  rewrite nth_overflow in T by exact A. discriminate.
Qed.
Lemma drawn_total ny nx mask s f : drawn ny nx mask s ->
  (total f (points mask) == total (fun p => f (shape_cell nx p)) s)%Q.
Proof.
  intro D. rewrite <- (sumQ_map_total f), <- (total_map f (shape_cell nx)), <- (sumQ_map_total f).
  apply sumQ_perm, Permutation_map, drawn_perm with ny, D.
Qed.
Lemma drawn_exists ny nx mask s (f : nat -> bool) : drawn ny nx mask s ->
  existsb f (points mask) = true <-> exists p, In p s /\ f (shape_cell nx p) = true.
Proof.
  intro D. rewrite existsb_exists. assert (P := drawn_perm _ _ _ _ D). split.
  - intros (k & I & F). apply (Permutation_in _ P) in I. apply in_map_iff in I.
    destruct I as (p & <- & I). exists p. tauto.
  - intros (p & I & F). exists (shape_cell nx p). split; [|exact F].
    apply (Permutation_in _ (Permutation_sym P)). apply in_map. exact I.
Qed.
Lemma cell_row nx p : 0 < nx -> cell_y nx (shape_cell nx p) = fst p.
Proof.
  intro H. unfold cell_y, shape_cell. rewrite Nat.div_add_l by lia.
  rewrite Nat.div_small by lia. lia.
Qed.
Lemma cell_col nx p : 0 < nx -> Z.of_nat (cell_x nx (shape_cell nx p)) = (snd p mod Z.of_nat nx)%Z.
Proof.
  intro H. unfold cell_x, shape_cell. rewrite Nat.add_comm, Nat.mod_add by lia.
  rewrite Nat.mod_small by lia. lia.
Qed.
Lemma existsb_map {A B} (f : B -> bool) (g : A -> B) l : existsb f (map g l) = existsb (fun x => f (g x)) l.
Proof. induction l as [|x l IH]; cbn; [reflexivity|]. rewrite IH. reflexivity. Qed.

Lemma near_spec ny nx mask s : 0 < nx -> drawn ny nx mask s ->
  near_left (mask_cols nx mask) && near_right nx (mask_cols nx mask) = true <-> near_both nx s.
Proof.
  intros H D. unfold near_left, near_right, mask_cols, near_both. rewrite !existsb_map, andb_true_iff.
  rewrite (drawn_exists ny nx mask s (fun k => Nat.ltb (cell_x nx k) 100) D).
  rewrite (drawn_exists ny nx mask s (fun k => Nat.leb (nx - 100) (cell_x nx k)) D).
  split; intros [(p & I & F) (q & J & G)]; split.
  - exists p. assert (C := cell_col nx p H). split; [exact I|lia].
  - exists q. assert (C := cell_col nx q H). split; [exact J|lia].
  - exists p. assert (C := cell_col nx p H). split; [exact I|lia].
  - exists q. assert (C := cell_col nx q H). split; [exact J|lia].
Qed.

(** The averages used are the weighted mean with a weight per cell. *)
Definition averages (w : nat -> Q) (pts : list nat) (avg : list Q -> Q) : Prop :=
  forall f : nat -> Q, (avg (map f pts) == total (fun k => w k * f k) pts / total w pts)%Q.

Lemma div_centre a t c : ~ (t == 0)%Q -> (c == a / t)%Q -> (c * t == a)%Q.
Proof. intros N ->. field. exact N. Qed.

Section Centre.
Variables (ny nx : nat) (mask : list bool) (s : shape) (w : nat -> Q) (ws : nat * Z -> Q) (avg : list Q -> Q).
Hypothesis Hnx : 0 < nx.
Hypothesis D : drawn ny nx mask s.
Hypothesis Av : averages w (points mask) avg.
Hypothesis Ww : forall p, In p s -> (w (shape_cell nx p) == ws p)%Q.
Hypothesis Pw : (0 < total ws s)%Q.

Lemma total_weights : (total w (points mask) == total ws s)%Q.
Proof. rewrite (drawn_total ny nx mask s w D). apply total_ext. exact Ww. Qed.

Lemma avg_shape (f : nat -> Q) (g : nat * Z -> Q) : (forall p, In p s -> (f (shape_cell nx p) == g p)%Q) ->
  (avg (map f (points mask)) * total ws s == total (fun p => ws p * g p) s)%Q.
Proof.
  intro H. apply div_centre; [lra|]. rewrite (Av f). apply Qdiv_comp; [|exact total_weights].
  rewrite (drawn_total ny nx mask s _ D). apply total_ext. intros p I. rewrite (Ww p I), (H p I). reflexivity.
Qed.

Lemma rows_centre : centre_rows ws s (avg (map natQ (mask_rows nx mask))).
Proof.
  unfold centre_rows, mask_rows. rewrite map_map. apply (avg_shape _ (fun p => natQ (fst p))).
  intros p I. rewrite cell_row by exact Hnx. reflexivity.
Qed.

Lemma cols_inside regional : inside nx s -> (regional = true \/ ~ near_both nx s) ->
  centre_cols ws s (col_centroid regional nx avg (mask_cols nx mask)).
Proof.
  intros In0 C.
  assert (G : centre_cols ws s (avg (map natQ (mask_cols nx mask)))).
  { unfold centre_cols, mask_cols. rewrite map_map. apply (avg_shape _ (fun p => inject_Z (snd p))).
    intros p I. unfold natQ. rewrite cell_col by exact Hnx. rewrite Z.mod_small by (apply In0, I). reflexivity. }
  unfold col_centroid. destruct regional; [exact G|].
  destruct (near_left _ && near_right _ _) eqn:E; [|exact G].
  apply (near_spec ny nx mask s Hnx D) in E. destruct C; [discriminate|contradiction].
Qed.

Lemma cols_seam : around_seam nx s -> near_both nx s ->
  exists c, centre_cols ws s c /\ same_col nx (col_centroid false nx avg (mask_cols nx mask)) c.
Proof.
  intros A N. apply (near_spec ny nx mask s Hnx D) in N. unfold col_centroid. rewrite N.
  exists (avg (map (seam_col nx) (mask_cols nx mask))). split.
  - unfold centre_cols, mask_cols. rewrite map_map. apply (avg_shape _ (fun p => inject_Z (snd p))).
    intros p I. assert (C := cell_col nx p Hnx). specialize (A p I). unfold seam_col, natQ.
    assert (M : (snd p < 0 /\ snd p mod Z.of_nat nx = snd p + Z.of_nat nx
                 \/ 0 <= snd p /\ snd p mod Z.of_nat nx = snd p)%Z).
    { destruct (Z.ltb_spec (snd p) 0) as [B|B]; [left|right]; (split; [exact B|]).
      - rewrite <- (Z.mod_add (snd p) 1) by lia. rewrite Z.mod_small; lia.
      - apply Z.mod_small. lia. }
    rewrite C. set (r := (snd p mod Z.of_nat nx)%Z) in *. clearbody r.
    destruct (Nat.ltb_spec (nx / 2) (cell_x nx (shape_cell nx p))) as [B|B].
    + unfold Qminus. rewrite <- inject_Z_opp, <- inject_Z_plus. apply Qeq_refl_Z. lia.
    + apply Qeq_refl_Z. lia.
  - unfold back_in, same_col. destruct (Qltb _ 0).
    + exists 1%Z. unfold natQ. rewrite Z.mul_1_l. reflexivity.
    + exists 0%Z. rewrite Z.mul_0_l. change (inject_Z 0) with 0%Q. lra.
Qed.
End Centre.
