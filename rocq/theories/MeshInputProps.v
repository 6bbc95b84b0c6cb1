(** C187: how a mesh reaches the tracker. *)
From Coq Require Import Lqa Qabs.
From Verif Require Import Base Support Instrument Overlap Rounding RoundingProofs Morph MorphSpec MeshInput MeshInputSpec.
Open Scope Z_scope.

Lemma wrap32_id z : int32 z -> wrap32 z = z.
Proof. unfold int32, wrap32. intro H. rewrite Z.mod_small by lia. lia. Qed.
Lemma wrap32_int32 z : int32 (wrap32 z).
Proof. unfold int32, wrap32. assert (H := Z.mod_pos_bound (z + 2 ^ 31) (2 ^ 32) ltac:(lia)). generalize dependent ((z + 2 ^ 31) mod 2 ^ 32). intros x H. lia. Qed.
Lemma as_int32_range odd e : int32 odd -> int32 (as_int32 odd e).
Proof.
  intro O. destruct e as [z|q|]; cbn [as_int32]; [apply wrap32_int32| |exact O].
  destruct (Z.leb_spec (- 2 ^ 31) (Z.quot (Qnum q) (Zpos (Qden q)))), (Z.ltb_spec (Z.quot (Qnum q) (Zpos (Qden q))) (2 ^ 31)); cbn [andb]; try exact O. split; assumption.
Qed.
Lemma as_int32_worth odd e z : worth e z -> int32 z -> as_int32 odd e = z.
Proof.
  intros W R. destruct e as [x|q|]; cbn in W; [subst x; exact (wrap32_id z R)| |contradiction]. cbn [as_int32].
  assert (E : Z.quot (Qnum q) (Zpos (Qden q)) = z). { unfold Qeq, inject_Z in W. cbn in W. rewrite Z.mul_1_r in W. rewrite W. apply Z.quot_mul. discriminate. }
  rewrite E. destruct R as [R1 R2]. rewrite (proj2 (Z.leb_le _ _) R1), (proj2 (Z.ltb_lt _ _) R2). reflexivity.
Qed.
Lemma entry_worth odd e z : worth e z -> int32 z -> int32 (z - 1) -> wrap32 (as_int32 odd e - 1) = z - 1.
Proof. intros W R S. rewrite (as_int32_worth odd e z W R). exact (wrap32_id _ S). Qed.
Lemma worth_unique e x y : worth e x -> worth e y -> x = y.
Proof. destruct e as [z|q|]; cbn; [congruence| |tauto]. intros A B. apply inject_Z_injective. rewrite <- A. exact B. Qed.
Lemma ints_attached odd t : int32 odd -> neighbours_int odd (attached odd t) = neighbours_int odd t.
Proof.
  intro O. unfold neighbours_int, attached. rewrite map_map. apply map_ext. intro r. rewrite map_map. apply map_ext. intro e. cbn [as_int32]. rewrite (wrap32_id _ (as_int32_range odd e O)). reflexivity.
Qed.
Lemma table_ncells odd n t : table_of n t -> ncells (neighbours_int odd t) = n.
Proof. intros [L R]. destruct t as [|r t]; [discriminate L|]. cbn. rewrite map_length. apply R. left. reflexivity. Qed.

(** C187.  Reading the mesh from the dataset of preprocess_data or handing it to the tracker
    directly is the same: same mesh, or same failure, for every table, whatever its type. *)
Theorem C187_through_dataset (odd : Z) (t : list (list entry)) : int32 odd -> read_mesh odd (attached odd t) = read_mesh odd t.
Proof. intro O. unfold read_mesh, built. rewrite (ints_attached odd t O). reflexivity. Qed.
Print Assumptions C187_through_dataset.

(** A table of whole numbers between 1 - n and n: the tracker's neighbours of a cell are the cells
    whose number, counted from one, the table lists; numbers below one stand for no neighbour. *)
Theorem C187_numbers_from_one (odd : Z) (n : nat) (t : list (list entry)) :
  table_of n t -> Z.of_nat n < 2 ^ 31 -> (forall r e, In r t -> In e r -> exists z, worth e z /\ 1 - Z.of_nat n <= z <= Z.of_nat n) ->
  exists m, read_mesh odd t = Ok m /\ length m = n /\ forall i j, (i < n)%nat -> (adj m i j <-> listed t i (Z.of_nat j + 1)).
Proof.
  intros T N V. assert (C := table_ncells odd n t T). destruct T as [L R].
  assert (Val : forall r e, In r t -> In e r -> exists z, worth e z /\ wrap32 (as_int32 odd e - 1) = z - 1 /\ - Z.of_nat n <= z - 1 < Z.of_nat n).
  { intros r e Ir Ie. destruct (V r e Ir Ie) as (z & W & B). exists z. split; [exact W|]. split; [apply (entry_worth odd e z W); split; lia|lia]. }
  assert (All : forall r j, In r (neighbours_int odd t) -> In j r -> - Z.of_nat n <= j < Z.of_nat n).
  { intros r j Ir Ij. apply in_map_iff in Ir. destruct Ir as (r0 & <- & Ir). apply in_map_iff in Ij. destruct Ij as (e & <- & Ie). destruct (Val r0 e Ir Ie) as (z & _ & E & B). rewrite E. exact B. }
  assert (Ex : existsb (existsb (fun j => Z.of_nat n <=? j)) (neighbours_int odd t) = false).
  { destruct (existsb _ _) eqn:E; [|reflexivity]. apply existsb_exists in E. destruct E as (r & Ir & E). apply existsb_exists in E. destruct E as (j & Ij & E). apply Z.leb_le in E. assert (H := All r j Ir Ij). lia. }
  set (m := by_cell (neighbours_int odd t)). assert (Lm : length m = n) by (unfold m, by_cell; rewrite map_length, seq_length; exact C).
  assert (Rows : forall i, (i < n)%nat -> row m i = map (fun r => nth i r (-1)) (neighbours_int odd t)).
  { intros i Hi. unfold row, m, by_cell. rewrite C. rewrite (nth_indep _ [] (map (fun r => nth 0 r (-1)) (neighbours_int odd t))) by (rewrite map_length, seq_length; exact Hi).
    rewrite (map_nth (fun i => map (fun r => nth i r (-1)) (neighbours_int odd t))), seq_nth by exact Hi. reflexivity. }
  exists m. split; [|split; [exact Lm|]].
  - unfold read_mesh, built. rewrite C, Ex. unfold neighbours_int at 1. rewrite map_length, L. cbn [Nat.eqb negb bind]. fold m. unfold clustered. rewrite Lm.
    destruct (existsb _ m) eqn:E; [|reflexivity]. exfalso. apply existsb_exists in E. destruct E as (r & Ir & E). apply existsb_exists in E. destruct E as (j & Ij & E). apply Z.ltb_lt in E.
    apply in_map_iff in Ir. destruct Ir as (i & <- & Ii). apply in_seq in Ii. apply in_map_iff in Ij. destruct Ij as (r0 & <- & Ir).
    assert (Lr : length r0 = n) by (apply in_map_iff in Ir; destruct Ir as (r1 & <- & Ir); rewrite map_length; exact (R r1 Ir)).
    assert (H := All r0 (nth i r0 (-1)) Ir ltac:(apply nth_In; lia)). lia.
  - intros i j Hi. unfold adj. rewrite (Rows i Hi). split.
    + intro I. apply in_map_iff in I. destruct I as (r & E & Ir). apply in_map_iff in Ir. destruct Ir as (r0 & <- & Ir). exists r0. split; [exact Ir|].
      assert (Ie : In (nth i r0 ENaN) r0) by (apply nth_In; rewrite (R r0 Ir); exact Hi). destruct (Val _ _ Ir Ie) as (z & W & Ez & _).
      rewrite (nth_indep _ (-1) (wrap32 (as_int32 odd ENaN - 1))), (map_nth (fun e => wrap32 (as_int32 odd e - 1))) in E by (rewrite map_length, (R r0 Ir); exact Hi).
      rewrite Ez in E. replace (Z.of_nat j + 1) with z by lia. exact W.
    + intros (r & Ir & W). apply in_map_iff. exists (map (fun e => wrap32 (as_int32 odd e - 1)) r). split; [|apply in_map_iff; exists r; split; [reflexivity|exact Ir]].
      rewrite (nth_indep _ (-1) (wrap32 (as_int32 odd ENaN - 1))), (map_nth (fun e => wrap32 (as_int32 odd e - 1))) by (rewrite map_length, (R r Ir); exact Hi).
      assert (Ie : In (nth i r ENaN) r) by (apply nth_In; rewrite (R r Ir); exact Hi). destruct (Val _ _ Ir Ie) as (z & W' & Ez & _). rewrite Ez, (worth_unique _ _ _ W' W). lia.
Qed.
Print Assumptions C187_numbers_from_one.

(** A number beyond the last cell is refused when the tracker is built. *)
Theorem C187_beyond_refused (odd : Z) (n : nat) (t : list (list entry)) (r : list entry) (e : entry) (z : Z) :
  table_of n t -> In r t -> In e r -> worth e z -> Z.of_nat n < z < 2 ^ 31 -> built odd t = Err ColumnIndex.
Proof.
  intros T Ir Ie W B. assert (C := table_ncells odd n t T). destruct T as [L _]. unfold built. rewrite C. unfold neighbours_int at 1. rewrite map_length, L. cbn [Nat.eqb negb].
  assert (E : existsb (existsb (fun j => Z.of_nat n <=? j)) (neighbours_int odd t) = true); [|rewrite E; reflexivity].
  apply existsb_exists. exists (map (fun e => wrap32 (as_int32 odd e - 1)) r). split; [apply in_map_iff; exists r; split; [reflexivity|exact Ir]|].
  apply existsb_exists. exists (z - 1). split; [apply in_map_iff; exists e; split; [apply (entry_worth odd e z W); split; lia|exact Ie]|]. apply Z.leb_le. lia.
Qed.
Print Assumptions C187_beyond_refused.

(** As claimed, every negative number and NaN would mean no neighbour.  But on a mesh of n cells a
    missing value of -n or less, such as -9999 on fewer than ten thousand cells, ends the run ... *)
Theorem C187_missing_marker_refuted (odd : Z) (n : nat) (t : list (list entry)) (r : list entry) (e : entry) (z : Z) :
  table_of n t -> In r t -> In e r -> worth e z -> - 2 ^ 31 < z <= - Z.of_nat n -> exists x, read_mesh odd t = Err x.
Proof.
  intros T Ir Ie W B. assert (C := table_ncells odd n t T). destruct T as [L R]. unfold read_mesh, built. rewrite C. unfold neighbours_int at 1. rewrite map_length, L. cbn [Nat.eqb negb].
  destruct (existsb _ _); [exists ColumnIndex; reflexivity|]. cbn [bind]. unfold clustered. destruct (existsb _ _) eqn:E; [exists IndexOutOfBounds; reflexivity|]. exfalso.
  destruct (In_nth r e ENaN Ie) as (i & Hi & Ei).
  assert (Lm : length (by_cell (neighbours_int odd t)) = n) by (unfold by_cell; rewrite map_length, seq_length; exact C).
  rewrite Lm in E. apply Bool.not_true_iff_false in E. apply E. apply existsb_exists. exists (map (fun r => nth i r (-1)) (neighbours_int odd t)). split.
  - unfold by_cell. rewrite C. apply in_map_iff. exists i. split; [reflexivity|]. apply in_seq. rewrite (R r Ir) in Hi. lia.
  - apply existsb_exists. exists (z - 1). split; [|apply Z.ltb_lt; lia]. apply in_map_iff. exists (map (fun e => wrap32 (as_int32 odd e - 1)) r). split; [|apply in_map_iff; exists r; split; [reflexivity|exact Ir]].
    rewrite (nth_indep _ (-1) (wrap32 (as_int32 odd ENaN - 1))), (map_nth (fun e => wrap32 (as_int32 odd e - 1))) by (rewrite map_length; exact Hi).
    rewrite Ei. apply (entry_worth odd e z W); split; lia.
Qed.
Print Assumptions C187_missing_marker_refuted.

(** ... and where the processor casts NaN to -2^31, a table with NaN is refused, since subtracting
    one wraps around to the largest number; where it casts to 0, NaN means no neighbour. *)
Theorem C187_nan_refuted (n : nat) (t : list (list entry)) (r : list entry) :
  table_of n t -> Z.of_nat n < 2 ^ 31 -> In r t -> In ENaN r ->
  built (- 2 ^ 31) t = Err ColumnIndex /\ neighbours_int 0 t = neighbours_int 0 (map (map (fun e => match e with ENaN => EInt 0 | _ => e end)) t).
Proof.
  intros T N Ir Ie. split.
  - assert (C := table_ncells (- 2 ^ 31) n t T). destruct T as [L _]. unfold built. rewrite C. unfold neighbours_int at 1. rewrite map_length, L. cbn [Nat.eqb negb].
    assert (E : existsb (existsb (fun j => Z.of_nat n <=? j)) (neighbours_int (- 2 ^ 31) t) = true); [|rewrite E; reflexivity].
    apply existsb_exists. exists (map (fun e => wrap32 (as_int32 (- 2 ^ 31) e - 1)) r). split; [apply in_map_iff; exists r; split; [reflexivity|exact Ir]|].
    apply existsb_exists. exists (2 ^ 31 - 1). split; [apply in_map_iff; exists ENaN; split; [vm_compute; reflexivity|exact Ie]|]. apply Z.leb_le. lia.
  - unfold neighbours_int. rewrite map_map. apply map_ext. intro r0. rewrite map_map. apply map_ext. intros [z|q|]; reflexivity.
Qed.
Print Assumptions C187_nan_refuted.

Open Scope Q_scope.
(** Cell areas: the tracker stores the same float32 areas either way. *)
Theorem C187_areas_through_dataset (w : list Q) : Forall2 Qeq (cell_area (attached_areas w)) (cell_area w).
Proof. unfold cell_area, attached_areas. rewrite map_map. induction w as [|q w IH]; constructor; [|exact IH]. apply rounded_fixed; [lia|]. apply rounded_representable. lia. Qed.
Print Assumptions C187_areas_through_dataset.

(** The mean cell area, which bounds the search of the nearest parent, is taken before the cast:
    through the dataset it differs, ... *)
Theorem C187_mean_area_refuted : exists w, (forall q, In q w -> 0 < q) /\ ~ mean_cell_area (attached_areas w) == mean_cell_area w.
Proof. exists [1 # 3; 1]. split; [intros q [<-|[<-|[]]]; reflexivity|]. vm_compute. discriminate. Qed.
Print Assumptions C187_mean_area_refuted.
(** ... by at most one part in 2^24. *)
Theorem C187_mean_area_partial (w : list Q) : (forall q, In q w -> 0 <= q) -> w <> [] ->
  Qabs (mean_cell_area (attached_areas w) - mean_cell_area w) <= mean_cell_area w * (1 # 16777216).
Proof.
  intros N E. unfold mean_cell_area, attached_areas. rewrite map_length. change (1 # 16777216) with (pow2 (- (24))). set (u := pow2 (- (24))).
  assert (P : 0 < inject_Z (Z.of_nat (length w))) by (change 0 with (inject_Z 0); rewrite <- Zlt_Qlt; destruct w; [contradiction|cbn [length]; lia]).
  assert (G : fold_right Qplus 0 w * (1 - u) <= fold_right Qplus 0 (map single w) /\ fold_right Qplus 0 (map single w) <= fold_right Qplus 0 w * (1 + u)).
  { clear E P. induction w as [|q w IH]; cbn [map fold_right]; [split; lra|]. destruct (IH (fun x I => N x (or_intror I))) as [A B]. assert (Q0 := N q (or_introl eq_refl)).
    assert (Err := rounded_error 24 q ltac:(lia) Q0). fold u in Err. apply Qabs_Qle_condition in Err. fold (single q) in Err. split; lra. }
  destruct G as [A B]. set (s := fold_right Qplus 0 w) in *. set (s' := fold_right Qplus 0 (map single w)) in *. set (k := inject_Z (Z.of_nat (length w))) in *.
  assert (I : 0 < / k) by (apply Qinv_lt_0_compat; exact P). unfold Qdiv. set (v := / k) in *. apply Qabs_Qle_condition.
  assert (A' := Qmult_le_compat_r _ _ v A ltac:(lra)). assert (B' := Qmult_le_compat_r _ _ v B ltac:(lra)). split; lra.
Qed.
Print Assumptions C187_mean_area_partial.

(** Two triangles side by side; a table counted from zero is taken for one counted from one. *)
Example C187_case :
  read_mesh (- 2 ^ 31)%Z [[EInt 2; EFloat 1]; [EInt 0; EInt 0]; [EInt (-1); EInt 0]] = Ok [[1; -1; -2]; [0; -1; -1]]%Z /\
  read_mesh (- 2 ^ 31)%Z [[EInt 1; EInt 0]; [EInt (-1); EInt (-1)]; [EInt (-1); EInt (-1)]] = Ok [[0; -2; -2]; [-1; -2; -2]]%Z /\
  read_mesh (- 2 ^ 31)%Z [[EInt 2; EInt 1]; [EInt (-9999); EInt 0]; [EInt 0; EInt 0]] = Err IndexOutOfBounds /\
  built (- 2 ^ 31)%Z [[EInt 2; EInt 1]; [ENaN; EInt 0]; [EInt 0; EInt 0]] = Err ColumnIndex.
Proof. split; [vm_compute; reflexivity|]. split; [vm_compute; reflexivity|]. split; vm_compute; reflexivity. Qed.
