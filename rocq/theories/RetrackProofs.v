(** Filtering the cells that a filter kept. *)
From Verif Require Import Base Morph MorphSpec MorphMeshProofs Label LabelSpec Filter FilterSpec FilterProofs FilterMeshProofs FilterProps
  Run RunSpec MeshRun MeshRunProps StatsRunProps MeshMoveSpec MeshMoveProofs MeshMoveRunProofs UnmergedProofs LocalProofs.
Open Scope nat_scope.

(** The filter has something to do exactly when some object has more than five cells. *)
Lemma filter_returns m mask s A : mesh_inputs_ok m mask s ->
  ((exists f, filter_small_mesh (ByAbsolute A) m mask s = Ok f) <->
   exists t i l, t < length s /\ ocean_extreme m mask (nth t s []) i /\ mesh_object m mask (nth t s []) i l /\ 5 < length l).
Proof.
  intro Hi. set (fields := map (identify_mesh m mask) s). set (n := max_id fields).
  assert (Lf : length fields = length s) by apply map_length.
  assert (C := kept_objects_length (nat_Q 5) n fields ltac:(discriminate) 0). assert (I := kept_objects_In (nat_Q 5) fields 0).
  assert (Q5 : forall a, Qltb (nat_Q 5) (nat_Q a) = Nat.ltb 5 a).
  { intro a. apply eq_true_iff_eq. rewrite Qltb_spec, Nat.ltb_lt. unfold nat_Q. rewrite <- Zlt_Qlt. lia. }
  assert (Pre : filter (Nat.ltb 5) (flat_map fst (map (cluster_sizes n) fields)) <> [] <-> kept_objects (nat_Q 5) 0 fields <> []).
  { assert (L : length (kept_objects (nat_Q 5) 0 fields) = length (filter (Nat.ltb 5) (flat_map fst (map (cluster_sizes n) fields)))).
    { rewrite C. unfold count. f_equal. apply filter_ext. exact Q5. }
    destruct (kept_objects (nat_Q 5) 0 fields), (filter (Nat.ltb 5) (flat_map fst (map (cluster_sizes n) fields))); cbn in L; try discriminate L; split; intros; congruence. }
  transitivity (kept_objects (nat_Q 5) 0 fields <> []).
  - rewrite <- Pre. unfold filter_small_mesh, filter_mesh. cbn [is_absolute]. fold fields. fold n.
    destruct (filter (Nat.ltb 5) _); split; [intros (f & E); discriminate|congruence|discriminate|intros _; eexists; reflexivity].
  - split.
    + destruct (kept_objects (nat_Q 5) 0 fields) as [|(t, id) r]; [congruence|]. intros _. destruct (proj1 (I t id) (or_introl eq_refl)) as (T & P & In0 & Big). rewrite Nat.sub_0_r in *. cbn [Nat.add] in T. rewrite Lf in T.
      destruct (In_nth _ _ 0%Z In0) as (i & _ & E). assert (O : ocean_extreme m mask (nth t s []) i) by (apply (pos_on m mask s Hi t i); [lia|fold fields; rewrite E; exact P]).
      destruct (object_exists_mesh m mask s Hi t i ltac:(lia) O) as (l & M). exists t, i, l. split; [lia|]. split; [exact O|]. split; [exact M|].
      rewrite <- E in Big. assert (Sz := object_size_mesh m mask s Hi t i l ltac:(lia) O M). fold fields in Sz. rewrite Sz in Big. unfold nat_Q in Big. rewrite <- Zlt_Qlt in Big. lia.
    + intros (t & i & l & T & O & M & Big) E. assert (P := proj2 (pos_on m mask s Hi t i T) O). fold fields in P.
      assert (Sz := object_size_mesh m mask s Hi t i l T O M). fold fields in Sz.
      assert (X : In (t, nth i (nth t fields []) 0%Z) (kept_objects (nat_Q 5) 0 fields)); [|rewrite E in X; destruct X].
      apply I. rewrite Nat.sub_0_r. split; [lia|]. split; [exact P|]. split; [|rewrite Sz; unfold nat_Q; rewrite <- Zlt_Qlt; lia].
      apply nth_In. destruct (Nat.lt_ge_cases i (length (nth t fields []))) as [G|G]; [exact G|]. rewrite nth_overflow in P by exact G. lia.
Qed.

Section Again.
Variables (m : mesh) (mask : list bool) (s s' : list (list bool)) (A : Z) (f : filtered).
Hypothesis Hi : mesh_inputs_ok m mask s.
Hypothesis Hi' : mesh_inputs_ok m mask s'.
Hypothesis Hf : filter_small_mesh (ByAbsolute A) m mask s = Ok f.
Hypothesis Ls : length s' = length s.
(** The second series has the kept cells, and anything on land. *)
Hypothesis Hk : forall t i, t < length s -> (ocean_extreme m mask (nth t s' []) i <-> mesh_kept (f_keep f) t i).

Hypothesis Hex : exists t i, t < length s /\ mesh_kept (f_keep f) t i.

(** The object of a kept cell is the same among the kept cells. *)
Lemma object_again t i l : t < length s -> mesh_kept (f_keep f) t i -> (mesh_object m mask (nth t s []) i l <-> mesh_object m mask (nth t s' []) i l).
Proof.
  intros T K. destruct (C18_mesh_keeps_objects_above_threshold _ _ _ _ _ Hi Hf) as [Lk Kp].
  set (on := ocean_extreme m mask (nth t s [])) in *. set (on' := ocean_extreme m mask (nth t s' [])) in *.
  assert (Sub : forall j, on' j -> on j) by (intros j O; apply (Kp t j T), (Hk t j T), O).
  assert (Up : forall j, mesh_chain m on' i j -> mesh_chain m on i j).
  { intros j C. induction C as [i|i j k O B J C IH]; [constructor|]. apply (mchain_step _ _ i j k); auto. apply IH. apply (Hk t j T). exact O. }
  assert (Down : forall j, mesh_chain m on i j -> mesh_chain m on' i j).
  { intros j C. clear Up. induction C as [i|i j k O B J C IH]; [constructor|].
    assert (Kj : mesh_kept (f_keep f) t j).
    { apply (filter_mesh_whole m mask s Hi _ f Hf t i j T O); [|exact K]. apply (mchain_step _ _ i j j); auto. constructor. }
    apply (mchain_step _ _ i j k); auto. apply (proj2 (Hk t j T)). exact Kj. }
  assert (E : forall j, on j /\ mesh_chain m on i j <-> on' j /\ mesh_chain m on' i j).
  { intro j. split; intros [O C].
    - split; [|apply Down; exact C]. apply (Hk t j T). apply (filter_mesh_whole m mask s Hi _ f Hf t i j T O C K).
    - split; [apply Sub; exact O|apply Up; exact C]. }
  unfold mesh_object. fold on. fold on'. split; intros [ND M]; (split; [exact ND|]); intro j; rewrite M; [|symmetry]; apply E.
Qed.

Lemma filter_again : exists f', filter_small_mesh (ByAbsolute A) m mask s' = Ok f' /\ f_keep f' = f_keep f /\ f_threshold f' = f_threshold f.
Proof.
  destruct (C18_mesh_keeps_objects_above_threshold _ _ _ _ _ Hi Hf) as [Lk Kp]. rewrite (absolute_threshold m mask A f s Hf) in Kp.
  assert (Ex : exists f', filter_small_mesh (ByAbsolute A) m mask s' = Ok f').
  { apply (filter_returns m mask s' A Hi'). destruct (proj1 (filter_returns m mask s A Hi) (ex_intro _ f Hf)) as (t & i & l & T & O & M & Big).
    destruct (Z.lt_ge_cases A 6) as [La|La].
    - assert (K : mesh_kept (f_keep f) t i) by (apply (Kp t i T); split; [exact O|]; exists l; split; [exact M|]; unfold nat_Q; rewrite <- Zlt_Qlt; lia).
      exists t, i, l. split; [lia|]. split; [apply (Hk t i T); exact K|]. split; [apply (object_again t i l T K); exact M|exact Big].
    - destruct Hex as (v & j & V & K). assert (K1 := K). apply (Kp v j V) in K1. destruct K1 as (Oj & k & Mk & Bk). unfold nat_Q in Bk. rewrite <- Zlt_Qlt in Bk.
      exists v, j, k. split; [lia|]. split; [apply (Hk v j V); exact K|]. split; [apply (object_again v j k V K); exact Mk|lia]. }
  destruct Ex as (f' & Hf'). exists f'. split; [exact Hf'|]. split; [|rewrite (absolute_threshold m mask A f' s' Hf'), (absolute_threshold m mask A f s Hf); reflexivity].
  assert (Rk := kept_length _ _ _ _ _ Hi Hf). assert (Rk' := kept_length _ _ _ _ _ Hi' Hf').
  destruct (C18_mesh_keeps_objects_above_threshold _ _ _ _ _ Hi' Hf') as [Lk' Kp']. rewrite (absolute_threshold m mask A f' s' Hf') in Kp'.
  apply (nth_ext _ _ [] []); [congruence|]. intros t T. assert (T1 : t < length s) by lia.
  apply (nth_ext _ _ false false); [rewrite (Rk (nth t (f_keep f) [])), (Rk' (nth t (f_keep f') [])) by (apply nth_In; lia); reflexivity|].
  intros i _. apply eq_true_iff_eq. change (mesh_kept (f_keep f') t i <-> mesh_kept (f_keep f) t i). rewrite (Kp' t i ltac:(lia)). rewrite (Hk t i T1). split.
  - intros (K & _). exact K.
  - intro K. split; [exact K|]. assert (K1 := K). apply (Kp t i T1) in K1. destruct K1 as (_ & l & M & Big). exists l. split; [apply (object_again t i l T1 K); exact M|exact Big].
Qed.

(** Nothing is rejected the second time. *)
Lemma all_accepted f' : filter_small_mesh (ByAbsolute A) m mask s' = Ok f' -> 0 < total_area_IDed f' /\ (accepted_area_fraction f' == 1)%Q.
Proof.
  intro Hf'. destruct (C18_mesh_keeps_objects_above_threshold _ _ _ _ _ Hi Hf) as [Lk Kp]. rewrite (absolute_threshold m mask A f s Hf) in Kp.
  assert (Th := absolute_threshold m mask A f' s' Hf').
  set (fields := map (identify_mesh m mask) s'). set (n := max_id fields).
  assert (Ar : f_areas f' = flat_map fst (map (cluster_sizes n) fields) /\ filter (Nat.ltb 5) (f_areas f') <> []).
  { assert (E := Hf'). unfold filter_small_mesh, filter_mesh in E. cbn [is_absolute] in E. fold fields in E. fold n in E.
    destruct (filter (Nat.ltb 5) (flat_map fst (map (cluster_sizes n) fields))) as [|a r] eqn:P; [discriminate|]. injection E as <-. cbn [f_areas]. split; [reflexivity|]. rewrite P. discriminate. }
  destruct Ar as [Ar Pre].
  assert (Each : forall a, In a (f_areas f') -> a = 0 \/ Qltb (f_threshold f') (nat_Q a) = true).
  { intros a I. rewrite Ar in I. apply in_flat_map in I. destruct I as (tb & It & Ia). apply in_map_iff in It. destruct It as (fl & <- & Ifl). destruct (In_nth _ _ [] Ifl) as (t & T & <-). unfold fields in T. rewrite map_length, Ls in T.
    unfold cluster_sizes, pad0 in Ia. cbn [fst] in Ia. apply in_app_iff in Ia. destruct Ia as [Ia|Ia]; [|left; apply repeat_spec in Ia; exact Ia]. right.
    apply in_map_iff in Ia. destruct Ia as (id & <- & Iu). apply unique_pos_In in Iu. destruct Iu as [P Iu]. destruct (In_nth _ _ 0%Z Iu) as (i & _ & E).
    assert (O : ocean_extreme m mask (nth t s' []) i) by (apply (pos_on m mask s' Hi' t i); [lia|]; fold fields; rewrite E; exact P).
    destruct (object_exists_mesh m mask s' Hi' t i ltac:(lia) O) as (l & M). assert (Sz := object_size_mesh m mask s' Hi' t i l ltac:(lia) O M). fold fields in Sz. rewrite E in Sz. rewrite Sz, Th. apply Qltb_spec.
    assert (K := proj1 (Hk t i T) O). assert (K1 := K). apply (Kp t i T) in K1. destruct K1 as (Oi & k & Mk & Bk). assert (M2 := proj2 (object_again t i l T K) M).
    assert (Sk : length k = length l); [|rewrite <- Sk; exact Bk].
    rewrite <- (object_size_mesh m mask s Hi t i k T Oi Mk). apply (object_size_mesh m mask s Hi t i l T Oi M2). }
  assert (Pos : 0 < total_area_IDed f').
  { unfold total_area_IDed. clear - Pre. induction (f_areas f') as [|a r IH]; [cbn in Pre; congruence|]. cbn [sumN fold_right] in *. cbn [filter] in Pre. destruct (Nat.ltb_spec 5 a); [lia|]. specialize (IH Pre). unfold sumN in IH. lia. }
  assert (Eq : accepted_area f' = total_area_IDed f').
  { unfold accepted_area, total_area_IDed. clear - Each. induction (f_areas f') as [|a r IH]; [reflexivity|]. cbn [filter sumN fold_right] in *. assert (IH1 := IH ltac:(intros b B; apply Each; right; exact B)). unfold sumN in *.
    destruct (Each a (or_introl eq_refl)) as [->|E]; [destruct (Qltb (f_threshold f') (nat_Q 0)); cbn [fold_right]; rewrite IH1; reflexivity|rewrite E; cbn [fold_right]; rewrite IH1; reflexivity]. }
  split; [exact Pos|]. unfold accepted_area_fraction. rewrite Eq. unfold Qdiv. rewrite Qmult_inv_r; [reflexivity|]. unfold nat_Q. intro Z0. change 0%Q with (inject_Z 0) in Z0. rewrite inject_Z_injective in Z0. lia.
Qed.
End Again.
