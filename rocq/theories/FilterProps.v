(** Property theorems C16-C19 (size filtering and its statistics). *)
From Coq Require Import Qround Lqa Permutation Sorted.
From Verif Require Import Base Label LabelSpec LabelProofs LabelProps Morph MorphSpec Filter FilterSpec
  FilterProofs FilterGridProofs FilterAreaProofs FilterMoreProofs FilterMeshProofs FilterWitness.
Open Scope nat_scope.

(** C16, as claimed: an object is kept exactly when it has at least
    [f_threshold] cells.  False: the first object is always removed. *)
Theorem C16_keeps_objects_at_or_above_threshold_refuted :
  exists nt ny nx data r f c l,
    length data = nt * ny * nx /\ filter_grid false r nt ny nx data = Ok f /\
    in_range nt ny nx c /\ extreme ny nx data c /\ object_cells false nt ny nx data c l /\
    (f_threshold f <= nat_Q (length l))%Q /\ ~ kept_at nx (f_keep f) c.
Proof. exact first_object_lost. Qed.
Print Assumptions C16_keeps_objects_at_or_above_threshold_refuted.

(** What holds: exactly the objects of at least [f_threshold] cells other than
    the one holding the earliest extreme cell are kept, and the two counts are
    the numbers of objects before and after.  Missing from the full claim: that
    first object. *)
Theorem C16_keeps_other_objects_partial (regional : bool) (nt ny nx : nat) (data : list bool)
    (r : area_rule) (f : filtered) :
  length data = nt * ny * nx ->
  filter_grid regional r nt ny nx data = Ok f ->
  (forall c, in_range nt ny nx c ->
     (kept_at nx (f_keep f) c <->
      extreme ny nx data c /\
      (exists l, object_cells regional nt ny nx data c l /\ (f_threshold f <= nat_Q (length l))%Q) /\
      ~ (exists g, first_extreme nt ny nx data g /\ joined regional nt ny nx data c g))) /\
  counts_objects regional nt ny nx data (f_before f) (extreme ny nx data) /\
  counts_objects regional nt ny nx data (f_after f) (kept_at nx (f_keep f)).
Proof. intro L. exact (filter_grid_spec regional nt ny nx data L r f). Qed.
Print Assumptions C16_keeps_other_objects_partial.

(** The filter fails only when there is no extreme cell at all. *)
Theorem C16_fails_only_without_objects (regional : bool) (nt ny nx : nat) (data : list bool)
    (r : area_rule) (e : filter_err) :
  length data = nt * ny * nx ->
  filter_grid regional r nt ny nx data = Err e ->
  e = NoObjects /\ forall c, in_range nt ny nx c -> ~ extreme ny nx data c.
Proof. intro L. exact (filter_grid_fails regional nt ny nx data L r e). Qed.
Print Assumptions C16_fails_only_without_objects.

(** Where the threshold comes from: absolute, or a percentile that lies in the
    range of the object sizes. *)
Theorem C16_percentile_threshold_attained (q : Q) (areas : list nat) :
  areas <> [] -> (0 <= q)%Q -> (q <= 1)%Q ->
  exists a, In a areas /\ (percentile q areas <= nat_Q a)%Q.
Proof. exact (percentile_max q areas). Qed.
Print Assumptions C16_percentile_threshold_attained.

(** The threshold is the absolute value or the percentile of a list that holds
    the size of every object once. *)
Theorem C16_areas_are_object_sizes (regional : bool) (nt ny nx : nat) (data : list bool) (r : area_rule) (f : filtered) :
  length data = nt * ny * nx ->
  filter_grid regional r nt ny nx data = Ok f ->
  match r with ByAbsolute a => f_threshold f = inject_Z a | ByQuartile q => f_threshold f = percentile q (f_areas f) end /\
  exists reps,
    Forall2 (fun c a => in_range nt ny nx c /\ extreme ny nx data c /\ exists l, object_cells regional nt ny nx data c l /\ length l = a) reps (f_areas f) /\
    ForallOrdPairs (fun a b => ~ joined regional nt ny nx data a b) reps /\
    (forall c, in_range nt ny nx c -> extreme ny nx data c -> exists r, In r reps /\ joined regional nt ny nx data c r).
Proof. intros L E. destruct (areas_are_sizes regional nt ny nx data L r f E) as [H1 H2]. split; [destruct r; exact H1|exact H2]. Qed.
Print Assumptions C16_areas_are_object_sizes.

(** The order of the sizes does not matter. *)
Theorem C16_percentile_ignores_order (q : Q) (areas areas' : list nat) : Permutation areas areas' -> percentile q areas = percentile q areas'.
Proof. exact (threshold_permuted (ByQuartile q) areas areas'). Qed.
Print Assumptions C16_percentile_ignores_order.

(** The percentile interpolates linearly between the two sizes around it. *)
Lemma insert_perm x l : Permutation (x :: l) (insert_nat x l).
Proof.
  induction l as [|y l IH]; cbn; [reflexivity|]. destruct (Nat.leb x y); [reflexivity|].
  rewrite perm_swap. constructor. exact IH.
Qed.
Lemma sort_perm l : Permutation l (sort_nat l).
Proof. induction l as [|x l IH]; [constructor|]. cbn [sort_nat fold_right]. rewrite <- insert_perm. constructor. exact IH. Qed.
Lemma floor_is p k : (inject_Z k <= p)%Q -> (p < inject_Z (k + 1))%Q -> Qfloor p = k.
Proof.
  intros A B. assert (k <= Qfloor p)%Z by (rewrite <- (Qfloor_Z k); apply Qfloor_resp_le; exact A).
  assert (F := Qfloor_le p). assert (Qfloor p < k + 1)%Z; [|lia]. rewrite Zlt_Qlt. eapply Qle_lt_trans; [exact F|exact B].
Qed.
Theorem C16_percentile_interpolates (q : Q) (areas : list nat) : exists s,
  Permutation areas s /\ StronglySorted le s /\
  (length s = 1 -> (percentile q areas == nat_Q (nth 0%nat s 0%nat))%Q) /\
  forall k, S k < length s -> (nat_Q k <= q * nat_Q (length s - 1)%nat)%Q -> (q * nat_Q (length s - 1)%nat <= nat_Q (S k))%Q ->
    (percentile q areas == nat_Q (nth k s 0%nat) + (q * nat_Q (length s - 1)%nat - nat_Q k) * (nat_Q (nth (S k) s 0%nat) - nat_Q (nth k s 0%nat)))%Q.
Proof.
  exists (sort_nat areas). split; [apply sort_perm|]. split; [apply sort_nat_sorted|]. split.
  - intro L. unfold percentile. rewrite L. cbv zeta. change (nat_Q (1 - 1)) with 0%Q.
    assert (E : Qfloor (q * 0) = 0%Z) by (rewrite Qmult_0_r; reflexivity). rewrite E. cbn [Z.to_nat Nat.min Nat.sub]. ring.
  - intros k K A B. unfold percentile. set (s := sort_nat areas) in *. set (n := length s) in *. cbv zeta. set (p := (q * nat_Q (n - 1))%Q) in *.
    unfold nat_Q in A, B. rewrite Nat2Z.inj_succ in B. unfold Z.succ in B.
    destruct (Qlt_le_dec p (inject_Z (Z.of_nat k + 1))) as [C|C].
    + rewrite (floor_is p (Z.of_nat k) A C), Nat2Z.id. replace (Nat.min (S k) (n - 1)) with (S k) by lia. unfold nat_Q. ring.
    + assert (P : (p == inject_Z (Z.of_nat k + 1))%Q) by (apply Qle_antisym; assumption).
      assert (F : Qfloor p = Z.of_nat (S k)) by (rewrite P, Qfloor_Z; lia). rewrite F, Nat2Z.id. rewrite P. replace (Z.of_nat k + 1)%Z with (Z.of_nat (S k)) by lia.
      rewrite (Nat2Z.inj_succ k : Z.of_nat (S k) = Z.of_nat k + 1)%Z, inject_Z_plus. unfold nat_Q. ring.
Qed.
Print Assumptions C16_percentile_interpolates.
Example C16_percentile_case : (percentile (1 # 2) [9; 1; 4; 2]%nat == 3)%Q.
Proof. vm_compute. reflexivity. Qed.

Example C16_areas_case : exists f, filter_grid false (ByQuartile (1 # 2)) 1 3 8 three_objects = Ok f /\ f_areas f = [1; 3; 1] /\ (f_threshold f == 1)%Q.
Proof. eexists. split; [vm_compute; reflexivity|]. split; vm_compute; reflexivity. Qed.

Example C16_case : exists f, filter_grid false (ByAbsolute 2) 1 3 8 three_objects = Ok f /\
  f_before f = 3 /\ f_after f = 1 /\
  f_keep f = [[false; false; false; true; true; true; false; false;
               false; false; false; false; false; false; false; false;
               false; false; false; false; false; false; false; false]].
Proof. eexists. split; [vm_compute; reflexivity|]. repeat split. Qed.

(** C17: nothing added, objects kept or removed whole, stricter rules keep less. *)
Theorem C17_subset_and_whole_objects (regional : bool) (nt ny nx : nat) (data : list bool)
    (r : area_rule) (f : filtered) :
  length data = nt * ny * nx ->
  filter_grid regional r nt ny nx data = Ok f ->
  (forall c, in_range nt ny nx c -> kept_at nx (f_keep f) c -> extreme ny nx data c) /\
  (forall c d, in_range nt ny nx c -> in_range nt ny nx d -> extreme ny nx data d ->
     joined regional nt ny nx data c d -> kept_at nx (f_keep f) c -> kept_at nx (f_keep f) d).
Proof.
  intros L E. split; [|exact (filter_whole regional nt ny nx data L r f E)].
  intros c R K. apply (filter_grid_spec regional nt ny nx data L r f E) in K; [apply K|exact R].
Qed.
Print Assumptions C17_subset_and_whole_objects.

Theorem C17_stricter_rule_keeps_less (regional : bool) (nt ny nx : nat) (data : list bool)
    (r1 r2 : area_rule) (f1 f2 : filtered) :
  length data = nt * ny * nx -> rule_le r1 r2 ->
  filter_grid regional r1 nt ny nx data = Ok f1 -> filter_grid regional r2 nt ny nx data = Ok f2 ->
  forall c, in_range nt ny nx c -> kept_at nx (f_keep f2) c -> kept_at nx (f_keep f1) c.
Proof. intro L. exact (filter_mono regional nt ny nx data L r1 r2 f1 f2). Qed.
Print Assumptions C17_stricter_rule_keeps_less.

Theorem C17_mesh_subset_and_whole_objects (m : mesh) (mask : list bool) (datas : list (list bool))
    (r : area_rule) (f : filtered) :
  mesh_inputs_ok m mask datas -> filter_small_mesh r m mask datas = Ok f ->
  forall t i j, t < length datas ->
    ocean_extreme m mask (nth t datas []) j -> mesh_chain m (ocean_extreme m mask (nth t datas [])) i j ->
    mesh_kept (f_keep f) t i -> mesh_kept (f_keep f) t j.
Proof. intro OK. exact (filter_mesh_whole m mask datas OK r f). Qed.
Print Assumptions C17_mesh_subset_and_whole_objects.

Theorem C17_mesh_stricter_rule_keeps_less (m : mesh) (mask : list bool) (datas : list (list bool))
    (r1 r2 : area_rule) (f1 f2 : filtered) :
  mesh_inputs_ok m mask datas -> rule_le r1 r2 ->
  filter_small_mesh r1 m mask datas = Ok f1 -> filter_small_mesh r2 m mask datas = Ok f2 ->
  forall t i, t < length datas -> mesh_kept (f_keep f2) t i -> mesh_kept (f_keep f1) t i.
Proof. intro OK. exact (filter_mesh_mono m mask datas OK r1 r2 f1 f2). Qed.
Print Assumptions C17_mesh_stricter_rule_keeps_less.
Example C17_case : rule_le (ByAbsolute 2) (ByAbsolute 3) /\ rule_le (ByQuartile (1#4)) (ByQuartile (1#2)).
Proof. repeat split; try lia; discriminate. Qed.

(** C18: on a mesh, exactly the objects with more than [f_threshold] cells are kept. *)
Theorem C18_mesh_keeps_objects_above_threshold (m : mesh) (mask : list bool) (datas : list (list bool))
    (r : area_rule) (f : filtered) :
  mesh_inputs_ok m mask datas -> filter_small_mesh r m mask datas = Ok f ->
  length (f_keep f) = length datas /\
  forall t i, t < length datas ->
    (mesh_kept (f_keep f) t i <->
     ocean_extreme m mask (nth t datas []) i /\
     exists l, mesh_object m mask (nth t datas []) i l /\ (f_threshold f < nat_Q (length l))%Q).
Proof. intro OK. exact (filter_small_mesh_spec m mask datas OK r f). Qed.
Print Assumptions C18_mesh_keeps_objects_above_threshold.

(** The padded size table always has room: no time step has more objects than max_ID. *)
Theorem C18_size_table_never_overflows (fields : list (list Z)) (s : list Z) :
  In s fields -> length (unique_pos s) <= max_id fields.
Proof. exact (unique_fits fields s). Qed.
Print Assumptions C18_size_table_never_overflows.

(** The reported number after filtering is the number of kept objects, provided
    the threshold is at least the pre-filter size. *)
Theorem C18_reported_count_partial (m : mesh) (mask : list bool) (datas : list (list bool))
    (r : area_rule) (f : filtered) :
  mesh_inputs_ok m mask datas -> filter_small_mesh r m mask datas = Ok f ->
  (nat_Q (if is_absolute r then 5 else 50) <= f_threshold f)%Q ->
  exists objs : list (nat * Z), NoDup objs /\ length objs = f_after f /\
    forall t id, In (t, id) objs <->
      exists i, t < length datas /\ mesh_kept (f_keep f) t i /\
                nth i (nth t (map (identify_mesh m mask) datas) []) 0%Z = id.
Proof. intro OK. exact (mesh_counts m mask datas OK r f). Qed.
Print Assumptions C18_reported_count_partial.

(** Below it the count is wrong: two objects are kept, one is reported. *)
Theorem C18_reported_count_refuted :
  exists f, filter_small_mesh (ByAbsolute 2) long_row all12 [two_runs] = Ok f /\
    f_after f = 1 /\ mesh_kept (f_keep f) 0 0 /\ mesh_kept (f_keep f) 0 7 /\
    nth 0 (identify_mesh long_row all12 two_runs) 0%Z <> nth 7 (identify_mesh long_row all12 two_runs) 0%Z.
Proof. exact small_threshold_count. Qed.
Print Assumptions C18_reported_count_refuted.

(** And a field whose only object passes the threshold is rejected as having no objects. *)
Theorem C18_small_objects_rejected_refuted :
  filter_small_mesh (ByAbsolute 2) long_row all12 [one_run] = Err NoObjects /\
  count (fun b => b) one_run = 3.
Proof. exact small_object_rejected. Qed.
Print Assumptions C18_small_objects_rejected_refuted.
Example C18_case : mesh_inputs_ok long_row all12 [two_runs; one_run] /\
  exists f, filter_small_mesh (ByAbsolute 5) long_row all12 [two_runs; one_run] = Ok f /\ f_after f = 1.
Proof. split; [exact long_row_inputs|]. eexists. split; [vm_compute; reflexivity|reflexivity]. Qed.

(** C19: total_area_IDed is the number of extreme cells and the accepted
    fraction is in [0,1]. *)
Theorem C19_total_area_is_extreme_cells (regional : bool) (nt ny nx : nat) (data : list bool)
    (r : area_rule) (f : filtered) :
  length data = nt * ny * nx ->
  filter_grid regional r nt ny nx data = Ok f ->
  total_area_IDed f = count (fun b => b) data /\ 0 < total_area_IDed f.
Proof.
  intros L E. split; [exact (total_area_is_extreme_cells regional nt ny nx data L r f E)|].
  exact (total_positive_grid regional r nt ny nx data f L E).
Qed.
Print Assumptions C19_total_area_is_extreme_cells.

Theorem C19_accepted_fraction_in_range (f : filtered) :
  0 < total_area_IDed f ->
  (0 <= accepted_area_fraction f)%Q /\ (accepted_area_fraction f <= 1)%Q.
Proof. exact (accepted_fraction_range f). Qed.
Print Assumptions C19_accepted_fraction_in_range.

(** The accepted fraction does not describe the kept objects on structured grids. *)
Theorem C19_accepted_fraction_describes_kept_refuted :
  exists f, filter_grid false (ByAbsolute 1) 1 3 8 two_objects = Ok f /\
    (accepted_area_fraction f == 3 # 4)%Q /\ total_area_IDed f = 4 /\
    count (fun b => b) (concat (f_keep f)) = 1.
Proof. exact fraction_mismatch. Qed.
Print Assumptions C19_accepted_fraction_describes_kept_refuted.
