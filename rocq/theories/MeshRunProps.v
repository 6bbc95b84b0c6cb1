(** Property theorems C103-C108 (tracking on unstructured meshes, from the
    preprocessed data to the events). *)
From Coq Require Import String Lia.
From Verif Require Import Base Graph Morph MorphSpec MorphMeshProofs Label LabelSpec LabelProofs Filter FilterSpec FilterMeshProofs FilterProps Overlap OverlapSpec OverlapProofs
  Merge MergeSpec MergeProofs MergeLoop MergeMore MergeProps Partition Cluster ClusterSpec ClusterProofs ClusterMore ClusterFinal ClusterPipe ClusterProps
  MeshPart Parallel ParallelSpec ParallelProofs ParallelFinal ParallelProps Run RunSpec RunProofs RunProps MeshRun ParallelLimits MeshRunProofs MeshRunLoop MeshRunLimits.
Open Scope nat_scope.

(** What tracking is given: a mesh with valid neighbours, one mask value, one
    positive cell area and one value of the data per cell. *)
Definition mesh_input (m : mesh) (mask : list bool) (w : list Q) (data : list (list bool)) : Prop :=
  mesh_ok m /\ length mask = length m /\ length w = length m /\ (forall q, In q w -> (0 < q)%Q) /\
  (forall d, In d data -> length d = length m).
(** Python runs through a set: some order of its members. *)
Definition set_order (order : list Z -> list Z) : Prop := forall l x, In x (order l) -> In x l.
(** Extreme ocean cells of a time step. *)
Definition extreme_ocean (m : mesh) (mask : list bool) (data : list (list bool)) (t k : nat) : Prop :=
  k < length m /\ nth k mask false = true /\ nth k (nth t data []) false = true.

(** IDs for the connected objects: 0 where there is none, one ID per object, used
    at one time only. *)
Definition object_labelling (m : mesh) (mask : list bool) (data : list (list bool)) (objs : list (list Z)) : Prop :=
  length objs = length data /\ (forall t, t < length data -> length (nth t objs []) = length m) /\
  (forall t k, t < length data -> k < length m ->
     (0 <= id_at objs t k)%Z /\ ((0 < id_at objs t k)%Z <-> extreme_ocean m mask data t k)) /\
  (forall t j k, t < length data -> extreme_ocean m mask data t j -> extreme_ocean m mask data t k ->
     (id_at objs t j = id_at objs t k <-> mesh_chain m (extreme_ocean m mask data t) j k)) /\
  (forall x s t, (0 < x)%Z -> In x (nth s objs []) -> In x (nth t objs []) -> s = t).

Section Mesh.
Variables (m : mesh) (mask : list bool) (w : list Q) (cent : list bool -> Q * Q) (thr : Q).
Variables (nbs : list (list Z)) (dist : nat -> nat -> Q) (reach : list Z -> nat) (order : list Z -> list Z).
Variables (tc limit : nat) (data : list (list bool)).
Let part := part_nn_mesh nbs dist reach.
Let on := extreme_ocean m mask data.

Lemma tracked ev mg : mesh_input m mask w data -> set_order order ->
  track_mesh m mask w cent thr part order tc limit data = Ok (ev, mg) ->
  initial_props w cent (mesh_objects m mask data) <> [] /\
  exists st, parallel_merge w thr part order tc limit (initial_props w cent (mesh_objects m mask data))
               (Some (mesh_objects m mask data)) (mesh_objects m mask data) = Ok st /\
    NoDup (prop_ids (final_props w cent (pt_fields st))) /\ mg = merge_dataset (pt_events st) /\
    exists ev0, cluster_rename w (pt_fields st) (final_pairs w cent thr (pt_fields st)) no_merges = Ok ev0 /\ same_but_ledger ev ev0.
Proof.
  intros (Hm & Lm & Lw & Hw & Ld) Ho T. unfold track_mesh in T.
  destruct (initial_props w cent (mesh_objects m mask data)) as [|p ps] eqn:Ep; [discriminate|].
  split; [discriminate|]. rewrite <- Ep in *.
  destruct (parallel_merge w thr part order tc limit (initial_props w cent (mesh_objects m mask data))
               (Some (mesh_objects m mask data)) (mesh_objects m mask data)) as [st|e] eqn:E; [|discriminate].
  exists st. split; [reflexivity|].
  assert (D : NoDup (prop_ids (final_props w cent (pt_fields st)))).
  { apply distinctZ_spec. unfold mesh_events in T. destruct (distinctZ _); [reflexivity|discriminate]. }
  split; [exact D|].
  assert (Ne : initial_props w cent (mesh_objects m mask data) <> []) by (rewrite Ep; discriminate).
  destruct (mesh_clusters m mask w cent thr part (part_nn_valid nbs dist reach) order Ho tc limit data Hm Lm Lw Ld Hw st Ne E D)
    as (ev1 & ev0 & E1 & E0 & Sm).
  rewrite E1 in T. injection T as <- <-. split; [reflexivity|]. exists ev0. split; assumption.
Qed.

(** C103: what tracking on a mesh returns.  The cells with an event ID are
    exactly the extreme ocean cells; the IDs used are 1 ... N_events; and there is
    a division of the connected objects into parts, with IDs used at one time
    only, such that two cells are in one event exactly when their parts are joined
    by overlaps of at least the threshold between consecutive times.  Without
    recorded merges the parts are the connected objects themselves. *)
Theorem C103_mesh_events (ev : events) (mg : merges) :
  mesh_input m mask w data -> set_order order ->
  track_mesh m mask w cent thr part order tc limit data = Ok (ev, mg) ->
  length (v_field ev) = length data /\
  (forall t, t < length data -> length (nth t (v_field ev) []) = length m) /\
  (forall t k, t < length data -> k < length m ->
     (on t k -> (0 < id_at (v_field ev) t k)%Z) /\ (~ on t k -> id_at (v_field ev) t k = 0%Z)) /\
  (forall k, (1 <= k <= n_events ev)%Z <-> exists t, (0 < k)%Z /\ present_at (v_field ev) t k) /\
  exists objs,
    labelled_series (length m) objs /\ length objs = length data /\
    (forall t k, t < length data -> k < length m -> ((0 < id_at objs t k)%Z <-> on t k)) /\
    (forall t j k, t < length data -> on t j -> on t k -> id_at objs t j = id_at objs t k -> mesh_chain m (on t) j k) /\
    (m_parents mg = [] -> forall t j k, t < length data -> on t j -> on t k -> mesh_chain m (on t) j k -> id_at objs t j = id_at objs t k) /\
    (forall t j u k, t < length data -> u < length data -> on t j -> on u k ->
       (id_at (v_field ev) t j = id_at (v_field ev) u k <->
        chained (consecutive_overlap w thr objs) (id_at objs t j) (id_at objs u k))).
Proof.
  intros Hin Ho T. destruct (tracked ev mg Hin Ho T) as (Ne & st & E & D & Em & ev0 & E0 & Sm).
  destruct Hin as (Hm & Lm & Lw & Hw & Ld). assert (Pv := part_nn_valid nbs dist reach). fold part in Pv.
  set (objs := pt_fields st) in *.
  assert (Ser := objs_labelled m mask w cent thr part Pv order Ho tc limit data Hm Lm Lw Ld Hw st Ne E D). fold objs in Ser.
  assert (Len := objs_length m mask w cent thr part Pv order Ho tc limit data Hm Lm Lw Ld Hw st Ne E). fold objs in Len.
  assert (Row := objs_row m mask w cent thr part Pv order Ho tc limit data Hm Lm Lw Ld Hw st Ne E). fold objs in Row.
  assert (Cell := objs_cell m mask w cent thr part Pv order Ho tc limit data Hm Lm Lw Ld Hw st Ne E). fold objs in Cell.
  assert (Pr := pair_iff m mask w cent thr part Pv order Ho tc limit data Hm Lm Lw Ld Hw st Ne E D). fold objs in Pr.
  assert (Occ := pair_occurs m mask w cent thr part Pv order Ho tc limit data Hm Lm Lw Ld Hw st Ne E D). fold objs in Occ.
  assert (Hn : forall f x, In f objs -> In x f -> (0 <= x)%Z) by apply Ser.
  assert (I0 := plain_input objs _ Hn Occ).
  destruct (C33_events_are_chains w objs _ no_merges ev0 I0 E0) as ((S1 & S2) & B & Sa & On).
  destruct Sm as (Ef & Ec & _). unfold n_events. rewrite Ef.
  destruct (some_object m mask w cent data Hm Lm Ld Ne) as (t0 & k0 & T0 & O0).
  assert (Ex : exists t c, t < length objs /\ c < length (nth t objs []) /\ (0 < id_at objs t c)%Z).
  { exists t0, k0. rewrite Len, Row by exact T0. split; [exact T0|]. split; [apply O0|]. apply (Cell t0 k0 T0 (proj1 O0)). exact O0. }
  destruct (numbered objs (v_field ev0) (v_count ev0) Hn Ex S1 S2 B On) as (Mx & Nn & Num).
  split; [rewrite S1; exact Len|]. split; [intros t Tt; rewrite S2; apply Row; exact Tt|].
  split; [|split; [rewrite Mx; exact Num|]].
  - intros t k Tt K. assert (Tt' : t < length objs) by (rewrite Len; exact Tt).
    assert (K' : k < length (nth t objs [])) by (rewrite Row; assumption).
    destruct (Cell t k Tt K) as [P C]. specialize (B t k Tt' K'). specialize (Nn t k Tt' K').
    change (on t k) with (on_at m mask data t k). rewrite <- C. split; intro H; [|apply B; lia].
    destruct (Z.eq_dec (id_at (v_field ev0) t k) 0) as [Z0|Z0]; [apply B in Z0; lia|lia].
  - exists objs. split; [exact Ser|]. split; [exact Len|]. split; [intros t k Tt K; exact (proj2 (Cell t k Tt K))|].
    split; [|split].
    + intros t j k Tt J K X. exact (objs_within m mask w cent thr part Pv order Ho tc limit data Hm Lm Lw Ld Hw st Ne E t j k Tt J K X).
    + intros Nm t j k Tt J K X.
      assert (Q0 : pt_events st = []).
      { rewrite Em in Nm. unfold merge_dataset in Nm. cbn [m_parents] in Nm. destruct (pt_events st); [reflexivity|discriminate]. }
      assert (Eo := objs_unmerged m mask w cent thr part Pv order Ho tc limit data Hm Lm Lw Ld Hw st Ne E Q0). fold objs in Eo.
      rewrite Eo. apply (lab_same m mask data Hm Lm Ld t j k Tt J K). exact X.
    + intros t j u k Tt U J K.
      rewrite (Sa t j u k); try (rewrite Len; assumption); try (rewrite Row by assumption; first [apply J|apply K]).
      * split; intro H; (eapply chained_mono; [|exact H]); cbv beta; intros a b; apply Pr.
      * apply (Cell t j Tt (proj1 J)). exact J.
      * apply (Cell u k U (proj1 K)). exact K.
Qed.

(** C104: lifetimes and areas on a mesh.  An event present at two times is present
    at all times between; time_start and time_end are its first and last time;
    areas are sums of cell areas, and those of a time step add up to the area of
    its extreme ocean cells. *)
Theorem C104_mesh_event_properties (ev : events) (mg : merges) :
  mesh_input m mask w data -> set_order order ->
  track_mesh m mask w cent thr part order tc limit data = Ok (ev, mg) ->
  n_events ev = Z.of_nat (v_count ev) /\
  (forall k a b t, (0 < k)%Z -> present_at (v_field ev) a k -> present_at (v_field ev) b k -> a <= t <= b -> present_at (v_field ev) t k) /\
  (forall t i, t < length data -> i < v_count ev ->
     (nth i (nth t (v_presence ev) []) false = true <-> present_at (v_field ev) t (Z.of_nat i + 1))) /\
  (forall i, i < v_count ev ->
     forall t, present_at (v_field ev) t (Z.of_nat i + 1) <-> nth i (v_start ev) 0 <= t <= nth i (v_end ev) 0) /\
  (forall t i, t < length data -> i < v_count ev ->
     match nth i (nth t (v_area ev) []) None with
     | Some a => present_at (v_field ev) t (Z.of_nat i + 1) /\ (a == object_area w (nth t (v_field ev) []) (Z.of_nat i + 1))%Q
     | None => ~ present_at (v_field ev) t (Z.of_nat i + 1)
     end) /\
  (forall t, t < length data ->
     (totalQ (fun i => match nth i (nth t (v_area ev) []) None with Some a => a | None => 0 end) (v_count ev) ==
      totalQ (fun k => if nth k mask false && nth k (nth t data []) false then nth k w 0 else 0) (length m))%Q).
Proof.
  intros Hin Ho T. destruct (tracked ev mg Hin Ho T) as (Ne & st & E & D & Em & ev0 & E0 & Sm).
  destruct Hin as (Hm & Lm & Lw & Hw & Ld). assert (Pv := part_nn_valid nbs dist reach). fold part in Pv.
  set (objs := pt_fields st) in *.
  assert (Ser := objs_labelled m mask w cent thr part Pv order Ho tc limit data Hm Lm Lw Ld Hw st Ne E D). fold objs in Ser.
  assert (Serw := objs_w m mask w cent thr part Pv order Ho tc limit data Hm Lm Lw Ld Hw st Ne E D). fold objs in Serw.
  assert (Len := objs_length m mask w cent thr part Pv order Ho tc limit data Hm Lm Lw Ld Hw st Ne E). fold objs in Len.
  assert (Row := objs_row m mask w cent thr part Pv order Ho tc limit data Hm Lm Lw Ld Hw st Ne E). fold objs in Row.
  assert (Cell := objs_cell m mask w cent thr part Pv order Ho tc limit data Hm Lm Lw Ld Hw st Ne E). fold objs in Cell.
  assert (Pr := pair_iff m mask w cent thr part Pv order Ho tc limit data Hm Lm Lw Ld Hw st Ne E D). fold objs in Pr.
  assert (Occ := pair_occurs m mask w cent thr part Pv order Ho tc limit data Hm Lm Lw Ld Hw st Ne E D). fold objs in Occ.
  assert (Hn : forall f x, In f objs -> In x f -> (0 <= x)%Z) by apply Ser.
  assert (I0 := plain_input objs _ Hn Occ).
  destruct (C33_events_are_chains w objs _ no_merges ev0 I0 E0) as ((S1 & S2) & B & Sa & On).
  destruct (C34_presence_and_times w objs _ no_merges ev0 I0 E0) as (Pres & Times).
  destruct (C35_event_areas w objs _ no_merges ev0 I0 E0) as (Ar & Tot); [apply Serw|].
  destruct Sm as (Ef & Ec & _ & Ep & Es & Ee & Ea). unfold n_events. rewrite Ef, Ec, Ep, Es, Ee, Ea.
  destruct (some_object m mask w cent data Hm Lm Ld Ne) as (t0 & k0 & T0 & O0).
  assert (Ex : exists t c, t < length objs /\ c < length (nth t objs []) /\ (0 < id_at objs t c)%Z).
  { exists t0, k0. rewrite Len, Row by exact T0. split; [exact T0|]. split; [apply O0|]. apply (Cell t0 k0 T0 (proj1 O0)). exact O0. }
  destruct (numbered objs (v_field ev0) (v_count ev0) Hn Ex S1 S2 B On) as (Mx & Nn & Num).
  assert (At : forall t k, present_at (v_field ev0) t k -> t < length data /\ exists c, c < length m /\ id_at (v_field ev0) t c = k).
  { intros t k P. unfold present_at in P. assert (Tt : t < length objs).
    { destruct (Nat.lt_ge_cases t (length objs)) as [H|H]; [exact H|]. rewrite nth_overflow in P by (rewrite S1; exact H). destruct P. }
    assert (Tt' : t < length data) by (rewrite <- Len; exact Tt). split; [exact Tt'|].
    destruct (In_nth _ _ 0%Z P) as (c & C & Ek). rewrite S2, Row in C by exact Tt'. exists c. split; [exact C|exact Ek]. }
  assert (Gap : forall k a b t, (0 < k)%Z -> present_at (v_field ev0) a k -> present_at (v_field ev0) b k -> a <= t <= b -> present_at (v_field ev0) t k).
  { intros k a b t P A Bp Lt. destruct (At a k A) as (Ta & ca & Ca & Ka). destruct (At b k Bp) as (Tb & cb & Cb & Kb).
    assert (Pos : forall u c, u < length data -> c < length m -> id_at (v_field ev0) u c = k -> (0 < id_at objs u c)%Z).
    { intros u c U C K. destruct (Cell u c U C) as [N _]. assert (X := B u c). rewrite Len, Row in X by exact U. specialize (X U C). lia. }
    assert (Pa := Pos a ca Ta Ca Ka). assert (Pb := Pos b cb Tb Cb Kb).
    assert (Ch : chained (consecutive_overlap w thr objs) (id_at objs a ca) (id_at objs b cb)).
    { assert (X := Sa a ca b cb). rewrite !Len, !Row in X by assumption. specialize (X Ta Ca Tb Cb Pa Pb).
      rewrite Ka, Kb in X. destruct X as [X _]. eapply chained_mono; [|exact (X eq_refl)]. cbv beta. intros i j. apply Pr. }
    assert (Ia : In (id_at objs a ca) (nth a objs [])) by (apply nth_In; rewrite Row; assumption).
    assert (Ib : In (id_at objs b cb) (nth b objs [])) by (apply nth_In; rewrite Row; assumption).
    destruct (chain_visits w thr objs Serw Hw _ _ Ch Pa a b t Ia Ib (or_introl Lt)) as (z & Pz & Iz & Cz).
    assert (Tt : t < length data) by lia.
    apply (In_nth _ _ 0%Z) in Iz. destruct Iz as (c & C & Ez). rewrite Row in C by exact Tt.
    assert (X := Sa a ca t c). rewrite !Len, !Row in X by assumption. specialize (X Ta Ca Tt C Pa).
    unfold id_at in X at 1. rewrite Ez in X. specialize (X Pz).
    assert (K : id_at (v_field ev0) t c = k).
    { rewrite <- Ka. symmetry. apply X. unfold id_at at 2. rewrite Ez. eapply chained_mono; [|exact Cz]. cbv beta. intros i j. apply Pr. }
    rewrite <- K. apply nth_In. rewrite S2, Row by exact Tt. exact C. }
  split; [exact Mx|]. split; [exact Gap|]. split; [intros t i Tt I; apply Pres; [rewrite Len; exact Tt|exact I]|].
  split; [|split].
  - intros i I t. destruct (Times i I) as (A & Z0 & Bd). split; [apply Bd|]. intro Lt.
    apply (Gap _ (nth i (v_start ev0) 0) (nth i (v_end ev0) 0)); [lia|exact A|exact Z0|exact Lt].
  - intros t i Tt I. apply Ar; [rewrite Len; exact Tt|exact I].
  - intros t Tt. rewrite Tot by (rewrite Len; exact Tt). rewrite Lw. apply totalQ_ext. intros k K.
    destruct (Cell t k Tt K) as [_ C]. unfold on_at in C.
    destruct (Z.ltb_spec 0 (id_at objs t k)) as [P|P].
    + apply C in P. destruct P as (_ & -> & ->). reflexivity.
    + destruct (nth k mask false) eqn:E1; [|reflexivity]. destruct (nth k (nth t data []) false) eqn:E2; [|reflexivity].
      exfalso. assert (X : (0 < id_at objs t k)%Z) by (apply C; auto). lia.
Qed.

(** A division of the connected objects of a time step. *)
Definition parts_at (t : nat) (f : list Z) : Prop :=
  length f = length m /\ (forall k, k < length m -> ((0 < nth k f 0)%Z <-> on t k)) /\
  (forall j k, on t j -> on t k -> nth j f 0%Z = nth k f 0%Z -> mesh_chain m (on t) j k).

(** C158: the merges dataset.  Each row names a time step after the first; there
    are divisions of the connected objects of the step before and of that step such
    that the parents of the row are exactly the parts that share with the first
    child at least the threshold of the smaller one's area, each once, next to
    each is the area shared, and the rest of the row is -1 in both tables. *)
Theorem C158_merges_dataset (ev : events) (mg : merges) :
  mesh_input m mask w data -> set_order order ->
  track_mesh m mask w cent thr part order tc limit data = Ok (ev, mg) ->
  forall i, i < length (m_time mg) ->
  let t := nth i (m_time mg) 0 in
  let row := nth i (m_parents mg) [] in
  let areas := nth i (m_areas mg) [] in
  let n := Z.to_nat (nth i (m_n_parents mg) 0%Z) in
  1 <= t < length data /\ 2 <= n <= length row /\ length areas = length row /\
  NoDup (firstn n row) /\
  (forall j, n <= j < length row -> nth j row 0%Z = (-1)%Z /\ nth j areas 0%Q = (-1)%Q) /\
  exists before now, parts_at (t - 1) before /\ parts_at t now /\
    let c := nth 0 (nth i (m_children mg) []) 0%Z in
    (forall p, In p (firstn n row) <-> overlap_enough w thr before now p c) /\
    (forall j, j < n -> (nth j areas 0 == OverlapSpec.shared_area w before now (nth j row 0%Z) c)%Q).
Proof.
  intros Hin Ho T i I t row areas n. destruct (tracked ev mg Hin Ho T) as (Ne & st & E & _ & Em & _).
  destruct Hin as (Hm & Lm & Lw & Hw & Ld). subst mg.
  assert (Sl := lab_series m mask data Hm Lm Ld (some_object m mask w cent data Hm Lm Ld Ne)). rewrite <- Lw in Sl.
  assert (I' : i < length (pt_events st)) by (unfold merge_dataset in I; cbn [m_time] in I; rewrite map_length in I; exact I).
  set (e := nth i (pt_events st) (mkEvent 0 [] [] [])).
  assert (Ie : In e (pt_events st)) by (apply nth_In; exact I').
  assert (Tab : forall u x, (0 < x)%Z -> In x (nth u (mesh_objects m mask data) []) -> In x (map fst (initial_props w cent (mesh_objects m mask data)))).
  { intros u x P X. change (In x (prop_ids (initial_props w cent (mesh_objects m mask data)))). apply initial_ids. eauto. }
  assert (Sm := C80_recorded_merges_are_sound w thr nbs dist reach order tc limit _ _ _ st (or_intror eq_refl) Sl Tab Ho E e Ie).
  assert (R := C158_merges_are_overlaps w thr nbs dist reach order tc limit _ _ _ st Hw (or_intror eq_refl) Sl Tab Ho E e Ie).
  destruct Sm as (_ & (N2 & N10) & _ & La & _). destruct R as (Tm & Nd & _ & before & now & B & N & c & rest & Ec & Pc & Ar).
  destruct (C27_rows_padded_with_minus_one (pt_events st) i I') as (Et & Lr & Lc & Rp & Rc & Ra & Rn). fold e in Et, Lr, Lc, Rp, Rc, Ra, Rn.
  destruct (Ra La) as (Lq & Rq). clear Ra.
  assert (En : n = length (e_parents e)) by (unfold n; rewrite Rn by lia; apply Nat2Z.id).
  assert (W : length (e_parents e) <= max_len (map e_parents (pt_events st))) by (apply max_len_ge, in_map; exact Ie).
  assert (Wc : length (e_children e) <= max_len (map e_children (pt_events st))) by (apply max_len_ge, in_map; exact Ie).
  rewrite lab_length in Tm. fold row in Lr. fold areas in Lq. fold t in Et. rewrite <- Et in *.
  assert (Fr : firstn n row = e_parents e).
  { apply (nth_ext _ _ 0%Z 0%Z); [rewrite firstn_length; lia|]. intros j J. rewrite firstn_length in J.
    rewrite <- (firstn_skipn n row) in Rp at 1 || idtac.
    assert (Q0 := Rp j ltac:(lia)). fold row in Q0. destruct (Nat.ltb_spec j (length (e_parents e))) as [K|K]; [|lia].
    rewrite <- Q0. rewrite <- (firstn_skipn n row) at 2. rewrite app_nth1 by (rewrite firstn_length; lia). reflexivity. }
  split; [exact Tm|]. split; [lia|]. split; [lia|]. split; [rewrite Fr; exact Nd|]. split.
  { intros j J. fold row in Rp. fold areas in Rq. rewrite Rp, Rq by lia. destruct (Nat.ltb_spec j (length (e_parents e))); [lia|]. split; reflexivity. }
  assert (Parts : forall u f, u < length data -> finer (nth u (mesh_objects m mask data) []) f -> parts_at u f).
  { intros u f U (F1 & F2 & F3). rewrite lab_row in F1, F2, F3 by assumption. split; [exact F1|]. split.
    - intros k K. rewrite F2 by exact K. exact (proj2 (lab_cell m mask data Hm Lm Ld u k U K)).
    - intros j k J K X. apply (lab_same m mask data Hm Lm Ld u j k U J K). apply F3; [apply J|apply K|exact X]. }
  exists before, now. split; [apply Parts; [lia|exact B]|]. split; [apply Parts; [lia|exact N]|].
  assert (Ec0 : nth 0 (nth i (m_children (merge_dataset (pt_events st))) []) 0%Z = c).
  { rewrite Rc by (rewrite Ec in Wc; cbn in Wc; lia). rewrite Ec. reflexivity. }
  rewrite Ec0. cbv zeta. rewrite Fr. split; [exact Pc|]. intros j J. fold row in Rp. fold areas in Rq.
  rewrite Rp, Rq by lia. destruct (Nat.ltb_spec j (length (e_parents e))) as [K|K]; [|lia].
  clear - Ar K. revert j K. induction Ar as [|p a ps qs H Ar IH]; intros j K; cbn in K; [lia|].
  destruct j as [|j]; [exact H|]. apply IH. lia.
Qed.
Lemma start_single objs : mesh_input m mask w data -> object_labelling m mask data objs -> single_parents w thr objs ->
  initial_props w cent (mesh_objects m mask data) <> [] -> 0 < limit ->
  parallel_merge w thr part order tc limit (initial_props w cent (mesh_objects m mask data))
    (Some (mesh_objects m mask data)) (mesh_objects m mask data) =
  Ok (mkPState (mesh_objects m mask data) (Some (mesh_objects m mask data))
        (arr_max (prop_ids (initial_props w cent (mesh_objects m mask data))) + 1) []).
Proof.
  intros (Hm & Lm & Lw & Hw & Ld) Ho Sg Ne L.
  assert (Sl := lab_series m mask data Hm Lm Ld (some_object m mask w cent data Hm Lm Ld Ne)). rewrite <- Lw in Sl.
  assert (Sg' := single_transfer m mask data w thr objs _ Ho (lab_components m mask data Hm Lm Ld) Sg).
  unfold parallel_merge. rewrite (merging_none w thr cent _ Sl Hw Sg').
  destruct limit as [|n]; [lia|]. reflexivity.
Qed.
Lemma object_table : mesh_input m mask w data -> (exists t k, t < length data /\ on t k) ->
  initial_props w cent (mesh_objects m mask data) <> [].
Proof.
  intros (Hm & Lm & Lw & Hw & Ld) (t & k & T & O) E.
  destruct (lab_cell m mask data Hm Lm Ld t k T (proj1 O)) as [_ C]. apply C in O as P.
  assert (I : In (id_at (mesh_objects m mask data) t k) (prop_ids (initial_props w cent (mesh_objects m mask data)))).
  { apply initial_ids. split; [exact P|]. exists t. apply nth_In. rewrite lab_row by assumption. apply O. }
  rewrite E in I. destruct I.
Qed.

(** C106: if no connected object has two parents (objects of the time before that
    it overlaps by the threshold), tracking succeeds, records no merge, and the
    events are the chains of overlapping connected objects. *)
Theorem C106_unmerged_objects (objs : list (list Z)) :
  mesh_input m mask w data -> set_order order -> 0 < limit ->
  (exists t k, t < length data /\ on t k) ->
  object_labelling m mask data objs ->
  (forall p q c, consecutive_overlap w thr objs p c -> consecutive_overlap w thr objs q c -> p = q) ->
  exists ev mg, track_mesh m mask w cent thr part order tc limit data = Ok (ev, mg) /\ m_parents mg = [] /\
    forall t j u k, t < length data -> u < length data -> on t j -> on u k ->
      (id_at (v_field ev) t j = id_at (v_field ev) u k <->
       chained (consecutive_overlap w thr objs) (id_at objs t j) (id_at objs u k)).
Proof.
  intros Hin Ho L Ex Hob Sg. assert (Ne := object_table Hin Ex). assert (E := start_single objs Hin Hob Sg Ne L).
  set (st := mkPState _ _ _ _) in E.
  assert (Hin' := Hin). destruct Hin' as (Hm & Lm & Lw & Hw & Ld).
  assert (D : NoDup (prop_ids (final_props w cent (pt_fields st)))).
  { unfold final_props. rewrite props_ids. apply flat_unique_NoDup. exact (lab_once m mask data Hm Lm Ld). }
  destruct (mesh_clusters m mask w cent thr part (part_nn_valid nbs dist reach) order Ho tc limit data Hm Lm Lw Ld Hw st Ne E D)
    as (ev & ev0 & E1 & E0 & Sm).
  exists ev, (merge_dataset []).
  assert (T : track_mesh m mask w cent thr part order tc limit data = Ok (ev, merge_dataset [])).
  { unfold track_mesh. destruct (initial_props w cent (mesh_objects m mask data)) as [|p ps] eqn:Ep; [congruence|].
    rewrite <- Ep in *. rewrite E. exact E1. }
  split; [exact T|]. split; [reflexivity|].
  destruct (C103_mesh_events ev _ Hin Ho T) as (_ & _ & _ & _ & obj2 & Ser & Len & Cell & Wi & Un & Ch).
  assert (H2 : object_labelling m mask data obj2).
  { split; [exact Len|]. split; [intros t Tt; apply Ser, nth_In; lia|]. split; [|split; [|apply Ser]].
    - intros t k Tt K. split; [|apply Cell; assumption].
      apply (proj1 (proj2 Ser) (nth t obj2 [])); apply nth_In; [lia|]. rewrite (proj1 Ser); [exact K|apply nth_In; lia].
    - intros t j k Tt J K. split; [apply Wi; assumption|apply Un; [reflexivity|assumption..]]. }
  intros t j u k Tt U J K. rewrite (Ch t j u k Tt U J K). split; intro H.
  - exact (chain_transfer m mask data w thr obj2 objs H2 Hob _ _ H t j u k Tt U J K eq_refl eq_refl).
  - exact (chain_transfer m mask data w thr objs obj2 Hob H2 _ _ H t j u k Tt U J K eq_refl eq_refl).
Qed.

(** C105: how tracking can fail.  Clustering never fails; without an extreme ocean
    cell there is nothing to track; any other failure (in the merging loop, or
    objects of different times ending up with the same ID) needs an object with
    two parents. *)
Theorem C105_failures_partial (e : mesh_err) :
  mesh_input m mask w data -> set_order order -> 0 < limit ->
  track_mesh m mask w cent thr part order tc limit data = Err e ->
  (e = NoObjects /\ forall t k, t < length data -> ~ on t k) \/
  ((exists t k, t < length data /\ on t k) /\ (e = DuplicateIDs \/ exists pe, e = MergeFails pe) /\
   forall objs, object_labelling m mask data objs ->
     ~ (forall p q c, consecutive_overlap w thr objs p c -> consecutive_overlap w thr objs q c -> p = q)).
Proof.
  intros Hin Ho L T. assert (T' := T). unfold track_mesh in T'.
  destruct (initial_props w cent (mesh_objects m mask data)) as [|p ps] eqn:Ep.
  - injection T' as <-. left. split; [reflexivity|]. intros t k Tt O. apply (object_table Hin); [eauto|exact Ep].
  - right. rewrite <- Ep in T'. assert (Ne : initial_props w cent (mesh_objects m mask data) <> []) by (rewrite Ep; discriminate).
    assert (Hin' := Hin). destruct Hin' as (Hm & Lm & Lw & Hw & Ld).
    assert (Ex : exists t k, t < length data /\ on t k) by exact (some_object m mask w cent data Hm Lm Ld Ne).
    split; [exact Ex|]. split.
    + destruct (parallel_merge w thr part order tc limit (initial_props w cent (mesh_objects m mask data))
               (Some (mesh_objects m mask data)) (mesh_objects m mask data)) as [st|pe] eqn:E; [|injection T' as <-; right; eauto].
      left. destruct (distinctZ (prop_ids (final_props w cent (pt_fields st)))) eqn:D.
      * apply distinctZ_spec in D.
        destruct (mesh_clusters m mask w cent thr part (part_nn_valid nbs dist reach) order Ho tc limit data Hm Lm Lw Ld Hw st Ne E D)
          as (ev & ev0 & E1 & _). rewrite E1 in T'. discriminate.
      * unfold mesh_events in T'. rewrite D in T'. injection T' as <-. reflexivity.
    + intros objs Hob Sg. destruct (C106_unmerged_objects objs Hin Ho L Ex Hob Sg) as (ev & mg & E & _). rewrite E in T. discriminate.
Qed.

(** C107, what does not hold: whenever some object has two parents and the time
    steps split into blocks of [tc] leave a block of one step, tracking fails. *)
Theorem C107_one_step_block_refuted (objs : list (list Z)) (p q c : Z) :
  mesh_input m mask w data -> object_labelling m mask data objs ->
  p <> q -> consecutive_overlap w thr objs p c -> consecutive_overlap w thr objs q c ->
  length data mod tc = 1 \/ tc = 1 ->
  forall r, track_mesh m mask w cent thr part order tc limit data <> Ok r.
Proof.
  intros (Hm & Lm & Lw & Hw & Ld) Hob N P Q0 Ob r T. unfold track_mesh in T.
  destruct (initial_props w cent (mesh_objects m mask data)) as [|p0 ps] eqn:Ep; [discriminate|]. rewrite <- Ep in T.
  assert (Ne : initial_props w cent (mesh_objects m mask data) <> []) by (rewrite Ep; discriminate).
  assert (Sl := lab_series m mask data Hm Lm Ld (some_object m mask w cent data Hm Lm Ld Ne)). rewrite <- Lw in Sl.
  assert (Hl := lab_components m mask data Hm Lm Ld).
  destruct (overlap_cells m mask data objs _ Hob Hl w thr p c P) as (t & j & k & Tt & J & K & Ej & Ek & H).
  destruct (overlap_cells m mask data objs _ Hob Hl w thr q c Q0) as (t' & j' & k' & Tt' & J' & K' & Ej' & Ek' & H').
  assert (Ec : id_at (mesh_objects m mask data) (S t) k = id_at (mesh_objects m mask data) (S t') k').
  { apply (same_place m mask data objs _ Hob Hl); try assumption. congruence. }
  rewrite <- Ec in H'.
  assert (Nq : id_at (mesh_objects m mask data) t j <> id_at (mesh_objects m mask data) t' j').
  { intro X. apply N. rewrite Ej, Ej'. assert (t < length data) by lia. assert (t' < length data) by lia.
    apply (same_place m mask data _ objs Hl Hob); assumption. }
  assert (I := merging_some w thr cent _ _ _ _ Sl Hw Nq H H').
  destruct (parallel_merge w thr part order tc limit (initial_props w cent (mesh_objects m mask data))
               (Some (mesh_objects m mask data)) (mesh_objects m mask data)) as [st|pe] eqn:E; [|discriminate].
  unfold parallel_merge in E. apply bind_ok in E. destruct E as (r1 & E & E').
  destruct (merging_children _) as [|x l] eqn:Em; [destruct I|]. destruct limit as [|n].
  - cbn [merge_loop] in E. injection E as <-. discriminate.
  - cbn [merge_loop] in E. apply bind_ok in E. destruct E as (r2 & E & _). revert E. apply one_step_fails. cbn [pt_fields].
    rewrite lab_length. unfold one_step_block. destruct Ob as [Ob|Ob]; [left; exact Ob|right]. split; [exact Ob|lia].
Qed.

(** C107, what holds: with blocks of two steps or more, that failure never occurs. *)
Theorem C107_longer_blocks_partial :
  mesh_input m mask w data -> set_order order -> 2 <= tc -> length data mod tc <> 1 ->
  track_mesh m mask w cent thr part order tc limit data <> Err (MergeFails OneStepBlock).
Proof.
  intros (Hm & Lm & Lw & Hw & Ld) Ho Tc N T. unfold track_mesh in T.
  destruct (initial_props w cent (mesh_objects m mask data)) as [|p0 ps] eqn:Ep; [discriminate|]. rewrite <- Ep in T.
  assert (Ne : initial_props w cent (mesh_objects m mask data) <> []) by (rewrite Ep; discriminate).
  destruct (parallel_merge w thr part order tc limit (initial_props w cent (mesh_objects m mask data))
               (Some (mesh_objects m mask data)) (mesh_objects m mask data)) as [st|pe] eqn:E.
  - unfold mesh_events in T. destruct (distinctZ _); [|discriminate]. destruct (cluster_rename _ _ _ _); discriminate.
  - injection T as ->. unfold parallel_merge in E. apply bind_err in E. destruct E as [E|(r & _ & E)].
    + revert E. apply (loop_multi w thr part (part_nn_valid nbs dist reach)); [| |exact Ho| | |].
      * intros prev mk pa ids X. unfold part, part_nn_mesh in X. destruct (forallb _ _); discriminate.
      * lia.
      * exact (start_good m mask w cent thr order Ho data Hm Lm Lw Ld Hw Ne).
      * intros c I. exact (queue_positive m mask w cent thr data Hm Lm Lw Ld Hw Ne c I).
      * cbn [pt_fields]. rewrite lab_length. intros [X|[X _]]; [exact (N X)|lia].
    + destruct (Nat.eqb _ _); discriminate.
Qed.
End Mesh.
Print Assumptions C103_mesh_events.
Print Assumptions C104_mesh_event_properties.
Print Assumptions C158_merges_dataset.
Print Assumptions C106_unmerged_objects.
Print Assumptions C105_failures_partial.
Print Assumptions C107_one_step_block_refuted.
Print Assumptions C107_longer_blocks_partial.

(** ** C108: a whole run on a mesh *)

Definition setup_ok (h : mesh_setup) (data : field) : Prop :=
  mesh_input (h_nbs h) (h_mask h) (h_area h) data.

Lemma filled_length h data s : setup_ok h data ->
  fill_time_gaps_mesh h (map (fill_holes_mesh (h_nbs h) (h_R h) (h_mask h)) data) = Some s ->
  length s = length data /\ forall d, In d s -> length d = length (h_nbs h).
Proof.
  intros (Hm & Lm & _ & _ & Ld). unfold fill_time_gaps_mesh.
  assert (L0 : forall d, In d (map (fill_holes_mesh (h_nbs h) (h_R h) (h_mask h)) data) -> length d = length (h_nbs h)).
  { intros d I. apply in_map_iff in I. destruct I as (v & <- & V). apply fill_mesh_length; [exact Lm|exact (Ld v V)]. }
  destruct (Z.eqb (h_T h) 0); [intro E; injection E as <-; split; [apply map_length|exact L0]|].
  destruct (Z.ltb (h_T h + 1) 0); [discriminate|]. intro E. injection E as <-. split; [rewrite !map_length, seq_length; reflexivity|].
  intros d I. apply in_map_iff in I. destruct I as (t & <- & _). apply fill_mesh_length; [exact Lm|].
  rewrite map_length, seq_length. reflexivity.
Qed.
Lemma kept_length m mask r datas f : mesh_inputs_ok m mask datas -> filter_small_mesh r m mask datas = Ok f ->
  forall d, In d (f_keep f) -> length d = length m.
Proof.
  intros (Hm & Lm & Ld). unfold filter_small_mesh, filter_mesh.
  set (fields := map (identify_mesh m mask) datas). destruct (filter _ _) as [|p0 pre]; [discriminate|]. intro E. injection E as <-. cbn [f_keep].
  intros d I. apply in_map_iff in I. destruct I as ((tb, ids) & <- & I). apply in_combine_r in I. unfold keep_mesh. rewrite map_length.
  unfold fields in I. apply in_map_iff in I. destruct I as (v & <- & V). cbn [snd].
  exact (proj1 (identify_mesh_spec m mask v Hm Lm (Ld v V))).
Qed.

(** Whatever the data and the checkpointing, when a run on a mesh returns: a cell
    has an event ID exactly when, after filling, it is an ocean cell of a connected
    object with more cells than the reported threshold; the IDs are 1 ...
    N_events_final; an event has no gaps in time; and the merges are returned: if
    there are none, connected cells of a time step that are in events are in one
    event. *)
Theorem C108_run_on_a_mesh (h : mesh_setup) (cent : list bool -> Q * Q) (thr : Q) (nbs : list (list Z)) (dist : nat -> nat -> Q)
    (reach : list Z -> nat) (set_iter : list Z -> list Z) (tc limit : nat)
    (erase order : list nat) (arg : option string) (tr : tracker) (dk : files) (data s : field)
    (F : list (list Z)) (n : Z) (mg : option merges) (st : stats) :
  setup_ok h data -> set_order set_iter ->
  t_data tr = Some data -> t_scratch tr = true -> loads (effective arg tr) = false ->
  (saves (effective arg tr) = true -> writes_all order (length data)) ->
  fill_time_gaps_mesh h (map (fill_holes_mesh (h_nbs h) (h_R h) (h_mask h)) data) = Some s ->
  snd (run (clean_mesh h) (area_mesh h) _ (track_on_mesh h cent thr (part_nn_mesh nbs dist reach) set_iter tc limit) erase order arg tr dk)
    = Ok ((F, n, mg), st) ->
  (length F = length data /\ forall t, t < length data -> length (nth t F []) = length (h_nbs h)) /\
  (forall t k, t < length data -> k < length (h_nbs h) ->
     (id_at F t k <> 0%Z <->
      ocean_extreme (h_nbs h) (h_mask h) (nth t s []) k /\
      exists l, mesh_object (h_nbs h) (h_mask h) (nth t s []) k l /\ (s_threshold st < nat_Q (length l))%Q)) /\
  (forall k, (1 <= k <= n)%Z <-> k <> 0%Z /\ exists t, present_at F t k) /\
  (forall k a b t, (0 < k)%Z -> present_at F a k -> present_at F b k -> a <= t <= b -> present_at F t k) /\
  exists ms, mg = Some ms /\
    (m_parents ms = [] -> forall t j k, t < length data -> j < length (h_nbs h) -> k < length (h_nbs h) ->
       id_at F t j <> 0%Z -> id_at F t k <> 0%Z ->
       mesh_chain (h_nbs h) (fun i => i < length (h_nbs h) /\ id_at F t i <> 0%Z) j k -> id_at F t j = id_at F t k).
Proof.
  intros Hs Ho Dt Sc Lo W Fl. destruct (filled_length h data s Hs Fl) as [Ls Rs].
  assert (Hi : mesh_inputs_ok (h_nbs h) (h_mask h) s) by (destruct Hs as (A & B & _); split; [exact A|split; [exact B|exact Rs]]).
  destruct (filter_small_mesh (h_rule h) (h_nbs h) (h_mask h) s) as [f|e] eqn:Ef.
  2: { assert (Cl : clean_mesh h data = Err NothingToFilter) by (unfold clean_mesh; rewrite Fl, Ef; reflexivity).
       unfold run, run_preprocess. rewrite Lo, Dt, Cl. discriminate. }
  assert (Cl : clean_mesh h data = Ok f) by (unfold clean_mesh; rewrite Fl, Ef; reflexivity).
  destruct (C18_mesh_keeps_objects_above_threshold _ _ _ _ _ Hi Ef) as [Lk Kp]. rewrite Ls in Lk.
  assert (Rk := kept_length _ _ _ _ _ Hi Ef).
  intro R.
  assert (K : exists s0, stats_of (area_mesh h) data f (f_keep f) = Ok s0 /\
     bind (track_on_mesh h cent thr (part_nn_mesh nbs dist reach) set_iter tc limit (f_keep f)) (fun o => Ok (o, s0)) = Ok ((F, n, mg), st)).
  { unfold run in R. destruct (saves (effective arg tr)) eqn:Sv.
    - rewrite (saved_run (clean_mesh h) (area_mesh h) erase order arg tr dk data f Dt Sc Lo Sv Cl) in R by (rewrite Lk; apply W; reflexivity).
      destruct (stats_of (area_mesh h) data f (f_keep f)) as [s0|e]; [|discriminate]. exists s0. split; [reflexivity|exact R].
    - unfold run_preprocess in R. rewrite Lo, Dt, Cl, Sv in R.
      destruct (stats_of (area_mesh h) data f (f_keep f)) as [s0|e]; [|discriminate]. exists s0. split; [reflexivity|exact R]. }
  destruct K as (s0 & St & T). unfold track_on_mesh in T.
  destruct (track_mesh _ _ _ _ _ _ _ _ _ _) as [[ev mg0]|e] eqn:Tm; [|discriminate].
  cbn [bind] in T. injection T as <- <- <- <-.
  assert (Hin : mesh_input (h_nbs h) (h_mask h) (h_area h) (f_keep f)).
  { destruct Hs as (A & B & C & D & _). split; [exact A|]. split; [exact B|]. split; [exact C|]. split; [exact D|exact Rk]. }
  destruct (C103_mesh_events _ _ _ _ _ _ _ _ _ _ _ _ ev mg0 Hin Ho Tm) as (E1 & E2 & E3 & E4 & objs & _ & _ & _ & _ & Un & Ch).
  destruct (C104_mesh_event_properties _ _ _ _ _ _ _ _ _ _ _ _ ev mg0 Hin Ho Tm) as (_ & Gap & _).
  rewrite Lk in E1, E2, E3, Un, Ch. split; [split; [exact E1|exact E2]|]. split; [|split; [|split; [exact Gap|]]].
  2: { intro k. rewrite E4. split; [intros (t & K & P); split; [lia|exists t; exact P]|]. intros (K & t & P). exists t. split; [|exact P].
       unfold present_at in P. assert (Tt : t < length data) by (destruct (Nat.lt_ge_cases t (length data)) as [H|H]; [exact H|]; rewrite nth_overflow in P by lia; destruct P).
       destruct (In_nth _ _ 0%Z P) as (c & C & I). rewrite E2 in C by exact Tt. destruct (E3 t c Tt C) as [Pos Zer]. unfold id_at in Pos, Zer. rewrite I in Pos, Zer.
       destruct (nth c (h_mask h) false) eqn:M; [destruct (nth c (nth t (f_keep f) []) false) eqn:V|].
       - apply Pos. split; [exact C|]. split; assumption.
       - exfalso. apply K, Zer. intros (_ & _ & V'). congruence.
       - exfalso. apply K, Zer. intros (_ & M' & _). congruence. }
  2: { exists mg0. split; [reflexivity|]. intros Nm t j k Tt J K Ij Ik Cn.
       assert (On : forall i, i < length (h_nbs h) -> id_at (v_field ev) t i <> 0%Z -> extreme_ocean (h_nbs h) (h_mask h) (f_keep f) t i).
       { intros i I N. destruct (E3 t i Tt I) as [_ Z0]. destruct (nth i (h_mask h) false) eqn:M; [destruct (nth i (nth t (f_keep f) []) false) eqn:V|].
         - split; [exact I|]. split; assumption.
         - exfalso. apply N, Z0. intros (_ & _ & V'). congruence.
         - exfalso. apply N, Z0. intros (_ & M' & _). congruence. }
       assert (Oj := On j J Ij). assert (Ok' := On k K Ik).
       apply (Ch t j t k Tt Tt Oj Ok'). rewrite (Un Nm t j k Tt Oj Ok'); [constructor|].
       clear - Cn On. induction Cn as [i|i j k [L N] A Lj C IH]; [constructor|]. apply (mchain_step _ _ i j k); [apply On; assumption|exact A|exact Lj|exact IH]. }
  assert (Th : s_threshold s0 = f_threshold f).
  { unfold stats_of in St. destruct (Nat.eqb _ _); [discriminate|]. destruct (Qeq_bool _ _); [discriminate|]. injection St as <-. reflexivity. }
  rewrite Th. intros t k Tt K. rewrite <- Ls in Tt. rewrite <- (Kp t k Tt). rewrite Ls in Tt. destruct (E3 t k Tt K) as [P Q0].
  assert (D : extreme_ocean (h_nbs h) (h_mask h) (f_keep f) t k \/ ~ extreme_ocean (h_nbs h) (h_mask h) (f_keep f) t k).
  { unfold extreme_ocean. destruct (nth k (h_mask h) false), (nth k (nth t (f_keep f) []) false); intuition congruence. }
  unfold mesh_kept. split; intro X.
  - destruct D as [D|D]; [apply D|]. apply Q0 in D. congruence.
  - assert (D' : extreme_ocean (h_nbs h) (h_mask h) (f_keep f) t k).
    { split; [exact K|]. split; [|exact X]. rewrite <- Ls in Tt. apply (Kp t k Tt) in X. apply X. }
    apply P in D'. lia.
Qed.
Print Assumptions C108_run_on_a_mesh.

(** ** Cases *)

(** Nine cells in a row; four objects that grow together in pairs and another that
    joins them. *)
Definition row_mesh (n : nat) : mesh :=
  map (fun k => [Z.of_nat k - 1; if Nat.eqb (S k) n then -1 else Z.of_nat (S k); -1])%Z (seq 0 n).
Definition track_row (n tc : nat) (data : list (list bool)) : result mesh_err (events * merges) :=
  track_mesh (row_mesh n) (repeat true n) (repeat 1%Q n) no_centroid (1#2)
    (part_nn_mesh (line_nbs n) (fun _ _ => 1%Q) (fun _ => 40)) as_given tc 10 data.
Definition row_days (l : list (list nat)) : list (list bool) := map (map (Nat.eqb 1)) l.
Definition joining := row_days
  [[1;0;1;0;1;0;1;0;0]; [1;1;1;1;1;1;1;0;1]; [0;0;0;0;0;0;1;1;1]; [0;0;0;0;0;0;0;0;0]].

Lemma row_input n data : mesh_okb (row_mesh n) = true -> forallb (fun d => Nat.eqb (length d) n) data = true ->
  mesh_input (row_mesh n) (repeat true n) (repeat 1%Q n) data.
Proof.
  intros M D. assert (Ln : length (row_mesh n) = n) by (unfold row_mesh; rewrite map_length, seq_length; reflexivity).
  split; [apply mesh_okb_ok, M|]. rewrite Ln. split; [apply repeat_length|]. split; [apply repeat_length|].
  split; [intros q I; apply repeat_spec in I; subst; reflexivity|]. intros d I. rewrite forallb_forall in D. apply Nat.eqb_eq, D, I.
Qed.
Lemma as_given_order : set_order as_given.
Proof. intros l x I. exact I. Qed.
Lemma row_objects n data : mesh_okb (row_mesh n) = true -> forallb (fun d => Nat.eqb (length d) n) data = true ->
  object_labelling (row_mesh n) (repeat true n) data (mesh_objects (row_mesh n) (repeat true n) data).
Proof.
  intros M D. destruct (row_input n data M D) as (H1 & H2 & _ & _ & H3). exact (lab_components _ _ _ H1 H2 H3).
Qed.

Example C103_case :
  match track_row 9 2 joining with
  | Ok (ev, mg) =>
    v_field ev = [[1;0;2;0;3;0;4;0;0]; [1;1;2;2;3;3;4;0;5]; [0;0;0;0;0;0;4;5;5]; [0;0;0;0;0;0;0;0;0]]%Z /\ n_events ev = 5%Z /\
    v_start ev = [0;0;0;0;1] /\ v_end ev = [1;1;1;2;2] /\ length (m_parents mg) = 2
  | Err _ => False
  end.
Proof. vm_compute. auto. Qed.
Example C103_met : mesh_input (row_mesh 9) (repeat true 9) (repeat 1%Q 9) joining /\ set_order as_given.
Proof. split; [apply row_input; reflexivity|exact as_given_order]. Qed.

Example C104_case :
  match track_row 9 2 joining with
  | Ok (ev, _) =>
    map (map (option_map Qred)) (v_area ev) =
      [[Some 1; Some 1; Some 1; Some 1; None]; [Some 2; Some 2; Some 2; Some 1; Some 1];
       [None; None; None; Some 1; Some 2]; [None; None; None; None; None]]%Q /\
    v_presence ev = [[true;true;true;true;false]; [true;true;true;true;true]; [false;false;false;true;true]; [false;false;false;false;false]]
  | Err _ => False
  end.
Proof. vm_compute. auto. Qed.

(** C105, what does not hold: the same objects, but the third day reaches two cells
    further: new IDs given on different days coincide and tracking fails. *)
Definition colliding := row_days
  [[1;0;1;0;1;0;1;0;0]; [1;1;1;1;1;1;1;0;1]; [0;0;0;0;0;1;1;1;1]; [0;0;0;0;0;0;0;0;0]].
Theorem C105_tracking_succeeds_refuted :
  mesh_input (row_mesh 9) (repeat true 9) (repeat 1%Q 9) colliding /\ set_order as_given /\
  extreme_ocean (row_mesh 9) (repeat true 9) colliding 0 0 /\ track_row 9 2 colliding = Err DuplicateIDs.
Proof.
  split; [apply row_input; reflexivity|]. split; [exact as_given_order|]. split; [vm_compute; auto with arith|]. vm_compute. reflexivity.
Qed.
Print Assumptions C105_tracking_succeeds_refuted.
Example C105_case : track_row 6 2 (row_days [[0;0;0;0;0;0]; [0;0;0;0;0;0]]) = Err NoObjects.
Proof. vm_compute. reflexivity. Qed.

(** Two objects that move without meeting. *)
Definition apart := row_days [[1;1;0;0;0;1]; [0;1;1;0;0;1]; [0;0;1;0;1;1]].
Definition apart_objects : list (list Z) := [[1;1;0;0;0;2]; [0;3;3;0;0;4]; [0;0;5;0;6;6]]%Z.
Example C106_case :
  object_labelling (row_mesh 6) (repeat true 6) apart apart_objects /\
  (forall p q c, consecutive_overlap (repeat 1%Q 6) (1#2) apart_objects p c ->
                 consecutive_overlap (repeat 1%Q 6) (1#2) apart_objects q c -> p = q) /\
  (exists t k, t < length apart /\ extreme_ocean (row_mesh 6) (repeat true 6) apart t k) /\
  match track_row 6 3 apart with
  | Ok (ev, mg) => v_field ev = [[1;1;0;0;0;2]; [0;1;1;0;0;2]; [0;0;1;0;2;2]]%Z
  | Err _ => False
  end.
Proof.
  assert (E : apart_objects = mesh_objects (row_mesh 6) (repeat true 6) apart) by (vm_compute; reflexivity).
  split; [rewrite E; apply row_objects; reflexivity|]. split; [|split; [|vm_compute; reflexivity]].
  - intros p q c P Q0. destruct (Z.eq_dec p q) as [H|H]; [exact H|exfalso].
    assert (Sl : labelled_series (length (repeat 1%Q 6)) apart_objects).
    { rewrite E. destruct (row_input 6 apart) as (H1 & H2 & _ & _ & H3); [reflexivity..|].
      apply (lab_series _ _ _ H1 H2 H3). exists 0, 0. vm_compute. auto 10 with arith. }
    assert (Hw : forall x, In x (repeat 1%Q 6) -> (0 < x)%Q) by (intros x I; apply repeat_spec in I; subst; reflexivity).
    assert (X := merging_some _ _ no_centroid _ _ _ _ Sl Hw H P Q0). vm_compute in X. exact X.
  - exists 0, 0. vm_compute. auto 10 with arith.
Qed.

(** Three days in blocks of two: two objects merge, tracking fails.  In blocks of
    three it does not. *)
Definition merging := row_days [[1;0;1;0;0;0]; [1;1;1;0;0;1]; [1;0;0;0;0;1]].
Definition merging_objects : list (list Z) := [[1;0;2;0;0;0]; [3;3;3;0;0;4]; [5;0;0;0;0;6]]%Z.
Example C107_case :
  object_labelling (row_mesh 6) (repeat true 6) merging merging_objects /\
  consecutive_overlap (repeat 1%Q 6) (1#2) merging_objects 1 3 /\ consecutive_overlap (repeat 1%Q 6) (1#2) merging_objects 2 3 /\
  length merging mod 2 = 1 /\ track_row 6 2 merging = Err (MergeFails OneStepBlock) /\
  match track_row 6 3 merging with Ok (ev, _) => v_field ev = [[1;0;2;0;0;0]; [1;1;2;0;0;3]; [1;0;0;0;0;3]]%Z | Err _ => False end.
Proof.
  split.
  { assert (E : merging_objects = mesh_objects (row_mesh 6) (repeat true 6) merging) by (vm_compute; reflexivity).
    rewrite E. apply row_objects; reflexivity. }
  split; [exists 0; split; [vm_compute; auto with arith|]; split; [reflexivity|]; split; [reflexivity|]; split;
    [exists 0; vm_compute; auto 10 with arith|left; split; vm_compute; discriminate]|].
  split; [exists 0; split; [vm_compute; auto with arith|]; split; [reflexivity|]; split; [reflexivity|]; split;
    [exists 2; vm_compute; auto 10 with arith|left; split; vm_compute; discriminate]|].
  split; [reflexivity|]. split; [vm_compute; reflexivity|]. vm_compute. reflexivity.
Qed.
(** The merge of the second day: objects 1 and 2 share one cell each with object 3. *)
Example C158_mesh_case : mesh_input (row_mesh 6) (repeat true 6) (repeat 1%Q 6) merging /\
  match track_row 6 3 merging with
  | Ok (_, mg) => m_time mg = [1] /\ m_parents mg = [[1; 2]]%Z /\ m_n_parents mg = [2]%Z /\ m_children mg = [[3; 7]]%Z /\ m_areas mg = [[1; 1]]%Q
  | Err _ => False end.
Proof.
  split; [|vm_compute; tauto]. destruct (row_input 6 merging) as (A & A2 & B & C & D); [vm_compute; reflexivity..|].
  split; [exact A|]. split; [reflexivity|]. split; [exact B|]. split; [exact C|exact D].
Qed.

(** Sixteen cells in a row, one of them land: an object of seven cells lasts, one
    of six cells is too small. *)
Definition setup16 : mesh_setup :=
  mkMesh (row_mesh 16) (map (fun k => negb (Nat.eqb k 15)) (seq 0 16)) 0 0%Z (ByAbsolute 6) (repeat 1%Q 16).
Definition two_days := row_days [[1;1;1;1;1;1;1;0;0;1;1;1;1;1;1;0]; [0;1;1;1;1;1;1;1;1;0;0;0;0;0;1;1]].
Example C108_case :
  setup_ok setup16 two_days /\
  snd (run (clean_mesh setup16) (area_mesh setup16) _
         (track_on_mesh setup16 no_centroid (1#2) (part_nn_mesh (line_nbs 16) (fun _ _ => 1%Q) (fun _ => 40)) as_given 2 10)
         [] [0; 1] (Some "save"%string) (mkTracker (Some two_days) None true) (mkFiles None NoNpz)) =
  Ok (([[1;1;1;1;1;1;1;0;0;0;0;0;0;0;0;0]; [0;1;1;1;1;1;1;1;1;0;0;0;0;0;0;0]]%Z, 1%Z,
       Some (mkMerges [] [] [] [] [] [])), mkStats 22 3 2 6 (15#22) (23#15)).
Proof.
  split; [|vm_compute; reflexivity]. destruct (row_input 16 two_days) as (A & _ & B & C & D); [vm_compute; reflexivity..|].
  split; [exact A|]. split; [reflexivity|]. split; [exact B|]. split; [exact C|exact D].
Qed.
