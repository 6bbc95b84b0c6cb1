(** Property theorems C182: the mask matters only near extremes. *)
From Verif Require Import Base Morph MorphSpec MorphMeshProofs NearProps Label Filter FilterSpec FilterProps Overlap Merge MergeWitness Partition Cluster MeshPart Parallel ParallelProps Run MeshRun MeshRunProps RelateSpec MeshMoveSpec MeshMoveProps MaskSpec MaskProofs.
Open Scope nat_scope.

(** ** C182 *)

(** Two masks that agree near the extremes of a record: the same run, with the same
    failures, whatever the masks say elsewhere. *)
Theorem C182_grid_masks (g : grid) (k : tracking) (mask' : list bool) (data : field) :
  length data = g_nt g -> 0 < g_ny g -> 0 < g_nx g -> (0 <= g_R g)%Z -> (0 <= g_T g)%Z -> Z.even (g_T g) = true ->
  masks_agree g mask' data -> fresh_run (with_mask g mask') k data = fresh_run g k data.
Proof.
  intros L Ny Nx HR HT Ev Ag. unfold fresh_run.
  assert (E : clean_grid (with_mask g mask') data = clean_grid g data).
  { unfold clean_grid. rewrite (fill_grid_mask g mask' data L Ny Nx HR HT Ev Ag). reflexivity. }
  unfold run, run_preprocess. cbn [effective t_checkpoint t_data t_scratch loads saves]. rewrite E. reflexivity.
Qed.
Print Assumptions C182_grid_masks.

(** On a mesh: with T_fill = 0, or where both masks have ocean within R_fill hops of
    every cell. *)
Theorem C182_mesh_masks_partial (h : mesh_setup) (y : mesh_tracking) (mask' : list bool) (data : field) :
  let m := h_nbs h in
  mesh_ok m -> mesh_sym m -> length (h_mask h) = length m -> length mask' = length m -> (forall d, In d data -> length d = length m) ->
  (0 <= h_T h)%Z -> Z.even (h_T h) = true ->
  (h_T h = 0%Z /\ masks_agree_within (4 * h_R h) h mask' data) \/
  (masks_agree_within (6 * h_R h) h mask' data /\ ocean_within (h_R h) m (h_mask h) /\ ocean_within (h_R h) m mask') ->
  fresh_mesh_run (with_ocean h mask') y data = fresh_mesh_run h y data.
Proof.
  intros m OK Sy Lm Lm' Ld HT Ev Ag. assert (E := clean_mesh_mask h mask' data OK Sy Lm Lm' Ld HT Ev Ag).
  unfold fresh_mesh_run, run, run_preprocess. cbn [effective t_checkpoint t_data t_scratch loads saves]. rewrite E.
  destruct (clean_mesh h data) as [f|e] eqn:C; [|reflexivity]. cbn [snd].
  assert (Es : stats_of (area_mesh (with_ocean h mask')) data f (f_keep f) = stats_of (area_mesh h) data f (f_keep f)) by reflexivity. rewrite Es.
  destruct (stats_of (area_mesh h) data f (f_keep f)) as [st|e]; [|reflexivity]. cbn [bind fst snd].
  assert (Et : forall cent thr part order tc lim, track_on_mesh (with_ocean h mask') cent thr part order tc lim (f_keep f) = track_on_mesh h cent thr part order tc lim (f_keep f)).
  { intros. unfold track_on_mesh, track_mesh, mesh_objects. cbn [with_ocean h_nbs h_mask h_area].
    replace (map (identify_mesh (h_nbs h) mask') (f_keep f)) with (map (identify_mesh (h_nbs h) (h_mask h)) (f_keep f)); [reflexivity|].
    apply map_ext_in. intros d D. assert (Lk := kept_shape h mask' data OK Sy Lm Lm' Ld HT Ev Ag f C d D). apply identify_same; auto. intros i I. unfold ocean_marks.
    destruct (atb d i) eqn:A; [|rewrite !andb_false_r; reflexivity]. destruct (In_nth _ _ [] D) as (t & T & <-).
    destruct (kept_ocean h mask' data OK Sy Lm Lm' Ld HT Ev Ag f t i C A) as [-> ->]. reflexivity. }
  rewrite Et. reflexivity.
Qed.
Print Assumptions C182_mesh_masks_partial.

(** Six ocean cells in a row, all extreme at both steps, on a mesh that also has the
    channel of C143, which no path joins to them.  In [dry] the cells behind the
    channel are land; in [wet] they are ocean. *)
Definition two_seas : mesh :=
  channel_mesh ++ [[25; -1; -1]; [24; 26; -1]; [25; 27; -1]; [26; 28; -1]; [27; 29; -1]; [28; -1; -1]]%Z.
Definition dry : mesh_setup := mkMesh two_seas (h_mask channel ++ repeat true 6) 2 2 (ByAbsolute 5) (repeat 1%Q 30).
Definition wet : list bool := repeat true 30.
Definition warm : field := repeat (repeat false 24 ++ repeat true 6) 2.
Definition tables30 : mesh_tracking := mkMeshTracking no_centroid (1#2) two_seas (fun _ _ => 1%Q) (fun _ => 40) as_given 3 10.
Lemma two_seas_ok : mesh_ok two_seas.
Proof. intros i j H. do 30 (destruct i as [|i]; [cbn in H; cbn; lia|]). unfold Morph.row in H. rewrite nth_overflow in H by (cbn; lia). destruct H. Qed.
Lemma two_seas_sym : mesh_sym two_seas.
Proof.
  intros i j H. unfold adj, Morph.row in *.
  do 30 (destruct i as [|i]; [cbn in H; repeat (destruct H as [H|H]; [try lia; assert (J : j = Z.to_nat (Z.of_nat j)) by lia; rewrite <- H in J; rewrite J; vm_compute; tauto|]); destruct H|]).
  rewrite nth_overflow in H by (cbn; lia). destruct H.
Qed.
Lemma two_seas_apart n l c : within two_seas n l c -> 24 <= l -> 24 <= c.
Proof.
  intro W. induction W as [n i|n i j k A W IH]; [auto|]. intro L. apply IH. unfold adj, Morph.row in A.
  do 24 (destruct i as [|i]; [lia|]). do 6 (destruct i as [|i]; [cbn in A; lia|]). rewrite nth_overflow in A by (cbn; lia). destruct A.
Qed.
Lemma warm_at t l : atb (nth t warm []) l = true -> 24 <= l.
Proof.
  intro H. assert (E : nth t warm [] = repeat false 24 ++ repeat true 6 \/ nth t warm [] = []) by (do 2 (destruct t as [|t]; [left; reflexivity|]); right; destruct t; reflexivity).
  destruct E as [E|E]; rewrite E in H; [|destruct l; discriminate]. do 24 (destruct l as [|l]; [discriminate|]). lia.
Qed.

(** In general not: masks that agree on every cell that any path joins to an extreme
    give two events or one. *)
Theorem C182_mesh_masks_refuted :
  exists (h : mesh_setup) (y : mesh_tracking) (mask' : list bool) (data : field) F mg st F' mg' st',
    mesh_ok (h_nbs h) /\ mesh_sym (h_nbs h) /\ length (h_mask h) = length (h_nbs h) /\ length mask' = length (h_nbs h) /\
    (forall d, In d data -> length d = length (h_nbs h)) /\ (0 < h_T h)%Z /\ Z.even (h_T h) = true /\
    (forall n, masks_agree_within n h mask' data) /\
    fresh_mesh_run h y data = Ok (F, 2%Z, mg, st) /\ fresh_mesh_run (with_ocean h mask') y data = Ok (F', 1%Z, mg', st') /\
    exists t i, atb (h_mask h) i = true /\ atb mask' i = true /\ nth i (nth t F []) 0%Z <> 0%Z /\ nth i (nth t F' []) 0%Z = 0%Z.
Proof.
  exists dry, tables30, wet, warm. do 6 eexists. split; [exact two_seas_ok|]. split; [exact two_seas_sym|]. split; [reflexivity|]. split; [reflexivity|].
  split; [intros d H; apply repeat_spec in H; subst d; reflexivity|]. split; [reflexivity|]. split; [reflexivity|].
  split. { intros n t l c T V W. apply warm_at in V. assert (C := two_seas_apart n l c W V). clear W. do 24 (destruct c as [|c]; [lia|]). do 6 (destruct c as [|c]; [reflexivity|]). destruct c; reflexivity. }
  split; [vm_compute; reflexivity|]. split; [vm_compute; reflexivity|]. exists 0, 8. split; [reflexivity|]. split; [reflexivity|]. split; [vm_compute; discriminate|vm_compute; reflexivity].
Qed.
Print Assumptions C182_mesh_masks_refuted.

(** A row of fourteen columns with R_fill = 1 and T_fill = 2, calm on the second day:
    columns 4, 5, 6 and 13 are away from the extremes, and the masks differ there. *)
Definition shore : grid := mkGrid true 3 1 14 (repeat true 14) 1 2 (ByAbsolute 1).
Definition shore' : list bool := repeat true 4 ++ repeat false 3 ++ repeat true 6 ++ [false].
Definition shore_data := row_days [[1;1;1;0;0;0;0;0;1;1;1;1;0;0]; [0;0;0;0;0;0;0;0;0;0;0;0;0;0]; [0;0;0;0;0;0;0;0;1;1;1;1;0;0]].
Definition shore_tracking : tracking := mkTracking true true row_centroid (1#2) (repeat 1%Q 14) [3].
Lemma shore_agrees : masks_agree shore shore' shore_data.
Proof.
  intros y x Y X (t & y1 & x1 & y2 & x2 & T & B1 & B2 & V). cbn [shore g_nt g_ny g_nx g_R g_regional g_mask] in *.
  destruct B1 as [_ (a & b & D1 & _ & ->)]. destruct B2 as [[Y2 X2] (a' & b' & D2 & _ & E)]. unfold in_disk in D1, D2. change (1 / 2)%Z with 0%Z in D1.
  assert (B0 : b = 0%Z) by nia. assert (B1 : (-1 <= b' <= 1)%Z) by nia. subst b. assert (y = 0) by lia. assert (y2 = 0) by lia. subst y y2. clear D1 D2 Y Y2. unfold clampZ in E.
  assert (K : x = 4 \/ x = 5 \/ x = 6 \/ x = 13 \/ nth x shore' false = nth x (repeat true 14) false) by (do 14 (destruct x as [|x]; [cbn; tauto|]); lia).
  assert (Q : x2 = 3 \/ x2 = 4 \/ x2 = 5 \/ x2 = 6 \/ x2 = 7 \/ x2 = 12 \/ x2 = 13 \/ nth x shore' false = nth x (repeat true 14) false) by lia.
  do 7 (destruct Q as [Q|Q]; [subst x2; do 3 (destruct t as [|t]; [discriminate|]); lia|]). exact Q.
Qed.
Example C182_grid_case : masks_agree shore shore' shore_data /\ shore' <> g_mask shore /\
  exists F mg st, fresh_run shore shore_tracking shore_data = Ok (F, 1%Z, mg, st) /\ fresh_run (with_mask shore shore') shore_tracking shore_data = Ok (F, 1%Z, mg, st).
Proof.
  split; [exact shore_agrees|]. split; [discriminate|]. do 3 eexists. split; [vm_compute; reflexivity|].
  rewrite (C182_grid_masks shore shore_tracking shore' shore_data eq_refl ltac:(cbn; lia) ltac:(cbn; lia) ltac:(cbn; lia) ltac:(cbn; lia) eq_refl shore_agrees). vm_compute. reflexivity.
Qed.
(** Near an extreme the mask does matter. *)
Example C182_grid_near : ~ masks_agree shore (repeat true 9 ++ repeat false 5) shore_data /\
  fresh_run (with_mask shore (repeat true 9 ++ repeat false 5)) shore_tracking shore_data <> fresh_run shore shore_tracking shore_data.
Proof.
  assert (E : fresh_run (with_mask shore (repeat true 9 ++ repeat false 5)) shore_tracking shore_data <> fresh_run shore shore_tracking shore_data) by (vm_compute; discriminate).
  split; [|exact E]. intro A. apply E. apply C182_grid_masks; cbn; auto; lia.
Qed.

(** Fourteen cells in a row, the first six extreme. *)
Definition coast (T : Z) (mask : list bool) : mesh_setup := mkMesh (row_mesh 14) mask 1 T (ByAbsolute 5) (repeat 1%Q 14).
Definition coast_data := row_days [[1;1;1;1;1;1;0;0;0;0;0;0;0;0]; [0;0;0;0;0;0;0;0;0;0;0;0;0;0]; [1;1;1;1;1;1;0;0;0;0;0;0;0;0]].
Definition tables14 : mesh_tracking := mkMeshTracking no_centroid (1#2) (line_nbs 14) (fun _ _ => 1%Q) (fun _ => 40) as_given 3 10.
Lemma row14_within n l c : within (row_mesh 14) n l c -> c <= l + n.
Proof.
  intro W. induction W as [n i|n i j k A W IH]; [lia|]. enough (j <= S i) by lia. unfold adj, Morph.row in A.
  do 14 (destruct i as [|i]; [cbn in A; lia|]). rewrite nth_overflow in A by (cbn; lia). destruct A.
Qed.
Lemma coast_at t l : atb (nth t coast_data []) l = true -> l < 6.
Proof.
  intro H. destruct (Nat.lt_ge_cases l 6) as [L|L]; [exact L|]. do 6 (destruct l as [|l]; [lia|]).
  do 3 (destruct t as [|t]; [do 8 (destruct l as [|l]; [discriminate|]); destruct l; discriminate|]). destruct t; discriminate.
Qed.
Lemma row14_ok : mesh_ok (row_mesh 14).
Proof. intros i j H. do 14 (destruct i as [|i]; [cbn in H; cbn; lia|]). unfold Morph.row in H. rewrite nth_overflow in H by (cbn; lia). destruct H. Qed.
Lemma row14_sym : mesh_sym (row_mesh 14).
Proof.
  intros i j H. unfold adj, Morph.row in *.
  do 14 (destruct i as [|i]; [cbn in H; repeat (destruct H as [H|H]; [try lia; assert (J : j = Z.to_nat (Z.of_nat j)) by lia; rewrite <- H in J; rewrite J; vm_compute; tauto|]); destruct H|]).
  rewrite nth_overflow in H by (cbn; lia). destruct H.
Qed.
(** Without gap filling land from the eleventh cell on; with it one land cell, the
    thirteenth. *)
Definition inland : list bool := repeat true 10 ++ repeat false 4.
Definition island : list bool := repeat true 12 ++ [false; true].
Lemma coast_agrees T : masks_agree_within 4 (coast T (repeat true 14)) inland coast_data /\ masks_agree_within 6 (coast T (repeat true 14)) island coast_data.
Proof.
  split; intros t l c _ V W; apply coast_at in V; apply row14_within in W; cbn [coast h_mask]; [assert (C : c < 10) by lia|assert (C : c < 12) by lia]; clear W; do 12 (destruct c as [|c]; [reflexivity || lia|]); lia.
Qed.
Example C182_mesh_case :
  (exists F mg st, fresh_mesh_run (coast 0 (repeat true 14)) tables14 coast_data = Ok (F, 2%Z, mg, st) /\ fresh_mesh_run (coast 0 inland) tables14 coast_data = Ok (F, 2%Z, mg, st)) /\
  (exists F mg st, fresh_mesh_run (coast 2 (repeat true 14)) tables14 coast_data = Ok (F, 1%Z, mg, st) /\ fresh_mesh_run (coast 2 island) tables14 coast_data = Ok (F, 1%Z, mg, st)).
Proof.
  assert (Ld : forall d, In d coast_data -> length d = length (row_mesh 14)) by (intros d H; repeat (destruct H as [<-|H]; [reflexivity|]); destruct H).
  split; do 3 eexists; (split; [vm_compute; reflexivity|]).
  - change (coast 0 inland) with (with_ocean (coast 0 (repeat true 14)) inland).
    rewrite (C182_mesh_masks_partial (coast 0 (repeat true 14)) tables14 inland coast_data row14_ok row14_sym eq_refl eq_refl Ld ltac:(cbn; lia) eq_refl (or_introl (conj eq_refl (proj1 (coast_agrees 0))))). vm_compute. reflexivity.
  - change (coast 2 island) with (with_ocean (coast 2 (repeat true 14)) island).
    assert (Near : ocean_within 1 (row_mesh 14) (repeat true 14) /\ ocean_within 1 (row_mesh 14) island).
    { split; intros c C; change (length (row_mesh 14)) with 14 in C.
      - exists c. split; [constructor|]. do 14 (destruct c as [|c]; [reflexivity|]). lia.
      - do 12 (destruct c as [|c]; [eexists; split; [apply within_here|reflexivity]|]).
        destruct c as [|c]; [exists 13; split; [apply (within_step _ 0 12 13 13); [unfold adj; cbn; tauto|constructor]|reflexivity]|].
        destruct c as [|c]; [exists 13; split; [constructor|reflexivity]|]. lia. }
    rewrite (C182_mesh_masks_partial (coast 2 (repeat true 14)) tables14 island coast_data row14_ok row14_sym eq_refl eq_refl Ld ltac:(cbn; lia) eq_refl (or_intror (conj (proj2 (coast_agrees 2)) Near))). vm_compute. reflexivity.
Qed.
