(** Theorems about whole runs: checkpoints, repeated runs, attributes, the
    output of a run on a structured grid. *)
From Coq Require Import String.
From Verif Require Import Base Morph MorphSpec MorphProofs Label LabelSpec LabelProofs Filter FilterSpec FilterProps
  Overlap Merge Partition Cluster ClusterSpec ClusterProps Run RunSpec ClusterFinal RunProofs.
Open Scope nat_scope.

(** ** C44: checkpoints *)

(** A run that saves returns what the same run returns without checkpoints, and
    whoever loads afterwards gets exactly that. *)
Theorem C44_save_then_load (clean : field -> result run_err filtered) (area : field -> Q) (output : Type)
    (track : field -> result run_err output) (erase order : list nat) (arg : option string) (tr : tracker) (dk : files)
    (d : field) (f : filtered) :
  t_data tr = Some d -> t_scratch tr = true ->
  loads (effective arg tr) = false -> saves (effective arg tr) = true ->
  clean d = Ok f -> writes_all order (length (f_keep f)) ->
  let '(tr1, ops, r) := run clean area output track erase order arg tr dk in
  r = snd (run clean area output track erase order None (mkTracker (Some d) None true) dk) /\
  (forall o, r = Ok o -> forall erase' order' arg' tr',
     t_scratch tr' = true -> loads (effective arg' tr') = true ->
     run clean area output track erase' order' arg' tr' (run_io ops dk) = (tr', [], Ok o)).
Proof.
  intros Dt Sc Lo Sa Cl W. unfold run. rewrite (saved_run clean area erase order arg tr dk d f Dt Sc Lo Sa Cl W).
  destruct (stats_of area d f (f_keep f)) as [s|e] eqn:E.
  - split.
    + unfold run_preprocess. cbn [effective t_checkpoint loads saves t_data]. rewrite Cl, E. reflexivity.
    + intros o Ho erase' order' arg' tr' Sc' Lo'. unfold run_preprocess. rewrite Lo', Sc'. f_equal. rewrite run_io_app. unfold load.
      change (load_field (run_io (write_stats s) (run_io (write_field erase order (f_keep f)) dk)))
        with (load_field (run_io (write_field erase order (f_keep f)) dk)).
      rewrite write_field_load by exact W. exact Ho.
  - split; [|discriminate]. unfold run_preprocess. cbn [effective t_checkpoint loads saves t_data]. rewrite Cl, E. reflexivity.
Qed.
Print Assumptions C44_save_then_load.

(** At every crash point, whatever the order in which the store is removed and
    written: what can be loaded carries either the complete result of this run, or
    the statistics of an earlier one. *)
Theorem C44_crash_loads_new_pair_or_old_statistics_partial (clean : field -> result run_err filtered) (area : field -> Q)
    (erase order : list nat) (arg : option string) (tr : tracker) (dk : files) (d : field) (f : filtered) :
  t_data tr = Some d -> t_scratch tr = true ->
  loads (effective arg tr) = false -> saves (effective arg tr) = true ->
  clean d = Ok f -> writes_all order (length (f_keep f)) ->
  let '(_, ops, r) := run_preprocess clean area erase order arg tr dk in
  forall n f' s', load (run_io (firstn n ops) dk) = Ok (f', s') -> d_npz dk = Whole s' \/ r = Ok (f', s').
Proof.
  intros Dt Sc Lo Sa Cl W. rewrite (saved_run clean area erase order arg tr dk d f Dt Sc Lo Sa Cl W).
  destruct (stats_of area d f (f_keep f)) as [s|e].
  - intros n f' s' Ld. destruct (Nat.le_gt_cases n (length (write_field erase order (f_keep f)))) as [Hn|Hn].
    + left. rewrite firstn_app, (proj2 (Nat.sub_0_le _ _) Hn), firstn_O, app_nil_r in Ld. apply load_split in Ld. destruct Ld as [_ Ld].
      rewrite keeps_run in Ld by (apply forallb_firstn, write_field_keeps). exact Ld.
    + right. rewrite firstn_app, firstn_all2 in Ld by lia.
      destruct (n - length (write_field erase order (f_keep f))) as [|[|m]] eqn:En; [lia| |].
      * exfalso. cbn [firstn write_stats] in Ld. rewrite run_io_app in Ld. apply load_split in Ld. destruct Ld as [_ Ld]. discriminate.
      * replace (firstn (S (S m)) (write_stats s)) with (write_stats s) in Ld by (destruct m; reflexivity). rewrite run_io_app in Ld.
        apply load_split in Ld. destruct Ld as [Lf Ls].
        change (load_field (run_io (write_field erase order (f_keep f)) dk) = Ok f') in Lf. rewrite write_field_load in Lf by exact W.
        injection Lf as <-. cbn in Ls. injection Ls as <-. reflexivity.
  - intros n f' s' Ld. left. apply load_split in Ld. destruct Ld as [_ Ld]. rewrite keeps_run in Ld by (apply forallb_firstn, write_field_keeps). exact Ld.
Qed.
Print Assumptions C44_crash_loads_new_pair_or_old_statistics_partial.

(** What a load reads at any crash point, step by step: the step as this run
    computed it, the step as it was on the disk before, or no extreme at all. *)
Lemma put_nth {A} (k : nat) (v : A) (l : list A) (i : nat) (d : A) : i < length l ->
  nth i (put k v l) d = if Nat.eqb i k then v else nth i l d.
Proof.
  intro I. unfold put. rewrite (nth_map_gen _ _ _ (0, d)) by (rewrite combine_length, seq_length; lia).
  rewrite combine_nth by apply seq_length. rewrite seq_nth by exact I. reflexivity.
Qed.
Lemma put_length {A} (k : nat) (v : A) (l : list A) : length (put k v l) = length l.
Proof. unfold put. rewrite map_length, combine_length, seq_length. lia. Qed.

Section Torn.
Variables (f : field) (dk : files).
Definition entry_from (k : nat) (e : nat * option (list bool)) : Prop :=
  match snd e with
  | None => True
  | Some b => b = nth k f [] \/ exists st, d_zarr dk = Some st /\ k < length st /\ snd (nth k st (0, None)) = Some b
  end.
Definition store_from (d : files) : Prop :=
  forall st, d_zarr d = Some st -> forall k, k < length st -> entry_from k (nth k st (0, None)).
Definition puts_from (o : io) : Prop := match o with PutStep k b => b = nth k f [] | _ => True end.

Lemma apply_from d o : puts_from o -> store_from d -> store_from (apply_io d o).
Proof.
  intros P H st E k K. unfold store_from in H. destruct o as [j| |shape|j b| |s]; cbn [apply_io d_zarr] in E; try (apply (H st E k K)); try discriminate.
  - destruct (d_zarr d) as [st0|]; [|discriminate]. injection E as <-. rewrite put_length in K. rewrite put_nth by exact K.
    destruct (Nat.eqb k j); [exact I|]. apply (H st0 eq_refl k K).
  - injection E as <-. rewrite map_length in K. rewrite (nth_map_gen _ _ _ 0) by exact K. exact I.
  - destruct (d_zarr d) as [st0|]; [|discriminate]. injection E as <-. rewrite put_length in K. rewrite put_nth by exact K.
    destruct (Nat.eqb_spec k j) as [->|]; [left; exact P|]. apply (H st0 eq_refl k K).
Qed.
Lemma run_from ops : Forall puts_from ops -> forall d, store_from d -> store_from (run_io ops d).
Proof. induction 1 as [|o ops P _ IH]; intros d H; [exact H|]. apply IH. apply apply_from; assumption. Qed.
End Torn.

Lemma write_field_puts f erase order : Forall (puts_from f) (write_field erase order f).
Proof.
  apply Forall_forall. intros o O. apply in_app_or in O. destruct O as [O|[<-|[<-|O]]]; try exact I.
  - apply in_map_iff in O. destruct O as (k & <- & _). exact I.
  - apply in_map_iff in O. destruct O as (k & <- & _). reflexivity.
Qed.

Theorem C44_crash_reads_steps_partial (clean : field -> result run_err filtered) (area : field -> Q)
    (erase order : list nat) (arg : option string) (tr : tracker) (dk : files) (d : field) (f : filtered) :
  t_data tr = Some d -> t_scratch tr = true ->
  loads (effective arg tr) = false -> saves (effective arg tr) = true ->
  clean d = Ok f -> writes_all order (length (f_keep f)) ->
  let '(_, ops, _) := run_preprocess clean area erase order arg tr dk in
  forall n f' s', load (run_io (firstn n ops) dk) = Ok (f', s') ->
  forall k, k < length f' ->
    nth k f' [] = nth k (f_keep f) [] \/
    (exists f0, load_field dk = Ok f0 /\ k < length f0 /\ nth k f' [] = nth k f0 []) \/
    (forall c, nth c (nth k f' []) false = false).
Proof.
  intros Dt Sc Lo Sa Cl W. rewrite (saved_run clean area erase order arg tr dk d f Dt Sc Lo Sa Cl W).
  assert (G : forall ops, Forall (puts_from (f_keep f)) ops -> forall n f' s', load (run_io (firstn n ops) dk) = Ok (f', s') ->
    forall k, k < length f' ->
    nth k f' [] = nth k (f_keep f) [] \/
    (exists f0, load_field dk = Ok f0 /\ k < length f0 /\ nth k f' [] = nth k f0 []) \/
    (forall c, nth c (nth k f' []) false = false)).
  { intros ops A n f' s' Ld k K. apply load_split in Ld. destruct Ld as [Lf _]. unfold load_field in Lf.
    destruct (d_zarr (run_io (firstn n ops) dk)) as [st|] eqn:E; [|discriminate]. injection Lf as <-. rewrite map_length in K.
    assert (B : Forall (puts_from (f_keep f)) (firstn n ops)).
    { apply Forall_forall. intros o O. rewrite Forall_forall in A. apply A. rewrite <- (firstn_skipn n ops). apply in_or_app. left. exact O. }
    assert (S0 : store_from (f_keep f) dk dk).
    { intros st0 E0 i I0. unfold entry_from. destruct (snd (nth i st0 (0, None))) as [b|] eqn:Eb; [|exact I]. right. exists st0. auto. }
    pose proof (run_from (f_keep f) dk _ B dk S0 st E k K) as R. rewrite (nth_map_gen read_step st k (0, None)) by exact K.
    unfold entry_from in R. unfold read_step. destruct (snd (nth k st (0, None))) as [b|].
    - destruct R as [R|(st0 & E0 & K0 & R)]; [left; exact R|]. right. left. exists (map read_step st0). unfold load_field. rewrite E0, map_length.
      split; [reflexivity|]. split; [exact K0|]. rewrite (nth_map_gen read_step st0 k (0, None)) by exact K0. unfold read_step. rewrite R. reflexivity.
    - right. right. intro c. apply nth_repeat. }
  destruct (stats_of area d f (f_keep f)) as [s|e]; apply G.
  - apply Forall_app. split; [apply write_field_puts|]. repeat constructor.
  - apply write_field_puts.
Qed.
Print Assumptions C44_crash_reads_steps_partial.

(** Hence in a directory without an earlier statistics file a load after a crash
    fails or is exact. *)
Theorem C44_first_save_is_atomic (clean : field -> result run_err filtered) (area : field -> Q)
    (erase order : list nat) (arg : option string) (tr : tracker) (dk : files) (d : field) (f : filtered) :
  (forall s, d_npz dk <> Whole s) ->
  t_data tr = Some d -> t_scratch tr = true ->
  loads (effective arg tr) = false -> saves (effective arg tr) = true ->
  clean d = Ok f -> writes_all order (length (f_keep f)) ->
  let '(_, ops, r) := run_preprocess clean area erase order arg tr dk in
  forall n, (exists e, load (run_io (firstn n ops) dk) = Err e) \/ load (run_io (firstn n ops) dk) = r.
Proof.
  intros No Dt Sc Lo Sa Cl W.
  assert (C := C44_crash_loads_new_pair_or_old_statistics_partial clean area erase order arg tr dk d f Dt Sc Lo Sa Cl W).
  destruct (run_preprocess clean area erase order arg tr dk) as [[tr1 ops] r]. intro n.
  destruct (load (run_io (firstn n ops) dk)) as [[f' s']|e] eqn:E; [|left; exists e; reflexivity].
  right. destruct (C n f' s' E) as [H|H]; [destruct (No _ H)|congruence].
Qed.
Print Assumptions C44_first_save_is_atomic.

(** Eight cells in a row, two time steps. *)
Definition row8 : mesh := map (fun i => [Z.of_nat i - 1; if Nat.eqb i 7 then -1 else Z.of_nat i + 1; -1]%Z) (seq 0 8).
Definition setup8 : mesh_setup := mkMesh row8 (repeat true 8) 0 0%Z (ByAbsolute 5) (repeat 1%Q 8).
Definition cells (a b : nat) : list bool := map (fun i => Nat.leb a i && Nat.ltb i b) (seq 0 8).
Definition old_data : field := [cells 0 6; cells 0 6].
Definition new_data : field := [cells 1 8; cells 2 8].

(** In general: a save over an earlier checkpoint that dies after the field and
    before the statistics leaves this run's field with the other run's statistics;
    one that dies while writing the field leaves a field of no run at all. *)
Theorem C44_crash_mixes_two_runs_refuted :
  exists (h : mesh_setup) (d1 d2 : field) (f1 f2 : field) (s1 s2 : stats) (torn : field) (n1 n2 : nat),
    let phase d dk := run_preprocess (clean_mesh h) (area_mesh h) [0; 1] [0; 1] (Some "save"%string) (mkTracker (Some d) None true) dk in
    let ops1 := snd (fst (phase d1 (mkFiles None NoNpz))) in
    let disk1 := run_io ops1 (mkFiles None NoNpz) in
    let ops2 := snd (fst (phase d2 disk1)) in
    snd (phase d1 (mkFiles None NoNpz)) = Ok (f1, s1) /\ snd (phase d2 disk1) = Ok (f2, s2) /\ f1 <> f2 /\ s1 <> s2 /\
    load (run_io (firstn n1 ops2) disk1) = Ok (f2, s1) /\
    load (run_io (firstn n2 ops2) disk1) = Ok (torn, s1) /\ torn <> f1 /\ torn <> f2.
Proof.
  exists setup8, old_data, new_data. eexists. eexists. eexists. eexists. eexists. exists 6, 5.
  cbv zeta. split; [vm_compute; reflexivity|]. split; [vm_compute; reflexivity|].
  split; [discriminate|]. split; [discriminate|]. split; [vm_compute; reflexivity|]. split; [vm_compute; reflexivity|]. split; discriminate.
Qed.
Print Assumptions C44_crash_mixes_two_runs_refuted.

(** On a structured grid no tracker has a scratch directory: saving raises after
    the data have been given up, loading raises at once. *)
Theorem C44_structured_grids_cannot_checkpoint_refuted (clean : field -> result run_err filtered) (area : field -> Q) (output : Type)
    (track : field -> result run_err output) (erase order : list nat) (arg : option string) (tr : tracker) (dk : files) :
  t_scratch tr = false ->
  (loads (effective arg tr) = true ->
     run clean area output track erase order arg tr dk = (tr, [], Err (AttributeError "scratch_dir"))) /\
  (forall d f, t_data tr = Some d -> clean d = Ok f ->
     loads (effective arg tr) = false -> saves (effective arg tr) = true ->
     run clean area output track erase order arg tr dk = (without_data tr, [], Err (AttributeError "scratch_dir"))).
Proof.
  intro Sc. split.
  - intro Lo. unfold run, run_preprocess. rewrite Lo, Sc. reflexivity.
  - intros d f Dt Cl Lo Sa. unfold run, run_preprocess. rewrite Lo, Dt, Cl, Sa, Sc. reflexivity.
Qed.
Print Assumptions C44_structured_grids_cannot_checkpoint_refuted.

Example C44_case :
  loads (Some "save"%string) = false /\ saves (Some "save"%string) = true /\ loads (Some "load"%string) = true /\
  (exists f, clean_mesh setup8 old_data = Ok f /\ writes_all [1; 0] (length (f_keep f))) /\
  snd (run_preprocess (clean_mesh setup8) (area_mesh setup8) [] [1; 0] (Some "save"%string) (mkTracker (Some old_data) None true)
         (mkFiles None NoNpz)) = Ok (old_data, mkStats 12 2 2 5 (12#12) (12#12)).
Proof.
  split; [reflexivity|]. split; [reflexivity|]. split; [reflexivity|]. split; [|vm_compute; reflexivity].
  eexists. split; [vm_compute; reflexivity|]. intros k K. cbn in K. destruct k as [|[|k]]; cbn; auto. lia.
Qed.

(** ** C45: repeated runs *)

(** Every run that does not load gives its data away, so that the next one that
    does not load fails, whatever the first returned. *)
Theorem C45_second_run_fails_refuted (clean : field -> result run_err filtered) (area : field -> Q) (output : Type)
    (track : field -> result run_err output) (erase order : list nat) (arg : option string) (tr : tracker) (dk : files) :
  loads (effective arg tr) = false ->
  let '(tr1, _, _) := run clean area output track erase order arg tr dk in
  forall erase' order' arg' dk', loads (effective arg' tr1) = false ->
    run clean area output track erase' order' arg' tr1 dk' = (tr1, [], Err (AttributeError "data_bin")).
Proof.
  intro Lo. destruct (run clean area output track erase order arg tr dk) as [[tr1 ops] r] eqn:E. intros erase' order' arg' dk' Lo'.
  assert (N : t_data tr1 = None).
  { unfold run, run_preprocess in E. rewrite Lo in E. destruct (t_data tr) as [d|] eqn:D; [|injection E as <- _ _; exact D].
    destruct (clean d) as [f|]; [|injection E as <- _ _; reflexivity]. destruct (saves _); [|injection E as <- _ _; reflexivity].
    destruct (t_scratch tr); [|injection E as <- _ _; reflexivity]. destruct (bind _ _); injection E as <- _ _; reflexivity. }
  unfold run, run_preprocess. rewrite Lo', N. reflexivity.
Qed.
Print Assumptions C45_second_run_fails_refuted.

(** Runs that load can be repeated, and leave tracker and files alone. *)
Theorem C45_loading_runs_repeat_partial (clean : field -> result run_err filtered) (area : field -> Q) (output : Type)
    (track : field -> result run_err output) (erase order erase' order' : list nat) (arg : option string) (tr : tracker) (dk : files) :
  loads (effective arg tr) = true ->
  let '(tr1, ops, r) := run clean area output track erase order arg tr dk in
  tr1 = tr /\ run_io ops dk = dk /\ run clean area output track erase' order' arg tr1 (run_io ops dk) = (tr1, ops, r).
Proof. intro Lo. unfold run, run_preprocess. rewrite Lo. cbn. rewrite Lo. auto. Qed.
Print Assumptions C45_loading_runs_repeat_partial.

Example C45_case :
  let first := run (clean_mesh setup8) (area_mesh setup8) field (fun f => Ok f) [] [] None (mkTracker (Some old_data) None true) (mkFiles None NoNpz) in
  snd first = Ok (old_data, mkStats 12 2 2 5 (12#12) (12#12)) /\
  snd (run (clean_mesh setup8) (area_mesh setup8) field (fun f => Ok f) [] [] None (fst (fst first)) (mkFiles None NoNpz))
    = Err (AttributeError "data_bin").
Proof. split; vm_compute; reflexivity. Qed.

(** ** C46: attributes *)

(** Names that the input does not use carry the values of this run; every other
    input attribute is passed on. *)
Theorem C46_reported_unless_inherited_partial (u : setup) (events_attrs : attrs) (s : stats) (n : Z) (mg : merges) :
  NoDup (map fst (u_data_attrs u)) ->
  (forall k v, reports u s n mg k v -> ~ has_key (u_data_attrs u) k ->
     get (stats_attributes u events_attrs s n mg) k = Some v) /\
  (forall k v, In (k, v) (u_data_attrs u) -> get (stats_attributes u events_attrs s n mg) k = Some v).
Proof.
  intro ND. split.
  - intros k v. apply reported_attr.
  - intros k v I. apply get_update_in; assumption.
Qed.
Print Assumptions C46_reported_unless_inherited_partial.

(** Any statistics name among the attributes of the input is reported with the
    value of the input. *)
Theorem C46_inherited_attributes_win_refuted (u : setup) (events_attrs : attrs) (s : stats) (n : Z) (mg : merges) (k : string) (old new : attr) :
  NoDup (map fst (u_data_attrs u)) -> reports u s n mg k new -> In (k, old) (u_data_attrs u) -> old <> new ->
  get (stats_attributes u events_attrs s n mg) k = Some old /\ get (stats_attributes u events_attrs s n mg) k <> Some new.
Proof.
  intros ND _ I N. assert (E : get (stats_attributes u events_attrs s n mg) k = Some old) by (apply get_update_in; assumption).
  split; [exact E|]. rewrite E. congruence.
Qed.
Print Assumptions C46_inherited_attributes_win_refuted.

Example C46_case :
  let u := mkSetup false 4 2 (1#2) (1#2) false [("N_events_final", AInt 99); ("source", AText "sst")]%string in
  let mg := mkMerges [] [] [] [] [] [] in
  NoDup (map fst (u_data_attrs u)) /\ reports u (mkStats 12 2 2 5 1 1) 7 mg "N_events_final" (AInt 7) /\
  get (stats_attributes u [] (mkStats 12 2 2 5 1 1) 7 mg) "N_events_final"%string = Some (AInt 99) /\
  get (stats_attributes u [] (mkStats 12 2 2 5 1 1) 7 mg) "R_fill"%string = Some (AInt 4).
Proof.
  split; [repeat (constructor; [cbn; intuition discriminate|]); constructor|]. split; [constructor|]. split; reflexivity.
Qed.

(** ** C82: what a run on a structured grid returns *)

(** Whatever the data: non-zero cells of the returned field are ocean cells, and
    the IDs in it are exactly 1 ... N_events_final, with and without merging. *)
Theorem C82_ids_on_ocean_and_numbered_without_gaps (g : grid) (merging nn : bool) (cent : list bool -> Q * Q) (thr : Q)
    (ca : list Q) (sizes : list nat) (erase order : list nat) (arg : option string) (tr : tracker) (dk : files) (data : field)
    (F : list (list Z)) (n : Z) (mg : option merges) (s : stats) :
  let track := if merging then track_merging g nn cent thr ca sizes else track_simple g in
  t_data tr = Some data -> t_scratch tr = false -> length data = g_nt g -> fold_right Nat.add 0 sizes = g_nt g ->
  snd (run (clean_grid g) area_grid _ track erase order arg tr dk) = Ok ((F, n, mg), s) ->
  length F = g_nt g /\
  (forall t y x, t < g_nt g -> y < g_ny g -> x < g_nx g -> id_at F t (y * g_nx g + x) <> 0%Z ->
     nth (y * g_nx g + x) (g_mask g) false = true) /\
  (forall k, (1 <= k <= n)%Z <->
     exists t y x, t < g_nt g /\ y < g_ny g /\ x < g_nx g /\ k <> 0%Z /\ id_at F t (y * g_nx g + x) = k).
Proof.
  intros track Dt Sc L Hs. unfold run, run_preprocess. rewrite Dt, Sc.
  destruct (loads (effective arg tr)); [discriminate|]. destruct (clean_grid g data) as [f|e] eqn:Cl; [|discriminate].
  destruct (saves (effective arg tr)); [discriminate|]. cbn [snd].
  destruct (stats_of area_grid data f (f_keep f)) as [s0|] eqn:St; [|discriminate]. cbn [bind fst snd].
  destruct (track (f_keep f)) as [[[F0 n0] mg0]|] eqn:Tr; [|discriminate]. cbn [bind]. intro H. injection H as -> -> -> _.
  destruct (clean_grid_ok g data f L Cl) as [Sh Oc].
  assert (Ids : ids_are g F n (f_keep f)).
  { destruct merging; [|exact (track_simple_ok g (f_keep f) F n mg Sh Tr)].
    refine (track_merging_ok g nn cent thr ca sizes (f_keep f) F n mg Sh Hs _ Tr).
    destruct (existsb (fun b => b) (concat (f_keep f))) eqn:Eb.
    - apply existsb_exists in Eb. destruct Eb as (b & B & ->). apply (In_nth _ _ false) in B. destruct B as (k & _ & K). exists k. exact K.
    - exfalso. assert (Z0 : area_grid (f_keep f) = nat_Q 0).
      { unfold area_grid. f_equal. apply count_zero. intros b B. destruct b; [|reflexivity]. exfalso.
        assert (T : existsb (fun b => b) (concat (f_keep f)) = true) by (apply existsb_exists; exists true; auto). congruence. }
      unfold stats_of in St. rewrite Z0 in St. destruct (Nat.eqb (total_area_IDed f) 0); discriminate. }
  destruct Ids as (Lf & Nz & On). split; [exact Lf|]. split; [|exact On].
  intros t y x T Y X Nid. apply (Oc t y x T Y X). apply (Nz t y x T Y X). exact Nid.
Qed.
Print Assumptions C82_ids_on_ocean_and_numbered_without_gaps.

(** A 1 x 2 x 6 grid whose last column is land, two objects. *)
Definition grid6 : grid :=
  mkGrid true 1 2 6 [true; true; true; true; true; false; true; true; true; true; true; false] 0 0 (ByAbsolute 1).
Definition record6 : field := [[true; true; false; false; true; false; false; false; false; false; true; false]].
Example C82_case :
  snd (run (clean_grid grid6) area_grid _ (track_simple grid6) [] [] None (mkTracker (Some record6) None false) (mkFiles None NoNpz))
  = Ok ([[0; 0; 0; 0; 1; 0; 0; 0; 0; 0; 1; 0]]%Z, 1%Z, None, mkStats 4 2 1 1 (4#4) (4#2)).
Proof. vm_compute. reflexivity. Qed.

(** ** C83: a record with a single object *)

(** If what is left after filling is one object, run raises ZeroDivisionError
    instead of tracking it. *)
Theorem C83_single_objects_cannot_be_tracked_refuted (g : grid) (output : Type) (track : field -> result run_err output)
    (erase order : list nat) (arg : option string) (tr : tracker) (dk : files) (data s : field) :
  t_data tr = Some data -> length data = g_nt g ->
  loads (effective arg tr) = false -> saves (effective arg tr) = false ->
  fill_grid g data = Some s -> one_object (g_regional g) (g_nt g) (g_ny g) (g_nx g) (concat s) ->
  snd (run (clean_grid g) area_grid output track erase order arg tr dk) = Err ZeroDivision.
Proof.
  intros Dt L Lo Sa E One. unfold run, run_preprocess. rewrite Lo, Dt.
  destruct (fill_grid_ok g data s L E) as [Sh _].
  destruct (filter_grid (g_regional g) (g_rule g) (g_nt g) (g_ny g) (g_nx g) (concat s)) as [f|e] eqn:F.
  - assert (C : clean_grid g data = Ok f) by (unfold clean_grid; rewrite E, F; reflexivity). rewrite C, Sa. cbn [snd].
    assert (St : stats_of area_grid data f (f_keep f) = Err ZeroDivision).
    { unfold stats_of. rewrite (one_object_nothing g data s f L E One F). destruct (Nat.eqb (total_area_IDed f) 0); reflexivity. }
    rewrite St. reflexivity.
  - exfalso. destruct (C16_fails_only_without_objects _ _ _ _ _ _ _ (shaped_concat g s Sh) F) as [_ No].
    destruct One as ((c & R & X) & _). exact (No c R X).
Qed.
Print Assumptions C83_single_objects_cannot_be_tracked_refuted.

Example C83_case :
  snd (run (clean_grid grid6) area_grid _ (track_simple grid6) [] [] None
         (mkTracker (Some [[true; true; false; false; false; false; false; false; false; false; false; false]]) None false)
         (mkFiles None NoNpz)) = Err ZeroDivision.
Proof. vm_compute. reflexivity. Qed.

(** A second object of the required size is enough: then run returns, with and
    without merging. *)
Theorem C83_other_objects_are_tracked_partial (g : grid) (a : Z) (merging nn : bool) (cent : list bool -> Q * Q) (thr : Q)
    (ca : list Q) (sizes : list nat) (erase order : list nat) (arg : option string) (tr : tracker) (dk : files)
    (data s : field) (c first : cell) (l : list cell) :
  let track := if merging then track_merging g nn cent thr ca sizes else track_simple g in
  t_data tr = Some data -> length data = g_nt g -> fold_right Nat.add 0 sizes = g_nt g ->
  loads (effective arg tr) = false -> saves (effective arg tr) = false ->
  g_rule g = ByAbsolute a -> fill_grid g data = Some s ->
  in_range (g_nt g) (g_ny g) (g_nx g) c -> extreme (g_ny g) (g_nx g) (concat s) c ->
  object_cells (g_regional g) (g_nt g) (g_ny g) (g_nx g) (concat s) c l -> (a <= Z.of_nat (length l))%Z ->
  first_extreme (g_nt g) (g_ny g) (g_nx g) (concat s) first ->
  ~ joined (g_regional g) (g_nt g) (g_ny g) (g_nx g) (concat s) c first ->
  exists F n mg st, snd (run (clean_grid g) area_grid _ track erase order arg tr dk) = Ok ((F, n, mg), st) /\
    id_at F (fst (fst c)) (snd (fst c) * g_nx g + snd c) <> 0%Z.
Proof.
  intros track Dt L Hs Lo Sa Ru E R X O Sz Fi Nj. unfold run, run_preprocess. rewrite Lo, Dt.
  destruct (fill_grid_ok g data s L E) as [Sh _]. assert (Lc := shaped_concat g s Sh).
  destruct (filter_grid (g_regional g) (g_rule g) (g_nt g) (g_ny g) (g_nx g) (concat s)) as [f|e] eqn:F.
  2: { exfalso. destruct (C16_fails_only_without_objects _ _ _ _ _ _ _ Lc F) as [_ No]. exact (No c R X). }
  assert (C : clean_grid g data = Ok f) by (unfold clean_grid; rewrite E, F; reflexivity). rewrite C, Sa. cbn [snd].
  assert (Th : f_threshold f = inject_Z a).
  { revert F. unfold filter_grid. destruct (identify_grid _ _ _ _ _ _) as [lab m]. unfold filter_labelled.
    destruct (grid_props _); [discriminate|]. intro H. injection H as <-. cbn [f_threshold]. rewrite Ru. reflexivity. }
  destruct (C16_keeps_other_objects_partial _ _ _ _ _ _ _ Lc F) as (Kp & _).
  assert (K : kept_at (g_nx g) (f_keep f) c).
  { apply (Kp c R). split; [exact X|]. split; [exists l; split; [exact O|]|].
    - rewrite Th. unfold nat_Q. rewrite <- Zle_Qle. exact Sz.
    - intros (c' & Fc & J). apply Nj. rewrite (first_unique _ _ _ _ _ _ Fi Fc). exact J. }
  assert (Sk := filter_shaped g s f Sh F). destruct c as [[t y] x]. cbn [kept_at fst snd] in *. destruct R as (T & Y & X0).
  assert (Ex : exists k, nth k (concat (f_keep f)) false = true).
  { exists (flat (g_ny g) (g_nx g) (t, y, x)). rewrite (shaped_cell g _ t y x Sk T Y X0). exact K. }
  assert (St : exists st, stats_of area_grid data f (f_keep f) = Ok st).
  { unfold stats_of. destruct (C19_total_area_is_extreme_cells _ _ _ _ _ _ _ Lc F) as [_ Pos].
    destruct (Nat.eqb_spec (total_area_IDed f) 0) as [Z0|_]; [lia|].
    assert (Qn : Qeq_bool (area_grid (f_keep f)) 0 = false).
    { unfold area_grid. destruct (count (fun b => b) (concat (f_keep f))) as [|k] eqn:Ec; [exfalso|reflexivity].
      destruct Ex as (k & Ek). assert (I : In true (concat (f_keep f))).
      { rewrite <- Ek. apply nth_In. destruct (Nat.lt_ge_cases k (length (concat (f_keep f)))) as [H|H]; [exact H|].
        rewrite nth_overflow in Ek by exact H. discriminate. }
      unfold count in Ec. apply length_zero_iff_nil in Ec. assert (I2 : In true (filter (fun b => b) (concat (f_keep f)))) by (apply filter_In; auto).
      rewrite Ec in I2. destruct I2. }
    rewrite Qn. eexists. reflexivity. }
  destruct St as (st & St). rewrite St. cbn [bind fst snd].
  assert (Tr : exists F n mg, track (f_keep f) = Ok (F, n, mg)).
  { unfold track. destruct merging.
    - destruct (C25_tracked_cells_are_the_data nn (g_regional g) (g_nt g) (g_ny g) (g_nx g) cent thr ca sizes _ (shaped_concat g _ Sk) Hs Ex) as (ev & mg & E' & _).
      unfold track_merging. rewrite E'. eexists. eexists. eexists. reflexivity.
    - unfold track_simple. destruct (run_tracking_simple _ _ _ _ _). eexists. eexists. eexists. reflexivity. }
  destruct Tr as (F0 & n & mg & Tr). exists F0, n, mg, st. rewrite Tr. split; [reflexivity|].
  assert (Ids : ids_are g F0 n (f_keep f)).
  { unfold track in Tr. destruct merging; [exact (track_merging_ok g nn cent thr ca sizes (f_keep f) F0 n mg Sk Hs Ex Tr)|exact (track_simple_ok g (f_keep f) F0 n mg Sk Tr)]. }
  destruct Ids as (_ & Nz & _). apply Nz; assumption.
Qed.
Print Assumptions C83_other_objects_are_tracked_partial.
