(** C177: regional_mode on records that stay away from the edges. *)
From Verif Require Import Base Morph MorphSpec MorphProofs MorphProps Label LabelSpec LabelProofs LabelProps Filter FilterSpec FilterProofs FilterGridProofs FilterAreaProofs FilterMoreProofs FilterProps
  Overlap OverlapSpec Merge MergeSpec MergeProofs MergeLoop MergeWitness FilterWitness Partition PartitionProofs Cluster ClusterSpec ClusterProofs ClusterFinal ClusterPipe ClusterProps
  Run RunSpec RunProofs RunProps GridRunProps PipelineProps RelateSpec RelateProofs RefineProps UnmergedProofs SteadyProofs SteadyProps CutSpec CutProofs CutProps ModeProofs.
Open Scope nat_scope.

(** What is assumed of a record: nothing in the last column, and with R_fill > 0 nothing within 2 R_fill cells of an edge. *)
Definition away_from_edges (g : grid) (data : field) : Prop :=
  length data = g_nt g /\ 0 < g_nx g /\ (0 <= g_R g)%Z /\ Z.even (g_T g) = true /\
  last_quiet g data /\ (g_R g = 0%Z \/ room (2 * Z.to_nat (g_R g)) g data).

Lemma quiet_labels g f tconn : shaped g f -> 0 < g_nx g -> last_quiet g f ->
  identify_grid false tconn (g_nt g) (g_ny g) (g_nx g) (concat f) = identify_grid true tconn (g_nt g) (g_ny g) (g_nx g) (concat f).
Proof.
  intros Sh Nx Lq. apply labels_alike; [exact Nx|]. intros t y T Y. unfold onb. rewrite (shaped_cell g f t y (g_nx g - 1) Sh T Y ltac:(lia)). exact (Lq t y T Y).
Qed.

Lemma shaped_mode r g f : shaped (in_mode r g) f <-> shaped g f.
Proof. reflexivity. Qed.

Lemma mode_clean g data : away_from_edges g data ->
  clean_grid (in_mode false g) data = clean_grid (in_mode true g) data /\
  forall f, clean_grid (in_mode true g) data = Ok f -> shaped g (f_keep f) /\ last_quiet g (f_keep f).
Proof.
  intros (L & Nx & R0 & Te & Lq & Rm). unfold clean_grid.
  destruct (fill_grid (in_mode true g) data) as [s|] eqn:E.
  - destruct (mode_fill true g data s L Nx R0 Te Lq Rm E) as [E' Lqs]. cbn [negb] in E'. rewrite E'.
    destruct (fill_grid_ok (in_mode true g) data s L E) as [Sh _].
    cbn [in_mode g_regional g_rule g_nt g_ny g_nx].
    assert (Ef : filter_grid false (g_rule g) (g_nt g) (g_ny g) (g_nx g) (concat s) = filter_grid true (g_rule g) (g_nt g) (g_ny g) (g_nx g) (concat s)).
    { unfold filter_grid. rewrite (quiet_labels g s false Sh Nx Lqs). reflexivity. }
    rewrite Ef. split; [reflexivity|]. intros f.
    destruct (filter_grid true (g_rule g) (g_nt g) (g_ny g) (g_nx g) (concat s)) as [f0|] eqn:F; [|discriminate]. intro X. injection X as ->.
    assert (Lc := shaped_concat g s Sh).
    assert (Sk : shaped g (f_keep f)) by exact (filter_shaped (in_mode true g) s f Sh F).
    split; [exact Sk|]. intros t y T Y.
    destruct (C17_subset_and_whole_objects _ _ _ _ _ _ _ Lc F) as [Sub _].
    destruct (value_at (g_nx g) (f_keep f) (t, y, g_nx g - 1)) eqn:V; [|reflexivity]. exfalso.
    specialize (Sub (t, y, g_nx g - 1) ltac:(split; [exact T|lia]) V). unfold extreme in Sub. rewrite (shaped_cell g s t y (g_nx g - 1) Sh T Y ltac:(lia)) in Sub.
    assert (Q0 := Lqs t y T Y). cbn [value_at] in Q0. rewrite Q0 in Sub. discriminate.
  - destruct (fill_grid (in_mode false g) data) as [s|] eqn:E'.
    + destruct (mode_fill false g data s L Nx R0 Te Lq Rm E') as [E2 _]. cbn [negb] in E2. rewrite E2 in E. discriminate.
    + split; [reflexivity|discriminate].
Qed.

(** ** C177 *)

(** As claimed, also with merging: False when an object is divided, because the distances that divide it go around the
    globe.  Of a long object the eastern end goes to the western parent in global mode, to the eastern one in regional mode. *)
Definition wide_grid : grid := mkGrid false 2 3 8 (repeat true 24) 0 0 (ByAbsolute 1).
Definition wide_tracking : tracking := mkTracking true true row_centroid (1#2) (repeat 1%Q 24) [2].
Definition wide : field :=
 [rows_of [[1;0;0;0;0;0;0;0]; [0;0;0;0;0;0;0;0]; [1;0;1;1;0;0;0;0]];
  rows_of [[0;0;0;0;0;0;0;0]; [0;0;0;0;0;0;0;0]; [1;1;1;1;1;1;1;0]]].
Lemma wide_away : away_from_edges wide_grid wide.
Proof.
  split; [reflexivity|]. split; [cbn; lia|]. split; [cbn; lia|]. split; [reflexivity|]. split; [|left; reflexivity].
  intros t y T Y. cbn [wide_grid g_nt g_ny g_nx] in *. destruct t as [|[|t]]; [| |lia]; (destruct y as [|[|[|y]]]; [reflexivity|reflexivity|reflexivity|lia]).
Qed.
Theorem C177_mode_matters_for_merges_refuted :
  exists g k data F n mg st F' n' mg' st' c d, away_from_edges g data /\ fold_right Nat.add 0 (k_chunks k) = g_nt g /\
    fresh_run (in_mode false g) k data = Ok (F, n, mg, st) /\ fresh_run (in_mode true g) k data = Ok (F', n', mg', st') /\
    in_range (g_nt g) (g_ny g) (g_nx g) c /\ in_range (g_nt g) (g_ny g) (g_nx g) d /\
    id_of (g_nx g) F c <> 0%Z /\ id_of (g_nx g) F c = id_of (g_nx g) F d /\ id_of (g_nx g) F' c <> id_of (g_nx g) F' d.
Proof.
  exists wide_grid, wide_tracking, wide. do 8 eexists. exists (0, 2, 0), (1, 2, 6).
  split; [exact wide_away|]. split; [reflexivity|]. split; [vm_compute; reflexivity|]. split; [vm_compute; reflexivity|].
  split; [cbn; lia|]. split; [cbn; lia|]. split; [discriminate|]. split; [reflexivity|discriminate].
Qed.
Print Assumptions C177_mode_matters_for_merges_refuted.

(** Without merging the two modes do the same on a record away from the edges: equal IDs, counts and statistics, or the same
    error. *)
Theorem C177_mode_does_not_matter_partial (g : grid) (k : tracking) (data : field) :
  away_from_edges g data -> k_merging k = false -> fresh_run (in_mode false g) k data = fresh_run (in_mode true g) k data.
Proof.
  intros Aw Km. destruct (mode_clean g data Aw) as [Ec Ek]. unfold fresh_run, run, run_preprocess.
  cbn [effective t_checkpoint t_data t_scratch loads saves]. rewrite Ec. destruct (clean_grid (in_mode true g) data) as [f|e] eqn:Cl; [|reflexivity].
  destruct (Ek f eq_refl) as [Sk Lk]. destruct Aw as (_ & Nx & _). cbn [snd]. destruct (stats_of area_grid data f (f_keep f)); [|reflexivity]. cbn [bind fst snd]. rewrite Km.
  unfold track_simple, run_tracking_simple. cbn [in_mode g_regional g_nt g_ny g_nx]. rewrite (quiet_labels g (f_keep f) true Sk Nx Lk). reflexivity.
Qed.
Print Assumptions C177_mode_does_not_matter_partial.

(** With merging they do the same when nothing merges or splits, also with other settings for dividing objects.
    Missing: records with merges or splits. *)
Theorem C177_mode_steady_partial (r : bool) (g : grid) (k k' : tracking) (data : field)
    (F : list (list Z)) (n : Z) (mg : option merges) (st : stats) (objs : list (list Z)) :
  away_from_edges g data -> fold_right Nat.add 0 (k_chunks k) = g_nt g -> fold_right Nat.add 0 (k_chunks k') = g_nt g ->
  k_merging k = true -> k_merging k' = true -> k_overlap k' = k_overlap k ->
  fresh_run (in_mode r g) k data = Ok (F, n, mg, st) ->
  object_numbers (negb r) (g_nt g) (g_ny g) (g_nx g) (in_event (g_nx g) F) objs ->
  nothing_merges (g_ny g * g_nx g) (k_overlap k) objs -> nothing_splits (g_ny g * g_nx g) (k_overlap k) objs ->
  fresh_run (in_mode (negb r) g) k' data = Ok (F, n, mg, st).
Proof.
  intros Aw Hs Hs' Km Km' Ke R Ob Up Down. assert (L := proj1 Aw).
  assert (R2 := C172_settings_partial (in_mode r g) k k' data F n mg st objs L Hs Hs' Km Km' Ke R Ob Up Down).
  destruct (run_fills (in_mode r g) k' data _ R2) as (s & Fs).
  destruct (run_parts (in_mode r g) k' data s F n mg st L Fs R2) as (f & Ef & _ & Sk & _).
  destruct (run_keeps (in_mode r g) k' data s F n mg st f L Fs R2 Ef) as (c0 & R0 & K0).
  assert (Ex : exists j, nth j (concat (f_keep f)) false = true).
  { destruct c0 as [[t y] x]. exists (flat (g_ny g) (g_nx g) (t, y, x)). destruct R0 as (T & Y & X). rewrite (shaped_cell g _ t y x Sk T Y X). exact K0. }
  assert (Cl : clean_grid (in_mode r g) data = Ok f) by (unfold clean_grid; rewrite Fs, Ef; reflexivity).
  destruct (mode_clean g data Aw) as [Ec Ek].
  assert (Cl1 : clean_grid (in_mode true g) data = Ok f) by (destruct r; congruence).
  assert (Cl2 : clean_grid (in_mode (negb r) g) data = Ok f) by (destruct r; cbn [negb]; congruence).
  destruct (Ek f Cl1) as [_ Lk]. destruct Aw as (_ & Nx & _). unfold fresh_run, run, run_preprocess in R2 |- *.
  cbn [effective t_checkpoint t_data t_scratch loads saves] in R2 |- *. rewrite Cl in R2. rewrite Cl2.
  cbn [snd] in R2 |- *. destruct (stats_of area_grid data f (f_keep f)) as [s0|]; [|discriminate]. cbn [bind fst snd] in R2 |- *. rewrite Km' in R2 |- *.
  destruct (track_merging (in_mode r g) (k_nn k') (k_centroid k') (k_overlap k') (k_areas k') (k_chunks k') (f_keep f)) as [[[F0 n0] mg0]|] eqn:Tr; [|discriminate].
  cbn [bind] in R2. assert (F0 = F /\ n0 = n /\ mg0 = mg /\ s0 = st) as (-> & -> & -> & ->) by (split; [congruence|split; [congruence|split; congruence]]). clear R2.
  rewrite Ke in Tr. destruct (steady_start (in_mode r g) (mkTracking true (k_nn k') (k_centroid k') (k_overlap k) (k_areas k') (k_chunks k')) F n mg objs f Hs' eq_refl Sk Ex Tr Ob Up Down) as (UpL & DownL).
  cbn [in_mode g_regional g_nt g_ny g_nx k_overlap] in UpL, DownL.
  assert (El : identify_grid (negb r) false (g_nt g) (g_ny g) (g_nx g) (concat (f_keep f)) = identify_grid r false (g_nt g) (g_ny g) (g_nx g) (concat (f_keep f))).
  { destruct r; cbn [negb]; [|symmetry]; exact (quiet_labels g (f_keep f) false Sk Nx Lk). }
  rewrite Ke. unfold track_merging, track_grid in Tr |- *. cbn [in_mode g_regional g_nt g_ny g_nx] in Tr |- *. rewrite El.
  set (nt := g_nt g) in *. set (ny := g_ny g) in *. set (nx := g_nx g) in *. set (thr := k_overlap k) in *.
  set (lab := time_fields nt ny nx (fst (identify_grid r false nt ny nx (concat (f_keep f))))) in *.
  set (w := repeat 1%Q (ny * nx)) in *. assert (Lw : length w = ny * nx) by apply repeat_length.
  assert (Hw : forall q, In q w -> (0 < q)%Q) by (intros q Q0; apply repeat_spec in Q0; subst; reflexivity).
  assert (Hl : labelled_series (length w) lab) by (rewrite Lw; apply fields_series; [apply (shaped_concat g); exact Sk|exact Ex]).
  assert (Ll : length lab = nt) by (unfold lab, time_fields; rewrite map_length, seq_length; reflexivity).
  unfold track_objects in *.
  rewrite (steady_loop w (k_centroid k') thr _ lab Hl Hw UpL DownL (k_chunks k') ltac:(rewrite Ll; exact Hs')) in Tr.
  rewrite (steady_loop w (k_centroid k') thr _ lab Hl Hw UpL DownL (k_chunks k') ltac:(rewrite Ll; exact Hs')).
  rewrite Tr. reflexivity.
Qed.
Print Assumptions C177_mode_steady_partial.

(** A cross that stays two cells away from every edge and moves east; R_fill = 1. *)
Definition inner_grid : grid := mkGrid false 2 7 9 (repeat true 63) 1 0 (ByAbsolute 1).
Definition inner : field :=
 [rows_of [[0;0;0;0;0;0;0;0;0]; [0;0;0;0;0;0;0;0;0]; [0;0;0;1;0;0;0;0;0]; [0;0;1;1;1;0;0;0;0]; [0;0;0;1;0;0;0;0;0]; [0;0;0;0;0;0;0;0;0]; [0;0;0;0;0;0;0;0;0]];
  rows_of [[0;0;0;0;0;0;0;0;0]; [0;0;0;0;0;0;0;0;0]; [0;0;0;0;1;0;0;0;0]; [0;0;0;1;1;1;0;0;0]; [0;0;0;0;1;0;0;0;0]; [0;0;0;0;0;0;0;0;0]; [0;0;0;0;0;0;0;0;0]]].
Example C177_case : away_from_edges inner_grid inner /\
  (exists F st, fresh_run (in_mode false inner_grid) (mkTracking false false row_centroid 0 [] [2]) inner = Ok (F, 1%Z, None, st) /\ id_of 9 F (1, 3, 5) = 1%Z).
Proof.
  split.
  - split; [reflexivity|]. split; [cbn; lia|]. split; [cbn; lia|]. split; [reflexivity|]. split.
    + intros t y T Y. cbn [inner_grid g_nt g_ny g_nx] in *. destruct t as [|[|t]]; [| |lia]; (destruct y as [|[|[|[|[|[|[|y]]]]]]]; try reflexivity; lia).
    + right. intros t y x (T & Y & X) V. cbn [inner_grid g_nt g_ny g_nx] in *.
      destruct t as [|[|t]]; [| |lia]; destruct y as [|[|[|[|[|[|[|y]]]]]]]; try lia; destruct x as [|[|[|[|[|[|[|[|[|x]]]]]]]]]; try lia; try discriminate V; cbn; lia.
  - eexists. eexists. split; [vm_compute; reflexivity|reflexivity].
Qed.
