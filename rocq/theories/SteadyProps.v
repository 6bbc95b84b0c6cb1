(** Theorem C171: when nothing merges or splits on a grid, the events are the chains of overlapping objects. *)
From Verif Require Import Base Morph Label LabelSpec LabelProofs LabelProps Filter FilterSpec FilterProofs FilterGridProofs FilterAreaProofs FilterMoreProofs FilterWitness FilterProps
  Overlap OverlapSpec Merge MergeSpec MergeProofs MergeLoop MergeWitness Partition PartitionProofs PartitionMore Cluster ClusterSpec ClusterProofs ClusterFinal ClusterPipe ClusterProps
  Run RunSpec RunProofs RunProps GridRunProps RelateSpec RelateProofs RefineProps UnmergedProofs SteadyProofs.
Open Scope nat_scope.

(** [objs] numbers the connected objects of each step: positive on the cells [on], 0 elsewhere, and one number per
    connected set of cells of a step. *)
Definition object_numbers (wrap : bool) (nt ny nx : nat) (on : cell -> Prop) (objs : list (list Z)) : Prop :=
  length objs = nt /\ (forall t, t < nt -> length (nth t objs []) = ny * nx) /\
  (forall c, in_range nt ny nx c -> (on c -> (0 < id_of nx objs c)%Z) /\ (~ on c -> id_of nx objs c = 0%Z)) /\
  (forall c d, in_range nt ny nx c -> in_range nt ny nx d -> on c -> on d ->
     (id_of nx objs c = id_of nx objs d <-> chain false wrap nt ny nx on c d)).

Lemma model_numbers g f : shaped g f ->
  object_numbers (negb (g_regional g)) (g_nt g) (g_ny g) (g_nx g) (kept_at (g_nx g) f)
    (time_fields (g_nt g) (g_ny g) (g_nx g) (fst (identify_grid (g_regional g) false (g_nt g) (g_ny g) (g_nx g) (concat f)))).
Proof.
  intro Sh. set (nt := g_nt g). set (ny := g_ny g). set (nx := g_nx g). assert (Lf := shaped_concat g f Sh). fold nt ny nx in Lf.
  destruct (identify_grid (g_regional g) false nt ny nx (concat f)) as [lab n] eqn:Ig. cbn [fst].
  destruct (C13_labels_are_connected_components _ _ _ _ _ _ _ _ Lf Ig) as (_ & Zr & Sc & Rg).
  assert (On : forall e, in_range nt ny nx e -> (extreme ny nx (concat f) e <-> kept_at nx f e)).
  { intros [[t y] x] (T & Y & X). unfold extreme. unfold ny, nx. rewrite (shaped_cell g f t y x Sh T Y X). reflexivity. }
  assert (Id : forall e, in_range nt ny nx e -> id_of nx (time_fields nt ny nx lab) e = label_of ny nx lab e).
  { intros [[t y] x] (T & Y & X). apply (time_fields_cell nt ny nx lab t y x T Y X). }
  split; [unfold time_fields; rewrite map_length, seq_length; reflexivity|]. split.
  { intros t T. unfold time_fields. rewrite (nth_map_gen _ _ _ 0) by (rewrite seq_length; exact T). unfold slice. rewrite map_length. apply slice_cells_length. }
  split.
  - intros c R. rewrite Id by exact R. split.
    + intro K. apply On in K; [|exact R].
      destruct c as [[t y] x]. destruct R as (T & Y & X).
      assert (P := proj2 (fields_cell (g_regional g) nt ny nx (concat f) Lf t y x T Y X) K).
      rewrite Ig in P. cbn [fst] in P. rewrite time_fields_cell in P by assumption. exact P.
    + intro K. apply Zr; [exact R|]. intro K'. apply K. apply On; assumption.
  - intros c d Rc Rd Kc Kd. rewrite !Id by assumption. rewrite (Sc c d Rc Rd (proj2 (On c Rc) Kc) (proj2 (On d Rd) Kd)).
    split; apply chain_mono; intros e Re; apply On; exact Re.
Qed.

(** Two numberings of the same objects agree up to renaming. *)
Lemma numbers_agree wrap nt ny nx on objs objs' : 0 < nx -> (forall c, in_range nt ny nx c -> on c \/ ~ on c) ->
  object_numbers wrap nt ny nx on objs -> object_numbers wrap nt ny nx on objs' ->
  length objs = length objs' /\
  (forall t k, t < length objs -> k < ny * nx -> ((0 < id_at objs t k)%Z <-> (0 < id_at objs' t k)%Z)) /\
  (forall t k u l, t < length objs -> k < ny * nx -> u < length objs -> l < ny * nx -> (0 < id_at objs t k)%Z -> (0 < id_at objs u l)%Z ->
     (id_at objs t k = id_at objs u l <-> id_at objs' t k = id_at objs' u l)).
Proof.
  intros Nx Dec (L & _ & P & E) (L' & _ & P' & E').
  assert (Rng : forall t k, t < nt -> k < ny * nx -> in_range nt ny nx (t, k / nx, k mod nx)).
  { intros t k T K. split; [exact T|]. split; [apply Nat.div_lt_upper_bound; lia|apply Nat.mod_upper_bound; lia]. }
  assert (Back : forall G t k, id_at G t k = id_of nx G (t, k / nx, k mod nx)).
  { intros G t k. unfold id_at, id_of. f_equal. rewrite (Nat.div_mod k nx) at 1 by lia. rewrite (Nat.mul_comm nx). reflexivity. }
  assert (Iff : forall c, in_range nt ny nx c -> ((0 < id_of nx objs c)%Z <-> on c) /\ ((0 < id_of nx objs' c)%Z <-> on c)).
  { intros c R. destruct (P c R) as [A B], (P' c R) as [A' B']. destruct (Dec c R) as [O|O].
    - split; split; intro; auto.
    - rewrite (B O), (B' O). split; split; intro X; try lia; contradiction. }
  split; [congruence|]. split.
  - intros t k T K. rewrite !Back. destruct (Iff _ (Rng t k ltac:(lia) K)) as [A B]. rewrite A, B. reflexivity.
  - intros t k u l T K U M Q1 Q2. rewrite !Back in *. assert (R1 := Rng t k ltac:(lia) K). assert (R2 := Rng u l ltac:(lia) M).
    apply (Iff _ R1) in Q1. apply (Iff _ R2) in Q2. rewrite (E _ _ R1 R2 Q1 Q2), (E' _ _ R1 R2 Q1 Q2). reflexivity.
Qed.

(** What a run with merging hands to the tracking. *)
Lemma merging_run_parts g k data F n mg st : length data = g_nt g -> k_merging k = true -> fresh_run g k data = Ok (F, n, mg, st) ->
  exists f, shaped g (f_keep f) /\ (exists j, nth j (concat (f_keep f)) false = true) /\
    track_merging g (k_nn k) (k_centroid k) (k_overlap k) (k_areas k) (k_chunks k) (f_keep f) = Ok (F, n, mg) /\
    forall k' r, k_merging k' = true -> track_merging g (k_nn k') (k_centroid k') (k_overlap k') (k_areas k') (k_chunks k') (f_keep f) = Ok r ->
      fresh_run g k' data = Ok (r, st).
Proof.
  intros L Km R. destruct (run_fills g k data _ R) as (s & Fs).
  destruct (run_parts g k data s F n mg st L Fs R) as (f & Ef & _ & Sk & _).
  destruct (run_keeps g k data s F n mg st f L Fs R Ef) as (c0 & R0 & K0).
  exists f. split; [exact Sk|]. split.
  { destruct c0 as [[t y] x]. exists (flat (g_ny g) (g_nx g) (t, y, x)). destruct R0 as (T & Y & X). rewrite (shaped_cell g _ t y x Sk T Y X). exact K0. }
  unfold fresh_run, run, run_preprocess in R. cbn [effective t_checkpoint t_data t_scratch loads saves] in R.
  unfold clean_grid in R. rewrite Fs, Ef in R. cbn [snd] in R.
  destruct (stats_of area_grid data f (f_keep f)) as [s0|] eqn:St; [|discriminate]. cbn [bind fst snd] in R. rewrite Km in R.
  destruct (track_merging g (k_nn k) (k_centroid k) (k_overlap k) (k_areas k) (k_chunks k) (f_keep f)) as [[[F0 n0] mg0]|] eqn:Tr; [|discriminate].
  cbn [bind] in R. assert (F0 = F /\ n0 = n /\ mg0 = mg /\ s0 = st) as (-> & -> & -> & ->) by (split; [congruence|split; [congruence|split; congruence]]).
  split; [reflexivity|]. intros k' [[F' n'] mg'] Km' Tr'. unfold fresh_run, run, run_preprocess.
  cbn [effective t_checkpoint t_data t_scratch loads saves]. unfold clean_grid. rewrite Fs, Ef. cbn [snd]. rewrite St. cbn [bind fst snd].
  rewrite Km', Tr'. reflexivity.
Qed.

(** ** C171 *)

(** Nothing merges: no object overlaps enough with two objects of the step before.  Nothing splits: nor with two of
    the step after.  Areas are counted in cells. *)
Definition nothing_merges (cells : nat) (thr : Q) (objs : list (list Z)) : Prop :=
  forall p q c, consecutive_overlap (repeat 1%Q cells) thr objs p c -> consecutive_overlap (repeat 1%Q cells) thr objs q c -> p = q.
Definition nothing_splits (cells : nat) (thr : Q) (objs : list (list Z)) : Prop :=
  forall p c d, consecutive_overlap (repeat 1%Q cells) thr objs p c -> consecutive_overlap (repeat 1%Q cells) thr objs p d -> c = d.

(** The objects as the model numbers them neither merge nor split either. *)
Lemma steady_model cells thr lab objs : length lab = length objs ->
  (forall t, t < length lab -> length (nth t lab []) = cells) -> (forall t, t < length objs -> length (nth t objs []) = cells) ->
  (forall t k, t < length lab -> k < cells -> ((0 < id_at lab t k)%Z <-> (0 < id_at objs t k)%Z)) ->
  (forall t k u l, t < length lab -> k < cells -> u < length lab -> l < cells -> (0 < id_at lab t k)%Z -> (0 < id_at lab u l)%Z ->
     (id_at lab t k = id_at lab u l <-> id_at objs t k = id_at objs u l)) ->
  nothing_merges cells thr objs -> nothing_splits cells thr objs ->
  nothing_merges cells thr lab /\ nothing_splits cells thr lab.
Proof.
  unfold nothing_merges, nothing_splits. set (w := repeat 1%Q cells). assert (Lw : length w = cells) by apply repeat_length. rewrite <- Lw.
  intros Len La Lb Pos Eqs Up Down.
  assert (UpL : forall p q c, consecutive_overlap w thr lab p c -> consecutive_overlap w thr lab q c -> p = q).
  { intros p q c A B.
    destruct (overlap_cell w thr lab objs Len La Lb Pos Eqs p c A) as (t & j & T & J & Ep & Ec & Pp & Pc & A').
    destruct (overlap_cell w thr lab objs Len La Lb Pos Eqs q c B) as (u & i & U & I & Eq & Ec' & Pq & _ & B').
    rewrite Ep, Eq. apply Eqs; try assumption; try lia; try congruence.
    apply (Up _ _ _ A'). assert (X : id_at objs (S t) j = id_at objs (S u) i) by (apply Eqs; try assumption; congruence). rewrite X. exact B'. }
  assert (DownL : forall p c d, consecutive_overlap w thr lab p c -> consecutive_overlap w thr lab p d -> c = d).
  { intros p c d A B.
    destruct (overlap_cell w thr lab objs Len La Lb Pos Eqs p c A) as (t & j & T & J & Ep & Ec & Pp & Pc & A').
    destruct (overlap_cell w thr lab objs Len La Lb Pos Eqs p d B) as (u & i & U & I & Ep' & Ed & _ & Pd & B').
    rewrite Ec, Ed. apply Eqs; try assumption; try congruence.
    apply (Down _ _ _ A'). assert (X : id_at objs t j = id_at objs u i) by (apply Eqs; try assumption; try lia; congruence). rewrite X. exact B'. }
  split; assumption.
Qed.

(** No merge is recorded and cells share an event exactly when their objects are joined by
    overlaps, as long as nothing merges and nothing splits.  Missing from the full claim: records where an object splits. *)
Theorem C171_steady_objects_partial (g : grid) (k : tracking) (data : field)
    (F : list (list Z)) (n : Z) (mg : option merges) (st : stats) (objs : list (list Z)) :
  length data = g_nt g -> fold_right Nat.add 0 (k_chunks k) = g_nt g -> k_merging k = true ->
  fresh_run g k data = Ok (F, n, mg, st) ->
  object_numbers (negb (g_regional g)) (g_nt g) (g_ny g) (g_nx g) (in_event (g_nx g) F) objs ->
  nothing_merges (g_ny g * g_nx g) (k_overlap k) objs -> nothing_splits (g_ny g * g_nx g) (k_overlap k) objs ->
  mg = Some (mkMerges [] [] [] [] [] []) /\
  forall c d, in_range (g_nt g) (g_ny g) (g_nx g) c -> in_range (g_nt g) (g_ny g) (g_nx g) d ->
    in_event (g_nx g) F c -> in_event (g_nx g) F d ->
    (id_of (g_nx g) F c = id_of (g_nx g) F d <->
     chained (consecutive_overlap (repeat 1%Q (g_ny g * g_nx g)) (k_overlap k) objs) (id_of (g_nx g) objs c) (id_of (g_nx g) objs d)).
Proof.
  intros L Hs Km R Ob Up Down. destruct (merging_run_parts g k data F n mg st L Km R) as (f & Sk & Ex & Tr & _).
  destruct (track_merging_ok g _ _ _ _ _ _ _ _ _ Sk Hs Ex Tr) as (Lf & Nz & _).
  assert (Mn := model_numbers g (f_keep f) Sk).
  set (nt := g_nt g) in *. set (ny := g_ny g) in *. set (nx := g_nx g) in *. set (wrap := negb (g_regional g)) in *.
  set (thr := k_overlap k) in *.
  assert (Cell : forall c, in_range nt ny nx c -> (in_event nx F c <-> kept_at nx (f_keep f) c)).
  { intros [[t y] x] (T & Y & X). cbn [in_event kept_at]. apply Nz; assumption. }
  assert (Dec : forall c, in_range nt ny nx c -> in_event nx F c \/ ~ in_event nx F c).
  { intros [[t y] x] _. unfold in_event. destruct (Z.eq_dec (id_at F t (y * nx + x)) 0); tauto. }
  unfold track_merging, track_grid in Tr. fold nt ny nx thr in Tr.
  set (lab := time_fields nt ny nx (fst (identify_grid (g_regional g) false nt ny nx (concat (f_keep f))))) in *.
  assert (Mn' : object_numbers wrap nt ny nx (in_event nx F) lab).
  { destruct Mn as (A & B & P & E). split; [exact A|]. split; [exact B|]. split.
    - intros c Rc. rewrite (Cell c Rc). exact (P c Rc).
    - intros c d Rc Rd Kc Kd. rewrite (E c d Rc Rd (proj1 (Cell c Rc) Kc) (proj1 (Cell d Rd) Kd)). split; apply chain_mono; intros e Re; apply Cell; exact Re. }
  assert (Nx : 0 < nx).
  { destruct Ex as (j & J). destruct (Nat.lt_ge_cases 0 nx) as [H|H]; [exact H|]. exfalso. assert (Lc := shaped_concat g _ Sk). fold nt ny nx in Lc.
    rewrite nth_overflow in J by nia. discriminate. }
  set (w := repeat 1%Q (ny * nx)) in *. assert (Lw : length w = ny * nx) by apply repeat_length.
  assert (Hw : forall q, In q w -> (0 < q)%Q) by (intros q Q0; apply repeat_spec in Q0; subst; reflexivity).
  assert (Hl : labelled_series (ny * nx) lab) by (apply fields_series; [apply (shaped_concat g); exact Sk|exact Ex]).
  assert (Ll : length lab = nt) by (unfold lab, time_fields; rewrite map_length, seq_length; reflexivity).
  destruct (numbers_agree wrap nt ny nx _ lab objs Nx Dec Mn' Ob) as (Len & Pos & Eqs).
  destruct (numbers_agree wrap nt ny nx _ objs lab Nx Dec Ob Mn') as (Len' & Pos' & Eqs').
  assert (La : forall t, t < length lab -> length (nth t lab []) = length w) by (rewrite Lw; intros t T; apply Hl, nth_In; exact T).
  assert (Lb : forall t, t < length objs -> length (nth t objs []) = length w) by (rewrite Lw; intros t T; apply Ob; rewrite <- (proj1 Ob); exact T).
  rewrite <- Lw in Pos, Eqs, Pos', Eqs'.
  destruct (steady_model (ny * nx) thr lab objs Len ltac:(rewrite <- Lw; exact La) ltac:(rewrite <- Lw; exact Lb) ltac:(rewrite <- Lw; exact Pos) ltac:(rewrite <- Lw; exact Eqs) Up Down) as (UpL & DownL).
  assert (Lp := steady_loop w (k_centroid k) thr (part_grid (k_nn k) (g_regional g) ny nx) lab ltac:(rewrite Lw; exact Hl) Hw UpL DownL (k_chunks k) ltac:(rewrite Ll; exact Hs)).
  destruct (C33_tracked_events_are_overlap_chains (k_nn k) (g_regional g) ny nx (k_centroid k) thr w (k_areas k) (k_chunks k) lab Lw Hw ltac:(rewrite Ll; exact Hs) Hl) as (ev & mg2 & Et & Ch & _ & _).
  rewrite Et in Tr. injection Tr as <- _ <-. rewrite Lp in Ch. cbv zeta in Ch. cbn [fst] in Ch.
  split.
  { unfold track_objects in Et. rewrite Lp in Et. cbn [fst snd] in Et. unfold initial in Et at 2 3. cbn [s_events] in Et.
    destruct (cluster_rename _ _ _ _); [|discriminate]. cbn [bind] in Et. injection Et as _ <-. reflexivity. }
  intros [[t y] x] [[u y'] x'] Rc Rd Ic Id. cbn [id_of].
  assert (Bc : y * nx + x < ny * nx) by (destruct Rc as (_ & Y & X); nia).
  assert (Bd : y' * nx + x' < ny * nx) by (destruct Rd as (_ & Y & X); nia).
  assert (Tc : t < length lab) by (rewrite Ll; apply Rc). assert (Td : u < length lab) by (rewrite Ll; apply Rd).
  assert (Pc : (0 < id_at lab t (y * nx + x))%Z) by (apply (proj1 (proj2 (proj2 Mn')) (t, y, x) Rc); exact Ic).
  assert (Pd : (0 < id_at lab u (y' * nx + x'))%Z) by (apply (proj1 (proj2 (proj2 Mn')) (u, y', x') Rd); exact Id).
  change (id_at (v_field ev) t (y * nx + x) = id_at (v_field ev) u (y' * nx + x') <->
    chained (consecutive_overlap w thr objs) (id_at objs t (y * nx + x)) (id_at objs u (y' * nx + x'))).
  rewrite (Ch t _ u _ Tc Bc Td Bd Pc Pd). rewrite <- Lw in Bc, Bd. split; intro C.
  - apply (relabel_chained w thr lab objs Len La Lb Pos Eqs _ _ C); try assumption; reflexivity.
  - apply (relabel_chained w thr objs lab Len' Lb La Pos' Eqs' _ _ C); try assumption; try (rewrite <- Len; assumption); try reflexivity.
    apply Pos; assumption.
Qed.
Print Assumptions C171_steady_objects_partial.

(** The cells of events as a record, and the numbers of their objects as the model gives them. *)
Definition event_cells (F : list (list Z)) : field := map (map (fun v => negb (Z.eqb v 0))) F.
Lemma event_cells_at nx F c : kept_at nx (event_cells F) c <-> in_event nx F c.
Proof.
  destruct c as [[t y] x]. unfold kept_at, in_event, event_cells, id_at.
  change (@nil bool) with (map (fun v => negb (Z.eqb v 0)) []). rewrite map_nth.
  change false with ((fun v => negb (Z.eqb v 0)) 0%Z). rewrite map_nth. cbv beta. destruct (Z.eqb_spec (nth (y * nx + x) (nth t F []) 0%Z) 0); cbn [negb]; split; intro; congruence.
Qed.
Definition event_objects (g : grid) (F : list (list Z)) : list (list Z) :=
  time_fields (g_nt g) (g_ny g) (g_nx g) (fst (identify_grid (g_regional g) false (g_nt g) (g_ny g) (g_nx g) (concat (event_cells F)))).
Lemma event_objects_numbers g F : shaped g (event_cells F) ->
  object_numbers (negb (g_regional g)) (g_nt g) (g_ny g) (g_nx g) (in_event (g_nx g) F) (event_objects g F).
Proof.
  intro Sh. destruct (model_numbers g _ Sh) as (A & B & P & E). split; [exact A|]. split; [exact B|]. split.
  - intros c Rc. rewrite <- (event_cells_at (g_nx g) F c). exact (P c Rc).
  - intros c d Rc Rd Kc Kd. unfold event_objects. rewrite (E c d Rc Rd (proj2 (event_cells_at _ F c) Kc) (proj2 (event_cells_at _ F d) Kd)).
    split; apply chain_mono; intros e _; apply event_cells_at.
Qed.
(** The overlapping pairs, computed. *)
Lemma overlap_pairs g F thr p c : shaped g (event_cells F) -> (exists j, nth j (concat (event_cells F)) false = true) ->
  (consecutive_overlap (repeat 1%Q (g_ny g * g_nx g)) thr (event_objects g F) p c <->
   In (p, c) (final_overlaps (repeat 1%Q (g_ny g * g_nx g)) thr (event_objects g F) (initial (repeat 1%Q (g_ny g * g_nx g)) row_centroid (event_objects g F)))).
Proof.
  intros Sh Ex. set (w := repeat 1%Q (g_ny g * g_nx g)). assert (Lw : length w = g_ny g * g_nx g) by apply repeat_length.
  assert (Hw : forall q, In q w -> (0 < q)%Q) by (intros q Q0; apply repeat_spec in Q0; subst; reflexivity).
  assert (Hl : labelled_series (length w) (event_objects g F)) by (rewrite Lw; apply fields_series; [apply (shaped_concat g); exact Sh|exact Ex]).
  symmetry. apply (final_pair w row_centroid thr (event_objects g F) (initial_props w row_centroid (event_objects g F)) Hl (start_table w row_centroid _ Hl) Hw). reflexivity.
Qed.

(** As claimed, nothing merging is enough.  False: an object parts in two, a short part and a long one, and the short part
    becomes a long object.  The two parts are given one number, of their joint area, of which the new object covers too little. *)
Definition rows_of (l : list (list nat)) : list bool := map (fun n => negb (Nat.eqb n 0)) (concat l).
Definition split_grid (nt : nat) : grid := mkGrid true nt 5 6 (repeat true 30) 0 0 (ByAbsolute 1).
Definition split_tracking (nt : nat) : tracking := mkTracking true true row_centroid (1#2) (repeat 1%Q 30) [nt].
Definition parting : field :=
 [rows_of [[1;0;0;0;0;0]; [0;0;0;0;0;0]; [1;1;1;1;1;1]; [0;0;0;0;0;0]; [0;0;0;0;0;0]];
  rows_of [[0;0;0;0;0;0]; [0;0;0;0;0;0]; [1;0;1;1;1;1]; [0;0;0;0;0;0]; [0;0;0;0;0;0]];
  rows_of [[1;0;0;0;0;0]; [1;0;0;0;0;0]; [1;0;0;0;0;0]; [1;0;0;0;0;0]; [1;0;0;0;0;0]]].
Definition parted : list (list Z) :=
 [[0;0;0;0;0;0; 0;0;0;0;0;0; 1;1;1;1;1;1; 0;0;0;0;0;0; 0;0;0;0;0;0];
  [0;0;0;0;0;0; 0;0;0;0;0;0; 1;0;1;1;1;1; 0;0;0;0;0;0; 0;0;0;0;0;0];
  [2;0;0;0;0;0; 2;0;0;0;0;0; 2;0;0;0;0;0; 2;0;0;0;0;0; 2;0;0;0;0;0]]%Z.
Theorem C171_unmerged_objects_refuted :
  exists g k data F n mg st objs c d, length data = g_nt g /\ fold_right Nat.add 0 (k_chunks k) = g_nt g /\ k_merging k = true /\
    fresh_run g k data = Ok (F, n, Some mg, st) /\ m_parents mg = [] /\
    object_numbers (negb (g_regional g)) (g_nt g) (g_ny g) (g_nx g) (in_event (g_nx g) F) objs /\
    nothing_merges (g_ny g * g_nx g) (k_overlap k) objs /\
    in_range (g_nt g) (g_ny g) (g_nx g) c /\ in_range (g_nt g) (g_ny g) (g_nx g) d /\ in_event (g_nx g) F c /\ in_event (g_nx g) F d /\
    chained (consecutive_overlap (repeat 1%Q (g_ny g * g_nx g)) (k_overlap k) objs) (id_of (g_nx g) objs c) (id_of (g_nx g) objs d) /\
    id_of (g_nx g) F c <> id_of (g_nx g) F d.
Proof.
  assert (Sh : shaped (split_grid 3) (event_cells parted)).
  { split; [reflexivity|]. intros v V. cbn [event_cells map parted In] in V. destruct V as [<-|[<-|[<-|[]]]]; reflexivity. }
  assert (Ex : exists j, nth j (concat (event_cells parted)) false = true) by (exists 12; reflexivity).
  assert (Pr : final_overlaps (repeat 1%Q 30) (1#2) (event_objects (split_grid 3) parted) (initial (repeat 1%Q 30) row_centroid (event_objects (split_grid 3) parted)) = [(1, 2); (1, 3); (2, 4)]%Z)
    by (vm_compute; reflexivity).
  assert (Ov := fun p c => overlap_pairs (split_grid 3) parted (1#2) p c Sh Ex).
  change (g_ny (split_grid 3) * g_nx (split_grid 3)) with 30 in Ov. rewrite Pr in Ov.
  exists (split_grid 3), (split_tracking 3), parting, parted, 2%Z. eexists. eexists. exists (event_objects (split_grid 3) parted), (1, 2, 0), (2, 2, 0).
  split; [reflexivity|]. split; [reflexivity|]. split; [reflexivity|]. split; [vm_compute; reflexivity|]. split; [reflexivity|].
  split; [apply event_objects_numbers; exact Sh|]. split.
  { intros p q c A B. change (g_ny (split_grid 3) * g_nx (split_grid 3)) with 30 in A, B. change (k_overlap (split_tracking 3)) with (1#2)%Q in A, B.
    apply Ov in A, B. cbn [In] in A, B.
    destruct A as [A|[A|[A|[]]]]; destruct B as [B|[B|[B|[]]]]; congruence. }
  split; [simpl; lia|]. split; [simpl; lia|]. split; [discriminate|]. split; [discriminate|]. split; [|discriminate].
  change (g_ny (split_grid 3) * g_nx (split_grid 3)) with 30. change (k_overlap (split_tracking 3)) with (1#2)%Q.
  replace (id_of (g_nx (split_grid 3)) (event_objects (split_grid 3) parted) (1, 2, 0)) with 2%Z by (vm_compute; reflexivity).
  replace (id_of (g_nx (split_grid 3)) (event_objects (split_grid 3) parted) (2, 2, 0)) with 4%Z by (vm_compute; reflexivity).
  eapply chained_fwd; [|constructor]. apply Ov. cbn. auto.
Qed.
Print Assumptions C171_unmerged_objects_refuted.

(** Two objects that move east, one ending as the other goes on. *)
Definition moving : field :=
 [rows_of [[1;0;0;0;0;0]; [0;0;0;0;0;0]; [1;1;1;0;0;0]; [0;0;0;0;0;0]; [0;0;1;1;0;0]];
  rows_of [[0;0;0;0;0;0]; [0;0;0;0;0;0]; [0;1;1;1;0;0]; [0;0;0;0;0;0]; [0;0;0;1;1;0]];
  rows_of [[0;0;0;0;0;0]; [0;0;0;0;0;0]; [0;0;1;1;1;0]; [0;0;0;0;0;0]; [0;0;0;0;0;0]]].

Definition moved : list (list Z) :=
 [[0;0;0;0;0;0; 0;0;0;0;0;0; 1;1;1;0;0;0; 0;0;0;0;0;0; 0;0;2;2;0;0];
  [0;0;0;0;0;0; 0;0;0;0;0;0; 0;1;1;1;0;0; 0;0;0;0;0;0; 0;0;0;2;2;0];
  [0;0;0;0;0;0; 0;0;0;0;0;0; 0;0;1;1;1;0; 0;0;0;0;0;0; 0;0;0;0;0;0]]%Z.
Example C171_case :
  (exists mg st, fresh_run (split_grid 3) (split_tracking 3) moving = Ok (moved, 2%Z, mg, st)) /\
  object_numbers false 3 5 6 (in_event 6 moved) (event_objects (split_grid 3) moved) /\
  nothing_merges 30 (1#2) (event_objects (split_grid 3) moved) /\ nothing_splits 30 (1#2) (event_objects (split_grid 3) moved).
Proof.
  assert (Sh : shaped (split_grid 3) (event_cells moved)).
  { split; [reflexivity|]. intros v V. cbn [event_cells map moved In] in V. destruct V as [<-|[<-|[<-|[]]]]; reflexivity. }
  assert (Ex : exists j, nth j (concat (event_cells moved)) false = true) by (exists 12; reflexivity).
  assert (Pr : final_overlaps (repeat 1%Q 30) (1#2) (event_objects (split_grid 3) moved) (initial (repeat 1%Q 30) row_centroid (event_objects (split_grid 3) moved)) = [(1, 3); (2, 4); (3, 5)]%Z)
    by (vm_compute; reflexivity).
  assert (Ov := fun p c => overlap_pairs (split_grid 3) moved (1#2) p c Sh Ex).
  change (g_ny (split_grid 3) * g_nx (split_grid 3)) with 30 in Ov. rewrite Pr in Ov.
  split; [eexists; eexists; vm_compute; reflexivity|]. split; [exact (event_objects_numbers (split_grid 3) moved Sh)|]. split.
  - intros p q c A B. apply Ov in A, B. cbn [In] in A, B. destruct A as [A|[A|[A|[]]]]; destruct B as [B|[B|[B|[]]]]; congruence.
  - intros p c d A B. apply Ov in A, B. cbn [In] in A, B. destruct A as [A|[A|[A|[]]]]; destruct B as [B|[B|[B|[]]]]; congruence.
Qed.

(** ** C172: settings that only matter for merges and splits *)

Lemma steady_start g k F n mg objs f : fold_right Nat.add 0 (k_chunks k) = g_nt g -> k_merging k = true ->
  shaped g (f_keep f) -> (exists j, nth j (concat (f_keep f)) false = true) ->
  track_merging g (k_nn k) (k_centroid k) (k_overlap k) (k_areas k) (k_chunks k) (f_keep f) = Ok (F, n, mg) ->
  object_numbers (negb (g_regional g)) (g_nt g) (g_ny g) (g_nx g) (in_event (g_nx g) F) objs ->
  nothing_merges (g_ny g * g_nx g) (k_overlap k) objs -> nothing_splits (g_ny g * g_nx g) (k_overlap k) objs ->
  let lab := time_fields (g_nt g) (g_ny g) (g_nx g) (fst (identify_grid (g_regional g) false (g_nt g) (g_ny g) (g_nx g) (concat (f_keep f)))) in
  nothing_merges (g_ny g * g_nx g) (k_overlap k) lab /\ nothing_splits (g_ny g * g_nx g) (k_overlap k) lab.
Proof.
  intros Hs Km Sk Ex Tr Ob Up Down lab0. unfold lab0. clear lab0.
  destruct (track_merging_ok g _ _ _ _ _ _ _ _ _ Sk Hs Ex Tr) as (Lf & Nz & _).
  assert (Mn := model_numbers g (f_keep f) Sk).
  set (nt := g_nt g) in *. set (ny := g_ny g) in *. set (nx := g_nx g) in *. set (wrap := negb (g_regional g)) in *.
  set (thr := k_overlap k) in *.
  assert (Cell : forall c, in_range nt ny nx c -> (in_event nx F c <-> kept_at nx (f_keep f) c)).
  { intros [[t y] x] (T & Y & X). cbn [in_event kept_at]. apply Nz; assumption. }
  assert (Dec : forall c, in_range nt ny nx c -> in_event nx F c \/ ~ in_event nx F c).
  { intros [[t y] x] _. unfold in_event. destruct (Z.eq_dec (id_at F t (y * nx + x)) 0); tauto. }
  unfold track_merging, track_grid in Tr. fold nt ny nx thr in Tr.
  set (lab := time_fields nt ny nx (fst (identify_grid (g_regional g) false nt ny nx (concat (f_keep f))))) in *.
  assert (Mn' : object_numbers wrap nt ny nx (in_event nx F) lab).
  { destruct Mn as (A & B & P & E). split; [exact A|]. split; [exact B|]. split.
    - intros c Rc. rewrite (Cell c Rc). exact (P c Rc).
    - intros c d Rc Rd Kc Kd. rewrite (E c d Rc Rd (proj1 (Cell c Rc) Kc) (proj1 (Cell d Rd) Kd)). split; apply chain_mono; intros e Re; apply Cell; exact Re. }
  assert (Nx : 0 < nx).
  { destruct Ex as (j & J). destruct (Nat.lt_ge_cases 0 nx) as [H|H]; [exact H|]. exfalso. assert (Lc := shaped_concat g _ Sk). fold nt ny nx in Lc.
    rewrite nth_overflow in J by nia. discriminate. }
  set (w := repeat 1%Q (ny * nx)) in *. assert (Lw : length w = ny * nx) by apply repeat_length.
  assert (Hw : forall q, In q w -> (0 < q)%Q) by (intros q Q0; apply repeat_spec in Q0; subst; reflexivity).
  assert (Hl : labelled_series (ny * nx) lab) by (apply fields_series; [apply (shaped_concat g); exact Sk|exact Ex]).
  assert (Ll : length lab = nt) by (unfold lab, time_fields; rewrite map_length, seq_length; reflexivity).
  destruct (numbers_agree wrap nt ny nx _ lab objs Nx Dec Mn' Ob) as (Len & Pos & Eqs).
  destruct (numbers_agree wrap nt ny nx _ objs lab Nx Dec Ob Mn') as (Len' & Pos' & Eqs').
  assert (La : forall t, t < length lab -> length (nth t lab []) = length w) by (rewrite Lw; intros t T; apply Hl, nth_In; exact T).
  assert (Lb : forall t, t < length objs -> length (nth t objs []) = length w) by (rewrite Lw; intros t T; apply Ob; rewrite <- (proj1 Ob); exact T).
  rewrite <- Lw in Pos, Eqs, Pos', Eqs'.
  destruct (steady_model (ny * nx) thr lab objs Len ltac:(rewrite <- Lw; exact La) ltac:(rewrite <- Lw; exact Lb) ltac:(rewrite <- Lw; exact Pos) ltac:(rewrite <- Lw; exact Eqs) Up Down) as (UpL & DownL).
  split; assumption.
Qed.


Lemma areas_any_centroid w cent cent' all x : areas_in (initial_props w cent all) x = areas_in (initial_props w cent' all) x.
Proof.
  unfold areas_in, initial_props. induction all as [|f all IH]; [reflexivity|]. cbn [flat_map]. rewrite !lookup_app.
  assert (G : forall ids, match lookup x (map (fun id => (id, measure w cent id f)) ids), lookup x (map (fun id => (id, measure w cent' id f)) ids) with
                          | Some p, Some q => p_area p = p_area q | None, None => True | _, _ => False end).
  { induction ids as [|i ids IHi]; [exact I|]. cbn [map lookup]. destruct (Z.eqb i x); [reflexivity|exact IHi]. }
  specialize (G (unique_pos f)). unfold object_properties.
  destruct (lookup x (map (fun id => (id, measure w cent id f)) (unique_pos f))), (lookup x (map (fun id => (id, measure w cent' id f)) (unique_pos f)));
    [cbn [option_map]; congruence|destruct G|destruct G|exact IH].
Qed.
Lemma final_any_centroid w cent cent' thr lab :
  final_overlaps w thr lab (initial w cent lab) = final_overlaps w thr lab (initial w cent' lab).
Proof.
  unfold final_overlaps. f_equal. unfold enforce_threshold. apply filter_ext. intro r. unfold over_threshold, initial. cbn [s_props].
  assert (A := areas_any_centroid w cent cent' lab (r_from r)). assert (B := areas_any_centroid w cent cent' lab (r_to r)). unfold areas_in in A, B.
  destruct (lookup (r_from r) (initial_props w cent lab)), (lookup (r_from r) (initial_props w cent' lab)); try discriminate; [|reflexivity].
  destruct (lookup (r_to r) (initial_props w cent lab)), (lookup (r_to r) (initial_props w cent' lab)); try discriminate; [|reflexivity].
  cbn [option_map] in A, B. injection A as ->. injection B as ->. reflexivity.
Qed.

(** As claimed, without merges the partitioning rule and the time chunks make no difference.  False: with chunks of one
    step the parts of an object that splits are not given one number. *)
Definition one_step_chunks : tracking := mkTracking true true row_centroid (1#2) (repeat 1%Q 30) [1; 1; 1].
Theorem C172_unmerged_settings_refuted :
  exists g k k' data F n mg st F' n' mg' st' objs, length data = g_nt g /\ fold_right Nat.add 0 (k_chunks k) = g_nt g /\ fold_right Nat.add 0 (k_chunks k') = g_nt g /\
    k_merging k = true /\ k_merging k' = true /\ k_overlap k' = k_overlap k /\
    fresh_run g k data = Ok (F, n, Some mg, st) /\ fresh_run g k' data = Ok (F', n', Some mg', st') /\ m_parents mg = [] /\ m_parents mg' = [] /\
    object_numbers (negb (g_regional g)) (g_nt g) (g_ny g) (g_nx g) (in_event (g_nx g) F) objs /\
    nothing_merges (g_ny g * g_nx g) (k_overlap k) objs /\ n' <> n.
Proof.
  assert (Sh : shaped (split_grid 3) (event_cells parted)).
  { split; [reflexivity|]. intros v V. cbn [event_cells map parted In] in V. destruct V as [<-|[<-|[<-|[]]]]; reflexivity. }
  assert (Ex : exists j, nth j (concat (event_cells parted)) false = true) by (exists 12; reflexivity).
  assert (Pr : final_overlaps (repeat 1%Q 30) (1#2) (event_objects (split_grid 3) parted) (initial (repeat 1%Q 30) row_centroid (event_objects (split_grid 3) parted)) = [(1, 2); (1, 3); (2, 4)]%Z)
    by (vm_compute; reflexivity).
  assert (Ov := fun p c => overlap_pairs (split_grid 3) parted (1#2) p c Sh Ex).
  change (g_ny (split_grid 3) * g_nx (split_grid 3)) with 30 in Ov. rewrite Pr in Ov.
  exists (split_grid 3), (split_tracking 3), one_step_chunks, parting, parted, 2%Z. eexists. eexists. eexists. exists 1%Z. eexists. eexists. exists (event_objects (split_grid 3) parted).
  split; [reflexivity|]. split; [reflexivity|]. split; [reflexivity|]. split; [reflexivity|]. split; [reflexivity|]. split; [reflexivity|].
  split; [vm_compute; reflexivity|]. split; [vm_compute; reflexivity|]. split; [reflexivity|]. split; [reflexivity|].
  split; [apply event_objects_numbers; exact Sh|]. split; [|discriminate].
  intros p q c A B. change (g_ny (split_grid 3) * g_nx (split_grid 3)) with 30 in A, B. change (k_overlap (split_tracking 3)) with (1#2)%Q in A, B.
  apply Ov in A, B. cbn [In] in A, B. destruct A as [A|[A|[A|[]]]]; destruct B as [B|[B|[B|[]]]]; congruence.
Qed.
Print Assumptions C172_unmerged_settings_refuted.

(** When nothing merges and nothing splits, a run with any other partitioning rule, centroids, cell areas and time
    chunks gives the same ID field, number of events, merges (none) and statistics.  Missing: records where an object splits. *)
Theorem C172_settings_partial (g : grid) (k k' : tracking) (data : field)
    (F : list (list Z)) (n : Z) (mg : option merges) (st : stats) (objs : list (list Z)) :
  length data = g_nt g -> fold_right Nat.add 0 (k_chunks k) = g_nt g -> fold_right Nat.add 0 (k_chunks k') = g_nt g ->
  k_merging k = true -> k_merging k' = true -> k_overlap k' = k_overlap k ->
  fresh_run g k data = Ok (F, n, mg, st) ->
  object_numbers (negb (g_regional g)) (g_nt g) (g_ny g) (g_nx g) (in_event (g_nx g) F) objs ->
  nothing_merges (g_ny g * g_nx g) (k_overlap k) objs -> nothing_splits (g_ny g * g_nx g) (k_overlap k) objs ->
  fresh_run g k' data = Ok (F, n, mg, st).
Proof.
  intros L Hs Hs' Km Km' Ke R Ob Up Down. destruct (merging_run_parts g k data F n mg st L Km R) as (f & Sk & Ex & Tr & Back).
  apply (Back k' (F, n, mg) Km'). rewrite Ke.
  destruct (steady_start g k F n mg objs f Hs Km Sk Ex Tr Ob Up Down) as (UpL & DownL).
  unfold track_merging, track_grid in Tr |- *.
  set (nt := g_nt g) in *. set (ny := g_ny g) in *. set (nx := g_nx g) in *. set (thr := k_overlap k) in *.
  set (lab := time_fields nt ny nx (fst (identify_grid (g_regional g) false nt ny nx (concat (f_keep f))))) in *.
  set (w := repeat 1%Q (ny * nx)) in *. assert (Lw : length w = ny * nx) by apply repeat_length.
  assert (Hw : forall q, In q w -> (0 < q)%Q) by (intros q Q0; apply repeat_spec in Q0; subst; reflexivity).
  assert (Hl : labelled_series (length w) lab) by (rewrite Lw; apply fields_series; [apply (shaped_concat g); exact Sk|exact Ex]).
  assert (Ll : length lab = nt) by (unfold lab, time_fields; rewrite map_length, seq_length; reflexivity).
  unfold track_objects in *.
  rewrite (steady_loop w (k_centroid k) thr _ lab Hl Hw UpL DownL (k_chunks k) ltac:(rewrite Ll; exact Hs)) in Tr.
  rewrite (steady_loop w (k_centroid k') thr _ lab Hl Hw UpL DownL (k_chunks k') ltac:(rewrite Ll; exact Hs')).
  cbn [fst snd] in *. rewrite (final_any_centroid w (k_centroid k') (k_centroid k)).
  change (s_events (initial w (k_centroid k') lab)) with (@nil event). change (s_events (initial w (k_centroid k) lab)) with (@nil event) in Tr.
  set (pairs := final_overlaps w thr lab (initial w (k_centroid k) lab)) in *.
  unfold cluster_rename in *. destruct (event_table lab pairs) as [[tab m]|e]; [|discriminate]. cbn [merge_dataset m_parents map forallb bind] in *.
  unfold n_events in *. cbn [v_field] in *. exact Tr.
Qed.
Print Assumptions C172_settings_partial.
Definition other_settings : tracking := mkTracking true false (fun _ => (0, 0)%Q) (1#2) (repeat 3%Q 30) [1; 1; 1].
Example C172_case : exists mg st, fresh_run (split_grid 3) (split_tracking 3) moving = Ok (moved, 2%Z, mg, st) /\
  fresh_run (split_grid 3) other_settings moving = Ok (moved, 2%Z, mg, st).
Proof. eexists. eexists. split; vm_compute; reflexivity. Qed.

(** C163 on grids with merging: when at the lower threshold nothing merges and nothing splits, the run at the higher
    threshold returns as well, with the same event cells, statistics and no merges; its events are parts of those at the
    lower threshold, and there are at least as many.  Missing: records with merges or splits. *)
Theorem C163_steady_grid_partial (g : grid) (k k' : tracking) (data : field)
    (F : list (list Z)) (n : Z) (mg : option merges) (st : stats) (objs : list (list Z)) :
  length data = g_nt g -> fold_right Nat.add 0 (k_chunks k) = g_nt g -> fold_right Nat.add 0 (k_chunks k') = g_nt g ->
  k_merging k = true -> k_merging k' = true -> (k_overlap k <= k_overlap k')%Q ->
  fresh_run g k data = Ok (F, n, mg, st) ->
  object_numbers (negb (g_regional g)) (g_nt g) (g_ny g) (g_nx g) (in_event (g_nx g) F) objs ->
  nothing_merges (g_ny g * g_nx g) (k_overlap k) objs -> nothing_splits (g_ny g * g_nx g) (k_overlap k) objs ->
  exists F' n', fresh_run g k' data = Ok (F', n', mg, st) /\
  (forall c, in_range (g_nt g) (g_ny g) (g_nx g) c -> (id_of (g_nx g) F' c <> 0%Z <-> id_of (g_nx g) F c <> 0%Z)) /\
  (forall c d, in_range (g_nt g) (g_ny g) (g_nx g) c -> in_range (g_nt g) (g_ny g) (g_nx g) d -> id_of (g_nx g) F' c <> 0%Z ->
     id_of (g_nx g) F' c = id_of (g_nx g) F' d -> id_of (g_nx g) F c = id_of (g_nx g) F d) /\
  (n <= n')%Z.
Proof.
  intros L Hs Hs' Km Km' Le R Ob Up Down. destruct (merging_run_parts g k data F n mg st L Km R) as (f & Sk & Ex & Tr & Back).
  assert (Tr' : exists F' n' mg', track_merging g (k_nn k') (k_centroid k') (k_overlap k') (k_areas k') (k_chunks k') (f_keep f) = Ok (F', n', mg')).
  { unfold track_merging. destruct (C25_tracked_cells_are_the_data (k_nn k') (g_regional g) (g_nt g) (g_ny g) (g_nx g) (k_centroid k') (k_overlap k') (k_areas k') (k_chunks k') (concat (f_keep f)) (shaped_concat g _ Sk) Hs' Ex)
      as (ev & mg' & E & _). rewrite E. eauto. }
  destruct Tr' as (F' & n' & mg' & Tr'). assert (R' := Back k' _ Km' Tr').
  destruct (track_merging_ok g _ _ _ _ _ _ _ _ _ Sk Hs Ex Tr) as (Lf & Nz & On).
  destruct (track_merging_ok g _ _ _ _ _ _ _ _ _ Sk Hs' Ex Tr') as (Lf' & Nz' & On').
  set (nt := g_nt g) in *. set (ny := g_ny g) in *. set (nx := g_nx g) in *.
  assert (Cm : forall c, in_range nt ny nx c -> (id_of nx F c <> 0%Z <-> kept_at nx (f_keep f) c)) by (intros [[t y] x] (T & Y & X); apply Nz; assumption).
  assert (Cm' : forall c, in_range nt ny nx c -> (id_of nx F' c <> 0%Z <-> kept_at nx (f_keep f) c)) by (intros [[t y] x] (T & Y & X); apply Nz'; assumption).
  assert (Same : forall G c, id_of nx G c <> 0%Z <-> in_event nx G c) by (intros G [[t y] x]; reflexivity).
  assert (Ev : forall c, in_range nt ny nx c -> (in_event nx F' c <-> in_event nx F c)) by (intros c Rc; rewrite <- !Same, (Cm c Rc), (Cm' c Rc); reflexivity).
  assert (Ob' : object_numbers (negb (g_regional g)) nt ny nx (in_event nx F') objs).
  { destruct Ob as (A & B & P & E). split; [exact A|]. split; [exact B|]. split.
    - intros c Rc. rewrite (Ev c Rc). exact (P c Rc).
    - intros c d Rc Rd Kc Kd. rewrite (E c d Rc Rd (proj1 (Ev c Rc) Kc) (proj1 (Ev d Rd) Kd)). split; apply chain_mono; intros e Re; apply Ev; exact Re. }
  set (w := repeat 1%Q (ny * nx)) in *. assert (Lw : length w = ny * nx) by apply repeat_length.
  assert (Hw : forall q, In q w -> (0 < q)%Q) by (intros q Q0; apply repeat_spec in Q0; subst; reflexivity).
  assert (Low : forall p c, consecutive_overlap w (k_overlap k') objs p c -> consecutive_overlap w (k_overlap k) objs p c).
  { intros p c. apply lower_overlap; [exact Hw| |exact Le]. destruct Ob as (A & B & _). rewrite A, Lw. exact B. }
  assert (Up' : nothing_merges (ny * nx) (k_overlap k') objs) by (intros p q c A B; apply (Up p q c); apply Low; assumption).
  assert (Down' : nothing_splits (ny * nx) (k_overlap k') objs) by (intros p c d A B; apply (Down p c d); apply Low; assumption).
  destruct (C171_steady_objects_partial g k data F n mg st objs L Hs Km R Ob Up Down) as (Em & Ch).
  destruct (C171_steady_objects_partial g k' data F' n' mg' st objs L Hs' Km' R' Ob' Up' Down') as (Em' & Ch').
  exists F', n'. split; [rewrite R', Em, Em'; reflexivity|]. split; [intros c Rc; rewrite (Cm c Rc), (Cm' c Rc); reflexivity|].
  assert (Ref : forall c d, in_range nt ny nx c -> in_range nt ny nx d -> id_of nx F' c <> 0%Z -> id_of nx F' c = id_of nx F' d -> id_of nx F c = id_of nx F d).
  { intros c d Rc Rd Nc Eq. assert (Nd : id_of nx F' d <> 0%Z) by congruence.
    apply (Ch c d Rc Rd); [apply Same, (Cm c Rc), (Cm' c Rc), Nc|apply Same, (Cm d Rd), (Cm' d Rd), Nd|].
    apply (Ch' c d Rc Rd) in Eq; [|apply Same; exact Nc|apply Same; exact Nd]. exact (chained_mono _ _ _ _ Low Eq). }
  split; [exact Ref|].
  assert (Pn : (0 <= n')%Z).
  { destruct (Z.le_gt_cases 0 n'); [assumption|]. exfalso. destruct Ex as (j & J). assert (Lc := shaped_concat g _ Sk). fold nt ny nx in Lc.
    assert (J' : j < nt * ny * nx) by (rewrite <- Lc; destruct (Nat.lt_ge_cases j (length (concat (f_keep f)))) as [H'|H']; [exact H'|rewrite nth_overflow in J by exact H'; discriminate]).
    assert (Nx : 0 < nx) by nia. assert (Ny : 0 < ny) by nia.
    assert (X : j mod nx < nx) by (apply Nat.mod_upper_bound; lia).
    assert (Y : (j / nx) mod ny < ny) by (apply Nat.mod_upper_bound; lia).
    assert (T : j / nx / ny < nt) by (apply Nat.div_lt_upper_bound; [lia|]; apply Nat.div_lt_upper_bound; nia).
    assert (K : kept_at nx (f_keep f) (j / nx / ny, (j / nx) mod ny, j mod nx)).
    { assert (Sc := shaped_cell g (f_keep f) _ _ _ Sk T Y X). fold ny nx in Sc. cbn [kept_at]. rewrite <- Sc.
      replace (flat ny nx (j / nx / ny, (j / nx) mod ny, j mod nx)) with j; [exact J|]. unfold flat.
      rewrite (Nat.div_mod j nx) at 1 by lia. rewrite (Nat.div_mod (j / nx) ny) at 1 by lia. ring. }
    revert T Y X K. generalize (j / nx / ny), ((j / nx) mod ny), (j mod nx). intros t y x T Y X K.
    assert (Q0 : id_of nx F' (t, y, x) <> 0%Z) by (apply Cm'; [split; [exact T|split; assumption]|exact K]).
    assert (Q1 : (1 <= id_of nx F' (t, y, x) <= n')%Z); [|lia].
    apply On'. do 3 eexists. split; [exact T|]. split; [exact Y|]. split; [exact X|]. split; [exact Q0|reflexivity]. }
  apply (count_le (fun a b => exists c, in_range nt ny nx c /\ id_of nx F c = a /\ id_of nx F' c = b)); [| |exact Pn].
  - intros a A. apply On in A. destruct A as (t & y & x & T & Y & X & Na & I).
    assert (Rc : in_range nt ny nx (t, y, x)) by (split; [exact T|split; assumption]).
    exists (id_of nx F' (t, y, x)). split; [|exists (t, y, x); auto].
    apply On'. exists t, y, x. split; [exact T|]. split; [exact Y|]. split; [exact X|]. split; [|reflexivity].
    apply (Cm' (t, y, x) Rc). apply (Cm (t, y, x) Rc). cbn [id_of]. unfold id_at in I. congruence.
  - intros a b j A B (c & Rc & Ea & Ej) (d & Rd & Eb & Ej'). rewrite <- Ea, <- Eb. apply Ref; try assumption; [|congruence].
    apply (Cm' c Rc), (Cm c Rc). rewrite Ea. lia.
Qed.
Print Assumptions C163_steady_grid_partial.
Definition steady_tracking (thr : Q) : tracking := mkTracking true true row_centroid thr (repeat 1%Q 30) [2; 1].
Example C163_steady_case : exists mg st, fresh_run (split_grid 3) (steady_tracking (1#2)) moving = Ok (moved, 2%Z, mg, st) /\
  fresh_run (split_grid 3) (steady_tracking (3#5)) moving =
    Ok ([[0;0;0;0;0;0; 0;0;0;0;0;0; 1;1;1;0;0;0; 0;0;0;0;0;0; 0;0;2;2;0;0];
         [0;0;0;0;0;0; 0;0;0;0;0;0; 0;1;1;1;0;0; 0;0;0;0;0;0; 0;0;0;3;3;0];
         [0;0;0;0;0;0; 0;0;0;0;0;0; 0;0;1;1;1;0; 0;0;0;0;0;0; 0;0;0;0;0;0]]%Z, 3%Z, mg, st).
Proof. eexists. eexists. split; vm_compute; reflexivity. Qed.
