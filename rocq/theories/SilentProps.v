(** Theorem C176: an empty merges dataset means that nothing merged. *)
From Verif Require Import Base Morph Label LabelSpec LabelProofs LabelProps Filter FilterSpec FilterProofs FilterGridProofs FilterAreaProofs FilterMoreProofs FilterWitness FilterProps
  Overlap OverlapSpec Merge MergeSpec MergeProofs MergeLoop MergeWitness Partition PartitionProofs PartitionMore Cluster ClusterSpec ClusterProofs ClusterFinal ClusterPipe ClusterProps
  Run RunSpec RunProofs RunProps GridRunProps RelateSpec RelateProofs RefineProps UnmergedProofs SteadyProofs SteadyProps SilentProofs.
Open Scope nat_scope.

(** ** C176 *)

(** The merges dataset is empty exactly when no object overlaps enough with two objects of the step before, as long as no
    object overlaps enough with two of the step after.  Missing from the full claim: records where an object splits. *)
Theorem C176_no_merge_recorded_partial (g : grid) (k : tracking) (data : field)
    (F : list (list Z)) (n : Z) (mg : merges) (st : stats) (objs : list (list Z)) :
  length data = g_nt g -> fold_right Nat.add 0 (k_chunks k) = g_nt g -> Forall (fun m => 1 <= m) (k_chunks k) -> k_merging k = true ->
  fresh_run g k data = Ok (F, n, Some mg, st) ->
  object_numbers (negb (g_regional g)) (g_nt g) (g_ny g) (g_nx g) (in_event (g_nx g) F) objs ->
  nothing_splits (g_ny g * g_nx g) (k_overlap k) objs ->
  (m_parents mg = [] <-> nothing_merges (g_ny g * g_nx g) (k_overlap k) objs).
Proof.
  intros L Hs Cs Km R Ob Down. split.
  2:{ intro Up. destruct (C171_steady_objects_partial g k data F n (Some mg) st objs L Hs Km R Ob Up Down) as (E & _). injection E as ->. reflexivity. }
  intro Em. destruct (merging_run_parts g k data F n (Some mg) st L Km R) as (f & Sk & Ex & Tr & _).
  destruct (track_merging_ok g _ _ _ _ _ _ _ _ _ Sk Hs Ex Tr) as (Lf & Nz & _).
  assert (Mn := model_numbers g (f_keep f) Sk).
  set (nt := g_nt g) in *. set (ny := g_ny g) in *. set (nx := g_nx g) in *. set (wrap := negb (g_regional g)) in *.
  set (thr := k_overlap k) in *.
  assert (Cell : forall c, in_range nt ny nx c -> (in_event nx F c <-> kept_at nx (f_keep f) c)).
  { intros [[t y] x] (T & Y & X). cbn [in_event kept_at]. apply Nz; assumption. }
  assert (Dec : forall c, in_range nt ny nx c -> in_event nx F c \/ ~ in_event nx F c).
  { intros [[t y] x] _. unfold in_event. destruct (Z.eq_dec (id_at F t (y * nx + x)) 0); tauto. }
  unfold track_merging, track_grid in Tr. fold nt ny nx thr in Tr.
  set (lab := time_fields nt ny nx (fst (identify_grid (g_regional g) false nt ny nx (concat (f_keep f))))) in *.
  assert (Mn' : object_numbers wrap nt ny nx (in_event nx F) lab).
  { destruct Mn as (A & B & P & E). split; [exact A|]. split; [exact B|]. split.
    - intros c Rc. rewrite (Cell c Rc). exact (P c Rc).
    - intros c d Rc Rd Kc Kd. rewrite (E c d Rc Rd (proj1 (Cell c Rc) Kc) (proj1 (Cell d Rd) Kd)). split; apply chain_mono; intros e Re; apply Cell; exact Re. }
  assert (Nx : 0 < nx).
  { destruct Ex as (j & J). destruct (Nat.lt_ge_cases 0 nx) as [H|H]; [exact H|]. exfalso. assert (Lc := shaped_concat g _ Sk). fold nt ny nx in Lc.
    rewrite nth_overflow in J by nia. discriminate. }
  set (w := repeat 1%Q (ny * nx)) in *. assert (Lw : length w = ny * nx) by apply repeat_length.
  assert (Hw : forall q, In q w -> (0 < q)%Q) by (intros q Q0; apply repeat_spec in Q0; subst; reflexivity).
  assert (Hl : labelled_series (ny * nx) lab) by (apply fields_series; [apply (shaped_concat g); exact Sk|exact Ex]).
  assert (Ll : length lab = nt) by (unfold lab, time_fields; rewrite map_length, seq_length; reflexivity).
  destruct (numbers_agree wrap nt ny nx _ lab objs Nx Dec Mn' Ob) as (Len & Pos & Eqs).
  destruct (numbers_agree wrap nt ny nx _ objs lab Nx Dec Ob Mn') as (Len' & Pos' & Eqs').
  assert (La : forall t, t < length lab -> length (nth t lab []) = length w) by (rewrite Lw; intros t T; apply Hl, nth_In; exact T).
  assert (Lb : forall t, t < length objs -> length (nth t objs []) = length w) by (rewrite Lw; intros t T; apply Ob; rewrite <- (proj1 Ob); exact T).
  rewrite <- Lw in Pos, Eqs, Pos', Eqs'.
  fold w in Down.
  assert (DownL : forall p c d, consecutive_overlap w thr lab p c -> consecutive_overlap w thr lab p d -> c = d).
  { intros p c d A B.
    destruct (overlap_cell w thr lab objs Len La Lb Pos Eqs p c A) as (t & j & T & J & Ep & Ec & Pp & Pc & A').
    destruct (overlap_cell w thr lab objs Len La Lb Pos Eqs p d B) as (u & i & U & I & Ep' & Ed & _ & Pd & B').
    rewrite Ec, Ed. apply Eqs; try assumption; try congruence.
    apply (Down _ _ _ A'). assert (X : id_at objs t j = id_at objs u i) by (apply Eqs; try assumption; try lia; congruence). rewrite X. exact B'. }
  assert (UpL := silent_loop w (k_centroid k) thr (part_grid (k_nn k) (g_regional g) ny nx) lab ltac:(rewrite Lw; exact Hl) Hw DownL (k_chunks k) ltac:(rewrite Ll; exact Hs) Cs).
  assert (Ev : s_events (snd (split_and_merge w (k_centroid k) thr (part_grid (k_nn k) (g_regional g) ny nx) (split_by (k_chunks k) lab))) = []).
  { unfold track_objects in Tr. destruct (cluster_rename _ _ _ _); [|discriminate]. cbn [bind] in Tr. injection Tr as _ _ <-.
    unfold merge_dataset in Em. cbn [m_parents] in Em. apply map_eq_nil in Em. apply map_eq_nil in Em. exact Em. }
  specialize (UpL Ev). intros p q c A B. fold w in A, B.
  destruct (overlap_cell w thr objs lab Len' Lb La Pos' Eqs' p c A) as (t & j & T & J & Ep & Ec & Pp & Pc & A').
  destruct (overlap_cell w thr objs lab Len' Lb La Pos' Eqs' q c B) as (u & i & U & I & Eq & Ec' & Pq & _ & B').
  rewrite Ep, Eq. apply Eqs'; try assumption; try lia; try congruence.
  apply (UpL _ _ _ A'). assert (X : id_at lab (S t) j = id_at lab (S u) i) by (apply Eqs'; try assumption; congruence). rewrite X. exact B'.
Qed.
Print Assumptions C176_no_merge_recorded_partial.

(** As claimed, also where objects split.  False: an object parts in two and the parts become one object again; nothing is
    recorded, because the parts are given one number. *)
Definition rejoining : field :=
 [rows_of [[1;0;0;0;0;0]; [0;0;0;0;0;0]; [1;1;1;1;1;1]; [0;0;0;0;0;0]; [0;0;0;0;0;0]];
  rows_of [[0;0;0;0;0;0]; [0;0;0;0;0;0]; [1;1;0;0;1;1]; [0;0;0;0;0;0]; [0;0;0;0;0;0]];
  rows_of [[0;0;0;0;0;0]; [0;0;0;0;0;0]; [1;1;1;1;1;1]; [0;0;0;0;0;0]; [0;0;0;0;0;0]]].
Definition rejoined : list (list Z) :=
 [[0;0;0;0;0;0; 0;0;0;0;0;0; 1;1;1;1;1;1; 0;0;0;0;0;0; 0;0;0;0;0;0];
  [0;0;0;0;0;0; 0;0;0;0;0;0; 1;1;0;0;1;1; 0;0;0;0;0;0; 0;0;0;0;0;0];
  [0;0;0;0;0;0; 0;0;0;0;0;0; 1;1;1;1;1;1; 0;0;0;0;0;0; 0;0;0;0;0;0]]%Z.
Theorem C176_no_merge_recorded_refuted :
  exists g k data F n mg st objs, length data = g_nt g /\ fold_right Nat.add 0 (k_chunks k) = g_nt g /\
    Forall (fun m => 1 <= m) (k_chunks k) /\ k_merging k = true /\
    fresh_run g k data = Ok (F, n, Some mg, st) /\
    object_numbers (negb (g_regional g)) (g_nt g) (g_ny g) (g_nx g) (in_event (g_nx g) F) objs /\
    m_parents mg = [] /\ ~ nothing_merges (g_ny g * g_nx g) (k_overlap k) objs.
Proof.
  assert (Sh : shaped (split_grid 3) (event_cells rejoined)).
  { split; [reflexivity|]. intros v V. cbn [event_cells map rejoined In] in V. destruct V as [<-|[<-|[<-|[]]]]; reflexivity. }
  assert (Ex : exists j, nth j (concat (event_cells rejoined)) false = true) by (exists 12; reflexivity).
  assert (Pr : final_overlaps (repeat 1%Q 30) (1#2) (event_objects (split_grid 3) rejoined) (initial (repeat 1%Q 30) row_centroid (event_objects (split_grid 3) rejoined)) = [(1, 2); (1, 3); (2, 4); (3, 4)]%Z)
    by (vm_compute; reflexivity).
  assert (Ov := fun p c => overlap_pairs (split_grid 3) rejoined (1#2) p c Sh Ex).
  change (g_ny (split_grid 3) * g_nx (split_grid 3)) with 30 in Ov. rewrite Pr in Ov.
  exists (split_grid 3), (split_tracking 3), rejoining, rejoined, 1%Z. eexists. eexists. exists (event_objects (split_grid 3) rejoined).
  split; [reflexivity|]. split; [reflexivity|]. split; [repeat constructor; lia|]. split; [reflexivity|]. split; [vm_compute; reflexivity|].
  split; [apply event_objects_numbers; exact Sh|]. split; [reflexivity|].
  intro Up. assert (X : 2%Z = 3%Z); [|discriminate]. apply (Up 2%Z 3%Z 4%Z); apply Ov; cbn; auto.
Qed.
Print Assumptions C176_no_merge_recorded_refuted.

(** Two objects that become one, and nothing splits: one merge is recorded. *)
Definition joining : field :=
 [rows_of [[1;0;0;0;0;0]; [0;0;0;0;0;0]; [1;1;0;0;1;1]; [0;0;0;0;0;0]; [0;0;0;0;0;0]];
  rows_of [[0;0;0;0;0;0]; [0;0;0;0;0;0]; [1;1;1;1;1;1]; [0;0;0;0;0;0]; [0;0;0;0;0;0]]].
Definition joined : list (list Z) :=
 [[0;0;0;0;0;0; 0;0;0;0;0;0; 1;1;0;0;2;2; 0;0;0;0;0;0; 0;0;0;0;0;0];
  [0;0;0;0;0;0; 0;0;0;0;0;0; 1;1;1;2;2;2; 0;0;0;0;0;0; 0;0;0;0;0;0]]%Z.
Example C176_case :
  (exists mg st, fresh_run (split_grid 2) (split_tracking 2) joining = Ok (joined, 2%Z, Some mg, st) /\ m_time mg = [1]) /\
  object_numbers false 2 5 6 (in_event 6 joined) (event_objects (split_grid 2) joined) /\
  nothing_splits 30 (1#2) (event_objects (split_grid 2) joined) /\ ~ nothing_merges 30 (1#2) (event_objects (split_grid 2) joined).
Proof.
  assert (Sh : shaped (split_grid 2) (event_cells joined)).
  { split; [reflexivity|]. intros v V. cbn [event_cells map joined In] in V. destruct V as [<-|[<-|[]]]; reflexivity. }
  assert (Ex : exists j, nth j (concat (event_cells joined)) false = true) by (exists 12; reflexivity).
  assert (Pr : final_overlaps (repeat 1%Q 30) (1#2) (event_objects (split_grid 2) joined) (initial (repeat 1%Q 30) row_centroid (event_objects (split_grid 2) joined)) = [(1, 3); (2, 3)]%Z)
    by (vm_compute; reflexivity).
  assert (Ov := fun p c => overlap_pairs (split_grid 2) joined (1#2) p c Sh Ex).
  change (g_ny (split_grid 2) * g_nx (split_grid 2)) with 30 in Ov. rewrite Pr in Ov.
  split; [eexists; eexists; split; [vm_compute; reflexivity|reflexivity]|]. split; [exact (event_objects_numbers (split_grid 2) joined Sh)|]. split.
  - intros p c d A B. apply Ov in A, B. cbn [In] in A, B. destruct A as [A|[A|[]]]; destruct B as [B|[B|[]]]; congruence.
  - intro Up. assert (X : 1%Z = 2%Z); [|discriminate]. apply (Up 1%Z 2%Z 3%Z); apply Ov; cbn; auto.
Qed.
