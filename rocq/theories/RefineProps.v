(** Theorem C154: allowing merging only divides events. *)
From Coq Require Import Permutation.
From Verif Require Import Base Morph Label LabelSpec LabelProofs LabelProps Filter FilterSpec FilterProofs FilterGridProofs FilterAreaProofs FilterMoreProofs FilterWitness FilterProps
  Overlap Merge MergeSpec MergeProofs MergeWitness Partition PartitionProofs PartitionMore Cluster ClusterSpec ClusterProofs ClusterFinal ClusterPipe ClusterProps
  Run RunSpec RunProofs RunProps GridRunProps RelateSpec RelateProofs RefineProofs.
Open Scope nat_scope.

Lemma chain_loosen wrap nt ny nx on c d : chain false wrap nt ny nx on c d -> chain true wrap nt ny nx on c d.
Proof.
  induction 1 as [c|c d e R O T C IH]; [constructor|]. apply (chain_step _ _ _ _ _ _ c d e); auto.
  destruct c as [[t y] x], d as [[t' y'] x']. cbn in *. unfold dist1 in *. intuition lia.
Qed.

(** Tracking with merging and tracking without, on the same cleaned data. *)
Lemma merging_refines g nn cent thr ca sizes f F n mg F' n' mg' : shaped g f -> fold_right Nat.add 0 sizes = g_nt g ->
  (exists k, nth k (concat f) false = true) ->
  track_merging g nn cent thr ca sizes f = Ok (F, n, mg) -> track_simple g f = Ok (F', n', mg') ->
  forall c d, in_range (g_nt g) (g_ny g) (g_nx g) c -> in_range (g_nt g) (g_ny g) (g_nx g) d ->
    kept_at (g_nx g) f c -> kept_at (g_nx g) f d -> id_of (g_nx g) F c = id_of (g_nx g) F d -> id_of (g_nx g) F' c = id_of (g_nx g) F' d.
Proof.
  intros Sh Hs Ex Tr Ts c d Rc Rd Kc Kd Eq.
  set (nt := g_nt g) in *. set (ny := g_ny g) in *. set (nx := g_nx g) in *. set (wrap := negb (g_regional g)).
  assert (Lf := shaped_concat g f Sh). fold nt ny nx in Lf.
  assert (On : forall e, in_range nt ny nx e -> (extreme ny nx (concat f) e <-> kept_at nx f e)).
  { intros [[t y] x] (T & Y & X). unfold extreme. unfold ny, nx. rewrite (shaped_cell g f t y x Sh T Y X). reflexivity. }
  (* without merging *)
  unfold track_simple in Ts. fold nt ny nx in Ts. destruct (run_tracking_simple (g_regional g) nt ny nx (concat f)) as [lab' m] eqn:Rt. injection Ts as <- _ _.
  destruct (C71_events_without_merging_are_space_time_components _ _ _ _ _ _ _ Lf Rt) as (_ & _ & Sm & _).
  assert (Id : forall e, in_range nt ny nx e -> id_of nx (time_fields nt ny nx lab') e = label_of ny nx lab' e).
  { intros [[t y] x] (T & Y & X). apply (time_fields_cell nt ny nx lab' t y x T Y X). }
  rewrite !Id by assumption. apply Sm; try assumption; [apply On; assumption|apply On; assumption|]. fold wrap.
  (* with merging *)
  unfold track_merging, track_grid in Tr. fold nt ny nx in Tr.
  set (w := repeat 1%Q (ny * nx)) in *. assert (Lw : length w = ny * nx) by apply repeat_length.
  assert (Hw : forall q, In q w -> (0 < q)%Q) by (intros q Q0; apply repeat_spec in Q0; subst; reflexivity).
  destruct (identify_grid (g_regional g) false nt ny nx (concat f)) as [lab2 n2] eqn:Ig. cbn [fst] in Tr.
  assert (El2 : lab2 = fst (identify_grid (g_regional g) false nt ny nx (concat f))) by (rewrite Ig; reflexivity).
  set (lab := time_fields nt ny nx lab2) in *.
  assert (Hl : labelled_series (ny * nx) lab) by (unfold lab; rewrite El2; apply fields_series; assumption).
  assert (Ll : length lab = nt) by (unfold lab, time_fields; rewrite map_length, seq_length; reflexivity).
  destruct (C33_tracked_events_are_overlap_chains nn (g_regional g) ny nx cent thr w ca sizes lab Lw Hw ltac:(rewrite Ll; exact Hs) Hl) as (ev & mg2 & Et & Ch & _ & _).
  rewrite Et in Tr. injection Tr as <- _ _. cbv zeta in Ch.
  set (objs := fst (split_and_merge w cent thr (part_grid nn (g_regional g) ny nx) (split_by sizes lab))) in *.
  assert (Nx : 0 < nx) by (destruct c as [[t y] x]; destruct Rc as (_ & _ & X); lia).
  set (cellof := fun t k : nat => (t, k / nx, k mod nx)).
  set (inside := fun t k => in_range nt ny nx (cellof t k) /\ extreme ny nx (concat f) (cellof t k)).
  set (E := fun t k u l => inside t k /\ inside u l /\ chain true wrap nt ny nx (extreme ny nx (concat f)) (cellof t k) (cellof u l)).
  assert (Back : forall k, k / nx * nx + k mod nx = k) by (intro k; rewrite (Nat.div_mod k nx) at 3 by lia; rewrite (Nat.mul_comm nx); reflexivity).
  assert (Fwd : forall y x, x < nx -> (y * nx + x) / nx = y /\ (y * nx + x) mod nx = x).
  { intros y x X. split.
    - rewrite Nat.div_add_l by lia. rewrite Nat.div_small by exact X. lia.
    - rewrite Nat.add_comm, Nat.mod_add by lia. apply Nat.mod_small. exact X. }
  assert (Rng : forall t k, t < nt -> k < ny * nx -> in_range nt ny nx (cellof t k)).
  { intros t k T K. split; [exact T|]. split; [apply Nat.div_lt_upper_bound; lia|apply Nat.mod_upper_bound; lia]. }
  assert (Lid : forall t k, t < nt -> k < ny * nx -> id_at lab t k = label_of ny nx lab2 (cellof t k)).
  { intros t k T K. destruct (Rng t k T K) as (_ & Y & X). rewrite <- (Back k) at 1. unfold lab. apply (time_fields_cell nt ny nx lab2 t _ _ T Y X). }
  assert (Ti : forall t k, (0 < id_at lab t k)%Z -> t < nt).
  { intros t k P. destruct (Nat.lt_ge_cases t nt) as [H|H]; [exact H|]. unfold id_at in P. rewrite (nth_overflow lab) in P by (rewrite Ll; exact H). destruct k; simpl in P; lia. }
  destruct (C13_labels_are_connected_components _ _ _ _ _ _ _ _ Lf Ig) as (_ & Zr & Sc & _).
  assert (Inn : forall t k, k < ny * nx -> (0 < id_at lab t k)%Z -> inside t k).
  { intros t k K P. assert (T := Ti t k P). split; [apply Rng; assumption|]. rewrite Lid in P by assumption.
    destruct (nth (flat ny nx (cellof t k)) (concat f) false) eqn:X; [exact X|]. exfalso.
    assert (Z0 : label_of ny nx lab2 (cellof t k) = 0%Z) by (apply Zr; [apply Rng; assumption|unfold extreme; rewrite X; discriminate]). lia. }
  assert (Pos : forall t y x, in_range nt ny nx (t, y, x) -> kept_at nx f (t, y, x) -> (0 < id_at lab t (y * nx + x))%Z).
  { intros t y x R K. destruct R as (T & Y & X). unfold lab. rewrite El2. apply (fields_cell (g_regional g) nt ny nx (concat f) Lf t y x T Y X).
    apply On; [repeat split; assumption|exact K]. }
  assert (Cov : covers (length w) (part_grid nn (g_regional g) ny nx)) by (rewrite Lw; apply part_grid_covers).
  assert (Ec := split_by_concat sizes lab ltac:(rewrite Ll; exact Hs)).
  assert (Hl' : labelled_series (length w) (concat (split_by sizes lab))) by (rewrite Ec, Lw; exact Hl).
  assert (Main := chained_tied w cent thr (part_grid nn (g_regional g) ny nx) Cov (split_by sizes lab) Hl' E).
  rewrite Ec in Main. fold objs in Main.
  destruct c as [[t y] x], d as [[u y'] x']. cbn [id_of] in Eq.
  assert (Bc : y * nx + x < ny * nx) by (destruct Rc as (_ & Y & X); nia).
  assert (Bd : y' * nx + x' < ny * nx) by (destruct Rd as (_ & Y & X); nia).
  assert (Pc := Pos t y x Rc Kc). assert (Pd := Pos u y' x' Rd Kd).
  assert (Ftp : forall v j, (0 < id_at lab v j)%Z -> (0 < id_at objs v j)%Z).
  { intros v j P. assert (V := Ti v j P). apply (MergeMore.final_foot w cent thr _ Cov (split_by sizes lab) Hl' v ltac:(rewrite Ec, Ll; exact V)).
    rewrite Ec. exact P. }
  assert (Res : E t (y * nx + x) u (y' * nx + x')).
  { apply Main; try (rewrite Ll; apply Rc || apply Rd); try (rewrite Lw; assumption); try (apply Ftp; assumption).
    - intros a b a' b' (A & B & C). split; [exact B|]. split; [exact A|]. apply chain_back; [apply A|apply A|exact C].
    - intros a b a' b' a2 b2 (A & B & C) (A' & B' & C'). split; [exact A|]. split; [exact B'|]. exact (chain_join _ _ _ _ _ _ _ _ _ C C').
    - intros a b K P Q0. rewrite Lw in K. assert (I1 := Inn a b K P). assert (I2 := Inn (S a) b K Q0). split; [exact I1|]. split; [exact I2|].
      apply (chain_step _ _ _ _ _ _ _ (cellof (S a) b)); [apply I2|apply I2| |constructor]. cbn. unfold dist1, col_next. split; [lia|]. split; [lia|]. left. unfold dist1. lia.
    - intros a b b' K K' P Q0. rewrite Lw in K, K'. assert (I1 := Inn a b K P). assert (I2 := Inn a b' K' ltac:(rewrite <- Q0; exact P)). split; [exact I1|]. split; [exact I2|].
      apply chain_loosen. apply Sc; try apply I1; try apply I2. assert (A := Ti a b P). rewrite <- !Lid by assumption. exact Q0.
    - apply (proj1 (Ch t (y * nx + x) u (y' * nx + x') ltac:(rewrite Ll; apply Rc) Bc ltac:(rewrite Ll; apply Rd) Bd Pc Pd)). exact Eq. }
  destruct Res as (_ & _ & C). unfold cellof in C.
  destruct (Fwd y x ltac:(apply Rc)) as [F1 F2]. destruct (Fwd y' x' ltac:(apply Rd)) as [F3 F4]. rewrite F1, F2, F3, F4 in C. exact C.
Qed.

(** ** C154 *)

(** If tracking with merging returns, so does tracking the same data without, with
    the same statistics; both label the same cells; every event found with merging
    lies within one found without, so there are at least as many. *)
Theorem C154_merging_only_divides_events (g : grid) (k k' : tracking) (data : field)
    (F : list (list Z)) (n : Z) (mg : option merges) (st : stats) :
  length data = g_nt g -> fold_right Nat.add 0 (k_chunks k) = g_nt g ->
  k_merging k = true -> k_merging k' = false ->
  fresh_run g k data = Ok (F, n, mg, st) ->
  exists F' n', fresh_run g k' data = Ok (F', n', None, st) /\
  (forall c, in_range (g_nt g) (g_ny g) (g_nx g) c -> (id_of (g_nx g) F c <> 0%Z <-> id_of (g_nx g) F' c <> 0%Z)) /\
  (forall c d, in_range (g_nt g) (g_ny g) (g_nx g) c -> in_range (g_nt g) (g_ny g) (g_nx g) d ->
     id_of (g_nx g) F c <> 0%Z -> id_of (g_nx g) F c = id_of (g_nx g) F d -> id_of (g_nx g) F' c = id_of (g_nx g) F' d) /\
  (n' <= n)%Z.
Proof.
  intros L Hs Km Km' R. destruct (run_fills g k data _ R) as (s & Fs).
  destruct (run_parts g k data s F n mg st L Fs R) as (f & Ef & _ & Sk & _).
  destruct (run_keeps g k data s F n mg st f L Fs R Ef) as (c0 & R0 & K0).
  assert (R1 := R). unfold fresh_run, run, run_preprocess in R1. cbn [effective t_checkpoint t_data t_scratch loads saves] in R1.
  unfold clean_grid in R1. rewrite Fs, Ef in R1. cbn [snd] in R1.
  destruct (stats_of area_grid data f (f_keep f)) as [s0|] eqn:St; [|discriminate]. cbn [bind fst snd] in R1. rewrite Km in R1.
  destruct (track_merging g (k_nn k) (k_centroid k) (k_overlap k) (k_areas k) (k_chunks k) (f_keep f)) as [[[F0 n0] mg0]|] eqn:Tr; [|discriminate].
  cbn [bind] in R1. assert (F0 = F /\ n0 = n /\ s0 = st) as (-> & -> & ->) by (split; [congruence|split; congruence]).
  assert (Ts : exists F' n', track_simple g (f_keep f) = Ok (F', n', None)).
  { unfold track_simple. destruct (run_tracking_simple _ _ _ _ _) as [lab m]. eexists. eexists. reflexivity. }
  destruct Ts as (F' & n' & Ts). exists F', n'.
  assert (R' : fresh_run g k' data = Ok (F', n', None, st)).
  { unfold fresh_run, run, run_preprocess. cbn [effective t_checkpoint t_data t_scratch loads saves]. unfold clean_grid. rewrite Fs, Ef. cbn [snd].
    rewrite St. cbn [bind fst snd]. rewrite Km', Ts. reflexivity. }
  split; [exact R'|].
  assert (Ex : exists j, nth j (concat (f_keep f)) false = true).
  { destruct c0 as [[t y] x]. exists (flat (g_ny g) (g_nx g) (t, y, x)). destruct R0 as (T & Y & X). rewrite (shaped_cell g _ t y x Sk T Y X). exact K0. }
  destruct (track_merging_ok g _ _ _ _ _ _ _ _ _ Sk Hs Ex Tr) as (Lf & Nz & On).
  destruct (track_simple_ok g _ _ _ _ Sk Ts) as (Lf' & Nz' & On').
  assert (Cm : forall c, in_range (g_nt g) (g_ny g) (g_nx g) c -> (id_of (g_nx g) F c <> 0%Z <-> kept_at (g_nx g) (f_keep f) c)).
  { intros [[t y] x] (T & Y & X). apply Nz; assumption. }
  assert (Cs : forall c, in_range (g_nt g) (g_ny g) (g_nx g) c -> (id_of (g_nx g) F' c <> 0%Z <-> kept_at (g_nx g) (f_keep f) c)).
  { intros [[t y] x] (T & Y & X). apply Nz'; assumption. }
  assert (Ref : forall c d, in_range (g_nt g) (g_ny g) (g_nx g) c -> in_range (g_nt g) (g_ny g) (g_nx g) d ->
     id_of (g_nx g) F c <> 0%Z -> id_of (g_nx g) F c = id_of (g_nx g) F d -> id_of (g_nx g) F' c = id_of (g_nx g) F' d).
  { intros c d Rc Rd N Eq. apply (merging_refines g _ _ _ _ _ _ _ _ _ _ _ _ Sk Hs Ex Tr Ts c d Rc Rd); [apply Cm; assumption|apply Cm; [exact Rd|congruence]|exact Eq]. }
  split; [intros c Rc; rewrite (Cm c Rc), (Cs c Rc); reflexivity|]. split; [exact Ref|].
  apply (count_le (fun a b => exists c, in_range (g_nt g) (g_ny g) (g_nx g) c /\ id_of (g_nx g) F' c = a /\ id_of (g_nx g) F c = b)).
  - intros a A. apply On' in A. destruct A as (t & y & x & T & Y & X & Na & I).
    assert (Rc : in_range (g_nt g) (g_ny g) (g_nx g) (t, y, x)) by (split; [exact T|split; assumption]).
    exists (id_of (g_nx g) F (t, y, x)). split; [|exists (t, y, x); auto].
    apply On. exists t, y, x. split; [exact T|]. split; [exact Y|]. split; [exact X|]. split; [|reflexivity].
    apply (Cm (t, y, x) Rc). apply (Cs (t, y, x) Rc). cbn [id_of]. unfold id_at in I. congruence.
  - intros a b j A B (c & Rc & Ea & Ej) (d & Rd & Eb & Ej'). rewrite <- Ea, <- Eb. apply Ref; try assumption; [|congruence].
    apply (Cm c Rc), (Cs c Rc). rewrite Ea. lia.
  - assert (H : (1 <= id_of (g_nx g) F c0 <= n)%Z); [|lia]. destruct c0 as [[t y] x]. destruct R0 as (T & Y & X).
    apply On. exists t, y, x. split; [exact T|]. split; [exact Y|]. split; [exact X|]. split; [|reflexivity]. apply Cm; [split; [exact T|split; assumption]|exact K0].
Qed.
Print Assumptions C154_merging_only_divides_events.

(** Two objects that join at the second step, after an isolated first cell: one
    event without merging, two with. *)
Definition grid8 (r : area_rule) (nt : nat) : grid := mkGrid true nt 1 8 (repeat true 8) 0 0 r.
Definition joining : field := [[true; false; true; true; false; true; true; false]; [false; false; true; true; true; true; true; false]].
Definition merging8 : tracking := mkTracking true true row_centroid (1#2) (repeat 1%Q 8) [2].
Definition simple8 : tracking := mkTracking false true row_centroid (1#2) [] [].
Definition joining_stats : stats := mkStats 10 4 3 1 (9#10) (10#9).
Example C154_case :
  (exists mg, fresh_run (grid8 (ByAbsolute 1) 2) merging8 joining
    = Ok ([[0; 0; 1; 1; 0; 2; 2; 0]; [0; 0; 1; 1; 1; 2; 2; 0]]%Z, 2%Z, Some mg, joining_stats)) /\
  fresh_run (grid8 (ByAbsolute 1) 2) simple8 joining
    = Ok ([[0; 0; 1; 1; 0; 1; 1; 0]; [0; 0; 1; 1; 1; 1; 1; 0]]%Z, 1%Z, None, joining_stats).
Proof. split; [eexists|]; vm_compute; reflexivity. Qed.

(** ** C155: a stricter area threshold *)

Definition with_rule (g : grid) (r : area_rule) : grid :=
  mkGrid (g_regional g) (g_nt g) (g_ny g) (g_nx g) (g_mask g) (g_R g) (g_T g) r.

(** As claimed, a stricter threshold removes cells and divides events, but puts no
    two cells in one event that were in different ones.  False with merging: when
    the smaller parent is dropped, the child is not divided any more. *)
Definition lopsided : field := [[true; false; true; true; true; false; true; false]; [false; false; true; true; true; true; true; false]].
Theorem C155_events_only_shrink_refuted :
  exists g k data r F n mg st F' n' mg' st' c d, length data = g_nt g /\ fold_right Nat.add 0 (k_chunks k) = g_nt g /\ rule_le (g_rule g) r /\
    fresh_run g k data = Ok (F, n, mg, st) /\ fresh_run (with_rule g r) k data = Ok (F', n', mg', st') /\
    id_of (g_nx g) F c <> 0%Z /\ id_of (g_nx g) F d <> 0%Z /\ id_of (g_nx g) F c <> id_of (g_nx g) F d /\
    id_of (g_nx g) F' c <> 0%Z /\ id_of (g_nx g) F' c = id_of (g_nx g) F' d.
Proof.
  exists (grid8 (ByAbsolute 1) 2), merging8, lopsided, (ByAbsolute 2). eexists. eexists. eexists. eexists. eexists. eexists. eexists. eexists.
  exists (1, 0, 2), (1, 0, 6).
  split; [reflexivity|]. split; [reflexivity|]. split; [simpl; lia|]. split; [vm_compute; reflexivity|]. split; [vm_compute; reflexivity|].
  split; [discriminate|]. split; [discriminate|]. split; [discriminate|]. split; [discriminate|reflexivity].
Qed.
Print Assumptions C155_events_only_shrink_refuted.

(** Nor is the number of events monotone, even without merging: a small object
    that linked two larger ones in time is dropped. *)
Definition bridged : field :=
  [[true; false; true; true; false; false; false; false]; [false; false; false; false; true; false; false; false];
   [false; false; false; false; false; true; true; false]].
Theorem C155_fewer_events_refuted :
  exists g k data r F n st F' n' st', length data = g_nt g /\ k_merging k = false /\ rule_le (g_rule g) r /\
    fresh_run g k data = Ok (F, n, None, st) /\ fresh_run (with_rule g r) k data = Ok (F', n', None, st') /\ (n < n')%Z.
Proof.
  exists (grid8 (ByAbsolute 1) 3), simple8, bridged, (ByAbsolute 2). eexists. eexists. eexists. eexists. eexists. eexists.
  split; [reflexivity|]. split; [reflexivity|]. split; [simpl; lia|]. split; [vm_compute; reflexivity|]. split; [vm_compute; reflexivity|]. reflexivity.
Qed.
Print Assumptions C155_fewer_events_refuted.

(** With a stricter rule of the same kind the reported threshold is no lower, the
    event cells are among those of the laxer run, and without merging cells of one
    event are still of one event in the laxer run.  Missing from the full claim:
    the last part with merging. *)
Theorem C155_stricter_threshold_partial (g : grid) (r : area_rule) (k k' : tracking) (data : field)
    (F F' : list (list Z)) (n n' : Z) (mg mg' : option merges) (st st' : stats) :
  length data = g_nt g -> fold_right Nat.add 0 (k_chunks k) = g_nt g -> fold_right Nat.add 0 (k_chunks k') = g_nt g ->
  rule_le (g_rule g) r ->
  fresh_run g k data = Ok (F, n, mg, st) -> fresh_run (with_rule g r) k' data = Ok (F', n', mg', st') ->
  (s_threshold st <= s_threshold st')%Q /\
  (forall c, in_range (g_nt g) (g_ny g) (g_nx g) c -> id_of (g_nx g) F' c <> 0%Z -> id_of (g_nx g) F c <> 0%Z) /\
  (k_merging k = false ->
   forall c d, in_range (g_nt g) (g_ny g) (g_nx g) c -> in_range (g_nt g) (g_ny g) (g_nx g) d ->
     id_of (g_nx g) F' c <> 0%Z -> id_of (g_nx g) F' c = id_of (g_nx g) F' d -> id_of (g_nx g) F c = id_of (g_nx g) F d).
Proof.
  intros L Hs Hs' Le R R'. set (g' := with_rule g r) in *.
  destruct (run_fills g k data _ R) as (s & Fs). assert (Fs' : fill_grid g' data = Some s) by exact Fs.
  destruct (run_parts g k data s F n mg st L Fs R) as (f & Ef & Th & Sk & _).
  destruct (run_parts g' k' data s F' n' mg' st' L Fs' R') as (f' & Ef' & Th' & Sk' & _).
  assert (Lc : length (concat s) = g_nt g * g_ny g * g_nx g) by (apply (shaped_concat g); apply (fill_grid_ok g data s L Fs)).
  split; [rewrite Th, Th'; exact (threshold_mono _ _ _ _ _ _ _ _ _ Le Ef Ef')|].
  destruct (C123_run_on_a_grid_partial g (k_merging k) (k_nn k) (k_centroid k) (k_overlap k) (k_areas k) (k_chunks k) [] [] None (mkTracker (Some data) None false) (mkFiles None NoNpz) data s F n mg st
    eq_refl eq_refl L Hs Fs R) as (_ & Cl & _ & _ & _ & Sm).
  assert (Sub : forall c, in_range (g_nt g) (g_ny g) (g_nx g) c -> in_event (g_nx g) F' c -> in_event (g_nx g) F c).
  { destruct (C123_run_on_a_grid_partial g' (k_merging k') (k_nn k') (k_centroid k') (k_overlap k') (k_areas k') (k_chunks k') [] [] None (mkTracker (Some data) None false) (mkFiles None NoNpz) data s F' n' mg' st'
      eq_refl eq_refl L Hs' Fs' R') as (_ & Cl' & _).
    intros c Rc I. apply (Cl' c Rc) in I. apply (Cl c Rc). destruct I as (X & (l & O & Q0) & N). split; [exact X|]. split; [|exact N].
    exists l. split; [exact O|]. apply (Qle_trans _ (s_threshold st')); [rewrite Th, Th'; exact (threshold_mono _ _ _ _ _ _ _ _ _ Le Ef Ef')|exact Q0]. }
  assert (Same : forall G c, id_of (g_nx g) G c <> 0%Z <-> in_event (g_nx g) G c) by (intros G [[t y] x]; reflexivity).
  split; [intros c Rc; rewrite !Same; apply Sub; exact Rc|].
  intros Km c d Rc Rd Nc Eq. assert (Nd : id_of (g_nx g) F' d <> 0%Z) by congruence.
  assert (Ch : chain true (negb (g_regional g)) (g_nt g) (g_ny g) (g_nx g) (in_event (g_nx g) F') c d).
  { (* with or without merging *)
    assert (Simple : exists F2 n2 st2, fresh_run g' simple8 data = Ok (F2, n2, None, st2) /\
              (forall e, in_range (g_nt g) (g_ny g) (g_nx g) e -> (in_event (g_nx g) F' e <-> in_event (g_nx g) F2 e)) /\ id_of (g_nx g) F2 c = id_of (g_nx g) F2 d).
    { destruct (k_merging k') eqn:Km'.
      - destruct (C154_merging_only_divides_events g' k' simple8 data F' n' mg' st' L Hs' Km' eq_refl R') as (F2 & n2 & R2 & Fo & Ref & _).
        exists F2, n2, st'. split; [exact R2|]. split; [intros e Re; rewrite <- !Same; apply Fo; exact Re|]. apply Ref; assumption.
      - exists F', n', st'. split; [|split; [reflexivity|exact Eq]].
        assert (E : fresh_run g' k' data = fresh_run g' simple8 data) by (unfold fresh_run; rewrite Km'; reflexivity).
        destruct (C123_run_on_a_grid_partial g' false true row_centroid 0 [] (k_chunks k') [] [] None (mkTracker (Some data) None false) (mkFiles None NoNpz) data s F' n' mg' st'
          eq_refl eq_refl L Hs' Fs' ltac:(rewrite E in R'; exact R')) as (_ & _ & _ & _ & _ & Sm2).
        destruct (Sm2 eq_refl) as (-> & _). rewrite <- E. exact R'. }
    destruct Simple as (F2 & n2 & st2 & R2 & Fo & Eq2).
    destruct (C123_run_on_a_grid_partial g' false true row_centroid 0 [] (k_chunks k') [] [] None (mkTracker (Some data) None false) (mkFiles None NoNpz) data s F2 n2 None st2
      eq_refl eq_refl L Hs' Fs' R2) as (_ & _ & _ & _ & _ & Sm2).
    destruct (Sm2 eq_refl) as (_ & Sc). apply (chain_mono _ _ _ _ _ (in_event (g_nx g) F2)); [intros e Re; apply Fo; exact Re|].
    destruct c as [[t y] x], d as [[t' y'] x']. apply (Sc t y x t' y' x'); try assumption; [apply Fo; [exact Rc|exact Nc]|apply Fo; [exact Rd|exact Nd]]. }
  destruct (Sm Km) as (_ & Sc). destruct c as [[t y] x], d as [[t' y'] x'].
  apply (Sc t y x t' y' x' Rc Rd (Sub _ Rc Nc) (Sub _ Rd Nd)). apply (chain_mono _ _ _ _ _ (in_event (g_nx g) F')); [intros e Re; apply Sub; exact Re|exact Ch].
Qed.
Print Assumptions C155_stricter_threshold_partial.
Example C155_case : rule_le (g_rule (grid8 (ByAbsolute 1) 3)) (ByAbsolute 2) /\
  (exists st, fresh_run (grid8 (ByAbsolute 1) 3) simple8 bridged
     = Ok ([[0; 0; 1; 1; 0; 0; 0; 0]; [0; 0; 0; 0; 1; 0; 0; 0]; [0; 0; 0; 0; 0; 1; 1; 0]]%Z, 1%Z, None, st)) /\
  (exists st, fresh_run (with_rule (grid8 (ByAbsolute 1) 3) (ByAbsolute 2)) simple8 bridged
     = Ok ([[0; 0; 1; 1; 0; 0; 0; 0]; [0; 0; 0; 0; 0; 0; 0; 0]; [0; 0; 0; 0; 0; 2; 2; 0]]%Z, 2%Z, None, st)).
Proof. split; [simpl; lia|]. split; eexists; vm_compute; reflexivity. Qed.
