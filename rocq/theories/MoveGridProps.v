(** Theorems C132, C133, C134, C157 and C159 with merging, for records in which nothing merges or splits. *)
From Verif Require Import Base Morph Label LabelSpec LabelProofs LabelProps Filter FilterSpec FilterProofs FilterGridProofs FilterAreaProofs FilterMoreProofs FilterWitness FilterProps
  Overlap OverlapSpec Merge MergeSpec MergeProofs MergeLoop MergeWitness Partition PartitionProofs PartitionMore Cluster ClusterSpec ClusterProofs ClusterFinal ClusterPipe ClusterProps
  Run RunSpec RunProofs RunProps GridRunProps RelateSpec RelateProofs RelateProps FlipProps ReverseProofs ReverseProps CutSpec CutProofs CutProps RefineProps UnmergedProofs SteadyProofs SteadyProps MoveGridProofs.
Open Scope nat_scope.

(** Whether a run returns does not depend on how it tracks. *)
Lemma any_returns g k k' data r : length data = g_nt g -> fold_right Nat.add 0 (k_chunks k') = g_nt g ->
  fresh_run g k data = Ok r -> exists F' n' mg', fresh_run g k' data = Ok (F', n', mg', snd r).
Proof.
  intros L Hs R. destruct r as [[[F n] mg] st]. cbn [snd]. destruct (run_fills g k data _ R) as (s & Fs).
  destruct (run_parts g k data s F n mg st L Fs R) as (f & Ef & _ & Sk & _). destruct (run_keeps g k data s F n mg st f L Fs R Ef) as (c0 & R0 & K0).
  assert (Ex : exists j, nth j (concat (f_keep f)) false = true).
  { destruct c0 as [[t y] x]. exists (flat (g_ny g) (g_nx g) (t, y, x)). destruct R0 as (T & Y & X). rewrite (shaped_cell g _ t y x Sk T Y X). exact K0. }
  unfold fresh_run, run, run_preprocess in *. cbn [effective t_checkpoint t_data t_scratch loads saves] in *.
  unfold clean_grid in *. rewrite Fs, Ef in *. cbn [snd] in *.
  destruct (stats_of area_grid data f (f_keep f)) as [s0|] eqn:So; [|discriminate]. cbn [bind fst snd] in *.
  assert (s0 = st) as ->. { destruct (if k_merging k then _ else _) as [[[F0 n0] mg0]|]; [|discriminate]. cbn [bind] in R. congruence. }
  destruct (k_merging k').
  - unfold track_merging. destruct (C25_tracked_cells_are_the_data (k_nn k') (g_regional g) (g_nt g) (g_ny g) (g_nx g) (k_centroid k') (k_overlap k') (k_areas k') (k_chunks k') (concat (f_keep f)) (shaped_concat g _ Sk) Hs Ex)
      as (ev & mg' & E & _). rewrite E. cbn [bind]. eauto.
  - unfold track_simple. destruct (run_tracking_simple _ _ _ _ _) as [lab m]. cbn [bind]. eauto.
Qed.

(** Two runs with merging whose event cells correspond, the first one steady. *)
Lemma steady_runs (g g' : grid) (k k' : tracking) (data data' : field) (sig : cell -> cell) (back : bool)
    (F F' : list (list Z)) (n n' : Z) (mg mg' : option merges) (st st' : stats) (objs : list (list Z)) :
  let nt := g_nt g in let ny := g_ny g in let nx := g_nx g in let nt' := g_nt g' in let ny' := g_ny g' in let nx' := g_nx g' in
  length data = nt -> length data' = nt' -> fold_right Nat.add 0 (k_chunks k) = nt -> fold_right Nat.add 0 (k_chunks k') = nt' ->
  k_merging k = true -> k_merging k' = true -> k_overlap k' = k_overlap k ->
  fresh_run g k data = Ok (F, n, mg, st) -> fresh_run g' k' data' = Ok (F', n', mg', st') ->
  object_numbers (negb (g_regional g)) nt ny nx (in_event nx F) objs -> nothing_merges (ny * nx) (k_overlap k) objs -> nothing_splits (ny * nx) (k_overlap k) objs ->
  (forall c, in_range nt ny nx c -> in_range nt' ny' nx' (sig c)) ->
  (forall c d, in_range nt ny nx c -> in_range nt ny nx d -> sig c = sig d -> c = d) ->
  (forall b c d, in_range nt ny nx c -> in_range nt ny nx d -> (touching b (negb (g_regional g')) nx' (sig c) (sig d) <-> touching b (negb (g_regional g)) nx c d)) ->
  (forall c d, in_range nt ny nx c -> in_range nt ny nx d -> (mate c d <-> if back then mate (sig d) (sig c) else mate (sig c) (sig d))) ->
  (forall c, in_range nt ny nx c -> (id_of nx' F' (sig c) <> 0%Z <-> id_of nx F c <> 0%Z)) ->
  (forall d, in_range nt' ny' nx' d -> id_of nx' F' d <> 0%Z -> exists c, in_range nt ny nx c /\ sig c = d) ->
  mg' = mg /\ n' = n /\
  forall c d, in_range nt ny nx c -> in_range nt ny nx d -> id_of nx F c <> 0%Z -> id_of nx F d <> 0%Z ->
    (id_of nx' F' (sig c) = id_of nx' F' (sig d) <-> id_of nx F c = id_of nx F d).
Proof.
  intros nt ny nx nt' ny' nx' L L' Hs Hs' Km Km' Ke R R' Ob Up Down Sr Si St Mt Mv0 Im0.
  destruct (merging_run_parts g k data F n mg st L Km R) as (f & Sk & Ex & Tr & _). destruct (merging_run_parts g' k' data' F' n' mg' st' L' Km' R') as (f' & Sk' & Ex' & Tr' & _).
  destruct (track_merging_ok g _ _ _ _ _ _ _ _ _ Sk Hs Ex Tr) as (_ & Nz & On). destruct (track_merging_ok g' _ _ _ _ _ _ _ _ _ Sk' Hs' Ex' Tr') as (_ & Nz' & On').
  fold nt ny nx in Nz, On. fold nt' ny' nx' in Nz', On'.
  assert (Same : forall m G c, in_event m G c <-> id_of m G c <> 0%Z) by (intros m G [[t y] x]; reflexivity).
  assert (DecE : forall m G c, in_event m G c \/ ~ in_event m G c) by (intros m G c; rewrite Same; destruct (Z.eq_dec (id_of m G c) 0) as [H|H]; [right; intro X; exact (X H)|left; exact H]).
  set (on := in_event nx F) in *. set (on' := in_event nx' F').
  assert (Mv : forall c, in_range nt ny nx c -> (on' (sig c) <-> on c)) by (intros c Rc; unfold on, on'; rewrite !Same; exact (Mv0 c Rc)).
  assert (Im : forall d, in_range nt' ny' nx' d -> on' d -> exists c, in_range nt ny nx c /\ sig c = d) by (intros d Rd; unfold on'; rewrite Same; exact (Im0 d Rd)).
  assert (Ob' : exists objs', object_numbers (negb (g_regional g')) nt' ny' nx' on' objs').
  { eexists. destruct (model_numbers g' (f_keep f') Sk') as (A & B & P & E). fold nt' ny' nx' in A, B, P, E.
    assert (Ev : forall c, in_range nt' ny' nx' c -> (on' c <-> kept_at nx' (f_keep f') c)) by (intros [[t y] x] (T & Y & X); apply Nz'; assumption).
    split; [exact A|]. split; [exact B|]. split.
    - intros c Rc. rewrite (Ev c Rc). exact (P c Rc).
    - intros c d Rc Rd Kc Kd. rewrite (E c d Rc Rd (proj1 (Ev c Rc) Kc) (proj1 (Ev d Rd) Kd)). split; apply chain_mono; intros e Re; apply Ev; exact Re. }
  destruct Ob' as (objs' & Ob').
  destruct (steady_moved _ _ _ _ _ _ _ _ sig on on' objs objs' (k_overlap k) back Sr Si St Mt (fun c _ => DecE _ _ c) Mv Im (fun c _ => DecE _ _ c) Ob Ob' Up Down) as (Up' & Down').
  assert (Cm := chained_moved _ _ _ _ _ _ _ _ sig on on' objs objs' (k_overlap k) back Sr Si St Mt (fun c _ => DecE _ _ c) Mv Im (fun c _ => DecE _ _ c) Ob Ob').
  destruct (C171_steady_objects_partial g k data F n mg st objs L Hs Km R Ob Up Down) as (Em & Ch). rewrite <- Ke in Up', Down'.
  destruct (C171_steady_objects_partial g' k' data' F' n' mg' st' objs' L' Hs' Km' R' Ob' Up' Down') as (Em' & Ch'). rewrite Ke in Ch'.
  fold nt ny nx in Ch. fold nt' ny' nx' in Ch'.
  assert (Gp : forall c d, in_range nt ny nx c -> in_range nt ny nx d -> id_of nx F c <> 0%Z -> id_of nx F d <> 0%Z ->
    (id_of nx' F' (sig c) = id_of nx' F' (sig d) <-> id_of nx F c = id_of nx F d)).
  { intros c d Rc Rd Nc Nd. assert (Oc : on c) by (apply Same; exact Nc). assert (Od : on d) by (apply Same; exact Nd).
    rewrite (Ch c d Rc Rd Oc Od), (Ch' _ _ (Sr c Rc) (Sr d Rd) (proj2 (Mv c Rc) Oc) (proj2 (Mv d Rd) Od)). exact (Cm c d Rc Rd Oc Od). }
  split; [congruence|]. split; [|exact Gp].
  assert (Nonneg : forall (h : grid) (G : list (list Z)) (N : Z) c, in_range (g_nt h) (g_ny h) (g_nx h) c -> id_of (g_nx h) G c <> 0%Z ->
    (forall j, (1 <= j <= N)%Z <-> exists t y x, t < g_nt h /\ y < g_ny h /\ x < g_nx h /\ j <> 0%Z /\ id_at G t (y * g_nx h + x) = j) -> (0 <= N)%Z).
  { intros h G N [[t y] x] (T & Y & X) Nc O. assert (B : (1 <= id_of (g_nx h) G (t, y, x) <= N)%Z); [|lia]. apply O. exists t, y, x. repeat (split; [assumption|]). reflexivity. }
  destruct (run_fills g k data _ R) as (s & Fs). destruct (run_parts g k data s F n mg st L Fs R) as (f2 & Ef2 & _). destruct (run_keeps g k data s F n mg st f2 L Fs R Ef2) as (c0 & R0 & _).
  assert (Hex : exists c, in_range nt ny nx c /\ id_of nx F c <> 0%Z).
  { destruct Ex as (j & J). assert (Lc := shaped_concat g _ Sk). fold nt ny nx in Lc.
    assert (J' : j < nt * ny * nx) by (rewrite <- Lc; destruct (Nat.lt_ge_cases j (length (concat (f_keep f)))) as [H'|H']; [exact H'|rewrite nth_overflow in J by exact H'; discriminate]).
    assert (Nx : 0 < nx) by nia. assert (Ny : 0 < ny) by nia.
    assert (X : j mod nx < nx) by (apply Nat.mod_upper_bound; lia). assert (Y : (j / nx) mod ny < ny) by (apply Nat.mod_upper_bound; lia).
    assert (T : j / nx / ny < nt) by (apply Nat.div_lt_upper_bound; [lia|]; apply Nat.div_lt_upper_bound; nia).
    exists (j / nx / ny, (j / nx) mod ny, j mod nx). split; [split; [exact T|split; assumption]|]. apply Nz; try assumption.
    assert (Sc := shaped_cell g (f_keep f) _ _ _ Sk T Y X). fold ny nx in Sc. rewrite <- Sc.
    replace (flat ny nx (j / nx / ny, (j / nx) mod ny, j mod nx)) with j; [exact J|]. unfold flat.
    rewrite (Nat.div_mod j nx) at 1 by lia. rewrite (Nat.div_mod (j / nx) ny) at 1 by lia. ring. }
  destruct Hex as (c1 & R1 & N1).
  assert (P1 := Nonneg g F n c1 R1 N1 On). assert (P2 := Nonneg g' F' n' (sig c1) (Sr c1 R1) (proj2 (Mv0 c1 R1) N1) On').
  apply Z.le_antisymm.
  - apply (count_le (fun a b => exists c, in_range nt ny nx c /\ id_of nx' F' (sig c) = a /\ id_of nx F c = b)); [| |exact P1].
    + intros a A. apply On' in A. destruct A as (t & y & x & T & Y & X & Na & I). assert (Rd : in_range nt' ny' nx' (t, y, x)) by (split; [exact T|split; assumption]).
      assert (Nd : id_of nx' F' (t, y, x) <> 0%Z) by (cbn [id_of]; unfold id_at in I; congruence). destruct (Im0 _ Rd Nd) as (c & Rc & Ec).
      rewrite <- Ec in Nd. exists (id_of nx F c). split; [|exists c; split; [exact Rc|split; [rewrite Ec; exact I|reflexivity]]].
      apply On. destruct c as [[t2 y2] x2]. destruct Rc as (T2 & Y2 & X2). exists t2, y2, x2. repeat (split; [assumption|]). split; [|reflexivity]. apply (Mv0 (t2, y2, x2)); [split; [exact T2|split; assumption]|exact Nd].
    + intros a b j A B (c & Rc & Ea & Ej) (d & Rd & Eb & Ej'). rewrite <- Ea, <- Eb. apply Gp; try assumption; [apply (Mv0 c Rc); rewrite Ea; lia|apply (Mv0 d Rd); rewrite Eb; lia|congruence].
  - apply (count_le (fun a b => exists c, in_range nt ny nx c /\ id_of nx F c = a /\ id_of nx' F' (sig c) = b)); [| |exact P2].
    + intros a A. apply On in A. destruct A as (t & y & x & T & Y & X & Na & I). assert (Rc : in_range nt ny nx (t, y, x)) by (split; [exact T|split; assumption]).
      assert (Nc : id_of nx F (t, y, x) <> 0%Z) by (cbn [id_of]; unfold id_at in I; congruence). apply (Mv0 _ Rc) in Nc. assert (Rd := Sr _ Rc).
      exists (id_of nx' F' (sig (t, y, x))). split; [|exists (t, y, x); auto]. apply On'. destruct (sig (t, y, x)) as [[t2 y2] x2]. destruct Rd as (T2 & Y2 & X2). exists t2, y2, x2. repeat (split; [assumption|]). reflexivity.
    + intros a b j A B (c & Rc & Ea & Ej) (d & Rd & Eb & Ej'). rewrite <- Ea, <- Eb. apply Gp; try assumption; [rewrite Ea; lia|rewrite Eb; lia|congruence].
Qed.

Definition unmerged (k : tracking) : tracking := mkTracking false (k_nn k) (k_centroid k) (k_overlap k) (k_areas k) (k_chunks k).

(** With merging: if no object of the record has two overlapping objects in the step before or in
    the step after, then turning the globe turns the events, as without merging.  Missing from the
    full claim: the dropped object, filling with R_fill > 0, and records with merges or splits. *)
Theorem C132_steady_partial (g : grid) (k : tracking) (shift : nat) (mask' : list bool) (data data' s s' : field)
    (F : list (list Z)) (n : Z) (mg : option merges) (st : stats) (objs : list (list Z)) :
  let g' := with_mask g mask' in
  let nt := g_nt g in let ny := g_ny g in let nx := g_nx g in let east := turned nx shift in
  g_regional g = false -> g_R g = 0%Z -> shift < nx -> length data = nt -> fold_right Nat.add 0 (k_chunks k) = nt ->
  moved_data g (turned (g_nx g) shift) data data' -> moved_mask g (turned (g_nx g) shift) mask' ->
  fill_grid g data = Some s -> fill_grid g' data' = Some s' ->
  drops_alike g g' east s s' (s_threshold st) -> k_merging k = true ->
  fresh_run g k data = Ok (F, n, mg, st) ->
  object_numbers (negb (g_regional g)) nt ny nx (in_event nx F) objs -> nothing_merges (ny * nx) (k_overlap k) objs -> nothing_splits (ny * nx) (k_overlap k) objs ->
  exists F' st', fresh_run g' k data' = Ok (F', n, mg, st') /\ same_figures data data' st st' /\ moved_events nt nt ny nx east F F' /\ same_grouping nt ny nx east F F'.
Proof.
  intros g' nt ny nx east Rg R0 Sf L Ch Md Mm Fs Fs' Fo Km R Ob Up Down.
  assert (L' : length data' = g_nt g') by (destruct Md as [Ld _]; rewrite Ld; exact L).
  destruct (C154_merging_only_divides_events g k (unmerged k) data F n mg st L Ch Km eq_refl R) as (F0 & n0 & R1 & _).
  destruct (C132_turning_the_globe_turns_the_events_partial g (unmerged k) shift mask' data data' s s' F0 n0 None st Rg R0 Sf L Ch Md Mm Fs Fs' Fo R1) as (Ret & _).
  destruct (Ret eq_refl) as (r & R2). fold g' in R2. destruct (any_returns g' (unmerged k) k data' r L' Ch R2) as (F' & n' & mg' & R').
  destruct (C132_turning_the_globe_turns_the_events_partial g k shift mask' data data' s s' F n mg st Rg R0 Sf L Ch Md Mm Fs Fs' Fo R) as (_ & Rel).
  destruct (Rel F' n' mg' _ R') as (Fg & (Mv & Im) & _).
  destruct (steady_runs g g' k k data data' east false F F' n n' mg mg' st _ objs L L' Ch Ch Km Km eq_refl R R' Ob Up Down) as (-> & -> & Gp); try assumption.
  - intros c Rc. exact (turned_range g shift Sf c Rc).
  - intros [[t y] x] [[t2 y2] x2] (_ & _ & X) (_ & _ & X2). unfold east, turned. fold nx in X, X2. intro E. injection E as -> -> E. f_equal. destruct (Nat.ltb_spec (x + shift) nx), (Nat.ltb_spec (x2 + shift) nx); lia.
  - intros b [[t y] x] [[t2 y2] x2] (_ & _ & X) (_ & _ & X2). change (g_regional g') with (g_regional g). change (g_nx g') with nx. fold nx in X, X2. unfold touching, east, turned, col_next, dist1. rewrite Rg. cbn [negb].
    destruct (Nat.ltb_spec (x + shift) nx), (Nat.ltb_spec (x2 + shift) nx); destruct b; intuition lia.
  - intros [[t y] x] [[t2 y2] x2] (_ & _ & X) (_ & _ & X2). fold nx in X, X2. unfold mate, east, turned. destruct (Nat.ltb_spec (x + shift) nx), (Nat.ltb_spec (x2 + shift) nx); intuition lia.
  - exists F', (snd r). split; [exact R'|]. split; [exact Fg|]. split; [split; assumption|exact Gp].
Qed.
Print Assumptions C132_steady_partial.

(** Quiet steps before and after a record in which nothing merges or splits. *)
Theorem C133_steady_partial (g : grid) (k k' : tracking) (a b : nat) (data : field)
    (F : list (list Z)) (n : Z) (mg : option merges) (st : stats) (objs : list (list Z)) :
  let nt := g_nt g in let g' := with_steps g (a + nt + b) in let data' := quiet g a ++ data ++ quiet g b in
  (0 <= g_R g)%Z -> Z.even (g_T g) = true -> length data = nt -> k_merging k = true -> k_merging k' = true -> k_overlap k' = k_overlap k ->
  fold_right Nat.add 0 (k_chunks k) = nt -> fold_right Nat.add 0 (k_chunks k') = a + nt + b ->
  fresh_run g k data = Ok (F, n, mg, st) ->
  object_numbers (negb (g_regional g)) nt (g_ny g) (g_nx g) (in_event (g_nx g) F) objs ->
  nothing_merges (g_ny g * g_nx g) (k_overlap k) objs -> nothing_splits (g_ny g * g_nx g) (k_overlap k) objs ->
  exists F' st', fresh_run g' k' data' = Ok (F', n, mg, st') /\ same_figures data data' st st' /\ s_processed st' = s_processed st /\
    moved_events nt (a + nt + b) (g_ny g) (g_nx g) (later a) F F' /\ same_grouping nt (g_ny g) (g_nx g) (later a) F F'.
Proof.
  intros nt g' data' R0 Te L Km Km' Ke Ch Ch' R Ob Up Down.
  assert (L' : length data' = g_nt g') by (unfold data', quiet; rewrite !app_length, !repeat_length; unfold g', nt in *; cbn; lia).
  destruct (C154_merging_only_divides_events g k (unmerged k) data F n mg st L Ch Km eq_refl R) as (F0 & n0 & R1 & _).
  destruct (C133_quiet_steps_only_shift_the_events_partial g (unmerged k) (unmerged k') a b data F0 n0 None st R0 Te L eq_refl Ch Ch' R1) as (Ret & _).
  destruct (Ret eq_refl) as (r & R2). fold nt in R2. fold g' data' in R2. destruct (any_returns g' (unmerged k') k' data' r L' Ch' R2) as (F' & n' & mg' & R').
  destruct (C133_quiet_steps_only_shift_the_events_partial g k k' a b data F n mg st R0 Te L ltac:(congruence) Ch Ch' R) as (_ & Rel).
  destruct (Rel F' n' mg' _ R') as (Fg & Pr & (Mv & Im) & _).
  destruct (steady_runs g g' k k' data data' (later a) false F F' n n' mg mg' st _ objs L L' Ch Ch' Km Km' Ke R R' Ob Up Down) as (-> & -> & Gp); try assumption.
  - intros [[t y] x]; unfold in_range, later, g'; cbn [g_nt g_ny g_nx with_steps]; unfold nt; lia.
  - intros [[t y] x] [[t2 y2] x2] _ _. unfold later. intro E. injection E as E1 -> ->. f_equal. f_equal. lia.
  - intros b0 [[t y] x] [[t2 y2] x2] _ _. unfold touching, later, dist1. destruct b0; intuition lia.
  - intros [[t y] x] [[t2 y2] x2] _ _. unfold mate, later. intuition lia.
  - exists F', (snd r). split; [exact R'|]. split; [exact Fg|]. split; [exact Pr|]. split; [split; assumption|exact Gp].
Qed.
Print Assumptions C133_steady_partial.

(** Reversed axes and a record in which nothing merges or splits. *)
Theorem C134_steady_partial (g : grid) (k : tracking) (by_ bx : bool) (mask' : list bool) (data data' s s' : field)
    (F : list (list Z)) (n : Z) (mg : option merges) (st : stats) (objs : list (list Z)) :
  let g' := with_mask g mask' in
  let nt := g_nt g in let ny := g_ny g in let nx := g_nx g in let back := flipped by_ bx ny nx in
  (0 <= g_R g)%Z -> length data = nt -> fold_right Nat.add 0 (k_chunks k) = nt ->
  moved_data g back data data' -> moved_mask g back mask' -> k_merging k = true ->
  fill_grid g data = Some s -> fill_grid g' data' = Some s' -> drops_alike g g' back s s' (s_threshold st) ->
  fresh_run g k data = Ok (F, n, mg, st) ->
  object_numbers (negb (g_regional g)) nt ny nx (in_event nx F) objs -> nothing_merges (ny * nx) (k_overlap k) objs -> nothing_splits (ny * nx) (k_overlap k) objs ->
  exists F' st', fresh_run g' k data' = Ok (F', n, mg, st') /\ same_figures data data' st st' /\ moved_events nt nt ny nx back F F' /\ same_grouping nt ny nx back F F'.
Proof.
  intros g' nt ny nx back R0 L Ch Md Mm Km Fs Fs' Fo R Ob Up Down.
  assert (L' : length data' = g_nt g') by (destruct Md as [Ld _]; rewrite Ld; exact L).
  destruct (C154_merging_only_divides_events g k (unmerged k) data F n mg st L Ch Km eq_refl R) as (F0 & n0 & R1 & _).
  destruct (C134_axis_direction_does_not_matter_partial g (unmerged k) by_ bx mask' data data' F0 n0 None st R0 L Ch Md Mm R1) as (s1 & s1' & E1 & E1' & _ & H).
  fold g' in E1'. rewrite Fs in E1. rewrite Fs' in E1'. injection E1 as <-. injection E1' as <-. destruct (H Fo) as (Ret & _). clear H.
  destruct (Ret eq_refl) as (r & R2). fold g' in R2. destruct (any_returns g' (unmerged k) k data' r L' Ch R2) as (F' & n' & mg' & R').
  destruct (C134_axis_direction_does_not_matter_partial g k by_ bx mask' data data' F n mg st R0 L Ch Md Mm R) as (s1 & s1' & E1 & E1' & _ & H).
  fold g' in E1'. rewrite Fs in E1. rewrite Fs' in E1'. injection E1 as <-. injection E1' as <-. destruct (H Fo) as (_ & Rel). clear H.
  destruct (Rel F' n' mg' _ R') as (Fg & (Mv & Im) & _).
  destruct (steady_runs g g' k k data data' back false F F' n n' mg mg' st _ objs L L' Ch Ch Km Km eq_refl R R' Ob Up Down) as (-> & -> & Gp); try assumption.
  - exact (flipped_range g by_ bx).
  - exact (flipped_once g by_ bx).
  - intros b c d. apply (flipped_touch g by_ bx).
  - intros [[t y] x] [[t2 y2] x2] (_ & Y & X) (_ & Y2 & X2). fold ny in Y, Y2. fold nx in X, X2. unfold mate, back, flipped. destruct by_, bx; intuition lia.
  - exists F', (snd r). split; [exact R'|]. split; [exact Fg|]. split; [split; assumption|exact Gp].
Qed.
Print Assumptions C134_steady_partial.

(** A cut-out holding every extreme cell, and a record in which nothing merges or splits. *)
Theorem C157_steady_partial (a b : nat) (g g' : grid) (k k' : tracking) (data data' : field)
    (F : list (list Z)) (n : Z) (mg : option merges) (st : stats) (objs : list (list Z)) :
  cut_out a b g g' data data' -> (g_regional g' = true \/ g_nx g < g_nx g') ->
  (0 <= g_R g)%Z -> Z.even (g_T g) = true ->
  (g_R g = 0%Z \/ room 1 g data /\ (g_regional g' = true \/ room (2 * Z.to_nat (g_R g)) g' data')) ->
  k_merging k = true -> k_merging k' = true -> k_overlap k' = k_overlap k -> fold_right Nat.add 0 (k_chunks k) = g_nt g -> fold_right Nat.add 0 (k_chunks k') = g_nt g ->
  fresh_run g k data = Ok (F, n, mg, st) ->
  object_numbers (negb (g_regional g)) (g_nt g) (g_ny g) (g_nx g) (in_event (g_nx g) F) objs ->
  nothing_merges (g_ny g * g_nx g) (k_overlap k) objs -> nothing_splits (g_ny g * g_nx g) (k_overlap k) objs ->
  exists F' st', fresh_run g' k' data' = Ok (F', n, mg, st') /\ same_figures data data' st st' /\ cut_events a b g g' F F' /\ cut_grouping a b g g' F F'.
Proof.
  intros Cut Wr R0 Te Rm Km Km' Ke Ch Ch' R Ob Up Down. assert (Cut0 := Cut). destruct Cut0 as (Rg & Nt & Ly & Lx & _ & _ & Ru & _ & L & L1 & _).
  assert (L' : length data' = g_nt g') by lia. assert (Ch2 : fold_right Nat.add 0 (k_chunks k') = g_nt g') by lia.
  destruct (C154_merging_only_divides_events g k (unmerged k) data F n mg st L Ch Km eq_refl R) as (F0 & n0 & R1 & _).
  destruct (C157_cut_out_has_the_same_events_partial a b g g' (unmerged k) (unmerged k') data data' F0 n0 None st Cut Wr R0 Te Rm eq_refl Ch Ch' R1) as (Ret & _).
  destruct (Ret eq_refl) as (r & R2). destruct (any_returns g' (unmerged k') k' data' r L' Ch2 R2) as (F' & n' & mg' & R').
  destruct (C157_cut_out_has_the_same_events_partial a b g g' k k' data data' F n mg st Cut Wr R0 Te Rm ltac:(congruence) Ch Ch' R) as (_ & Rel).
  destruct (Rel F' n' mg' _ R') as (Fg & (Mv & Im) & _).
  destruct (steady_runs g g' k k' data data' (placed a b) false F F' n n' mg mg' st _ objs L L' Ch Ch2 Km Km' Ke R R' Ob Up Down) as (-> & -> & Gp); try assumption.
  - intros [[t y] x]; unfold in_range, placed; lia.
  - intros [[t y] x] [[t2 y2] x2] _ _. unfold placed. intro E. injection E as -> E1 E2. f_equal; [f_equal|]; lia.
  - intros v [[t y] x] [[t2 y2] x2] (_ & _ & X1) (_ & _ & X2). unfold touching, placed, col_next, dist1. rewrite Rg. cbn [negb].
    destruct Wr as [Wr|Wr]; [rewrite Wr; cbn [negb]; destruct v; intuition (discriminate || lia)|]. destruct (g_regional g'), v; cbn [negb]; intuition (discriminate || lia).
  - intros [[t y] x] [[t2 y2] x2] _ _. unfold mate, placed. intuition lia.
  - rewrite Nt. exact Im.
  - exists F', (snd r). split; [exact R'|]. split; [exact Fg|]. split; [split; assumption|exact Gp].
Qed.
Print Assumptions C157_steady_partial.

(** A record in which nothing merges or splits, read backwards. *)
Theorem C159_steady_grid_partial (g : grid) (k k' : tracking) (data s s' : field)
    (F : list (list Z)) (n : Z) (mg : option merges) (st : stats) (objs : list (list Z)) :
  let nt := g_nt g in let ny := g_ny g in let nx := g_nx g in let back := backwards nt in
  Z.even (g_T g) = true -> length data = nt -> k_merging k = true -> k_merging k' = true -> k_overlap k' = k_overlap k ->
  fold_right Nat.add 0 (k_chunks k) = nt -> fold_right Nat.add 0 (k_chunks k') = nt ->
  fill_grid g data = Some s -> fill_grid g (rev data) = Some s' -> drops_alike g g back s s' (s_threshold st) ->
  fresh_run g k data = Ok (F, n, mg, st) ->
  object_numbers (negb (g_regional g)) nt ny nx (in_event nx F) objs -> nothing_merges (ny * nx) (k_overlap k) objs -> nothing_splits (ny * nx) (k_overlap k) objs ->
  exists F' st', fresh_run g k' (rev data) = Ok (F', n, mg, st') /\ same_figures data (rev data) st st' /\ s_processed st' = s_processed st /\
    moved_events nt nt ny nx back F F' /\ same_grouping nt ny nx back F F'.
Proof.
  intros nt ny nx back Te L Km Km' Ke Ch Ch' Fs Fs' Fo R Ob Up Down.
  assert (L' : length (rev data) = g_nt g) by (rewrite rev_length; exact L).
  destruct (C154_merging_only_divides_events g k (unmerged k) data F n mg st L Ch Km eq_refl R) as (F0 & n0 & R1 & _).
  destruct (C159_backwards_the_same_events_partial g (unmerged k) (unmerged k') data F0 n0 None st Te L eq_refl Ch Ch' R1) as (s1 & s1' & E1 & E1' & _ & H).
  rewrite Fs in E1. rewrite Fs' in E1'. injection E1 as <-. injection E1' as <-. destruct (H Fo) as (Ret & _). clear H.
  destruct (Ret eq_refl) as (r & R2). destruct (any_returns g (unmerged k') k' (rev data) r L' Ch' R2) as (F' & n' & mg' & R').
  destruct (C159_backwards_the_same_events_partial g k k' data F n mg st Te L ltac:(congruence) Ch Ch' R) as (s1 & s1' & E1 & E1' & _ & H).
  rewrite Fs in E1. rewrite Fs' in E1'. injection E1 as <-. injection E1' as <-. destruct (H Fo) as (_ & Rel). clear H.
  destruct (Rel F' n' mg' _ R') as ((Fg & Pr) & (Mv & Im) & _).
  destruct (steady_runs g g k k' data (rev data) back true F F' n n' mg mg' st _ objs L L' Ch Ch' Km Km' Ke R R' Ob Up Down) as (-> & -> & Gp); try assumption.
  - exact (backwards_range g).
  - exact (backwards_once g).
  - intros b c d. apply (backwards_touch g).
  - intros [[t y] x] [[t2 y2] x2] (T & _) (T2 & _). fold nt in T, T2. unfold mate, back, backwards. intuition lia.
  - exists F', (snd r). split; [exact R'|]. split; [exact Fg|]. split; [exact Pr|]. split; [split; assumption|exact Gp].
Qed.
Print Assumptions C159_steady_grid_partial.

(** ** Cases *)

(** The hypotheses about the objects follow from the list of overlaps. *)
Definition paired_once (l : list (Z * Z)) : bool :=
  forallb (fun p => forallb (fun q => Bool.eqb (Z.eqb (fst p) (fst q)) (Z.eqb (snd p) (snd q))) l) l.
Lemma steady_by_pairs g F thr l : shaped g (event_cells F) -> (exists j, nth j (concat (event_cells F)) false = true) ->
  final_overlaps (repeat 1%Q (g_ny g * g_nx g)) thr (event_objects g F) (initial (repeat 1%Q (g_ny g * g_nx g)) row_centroid (event_objects g F)) = l -> paired_once l = true ->
  object_numbers (negb (g_regional g)) (g_nt g) (g_ny g) (g_nx g) (in_event (g_nx g) F) (event_objects g F) /\
  nothing_merges (g_ny g * g_nx g) thr (event_objects g F) /\ nothing_splits (g_ny g * g_nx g) thr (event_objects g F).
Proof.
  intros Sh Ex Pr On. assert (Ov := fun p c => overlap_pairs g F thr p c Sh Ex). rewrite Pr in Ov.
  unfold paired_once in On. rewrite forallb_forall in On.
  assert (One : forall p q, In p l -> In q l -> (fst p = fst q <-> snd p = snd q)).
  { intros p q P Q0. specialize (On p P). rewrite forallb_forall in On. specialize (On q Q0). apply Bool.eqb_prop in On.
    destruct (Z.eqb_spec (fst p) (fst q)), (Z.eqb_spec (snd p) (snd q)); try discriminate; tauto. }
  split; [exact (event_objects_numbers g F Sh)|]. split.
  - intros p q c A B. apply Ov in A, B. exact (proj2 (One (p, c) (q, c) A B) eq_refl).
  - intros p c d A B. apply Ov in A, B. exact (proj1 (One (p, c) (p, d) A B) eq_refl).
Qed.

Definition row_tracking (nt : nat) : tracking := mkTracking true true row_centroid (1#2) (repeat 1%Q 5) [nt].
Definition drifting : field := bits [[1;0;1;1;0]; [0;0;0;1;1]].
Definition drifted : list (list Z) := [[0;0;1;1;0]; [0;0;0;1;1]]%Z.
Lemma drifting_steady mask reg rule : let g := mkGrid reg 2 1 5 mask 0 0 rule in
  object_numbers (negb (g_regional g)) (g_nt g) (g_ny g) (g_nx g) (in_event (g_nx g) drifted) (event_objects g drifted) /\
  nothing_merges (g_ny g * g_nx g) (1#2) (event_objects g drifted) /\ nothing_splits (g_ny g * g_nx g) (1#2) (event_objects g drifted).
Proof.
  intro g. apply (steady_by_pairs g drifted (1#2) [(1, 2)]%Z).
  - split; [reflexivity|]. intros v V. cbn [event_cells map drifted In] in V. destruct V as [<-|[<-|[]]]; reflexivity.
  - exists 2. reflexivity.
  - destruct reg; vm_compute; reflexivity.
  - reflexivity.
Qed.
Example C133_steady_case : let g := mkGrid true 2 1 5 (repeat true 5) 0 0 (ByAbsolute 1) in
  exists mg st, fresh_run g (row_tracking 2) drifting = Ok (drifted, 1%Z, mg, st) /\
  exists F' st', fresh_run (with_steps g (1 + 2 + 3)) (row_tracking 6) (quiet g 1 ++ drifting ++ quiet g 3) = Ok (F', 1%Z, mg, st') /\
    same_grouping 2 1 5 (later 1) drifted F'.
Proof.
  intro g. destruct (drifting_steady (repeat true 5) true (ByAbsolute 1)) as (Ob & Up & Down).
  eexists. eexists. split; [vm_compute; reflexivity|].
  edestruct (C133_steady_partial g (row_tracking 2) (row_tracking 6) 1 3 drifting drifted 1%Z) as (F' & st' & R' & _ & _ & _ & Gp);
    [discriminate|reflexivity|reflexivity|reflexivity|reflexivity|reflexivity|reflexivity|reflexivity|vm_compute; reflexivity|exact Ob|exact Up|exact Down|].
  exists F', st'. split; [exact R'|exact Gp].
Qed.

Example C132_steady_case : let g := belt 2 0 in
  exists mg st, fresh_run g (row_tracking 2) drifting = Ok (drifted, 1%Z, mg, st) /\
  exists F' st', fresh_run (with_mask g (repeat true 5)) (row_tracking 2) (bits [[0;1;0;1;1]; [1;0;0;0;1]]) = Ok (F', 1%Z, mg, st') /\
    same_grouping 2 1 5 (turned 5 1) drifted F'.
Proof.
  intro g. destruct (drifting_steady (repeat true 5) false (ByAbsolute 1)) as (Ob & Up & Down).
  eexists. eexists. split; [vm_compute; reflexivity|].
  edestruct (C132_steady_partial g (row_tracking 2) 1 (repeat true 5) drifting (bits [[0;1;0;1;1]; [1;0;0;0;1]]) drifting (bits [[0;1;0;1;1]; [1;0;0;0;1]]) drifted 1%Z) as (F' & st' & R' & _ & _ & Gp);
    [reflexivity|reflexivity|cbn; lia|reflexivity|reflexivity| | |vm_compute; reflexivity|vm_compute; reflexivity| |reflexivity|vm_compute; reflexivity|exact Ob|exact Up|exact Down|].
  - split; [reflexivity|]. intros [[t y] x] (T & Y & X). cbn in T, Y, X. assert (y = 0) by lia. subst y.
    destruct t as [|[|t]]; [| |lia]; destruct x as [|[|[|[|[|x]]]]]; try reflexivity; lia.
  - intros y x Y X; cbn in Y, X; assert (y = 0) by lia; subst y; destruct x as [|[|[|[|[|x]]]]]; try reflexivity; lia.
  - intros e e' Fe Fe'. left.
    assert (A : first_extreme 2 1 5 (concat drifting) (0, 0, 0)) by (split; [cbn; lia|split; [reflexivity|intros [[t y] x] _ _; cbn; lia]]).
    assert (B : first_extreme 2 1 5 (concat (bits [[0;1;0;1;1]; [1;0;0;0;1]])) (0, 0, 1)).
    { split; [cbn; lia|split; [reflexivity|]]. intros [[t y] x] (T & Y & X) V. assert (y = 0) by lia. subst y. destruct t as [|[|t]]; [| |lia]; destruct x as [|[|[|[|[|x]]]]]; try (vm_compute in V; discriminate V); unfold flat; lia. }
    rewrite (first_unique _ _ _ _ _ _ Fe A), (first_unique _ _ _ _ _ _ Fe' B). constructor.
  - exists F', st'. split; [exact R'|exact Gp].
Qed.

Definition staying : field := bits [[0;0;1;0;0]; [1;1;0;0;0]; [1;1;0;0;1]].
Definition stayed : list (list Z) := [[0;0;0;0;0]; [1;1;0;0;0]; [1;1;0;0;2]]%Z.
Example C134_steady_case : let g := mkGrid true 3 1 5 (repeat true 5) 0 0 (ByAbsolute 1) in
  exists mg st, fresh_run g (row_tracking 3) staying = Ok (stayed, 2%Z, mg, st) /\
  exists F' st', fresh_run (with_mask g (repeat true 5)) (row_tracking 3) (bits [[0;0;1;0;0]; [0;0;0;1;1]; [1;0;0;1;1]]) = Ok (F', 2%Z, mg, st') /\
    same_grouping 3 1 5 (flipped false true 1 5) stayed F'.
Proof.
  intro g.
  assert (St : object_numbers (negb (g_regional g)) (g_nt g) (g_ny g) (g_nx g) (in_event (g_nx g) stayed) (event_objects g stayed) /\
    nothing_merges (g_ny g * g_nx g) (1#2) (event_objects g stayed) /\ nothing_splits (g_ny g * g_nx g) (1#2) (event_objects g stayed)).
  { apply (steady_by_pairs g stayed (1#2) [(1, 2)]%Z); [|exists 5; reflexivity|vm_compute; reflexivity|reflexivity].
    split; [reflexivity|]. intros v V. cbn [event_cells map stayed In] in V. destruct V as [<-|[<-|[<-|[]]]]; reflexivity. }
  destruct St as (Ob & Up & Down). eexists. eexists. split; [vm_compute; reflexivity|].
  edestruct (C134_steady_partial g (row_tracking 3) false true (repeat true 5) staying (bits [[0;0;1;0;0]; [0;0;0;1;1]; [1;0;0;1;1]]) staying (bits [[0;0;1;0;0]; [0;0;0;1;1]; [1;0;0;1;1]]) stayed 2%Z) as (F' & st' & R' & _ & _ & Gp);
    [discriminate|reflexivity|reflexivity| | |reflexivity|vm_compute; reflexivity|vm_compute; reflexivity| |vm_compute; reflexivity|exact Ob|exact Up|exact Down|].
  - split; [reflexivity|]. intros [[t y] x] (T & Y & X). cbn in T, Y, X. assert (y = 0) by lia. subst y.
    destruct t as [|[|[|t]]]; [| | |lia]; destruct x as [|[|[|[|[|x]]]]]; try reflexivity; lia.
  - intros y x Y X; cbn in Y, X; assert (y = 0) by lia; subst y; destruct x as [|[|[|[|[|x]]]]]; try reflexivity; lia.
  - intros e e' Fe Fe'. left.
    assert (A : first_extreme 3 1 5 (concat staying) (0, 0, 2)).
    { split; [cbn; lia|split; [reflexivity|]]. intros [[t y] x] (T & Y & X) V. assert (y = 0) by lia. subst y. destruct t as [|[|[|t]]]; [| | |lia]; destruct x as [|[|[|[|[|x]]]]]; try (vm_compute in V; discriminate V); unfold flat; lia. }
    assert (B : first_extreme 3 1 5 (concat (bits [[0;0;1;0;0]; [0;0;0;1;1]; [1;0;0;1;1]])) (0, 0, 2)).
    { split; [cbn; lia|split; [reflexivity|]]. intros [[t y] x] (T & Y & X) V. assert (y = 0) by lia. subst y. destruct t as [|[|[|t]]]; [| | |lia]; destruct x as [|[|[|[|[|x]]]]]; try (vm_compute in V; discriminate V); unfold flat; lia. }
    rewrite (first_unique _ _ _ _ _ _ Fe A), (first_unique _ _ _ _ _ _ Fe' B). constructor.
  - exists F', st'. split; [exact R'|exact Gp].
Qed.

Example C157_steady_case : let g := mkGrid true 2 1 5 (repeat true 5) 0 0 (ByAbsolute 1) in let g' := mkGrid false 2 2 7 (repeat true 14) 0 0 (ByAbsolute 1) in
  exists mg st, fresh_run g (row_tracking 2) drifting = Ok (drifted, 1%Z, mg, st) /\
  exists F' st', fresh_run g' (row_tracking 2) (bits [[0;0;0;0;0;0;0; 0;1;0;1;1;0;0]; [0;0;0;0;0;0;0; 0;0;0;0;1;1;0]]) = Ok (F', 1%Z, mg, st') /\ cut_grouping 1 1 g g' drifted F'.
Proof.
  intros g g'. destruct (drifting_steady (repeat true 5) true (ByAbsolute 1)) as (Ob & Up & Down).
  eexists. eexists. split; [vm_compute; reflexivity|].
  edestruct (C157_steady_partial 1 1 g g' (row_tracking 2) (row_tracking 2) drifting (bits [[0;0;0;0;0;0;0; 0;1;0;1;1;0;0]; [0;0;0;0;0;0;0; 0;0;0;0;1;1;0]]) drifted 1%Z) as (F' & st' & R' & _ & _ & Gp);
    [|right; cbn; lia|discriminate|reflexivity|left; reflexivity|reflexivity|reflexivity|reflexivity|reflexivity|reflexivity|vm_compute; reflexivity|exact Ob|exact Up|exact Down|].
  - split; [reflexivity|]. split; [reflexivity|]. cbn [g g' g_nt g_ny g_nx g_mask g_R g_T g_rule]. split; [lia|]. split; [lia|]. split; [reflexivity|]. split; [reflexivity|]. split; [reflexivity|].
    split. { intros y x Y X. destruct y as [|y]; [|lia]. destruct x as [|[|[|[|[|x]]]]]; try reflexivity; lia. }
    split; [reflexivity|]. split; [reflexivity|]. split.
    + intros [[t y] x] (T & Y & X). destruct t as [|[|t]]; [| |lia]; destruct y as [|y]; try lia; destruct x as [|[|[|[|[|x]]]]]; try reflexivity; lia.
    + intros [[t y] x] (T & Y & X) V. exists (t, y - 1, x - 1). cbn [placed].
      assert (1 <= y <= 1 /\ 1 <= x <= 5).
      { destruct t as [|[|t]]; [| |lia]; destruct y as [|[|y]]; try lia; destruct x as [|[|[|[|[|[|[|x]]]]]]]; try lia; discriminate V. }
      split; [split; [exact T|lia]|]. f_equal; [f_equal; lia|lia].
  - exists F', st'. split; [exact R'|exact Gp].
Qed.

Definition resting : field := bits [[1;0;1;1;0]; [1;0;1;1;0]].
Definition rested : list (list Z) := [[0;0;1;1;0]; [0;0;1;1;0]]%Z.
Example C159_steady_case : let g := mkGrid true 2 1 5 (repeat true 5) 0 0 (ByAbsolute 2) in
  exists mg st, fresh_run g (row_tracking 2) resting = Ok (rested, 1%Z, mg, st) /\
  exists F' st', fresh_run g (row_tracking 2) (rev resting) = Ok (F', 1%Z, mg, st') /\ same_grouping 2 1 5 (backwards 2) rested F'.
Proof.
  intro g.
  assert (St : object_numbers (negb (g_regional g)) (g_nt g) (g_ny g) (g_nx g) (in_event (g_nx g) rested) (event_objects g rested) /\
    nothing_merges (g_ny g * g_nx g) (1#2) (event_objects g rested) /\ nothing_splits (g_ny g * g_nx g) (1#2) (event_objects g rested)).
  { apply (steady_by_pairs g rested (1#2) [(1, 2)]%Z); [|exists 2; reflexivity|vm_compute; reflexivity|reflexivity].
    split; [reflexivity|]. intros v V. cbn [event_cells map rested In] in V. destruct V as [<-|[<-|[]]]; reflexivity. }
  destruct St as (Ob & Up & Down). eexists. eexists. split; [vm_compute; reflexivity|].
  edestruct (C159_steady_grid_partial g (row_tracking 2) (row_tracking 2) resting resting resting rested 1%Z) as (F' & st' & R' & _ & _ & _ & Gp);
    [reflexivity|reflexivity|reflexivity|reflexivity|reflexivity|reflexivity|reflexivity|vm_compute; reflexivity|vm_compute; reflexivity| |vm_compute; reflexivity|exact Ob|exact Up|exact Down|].
  - intros e e' Fe Fe'. right. cbn [s_threshold].
    assert (A : first_extreme 2 1 5 (concat resting) (0, 0, 0)) by (split; [cbn; lia|split; [reflexivity|intros [[t y] x] _ _; cbn; lia]]).
    rewrite (first_unique _ _ _ _ _ _ Fe A), (first_unique _ _ _ _ _ _ Fe' A).
    assert (Small : too_small g resting (inject_Z 2) (0, 0, 0)); [|split; exact Small].
    intros l (ND & M). cbn [g g_regional g_nt g_ny g_nx] in M.
    assert (B : forall d, In d l -> d = (0, 0, 0)).
    { intros d I. apply M in I. destruct I as (_ & _ & C). unfold joined in C. cbn [negb] in C. remember (0, 0, 0) as c0 eqn:E0. revert E0. clear -C. induction C as [c0|c0 d0 e R O T C IH]; intro E0; [reflexivity|].
      assert (d0 = c0); [|subst d0; apply IH; assumption]. subst c0. destruct d0 as [[t y] x]. destruct R as (Rt & Ry & Rx). unfold touching in T. assert (t = 0) by (destruct T; lia). assert (y = 0) by lia. subst t y.
      destruct x as [|[|[|[|[|x]]]]]; try lia; try reflexivity; try (vm_compute in O; discriminate O); exfalso; unfold col_next, dist1 in T; lia. }
    assert (length l <= 1); [|unfold nat_Q; rewrite <- Zlt_Qlt; lia].
    destruct l as [|a [|b l]]; [cbn; lia|cbn; lia|]. exfalso. inversion ND as [|? ? H _]. apply H. left. rewrite (B a), (B b); [reflexivity|right; left; reflexivity|left; reflexivity].
  - exists F', st'. split; [exact R'|exact Gp].
Qed.
