(** Theorems C160 and C161: more extremes, longer gaps. *)
From Verif Require Import Base Morph MorphSpec MorphProofs MorphMeshProofs MorphProps Label LabelSpec LabelProofs Filter FilterSpec FilterProofs FilterGridProofs FilterAreaProofs FilterMeshProofs FilterProps
  Overlap Merge MergeWitness Partition Cluster ClusterSpec ClusterFinal Run RunSpec RunProofs RunProps GridRunProps PipelineProps RelateSpec RelateProofs RelateProps RefineProofs RefineProps
  MeshPart Parallel ParallelProps MeshRun MeshRunProofs MeshRunLimits MeshRunProps StatsRunProps MeshMoveSpec MeshMoveProofs MeshMoveProps GrowProofs.
Open Scope nat_scope.

(** ** Two runs on a grid, one with more filled cells *)

(** Cells of one event are linked in space and time through the event cells. *)
Lemma same_event_chain g k data s F n mg st c d : length data = g_nt g -> fold_right Nat.add 0 (k_chunks k) = g_nt g -> fill_grid g data = Some s ->
  fresh_run g k data = Ok (F, n, mg, st) -> in_range (g_nt g) (g_ny g) (g_nx g) c -> in_range (g_nt g) (g_ny g) (g_nx g) d ->
  id_of (g_nx g) F c <> 0%Z -> id_of (g_nx g) F c = id_of (g_nx g) F d ->
  chain true (negb (g_regional g)) (g_nt g) (g_ny g) (g_nx g) (in_event (g_nx g) F) c d.
Proof.
  intros L Hs Fs R Rc Rd Nc Eq. assert (Nd : id_of (g_nx g) F d <> 0%Z) by congruence.
  assert (Same : forall G c, id_of (g_nx g) G c <> 0%Z <-> in_event (g_nx g) G c) by (intros G [[t y] x]; reflexivity).
  assert (Simple : exists F2 n2 mg2 st2, fresh_run g simple8 data = Ok (F2, n2, mg2, st2) /\
            (forall e, in_range (g_nt g) (g_ny g) (g_nx g) e -> (in_event (g_nx g) F e <-> in_event (g_nx g) F2 e)) /\ id_of (g_nx g) F2 c = id_of (g_nx g) F2 d).
  { destruct (k_merging k) eqn:Km.
    - destruct (C154_merging_only_divides_events g k simple8 data F n mg st L Hs Km eq_refl R) as (F2 & n2 & R2 & Fo & Ref & _).
      exists F2, n2, None, st. split; [exact R2|]. split; [intros e Re; rewrite <- !Same; apply Fo; exact Re|]. apply Ref; assumption.
    - exists F, n, mg, st. split; [|split; [reflexivity|exact Eq]].
      assert (E : fresh_run g k data = fresh_run g simple8 data) by (unfold fresh_run; rewrite Km; reflexivity). rewrite <- E. exact R. }
  destruct Simple as (F2 & n2 & mg2 & st2 & R2 & Fo & Eq2).
  destruct (C123_run_on_a_grid_partial g false true row_centroid 0 [] (k_chunks k) [] [] None (mkTracker (Some data) None false) (mkFiles None NoNpz) data s F2 n2 mg2 st2
    eq_refl eq_refl L Hs Fs R2) as (_ & _ & _ & _ & _ & Sm2).
  destruct (Sm2 eq_refl) as (_ & Sc). apply (chain_mono _ _ _ _ _ (in_event (g_nx g) F2)); [intros e Re; apply Fo; exact Re|].
  destruct c as [[t y] x], d as [[t' y'] x']. apply (Sc t y x t' y' x'); try assumption; [apply Fo; [exact Rc|exact Nc]|apply Fo; [exact Rd|exact Nd]].
Qed.

(** The larger run: its events hold every event cell of the smaller one, except those
    in the object it drops. *)
Lemma larger_run g g' k k' data data' s s' F F' n n' mg mg' st st' A :
  g_regional g' = g_regional g -> g_nt g' = g_nt g -> g_ny g' = g_ny g -> g_nx g' = g_nx g -> g_rule g = ByAbsolute A -> g_rule g' = ByAbsolute A ->
  length data = g_nt g -> length data' = g_nt g -> fold_right Nat.add 0 (k_chunks k) = g_nt g -> fold_right Nat.add 0 (k_chunks k') = g_nt g ->
  fill_grid g data = Some s -> fill_grid g' data' = Some s' ->
  (forall c, in_range (g_nt g) (g_ny g) (g_nx g) c -> value_at (g_nx g) s c = true -> value_at (g_nx g) s' c = true) ->
  fresh_run g k data = Ok (F, n, mg, st) -> fresh_run g' k' data' = Ok (F', n', mg', st') ->
  (forall c, in_range (g_nt g) (g_ny g) (g_nx g) c -> id_of (g_nx g) F c <> 0%Z ->
     id_of (g_nx g) F' c <> 0%Z \/
     exists e, first_extreme (g_nt g) (g_ny g) (g_nx g) (concat s') e /\ joined (g_regional g) (g_nt g) (g_ny g) (g_nx g) (concat s') c e) /\
  (k_merging k' = false -> (forall c, in_range (g_nt g) (g_ny g) (g_nx g) c -> id_of (g_nx g) F c <> 0%Z -> id_of (g_nx g) F' c <> 0%Z) ->
   forall c d, in_range (g_nt g) (g_ny g) (g_nx g) c -> in_range (g_nt g) (g_ny g) (g_nx g) d ->
     id_of (g_nx g) F c <> 0%Z -> id_of (g_nx g) F c = id_of (g_nx g) F d -> id_of (g_nx g) F' c = id_of (g_nx g) F' d).
Proof.
  intros Rg Nt Ny Nx Ru Ru' L L' Ch Ch' Fs Fs' Le R R'.
  assert (L2 : length data' = g_nt g') by congruence. assert (Ch2 : fold_right Nat.add 0 (k_chunks k') = g_nt g') by congruence.
  destruct (run_parts g k data s F n mg st L Fs R) as (f & Ef & Th & _). destruct (run_parts g' k' data' s' F' n' mg' st' L2 Fs' R') as (f' & Ef' & Th' & _).
  destruct (fill_grid_ok g data s L Fs) as [Sh _]. destruct (fill_grid_ok g' data' s' L2 Fs') as [Sh' _].
  assert (Lc := shaped_concat g s Sh). assert (Lc' := shaped_concat g' s' Sh').
  destruct (C123_run_on_a_grid_partial g (k_merging k) (k_nn k) (k_centroid k) (k_overlap k) (k_areas k) (k_chunks k) [] [] None
     (mkTracker (Some data) None false) (mkFiles None NoNpz) data s F n mg st eq_refl eq_refl L Ch Fs R) as (_ & Ev & _).
  destruct (C123_run_on_a_grid_partial g' (k_merging k') (k_nn k') (k_centroid k') (k_overlap k') (k_areas k') (k_chunks k') [] [] None
     (mkTracker (Some data') None false) (mkFiles None NoNpz) data' s' F' n' mg' st' eq_refl eq_refl L2 Ch2 Fs' R') as (_ & Ev' & _ & _ & _ & Gp').
  assert (Tst : s_threshold st' = s_threshold st).
  { rewrite Th, Th'. destruct (C16_areas_are_object_sizes _ _ _ _ _ _ _ Lc Ef) as [A1 _]. destruct (C16_areas_are_object_sizes _ _ _ _ _ _ _ Lc' Ef') as [A2 _]. rewrite Ru in A1. rewrite Ru' in A2. congruence. }
  assert (Same : forall G c, id_of (g_nx g) G c <> 0%Z <-> in_event (g_nx g) G c) by (intros G [[t y] x]; reflexivity).
  assert (Exs : forall c, in_range (g_nt g) (g_ny g) (g_nx g) c -> (extreme (g_ny g) (g_nx g) (concat s) c <-> value_at (g_nx g) s c = true)).
  { intros [[t y] x] (T & Y & X). unfold extreme. rewrite (shaped_cell g s t y x Sh T Y X). reflexivity. }
  assert (Exs' : forall c, in_range (g_nt g) (g_ny g) (g_nx g) c -> (extreme (g_ny g) (g_nx g) (concat s') c <-> value_at (g_nx g) s' c = true)).
  { intros [[t y] x] (T & Y & X). unfold extreme. rewrite <- Nt in T. rewrite <- Ny in Y. rewrite <- Nx in X. rewrite <- Ny, <- Nx. rewrite (shaped_cell g' s' t y x Sh' T Y X). reflexivity. }
  rewrite Rg, Nt, Ny, Nx in Ev', Gp'. rewrite Nt, Ny, Nx in Lc'. rewrite Tst in Ev'.
  assert (More : forall c, in_range (g_nt g) (g_ny g) (g_nx g) c -> extreme (g_ny g) (g_nx g) (concat s) c -> extreme (g_ny g) (g_nx g) (concat s') c) by (intros c Rc X; apply Exs'; [exact Rc|]; apply Le; [exact Rc|]; apply Exs; assumption).
  split.
  - intros c Rc Nc. apply Same in Nc. apply (Ev c Rc) in Nc. destruct Nc as (X & (l & (ND & M) & Z0) & _). assert (X' := More c Rc X).
    destruct (object_cells_exist (g_regional g) (g_nt g) (g_ny g) (g_nx g) (concat s') Lc' c Rc X') as (l' & N' & M').
    assert (Le' : (s_threshold st <= nat_Q (length l'))%Q).
    { apply (Qle_trans _ _ _ Z0). unfold nat_Q. rewrite <- Zle_Qle. apply inj_le. apply NoDup_incl_length; [exact ND|]. intros d I. apply M in I. destruct I as (Rd & Xd & C). apply M'.
      split; [exact Rd|]. split; [apply More; assumption|]. unfold joined in *. apply (chain_mono _ _ _ _ _ (extreme (g_ny g) (g_nx g) (concat s))); [exact More|exact C]. }
    destruct (first_exists (g_nt g) (g_ny g) (g_nx g) (concat s') c Rc X') as (e & Fe).
    assert (Dc : forall a b : cell, {a = b} + {a <> b}) by (repeat decide equality).
    destruct (in_dec Dc e l') as [I|I]; [right; exists e; split; [exact Fe|apply M' in I; apply I]|left].
    apply Same. apply (Ev' c Rc). split; [exact X'|]. split; [exists l'; split; [split; assumption|exact Le']|].
    intros (e0 & Fe0 & J). rewrite (first_unique _ _ _ _ _ _ Fe0 Fe) in J. apply I. apply M'. destruct Fe as (Re & Xe & _). split; [exact Re|split; assumption].
  - intros Km Sub c d Rc Rd Nc Eq. destruct (Gp' Km) as (_ & Sc). assert (C := same_event_chain g k data s F n mg st c d L Ch Fs R Rc Rd Nc Eq).
    assert (Nd : id_of (g_nx g) F d <> 0%Z) by congruence. assert (I1 := proj1 (Same F' c) (Sub c Rc Nc)). assert (I2 := proj1 (Same F' d) (Sub d Rd Nd)).
    destruct c as [[t y] x], d as [[t' y'] x']. apply (Sc t y x t' y' x' Rc Rd I1 I2).
    apply (chain_mono _ _ _ _ _ (in_event (g_nx g) F)); [|exact C]. intros e Re Ie. apply Same, Sub, Same; assumption.
Qed.

(** ** Two runs on a mesh, one with more filled cells *)
Lemma mesh_chain_mono m (P Q : nat -> Prop) i j : (forall k, P k -> Q k) -> mesh_chain m P i j -> mesh_chain m Q i j.
Proof. intros H C. induction C as [i|i j k O A J C IH]; [constructor|]. apply (mchain_step _ _ i j k); auto. Qed.
Lemma larger_mesh_run h h' y y' data data' s s' F F' n n' mg mg' st st' A :
  h_nbs h' = h_nbs h -> h_mask h' = h_mask h -> h_R h' = h_R h -> h_rule h = ByAbsolute A -> h_rule h' = ByAbsolute A ->
  setup_ok h data -> setup_ok h' data' -> length data' = length data -> set_order (y_order y) -> set_order (y_order y') ->
  fill_time_gaps_mesh h (map (fill_holes_mesh (h_nbs h) (h_R h) (h_mask h)) data) = Some s ->
  fill_time_gaps_mesh h' (map (fill_holes_mesh (h_nbs h) (h_R h) (h_mask h)) data') = Some s' ->
  (forall t i, t < length data -> i < length (h_nbs h) -> atb (nth t s []) i = true -> atb (nth t s' []) i = true) ->
  fresh_mesh_run h y data = Ok (F, n, mg, st) -> fresh_mesh_run h' y' data' = Ok (F', n', mg', st') ->
  forall t i, t < length data -> i < length (h_nbs h) -> id_at F t i <> 0%Z -> id_at F' t i <> 0%Z.
Proof.
  intros Hn Hk HR Ru Ru' Hs Hs' L Ho Ho' Fl Fl' Le R R' t i T I.
  assert (Fl2 : fill_time_gaps_mesh h' (map (fill_holes_mesh (h_nbs h') (h_R h') (h_mask h')) data') = Some s') by (rewrite Hn, HR, Hk; exact Fl').
  unfold fresh_mesh_run in R, R'.
  destruct (run_mesh_parts h _ _ [] [] None (mkTracker (Some data) None true) (mkFiles None NoNpz) data s _ st Hs eq_refl eq_refl eq_refl ltac:(discriminate) Fl R) as (f & Ef & St).
  destruct (run_mesh_parts h' _ _ [] [] None (mkTracker (Some data') None true) (mkFiles None NoNpz) data' s' _ st' Hs' eq_refl eq_refl eq_refl ltac:(discriminate) Fl2 R') as (f' & Ef' & St').
  destruct (C108_run_on_a_mesh h _ _ _ _ _ _ _ _ [] [] None (mkTracker (Some data) None true) (mkFiles None NoNpz) data s F n mg st Hs Ho eq_refl eq_refl eq_refl ltac:(discriminate) Fl R) as (_ & Cell & _).
  destruct (C108_run_on_a_mesh h' _ _ _ _ _ _ _ _ [] [] None (mkTracker (Some data') None true) (mkFiles None NoNpz) data' s' F' n' mg' st' Hs' Ho' eq_refl eq_refl eq_refl ltac:(discriminate) Fl2 R') as (_ & Cell' & _).
  assert (Thr : forall h f data st, h_rule h = ByAbsolute A -> (exists s, filter_small_mesh (h_rule h) (h_nbs h) (h_mask h) s = Ok f) -> stats_of (area_mesh h) data f (f_keep f) = Ok st -> s_threshold st = inject_Z A).
  { clear. intros h f data st Ru (s & E) St. unfold stats_of in St. destruct (Nat.eqb _ 0); [discriminate|]. destruct (Qeq_bool _ _); [discriminate|]. injection St as <-. cbn [s_threshold].
    unfold filter_small_mesh, filter_mesh in E. rewrite Ru in E. destruct (filter _ _); [discriminate|]. injection E as <-. reflexivity. }
  assert (T1 := Thr h f data st Ru ltac:(eexists; exact Ef) St). assert (T2 := Thr h' f' data' st' Ru' ltac:(eexists; exact Ef') St').
  destruct (filled_length h' data' s' Hs' Fl2) as [Ls' Rs'].
  assert (Hi' : mesh_inputs_ok (h_nbs h') (h_mask h') s') by (destruct Hs' as (B1 & B2 & _); split; [exact B1|split; [exact B2|exact Rs']]).
  rewrite Hn, Hk in Hi', Cell'. intro Ne. apply (Cell t i T I) in Ne. apply (Cell' t i ltac:(lia) I). destruct Ne as (O & l & (ND & M) & Z0).
  assert (More : forall k, ocean_extreme (h_nbs h) (h_mask h) (nth t s []) k -> ocean_extreme (h_nbs h) (h_mask h) (nth t s' []) k) by (intros k (K1 & K2 & K3); split; [exact K1|split; [exact K2|exact (Le t k T K1 K3)]]).
  split; [apply More; exact O|]. destruct (object_exists_mesh (h_nbs h) (h_mask h) s' Hi' t i ltac:(lia) (More i O)) as (l' & N' & M').
  exists l'. split; [split; assumption|]. rewrite T2. rewrite T1 in Z0. apply (Qlt_le_trans _ _ _ Z0). unfold nat_Q. rewrite <- Zle_Qle. apply inj_le.
  apply NoDup_incl_length; [exact ND|]. intros d Id. apply M in Id. destruct Id as (Xd & C). apply M'. split; [apply More; exact Xd|]. exact (mesh_chain_mono _ _ _ _ _ More C).
Qed.

(** ** C160 *)

(** As claimed, with an absolute area threshold a run on data with more extreme cells
    has all the event cells of the other run.  Wrong on grids: the object dropped by the
    filter (finding of C17) is another one, here the first two objects joined. *)
Theorem C160_more_extremes_more_event_cells_refuted : exists (g : grid) (k : tracking) (A : Z) (data data' : field) (F F' : list (list Z)) (n n' : Z) (mg mg' : option merges) (st st' : stats) (c : cell),
  g_rule g = ByAbsolute A /\ length data = g_nt g /\ length data' = g_nt g /\ fold_right Nat.add 0 (k_chunks k) = g_nt g /\
  (forall c, in_range (g_nt g) (g_ny g) (g_nx g) c -> value_at (g_nx g) data c = true -> value_at (g_nx g) data' c = true) /\
  fresh_run g k data = Ok (F, n, mg, st) /\ fresh_run g k data' = Ok (F', n', mg', st') /\
  in_range (g_nt g) (g_ny g) (g_nx g) c /\ id_of (g_nx g) F c <> 0%Z /\ id_of (g_nx g) F' c = 0%Z.
Proof.
  exists (belt 2 0), (simple_tracking 2), 1%Z, (bits [[1;0;1;0;0]; [0;0;0;1;0]]), (bits [[1;1;1;0;0]; [0;0;0;1;0]]). do 8 eexists. exists (0, 0, 2).
  split; [reflexivity|]. split; [reflexivity|]. split; [reflexivity|]. split; [reflexivity|]. split.
  { intros [[t y] x] (T & Y & X). cbn in T, Y, X. assert (y = 0) by lia. subst y. destruct t as [|[|t]]; [| |lia]; (do 5 (destruct x as [|x]; [cbn; congruence|])); lia. }
  split; [vm_compute; reflexivity|]. split; [vm_compute; reflexivity|]. split; [cbn; lia|]. split; [cbn; discriminate|reflexivity].
Qed.
Print Assumptions C160_more_extremes_more_event_cells_refuted.

(** The event cells that do not stay event cells are all in the dropped object.  If
    there are none, and the run on more extremes does not use merging, the cells of one
    event stay in one event. *)
Theorem C160_more_extremes_more_event_cells_partial (g : grid) (k k' : tracking) (A : Z) (data data' : field)
    (F F' : list (list Z)) (n n' : Z) (mg mg' : option merges) (st st' : stats) :
  let nt := g_nt g in let ny := g_ny g in let nx := g_nx g in
  g_rule g = ByAbsolute A -> (0 <= g_T g)%Z -> Z.even (g_T g) = true -> length data = nt -> length data' = nt ->
  fold_right Nat.add 0 (k_chunks k) = nt -> fold_right Nat.add 0 (k_chunks k') = nt ->
  (forall c, in_range nt ny nx c -> value_at nx data c = true -> value_at nx data' c = true) ->
  fresh_run g k data = Ok (F, n, mg, st) -> fresh_run g k' data' = Ok (F', n', mg', st') ->
  exists s', fill_grid g data' = Some s' /\
  (forall c, in_range nt ny nx c -> id_of nx F c <> 0%Z ->
     id_of nx F' c <> 0%Z \/ exists e, first_extreme nt ny nx (concat s') e /\ joined (g_regional g) nt ny nx (concat s') c e) /\
  (k_merging k' = false -> (forall c, in_range nt ny nx c -> id_of nx F c <> 0%Z -> id_of nx F' c <> 0%Z) ->
   forall c d, in_range nt ny nx c -> in_range nt ny nx d -> id_of nx F c <> 0%Z -> id_of nx F c = id_of nx F d -> id_of nx F' c = id_of nx F' d).
Proof.
  intros nt ny nx Ru T0 Te L L' Ch Ch' Le R R'. destruct (run_fills g k data _ R) as (s & Fs). destruct (run_fills g k' data' _ R') as (s' & Fs'). exists s'. split; [exact Fs'|].
  apply (larger_run g g k k' data data' s s' F F' n n' mg mg' st st' A); try assumption; try reflexivity.
  apply (grid_fill_grows g (g_T g) data data' s s'); try assumption; [lia|left; reflexivity].
Qed.
Print Assumptions C160_more_extremes_more_event_cells_partial.

(** On meshes no object is dropped, and every event cell stays an event cell. *)
Theorem C160_more_extremes_on_a_mesh (h : mesh_setup) (y y' : mesh_tracking) (A : Z) (data data' : field)
    (F F' : list (list Z)) (n n' : Z) (mg mg' : option merges) (st st' : stats) :
  h_rule h = ByAbsolute A -> (0 <= h_T h)%Z -> Z.even (h_T h) = true -> setup_ok h data -> setup_ok h data' -> length data' = length data ->
  set_order (y_order y) -> set_order (y_order y') ->
  (forall t i, atb (nth t data []) i = true -> atb (nth t data' []) i = true) ->
  fresh_mesh_run h y data = Ok (F, n, mg, st) -> fresh_mesh_run h y' data' = Ok (F', n', mg', st') ->
  forall t i, t < length data -> i < length (h_nbs h) -> id_at F t i <> 0%Z -> id_at F' t i <> 0%Z.
Proof.
  intros Ru T0 Te Hs Hs' L Ho Ho' Le R R'.
  assert (Fills : forall d, exists s, fill_time_gaps_mesh h (map (fill_holes_mesh (h_nbs h) (h_R h) (h_mask h)) d) = Some s).
  { intro d. unfold fill_time_gaps_mesh. destruct (h_T h =? 0)%Z; [eexists; reflexivity|]. destruct (Z.ltb_spec (h_T h + 1) 0); [lia|]. eexists. reflexivity. }
  destruct (Fills data) as (s & Fs). destruct (Fills data') as (s' & Fs').
  apply (larger_mesh_run h h y y' data data' s s' F F' n n' mg mg' st st' A); try assumption; try reflexivity.
  apply (mesh_fill_grows h (h_T h) data data' s s'); try assumption; [lia|left; reflexivity].
Qed.
Print Assumptions C160_more_extremes_on_a_mesh.

(** A row of eight cells: a gap of one step in the second object. *)
Example C160_case :
  (exists F n mg st F' n' mg' st', fresh_run (belt 2 0) (simple_tracking 2) (bits [[1;0;1;0;0]; [0;0;1;0;0]]) = Ok (F, n, mg, st) /\
    fresh_run (belt 2 0) (simple_tracking 2) (bits [[1;0;1;1;0]; [0;0;1;1;1]]) = Ok (F', n', mg', st') /\
    F = [[0;0;1;0;0]; [0;0;1;0;0]]%Z /\ F' = [[0;0;1;1;0]; [0;0;1;1;1]]%Z) /\
  (exists F n mg st F' n' mg' st',
    setup_ok row8 (row_days [[1;1;1;1;1;1;0;0]]) /\ setup_ok row8 (row_days [[1;1;1;1;1;1;1;0]]) /\
    fresh_mesh_run row8 tables8 (row_days [[1;1;1;1;1;1;0;0]]) = Ok (F, n, mg, st) /\ fresh_mesh_run row8 tables8 (row_days [[1;1;1;1;1;1;1;0]]) = Ok (F', n', mg', st') /\
    F = [[1;1;1;1;1;1;0;0]]%Z /\ F' = [[1;1;1;1;1;1;1;0]]%Z).
Proof.
  split.
  - do 8 eexists. split; [vm_compute; reflexivity|]. split; [vm_compute; reflexivity|]. split; reflexivity.
  - do 8 eexists. split; [apply (row_input 8 (row_days [[1;1;1;1;1;1;0;0]])); reflexivity|]. split; [apply (row_input 8 (row_days [[1;1;1;1;1;1;1;0]])); reflexivity|].
    split; [vm_compute; reflexivity|]. split; [vm_compute; reflexivity|]. split; reflexivity.
Qed.

(** ** C161 *)

(** A fill in two steps: the holes first, the gaps of the table after. *)
Lemma fill_in_two g T data d : length data = g_nt g -> (0 < g_ny g) -> (0 < g_nx g) -> fill_grid (with_gap g 0) data = Some d ->
  fill_grid (with_gap g T) data = option_map (map (flat_img (g_ny g) (g_nx g)))
    (fill_time_gaps (g_regional g) T (g_R g) (Z.of_nat (g_ny g)) (Z.of_nat (g_nx g)) (img_of (g_nx g) (g_mask g)) (map (img_of (g_nx g)) d)).
Proof.
  intros L Y X E. unfold fill_grid, preprocess_morph in *. cbn [with_gap g_regional g_T g_R g_ny g_nx g_mask] in *. unfold fill_time_gaps in E at 1. cbn [Z.eqb] in E. cbn [option_map] in E. injection E as <-.
  set (ny := g_ny g) in *. set (nx := g_nx g) in *. set (im := fill_holes (g_regional g) (g_R g) (Z.of_nat ny) (Z.of_nat nx) (img_of nx (g_mask g)) (map (img_of nx) data)). 
  assert (Back : forall f y x, in_grid (Z.of_nat ny) (Z.of_nat nx) y x -> img_of nx (flat_img ny nx f) y x = f y x).
  { intros f y x (Y0 & X0). unfold img_of. assert (H := flat_at ny nx f (Z.to_nat y) (Z.to_nat x) ltac:(lia) ltac:(lia)). rewrite !Z2Nat.id in H by lia. exact H. }
  assert (Flat : forall f h, (forall y x, in_grid (Z.of_nat ny) (Z.of_nat nx) y x -> f y x = h y x) -> flat_img ny nx f = flat_img ny nx h).
  { intros f h H. unfold flat_img. apply map_ext_in. intros j J. apply in_seq in J. apply H.
    assert (j / nx < ny) by (apply Nat.div_lt_upper_bound; lia). assert (j mod nx < nx) by (apply Nat.mod_upper_bound; lia).
    revert H0 H1. generalize (j / nx) as a, (j mod nx) as b. clear. unfold in_grid. lia. }
  assert (Slice : forall R f h y x, (forall y x, in_grid (Z.of_nat ny) (Z.of_nat nx) y x -> f y x = h y x) -> in_grid (Z.of_nat ny) (Z.of_nat nx) y x ->
     fill_holes_slice (g_regional g) R (Z.of_nat ny) (Z.of_nat nx) (img_of nx (g_mask g)) f y x = fill_holes_slice (g_regional g) R (Z.of_nat ny) (Z.of_nat nx) (img_of nx (g_mask g)) h y x).
  { intros R f h y x H G. apply Bool.eq_iff_eq_true. split; apply slice_grows; try lia; try exact G; intros y0 x0 G0 V; [rewrite <- H|rewrite H]; assumption. }
  clearbody im. unfold fill_time_gaps. destruct (T =? 0)%Z.
  - cbn [option_map]. f_equal. rewrite !map_map. apply map_ext. intro f. apply Flat. intros y x G. symmetry. apply Back. exact G.
  - destruct (T + 1 <? 0)%Z; [reflexivity|]. cbn [option_map]. f_equal. unfold fill_holes. rewrite !map_map. rewrite !map_length. apply map_ext. intro j. apply Flat. intros y x G. apply Slice; [|exact G].
    intros y0 x0 G0. unfold series_at. rewrite !map_map. rewrite (map_ext (fun f => img_of nx (flat_img ny nx f) y0 x0) (fun f => f y0 x0)) by (intro f; apply Back; exact G0). reflexivity.
Qed.

(** The same quarter of a disc of radius 3 on two days. *)
Definition corner (T : Z) : grid := mkGrid true 2 5 5 (repeat true 25) 3 T (ByAbsolute 1).
Definition quarter : list nat := [1;1;1;1;0; 1;1;1;0;0; 1;1;1;0;0; 1;0;0;0;0; 0;0;0;0;0].
Lemma quarter_stays : fill_grid (corner 0) (bits [quarter; quarter]) = Some (bits [quarter; quarter]).
Proof. lazy. reflexivity. Qed.
Lemma quarter_cut : fill_grid (corner 2) (bits [quarter; quarter]) = Some (bits [[1;1;1;1;0; 1;1;1;0;0; 1;1;0;0;0; 1;0;0;0;0; 0;0;0;0;0]; [1;1;1;1;0; 1;1;1;0;0; 1;1;0;0;0; 1;0;0;0;0; 0;0;0;0;0]]).
Proof.
  change (corner 2) with (with_gap (corner 0) 2). rewrite (fill_in_two (corner 0) 2 _ (bits [quarter; quarter])); [lazy; reflexivity|reflexivity|cbn; lia|cbn; lia|exact quarter_stays].
Qed.
Lemma run_from_filtered g k data f : clean_grid g data = Ok f ->
  fresh_run g k data = bind (bind (stats_of area_grid data f (f_keep f)) (fun s => Ok (f_keep f, s)))
    (fun fs => bind ((if k_merging k then track_merging g (k_nn k) (k_centroid k) (k_overlap k) (k_areas k) (k_chunks k) else track_simple g) (fst fs)) (fun o => Ok (o, snd fs))).
Proof. intro E. unfold fresh_run, run, run_preprocess. cbn [effective loads saves t_data]. rewrite E. reflexivity. Qed.

Definition cut : list nat := [1;1;1;1;0; 1;1;1;0;0; 1;1;0;0;0; 1;0;0;0;0; 0;0;0;0;0].
Definition only_last (q : list nat) (size : nat) : filtered := mkFiltered [repeat false 25; map (Nat.eqb 1) q] 1%Q [size; size] 2 1.
Lemma quarter_kept : clean_grid (corner 0) (bits [quarter; quarter]) = Ok (only_last quarter 11).
Proof. unfold clean_grid. rewrite quarter_stays. vm_compute. reflexivity. Qed.
Lemma cut_kept : clean_grid (corner 2) (bits [quarter; quarter]) = Ok (only_last cut 10).
Proof. unfold clean_grid. rewrite quarter_cut. vm_compute. reflexivity. Qed.

Lemma quarter_run : exists st, fresh_run (corner 0) (simple_tracking 2) (bits [quarter; quarter]) = Ok ([repeat 0%Z 25; map Z.of_nat quarter], 1%Z, None, st).
Proof. rewrite (run_from_filtered (corner 0) (simple_tracking 2) (bits [quarter; quarter]) (only_last quarter 11) quarter_kept). eexists. vm_compute. reflexivity. Qed.
Lemma cut_run : exists st, fresh_run (corner 2) (simple_tracking 2) (bits [quarter; quarter]) = Ok ([repeat 0%Z 25; map Z.of_nat cut], 1%Z, None, st).
Proof. rewrite (run_from_filtered (corner 2) (simple_tracking 2) (bits [quarter; quarter]) (only_last cut 10) cut_kept). eexists. vm_compute. reflexivity. Qed.

(** As claimed, a longer T_fill keeps every event cell.  Wrong on grids with a first
    T_fill of zero: only with a positive T_fill are the holes filled a second time, with
    half the radius, and the opening of that second fill takes away the corners of a disc. *)
Theorem C161_longer_gaps_more_event_cells_refuted : exists (g : grid) (T : Z) (k : tracking) (A : Z) (data : field) (F F' : list (list Z)) (n n' : Z) (mg mg' : option merges) (st st' : stats) (c : cell),
  g_rule g = ByAbsolute A /\ (0 <= g_T g <= T)%Z /\ Z.even (g_T g) = true /\ Z.even T = true /\ length data = g_nt g /\ fold_right Nat.add 0 (k_chunks k) = g_nt g /\
  fresh_run g k data = Ok (F, n, mg, st) /\ fresh_run (with_gap g T) k data = Ok (F', n', mg', st') /\
  in_range (g_nt g) (g_ny g) (g_nx g) c /\ id_of (g_nx g) F c <> 0%Z /\ id_of (g_nx g) F' c = 0%Z.
Proof.
  destruct quarter_run as (st & R). destruct cut_run as (st' & R').
  exists (corner 0), 2%Z, (simple_tracking 2), 1%Z, (bits [quarter; quarter]), [repeat 0%Z 25; map Z.of_nat quarter], [repeat 0%Z 25; map Z.of_nat cut], 1%Z, 1%Z, None, None, st, st', (1, 2, 2).
  split; [reflexivity|]. split; [cbn; lia|]. split; [reflexivity|]. split; [reflexivity|]. split; [reflexivity|]. split; [reflexivity|].
  split; [exact R|]. split; [exact R'|]. split; [cbn; lia|]. split; [cbn; discriminate|reflexivity].
Qed.
Print Assumptions C161_longer_gaps_more_event_cells_refuted.

(** From a positive T_fill on, or with R_fill at most 1, the filled cells stay filled,
    and the event cells of the shorter T_fill that are lost are all in the dropped object. *)
Theorem C161_longer_gaps_more_event_cells_partial (g : grid) (T : Z) (k k' : tracking) (A : Z) (data : field)
    (F F' : list (list Z)) (n n' : Z) (mg mg' : option merges) (st st' : stats) :
  let nt := g_nt g in let ny := g_ny g in let nx := g_nx g in
  g_rule g = ByAbsolute A -> (0 <= g_T g <= T)%Z -> Z.even (g_T g) = true -> Z.even T = true -> (0 < g_T g \/ g_R g / 2 = 0)%Z -> length data = nt ->
  fold_right Nat.add 0 (k_chunks k) = nt -> fold_right Nat.add 0 (k_chunks k') = nt ->
  fresh_run g k data = Ok (F, n, mg, st) -> fresh_run (with_gap g T) k' data = Ok (F', n', mg', st') ->
  exists s s', fill_grid g data = Some s /\ fill_grid (with_gap g T) data = Some s' /\
  (forall c, in_range nt ny nx c -> value_at nx s c = true -> value_at nx s' c = true) /\
  (forall c, in_range nt ny nx c -> id_of nx F c <> 0%Z ->
     id_of nx F' c <> 0%Z \/ exists e, first_extreme nt ny nx (concat s') e /\ joined (g_regional g) nt ny nx (concat s') c e) /\
  (k_merging k' = false -> (forall c, in_range nt ny nx c -> id_of nx F c <> 0%Z -> id_of nx F' c <> 0%Z) ->
   forall c d, in_range nt ny nx c -> in_range nt ny nx d -> id_of nx F c <> 0%Z -> id_of nx F c = id_of nx F d -> id_of nx F' c = id_of nx F' d).
Proof.
  intros nt ny nx Ru T0 Te Te' Tr L Ch Ch' R R'. destruct (run_fills g k data _ R) as (s & Fs). destruct (run_fills (with_gap g T) k' data _ R') as (s' & Fs'). exists s, s'. split; [exact Fs|]. split; [exact Fs'|].
  assert (Le : forall c, in_range nt ny nx c -> value_at nx s c = true -> value_at nx s' c = true) by (apply (grid_fill_grows g T data data s s'); try assumption; [right; exact Tr|intros; assumption]).
  split; [exact Le|].
  apply (larger_run g (with_gap g T) k k' data data s s' F F' n n' mg mg' st st' A); try assumption; try reflexivity.
Qed.
Print Assumptions C161_longer_gaps_more_event_cells_partial.

(** On meshes where neighbours are mutual, every event cell stays an event cell. *)
Theorem C161_longer_gaps_on_a_mesh (h : mesh_setup) (T : Z) (y y' : mesh_tracking) (A : Z) (data : field)
    (F F' : list (list Z)) (n n' : Z) (mg mg' : option merges) (st st' : stats) :
  h_rule h = ByAbsolute A -> (0 <= h_T h <= T)%Z -> Z.even (h_T h) = true -> Z.even T = true -> mesh_sym (h_nbs h) -> setup_ok h data ->
  set_order (y_order y) -> set_order (y_order y') ->
  fresh_mesh_run h y data = Ok (F, n, mg, st) -> fresh_mesh_run (with_mesh_gap h T) y' data = Ok (F', n', mg', st') ->
  forall t i, t < length data -> i < length (h_nbs h) -> id_at F t i <> 0%Z -> id_at F' t i <> 0%Z.
Proof.
  intros Ru T0 Te Te' Sy Hs Ho Ho' R R'.
  assert (Fills : forall U d, (0 <= U)%Z -> exists s, fill_time_gaps_mesh (with_mesh_gap h U) (map (fill_holes_mesh (h_nbs h) (h_R h) (h_mask h)) d) = Some s).
  { intros U d U0. unfold fill_time_gaps_mesh. cbn [with_mesh_gap h_T]. destruct (U =? 0)%Z; [eexists; reflexivity|]. destruct (Z.ltb_spec (U + 1) 0); [lia|]. eexists. reflexivity. }
  destruct (Fills (h_T h) data ltac:(lia)) as (s & Fs). destruct (Fills T data ltac:(lia)) as (s' & Fs').
  replace (with_mesh_gap h (h_T h)) with h in Fs by (destruct h; reflexivity).
  apply (larger_mesh_run h (with_mesh_gap h T) y y' data data s s' F F' n n' mg mg' st st' A); try assumption; try reflexivity.
  apply (mesh_fill_grows h T data data s s'); try assumption; try reflexivity; [right; right; exact Sy|intros; assumption].
Qed.
Print Assumptions C161_longer_gaps_on_a_mesh.

(** A gap of three steps: T_fill 2 leaves it open, T_fill 4 closes it. *)
Example C161_case :
  let days := [[1;0;1;0;0]; [0;0;0;0;0]; [0;0;0;0;0]; [0;0;0;0;0]; [0;0;1;0;0]] in
  (exists F n mg st F' n' mg' st', fresh_run (belt 5 2) (simple_tracking 5) (bits days) = Ok (F, n, mg, st) /\
    fresh_run (with_gap (belt 5 2) 4) (simple_tracking 5) (bits days) = Ok (F', n', mg', st') /\
    F = [[0;0;1;0;0]; [0;0;0;0;0]; [0;0;0;0;0]; [0;0;0;0;0]; [0;0;2;0;0]]%Z /\
    F' = [[0;0;1;0;0]; [0;0;1;0;0]; [0;0;1;0;0]; [0;0;1;0;0]; [0;0;1;0;0]]%Z) /\
  (exists F n mg st F' n' mg' st', let long := row_days [[1;1;1;1;1;1;0;0]; [0;0;0;0;0;0;0;0]; [1;1;1;1;1;1;0;0]] in
    setup_ok row8 long /\ mesh_sym (h_nbs row8) /\
    fresh_mesh_run row8 tables8 long = Ok (F, n, mg, st) /\ fresh_mesh_run (with_mesh_gap row8 2) tables8 long = Ok (F', n', mg', st') /\
    F = [[1;1;1;1;1;1;0;0]; [0;0;0;0;0;0;0;0]; [2;2;2;2;2;2;0;0]]%Z /\ F' = [[1;1;1;1;1;1;0;0]; [1;1;1;1;1;1;0;0]; [1;1;1;1;1;1;0;0]]%Z).
Proof.
  cbv zeta. split.
  - do 8 eexists. split; [vm_compute; reflexivity|]. split; [vm_compute; reflexivity|]. split; reflexivity.
  - do 8 eexists. split; [apply (row_input 8 _); reflexivity|]. split.
    + intros i j A. assert (D : forall i j, i < 8 -> j < 8 -> memZ (Z.of_nat i) (Morph.row (row_mesh 8) j) = memZ (Z.of_nat j) (Morph.row (row_mesh 8) i)).
      { intros a b I J. revert b J. pattern a. revert a I. apply below8; intros b J; pattern b; revert b J; apply below8; reflexivity. }
      assert (I : i < 8).
      { destruct (Nat.lt_ge_cases i 8) as [I|I]; [exact I|]. exfalso. unfold adj, Morph.row in A. rewrite nth_overflow in A; [exact A|cbn; lia]. }
      assert (J : j < 8).
      { assert (Ok8 : mesh_ok (row_mesh 8)) by (apply mesh_okb_ok; vm_compute; reflexivity). specialize (Ok8 i (Z.of_nat j) A). cbn in Ok8. lia. }
      unfold adj in *. cbn [h_nbs row8] in *. rewrite <- memZ_In in *. rewrite D; assumption.
    + split; [vm_compute; reflexivity|]. split; [vm_compute; reflexivity|]. split; reflexivity.
Qed.
