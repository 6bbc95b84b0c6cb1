(** C153: the statistics a run reports. *)
From Coq Require Import String Lqa.
From Verif Require Import Base Morph Label LabelSpec LabelProofs LabelProps Filter FilterSpec FilterProofs FilterGridProofs FilterMoreProofs FilterMeshProofs FilterProps
  Overlap Merge MergeSpec Partition Cluster ClusterSpec ClusterProofs ClusterFinal ClusterPipe ClusterProps Run RunSpec RunProofs RunProps GridRunProps
  MeshPart Parallel ParallelSpec ParallelProofs ParallelProps MeshRun MeshRunProofs MeshRunProps.
Open Scope nat_scope.

Definition total (l : list nat) : nat := fold_right Nat.add 0 l.
(** Number of cells with an ID. *)
Definition event_cells (F : list (list Z)) : nat := length (filter (fun k => negb (Z.eqb k 0)) (concat F)).

Lemma filter_concat_rows {A B} (p : A -> bool) (q : B -> bool) (a : list (list A)) (b : list (list B)) da db :
  length a = length b -> (forall t, t < length a -> length (nth t a []) = length (nth t b []) /\
    forall i, i < length (nth t a []) -> p (nth i (nth t a []) da) = q (nth i (nth t b []) db)) ->
  length (filter p (concat a)) = length (filter q (concat b)).
Proof.
  revert b. induction a as [|x a IH]; intros [|y b] L H; try discriminate; [reflexivity|]. cbn [concat]. rewrite !filter_app, !app_length. f_equal.
  - destruct (H 0 ltac:(cbn; lia)) as [Lx E]. cbn [nth] in Lx, E. clear - Lx E. revert y Lx E. induction x as [|u x IH]; intros [|v y] L E; try discriminate; [reflexivity|].
    cbn [filter]. assert (E0 := E 0 ltac:(cbn; lia)). cbn [nth] in E0. rewrite E0. assert (R : length (filter p x) = length (filter q y)).
    { apply IH; [cbn in L; lia|]. intros i I. apply (E (S i)). cbn. lia. }
    destruct (q v); cbn [length]; lia.
  - apply IH; [cbn in L; lia|]. intros t T. apply (H (S t)). cbn. lia.
Qed.

Lemma run_grid_parts (g : grid) (merging nn : bool) (cent : list bool -> Q * Q) (thr : Q)
    (ca : list Q) (sizes : list nat) (erase order : list nat) (arg : option string) (tr : tracker) (dk : files) (data s : field)
    (F : list (list Z)) (n : Z) (mg : option merges) (st : stats) :
  let track := if merging then track_merging g nn cent thr ca sizes else track_simple g in
  t_data tr = Some data -> t_scratch tr = false -> length data = g_nt g -> fold_right Nat.add 0 sizes = g_nt g ->
  fill_grid g data = Some s ->
  snd (run (clean_grid g) area_grid _ track erase order arg tr dk) = Ok ((F, n, mg), st) ->
  exists f, filter_grid (g_regional g) (g_rule g) (g_nt g) (g_ny g) (g_nx g) (concat s) = Ok f /\
    stats_of area_grid data f (f_keep f) = Ok st /\ ids_are g F n (f_keep f) /\ shaped g (f_keep f) /\ length (concat s) = g_nt g * g_ny g * g_nx g.
Proof.
  intros track Dt Sc L Hs E. unfold run, run_preprocess. rewrite Dt, Sc.
  destruct (loads (effective arg tr)); [discriminate|].
  destruct (fill_grid_ok g data s L E) as [Sh _]. assert (Lc := shaped_concat g s Sh).
  unfold clean_grid. rewrite E.
  destruct (filter_grid (g_regional g) (g_rule g) (g_nt g) (g_ny g) (g_nx g) (concat s)) as [f|e] eqn:Ef; [|discriminate].
  destruct (saves (effective arg tr)); [discriminate|]. cbn [snd].
  destruct (stats_of area_grid data f (f_keep f)) as [s0|] eqn:St; [|discriminate]. cbn [bind fst snd].
  destruct (track (f_keep f)) as [[[F0 n0] mg0]|] eqn:Tr; [|discriminate]. cbn [bind]. intro H. injection H as -> -> -> ->.
  assert (Sk := filter_shaped g s f Sh Ef).
  assert (Ex : exists k, nth k (concat (f_keep f)) false = true).
  { destruct (existsb (fun b => b) (concat (f_keep f))) eqn:Eb.
    - apply existsb_exists in Eb. destruct Eb as (b & B & ->). apply (In_nth _ _ false) in B. destruct B as (k & _ & K). exists k. exact K.
    - exfalso. assert (Z0 : area_grid (f_keep f) = nat_Q 0).
      { unfold area_grid. f_equal. apply count_zero. intros b B. destruct b; [|reflexivity]. exfalso.
        assert (T : existsb (fun b => b) (concat (f_keep f)) = true) by (apply existsb_exists; exists true; auto). congruence. }
      unfold stats_of in St. rewrite Z0 in St. destruct (Nat.eqb (total_area_IDed f) 0); discriminate. }
  exists f. split; [reflexivity|]. split; [exact St|]. split; [|split; [exact Sk|exact Lc]].
  destruct merging; [exact (track_merging_ok g nn cent thr ca sizes (f_keep f) F n mg Sk Hs Ex Tr)|exact (track_simple_ok g (f_keep f) F n mg Sk Tr)].
Qed.

Lemma counts_ext regional nt ny nx data n (P P' : cell -> Prop) : (forall c, in_range nt ny nx c -> (P c <-> P' c)) ->
  counts_objects regional nt ny nx data n P -> counts_objects regional nt ny nx data n P'.
Proof.
  intros H (reps & A & B & C & D). exists reps. split; [exact A|]. split; [|split; [exact C|]].
  - intros c I. destruct (B c I) as [R X]. split; [exact R|]. apply (H c R). exact X.
  - intros c R X. apply (D c R). apply (H c R). exact X.
Qed.

(** ** C153 *)
(** Structured grids.  With [sizes] the sizes of the objects after filling, each once:
    the total is the number of cells after filling, the count before filtering that of
    the objects, the count after filtering that of the objects whose cells have an ID;
    the accepted fraction is the share of the objects above the threshold; the
    preprocessed fraction is the number of extreme cells of the input over the number
    of cells with an ID. *)
Theorem C153_grid_statistics_partial (g : grid) (merging nn : bool) (cent : list bool -> Q * Q) (thr : Q)
    (ca : list Q) (chunks : list nat) (erase order : list nat) (arg : option string) (tr : tracker) (dk : files) (data s : field)
    (F : list (list Z)) (n : Z) (mg : option merges) (st : stats) :
  let track := if merging then track_merging g nn cent thr ca chunks else track_simple g in
  let objects := counts_objects (g_regional g) (g_nt g) (g_ny g) (g_nx g) (concat s) in
  t_data tr = Some data -> t_scratch tr = false -> length data = g_nt g -> fold_right Nat.add 0 chunks = g_nt g ->
  fill_grid g data = Some s ->
  snd (run (clean_grid g) area_grid _ track erase order arg tr dk) = Ok ((F, n, mg), st) ->
  objects (s_before st) (extreme (g_ny g) (g_nx g) (concat s)) /\
  objects (s_after st) (in_event (g_nx g) F) /\
  s_total st = nat_Q (length (filter (fun b => b) (concat s))) /\
  (exists reps sizes,
     Forall2 (fun c a => in_range (g_nt g) (g_ny g) (g_nx g) c /\ extreme (g_ny g) (g_nx g) (concat s) c /\
                exists l, object_cells (g_regional g) (g_nt g) (g_ny g) (g_nx g) (concat s) c l /\ length l = a) reps sizes /\
     ForallOrdPairs (fun a b => ~ joined (g_regional g) (g_nt g) (g_ny g) (g_nx g) (concat s) a b) reps /\
     (forall c, in_range (g_nt g) (g_ny g) (g_nx g) c -> extreme (g_ny g) (g_nx g) (concat s) c -> exists r, In r reps /\ joined (g_regional g) (g_nt g) (g_ny g) (g_nx g) (concat s) c r) /\
     s_total st = nat_Q (total sizes) /\
     (s_accepted st * s_total st == nat_Q (total (filter (fun a => Qltb (s_threshold st) (nat_Q a)) sizes)))%Q) /\
  0 < event_cells F /\
  (s_processed st * nat_Q (event_cells F) == nat_Q (length (filter (fun b => b) (concat data))))%Q.
Proof.
  intros track objects Dt Sc L Hs E R.
  destruct (run_grid_parts g merging nn cent thr ca chunks erase order arg tr dk data s F n mg st Dt Sc L Hs E R) as (f & Ef & St & (Lf & Nz & _) & Sk & Lc).
  destruct (C123_run_on_a_grid_partial g merging nn cent thr ca chunks erase order arg tr dk data s F n mg st Dt Sc L Hs E R) as ((_ & Rows) & _).
  destruct (C16_keeps_other_objects_partial _ _ _ _ _ _ _ Lc Ef) as (_ & Cb & Ca).
  destruct (C19_total_area_is_extreme_cells _ _ _ _ _ _ _ Lc Ef) as [Tot _].
  destruct (C16_areas_are_object_sizes _ _ _ _ _ _ _ Lc Ef) as (_ & reps & F2 & Dj & Cov).
  unfold stats_of in St. destruct (Nat.eqb_spec (total_area_IDed f) 0) as [|T0]; [discriminate|]. destruct (Qeq_bool (area_grid (f_keep f)) 0) eqn:A0; [discriminate|].
  injection St as <-. cbn [s_before s_after s_total s_threshold s_accepted s_processed].
  assert (Cells : event_cells F = count (fun b => b) (concat (f_keep f))).
  { unfold event_cells, count. apply (filter_concat_rows _ _ F (f_keep f) 0%Z false).
    - rewrite Lf. symmetry. apply Sk.
    - intros t T. rewrite Lf in T. rewrite (Rows t T). destruct Sk as [Sk1 Sk2]. split; [symmetry; apply Sk2; apply nth_In; lia|].
      intros i I. assert (Nx : 0 < g_nx g) by nia. assert (Y : i / g_nx g < g_ny g) by (apply Nat.div_lt_upper_bound; lia). assert (X : i mod g_nx g < g_nx g) by (apply Nat.mod_upper_bound; lia).
      assert (N := Nz t (i / g_nx g) (i mod g_nx g) T Y X). replace (i / g_nx g * g_nx g + i mod g_nx g) with i in N by (rewrite (Nat.div_mod i (g_nx g)) at 1 by lia; rewrite (Nat.mul_comm (g_nx g)); reflexivity).
      unfold id_at in N. destruct (Z.eqb_spec (nth i (nth t F []) 0%Z) 0) as [Z0|Z0]; cbn [negb]; [|symmetry; apply N; exact Z0].
      destruct (nth i (nth t (f_keep f) []) false); [exfalso; apply (proj2 N eq_refl); exact Z0|reflexivity]. }
  assert (P0 : 0 < event_cells F).
  { apply Nat.neq_0_lt_0. intro Z0. unfold area_grid in A0. rewrite <- Cells, Z0 in A0. discriminate. }
  split; [exact Cb|]. split.
  { apply (counts_ext _ _ _ _ _ _ (kept_at (g_nx g) (f_keep f))); [|exact Ca]. intros [[t y] x] (T & Y & X). cbn [in_event kept_at]. symmetry. apply Nz; assumption. }
  split; [unfold count in Tot; rewrite Tot; reflexivity|]. split.
  { exists reps, (f_areas f). split; [exact F2|]. split; [exact Dj|]. split.
    - exact Cov.
    - split; [reflexivity|]. unfold accepted_area_fraction. change (total (filter (fun a => Qltb (f_threshold f) (nat_Q a)) (f_areas f))) with (accepted_area f).
      field. intro Z0. apply T0. unfold nat_Q in Z0. unfold Qeq in Z0. cbn in Z0. lia. }
  split; [exact P0|]. unfold area_grid. rewrite <- Cells. unfold count. field. intro Z0. unfold nat_Q, Qeq in Z0. cbn in Z0. lia.
Qed.
Print Assumptions C153_grid_statistics_partial.

(** ** Meshes *)
Lemma counts_large (s : list Z) (p : nat -> bool) u : NoDup u ->
  sumN (filter p (map (fun id => cells_with id s) u)) = count (fun x => memZ x u && p (cells_with x s)) s.
Proof.
  induction u as [|a u IH]; intro N; [symmetry; apply count_zero; intros; reflexivity|]. apply NoDup_cons_iff in N. destruct N as [Na N]. cbn [map filter].
  assert (E : count (fun x => memZ x (a :: u) && p (cells_with x s)) s = (if p (cells_with a s) then cells_with a s else 0) + count (fun x => memZ x u && p (cells_with x s)) s).
  { assert (G : forall l, count (fun x => memZ x (a :: u) && p (cells_with x s)) l = (if p (cells_with a s) then count (Z.eqb a) l else 0) + count (fun x => memZ x u && p (cells_with x s)) l); [|exact (G s)].
    induction l as [|x l IHl]; [destruct (p _); reflexivity|]. unfold count in *. cbn [filter]. change (memZ x (a :: u)) with (Z.eqb x a || memZ x u). destruct (Z.eqb_spec x a) as [->|D].
    - cbn [orb andb]. rewrite Z.eqb_refl. assert (M : memZ a u = false) by (apply memZ_false; exact Na). rewrite M. cbn [andb]. destruct (p (cells_with a s)); cbn [length]; lia.
    - cbn [orb]. assert (D' : Z.eqb a x = false) by (apply Z.eqb_neq; congruence). rewrite D'. destruct (p (cells_with a s)); destruct (memZ x u && p (cells_with x s)); cbn [length]; lia. }
  rewrite E, <- (IH N). destruct (p (cells_with a s)); reflexivity.
Qed.
Lemma sums_app a b : sumN (a ++ b) = sumN a + sumN b.
Proof. induction a as [|x a IH]; simpl; [reflexivity|]. rewrite IH. lia. Qed.
Lemma filter_repeat0 (p : nat -> bool) n : sumN (filter p (repeat 0 n)) = 0.
Proof. induction n as [|n IH]; [reflexivity|]. cbn [repeat filter]. destruct (p 0); [cbn; exact IH|exact IH]. Qed.
Lemma sizes_large fields n (p : nat -> bool) : (forall s, In s fields -> forall x, In x s -> (0 <= x)%Z) ->
  sumN (filter p (flat_map fst (map (cluster_sizes n) fields))) = sumN (map (fun s => count (fun x => Z.ltb 0 x && p (cells_with x s)) s) fields).
Proof.
  induction fields as [|s r IH]; intro P; [reflexivity|]. cbn [map flat_map]. rewrite filter_app, sums_app, IH by (intros; eapply P; [right; eassumption|assumption]).
  cbn [map sumN fold_right]. change (fold_right Nat.add 0) with sumN. f_equal. unfold cluster_sizes. cbn [fst]. unfold pad0. rewrite filter_app, sums_app, filter_repeat0, Nat.add_0_r.
  rewrite counts_large by apply unique_pos_NoDup. apply count_ext. intros x Hx. f_equal. destruct (Z.ltb_spec 0 x).
  - apply memZ_In. apply unique_pos_In. auto.
  - apply memZ_false. rewrite unique_pos_In. lia.
Qed.
Section Before.
Variables (m : mesh) (mask : list bool) (s : list (list bool)).
Hypothesis Hi : mesh_inputs_ok m mask s.
Notation fields := (map (identify_mesh m mask) s).
Notation on t := (ocean_extreme m mask (nth t s [])).

Lemma keep_is r f : filter_small_mesh r m mask s = Ok f ->
  f_keep f = map (fun ids => map (fun x => Z.ltb 0 x && Qltb (f_threshold f) (nat_Q (cells_with x ids))) ids) fields.
Proof.
  intro E. assert (Rk := kept_length _ _ _ _ _ Hi E). unfold filter_small_mesh in E.
  destruct (filter_mesh_spec _ _ _ (fields_nonneg m mask s Hi) E) as [L S]. rewrite map_length in L.
  set (g := fun ids : list Z => map (fun x => Z.ltb 0 x && Qltb (f_threshold f) (nat_Q (cells_with x ids))) ids).
  apply (nth_ext _ _ [] []); [rewrite !map_length; exact L|]. intros t T.
  assert (T' : t < length fields) by (rewrite map_length; lia). rewrite (nth_map_gen g fields t []) by exact T'.
  destruct (field_spec m mask s Hi t ltac:(lia)) as (Lf & _).
  assert (Lt : length (nth t (f_keep f) []) = length m) by (apply Rk; apply nth_In; exact T).
  apply (nth_ext _ _ false false); [unfold g; rewrite map_length; congruence|]. intros i I.
  unfold g. rewrite (nth_map_gen _ (nth t fields []) i 0%Z) by congruence. specialize (S t i T').
  apply eq_true_iff_eq. rewrite S, andb_true_iff, Z.ltb_lt, Qltb_spec. reflexivity.
Qed.
Lemma accepted_is r f : filter_small_mesh r m mask s = Ok f -> accepted_area f = count (fun b => b) (concat (f_keep f)).
Proof.
  intro E. rewrite (keep_is r f E). unfold accepted_area. assert (A : f_areas f = flat_map fst (map (cluster_sizes (max_id fields)) fields)).
  { unfold filter_small_mesh, filter_mesh in E. destruct (filter _ _); [discriminate|]. injection E as <-. reflexivity. }
  rewrite A, sizes_large by exact (fields_nonneg m mask s Hi). generalize (f_threshold f) as q. intro q. generalize fields as l. induction l as [|x l IH]; [reflexivity|].
  cbn [map sumN fold_right concat]. change (fold_right Nat.add 0) with sumN. rewrite count_app, IH, count_map. reflexivity.
Qed.
Lemma total_is r f : filter_small_mesh r m mask s = Ok f -> total_area_IDed f = count (fun p : bool * bool => fst p && snd p) (flat_map (fun d => combine mask d) s).
Proof.
  intro E. unfold total_area_IDed. assert (A : f_areas f = flat_map fst (map (cluster_sizes (max_id fields)) fields)).
  { unfold filter_small_mesh, filter_mesh in E. destruct (filter _ _); [discriminate|]. injection E as <-. reflexivity. }
  rewrite A. assert (X := sizes_large fields (max_id fields) (fun _ => true) (fields_nonneg m mask s Hi)).
  assert (Ft : forall l : list nat, filter (fun _ => true) l = l) by (induction l as [|a l IH]; [reflexivity|cbn; rewrite IH; reflexivity]). rewrite Ft in X. rewrite X. clear X A E f.
  assert (H : forall t, t < length s -> count (fun x => Z.ltb 0 x && true) (nth t fields []) = count (fun p : bool * bool => fst p && snd p) (combine mask (nth t s []))).
  { intros t T. destruct (field_spec m mask s Hi t T) as (Lf & _). destruct Hi as (_ & Lm & Ld). assert (Ls := Ld (nth t s []) (nth_In _ _ T)).
    assert (Lc : length (combine mask (nth t s [])) = length m) by (rewrite combine_length; lia).
    rewrite (count_nth_gen _ 0%Z (nth t fields [])), (count_nth_gen _ (false, false) (combine mask (nth t s []))), Lf, Lc. apply count_ext. intros i I. apply in_seq in I.
    rewrite combine_nth by lia. cbn [fst snd]. rewrite andb_true_r. apply eq_true_iff_eq. rewrite Z.ltb_lt, (pos_on m mask s Hi t i T), andb_true_iff. unfold ocean_extreme. intuition lia. }
  clear Hi. revert H. induction s as [|d l IH]; intro H; [reflexivity|]. cbn [map flat_map sumN fold_right]. change (fold_right Nat.add 0) with sumN. rewrite count_app. f_equal.
  - exact (H 0 ltac:(cbn; lia)).
  - apply IH. intros t T. exact (H (S t) ltac:(cbn; lia)).
Qed.

Fixpoint position (k : Z) (l : list Z) : nat := match l with [] => 0 | x :: r => if Z.eqb x k then 0 else S (position k r) end.
Lemma position_nth k l : In k l -> position k l < length l /\ nth (position k l) l 0%Z = k.
Proof.
  induction l as [|x l IH]; intro I; [contradiction|]. cbn [position length]. destruct (Z.eqb_spec x k) as [->|N]; [split; [lia|reflexivity]|].
  destruct I as [E|I]; [congruence|]. destruct (IH I) as [A B]. split; [lia|exact B].
Qed.
Lemma before_is r f : filter_small_mesh r m mask s = Ok f -> let cut := match r with ByAbsolute _ => 5 | ByQuartile _ => 50 end in
  exists objs : list (nat * nat), length objs = f_before f /\
     (forall t i, In (t, i) objs -> t < length s /\ on t i /\ exists l, mesh_object m mask (nth t s []) i l /\ cut < length l) /\
     ForallOrdPairs (fun a b => ~ (fst a = fst b /\ mesh_chain m (on (fst a)) (snd a) (snd b))) objs /\
     (forall t i l, t < length s -> on t i -> mesh_object m mask (nth t s []) i l -> cut < length l ->
        exists j, In (t, j) objs /\ mesh_chain m (on t) i j).
Proof.
  intros E cut. set (ko := kept_objects (nat_Q cut) 0 fields). set (rep := fun p : nat * Z => (fst p, position (snd p) (nth (fst p) fields []))).
  assert (InK : forall t id, In (t, id) ko <-> t < length s /\ (0 < id)%Z /\ In id (nth t fields []) /\ cut < cells_with id (nth t fields [])).
  { intros t id. unfold ko. rewrite kept_objects_In, map_length, Nat.sub_0_r. unfold nat_Q. rewrite <- Zlt_Qlt. intuition lia. }
  assert (Pos : forall t id, In (t, id) ko -> on t (snd (rep (t, id))) /\ nth (snd (rep (t, id))) (nth t fields []) 0%Z = id).
  { intros t id I. apply InK in I. destruct I as (T & P & I & C). cbn [rep snd fst]. destruct (position_nth id _ I) as [_ En]. split; [|exact En]. apply (pos_on m mask s Hi t _ T). rewrite En. exact P. }
  exists (map rep ko). split; [|split; [|split]].
  - rewrite map_length. unfold ko. rewrite (kept_objects_length _ (max_id fields)) by (unfold nat_Q; change 0%Q with (inject_Z 0); rewrite <- Zle_Qle; lia).
    unfold filter_small_mesh, filter_mesh in E. destruct (filter _ _) as [|p0 pre] eqn:G; [discriminate|]. rewrite <- G in E. injection E as <-. cbn [f_before].
    change (match (if is_absolute r then 5 else 50) with 0 => _ | S _ => _ end) with cut. unfold count. f_equal. apply filter_ext. intro a. apply eq_true_iff_eq. rewrite Qltb_spec, Nat.ltb_lt. unfold nat_Q. rewrite <- Zlt_Qlt.
    unfold cut. destruct r; cbn [is_absolute]; lia.
  - intros t i I. apply in_map_iff in I. destruct I as ((t0, id) & X & I). injection X as <- <-. destruct (Pos t0 id I) as [O En]. apply InK in I. destruct I as (T & P & Iid & C).
    split; [exact T|]. split; [exact O|]. destruct (object_exists_mesh m mask s Hi t0 _ T O) as [l Ol]. exists l. split; [exact Ol|].
    rewrite <- (object_size_mesh m mask s Hi t0 _ l T O Ol). rewrite En. exact C.
  - assert (Nd := kept_objects_NoDup (nat_Q cut) fields 0). fold ko in Nd. clearbody ko. assert (Sub : forall x, In x ko -> In x ko) by auto. revert Sub Nd. generalize ko at 1 3 4 as l.
    induction l as [|(t, id) l IH]; intros Sub Nd; [constructor|]. apply NoDup_cons_iff in Nd. destruct Nd as [Nn Nd]. cbn [map]. constructor; [|apply IH; [intros x I; apply Sub; right; exact I|exact Nd]].
    apply Forall_forall. intros y Y. apply in_map_iff in Y. destruct Y as ((t', id') & <- & I'). cbn [rep fst snd]. intros [-> Ch].
    destruct (Pos t' id (Sub _ (or_introl eq_refl))) as [O1 E1]. destruct (Pos t' id' (Sub _ (or_intror I'))) as [O2 E2]. cbn [rep fst snd] in O1, E1, O2, E2.
    assert (T : t' < length s) by (apply (InK t' id'), Sub; right; exact I'). destruct (field_spec m mask s Hi t' T) as (_ & _ & _ & Eq).
    apply (Eq _ _ O1 O2) in Ch. apply Nn. rewrite E1, E2 in Ch. subst id'. exact I'.
  - intros t i l T O Ol C. set (id := nth i (nth t fields []) 0%Z). destruct (field_spec m mask s Hi t T) as (Lf & _ & _ & Eq).
    assert (I : In (t, id) ko).
    { apply InK. split; [exact T|]. split; [apply (pos_on m mask s Hi t i T); exact O|]. split; [apply nth_In; destruct O; lia|]. unfold id. rewrite (object_size_mesh m mask s Hi t i l T O Ol). exact C. }
    exists (snd (rep (t, id))). split; [apply in_map_iff; exists (t, id); split; [reflexivity|exact I]|]. destruct (Pos t id I) as [O2 E2]. apply (Eq _ _ O O2). rewrite E2. reflexivity.
Qed.
End Before.

(** Cell area of the marked cells. *)
Definition area_where (areas : list Q) (rows : list (list bool)) : Q :=
  fold_right Qplus 0%Q (map (fun row => fold_right Qplus 0%Q (map (fun p : bool * Q => if fst p then snd p else 0%Q) (combine row areas))) rows).
Definition with_id (F : list (list Z)) : list (list bool) := map (map (fun k => negb (Z.eqb k 0))) F.

Lemma area_mesh_where h f : (area_mesh h f == area_where (h_area h) f)%Q.
Proof.
  unfold area_mesh, area_where. induction f as [|r f IH]; [reflexivity|]. cbn [flat_map map fold_right]. rewrite filter_app, map_app.
  assert (A : forall a b : list Q, (fold_right Qplus 0 (a ++ b) == fold_right Qplus 0 a + fold_right Qplus 0 b)%Q) by (induction a as [|x a IHa]; intro b; cbn; [ring|rewrite IHa; ring]).
  rewrite A, IH. apply Qplus_comp; [|reflexivity]. generalize (combine r (h_area h)). clear. induction l as [|(b, q) l IH]; [reflexivity|]. destruct b; cbn; rewrite IH; ring.
Qed.

Lemma run_mesh_parts (h : mesh_setup) output (track : field -> result run_err output) (erase order : list nat) (arg : option string) (tr : tracker) (dk : files) (data s : field) (o : output) (st : stats) :
  setup_ok h data -> t_data tr = Some data -> t_scratch tr = true -> loads (effective arg tr) = false ->
  (saves (effective arg tr) = true -> writes_all order (length data)) ->
  fill_time_gaps_mesh h (map (fill_holes_mesh (h_nbs h) (h_R h) (h_mask h)) data) = Some s ->
  snd (run (clean_mesh h) (area_mesh h) _ track erase order arg tr dk) = Ok (o, st) ->
  exists f, filter_small_mesh (h_rule h) (h_nbs h) (h_mask h) s = Ok f /\ stats_of (area_mesh h) data f (f_keep f) = Ok st.
Proof.
  intros Hs Dt Sc Lo W Fl R. destruct (filled_length h data s Hs Fl) as [Ls Rs].
  assert (Hi : mesh_inputs_ok (h_nbs h) (h_mask h) s) by (destruct Hs as (A & B & _); split; [exact A|split; [exact B|exact Rs]]).
  destruct (filter_small_mesh (h_rule h) (h_nbs h) (h_mask h) s) as [f|e] eqn:Ef.
  2: { assert (Cl : clean_mesh h data = Err NothingToFilter) by (unfold clean_mesh; rewrite Fl, Ef; reflexivity).
       revert R. unfold run, run_preprocess. rewrite Lo, Dt, Cl. discriminate. }
  assert (Cl : clean_mesh h data = Ok f) by (unfold clean_mesh; rewrite Fl, Ef; reflexivity).
  destruct (C18_mesh_keeps_objects_above_threshold _ _ _ _ _ Hi Ef) as [Lk _]. rewrite Ls in Lk.
  exists f. split; [reflexivity|]. unfold run in R. destruct (saves (effective arg tr)) eqn:Sv.
  - rewrite (saved_run (clean_mesh h) (area_mesh h) erase order arg tr dk data f Dt Sc Lo Sv Cl) in R by (rewrite Lk; apply W; reflexivity).
    destruct (stats_of (area_mesh h) data f (f_keep f)) as [s0|e]; [|discriminate]. cbn [bind fst snd] in R. destruct (track _); [|discriminate]. cbn [bind] in R. congruence.
  - unfold run_preprocess in R. rewrite Lo, Dt, Cl, Sv in R.
    destruct (stats_of (area_mesh h) data f (f_keep f)) as [s0|e]; [|discriminate]. cbn [snd bind fst] in R. destruct (track _); [|discriminate]. cbn [bind] in R. congruence.
Qed.

(** Meshes.  The total is the number of ocean cells after filling, the accepted fraction
    the share of them with an ID, the preprocessed fraction the area of the extreme
    cells of the input over the area of the cells with an ID.  Before filtering only
    objects of more than 5 cells (50 with area_filter_quartile) are counted; missing
    from the full claim are the smaller ones. *)
Theorem C153_mesh_statistics_partial (h : mesh_setup) (cent : list bool -> Q * Q) (thr : Q) (nbs : list (list Z)) (dist : nat -> nat -> Q)
    (reach : list Z -> nat) (set_iter : list Z -> list Z) (tc limit : nat)
    (erase order : list nat) (arg : option string) (tr : tracker) (dk : files) (data s : field)
    (F : list (list Z)) (n : Z) (mg : option merges) (st : stats) :
  let cut := match h_rule h with ByAbsolute _ => 5 | ByQuartile _ => 50 end in
  setup_ok h data -> set_order set_iter ->
  t_data tr = Some data -> t_scratch tr = true -> loads (effective arg tr) = false ->
  (saves (effective arg tr) = true -> writes_all order (length data)) ->
  fill_time_gaps_mesh h (map (fill_holes_mesh (h_nbs h) (h_R h) (h_mask h)) data) = Some s ->
  snd (run (clean_mesh h) (area_mesh h) _ (track_on_mesh h cent thr (part_nn_mesh nbs dist reach) set_iter tc limit) erase order arg tr dk)
    = Ok ((F, n, mg), st) ->
  (exists objs : list (nat * nat), length objs = s_before st /\
     (forall t i, In (t, i) objs -> t < length data /\ ocean_extreme (h_nbs h) (h_mask h) (nth t s []) i /\
        exists l, mesh_object (h_nbs h) (h_mask h) (nth t s []) i l /\ cut < length l) /\
     ForallOrdPairs (fun a b => ~ (fst a = fst b /\ mesh_chain (h_nbs h) (ocean_extreme (h_nbs h) (h_mask h) (nth (fst a) s [])) (snd a) (snd b))) objs /\
     (forall t i l, t < length data -> ocean_extreme (h_nbs h) (h_mask h) (nth t s []) i -> mesh_object (h_nbs h) (h_mask h) (nth t s []) i l -> cut < length l ->
        exists j, In (t, j) objs /\ mesh_chain (h_nbs h) (ocean_extreme (h_nbs h) (h_mask h) (nth t s [])) i j)) /\
  s_total st = nat_Q (length (filter (fun p : bool * bool => fst p && snd p) (flat_map (fun d => combine (h_mask h) d) s))) /\
  (s_accepted st * s_total st == nat_Q (event_cells F))%Q /\
  (s_processed st * area_where (h_area h) (with_id F) == area_where (h_area h) data)%Q.
Proof.
  intros cut Hs Ho Dt Sc Lo W Fl R.
  destruct (run_mesh_parts h _ _ erase order arg tr dk data s _ st Hs Dt Sc Lo W Fl R) as (f & Ef & St).
  destruct (C108_run_on_a_mesh h cent thr nbs dist reach set_iter tc limit erase order arg tr dk data s F n mg st Hs Ho Dt Sc Lo W Fl R) as ((Lf & Rows) & Cell & _).
  destruct (filled_length h data s Hs Fl) as [Ls Rs].
  assert (Hi : mesh_inputs_ok (h_nbs h) (h_mask h) s) by (destruct Hs as (A & B & _); split; [exact A|split; [exact B|exact Rs]]).
  destruct (C18_mesh_keeps_objects_above_threshold _ _ _ _ _ Hi Ef) as [Lk Kp]. assert (Rk := kept_length _ _ _ _ _ Hi Ef).
  unfold stats_of in St. destruct (Nat.eqb_spec (total_area_IDed f) 0) as [|T0]; [discriminate|]. destruct (Qeq_bool (area_mesh h (f_keep f)) 0) eqn:A0; [discriminate|].
  injection St as <-. cbn [s_before s_after s_total s_threshold s_accepted s_processed] in *.
  assert (Same : with_id F = f_keep f).
  { unfold with_id. set (g := map (fun k => negb (Z.eqb k 0))). apply (nth_ext _ _ [] []); [rewrite map_length; congruence|]. intros t T. rewrite map_length, Lf in T.
    rewrite (nth_map_gen g F t []) by lia. assert (Lt : length (nth t (f_keep f) []) = length (h_nbs h)) by (apply Rk; apply nth_In; lia).
    unfold g. apply (nth_ext _ _ false false); [rewrite map_length, (Rows t T); congruence|]. intros i I. rewrite map_length, (Rows t T) in I. rewrite (nth_map_gen _ (nth t F []) i 0%Z) by (rewrite (Rows t T); exact I).
    assert (X := Cell t i T I). rewrite <- (Kp t i ltac:(lia)) in X. unfold mesh_kept, id_at in X.
    apply eq_true_iff_eq. rewrite negb_true_iff, Z.eqb_neq. exact X. }
  split; [rewrite <- Ls; exact (before_is (h_nbs h) (h_mask h) s Hi (h_rule h) f Ef)|].
  split; [f_equal; exact (total_is (h_nbs h) (h_mask h) s Hi (h_rule h) f Ef)|]. split.
  - assert (Ec : event_cells F = accepted_area f).
    { rewrite (accepted_is (h_nbs h) (h_mask h) s Hi (h_rule h) f Ef), <- Same. unfold event_cells, with_id. clear. induction F as [|r F IH]; [reflexivity|]. cbn [concat map]. rewrite filter_app, app_length, count_app, count_map, IH. reflexivity. }
    rewrite Ec. unfold accepted_area_fraction. field. intro Z0. apply T0. unfold nat_Q, Qeq in Z0. cbn in Z0. lia.
  - rewrite Same. rewrite <- !area_mesh_where. field. intro Z0. apply Qeq_bool_iff in Z0. congruence.
Qed.
Print Assumptions C153_mesh_statistics_partial.

(** The accepted fraction of a grid is not what was accepted: all of it is reported
    although only half has an ID. *)
Theorem C153_accepted_fraction_refuted : exists g data F n mg st,
  snd (run (clean_grid g) area_grid _ (track_simple g) [] [] None (mkTracker (Some data) None false) (mkFiles None NoNpz)) = Ok ((F, n, mg), st) /\
  (s_accepted st == 1)%Q /\ (s_total st == 4)%Q /\ event_cells F = 2.
Proof. exists grid6, record6. eexists. eexists. eexists. eexists. split; [exact C82_case|]. split; [reflexivity|]. split; reflexivity. Qed.
Print Assumptions C153_accepted_fraction_refuted.
(** On meshes small objects are not counted before filtering: the second day's object of
    three cells is missing. *)
Theorem C153_small_objects_refuted : exists h data s f i l, setup_ok h data /\
  fill_time_gaps_mesh h (map (fill_holes_mesh (h_nbs h) (h_R h) (h_mask h)) data) = Some s /\
  filter_small_mesh (h_rule h) (h_nbs h) (h_mask h) s = Ok f /\
  f_before f = 1 /\ mesh_object (h_nbs h) (h_mask h) (nth 1 s []) i l /\ l <> [] /\ ocean_extreme (h_nbs h) (h_mask h) (nth 0 s []) 0.
Proof.
  pose (one := [true; true; true; true; true; true; true; false; false; false; false; false; false; false; false; true]).
  pose (two := [false; false; true; true; true; false; false; false; false; false; false; false; false; false; false; true]).
  assert (Hi : mesh_inputs_ok (h_nbs setup16) (h_mask setup16) [one; two]).
  { destruct (row_input 16 [one; two]) as (A & _ & _ & _ & D); [vm_compute; reflexivity..|]. split; [exact A|]. split; [reflexivity|exact D]. }
  assert (O : ocean_extreme (h_nbs setup16) (h_mask setup16) (nth 1 [one; two] []) 3) by (split; [cbn; lia|split; reflexivity]).
  destruct (object_exists_mesh _ _ _ Hi 1 3 ltac:(cbn; lia) O) as [l Ol].
  exists setup16, [one; two]. eexists. eexists. exists 3, l. split.
  { destruct (row_input 16 [one; two]) as (A & _ & B & C & D); [vm_compute; reflexivity..|]. split; [exact A|]. split; [reflexivity|]. split; [exact B|]. split; [exact C|exact D]. }
  split; [vm_compute; reflexivity|]. split; [vm_compute; reflexivity|]. split; [reflexivity|]. split; [exact Ol|]. split; [|split; [cbn; lia|split; reflexivity]].
  intros ->. destruct Ol as [_ H]. apply (H 3). split; [exact O|constructor].
Qed.
Print Assumptions C153_small_objects_refuted.
Example C153_case : fill_grid grid6 record6 = Some record6 /\ event_cells [[0; 0; 0; 0; 1; 0; 0; 0; 0; 0; 1; 0]]%Z = 2 /\
  fill_time_gaps_mesh setup16 (map (fill_holes_mesh (h_nbs setup16) (h_R setup16) (h_mask setup16)) two_days) <> None.
Proof. split; [vm_compute; reflexivity|]. split; [reflexivity|]. vm_compute. discriminate. Qed.
