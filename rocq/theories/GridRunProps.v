(** What a run on a structured grid returns, in terms of the filled data. *)
From Coq Require Import String.
From Verif Require Import Base Morph Label LabelSpec LabelProofs LabelProps Filter FilterSpec FilterProofs FilterGridProofs FilterMoreProofs FilterWitness FilterProps
  Overlap Merge MergeSpec Partition Cluster ClusterSpec ClusterProofs ClusterFinal ClusterPipe ClusterProps Run RunSpec RunProofs RunProps.
Open Scope nat_scope.

(** Cells with an event ID. *)
Definition in_event (nx : nat) (F : list (list Z)) (c : cell) : Prop :=
  match c with (t, y, x) => id_at F t (y * nx + x) <> 0%Z end.

Lemma time_fields_cell nt ny nx lab t y x : t < nt -> y < ny -> x < nx ->
  id_at (time_fields nt ny nx lab) t (y * nx + x) = label_of ny nx lab (t, y, x).
Proof.
  intros T Y X. unfold id_at, time_fields. rewrite (nth_map_gen _ _ _ 0) by (rewrite seq_length; exact T). rewrite seq_nth by exact T.
  apply slice_nth; assumption.
Qed.
Lemma time_fields_present nt ny nx lab t k : k <> 0%Z -> present_at (time_fields nt ny nx lab) t k ->
  t < nt /\ exists y x, y < ny /\ x < nx /\ label_of ny nx lab (t, y, x) = k.
Proof.
  intros K P. unfold present_at in P. assert (T : t < nt).
  { destruct (Nat.lt_ge_cases t nt) as [H|H]; [exact H|]. rewrite nth_overflow in P; [destruct P|].
    unfold time_fields. rewrite map_length, seq_length. exact H. }
  split; [exact T|]. destruct (In_nth _ _ 0%Z P) as (c & C & E).
  unfold time_fields in C. rewrite (nth_map_gen _ _ _ 0) in C by (rewrite seq_length; exact T). unfold slice in C.
  rewrite map_length, slice_cells_length in C.
  assert (Nx : 0 < nx) by nia. exists (c / nx), (c mod nx).
  assert (Y : c / nx < ny) by (apply Nat.div_lt_upper_bound; lia). assert (X : c mod nx < nx) by (apply Nat.mod_upper_bound; lia).
  split; [exact Y|]. split; [exact X|]. rewrite <- (time_fields_cell nt ny nx lab t _ _ T Y X).
  replace (c / nx * nx + c mod nx) with c by (rewrite (Nat.div_mod c nx) at 1 by lia; rewrite (Nat.mul_comm nx); reflexivity).
  exact E.
Qed.

Lemma chain_mono b wrap nt ny nx (P Q : cell -> Prop) c d : (forall e, in_range nt ny nx e -> P e -> Q e) ->
  chain b wrap nt ny nx P c d -> chain b wrap nt ny nx Q c d.
Proof. intros H. induction 1 as [c|c d e R O T C IH]; [constructor|]. apply (chain_step _ _ _ _ _ _ c d e); auto. Qed.

(** ** C123 *)

(** As claimed, every object of the filled data with at least the reported
    threshold of cells is in the result.  False: the first one never is. *)
Theorem C123_large_objects_are_returned_refuted :
  exists g data s F n mg st c l,
    fill_grid g data = Some s /\
    snd (run (clean_grid g) area_grid _ (track_simple g) [] [] None (mkTracker (Some data) None false) (mkFiles None NoNpz))
      = Ok ((F, n, mg), st) /\
    in_range (g_nt g) (g_ny g) (g_nx g) c /\ extreme (g_ny g) (g_nx g) (concat s) c /\
    object_cells (g_regional g) (g_nt g) (g_ny g) (g_nx g) (concat s) c l /\
    (s_threshold st <= nat_Q (length l))%Q /\ ~ in_event (g_nx g) F c.
Proof.
  pose (s := record6).
  assert (L : length (concat s) = 1 * 2 * 6) by reflexivity.
  assert (R : in_range 1 2 6 (0, 0, 0)) by (simpl; lia).
  assert (X : extreme 2 6 (concat s) (0, 0, 0)) by reflexivity.
  destruct (object_cells_exist true 1 2 6 (concat s) L (0, 0, 0) R X) as [l O].
  assert (Sz : length l = 2).
  { rewrite <- (object_size true 1 2 6 (concat s) L (0, 0, 0) l R X O). vm_compute. reflexivity. }
  exists grid6, record6, s. eexists. eexists. eexists. eexists. exists (0, 0, 0), l.
  split; [vm_compute; reflexivity|]. split; [exact C82_case|]. split; [exact R|]. split; [exact X|]. split; [exact O|].
  split; [rewrite Sz; discriminate|]. intro H. apply H. reflexivity.
Qed.
Print Assumptions C123_large_objects_are_returned_refuted.

(** Whatever the data, when a run returns: the result has the shape of the data; a cell has an event ID exactly when,
    after filling, it belongs to an object with at least the reported threshold of
    cells, and not to the object of the earliest extreme cell; the IDs are 1 ...
    N_events_final; events have no gaps in time; with merging the merges are returned; without, two cells are in
    one event exactly when they are connected in space and time through cells of
    events.  Missing from the full claim: the first object. *)
Theorem C123_run_on_a_grid_partial (g : grid) (merging nn : bool) (cent : list bool -> Q * Q) (thr : Q)
    (ca : list Q) (sizes : list nat) (erase order : list nat) (arg : option string) (tr : tracker) (dk : files) (data s : field)
    (F : list (list Z)) (n : Z) (mg : option merges) (st : stats) :
  let track := if merging then track_merging g nn cent thr ca sizes else track_simple g in
  t_data tr = Some data -> t_scratch tr = false -> length data = g_nt g -> fold_right Nat.add 0 sizes = g_nt g ->
  fill_grid g data = Some s ->
  snd (run (clean_grid g) area_grid _ track erase order arg tr dk) = Ok ((F, n, mg), st) ->
  (length F = g_nt g /\ forall t, t < g_nt g -> length (nth t F []) = g_ny g * g_nx g) /\
  (forall c, in_range (g_nt g) (g_ny g) (g_nx g) c ->
     (in_event (g_nx g) F c <->
      extreme (g_ny g) (g_nx g) (concat s) c /\
      (exists l, object_cells (g_regional g) (g_nt g) (g_ny g) (g_nx g) (concat s) c l /\ (s_threshold st <= nat_Q (length l))%Q) /\
      ~ (exists e, first_extreme (g_nt g) (g_ny g) (g_nx g) (concat s) e /\
                   joined (g_regional g) (g_nt g) (g_ny g) (g_nx g) (concat s) c e))) /\
  (forall k, (1 <= k <= n)%Z <-> k <> 0%Z /\ exists t, present_at F t k) /\
  (forall k a b t, (0 < k)%Z -> present_at F a k -> present_at F b k -> a <= t <= b -> present_at F t k) /\
  (merging = true -> exists ms, mg = Some ms) /\
  (merging = false -> mg = None /\
   forall t y x t' y' x', let c := (t, y, x) in let c' := (t', y', x') in
     in_range (g_nt g) (g_ny g) (g_nx g) c -> in_range (g_nt g) (g_ny g) (g_nx g) c' ->
     in_event (g_nx g) F c -> in_event (g_nx g) F c' ->
     (id_at F t (y * g_nx g + x) = id_at F t' (y' * g_nx g + x') <->
      chain true (negb (g_regional g)) (g_nt g) (g_ny g) (g_nx g) (in_event (g_nx g) F) c c')).
Proof.
  intros track Dt Sc L Hs E. unfold run, run_preprocess. rewrite Dt, Sc.
  destruct (loads (effective arg tr)); [discriminate|].
  destruct (fill_grid_ok g data s L E) as [Sh _]. assert (Lc := shaped_concat g s Sh).
  unfold clean_grid. rewrite E.
  destruct (filter_grid (g_regional g) (g_rule g) (g_nt g) (g_ny g) (g_nx g) (concat s)) as [f|e] eqn:Ef; [|discriminate].
  destruct (saves (effective arg tr)); [discriminate|]. cbn [snd].
  destruct (stats_of area_grid data f (f_keep f)) as [s0|] eqn:St; [|discriminate]. cbn [bind fst snd].
  destruct (track (f_keep f)) as [[[F0 n0] mg0]|] eqn:Tr; [|discriminate]. cbn [bind]. intro H. injection H as -> -> -> ->.
  assert (Sk := filter_shaped g s f Sh Ef).
  assert (Th : s_threshold st = f_threshold f).
  { revert St. unfold stats_of. destruct (Nat.eqb _ 0); [discriminate|]. destruct (Qeq_bool _ _); [discriminate|].
    intro H. injection H as <-. reflexivity. }
  assert (Ex : exists k, nth k (concat (f_keep f)) false = true).
  { destruct (existsb (fun b => b) (concat (f_keep f))) eqn:Eb.
    - apply existsb_exists in Eb. destruct Eb as (b & B & ->). apply (In_nth _ _ false) in B. destruct B as (k & _ & K). exists k. exact K.
    - exfalso. assert (Z0 : area_grid (f_keep f) = nat_Q 0).
      { unfold area_grid. f_equal. apply count_zero. intros b B. destruct b; [|reflexivity]. exfalso.
        assert (T : existsb (fun b => b) (concat (f_keep f)) = true) by (apply existsb_exists; exists true; auto). congruence. }
      unfold stats_of in St. rewrite Z0 in St. destruct (Nat.eqb (total_area_IDed f) 0); discriminate. }
  assert (Ids : ids_are g F n (f_keep f)).
  { destruct merging; [|exact (track_simple_ok g (f_keep f) F n mg Sk Tr)].
    exact (track_merging_ok g nn cent thr ca sizes (f_keep f) F n mg Sk Hs Ex Tr). }
  destruct Ids as (Lf & Nz & On). destruct (C16_keeps_other_objects_partial _ _ _ _ _ _ _ Lc Ef) as (Kp & _).
  assert (Cell : forall c, in_range (g_nt g) (g_ny g) (g_nx g) c -> (in_event (g_nx g) F c <-> kept_at (g_nx g) (f_keep f) c)).
  { intros [[t y] x] (T & Y & X). cbn [in_event kept_at]. apply Nz; assumption. }
  split.
  { split; [exact Lf|]. intros t T. destruct merging; unfold track in Tr.
    - unfold track_merging in Tr.
      destruct (C25_tracked_cells_are_the_data nn (g_regional g) (g_nt g) (g_ny g) (g_nx g) cent thr ca sizes _ (shaped_concat g _ Sk) Hs Ex) as (ev & mg' & E' & _ & Ln & _).
      rewrite E' in Tr. injection Tr as <- _ _. apply Ln. exact T.
    - unfold track_simple in Tr. destruct (run_tracking_simple _ _ _ _ _) as [lab m]. injection Tr as <- _ _.
      unfold time_fields. rewrite (nth_map_gen _ _ _ 0) by (rewrite seq_length; exact T). unfold slice. rewrite map_length. apply slice_cells_length. }
  split; [intros c R; rewrite (Cell c R), Th; apply Kp; exact R|].
  assert (Sp : (forall k t, k <> 0%Z -> present_at F t k -> exists y x, t < g_nt g /\ y < g_ny g /\ x < g_nx g /\ id_at F t (y * g_nx g + x) = k) /\
     (forall t y x k, t < g_nt g -> y < g_ny g -> x < g_nx g -> k <> 0%Z -> id_at F t (y * g_nx g + x) = k -> present_at F t k) /\
     (forall k a b t, (0 < k)%Z -> present_at F a k -> present_at F b k -> a <= t <= b -> present_at F t k)).
  { assert (Pr : forall t y x k, t < g_nt g -> y < g_ny g -> x < g_nx g -> k <> 0%Z -> id_at F t (y * g_nx g + x) = k -> present_at F t k).
    { intros t y x k T Y X K I. unfold present_at. rewrite <- I. unfold id_at. apply nth_In.
      destruct (Nat.lt_ge_cases (y * g_nx g + x) (length (nth t F []))) as [H|H]; [exact H|].
      exfalso. apply K. rewrite <- I. unfold id_at. apply nth_overflow. exact H. }
    destruct merging; unfold track in Tr.
    - unfold track_merging in Tr.
      destruct (C25_tracked_cells_are_the_data nn (g_regional g) (g_nt g) (g_ny g) (g_nx g) cent thr ca sizes _ (shaped_concat g _ Sk) Hs Ex) as (ev & mg' & E' & _ & Ln & _).
      rewrite E' in Tr. injection Tr as <- <- _.
      split; [|split; [exact Pr|]].
      + intros k t K P. assert (T : t < g_nt g).
        { rewrite <- Lf. destruct (Nat.lt_ge_cases t (length (v_field ev))) as [H|H]; [exact H|]. unfold present_at in P. rewrite nth_overflow in P by exact H. destruct P. }
        destruct (In_nth _ _ 0%Z P) as (c & C & I). rewrite Ln in C by exact T.
        assert (Nx : 0 < g_nx g) by nia. exists (c / g_nx g), (c mod g_nx g).
        split; [exact T|]. split; [apply Nat.div_lt_upper_bound; lia|]. split; [apply Nat.mod_upper_bound; lia|].
        replace (c / g_nx g * g_nx g + c mod g_nx g) with c by (rewrite (Nat.div_mod c (g_nx g)) at 1 by lia; rewrite (Nat.mul_comm (g_nx g)); reflexivity).
        exact I.
      + unfold track_grid in E'. set (w := repeat 1%Q (g_ny g * g_nx g)) in *.
        assert (Lw : length w = g_ny g * g_nx g) by apply repeat_length.
        assert (Hw : forall q, In q w -> (0 < q)%Q) by (intros q Q0; apply repeat_spec in Q0; subst; reflexivity).
        set (lab := time_fields (g_nt g) (g_ny g) (g_nx g) (fst (identify_grid (g_regional g) false (g_nt g) (g_ny g) (g_nx g) (concat (f_keep f))))) in *.
        assert (Hl : labelled_series (g_ny g * g_nx g) lab) by (apply fields_series; [apply shaped_concat; exact Sk|exact Ex]).
        assert (Ll : length lab = g_nt g) by apply fields_length.
        destruct (C75_events_have_no_gaps nn (g_regional g) (g_ny g) (g_nx g) cent thr w ca sizes lab Lw Hw ltac:(rewrite Ll; exact Hs) Hl) as (ev2 & mg2 & E2 & G & _).
        rewrite E' in E2. injection E2 as -> _. exact G.
    - unfold track_simple in Tr. destruct (run_tracking_simple _ _ _ _ _) as [lab m] eqn:Rt. injection Tr as <- _ _.
      assert (Pp : forall k t, k <> 0%Z -> present_at (time_fields (g_nt g) (g_ny g) (g_nx g) lab) t k ->
                exists y x, t < g_nt g /\ y < g_ny g /\ x < g_nx g /\ id_at (time_fields (g_nt g) (g_ny g) (g_nx g) lab) t (y * g_nx g + x) = k).
      { intros k t K P. destruct (time_fields_present _ _ _ _ t k K P) as (T & y & x & Y & X & I).
        exists y, x. split; [exact T|]. split; [exact Y|]. split; [exact X|]. rewrite time_fields_cell by assumption. exact I. }
      split; [exact Pp|]. split; [exact Pr|].
      intros k a b t K A B Ht. destruct (Pp k a ltac:(lia) A) as (ya & xa & Ta & Ya & Xa & Ia). destruct (Pp k b ltac:(lia) B) as (yb & xb & Tb & Yb & Xb & Ib).
      rewrite time_fields_cell in Ia, Ib by assumption.
      destruct (C75_events_without_merging_have_no_gaps _ _ _ _ _ _ _ (shaped_concat g _ Sk) Rt (a, ya, xa) (b, yb, xb) t) as (y & x & Y & X & I).
      { split; [exact Ta|split; assumption]. } { split; [exact Tb|split; assumption]. } { lia. } { congruence. } { exact Ht. }
      apply (Pr t y x k); [lia|exact Y|exact X|lia|]. rewrite time_fields_cell by (try assumption; lia). congruence. }
  destruct Sp as (P1 & P2 & G). split; [|split; [exact G|split]].
  - intro k. rewrite On. split.
    + intros (t & y & x & T & Y & X & K & I). split; [exact K|]. exists t. apply (P2 t y x k); assumption.
    + intros (K & t & P). destruct (P1 k t K P) as (y & x & T & Y & X & I). exists t, y, x. split; [exact T|]. split; [exact Y|]. split; [exact X|]. split; [exact K|exact I].
  - intros ->. unfold track, track_merging in Tr. destruct (track_grid _ _ _ _ _ _ _ _ _ _) as [[ev ms]|]; [|discriminate]. injection Tr as _ _ <-. exists ms. reflexivity.
  - intros ->. unfold track, track_simple in Tr. destruct (run_tracking_simple _ _ _ _ _) as [lab m] eqn:Rt. injection Tr as EF _ Em. subst F mg.
    split; [reflexivity|]. intros t y x t' y' x' R R' I I'.
    destruct (C71_events_without_merging_are_space_time_components _ _ _ _ _ _ _ (shaped_concat g _ Sk) Rt) as (_ & _ & Sm & _).
    assert (Kx : forall d, in_range (g_nt g) (g_ny g) (g_nx g) d ->
              (in_event (g_nx g) (time_fields (g_nt g) (g_ny g) (g_nx g) lab) d <-> extreme (g_ny g) (g_nx g) (concat (f_keep f)) d)).
    { intros d Rd. rewrite (Cell d Rd). destruct d as [[td yd] xd]. destruct Rd as (A & B & C). unfold extreme.
      rewrite (shaped_cell g _ td yd xd Sk A B C). cbn [kept_at]. reflexivity. }
    rewrite !time_fields_cell by (unfold in_range in R, R'; tauto).
    rewrite (Sm (t, y, x) (t', y', x') R R' (proj1 (Kx _ R) I) (proj1 (Kx _ R') I')).
    split; apply chain_mono; intros d Rd; apply Kx; exact Rd.
Qed.
Print Assumptions C123_run_on_a_grid_partial.

(** The case of C82: the run returns, nothing is filled, the second object is
    tracked. *)
Example C123_case : fill_grid grid6 record6 = Some record6 /\
  in_event 6 [[0; 0; 0; 0; 1; 0; 0; 0; 0; 0; 1; 0]]%Z (0, 0, 4).
Proof. split; [vm_compute; reflexivity|discriminate]. Qed.
