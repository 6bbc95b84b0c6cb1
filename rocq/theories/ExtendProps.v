(** Theorem C135: a record and its continuation. *)
From Coq Require Import Permutation String.
From Verif Require Import Base Morph MorphSpec MorphProps Label LabelSpec LabelProofs Filter FilterSpec FilterProofs FilterGridProofs FilterAreaProofs FilterProps Overlap Merge Partition Cluster ClusterSpec ClusterFinal
  Run RunSpec RunProofs RunProps GridRunProps PipelineProps RelateSpec RelateProofs RelateProps ExtendProofs.
Open Scope nat_scope.

(** As claimed: appending later time steps does not change the events of the earlier
    ones. It fails with the percentile filter, whose threshold moves, and with
    T_fill > 0 in the last T_fill steps. *)
Theorem C135_later_data_keep_earlier_events_refuted :
  (exists g k k' data more F n mg st F' n' mg' st' c,
    g_T g = 0%Z /\ in_range (g_nt g) (g_ny g) (g_nx g) c /\ fresh_run g k data = Ok (F, n, mg, st) /\
    fresh_run (with_steps g (g_nt g + length more)) k' (data ++ more) = Ok (F', n', mg', st') /\
    id_of (g_nx g) F c <> 0%Z /\ id_of (g_nx g) F' c = 0%Z) /\
  (exists g k k' data more F n mg st F' n' mg' st' c,
    g_rule g = ByAbsolute 1 /\ in_range (g_nt g) (g_ny g) (g_nx g) c /\ fresh_run g k data = Ok (F, n, mg, st) /\
    fresh_run (with_steps g (g_nt g + length more)) k' (data ++ more) = Ok (F', n', mg', st') /\
    id_of (g_nx g) F c = 0%Z /\ id_of (g_nx g) F' c <> 0%Z).
Proof.
  split.
  - exists (mkGrid true 1 1 5 (repeat true 5) 0 0 (ByQuartile (1#2))), (simple_tracking 1), (simple_tracking 2), (bits [[1;0;1;0;0]]), (bits [[1;1;0;1;1]]).
    do 8 eexists. exists (0, 0, 2). split; [reflexivity|]. split; [cbn; lia|]. split; [vm_compute; reflexivity|]. split; [vm_compute; reflexivity|]. split; [discriminate|reflexivity].
  - exists (mkGrid true 2 1 5 (repeat true 5) 0 2 (ByAbsolute 1)), (simple_tracking 2), (simple_tracking 3), (bits [[1;0;0;1;0]; [0;0;0;0;0]]), (bits [[0;0;0;1;0]]).
    do 8 eexists. exists (1, 0, 3). split; [reflexivity|]. split; [cbn; lia|]. split; [vm_compute; reflexivity|]. split; [vm_compute; reflexivity|]. split; [reflexivity|discriminate].
Qed.
Print Assumptions C135_later_data_keep_earlier_events_refuted.

(** With an absolute area threshold and even T_fill: append any steps. A cell more
    than T_fill steps before the end of the first record is in an event of the one run
    exactly when it is in one of the other.  If there is an extreme that early, every
    event cell of the first run, even in its last steps, is one of the second; without
    merging, cells of one event stay in one event, and the second run returns. *)
Theorem C135_later_data_keep_earlier_events_partial (g : grid) (k k' : tracking) (a : Z) (data more s : field)
    (F : list (list Z)) (n : Z) (mg : option merges) (st : stats) :
  let nt := g_nt g in let ny := g_ny g in let nx := g_nx g in let g' := with_steps g (nt + length more) in let data' := data ++ more in
  let early := fun c : cell => (Z.of_nat (fst (fst c)) + g_T g < Z.of_nat nt)%Z in
  g_rule g = ByAbsolute a -> (0 <= g_R g)%Z -> Z.even (g_T g) = true -> length data = nt -> k_merging k' = k_merging k ->
  fold_right Nat.add 0 (k_chunks k) = nt -> fold_right Nat.add 0 (k_chunks k') = nt + length more ->
  fresh_run g k data = Ok (F, n, mg, st) -> fill_grid g data = Some s ->
  (k_merging k = false -> (exists c, in_range nt ny nx c /\ early c /\ value_at nx s c = true) -> exists r, fresh_run g' k' data' = Ok r) /\
  forall F' n' mg' st', fresh_run g' k' data' = Ok (F', n', mg', st') ->
    s_threshold st' = s_threshold st /\
    (forall c, in_range nt ny nx c -> early c -> (id_of nx F' c <> 0%Z <-> id_of nx F c <> 0%Z)) /\
    ((exists c, in_range nt ny nx c /\ early c /\ value_at nx s c = true) ->
     (forall c, in_range nt ny nx c -> id_of nx F c <> 0%Z -> id_of nx F' c <> 0%Z) /\
     (k_merging k = false -> forall c d, in_range nt ny nx c -> in_range nt ny nx d -> id_of nx F c <> 0%Z -> id_of nx F c = id_of nx F d ->
        id_of nx F' c = id_of nx F' d)).
Proof.
  intros nt ny nx g' data' early Ru R0 Te L Km Ch Ch' Rn Fs.
  destruct (extend_fill g more data s R0 Te L Fs) as (s' & Fs' & T0 & Up & Ea). change (fill_grid g' data' = Some s') in Fs'.
  assert (L' : length data' = g_nt g') by (unfold data'; rewrite app_length, L; reflexivity).
  destruct (fill_grid_ok g data s L Fs) as [Sh _]. destruct (fill_grid_ok g' data' s' L' Fs') as [Sh' _].
  assert (Lc := shaped_concat g s Sh). assert (Lc' := shaped_concat g' s' Sh').
  set (nt' := nt + length more) in *. assert (Le : nt <= nt') by (unfold nt'; lia).
  set (h := Z.to_nat (Z.of_nat nt - g_T g)). assert (Hh : forall c, early c <-> fst (fst c) < h) by (intro c; unfold early, h; lia).
  set (on := extreme ny nx (concat s)). set (on' := extreme ny nx (concat s')).
  assert (Vo : forall c, in_range nt ny nx c -> (on c <-> value_at nx s c = true)) by (intros c Rc; exact (extreme_value g data s L Fs c Rc)).
  assert (Vo' : forall c, in_range nt' ny nx c -> (on' c <-> value_at nx s' c = true)) by (intros c Rc; exact (extreme_value' g' data' s' L' Fs' c Rc)).
  assert (Sub : forall c, in_range nt ny nx c -> on c -> on' c).
  { intros c Rc O. apply Vo'; [apply (range_more nt nt' ny nx Le); exact Rc|]. apply Up; [exact Rc|]. apply Vo; assumption. }
  assert (Agr : forall c, in_range nt ny nx c -> fst (fst c) < h -> (on' c <-> on c)).
  { intros c Rc H. rewrite (Vo c Rc), (Vo' c (range_more nt nt' ny nx Le c Rc)). assert (Q := Ea c Rc (proj2 (Hh c) H)). change (g_nx g) with nx in Q. rewrite Q. reflexivity. }
  destruct (run_parts g k data s F n mg st L Fs Rn) as (f & Ef & Th & Sk & Tk).
  destruct (areas_are_sizes _ _ _ _ _ Lc _ _ Ef) as (Tf & _). rewrite Ru in Tf. cbn [threshold_of] in Tf.
  split.
  - intros Kf (c0 & R1 & E1 & V1). destruct (run_keeps g k data s F n mg st f L Fs Rn Ef) as (c & Rc & Kc).
    destruct (C16_keeps_other_objects_partial _ _ _ _ _ _ _ Lc Ef) as (Kp & _). assert (Xc : on c) by (apply Kp; assumption).
    destruct (filter_grid (g_regional g') (g_rule g') (g_nt g') (g_ny g') (g_nx g') (concat s')) as [f'|e0] eqn:Ef'.
    2: { exfalso. destruct (C16_fails_only_without_objects _ _ _ _ _ _ _ Lc' Ef') as [_ No]. apply (No c (range_more nt nt' ny nx Le c Rc)). apply Sub; assumption. }
    destruct (areas_are_sizes _ _ _ _ _ Lc' _ _ Ef') as (Tf' & _). change (g_rule g') with (g_rule g) in Tf'. rewrite Ru in Tf'. cbn [threshold_of] in Tf'.
    destruct (C16_keeps_other_objects_partial _ _ _ _ _ _ _ Lc' Ef') as (Kp' & _).
    assert (Tt : f_threshold f' = f_threshold f) by congruence. rewrite Tt in Kp'.
    assert (Kc' : kept_at nx (f_keep f') c).
    { apply (events_kept (negb (g_regional g)) nt nt' ny nx h Le on on' Sub Agr (f_threshold f) (kept_at nx (f_keep f)) (kept_at nx (f_keep f')) Kp Kp') with (c0 := c0); try assumption.
      - intros d Rd Od. destruct (objects_finite (g_regional g) _ nt' ny nx (concat s') f' d Lc' Ef' Rd Od) as (l & N & M). exists l. split; [exact N|exact M].
      - apply Hh. exact E1.
      - apply Vo; assumption. }
    assert (Pos : 0 < total_area_IDed f') by (destruct (C19_total_area_is_extreme_cells _ _ _ _ _ _ _ Lc' Ef') as [_ P]; exact P).
    unfold fresh_run, run, run_preprocess. cbn [effective t_checkpoint t_data t_scratch loads saves]. unfold clean_grid. rewrite Fs', Ef'. cbn [snd]. rewrite Km, Kf.
    assert (So : exists s0, stats_of area_grid data' f' (f_keep f') = Ok s0).
    { unfold stats_of. destruct (Nat.eqb_spec (total_area_IDed f') 0) as [Z0|_]; [lia|].
      destruct (Qeq_bool (area_grid (f_keep f')) 0) eqn:Eb; [|eexists; reflexivity]. exfalso. apply Qeq_bool_iff in Eb. unfold area_grid, nat_Q, Qeq in Eb. cbn in Eb.
      assert (Cz : count (fun b => b) (concat (f_keep f')) = 0) by lia.
      destruct c as [[t y] x]. cbn [kept_at] in Kc'.
      assert (In true (concat (f_keep f'))).
      { apply in_concat. exists (nth t (f_keep f') []). split.
        - apply nth_In. destruct (Nat.lt_ge_cases t (length (f_keep f'))) as [H|H]; [exact H|]. rewrite nth_overflow with (n := t) in Kc' by exact H. destruct (y * nx + x); discriminate.
        - rewrite <- Kc'. apply nth_In. destruct (Nat.lt_ge_cases (y * nx + x) (length (nth t (f_keep f') []))) as [H|H]; [exact H|]. rewrite nth_overflow in Kc' by exact H. discriminate. }
      unfold count in Cz. assert (In true (filter (fun b => b) (concat (f_keep f')))) by (apply filter_In; split; [assumption|reflexivity]).
      destruct (filter (fun b => b) (concat (f_keep f'))); [contradiction|discriminate]. }
    destruct So as (s0 & ->). cbn [bind fst snd]. unfold track_simple. destruct (run_tracking_simple _ _ _ _ _) as [lab m]. cbn [bind]. eexists. reflexivity.
  - intros F' n' mg' st' Rn'.
    destruct (run_parts g' k' data' s' F' n' mg' st' L' Fs' Rn') as (f' & Ef' & Th' & Sk' & Tk').
    destruct (areas_are_sizes _ _ _ _ _ Lc' _ _ Ef') as (Tf' & _). change (g_rule g') with (g_rule g) in Tf'. rewrite Ru in Tf'. cbn [threshold_of] in Tf'.
    assert (Tst : s_threshold st' = s_threshold st) by congruence. split; [exact Tst|].
    destruct (C123_run_on_a_grid_partial g (k_merging k) (k_nn k) (k_centroid k) (k_overlap k) (k_areas k) (k_chunks k) [] [] None
       (mkTracker (Some data) None false) (mkFiles None NoNpz) data s F n mg st eq_refl eq_refl L Ch Fs Rn) as (_ & Ev & _ & _ & _ & Gp).
    destruct (C123_run_on_a_grid_partial g' (k_merging k') (k_nn k') (k_centroid k') (k_overlap k') (k_areas k') (k_chunks k') [] [] None
       (mkTracker (Some data') None false) (mkFiles None NoNpz) data' s' F' n' mg' st' eq_refl eq_refl L' Ch' Fs' Rn') as (_ & Ev' & _ & _ & _ & Gp').
    rewrite Tst in Ev'.
    split.
    + intros c Rc Ec. rewrite <- !in_event_id. apply (events_early (negb (g_regional g)) nt nt' ny nx h Le on on' Sub Agr (s_threshold st) (in_event nx F) (in_event nx F') Ev Ev' c Rc). apply Hh. exact Ec.
    + intros (c0 & R1 & E1 & V1).
      assert (Kept : forall c, in_range nt ny nx c -> in_event nx F c -> in_event nx F' c).
      { intros c Rc. apply (events_kept (negb (g_regional g)) nt nt' ny nx h Le on on' Sub Agr (s_threshold st) (in_event nx F) (in_event nx F') Ev Ev') with (c0 := c0); try assumption.
        - intros d Rd Od. destruct (objects_finite (g_regional g) _ nt' ny nx (concat s') f' d Lc' Ef' Rd Od) as (l & N & M). exists l. split; [exact N|exact M].
        - apply Hh. exact E1.
        - apply Vo; assumption. }
      split; [intros c Rc; rewrite <- !in_event_id; apply Kept; exact Rc|].
      intros Kf c d Rc Rd Nz Ecd. destruct (Gp Kf) as [_ G1]. assert (Kf' : k_merging k' = false) by congruence. destruct (Gp' Kf') as [_ G2].
      assert (Ic : in_event nx F c) by (rewrite in_event_id; exact Nz). assert (Id : in_event nx F d) by (rewrite in_event_id, <- Ecd; exact Nz).
      destruct c as [[t y] x], d as [[t2 y2] x2]. apply (G2 t y x t2 y2 x2 (range_more nt nt' ny nx Le _ Rc) (range_more nt nt' ny nx Le _ Rd) (Kept _ Rc Ic) (Kept _ Rd Id)).
      apply (chain_more (negb (g_regional g)) nt nt' ny nx Le true (in_event nx F) (in_event nx F') _ _ Kept). apply (G1 t y x t2 y2 x2 Rc Rd Ic Id). exact Ecd.
Qed.
Print Assumptions C135_later_data_keep_earlier_events_partial.

(** Two events of the first record, joined by a third step. *)
Example C135_case :
  let data := bits [[1;0;0;0;0]; [0;1;0;0;1]] in let more := bits [[0;0;1;1;0]] in
  let g := mkGrid true 2 1 5 (repeat true 5) 0 0 (ByAbsolute 1) in
  fill_grid g data = Some data /\ value_at 5 data (0, 0, 0) = true /\
  exists F n mg st F' n' mg' st', fresh_run g (simple_tracking 2) data = Ok (F, n, mg, st) /\
    fresh_run (with_steps g 3) (simple_tracking 3) (data ++ more) = Ok (F', n', mg', st') /\
    F = [[0;0;0;0;0]; [0;1;0;0;2]]%Z /\ F' = [[0;0;0;0;0]; [0;1;0;0;1]; [0;0;1;1;0]]%Z.
Proof. cbv zeta. split; [vm_compute; reflexivity|]. split; [reflexivity|]. do 8 eexists. split; [vm_compute; reflexivity|]. split; [vm_compute; reflexivity|]. split; reflexivity. Qed.
