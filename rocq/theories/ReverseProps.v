(** Theorem C159: reading the record backwards. *)
From Verif Require Import Base Morph MorphSpec MorphProps Label LabelSpec LabelProofs Filter FilterSpec FilterProofs FilterGridProofs FilterAreaProofs FilterProps Overlap Merge Partition Cluster ClusterSpec ClusterFinal
  Run RunSpec RunProofs RunProps GridRunProps PipelineProps RelateSpec RelateProofs RelateProps ReverseProofs.
Open Scope nat_scope.

(** ** C159: the direction of time *)
(** As claimed: the record read from its last step to its first has the same events,
    read backwards. It fails through the dropped first object, which is an object of the
    last step when time is reversed. *)
Theorem C159_backwards_the_same_events_refuted :
  exists g k data F n mg st F' n' mg' st',
    fresh_run g k data = Ok (F, n, mg, st) /\ fresh_run g k (rev data) = Ok (F', n', mg', st') /\ n' <> n /\
    ~ moved_events (g_nt g) (g_nt g) (g_ny g) (g_nx g) (backwards (g_nt g)) F F'.
Proof.
  exists (belt 2 0), (simple_tracking 2), (bits [[1;0;0;0;0]; [0;0;1;0;1]]).
  do 8 eexists. split; [vm_compute; reflexivity|]. split; [vm_compute; reflexivity|]. split; [discriminate|].
  intros [M _]. specialize (M (1, 0, 2)). cbn in M. apply M; [lia|discriminate|reflexivity].
Qed.
Print Assumptions C159_backwards_the_same_events_refuted.

(** For every R_fill, even T_fill and area rule, on regional and global grids, with and
    without merging: the record read backwards is filled to the same cells read backwards,
    the statistics are the same and the event cells are the same read backwards; without
    merging the number of events and which cells are together too, and the second run
    returns whenever the first does - provided that the dropped objects correspond or are
    below the threshold. *)
Theorem C159_backwards_the_same_events_partial (g : grid) (k k' : tracking) (data : field)
    (F : list (list Z)) (n : Z) (mg : option merges) (st : stats) :
  let nt := g_nt g in let ny := g_ny g in let nx := g_nx g in let back := backwards nt in
  Z.even (g_T g) = true -> length data = nt -> k_merging k' = k_merging k ->
  fold_right Nat.add 0 (k_chunks k) = nt -> fold_right Nat.add 0 (k_chunks k') = nt ->
  fresh_run g k data = Ok (F, n, mg, st) ->
  exists s s', fill_grid g data = Some s /\ fill_grid g (rev data) = Some s' /\
    (forall c, in_range nt ny nx c -> value_at nx s' (back c) = value_at nx s c) /\
    (drops_alike g g back s s' (s_threshold st) ->
     (k_merging k = false -> exists r, fresh_run g k' (rev data) = Ok r) /\
     forall F' n' mg' st', fresh_run g k' (rev data) = Ok (F', n', mg', st') ->
       (same_figures data (rev data) st st' /\ s_processed st' = s_processed st) /\ moved_events nt nt ny nx back F F' /\
       (k_merging k = false -> n' = n /\ same_grouping nt ny nx back F F')).
Proof.
  intros nt ny nx back Te L Km Ch Ch' Rn. destruct (run_fills g k data _ Rn) as (s & Fs). destruct (reverse_fill g data s Te L Fs) as (s' & Fs' & Eq).
  exists s, s'. split; [exact Fs|]. split; [exact Fs'|]. split; [exact Eq|]. intro Fo.
  assert (L' : length (rev data) = g_nt g) by (rewrite rev_length; exact L).
  assert (St : forall b c d, in_range nt ny nx c -> in_range nt ny nx d -> (touching b (negb (g_regional g)) nx (back c) (back d) <-> touching b (negb (g_regional g)) nx c d)) by (intros b c d; apply (backwards_touch g)).
  assert (Im : forall d, in_range nt ny nx d -> value_at nx s' d = true -> exists c, in_range nt ny nx c /\ back c = d) by (intros d Rd _; exists (back d); split; [apply (backwards_range g d Rd)|apply (backwards_back g d Rd)]).
  split.
  - intro Kf. apply (second_returns g g k k' data (rev data) s s' back F n mg st eq_refl Km L L' Ch Ch' Fs Fs' Rn (backwards_range g) (backwards_once g) St Eq Im Fo). congruence.
  - intros F' n' mg' st' Rn'.
    destruct (runs_related g g k k' data (rev data) s s' back F F' n n' mg mg' st st' eq_refl Km L L' Ch Ch' Fs Fs' Rn (backwards_range g) (backwards_once g) St Eq Im Fo Rn') as (Fg & Mv & Gp).
    split; [|split; [exact Mv|exact Gp]]. split; [exact Fg|]. apply Fg. clear.
    induction data as [|r data IH]; [reflexivity|]. cbn [rev]. rewrite concat_app, count_app, IH. cbn [concat]. rewrite app_nil_r, count_app. apply Nat.add_comm.
Qed.
Print Assumptions C159_backwards_the_same_events_partial.

(** Three steps with a gap of one step, objects of at least two cells kept: in both
    directions the dropped object is a single cell. *)
Example C159_case :
  let g := mkGrid false 3 1 5 (repeat true 5) 0 2 (ByAbsolute 2) in
  let data := bits [[1;0;1;1;0]; [0;0;0;0;0]; [0;1;0;1;1]] in
  exists F n mg st F' n' mg' st' s',
    fresh_run g (simple_tracking 3) data = Ok (F, n, mg, st) /\ fill_grid g data = Some (bits [[1;0;1;1;0]; [0;0;0;1;0]; [0;1;0;1;1]]) /\
    fill_grid g (rev data) = Some s' /\
    drops_alike g g (backwards 3) (bits [[1;0;1;1;0]; [0;0;0;1;0]; [0;1;0;1;1]]) s' (s_threshold st) /\
    fresh_run g (simple_tracking 3) (rev data) = Ok (F', n', mg', st') /\
    F = [[0;0;1;1;0]; [0;0;0;0;0]; [0;0;0;2;2]]%Z /\ F' = [[0;0;0;1;1]; [0;0;0;0;0]; [0;0;2;2;0]]%Z.
Proof.
  cbv zeta. do 9 eexists. split; [vm_compute; reflexivity|]. split; [vm_compute; reflexivity|]. split; [vm_compute; reflexivity|]. split.
  - intros e e' Fe Fe'. right. cbn [s_threshold].
    assert (Small : forall s c, (forall d, extreme 1 5 (concat s) d -> touching false true 5 c d -> in_range 3 1 5 d -> d = c) ->
       too_small (mkGrid false 3 1 5 (repeat true 5) 0 2 (ByAbsolute 2)) s (inject_Z 2) c).
    { intros s c N l (ND & M). cbn [g_regional g_nt g_ny g_nx] in M.
      assert (A : forall d, In d l -> d = c).
      { intros d I. apply M in I. destruct I as (_ & _ & C). unfold joined in C. cbn [negb] in C. remember c as c0 eqn:E0. revert N E0. clear -C. induction C as [c0|c0 d0 e R O T C IH]; intros N E0; [reflexivity|]. 
        assert (d0 = c0) by (apply N; assumption). subst d0. apply IH; assumption. }
      assert (length l <= 1); [|unfold nat_Q; rewrite <- Zlt_Qlt; lia].
      destruct l as [|a [|b l]]; [cbn; lia|cbn; lia|]. exfalso. inversion ND as [|? ? H _]. apply H. left. rewrite (A a), (A b); [reflexivity|right; left; reflexivity|left; reflexivity]. }
    split.
    + assert (A : first_extreme 3 1 5 (concat (bits [[1;0;1;1;0]; [0;0;0;1;0]; [0;1;0;1;1]])) (0, 0, 0)) by (split; [cbn; lia|split; [reflexivity|intros [[t y] x] _ _; cbn; lia]]).
      rewrite (first_unique _ _ _ _ _ _ Fe A). apply Small. intros [[t y] x] X T (T0 & Y0 & X0). unfold touching in T. assert (t = 0) by (destruct T; lia). assert (y = 0) by lia. subst t y.
      destruct x as [|[|[|[|[|x]]]]]; try lia; try reflexivity; try (vm_compute in X; discriminate X); exfalso; unfold col_next, dist1 in T; lia.
    + assert (A : first_extreme 3 1 5 (concat [[false; true; false; true; true]; [false; false; false; true; false]; [true; false; true; true; false]]) (0, 0, 1)).
      { split; [cbn; lia|split; [reflexivity|]]. intros [[t y] x] (T & Y & X) V. assert (y = 0) by lia. subst y. destruct t as [|[|[|t]]]; [| | |lia]; destruct x as [|[|[|[|[|x]]]]]; try (vm_compute in V; discriminate V); unfold flat; lia. }
      rewrite (first_unique _ _ _ _ _ _ Fe' A). apply Small. intros [[t y] x] X T (T0 & Y0 & X0). unfold touching in T. assert (t = 0) by (destruct T; lia). assert (y = 0) by lia. subst t y.
      destruct x as [|[|[|[|[|x]]]]]; try lia; try reflexivity; try (vm_compute in X; discriminate X); exfalso; unfold col_next, dist1 in T; lia.
  - split; [vm_compute; reflexivity|]. split; reflexivity.
Qed.
