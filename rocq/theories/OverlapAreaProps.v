(** Property theorems C184: the overlap of objects as a fraction of their area. *)
From Coq Require Import Qfield.
From Verif Require Import Base Morph Label LabelSpec LabelProofs LabelProps Filter FilterSpec FilterProofs FilterGridProofs FilterAreaProofs FilterMoreProofs FilterWitness FilterProps
  Overlap OverlapSpec Merge MergeSpec MergeProofs MergeLoop MergeWitness Partition PartitionProofs PartitionMore Cluster ClusterSpec ClusterProofs ClusterFinal ClusterPipe ClusterProps
  Run RunSpec RunProofs RunProps GridRunProps RelateSpec RelateProofs RefineProps UnmergedProofs SteadyProofs SteadyProps UnitSpec UnitProofs.
Open Scope nat_scope.

(** ** C184 *)

Lemma unit_nth c w w' k : Forall2 (in_unit c) w w' -> (nth k w' 0 == c * nth k w 0)%Q.
Proof. intro H. revert k. induction H as [|a b l l' H0 H IH]; intro k; destruct k; cbn [nth]; try ring; [exact H0|apply IH]. Qed.
Lemma total_scaled c f f' n : (forall k, f' k == c * f k)%Q -> (totalQ f' n == c * totalQ f n)%Q.
Proof. intro H. induction n as [|n IH]; cbn [totalQ]; [ring|]. rewrite (H n), IH. ring. Qed.
Lemma overlap_in_unit c w w' thr fields p q : (0 < c)%Q -> Forall2 (in_unit c) w w' -> consecutive_overlap w' thr fields p q <-> consecutive_overlap w thr fields p q.
Proof.
  intros Cp H. unfold consecutive_overlap, overlap_enough.
  assert (O : forall f i, (object_area w' f i == c * object_area w f i)%Q).
  { intros f i. unfold object_area. apply total_scaled. intro k. destruct (Z.eqb _ i); [apply unit_nth; exact H|ring]. }
  assert (S : forall f g i j, (shared_area w' f g i j == c * shared_area w f g i j)%Q).
  { intros f g i j. unfold shared_area. apply total_scaled. intro k. destruct (Z.eqb _ i && Z.eqb _ j); [apply unit_nth; exact H|ring]. }
  assert (L : forall a b, (c * a <= c * b <-> a <= b)%Q) by (intros; apply Qmult_le_l; exact Cp).
  assert (M : forall a b, (thr * (c * a) <= c * b <-> thr * a <= b)%Q) by (intros a b; rewrite <- (L (thr * a)%Q b); split; intro X; [setoid_replace (c * (thr * a))%Q with (thr * (c * a))%Q by ring|setoid_replace (thr * (c * a))%Q with (c * (thr * a))%Q by ring]; exact X).
  split; intros (t & T & A & B & C & D); exists t; (split; [exact T|]); (split; [exact A|]); (split; [exact B|]); (split; [exact C|]);
    rewrite ?O, ?S, ?L, ?M in *; exact D.
Qed.

(** Where all cells have the same area, the events of a run on a grid are the chains of
    objects that share at least overlap_threshold of the area of the smaller one
    (without merges and splits, as in C171). *)
Theorem C184_grid_equal_cells_partial (g : grid) (k : tracking) (data : field) (a : Q)
    (F : list (list Z)) (n : Z) (mg : option merges) (st : stats) (objs : list (list Z)) :
  length data = g_nt g -> fold_right Nat.add 0 (k_chunks k) = g_nt g -> k_merging k = true ->
  (0 < a)%Q -> k_areas k = repeat a (g_ny g * g_nx g) ->
  fresh_run g k data = Ok (F, n, mg, st) ->
  object_numbers (negb (g_regional g)) (g_nt g) (g_ny g) (g_nx g) (in_event (g_nx g) F) objs ->
  (forall p q c, consecutive_overlap (k_areas k) (k_overlap k) objs p c -> consecutive_overlap (k_areas k) (k_overlap k) objs q c -> p = q) ->
  (forall p c d, consecutive_overlap (k_areas k) (k_overlap k) objs p c -> consecutive_overlap (k_areas k) (k_overlap k) objs p d -> c = d) ->
  forall c d, in_range (g_nt g) (g_ny g) (g_nx g) c -> in_range (g_nt g) (g_ny g) (g_nx g) d ->
    in_event (g_nx g) F c -> in_event (g_nx g) F d ->
    (id_of (g_nx g) F c = id_of (g_nx g) F d <-> chained (consecutive_overlap (k_areas k) (k_overlap k) objs) (id_of (g_nx g) objs c) (id_of (g_nx g) objs d)).
Proof.
  intros L Hs Km Ap Ea R Ob Up Down c d Rc Rd Ec Ed.
  assert (U : Forall2 (in_unit a) (repeat 1%Q (g_ny g * g_nx g)) (k_areas k)).
  { rewrite Ea. clear. induction (g_ny g * g_nx g) as [|m IH]; cbn [repeat]; [constructor|constructor; [unfold in_unit; ring|exact IH]]. }
  assert (E := fun p q => overlap_in_unit a _ _ (k_overlap k) objs p q Ap U).
  assert (Up' : nothing_merges (g_ny g * g_nx g) (k_overlap k) objs) by (intros p q x A B; apply E in A, B; exact (Up p q x A B)).
  assert (Down' : nothing_splits (g_ny g * g_nx g) (k_overlap k) objs) by (intros p x y A B; apply E in A, B; exact (Down p x y A B)).
  destruct (C171_steady_objects_partial g k data F n mg st objs L Hs Km R Ob Up' Down') as [_ K]. rewrite (K c d Rc Rd Ec Ed).
  assert (Ch : forall (S T : Z -> Z -> Prop), (forall p q, S p q -> T p q) -> forall p q, chained S p q -> chained T p q).
  { intros S T I p q C. induction C as [x|x y z A C IH|x y z A C IH]; [constructor|eapply chained_fwd; eauto|eapply chained_bwd; eauto]. }
  split; apply Ch; intros p q; apply E.
Qed.
Print Assumptions C184_grid_equal_cells_partial.

(** As claimed, for the given cell areas.  False: the record of C171 on cells of which one,
    the only one that an object keeps, is small.  The object keeps its ID though it keeps
    a hundredth of its area. *)
Definition small_cell : list Q := repeat 100%Q 27 ++ [1%Q] ++ repeat 100%Q 2.
Definition by_area : tracking := with_grid_areas (split_tracking 3) small_cell.
Theorem C184_grid_overlap_refuted :
  exists g k data F n mg st objs c d, length data = g_nt g /\ fold_right Nat.add 0 (k_chunks k) = g_nt g /\ k_merging k = true /\
    length (k_areas k) = g_ny g * g_nx g /\ (forall q, In q (k_areas k) -> (0 < q)%Q) /\
    fresh_run g k data = Ok (F, n, mg, st) /\
    object_numbers (negb (g_regional g)) (g_nt g) (g_ny g) (g_nx g) (in_event (g_nx g) F) objs /\
    (forall p q c, consecutive_overlap (k_areas k) (k_overlap k) objs p c -> consecutive_overlap (k_areas k) (k_overlap k) objs q c -> p = q) /\
    (forall p c d, consecutive_overlap (k_areas k) (k_overlap k) objs p c -> consecutive_overlap (k_areas k) (k_overlap k) objs p d -> c = d) /\
    in_range (g_nt g) (g_ny g) (g_nx g) c /\ in_range (g_nt g) (g_ny g) (g_nx g) d /\ in_event (g_nx g) F c /\ in_event (g_nx g) F d /\
    id_of (g_nx g) F c = id_of (g_nx g) F d /\
    ~ chained (consecutive_overlap (k_areas k) (k_overlap k) objs) (id_of (g_nx g) objs c) (id_of (g_nx g) objs d).
Proof.
  assert (Sh : shaped (split_grid 3) (event_cells moved)).
  { split; [reflexivity|]. intros v V. cbn [event_cells map moved In] in V. destruct V as [<-|[<-|[<-|[]]]]; reflexivity. }
  assert (Ex : exists j, nth j (concat (event_cells moved)) false = true) by (exists 12; reflexivity).
  assert (Hw : forall q, In q small_cell -> (0 < q)%Q) by (intros q Q0; unfold small_cell in Q0; apply in_app_or in Q0; destruct Q0 as [Q0|[<-|Q0]]; [apply repeat_spec in Q0; subst; reflexivity|reflexivity|apply repeat_spec in Q0; subst; reflexivity]).
  assert (Hl : labelled_series (length small_cell) (event_objects (split_grid 3) moved)) by (change (length small_cell) with (g_ny (split_grid 3) * g_nx (split_grid 3)); apply fields_series; [apply (shaped_concat (split_grid 3)); exact Sh|exact Ex]).
  assert (Pr : final_overlaps small_cell (1#2) (event_objects (split_grid 3) moved) (initial small_cell row_centroid (event_objects (split_grid 3) moved)) = [(1, 3); (3, 5)]%Z)
    by (vm_compute; reflexivity).
  assert (Ov : forall p c, consecutive_overlap small_cell (1#2) (event_objects (split_grid 3) moved) p c <-> In (p, c) [(1, 3); (3, 5)]%Z).
  { intros p c. rewrite <- Pr. symmetry. apply (final_pair small_cell row_centroid (1#2) (event_objects (split_grid 3) moved) (initial_props small_cell row_centroid (event_objects (split_grid 3) moved)) Hl (start_table small_cell row_centroid _ Hl) Hw). reflexivity. }
  exists (split_grid 3), by_area, moving, moved, 2%Z. eexists. eexists. exists (event_objects (split_grid 3) moved), (0, 4, 2), (1, 4, 4).
  change (k_areas by_area) with small_cell. change (k_overlap by_area) with (1#2)%Q.
  split; [reflexivity|]. split; [reflexivity|]. split; [reflexivity|]. split; [reflexivity|]. split; [exact Hw|]. split; [vm_compute; reflexivity|].
  split; [exact (event_objects_numbers (split_grid 3) moved Sh)|].
  split; [intros p q c A B; apply Ov in A, B; cbn [In] in A, B; destruct A as [A|[A|[]]]; destruct B as [B|[B|[]]]; congruence|].
  split; [intros p c d A B; apply Ov in A, B; cbn [In] in A, B; destruct A as [A|[A|[]]]; destruct B as [B|[B|[]]]; congruence|].
  split; [simpl; lia|]. split; [simpl; lia|]. split; [discriminate|]. split; [discriminate|]. split; [reflexivity|].
  replace (id_of (g_nx (split_grid 3)) (event_objects (split_grid 3) moved) (0, 4, 2)) with 2%Z by (vm_compute; reflexivity).
  replace (id_of (g_nx (split_grid 3)) (event_objects (split_grid 3) moved) (1, 4, 4)) with 4%Z by (vm_compute; reflexivity).
  assert (St : forall x y, chained (consecutive_overlap small_cell (1#2) (event_objects (split_grid 3) moved)) x y -> x = 2%Z -> y = 2%Z).
  { intros x y C. induction C as [x|x y z A C IH|x y z A C IH]; [auto| |]; intros ->; apply Ov in A; cbn [In] in A; destruct A as [A|[A|[]]]; discriminate. }
  intro C. discriminate (St _ _ C eq_refl).
Qed.
Print Assumptions C184_grid_overlap_refuted.

(** The same record on cells of 25 each: C184_grid_equal_cells_partial applies. *)
Definition equal_cells : tracking := with_grid_areas (split_tracking 3) (repeat 25%Q 30).
Example C184_case :
  (exists mg st, fresh_run (split_grid 3) equal_cells moving = Ok (moved, 2%Z, mg, st)) /\
  object_numbers false 3 5 6 (in_event 6 moved) (event_objects (split_grid 3) moved) /\
  (forall p q c, consecutive_overlap (k_areas equal_cells) (1#2) (event_objects (split_grid 3) moved) p c -> consecutive_overlap (k_areas equal_cells) (1#2) (event_objects (split_grid 3) moved) q c -> p = q) /\
  (forall p c d, consecutive_overlap (k_areas equal_cells) (1#2) (event_objects (split_grid 3) moved) p c -> consecutive_overlap (k_areas equal_cells) (1#2) (event_objects (split_grid 3) moved) p d -> c = d).
Proof.
  destruct C171_case as (_ & Ob & Up & Down).
  assert (E : forall p q, consecutive_overlap (k_areas equal_cells) (1#2) (event_objects (split_grid 3) moved) p q <-> consecutive_overlap (repeat 1%Q 30) (1#2) (event_objects (split_grid 3) moved) p q).
  { intros p q. apply (overlap_in_unit 25); [reflexivity|]. cbn [k_areas equal_cells with_grid_areas]. clear. generalize 30. intro m. induction m as [|m IH]; [constructor|cbn [repeat]; constructor; [reflexivity|exact IH]]. }
  split; [eexists; eexists; vm_compute; reflexivity|]. split; [exact Ob|].
  split; [intros p q c A B; apply E in A, B; exact (Up p q c A B)|intros p c d A B; apply E in A, B; exact (Down p c d A B)].
Qed.
