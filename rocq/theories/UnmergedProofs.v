(** Runs on meshes in which no object has two parents. *)
From Verif Require Import Base Graph Morph MorphSpec Label LabelSpec Filter FilterSpec FilterProofs FilterMeshProofs FilterProps Overlap OverlapSpec
  Merge MergeSpec Cluster ClusterSpec ClusterPipe MeshPart Parallel Run RunSpec MeshRun MeshRunProps StatsRunProps RelateProofs MeshMoveSpec MeshMoveProofs MeshMoveRunProofs.
Open Scope nat_scope.

(** Two objects of a step never have a common successor. *)
Definition one_parent (w : list Q) (thr : Q) (objs : list (list Z)) : Prop :=
  forall p q c, consecutive_overlap w thr objs p c -> consecutive_overlap w thr objs q c -> p = q.


Lemma extreme_dec m mask data t k : extreme_ocean m mask data t k \/ ~ extreme_ocean m mask data t k.
Proof.
  unfold extreme_ocean. destruct (Nat.lt_ge_cases k (length m)); [|right; lia].
  destruct (nth k mask false), (nth k (nth t data []) false); [left; auto|right; intros (_ & _ & Q); discriminate|right; intros (_ & Q & _); discriminate|right; intros (_ & Q & _); discriminate].
Qed.

Section Run.
Variables (h : mesh_setup) (y : mesh_tracking) (data : field).
Hypothesis Hs : setup_ok h data.
Hypothesis Ho : set_order (y_order y).
Let n := length (h_nbs h).

(** The cleaned data of a run that returns. *)
Lemma run_cleaned F N mg st : fresh_mesh_run h y data = Ok (F, N, mg, st) ->
  exists s f, fill_time_gaps_mesh h (map (fill_holes_mesh (h_nbs h) (h_R h) (h_mask h)) data) = Some s /\
    filter_small_mesh (h_rule h) (h_nbs h) (h_mask h) s = Ok f /\ stats_of (area_mesh h) data f (f_keep f) = Ok st /\
    length (f_keep f) = length data /\ mesh_input (h_nbs h) (h_mask h) (h_area h) (f_keep f) /\ with_id F = f_keep f /\
    length F = length data /\ (forall t, t < length data -> length (nth t F []) = n) /\
    (exists t k, t < length data /\ extreme_ocean (h_nbs h) (h_mask h) (f_keep f) t k).
Proof.
  intro R. apply fresh_parts in R. destruct R as (s & f & Es & Ef & St & Tr).
  destruct (filled_length h data s Hs Es) as [Ls Rs].
  assert (Hi : mesh_inputs_ok (h_nbs h) (h_mask h) s) by (destruct Hs as (A & B & _); split; [exact A|split; [exact B|exact Rs]]).
  destruct (C18_mesh_keeps_objects_above_threshold _ _ _ _ _ Hi Ef) as [Lk Kp]. assert (Rk := kept_length _ _ _ _ _ Hi Ef). rewrite Ls in Lk.
  assert (In1 : mesh_input (h_nbs h) (h_mask h) (h_area h) (f_keep f)).
  { destruct Hs as (B1 & B2 & B3 & B4 & _). split; [exact B1|]. split; [exact B2|]. split; [exact B3|]. split; [exact B4|exact Rk]. }
  unfold track_on_mesh in Tr. destruct (track_mesh _ _ _ _ _ _ _ _ _ (f_keep f)) as [[ev0 mg0]|e] eqn:Tk; [|discriminate]. injection Tr as <- <- <-.
  destruct (C103_mesh_events _ _ _ _ _ _ _ _ _ _ _ _ ev0 mg0 In1 Ho Tk) as (Lf & Rows & Cell & Cnt & obj2 & Ser2 & Len2 & Cell2 & _). rewrite Lk in *.
  exists s, f. split; [exact Es|]. split; [exact Ef|]. split; [exact St|]. split; [first [exact Lk|reflexivity]|]. split; [exact In1|]. split; [|split; [exact Lf|split; [exact Rows|]]].
  - unfold with_id. apply (nth_ext _ _ [] []); [rewrite map_length; congruence|]. intros t T. rewrite map_length, Lf in T. rewrite (map_nth0 _ _ t []) by lia.
    assert (Lt : length (nth t (f_keep f) []) = n) by (apply Rk, nth_In; lia).
    apply (nth_ext _ _ false false); [rewrite map_length, (Rows t T); symmetry; exact Lt|]. intros k K. rewrite map_length, (Rows t T) in K. rewrite (map_nth0 _ _ k 0%Z) by (rewrite (Rows t T); exact K).
    apply eq_true_iff_eq. rewrite negb_true_iff, Z.eqb_neq. destruct (Cell t k T K) as [C1 C2]. unfold id_at in C1, C2. split.
    + intro Nz. destruct (extreme_dec (h_nbs h) (h_mask h) (f_keep f) t k) as [D|D]; [apply D|]. apply C2 in D. contradiction.
    + intro V. assert (O : extreme_ocean (h_nbs h) (h_mask h) (f_keep f) t k); [|apply C1 in O; lia]. split; [exact K|]. split; [|exact V].
      assert (X : mesh_kept (f_keep f) t k) by exact V. apply (Kp t k ltac:(lia)) in X. apply X.
  - destruct Ser2 as (S1 & S2 & S3 & t & x & X & I). assert (T : t < length obj2) by (destruct (Nat.lt_ge_cases t (length obj2)); [assumption|rewrite nth_overflow in I by lia; destruct I]).
    destruct (In_nth _ _ 0%Z I) as (k & K & E). rewrite (S1 _ (nth_In obj2 [] T)) in K. exists t, k. split; [lia|]. apply Cell2; [lia|exact K|]. unfold id_at. rewrite E. exact X.
Qed.

(** Conversely: cleaned data in which no object has two parents can be tracked. *)
Lemma cleaned_runs s f st objs :
  fill_time_gaps_mesh h (map (fill_holes_mesh (h_nbs h) (h_R h) (h_mask h)) data) = Some s ->
  filter_small_mesh (h_rule h) (h_nbs h) (h_mask h) s = Ok f -> stats_of (area_mesh h) data f (f_keep f) = Ok st ->
  (exists t k, t < length data /\ extreme_ocean (h_nbs h) (h_mask h) (f_keep f) t k) ->
  object_labelling (h_nbs h) (h_mask h) (f_keep f) objs -> one_parent (h_area h) (y_thr y) objs -> 0 < y_limit y ->
  exists F N ms, fresh_mesh_run h y data = Ok (F, N, Some ms, st) /\ m_parents ms = [] /\ with_id F = f_keep f /\
    (forall t j u k, t < length data -> u < length data -> j < n -> k < n -> id_at F t j <> 0%Z -> id_at F u k <> 0%Z ->
       (id_at F t j = id_at F u k <-> chained (consecutive_overlap (h_area h) (y_thr y) objs) (id_at objs t j) (id_at objs u k))) /\
    (forall a, (1 <= a <= N)%Z <-> exists t k, t < length data /\ k < n /\ id_at F t k = a /\ a <> 0%Z) /\ (0 < N)%Z.
Proof.
  intros Es Ef St Ex Lab Sg Li. destruct (filled_length h data s Hs Es) as [Ls Rs].
  assert (Hi : mesh_inputs_ok (h_nbs h) (h_mask h) s) by (destruct Hs as (A & B & _); split; [exact A|split; [exact B|exact Rs]]).
  destruct (C18_mesh_keeps_objects_above_threshold _ _ _ _ _ Hi Ef) as [Lk _]. rewrite Ls in Lk. assert (Rk := kept_length _ _ _ _ _ Hi Ef).
  assert (In1 : mesh_input (h_nbs h) (h_mask h) (h_area h) (f_keep f)).
  { destruct Hs as (B1 & B2 & B3 & B4 & _). split; [exact B1|]. split; [exact B2|]. split; [exact B3|]. split; [exact B4|exact Rk]. }
  assert (Ex1 := Ex). rewrite <- Lk in Ex1.
  destruct (C106_unmerged_objects _ _ _ (y_cent y) (y_thr y) (y_nbs y) (y_dist y) (y_reach y) (y_order y) (y_block y) (y_limit y) _ objs In1 Ho Li Ex1 Lab Sg) as (ev & ms & Tk & Nm & Ev).
  assert (R : fresh_mesh_run h y data = Ok (v_field ev, n_events ev, Some ms, st)).
  { apply (fresh_parts h y data (v_field ev, n_events ev, Some ms) st). exists s, f. split; [exact Es|]. split; [exact Ef|]. split; [exact St|]. unfold track_on_mesh. rewrite Tk. reflexivity. }
  destruct (run_cleaned _ _ _ _ R) as (s1 & f1 & Es1 & Ef1 & _ & _ & _ & W & Lf & Rows & _). assert (s1 = s) by congruence. subst s1. assert (f1 = f) by congruence. subst f1.
  exists (v_field ev), (n_events ev), ms. split; [exact R|]. split; [exact Nm|]. split; [exact W|].
  destruct (C103_mesh_events _ _ _ _ _ _ _ _ _ _ _ _ ev ms In1 Ho Tk) as (_ & _ & Cell & Cnt & _). rewrite Lk in *.
  assert (On : forall t k, t < length data -> k < n -> id_at (v_field ev) t k <> 0%Z -> extreme_ocean (h_nbs h) (h_mask h) (f_keep f) t k).
  { intros t k T K Nz. destruct (extreme_dec (h_nbs h) (h_mask h) (f_keep f) t k) as [D|D]; [exact D|]. apply (Cell t k T K) in D. contradiction. }
  split; [|split].
  - intros t j u k T U J K Nj Nk. apply Ev; [lia|lia|apply On; assumption|apply On; assumption].
  - intro a. rewrite Cnt. split.
    + intros (t & Pa & I). assert (T : t < length (v_field ev)) by (destruct (Nat.lt_ge_cases t (length (v_field ev))); [assumption|unfold present_at in I; rewrite nth_overflow in I by lia; destruct I]).
      destruct (In_nth _ _ 0%Z I) as (k & K & E). rewrite Rows in K by lia. exists t, k. split; [lia|]. split; [exact K|]. split; [exact E|lia].
    + intros (t & k & T & K & E & Nz). exists t. assert (O := On t k T K ltac:(congruence)). apply (Cell t k T K) in O. split; [lia|]. unfold present_at. rewrite <- E. apply nth_In. rewrite (Rows t T). exact K.
  - destruct Ex as (t & k & T & O). assert (K := proj1 O). apply (Cell t k T K) in O. assert (B : (1 <= id_at (v_field ev) t k <= n_events ev)%Z); [|lia]. apply Cnt. exists t. split; [exact O|]. apply nth_In. rewrite (Rows t T). exact K.
Qed.
End Run.

(** Objects that overlap enough for a higher threshold do so for a lower one. *)
Lemma lower_overlap w thr thr' objs p c : (forall q, In q w -> (0 < q)%Q) -> (forall t, t < length objs -> length (nth t objs []) = length w) -> (thr <= thr')%Q ->
  consecutive_overlap w thr' objs p c -> consecutive_overlap w thr objs p c.
Proof.
  intros Wp Ln Le (t & T & Pp & Pc & M & O). exists t. split; [exact T|]. split; [exact Pp|]. split; [exact Pc|]. split; [exact M|].
  destruct M as (k & K & E1 & E2). rewrite Ln in K by lia.
  assert (A1 : (0 < object_area w (nth t objs []) p)%Q) by (apply object_area_pos; [apply Ln; lia|exact Wp|rewrite <- E1; apply nth_In; rewrite Ln by lia; exact K]).
  assert (A2 : (0 < object_area w (nth (S t) objs []) c)%Q) by (apply object_area_pos; [apply Ln; lia|exact Wp|rewrite <- E2; apply nth_In; rewrite Ln by lia; exact K]).
  destruct O as [[X Y]|[X Y]]; [left|right]; (split; [exact X|]); (eapply Qle_trans; [|exact Y]); apply Qmult_le_compat_r; [exact Le|apply Qlt_le_weak; assumption|exact Le|apply Qlt_le_weak; assumption].
Qed.
