(** Theorem C170: quiet steps before and after a record on a mesh. *)
From Verif Require Import Base Graph Morph MorphSpec Label LabelSpec LabelProofs Filter FilterSpec Overlap OverlapSpec Merge MergeSpec MergeWitness Partition Cluster ClusterSpec ClusterProofs MeshPart Parallel ParallelProps
  Run RunSpec RunProps RelateProofs MeshRun MeshRunProofs MeshRunLimits MeshRunProps StatsRunProps MeshMoveSpec MeshMoveProofs MeshMoveRunProofs UnmergedProofs LocalProps PrefixProps RetrackProps QuietMeshProofs MeshMoveProps.
Open Scope nat_scope.

Lemma row_sym n : mesh_sym (row_mesh n).
Proof.
  intros i j A. unfold adj, Morph.row in *. destruct (Nat.lt_ge_cases i n) as [L|L]; [|rewrite nth_overflow in A by (unfold row_mesh; rewrite map_length, seq_length; exact L); destruct A].
  unfold row_mesh in *. rewrite (map_nth0 _ _ i 0) in A by (rewrite seq_length; exact L). rewrite seq_nth in A by exact L. cbn [Nat.add] in A.
  assert (J : j < n) by (destruct A as [E|[E|[E|[]]]]; [lia| |lia]; destruct (Nat.eqb_spec (S i) n); lia).
  rewrite (map_nth0 _ _ j 0) by (rewrite seq_length; exact J). rewrite seq_nth by exact J. cbn [Nat.add].
  destruct A as [E|[E|[E|[]]]]; [|destruct (Nat.eqb_spec (S i) n) as [X|X]; [lia|]|lia].
  - right. left. destruct (Nat.eqb_spec (S j) n); lia.
  - left. lia.
Qed.

(** As claimed, steps without any extreme before and after the record only shift the events.
    Wrong with T_fill > 0, R_fill > 1 and land: the second pass of the hole filling
    marks a channel between two coasts although nothing is extreme (finding of C143),
    so the quiet steps have events of their own. *)
Definition strait_mask : list bool := repeat false 3 ++ [true] ++ repeat false 5 ++ repeat true 7.
Definition strait16 : mesh_setup := mkMesh (row_mesh 16) strait_mask 2 2%Z (ByAbsolute 0) (repeat 1%Q 16).
Definition strait_day : list (list bool) := row_days [[0;0;0;0;0;0;0;0;0;1;1;1;1;1;1;1]].
Theorem C170_strait_refuted : exists (h : mesh_setup) (y : mesh_tracking) (data : list (list bool)) F N mg st F' N' mg' st' k,
  setup_ok h data /\ mesh_sym (h_nbs h) /\ set_order (y_order y) /\ k < length (h_nbs h) /\
  fresh_mesh_run h y data = Ok (F, N, mg, st) /\ fresh_mesh_run h y (data ++ [repeat false (length (h_nbs h))]) = Ok (F', N', mg', st') /\
  id_at F' (length data) k <> 0%Z.
Proof.
  exists strait16, tables16, strait_day. do 8 eexists. exists 3.
  split; [split; [exact (proj1 (row_input 16 [] eq_refl eq_refl))|split; [reflexivity|split; [reflexivity|split; [intros q I; apply repeat_spec in I; subst; reflexivity|intros d [<-|[]]; reflexivity]]]]|].
  split; [exact (row_sym 16)|]. split; [exact as_given_order|]. split; [cbn; lia|]. split; [vm_compute; reflexivity|]. split; [vm_compute; reflexivity|]. cbn. discriminate.
Qed.
Print Assumptions C170_strait_refuted.

(** The run on the longer record, up to the tracking. *)
Lemma quiet_cleaned h y a b data F N mg st : setup_ok h data -> mesh_sym (h_nbs h) -> Z.even (h_T h) = true ->
  h_T h = 0%Z \/ h_R h <= 1 \/ (forall i, i < length (h_nbs h) -> atb (h_mask h) i = true) -> set_order (y_order y) ->
  fresh_mesh_run h y data = Ok (F, N, mg, st) ->
  let dark := repeat false (length (h_nbs h)) in
  setup_ok h (padded dark a b data) /\ exists s' f', fill_time_gaps_mesh h (map (fill_holes_mesh (h_nbs h) (h_R h) (h_mask h)) (padded dark a b data)) = Some s' /\
    filter_small_mesh (h_rule h) (h_nbs h) (h_mask h) s' = Ok f' /\ stats_of (area_mesh h) (padded dark a b data) f' (f_keep f') = Ok st /\
    f_keep f' = padded dark a b (with_id F) /\ length F = length data /\ (forall t, t < length data -> length (nth t F []) = length (h_nbs h)) /\
    (exists t k, t < length data /\ extreme_ocean (h_nbs h) (h_mask h) (with_id F) t k).
Proof.
  intros Hs Hy Te Cd Ho R dark. destruct (run_cleaned h y data Hs Ho F N mg st R) as (s & f & Es & Ef & St & Lk & In1 & W & Lf & Rows & Ex).
  assert (Hs0 := Hs). destruct Hs0 as (B1 & B2 & B3 & B4 & B5).
  assert (Hs' : setup_ok h (padded dark a b data)).
  { split; [exact B1|]. split; [exact B2|]. split; [exact B3|]. split; [exact B4|]. intros d I. apply padded_In in I. destruct I as [->|I]; [apply repeat_length|apply B5, I]. }
  split; [exact Hs'|]. destruct (quiet_filled h a b data s Hs Hy Te Cd Es) as (s' & Es' & Ms). fold dark in Es', Ms.
  assert (Id := identify_padded (h_nbs h) (h_mask h) B1 B2 a b s s' Ms).
  destruct (filter_padded (h_rule h) (length (h_nbs h)) a b _ f Ef) as (f' & Ef' & Kp & Th & Bf & Af & Tt & Ac). rewrite <- Id in Ef'. fold dark in Kp.
  assert (Ar : forall l, area_mesh h (padded dark a b l) = area_mesh h l).
  { intro l. unfold area_mesh. f_equal. f_equal. unfold padded. rewrite !flat_map_app, !filter_app.
    assert (Z0 : forall c, filter fst (flat_map (fun v : list bool => combine v (h_area h)) (repeat dark c)) = []).
    { induction c as [|c IH]; [reflexivity|]. cbn [repeat flat_map]. rewrite filter_app, IH, app_nil_r. unfold dark. generalize (h_area h). clear. induction (length (h_nbs h)) as [|n IH]; intros [|x r]; try reflexivity. cbn. apply IH. }
    rewrite !Z0, app_nil_r. reflexivity. }
  exists s', f'. split; [exact Es'|]. split; [exact Ef'|]. split; [|split; [rewrite W; exact Kp|split; [exact Lf|split; [exact Rows|rewrite W; exact Ex]]]].
  unfold stats_of, accepted_area_fraction in *. rewrite Kp, !Ar, Tt, Th, Bf, Af, Ac. exact St.
Qed.

Section Cells.
Variables (h : mesh_setup) (a b : nat) (F F' : list (list Z)) (L : nat).
Hypothesis Lf : length F = L.
Hypothesis Rw : forall t, t < L -> length (nth t F []) = length (h_nbs h).
Hypothesis Lf' : length F' = a + L + b.
Hypothesis Rw' : forall t, t < a + L + b -> length (nth t F' []) = length (h_nbs h).
Hypothesis W : with_id F' = padded (repeat false (length (h_nbs h))) a b (with_id F).
Lemma quiet_ids t k : t < a + L + b -> k < length (h_nbs h) -> (id_at F' t k <> 0%Z <-> a <= t < a + L /\ id_at F (t - a) k <> 0%Z).
Proof.
  intros T K. assert (V : forall G u, u < length G -> length (nth u G []) = length (h_nbs h) -> (id_at G u k <> 0%Z <-> nth k (nth u (with_id G) []) false = true)).
  { intros G u U Lr. unfold with_id, id_at. rewrite (map_nth0 _ _ u []) by exact U. rewrite (map_nth0 _ _ k 0%Z) by (rewrite Lr; exact K). rewrite negb_true_iff, Z.eqb_neq. reflexivity. }
  rewrite (V F' t) by (first [lia|apply Rw'; lia]). rewrite W. assert (Lw : length (with_id F) = L) by (unfold with_id; rewrite map_length; exact Lf). split.
  - intro X. apply pad_at in X. destruct X as [[B X]|X]; [|destruct k; discriminate]. rewrite Lw in B. split; [exact B|]. apply (V F (t - a)); [lia|apply Rw; lia|exact X].
  - intros [B X]. apply (V F (t - a)) in X; [|lia|apply Rw; lia]. destruct (Nat.le_exists_sub a t (proj1 B)) as (v & -> & _). rewrite (Nat.add_comm v a) in *. rewrite padded_in by lia. replace (a + v - a) with v in X by lia. exact X.
Qed.
End Cells.

(** With even T_fill, on a mesh whose neighbours are mutual, when there is no second pass of
    the filling that could start from land: any number of quiet steps before and after leaves
    the statistics as they are and moves the event cells, merges or not. *)
Theorem C170_quiet_steps_same_cells (h : mesh_setup) (y y' : mesh_tracking) (a b : nat) (data : list (list bool))
    (F F' : list (list Z)) (N N' : Z) (mg mg' : option merges) (st st' : stats) :
  let dark := repeat false (length (h_nbs h)) in
  setup_ok h data -> mesh_sym (h_nbs h) -> Z.even (h_T h) = true ->
  h_T h = 0%Z \/ h_R h <= 1 \/ (forall i, i < length (h_nbs h) -> nth i (h_mask h) false = true) -> set_order (y_order y) -> set_order (y_order y') ->
  fresh_mesh_run h y data = Ok (F, N, mg, st) -> fresh_mesh_run h y' (repeat dark a ++ data ++ repeat dark b) = Ok (F', N', mg', st') ->
  st' = st /\ length F' = a + length data + b /\
  forall t k, t < a + length data + b -> k < length (h_nbs h) -> (id_at F' t k <> 0%Z <-> a <= t < a + length data /\ id_at F (t - a) k <> 0%Z).
Proof.
  intros dark Hs Hy Te Cd Ho Ho' R R'. destruct (quiet_cleaned h y a b data F N mg st Hs Hy Te Cd Ho R) as (Hs' & s' & f' & Es' & Ef' & St' & Kp & Lf & Rw & _).
  fold dark in Hs', Es', St', Kp. change (repeat dark a ++ data ++ repeat dark b) with (padded dark a b data) in R'.
  destruct (run_cleaned h y' _ Hs' Ho' F' N' mg' st' R') as (s1 & f1 & Es1 & Ef1 & St1 & _ & _ & W1 & Lf1 & Rw1 & _). rewrite Es' in Es1. injection Es1 as <-. rewrite Ef' in Ef1. injection Ef1 as <-. rewrite St' in St1. injection St1 as <-.
  rewrite padded_length in *. split; [reflexivity|]. split; [exact Lf1|]. intros t k T K. apply (quiet_ids h a b F F' (length data) Lf Rw Lf1 Rw1); [rewrite W1; exact Kp|exact T|exact K].
Qed.
Print Assumptions C170_quiet_steps_same_cells.

(** If moreover no two objects of a step have a common successor, the longer record runs
    through whenever the record does, has no merges, as many events and the same
    cells in one event. *)
Theorem C170_quiet_steps_same_events_partial (h : mesh_setup) (y y' : mesh_tracking) (a b : nat) (data : list (list bool)) (objs : list (list Z))
    (F : list (list Z)) (N : Z) (mg : option merges) (st : stats) :
  let dark := repeat false (length (h_nbs h)) in
  setup_ok h data -> mesh_sym (h_nbs h) -> Z.even (h_T h) = true ->
  h_T h = 0%Z \/ h_R h <= 1 \/ (forall i, i < length (h_nbs h) -> nth i (h_mask h) false = true) -> set_order (y_order y) -> set_order (y_order y') ->
  0 < y_limit y -> 0 < y_limit y' -> y_thr y' = y_thr y ->
  fresh_mesh_run h y data = Ok (F, N, mg, st) -> object_labelling (h_nbs h) (h_mask h) (with_id F) objs ->
  (forall p q c, consecutive_overlap (h_area h) (y_thr y) objs p c -> consecutive_overlap (h_area h) (y_thr y) objs q c -> p = q) ->
  exists F' ms, fresh_mesh_run h y' (repeat dark a ++ data ++ repeat dark b) = Ok (F', N, Some ms, st) /\ m_parents ms = [] /\
    (forall t k, t < a + length data + b -> k < length (h_nbs h) -> (id_at F' t k <> 0%Z <-> a <= t < a + length data /\ id_at F (t - a) k <> 0%Z)) /\
    (forall t j u k, t < length data -> u < length data -> j < length (h_nbs h) -> k < length (h_nbs h) -> id_at F t j <> 0%Z -> id_at F u k <> 0%Z ->
       (id_at F' (a + t) j = id_at F' (a + u) k <-> id_at F t j = id_at F u k)).
Proof.
  intros dark Hs Hy Te Cd Ho Ho' Li Li' Et R Lab Sp. destruct (quiet_cleaned h y a b data F N mg st Hs Hy Te Cd Ho R) as (Hs' & s' & f' & Es' & Ef' & St' & Kp & Lf & Rw & Ex).
  fold dark in Hs', Es', St', Kp. change (repeat dark a ++ data ++ repeat dark b) with (padded dark a b data).
  destruct (run_cleaned h y data Hs Ho F N mg st R) as (s & f & Es & Ef & St & Lk & _ & W & _).
  assert (Lab1 := Lab). rewrite W in Lab1. assert (Ex1 := Ex). rewrite W in Ex1.
  destruct (cleaned_runs h y data Hs Ho s f st objs Es Ef St Ex1 Lab1 Sp Li) as (F1 & N1 & ms1 & R1 & _ & _ & Ev1 & Cn1 & P1).
  rewrite R1 in R. injection R as <- <- <-. clear R1.
  set (z := repeat 0%Z (length (h_nbs h))).
  assert (Lab' : object_labelling (h_nbs h) (h_mask h) (f_keep f') (padded z a b objs)) by (rewrite Kp; apply labelling_padded; exact Lab).
  assert (Ov : forall p c, consecutive_overlap (h_area h) (y_thr y') (padded z a b objs) p c <-> consecutive_overlap (h_area h) (y_thr y) objs p c) by (intros p c; rewrite Et; apply overlap_padded).
  assert (Lw : length (with_id F1) = length data) by (unfold with_id; rewrite map_length; exact Lf).
  assert (Ex' : exists t k, t < length (padded dark a b data) /\ extreme_ocean (h_nbs h) (h_mask h) (f_keep f') t k).
  { destruct Ex as (t & k & T & X). exists (a + t), k. rewrite padded_length. split; [lia|]. rewrite Kp. apply extreme_padded. rewrite Lw. split; [lia|]. replace (a + t - a) with t by lia. exact X. }
  destruct (cleaned_runs h y' _ Hs' Ho' s' f' st _ Es' Ef' St' Ex' Lab' ltac:(intros p q c A B; apply (Sp p q c); apply Ov; assumption) Li') as (F' & N' & ms' & R' & Nm & W' & Ev' & Cn' & P').
  destruct (run_cleaned h y' _ Hs' Ho' F' N' _ st R') as (_ & _ & _ & _ & _ & _ & _ & _ & Lf' & Rw' & _). rewrite padded_length in *.
  assert (Id : forall t k, t < a + length data + b -> k < length (h_nbs h) -> (id_at F' t k <> 0%Z <-> a <= t < a + length data /\ id_at F1 (t - a) k <> 0%Z)).
  { intros t k T K. apply (quiet_ids h a b F1 F' (length data) Lf Rw Lf' Rw'); [rewrite W'; exact Kp|exact T|exact K]. }
  assert (Id2 : forall t k, t < length data -> k < length (h_nbs h) -> (id_at F' (a + t) k <> 0%Z <-> id_at F1 t k <> 0%Z)).
  { intros t k T K. rewrite (Id (a + t) k ltac:(lia) K). replace (a + t - a) with t by lia. intuition lia. }
  assert (Lo : length objs = length data) by (destruct Lab as (X & _); lia).
  assert (Same : forall t j u k, t < length data -> u < length data -> j < length (h_nbs h) -> k < length (h_nbs h) -> id_at F1 t j <> 0%Z -> id_at F1 u k <> 0%Z ->
       (id_at F' (a + t) j = id_at F' (a + u) k <-> id_at F1 t j = id_at F1 u k)).
  { intros t j u k T U J K Nj Nk. rewrite (Ev1 t j u k T U J K Nj Nk).
    rewrite (Ev' (a + t) j (a + u) k ltac:(lia) ltac:(lia) J K ltac:(apply Id2; assumption) ltac:(apply Id2; assumption)).
    rewrite (chained_iff _ _ _ _ Ov). unfold z. rewrite !id_padded by assumption. rewrite Lo.
    destruct (Nat.leb_spec a (a + t)); [|lia]. destruct (Nat.leb_spec a (a + u)); [|lia]. destruct (Nat.ltb_spec (a + t) (a + length data)); [|lia]. destruct (Nat.ltb_spec (a + u) (a + length data)); [|lia]. cbn [andb].
    replace (a + t - a) with t by lia. replace (a + u - a) with u by lia. reflexivity. }
  assert (Cnt : N' = N1).
  { apply Z.le_antisymm.
    - apply (count_le (fun x v => exists t k, t < length data /\ k < length (h_nbs h) /\ id_at F' (a + t) k = x /\ id_at F1 t k = v /\ v <> 0%Z)); [| |lia].
      + intros x X. apply Cn' in X. destruct X as (t & k & T & K & E & Nz). assert (Y := proj1 (Id t k T K) ltac:(congruence)). destruct Y as [B Y].
        exists (id_at F1 (t - a) k). split; [apply Cn1; exists (t - a), k; split; [lia|split; [exact K|split; [reflexivity|exact Y]]]|].
        exists (t - a), k. split; [lia|]. split; [exact K|]. split; [replace (a + (t - a)) with t by lia; exact E|]. split; [reflexivity|exact Y].
      + intros x v c _ _ (t & k & T & K & E1 & E2 & Nz) (u & l & U & L & G1 & G2 & _). rewrite <- E1, <- G1. apply Same; try assumption; congruence.
    - apply (count_le (fun x v => exists t k, t < length data /\ k < length (h_nbs h) /\ id_at F1 t k = x /\ id_at F' (a + t) k = v /\ x <> 0%Z)); [| |lia].
      + intros x X. apply Cn1 in X. destruct X as (t & k & T & K & E & Nz). exists (id_at F' (a + t) k).
        assert (Nz' : id_at F' (a + t) k <> 0%Z) by (apply Id2; [exact T|exact K|congruence]).
        split; [apply Cn'; exists (a + t), k; split; [lia|split; [exact K|split; [reflexivity|exact Nz']]]|]. exists t, k. split; [exact T|]. split; [exact K|]. split; [exact E|]. split; [reflexivity|exact Nz].
      + intros x v c _ _ (t & k & T & K & E1 & E2 & Nz) (u & l & U & L & G1 & G2 & Nz2). rewrite <- E1, <- G1. apply Same; try assumption; congruence. }
  subst N'. exists F', ms'. split; [exact R'|]. split; [exact Nm|]. split; [exact Id|exact Same].
Qed.
Print Assumptions C170_quiet_steps_same_events_partial.

(** Two steps with a gap between them; one quiet step before and one after. *)
Example C170_case : let data := row_days [[1;1;1;1;1;1;0;1]; [0;0;0;0;0;0;0;0]; [1;1;0;0;0;0;0;1]] in let dark := repeat false 8 in
  setup_ok row8_gaps data /\ mesh_sym (h_nbs row8_gaps) /\ Z.even (h_T row8_gaps) = true /\ h_R row8_gaps <= 1 /\
  exists F N mg st F' mg', fresh_mesh_run row8_gaps tables8 data = Ok (F, N, mg, st) /\ fresh_mesh_run row8_gaps tables8 (repeat dark 1 ++ data ++ repeat dark 1) = Ok (F', N, mg', st) /\
  (exists objs, object_labelling (row_mesh 8) (repeat true 8) (with_id F) objs /\
     forall p q c, consecutive_overlap (repeat 1%Q 8) (1#2) objs p c -> consecutive_overlap (repeat 1%Q 8) (1#2) objs q c -> p = q) /\
  F = [[1;1;1;1;1;1;0;2]; [1;1;0;0;0;0;0;2]; [1;1;0;0;0;0;0;2]]%Z /\ nth 0 F' [] = repeat 0%Z 8 /\ nth 4 F' [] = repeat 0%Z 8 /\ nth 2 F' [] = [1;1;0;0;0;0;0;2]%Z.
Proof.
  cbv zeta. split; [apply (row_input 8); reflexivity|]. split; [exact (row_sym 8)|]. split; [reflexivity|]. split; [cbn; lia|]. do 6 eexists.
  split; [vm_compute; reflexivity|]. split; [vm_compute; reflexivity|]. split; [|split; [reflexivity|split; [reflexivity|split; reflexivity]]].
  match goal with |- context [with_id ?F] => set (d := with_id F) end. vm_compute in d. exists (mesh_objects (row_mesh 8) (repeat true 8) d). split; [apply row_objects; reflexivity|].
  intros p q c P Q0. destruct (Z.eq_dec p q) as [H|H]; [exact H|exfalso].
  assert (X := merging_some _ _ no_centroid _ _ _ _ (single_row8 d eq_refl ltac:(exists 0, 0; vm_compute; auto 20 with arith)) ltac:(intros x I; apply repeat_spec in I; subst; reflexivity) H P Q0). vm_compute in X. exact X.
Qed.
