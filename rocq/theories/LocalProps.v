(** Theorem C167: what happens elsewhere does not change the events of a region. *)
From Verif Require Import Base Graph Morph MorphSpec Label LabelSpec LabelProofs Filter FilterSpec Overlap OverlapSpec Merge MergeSpec MergeWitness Partition Cluster ClusterSpec ClusterProofs MeshPart Parallel ParallelProps
  Run RunSpec RunProps PipelineProps RelateSpec RelateProofs RelateProps RefineProps MeshRun MeshRunProofs MeshRunLimits MeshRunProps StatsRunProps MeshMoveSpec MeshMoveProofs MeshMoveProps UnmergedProofs LocalSpec LocalProofs.
Open Scope nat_scope.

(** As claimed, data that differ only away from a region, with no event on its border,
    have the same events in the region.  Wrong on grids: the filter drops the first
    object (finding of C17), so an object elsewhere decides whether one here is kept. *)
Theorem C167_grid_refuted : exists (g : grid) (k : tracking) (A : Z) (data data' : field) (F F' : list (list Z)) (n n' : Z) (mg mg' : option merges) (st st' : stats) (x0 x1 : nat) (c : cell),
  g_rule g = ByAbsolute A /\ g_R g = 0%Z /\ g_T g = 0%Z /\ length data = g_nt g /\ length data' = g_nt g /\ fold_right Nat.add 0 (k_chunks k) = g_nt g /\
  (forall t y x, in_range (g_nt g) (g_ny g) (g_nx g) (t, y, x) -> x0 <= x <= x1 -> value_at (g_nx g) data (t, y, x) = value_at (g_nx g) data' (t, y, x)) /\
  fresh_run g k data = Ok (F, n, mg, st) /\ fresh_run g k data' = Ok (F', n', mg', st') /\
  (forall t y x, in_range (g_nt g) (g_ny g) (g_nx g) (t, y, x) -> x = x0 \/ x = x1 -> id_of (g_nx g) F (t, y, x) = 0%Z /\ id_of (g_nx g) F' (t, y, x) = 0%Z) /\
  in_range (g_nt g) (g_ny g) (g_nx g) c /\ x0 < snd c < x1 /\ id_of (g_nx g) F c <> 0%Z /\ id_of (g_nx g) F' c = 0%Z.
Proof.
  exists (belt 2 0), (simple_tracking 2), 1%Z, (bits [[1;0;1;0;0]; [0;0;0;0;0]]), (bits [[0;0;1;0;0]; [1;0;0;0;0]]). do 8 eexists. exists 1, 3, (0, 0, 2).
  split; [reflexivity|]. split; [reflexivity|]. split; [reflexivity|]. split; [reflexivity|]. split; [reflexivity|]. split; [reflexivity|]. split.
  { intros t y x (T & Y & X) B. cbn in T, Y, X. assert (y = 0) by lia. subst y. assert (x = 1 \/ x = 2 \/ x = 3) as [-> | [-> | ->]] by lia; destruct t as [|[|t]]; try reflexivity; lia. }
  split; [vm_compute; reflexivity|]. split; [vm_compute; reflexivity|]. split.
  { intros t y x (T & Y & X) B. cbn in T, Y, X. assert (y = 0) by lia. subst y. destruct B as [-> | ->]; destruct t as [|[|t]]; try (split; reflexivity); lia. }
  split; [cbn; lia|]. split; [cbn; lia|]. split; [cbn; discriminate|reflexivity].
Qed.
Print Assumptions C167_grid_refuted.

(** The cells kept by the two runs, inside the region. *)
Lemma kept_same h y y' data data' (U : nat -> bool) A F F' N N' mg mg' st st' :
  setup_ok h data -> setup_ok h data' -> length data' = length data -> set_order (y_order y) -> set_order (y_order y') -> h_rule h = ByAbsolute A ->
  same_around (h_nbs h) (4 * h_R h + 4 * (h_R h / 2)) U data data' ->
  fresh_mesh_run h y data = Ok (F, N, mg, st) -> fresh_mesh_run h y' data' = Ok (F', N', mg', st') ->
  (forall t c, t < length data -> on_border (h_nbs h) U c -> id_at F t c = 0%Z /\ id_at F' t c = 0%Z) ->
  agree_inside (h_nbs h) U (with_id F) (with_id F').
Proof.
  intros Hs Hs' L Ho Ho' Ru Sa R R' Bd.
  destruct (run_cleaned h y data Hs Ho F N mg st R) as (s & f & Es & Ef & _ & Lk & _ & W & Lf & Rows & _).
  destruct (run_cleaned h y' data' Hs' Ho' F' N' mg' st' R') as (s' & f' & Es' & Ef' & _ & Lk' & _ & W' & Lf' & Rows' & _).
  destruct (filled_length h data s Hs Es) as [Ls Rs]. destruct (filled_length h data' s' Hs' Es') as [Ls' Rs'].
  assert (Hi : mesh_inputs_ok (h_nbs h) (h_mask h) s) by (destruct Hs as (B1 & B2 & _); split; [exact B1|split; [exact B2|exact Rs]]).
  assert (Hi' : mesh_inputs_ok (h_nbs h) (h_mask h) s') by (destruct Hs' as (B1 & B2 & _); split; [exact B1|split; [exact B2|exact Rs']]).
  rewrite Ru in Ef, Ef'.
  assert (Zero : forall G t c, length G = length data -> (forall t, t < length data -> length (nth t G []) = length (h_nbs h)) -> t < length data -> c < length (h_nbs h) ->
    id_at G t c = 0%Z -> nth c (nth t (with_id G) []) false = false).
  { intros G t c LG RG T C E. unfold with_id. rewrite (map_nth0 _ _ t []) by lia. rewrite (map_nth0 _ _ c 0%Z) by (rewrite (RG t T); exact C). unfold id_at in E. rewrite E. reflexivity. }
  assert (B1 : forall t c, t < length data -> on_border (h_nbs h) U c -> nth c (nth t (with_id F) []) false = false).
  { intros t c T B. apply Zero; [exact Lf|exact Rows|exact T|apply B|apply (Bd t c T B)]. }
  assert (B2 : forall t c, t < length data -> on_border (h_nbs h) U c -> nth c (nth t (with_id F') []) false = false).
  { intros t c T B. rewrite L in *. apply Zero; [exact Lf'|exact Rows'|exact T|apply B|apply (Bd t c T B)]. }
  assert (Same : forall t c, t < length data -> c < length (h_nbs h) -> U c = true \/ on_border (h_nbs h) U c -> nth c (nth t s []) false = nth c (nth t s' []) false).
  { intros t c T C Uc. apply (filled_local h data data' s s' c Hs Hs' L Es Es' C); [|exact T]. intros u l V Wl. exact (Sa u c l V C Uc Wl). }
  assert (B3 := B1). assert (B4 := B2). rewrite W in B3. rewrite W' in B4.
  split; [unfold with_id; rewrite !map_length; congruence|]. unfold with_id at 1 4 6. rewrite !map_length, Lf. split; [|split; [exact B1|exact B2]].
  intros t c T C Uc. rewrite W, W'. apply eq_true_iff_eq. split.
  - apply (kept_local (h_nbs h) (h_mask h) s s' A f f' U Hi Hi' ltac:(congruence) Ef Ef'); try assumption; try lia; rewrite Ls; assumption.
  - apply (kept_local (h_nbs h) (h_mask h) s' s A f' f U Hi' Hi ltac:(congruence) Ef' Ef); try assumption; try lia; rewrite Ls', L; [|assumption].
    intros u d V D Ud. symmetry. apply Same; assumption.
Qed.

(** On a mesh with an absolute area threshold: data that agree on and around a region,
    up to the reach of the filling, with no event cell on the border of the region,
    have the same event cells in the region, merges or not. *)
Theorem C167_event_cells_of_a_region (h : mesh_setup) (y y' : mesh_tracking) (data data' : list (list bool)) (U : nat -> bool) (A : Z)
    (F F' : list (list Z)) (N N' : Z) (mg mg' : option merges) (st st' : stats) :
  setup_ok h data -> setup_ok h data' -> length data' = length data -> set_order (y_order y) -> set_order (y_order y') -> h_rule h = ByAbsolute A ->
  same_around (h_nbs h) (4 * h_R h + 4 * (h_R h / 2)) U data data' ->
  fresh_mesh_run h y data = Ok (F, N, mg, st) -> fresh_mesh_run h y' data' = Ok (F', N', mg', st') ->
  (forall t c, t < length data -> on_border (h_nbs h) U c -> id_at F t c = 0%Z /\ id_at F' t c = 0%Z) ->
  forall t c, t < length data -> c < length (h_nbs h) -> U c = true -> (id_at F t c <> 0%Z <-> id_at F' t c <> 0%Z).
Proof.
  intros Hs Hs' L Ho Ho' Ru Sa R R' Bd t c T C Uc.
  destruct (kept_same h y y' data data' U A F F' N N' mg mg' st st' Hs Hs' L Ho Ho' Ru Sa R R' Bd) as (_ & E & _).
  destruct (run_cleaned h y data Hs Ho F N mg st R) as (_ & _ & _ & _ & _ & _ & _ & _ & Lf & Rows & _).
  destruct (run_cleaned h y' data' Hs' Ho' F' N' mg' st' R') as (_ & _ & _ & _ & _ & _ & _ & _ & Lf' & Rows' & _).
  specialize (E t c). unfold with_id in E. rewrite map_length, Lf in E. specialize (E T C Uc).
  rewrite !(map_nth0 _ _ t []) in E by lia. rewrite !(map_nth0 _ _ c 0%Z) in E by (rewrite ?Rows, ?Rows' by lia; exact C).
  unfold id_at. destruct (Z.eqb_spec (nth c (nth t F []) 0%Z) 0), (Z.eqb_spec (nth c (nth t F' []) 0%Z) 0); cbn in E; try discriminate; tauto.
Qed.
Print Assumptions C167_event_cells_of_a_region.

(** And, when in neither run two objects of a step have a common successor, they are
    divided into the same events there, none of which leaves the region. *)
Theorem C167_events_of_a_region_partial (h : mesh_setup) (y y' : mesh_tracking) (data data' : list (list bool)) (U : nat -> bool) (A : Z)
    (objs objs' F F' : list (list Z)) (N N' : Z) (mg mg' : option merges) (st st' : stats) :
  setup_ok h data -> setup_ok h data' -> length data' = length data -> set_order (y_order y) -> set_order (y_order y') -> h_rule h = ByAbsolute A ->
  0 < y_limit y -> 0 < y_limit y' -> y_thr y' = y_thr y ->
  same_around (h_nbs h) (4 * h_R h + 4 * (h_R h / 2)) U data data' ->
  fresh_mesh_run h y data = Ok (F, N, mg, st) -> fresh_mesh_run h y' data' = Ok (F', N', mg', st') ->
  (forall t c, t < length data -> on_border (h_nbs h) U c -> id_at F t c = 0%Z /\ id_at F' t c = 0%Z) ->
  object_labelling (h_nbs h) (h_mask h) (with_id F) objs -> object_labelling (h_nbs h) (h_mask h) (with_id F') objs' ->
  (forall p q c, consecutive_overlap (h_area h) (y_thr y) objs p c -> consecutive_overlap (h_area h) (y_thr y) objs q c -> p = q) ->
  (forall p q c, consecutive_overlap (h_area h) (y_thr y) objs' p c -> consecutive_overlap (h_area h) (y_thr y) objs' q c -> p = q) ->
  forall t j, t < length data -> j < length (h_nbs h) -> U j = true -> id_at F t j <> 0%Z ->
    id_at F' t j <> 0%Z /\
    forall u k, u < length data -> k < length (h_nbs h) ->
      (id_at F u k = id_at F t j -> U k = true) /\ (id_at F u k = id_at F t j <-> id_at F' u k = id_at F' t j).
Proof.
  intros Hs Hs' L Ho Ho' Ru Li Li' Th Sa R R' Bd Lab Lab' Sg Sg' t j T J Uj Nz.
  assert (Ag := kept_same h y y' data data' U A F F' N N' mg mg' st st' Hs Hs' L Ho Ho' Ru Sa R R' Bd).
  assert (Nz' := proj1 (C167_event_cells_of_a_region h y y' data data' U A F F' N N' mg mg' st st' Hs Hs' L Ho Ho' Ru Sa R R' Bd t j T J Uj) Nz).
  split; [exact Nz'|].
  destruct (run_cleaned h y data Hs Ho F N mg st R) as (s & f & Es & Ef & St & _ & _ & W & Lf & Rows & Ex).
  destruct (run_cleaned h y' data' Hs' Ho' F' N' mg' st' R') as (s' & f' & Es' & Ef' & St' & _ & _ & W' & Lf' & Rows' & Ex').
  assert (Lab1 := Lab). assert (Lab1' := Lab'). rewrite W in Lab1. rewrite W' in Lab1'.
  destruct (cleaned_runs h y data Hs Ho s f st objs Es Ef St Ex Lab1 Sg Li) as (F1 & N1 & ms1 & R1 & _ & _ & Ev & _). rewrite R1 in R. injection R as <- <- <-.
  assert (Sg2 : one_parent (h_area h) (y_thr y') objs') by (rewrite Th; exact Sg').
  destruct (cleaned_runs h y' data' Hs' Ho' s' f' st' objs' Es' Ef' St' Ex' Lab1' Sg2 Li') as (F2 & N2 & ms2 & R2 & _ & _ & Ev' & _). rewrite R2 in R'. injection R' as <- <- <-.
  rewrite Th in Ev'.
  assert (LW : forall G, length (with_id G) = length G) by (intro; apply map_length).
  assert (Pos : forall G ob u k, object_labelling (h_nbs h) (h_mask h) (with_id G) ob -> (forall t, t < length data -> length (nth t G []) = length (h_nbs h)) -> length G = length data ->
     u < length data -> k < length (h_nbs h) -> (forall u k, u < length data -> k < length (h_nbs h) -> nth k (nth u (with_id G) []) false = true -> nth k (h_mask h) false = true) -> id_at G u k <> 0%Z -> (0 < id_at ob u k)%Z).
  { intros G ob u k (_ & _ & O & _) RG LG V K Mk Ne. apply O; [rewrite LW; lia|exact K|].
    assert (X : nth k (nth u (with_id G) []) false = true) by (unfold with_id; rewrite (map_nth0 _ _ u []) by lia; rewrite (map_nth0 _ _ k 0%Z) by (rewrite (RG u V); exact K); apply negb_true_iff, Z.eqb_neq; exact Ne).
    split; [exact K|]. split; [exact (Mk u k V K X)|exact X]. }
  assert (Mk : forall f s d, setup_ok h d -> length d = length data -> filter_small_mesh (h_rule h) (h_nbs h) (h_mask h) s = Ok f -> fill_time_gaps_mesh h (map (fill_holes_mesh (h_nbs h) (h_R h) (h_mask h)) d) = Some s ->
     forall u k, u < length data -> k < length (h_nbs h) -> nth k (nth u (f_keep f) []) false = true -> nth k (h_mask h) false = true).
  { clear - Hs. intros f s d Sd Ld Ef Es u k V K X. destruct (filled_length h d s Sd Es) as [Ls Rs].
    assert (Hi : mesh_inputs_ok (h_nbs h) (h_mask h) s) by (destruct Sd as (B1 & B2 & _); split; [exact B1|split; [exact B2|exact Rs]]).
    destruct (FilterProps.C18_mesh_keeps_objects_above_threshold _ _ _ _ _ Hi Ef) as [_ Kp]. apply (Kp u k ltac:(lia)) in X. apply X. }
  assert (P1 : forall u k, u < length data -> k < length (h_nbs h) -> id_at F1 u k <> 0%Z -> (0 < id_at objs u k)%Z).
  { intros u k V K. apply Pos; [exact Lab|exact Rows|exact Lf|exact V|exact K|]. rewrite W. exact (Mk f s data Hs eq_refl Ef Es). }
  assert (P2 : forall u k, u < length data -> k < length (h_nbs h) -> id_at F2 u k <> 0%Z -> (0 < id_at objs' u k)%Z).
  { intros u k V K. apply Pos; [exact Lab'|intros; apply Rows'; lia|lia|exact V|exact K|]. rewrite W'. exact (Mk f' s' data' Hs' L Ef' Es'). }
  assert (Go : forall u k, u < length data -> k < length (h_nbs h) -> id_at F1 u k = id_at F1 t j -> U k = true /\ id_at F2 u k = id_at F2 t j).
  { intros u k V K E. assert (Nk : id_at F1 u k <> 0%Z) by congruence. assert (C := proj1 (Ev t j u k T V J K Nz Nk) (eq_sym E)).
    destruct (chain_transfer (h_nbs h) (h_mask h) (h_area h) (y_thr y) U (with_id F1) (with_id F2) objs objs' Lab Lab' Ag _ _ C t j u k ltac:(rewrite LW; lia) ltac:(rewrite LW; lia) J K Uj eq_refl eq_refl (P1 t j T J Nz) (P1 u k V K Nk)) as [Uk C'].
    split; [exact Uk|]. symmetry. apply Ev'; try lia; try assumption.
    apply (C167_event_cells_of_a_region h y y' data data' U A F1 F2 N1 N2 _ _ st st' Hs Hs' L Ho Ho' Ru Sa R1 R2 Bd u k V K Uk). exact Nk. }
  intros u k V K. split; [intro E; apply (Go u k V K E)|]. split; [intro E; apply (Go u k V K E)|]. intro E.
  assert (Nk : id_at F2 u k <> 0%Z) by congruence. assert (C := proj1 (Ev' t j u k ltac:(lia) ltac:(lia) J K Nz' Nk) (eq_sym E)).
  destruct (chain_transfer (h_nbs h) (h_mask h) (h_area h) (y_thr y) U (with_id F2) (with_id F1) objs' objs Lab' Lab (agree_sym _ _ _ _ Ag) _ _ C t j u k ltac:(rewrite LW; lia) ltac:(rewrite LW; lia) J K Uj eq_refl eq_refl (P2 t j T J Nz') (P2 u k V K Nk)) as [Uk C'].
  symmetry. apply Ev; try lia; try assumption.
  apply (C167_event_cells_of_a_region h y y' data data' U A F1 F2 N1 N2 _ _ st st' Hs Hs' L Ho Ho' Ru Sa R1 R2 Bd u k V K Uk). exact Nk.
Qed.
Print Assumptions C167_events_of_a_region_partial.

(** A row of 16 cells, filling radius 1.  The first four cells are the region; the two
    series agree on its event and differ in when and where an event occurs at the far end. *)
Definition row16 : mesh_setup := mkMesh (row_mesh 16) (repeat true 16) 1 0%Z (ByAbsolute 0) (repeat 1%Q 16).
Definition tables16 : mesh_tracking := mkMeshTracking no_centroid (1#2) (line_nbs 16) (fun _ _ => 1%Q) (fun _ => 40) as_given 3 10.
Definition far_first := row_days [[1;0;1;0;0;0;0;0;0;0;1;1;1;1;1;1]; [1;1;1;0;0;0;0;0;0;0;0;0;0;0;0;0]; [0;0;0;0;0;0;0;0;0;0;0;0;0;0;0;0]; [1;1;0;0;0;0;0;0;0;0;0;0;0;0;0;0]].
Definition far_last := row_days [[1;0;1;0;0;0;0;0;0;0;0;0;0;0;0;0]; [1;1;1;0;0;0;0;0;0;0;0;0;0;0;0;0]; [0;0;0;0;0;0;0;0;0;1;1;1;1;1;1;1]; [1;1;0;0;0;0;0;0;0;0;1;1;1;1;1;1]].
Definition first_four (c : nat) : bool := Nat.ltb c 4.
Lemma row_next n i j : adj (row_mesh n) i j -> j <= S i /\ i <= S j.
Proof.
  unfold adj, Morph.row. intro I. destruct (Nat.lt_ge_cases i n) as [L|L].
  - unfold row_mesh in I. rewrite (map_nth0 _ _ i 0) in I by (rewrite seq_length; exact L). rewrite seq_nth in I by exact L. cbn [Nat.add] in I.
    destruct I as [E|[E|[E|[]]]]; [lia| |lia]. destruct (Nat.eqb (S i) n); lia.
  - rewrite nth_overflow in I by (unfold row_mesh; rewrite map_length, seq_length; exact L). destruct I.
Qed.
Lemma row_within n k i j : within (row_mesh n) k i j -> j <= i + k.
Proof. intro W. induction W as [k i|k i j l A W IH]; [lia|]. apply row_next in A. lia. Qed.
Lemma row_series data : forallb (fun d => Nat.eqb (length d) 16) data = true -> (exists t k, t < length data /\ extreme_ocean (row_mesh 16) (repeat true 16) data t k) ->
  labelled_series (length (repeat 1%Q 16)) (mesh_objects (row_mesh 16) (repeat true 16) data).
Proof. intros D E. destruct (row_input 16 data) as (H1 & H2 & _ & _ & H3); [reflexivity|exact D|]. exact (lab_series _ _ _ H1 H2 H3 E). Qed.
Example C167_case : exists F N mg st F' N' mg' st',
  setup_ok row16 far_first /\ setup_ok row16 far_last /\ same_around (row_mesh 16) (4 * 1 + 4 * (1 / 2)) first_four far_first far_last /\
  fresh_mesh_run row16 tables16 far_first = Ok (F, N, mg, st) /\ fresh_mesh_run row16 tables16 far_last = Ok (F', N', mg', st') /\
  (forall t c, t < 4 -> on_border (row_mesh 16) first_four c -> id_at F t c = 0%Z /\ id_at F' t c = 0%Z) /\
  (exists objs, object_labelling (row_mesh 16) (repeat true 16) (with_id F) objs /\
     forall p q c, consecutive_overlap (repeat 1%Q 16) (1#2) objs p c -> consecutive_overlap (repeat 1%Q 16) (1#2) objs q c -> p = q) /\
  (exists objs, object_labelling (row_mesh 16) (repeat true 16) (with_id F') objs /\
     forall p q c, consecutive_overlap (repeat 1%Q 16) (1#2) objs p c -> consecutive_overlap (repeat 1%Q 16) (1#2) objs q c -> p = q) /\
  id_at F 0 0 = id_at F 1 2 /\ id_at F 0 1 <> 0%Z /\ F <> F'.
Proof.
  do 8 eexists. split; [apply (row_input 16 far_first); reflexivity|]. split; [apply (row_input 16 far_last); reflexivity|]. split; [|split; [vm_compute; reflexivity|split; [vm_compute; reflexivity|split; [|split; [|split]]]]].
  - intros t c l T C U W. assert (Cb : c <= 4).
    { unfold first_four in U. destruct U as [U|(_ & _ & u & _ & U & [A|A])]; apply Nat.ltb_lt in U; [lia| |]; apply row_next in A; lia. }
    apply row_within in W. change (4 * 1 + 4 * (1 / 2)) with 4 in W. assert (Lb : l <= 8) by lia. clear - T Lb. cbn in T.
    do 4 (destruct t as [|t]; [do 9 (destruct l as [|l]; [reflexivity|]); lia|]). lia.
  - intros t c T (_ & U & u & _ & V & A). unfold first_four in U, V. apply Nat.ltb_lt in V. apply Nat.ltb_ge in U. assert (c = 4) by (destruct A as [A|A]; apply row_next in A; lia). subst c.
    do 4 (destruct t as [|t]; [split; reflexivity|]). lia.
  - match goal with |- context [with_id ?F] => set (d := with_id F) end. vm_compute in d. exists (mesh_objects (row_mesh 16) (repeat true 16) d). split; [apply row_objects; reflexivity|].
    intros p q c P Q0. destruct (Z.eq_dec p q) as [H|H]; [exact H|exfalso].
    assert (X := merging_some _ _ no_centroid _ _ _ _ (row_series d eq_refl ltac:(exists 0, 0; vm_compute; auto 20 with arith)) ltac:(intros x I; apply repeat_spec in I; subst; reflexivity) H P Q0). vm_compute in X. exact X.
  - match goal with |- context [with_id ?F] => set (d := with_id F) end. vm_compute in d. exists (mesh_objects (row_mesh 16) (repeat true 16) d). split; [apply row_objects; reflexivity|].
    intros p q c P Q0. destruct (Z.eq_dec p q) as [H|H]; [exact H|exfalso].
    assert (X := merging_some _ _ no_centroid _ _ _ _ (row_series d eq_refl ltac:(exists 0, 0; vm_compute; auto 20 with arith)) ltac:(intros x I; apply repeat_spec in I; subst; reflexivity) H P Q0). vm_compute in X. exact X.
  - split; [reflexivity|]. split; [cbn; discriminate|]. intro E. discriminate E.
Qed.
