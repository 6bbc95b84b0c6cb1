(** Theorem C168: records on a mesh that begin alike. *)
From Verif Require Import Base Graph Morph MorphSpec Label LabelSpec LabelProofs Filter FilterSpec FilterProps Overlap OverlapSpec Merge MergeSpec MergeWitness Partition Cluster ClusterSpec ClusterProofs MeshPart Parallel ParallelProps
  Run RunSpec RunProps PipelineProps RelateSpec RelateProofs RelateProps RefineProps MeshRun MeshRunProofs MeshRunLimits MeshRunProps StatsRunProps MeshMoveSpec MeshMoveProofs MeshMoveProps UnmergedProofs LocalSpec LocalProofs PrefixProofs.
Open Scope nat_scope.

(** As claimed, two records that agree in their first [e] steps have the same events there.
    Wrong with T_fill > 0 in the last T_fill of these steps: the gap is closed once its end is known. *)
Definition row8_gaps : mesh_setup := mkMesh (row_mesh 8) (repeat true 8) 0 2%Z (ByAbsolute 0) (repeat 1%Q 8).
Theorem C168_end_of_record_refuted : exists (h : mesh_setup) (y : mesh_tracking) (data more : list (list bool)) F N mg st F' N' mg' st' t k,
  setup_ok h data /\ setup_ok h (data ++ more) /\ set_order (y_order y) /\ h_rule h = ByAbsolute 0 /\ t < length data /\ k < length (h_nbs h) /\
  fresh_mesh_run h y data = Ok (F, N, mg, st) /\ fresh_mesh_run h y (data ++ more) = Ok (F', N', mg', st') /\ id_at F t k = 0%Z /\ id_at F' t k <> 0%Z.
Proof.
  exists row8_gaps, tables8, (row_days [[1;1;1;1;1;1;0;0]; [0;0;0;0;0;0;0;0]]), (row_days [[1;1;1;1;1;1;0;0]]). do 8 eexists. exists 1, 0.
  split; [apply (row_input 8); reflexivity|]. split; [apply (row_input 8); reflexivity|]. split; [exact as_given_order|]. split; [reflexivity|]. split; [cbn; lia|]. split; [cbn; lia|].
  split; [vm_compute; reflexivity|]. split; [vm_compute; reflexivity|]. split; [reflexivity|cbn; discriminate].
Qed.
Print Assumptions C168_end_of_record_refuted.

(** Wrong with merges even without filling: an object that meets both parts of a divided
    object is not divided itself, and so makes one event of two events of the past. *)
Theorem C168_merges_refuted : exists (h : mesh_setup) (y : mesh_tracking) (data more : list (list bool)) F N mg st F' N' mg' st' j k,
  setup_ok h data /\ setup_ok h (data ++ more) /\ set_order (y_order y) /\ h_rule h = ByAbsolute 0 /\ h_R h = 0 /\ h_T h = 0%Z /\ 0 < length data /\ j < length (h_nbs h) /\ k < length (h_nbs h) /\
  fresh_mesh_run h y data = Ok (F, N, mg, st) /\ fresh_mesh_run h y (data ++ more) = Ok (F', N', mg', st') /\
  id_at F 0 j <> 0%Z /\ id_at F 0 k <> 0%Z /\ id_at F 0 j <> id_at F 0 k /\ id_at F' 0 j = id_at F' 0 k.
Proof.
  exists row8, tables8, (row_days [[0;1;0;1;1;1;1;0]; [1;1;1;1;1;1;1;1]]), (row_days [[0;0;1;1;0;0;0;0]]). do 8 eexists. exists 1, 3.
  split; [apply (row_input 8); reflexivity|]. split; [apply (row_input 8); reflexivity|]. split; [exact as_given_order|]. split; [reflexivity|]. split; [reflexivity|]. split; [reflexivity|].
  split; [cbn; lia|]. split; [cbn; lia|]. split; [cbn; lia|].
  split; [vm_compute; reflexivity|]. split; [vm_compute; reflexivity|]. split; [cbn; discriminate|]. split; [cbn; discriminate|]. split; [cbn; discriminate|reflexivity].
Qed.
Print Assumptions C168_merges_refuted.

(** The kept cells of the two runs, T_fill before the records part. *)
Lemma kept_early h y y' data data' A e F F' N N' mg mg' st st' :
  setup_ok h data -> setup_ok h data' -> set_order (y_order y) -> set_order (y_order y') -> h_rule h = ByAbsolute A -> Z.even (h_T h) = true ->
  e <= length data -> e <= length data' -> (forall t, t < e -> nth t data [] = nth t data' []) ->
  fresh_mesh_run h y data = Ok (F, N, mg, st) -> fresh_mesh_run h y' data' = Ok (F', N', mg', st') ->
  forall t, (Z.of_nat t + h_T h < Z.of_nat e)%Z -> (0 <= h_T h)%Z /\ nth t (with_id F) [] = nth t (with_id F') [].
Proof.
  intros Hs Hs' Ho Ho' Ru Ev L L' Ag R R' t Te.
  destruct (run_cleaned h y data Hs Ho F N mg st R) as (s & f & Es & Ef & _ & Lk & _ & W & _).
  destruct (run_cleaned h y' data' Hs' Ho' F' N' mg' st' R') as (s' & f' & Es' & Ef' & _ & Lk' & _ & W' & _).
  destruct (filled_length h data s Hs Es) as [Ls Rs]. destruct (filled_length h data' s' Hs' Es') as [Ls' Rs'].
  assert (Hi : mesh_inputs_ok (h_nbs h) (h_mask h) s) by (destruct Hs as (B1 & B2 & _); split; [exact B1|split; [exact B2|exact Rs]]).
  assert (Hi' : mesh_inputs_ok (h_nbs h) (h_mask h) s') by (destruct Hs' as (B1 & B2 & _); split; [exact B1|split; [exact B2|exact Rs']]).
  destruct (filled_prefix h data data' s s' e Hs Hs' Ev L L' Ag Es Es' t Te) as [T0 E]. split; [exact T0|]. rewrite Ru in Ef, Ef'. rewrite W, W'.
  apply (kept_step (h_nbs h) (h_mask h) s s' A f f' t Hi Hi' Ef Ef'); [lia|lia|exact E].
Qed.

(** With an absolute area threshold and even T_fill, records that agree in their first
    [e] steps have the same event cells in these steps but the last T_fill, merges or not. *)
Theorem C168_same_early_cells (h : mesh_setup) (y y' : mesh_tracking) (data data' : list (list bool)) (A : Z) (e : nat)
    (F F' : list (list Z)) (N N' : Z) (mg mg' : option merges) (st st' : stats) :
  setup_ok h data -> setup_ok h data' -> set_order (y_order y) -> set_order (y_order y') -> h_rule h = ByAbsolute A -> Z.even (h_T h) = true ->
  e <= length data -> e <= length data' -> (forall t, t < e -> nth t data [] = nth t data' []) ->
  fresh_mesh_run h y data = Ok (F, N, mg, st) -> fresh_mesh_run h y' data' = Ok (F', N', mg', st') ->
  forall t k, (Z.of_nat t + h_T h < Z.of_nat e)%Z -> k < length (h_nbs h) -> (id_at F t k <> 0%Z <-> id_at F' t k <> 0%Z).
Proof.
  intros Hs Hs' Ho Ho' Ru Ev L L' Ag R R' t k Te K.
  destruct (kept_early h y y' data data' A e F F' N N' mg mg' st st' Hs Hs' Ho Ho' Ru Ev L L' Ag R R' t Te) as [T0 E].
  destruct (run_cleaned h y data Hs Ho F N mg st R) as (_ & _ & _ & _ & _ & _ & _ & _ & Lf & Rows & _).
  destruct (run_cleaned h y' data' Hs' Ho' F' N' mg' st' R') as (_ & _ & _ & _ & _ & _ & _ & _ & Lf' & Rows' & _).
  assert (E1 := f_equal (fun x => nth k x false) E). cbv beta in E1. unfold with_id in E1. rewrite !(map_nth0 _ _ t []) in E1 by lia.
  rewrite !(map_nth0 _ _ k 0%Z) in E1 by (rewrite ?Rows, ?Rows' by lia; exact K).
  unfold id_at. destruct (Z.eqb_spec (nth k (nth t F []) 0%Z) 0), (Z.eqb_spec (nth k (nth t F' []) 0%Z) 0); cbn in E1; try discriminate; tauto.
Qed.
Print Assumptions C168_same_early_cells.

(** And, when in neither run two objects of a step have a common successor, these cells
    are divided into the same events. *)
Theorem C168_same_early_events_partial (h : mesh_setup) (y y' : mesh_tracking) (data data' : list (list bool)) (A : Z) (e : nat)
    (objs objs' F F' : list (list Z)) (N N' : Z) (mg mg' : option merges) (st st' : stats) :
  setup_ok h data -> setup_ok h data' -> set_order (y_order y) -> set_order (y_order y') -> h_rule h = ByAbsolute A -> Z.even (h_T h) = true ->
  0 < y_limit y -> 0 < y_limit y' -> y_thr y' = y_thr y ->
  e <= length data -> e <= length data' -> (forall t, t < e -> nth t data [] = nth t data' []) ->
  fresh_mesh_run h y data = Ok (F, N, mg, st) -> fresh_mesh_run h y' data' = Ok (F', N', mg', st') ->
  object_labelling (h_nbs h) (h_mask h) (with_id F) objs -> object_labelling (h_nbs h) (h_mask h) (with_id F') objs' ->
  (forall p q c, consecutive_overlap (h_area h) (y_thr y) objs p c -> consecutive_overlap (h_area h) (y_thr y) objs q c -> p = q) ->
  (forall p q c, consecutive_overlap (h_area h) (y_thr y) objs' p c -> consecutive_overlap (h_area h) (y_thr y) objs' q c -> p = q) ->
  forall t j u k, (Z.of_nat t + h_T h < Z.of_nat e)%Z -> (Z.of_nat u + h_T h < Z.of_nat e)%Z -> j < length (h_nbs h) -> k < length (h_nbs h) ->
    id_at F t j <> 0%Z -> id_at F u k <> 0%Z -> (id_at F t j = id_at F u k <-> id_at F' t j = id_at F' u k).
Proof.
  intros Hs Hs' Ho Ho' Ru Evn Li Li' Th L L' Ag R R' Lab Lab' Sg Sg' t j u k Te Ue J K Nj Nk.
  assert (KE := kept_early h y y' data data' A e F F' N N' mg mg' st st' Hs Hs' Ho Ho' Ru Evn L L' Ag R R').
  assert (CE := C168_same_early_cells h y y' data data' A e F F' N N' mg mg' st st' Hs Hs' Ho Ho' Ru Evn L L' Ag R R').
  assert (T0 := proj1 (KE t Te)). set (e1 := Z.to_nat (Z.of_nat e - h_T h)).
  assert (Te1 : t < e1) by (unfold e1; lia). assert (Ue1 : u < e1) by (unfold e1; lia). assert (Ee : e1 <= e) by (unfold e1; lia).
  assert (Early : forall v, v < e1 -> (Z.of_nat v + h_T h < Z.of_nat e)%Z) by (unfold e1; lia).
  destruct (run_cleaned h y data Hs Ho F N mg st R) as (s & f & Es & Ef & St & Lk & _ & W & Lf & Rows & Ex).
  destruct (run_cleaned h y' data' Hs' Ho' F' N' mg' st' R') as (s' & f' & Es' & Ef' & St' & Lk' & _ & W' & Lf' & Rows' & Ex').
  assert (Lab1 := Lab). assert (Lab1' := Lab'). rewrite W in Lab1. rewrite W' in Lab1'.
  destruct (cleaned_runs h y data Hs Ho s f st objs Es Ef St Ex Lab1 Sg Li) as (F1 & N1 & ms1 & R1 & _ & _ & Ev & _). rewrite R1 in R. injection R as <- <- <-.
  assert (Sg2 : one_parent (h_area h) (y_thr y') objs') by (rewrite Th; exact Sg').
  destruct (cleaned_runs h y' data' Hs' Ho' s' f' st' objs' Es' Ef' St' Ex' Lab1' Sg2 Li') as (F2 & N2 & ms2 & R2 & _ & _ & Ev' & _). rewrite R2 in R'. injection R' as <- <- <-.
  rewrite Th in Ev'. rewrite (Ev t j u k ltac:(lia) ltac:(lia) J K Nj Nk). rewrite (Ev' t j u k ltac:(lia) ltac:(lia) J K (proj1 (CE t j Te J) Nj) (proj1 (CE u k Ue K) Nk)).
  assert (Ep : firstn e1 (f_keep f) = firstn e1 (f_keep f')).
  { apply (nth_ext _ _ [] []); [rewrite !firstn_length; lia|]. intros v V. rewrite firstn_length in V. rewrite !nth_first by lia. rewrite <- W, <- W'. apply KE, Early. lia. }
  assert (LabE := labelling_first _ _ _ objs e1 Lab1 ltac:(lia)). assert (LabE' := labelling_first _ _ _ objs' e1 Lab1' ltac:(lia)). rewrite <- Ep in LabE'.
  assert (AgE : agree_inside (h_nbs h) (fun _ => true) (firstn e1 (f_keep f)) (firstn e1 (f_keep f))).
  { split; [reflexivity|]. split; [intros; reflexivity|]. split; intros v c _ (_ & X & _); discriminate X. }
  assert (Lke : length (firstn e1 (f_keep f)) = e1) by (rewrite firstn_length; lia).
  assert (Mk : forall v i, v < length data -> i < length (h_nbs h) -> nth i (nth v (f_keep f) []) false = true -> nth i (h_mask h) false = true).
  { intros v i V I X. destruct (filled_length h data s Hs Es) as [Ls Rs].
    assert (Hi : mesh_inputs_ok (h_nbs h) (h_mask h) s) by (destruct Hs as (B1 & B2 & _); split; [exact B1|split; [exact B2|exact Rs]]).
    destruct (C18_mesh_keeps_objects_above_threshold _ _ _ _ _ Hi Ef) as [_ Kp]. apply (Kp v i ltac:(lia)) in X. apply X. }
  assert (On : forall v i, v < e1 -> i < length (h_nbs h) -> id_at F1 v i <> 0%Z -> extreme_ocean (h_nbs h) (h_mask h) (f_keep f) v i).
  { intros v i V I Ne. assert (X : nth i (nth v (f_keep f) []) false = true).
    { rewrite <- W. unfold with_id. rewrite (map_nth0 _ _ v []) by lia. rewrite (map_nth0 _ _ i 0%Z) by (rewrite Rows by lia; exact I). apply negb_true_iff, Z.eqb_neq. exact Ne. }
    split; [exact I|]. split; [apply (Mk v i ltac:(lia) I X)|exact X]. }
  assert (P1 : forall v i, v < e1 -> i < length (h_nbs h) -> id_at F1 v i <> 0%Z -> (0 < id_at objs v i)%Z).
  { intros v i V I Ne. destruct Lab1 as (_ & _ & O & _). apply O; [lia|exact I|]. apply On; assumption. }
  assert (P2 : forall v i, v < e1 -> i < length (h_nbs h) -> id_at F1 v i <> 0%Z -> (0 < id_at objs' v i)%Z).
  { intros v i V I Ne. destruct Lab1' as (_ & _ & O & _). apply O; [lia|exact I|]. destruct (On v i V I Ne) as (A1 & A2 & A3). split; [exact A1|]. split; [exact A2|].
    rewrite <- W'. destruct (KE v (Early v V)) as [_ Q]. rewrite <- Q, W. exact A3. }
  rewrite (chained_first (h_nbs h) (h_mask h) (h_area h) (y_thr y) (f_keep f) objs e1 Lab1 ltac:(lia) t j u k Sg Te1 Ue1 J K (P1 t j Te1 J Nj) (P1 u k Ue1 K Nk)).
  rewrite (chained_first (h_nbs h) (h_mask h) (h_area h) (y_thr y) (f_keep f') objs' e1 Lab1' ltac:(lia) t j u k Sg' Te1 Ue1 J K (P2 t j Te1 J Nj) (P2 u k Ue1 K Nk)).
  assert (IdE : forall (o : list (list Z)) v i, v < e1 -> id_at (firstn e1 o) v i = id_at o v i) by (intros; unfold id_at; rewrite nth_first by assumption; reflexivity).
  split; intro C.
  - destruct (chain_transfer (h_nbs h) (h_mask h) (h_area h) (y_thr y) (fun _ => true) _ _ _ _ LabE LabE' AgE _ _ C t j u k ltac:(lia) ltac:(lia) J K eq_refl (IdE objs t j Te1) (IdE objs u k Ue1) (P1 t j Te1 J Nj) (P1 u k Ue1 K Nk)) as [_ X].
    rewrite !IdE in X by assumption. exact X.
  - destruct (chain_transfer (h_nbs h) (h_mask h) (h_area h) (y_thr y) (fun _ => true) _ _ _ _ LabE' LabE AgE _ _ C t j u k ltac:(lia) ltac:(lia) J K eq_refl (IdE objs' t j Te1) (IdE objs' u k Ue1) (P2 t j Te1 J Nj) (P2 u k Ue1 K Nk)) as [_ X].
    rewrite !IdE in X by assumption. exact X.
Qed.
Print Assumptions C168_same_early_events_partial.

(** Two records of four and five steps on a row of eight cells, alike in the first four,
    T_fill = 2: the events agree in the first two steps, with the gap in the second closed. *)
Definition until_four := row_days [[1;1;1;1;1;1;0;1]; [0;0;0;0;0;0;0;1]; [1;1;1;1;1;1;0;0]; [0;0;0;0;0;0;0;0]].
Definition one_more := row_days [[1;1;1;1;1;1;0;1]; [0;0;0;0;0;0;0;1]; [1;1;1;1;1;1;0;0]; [0;0;0;0;0;0;0;0]; [1;1;1;0;0;0;0;0]].
Lemma single_row8 data : forallb (fun d => Nat.eqb (length d) 8) data = true -> (exists t k, t < length data /\ extreme_ocean (row_mesh 8) (repeat true 8) data t k) ->
  labelled_series (length (repeat 1%Q 8)) (mesh_objects (row_mesh 8) (repeat true 8) data).
Proof. intros D E. destruct (row_input 8 data) as (H1 & H2 & _ & _ & H3); [reflexivity|exact D|]. exact (lab_series _ _ _ H1 H2 H3 E). Qed.
Example C168_case : exists F N mg st F' N' mg' st',
  setup_ok row8_gaps until_four /\ setup_ok row8_gaps one_more /\ (forall t, t < 4 -> nth t until_four [] = nth t one_more []) /\
  fresh_mesh_run row8_gaps tables8 until_four = Ok (F, N, mg, st) /\ fresh_mesh_run row8_gaps tables8 one_more = Ok (F', N', mg', st') /\
  (exists objs, object_labelling (row_mesh 8) (repeat true 8) (with_id F) objs /\
     forall p q c, consecutive_overlap (repeat 1%Q 8) (1#2) objs p c -> consecutive_overlap (repeat 1%Q 8) (1#2) objs q c -> p = q) /\
  (exists objs, object_labelling (row_mesh 8) (repeat true 8) (with_id F') objs /\
     forall p q c, consecutive_overlap (repeat 1%Q 8) (1#2) objs p c -> consecutive_overlap (repeat 1%Q 8) (1#2) objs q c -> p = q) /\
  id_at F 0 0 = id_at F 1 5 /\ id_at F 1 5 <> 0%Z /\ id_at F 0 7 = id_at F 1 7 /\ id_at F 0 7 <> id_at F 0 0 /\ id_at F 3 0 = 0%Z /\ id_at F' 3 0 <> 0%Z.
Proof.
  do 8 eexists. split; [apply (row_input 8 until_four); reflexivity|]. split; [apply (row_input 8 one_more); reflexivity|]. split; [|split; [vm_compute; reflexivity|split; [vm_compute; reflexivity|split; [|split]]]].
  - intros t T. do 4 (destruct t as [|t]; [reflexivity|]). lia.
  - match goal with |- context [with_id ?F] => set (d := with_id F) end. vm_compute in d. exists (mesh_objects (row_mesh 8) (repeat true 8) d). split; [apply row_objects; reflexivity|].
    intros p q c P Q0. destruct (Z.eq_dec p q) as [H|H]; [exact H|exfalso].
    assert (X := merging_some _ _ no_centroid _ _ _ _ (single_row8 d eq_refl ltac:(exists 0, 0; vm_compute; auto 20 with arith)) ltac:(intros x I; apply repeat_spec in I; subst; reflexivity) H P Q0). vm_compute in X. exact X.
  - match goal with |- context [with_id ?F] => set (d := with_id F) end. vm_compute in d. exists (mesh_objects (row_mesh 8) (repeat true 8) d). split; [apply row_objects; reflexivity|].
    intros p q c P Q0. destruct (Z.eq_dec p q) as [H|H]; [exact H|exfalso].
    assert (X := merging_some _ _ no_centroid _ _ _ _ (single_row8 d eq_refl ltac:(exists 0, 0; vm_compute; auto 20 with arith)) ltac:(intros x I; apply repeat_spec in I; subst; reflexivity) H P Q0). vm_compute in X. exact X.
  - split; [reflexivity|]. split; [cbn; discriminate|]. split; [reflexivity|]. split; [cbn; discriminate|]. split; [reflexivity|cbn; discriminate].
Qed.
