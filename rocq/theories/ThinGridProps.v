(** Theorem C155 on grids with merging: where nothing merges or splits, a stricter area filter only divides events. *)
From Verif Require Import Base Morph Label LabelSpec LabelProofs LabelProps Filter FilterSpec FilterProofs FilterGridProofs FilterAreaProofs FilterMoreProofs FilterWitness FilterProps
  Overlap OverlapSpec Merge MergeSpec MergeProofs MergeLoop MergeWitness Partition PartitionProofs PartitionMore Cluster ClusterSpec ClusterProofs ClusterFinal ClusterPipe ClusterProps
  Run RunSpec RunProofs RunProps GridRunProps RelateSpec RelateProofs RefineProps UnmergedProofs SteadyProofs SteadyProps.
Open Scope nat_scope.

Lemma sum_same f g n : (forall i, i < n -> f i = g i) -> totalQ f n = totalQ g n.
Proof. induction n as [|n IH]; intro H; [reflexivity|]. cbn [totalQ]. rewrite IH by (intros; apply H; lia). rewrite H by lia. reflexivity. Qed.
(** Taking whole objects away adds no overlaps. *)
Lemma thin_overlap w thr nt cells objs objs' p c : length objs = nt -> length objs' = nt ->
  (forall t, t < nt -> length (nth t objs []) = cells) -> (forall t, t < nt -> length (nth t objs' []) = cells) ->
  (forall t i, t < nt -> i < cells -> id_at objs' t i = id_at objs t i \/ id_at objs' t i = 0%Z) ->
  (forall t i j, t < nt -> i < cells -> j < cells -> (0 < id_at objs' t j)%Z -> id_at objs t i = id_at objs t j -> id_at objs' t i = id_at objs t i) ->
  consecutive_overlap w thr objs' p c -> consecutive_overlap w thr objs p c.
Proof.
  intros L L' W W' At Same (t & T & Pp & Pc & (q & Q0 & E1 & E2) & O). rewrite L' in T. rewrite (W' t ltac:(lia)) in Q0. change (id_at objs' t q = p) in E1. change (id_at objs' (S t) q = c) in E2.
  assert (K : forall u x, u < nt -> (0 < x)%Z -> id_at objs' u q = x -> forall i, i < cells -> Z.eqb (nth i (nth u objs' []) 0%Z) x = Z.eqb (nth i (nth u objs []) 0%Z) x).
  { intros u x U X E i I. apply eq_true_iff_eq. rewrite !Z.eqb_eq. change (id_at objs' u i = x <-> id_at objs u i = x).
    assert (Ex : id_at objs u q = x) by (destruct (At u q U Q0); lia). split; intro H.
    - destruct (At u i U I); lia.
    - rewrite (Same u i q U I Q0); [exact H|lia|congruence]. }
  assert (A1 := K t p ltac:(lia) Pp E1). assert (A2 := K (S t) c T Pc E2).
  assert (B1 : object_area w (nth t objs' []) p = object_area w (nth t objs []) p).
  { unfold object_area. rewrite (W' t ltac:(lia)), (W t ltac:(lia)). apply sum_same. intros i I. rewrite (A1 i I). reflexivity. }
  assert (B2 : object_area w (nth (S t) objs' []) c = object_area w (nth (S t) objs []) c).
  { unfold object_area. rewrite (W' (S t) T), (W (S t) T). apply sum_same. intros i I. rewrite (A2 i I). reflexivity. }
  assert (B3 : OverlapSpec.shared_area w (nth t objs' []) (nth (S t) objs' []) p c = OverlapSpec.shared_area w (nth t objs []) (nth (S t) objs []) p c).
  { unfold OverlapSpec.shared_area. rewrite (W' t ltac:(lia)), (W t ltac:(lia)). apply sum_same. intros i I. rewrite (A1 i I), (A2 i I). reflexivity. }
  rewrite B1, B2, B3 in O. exists t. split; [lia|]. split; [exact Pp|]. split; [exact Pc|]. split; [|exact O].
  exists q. split; [rewrite (W t ltac:(lia)); exact Q0|]. split; [|].
  - apply Z.eqb_eq. rewrite <- (A1 q Q0). apply Z.eqb_eq. exact E1.
  - apply Z.eqb_eq. rewrite <- (A2 q Q0). apply Z.eqb_eq. exact E2.
Qed.

(** The numbers of the objects that are left: those of the cells with an ID in [F]. *)
Definition left_over (F objs : list (list Z)) : list (list Z) :=
  map (fun p => map (fun q : Z * Z => if Z.eqb (fst q) 0 then 0%Z else snd q) (combine (fst p) (snd p))) (combine F objs).

Section Grid.
Variables (wrap : bool) (nt ny nx : nat) (F F' objs : list (list Z)).
Hypothesis Nx : 0 < nx.
Hypothesis Ob : object_numbers wrap nt ny nx (in_event nx F) objs.
Hypothesis LF : length F' = nt.
Hypothesis RF : forall t, t < nt -> length (nth t F' []) = ny * nx.
Hypothesis Sub : forall c, in_range nt ny nx c -> in_event nx F' c -> in_event nx F c.
Hypothesis Whole : forall c d, in_range nt ny nx c -> in_range nt ny nx d -> in_event nx F' c -> in_event nx F d ->
  chain false wrap nt ny nx (in_event nx F) c d -> in_event nx F' d.
Let objs' := left_over F' objs.

Lemma left_length : length objs' = nt.
Proof. unfold objs', left_over. rewrite map_length, combine_length. destruct Ob as (L & _). lia. Qed.
Lemma left_row t : t < nt -> length (nth t objs' []) = ny * nx.
Proof.
  intro T. destruct Ob as (L & W & _). unfold objs', left_over.
  rewrite (MeshMoveProofs.map_nth0 _ _ t ([], [])) by (rewrite combine_length; lia). rewrite combine_nth by lia. cbn [fst snd]. rewrite map_length, combine_length, (W t T), (RF t T). lia.
Qed.
Lemma left_at t i : t < nt -> i < ny * nx -> id_at objs' t i = if Z.eqb (id_at F' t i) 0 then 0%Z else id_at objs t i.
Proof.
  intros T I. destruct Ob as (L & W & _). unfold id_at, objs', left_over.
  rewrite (MeshMoveProofs.map_nth0 _ _ t ([], [])) by (rewrite combine_length; lia). rewrite combine_nth by lia. cbn [fst snd].
  rewrite (MeshMoveProofs.map_nth0 _ _ i (0%Z, 0%Z)) by (rewrite combine_length, (W t T), (RF t T); lia). rewrite combine_nth by (rewrite (W t T), (RF t T); reflexivity). reflexivity.
Qed.
Lemma left_of c : in_range nt ny nx c -> id_of nx objs' c = if Z.eqb (id_of nx F' c) 0 then 0%Z else id_of nx objs c.
Proof. destruct c as [[t y] x]. intros (T & Y & X). apply (left_at t (y * nx + x) T). nia. Qed.
Lemma left_event c : in_event nx F' c <-> id_of nx F' c <> 0%Z.
Proof. destruct c as [[t y] x]. reflexivity. Qed.
Lemma chain_stays c d : in_range nt ny nx c -> in_event nx F' c -> chain false wrap nt ny nx (in_event nx F) c d -> chain false wrap nt ny nx (in_event nx F') c d.
Proof.
  intros Rc Ec C. induction C as [c|c d e Rd Od T C IH]; [constructor|].
  assert (Ed : in_event nx F' d) by (apply (Whole c d Rc Rd Ec Od); apply (chain_step _ _ _ _ _ _ c d d); [exact Rd|exact Od|exact T|constructor]).
  apply (chain_step _ _ _ _ _ _ c d e); [exact Rd|exact Ed|exact T|]. apply IH; assumption.
Qed.
Lemma left_numbers : object_numbers wrap nt ny nx (in_event nx F') objs'.
Proof.
  assert (LO := left_of). destruct Ob as (L & W & P & E). split; [exact left_length|]. split; [exact left_row|]. split.
  - intros c Rc. rewrite (LO c Rc), left_event. destruct (P c Rc) as [P1 P2]. destruct (Z.eqb_spec (id_of nx F' c) 0) as [Z0|Z0]; split; intro H; try contradiction; try reflexivity.
    apply P1. apply Sub; [exact Rc|]. apply left_event. exact Z0.
  - intros c d Rc Rd Ec Ed. rewrite (LO c Rc), (LO d Rd). assert (Ec' := Ec). assert (Ed' := Ed). rewrite left_event in Ec', Ed'.
    apply Z.eqb_neq in Ec', Ed'. rewrite Ec', Ed', (E c d Rc Rd (Sub c Rc Ec) (Sub d Rd Ed)). split; [apply chain_stays; assumption|]. apply chain_mono. intros e Re. apply Sub. exact Re.
Qed.
Lemma left_overlap w thr p c : consecutive_overlap w thr objs' p c -> consecutive_overlap w thr objs p c.
Proof.
  assert (LA := left_at). assert (LN := left_numbers). assert (LR := left_row). assert (Ob1 := Ob). destruct Ob1 as (L & W & P & E).
  assert (Rng : forall t k, t < nt -> k < ny * nx -> in_range nt ny nx (t, k / nx, k mod nx)).
  { intros t k T K. split; [exact T|]. split; [apply Nat.div_lt_upper_bound; lia|apply Nat.mod_upper_bound; lia]. }
  assert (Back : forall G t k, id_at G t k = id_of nx G (t, k / nx, k mod nx)).
  { intros G t k. unfold id_at, id_of. f_equal. rewrite (Nat.div_mod k nx) at 1 by lia. rewrite (Nat.mul_comm nx). reflexivity. }
  apply (thin_overlap w thr nt (ny * nx)); try assumption; [exact left_length| |].
  - intros t i T I. rewrite (LA t i T I). destruct (Z.eqb (id_at F' t i) 0); [right|left]; reflexivity.
  - intros t i j T I J Pos Eq. rewrite (LA t i T I). destruct (Z.eqb_spec (id_at F' t i) 0) as [Z0|Z0]; [|reflexivity]. exfalso.
    rewrite (LA t j T J) in Pos. destruct (Z.eqb_spec (id_at F' t j) 0) as [Zj|Zj]; [lia|].
    rewrite !Back in *. assert (Ri := Rng t i T I). assert (Rj := Rng t j T J).
    revert Z0 Zj Pos Eq Ri Rj. generalize (i / nx), (i mod nx), (j / nx), (j mod nx). intros yi xi yj xj Z0 Zj Pos Eq Ri Rj.
    assert (Ej : in_event nx F' (t, yj, xj)) by (apply left_event; exact Zj).
    assert (Oi : in_event nx F (t, yi, xi)).
    { destruct (P _ Ri) as [_ P2]. destruct (Z.eq_dec (id_of nx F (t, yi, xi)) 0) as [D|D]; [|exact D].
      rewrite P2 in Eq; [lia|]. intro X. apply X. exact D. }
    assert (C : chain false wrap nt ny nx (in_event nx F) (t, yj, xj) (t, yi, xi)) by (apply E; [exact Rj|exact Ri|apply Sub; assumption|exact Oi|congruence]).
    assert (X := Whole _ _ Rj Ri Ej Oi C). apply left_event in X. contradiction.
Qed.
End Grid.

(** A run whose event cells are whole objects of a steady run: nothing merges or splits in it
    either, and its events are parts of those of the steady run. *)
Theorem C171_fewer_objects_partial (g g' : grid) (k k' : tracking) (data data' : field)
    (F F' : list (list Z)) (n n' : Z) (mg mg' : option merges) (st st' : stats) (objs : list (list Z)) :
  g_nt g' = g_nt g -> g_ny g' = g_ny g -> g_nx g' = g_nx g -> g_regional g' = g_regional g ->
  length data = g_nt g -> length data' = g_nt g -> fold_right Nat.add 0 (k_chunks k) = g_nt g -> fold_right Nat.add 0 (k_chunks k') = g_nt g ->
  k_merging k = true -> k_merging k' = true -> (k_overlap k <= k_overlap k')%Q ->
  fresh_run g k data = Ok (F, n, mg, st) -> fresh_run g' k' data' = Ok (F', n', mg', st') ->
  object_numbers (negb (g_regional g)) (g_nt g) (g_ny g) (g_nx g) (in_event (g_nx g) F) objs ->
  nothing_merges (g_ny g * g_nx g) (k_overlap k) objs -> nothing_splits (g_ny g * g_nx g) (k_overlap k) objs ->
  (forall c, in_range (g_nt g) (g_ny g) (g_nx g) c -> in_event (g_nx g) F' c -> in_event (g_nx g) F c) ->
  (forall c d, in_range (g_nt g) (g_ny g) (g_nx g) c -> in_range (g_nt g) (g_ny g) (g_nx g) d -> in_event (g_nx g) F' c -> in_event (g_nx g) F d ->
     chain false (negb (g_regional g)) (g_nt g) (g_ny g) (g_nx g) (in_event (g_nx g) F) c d -> in_event (g_nx g) F' d) ->
  mg' = Some (mkMerges [] [] [] [] [] []) /\
  forall c d, in_range (g_nt g) (g_ny g) (g_nx g) c -> in_range (g_nt g) (g_ny g) (g_nx g) d ->
    id_of (g_nx g) F' c <> 0%Z -> id_of (g_nx g) F' c = id_of (g_nx g) F' d -> id_of (g_nx g) F c = id_of (g_nx g) F d.
Proof.
  intros Gt Gy Gx Gr L L' Hs Hs' Km Km' Le R R' Ob Up Down Sub Whole.
  destruct (merging_run_parts g' k' data' F' n' mg' st' ltac:(lia) Km' R') as (f' & Sk' & Ex' & Tr' & _).
  assert (Sh : length F' = g_nt g /\ forall t, t < g_nt g -> length (nth t F' []) = g_ny g * g_nx g).
  { destruct (run_fills g' k' data' _ R') as (s' & Fs').
    destruct (C123_run_on_a_grid_partial g' (k_merging k') (k_nn k') (k_centroid k') (k_overlap k') (k_areas k') (k_chunks k') [] [] None (mkTracker (Some data') None false) (mkFiles None NoNpz) data' s' F' n' mg' st'
      eq_refl eq_refl ltac:(lia) ltac:(lia) Fs' R') as (Sh & _). rewrite Gt, Gy, Gx in Sh. exact Sh. }
  destruct Sh as (LF & RF).
  destruct (Nat.eq_dec (g_nx g) 0) as [N0|N0].
  { split; [|intros [[t y] x] d (_ & _ & X); lia].
    exfalso. destruct Ex' as (j & J). assert (Lc := shaped_concat g' _ Sk'). rewrite Gx, N0, Nat.mul_0_r in Lc. rewrite nth_overflow in J by lia. discriminate. }
  assert (Nx : 0 < g_nx g) by lia. set (objs' := left_over F' objs).
  assert (Ob' : object_numbers (negb (g_regional g)) (g_nt g) (g_ny g) (g_nx g) (in_event (g_nx g) F') objs').
  { apply (left_numbers _ _ _ _ F F' objs); assumption. }
  set (w := repeat 1%Q (g_ny g * g_nx g)). assert (Lw : length w = g_ny g * g_nx g) by apply repeat_length.
  assert (Hw : forall q, In q w -> (0 < q)%Q) by (intros q Q0; apply repeat_spec in Q0; subst; reflexivity).
  assert (Low : forall p c, consecutive_overlap w (k_overlap k') objs' p c -> consecutive_overlap w (k_overlap k) objs p c).
  { intros p c O. apply (left_overlap (negb (g_regional g)) (g_nt g) (g_ny g) (g_nx g) F F' objs Nx Ob LF RF Sub Whole).
    refine (lower_overlap w _ _ _ _ _ Hw _ Le O). destruct Ob' as (A & B & _). fold objs'. rewrite A, Lw. exact B. }
  assert (Up' : nothing_merges (g_ny g * g_nx g) (k_overlap k') objs') by (intros p q c A B; apply (Up p q c); apply Low; assumption).
  assert (Down' : nothing_splits (g_ny g * g_nx g) (k_overlap k') objs') by (intros p c d A B; apply (Down p c d); apply Low; assumption).
  destruct (C171_steady_objects_partial g k data F n mg st objs L Hs Km R Ob Up Down) as (_ & Ch).
  assert (S' := C171_steady_objects_partial g' k' data' F' n' mg' st' objs' ltac:(lia) ltac:(lia) Km' R'). rewrite Gt, Gy, Gx, Gr in S'.
  destruct (S' Ob' Up' Down') as (Em' & Ch'). clear S'. split; [exact Em'|].
  intros c d Rc Rd Nc Eq. assert (Nd : id_of (g_nx g) F' d <> 0%Z) by congruence. assert (Ec := proj2 (left_event (g_nx g) F' c) Nc). assert (Ed := proj2 (left_event (g_nx g) F' d) Nd).
  apply (Ch c d Rc Rd (Sub c Rc Ec) (Sub d Rd Ed)). apply (Ch' c d Rc Rd Ec Ed) in Eq. apply (chained_mono _ _ _ _ Low) in Eq.
  assert (LO := left_of (negb (g_regional g)) (g_nt g) (g_ny g) (g_nx g) F F' objs). fold objs' in LO.
  assert (V : forall e, in_range (g_nt g) (g_ny g) (g_nx g) e -> id_of (g_nx g) F' e <> 0%Z -> id_of (g_nx g) objs' e = id_of (g_nx g) objs e).
  { intros e Re Ne. rewrite LO by assumption. apply Z.eqb_neq in Ne. rewrite Ne. reflexivity. }
  rewrite (V c Rc Nc), (V d Rd Nd) in Eq. exact Eq.
Qed.
Print Assumptions C171_fewer_objects_partial.

(** A stricter area filter on a grid, merging allowed: where no object of the laxer run has two
    overlapping parents or children, the stricter run records no merges either and its
    events are parts of those of the laxer run.  Missing from the full claim: records with
    merges or splits (refuted above them). *)
Theorem C155_steady_grid_partial (g : grid) (r : area_rule) (k k' : tracking) (data : field)
    (F F' : list (list Z)) (n n' : Z) (mg mg' : option merges) (st st' : stats) (objs : list (list Z)) :
  length data = g_nt g -> fold_right Nat.add 0 (k_chunks k) = g_nt g -> fold_right Nat.add 0 (k_chunks k') = g_nt g ->
  rule_le (g_rule g) r -> k_merging k = true -> k_merging k' = true -> (k_overlap k <= k_overlap k')%Q ->
  fresh_run g k data = Ok (F, n, mg, st) -> fresh_run (with_rule g r) k' data = Ok (F', n', mg', st') ->
  object_numbers (negb (g_regional g)) (g_nt g) (g_ny g) (g_nx g) (in_event (g_nx g) F) objs ->
  nothing_merges (g_ny g * g_nx g) (k_overlap k) objs -> nothing_splits (g_ny g * g_nx g) (k_overlap k) objs ->
  mg' = mg /\ mg = Some (mkMerges [] [] [] [] [] []) /\
  forall c d, in_range (g_nt g) (g_ny g) (g_nx g) c -> in_range (g_nt g) (g_ny g) (g_nx g) d ->
    id_of (g_nx g) F' c <> 0%Z -> id_of (g_nx g) F' c = id_of (g_nx g) F' d -> id_of (g_nx g) F c = id_of (g_nx g) F d.
Proof.
  intros L Hs Hs' Le Km Km' Ov R R' Ob Up Down. set (g' := with_rule g r) in *.
  destruct (C155_stricter_threshold_partial g r k k' data F F' n n' mg mg' st st' L Hs Hs' Le R R') as (_ & Sub0 & _).
  assert (Sub : forall c, in_range (g_nt g) (g_ny g) (g_nx g) c -> in_event (g_nx g) F' c -> in_event (g_nx g) F c).
  { intros c Rc I. apply left_event. apply left_event in I. exact (Sub0 c Rc I). }
  destruct (run_fills g k data _ R) as (s & Fs). assert (Fs' : fill_grid g' data = Some s) by exact Fs.
  assert (Lc : length (concat s) = g_nt g * g_ny g * g_nx g) by (apply (shaped_concat g); apply (fill_grid_ok g data s L Fs)).
  destruct (C123_run_on_a_grid_partial g (k_merging k) (k_nn k) (k_centroid k) (k_overlap k) (k_areas k) (k_chunks k) [] [] None (mkTracker (Some data) None false) (mkFiles None NoNpz) data s F n mg st
    eq_refl eq_refl L Hs Fs R) as (_ & Cl & _).
  destruct (C123_run_on_a_grid_partial g' (k_merging k') (k_nn k') (k_centroid k') (k_overlap k') (k_areas k') (k_chunks k') [] [] None (mkTracker (Some data) None false) (mkFiles None NoNpz) data s F' n' mg' st'
    eq_refl eq_refl L Hs' Fs' R') as (_ & Cl' & _).
  destruct (C171_fewer_objects_partial g g' k k' data data F F' n n' mg mg' st st' objs eq_refl eq_refl eq_refl eq_refl L L Hs Hs' Km Km' Ov R R' Ob Up Down Sub) as (Em' & Ref).
  - intros c d Rc Rd Ic Id C. apply (Cl d Rd) in Id. destruct Id as (Xd & _). apply (Cl' c Rc) in Ic. destruct Ic as (Xc & (l & O & Q0) & N).
    assert (J : joined (g_regional g) (g_nt g) (g_ny g) (g_nx g) (concat s) c d).
    { unfold joined. apply (chain_mono _ _ _ _ _ (in_event (g_nx g) F)); [intros e Re I; apply (Cl e Re), I|exact C]. }
    assert (J' : joined (g_regional g) (g_nt g) (g_ny g) (g_nx g) (concat s) d c) by (apply (FilterGridProofs.chain_sym (g_regional g) (g_nt g) (g_ny g) (g_nx g) (concat s) c d Rc Xc J)).
    apply (Cl' d Rd). split; [exact Xd|]. split.
    + exists l. split; [|exact Q0]. destruct O as [ND O]. split; [exact ND|]. intro e. rewrite O.
      split; intros (Re & Xe & Je); (split; [exact Re|split; [exact Xe|]]); eapply chain_trans; eauto.
    + intros (e & Fe & Je). apply N. exists e. split; [exact Fe|]. eapply chain_trans; eauto.
  - destruct (C171_steady_objects_partial g k data F n mg st objs L Hs Km R Ob Up Down) as (Em & _).
    split; [congruence|]. split; [exact Em|exact Ref].
Qed.
Print Assumptions C155_steady_grid_partial.
(** The record of [C171_case], whose objects have three and two cells. *)
Example C155_steady_case : rule_le (g_rule (split_grid 3)) (ByAbsolute 3) /\
  (exists mg st, fresh_run (split_grid 3) (split_tracking 3) moving = Ok (moved, 2%Z, mg, st)) /\
  exists mg st, fresh_run (with_rule (split_grid 3) (ByAbsolute 3)) (split_tracking 3) moving =
    Ok ([[0;0;0;0;0;0; 0;0;0;0;0;0; 1;1;1;0;0;0; 0;0;0;0;0;0; 0;0;0;0;0;0];
         [0;0;0;0;0;0; 0;0;0;0;0;0; 0;1;1;1;0;0; 0;0;0;0;0;0; 0;0;0;0;0;0];
         [0;0;0;0;0;0; 0;0;0;0;0;0; 0;0;1;1;1;0; 0;0;0;0;0;0; 0;0;0;0;0;0]]%Z, 1%Z, mg, st).
Proof. split; [cbn; lia|]. split; eexists; eexists; vm_compute; reflexivity. Qed.
