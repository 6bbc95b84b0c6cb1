(** More extremes or longer gaps to close: filling only adds cells. *)
From Verif Require Import Base Morph MorphSpec MorphProofs MorphTimeProofs MorphMeshProofs MorphProps Label LabelSpec LabelProofs Filter FilterSpec ClusterSpec ClusterFinal
  Run RunSpec RunProofs RunProps PipelineProps RelateSpec RelateProofs RelateProps MeshMoveSpec MeshRunProofs MeshRunProps MeshRun.
Open Scope nat_scope.

(** ** Closing in time *)
Lemma nearest_left (P : Z -> Prop) (D : forall t, P t \/ ~ P t) n a t : (t - a = Z.of_nat n)%Z -> P a -> exists b, (a <= b <= t)%Z /\ P b /\ forall s, (b < s <= t)%Z -> ~ P s.
Proof.
  revert t. induction n as [|n IH]; intros t E Pa.
  - exists a. assert (t = a) by lia. subst. split; [lia|]. split; [exact Pa|]. intros s B. lia.
  - destruct (D t) as [Pt|Nt]; [exists t; split; [lia|split; [exact Pt|intros s B; lia]]|].
    destruct (IH (t - 1)%Z ltac:(lia) Pa) as (b & B & Pb & Nb). exists b. split; [lia|]. split; [exact Pb|].
    intros s S0. destruct (Z.eq_dec s t) as [->|Ne]; [exact Nt|apply Nb; lia].
Qed.
Lemma ext_dec l t : ext l t \/ ~ ext l t.
Proof. unfold ext. destruct (at_t l t); [left; reflexivity|right; discriminate]. Qed.
Lemma gap_grows T T' l l' t : (T <= T')%Z -> (forall s, ext l s -> ext l' s) -> in_short_gap T l t -> ext l' t \/ in_short_gap T' l' t.
Proof.
  intros Tt Le (a & b & B & G & A & C & _). destruct (ext_dec l' t) as [E|E]; [left; exact E|right].
  destruct (nearest_left (ext l') (ext_dec l') (Z.to_nat (t - a)) a t ltac:(lia) (Le a A)) as (a' & A1 & A2 & A3).
  assert (Dm : forall s, ext l' (- s) \/ ~ ext l' (- s)) by (intro s; apply ext_dec).
  destruct (nearest_left (fun s => ext l' (- s)) Dm (Z.to_nat (b - t)) (- b)%Z (- t)%Z ltac:(lia)) as (b' & B1 & B2 & B3); [rewrite Z.opp_involutive; apply Le, C|].
  exists a', (- b')%Z. assert (Na : a' <> t) by (intro Ha; subst a'; contradiction). assert (Nb : (b' <> - t)%Z) by (intro Hb; subst b'; rewrite Z.opp_involutive in B2; contradiction).
  split; [lia|]. split; [lia|]. split; [exact A2|]. split; [exact B2|].
  intros s S0 X. destruct (Z.le_gt_cases s t) as [H1|H1]; [apply (A3 s); [lia|exact X]|]. apply (B3 (- s)%Z); [lia|]. rewrite Z.opp_involutive. exact X.
Qed.
Lemma ext_nth l i : i < length l -> (ext l (Z.of_nat i) <-> nth i l false = true).
Proof.
  intro I. unfold ext, at_t. destruct (Z.leb_spec 0 (Z.of_nat i)); [|lia]. destruct (Z.ltb_spec (Z.of_nat i) (Z.of_nat (length l))); [|lia]. cbn [andb]. rewrite Nat2Z.id. reflexivity.
Qed.
Lemma ext_in l t : ext l t -> (0 <= t < Z.of_nat (length l))%Z.
Proof. unfold ext, at_t. destruct (Z.leb_spec 0 t), (Z.ltb_spec t (Z.of_nat (length l))); cbn [andb]; try discriminate. lia. Qed.
Lemma close_grows T T' l l' r r' i : (0 <= T <= T')%Z -> Z.even T = true -> Z.even T' = true -> length l' = length l ->
  (forall j, nth j l false = true -> nth j l' false = true) -> close_time T l = Some r -> close_time T' l' = Some r' ->
  nth i r false = true -> nth i r' false = true.
Proof.
  intros Tt Te Te' L Le E E' H. destruct (C10_fills_exactly_short_gaps T l r ltac:(lia) Te E) as (Lr & C). destruct (C10_fills_exactly_short_gaps T' l' r' ltac:(lia) Te' E') as (Lr' & C').
  assert (I : i < length l) by (destruct (Nat.lt_ge_cases i (length l)) as [A|A]; [exact A|rewrite nth_overflow in H by lia; discriminate]).
  assert (Lx : forall s, ext l s -> ext l' s).
  { intros s X. assert (B := ext_in l s X). rewrite <- (Z2Nat.id s) in X |- * by lia. apply ext_nth in X; [|lia]. apply ext_nth; [lia|]. apply Le, X. }
  apply ext_nth in H; [|lia]. apply ext_nth; [lia|]. apply C'; [lia|]. apply C in H; [|lia]. destruct H as [H|H]; [left; apply Lx, H|]. exact (gap_grows T T' l l' _ ltac:(lia) Lx H).
Qed.

(** ** Grids *)
Definition with_gap (g : grid) (T : Z) : grid :=
  mkGrid (g_regional g) (g_nt g) (g_ny g) (g_nx g) (g_mask g) (g_R g) T (g_rule g).

Lemma pad_grows m p ny nx f g : (0 < ny)%Z -> (0 < nx)%Z -> (forall y x, in_grid ny nx y x -> f y x = true -> g y x = true) -> img_le (pad m p ny nx f) (pad m p ny nx g).
Proof.
  intros Y X H y x. unfold pad. destruct m; apply H; unfold in_grid.
  - split; apply Z.mod_pos_bound; assumption.
  - unfold clampZ. lia.
Qed.
Lemma slice_grows reg R ny nx mask f g y x : (0 < ny)%Z -> (0 < nx)%Z -> (forall y x, in_grid ny nx y x -> f y x = true -> g y x = true) -> in_grid ny nx y x ->
  fill_holes_slice reg R ny nx mask f y x = true -> fill_holes_slice reg R ny nx mask g y x = true.
Proof.
  intros Y X H I. unfold fill_holes_slice. destruct (mask y x); cbn [andb]; [|discriminate]. destruct (R =? 0)%Z; [apply H; exact I|].
  apply (dilate_mono _ _ _ _ _). apply erode_mono. apply erode_mono. apply dilate_mono. apply pad_grows; assumption.
Qed.

Section Grid.
Variables (g : grid) (T' : Z).
Let nt := g_nt g. Let ny := g_ny g. Let nx := g_nx g.
Lemma grid_fill_grows data data' s s' :
  (0 <= g_T g <= T')%Z -> Z.even (g_T g) = true -> Z.even T' = true -> (g_T g = T' \/ 0 < g_T g \/ g_R g / 2 = 0)%Z ->
  length data = nt -> length data' = nt ->
  (forall c, in_range nt ny nx c -> value_at nx data c = true -> value_at nx data' c = true) ->
  fill_grid g data = Some s -> fill_grid (with_gap g T') data' = Some s' ->
  forall c, in_range nt ny nx c -> value_at nx s c = true -> value_at nx s' c = true.
Proof.
  intros T0 Te Te' Tr L L' Le E E'. unfold fill_grid in *. cbn [with_gap g_regional g_T g_R g_ny g_nx g_mask] in E'. fold ny nx in E, E'.
  destruct (preprocess_morph (g_regional g) (g_T g) (g_R g) (Z.of_nat ny) (Z.of_nat nx) (img_of nx (g_mask g)) (map (img_of nx) data)) as [im|] eqn:P; [|discriminate].
  destruct (preprocess_morph (g_regional g) T' (g_R g) (Z.of_nat ny) (Z.of_nat nx) (img_of nx (g_mask g)) (map (img_of nx) data')) as [im'|] eqn:P'; [|discriminate].
  cbn [option_map] in E, E'. injection E as <-. injection E' as <-.
  destruct (C06_masked_out_cells_never_marked _ _ _ _ _ _ _ _ P) as [Lm _]. destruct (C06_masked_out_cells_never_marked _ _ _ _ _ _ _ _ P') as [Lm' _]. rewrite map_length in Lm, Lm'.
  set (dark := (fun _ _ => false) : img).
  intros [[t y] x] (T & Y & X). cbn [value_at].
  rewrite (nth_map_gen _ im' t dark) by (rewrite Lm'; lia). rewrite (nth_map_gen _ im t dark) by (rewrite Lm; lia). rewrite !flat_at by assumption.
  assert (Ny : (0 < Z.of_nat ny)%Z) by lia. assert (Nx : (0 < Z.of_nat nx)%Z) by lia.
  assert (G : in_grid (Z.of_nat ny) (Z.of_nat nx) (Z.of_nat y) (Z.of_nat x)) by (unfold in_grid; lia). revert G. generalize (Z.of_nat y) as y', (Z.of_nat x) as x'. clear y x Y X. revert t T.
  unfold preprocess_morph in P, P'. set (im1 := fill_holes (g_regional g) (g_R g) (Z.of_nat ny) (Z.of_nat nx) (img_of nx (g_mask g)) (map (img_of nx) data)) in *.
  set (im1' := fill_holes (g_regional g) (g_R g) (Z.of_nat ny) (Z.of_nat nx) (img_of nx (g_mask g)) (map (img_of nx) data')) in *.
  assert (L1 : length im1 = nt) by (unfold im1, fill_holes; rewrite !map_length; exact L).
  assert (L1' : length im1' = nt) by (unfold im1', fill_holes; rewrite !map_length; exact L').
  assert (First : forall t y x, t < nt -> in_grid (Z.of_nat ny) (Z.of_nat nx) y x -> nth t im1 dark y x = true -> nth t im1' dark y x = true).
  { intros t y x T G. unfold im1, im1', fill_holes. rewrite (nth_map_gen _ (map (img_of nx) data') t dark) by (rewrite map_length; lia). rewrite (nth_map_gen _ (map (img_of nx) data) t dark) by (rewrite map_length; lia).
    rewrite (nth_map_gen _ data' t []) by lia. rewrite (nth_map_gen _ data t []) by lia.
    apply slice_grows; try assumption. intros y0 x0 (Y0 & X0). unfold img_of. apply (Le (t, Z.to_nat y0, Z.to_nat x0)). split; [exact T|split; lia]. }
  assert (Msk : forall t y x, t < nt -> nth t im1' dark y x = true -> img_of nx (g_mask g) y x = true).
  { intros t y x T. unfold im1', fill_holes. rewrite (nth_map_gen _ (map (img_of nx) data') t dark) by (rewrite map_length; lia). unfold fill_holes_slice. intro H. apply andb_prop in H. apply H. }
  clearbody im1 im1'. 
  assert (Ser : forall y x, in_grid (Z.of_nat ny) (Z.of_nat nx) y x -> forall j, nth j (series_at im1 y x) false = true -> nth j (series_at im1' y x) false = true).
  { intros y x G j. destruct (Nat.lt_ge_cases j nt) as [J|J]; [|rewrite nth_overflow; [discriminate|unfold series_at; rewrite (map_length _ im1); lia]].
    unfold series_at. rewrite (nth_map_gen _ im1 j dark) by lia. rewrite (nth_map_gen _ im1' j dark) by lia. apply First; assumption. }
  assert (Lser : forall y x, length (series_at im1' y x) = length (series_at im1 y x)) by (intros y x; unfold series_at; rewrite (map_length _ im1), (map_length _ im1'); lia).
  unfold fill_time_gaps in P, P'. destruct (Z.eqb_spec (g_T g) 0) as [Tz|Tz].
  - injection P as <-. destruct (Z.eqb_spec T' 0) as [Tz'|Tz']; [injection P' as <-; intros t T y x G; apply First; assumption|]. destruct (Z.ltb_spec (T' + 1) 0); [lia|]. injection P' as <-.
    assert (R0 : (g_R g / 2 = 0)%Z) by (destruct Tr as [H0|[H0|H0]]; [lia|lia|exact H0]).
    intros t T y x G Hv. apply First in Hv; [|exact T|exact G]. unfold fill_holes. rewrite R0.
    rewrite (nth_map_gen _ _ t dark) by (rewrite map_length, seq_length, L1'; exact T). rewrite (nth_map_gen _ _ t 0) by (rewrite seq_length, L1'; exact T).
    unfold fill_holes_slice. cbn [Z.eqb]. rewrite (Msk t y x T Hv). cbn [andb]. rewrite seq_nth by lia. cbn [Nat.add].
    destruct (C10_accepted_T_always_runs T' (series_at im1' y x) ltac:(lia)) as (r & Er). rewrite Er. destruct (C10_fills_exactly_short_gaps T' _ _ ltac:(lia) Te' Er) as (Lr & C).
    assert (Ls : length (series_at im1' y x) = nt) by (unfold series_at; rewrite (map_length _ im1'); exact L1').
    apply ext_nth; [lia|]. apply C; [lia|]. left. apply ext_nth; [lia|]. unfold series_at. rewrite (nth_map_gen _ im1' t dark) by lia. exact Hv.
  - destruct (Z.eqb_spec T' 0) as [Tz'|Tz']; [lia|]. destruct (Z.ltb_spec (g_T g + 1) 0); [lia|]. destruct (Z.ltb_spec (T' + 1) 0); [lia|]. injection P as <-. injection P' as <-.
    intros t T y x G. unfold fill_holes.
    rewrite (nth_map_gen _ _ t dark) by (rewrite map_length, seq_length, L1; exact T). rewrite (nth_map_gen _ _ t 0) by (rewrite seq_length, L1; exact T).
    rewrite (nth_map_gen _ _ t dark) by (rewrite map_length, seq_length, L1'; exact T). rewrite (nth_map_gen _ _ t 0) by (rewrite seq_length, L1'; exact T).
    apply slice_grows; [exact Ny|exact Nx| |exact G]. intros y0 x0 G0. rewrite !seq_nth by lia. cbn [Nat.add].
    destruct (C10_accepted_T_always_runs (g_T g) (series_at im1 y0 x0) ltac:(lia)) as (r & Er). destruct (C10_accepted_T_always_runs T' (series_at im1' y0 x0) ltac:(lia)) as (r' & Er'). rewrite Er, Er'.
    exact (close_grows (g_T g) T' _ _ r r' t T0 Te Te' (Lser y0 x0) (Ser y0 x0 G0) Er Er').
Qed.
End Grid.

(** ** Meshes *)
Definition with_mesh_gap (h : mesh_setup) (T : Z) : mesh_setup := mkMesh (h_nbs h) (h_mask h) (h_R h) T (h_rule h) (h_area h).

Lemma within_add m a b i j : within m (a + b) i j -> exists c, within m a i c /\ within m b c j.
Proof.
  revert i. induction a as [|a IH]; intros i W; [exists i; split; [constructor|exact W]|].
  inversion W as [|n i0 c k A W']; subst; [exists j; split; constructor|]. destruct (IH c W') as (d & D1 & D2). exists d. split; [econstructor; eauto|exact D2].
Qed.
Lemma within_join m a b i c j : within m a i c -> within m b c j -> within m (a + b) i j.
Proof.
  induction 1 as [n i|n i d c A W IH]; intro V; [|cbn; econstructor; [exact A|apply IH; exact V]].
  clear -V. induction n as [|n IH]; [exact V|]. cbn. apply within_mono. exact IH.
Qed.
(** Filling with half the radius removes nothing from what the whole radius filled. *)
Lemma refill_keeps m R r mask v i : mesh_ok m -> mesh_sym m -> length mask = length m -> length v = length m -> r <= R -> i < length m ->
  atb (fill_holes_mesh m R mask v) i = true -> atb (fill_holes_mesh m r mask (fill_holes_mesh m R mask v)) i = true.
Proof.
  intros OK Sy Lm Lv Rr I H. assert (Lf := fill_mesh_length m R mask v Lm Lv). apply fill_mesh_at in H; auto. apply fill_mesh_at; auto.
  destruct H as (c & W & Q). replace R with (r + (R - r)) in W by lia. destruct (within_add m r (R - r) i c W) as (c' & W1 & W2).
  exists c'. split; [exact W1|]. intros j Wj. right. intros k Wk. right. exists j. split; [apply within_sym; assumption|].
  assert (Ir : i < length m) by exact I. assert (Ic : c' < length m) by (eapply within_range; eauto). assert (Ij : j < length m) by (eapply within_range; eauto).
  apply fill_mesh_at; auto. exists c. split; [|exact Q]. replace R with (r + (R - r)) by lia. apply (within_join m r (R - r) j c' c); [apply within_sym; assumption|exact W2].
Qed.

Section Mesh.
Variables (h : mesh_setup) (T' : Z).
Let m := h_nbs h. Let n := length (h_nbs h).
Lemma mesh_fill_grows data data' s s' :
  setup_ok h data -> setup_ok h data' -> length data' = length data ->
  (0 <= h_T h <= T')%Z -> Z.even (h_T h) = true -> Z.even T' = true -> (h_T h = T' \/ 0 < h_T h \/ mesh_sym m)%Z ->
  (forall t i, atb (nth t data []) i = true -> atb (nth t data' []) i = true) ->
  fill_time_gaps_mesh h (map (fill_holes_mesh m (h_R h) (h_mask h)) data) = Some s ->
  fill_time_gaps_mesh (with_mesh_gap h T') (map (fill_holes_mesh m (h_R h) (h_mask h)) data') = Some s' ->
  forall t i, t < length data -> i < n -> atb (nth t s []) i = true -> atb (nth t s' []) i = true.
Proof.
  intros Hs Hs' L T0 Te Te' Tr Le E E'. destruct Hs as (Hm & Lm & _ & _ & Ld). destruct Hs' as (_ & _ & _ & _ & Ld'). fold m in Hm, Lm, Ld, Ld'.
  unfold fill_time_gaps_mesh in E, E'. cbn [with_mesh_gap h_T h_nbs h_R h_mask] in E'. fold m in E, E'.
  set (v := map (fill_holes_mesh m (h_R h) (h_mask h)) data) in *. set (v' := map (fill_holes_mesh m (h_R h) (h_mask h)) data') in *.
  assert (Lv : length v = length data) by apply map_length. assert (Lv' : length v' = length data) by (unfold v'; rewrite map_length; exact L).
  assert (Rd : forall t, t < length data -> length (nth t data []) = length m) by (intros t T; apply Ld, nth_In, T).
  assert (Rd' : forall t, t < length data -> length (nth t data' []) = length m) by (intros t T; apply Ld', nth_In; lia).
  assert (Fv : forall t, t < length data -> nth t v [] = fill_holes_mesh m (h_R h) (h_mask h) (nth t data [])) by (intros t T; unfold v; rewrite (nth_map_gen _ data t []) by exact T; reflexivity).
  assert (Fv' : forall t, t < length data -> nth t v' [] = fill_holes_mesh m (h_R h) (h_mask h) (nth t data' [])) by (intros t T; unfold v'; rewrite (nth_map_gen _ data' t []) by lia; reflexivity).
  assert (Rv' : forall t, t < length data -> length (nth t v' []) = length m) by (intros t T; rewrite (Fv' t T); apply fill_mesh_length; [exact Lm|apply Rd'; exact T]).
  assert (First : forall t i, t < length data -> i < n -> atb (nth t v []) i = true -> atb (nth t v' []) i = true).
  { intros t i T I. rewrite (Fv t T), (Fv' t T). apply C07_monotone_mesh; auto. }
  assert (Ser : forall i, i < n -> forall j, nth j (map (fun u => atb u i) v) false = true -> nth j (map (fun u => atb u i) v') false = true).
  { intros i I j. destruct (Nat.lt_ge_cases j (length data)) as [J|J]; [|rewrite nth_overflow; [discriminate|rewrite map_length; lia]].
    rewrite (nth_map_gen _ v j []) by lia. rewrite (nth_map_gen _ v' j []) by lia. apply First; assumption. }
  destruct (Z.eqb_spec (h_T h) 0) as [Tz|Tz].
  - injection E as <-. destruct (Z.eqb_spec T' 0) as [Tz'|Tz']; [injection E' as <-; exact First|]. destruct (Z.ltb_spec (T' + 1) 0); [lia|]. injection E' as <-.
    assert (Sy : mesh_sym m) by (destruct Tr as [H0|[H0|H0]]; [lia|lia|exact H0]).
    intros t i T I Hv. apply First in Hv; [|exact T|exact I].
    rewrite (nth_map_gen _ _ t 0) by (rewrite seq_length; lia). rewrite seq_nth by lia. cbn [Nat.add].
    assert (Keep : atb (fill_holes_mesh m (h_R h / 2) (h_mask h) (nth t v' [])) i = true).
    { rewrite (Fv' t T) in Hv |- *. apply refill_keeps; auto. apply Nat.div_le_upper_bound; lia. }
    revert Keep. apply C07_monotone_mesh; auto; [rewrite map_length, seq_length; reflexivity|].
    intros j Hj. assert (J : j < length m) by (destruct (Nat.lt_ge_cases j (length m)) as [A|A]; [exact A|unfold atb in Hj; rewrite nth_overflow in Hj by (rewrite (Rv' t T); exact A); discriminate]).
    unfold atb at 1. rewrite (nth_map_gen _ _ j 0) by (rewrite seq_length; exact J). rewrite seq_nth by exact J. cbn [Nat.add].
    destruct (C10_accepted_T_always_runs T' (map (fun u => atb u j) v') ltac:(lia)) as (r & Er). rewrite Er. destruct (C10_fills_exactly_short_gaps T' _ _ ltac:(lia) Te' Er) as (Lr & C). rewrite map_length in Lr, C.
    apply ext_nth; [lia|]. apply C; [lia|]. left. apply ext_nth; [rewrite map_length; lia|]. rewrite (nth_map_gen _ v' t []) by lia. exact Hj.
  - destruct (Z.eqb_spec T' 0) as [Tz'|Tz']; [lia|]. destruct (Z.ltb_spec (h_T h + 1) 0); [lia|]. destruct (Z.ltb_spec (T' + 1) 0); [lia|]. injection E as <-. injection E' as <-.
    intros t i T I. rewrite (nth_map_gen _ (seq 0 (length v)) t 0) by (rewrite seq_length; lia). rewrite (nth_map_gen _ (seq 0 (length v')) t 0) by (rewrite seq_length; lia). rewrite !seq_nth by lia. cbn [Nat.add].
    apply C07_monotone_mesh; auto; try (rewrite map_length, seq_length; reflexivity).
    intros j. destruct (Nat.lt_ge_cases j (length m)) as [J|J]; [|unfold atb at 1; rewrite nth_overflow by (rewrite map_length, seq_length; exact J); discriminate].
    unfold atb at 1 3. rewrite !(nth_map_gen _ _ j 0) by (rewrite seq_length; exact J). rewrite seq_nth by exact J. cbn [Nat.add].
    destruct (C10_accepted_T_always_runs (h_T h) (map (fun u => atb u j) v) ltac:(lia)) as (r & Er). destruct (C10_accepted_T_always_runs T' (map (fun u => atb u j) v') ltac:(lia)) as (r' & Er'). rewrite Er, Er'.
    apply (close_grows (h_T h) T' (map (fun u => atb u j) v) (map (fun u => atb u j) v') r r' t T0 Te Te'); [rewrite !map_length; lia|exact (Ser j J)|exact Er|exact Er'].
Qed.
End Mesh.
