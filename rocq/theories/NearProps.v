(** Property theorems C68 (meshes) and C143: what filling marks lies near an extreme,
    and filling again changes nothing. *)
From Verif Require Import Base Morph MorphSpec MorphProofs MorphPlaneProofs MorphTimeProofs MorphMeshProofs MorphWitness Filter Overlap Cluster Run.
Open Scope nat_scope.

(** ** C68 *)

Lemma slice_ext reg R ny nx mask f g : (0 < ny)%Z -> (0 < nx)%Z ->
  (forall y x, in_grid ny nx y x -> f y x = g y x) ->
  forall y x, in_grid ny nx y x -> fill_holes_slice reg R ny nx mask f y x = fill_holes_slice reg R ny nx mask g y x.
Proof.
  intros Ny Nx H y x I. unfold fill_holes_slice. f_equal. destruct (R =? 0)%Z; [apply H; exact I|].
  set (P := pad _ _ ny nx f). set (P' := pad _ _ ny nx g).
  assert (E : forall a b, P a b = P' a b).
  { intros a b. unfold P, P'. clear P P'. destruct reg; cbn [pad]; apply H; unfold in_grid, clampZ; [lia|]. split; apply Z.mod_pos_bound; assumption. }
  assert (D : forall u v h w, (forall a b, u a b = v a b) -> forall a b, dilate (disk R) h w u a b = dilate (disk R) h w v a b).
  { intros u v h w U a b. unfold dilate. generalize (disk R). intro q. induction q as [|d l IH]; [reflexivity|]. cbn [existsb]. rewrite U, IH. reflexivity. }
  assert (F : forall u v h w, (forall a b, u a b = v a b) -> forall a b, erode (disk R) h w u a b = erode (disk R) h w v a b).
  { intros u v h w U a b. unfold erode. generalize (disk R). intro q. induction q as [|d l IH]; [reflexivity|]. cbn [forallb]. rewrite U, IH. reflexivity. }
  unfold closing, opening. apply D. intros. apply F. intros. apply F. intros. apply D. exact E.
Qed.

(** Near the edges a second pass does change the field: in regional mode and across
    the seam. *)
Definition cells (l : list (Z * Z)) : img := fun y x => existsb (fun p => Z.eqb y (fst p) && Z.eqb x (snd p)) l.
Definition edge_field : img := cells [(0, 0); (0, 1); (0, 2); (1, 0)]%Z.
Definition seam_field : img := cells [(0, 2); (0, 6); (1, 0); (2, 0); (7, 1); (7, 6)]%Z.
Definition table (ny nx : Z) (f : img) : list (list bool) := map (fun y => map (fun x => f y x) (zrange 0 (Z.to_nat nx))) (zrange 0 (Z.to_nat ny)).
Definition of_table (t : list (list bool)) : img := fun y x => nth (Z.to_nat x) (nth (Z.to_nat y) t []) false.
Lemma nth_of_seq {A} (g : nat -> A) n k d : k < n -> nth k (map g (seq 0 n)) d = g k.
Proof. intro K. rewrite (nth_indep _ d (g 0)) by (rewrite map_length, seq_length; exact K). rewrite (map_nth g), seq_nth by exact K. reflexivity. Qed.
Lemma of_table_at ny nx f y x : in_grid ny nx y x -> of_table (table ny nx f) y x = f y x.
Proof.
  intros [Y X]. unfold of_table, table, zrange. rewrite !map_map. rewrite nth_of_seq by lia. rewrite map_map. rewrite nth_of_seq by lia. f_equal; lia.
Qed.
Lemma refill_by_table reg R ny nx f T b y x : (0 < ny)%Z -> (0 < nx)%Z -> in_grid ny nx y x ->
  table ny nx (fill_holes_slice reg R ny nx all_ocean f) = T -> fill_holes_slice reg R ny nx all_ocean (of_table T) y x = b ->
  fill_holes_slice reg R ny nx all_ocean (fill_holes_slice reg R ny nx all_ocean f) y x = b.
Proof.
  intros Ny Nx I E <-. apply slice_ext; auto. intros a c J. rewrite <- E. symmetry. apply of_table_at. exact J.
Qed.

Theorem C68_refilling_changes_nothing_refuted : forall regional : bool,
  exists R ny nx f y x, (0 < R)%Z /\ in_grid ny nx y x /\
    fill_holes_slice regional R ny nx all_ocean (fill_holes_slice regional R ny nx all_ocean f) y x
    <> fill_holes_slice regional R ny nx all_ocean f y x.
Proof.
  intros [|].
  - exists 1%Z, 2%Z, 3%Z, edge_field, 1%Z, 2%Z. split; [lia|]. split; [unfold in_grid; lia|].
    let T := eval vm_compute in (table 2 3 (fill_holes_slice true 1 2 3 all_ocean edge_field)) in rewrite (refill_by_table true 1 2 3 edge_field T true 1 2); [|lia|lia|unfold in_grid; lia|vm_compute; reflexivity|vm_compute; reflexivity].
    vm_compute. discriminate.
  - exists 1%Z, 8%Z, 8%Z, seam_field, 0%Z, 1%Z. split; [lia|]. split; [unfold in_grid; lia|].
    let T := eval vm_compute in (table 8 8 (fill_holes_slice false 1 8 8 all_ocean seam_field)) in rewrite (refill_by_table false 1 8 8 seam_field T false 0 1); [|lia|lia|unfold in_grid; lia|vm_compute; reflexivity|vm_compute; reflexivity].
    vm_compute. discriminate.
Qed.
Print Assumptions C68_refilling_changes_nothing_refuted.

(** Meshes have no edges: filling the filled field, land removed, changes no ocean
    cell. *)
Definition on_ocean (mask v : list bool) : list bool := map (fun p => fst p && snd p) (combine mask v).
Lemma on_ocean_at mask v i : length mask = length v -> atb (on_ocean mask v) i = atb mask i && atb v i.
Proof.
  intro L. unfold atb, on_ocean. transitivity (nth i (map (fun p => fst p && snd p) (combine mask v)) ((fun p => fst p && snd p) (false, false))); [reflexivity|].
  rewrite (map_nth (fun p => fst p && snd p)), combine_nth by exact L. reflexivity.
Qed.
Theorem C68_mesh_refilling_changes_nothing (m : mesh) (R : nat) (mask v : list bool) (i : nat) :
  mesh_ok m -> mesh_sym m -> length mask = length m -> length v = length m -> i < length m -> atb mask i = true ->
  atb (fill_holes_mesh m R mask (on_ocean mask (fill_holes_mesh m R mask v))) i = atb (fill_holes_mesh m R mask v) i.
Proof.
  intros OK Sy Lm Lv Hi Mi.
  assert (Lf := fill_mesh_length m R mask v Lm Lv).
  assert (Lo : length (on_ocean mask (fill_holes_mesh m R mask v)) = length m) by (unfold on_ocean; rewrite map_length, combine_length; lia).
  apply eq_true_iff_eq. rewrite !fill_mesh_at by assumption. split; intros (c & W & H); exists c; (split; [exact W|]); intros j Wj; (destruct (atb mask j) eqn:Mj; [|left; reflexivity]); (destruct (H j Wj) as [L|C]; [congruence|]); right; intros k Wk.
  - destruct (C k Wk) as [L|(l & Wl & G)]; auto. destruct (atb mask k) eqn:Mk; auto. right.
    rewrite on_ocean_at in G by lia. apply andb_prop in G. destruct G as [Ml G].
    apply fill_mesh_at in G; auto; [|apply (within_range m R k l OK); [|exact Wl]; apply (within_range m R j k OK); [|exact Wk]; apply (within_range m R c j OK); [|exact Wj]; exact (within_range m R i c OK Hi W)].
    destruct G as (c' & W' & G). destruct (G l (within_sym _ _ _ _ Sy W')) as [E|G']; [congruence|].
    destruct (G' k (within_sym _ _ _ _ Sy Wl)) as [E|E]; [congruence|exact E].
  - right. exists j. split; [exact (within_sym _ _ _ _ Sy Wk)|]. rewrite on_ocean_at, Mj by lia. apply fill_mesh_at; auto; [exact (within_range m R c j OK (within_range m R i c OK Hi W) Wj)|].
    exists c. split; [exact (within_sym _ _ _ _ Sy Wj)|exact H].
Qed.
Print Assumptions C68_mesh_refilling_changes_nothing.

(** With the marks on land kept, as between the two passes of run_preprocess, a second
    pass carries an event across a strip of land. *)
Theorem C68_mesh_land_kept_refuted :
  exists m R mask v i, mesh_ok m /\ mesh_sym m /\ length mask = length m /\ length v = length m /\ atb mask i = true /\
    (forall k, atb v k = true -> atb mask k = true) /\
    atb (fill_holes_mesh m R mask v) i = false /\ atb (fill_holes_mesh m R mask (fill_holes_mesh m R mask v)) i = true.
Proof.
  exists [[1; -1; -1]; [0; 2; -1]; [1; -1; -1]]%Z, 1, [true; false; true], [true; false; false], 2.
  split; [|split; [|split; [reflexivity|split; [reflexivity|split; [reflexivity|split; [|split; vm_compute; reflexivity]]]]]].
  - intros i j H. do 3 (destruct i as [|i]; [cbn in H; cbn; lia|]). destruct i; destruct H.
  - intros i j H. unfold adj, Morph.row in *. do 3 (destruct i as [|i]; [destruct j as [|[|[|j]]]; cbn in *; lia|]). destruct i; destruct H.
  - intros k. do 3 (destruct k as [|k]; [cbn; congruence|]). destruct k; cbn; congruence.
Qed.
Print Assumptions C68_mesh_land_kept_refuted.
Example C68_mesh_case : on_ocean strip_mask (fill_holes_mesh strip 1 strip_mask strip_data) = [false; false; true; true; false; false] .
Proof. vm_compute. reflexivity. Qed.

(** ** C143 *)

(** The cell that the padded field shows at a displacement of at most r. *)
Definition beside (regional : bool) (ny nx r y x y' x' : Z) : Prop :=
  in_grid ny nx y' x' /\ exists dy dx, in_disk r dy dx /\
    (if regional then y' = clampZ ny (y + dy) /\ x' = clampZ nx (x + dx) else y' = (y + dy) mod ny /\ x' = (x + dx) mod nx)%Z.

Lemma beside_here reg ny nx r y x : (0 < ny)%Z -> (0 < nx)%Z -> in_grid ny nx y x -> beside reg ny nx r y x y x.
Proof.
  intros Ny Nx I. split; [exact I|]. exists 0%Z, 0%Z. split; [unfold in_disk; nia|]. destruct I. rewrite !Z.add_0_r.
  destruct reg; [unfold clampZ; lia|]. rewrite !Z.mod_small by lia. auto.
Qed.
Lemma slice_beside reg R ny nx mask f y x : (0 <= R)%Z -> (0 < ny)%Z -> (0 < nx)%Z -> in_grid ny nx y x -> fill_holes_slice reg R ny nx mask f y x = true ->
  mask y x = true /\ exists y' x', beside reg ny nx R y x y' x' /\ f y' x' = true.
Proof.
  intros HR Ny Nx I H. assert (M : mask y x = true) by (unfold fill_holes_slice in H; apply andb_prop in H; tauto). split; [exact M|].
  destruct (Z.eq_dec R 0) as [->|N].
  - exists y, x. split; [apply beside_here; assumption|]. unfold fill_holes_slice in H. apply andb_prop in H. exact (proj2 H).
  - destruct (fill_slice_near reg R ny nx mask f y x ltac:(lia) H) as (dy & dx & D & E). unfold extend in E. destruct reg.
    + exists (clampZ ny (y + dy)), (clampZ nx (x + dx)). split; [|exact E]. split; [unfold in_grid, clampZ; lia|]. exists dy, dx. auto.
    + exists ((y + dy) mod ny)%Z, ((x + dx) mod nx)%Z. split; [|exact E]. split; [split; apply Z.mod_pos_bound; assumption|]. exists dy, dx. auto.
Qed.

(** Grids: every cell marked by the whole filling is ocean and within R_fill / 2 and
    then R_fill cells and T_fill steps of an extreme. *)
Theorem C143_grid_marks_near_extremes (regional : bool) (T R ny nx : Z) (mask : img) (s s' : list img) (t : nat) (y x : Z) :
  (0 <= T)%Z -> Z.even T = true -> (0 <= R)%Z -> (0 < ny)%Z -> (0 < nx)%Z -> in_grid ny nx y x -> t < length s ->
  preprocess_morph regional T R ny nx mask s = Some s' -> nth t s' (fun _ _ => false) y x = true ->
  mask y x = true /\
  exists t' y1 x1 y2 x2, t' < length s /\ (Z.abs (Z.of_nat t' - Z.of_nat t) <= T)%Z /\
    beside regional ny nx (R / 2) y x y1 x1 /\ beside regional ny nx R y1 x1 y2 x2 /\ nth t' s (fun _ _ => false) y2 x2 = true.
Proof.
  intros HT Ev HR Ny Nx I Ht E M. unfold preprocess_morph in E.
  destruct (fill_time_gaps_spec _ _ _ _ _ _ _ _ HT Ev E) as (_ & closed & Lc & Cl & Re). unfold fill_holes in *. rewrite map_length in Lc. assert (Ls : length (map (fill_holes_slice regional R ny nx mask) s) = length s) by apply map_length. rewrite Ls in Cl.
  assert (First : forall a b c, in_grid ny nx b c -> a < length s -> nth a (map (fill_holes_slice regional R ny nx mask) s) (fun _ _ => false) b c = true ->
    mask b c = true /\ exists y2 x2, beside regional ny nx R b c y2 x2 /\ nth a s (fun _ _ => false) y2 x2 = true).
  { intros a b c J A H. rewrite (nth_indep _ _ (fill_holes_slice regional R ny nx mask (fun _ _ => false))) in H by (rewrite map_length; exact A). rewrite map_nth in H. apply slice_beside; assumption. }
  destruct Re as [(-> & ->)|(T0 & ->)].
  - destruct (First t y x I Ht M) as (Mk & y2 & x2 & B & D). split; [exact Mk|]. exists t, y, x, y2, x2. split; [exact Ht|]. split; [lia|]. split; [apply beside_here; assumption|auto].
  - rewrite (nth_indep _ _ (fill_holes_slice regional (R / 2) ny nx mask (fun _ _ => false))) in M by (rewrite map_length; exact (eq_ind_r (fun n => t < n) Ht Lc)). rewrite map_nth in M.
    apply slice_beside in M; auto; [|apply Z.div_pos; lia]. destruct M as (Mk & y1 & x1 & B & D). split; [exact Mk|].
    apply Cl in D; [|exact Ht]. assert (X : exists t', t' < length s /\ (Z.abs (Z.of_nat t' - Z.of_nat t) <= T)%Z /\ nth t' (map (fill_holes_slice regional R ny nx mask) s) (fun _ _ => false) y1 x1 = true).
    { unfold ext in D. destruct D as [D|(a & b & L1 & L2 & Ea & _)].
      - exists t. split; [exact Ht|]. split; [lia|]. rewrite at_t_nth, nth_series in D. exact D.
      - unfold ext in Ea. assert (R0 := at_t_in _ _ Ea). unfold series_at in R0. rewrite !map_length in R0. exists (Z.to_nat a). split; [lia|]. split; [lia|].
        rewrite <- (Z2Nat.id a) in Ea by lia. rewrite at_t_nth, nth_series in Ea. exact Ea. }
    destruct X as (t' & Lt & At & X). destruct (First t' y1 x1 (proj1 B) Lt X) as (_ & y2 & x2 & B2 & D2).
    exists t', y1, x1, y2, x2. auto.
Qed.
Print Assumptions C143_grid_marks_near_extremes.

(** Meshes. *)
Lemma within_app m a b i j k : within m a i j -> within m b j k -> within m (a + b) i k.
Proof. intro H. revert b k. induction H as [n i|n i j l A W IH]; intros b k H; [|cbn; econstructor; eauto]. clear -H. induction n; [exact H|]. cbn. apply within_mono. exact IHn. Qed.

Lemma closed_mesh_at h s t i l : (0 < h_T h)%Z -> Z.even (h_T h) = true -> t < length s ->
  close_time (h_T h) (map (fun v => atb v i) s) = Some l -> nth t l false = true ->
  exists t', t' < length s /\ (Z.abs (Z.of_nat t' - Z.of_nat t) <= h_T h)%Z /\ atb (nth t' s []) i = true.
Proof.
  intros HT Ev Lt E N. destruct (close_time_gaps (h_T h) _ _ ltac:(lia) Ev E) as [_ G]. rewrite map_length in G. specialize (G (Z.of_nat t) ltac:(lia)). unfold ext in G. rewrite at_t_nth in G.
  assert (Ser : forall q, nth q (map (fun v => atb v i) s) false = true -> q < length s /\ atb (nth q s []) i = true).
  { intros q H. destruct (Nat.lt_ge_cases q (length s)) as [L|L]; [|rewrite nth_overflow in H by (rewrite map_length; exact L); discriminate]. split; [exact L|].
    rewrite (nth_indep _ false (atb [] i)) in H by (rewrite map_length; exact L). rewrite (map_nth (fun v => atb v i)) in H. exact H. }
  apply G in N. destruct N as [N|(a & b & L1 & L2 & Ea & _)].
  - rewrite at_t_nth in N. destruct (Ser _ N) as [L A]. exists t. split; [exact L|]. split; [lia|exact A].
  - unfold ext in Ea. assert (R0 := at_t_in _ _ Ea). rewrite <- (Z2Nat.id a) in Ea by lia. rewrite at_t_nth in Ea. destruct (Ser _ Ea) as [L A].
    exists (Z.to_nat a). split; [exact L|]. split; [lia|exact A].
Qed.

(** The marks on land of the first pass are near an extreme only where every land cell
    is near the ocean. *)
Lemma mark_anywhere m R mask v i : mesh_ok m -> length mask = length m -> length v = length m -> i < length m ->
  (forall c, c < length m -> exists j, within m R c j /\ atb mask j = true) ->
  atb (fill_holes_mesh m R mask v) i = true -> exists l, within m (3 * R) i l /\ atb v l = true.
Proof.
  intros OK Lm Lv Hi Sh H. apply fill_mesh_at in H; auto. destruct H as (c & W & H). destruct (Sh c (within_range m R i c OK Hi W)) as (j & Wj & Mj).
  destruct (H j Wj) as [C|C]; [congruence|]. destruct (C j (within_here m R j)) as [D|(l & Wl & D)]; [congruence|].
  exists l. split; [|exact D]. replace (3 * R) with (R + (R + R)) by lia. eapply within_app; [exact W|]. eapply within_app; [exact Wj|exact Wl].
Qed.

Theorem C143_mesh_marks_near_extremes_partial (h : mesh_setup) (data s : field) (t i : nat) :
  let m := h_nbs h in
  mesh_ok m -> mesh_sym m -> length (h_mask h) = length m -> (forall d, In d data -> length d = length m) ->
  (0 <= h_T h)%Z -> Z.even (h_T h) = true -> t < length data -> i < length m -> atb (h_mask h) i = true ->
  fill_time_gaps_mesh h (map (fill_holes_mesh m (h_R h) (h_mask h)) data) = Some s -> atb (nth t s []) i = true ->
  (h_T h = 0%Z -> exists l, within m (h_R h) i l /\ atb (nth t data []) l = true) /\
  ((forall c, c < length m -> exists j, within m (h_R h) c j /\ atb (h_mask h) j = true) ->
   exists t' l, t' < length data /\ (Z.abs (Z.of_nat t' - Z.of_nat t) <= h_T h)%Z /\ within m (h_R h / 2 + 3 * h_R h) i l /\ atb (nth t' data []) l = true) /\
  ((forall c, c < length m -> atb (h_mask h) c = true) ->
   exists t' l, t' < length data /\ (Z.abs (Z.of_nat t' - Z.of_nat t) <= h_T h)%Z /\ within m (h_R h / 2 + h_R h) i l /\ atb (nth t' data []) l = true).
Proof.
  cbv zeta. intros OK Sy Lm Ld HT Ev Lt Hi Mi E M. set (m := h_nbs h) in *. set (R := h_R h) in *.
  set (first := map (fill_holes_mesh m R (h_mask h)) data) in *.
  assert (At : forall q, q < length data -> nth q first [] = fill_holes_mesh m R (h_mask h) (nth q data [])).
  { intros q Hq. unfold first. rewrite (nth_indep _ [] (fill_holes_mesh m R (h_mask h) [])) by (rewrite map_length; exact Hq). apply map_nth. }
  assert (Lq : forall q, q < length data -> length (nth q data []) = length m) by (intros q Hq; apply Ld, nth_In, Hq).
  unfold fill_time_gaps_mesh in E. fold m R in E. destruct (Z.eqb_spec (h_T h) 0) as [T0|T0].
  - injection E as <-. rewrite At in M by exact Lt.
    destruct (fill_mesh_stays_near m R (h_mask h) _ i OK Sy Lm (Lq t Lt) Hi Mi M) as (l & W & D).
    assert (G : forall n, exists t' l, t' < length data /\ (Z.abs (Z.of_nat t' - Z.of_nat t) <= h_T h)%Z /\ within m (n + R) i l /\ atb (nth t' data []) l = true).
    { intro n. exists t, l. split; [exact Lt|]. split; [lia|]. split; [|exact D]. exact (within_app m n R i i l (within_here m n i) W). }
    split; [intros _; exists l; auto|]. split; [intros _|intros _; apply G].
    destruct (G (R / 2 + 2 * R)) as (t' & l' & G1 & G2 & G3 & G4). exists t', l'. replace (R / 2 + 3 * R) with (R / 2 + 2 * R + R) by lia. auto.
  - destruct (Z.ltb_spec (h_T h + 1) 0) as [?|_]; [lia|]. injection E as <-.
    assert (Lf : length first = length data) by (unfold first; apply map_length). rewrite Lf in M. rewrite nth_of_seq in M by exact Lt.
    match type of M with atb (fill_holes_mesh _ _ _ ?v) _ = true => assert (Lv : length v = length m) by (rewrite map_length, seq_length; reflexivity);
      destruct (fill_mesh_stays_near m (R / 2) (h_mask h) v i OK Sy Lm Lv Hi Mi M) as (k & Wk & Dk) end.
    assert (Hk := within_range m _ i k OK Hi Wk). unfold atb at 1 in Dk. rewrite nth_of_seq in Dk by exact Hk.
    destruct (close_time (h_T h) (map (fun v => atb v k) first)) as [l|] eqn:El; [|destruct t; discriminate].
    destruct (closed_mesh_at h first t k l ltac:(lia) Ev ltac:(lia) El Dk) as (t' & L' & A' & D'). rewrite Lf in L'. rewrite At in D' by exact L'.
    split; [intro; contradiction|]. split; intro Sh.
    + destruct (mark_anywhere m R (h_mask h) _ k OK Lm (Lq t' L') Hk Sh D') as (p & Wp & Dp). exists t', p. split; [exact L'|]. split; [exact A'|]. split; [|exact Dp]. eapply within_app; eassumption.
    + destruct (fill_mesh_stays_near m R (h_mask h) _ k OK Sy Lm (Lq t' L') Hk (Sh k Hk) D') as (p & Wp & Dp). exists t', p. split; [exact L'|]. split; [exact A'|]. split; [|exact Dp]. eapply within_app; eassumption.
Qed.
Print Assumptions C143_mesh_marks_near_extremes_partial.

(** A channel of six ocean cells, each with three land cells behind it, and no extreme
    at any time: the two passes with R_fill = 2 and T_fill = 2 mark the whole channel
    at every step, and it passes the size filter. *)
Definition channel_mesh : mesh :=
  flat_map (fun i => let o := (4 * i)%Z in
    [[if Z.eqb i 0 then -1 else o - 4; if Z.eqb i 5 then -1 else o + 4; o + 1]; [o; o + 2; -1]; [o + 1; o + 3; -1]; [o + 2; -1; -1]])%Z [0; 1; 2; 3; 4; 5]%Z.
Definition channel : mesh_setup := mkMesh channel_mesh (flat_map (fun _ : Z => [true; false; false; false]) [0; 1; 2; 3; 4; 5]%Z) 2 2 (ByAbsolute 5) (repeat 1%Q 24).
Definition calm : field := repeat (repeat false 24) 2.
Lemma channel_ok : mesh_ok channel_mesh.
Proof. intros i j H. do 24 (destruct i as [|i]; [cbn in H; cbn; lia|]). unfold Morph.row in H. rewrite nth_overflow in H by (cbn; lia). destruct H. Qed.
Lemma channel_sym : mesh_sym channel_mesh.
Proof.
  intros i j H. unfold adj, Morph.row in *.
  do 24 (destruct i as [|i]; [cbn in H; repeat (destruct H as [H|H]; [try lia; assert (J : j = Z.to_nat (Z.of_nat j)) by lia; rewrite <- H in J; rewrite J; vm_compute; tauto|]); destruct H|]).
  rewrite nth_overflow in H by (cbn; lia). destruct H.
Qed.
Theorem C143_mesh_marks_near_extremes_refuted :
  exists (h : mesh_setup) (data : field) f,
    mesh_ok (h_nbs h) /\ mesh_sym (h_nbs h) /\ length (h_mask h) = length (h_nbs h) /\ (0 < h_T h)%Z /\ Z.even (h_T h) = true /\
    (forall d, In d data -> d = repeat false (length (h_nbs h))) /\
    clean_mesh h data = Ok f /\
    exists t i, t < length data /\ atb (h_mask h) i = true /\ atb (nth t (f_keep f) []) i = true.
Proof.
  exists channel, calm. eexists. split; [exact channel_ok|]. split; [exact channel_sym|]. split; [reflexivity|]. split; [reflexivity|]. split; [reflexivity|].
  split; [intros d H; apply repeat_spec in H; exact H|]. split; [vm_compute; reflexivity|]. exists 1, 8. split; [cbn; lia|]. split; vm_compute; reflexivity.
Qed.
Print Assumptions C143_mesh_marks_near_extremes_refuted.

(** A gap of one step is closed: in the middle step nothing is extreme. *)
Example C143_case : exists s,
  fill_time_gaps_mesh (mkMesh strip strip_mask 2 2 (ByAbsolute 1) []) (map (fill_holes_mesh strip 2 strip_mask) [[true; true; true; true; false; false]; repeat false 6; [true; true; true; true; false; false]]) = Some s /\
  map (on_ocean strip_mask) s = repeat [true; true; true; true; false; false] 3 /\
  (forall c, c < length strip -> exists j, within strip 2 c j /\ atb strip_mask j = true).
Proof.
  eexists. split; [vm_compute; reflexivity|]. split; [reflexivity|]. intros c H.
  do 4 (destruct c as [|c]; [eexists; split; [apply within_here|reflexivity]|]).
  destruct c as [|c]; [exists 3; split; [apply (within_step _ 1 4 3 3); [unfold adj; cbn; tauto|apply within_here]|reflexivity]|].
  destruct c as [|c]; [exists 3; split; [apply (within_step _ 1 5 4 3); [unfold adj; cbn; tauto|apply (within_step _ 0 4 3 3); [unfold adj; cbn; tauto|apply within_here]]|reflexivity]|].
  cbn in H. lia.
Qed.
