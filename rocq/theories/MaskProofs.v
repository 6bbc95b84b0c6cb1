(** Runs of one record over two masks that agree near its extremes. *)
From Verif Require Import Base Morph MorphSpec MorphProofs MorphPlaneProofs MorphTimeProofs MorphMeshProofs NearProps Graph Label LabelSpec LabelProofs Filter FilterSpec FilterProps Overlap Merge Partition Cluster Run RelateSpec RelateProofs ClusterFinal ModeProofs MaskSpec.
Open Scope nat_scope.

Lemma slice_mask reg R ny nx mask mask' f f' y x : (0 <= R)%Z -> (0 < ny)%Z -> (0 < nx)%Z -> in_grid ny nx y x ->
  (forall b c, in_grid ny nx b c -> f b c = f' b c) ->
  ((exists b c, beside reg ny nx R y x b c /\ f b c = true) -> mask y x = mask' y x) ->
  fill_holes_slice reg R ny nx mask f y x = fill_holes_slice reg R ny nx mask' f' y x.
Proof.
  intros HR Ny Nx I F M. rewrite <- (slice_ext reg R ny nx mask' f f' Ny Nx F y x I).
  assert (B : fill_holes_slice reg R ny nx (fun _ _ => true) f y x = true -> mask y x = mask' y x).
  { intro B. apply M. exact (proj2 (slice_beside _ _ _ _ _ _ _ _ HR Ny Nx I B)). }
  unfold fill_holes_slice in *. destruct (if (R =? 0)%Z then _ else _); [rewrite (B eq_refl); reflexivity|rewrite !andb_false_r; reflexivity].
Qed.

Lemma nth_slices (G : img -> img) (s : list img) t y x : t < length s ->
  nth t (map G s) (fun _ _ => false) y x = G (nth t s (fun _ _ => false)) y x.
Proof. intro T. rewrite (nth_map_gen G s t (fun _ _ => false)) by exact T. reflexivity. Qed.

Lemma closed_some T l l' t : (0 <= T)%Z -> Z.even T = true -> close_time T l = Some l' -> nth t l' false = true ->
  exists q, q < length l /\ nth q l false = true.
Proof.
  intros HT Ev E N. destruct (close_time_gaps T _ _ HT Ev E) as [L G].
  assert (Lt : t < length l) by (destruct (Nat.lt_ge_cases t (length l)) as [C|C]; [exact C|rewrite nth_overflow in N by lia; discriminate]).
  specialize (G (Z.of_nat t) ltac:(lia)). unfold ext in G. rewrite at_t_nth in G. apply G in N. destruct N as [N|(a & b & L1 & L2 & Ea & _)].
  - rewrite at_t_nth in N. exists t. auto.
  - unfold ext in Ea. assert (R0 := at_t_in _ _ Ea). rewrite <- (Z2Nat.id a) in Ea by lia. rewrite at_t_nth in Ea. exists (Z.to_nat a). split; [lia|exact Ea].
Qed.

Section Two.
Variables (reg : bool) (T R ny nx : Z) (mask mask' : img) (s : list img).
Hypotheses (HT : (0 <= T)%Z) (Ev : Z.even T = true) (HR : (0 <= R)%Z) (Ny : (0 < ny)%Z) (Nx : (0 < nx)%Z).
Hypothesis (Ag : forall y x, in_grid ny nx y x ->
  (exists t y1 x1 y2 x2, t < length s /\ beside reg ny nx (R / 2) y x y1 x1 /\ beside reg ny nx R y1 x1 y2 x2 /\ nth t s (fun _ _ => false) y2 x2 = true) ->
  mask y x = mask' y x).

Lemma first_same t y x : t < length s -> in_grid ny nx y x ->
  nth t (fill_holes reg R ny nx mask s) (fun _ _ => false) y x = nth t (fill_holes reg R ny nx mask' s) (fun _ _ => false) y x.
Proof.
  intros L I. unfold fill_holes. rewrite !nth_slices by exact L. apply slice_mask; auto.
  intros (b & c & B & F). apply Ag; [exact I|]. exists t, y, x, b, c. split; [exact L|]. split; [apply beside_here; assumption|auto].
Qed.

Lemma series_same y x : in_grid ny nx y x -> series_at (fill_holes reg R ny nx mask s) y x = series_at (fill_holes reg R ny nx mask' s) y x.
Proof.
  intro I. apply nth_ext with (d := false) (d' := false); [unfold series_at, fill_holes; rewrite !map_length; reflexivity|].
  intros t L. unfold series_at, fill_holes in L. rewrite !map_length in L. rewrite !nth_series. apply first_same; assumption.
Qed.

Lemma record_same : match preprocess_morph reg T R ny nx mask s, preprocess_morph reg T R ny nx mask' s with
  | Some a, Some b => length a = length s /\ length b = length s /\
      forall t y x, t < length s -> in_grid ny nx y x -> nth t a (fun _ _ => false) y x = nth t b (fun _ _ => false) y x
  | None, None => True | _, _ => False end.
Proof.
  unfold preprocess_morph, fill_time_gaps. destruct (Z.eqb_spec T 0) as [Z0|Z0].
  - assert (Lf : forall m, length (fill_holes reg R ny nx m s) = length s) by (intro m; unfold fill_holes; apply map_length). split; [apply Lf|]. split; [apply Lf|]. intros t y x L I. apply first_same; assumption.
  - destruct (Z.ltb_spec (T + 1) 0) as [C|C]; [lia|].
    set (cl := fun m y x => match close_time T (series_at (fill_holes reg R ny nx m s) y x) with Some l => l | None => [] end).
    change (fun y x => match close_time T (series_at (fill_holes reg R ny nx mask s) y x) with Some l => l | None => [] end) with (cl mask).
    change (fun y x => match close_time T (series_at (fill_holes reg R ny nx mask' s) y x) with Some l => l | None => [] end) with (cl mask').
    assert (Ls : forall m, length (fill_holes reg R ny nx m s) = length s) by (intro m; unfold fill_holes; apply map_length). rewrite !Ls.
    assert (Cs : forall b c, in_grid ny nx b c -> cl mask b c = cl mask' b c) by (intros b c I; unfold cl; rewrite (series_same b c I); reflexivity).
    unfold fill_holes. rewrite !map_length, seq_length. split; [reflexivity|]. split; [reflexivity|]. intros t y x L I.
    rewrite !nth_slices by (rewrite map_length, seq_length; exact L).
    assert (Nc : forall m, nth t (map (fun (i : nat) (y x : Z) => nth i (cl m y x) false) (seq 0 (length s))) (fun _ _ => false) = (fun y x => nth t (cl m y x) false)).
    { intro m. rewrite (nth_map_gen (fun (i : nat) (y x : Z) => nth i (cl m y x) false) (seq 0 (length s)) t 0) by (rewrite seq_length; exact L). rewrite seq_nth by exact L. reflexivity. }
    change (fill_holes_slice reg (R / 2) ny nx mask (nth t (map (fun (i : nat) (y x : Z) => nth i (cl mask y x) false) (seq 0 (length s))) (fun _ _ => false)) y x =
            fill_holes_slice reg (R / 2) ny nx mask' (nth t (map (fun (i : nat) (y x : Z) => nth i (cl mask' y x) false) (seq 0 (length s))) (fun _ _ => false)) y x).
    rewrite !Nc.
    apply slice_mask; auto; [apply Z.div_pos; lia|intros b c J; rewrite (Cs b c J); reflexivity|].
    intros (y1 & x1 & B & F). apply Ag; [exact I|]. unfold cl in F. destruct (close_time T (series_at (fill_holes reg R ny nx mask s) y1 x1)) as [l|] eqn:E; [|destruct t; discriminate].
    destruct (closed_some T _ _ _ HT Ev E F) as (q & Lq & Fq). unfold series_at in Lq. rewrite map_length, Ls in Lq. rewrite nth_series in Fq.
    unfold fill_holes in Fq. rewrite nth_slices in Fq by exact Lq. apply slice_beside in Fq; auto; [|exact (proj1 B)]. destruct Fq as (_ & y2 & x2 & B2 & F2).
    exists q, y1, x1, y2, x2. auto.
Qed.
End Two.

Lemma fill_grid_mask g mask' data : length data = g_nt g -> 0 < g_ny g -> 0 < g_nx g -> (0 <= g_R g)%Z -> (0 <= g_T g)%Z -> Z.even (g_T g) = true ->
  masks_agree g mask' data ->
  fill_grid (with_mask g mask') data = fill_grid g data.
Proof.
  intros L Ny Nx HR HT Ev Ag. unfold fill_grid. cbn [with_mask g_regional g_T g_R g_ny g_nx g_mask].
  assert (H := record_same (g_regional g) (g_T g) (g_R g) (Z.of_nat (g_ny g)) (Z.of_nat (g_nx g)) (img_of (g_nx g) mask') (img_of (g_nx g) (g_mask g)) (map (img_of (g_nx g)) data) HT Ev HR ltac:(lia) ltac:(lia)).
  destruct (preprocess_morph _ _ _ _ _ (img_of (g_nx g) mask') _) as [a|]; destruct (preprocess_morph _ _ _ _ _ (img_of (g_nx g) (g_mask g)) _) as [b|]; cbn [option_map].
  - assert (H' : length a = length (map (img_of (g_nx g)) data) /\ length b = length (map (img_of (g_nx g)) data) /\ forall t y x, t < length (map (img_of (g_nx g)) data) -> in_grid (Z.of_nat (g_ny g)) (Z.of_nat (g_nx g)) y x -> nth t a (fun _ _ => false) y x = nth t b (fun _ _ => false) y x).
    { apply H. clear H. intros y x [Y X] (t & y1 & x1 & y2 & x2 & Lt & B1 & B2 & V). unfold img_of. apply Ag; try lia. rewrite map_length in Lt.
      exists t, y1, x1, (Z.to_nat y2), (Z.to_nat x2). destruct (proj1 B2) as [Y2 X2]. rewrite !Z2Nat.id by lia. split; [lia|]. split; [exact B1|]. split; [exact B2|].
      rewrite (nth_map_gen (img_of (g_nx g)) data t []) in V by exact Lt. exact V. }
    clear H. destruct H' as (La & Lb & Q). rewrite map_length in *. f_equal.
    apply nth_ext with (d := @nil bool) (d' := @nil bool); [rewrite !map_length; congruence|]. intros t T. rewrite map_length in T.
    rewrite !(nth_map_gen (flat_img (g_ny g) (g_nx g)) _ t (fun _ _ => false)) by lia. apply flat_img_ext. intros y x Y X. apply Q; [lia|]. unfold in_grid. lia.
  - exfalso. apply H. intros y x [Y X] (t & y1 & x1 & y2 & x2 & Lt & B1 & B2 & V). unfold img_of. apply Ag; try lia. rewrite map_length in Lt.
      exists t, y1, x1, (Z.to_nat y2), (Z.to_nat x2). destruct (proj1 B2) as [Y2 X2]. rewrite !Z2Nat.id by lia. split; [lia|]. split; [exact B1|]. split; [exact B2|].
      rewrite (nth_map_gen (img_of (g_nx g)) data t []) in V by exact Lt. exact V.
  - exfalso. apply H. intros y x [Y X] (t & y1 & x1 & y2 & x2 & Lt & B1 & B2 & V). unfold img_of. apply Ag; try lia. rewrite map_length in Lt.
      exists t, y1, x1, (Z.to_nat y2), (Z.to_nat x2). destruct (proj1 B2) as [Y2 X2]. rewrite !Z2Nat.id by lia. split; [lia|]. split; [exact B1|]. split; [exact B2|].
      rewrite (nth_map_gen (img_of (g_nx g)) data t []) in V by exact Lt. exact V.
  - reflexivity.
Qed.

(** ** Meshes *)
Definition ocean_marks (mask v : list bool) (i : nat) : bool := atb mask i && atb v i.

Lemma identify_same m mask mask' d d' : length mask = length m -> length mask' = length m -> length d = length m -> length d' = length m ->
  (forall i, i < length m -> ocean_marks mask d i = ocean_marks mask' d' i) -> identify_mesh m mask d = identify_mesh m mask' d'.
Proof.
  intros Lm Lm' Ld Ld' E. unfold identify_mesh.
  assert (Nth : forall (a b : list bool) i, length a = length m -> length b = length m -> i < length m -> nth i (map (fun p : bool * bool => fst p && snd p) (combine a b)) false = ocean_marks a b i).
  { intros a b i La Lb I. rewrite (nth_map_gen _ _ i (false, false)) by (rewrite combine_length; lia). rewrite combine_nth by lia. reflexivity. }
  set (on := map (fun p : bool * bool => fst p && snd p) (combine mask d)). set (on' := map (fun p : bool * bool => fst p && snd p) (combine mask' d')).
  assert (Lon : length on = length m) by (unfold on; rewrite map_length, combine_length; lia). assert (Lon' : length on' = length m) by (unfold on'; rewrite map_length, combine_length; lia).
  assert (Eon : on = on').
  { apply nth_ext with (d := false) (d' := false); [congruence|]. intros i I. rewrite Lon in I. unfold on, on'. rewrite !Nth by assumption. apply E. exact I. }
  assert (One : forall (a b : list bool) o, length a = length m -> length b = length m -> length o = length m -> (forall i, i < length m -> nth i o false = ocean_marks a b i) ->
    map (fun p : bool * Z => if fst p then snd p else 0%Z) (combine a (label_on o (mesh_edges m))) = label_on o (mesh_edges m)).
  { intros a b o La Lb Lo H. apply nth_ext with (d := 0%Z) (d' := 0%Z); [rewrite map_length, combine_length, label_on_length; lia|]. intros i I. rewrite map_length, combine_length, label_on_length in I.
    rewrite (nth_map_gen _ _ i (false, 0%Z)) by (rewrite combine_length, label_on_length; lia). rewrite combine_nth by (rewrite label_on_length; lia). cbn [fst snd].
    destruct (nth i a false) eqn:A; [reflexivity|]. symmetry. apply label_on_zero. unfold onb. rewrite H by lia. unfold ocean_marks, atb. rewrite A. reflexivity. }
  rewrite (One mask d on), (One mask' d' on'); try assumption; [rewrite Eon; reflexivity| |]; intros i I; unfold on, on'; apply Nth; assumption.
Qed.

Section Masks.
Variables (m : mesh) (mask mask' : list bool).
Hypotheses (OK : mesh_ok m) (Sy : mesh_sym m) (Lm : length mask = length m) (Lm' : length mask' = length m).

(** One pass, on cells that are ocean of the first mask. *)
Lemma pass_ocean R v i (U : nat -> Prop) : length v = length m -> i < length m ->
  (forall l, atb v l = true -> U l) -> (forall l c, U l -> within m (4 * R) l c -> atb mask c = atb mask' c) ->
  ocean_marks mask (fill_holes_mesh m R mask v) i = true -> ocean_marks mask' (fill_holes_mesh m R mask' v) i = true.
Proof.
  intros Lv I Vu Ag H. unfold ocean_marks in H. apply andb_prop in H. destruct H as [Mi F].
  destruct (fill_mesh_stays_near m R mask v i OK Sy Lm Lv I Mi F) as (l & Wl & Vl). specialize (Vu l Vl). assert (Wi := within_sym _ _ _ _ Sy Wl).
  assert (Am : forall n c, n <= 3 * R -> within m n i c -> atb mask c = atb mask' c).
  { intros n c Hn W. apply (Ag l c Vu). replace (4 * R) with (R + n + (3 * R - n)) by lia. rewrite <- (Nat.add_0_r 0). apply (within_app m (R + n) (3 * R - n) l c c); [apply (within_app m R n l i c); assumption|constructor]. }
  unfold ocean_marks. apply andb_true_intro. split; [rewrite <- (Am 0 i); [exact Mi|lia|constructor]|].
  apply fill_mesh_at in F; auto. apply fill_mesh_at; auto. destruct F as (c & Wc & F). exists c. split; [exact Wc|]. intros j Wj.
  assert (Wij := within_app _ _ _ _ _ _ Wc Wj). rewrite <- (Am (R + R) j ltac:(lia) Wij). destruct (F j Wj) as [G|G]; [left; exact G|right]. intros k Wk.
  assert (Wik := within_app _ _ _ _ _ _ Wij Wk). rewrite <- (Am (R + R + R) k ltac:(lia) Wik). exact (G k Wk).
Qed.

(** One pass, on every cell, where every cell is near the ocean. *)
Lemma pass_all R v i (U : nat -> Prop) : length v = length m -> i < length m ->
  (forall c, c < length m -> exists j, within m R c j /\ atb mask j = true) ->
  (forall l, atb v l = true -> U l) -> (forall l c, U l -> within m (6 * R) l c -> atb mask c = atb mask' c) ->
  atb (fill_holes_mesh m R mask v) i = true -> atb (fill_holes_mesh m R mask' v) i = true.
Proof.
  intros Lv I Sh Vu Ag F. destruct (mark_anywhere m R mask v i OK Lm Lv I Sh F) as (l & Wl & Vl). specialize (Vu l Vl). assert (Wi := within_sym _ _ _ _ Sy Wl).
  assert (Am : forall n c, n <= 3 * R -> within m n i c -> atb mask c = atb mask' c).
  { intros n c Hn W. apply (Ag l c Vu). replace (6 * R) with (3 * R + n + (3 * R - n)) by lia. apply (within_app m (3 * R + n) (3 * R - n) l c c); [apply (within_app m (3 * R) n l i c); assumption|constructor]. }
  apply fill_mesh_at in F; auto. apply fill_mesh_at; auto. destruct F as (c & Wc & F). exists c. split; [exact Wc|]. intros j Wj.
  assert (Wij := within_app _ _ _ _ _ _ Wc Wj). rewrite <- (Am (R + R) j ltac:(lia) Wij). destruct (F j Wj) as [G|G]; [left; exact G|right]. intros k Wk.
  assert (Wik := within_app _ _ _ _ _ _ Wij Wk). rewrite <- (Am (R + R + R) k ltac:(lia) Wik). exact (G k Wk).
Qed.
End Masks.

Lemma within_le m a b i j : a <= b -> within m a i j -> within m b i j.
Proof. intros L W. replace b with (a + (b - a)) by lia. apply (within_app m a (b - a) i j j); [exact W|constructor]. Qed.

Section MeshMasks.
Variables (h : mesh_setup) (mask' : list bool) (data : field).
Let m := h_nbs h.
Hypotheses (OK : mesh_ok m) (Sy : mesh_sym m) (Lm : length (h_mask h) = length m) (Lm' : length mask' = length m) (Ld : forall d, In d data -> length d = length m).
Hypotheses (HT : (0 <= h_T h)%Z) (Ev : Z.even (h_T h) = true).
Hypothesis Ag : (h_T h = 0%Z /\ masks_agree_within (4 * h_R h) h mask' data) \/
  (masks_agree_within (6 * h_R h) h mask' data /\ ocean_within (h_R h) m (h_mask h) /\ ocean_within (h_R h) m mask').

Lemma filled_marks : exists s s',
  fill_time_gaps_mesh h (map (fill_holes_mesh m (h_R h) (h_mask h)) data) = Some s /\
  fill_time_gaps_mesh (with_ocean h mask') (map (fill_holes_mesh m (h_R h) mask') data) = Some s' /\
  length s = length data /\ length s' = length data /\ (forall d, In d s -> length d = length m) /\ (forall d, In d s' -> length d = length m) /\
  forall t i, t < length data -> i < length m -> ocean_marks (h_mask h) (nth t s []) i = ocean_marks mask' (nth t s' []) i.
Proof.
  unfold fill_time_gaps_mesh. cbn [with_ocean h_T h_nbs h_R h_mask]. fold m.
  assert (Len : forall R mk d, length mk = length m -> length d = length m -> length (fill_holes_mesh m R mk d) = length m) by (intros; apply fill_mesh_length; assumption).
  assert (Dt : forall t, t < length data -> length (nth t data []) = length m) by (intros t T; apply Ld, nth_In, T).
  destruct (Z.eqb_spec (h_T h) 0) as [Z0|Z0].
  - eexists. eexists. split; [reflexivity|]. split; [reflexivity|]. rewrite !map_length. split; [reflexivity|]. split; [reflexivity|].
    split; [intros d H; apply in_map_iff in H; destruct H as (v & <- & V); apply Len; auto|]. split; [intros d H; apply in_map_iff in H; destruct H as (v & <- & V); apply Len; auto|].
    intros t i T I. rewrite !(nth_map_gen _ data t []) by exact T.
    assert (A4 : masks_agree_within (4 * h_R h) h mask' data).
    { destruct Ag as [[_ A]|[A _]]; [exact A|]. intros t1 l c T1 V W. apply (A t1 l c T1 V). apply (within_le _ (4 * h_R h)); [lia|exact W]. }
    apply eq_true_iff_eq. split; apply (pass_ocean m) with (U := fun l => atb (nth t data []) l = true); auto;
      intros l c V W; [|symmetry]; exact (A4 t l c T V W).
  - destruct (Z.ltb_spec (h_T h + 1) 0) as [C|C]; [lia|]. destruct Ag as [[Z1 _]|(A & Sh & Sh')]; [contradiction|].
    assert (Ef : map (fill_holes_mesh m (h_R h) mask') data = map (fill_holes_mesh m (h_R h) (h_mask h)) data).
    { apply map_ext_in. intros d D. apply nth_ext with (d := false) (d' := false); [rewrite !Len; auto|]. intros i I. rewrite Len in I by auto.
      destruct (In_nth data d [] D) as (t & T & <-). apply eq_true_iff_eq.
      split; apply (pass_all m) with (U := fun l => atb (nth t data []) l = true); auto; intros l c V W; [symmetry|]; exact (A t l c T V W). }
    rewrite Ef. rewrite !map_length. set (f1 := map (fill_holes_mesh m (h_R h) (h_mask h)) data).
    set (ser := fun i => match close_time (h_T h) (map (fun v => atb v i) f1) with Some l => l | None => [] end).
    set (v2 := fun t => map (fun i => nth t (ser i) false) (seq 0 (length m))).
    assert (Lv2 : forall t, length (v2 t) = length m) by (intro t; unfold v2; rewrite map_length, seq_length; reflexivity).
    exists (map (fun t => fill_holes_mesh m (h_R h / 2) (h_mask h) (v2 t)) (seq 0 (length data))), (map (fun t => fill_holes_mesh m (h_R h / 2) mask' (v2 t)) (seq 0 (length data))).
    split; [reflexivity|]. split; [reflexivity|]. rewrite !map_length, seq_length. split; [reflexivity|]. split; [reflexivity|].
    split; [intros d H; apply in_map_iff in H; destruct H as (v & <- & V); apply Len; auto|]. split; [intros d H; apply in_map_iff in H; destruct H as (v & <- & V); apply Len; auto|].
    intros t i T I. rewrite !(nth_map_gen _ (seq 0 (length data)) t 0) by (rewrite seq_length; exact T). rewrite !seq_nth by exact T. cbn [plus].
    assert (Near : forall l, atb (v2 t) l = true -> exists q e, q < length data /\ atb (nth q data []) e = true /\ within m (3 * h_R h) e l).
    { intros l V. assert (Ll : l < length m) by (destruct (Nat.lt_ge_cases l (length m)) as [X|X]; [exact X|unfold atb in V; rewrite nth_overflow in V by (rewrite Lv2; exact X); discriminate]).
      unfold atb, v2 in V. rewrite (nth_map_gen _ (seq 0 (length m)) l 0) in V by (rewrite seq_length; exact Ll). rewrite seq_nth in V by exact Ll. cbn [plus] in V. unfold ser in V.
      destruct (close_time (h_T h) (map (fun v => atb v l) f1)) as [cl|] eqn:E; [|destruct t; discriminate].
      destruct (closed_mesh_at h f1 t l cl ltac:(lia) Ev ltac:(unfold f1; rewrite map_length; exact T) E V) as (q & Lq & _ & Q). unfold f1 in Lq, Q. rewrite map_length in Lq.
      rewrite (nth_map_gen _ data q []) in Q by exact Lq. destruct (mark_anywhere m (h_R h) (h_mask h) _ l OK Lm (Dt q Lq) Ll Sh Q) as (e & We & Ve).
      exists q, e. split; [exact Lq|]. split; [exact Ve|]. apply within_sym; assumption. }
    assert (Hh : 4 * (h_R h / 2) <= 2 * h_R h) by (assert (X := Nat.mul_div_le (h_R h) 2); lia).
    apply eq_true_iff_eq.
    split; apply (pass_ocean m) with (U := fun l => exists q e, q < length data /\ atb (nth q data []) e = true /\ within m (3 * h_R h) e l); auto;
      intros l c (q & e & Lq & Ve & We) W; [|symmetry]; apply (A q e c Lq Ve); apply (within_le _ (3 * h_R h + 4 * (h_R h / 2))); [lia| |lia|]; exact (within_app _ _ _ _ _ _ We W).
Qed.

Lemma clean_mesh_mask : clean_mesh (with_ocean h mask') data = clean_mesh h data.
Proof.
  destruct filled_marks as (s & s' & E & E' & L & L' & W & W' & H). unfold clean_mesh. cbn [with_ocean h_nbs h_R h_mask h_rule]. fold m. rewrite E, E'. unfold filter_small_mesh.
  replace (map (identify_mesh m mask') s') with (map (identify_mesh m (h_mask h)) s); [reflexivity|].
  apply nth_ext with (d := @nil Z) (d' := @nil Z); [rewrite !map_length; congruence|]. intros t T. rewrite map_length in T.
  rewrite !(nth_map_gen _ _ t []) by lia. apply identify_same; auto; [apply W, nth_In; lia|apply W', nth_In; lia|]. intros i I. apply H; [lia|exact I].
Qed.

(** Kept cells are ocean in both masks. *)
Lemma kept_ocean f t i : clean_mesh h data = Ok f -> nth i (nth t (f_keep f) []) false = true -> atb (h_mask h) i = true /\ atb mask' i = true.
Proof.
  intros Hc K. destruct filled_marks as (s & s' & E & E' & L & L' & W & W' & H). unfold clean_mesh in Hc. fold m in Hc. rewrite E in Hc.
  destruct (filter_small_mesh (h_rule h) m (h_mask h) s) as [f0|] eqn:F; [injection Hc as <-|discriminate].
  destruct (C18_mesh_keeps_objects_above_threshold m (h_mask h) s (h_rule h) f0 (conj OK (conj Lm W)) F) as [Lk Kp].
  assert (T : t < length s). { destruct (Nat.lt_ge_cases t (length s)) as [X|X]; [exact X|]. rewrite (nth_overflow (f_keep f0)) in K by lia. destruct i; discriminate. }
  apply (Kp t i T) in K. destruct K as [(I & Mi & Di) _]. split; [exact Mi|]. specialize (H t i ltac:(lia) I). unfold ocean_marks, atb in H. rewrite Mi, Di in H. symmetry in H. apply andb_prop in H. exact (proj1 H).
Qed.

Lemma kept_shape f : clean_mesh h data = Ok f -> forall d, In d (f_keep f) -> length d = length m.
Proof.
  intros Hc d D. destruct filled_marks as (s & s' & E & E' & L & L' & W & W' & H). unfold clean_mesh in Hc. fold m in Hc. rewrite E in Hc. unfold filter_small_mesh, filter_mesh in Hc.
  destruct (filter _ (flat_map fst _)) as [|a r]; [discriminate|]. injection Hc as <-. cbn [f_keep] in D. apply in_map_iff in D. destruct D as ([tb ids] & <- & P). apply in_combine_r in P.
  unfold keep_mesh. rewrite map_length. cbn [snd]. apply in_map_iff in P. destruct P as (v & <- & V). unfold identify_mesh. rewrite map_length, combine_length, label_on_length, map_length, combine_length, (W v V). lia.
Qed.
End MeshMasks.
