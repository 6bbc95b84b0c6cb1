(** Proofs about filling on a globe turned in longitude, away from the seam. *)
From Verif Require Import Base Morph MorphSpec MorphProofs MorphProps Label LabelSpec LabelProofs Filter FilterSpec Overlap Merge Partition Cluster ClusterSpec ClusterFinal
  Run RunSpec RunProofs PipelineProps RelateSpec CutSpec CutProofs TurnSpec.
Open Scope Z_scope.

(** Dilation and erosion on the rows 0 .. h - 1, with columns without end. *)
Section Strip.
Variables (R h : Z).
Hypothesis R0 : 0 <= R.
Definition sgrows (S : Z -> Z -> Prop) : Z -> Z -> Prop := fun y x => exists dy dx, in_disk R dy dx /\ 0 <= y + dy < h /\ S (y + dy) (x + dx).
Definition sshrinks (S : Z -> Z -> Prop) : Z -> Z -> Prop := fun y x => forall dy dx, in_disk R dy dx -> 0 <= y + dy < h /\ S (y + dy) (x + dx).
Definition strip_filter (S : Z -> Z -> Prop) : Z -> Z -> Prop := sgrows (sshrinks (sshrinks (sgrows S))).

Lemma reach dy dx : in_disk R dy dx -> - R <= dy <= R /\ - R <= dx <= R.
Proof. intro D. apply (disk_In R dy dx R0) in D. apply (disk_bound R _ R0) in D. exact D. Qed.
Lemma centre : in_disk R 0 0.
Proof. unfold in_disk. nia. Qed.
Lemma sgrows_ext S1 S2 : eqS S1 S2 -> eqS (sgrows S1) (sgrows S2).
Proof. intros E y x. split; intros (dy & dx & D & B & H); exists dy, dx; (split; [exact D|split; [exact B|apply E; exact H]]). Qed.
Lemma sshrinks_ext S1 S2 : eqS S1 S2 -> eqS (sshrinks S1) (sshrinks S2).
Proof. intros E y x. split; intros H dy dx D; destruct (H dy dx D) as [B V]; (split; [exact B|apply E; exact V]). Qed.
Lemma strip_ext S1 S2 : eqS S1 S2 -> eqS (strip_filter S1) (strip_filter S2).
Proof. intro E. unfold strip_filter. apply sgrows_ext, sshrinks_ext, sshrinks_ext, sgrows_ext, E. Qed.
Lemma sgrows_moved b S : eqS (sgrows (movedS 0 b S)) (movedS 0 b (sgrows S)).
Proof.
  unfold sgrows, movedS. intros y x. split; intros (dy & dx & D & B & H); exists dy, dx; (split; [exact D|]).
  - replace (y - 0 + dy) with (y + dy - 0) by lia. replace (x - b + dx) with (x + dx - b) by lia. split; [lia|exact H].
  - replace (y + dy - 0) with (y - 0 + dy) by lia. replace (x + dx - b) with (x - b + dx) by lia. split; [lia|exact H].
Qed.
Lemma sshrinks_moved b S : eqS (sshrinks (movedS 0 b S)) (movedS 0 b (sshrinks S)).
Proof.
  unfold sshrinks, movedS. intros y x. split; intros H dy dx D; destruct (H dy dx D) as [B V].
  - replace (y - 0 + dy) with (y + dy - 0) by lia. replace (x - b + dx) with (x + dx - b) by lia. split; [lia|exact V].
  - replace (y + dy - 0) with (y - 0 + dy) by lia. replace (x + dx - b) with (x - b + dx) by lia. split; [lia|exact V].
Qed.
Lemma strip_moved b S : eqS (strip_filter (movedS 0 b S)) (movedS 0 b (strip_filter S)).
Proof.
  unfold strip_filter.
  assert (E1 := sgrows_moved b S).
  assert (E2 := eqS_trans _ _ _ (sshrinks_ext _ _ E1) (sshrinks_moved b (sgrows S))).
  assert (E3 := eqS_trans _ _ _ (sshrinks_ext _ _ E2) (sshrinks_moved b _)).
  exact (eqS_trans _ _ _ (sgrows_ext _ _ E3) (sgrows_moved b _)).
Qed.

(** Where dilating, and closing, can reach. *)
Lemma sgrows_cols (S : Z -> Z -> Prop) x0 x1 : (forall y x, S y x -> x0 <= x <= x1) -> forall y x, sgrows S y x -> x0 - R <= x <= x1 + R.
Proof. intros B y x (dy & dx & D & _ & H). apply B in H. apply reach in D. lia. Qed.
Lemma sshrinks_cols (S : Z -> Z -> Prop) x0 x1 : (forall y x, S y x -> x0 - R <= x <= x1 + R) -> forall y x, sshrinks S y x -> x0 <= x <= x1.
Proof.
  intros B y x H. assert (D1 : in_disk R 0 R) by (unfold in_disk; nia). assert (D2 : in_disk R 0 (- R)) by (unfold in_disk; nia).
  destruct (H _ _ D1) as [_ V1]. destruct (H _ _ D2) as [_ V2]. apply B in V1, V2. lia.
Qed.
Lemma sshrinks_less (S : Z -> Z -> Prop) y x : sshrinks S y x -> S y x.
Proof. intro H. destruct (H 0 0 centre) as [_ V]. rewrite !Z.add_0_r in V. exact V. Qed.
Lemma strip_closed (S : Z -> Z -> Prop) y x : strip_filter S y x -> sshrinks (sgrows S) y x.
Proof.
  intros (dy & dx & D & B & H). assert (D2 : in_disk R (- dy) (- dx)) by (unfold in_disk in *; nia). destruct (H _ _ D2) as [_ V].
  replace (y + dy + - dy) with y in V by lia. replace (x + dx + - dx) with x in V by lia. exact V.
Qed.
Lemma strip_cols (S : Z -> Z -> Prop) x0 x1 : (forall y x, S y x -> x0 <= x <= x1) -> forall y x, strip_filter S y x -> x0 <= x <= x1.
Proof. intros B y x H. apply strip_closed in H. revert H. apply sshrinks_cols. apply sgrows_cols. exact B. Qed.

(** Two fields with more than a diameter between them are filtered one by one. *)
Definition either (A B : Z -> Z -> Prop) : Z -> Z -> Prop := fun y x => A y x \/ B y x.
Lemma sgrows_either A B : eqS (sgrows (either A B)) (either (sgrows A) (sgrows B)).
Proof.
  intros y x. split.
  - intros (dy & dx & D & I & [H|H]); [left|right]; exists dy, dx; auto.
  - intros [(dy & dx & D & I & H)|(dy & dx & D & I & H)]; exists dy, dx; (split; [exact D|split; [exact I|]]); [left|right]; exact H.
Qed.
Lemma sshrinks_either (A B : Z -> Z -> Prop) p : (forall y x, A y x -> x <= p) -> (forall y x, B y x -> p + 2 * R < x) ->
  eqS (sshrinks (either A B)) (either (sshrinks A) (sshrinks B)).
Proof.
  intros Ha Hb y x. split.
  - intro H. destruct (H 0 0 centre) as [_ V]. rewrite !Z.add_0_r in V. destruct V as [V|V].
    + left. intros dy dx D. destruct (H dy dx D) as [I W]. split; [exact I|]. destruct W as [W|W]; [exact W|exfalso].
      apply Ha in V. apply Hb in W. apply reach in D. lia.
    + right. intros dy dx D. destruct (H dy dx D) as [I W]. split; [exact I|]. destruct W as [W|W]; [exfalso|exact W].
      apply Hb in V. apply Ha in W. apply reach in D. lia.
  - intros [H|H] dy dx D; destruct (H dy dx D) as [I V]; (split; [exact I|]); [left|right]; exact V.
Qed.
Lemma strip_either (A B : Z -> Z -> Prop) p : (forall y x, A y x -> x <= p) -> (forall y x, B y x -> p + 4 * R < x) ->
  eqS (strip_filter (either A B)) (either (strip_filter A) (strip_filter B)).
Proof.
  intros Ha Hb. unfold strip_filter.
  assert (Ga : forall y x, sgrows A y x -> x <= p + R) by (intros y x (dy & dx & D & _ & H); apply Ha in H; apply reach in D; lia).
  assert (Gb : forall y x, sgrows B y x -> p + R + 2 * R < x) by (intros y x (dy & dx & D & _ & H); apply Hb in H; apply reach in D; lia).
  assert (Ca : forall y x, sshrinks (sgrows A) y x -> x <= p + R) by (intros y x H; apply (Ga y), sshrinks_less, H).
  assert (Cb : forall y x, sshrinks (sgrows B) y x -> p + R + 2 * R < x) by (intros y x H; apply (Gb y), sshrinks_less, H).
  assert (E2 := eqS_trans _ _ _ (sshrinks_ext _ _ (sgrows_either A B)) (sshrinks_either _ _ _ Ga Gb)).
  assert (E3 := eqS_trans _ _ _ (sshrinks_ext _ _ E2) (sshrinks_either _ _ _ Ca Cb)).
  exact (eqS_trans _ _ _ (sgrows_ext _ _ E3) (sgrows_either _ _)).
Qed.

(** The filter on an array of width [w] with [R] columns to spare on both sides. *)
Section Wide.
Variables (w : Z) (f : img) (S : Z -> Z -> Prop).
Hypothesis Ag : forall y x, inb h w y x = true -> (f y x = true <-> S y x).
Hypothesis In_ : forall y x, S y x -> R <= x < w - R.
Lemma wide_dilated y x : dilate (disk R) h w f y x = true <-> sgrows S y x.
Proof.
  unfold dilate. rewrite existsb_exists. split.
  - intros ([dy dx] & D & H). cbn [fst snd] in H. apply andb_true_iff in H. destruct H as [I H]. exists dy, dx. split; [apply disk_In; assumption|]. split; [apply inb_true in I; lia|]. apply Ag; assumption.
  - intros (dy & dx & D & B & H). exists (dy, dx). split; [apply disk_In; assumption|]. cbn [fst snd]. assert (C := In_ _ _ H). apply andb_true_iff.
    assert (I : inb h w (y + dy) (x + dx) = true) by (apply inb_true; lia). split; [exact I|]. apply Ag; assumption.
Qed.
Lemma wide_eroded e (P : Z -> Z -> Prop) : (forall y x, e y x = true <-> P y x) -> (forall y x, P y x -> 0 <= x < w) ->
  forall y x, erode (disk R) h w e y x = true <-> sshrinks P y x.
Proof.
  intros H B y x. unfold erode, sshrinks. rewrite forallb_forall. split.
  - intros E dy dx D. apply disk_In in D; [|exact R0]. specialize (E _ D). cbn [fst snd] in E. apply andb_true_iff in E. destruct E as [I E]. apply inb_true in I. split; [lia|]. apply H. exact E.
  - intros E [dy dx] D. cbn [fst snd]. apply disk_In in D; [|exact R0]. destruct (E dy dx D) as [I V]. assert (C := B _ _ V). apply andb_true_iff. split; [apply inb_true; lia|apply H; exact V].
Qed.
Lemma wide_filter y x : opening (disk R) h w (closing (disk R) h w f) y x = true <-> strip_filter S y x.
Proof.
  unfold opening, closing, strip_filter.
  assert (Bg : forall y x, sgrows S y x -> 0 <= x < w) by (intros y0 x0 (dy & dx & D & _ & H); apply In_ in H; apply reach in D; lia).
  assert (A1 := wide_eroded (dilate (disk R) h w f) (sgrows S) wide_dilated Bg).
  assert (B1 : forall y x, sshrinks (sgrows S) y x -> 0 <= x < w) by (intros y0 x0 H; apply (Bg y0), sshrinks_less; exact H).
  assert (A2 := wide_eroded _ _ A1 B1).
  unfold dilate at 1. rewrite existsb_exists. unfold sgrows at 1. split.
  - intros ([dy dx] & D & H). cbn [fst snd] in H. apply andb_true_iff in H. destruct H as [I H]. apply inb_true in I. exists dy, dx. split; [apply disk_In; assumption|]. split; [lia|]. apply A2. exact H.
  - intros (dy & dx & D & I & H). exists (dy, dx). split; [apply disk_In; assumption|]. cbn [fst snd]. apply andb_true_iff.
    assert (C := B1 _ _ (sshrinks_less _ _ _ H)). split; [apply inb_true; lia|apply A2; exact H].
Qed.
End Wide.
End Strip.

(** No extreme in the first or last [m] columns of a picture. *)
Definition aside (m ny nx : Z) (f : img) : Prop := forall y x, in_grid ny nx y x -> f y x = true -> m <= x < nx - m.
Definition spaced (R ny nx : Z) (f : img) : Prop := R = 0 \/ aside (2 * R) ny nx f.
(** The rows wrapped, the columns once. *)
Definition unrolled (ny nx : Z) (R : Z) (f : img) : Z -> Z -> Prop := fun y x => 0 <= x < nx /\ f ((y - 2 * R) mod ny) x = true.

Lemma padded_unrolled R ny nx f y x : 0 < R -> 0 < ny -> 0 < nx -> aside (2 * R) ny nx f ->
  inb (ny + 2 * (2 * R)) (nx + 2 * (2 * R)) y x = true ->
  (pad Wrap (2 * R) ny nx f y x = true <-> movedS 0 (2 * R) (unrolled ny nx R f) y x).
Proof.
  intros R0 Ny Nx C I. apply inb_true in I. unfold movedS, unrolled, pad. rewrite Z.sub_0_r.
  assert (G : in_grid ny nx ((y - 2 * R) mod ny) ((x - 2 * R) mod nx)) by (split; apply Z.mod_pos_bound; assumption). split.
  - intro V. assert (B := C _ _ G V).
    assert (X : 0 <= x - 2 * R < nx).
    { destruct (Z_lt_dec (x - 2 * R) 0) as [H|H]; [|destruct (Z_lt_dec (x - 2 * R) nx) as [H2|H2]; [lia|]]; exfalso; destruct (wrapped nx (x - 2 * R) (2 * R) Nx ltac:(lia) ltac:(lia) ltac:(lia)); lia. }
    rewrite (Z.mod_small (x - 2 * R)) in V by exact X. split; [exact X|exact V].
  - intros [B V]. rewrite (Z.mod_small (x - 2 * R)) by exact B. exact V.
Qed.
Lemma unrolled_cols R ny nx f m : 0 < ny -> aside m ny nx f -> forall y x, unrolled ny nx R f y x -> m <= x <= nx - m - 1.
Proof. intros Ny C y x [X V]. assert (G : in_grid ny nx ((y - 2 * R) mod ny) x) by (split; [apply Z.mod_pos_bound; exact Ny|exact X]). specialize (C _ _ G V). lia. Qed.
Lemma slice_strip R ny nx mask f y x : 0 < R -> in_grid ny nx y x -> aside (2 * R) ny nx f ->
  (fill_holes_slice false R ny nx mask f y x = true <-> mask y x = true /\ strip_filter R (ny + 2 * (2 * R)) (unrolled ny nx R f) (y + 2 * R) x).
Proof.
  intros R0 G C. assert (Ny : 0 < ny) by (destruct G; lia). assert (Nx : 0 < nx) by (destruct G; lia).
  unfold fill_holes_slice. rewrite andb_true_iff. destruct (Z.eqb_spec R 0) as [E|_]; [lia|]. cbv zeta.
  rewrite (wide_filter R (ny + 2 * (2 * R)) ltac:(lia) (nx + 2 * (2 * R)) _ (movedS 0 (2 * R) (unrolled ny nx R f))).
  - rewrite (strip_moved R (ny + 2 * (2 * R)) (2 * R) (unrolled ny nx R f) (y + 2 * R) (x + 2 * R)). unfold movedS. replace (x + 2 * R - 2 * R) with x by lia. rewrite Z.sub_0_r. tauto.
  - intros y0 x0 I. apply padded_unrolled; assumption.
  - intros y0 x0 V. unfold movedS in V. apply (unrolled_cols R ny nx f (2 * R) Ny C) in V. lia.
Qed.
Lemma slice_aside R ny nx mask f m : 0 <= R -> spaced R ny nx f -> aside m ny nx f -> aside m ny nx (fill_holes_slice false R ny nx mask f).
Proof.
  intros R0 Sp C y x G V. destruct (Z.eq_dec R 0) as [->|N].
  - unfold fill_holes_slice in V. cbn in V. apply andb_true_iff in V. apply (C y x G). apply V.
  - destruct Sp as [|Sp]; [contradiction|]. apply slice_strip in V; [|lia|exact G|exact Sp]. destruct V as [_ V]. apply (strip_cols R _ R0 _ m (nx - m - 1)) in V; [lia|].
    apply unrolled_cols; [destruct G; lia|exact C].
Qed.

(** A picture turned east by [k] columns. *)
Definition east (nx k x : Z) : Z := if x + k <? nx then x + k else x + k - nx.
Definition turns (ny nx k : Z) (f f' : img) : Prop := forall y x, in_grid ny nx y x -> f' y (east nx k x) = f y x.
Lemma east_range nx k x : 0 <= k < nx -> 0 <= x < nx -> 0 <= east nx k x < nx.
Proof. intros K X. unfold east. destruct (Z.ltb_spec (x + k) nx); lia. Qed.

Lemma slice_turns R ny nx k mask mask' f f' : 0 <= R -> 0 <= k < nx -> turns ny nx k mask mask' ->
  spaced R ny nx f -> spaced R ny nx f' -> turns ny nx k f f' ->
  turns ny nx k (fill_holes_slice false R ny nx mask f) (fill_holes_slice false R ny nx mask' f').
Proof.
  intros R0 K Mk Sp Sp' Tu y x G. destruct (Z.eq_dec R 0) as [->|N].
  - unfold fill_holes_slice. cbn. rewrite (Mk y x G), (Tu y x G). reflexivity.
  - destruct Sp as [|Sp]; [contradiction|]. destruct Sp' as [|Sp']; [contradiction|].
    assert (Ny : 0 < ny) by (destruct G; lia). assert (X : 0 <= x < nx) by (destruct G; assumption).
    assert (G' : in_grid ny nx y (east nx k x)) by (split; [destruct G; assumption|apply east_range; assumption]).
    apply eq_true_iff_eq. rewrite !slice_strip by (assumption || lia). rewrite (Mk y x G).
    set (A := fun y x => unrolled ny nx R f y x /\ x < nx - k). set (B := fun y x => unrolled ny nx R f y x /\ nx - k <= x).
    assert (E : eqS (unrolled ny nx R f) (either A B)).
    { intros y0 x0. unfold either, A, B. split; [intro H; destruct (Z_lt_le_dec x0 (nx - k)); tauto|tauto]. }
    assert (T1 : forall y0 x0, 0 <= x0 < nx -> (f' ((y0 - 2 * R) mod ny) (east nx k x0) = true <-> f ((y0 - 2 * R) mod ny) x0 = true)).
    { intros y0 x0 X0. rewrite (Tu _ x0); [tauto|]. split; [apply Z.mod_pos_bound; exact Ny|exact X0]. }
    assert (E' : eqS (unrolled ny nx R f') (either (movedS 0 (k - nx) B) (movedS 0 k A))).
    { intros y0 x0. unfold either, movedS, A, B, unrolled. rewrite Z.sub_0_r. split.
      - intros [X0 V]. destruct (Z_lt_le_dec x0 k) as [H|H].
        + left. split; [|lia]. split; [lia|]. apply T1; [lia|]. unfold east. destruct (Z.ltb_spec (x0 - (k - nx) + k) nx); [lia|]. replace (x0 - (k - nx) + k - nx) with x0 by lia. exact V.
        + right. split; [|lia]. split; [lia|]. apply T1; [lia|]. unfold east. destruct (Z.ltb_spec (x0 - k + k) nx); [|lia]. replace (x0 - k + k) with x0 by lia. exact V.
      - intros [[[X0 V] H]|[[X0 V] H]]; (split; [lia|]); apply T1 in V; try lia; unfold east in V.
        + destruct (Z.ltb_spec (x0 - (k - nx) + k) nx); [lia|]. replace (x0 - (k - nx) + k - nx) with x0 in V by lia. exact V.
        + destruct (Z.ltb_spec (x0 - k + k) nx); [|lia]. replace (x0 - k + k) with x0 in V by lia. exact V. }
    assert (Ca : forall y0 x0, A y0 x0 -> 2 * R <= x0 <= nx - k - 2 * R - 1).
    { intros y0 x0 [U H]. assert (C1 := unrolled_cols R ny nx f _ Ny Sp _ _ U). assert (U' : unrolled ny nx R f' y0 (x0 + k)).
      { apply E'. right. unfold movedS. rewrite Z.sub_0_r. replace (x0 + k - k) with x0 by lia. split; assumption. }
      assert (C2 := unrolled_cols R ny nx f' _ Ny Sp' _ _ U'). lia. }
    assert (Cb : forall y0 x0, B y0 x0 -> nx - k + 2 * R <= x0 <= nx - 2 * R - 1).
    { intros y0 x0 [U H]. assert (C1 := unrolled_cols R ny nx f _ Ny Sp _ _ U). assert (U' : unrolled ny nx R f' y0 (x0 + k - nx)).
      { apply E'. left. unfold movedS. rewrite Z.sub_0_r. replace (x0 + k - nx - (k - nx)) with x0 by lia. split; assumption. }
      assert (C2 := unrolled_cols R ny nx f' _ Ny Sp' _ _ U'). lia. }
    set (h := ny + 2 * (2 * R)).
    assert (Q : eqS (strip_filter R h (unrolled ny nx R f)) (either (strip_filter R h A) (strip_filter R h B))).
    { eapply eqS_trans; [apply strip_ext; exact E|]. apply (strip_either R h R0 A B (nx - k - 2 * R - 1)); intros y0 x0 H; [apply Ca in H|apply Cb in H]; lia. }
    assert (Q' : eqS (strip_filter R h (unrolled ny nx R f')) (either (strip_filter R h (movedS 0 (k - nx) B)) (strip_filter R h (movedS 0 k A)))).
    { eapply eqS_trans; [apply strip_ext; exact E'|]. apply (strip_either R h R0 _ _ (k - 2 * R - 1)); unfold movedS; intros y0 x0 H; [apply Cb in H|apply Ca in H]; lia. }
    assert (Fa : forall y0 x0, strip_filter R h A y0 x0 -> 0 <= x0 < nx - k) by (intros y0 x0 H; assert (C := strip_cols R h R0 A _ _ Ca _ _ H); clear - C R0; lia).
    assert (Fb : forall y0 x0, strip_filter R h B y0 x0 -> nx - k <= x0 < nx) by (intros y0 x0 H; assert (C := strip_cols R h R0 B _ _ Cb _ _ H); clear - C R0; lia).
    assert (Vx : strip_filter R h (unrolled ny nx R f') (y + 2 * R) (east nx k x) <-> strip_filter R h (unrolled ny nx R f) (y + 2 * R) x); [|tauto].
    rewrite (Q' _ _), (Q _ _). unfold either. rewrite (strip_moved R h (k - nx) B _ _), (strip_moved R h k A _ _). unfold movedS. rewrite Z.sub_0_r. unfold east.
    destruct (Z.ltb_spec (x + k) nx) as [H|H].
    + replace (x + k - k) with x by lia. split; [intros [V|V]; [apply Fb in V; lia|left; exact V]|intros [V|V]; [right; exact V|apply Fb in V; lia]].
    + replace (x + k - nx - (k - nx)) with x by lia. split; [intros [V|V]; [right; exact V|apply Fa in V; lia]|intros [V|V]; [apply Fa in V; lia|left; exact V]].
Qed.

Section Turned_record.
Variables (ny nx k R T : Z) (mask mask' : img) (nt : nat).
Let dark : img := fun _ _ => false.
Hypothesis R0 : 0 <= R.
Hypothesis Te : Z.even T = true.
Hypothesis K : 0 <= k < nx.
Hypothesis Mk : turns ny nx k mask mask'.
Variables (s s' : list img).
Hypothesis Ls : length s = nt.
Hypothesis Ls' : length s' = nt.
Hypothesis Hs : forall t, (t < nt)%nat -> turns ny nx k (nth t s dark) (nth t s' dark).
Hypothesis En : forall t, (t < nt)%nat -> spaced R ny nx (nth t s dark).
Hypothesis En' : forall t, (t < nt)%nat -> spaced R ny nx (nth t s' dark).

Lemma closed_spaced (im : list img) : length im = nt -> 0 <= T ->
  (forall t, (t < nt)%nat -> spaced R ny nx (nth t im dark)) ->
  forall t, (t < nt)%nat -> spaced (R / 2) ny nx (fun y x => nth t (match close_time T (series_at im y x) with Some l => l | None => [] end) false).
Proof.
  intros L T0 E t I. destruct (Z.eq_dec (R / 2) 0) as [Z0|Z0]; [left; exact Z0|right]. intros y x G V.
  assert (P : 0 < R / 2) by (assert (0 <= R / 2) by (apply Z.div_pos; lia); lia). assert (P2 : 2 * (R / 2) <= R) by (apply Z.mul_div_le; lia).
  destruct (Z_le_dec (2 * (R / 2)) x) as [H3|H3]; [destruct (Z_lt_dec x (nx - 2 * (R / 2))) as [H4|H4]; [lia|]|].
  all: exfalso; rewrite closed_quiet in V; [discriminate|exact T0|exact Te|]; intro i; unfold series_at;
    (destruct (Nat.lt_ge_cases i nt) as [B|B]; [|apply nth_overflow; rewrite (map_length _ im), L; exact B]);
    rewrite (nth_map_gen _ im i dark) by lia; destruct (nth i im dark y x) eqn:W; [|reflexivity]; exfalso; destruct (E i B) as [F|F]; [lia|]; specialize (F y x G W); lia.
Qed.
Lemma record_turns im im' : preprocess_morph false T R ny nx mask s = Some im -> preprocess_morph false T R ny nx mask' s' = Some im' ->
  forall t, (t < nt)%nat -> turns ny nx k (nth t im dark) (nth t im' dark).
Proof.
  unfold preprocess_morph. set (im1 := fill_holes false R ny nx mask s). set (im1' := fill_holes false R ny nx mask' s').
  assert (L1 : length im1 = nt) by (unfold im1, fill_holes; rewrite map_length; exact Ls). assert (L1' : length im1' = nt) by (unfold im1', fill_holes; rewrite map_length; exact Ls').
  assert (N1 : forall t, (t < nt)%nat -> nth t im1 dark = fill_holes_slice false R ny nx mask (nth t s dark)) by (intros t I; unfold im1, fill_holes; apply nth_map_gen; lia).
  assert (N1' : forall t, (t < nt)%nat -> nth t im1' dark = fill_holes_slice false R ny nx mask' (nth t s' dark)) by (intros t I; unfold im1', fill_holes; apply nth_map_gen; lia).
  assert (H1 : forall t, (t < nt)%nat -> turns ny nx k (nth t im1 dark) (nth t im1' dark)).
  { intros t I. rewrite (N1 t I), (N1' t I). apply slice_turns; try assumption; [apply En|apply En'|apply Hs]; exact I. }
  assert (E1 : forall t, (t < nt)%nat -> spaced R ny nx (nth t im1 dark)).
  { intros t I. rewrite (N1 t I). destruct (En t I) as [Z0|C]; [left; exact Z0|right]. apply slice_aside; [exact R0|right; exact C|exact C]. }
  assert (E1' : forall t, (t < nt)%nat -> spaced R ny nx (nth t im1' dark)).
  { intros t I. rewrite (N1' t I). destruct (En' t I) as [Z0|C]; [left; exact Z0|right]. apply slice_aside; [exact R0|right; exact C|exact C]. }
  clearbody im1 im1'. clear N1 N1'. unfold fill_time_gaps. destruct (Z.eqb_spec T 0) as [T0|T0]; [intros E E'; injection E as <-; injection E' as <-; exact H1|].
  destruct (Z.ltb_spec (T + 1) 0) as [Tn|Tn]; [discriminate|]. intros E E'. injection E as <-. injection E' as <-.
  assert (T1 : 0 <= T) by (destruct (Z.eq_dec T (-1)) as [->|]; [discriminate Te|lia]).
  intros t I. unfold fill_holes.
  rewrite (nth_map_gen _ _ t dark) by (rewrite map_length, seq_length, L1; exact I). rewrite (nth_map_gen _ _ t 0%nat) by (rewrite seq_length, L1; exact I). rewrite seq_nth by (rewrite L1; exact I).
  rewrite (nth_map_gen _ _ t dark) by (rewrite map_length, seq_length, L1'; exact I). rewrite (nth_map_gen _ _ t 0%nat) by (rewrite seq_length, L1'; exact I). rewrite seq_nth by (rewrite L1'; exact I).
  cbn [Nat.add]. apply slice_turns; try assumption; [apply Z.div_pos; lia|apply (closed_spaced im1 L1 T1 E1 t I)|apply (closed_spaced im1' L1' T1 E1' t I)|].
  intros y x G. assert (Sr : series_at im1' y (east nx k x) = series_at im1 y x).
  { apply (nth_ext _ _ false false); unfold series_at; rewrite (map_length _ im1'), ?(map_length _ im1), L1'; [symmetry; exact L1|]. intros i J. rewrite (nth_map_gen _ im1' i dark) by lia. rewrite (nth_map_gen _ im1 i dark) by lia. apply (H1 i); [lia|exact G]. }
  rewrite Sr. reflexivity.
Qed.
End Turned_record.
