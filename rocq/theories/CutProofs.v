(** Proofs about filling on a cut-out. *)
From Verif Require Import Base Morph MorphSpec MorphProofs MorphProps Label LabelSpec LabelProofs Filter FilterSpec Overlap Merge Partition Cluster ClusterSpec ClusterFinal
  Run RunSpec RunProofs PipelineProps RelateSpec CutSpec.
Open Scope Z_scope.

(** The filter inside an array that the dilated field does not leave. *)
Section Inside.
Variables (R h w : Z) (g : img) (S : Z -> Z -> Prop).
Hypothesis R0 : 0 <= R.
Hypothesis Ag : forall y x, inb h w y x = true -> (g y x = true <-> S y x).
Hypothesis In_ : forall y x, S y x -> R <= y < h - R /\ R <= x < w - R.

Lemma grown_inside y x : grows R S y x -> inb h w y x = true.
Proof.
  intros (dy & dx & D & H). apply In_ in H. apply inb_true. apply (disk_In R dy dx R0) in D. apply (disk_bound R _ R0) in D. cbn [fst snd] in D. lia.
Qed.
Lemma dilated_inside y x : dilate (disk R) h w g y x = true <-> grows R S y x.
Proof.
  unfold dilate. rewrite existsb_exists. split.
  - intros ([dy dx] & D & H). cbn [fst snd] in H. apply andb_true_iff in H. destruct H as [I H]. exists dy, dx. split; [apply disk_In; assumption|]. apply Ag; assumption.
  - intros (dy & dx & D & H). exists (dy, dx). split; [apply disk_In; assumption|]. cbn [fst snd]. assert (B := In_ _ _ H). apply andb_true_iff.
    assert (I : inb h w (y + dy) (x + dx) = true) by (apply inb_true; lia). split; [exact I|]. apply Ag; assumption.
Qed.
Lemma eroded_inside f (P : Z -> Z -> Prop) : (forall y x, f y x = true <-> P y x) -> (forall y x, P y x -> inb h w y x = true) ->
  forall y x, erode (disk R) h w f y x = true <-> shrinks R P y x.
Proof.
  intros H B y x. unfold erode, shrinks. rewrite forallb_forall. split.
  - intros E dy dx D. apply disk_In in D; [|exact R0]. specialize (E _ D). cbn [fst snd] in E. apply andb_true_iff in E. apply H. apply E.
  - intros E [dy dx] D. cbn [fst snd]. apply disk_In in D; [|exact R0]. specialize (E dy dx D). apply andb_true_iff. split; [apply B; exact E|apply H; exact E].
Qed.
Lemma shrunk_less (P : Z -> Z -> Prop) y x : shrinks R P y x -> P y x.
Proof. intro H. specialize (H 0 0). rewrite !Z.add_0_r in H. apply H. unfold in_disk. nia. Qed.
Lemma filter_inside y x : opening (disk R) h w (closing (disk R) h w g) y x = true <-> plane_filter R S y x.
Proof.
  unfold opening, closing, plane_filter.
  assert (A1 := eroded_inside (dilate (disk R) h w g) (grows R S) dilated_inside grown_inside).
  assert (B1 : forall y x, shrinks R (grows R S) y x -> inb h w y x = true) by (intros y0 x0 H; apply grown_inside, shrunk_less; exact H).
  assert (A2 := eroded_inside _ _ A1 B1).
  unfold dilate at 1. rewrite existsb_exists. unfold grows at 1. split.
  - intros ([dy dx] & D & H). cbn [fst snd] in H. apply andb_true_iff in H. destruct H as [_ H]. exists dy, dx. split; [apply disk_In; assumption|]. apply A2. exact H.
  - intros (dy & dx & D & H). exists (dy, dx). split; [apply disk_In; assumption|]. cbn [fst snd]. apply andb_true_iff. split; [apply B1, shrunk_less; exact H|apply A2; exact H].
Qed.
End Inside.

(** The filtered field stays between the rows and columns of the field. *)
Lemma filter_box R (S : Z -> Z -> Prop) y0 y1 x0 x1 : 0 <= R -> (forall y x, S y x -> y0 <= y <= y1 /\ x0 <= x <= x1) ->
  forall y x, plane_filter R S y x -> y0 <= y <= y1 /\ x0 <= x <= x1.
Proof.
  intros R0 B y x (dy & dx & D & H).
  assert (C : shrinks R (grows R S) y x).
  { replace y with (y + dy + - dy) by lia. replace x with (x + dx + - dx) by lia. apply H. unfold in_disk in *. nia. }
  clear dy dx D H.
  assert (K : forall dy dx, in_disk R dy dx -> exists ey ex, in_disk R ey ex /\ y0 <= y + dy + ey <= y1 /\ x0 <= x + dx + ex <= x1).
  { intros dy dx D. destruct (C dy dx D) as (ey & ex & E & H). exists ey, ex. split; [exact E|]. apply B. exact H. }
  assert (Bd : forall a b, in_disk R a b -> - R <= a <= R /\ - R <= b <= R).
  { intros a b D. apply (disk_In R a b R0) in D. apply (disk_bound R _ R0) in D. exact D. }
  destruct (K R 0 ltac:(unfold in_disk; nia)) as (a1 & b1 & E1 & H1). destruct (K (- R) 0 ltac:(unfold in_disk; nia)) as (a2 & b2 & E2 & H2).
  destruct (K 0 R ltac:(unfold in_disk; nia)) as (a3 & b3 & E3 & H3). destruct (K 0 (- R) ltac:(unfold in_disk; nia)) as (a4 & b4 & E4 & H4).
  apply Bd in E1, E2, E3, E4. lia.
Qed.
Definition movedS (a b : Z) (S : Z -> Z -> Prop) : Z -> Z -> Prop := fun y x => S (y - a) (x - b).
Lemma grows_moved R a b S y x : grows R (movedS a b S) y x <-> movedS a b (grows R S) y x.
Proof.
  unfold grows, movedS. split; intros (dy & dx & H & K); exists dy, dx; (split; [exact H|]).
  - replace (y - a + dy) with (y + dy - a) by lia. replace (x - b + dx) with (x + dx - b) by lia. exact K.
  - replace (y + dy - a) with (y - a + dy) by lia. replace (x + dx - b) with (x - b + dx) by lia. exact K.
Qed.
Lemma shrinks_moved R a b S y x : shrinks R (movedS a b S) y x <-> movedS a b (shrinks R S) y x.
Proof.
  unfold shrinks, movedS. split; intros H dy dx K; specialize (H dy dx K).
  - replace (y - a + dy) with (y + dy - a) by lia. replace (x - b + dx) with (x + dx - b) by lia. exact H.
  - replace (y + dy - a) with (y - a + dy) by lia. replace (x + dx - b) with (x - b + dx) by lia. exact H.
Qed.
Lemma filter_moved R a b S : eqS (plane_filter R (movedS a b S)) (movedS a b (plane_filter R S)).
Proof.
  unfold plane_filter.
  assert (E1 : eqS (grows R (movedS a b S)) (movedS a b (grows R S))) by (intros y x; apply grows_moved).
  assert (E2 := eqS_trans _ _ _ (shrinks_ext R _ _ E1) (fun y x => shrinks_moved R a b (grows R S) y x)).
  assert (E3 := eqS_trans _ _ _ (shrinks_ext R _ _ E2) (fun y x => shrinks_moved R a b (shrinks R (grows R S)) y x)).
  exact (eqS_trans _ _ _ (grows_ext R _ _ E3) (fun y x => grows_moved R a b _ y x)).
Qed.

(** A field on a grid, nothing elsewhere; a field that keeps away from the edges. *)
Definition plane (ny nx : Z) (f : img) : Z -> Z -> Prop := fun y x => in_grid ny nx y x /\ f y x = true.
Definition clear (m ny nx : Z) (f : img) : Prop := forall y x, in_grid ny nx y x -> f y x = true -> m <= y < ny - m /\ m <= x < nx - m.
(** Far enough from the edges for radius [R]. *)
Definition enough (regional : bool) (R ny nx : Z) (f : img) : Prop := R = 0 \/ clear (if regional then 1 else 2 * R) ny nx f.

Lemma wrapped n k m : 0 < n -> - m <= k < n + m -> 2 * m <= n -> ~ (0 <= k < n) -> k mod n < m \/ n - m <= k mod n.
Proof.
  intros N K M O. destruct (Z.lt_ge_cases k 0) as [H|H].
  - right. assert (E : k mod n = k + n) by (symmetry; apply (Z.mod_unique_pos k n (-1)); lia). lia.
  - left. assert (E : k mod n = k - n) by (symmetry; apply (Z.mod_unique_pos k n 1); lia). lia.
Qed.
Lemma padded_plane regional R ny nx f y x : 0 < R -> 0 < ny -> 0 < nx -> enough regional R ny nx f ->
  inb (ny + 2 * (2 * R)) (nx + 2 * (2 * R)) y x = true ->
  (pad (if regional then Edge else Wrap) (2 * R) ny nx f y x = true <-> movedS (2 * R) (2 * R) (plane ny nx f) y x).
Proof.
  intros R0 Ny Nx [E|C] I; [lia|]. apply inb_true in I. unfold movedS, plane, in_grid. unfold pad. destruct regional; cbv beta iota.
  - assert (G : in_grid ny nx (clampZ ny (y - 2 * R)) (clampZ nx (x - 2 * R))) by (unfold in_grid, clampZ; lia). split.
    + intro V. assert (B := C _ _ G V). assert (E1 : clampZ ny (y - 2 * R) = y - 2 * R) by (unfold clampZ in *; lia). assert (E2 : clampZ nx (x - 2 * R) = x - 2 * R) by (unfold clampZ in *; lia).
      rewrite E1, E2 in *. split; [unfold in_grid in G; exact G|exact V].
    + intros [B V]. replace (clampZ ny (y - 2 * R)) with (y - 2 * R) by (unfold clampZ; lia). replace (clampZ nx (x - 2 * R)) with (x - 2 * R) by (unfold clampZ; lia). exact V.
  - assert (G : in_grid ny nx ((y - 2 * R) mod ny) ((x - 2 * R) mod nx)) by (split; apply Z.mod_pos_bound; assumption). split.
    + intro V. assert (B := C _ _ G V).
      assert (Y : 0 <= y - 2 * R < ny).
      { destruct (Z_lt_dec (y - 2 * R) 0) as [H|H]; [|destruct (Z_lt_dec (y - 2 * R) ny) as [H2|H2]; [lia|]]; exfalso; destruct (wrapped ny (y - 2 * R) (2 * R) Ny ltac:(lia) ltac:(lia) ltac:(lia)); lia. }
      assert (X : 0 <= x - 2 * R < nx).
      { destruct (Z_lt_dec (x - 2 * R) 0) as [H|H]; [|destruct (Z_lt_dec (x - 2 * R) nx) as [H2|H2]; [lia|]]; exfalso; destruct (wrapped nx (x - 2 * R) (2 * R) Nx ltac:(lia) ltac:(lia) ltac:(lia)); lia. }
      rewrite !Z.mod_small in V by lia. split; [split; assumption|exact V].
    + intros [B V]. rewrite !Z.mod_small by lia. exact V.
Qed.
Lemma plane_zero S y x : plane_filter 0 S y x <-> S y x.
Proof.
  assert (Z0 : forall dy dx, in_disk 0 dy dx -> dy = 0 /\ dx = 0) by (unfold in_disk; intros; nia).
  assert (G : forall P, eqS (grows 0 P) P).
  { intros P a b. split.
    - intros (dy & dx & D & H). destruct (Z0 _ _ D) as [-> ->]. rewrite !Z.add_0_r in H. exact H.
    - intro H. exists 0, 0. rewrite !Z.add_0_r. split; [unfold in_disk; lia|exact H]. }
  assert (K : forall P, eqS (shrinks 0 P) P).
  { intros P a b. split.
    - intro H. specialize (H 0 0 ltac:(unfold in_disk; lia)). rewrite !Z.add_0_r in H. exact H.
    - intros H dy dx D. destruct (Z0 _ _ D) as [-> ->]. rewrite !Z.add_0_r. exact H. }
  unfold plane_filter. rewrite (G _ y x), (K _ y x), (K _ y x), (G _ y x). reflexivity.
Qed.
Lemma slice_plane regional R ny nx mask f y x : 0 <= R -> in_grid ny nx y x -> enough regional R ny nx f ->
  (fill_holes_slice regional R ny nx mask f y x = true <-> mask y x = true /\ plane_filter R (plane ny nx f) y x).
Proof.
  intros R0 G C. unfold fill_holes_slice. rewrite andb_true_iff. destruct (Z.eqb_spec R 0) as [->|N].
  - rewrite plane_zero. unfold plane. tauto.
  - assert (Ny : 0 < ny) by (destruct G; lia). assert (Nx : 0 < nx) by (destruct G; lia).
    assert (H := filter_inside R (ny + 2 * (2 * R)) (nx + 2 * (2 * R)) (pad (if regional then Edge else Wrap) (2 * R) ny nx f) (movedS (2 * R) (2 * R) (plane ny nx f)) R0).
    rewrite H.
    + rewrite (filter_moved R (2 * R) (2 * R) (plane ny nx f) (y + 2 * R) (x + 2 * R)). unfold movedS. replace (y + 2 * R - 2 * R) with y by lia. replace (x + 2 * R - 2 * R) with x by lia. tauto.
    + intros y0 x0 I. apply padded_plane; try assumption. lia.
    + intros y0 x0 [B _]. unfold in_grid in B. lia.
Qed.
Lemma slice_stays regional R ny nx mask f m : 0 <= R -> enough regional R ny nx f -> clear m ny nx f -> clear m ny nx (fill_holes_slice regional R ny nx mask f).
Proof.
  intros R0 E C y x G V. apply (slice_plane regional R ny nx mask f y x R0 G E) in V. destruct V as [_ V].
  assert (B : m <= y <= ny - m - 1 /\ m <= x <= nx - m - 1); [|lia].
  revert V. apply filter_box; [exact R0|]. intros y0 x0 [G0 V0]. specialize (C y0 x0 G0 V0). lia.
Qed.

(** The whole field [f'] holds [f] at row [a] and column [b] and nothing else. *)
Definition holds (a b ny nx ny' nx' : Z) (f f' : img) : Prop :=
  (forall y x, in_grid ny nx y x -> f' (y + a) (x + b) = f y x) /\
  (forall y x, in_grid ny' nx' y x -> f' y x = true -> in_grid ny nx (y - a) (x - b)).
Lemma slice_holds a b ny nx ny' nx' reg reg' R mask mask' f f' : 0 <= R -> 0 <= a -> 0 <= b -> a + ny <= ny' -> b + nx <= nx' ->
  (forall y x, in_grid ny nx y x -> mask' (y + a) (x + b) = mask y x) ->
  enough reg R ny nx f -> enough reg' R ny' nx' f' -> holds a b ny nx ny' nx' f f' ->
  holds a b ny nx ny' nx' (fill_holes_slice reg R ny nx mask f) (fill_holes_slice reg' R ny' nx' mask' f').
Proof.
  intros R0 A B Ly Lx Mk E E' [Hi Ho].
  assert (P : eqS (plane ny' nx' f') (movedS a b (plane ny nx f))).
  { intros y x. unfold movedS, plane. split.
    - intros [G V]. assert (G2 := Ho y x G V). split; [exact G2|]. rewrite <- (Hi _ _ G2). replace (y - a + a) with y by lia. replace (x - b + b) with x by lia. exact V.
    - intros [G V]. rewrite <- (Hi _ _ G) in V. replace (y - a + a) with y in V by lia. replace (x - b + b) with x in V by lia. split; [unfold in_grid in *; lia|exact V]. }
  assert (Q : eqS (plane_filter R (plane ny' nx' f')) (movedS a b (plane_filter R (plane ny nx f)))) by (eapply eqS_trans; [apply filter_ext; exact P|apply filter_moved]).
  split.
  - intros y x G. apply eq_true_iff_eq. rewrite !slice_plane by (try assumption; unfold in_grid in *; lia). rewrite (Mk y x G), (Q (y + a) (x + b)). unfold movedS.
    replace (y + a - a) with y by lia. replace (x + b - b) with x by lia. tauto.
  - intros y x G V. apply slice_plane in V; [|assumption|exact G|assumption]. destruct V as [_ V]. apply Q in V. unfold movedS in V.
    apply (filter_box R (plane ny nx f) 0 (ny - 1) 0 (nx - 1)) in V; [unfold in_grid; lia|exact R0|]. intros y0 x0 [G0 _]. unfold in_grid in G0. lia.
Qed.

(** A series without an extreme stays without. *)
Lemma closed_quiet T l : 0 <= T -> Z.even T = true -> (forall i, nth i l false = false) ->
  forall i, nth i (match close_time T l with Some l' => l' | None => [] end) false = false.
Proof.
  intros T0 Te H i. destruct (close_time T l) as [l'|] eqn:E; [|destruct i; reflexivity].
  destruct (C10_fills_exactly_short_gaps T l l' T0 Te E) as [L G].
  assert (No : forall t, ~ ext l t).
  { intros t V. unfold ext, at_t in V. destruct ((0 <=? t) && (t <? Z.of_nat (length l))); [rewrite H in V|]; discriminate. }
  destruct (nth i l' false) eqn:V; [|reflexivity]. exfalso.
  destruct (Nat.lt_ge_cases i (length l')) as [B|B]; [|rewrite nth_overflow in V by exact B; discriminate].
  assert (X : ext l' (Z.of_nat i)).
  { unfold ext, at_t. rewrite Nat2Z.id. destruct (Z.leb_spec 0 (Z.of_nat i)); [|lia]. destruct (Z.ltb_spec (Z.of_nat i) (Z.of_nat (length l'))); [exact V|lia]. }
  apply G in X; [|lia]. destruct X as [X|(p & q & _ & _ & X & _)]; exact (No _ X).
Qed.

Section Record_.
Variables (a b ny nx ny' nx' R T : Z) (reg reg' : bool) (mask mask' : img) (nt : nat).
Let dark : img := fun _ _ => false.
Hypothesis R0 : 0 <= R.
Hypothesis Te : Z.even T = true.
Hypothesis A0 : 0 <= a.
Hypothesis B0 : 0 <= b.
Hypothesis Ly : a + ny <= ny'.
Hypothesis Lx : b + nx <= nx'.
Hypothesis Mk : forall y x, in_grid ny nx y x -> mask' (y + a) (x + b) = mask y x.
Variables (s s' : list img).
Hypothesis Ls : length s = nt.
Hypothesis Ls' : length s' = nt.
Hypothesis Hs : forall t, (t < nt)%nat -> holds a b ny nx ny' nx' (nth t s dark) (nth t s' dark).
Hypothesis En : forall t, (t < nt)%nat -> enough reg R ny nx (nth t s dark).
Hypothesis En' : forall t, (t < nt)%nat -> enough reg' R ny' nx' (nth t s' dark).

Definition margin (r : bool) (R : Z) : Z := if r then 1 else 2 * R.
Lemma closed_enough r m n (im : list img) : length im = nt -> 0 <= T ->
  (forall t, (t < nt)%nat -> enough r R m n (nth t im dark)) ->
  forall t, (t < nt)%nat -> enough r (R / 2) m n (fun y x => nth t (match close_time T (series_at im y x) with Some l => l | None => [] end) false).
Proof.
  intros L T0 E t I. destruct (Z.eq_dec (R / 2) 0) as [Z0|Z0]; [left; exact Z0|right]. intros y x G V.
  assert (P : 0 < R / 2) by (assert (0 <= R / 2) by (apply Z.div_pos; lia); lia). assert (P2 : 2 * (R / 2) <= R) by (apply Z.mul_div_le; lia).
  set (k := if r then 1 else 2 * (R / 2)). assert (Km : k <= (if r then 1 else 2 * R)) by (unfold k; destruct r; lia).
  destruct (Z_le_dec k y) as [H1|H1]; [destruct (Z_lt_dec y (m - k)) as [H2|H2]; [destruct (Z_le_dec k x) as [H3|H3]; [destruct (Z_lt_dec x (n - k)) as [H4|H4]; [lia|]|]|]|].
  all: exfalso; rewrite closed_quiet in V; [discriminate|exact T0|exact Te|]; intro i; unfold series_at;
    (destruct (Nat.lt_ge_cases i nt) as [B|B]; [|apply nth_overflow; rewrite (map_length _ im), L; exact B]);
    rewrite (nth_map_gen _ im i dark) by lia; destruct (nth i im dark y x) eqn:W; [|reflexivity]; exfalso; destruct (E i B) as [F|F]; [lia|]; specialize (F y x G W); lia.
Qed.

Lemma record_holds im im' : preprocess_morph reg T R ny nx mask s = Some im -> preprocess_morph reg' T R ny' nx' mask' s' = Some im' ->
  forall t, (t < nt)%nat -> holds a b ny nx ny' nx' (nth t im dark) (nth t im' dark).
Proof.
  unfold preprocess_morph. set (im1 := fill_holes reg R ny nx mask s). set (im1' := fill_holes reg' R ny' nx' mask' s').
  assert (L1 : length im1 = nt) by (unfold im1, fill_holes; rewrite map_length; exact Ls). assert (L1' : length im1' = nt) by (unfold im1', fill_holes; rewrite map_length; exact Ls').
  assert (N1 : forall t, (t < nt)%nat -> nth t im1 dark = fill_holes_slice reg R ny nx mask (nth t s dark)) by (intros t I; unfold im1, fill_holes; apply nth_map_gen; lia).
  assert (N1' : forall t, (t < nt)%nat -> nth t im1' dark = fill_holes_slice reg' R ny' nx' mask' (nth t s' dark)) by (intros t I; unfold im1', fill_holes; apply nth_map_gen; lia).
  assert (H1 : forall t, (t < nt)%nat -> holds a b ny nx ny' nx' (nth t im1 dark) (nth t im1' dark)).
  { intros t I. rewrite (N1 t I), (N1' t I). apply slice_holds; try assumption; [apply En|apply En'|apply Hs]; exact I. }
  assert (E1 : forall t, (t < nt)%nat -> enough reg R ny nx (nth t im1 dark)).
  { intros t I. rewrite (N1 t I). destruct (En t I) as [Z0|C]; [left; exact Z0|right]. apply slice_stays; [exact R0|right; exact C|exact C]. }
  assert (E1' : forall t, (t < nt)%nat -> enough reg' R ny' nx' (nth t im1' dark)).
  { intros t I. rewrite (N1' t I). destruct (En' t I) as [Z0|C]; [left; exact Z0|right]. apply slice_stays; [exact R0|right; exact C|exact C]. }
  clearbody im1 im1'. clear N1 N1'. unfold fill_time_gaps. destruct (Z.eqb_spec T 0) as [T0|T0]; [intros E E'; injection E as <-; injection E' as <-; exact H1|].
  destruct (Z.ltb_spec (T + 1) 0) as [Tn|Tn]; [discriminate|]. intros E E'. injection E as <-. injection E' as <-.
  assert (T1 : 0 <= T) by (destruct (Z.eq_dec T (-1)) as [->|]; [discriminate Te|lia]).
  intros t I. unfold fill_holes.
  rewrite (nth_map_gen _ _ t dark) by (rewrite map_length, seq_length, L1; exact I). rewrite (nth_map_gen _ _ t 0%nat) by (rewrite seq_length, L1; exact I). rewrite seq_nth by (rewrite L1; exact I).
  rewrite (nth_map_gen _ _ t dark) by (rewrite map_length, seq_length, L1'; exact I). rewrite (nth_map_gen _ _ t 0%nat) by (rewrite seq_length, L1'; exact I). rewrite seq_nth by (rewrite L1'; exact I).
  cbn [Nat.add]. apply slice_holds; try assumption; [apply Z.div_pos; lia|apply (closed_enough reg ny nx im1 L1 T1 E1 t I)|apply (closed_enough reg' ny' nx' im1' L1' T1 E1' t I)|]. split.
  - intros y x G. assert (Sr : series_at im1' (y + a) (x + b) = series_at im1 y x).
    { apply (nth_ext _ _ false false); unfold series_at; rewrite (map_length _ im1'), ?(map_length _ im1), L1'; [symmetry; exact L1|]. intros i J. rewrite (nth_map_gen _ im1' i dark) by lia. rewrite (nth_map_gen _ im1 i dark) by lia. apply (H1 i); [lia|exact G]. }
    rewrite Sr. reflexivity.
  - intros y x G V. assert (D : in_grid ny nx (y - a) (x - b) \/ ~ in_grid ny nx (y - a) (x - b)) by (unfold in_grid; lia). destruct D as [D|D]; [exact D|exfalso].
    rewrite closed_quiet in V; [discriminate|exact T1|exact Te|]. intro i. unfold series_at. destruct (Nat.lt_ge_cases i nt) as [B|B]; [|apply nth_overflow; rewrite (map_length _ im1'), L1'; exact B].
    rewrite (nth_map_gen _ im1' i dark) by lia. destruct (nth i im1' dark y x) eqn:W; [|reflexivity]. exfalso. apply D. apply (H1 i B); assumption.
Qed.
End Record_.
