(** Theorems C132 and C133: two runs on related data. *)
From Coq Require Import Permutation.
From Verif Require Import Base Morph MorphSpec MorphProps Label LabelSpec LabelProofs Filter FilterSpec FilterProofs FilterGridProofs FilterAreaProofs FilterProps Overlap Merge Partition Cluster ClusterSpec ClusterFinal
  Run RunSpec RunProofs RunProps GridRunProps PipelineProps RelateSpec RelateProofs.
Open Scope nat_scope.

(** ** What filling does to one cell *)

(** Without a radius: the series of the cell is closed in time, land stays False. *)
Lemma unfilled_value g data s t y x : g_R g = 0%Z -> length data = g_nt g -> fill_grid g data = Some s -> t < g_nt g -> y < g_ny g -> x < g_nx g ->
  let m := nth (y * g_nx g + x) (g_mask g) false in
  value_at (g_nx g) s (t, y, x) =
  m && nth t (match close_time (g_T g) (map (fun row => m && nth (y * g_nx g + x) row false) data) with Some l => l | None => [] end) false.
Proof.
  intros R0 L E T Y X m. unfold fill_grid, preprocess_morph, fill_time_gaps in E. rewrite R0 in E.
  set (im1 := fill_holes _ _ _ _ _ _) in E.
  assert (Ser : series_at im1 (Z.of_nat y) (Z.of_nat x) = map (fun row => m && nth (y * g_nx g + x) row false) data).
  { unfold series_at, im1, fill_holes. rewrite !map_map. apply map_ext. intro row. unfold fill_holes_slice. cbn [Z.eqb]. unfold img_of. rewrite !Nat2Z.id. reflexivity. }
  assert (L1 : length im1 = g_nt g) by (unfold im1, fill_holes; rewrite !map_length; exact L).
  destruct (Z.eqb_spec (g_T g) 0) as [T0|T0].
  - cbn [option_map] in E. injection E as <-. cbn [value_at]. rewrite (nth_map_gen _ im1 t ((fun _ _ => false) : img)) by (rewrite L1; exact T). rewrite flat_at by assumption.
    unfold close_time. rewrite T0. cbn [Z.eqb]. rewrite <- Ser. unfold series_at. rewrite (nth_map_gen _ im1 t ((fun _ _ => false) : img)) by (rewrite L1; exact T).
    unfold im1, fill_holes. rewrite (nth_map_gen _ _ t ((fun _ _ => false) : img)) by (rewrite map_length; lia). unfold fill_holes_slice. cbn [Z.eqb]. unfold img_of at 1. rewrite !Nat2Z.id. fold m.
    rewrite (nth_map_gen _ data t []) by lia. unfold img_of. rewrite !Nat2Z.id. fold m. destruct m; reflexivity.
  - destruct (g_T g + 1 <? 0)%Z eqn:Neg; [discriminate|]. change (0 / 2)%Z with 0%Z in E. cbn [option_map] in E. injection E as <-. cbn [value_at].
    unfold fill_holes. rewrite map_map. rewrite map_map. rewrite (nth_map_gen _ _ t 0) by (rewrite seq_length, L1; exact T). rewrite seq_nth by (rewrite L1; exact T). cbn [Nat.add].
    rewrite flat_at by assumption. unfold fill_holes_slice. cbn [Z.eqb]. unfold img_of. rewrite !Nat2Z.id. fold m. rewrite Ser. reflexivity.
Qed.

(** Slices that agree on the grid are filled alike. *)
Lemma existsb_same {A} (f g : A -> bool) l : (forall a, In a l -> f a = g a) -> existsb f l = existsb g l.
Proof. induction l as [|a l IH]; intro H; cbn; [reflexivity|]. rewrite (H a (or_introl eq_refl)), IH; [reflexivity|]. intros b I. apply H. right. exact I. Qed.
Lemma forallb_same {A} (f g : A -> bool) l : (forall a, In a l -> f a = g a) -> forallb f l = forallb g l.
Proof. induction l as [|a l IH]; intro H; cbn; [reflexivity|]. rewrite (H a (or_introl eq_refl)), IH; [reflexivity|]. intros b I. apply H. right. exact I. Qed.
Lemma dilate_same se h w f g : (forall y x, f y x = g y x) -> forall y x, dilate se h w f y x = dilate se h w g y x.
Proof. intros H y x. apply existsb_same. intros d _. rewrite H. reflexivity. Qed.
Lemma erode_same se h w f g : (forall y x, f y x = g y x) -> forall y x, erode se h w f y x = erode se h w g y x.
Proof. intros H y x. apply forallb_same. intros d _. rewrite H. reflexivity. Qed.
Lemma slice_same regional R ny nx mask f g y x : (0 < ny)%Z -> (0 < nx)%Z ->
  (forall y x, in_grid ny nx y x -> f y x = g y x) -> in_grid ny nx y x ->
  fill_holes_slice regional R ny nx mask f y x = fill_holes_slice regional R ny nx mask g y x.
Proof.
  intros Ny Nx H G. unfold fill_holes_slice. destruct (Z.eqb_spec R 0); [rewrite (H y x G); reflexivity|]. f_equal. unfold opening, closing.
  apply dilate_same. apply erode_same. apply erode_same. apply dilate_same. intros Y X. unfold pad. destruct regional; apply H; unfold in_grid.
  - unfold clampZ. lia.
  - split; apply Z.mod_pos_bound; assumption.
Qed.
Lemma slice_quiet regional R ny nx mask f y x : (0 <= R)%Z -> y < ny -> x < nx ->
  (forall y x, y < ny -> x < nx -> f (Z.of_nat y) (Z.of_nat x) = false) ->
  fill_holes_slice regional R (Z.of_nat ny) (Z.of_nat nx) mask f (Z.of_nat y) (Z.of_nat x) = false.
Proof.
  intros R0 Y X H. destruct (fill_holes_slice regional R (Z.of_nat ny) (Z.of_nat nx) mask f (Z.of_nat y) (Z.of_nat x)) eqn:E; [|reflexivity]. exfalso.
  destruct (fill_near ny nx regional R mask f y x R0 Y X E) as (y' & x' & Y' & X' & _ & V). rewrite H in V by assumption. discriminate.
Qed.

(** Temporal closing of a series between quiet steps. *)
Lemma ext_pad l a b t : ext (repeat false a ++ l ++ repeat false b) t <-> ext l (t - Z.of_nat a).
Proof.
  assert (G : forall l t, ext l t <-> (0 <= t)%Z /\ nth (Z.to_nat t) l false = true).
  { intros l0 t0. unfold ext, at_t. destruct (Z.leb_spec 0 t0); cbn [andb].
    - destruct (Z.ltb_spec t0 (Z.of_nat (length l0))); [tauto|]. split; [discriminate|]. intros [_ N]. rewrite nth_overflow in N by lia. discriminate.
    - split; [discriminate|lia]. }
  rewrite !G. destruct (Z.le_gt_cases (Z.of_nat a) t) as [H|H].
  - rewrite app_nth2 by (rewrite repeat_length; lia). rewrite repeat_length. replace (Z.to_nat (t - Z.of_nat a)) with (Z.to_nat t - a) by lia.
    destruct (Nat.lt_ge_cases (Z.to_nat t - a) (length l)) as [Q0|Q0].
    + rewrite app_nth1 by exact Q0. intuition lia.
    + rewrite app_nth2 by exact Q0. rewrite (nth_overflow l) by exact Q0. rewrite nth_repeat. intuition (discriminate || lia).
  - split; [|lia]. intros [P N]. rewrite app_nth1 in N by (rewrite repeat_length; lia). rewrite nth_repeat in N. discriminate.
Qed.
Lemma gap_pad T l a b t : in_short_gap T (repeat false a ++ l ++ repeat false b) t <-> in_short_gap T l (t - Z.of_nat a).
Proof.
  split; intros (p & q & B & W & P & Q0 & N).
  - exists (p - Z.of_nat a)%Z, (q - Z.of_nat a)%Z. rewrite ext_pad in P, Q0. split; [lia|]. split; [lia|]. split; [exact P|]. split; [exact Q0|].
    intros s S0 E. apply (N (s + Z.of_nat a)%Z); [lia|]. apply ext_pad. replace (s + Z.of_nat a - Z.of_nat a)%Z with s by lia. exact E.
  - exists (p + Z.of_nat a)%Z, (q + Z.of_nat a)%Z. split; [lia|]. split; [lia|].
    split; [apply ext_pad; replace (p + Z.of_nat a - Z.of_nat a)%Z with p by lia; exact P|]. split; [apply ext_pad; replace (q + Z.of_nat a - Z.of_nat a)%Z with q by lia; exact Q0|].
    intros s S0 E. apply (N (s - Z.of_nat a)%Z); [lia|]. apply ext_pad in E. exact E.
Qed.

(** ** C132: turning the globe *)

Section Turn.
Variables (g : grid) (shift : nat).
Let nt := g_nt g. Let ny := g_ny g. Let nx := g_nx g.
Hypothesis Sh : shift < g_nx g.
Let sig := turned (g_nx g) shift.

Lemma turned_range c : in_range nt ny nx c -> in_range nt ny nx (sig c).
Proof. destruct c as [[t y] x]. unfold sig, turned, in_range, nx. destruct (Nat.ltb_spec (x + shift) (g_nx g)); lia. Qed.
Lemma turned_once c d : in_range nt ny nx c -> in_range nt ny nx d -> sig c = sig d -> c = d.
Proof.
  destruct c as [[t y] x], d as [[t' y'] x']. unfold sig, turned, in_range, nx. intros (T & Y & X) (T' & Y' & X') E. injection E as -> -> E.
  destruct (Nat.ltb_spec (x + shift) (g_nx g)), (Nat.ltb_spec (x' + shift) (g_nx g)); f_equal; lia.
Qed.
Lemma turned_touch b c d : in_range nt ny nx c -> in_range nt ny nx d -> (touching b true nx (sig c) (sig d) <-> touching b true nx c d).
Proof.
  destruct c as [[t y] x], d as [[t' y'] x']. unfold sig, turned, in_range, nx, touching, col_next, dist1. intros (T & Y & X) (T' & Y' & X').
  destruct (Nat.ltb_spec (x + shift) (g_nx g)), (Nat.ltb_spec (x' + shift) (g_nx g)); intuition lia.
Qed.
Lemma turned_onto d : in_range nt ny nx d -> exists c, in_range nt ny nx c /\ sig c = d.
Proof.
  destruct d as [[t y] x]. unfold sig, in_range, nx. intros (T & Y & X). exists (t, y, if Nat.ltb x shift then x + g_nx g - shift else x - shift). unfold turned.
  destruct (Nat.ltb_spec x shift); (split; [lia|]); f_equal; match goal with |- (if Nat.ltb ?a ?b then _ else _) = _ => destruct (Nat.ltb_spec a b) end; lia.
Qed.
End Turn.

(** As claimed: the events of the turned data are the turned events.  False: the
    object of the earliest cell is dropped, and which one that is depends on where
    the columns start. *)
Theorem C132_turning_the_globe_turns_the_events_refuted :
  exists g k data data' shift F n mg st F' n' mg' st',
    g_regional g = false /\ g_R g = 0%Z /\ shift < g_nx g /\ moved_data g (turned (g_nx g) shift) data data' /\ moved_mask g (turned (g_nx g) shift) (g_mask g) /\
    fresh_run g k data = Ok (F, n, mg, st) /\ fresh_run g k data' = Ok (F', n', mg', st') /\
    ~ moved_events (g_nt g) (g_nt g) (g_ny g) (g_nx g) (turned (g_nx g) shift) F F'.
Proof.
  exists (mkGrid false 1 1 4 [true; true; true; true] 0 0 (ByAbsolute 1)), (mkTracking false false (fun _ => (0, 0)%Q) 0 [] [1]), [[true; false; true; false]], [[true; false; true; false]], 2.
  eexists. eexists. eexists. eexists. eexists. eexists. eexists. eexists. cbn [g_regional g_R g_nx g_ny g_nt g_mask].
  split; [reflexivity|]. split; [reflexivity|]. split; [lia|].
  split; [split; [reflexivity|]; intros [[t y] x] (T & Y & X); cbn in T, Y, X; assert (t = 0) by lia; assert (y = 0) by lia; subst; destruct x as [|[|[|[|x]]]]; [reflexivity|reflexivity|reflexivity|reflexivity|lia]|].
  split; [intros y x Y X; cbn in Y, X; assert (y = 0) by lia; subst; destruct x as [|[|[|[|x]]]]; [reflexivity|reflexivity|reflexivity|reflexivity|lia]|].
  split; [vm_compute; reflexivity|]. split; [vm_compute; reflexivity|].
  intros [M _]. specialize (M (0, 0, 2)). cbn in M. apply M; [lia|discriminate|reflexivity].
Qed.
Print Assumptions C132_turning_the_globe_turns_the_events_refuted.

(** On a global grid with R_fill = 0 and any T_fill and area rule: turn data and
    mask by any number of columns; the statistics are the same and the event
    cells are the turned ones, and without merging the number of events and which
    cells are together too, and the second run returns whenever the first does -
    provided that the dropped objects correspond or are below the threshold. *)
Theorem C132_turning_the_globe_turns_the_events_partial (g : grid) (k : tracking) (shift : nat) (mask' : list bool) (data data' s s' : field)
    (F : list (list Z)) (n : Z) (mg : option merges) (st : stats) :
  let g' := with_mask g mask' in
  let nt := g_nt g in let ny := g_ny g in let nx := g_nx g in let east := turned nx shift in
  g_regional g = false -> g_R g = 0%Z -> shift < nx -> length data = nt -> fold_right Nat.add 0 (k_chunks k) = nt ->
  moved_data g (turned (g_nx g) shift) data data' -> moved_mask g (turned (g_nx g) shift) mask' ->
  fill_grid g data = Some s -> fill_grid g' data' = Some s' ->
  drops_alike g g' east s s' (s_threshold st) ->
  fresh_run g k data = Ok (F, n, mg, st) ->
  (k_merging k = false -> exists r, fresh_run g' k data' = Ok r) /\
  forall F' n' mg' st', fresh_run g' k data' = Ok (F', n', mg', st') ->
    same_figures data data' st st' /\ moved_events nt nt ny nx east F F' /\
    (k_merging k = false -> n' = n /\ same_grouping nt ny nx east F F').
Proof.
  intros g' nt ny nx east Rg R0 Sf L Ch (Ld & Vd) Vm Fs Fs' Fo Rn.
  assert (L' : length data' = g_nt g') by (rewrite Ld; exact L).
  assert (Eq : forall c, in_range nt ny nx c -> value_at nx s' (east c) = value_at nx s c).
  { intros [[t y] x] Rc. assert (Rc' := turned_range g shift Sf _ Rc). unfold east, turned in *. destruct Rc as (T & Y & X). set (x' := if Nat.ltb (x + shift) nx then x + shift else x + shift - nx) in *. fold nx in Rc'. fold x' in Rc'. destruct Rc' as (_ & _ & X').
    assert (V1 := unfilled_value g data s t y x R0 L Fs T Y X). assert (V2 := unfilled_value g' data' s' t y x' R0 L' Fs' T Y X').
    cbv zeta in V1, V2. change (g_nx g') with nx in V2. change (g_mask g') with mask' in V2. change (g_T g') with (g_T g) in V2. fold nx in V1. rewrite V1, V2.
    assert (M : nth (y * nx + x') mask' false = nth (y * nx + x) (g_mask g) false) by (assert (H := Vm y x Y X); exact H).
    rewrite M. f_equal. f_equal.
    assert (E : map (fun row => nth (y * nx + x) (g_mask g) false && nth (y * nx + x') row false) data' = map (fun row => nth (y * nx + x) (g_mask g) false && nth (y * nx + x) row false) data).
    { apply (nth_ext _ _ false false); [rewrite !map_length; exact Ld|]. intros i I. rewrite map_length in I. rewrite (nth_map_gen _ data' i []) by exact I. rewrite (nth_map_gen _ data i []) by (rewrite <- Ld; exact I).
      f_equal. assert (Ti : i < g_nt g) by (change (g_nt g) with nt; lia). assert (H := Vd (i, y, x) (conj Ti (conj Y X))). exact H. }
    rewrite E. reflexivity. }
  assert (St : forall b c d, in_range nt ny nx c -> in_range nt ny nx d -> (touching b (negb (g_regional g)) nx (east c) (east d) <-> touching b (negb (g_regional g)) nx c d)).
  { rewrite Rg. exact (turned_touch g shift Sf). }
  assert (Im : forall d, in_range nt ny nx d -> value_at nx s' d = true -> exists c, in_range nt ny nx c /\ east c = d) by (intros d R _; exact (turned_onto g shift Sf d R)).
  split.
  - intro Km. exact (second_returns g g' k k data data' s s' east F n mg st eq_refl eq_refl L L' Ch Ch Fs Fs' Rn (turned_range g shift Sf) (turned_once g shift Sf) St Eq Im Fo Km).
  - intros F' n' mg' st' Rn'.
    exact (runs_related g g' k k data data' s s' east F F' n n' mg mg' st st' eq_refl eq_refl L L' Ch Ch Fs Fs' Rn (turned_range g shift Sf) (turned_once g shift Sf) St Eq Im Fo Rn').
Qed.
Print Assumptions C132_turning_the_globe_turns_the_events_partial.

(** ** C133: quiet steps *)
Lemma quiet_fill g a b data s : (0 <= g_R g)%Z -> Z.even (g_T g) = true -> length data = g_nt g -> fill_grid g data = Some s ->
  exists s', fill_grid (with_steps g (a + g_nt g + b)) (quiet g a ++ data ++ quiet g b) = Some s' /\
    (forall t y x, t < g_nt g -> y < g_ny g -> x < g_nx g -> value_at (g_nx g) s' (t + a, y, x) = value_at (g_nx g) s (t, y, x)) /\
    (forall t y x, y < g_ny g -> x < g_nx g -> value_at (g_nx g) s' (t, y, x) = true -> a <= t < a + g_nt g).
Proof.
  intros R0 Te L E. set (g' := with_steps g (a + g_nt g + b)). set (data' := quiet g a ++ data ++ quiet g b).
  set (ny := g_ny g). set (nx := g_nx g). set (nt := g_nt g).
  assert (L' : length data' = a + nt + b) by (unfold data', quiet; rewrite !app_length, !repeat_length; unfold nt; lia).
  assert (T0 : (0 <= g_T g)%Z).
  { unfold fill_grid, preprocess_morph, fill_time_gaps in E. destruct (Z.eqb_spec (g_T g) 0); [lia|]. destruct (Z.ltb_spec (g_T g + 1) 0); [discriminate|].
    destruct (Z.eq_dec (g_T g) (-1)) as [H1|H1]; [rewrite H1 in Te; discriminate|lia]. }
  unfold fill_grid in E. destruct (preprocess_morph (g_regional g) (g_T g) (g_R g) (Z.of_nat (g_ny g)) (Z.of_nat (g_nx g)) (img_of (g_nx g) (g_mask g)) (map (img_of (g_nx g)) data)) as [im|] eqn:P; [|discriminate].
  cbn [option_map] in E. injection E as <-. fold ny nx in P |- *.
  destruct (preprocess_morph (g_regional g) (g_T g) (g_R g) (Z.of_nat ny) (Z.of_nat nx) (img_of nx (g_mask g)) (map (img_of nx) data')) as [im'|] eqn:P'.
  2: { exfalso. unfold preprocess_morph, fill_time_gaps in P'. destruct (Z.eqb_spec (g_T g) 0); [discriminate|]. destruct (Z.ltb_spec (g_T g + 1) 0); [lia|discriminate]. }
  exists (map (flat_img ny nx) im'). split.
  { unfold fill_grid. change (g_regional g') with (g_regional g). change (g_T g') with (g_T g). change (g_R g') with (g_R g). change (g_ny g') with ny. change (g_nx g') with nx. change (g_mask g') with (g_mask g). rewrite P'. reflexivity. }
  unfold preprocess_morph in P, P'. set (im1 := fill_holes (g_regional g) (g_R g) (Z.of_nat ny) (Z.of_nat nx) (img_of nx (g_mask g)) (map (img_of nx) data)) in *.
  set (im1' := fill_holes (g_regional g) (g_R g) (Z.of_nat ny) (Z.of_nat nx) (img_of nx (g_mask g)) (map (img_of nx) data')) in *.
  set (dark := (fun _ _ => false) : img).
  assert (L1 : length im1 = nt) by (unfold im1, fill_holes; rewrite !map_length; exact L).
  assert (L1' : length im1' = a + nt + b) by (unfold im1', fill_holes; rewrite !map_length; exact L').
  (* the first filling, step by step *)
  assert (Qz : forall y x, y < ny -> x < nx -> fill_holes_slice (g_regional g) (g_R g) (Z.of_nat ny) (Z.of_nat nx) (img_of nx (g_mask g)) (img_of nx (repeat false (ny * nx))) (Z.of_nat y) (Z.of_nat x) = false).
  { intros y x Y X. apply slice_quiet; [exact R0|exact Y|exact X|]. intros y0 x0 _ _. unfold img_of. rewrite nth_repeat. reflexivity. }
  assert (Ser : forall y x, y < ny -> x < nx -> series_at im1' (Z.of_nat y) (Z.of_nat x) = repeat false a ++ series_at im1 (Z.of_nat y) (Z.of_nat x) ++ repeat false b).
  { intros y x Y X. unfold series_at, im1', im1, fill_holes, data', quiet. fold ny nx. rewrite !map_app.
    assert (Rp : forall m, map (fun f : img => f (Z.of_nat y) (Z.of_nat x)) (map (fill_holes_slice (g_regional g) (g_R g) (Z.of_nat ny) (Z.of_nat nx) (img_of nx (g_mask g))) (map (img_of nx) (repeat (repeat false (ny * nx)) m))) = repeat false m).
    { induction m as [|m IH]; [reflexivity|]. cbn [repeat map]. rewrite IH. f_equal. apply Qz; assumption. }
    rewrite !Rp. reflexivity. }
  destruct (C10_record_level _ _ _ _ _ _ _ _ T0 Te P) as (Li & cl & Lc & Cl & Op). destruct (C10_record_level _ _ _ _ _ _ _ _ T0 Te P') as (Li' & cl' & Lc' & Cl' & Op').
  assert (Ec : forall t y x, t < a + nt + b -> y < ny -> x < nx -> nth t cl' dark (Z.of_nat y) (Z.of_nat x) = (Nat.leb a t && Nat.ltb t (a + nt) && nth (t - a) cl dark (Z.of_nat y) (Z.of_nat x))%bool).
  { intros t y x T Y X. assert (Ta : t < length im1') by (rewrite L1'; exact T). specialize (Cl' (Z.of_nat y) (Z.of_nat x) t Ta). rewrite (Ser y x Y X), ext_pad, gap_pad in Cl'. fold dark in Cl'.
    assert (Len : length (series_at im1 (Z.of_nat y) (Z.of_nat x)) = nt) by (unfold series_at; rewrite map_length; exact L1).
    assert (Out : forall u, ext (series_at im1 (Z.of_nat y) (Z.of_nat x)) u -> (0 <= u < Z.of_nat nt)%Z).
    { intros u U. unfold ext, at_t in U. destruct (Z.leb_spec 0 u), (Z.ltb_spec u (Z.of_nat (length (series_at im1 (Z.of_nat y) (Z.of_nat x))))); cbn in U; try discriminate. lia. }
    assert (Rng : nth t cl' dark (Z.of_nat y) (Z.of_nat x) = true -> a <= t < a + nt).
    { intro H. apply Cl' in H. destruct H as [H|(p & q & B & _ & Pp & Pq & _)]; [apply Out in H; lia|]. apply Out in Pp. apply Out in Pq. lia. }
    destruct (Nat.leb_spec a t) as [A1|A1], (Nat.ltb_spec t (a + nt)) as [A2|A2]; cbn [andb]; try (destruct (nth t cl' dark (Z.of_nat y) (Z.of_nat x)); [specialize (Rng eq_refl); lia|reflexivity]).
    assert (Tb : t - a < length im1) by (rewrite L1; lia). specialize (Cl (Z.of_nat y) (Z.of_nat x) (t - a) Tb). fold dark in Cl. replace (Z.of_nat (t - a)) with (Z.of_nat t - Z.of_nat a)%Z in Cl by lia.
    destruct (nth t cl' dark (Z.of_nat y) (Z.of_nat x)), (nth (t - a) cl dark (Z.of_nat y) (Z.of_nat x)); try reflexivity; (destruct Cl as [C1 C2]; destruct Cl' as [D1 D2]; exfalso; first [specialize (C2 (D1 eq_refl)); discriminate|specialize (D2 (C1 eq_refl)); discriminate]). }
  (* the result, step by step *)
  assert (Er : forall t y x, t < a + nt + b -> y < ny -> x < nx -> nth t im' dark (Z.of_nat y) (Z.of_nat x) = (Nat.leb a t && Nat.ltb t (a + nt) && nth (t - a) im dark (Z.of_nat y) (Z.of_nat x))%bool).
  { destruct Op as [[Tz ->]|[Tp ->]], Op' as [[Tz' ->]|[Tp' ->]]; [|lia|lia|].
    - intros t y x T Y X.
      assert (H : nth t (series_at im1' (Z.of_nat y) (Z.of_nat x)) false = (Nat.leb a t && Nat.ltb t (a + nt) && nth (t - a) (series_at im1 (Z.of_nat y) (Z.of_nat x)) false)%bool).
      { rewrite (Ser y x Y X). destruct (Nat.leb_spec a t) as [A1|A1].
        - rewrite app_nth2 by (rewrite repeat_length; exact A1). rewrite repeat_length. assert (Len : length (series_at im1 (Z.of_nat y) (Z.of_nat x)) = nt) by (unfold series_at; rewrite map_length; exact L1).
          destruct (Nat.ltb_spec t (a + nt)) as [A2|A2]; cbn [andb]; [rewrite app_nth1 by lia; reflexivity|]. rewrite app_nth2 by lia. apply nth_repeat.
        - cbn [andb]. rewrite app_nth1 by (rewrite repeat_length; exact A1). apply nth_repeat. }
      unfold series_at in H. rewrite (nth_map_gen _ im1' t dark) in H by (rewrite L1'; exact T). rewrite H.
      destruct (Nat.leb_spec a t) as [A1|A1], (Nat.ltb_spec t (a + nt)) as [A2|A2]; cbn [andb]; try reflexivity. rewrite (nth_map_gen _ im1 (t - a) dark) by (rewrite L1; lia). reflexivity.
    - intros t y x T Y X. unfold fill_holes. assert (H2 : (0 <= g_R g / 2)%Z) by (apply Z.div_pos; lia).
      rewrite (nth_map_gen _ cl' t dark) by (rewrite Lc'; unfold dark; rewrite L1'; exact T).
      destruct (Nat.leb_spec a t) as [A1|A1], (Nat.ltb_spec t (a + nt)) as [A2|A2]; cbn [andb];
        try (apply slice_quiet; [exact H2|exact Y|exact X|]; intros y0 x0 Y0 X0; rewrite Ec by assumption;
             destruct (Nat.leb_spec a t), (Nat.ltb_spec t (a + nt)); try lia; reflexivity).
      rewrite (nth_map_gen _ cl (t - a) dark) by (rewrite Lc; unfold dark; rewrite L1; lia).
      apply slice_same; [lia|lia| |unfold in_grid; lia]. intros y0 x0 (Y0 & X0).
      rewrite <- (Z2Nat.id y0), <- (Z2Nat.id x0) by lia. rewrite Ec by lia. destruct (Nat.leb_spec a t), (Nat.ltb_spec t (a + nt)); first [reflexivity|lia]. }
  assert (Lm : length im = nt) by (rewrite Li; exact L1). assert (Lm' : length im' = a + nt + b) by (rewrite Li'; exact L1').
  split.
  - intros t y x T Y X. cbn [value_at]. rewrite (nth_map_gen _ im' (t + a) dark) by (rewrite Lm'; unfold nt; lia). rewrite (nth_map_gen _ im t dark) by (rewrite Lm; exact T). rewrite !flat_at by assumption.
    rewrite Er by (unfold nt; first [lia|assumption]). destruct (Nat.leb_spec a (t + a)); [|lia]. destruct (Nat.ltb_spec (t + a) (a + nt)); [|unfold nt in *; lia]. cbn [andb]. replace (t + a - a) with t by lia. reflexivity.
  - intros t y x Y X V. cbn [value_at] in V. destruct (Nat.lt_ge_cases t (a + nt + b)) as [T|T].
    + rewrite (nth_map_gen _ im' t dark) in V by (rewrite Lm'; exact T). rewrite flat_at in V by assumption. rewrite Er in V by assumption.
      destruct (Nat.leb_spec a t), (Nat.ltb_spec t (a + nt)); cbn in V; try discriminate. lia.
    + rewrite (nth_overflow (map (flat_img ny nx) im')) in V by (rewrite map_length, Lm'; exact T). destruct (y * nx + x); discriminate.
Qed.

(** Quiet steps before and after a record: the statistics are the same and
    the event cells are those of the record, moved by the number of steps added in
    front; without merging the number of events and which cells are together too,
    and the run returns whenever the run on the record alone does. *)
Theorem C133_quiet_steps_only_shift_the_events_partial (g : grid) (k k' : tracking) (a b : nat) (data : field)
    (F : list (list Z)) (n : Z) (mg : option merges) (st : stats) :
  let nt := g_nt g in let g' := with_steps g (a + nt + b) in let data' := quiet g a ++ data ++ quiet g b in
  (0 <= g_R g)%Z -> Z.even (g_T g) = true -> length data = nt -> k_merging k' = k_merging k ->
  fold_right Nat.add 0 (k_chunks k) = nt -> fold_right Nat.add 0 (k_chunks k') = a + nt + b ->
  fresh_run g k data = Ok (F, n, mg, st) ->
  (k_merging k = false -> exists r, fresh_run g' k' data' = Ok r) /\
  forall F' n' mg' st', fresh_run g' k' data' = Ok (F', n', mg', st') ->
    same_figures data data' st st' /\ s_processed st' = s_processed st /\ moved_events nt (a + nt + b) (g_ny g) (g_nx g) (later a) F F' /\
    (k_merging k = false -> n' = n /\ same_grouping nt (g_ny g) (g_nx g) (later a) F F').
Proof.
  intros nt g' data' R0 Te L Km Ch Ch' Rn. destruct (run_fills g k data _ Rn) as (s & Fs).
  destruct (quiet_fill g a b data s R0 Te L Fs) as (s' & Fs' & V & O).
  assert (L' : length data' = g_nt g') by (unfold data', quiet; rewrite !app_length, !repeat_length; unfold g', nt in *; cbn; lia).
  set (ny := g_ny g) in *. set (nx := g_nx g) in *.
  assert (Sr : forall c, in_range nt ny nx c -> in_range (g_nt g') ny nx (later a c)) by (intros [[t y] x]; unfold in_range, later, g'; cbn [g_nt with_steps]; lia).
  assert (Si : forall c d, in_range nt ny nx c -> in_range nt ny nx d -> later a c = later a d -> c = d).
  { intros [[t y] x] [[t2 y2] x2] _ _. unfold later. intro E. injection E as E1 -> ->. f_equal. f_equal. lia. }
  assert (St : forall b c d, in_range nt ny nx c -> in_range nt ny nx d -> (touching b (negb (g_regional g)) nx (later a c) (later a d) <-> touching b (negb (g_regional g)) nx c d)).
  { intros b0 [[t y] x] [[t2 y2] x2] _ _. unfold touching, later, dist1. destruct b0; intuition lia. }
  assert (Eq : forall c, in_range nt ny nx c -> value_at nx s' (later a c) = value_at nx s c) by (intros [[t y] x] (T & Y & X); apply V; assumption).
  assert (Im : forall d, in_range (g_nt g') ny nx d -> value_at nx s' d = true -> exists c, in_range nt ny nx c /\ later a c = d).
  { intros [[t y] x] (T & Y & X) Vd. assert (B := O t y x Y X Vd). exists (t - a, y, x). unfold nt in *. split; [split; [lia|split; assumption]|]. unfold later. f_equal. f_equal. lia. }
  assert (Fo : drops_alike g g' (later a) s s' (s_threshold st)).
  { unfold drops_alike. fold nt ny nx. change (g_ny g') with ny. change (g_nx g') with nx. intros e e' (Re & Xe & Me) (Re' & Xe' & Me'). left.
    assert (Mv := extreme_moved g g' data data' s s' (later a) L L' Fs Fs' Sr Eq).
    destruct (extreme_image g g' data' s' (later a) L' Fs' Im e' Re' Xe') as (c & Rc & <-).
    assert (Xc := proj1 (Mv c Rc) Xe'). specialize (Me c Rc Xc). specialize (Me' (later a e) (Sr e Re) (proj2 (Mv e Re) Xe)).
    assert (Fl : forall d, flat ny nx (later a d) = flat ny nx d + a * ny * nx) by (intros [[t y] x]; unfold flat, later; nia).
    rewrite !Fl in Me'. assert (e = c) by (apply (flat_inj nt ny nx); [exact Re|exact Rc|lia]). subst c. constructor. }
  split.
  - intro Kf. apply (second_returns g g' k k' data data' s s' (later a) F n mg st eq_refl Km L L' Ch Ch' Fs Fs' Rn Sr Si St Eq Im Fo). congruence.
  - intros F' n' mg' st' Rn'.
    destruct (runs_related g g' k k' data data' s s' (later a) F F' n n' mg mg' st st' eq_refl Km L L' Ch Ch' Fs Fs' Rn Sr Si St Eq Im Fo Rn') as (Fg & Mv & Gp).
    split; [exact Fg|]. split; [|split; [exact Mv|exact Gp]]. apply Fg. unfold data', quiet. rewrite !concat_app, !count_app.
    assert (Z0 : forall m r, count (fun b : bool => b) (concat (repeat (repeat false m) r)) = 0).
    { intros m r. apply count_zero. intros v B. apply in_concat in B. destruct B as (l & I & B). apply repeat_spec in I. subst l. apply repeat_spec in B. exact B. }
    rewrite !Z0. lia.
Qed.
Print Assumptions C133_quiet_steps_only_shift_the_events_partial.

(** ** Cases *)
Definition belt (nt : nat) (T : Z) : grid := mkGrid false nt 1 5 (repeat true 5) 0 T (ByAbsolute 1).
Definition simple_tracking (nt : nat) : tracking := mkTracking false false (fun _ => (0, 0)%Q) 0 [] [nt].
Definition bits (l : list (list nat)) : field := map (map (Nat.eqb 1)) l.

(** Two steps on five columns around the globe, turned by four. *)
Example C132_case :
  let data := bits [[1;0;0;0;0]; [0;0;1;1;0]] in let data' := bits [[0;0;0;0;1]; [0;1;1;0;0]] in
  moved_data (belt 2 0) (turned 5 4) data data' /\ moved_mask (belt 2 0) (turned 5 4) (repeat true 5) /\
  fill_grid (belt 2 0) data = Some data /\ fill_grid (with_mask (belt 2 0) (repeat true 5)) data' = Some data' /\
  (forall e e', first_extreme 2 1 5 (concat data) e -> first_extreme 2 1 5 (concat data') e' -> joined false 2 1 5 (concat data') (turned 5 4 e) e') /\
  exists F n mg st F' n' mg' st', fresh_run (belt 2 0) (simple_tracking 2) data = Ok (F, n, mg, st) /\
    fresh_run (with_mask (belt 2 0) (repeat true 5)) (simple_tracking 2) data' = Ok (F', n', mg', st') /\
    F = [[0;0;0;0;0]; [0;0;1;1;0]]%Z /\ F' = [[0;0;0;0;0]; [0;1;1;0;0]]%Z.
Proof.
  cbv zeta. split.
  { split; [reflexivity|]. intros [[t y] x] (T & Y & X). cbn in T, Y, X. assert (y = 0) by lia. subst y.
    destruct t as [|[|t]]; [| |lia]; destruct x as [|[|[|[|[|x]]]]]; try reflexivity; lia. }
  split; [intros y x Y X; cbn in Y, X; assert (y = 0) by lia; subst y; destruct x as [|[|[|[|[|x]]]]]; try reflexivity; lia|].
  split; [vm_compute; reflexivity|]. split; [vm_compute; reflexivity|]. split.
  { intros e e' Fe Fe'.
    assert (A : first_extreme 2 1 5 (concat (bits [[1;0;0;0;0]; [0;0;1;1;0]])) (0, 0, 0)) by (split; [cbn; lia|split; [reflexivity|intros [[t y] x] _ _; cbn; lia]]).
    assert (B : first_extreme 2 1 5 (concat (bits [[0;0;0;0;1]; [0;1;1;0;0]])) (0, 0, 4)).
    { split; [cbn; lia|split; [reflexivity|]]. intros [[t y] x] (T & Y & X) V. assert (y = 0) by lia. subst y. destruct t as [|[|t]]; [| |lia]; destruct x as [|[|[|[|[|x]]]]]; try (vm_compute in V; discriminate V); unfold flat; lia. }
    rewrite (first_unique _ _ _ _ _ _ Fe A), (first_unique _ _ _ _ _ _ Fe' B). constructor. }
  do 8 eexists. split; [vm_compute; reflexivity|]. split; [vm_compute; reflexivity|]. split; reflexivity.
Qed.

(** A gap of one step is filled; one quiet step before, two after. *)
Example C133_case :
  let data := bits [[1;0;1;1;0]; [0;0;0;0;0]; [0;0;0;1;1]] in
  exists F n mg st F' n' mg' st', fresh_run (belt 3 2) (simple_tracking 3) data = Ok (F, n, mg, st) /\
    fresh_run (with_steps (belt 3 2) 6) (simple_tracking 6) (quiet (belt 3 2) 1 ++ data ++ quiet (belt 3 2) 2) = Ok (F', n', mg', st') /\
    F = [[0;0;1;1;0]; [0;0;0;1;0]; [0;0;0;1;1]]%Z /\
    F' = [[0;0;0;0;0]; [0;0;1;1;0]; [0;0;0;1;0]; [0;0;0;1;1]; [0;0;0;0;0]; [0;0;0;0;0]]%Z.
Proof. do 8 eexists. split; [vm_compute; reflexivity|]. split; [vm_compute; reflexivity|]. split; reflexivity. Qed.
