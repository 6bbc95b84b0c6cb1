(** Theorem C135 with merging: a record and its continuation on a grid. *)
From Verif Require Import Base Morph Label LabelSpec LabelProofs LabelProps Filter FilterSpec FilterProofs FilterGridProofs FilterAreaProofs FilterMoreProofs FilterWitness FilterProps
  Overlap OverlapSpec Merge MergeSpec MergeProofs MergeLoop MergeWitness Partition PartitionProofs PartitionMore Cluster ClusterSpec ClusterProofs ClusterFinal ClusterPipe ClusterProps
  Run RunSpec RunProofs RunProps GridRunProps RelateSpec RelateProofs RelateProps ExtendProofs ExtendProps UnmergedProofs PrefixProofs SteadyProofs SteadyProps MoveGridProofs MoveGridProps.
Open Scope nat_scope.

(** ** Chains of overlaps in the first steps *)
Section Start.
Variables (w : list Q) (thr : Q) (objs : list (list Z)) (e cells : nat).
Hypothesis Rows : forall t, t < length objs -> length (nth t objs []) = cells.
Hypothesis Once : forall x s t, (0 < x)%Z -> In x (nth s objs []) -> In x (nth t objs []) -> s = t.
Hypothesis He : e <= length objs.

Lemma overlap_start p c : consecutive_overlap w thr (firstn e objs) p c -> consecutive_overlap w thr objs p c.
Proof. intros (t & T & O). rewrite firstn_length in T. rewrite !nth_first in O by lia. exists t. split; [lia|exact O]. Qed.

Lemma descends_start r a : descends (consecutive_overlap w thr objs) r a -> forall t j, t < e -> j < cells -> id_at objs t j = a -> (0 < a)%Z ->
  descends (consecutive_overlap w thr (firstn e objs)) r a.
Proof.
  intro D. induction D as [|p c D IH P]; intros t j T J E Pa; [constructor|].
  destruct P as (v & V & O). assert (O1 := O). destruct O1 as (Pp & Pc & (q & Q0 & E1 & E2) & _). rewrite Rows in Q0 by lia.
  assert (S v = t) by (apply (Once c); [exact Pa|rewrite <- E2; apply nth_In; rewrite Rows by lia; exact Q0|rewrite <- E; apply nth_In; rewrite Rows by lia; exact J]).
  apply (descends_step _ _ p); [apply (IH v q ltac:(lia) Q0 E1 Pp)|]. exists v. split; [rewrite firstn_length; lia|]. rewrite !nth_first by lia. exact O.
Qed.

Lemma chained_start t j u i : (forall p q c, consecutive_overlap w thr objs p c -> consecutive_overlap w thr objs q c -> p = q) ->
  t < e -> u < e -> j < cells -> i < cells -> (0 < id_at objs t j)%Z -> (0 < id_at objs u i)%Z ->
  (chained (consecutive_overlap w thr objs) (id_at objs t j) (id_at objs u i) <-> chained (consecutive_overlap w thr (firstn e objs)) (id_at objs t j) (id_at objs u i)).
Proof.
  intros One T U J I Pj Pi. split; [|apply chained_mono; exact overlap_start].
  intro C. destruct (common_root _ _ _ One C) as (r & D1 & D2).
  apply (chained_trans _ _ r); [apply chained_sym; apply descends_chained; exact (descends_start r _ D1 t j T J eq_refl Pj)|apply descends_chained; exact (descends_start r _ D2 u i U I eq_refl Pi)].
Qed.
End Start.

(** ** Object numbers of the first steps *)
Lemma numbers_first wrap nt ny nx h on objs : h <= nt -> object_numbers wrap nt ny nx on objs -> object_numbers wrap h ny nx on (firstn h objs).
Proof.
  intros Le (L & Rw & P & E).
  assert (Id : forall c, in_range h ny nx c -> id_of nx (firstn h objs) c = id_of nx objs c) by (intros [[t y] x] (T & _); unfold id_of; rewrite nth_first by exact T; reflexivity).
  split; [rewrite firstn_length; lia|]. split; [intros t T; rewrite nth_first by exact T; apply Rw; lia|]. split.
  - intros c Rc. rewrite (Id c Rc). apply P. apply (range_more h nt ny nx Le). exact Rc.
  - intros c d Rc Rd Oc Od. rewrite (Id c Rc), (Id d Rd), (E c d (range_more h nt ny nx Le c Rc) (range_more h nt ny nx Le d Rd) Oc Od).
    apply (chain_early wrap h nt ny nx h Le on on); try (destruct c as [[t y] x]; cbn; apply Rc); try (intros; assumption); intros; reflexivity.
Qed.
Lemma numbers_on wrap nt ny nx on on' objs : (forall c, in_range nt ny nx c -> (on' c <-> on c)) -> object_numbers wrap nt ny nx on objs -> object_numbers wrap nt ny nx on' objs.
Proof.
  intros Ag (L & Rw & P & E). split; [exact L|]. split; [exact Rw|]. split.
  - intros c Rc. rewrite (Ag c Rc). exact (P c Rc).
  - intros c d Rc Rd Oc Od. rewrite (E c d Rc Rd (proj1 (Ag c Rc) Oc) (proj1 (Ag d Rd) Od)). split; apply chain_mono; intros e Re; apply Ag; exact Re.
Qed.
Lemma numbers_once wrap nt ny nx on objs : 0 < nx -> (forall c, in_range nt ny nx c -> on c \/ ~ on c) -> object_numbers wrap nt ny nx on objs ->
  forall x s t, (0 < x)%Z -> In x (nth s objs []) -> In x (nth t objs []) -> s = t.
Proof.
  intros Nx Dec Ob x s t X I J. assert (Ob0 := Ob). destruct Ob0 as (L & Rw & P & E).
  assert (G : forall u, In x (nth u objs []) -> exists c, in_range nt ny nx c /\ step_of c = u /\ id_of nx objs c = x).
  { intros u V. assert (U : u < nt) by (rewrite <- L; destruct (Nat.lt_ge_cases u (length objs)) as [H|H]; [exact H|rewrite nth_overflow in V by exact H; destruct V]).
    destruct (In_nth _ _ 0%Z V) as (j & Jl & Ej). rewrite (Rw u U) in Jl. destruct (cell_at nt ny nx u j U Jl) as (c & Rc & Sc & Pc).
    exists c. split; [exact Rc|]. split; [exact Sc|]. rewrite id_row, Pc, Sc. exact Ej. }
  destruct (G s I) as (c & Rc & Sc & Ec). destruct (G t J) as (d & Rd & Sd & Ed).
  assert (On : forall c, in_range nt ny nx c -> id_of nx objs c = x -> on c).
  { intros b Rb Eb. destruct (Dec b Rb) as [O|O]; [exact O|]. rewrite (proj2 (P b Rb) O) in Eb. lia. }
  rewrite <- Sc, <- Sd. assert (Ch : chain false wrap nt ny nx on c d) by (apply E; try assumption; [apply On; assumption|apply On; assumption|congruence]).
  exact (chain_one_step _ _ _ _ _ _ _ Ch).
Qed.

(** Two records alike in the first [h] steps, in neither of which objects merge: chains between cells of these steps. *)
Lemma chains_start wrap nt nt' ny nx h on on' objs objs' thr : 0 < nx -> h <= nt -> h <= nt' ->
  (forall c, in_range nt ny nx c -> on c \/ ~ on c) -> (forall c, in_range nt' ny nx c -> on' c \/ ~ on' c) ->
  (forall c, in_range h ny nx c -> (on' c <-> on c)) ->
  object_numbers wrap nt ny nx on objs -> object_numbers wrap nt' ny nx on' objs' ->
  nothing_merges (ny * nx) thr objs -> nothing_merges (ny * nx) thr objs' ->
  forall c d, in_range h ny nx c -> in_range h ny nx d -> on c -> on d ->
    (chained (consecutive_overlap (repeat 1%Q (ny * nx)) thr objs) (id_of nx objs c) (id_of nx objs d) <->
     chained (consecutive_overlap (repeat 1%Q (ny * nx)) thr objs') (id_of nx objs' c) (id_of nx objs' d)).
Proof.
  intros Nx Le Le' Dec Dec' Ag Ob Ob' Up Up' c d Rc Rd Oc Od. unfold nothing_merges in *.
  set (w := repeat 1%Q (ny * nx)) in *. assert (Lw : length w = ny * nx) by apply repeat_length.
  assert (Mo := range_more h nt ny nx Le). assert (Mo' := range_more h nt' ny nx Le').
  assert (O1 := numbers_first _ _ _ _ _ _ _ Le Ob). assert (O2 := numbers_first _ _ _ _ _ _ _ Le' Ob').
  assert (O2' := numbers_on _ _ _ _ on' on _ (fun c Rc => iff_sym (Ag c Rc)) O2).
  assert (DecH : forall c, in_range h ny nx c -> on c \/ ~ on c) by (intros e Re; apply Dec, Mo; exact Re).
  destruct (numbers_agree wrap h ny nx on _ _ Nx DecH O1 O2') as (Len & Pos & Eqs).
  destruct (numbers_agree wrap h ny nx on _ _ Nx DecH O2' O1) as (Len' & Pos' & Eqs').
  rewrite <- Lw in Pos, Eqs, Pos', Eqs'.
  assert (La : forall t, t < length (firstn h objs) -> length (nth t (firstn h objs) []) = length w) by (rewrite Lw; intros t T; apply O1; rewrite <- (proj1 O1); exact T).
  assert (Lb : forall t, t < length (firstn h objs') -> length (nth t (firstn h objs') []) = length w) by (rewrite Lw; intros t T; apply O2; rewrite <- (proj1 O2); exact T).
  assert (P1 : forall e, in_range h ny nx e -> on e -> (0 < id_of nx objs e)%Z) by (intros e Re Oe; apply (proj1 (proj2 (proj2 Ob)) e (Mo e Re)); exact Oe).
  assert (P2 : forall e, in_range h ny nx e -> on e -> (0 < id_of nx objs' e)%Z) by (intros e Re Oe; apply (proj1 (proj2 (proj2 Ob')) e (Mo' e Re)); apply Ag; assumption).
  assert (S1 : forall e, in_range h ny nx e -> step_of e < h) by (intros [[t y] x] (T & _); exact T).
  assert (F1 : forall e, in_range h ny nx e -> id_at (firstn h objs) (step_of e) (place_of nx e) = id_at objs (step_of e) (place_of nx e)) by (intros e Re; unfold id_at; rewrite nth_first by (apply S1; exact Re); reflexivity).
  assert (F2 : forall e, in_range h ny nx e -> id_at (firstn h objs') (step_of e) (place_of nx e) = id_at objs' (step_of e) (place_of nx e)) by (intros e Re; unfold id_at; rewrite nth_first by (apply S1; exact Re); reflexivity).
  assert (L1 := proj1 O1). assert (L2 := proj1 O2).
  assert (Bc := place_lt h ny nx c Rc). assert (Bd := place_lt h ny nx d Rd).
  assert (Pc := P1 c Rc Oc). assert (Pd := P1 d Rd Od). assert (Pc' := P2 c Rc Oc). assert (Pd' := P2 d Rd Od).
  rewrite !id_row in *. change (nth (place_of nx c) (nth (step_of c) objs []) 0%Z) with (id_at objs (step_of c) (place_of nx c)) in *.
  change (nth (place_of nx d) (nth (step_of d) objs []) 0%Z) with (id_at objs (step_of d) (place_of nx d)) in *.
  change (nth (place_of nx c) (nth (step_of c) objs' []) 0%Z) with (id_at objs' (step_of c) (place_of nx c)) in *.
  change (nth (place_of nx d) (nth (step_of d) objs' []) 0%Z) with (id_at objs' (step_of d) (place_of nx d)) in *.
  rewrite (chained_start w thr objs h (ny * nx)); try assumption; try (apply S1; assumption);
    [|intros t T; apply Ob; rewrite <- (proj1 Ob); exact T|exact (numbers_once wrap nt ny nx on objs Nx Dec Ob)|rewrite (proj1 Ob); exact Le].
  rewrite (chained_start w thr objs' h (ny * nx)); try assumption; try (apply S1; assumption);
    [|intros t T; apply Ob'; rewrite <- (proj1 Ob'); exact T|exact (numbers_once wrap nt' ny nx on' objs' Nx Dec' Ob')|rewrite (proj1 Ob'); exact Le'].
  rewrite <- (F1 c Rc), <- (F1 d Rd), <- (F2 c Rc), <- (F2 d Rd). rewrite <- (F1 c Rc) in Pc. rewrite <- (F2 c Rc) in Pc'.
  split; intro C.
  - apply (relabel_chained w thr _ _ Len La Lb Pos Eqs _ _ C); try reflexivity; try (rewrite L1; apply S1; assumption); try (rewrite Lw; assumption). exact Pc.
  - apply (relabel_chained w thr _ _ Len' Lb La Pos' Eqs' _ _ C); try reflexivity; try (rewrite L2; apply S1; assumption); try (rewrite Lw; assumption). exact Pc'.
Qed.

(** ** C135 *)

(** With merging: when nothing merges or splits, neither in the record nor in its continuation, the cells more than T_fill
    steps before the end of the record are divided into the same events with and without the later steps.
    Missing: records with merges or splits. *)
Theorem C135_steady_partial (g : grid) (k k' : tracking) (a : Z) (data more : field)
    (F F' : list (list Z)) (n n' : Z) (mg mg' : option merges) (st st' : stats) (objs objs' : list (list Z)) :
  let nt := g_nt g in let ny := g_ny g in let nx := g_nx g in let g' := with_steps g (nt + length more) in let data' := data ++ more in
  let early := fun c : cell => (Z.of_nat (fst (fst c)) + g_T g < Z.of_nat nt)%Z in
  g_rule g = ByAbsolute a -> (0 <= g_R g)%Z -> Z.even (g_T g) = true -> length data = nt ->
  k_merging k = true -> k_merging k' = true -> k_overlap k' = k_overlap k ->
  fold_right Nat.add 0 (k_chunks k) = nt -> fold_right Nat.add 0 (k_chunks k') = nt + length more ->
  fresh_run g k data = Ok (F, n, mg, st) -> fresh_run g' k' data' = Ok (F', n', mg', st') ->
  object_numbers (negb (g_regional g)) nt ny nx (in_event nx F) objs ->
  nothing_merges (ny * nx) (k_overlap k) objs -> nothing_splits (ny * nx) (k_overlap k) objs ->
  object_numbers (negb (g_regional g)) (nt + length more) ny nx (in_event nx F') objs' ->
  nothing_merges (ny * nx) (k_overlap k) objs' -> nothing_splits (ny * nx) (k_overlap k) objs' ->
  forall c d, in_range nt ny nx c -> in_range nt ny nx d -> early c -> early d -> id_of nx F c <> 0%Z -> id_of nx F d <> 0%Z ->
    (id_of nx F' c = id_of nx F' d <-> id_of nx F c = id_of nx F d).
Proof.
  intros nt ny nx g' data' early Ru R0 Te L Km Km' Ke Ch Ch' R R' Ob Up Down Ob' Up' Down' c d Rc Rd Ec Ed Nc Nd.
  assert (L' : length data' = g_nt g') by (unfold data'; rewrite app_length, L; reflexivity).
  destruct (run_fills g k data _ R) as (s0 & Fs).
  destruct (C135_later_data_keep_earlier_events_partial g k k' a data more s0 F n mg st Ru R0 Te L ltac:(congruence) Ch Ch' R Fs) as (_ & Rel).
  destruct (Rel F' n' mg' st' R') as (_ & Ev & _). clear Rel. fold nt ny nx in Ev.
  assert (T0 : (0 <= g_T g)%Z) by (destruct (extend_fill g more data s0 R0 Te L Fs) as (s' & Fs' & T0 & _); exact T0).
  destruct (C171_steady_objects_partial g k data F n mg st objs L Ch Km R Ob Up Down) as (_ & Gp).
  rewrite <- Ke in Up', Down'.
  destruct (C171_steady_objects_partial g' k' data' F' n' mg' st' objs' L' Ch' Km' R' Ob' Up' Down') as (_ & Gp'). rewrite Ke in Up', Gp'.
  cbn [g' with_steps g_nt g_ny g_nx g_regional] in Gp'. fold nt ny nx in Gp, Gp'.
  set (h := Z.to_nat (Z.of_nat nt - g_T g)). assert (Hh : forall c, early c <-> fst (fst c) < h) by (intro b; unfold early, h; lia).
  assert (Lh : h <= nt) by (unfold h; lia). assert (Lm : nt <= nt + length more) by lia.
  assert (DecE : forall G b, in_event nx G b \/ ~ in_event nx G b) by (intros G b; rewrite in_event_id; destruct (Z.eq_dec (id_of nx G b) 0) as [H|H]; [right; intro X; exact (X H)|left; exact H]).
  assert (Rh : forall b, in_range nt ny nx b -> early b -> in_range h ny nx b) by (intros [[t y] x] (T & Y & X) Eb; apply Hh in Eb; cbn in Eb; split; [exact Eb|split; assumption]).
  assert (Nx : 0 < nx) by (destruct c as [[t y] x]; destruct Rc as (_ & _ & X); lia).
  assert (Ag : forall b, in_range h ny nx b -> (in_event nx F' b <-> in_event nx F b)).
  { intros b Rb. rewrite !in_event_id. apply Ev; [apply (range_more h nt ny nx Lh); exact Rb|]. apply Hh. destruct b as [[t y] x]. apply Rb. }
  assert (Ic : in_event nx F c) by (apply in_event_id; exact Nc). assert (Id : in_event nx F d) by (apply in_event_id; exact Nd).
  rewrite (Gp c d Rc Rd Ic Id).
  rewrite (Gp' c d (range_more nt _ ny nx Lm c Rc) (range_more nt _ ny nx Lm d Rd) (proj2 (Ag c (Rh c Rc Ec)) Ic) (proj2 (Ag d (Rh d Rd Ed)) Id)).
  symmetry. apply (chains_start (negb (g_regional g)) nt (nt + length more) ny nx h (in_event nx F) (in_event nx F') objs objs' (k_overlap k) Nx Lh ltac:(lia)
    (fun b _ => DecE F b) (fun b _ => DecE F' b) Ag Ob Ob' Up Up' c d (Rh c Rc Ec) (Rh d Rd Ed) Ic Id).
Qed.
Print Assumptions C135_steady_partial.

(** A record of two steps and a third one. *)
Definition drifted_on : list (list Z) := drifted ++ [[0;0;0;1;1]]%Z.
Example C135_steady_case : let g := mkGrid true 2 1 5 (repeat true 5) 0 0 (ByAbsolute 1) in
  exists mg st mg' st', fresh_run g (row_tracking 2) drifting = Ok (drifted, 1%Z, mg, st) /\
    fresh_run (with_steps g 3) (row_tracking 3) (drifting ++ bits [[0;0;0;1;1]]) = Ok (drifted_on, 1%Z, mg', st') /\
    forall c d, in_range 2 1 5 c -> in_range 2 1 5 d -> id_of 5 drifted c <> 0%Z -> id_of 5 drifted d <> 0%Z ->
      (id_of 5 drifted_on c = id_of 5 drifted_on d <-> id_of 5 drifted c = id_of 5 drifted d).
Proof.
  intro g. destruct (drifting_steady (repeat true 5) true (ByAbsolute 1)) as (Ob & Up & Down).
  destruct (steady_by_pairs (with_steps g 3) drifted_on (1#2) [(1, 2); (2, 3)]%Z) as (Ob' & Up' & Down').
  { split; [reflexivity|]. intros v V. cbn [event_cells map drifted_on drifted app In] in V. destruct V as [<-|[<-|[<-|[]]]]; reflexivity. }
  { exists 2. reflexivity. }
  { vm_compute. reflexivity. }
  { reflexivity. }
  do 4 eexists. split; [vm_compute; reflexivity|]. split; [vm_compute; reflexivity|]. intros c d Rc Rd Nc Nd.
  eapply (C135_steady_partial g (row_tracking 2) (row_tracking 3) 1 drifting (bits [[0;0;0;1;1]]) drifted drifted_on 1 1);
    [reflexivity|discriminate|reflexivity|reflexivity|reflexivity|reflexivity|reflexivity|reflexivity|reflexivity|vm_compute; reflexivity|vm_compute; reflexivity
    |exact Ob|exact Up|exact Down|exact Ob'|exact Up'|exact Down'|exact Rc|exact Rd| | |exact Nc|exact Nd];
    [destruct c as [[t y] x]; destruct Rc as (T & _)|destruct d as [[t y] x]; destruct Rd as (T & _)]; cbn; lia.
Qed.

(** In general later steps can join earlier events, with T_fill = 0 and in one chunk.  With nearest-neighbour
    partitioning ([bars], [posts]): two objects that have split from one parent are made one object again after the merges
    have been settled, and together they overlap enough with another parent; no merge is recorded then.  With centroid
    partitioning the piece given to one parent can lie on the other one; ten rounds do not change that. *)
Definition bars : field :=
 [rows_of [[1;0;0;0;0;0]; [0;0;0;0;0;0]; [1;1;1;1;1;1]; [1;1;1;1;1;1]; [0;0;0;0;0;0]; [1;1;1;1;1;1]]].
Definition posts : field :=
 [rows_of [[0;0;0;0;0;0]; [0;0;0;0;0;0]; [1;1;0;0;1;1]; [1;1;0;0;1;1]; [1;1;0;0;1;1]; [1;1;0;0;1;1]]].
Theorem C135_merging_refuted :
  forall nn, exists g k k' data more F n st F' n' mg' st' c d,
    g_rule g = ByAbsolute 1 /\ g_T g = 0%Z /\ g_R g = 0%Z /\ length data = g_nt g /\
    k_merging k = true /\ k_nn k = nn /\ k_chunks k = [g_nt g] /\ k_chunks k' = [g_nt g + length more] /\
    k_merging k' = true /\ k_nn k' = nn /\ k_centroid k' = k_centroid k /\ k_overlap k' = k_overlap k /\
    in_range (g_nt g) (g_ny g) (g_nx g) c /\ in_range (g_nt g) (g_ny g) (g_nx g) d /\
    fresh_run g k data = Ok (F, n, Some (mkMerges [] [] [] [] [] []), st) /\
    fresh_run (with_steps g (g_nt g + length more)) k' (data ++ more) = Ok (F', n', Some mg', st') /\
    id_of (g_nx g) F c <> 0%Z /\ id_of (g_nx g) F d <> 0%Z /\
    id_of (g_nx g) F c <> id_of (g_nx g) F d /\ id_of (g_nx g) F' c = id_of (g_nx g) F' d /\ (nn = true -> m_time mg' = []).
Proof.
  intros [|].
  - exists (mkGrid true 1 6 6 (repeat true 36) 0 0 (ByAbsolute 1)), (mkTracking true true row_centroid (1#2) (repeat 1%Q 36) [1]),
      (mkTracking true true row_centroid (1#2) (repeat 1%Q 36) [2]), bars, posts. do 7 eexists. exists (0, 2, 0), (0, 5, 0).
    repeat (split; [reflexivity|]). split; [cbn; lia|]. split; [cbn; lia|]. split; [vm_compute; reflexivity|]. split; [vm_compute; reflexivity|].
    split; [discriminate|]. split; [discriminate|]. split; [discriminate|]. split; reflexivity.
  - exists (mkGrid true 1 1 12 (repeat true 12) 0 0 (ByAbsolute 1)), (mkTracking true false row_centroid (1#4) (repeat 1%Q 12) [1]),
      (mkTracking true false row_centroid (1#4) (repeat 1%Q 12) [2]), (bits [[1;0;1;0;1;1;1;1;1;1;1;1]]), (bits [[0;0;1;1;1;1;1;1;1;1;1;1]]).
    do 7 eexists. exists (0, 0, 2), (0, 0, 4).
    repeat (split; [reflexivity|]). split; [cbn; lia|]. split; [cbn; lia|]. split; [vm_compute; reflexivity|]. split; [vm_compute; reflexivity|].
    split; [discriminate|]. split; [discriminate|]. split; [discriminate|]. split; [reflexivity|discriminate].
Qed.
Print Assumptions C135_merging_refuted.
