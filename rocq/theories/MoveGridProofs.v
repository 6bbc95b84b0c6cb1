(** Overlaps of the objects of a record moved to other cells or other steps. *)
From Verif Require Import Base Morph Label LabelSpec LabelProofs Filter FilterSpec Overlap OverlapSpec Merge MergeSpec Cluster ClusterSpec ClusterProofs ClusterPipe
  Run RunSpec RunProofs GridRunProps RelateSpec RelateProofs UnmergedProofs ReverseMeshProofs SteadyProofs SteadyProps.
Open Scope nat_scope.

Lemma ones_total (b : nat -> bool) n m : m <= n ->
  (totalQ (fun k => if b k then nth k (repeat 1%Q n) 0%Q else 0%Q) m == nat_Q (length (filter b (seq 0 m))))%Q.
Proof.
  induction m as [|m IH]; intro H; [reflexivity|]. cbn [totalQ]. rewrite IH by lia. rewrite seq_S, filter_app, app_length. cbn [filter plus].
  rewrite (nth_indep _ 0%Q 1%Q) by (rewrite repeat_length; lia). rewrite nth_repeat. unfold nat_Q. destruct (b m); cbn [length].
  - replace (length (filter b (seq 0 m)) + 1) with (S (length (filter b (seq 0 m)))) by lia. rewrite Nat2Z.inj_succ, <- Z.add_1_r, inject_Z_plus. reflexivity.
  - rewrite Nat.add_0_r. ring.
Qed.
Lemma ones_same (b b' : nat -> bool) n n' : length (filter b (seq 0 n)) = length (filter b' (seq 0 n')) ->
  (totalQ (fun k => if b k then nth k (repeat 1%Q n) 0%Q else 0%Q) n == totalQ (fun k => if b' k then nth k (repeat 1%Q n') 0%Q else 0%Q) n')%Q.
Proof. intro H. rewrite !ones_total by lia. rewrite H. reflexivity. Qed.
Lemma size_moved (f : nat -> nat) (P P' : nat -> bool) n n' :
  (forall k, k < n -> P k = true -> f k < n' /\ P' (f k) = true) ->
  (forall j, j < n' -> P' j = true -> exists k, k < n /\ P k = true /\ f k = j) ->
  (forall k l, k < n -> l < n -> P k = true -> P l = true -> f k = f l -> k = l) ->
  length (filter P (seq 0 n)) = length (filter P' (seq 0 n')).
Proof.
  intros A B C. assert (In1 : forall k, In k (filter P (seq 0 n)) <-> k < n /\ P k = true) by (intro k; rewrite filter_In, in_seq; intuition lia).
  assert (In2 : forall k, In k (filter P' (seq 0 n')) <-> k < n' /\ P' k = true) by (intro k; rewrite filter_In, in_seq; intuition lia).
  apply Nat.le_antisymm.
  - rewrite <- (map_length f). apply NoDup_incl_length.
    + assert (ND := NoDup_filter P (seq_NoDup n 0)). assert (Sb : forall k, In k (filter P (seq 0 n)) -> k < n /\ P k = true) by (intro k; apply In1). revert ND Sb.
      generalize (filter P (seq 0 n)). induction l as [|a l IH]; intros ND Sb; [constructor|]. inversion ND as [|a0 l0 Na Nl]; subst. cbn [map]. constructor.
      * intro I. apply in_map_iff in I. destruct I as (k & E & I). destruct (Sb a (or_introl eq_refl)), (Sb k (or_intror I)). rewrite (C k a) in I by assumption. contradiction.
      * apply IH; [exact Nl|]. intros k I. apply Sb. right. exact I.
    + intros j I. apply in_map_iff in I. destruct I as (k & <- & I). apply In1 in I. apply In2. apply A; tauto.
  - rewrite <- (map_length f (filter P _)). apply NoDup_incl_length; [apply NoDup_filter, seq_NoDup|].
    intros j I. apply In2 in I. destruct I as [J I]. destruct (B j J I) as (k & K & Pk & <-). apply in_map, In1. auto.
Qed.

(** [d] is the cell of [c] one step later. *)
Definition mate (c d : cell) : Prop := match c, d with (t, y, x), (t', y', x') => t' = S t /\ y' = y /\ x' = x end.
Definition step_of (c : cell) : nat := fst (fst c).
Definition place_of (nx : nat) (c : cell) : nat := match c with (_, y, x) => y * nx + x end.

Lemma place_once nt ny nx c d : in_range nt ny nx c -> in_range nt ny nx d -> step_of c = step_of d -> place_of nx c = place_of nx d -> c = d.
Proof.
  destruct c as [[t y] x], d as [[u y'] x']. unfold step_of, place_of. cbn. intros (_ & _ & X) (_ & _ & X') -> E.
  assert (y = y') by (destruct (Nat.lt_trichotomy y y') as [L|[L|L]]; nia). subst. f_equal. lia.
Qed.
Lemma mate_place nx c d : mate c d -> place_of nx c = place_of nx d.
Proof. destruct c as [[t y] x], d as [[u y'] x']. intros (_ & -> & ->). reflexivity. Qed.
Lemma mate_step c d : mate c d -> step_of d = S (step_of c).
Proof. destruct c as [[t y] x], d as [[u y'] x']. intros (-> & _). reflexivity. Qed.
Lemma mate_of nt ny nx c d : in_range nt ny nx c -> in_range nt ny nx d -> step_of d = S (step_of c) -> place_of nx c = place_of nx d -> mate c d.
Proof.
  destruct c as [[t y] x], d as [[u y'] x']. unfold step_of, place_of, mate. cbn. intros (_ & _ & X) (_ & _ & X') -> E.
  assert (y = y') by (destruct (Nat.lt_trichotomy y y') as [L|[L|L]]; nia). subst. split; [reflexivity|]. split; [reflexivity|]. lia.
Qed.
Lemma id_row nx G c : id_of nx G c = nth (place_of nx c) (nth (step_of c) G []) 0%Z.
Proof. destruct c as [[t y] x]. reflexivity. Qed.
Lemma place_lt nt ny nx c : in_range nt ny nx c -> place_of nx c < ny * nx.
Proof. destruct c as [[t y] x]. intros (T & Y & X). cbn. nia. Qed.
Lemma cell_at nt ny nx t k : t < nt -> k < ny * nx -> exists c, in_range nt ny nx c /\ step_of c = t /\ place_of nx c = k.
Proof.
  intros T K. assert (Nx : nx <> 0) by nia. exists (t, k / nx, k mod nx). split; [split; [exact T|split; [apply Nat.div_lt_upper_bound; lia|apply Nat.mod_upper_bound; lia]]|]. split; [reflexivity|].
  cbn. rewrite (Nat.div_mod k nx) at 3 by lia. lia.
Qed.

Section Moved.
Variables (wrap wrap' : bool) (nt ny nx nt' ny' nx' : nat) (sig : cell -> cell) (on on' : cell -> Prop) (objs objs' : list (list Z)) (thr : Q) (back : bool).
Hypothesis Sr : forall c, in_range nt ny nx c -> in_range nt' ny' nx' (sig c).
Hypothesis Si : forall c d, in_range nt ny nx c -> in_range nt ny nx d -> sig c = sig d -> c = d.
Hypothesis St : forall b c d, in_range nt ny nx c -> in_range nt ny nx d -> (touching b wrap' nx' (sig c) (sig d) <-> touching b wrap nx c d).
Hypothesis Mt : forall c d, in_range nt ny nx c -> in_range nt ny nx d -> (mate c d <-> if back then mate (sig d) (sig c) else mate (sig c) (sig d)).
Hypothesis Dec : forall c, in_range nt ny nx c -> on c \/ ~ on c.
Hypothesis Mv : forall c, in_range nt ny nx c -> (on' (sig c) <-> on c).
Hypothesis Im : forall d, in_range nt' ny' nx' d -> on' d -> exists c, in_range nt ny nx c /\ sig c = d.
Hypothesis Dec' : forall d, in_range nt' ny' nx' d -> on' d \/ ~ on' d.
Hypothesis Ob : object_numbers wrap nt ny nx on objs.
Hypothesis Ob' : object_numbers wrap' nt' ny' nx' on' objs'.
Let n := ny * nx. Let n' := ny' * nx'. Let w := repeat 1%Q n. Let w' := repeat 1%Q n'.
Notation id := (id_of nx objs). Notation id' := (id_of nx' objs').

Lemma on_pos c : in_range nt ny nx c -> (on c <-> (0 < id c)%Z).
Proof. intro R. destruct Ob as (_ & _ & P & _). destruct (P c R) as [A B]. split; [exact A|]. intro H. destruct (Dec c R) as [D|D]; [exact D|]. rewrite (B D) in H. lia. Qed.
Lemma on_pos' c : in_range nt' ny' nx' c -> (on' c <-> (0 < id' c)%Z).
Proof. intro R. destruct Ob' as (_ & _ & P & _). destruct (P c R) as [A B]. split; [exact A|]. intro H. destruct (Dec' c R) as [D|D]; [exact D|]. rewrite (B D) in H. lia. Qed.
Lemma id_moved c d : in_range nt ny nx c -> in_range nt ny nx d -> on c -> on d -> (id' (sig c) = id' (sig d) <-> id c = id d).
Proof.
  intros Rc Rd Oc Od. destruct Ob as (_ & _ & _ & E), Ob' as (_ & _ & _ & E').
  rewrite (E c d Rc Rd Oc Od), (E' _ _ (Sr c Rc) (Sr d Rd) (proj2 (Mv c Rc) Oc) (proj2 (Mv d Rd) Od)).
  apply (chain_embed wrap wrap' nt ny nx nt' ny' nx' sig Sr Si St false on on' c d Mv Im Rc Rd).
Qed.
Lemma same_step c d : in_range nt ny nx c -> in_range nt ny nx d -> on c -> on d -> id c = id d -> step_of c = step_of d.
Proof. intros Rc Rd Oc Od E. destruct Ob as (_ & _ & _ & N). apply (N c d Rc Rd Oc Od) in E. exact (chain_one_step _ _ _ _ _ _ _ E). Qed.
Lemma same_step' c d : in_range nt' ny' nx' c -> in_range nt' ny' nx' d -> on' c -> on' d -> id' c = id' d -> step_of c = step_of d.
Proof. intros Rc Rd Oc Od E. destruct Ob' as (_ & _ & _ & N). apply (N c d Rc Rd Oc Od) in E. exact (chain_one_step _ _ _ _ _ _ _ E). Qed.

Lemma area_moved c : in_range nt ny nx c -> on c ->
  (object_area w (nth (step_of c) objs []) (id c) == object_area w' (nth (step_of (sig c)) objs' []) (id' (sig c)))%Q.
Proof.
  intros Rc Oc. assert (Rc' := Sr c Rc). assert (Oc' := proj2 (Mv c Rc) Oc).
  assert (T : step_of c < nt) by (destruct c as [[t y] x]; apply Rc). assert (T' : step_of (sig c) < nt') by (destruct (sig c) as [[t y] x]; apply Rc').
  destruct Ob as (L & W & _), Ob' as (L' & W' & _). unfold object_area. rewrite (W _ T), (W' _ T'). fold n n'. unfold w, w'.
  apply (ones_same (fun k => Z.eqb (nth k (nth (step_of c) objs []) 0%Z) (id c)) (fun k => Z.eqb (nth k (nth (step_of (sig c)) objs' []) 0%Z) (id' (sig c)))).
  apply (size_moved (fun k => place_of nx' (sig (step_of c, k / nx, k mod nx)))).
  - intros k K P. apply Z.eqb_eq in P. assert (Nx : nx <> 0) by (unfold n in K; nia).
    assert (Rd : in_range nt ny nx (step_of c, k / nx, k mod nx)) by (split; [exact T|split; [apply Nat.div_lt_upper_bound; unfold n in K; lia|apply Nat.mod_upper_bound; lia]]).
    assert (Pd : place_of nx (step_of c, k / nx, k mod nx) = k) by (cbn; rewrite (Nat.div_mod k nx) at 3 by lia; lia).
    set (d := (step_of c, k / nx, k mod nx)) in *. assert (Id : id d = id c) by (rewrite (id_row nx objs d), Pd; exact P).
    assert (Od : on d) by (apply (on_pos d Rd); rewrite Id; apply on_pos; assumption).
    assert (E := proj2 (id_moved d c Rd Rc Od Oc) Id). assert (Od' := proj2 (Mv d Rd) Od).
    split; [apply (place_lt nt'); apply Sr; exact Rd|]. apply Z.eqb_eq. rewrite <- E, (id_row nx' objs' (sig d)), (same_step' _ _ (Sr d Rd) Rc' Od' Oc' E). reflexivity.
  - intros j J P. apply Z.eqb_eq in P. destruct (cell_at nt' ny' nx' (step_of (sig c)) j T' J) as (d' & Rd' & Sd & Pd).
    assert (Id' : id' d' = id' (sig c)) by (rewrite (id_row nx' objs' d'), Sd, Pd; exact P).
    assert (Od' : on' d') by (apply (on_pos' d' Rd'); rewrite Id'; apply on_pos'; assumption).
    destruct (Im d' Rd' Od') as (d & Rd & <-). assert (Od := proj1 (Mv d Rd) Od'). assert (Id := proj1 (id_moved d c Rd Rc Od Oc) Id').
    assert (Sc := same_step d c Rd Rc Od Oc Id). exists (place_of nx d). split; [apply (place_lt nt); exact Rd|]. split.
    + apply Z.eqb_eq. rewrite <- Id, <- Sc, (id_row nx objs d). reflexivity.
    + destruct (Nat.eq_dec nx 0) as [N0|N0]; [destruct d as [[t y] x]; destruct Rd as (_ & _ & X); lia|].
      rewrite <- Pd. f_equal. f_equal. rewrite <- Sc. destruct d as [[t y] x]. destruct Rd as (_ & _ & X). unfold step_of, place_of. cbn [fst snd].
      rewrite Nat.div_add_l, Nat.div_small, Nat.add_0_r by lia. rewrite Nat.add_comm, Nat.mod_add, Nat.mod_small by lia. reflexivity.
  - intros k l K M Pk Pl E. apply Z.eqb_eq in Pk, Pl. assert (Nx : nx <> 0) by (unfold n in K; nia).
    assert (G : forall i, i < n -> nth i (nth (step_of c) objs []) 0%Z = id c -> in_range nt ny nx (step_of c, i / nx, i mod nx) /\ place_of nx (step_of c, i / nx, i mod nx) = i /\ on (step_of c, i / nx, i mod nx) /\ id (step_of c, i / nx, i mod nx) = id c).
    { intros i I Pi. assert (Rd : in_range nt ny nx (step_of c, i / nx, i mod nx)) by (split; [exact T|split; [apply Nat.div_lt_upper_bound; unfold n in I; lia|apply Nat.mod_upper_bound; lia]]).
      assert (Pd : place_of nx (step_of c, i / nx, i mod nx) = i) by (cbn; rewrite (Nat.div_mod i nx) at 3 by lia; lia).
      split; [exact Rd|]. split; [exact Pd|]. assert (Id : id (step_of c, i / nx, i mod nx) = id c) by (rewrite (id_row nx objs _), Pd; exact Pi). split; [|exact Id].
      apply on_pos; [exact Rd|]. rewrite Id. apply on_pos; assumption. }
    destruct (G k K Pk) as (R1 & Q1 & O1 & I1), (G l M Pl) as (R2 & Q2 & O2 & I2).
    rewrite <- Q1, <- Q2. f_equal. revert E R1 R2 O1 O2 I1 I2. generalize (step_of c, k / nx, k mod nx), (step_of c, l / nx, l mod nx). intros d e E R1 R2 O1 O2 I1 I2.
    apply Si; [exact R1|exact R2|]. apply (place_once nt' ny' nx'); [apply Sr; exact R1|apply Sr; exact R2| |exact E].
    apply same_step'; [apply Sr; exact R1|apply Sr; exact R2|apply Mv; assumption|apply Mv; assumption|]. apply id_moved; try assumption. congruence.
Qed.

(** The cell of [k] at the step of [c]. *)
Let at_ (c : cell) (k : nat) : cell := (step_of c, k / nx, k mod nx).
Lemma at_spec c k : in_range nt ny nx c -> k < n -> in_range nt ny nx (at_ c k) /\ place_of nx (at_ c k) = k /\ step_of (at_ c k) = step_of c.
Proof.
  intros Rc K. assert (Nx : nx <> 0) by (unfold n in K; nia). assert (T : step_of c < nt) by (destruct c as [[t y] x]; apply Rc).
  split; [split; [exact T|split; [apply Nat.div_lt_upper_bound; unfold n in K; lia|apply Nat.mod_upper_bound; lia]]|]. split; [|reflexivity].
  unfold at_. cbn. rewrite (Nat.div_mod k nx) at 3 by lia. lia.
Qed.
Lemma at_same c k d : in_range nt ny nx c -> k < n -> in_range nt ny nx d -> place_of nx d = k -> step_of d = step_of c -> at_ c k = d.
Proof. intros Rc K Rd P E. destruct (at_spec c k Rc K) as (R & Q & E'). apply (place_once nt ny nx); [exact R|exact Rd|congruence|congruence]. Qed.

Lemma moved_mate c d : in_range nt ny nx c -> in_range nt ny nx d -> mate c d -> place_of nx' (sig c) = place_of nx' (sig d).
Proof. intros Rc Rd M. apply (Mt c d Rc Rd) in M. destruct back; [symmetry|]; exact (mate_place nx' _ _ M). Qed.
Lemma shared_moved c d : in_range nt ny nx c -> in_range nt ny nx d -> on c -> on d -> mate c d ->
  (OverlapSpec.shared_area w (nth (step_of c) objs []) (nth (step_of d) objs []) (id c) (id d) ==
   OverlapSpec.shared_area w' (nth (step_of (sig c)) objs' []) (nth (step_of (sig d)) objs' []) (id' (sig c)) (id' (sig d)))%Q.
Proof.
  intros Rc Rd Oc Od M. assert (Rc' := Sr c Rc). assert (Oc' := proj2 (Mv c Rc) Oc). assert (Rd' := Sr d Rd). assert (Od' := proj2 (Mv d Rd) Od).
  assert (T : step_of c < nt) by (destruct c as [[t y] x]; apply Rc). assert (T' : step_of (sig c) < nt') by (destruct (sig c) as [[t y] x]; apply Rc').
  assert (T2 : step_of (sig d) < nt') by (destruct (sig d) as [[t y] x]; apply Rd').
  assert (Lw := Ob). destruct Lw as (L & W & _). assert (Lw := Ob'). destruct Lw as (L' & W' & _). unfold OverlapSpec.shared_area. rewrite (W _ T), (W' _ T'). fold n n'. unfold w, w'.
  apply (ones_same (fun k => Z.eqb (nth k (nth (step_of c) objs []) 0%Z) (id c) && Z.eqb (nth k (nth (step_of d) objs []) 0%Z) (id d))
    (fun k => Z.eqb (nth k (nth (step_of (sig c)) objs' []) 0%Z) (id' (sig c)) && Z.eqb (nth k (nth (step_of (sig d)) objs' []) 0%Z) (id' (sig d)))).
  assert (G : forall k, k < n -> Z.eqb (nth k (nth (step_of c) objs []) 0%Z) (id c) && Z.eqb (nth k (nth (step_of d) objs []) 0%Z) (id d) = true ->
    (in_range nt ny nx (at_ c k) /\ on (at_ c k) /\ id (at_ c k) = id c) /\ (in_range nt ny nx (at_ d k) /\ on (at_ d k) /\ id (at_ d k) = id d) /\ mate (at_ c k) (at_ d k)).
  { intros k K P. apply andb_true_iff in P. destruct P as [P1 P2]. apply Z.eqb_eq in P1, P2.
    destruct (at_spec c k Rc K) as (R1 & Q1 & S1), (at_spec d k Rd K) as (R2 & Q2 & S2).
    assert (I1 : id (at_ c k) = id c) by (rewrite (id_row nx objs (at_ c k)), Q1, S1; exact P1). assert (I2 : id (at_ d k) = id d) by (rewrite (id_row nx objs (at_ d k)), Q2, S2; exact P2).
    split; [|split].
    - split; [exact R1|]. split; [|exact I1]. apply on_pos; [exact R1|]. rewrite I1. apply on_pos; assumption.
    - split; [exact R2|]. split; [|exact I2]. apply on_pos; [exact R2|]. rewrite I2. apply on_pos; assumption.
    - apply (mate_of nt ny nx); [exact R1|exact R2|rewrite S1, S2; apply mate_step; exact M|congruence]. }
  apply (size_moved (fun k => place_of nx' (sig (at_ c k)))).
  - intros k K P. destruct (G k K P) as ((R1 & O1 & I1) & (R2 & O2 & I2) & Mk). split; [apply (place_lt nt'); apply Sr; exact R1|].
    assert (E1 := proj2 (id_moved _ c R1 Rc O1 Oc) I1). assert (E2 := proj2 (id_moved _ d R2 Rd O2 Od) I2).
    apply andb_true_iff. split; apply Z.eqb_eq.
    + rewrite <- E1, (id_row nx' objs' (sig (at_ c k))), (same_step' _ _ (Sr _ R1) Rc' (proj2 (Mv _ R1) O1) Oc' E1). reflexivity.
    + rewrite (moved_mate _ _ R1 R2 Mk). rewrite <- E2, (id_row nx' objs' (sig (at_ d k))), (same_step' _ _ (Sr _ R2) Rd' (proj2 (Mv _ R2) O2) Od' E2). reflexivity.
  - intros j J P. apply andb_true_iff in P. destruct P as [P1 P2]. apply Z.eqb_eq in P1, P2.
    assert (H : forall e, in_range nt ny nx e -> on e -> nth j (nth (step_of (sig e)) objs' []) 0%Z = id' (sig e) ->
      exists f, in_range nt ny nx f /\ on f /\ id f = id e /\ place_of nx' (sig f) = j /\ step_of (sig f) = step_of (sig e)).
    { intros e Re Oe Pe. assert (Te : step_of (sig e) < nt') by (assert (X := Sr e Re); destruct (sig e) as [[t y] x]; apply X).
      destruct (cell_at nt' ny' nx' (step_of (sig e)) j Te J) as (f' & Rf' & Sf & Pf).
      assert (If' : id' f' = id' (sig e)) by (rewrite (id_row nx' objs' f'), Sf, Pf; exact Pe).
      assert (Of' : on' f') by (apply (on_pos' f' Rf'); rewrite If'; apply on_pos'; [apply Sr; exact Re|apply Mv; assumption]).
      destruct (Im f' Rf' Of') as (f & Rf & <-). exists f. assert (Of := proj1 (Mv f Rf) Of'). split; [exact Rf|]. split; [exact Of|]. split; [apply id_moved; assumption|]. auto. }
    destruct (H c Rc Oc P1) as (e & Re & Oe & Ie & Pe & Se), (H d Rd Od P2) as (f & Rf & Of & If & Pf & Sf).
    assert (Mf : mate e f).
    { apply (Mt e f Re Rf). apply (Mt c d Rc Rd) in M. assert (Re' := Sr e Re). assert (Rf' := Sr f Rf).
      destruct back; apply (mate_of nt' ny' nx'); try assumption; rewrite ?Se, ?Sf; try congruence; apply mate_step; exact M. }
    assert (S1 := same_step e c Re Rc Oe Oc Ie). assert (S2 := same_step f d Rf Rd Of Od If). exists (place_of nx e).
    assert (Ke := place_lt nt ny nx e Re). split; [exact Ke|]. split.
    + apply andb_true_iff. split; apply Z.eqb_eq.
      * rewrite <- Ie, <- S1, (id_row nx objs e). reflexivity.
      * rewrite (mate_place nx _ _ Mf), <- If, <- S2, (id_row nx objs f). reflexivity.
    + rewrite (at_same c _ e Rc Ke Re eq_refl S1). exact Pe.
  - intros k l K M' Pk Pl E. destruct (G k K Pk) as ((R1 & O1 & I1) & _), (G l M' Pl) as ((R2 & O2 & I2) & _).
    destruct (at_spec c k Rc K) as (_ & Q1 & _), (at_spec c l Rc M') as (_ & Q2 & _). rewrite <- Q1, <- Q2. f_equal.
    apply Si; [exact R1|exact R2|]. apply (place_once nt' ny' nx'); [apply Sr; exact R1|apply Sr; exact R2| |exact E].
    apply same_step'; [apply Sr; exact R1|apply Sr; exact R2|apply Mv; assumption|apply Mv; assumption|]. apply id_moved; try assumption. congruence.
Qed.

Lemma enough_moved c d : in_range nt ny nx c -> in_range nt ny nx d -> on c -> on d -> mate c d ->
  (overlap_enough w thr (nth (step_of c) objs []) (nth (step_of d) objs []) (id c) (id d) <->
   overlap_enough w' thr (nth (step_of (sig c)) objs' []) (nth (step_of (sig d)) objs' []) (id' (sig c)) (id' (sig d))).
Proof.
  intros Rc Rd Oc Od M. assert (Rc' := Sr c Rc). assert (Oc' := proj2 (Mv c Rc) Oc). assert (Rd' := Sr d Rd). assert (Od' := proj2 (Mv d Rd) Od).
  unfold overlap_enough. rewrite (area_moved c Rc Oc), (area_moved d Rd Od), (shared_moved c d Rc Rd Oc Od M).
  assert (T : step_of c < nt) by (destruct c as [[t y] x]; apply Rc). assert (T' : step_of (sig c) < nt') by (destruct (sig c) as [[t y] x]; apply Rc').
  assert (M1 : meets (nth (step_of c) objs []) (nth (step_of d) objs []) (id c) (id d)).
  { exists (place_of nx c). destruct Ob as (_ & W & _). rewrite (W _ T). split; [apply (place_lt nt); exact Rc|]. split; [symmetry; apply id_row|]. rewrite (mate_place nx _ _ M). symmetry. apply id_row. }
  assert (M2 : meets (nth (step_of (sig c)) objs' []) (nth (step_of (sig d)) objs' []) (id' (sig c)) (id' (sig d))).
  { exists (place_of nx' (sig c)). destruct Ob' as (_ & W & _). rewrite (W _ T'). split; [apply (place_lt nt'); exact Rc'|]. split; [symmetry; apply id_row|]. rewrite (moved_mate c d Rc Rd M). symmetry. apply id_row. }
  assert (P1 := proj1 (on_pos c Rc) Oc). assert (P2 := proj1 (on_pos d Rd) Od). assert (P3 := proj1 (on_pos' _ Rc') Oc'). assert (P4 := proj1 (on_pos' _ Rd') Od').
  tauto.
Qed.

(** Overlaps are witnessed by cells. *)
Lemma overlap_cells p q : consecutive_overlap w thr objs p q ->
  exists c d, in_range nt ny nx c /\ in_range nt ny nx d /\ on c /\ on d /\ mate c d /\ id c = p /\ id d = q /\
    overlap_enough w thr (nth (step_of c) objs []) (nth (step_of d) objs []) (id c) (id d).
Proof.
  intros (t & T & O). destruct Ob as (L & W & _). rewrite L in T. assert (O' := O). destruct O' as (P1 & P2 & (k & K & E1 & E2) & _). rewrite (W t ltac:(lia)) in K.
  destruct (cell_at nt ny nx t k ltac:(lia) K) as (c & Rc & Sc & Pc), (cell_at nt ny nx (S t) k T K) as (d & Rd & Sd & Pd).
  assert (Ic : id c = p) by (rewrite (id_row nx objs c), Sc, Pc; exact E1). assert (Id : id d = q) by (rewrite (id_row nx objs d), Sd, Pd; exact E2).
  exists c, d. split; [exact Rc|]. split; [exact Rd|]. split; [apply (on_pos c Rc); lia|]. split; [apply (on_pos d Rd); lia|].
  split; [apply (mate_of nt ny nx); congruence|]. split; [exact Ic|]. split; [exact Id|]. rewrite Ic, Id, Sc, Sd. exact O.
Qed.
Lemma overlap_cells' p q : consecutive_overlap w' thr objs' p q ->
  exists c d, in_range nt ny nx c /\ in_range nt ny nx d /\ on c /\ on d /\ mate (sig c) (sig d) /\ id' (sig c) = p /\ id' (sig d) = q /\
    overlap_enough w' thr (nth (step_of (sig c)) objs' []) (nth (step_of (sig d)) objs' []) (id' (sig c)) (id' (sig d)).
Proof.
  intros (t & T & O). destruct Ob' as (L & W & _). rewrite L in T. assert (O' := O). destruct O' as (P1 & P2 & (k & K & E1 & E2) & _). rewrite (W t ltac:(lia)) in K.
  destruct (cell_at nt' ny' nx' t k ltac:(lia) K) as (c' & Rc' & Sc & Pc), (cell_at nt' ny' nx' (S t) k T K) as (d' & Rd' & Sd & Pd).
  assert (Ic : id' c' = p) by (rewrite (id_row nx' objs' c'), Sc, Pc; exact E1). assert (Id : id' d' = q) by (rewrite (id_row nx' objs' d'), Sd, Pd; exact E2).
  assert (Oc' : on' c') by (apply (on_pos' c' Rc'); lia). assert (Od' : on' d') by (apply (on_pos' d' Rd'); lia).
  assert (M : mate c' d') by (apply (mate_of nt' ny' nx'); congruence).
  destruct (Im c' Rc' Oc') as (c & Rc & <-), (Im d' Rd' Od') as (d & Rd & <-). exists c, d. split; [exact Rc|]. split; [exact Rd|].
  split; [apply Mv; assumption|]. split; [apply Mv; assumption|]. split; [exact M|]. split; [exact Ic|]. split; [exact Id|]. rewrite Ic, Id, Sc, Sd. exact O.
Qed.
Lemma rows_alike t u : t < nt -> u < nt -> length (nth t objs []) = length (nth u objs []).
Proof. intros T U. destruct Ob as (_ & W & _). rewrite !W by assumption. reflexivity. Qed.
Lemma rows_alike' t u : t < nt' -> u < nt' -> length (nth t objs' []) = length (nth u objs' []).
Proof. intros T U. destruct Ob' as (_ & W & _). rewrite !W by assumption. reflexivity. Qed.
Lemma step_lt c : in_range nt ny nx c -> step_of c < nt.
Proof. destruct c as [[t y] x]. intro R. apply R. Qed.
Lemma step_lt' c : in_range nt' ny' nx' c -> step_of c < nt'.
Proof. destruct c as [[t y] x]. intro R. apply R. Qed.

Lemma overlap_forth c d : in_range nt ny nx c -> in_range nt ny nx d -> on c -> on d -> mate c d ->
  overlap_enough w thr (nth (step_of c) objs []) (nth (step_of d) objs []) (id c) (id d) ->
  if back then consecutive_overlap w' thr objs' (id' (sig d)) (id' (sig c)) else consecutive_overlap w' thr objs' (id' (sig c)) (id' (sig d)).
Proof.
  intros Rc Rd Oc Od M O. apply (enough_moved c d Rc Rd Oc Od M) in O. apply (Mt c d Rc Rd) in M. assert (L := proj1 Ob').
  assert (T1 := step_lt' _ (Sr c Rc)). assert (T2 := step_lt' _ (Sr d Rd)). destruct back.
  - exists (step_of (sig d)). rewrite <- (mate_step _ _ M). split; [lia|]. apply enough_swap; [apply rows_alike'; assumption|exact O].
  - exists (step_of (sig c)). rewrite <- (mate_step _ _ M). split; [lia|exact O].
Qed.
Lemma overlap_back c d : in_range nt ny nx c -> in_range nt ny nx d -> on c -> on d -> mate (sig c) (sig d) ->
  overlap_enough w' thr (nth (step_of (sig c)) objs' []) (nth (step_of (sig d)) objs' []) (id' (sig c)) (id' (sig d)) ->
  if back then consecutive_overlap w thr objs (id d) (id c) else consecutive_overlap w thr objs (id c) (id d).
Proof.
  intros Rc Rd Oc Od M O. assert (L := proj1 Ob). assert (T1 := step_lt _ Rc). assert (T2 := step_lt _ Rd).
  assert (T3 := step_lt' _ (Sr c Rc)). assert (T4 := step_lt' _ (Sr d Rd)).
  assert (Mm := Mt c d Rc Rd). assert (Mn := Mt d c Rd Rc). assert (E1 := enough_moved c d Rc Rd Oc Od). assert (E2 := enough_moved d c Rd Rc Od Oc).
  assert (Sw : overlap_enough w' thr (nth (step_of (sig d)) objs' []) (nth (step_of (sig c)) objs' []) (id' (sig d)) (id' (sig c))) by (apply enough_swap; [apply rows_alike'; assumption|exact O]).
  destruct back.
  - apply Mn in M. exists (step_of d). rewrite <- (mate_step _ _ M). split; [lia|]. apply (E2 M). exact Sw.
  - apply Mm in M. exists (step_of c). rewrite <- (mate_step _ _ M). split; [lia|]. apply (E1 M). exact O.
Qed.

Lemma steady_moved : nothing_merges n thr objs -> nothing_splits n thr objs -> nothing_merges n' thr objs' /\ nothing_splits n' thr objs'.
Proof.
  intros Up Down. fold w in Up, Down. split; intros p q c A B; apply overlap_cells' in A, B;
    destruct A as (a1 & a2 & Ra1 & Ra2 & Oa1 & Oa2 & Ma & Ea1 & Ea2 & Xa), B as (b1 & b2 & Rb1 & Rb2 & Ob1 & Ob2 & Mb & Eb1 & Eb2 & Xb);
    assert (Ca := overlap_back a1 a2 Ra1 Ra2 Oa1 Oa2 Ma Xa); assert (Cb := overlap_back b1 b2 Rb1 Rb2 Ob1 Ob2 Mb Xb).
  - assert (E : id a2 = id b2) by (apply id_moved; try assumption; congruence). rewrite <- Ea1, <- Eb1. apply id_moved; try assumption.
    destruct back; rewrite E in Ca; [exact (Down _ _ _ Ca Cb)|exact (Up _ _ _ Ca Cb)].
  - assert (E : id a1 = id b1) by (apply id_moved; try assumption; congruence). rewrite <- Ea2, <- Eb2. apply id_moved; try assumption.
    destruct back; rewrite E in Ca; [exact (Up _ _ _ Ca Cb)|exact (Down _ _ _ Ca Cb)].
Qed.
Lemma chained_moved c d : in_range nt ny nx c -> in_range nt ny nx d -> on c -> on d ->
  (chained (consecutive_overlap w' thr objs') (id' (sig c)) (id' (sig d)) <-> chained (consecutive_overlap w thr objs) (id c) (id d)).
Proof.
  intros Rc Rd Oc Od. split; intro C.
  - remember (id' (sig c)) as p. remember (id' (sig d)) as q. revert c Rc Oc Heqp. induction C as [p|p r q O C IH|p r q O C IH]; intros c Rc Oc Ep.
    + assert (E : id c = id d) by (apply id_moved; try assumption; congruence). rewrite E. constructor.
    + apply overlap_cells' in O. destruct O as (a & b & Ra & Rb & Oa & Ob0 & M & Ea & Eb & X). assert (O := overlap_back a b Ra Rb Oa Ob0 M X).
      assert (E : id c = id a) by (apply id_moved; try assumption; congruence). rewrite E. specialize (IH Heqq b Rb Ob0 (eq_sym Eb)).
      destruct back; [apply (chained_bwd _ _ (id b))|apply (chained_fwd _ _ (id b))]; assumption.
    + apply overlap_cells' in O. destruct O as (a & b & Ra & Rb & Oa & Ob0 & M & Ea & Eb & X). assert (O := overlap_back a b Ra Rb Oa Ob0 M X).
      assert (E : id c = id b) by (apply id_moved; try assumption; congruence). rewrite E. specialize (IH Heqq a Ra Oa (eq_sym Ea)).
      destruct back; [apply (chained_fwd _ _ (id a))|apply (chained_bwd _ _ (id a))]; assumption.
  - remember (id c) as p. remember (id d) as q. revert c Rc Oc Heqp. induction C as [p|p r q O C IH|p r q O C IH]; intros c Rc Oc Ep.
    + assert (E : id' (sig c) = id' (sig d)) by (apply id_moved; try assumption; congruence). rewrite E. constructor.
    + apply overlap_cells in O. destruct O as (a & b & Ra & Rb & Oa & Ob0 & M & Ea & Eb & X). assert (O := overlap_forth a b Ra Rb Oa Ob0 M X).
      assert (E : id' (sig c) = id' (sig a)) by (apply id_moved; try assumption; congruence). rewrite E. specialize (IH Heqq b Rb Ob0 (eq_sym Eb)).
      destruct back; [apply (chained_bwd _ _ (id' (sig b)))|apply (chained_fwd _ _ (id' (sig b)))]; assumption.
    + apply overlap_cells in O. destruct O as (a & b & Ra & Rb & Oa & Ob0 & M & Ea & Eb & X). assert (O := overlap_forth a b Ra Rb Oa Ob0 M X).
      assert (E : id' (sig c) = id' (sig b)) by (apply id_moved; try assumption; congruence). rewrite E. specialize (IH Heqq a Ra Oa (eq_sym Ea)).
      destruct back; [apply (chained_fwd _ _ (id' (sig a)))|apply (chained_bwd _ _ (id' (sig a)))]; assumption.
Qed.
End Moved.
