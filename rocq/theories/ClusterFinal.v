From Coq Require Import Sorting.Sorted.
From Verif Require Import Base Graph GraphProofs Filter Overlap OverlapSpec OverlapProofs Merge Cluster ClusterSpec
  ClusterProofs ClusterMore.
Open Scope nat_scope.

Lemma nth_map_gen {A B} (f : A -> B) l i a b : i < length l -> nth i (map f l) b = f (nth i l a).
Proof. intro I. rewrite (nth_indep _ b (f a)) by (rewrite map_length; exact I). apply map_nth. Qed.
Lemma nth_firstn_lt {A} (l : list A) n i d : i < n -> nth i (firstn n l) d = nth i l d.
Proof. revert n i. induction l as [|x l IH]; intros [|n] [|i] H; cbn; auto; try lia. apply IH. lia. Qed.
Lemma concat_In_nth {A} (ls : list (list A)) x : In x (concat ls) <-> exists t, t < length ls /\ In x (nth t ls []).
Proof.
  rewrite in_concat. split.
  - intros (l & L & X). destruct (In_nth _ _ [] L) as (t & T & <-). eauto.
  - intros (t & T & X). exists (nth t ls []). split; [apply nth_In; exact T|exact X].
Qed.

Lemma totalQ_plus f g n : (totalQ (fun i => f i + g i) n == totalQ f n + totalQ g n)%Q.
Proof. induction n as [|n IH]; cbn [totalQ]; [ring|]. rewrite IH. ring. Qed.
Lemma totalQ_single f n j : j < n -> (forall i, i < n -> i <> j -> (f i == 0)%Q) -> (totalQ f n == f j)%Q.
Proof.
  induction n as [|n IH]; intros J Z0; [lia|]. cbn [totalQ]. destruct (Nat.eq_dec j n) as [->|Ne].
  - rewrite totalQ_zero by (intros; apply Z0; lia). ring.
  - rewrite IH by (try lia; intros; apply Z0; lia). rewrite (Z0 n) by lia. ring.
Qed.

Section Dataset.
Variables (ca : list Q) (fields : list (list Z)) (pairs : list (Z * Z)) (mg : merges).
Hypothesis Hin : cluster_input fields pairs (m_parents mg).
Let R := fun a b => In (a, b) pairs.

Record facts (tab : list Z) (n : nat) : Prop := {
  t_length : length tab = Z.to_nat (arr_max (concat fields) + 1);
  t_same : forall x y, (0 < x)%Z -> In x (concat fields) -> (0 < y)%Z -> In y (concat fields) ->
     (nth (Z.to_nat x) tab 0%Z = nth (Z.to_nat y) tab 0%Z <-> chained R x y);
  t_range : forall x, (0 < x)%Z -> In x (concat fields) -> (1 <= nth (Z.to_nat x) tab 0 <= Z.of_nat n)%Z;
  t_onto : forall k, (1 <= k <= Z.of_nat n)%Z -> exists x, (0 < x)%Z /\ In x (concat fields) /\ nth (Z.to_nat x) tab 0%Z = k;
  t_zero : nth 0 tab 0%Z = 0%Z }.

Definition globals (tab : list Z) (n : nat) : list (list Z) :=
  map (fun p => original_ids (n + 1) (fst p) (snd p)) (combine fields (map (map_ids tab) fields)).
Definition parent_rows (tab : list Z) : list (list Z) :=
  map (fun r => match r with Some l => l | None => [] end) (map (parent_events tab) (m_parents mg)).

Definition built (tab : list Z) (n : nat) : events :=
  let new := map (map_ids tab) fields in
  let glob := globals tab n in
  let pres := map (map (Z.ltb 0)) glob in
  mkEvents new n (map (firstn n) glob) (map (firstn n) pres)
    (map (fun i => start_of (column false pres i)) (seq 0 n))
    (map (fun i => end_of (column false pres i)) (seq 0 n))
    (map (firstn n) (map (fun p => event_areas ca (fst p) (snd p)) (combine new pres)))
    (map (firstn n) (map (fun t => ledger_rows (n + 1)
        (ledger_at (n + 1) (max_len (m_parents mg)) (combine (m_time mg) (parent_rows tab)) t)) (seq 0 (length fields)))).

Lemma cluster_built : exists tab n, cluster_rename ca fields pairs mg = Ok (built tab n) /\ facts tab n.
Proof.
  destruct Hin as (Hn & Hp & Hm).
  destruct (event_table_spec fields pairs Hp) as (tab & n & E & L & S & Rg & O & Z0).
  exists tab, n. split; [|constructor; assumption]. unfold cluster_rename. rewrite E.
  assert (G : forallb (fun r => match r with Some _ => true | None => false end) (map (parent_events tab) (m_parents mg)) = true).
  { apply forallb_forall. intros r Hr. apply in_map_iff in Hr. destruct Hr as (row & <- & Hrow). unfold parent_events.
    assert (F : forallb (fun p => Z.ltb p (Z.of_nat (length tab))) row = true); [|rewrite F; reflexivity].
    apply forallb_forall. intros p P. rewrite L. destruct (Z.lt_ge_cases 0 p) as [Pp|Pp].
    - assert (X := Hm row p Hrow P Pp). apply arr_max_ge in X. lia.
    - destruct tab as [|z tab'] eqn:Et.
      + (* an empty table means a field maximum below zero *)
        cbn in L. destruct (concat fields) as [|v r] eqn:Ec; [cbn in L; lia|].
        assert (V : In v (concat fields)) by (rewrite Ec; left; reflexivity).
        assert (M : (v <= arr_max (v :: r))%Z) by (apply arr_max_ge; left; reflexivity).
        apply in_concat in V. destruct V as (f & Ff & V). specialize (Hn f v Ff V). lia.
      + cbn in L. lia. }
  rewrite G. reflexivity.
Qed.

Variables (tab : list Z) (n : nat).
Hypothesis F : facts tab n.
Let ev := built tab n.

Lemma new_value t k : t < length fields -> k < length (nth t fields []) ->
  id_at (v_field ev) t k = if Z.ltb 0 (id_at fields t k) then nth (Z.to_nat (id_at fields t k)) tab 0%Z else 0%Z.
Proof.
  intros T K. unfold id_at, ev, built. cbn [v_field]. rewrite (nth_map_gen (map_ids tab) fields t [] []) by exact T.
  unfold map_ids. rewrite (nth_map_gen _ _ k 0%Z 0%Z) by exact K. reflexivity.
Qed.
Lemma new_shape : length (v_field ev) = length fields /\
  forall t, length (nth t (v_field ev) []) = length (nth t fields []).
Proof.
  unfold ev, built. cbn [v_field]. split; [apply map_length|]. intro t.
  destruct (Nat.lt_ge_cases t (length fields)) as [T|T].
  - rewrite (nth_map_gen (map_ids tab) fields t [] []) by exact T. apply map_length.
  - rewrite !nth_overflow by (rewrite ?map_length; exact T). reflexivity.
Qed.
Lemma cell_occurs t k : t < length fields -> k < length (nth t fields []) -> In (id_at fields t k) (concat fields).
Proof. intros T K. apply concat_In_nth. exists t. split; [exact T|apply nth_In; exact K]. Qed.
Lemma cell_nonneg t k : (0 <= id_at fields t k)%Z.
Proof.
  unfold id_at. destruct (Nat.lt_ge_cases t (length fields)) as [T|T]; [|rewrite nth_overflow; [lia|rewrite nth_overflow by exact T; cbn; lia]].
  destruct (Nat.lt_ge_cases k (length (nth t fields []))) as [K|K]; [|rewrite nth_overflow by exact K; lia].
  destruct Hin as (Hn & _). apply (Hn (nth t fields [])); apply nth_In; assumption.
Qed.
Lemma new_background t k : t < length fields -> k < length (nth t fields []) ->
  (id_at (v_field ev) t k = 0%Z <-> id_at fields t k = 0%Z) /\ (0 <= id_at (v_field ev) t k <= Z.of_nat n)%Z.
Proof.
  intros T K. rewrite new_value by assumption. assert (N := cell_nonneg t k). assert (O := cell_occurs t k T K).
  destruct (Z.ltb_spec 0 (id_at fields t k)) as [P|P]; [|lia].
  assert (X := t_range _ _ F _ P O). lia.
Qed.
Lemma new_same t k u l : t < length fields -> k < length (nth t fields []) -> u < length fields -> l < length (nth u fields []) ->
  (0 < id_at fields t k)%Z -> (0 < id_at fields u l)%Z ->
  (id_at (v_field ev) t k = id_at (v_field ev) u l <-> chained R (id_at fields t k) (id_at fields u l)).
Proof.
  intros T K U L P Q0. rewrite !new_value by assumption.
  replace (Z.ltb 0 (id_at fields t k)) with true by lia. replace (Z.ltb 0 (id_at fields u l)) with true by lia.
  apply (t_same _ _ F); auto using cell_occurs.
Qed.
Lemma new_onto k : (1 <= k <= Z.of_nat n)%Z <-> exists t c, t < length fields /\ c < length (nth t fields []) /\
  (0 < id_at fields t c)%Z /\ id_at (v_field ev) t c = k.
Proof.
  split.
  - intro H. destruct (t_onto _ _ F k H) as (x & P & O & E). apply concat_In_nth in O. destruct O as (t & T & X).
    destruct (In_nth _ _ 0%Z X) as (c & C & Ec). exists t, c. split; [exact T|]. split; [exact C|].
    unfold id_at at 1. rewrite Ec. split; [exact P|]. rewrite new_value by assumption. unfold id_at. rewrite Ec.
    replace (Z.ltb 0 x) with true by lia. exact E.
  - intros (t & c & T & C & P & <-). destruct (new_background t c T C) as [A B]. lia.
Qed.

(** *** Presence *)
Lemma global_row t : t < length fields -> nth t (globals tab n) [] = original_ids (n + 1) (nth t fields []) (nth t (v_field ev) []).
Proof.
  intro T. unfold globals. rewrite (nth_map_gen _ _ t ([], []) []) by (rewrite combine_length, map_length; lia).
  rewrite combine_nth by (rewrite map_length; reflexivity). reflexivity.
Qed.
Lemma globals_length : length (globals tab n) = length fields.
Proof. unfold globals. rewrite map_length, combine_length, map_length. lia. Qed.

Lemma global_value t i : t < length fields -> i <= n ->
  let v := nth i (nth t (globals tab n) []) 0%Z in
  let has x := exists k, k < length (nth t fields []) /\ id_at fields t k = x /\ id_at (v_field ev) t k = (Z.of_nat i + 1)%Z in
  (~ present_at (v_field ev) t (Z.of_nat i + 1) -> v = 0%Z) /\
  (present_at (v_field ev) t (Z.of_nat i + 1) -> (0 < v)%Z /\ has v /\ forall x, has x -> (x <= v)%Z).
Proof.
  intros T I. cbv zeta. rewrite global_row by exact T.
  destruct (original_ids_spec (n + 1) (nth t fields []) (nth t (v_field ev) []) i) as [A B].
  { symmetry. apply new_shape. } { lia. }
  split; [exact A|]. intro P. destruct (B P) as [B1 B2]. split; [|split; [exact B1|exact B2]].
  destruct B1 as (k & K & E1 & E2). rewrite <- E1.
  destruct (new_background t k T K) as [Z1 _]. assert (N := cell_nonneg t k). unfold id_at in *. lia.
Qed.
Lemma presence_value t i : t < length fields -> i < n ->
  (nth i (nth t (v_presence ev) []) false = true <-> present_at (v_field ev) t (Z.of_nat i + 1)).
Proof.
  intros T I. unfold ev at 1, built. cbn [v_presence].
  rewrite (nth_map_gen _ _ t [] []) by (rewrite map_length, globals_length; exact T).
  rewrite nth_firstn_lt by exact I.
  rewrite (nth_map_gen (map (Z.ltb 0)) _ t [] []) by (rewrite globals_length; exact T).
  assert (L : i < length (nth t (globals tab n) [])) by (rewrite global_row by exact T; rewrite original_ids_length; lia).
  rewrite (nth_map_gen (Z.ltb 0) _ i 0%Z false) by exact L.
  destruct (global_value t i T) as [A B]; [lia|].
  destruct (in_dec Z.eq_dec (Z.of_nat i + 1)%Z (nth t (v_field ev) [])) as [D|D].
  - destruct (B D) as [B1 _]. split; [intros _; exact D|]. intros _. lia.
  - rewrite (A D). split; [discriminate|]. intro C. contradiction.
Qed.
Lemma global_out t i : t < length fields -> i < n -> nth i (nth t (v_global ev) []) 0%Z = nth i (nth t (globals tab n) []) 0%Z.
Proof.
  intros T I. unfold ev, built. cbn [v_global]. rewrite (nth_map_gen _ _ t [] []) by (rewrite globals_length; exact T).
  apply nth_firstn_lt. exact I.
Qed.

(** *** First and last time *)
Lemma pres_column i t : i < n -> nth t (column false (map (map (Z.ltb 0)) (globals tab n)) i) false = true <->
  t < length fields /\ present_at (v_field ev) t (Z.of_nat i + 1).
Proof.
  intro I. unfold column. destruct (Nat.lt_ge_cases t (length fields)) as [T|T].
  - rewrite (nth_map_gen _ _ t [] false) by (rewrite map_length, globals_length; exact T).
    assert (P := presence_value t i T I). unfold ev at 1, built in P. cbn [v_presence] in P.
    rewrite (nth_map_gen (firstn n) _ t [] []) in P by (rewrite map_length, globals_length; exact T).
    rewrite nth_firstn_lt in P by exact I. rewrite P. tauto.
  - rewrite nth_overflow by (rewrite !map_length, globals_length; exact T). split; [discriminate|lia].
Qed.
Lemma present_length t k : present_at (v_field ev) t k -> t < length fields.
Proof.
  intro P. destruct (Nat.lt_ge_cases t (length fields)) as [T|T]; [exact T|]. unfold present_at in P.
  rewrite nth_overflow in P by (rewrite (proj1 new_shape); exact T). destruct P.
Qed.
Lemma times_spec i : i < n ->
  let s := nth i (v_start ev) 0 in let e := nth i (v_end ev) 0 in
  present_at (v_field ev) s (Z.of_nat i + 1) /\ present_at (v_field ev) e (Z.of_nat i + 1) /\
  forall t, present_at (v_field ev) t (Z.of_nat i + 1) -> s <= t <= e.
Proof.
  intro I. cbv zeta.
  assert (Es : nth i (v_start ev) 0 = start_of (column false (map (map (Z.ltb 0)) (globals tab n)) i)).
  { unfold ev, built. cbn [v_start]. rewrite (nth_map_gen _ _ i 0 0) by (rewrite seq_length; exact I). rewrite seq_nth by exact I. reflexivity. }
  assert (Ee : nth i (v_end ev) 0 = end_of (column false (map (map (Z.ltb 0)) (globals tab n)) i)).
  { unfold ev, built. cbn [v_end]. rewrite (nth_map_gen _ _ i 0 0) by (rewrite seq_length; exact I). rewrite seq_nth by exact I. reflexivity. }
  rewrite Es, Ee. set (col := column false (map (map (Z.ltb 0)) (globals tab n)) i).
  assert (C : forall t, nth t col false = true <-> t < length fields /\ present_at (v_field ev) t (Z.of_nat i + 1))
    by (intro t; apply pres_column; exact I).
  destruct (proj1 (new_onto (Z.of_nat i + 1)%Z)) as (t & c & T & Hc & _ & Et); [lia|].
  assert (P : present_at (v_field ev) t (Z.of_nat i + 1)).
  { unfold present_at. rewrite <- Et. apply nth_In. rewrite (proj2 new_shape). exact Hc. }
  assert (Ct : nth t col false = true) by (apply C; auto).
  destruct (start_of_spec col t Ct) as [S1 S2]. destruct (end_of_spec col t Ct) as [E1 E2].
  apply C in S1. apply C in E1. split; [tauto|]. split; [tauto|].
  intros u U. assert (Cu : nth u col false = true) by (apply C; split; [eapply present_length; exact U|exact U]).
  destruct (start_of_spec col u Cu) as [_ A]. destruct (end_of_spec col u Cu) as [_ B]. lia.
Qed.

(** *** Areas *)
Lemma area_value t i : t < length fields -> i < n ->
  nth i (nth t (v_area ev) []) None =
  if memZ (Z.of_nat i + 1) (nth t (v_field ev) [])
  then Some (sumQ (map snd (filter (fun c => Z.eqb (Z.of_nat i + 1) (fst c)) (combine (nth t (v_field ev) []) ca)))) else None.
Proof.
  intros T I. unfold ev at 1, built. cbn [v_area].
  rewrite (nth_map_gen (firstn n) _ t [] []) by (rewrite map_length, combine_length, !map_length, globals_length; lia).
  rewrite nth_firstn_lt by exact I.
  rewrite (nth_map_gen _ _ t ([], []) []) by (rewrite combine_length, !map_length, globals_length; lia).
  rewrite combine_nth by (rewrite !map_length, globals_length; reflexivity). cbn [fst snd].
  change (map (map_ids tab) fields) with (v_field ev).
  rewrite (nth_map_gen (map (Z.ltb 0)) _ t [] []) by (rewrite globals_length; exact T).
  unfold event_areas. set (pr := map (Z.ltb 0) (nth t (globals tab n) [])).
  assert (Lp : length pr = n + 1) by (unfold pr; rewrite map_length, global_row by exact T; apply original_ids_length).
  rewrite (nth_map_gen _ _ i 0 None) by (rewrite seq_length; lia). rewrite seq_nth by lia. cbn [plus].
  assert (P := presence_value t i T I). unfold ev at 1, built in P. cbn [v_presence] in P.
  rewrite (nth_map_gen (firstn n) _ t [] []) in P by (rewrite map_length, globals_length; exact T).
  rewrite nth_firstn_lt in P by exact I. rewrite (nth_map_gen (map (Z.ltb 0)) _ t [] []) in P by (rewrite globals_length; exact T).
  fold pr in P. destruct (memZ (Z.of_nat i + 1) (nth t (v_field ev) [])) eqn:M.
  - apply memZ_In in M. rewrite (proj2 P M). reflexivity.
  - rewrite andb_false_r. reflexivity.
Qed.
Lemma area_total t : t < length fields -> length (nth t fields []) = length ca ->
  (totalQ (fun i => match nth i (nth t (v_area ev) []) None with Some a => a | None => 0%Q end) n ==
   totalQ (fun k => if Z.ltb 0 (id_at fields t k) then nth k ca 0%Q else 0%Q) (length ca))%Q.
Proof.
  intros T L. set (f := nth t (v_field ev) []).
  assert (Lf : length f = length ca) by (unfold f; rewrite (proj2 new_shape); exact L).
  transitivity (totalQ (fun i => object_area ca f (Z.of_nat i + 1)) n).
  - apply totalQ_ext. intros i I. rewrite area_value by assumption. fold f.
    destruct (memZ (Z.of_nat i + 1) f) eqn:M; [apply field_area; exact Lf|].
    symmetry. apply totalQ_zero. intros k K. destruct (Z.eqb_spec (nth k f 0%Z) (Z.of_nat i + 1)) as [E|E]; [|reflexivity].
    exfalso. apply memZ_false in M. apply M. rewrite <- E. apply nth_In. exact K.
  - assert (B : forall k, k < length ca -> (Z.ltb 0 (id_at fields t k) = Z.ltb 0 (nth k f 0%Z)) /\ (0 <= nth k f 0 <= Z.of_nat n)%Z).
    { intros k K. destruct (new_background t k T) as [B1 B2]; [lia|]. unfold f. unfold id_at in *.
      assert (N := cell_nonneg t k). unfold id_at in N. lia. }
    transitivity (totalQ (fun k => if Z.ltb 0 (nth k f 0%Z) then nth k ca 0%Q else 0%Q) (length ca)).
    2:{ apply totalQ_ext. intros k K. rewrite (proj1 (B k K)). reflexivity. }
    unfold object_area. rewrite Lf. clear - B. induction (length ca) as [|N IH].
    + cbn [totalQ]. apply totalQ_zero. intros; reflexivity.
    + cbn [totalQ]. rewrite <- IH by (intros; apply B; lia). clear IH.
      rewrite totalQ_plus. apply Qplus_comp; [reflexivity|].
      destruct (B N) as [_ [B1 B2]]; [lia|]. destruct (Z.ltb_spec 0 (nth N f 0%Z)) as [P|P].
      * eapply Qeq_trans.
        -- apply (totalQ_single _ n (Z.to_nat (nth N f 0%Z - 1))); [lia|].
           intros i I Ne. replace (Z.eqb (nth N f 0%Z) (Z.of_nat i + 1)) with false by lia. reflexivity.
        -- cbv beta. replace (Z.eqb (nth N f 0%Z) (Z.of_nat (Z.to_nat (nth N f 0%Z - 1)) + 1)) with true by lia. reflexivity.
      * apply totalQ_zero. intros i I. replace (Z.eqb (nth N f 0%Z) (Z.of_nat i + 1)) with false by lia. reflexivity.
Qed.

(** *** Ledger *)
Lemma parent_row j : j < length (m_parents mg) ->
  nth j (parent_rows tab) [] = map (fun p => if Z.ltb 0 p then nth (Z.to_nat p) tab 0%Z else 0%Z) (nth j (m_parents mg) []).
Proof.
  intro J. unfold parent_rows. rewrite map_map. rewrite (nth_map_gen _ _ j [] []) by exact J.
  unfold parent_events.
  assert (G : forallb (fun p => Z.ltb p (Z.of_nat (length tab))) (nth j (m_parents mg) []) = true).
  { apply forallb_forall. intros p P. rewrite (t_length _ _ F).
    destruct Hin as (Hn & _ & Hm). destruct (Z.lt_ge_cases 0 p) as [Pp|Pp].
    - assert (X := Hm _ p (nth_In _ [] J) P Pp). apply arr_max_ge in X. lia.
    - destruct (concat fields) as [|v r] eqn:Ec; [cbn; lia|].
      assert (V : In v (concat fields)) by (rewrite Ec; left; reflexivity).
      assert (M : (v <= arr_max (v :: r))%Z) by (apply arr_max_ge; left; reflexivity).
      apply in_concat in V. destruct V as (f & Ff & V). specialize (Hn f v Ff V). lia. }
  rewrite G. apply map_ext. intro p. destruct (Z.ltb_spec 0 p); [reflexivity|]. apply (t_zero _ _ F).
Qed.

(** Event [k] is the event of a parent of a merge recorded at time [t]. *)
Definition merges_at (t : nat) (k : Z) : Prop :=
  exists j p, j < length (m_parents mg) /\ nth j (m_time mg) 0 = t /\ In p (nth j (m_parents mg) []) /\ (0 < p)%Z /\
    exists u c, u < length fields /\ c < length (nth u fields []) /\ id_at fields u c = p /\ id_at (v_field ev) u c = k.

Lemma ledger_value t i s : length (m_time mg) = length (m_parents mg) ->
  t < length fields -> i < n -> s < max_len (m_parents mg) ->
  let v := nth s (nth i (nth t (v_ledger ev) []) []) 0%Z in
  (merges_at t (Z.of_nat i + 1) -> v = (Z.of_nat i + 1)%Z) /\ (~ merges_at t (Z.of_nat i + 1) -> v = (-1)%Z).
Proof.
  intros Lm T I S. cbv zeta. assert (Lg : nth t (v_ledger ev) [] = nth t (v_ledger (built tab n)) []) by reflexivity. rewrite Lg. clear Lg. unfold built. cbn [v_ledger].
  rewrite (nth_map_gen (firstn n) _ t [] []) by (rewrite map_length, seq_length; exact T).
  rewrite nth_firstn_lt by exact I. rewrite (nth_map_gen _ _ t 0 []) by (rewrite seq_length; exact T).
  rewrite seq_nth by exact T. cbn [plus]. unfold ledger_rows.
  rewrite (nth_map_gen _ _ i 0 []) by (rewrite seq_length; lia). rewrite seq_nth by lia. cbn [plus].
  rewrite (nth_map_gen _ _ s [] 0%Z) by (rewrite ledger_at_length; exact S).
  rewrite ledger_at_spec by lia.
  assert (Lr : length (parent_rows tab) = length (m_parents mg)) by (unfold parent_rows; rewrite !map_length; reflexivity).
  assert (E : existsb (fun e => Nat.eqb (fst e) t && memZ (Z.of_nat i + 1) (snd e)) (combine (m_time mg) (parent_rows tab)) = true <->
              merges_at t (Z.of_nat i + 1)).
  { rewrite existsb_exists. split.
    - intros ([u r] & H & B). apply (combine_nth_In (m_time mg) (parent_rows tab) 0 []) in H; [|lia]. destruct H as (j & J & <- & <-).
      cbn [fst snd] in B. apply andb_true_iff in B. destruct B as [B1 B2]. apply memZ_In in B2. apply Nat.eqb_eq in B1.
      rewrite parent_row in B2 by lia. apply in_map_iff in B2. destruct B2 as (p & Ep & P).
      destruct (Z.ltb_spec 0 p) as [Pp|Pp]; [|lia].
      exists j, p. split; [lia|]. split; [exact B1|]. split; [exact P|]. split; [exact Pp|].
      destruct Hin as (_ & _ & Hm). assert (J' : j < length (m_parents mg)) by lia. assert (X := Hm _ p (nth_In _ [] J') P Pp).
      apply concat_In_nth in X. destruct X as (u & U & X). destruct (In_nth _ _ 0%Z X) as (c & C & Ec).
      exists u, c. split; [exact U|]. split; [exact C|]. split; [exact Ec|].
      rewrite new_value by assumption. unfold id_at. rewrite Ec. replace (Z.ltb 0 p) with true by lia. exact Ep.
    - intros (j & p & J & Et & P & Pp & u & c & U & C & Ep & Ek). exists (nth j (m_time mg) 0, nth j (parent_rows tab) []).
      split; [apply (combine_nth_In (m_time mg) (parent_rows tab) 0 []); [lia|]; exists j; split; [lia|auto]|].
      cbn [fst snd]. rewrite Et, Nat.eqb_refl. cbn [andb]. apply memZ_In. rewrite parent_row by exact J.
      apply in_map_iff. exists p. split; [|exact P]. rewrite new_value in Ek by assumption. rewrite Ep in Ek.
      replace (Z.ltb 0 p) with true in * by lia. exact Ek. }
  destruct (existsb _ _); split; intro H; auto; [exfalso; apply H, E; reflexivity|]. exfalso. apply E in H. discriminate.
Qed.
End Dataset.
