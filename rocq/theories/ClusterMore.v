From Coq Require Import Sorting.Sorted.
From Verif Require Import Base Graph GraphProofs Filter Overlap OverlapSpec OverlapProofs Merge Cluster ClusterSpec ClusterProofs.
Open Scope nat_scope.

(** ** Original IDs *)
Lemma unique_pairs_sorted l : StronglySorted pair_lt (unique_pairs l).
Proof. unfold unique_pairs. induction l as [|x l IH]; simpl; [constructor|]. now apply insert_pair_sorted. Qed.

Definition store (m : nat) (acc : list Z) (p : Z * Z) : list Z :=
  if Z.leb (snd p) (Z.of_nat m) then set_at (Z.to_nat (snd p - 1)) (fst p) acc else acc.
Lemma store_length m l : forall acc, length (fold_left (store m) l acc) = length acc.
Proof.
  induction l as [|p l IH]; intro acc; cbn [fold_left]; [reflexivity|]. rewrite IH. unfold store.
  destruct (Z.leb (snd p) (Z.of_nat m)); [apply set_at_length|reflexivity].
Qed.
Lemma store_spec m i l : i < m -> (forall p, In p l -> (0 < snd p)%Z) -> StronglySorted pair_lt l ->
  forall acc, length acc = m ->
  ((forall p, In p l -> snd p <> (Z.of_nat i + 1)%Z) -> nth i (fold_left (store m) l acc) 0%Z = nth i acc 0%Z) /\
  ((exists p, In p l /\ snd p = (Z.of_nat i + 1)%Z) ->
    exists p, In p l /\ snd p = (Z.of_nat i + 1)%Z /\ nth i (fold_left (store m) l acc) 0%Z = fst p /\
      forall q, In q l -> snd q = (Z.of_nat i + 1)%Z -> (fst q <= fst p)%Z).
Proof.
  intros Hi Pl S. induction S as [|p l S IH F]; intros acc La; cbn [fold_left].
  - split; [reflexivity|]. intros (p & [] & _).
  - assert (Pl' : forall q, In q l -> (0 < snd q)%Z) by (intros q Q0; apply Pl; right; exact Q0).
    assert (Pp := Pl p (or_introl eq_refl)).
    destruct (IH Pl' (store m acc p)) as [A B].
    { unfold store. destruct (Z.leb _ _); [rewrite set_at_length|]; exact La. }
    assert (St : nth i (store m acc p) 0%Z = if Z.eqb (snd p) (Z.of_nat i + 1) then fst p else nth i acc 0%Z).
    { unfold store. destruct (Z.leb_spec (snd p) (Z.of_nat m)) as [Le|Le].
      - rewrite set_at_nth, La. destruct (Z.eqb_spec (snd p) (Z.of_nat i + 1)) as [E|E].
        + replace (Nat.eqb i (Z.to_nat (snd p - 1)) && Nat.ltb (Z.to_nat (snd p - 1)) m) with true by lia. reflexivity.
        + replace (Nat.eqb i (Z.to_nat (snd p - 1)) && Nat.ltb (Z.to_nat (snd p - 1)) m) with false by lia. reflexivity.
      - destruct (Z.eqb_spec (snd p) (Z.of_nat i + 1)) as [E|E]; [lia|reflexivity]. }
    assert (D : (exists q, In q l /\ snd q = (Z.of_nat i + 1)%Z) \/ (forall q, In q l -> snd q <> (Z.of_nat i + 1)%Z)).
    { destruct (existsb (fun q => Z.eqb (snd q) (Z.of_nat i + 1)) l) eqn:X.
      - left. apply existsb_exists in X. destruct X as (q & Q1 & Q2). exists q. split; [exact Q1|lia].
      - right. intros q Q1 Q2. assert (X' : existsb (fun q => Z.eqb (snd q) (Z.of_nat i + 1)) l = true)
          by (apply existsb_exists; exists q; split; [exact Q1|lia]). congruence. }
    split.
    + intro N. rewrite A by (intros q Q0; apply N; right; exact Q0). rewrite St.
      destruct (Z.eqb_spec (snd p) (Z.of_nat i + 1)) as [E|E]; [exfalso; apply (N p); [left; reflexivity|exact E]|reflexivity].
    + intros X0. destruct D as [D|D].
      * destruct (B D) as (q & Q1 & Q2 & Q3 & Q4). exists q. split; [right; exact Q1|]. split; [exact Q2|]. split; [exact Q3|].
        intros r [<-|R] Er; [|apply Q4; assumption].
        rewrite Forall_forall in F. specialize (F q Q1). apply pair_ltb_spec in F. lia.
      * assert (E : snd p = (Z.of_nat i + 1)%Z).
        { destruct X0 as (q & [<-|Q1] & Q2); [exact Q2|]. exfalso. apply (D q Q1 Q2). }
        exists p. split; [left; reflexivity|]. split; [exact E|]. split.
        -- rewrite A by exact D. rewrite St, E, Z.eqb_refl. reflexivity.
        -- intros q [<-|Q1] Q2; [lia|]. exfalso. apply (D q Q1 Q2).
Qed.

Lemma original_ids_length m orig new : length (original_ids m orig new) = m.
Proof.
  unfold original_ids. change (fun acc p => if Z.leb (snd p) (Z.of_nat m) then set_at (Z.to_nat (snd p - 1)) (fst p) acc else acc)
    with (store m). rewrite store_length. apply repeat_length.
Qed.
Lemma combine_nth_In {A B} (l : list A) (l' : list B) (a : A) (b : B) x y : length l = length l' ->
  (In (x, y) (combine l l') <-> exists k, k < length l /\ nth k l a = x /\ nth k l' b = y).
Proof.
  intro L. split.
  - intro H. destruct (In_nth _ _ (a, b) H) as (k & K & E). rewrite combine_nth in E by exact L.
    rewrite combine_length in K. injection E as E1 E2. exists k. split; [lia|auto].
  - intros (k & K & <- & <-). rewrite <- combine_nth by exact L. apply nth_In. rewrite combine_length. lia.
Qed.
Lemma original_ids_spec m orig new i : length orig = length new -> i < m ->
  let v := nth i (original_ids m orig new) 0%Z in
  let has x := exists k, k < length orig /\ nth k orig 0%Z = x /\ nth k new 0%Z = (Z.of_nat i + 1)%Z in
  (~ In (Z.of_nat i + 1)%Z new -> v = 0%Z) /\
  (In (Z.of_nat i + 1)%Z new -> has v /\ forall x, has x -> (x <= v)%Z).
Proof.
  intros L I v has. unfold v, original_ids.
  set (l := unique_pairs (filter (fun p => Z.ltb 0 (snd p)) (combine orig new))).
  change (fun acc p => if Z.leb (snd p) (Z.of_nat m) then set_at (Z.to_nat (snd p - 1)) (fst p) acc else acc)
    with (store m).
  assert (Hl : forall p, In p l <-> In p (combine orig new) /\ (0 < snd p)%Z).
  { intro p. unfold l. rewrite unique_pairs_In, filter_In, Z.ltb_lt. reflexivity. }
  assert (Hh : forall x, In (x, (Z.of_nat i + 1)%Z) l <-> has x).
  { intro x. rewrite Hl. cbn [snd]. rewrite (combine_nth_In orig new 0%Z 0%Z) by exact L. unfold has. split; [tauto|]. intro H. split; [exact H|lia]. }
  destruct (store_spec m i l I (fun p H => proj2 (proj1 (Hl p) H)) (unique_pairs_sorted _) (repeat 0%Z m) (repeat_length _ _)) as [A B].
  split.
  - intro N. rewrite A.
    + apply (repeat_spec m). apply nth_In. rewrite repeat_length. exact I.
    + intros [x y] P E. cbn in E. subst y. apply Hh in P. destruct P as (k & K & _ & E). apply N. rewrite <- E. apply nth_In. lia.
  - intro H. destruct (In_nth _ _ 0%Z H) as (k & K & E).
    destruct B as ([x y] & P & Ey & Ev & Mx).
    { exists (nth k orig 0%Z, (Z.of_nat i + 1)%Z). split; [|reflexivity]. apply Hh. exists k. split; [lia|auto]. }
    cbn [fst snd] in *. subst y. rewrite Ev. split; [apply Hh; exact P|].
    intros z Z0. apply (Mx (z, (Z.of_nat i + 1)%Z)); [apply Hh; exact Z0|reflexivity].
Qed.

(** ** First and last True *)
Lemma first_true_spec l : match first_true l with
  | Some k => k < length l /\ nth k l false = true /\ forall j, j < k -> nth j l false = false
  | None => forall j, nth j l false = false
  end.
Proof.
  induction l as [|b l IH]; cbn [first_true]; [intros [|j]; reflexivity|]. destruct b.
  - split; [cbn; lia|]. split; [reflexivity|lia].
  - destruct (first_true l) as [k|]; cbn [option_map].
    + destruct IH as (A & B & C). split; [cbn; lia|]. split; [exact B|]. intros [|j] J; [reflexivity|]. apply C. lia.
    + intros [|j]; [reflexivity|apply IH].
Qed.
Lemma start_of_spec col k : nth k col false = true ->
  nth (start_of col) col false = true /\ start_of col <= k.
Proof.
  intro H. unfold start_of, argmax_bool. assert (F := first_true_spec col). destruct (first_true col) as [j|].
  - destruct F as (A & B & C). split; [exact B|]. destruct (Nat.lt_ge_cases k j) as [L|L]; [|exact L]. rewrite C in H by exact L. discriminate.
  - rewrite F in H. discriminate.
Qed.
Lemma end_of_spec col k : nth k col false = true ->
  nth (end_of col) col false = true /\ k <= end_of col.
Proof.
  intro H. unfold end_of, argmax_bool. assert (F := first_true_spec (rev col)).
  assert (K : k < length col). { destruct (Nat.lt_ge_cases k (length col)) as [L|L]; [exact L|]. rewrite nth_overflow in H by exact L. discriminate. }
  destruct (first_true (rev col)) as [j|].
  - destruct F as (A & B & C). rewrite rev_length in A. rewrite rev_nth in B by exact A.
    replace (length col - 1 - j) with (length col - S j) by lia. split; [exact B|].
    destruct (Nat.le_gt_cases k (length col - S j)) as [L|L]; [exact L|].
    specialize (C (length col - S k)). rewrite rev_nth in C by lia. replace (length col - S (length col - S k)) with k in C by lia.
    rewrite C in H by lia. discriminate.
  - specialize (F (length col - S k)). rewrite rev_nth in F by lia. replace (length col - S (length col - S k)) with k in F by lia. congruence.
Qed.

(** ** Areas *)
Lemma field_area ca f x : length f = length ca ->
  (sumQ (map snd (filter (fun c => Z.eqb x (fst c)) (combine f ca))) == object_area ca f x)%Q.
Proof.
  unfold object_area. revert ca. induction f as [|y f IH]; intros [|q ca] L; try discriminate; [reflexivity|].
  cbn [combine filter fst]. cbn [length]. rewrite totalQ_shift. cbn [nth]. injection L as L.
  rewrite (Z.eqb_sym y x). destruct (Z.eqb x y); cbn [map sumQ snd]; rewrite (IH ca L); ring.
Qed.

(** ** Ledger *)
Lemma write_slot_length valid : forall slot, length (write_slot valid slot) = length slot.
Proof.
  unfold write_slot. generalize (combine valid valid). intro l. induction l as [|p l IH]; intro s; cbn [fold_left]; [reflexivity|].
  rewrite IH. apply set_at_length.
Qed.
Lemma write_slot_nth valid : (forall v, In v valid -> (0 < v)%Z) -> forall slot i, i < length slot ->
  nth i (write_slot valid slot) 0%Z = if memZ (Z.of_nat i + 1) valid then (Z.of_nat i + 1)%Z else nth i slot 0%Z.
Proof.
  induction valid as [|v valid IH]; intros P slot i I; [reflexivity|].
  unfold write_slot. cbn [combine fold_left fst snd].
  change (fold_left (fun acc p => set_at (Z.to_nat (fst p - 1)) (snd p) acc) (combine valid valid) (set_at (Z.to_nat (v - 1)) v slot))
    with (write_slot valid (set_at (Z.to_nat (v - 1)) v slot)).
  assert (Pv := P v (or_introl eq_refl)).
  rewrite IH; [|intros u U; apply P; right; exact U|rewrite set_at_length; exact I].
  cbn [memZ existsb]. fold (memZ (Z.of_nat i + 1) valid). destruct (memZ (Z.of_nat i + 1) valid); [rewrite orb_true_r; reflexivity|].
  rewrite orb_false_r, set_at_nth. destruct (Z.eqb_spec (Z.of_nat i + 1) v) as [E|E].
  - replace (Nat.eqb i (Z.to_nat (v - 1)) && Nat.ltb (Z.to_nat (v - 1)) (length slot)) with true by lia. lia.
  - replace (Nat.eqb i (Z.to_nat (v - 1)) && Nat.ltb (Z.to_nat (v - 1)) (length slot)) with false by lia. reflexivity.
Qed.
Lemma write_mergers ms : forall m block, (forall slot, In slot block -> length slot = m) ->
  length (fold_left write_merger ms block) = length block /\
  (forall slot, In slot (fold_left write_merger ms block) -> length slot = m) /\
  forall s i, s < length block -> i < m ->
    nth i (nth s (fold_left write_merger ms block) []) 0%Z =
    if existsb (memZ (Z.of_nat i + 1)) ms then (Z.of_nat i + 1)%Z else nth i (nth s block []) 0%Z.
Proof.
  induction ms as [|g ms IH]; intros m block L; cbn [fold_left existsb]; [repeat split; auto|].
  destruct (IH m (write_merger block g)) as (A & B & C).
  { intros slot S. unfold write_merger in S. apply in_map_iff in S. destruct S as (s0 & <- & S). rewrite write_slot_length. auto. }
  split; [rewrite A; apply map_length|]. split; [exact B|].
  intros s i Hs Hi. rewrite C; [|unfold write_merger; rewrite map_length; exact Hs|exact Hi].
  destruct (existsb (memZ (Z.of_nat i + 1)) ms); [rewrite orb_true_r; reflexivity|]. rewrite orb_false_r.
  unfold write_merger. rewrite (nth_indep _ [] (write_slot (filter (Z.ltb 0) g) [])) by (rewrite map_length; exact Hs).
  rewrite map_nth. rewrite write_slot_nth.
  - destruct (memZ (Z.of_nat i + 1) g) eqn:M.
    + replace (memZ (Z.of_nat i + 1) (filter (Z.ltb 0) g)) with true; [reflexivity|]. symmetry. apply memZ_In, filter_In.
      apply memZ_In in M. split; [exact M|lia].
    + replace (memZ (Z.of_nat i + 1) (filter (Z.ltb 0) g)) with false; [reflexivity|]. symmetry. apply memZ_false. apply memZ_false in M.
      intro H. apply filter_In in H. tauto.
  - intros v V. apply filter_In in V. destruct V as [_ V]. lia.
  - rewrite L by (apply nth_In; exact Hs). exact Hi.
Qed.
Lemma ledger_at_spec m slots recs t s i : s < slots -> i < m ->
  nth i (nth s (ledger_at m slots recs t) []) 0%Z =
  if existsb (fun e => Nat.eqb (fst e) t && memZ (Z.of_nat i + 1) (snd e)) recs then (Z.of_nat i + 1)%Z else (-1)%Z.
Proof.
  intros S I. unfold ledger_at.
  destruct (write_mergers (map snd (filter (fun e => Nat.eqb (fst e) t) recs)) m (repeat (repeat (-1)%Z m) slots)) as (A & B & C).
  { intros slot H. apply repeat_spec in H. subst. apply repeat_length. }
  rewrite C by (rewrite ?repeat_length; assumption).
  assert (E : existsb (memZ (Z.of_nat i + 1)) (map snd (filter (fun e => Nat.eqb (fst e) t) recs)) =
              existsb (fun e => Nat.eqb (fst e) t && memZ (Z.of_nat i + 1) (snd e)) recs).
  { clear. induction recs as [|e recs IH]; [reflexivity|]. cbn [filter existsb]. destruct (Nat.eqb (fst e) t); cbn [map existsb andb orb]; rewrite ?IH; reflexivity. }
  rewrite E. destruct (existsb _ recs); [reflexivity|].
  assert (H : nth s (repeat (repeat (-1)%Z m) slots) [] = repeat (-1)%Z m).
  { apply (repeat_spec slots). apply nth_In. rewrite repeat_length. exact S. }
  rewrite H. apply (repeat_spec m). apply nth_In. rewrite repeat_length. exact I.
Qed.
Lemma ledger_at_length m slots recs t : length (ledger_at m slots recs t) = slots.
Proof.
  unfold ledger_at. destruct (write_mergers (map snd (filter (fun e => Nat.eqb (fst e) t) recs)) m (repeat (repeat (-1)%Z m) slots)) as (A & _).
  { intros slot H. apply repeat_spec in H. subst. apply repeat_length. }
  rewrite A. apply repeat_length.
Qed.
