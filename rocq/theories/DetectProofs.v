(** Proofs about the checks of detect.py. *)
From Coq Require Import String.
From Verif Require Import Base Detect.
Open Scope nat_scope.

Lemma mem_str_In x l : mem_str x l = true <-> In x l.
Proof. unfold mem_str. rewrite existsb_exists. split; [intros (y & H & E); apply String.eqb_eq in E; subst; exact H|intro H; exists x; split; [exact H|apply String.eqb_refl]]. Qed.

Lemma missing_nil av m : missing av m = [] <-> forall k v, In (k, v) m -> In v av.
Proof.
  unfold missing. split.
  - intros H k v I. destruct (mem_str v av) eqn:E; [apply mem_str_In; exact E|]. exfalso.
    assert (I2 : In (k, v) (filter (fun p => negb (mem_str (snd p) av)) m)) by (apply filter_In; split; [exact I|cbn; rewrite E; reflexivity]).
    rewrite H in I2. destruct I2.
  - intro H. induction m as [|[k v] m IH]; [reflexivity|]. cbn. assert (E : mem_str v av = true) by (apply mem_str_In, (H k); left; reflexivity).
    rewrite E. cbn. apply IH. intros k' v' I. apply (H k'). right. exact I.
Qed.

Lemma lookup_has m k : has_name m k = true <-> exists v, lookup_name m k = Some v.
Proof. unfold has_name. destruct (lookup_name m k) as [v|]; split; [eauto|reflexivity|discriminate|intros (v & H); discriminate]. Qed.
Lemma lookup_In m k v : lookup_name m k = Some v -> In (k, v) m.
Proof. induction m as [|[a b] m IH]; [discriminate|]. cbn. destruct (String.eqb_spec a k) as [->|]; [intro H; injection H as ->; left; reflexivity|intro H; right; auto]. Qed.

(** Counting. *)
Lemma fold_max_zero l : fold_right Nat.max 0 l = 0 <-> forall x, In x l -> x = 0.
Proof.
  induction l as [|x l IH]; cbn [fold_right]; [split; [intros _ x []|reflexivity]|]. split.
  - intros H y [<-|I]; [lia|]. apply IH; [lia|exact I].
  - intro H. rewrite (H x) by (left; reflexivity). apply IH. intros y I. apply H. right. exact I.
Qed.

Lemma combine_map_seq {A B} (f : nat -> A) (g : nat -> B) n : combine (map f (seq 0 n)) (map g (seq 0 n)) = map (fun i => (f i, g i)) (seq 0 n).
Proof. generalize 0. induction n as [|n IH]; intro a; [reflexivity|]. cbn. rewrite IH. reflexivity. Qed.

Definition bad_count (n : nat) (da : list (list value)) (first : list value) (i : nat) : nat :=
  if is_finite (nth i first NaN) then count (fun step => negb (is_finite (nth i step NaN))) da else 0.
Lemma validate_unfold n first rest : validate_data_values n (first :: rest) =
  if existsb (fun i => is_finite (nth i first NaN)) (seq 0 n) then
    let inv := map (bad_count n (first :: rest) first) (seq 0 n) in
    if Nat.ltb 0 (fold_right Nat.max 0 inv)
    then Err (InvalidValues (fold_right Nat.add 0 inv) (count (Nat.ltb 0) inv) (fold_right Nat.max 0 inv)) else Ok tt
  else Err NoValidData.
Proof.
  unfold validate_data_values, invalid_per_location. rewrite combine_map_seq, map_map. cbn [fst snd].
  replace (existsb (fun b => b) (map (fun i => is_finite (nth i first NaN)) (seq 0 n))) with (existsb (fun i => is_finite (nth i first NaN)) (seq 0 n)).
  - reflexivity.
  - generalize (seq 0 n). intro l. induction l as [|x l IH]; [reflexivity|]. cbn. rewrite IH. reflexivity.
Qed.

Lemma validate_ok n da :
  validate_data_values n da = Ok tt <->
  da <> [] /\
  (exists i, i < n /\ is_finite (nth i (nth 0 da []) NaN) = true) /\
  (forall i, i < n -> is_finite (nth i (nth 0 da []) NaN) = true -> forall t, t < length da -> is_finite (nth i (nth t da []) NaN) = true).
Proof.
  destruct da as [|first rest]; [split; [discriminate|intros (H & _); congruence]|]. rewrite validate_unfold. cbn [nth]. set (da := first :: rest).
  split.
  - destruct (existsb _ _) eqn:Ex; [|discriminate]. cbv zeta. destruct (Nat.ltb_spec 0 (fold_right Nat.max 0 (map (bad_count n da first) (seq 0 n)))) as [|W]; [discriminate|].
    intros _. split; [discriminate|]. split.
    + apply existsb_exists in Ex. destruct Ex as (i & I & E). apply in_seq in I. exists i. split; [lia|exact E].
    + intros i I F t T. assert (Z0 : fold_right Nat.max 0 (map (bad_count n da first) (seq 0 n)) = 0) by lia. rewrite fold_max_zero in Z0.
      specialize (Z0 (bad_count n da first i) ltac:(apply in_map, in_seq; lia)). unfold bad_count in Z0. rewrite F in Z0.
      rewrite Base.count_zero in Z0. specialize (Z0 (nth t da []) ltac:(apply nth_In; exact T)). apply negb_false_iff in Z0. exact Z0.
  - intros (_ & (i & I & E) & G). assert (Ex : existsb (fun i => is_finite (nth i first NaN)) (seq 0 n) = true) by (apply existsb_exists; exists i; split; [apply in_seq; lia|exact E]).
    rewrite Ex. cbv zeta. replace (fold_right Nat.max 0 (map (bad_count n da first) (seq 0 n))) with 0; [reflexivity|].
    symmetry. apply fold_max_zero. intros x X. apply in_map_iff in X. destruct X as (j & <- & J). apply in_seq in J. unfold bad_count.
    destruct (is_finite (nth j first NaN)) eqn:F; [|reflexivity]. apply Base.count_zero. intros step St. apply (In_nth _ _ []) in St. destruct St as (t & T & <-).
    apply negb_false_iff. apply G; [lia|exact F|exact T].
Qed.

(** Years. *)
Lemma fold_min_le l : forall a y, (y = a \/ In y l) -> (fold_left Z.min l a <= y)%Z.
Proof.
  induction l as [|x l IH]; intros a y H; cbn.
  - destruct H as [->|[]]. lia.
  - destruct H as [->|[->|H]]; [| |apply IH; auto].
    + transitivity (Z.min a x); [apply IH; auto|lia].
    + transitivity (Z.min a y); [apply IH; auto|lia].
Qed.
Lemma fold_min_in l : forall a, fold_left Z.min l a = a \/ In (fold_left Z.min l a) l.
Proof.
  induction l as [|x l IH]; intro a; cbn; [auto|]. destruct (IH (Z.min a x)) as [H|H]; [|auto]. rewrite H.
  destruct (Z.le_ge_cases a x); [left; lia|right; left; lia].
Qed.
Lemma fold_max_ge l : forall a y, (y = a \/ In y l) -> (y <= fold_left Z.max l a)%Z.
Proof.
  induction l as [|x l IH]; intros a y H; cbn.
  - destruct H as [->|[]]. lia.
  - destruct H as [->|[->|H]]; [| |apply IH; auto].
    + transitivity (Z.max a x); [lia|apply IH; auto].
    + transitivity (Z.max a y); [lia|apply IH; auto].
Qed.
Lemma fold_max_in l : forall a, fold_left Z.max l a = a \/ In (fold_left Z.max l a) l.
Proof.
  induction l as [|x l IH]; intro a; cbn; [auto|]. destruct (IH (Z.max a x)) as [H|H]; [|auto]. rewrite H.
  destruct (Z.le_ge_cases a x); [right; left; lia|left; lia].
Qed.
Lemma minZ_spec l : l <> [] -> In (minZ l) l /\ forall y, In y l -> (minZ l <= y)%Z.
Proof.
  destruct l as [|a l]; [congruence|]. intros _. unfold minZ. split.
  - destruct (fold_min_in l a) as [->|H]; [left; reflexivity|right; exact H].
  - intros y [->|H]; apply fold_min_le; auto.
Qed.
Lemma maxZ'_spec l : l <> [] -> In (maxZ' l) l /\ forall y, In y l -> (y <= maxZ' l)%Z.
Proof.
  destruct l as [|a l]; [congruence|]. intros _. unfold maxZ'. split.
  - destruct (fold_max_in l a) as [->|H]; [left; reflexivity|right; exact H].
  - intros y [->|H]; apply fold_max_ge; auto.
Qed.
