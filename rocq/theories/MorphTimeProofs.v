(** Proofs about the temporal closing of [Morph]. *)
From Verif Require Import Base Morph MorphSpec MorphProofs.
Open Scope Z_scope.
Ltac Zify.zify_post_hook ::= Z.div_mod_to_equations.

Lemma at_t_in l t : at_t l t = true -> 0 <= t < Z.of_nat (length l).
Proof. unfold at_t. destruct ((0 <=? t) && (t <? Z.of_nat (length l))) eqn:E; [lia|discriminate]. Qed.

Lemma tabulate_length n f : length (tabulate n f) = n.
Proof. unfold tabulate. rewrite map_length, seq_length. reflexivity. Qed.

Lemma at_t_tabulate n f t :
  at_t (tabulate n f) t = if (0 <=? t) && (t <? Z.of_nat n) then f t else false.
Proof.
  unfold at_t. rewrite tabulate_length.
  destruct ((0 <=? t) && (t <? Z.of_nat n)) eqn:E; auto.
  unfold tabulate.
  rewrite (nth_indep _ false (f (Z.of_nat 0))) by (rewrite map_length, seq_length; lia).
  rewrite (map_nth (fun i => f (Z.of_nat i)) (seq 0 n) 0%nat).
  rewrite seq_nth by lia. f_equal. lia.
Qed.

Lemma nth_false_over (l : list bool) n : (length l <= n)%nat -> nth n l false = false.
Proof. intro H. apply nth_overflow. exact H. Qed.

Lemma at_t_nth l n : at_t l (Z.of_nat n) = nth n l false.
Proof.
  unfold at_t. destruct ((0 <=? Z.of_nat n) && (Z.of_nat n <? Z.of_nat (length l))) eqn:E.
  - rewrite Nat2Z.id. reflexivity.
  - symmetry. apply nth_overflow. lia.
Qed.

Lemma at_t_neg l t : t < 0 -> at_t l t = false.
Proof. intro H. unfold at_t. destruct ((0 <=? t) && _) eqn:E; [lia|reflexivity]. Qed.

Lemma at_t_padded k l t :
  at_t (repeat false k ++ l ++ repeat false k) t = at_t l (t - Z.of_nat k).
Proof.
  destruct (Z_lt_le_dec t 0) as [N|N].
  - rewrite !at_t_neg by lia. reflexivity.
  - replace t with (Z.of_nat (Z.to_nat t)) at 1 by lia. rewrite at_t_nth.
    destruct (Nat.ltb_spec (Z.to_nat t) k) as [A|A].
    + rewrite app_nth1 by (rewrite repeat_length; lia).
      rewrite nth_repeat. rewrite at_t_neg by lia. reflexivity.
    + rewrite app_nth2 by (rewrite repeat_length; lia). rewrite repeat_length.
      replace (t - Z.of_nat k) with (Z.of_nat (Z.to_nat t - k)) by lia. rewrite at_t_nth.
      destruct (Nat.ltb_spec (Z.to_nat t - k) (length l)) as [B|B].
      * rewrite app_nth1 by lia. reflexivity.
      * rewrite app_nth2 by lia. rewrite nth_repeat. symmetry. apply nth_overflow. lia.
Qed.

Lemma unpad_at k (l : list bool) t : (2 * k <= length l)%nat ->
  0 <= t < Z.of_nat (length l - 2 * k) -> at_t (unpad k l) t = at_t l (t + Z.of_nat k).
Proof.
  intros H Ht. unfold unpad.
  replace t with (Z.of_nat (Z.to_nat t)) at 1 by lia. rewrite at_t_nth.
  replace (t + Z.of_nat k) with (Z.of_nat (k + Z.to_nat t)) by lia. rewrite at_t_nth.
  rewrite <- (firstn_skipn (length l - 2 * k) (skipn k l)) at 2 || idtac.
  assert (E : nth (Z.to_nat t) (firstn (length l - 2 * k) (skipn k l)) false = nth (Z.to_nat t) (skipn k l) false).
  { rewrite <- (firstn_skipn (length l - 2 * k) (skipn k l)) at 2.
    rewrite app_nth1; auto. rewrite firstn_length, skipn_length. lia. }
  rewrite E. clear E.
  transitivity (nth (Z.to_nat t) (skipn k l) false); auto.
  clear. revert l. induction k as [|k IH]; intro l; [reflexivity|].
  destruct l as [|a l]; [destruct (Z.to_nat t); reflexivity|]. simpl. apply IH.
Qed.

Lemma unpad_length k (l : list bool) : (2 * k <= length l)%nat -> length (unpad k l) = (length l - 2 * k)%nat.
Proof. intro H. unfold unpad. rewrite firstn_length, skipn_length. lia. Qed.

Lemma kernel1_In k d : 0 <= k -> (In d (kernel1 k) <-> - (k / 2) <= d < - (k / 2) + k).
Proof. intro H. unfold kernel1. rewrite zrange_In. rewrite Z2Nat.id by lia. tauto. Qed.

(** Windows: the closing marks t exactly when every window of length T+1
    containing t contains an extreme step. *)
Lemma close_time_windows T l l' : 0 <= T -> Z.even T = true ->
  close_time T l = Some l' ->
  length l' = length l /\
  forall t, 0 <= t < Z.of_nat (length l) ->
  (at_t l' t = true <-> forall c, t - T / 2 <= c <= t + T / 2 -> exists s, c - T / 2 <= s <= c + T / 2 /\ at_t l s = true).
Proof.
  intros HT Ev. unfold close_time.
  destruct (Z.eqb_spec T 0) as [->|N].
  - intro H; injection H as <-. split; auto. intros t Ht. change (0 / 2) with 0. split.
    + intros E c Hc. exists t. split; [lia|exact E].
    + intro E. destruct (E t ltac:(lia)) as (s & Hs & G). replace s with t in G by lia. exact G.
  - destruct (Z.ltb_spec (T + 1) 0) as [B|B]; [lia|].
    intro H. injection H as <-.
    set (k := Z.to_nat (T + 1)).
    set (p := repeat false k ++ l ++ repeat false k).
    assert (Lp : length p = (length l + 2 * k)%nat).
    { unfold p. rewrite !app_length, !repeat_length. lia. }
    assert (Le : length (erode1 (T + 1) (dilate1 (T + 1) p)) = length p).
    { unfold erode1. rewrite tabulate_length. unfold dilate1. rewrite tabulate_length. reflexivity. }
    assert (Hodd : T = 2 * (T / 2)).
    { apply Z.even_spec in Ev. destruct Ev as [q ->]. lia. }
    assert (Hc2 : (T + 1) / 2 = T / 2) by lia.
    split; [rewrite unpad_length by lia; lia|].
    intros t Ht. rewrite unpad_at by lia.
    unfold erode1. rewrite at_t_tabulate. unfold dilate1 at 1. rewrite tabulate_length.
    replace ((0 <=? t + Z.of_nat k) && (t + Z.of_nat k <? Z.of_nat (length p))) with true by lia.
    rewrite forallb_forall.
    assert (Hk : Z.of_nat k = T + 1) by (unfold k; lia).
    assert (Hd : forall u, 0 <= u < Z.of_nat (length p) ->
       (at_t (dilate1 (T + 1) p) u = true <-> exists s, u - T / 2 <= s <= u + T / 2 /\ at_t p s = true)).
    { intros u Hu. unfold dilate1. rewrite at_t_tabulate.
      replace ((0 <=? u) && (u <? Z.of_nat (length p))) with true by lia.
      rewrite existsb_exists. split.
      - intros (d & Hd & E). apply kernel1_In in Hd; [|lia]. exists (u - d). split; [lia|exact E].
      - intros (s & Hs & E). exists (u - s). split; [apply kernel1_In; lia|].
        replace (u - (u - s)) with s by lia. exact E. }
    split.
    + intros E c Hc. specialize (E (c - t)).
      rewrite kernel1_In in E by lia. specialize (E ltac:(lia)).
      apply Hd in E; [|lia]. destruct E as (s & Hs & G).
      exists (s - Z.of_nat k). split; [lia|]. unfold p in G. rewrite at_t_padded in G. exact G.
    + intros E d Hdd. apply kernel1_In in Hdd; [|lia].
      apply Hd; [lia|]. destruct (E (t + d) ltac:(lia)) as (s & Hs & G).
      exists (s + Z.of_nat k). split; [lia|]. unfold p. rewrite at_t_padded.
      replace (s + Z.of_nat k - Z.of_nat k) with s by lia. exact G.
Qed.

(** Nearest extreme step at or before / after t. *)
Lemma last_before l (t : nat) :
  (exists a, a <= Z.of_nat t /\ ext l a /\ forall s, a < s <= Z.of_nat t -> ~ ext l s) \/
  (forall s, s <= Z.of_nat t -> ~ ext l s).
Proof.
  unfold ext. induction t as [|t IH].
  - destruct (at_t l 0) eqn:E.
    + left. exists 0. split; [lia|]. split; auto. intros; lia.
    + right. intros s Hs. destruct (Z.eq_dec s 0) as [->|]; [congruence|]. rewrite at_t_neg by lia. discriminate.
  - destruct (at_t l (Z.of_nat (S t))) eqn:E.
    + left. exists (Z.of_nat (S t)). split; [lia|]. split; auto. intros; lia.
    + destruct IH as [(a & A1 & A2 & A3)|A].
      * left. exists a. split; [lia|]. split; auto. intros s Hs.
        destruct (Z.eq_dec s (Z.of_nat (S t))) as [->|]; [congruence|]. apply A3. lia.
      * right. intros s Hs. destruct (Z.eq_dec s (Z.of_nat (S t))) as [->|]; [congruence|]. apply A. lia.
Qed.

Lemma first_after l (n : nat) : forall t, 
  (exists b, t <= b < t + Z.of_nat n /\ ext l b /\ forall s, t <= s < b -> ~ ext l s) \/
  (forall s, t <= s < t + Z.of_nat n -> ~ ext l s).
Proof.
  unfold ext. induction n as [|n IH]; intro t.
  - right. intros; lia.
  - destruct (at_t l t) eqn:E.
    + left. exists t. split; [lia|]. split; auto. intros; lia.
    + destruct (IH (t + 1)) as [(b & B1 & B2 & B3)|B].
      * left. exists b. split; [lia|]. split; auto. intros s Hs.
        destruct (Z.eq_dec s t) as [->|]; [congruence|]. apply B3. lia.
      * right. intros s Hs. destruct (Z.eq_dec s t) as [->|]; [congruence|]. apply B. lia.
Qed.

Lemma close_time_gaps T l l' : 0 <= T -> Z.even T = true ->
  close_time T l = Some l' ->
  length l' = length l /\
  forall t, 0 <= t < Z.of_nat (length l) -> (ext l' t <-> ext l t \/ in_short_gap T l t).
Proof.
  intros HT Ev H. destruct (close_time_windows T l l' HT Ev H) as [L W]. split; auto.
  intros t Ht. unfold ext at 1. rewrite (W t Ht).
  assert (H2 : T = 2 * (T / 2)).
  { apply Z.even_spec in Ev. destruct Ev as [q ->]. lia. }
  split.
  - intro E. destruct (at_t l t) eqn:At; [left; exact At|]. right.
    destruct (last_before l (Z.to_nat t)) as [(a & A1 & A2 & A3)|A].
    + assert (a <> t) by (intros ->; unfold ext in A2; congruence).
      destruct (first_after l (length l) t) as [(b & B1 & B2 & B3)|B].
      * assert (b <> t) by (intros ->; unfold ext in B2; congruence).
        exists a, b. split; [lia|]. split; [|split; [auto|split; [auto|]]].
        -- destruct (Z_le_gt_dec (b - a - 1) T) as [|G]; auto. exfalso.
           (* a window inside the gap that contains t *)
           set (c := Z.max (a + 1) (t - T) + T / 2).
           destruct (E c ltac:(unfold c; lia)) as (s & Hs & Es).
           assert (s < t \/ s = t \/ t < s) as [C|[C|C]] by lia.
           ++ apply (A3 s); [unfold c in Hs; lia|exact Es].
           ++ subst s. congruence.
           ++ apply (B3 s); [unfold c in Hs; lia|exact Es].
        -- intros s Hs. assert (s <= t \/ t <= s) as [C|C] by lia; [apply A3; lia|apply B3; lia].
      * exfalso. destruct (E (t + T / 2) ltac:(lia)) as (s & Hs & Es).
        pose proof (at_t_in _ _ Es). apply (B s); [lia|exact Es].
    + exfalso. destruct (E (t - T / 2) ltac:(lia)) as (s & Hs & Es).
      apply (A s); [lia|exact Es].
  - intros [E|(a & b & Hab & Hg & Ea & Eb & _)] c Hc.
    + exists t. split; [lia|exact E].
    + destruct (Z_le_gt_dec (c - T / 2) a) as [C|C].
      * exists a. split; [lia|exact Ea].
      * exists b. split; [lia|exact Eb].
Qed.

Lemma close_time_total T l : 0 <= T -> exists l', close_time T l = Some l'.
Proof.
  intro HT. unfold close_time. destruct (T =? 0); [eauto|].
  destruct (Z.ltb_spec (T + 1) 0); [lia|eauto].
Qed.

(** The whole record. *)
Lemma nth_series (s : list img) y x t : nth t (series_at s y x) false = nth t s (fun _ _ => false) y x.
Proof.
  unfold series_at. revert t. induction s as [|f s IH]; intros [|t]; simpl; auto.
Qed.

Lemma fill_time_gaps_spec reg T R ny nx mask s s' : 0 <= T -> Z.even T = true ->
  fill_time_gaps reg T R ny nx mask s = Some s' ->
  length s' = length s /\
  exists closed,
    length closed = length s /\
    (forall y x t, (t < length s)%nat ->
      (nth t closed (fun _ _ => false) y x = true <->
       ext (series_at s y x) (Z.of_nat t) \/ in_short_gap T (series_at s y x) (Z.of_nat t))) /\
    ((T = 0 /\ s' = s) \/ (0 < T /\ s' = fill_holes reg (R / 2) ny nx mask closed)).
Proof.
  intros HT Ev. unfold fill_time_gaps.
  destruct (Z.eqb_spec T 0) as [->|N].
  - intro H; injection H as <-. split; auto. exists s. split; auto. split; [|left; auto].
    intros y x t Ht. unfold ext. rewrite at_t_nth, nth_series. split; [auto|].
    intros [E|(a & b & H1 & H2 & _)]; [exact E|lia].
  - destruct (Z.ltb_spec (T + 1) 0) as [B|B]; [lia|].
    intro H. injection H as <-. unfold fill_holes. rewrite !map_length, seq_length. split; auto.
    eexists. split; [|split; [|right; split; [lia|reflexivity]]].
    + rewrite map_length, seq_length. reflexivity.
    + intros y x t Ht.
      destruct (close_time_total T (series_at s y x) HT) as [l' E].
      assert (Ls : length (series_at s y x) = length s) by (unfold series_at; apply map_length).
      destruct (close_time_gaps T _ _ HT Ev E) as [L G].
      unfold img in *.
      match goal with |- context [nth t (map ?F (seq 0 (length s))) _] =>
        assert (EN : nth t (map F (seq 0 (length s))) (fun _ _ => false) = F t) end.
      { rewrite (nth_indep _ _ ((fun (i:nat) (y0 x0:Z) =>
           nth i match close_time T (series_at s y0 x0) with Some l => l | None => [] end false) 0%nat))
          by (rewrite map_length, seq_length; exact Ht).
        rewrite (map_nth (fun (i:nat) (y0 x0:Z) =>
           nth i match close_time T (series_at s y0 x0) with Some l => l | None => [] end false)).
        rewrite seq_nth by exact Ht. reflexivity. }
      rewrite EN. cbv beta. rewrite E.
      rewrite <- at_t_nth. apply G. lia.
Qed.
