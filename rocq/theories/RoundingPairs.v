(** Overlap decisions with rounded areas: pairs, sums and fractions. *)
From Coq Require Import Qround Lqa Qabs Qminmax.
From Verif Require Import Base Filter Overlap OverlapSpec OverlapProofs OverlapFraction Support Instrument InstrumentProofs Rounding RoundingSpec RoundingProofs ConsolidateProofs ClusterPipe.
Open Scope nat_scope.

(** ** Pairs *)
Lemma check_overlap32_eq w a b :
  check_overlap32 w a b =
  map (fun k => mkRow (k / pair_base a b) (k mod pair_base a b)
        (sum32 (map snd (filter (fun c => Z.eqb (c_from c * pair_base a b + c_to c) k) (filter both_pos (cells3 w a b))))))
      (unique_codes (map (fun c => (c_from c * pair_base a b + c_to c)%Z) (filter both_pos (cells3 w a b)))).
Proof. unfold check_overlap32. destruct (filter both_pos (cells3 w a b)); reflexivity. Qed.

Lemma check_pairs w a b : map row_pair (check_overlap32 w a b) = map row_pair (check_overlap w a b).
Proof. rewrite check_overlap32_eq, check_overlap_eq, !map_map. reflexivity. Qed.

Lemma flat_map_pairs w (l : list (list Z * list Z)) :
  map row_pair (flat_map (fun p => check_overlap32 w (fst p) (snd p)) l) =
  map row_pair (flat_map (fun p => check_overlap w (fst p) (snd p)) l).
Proof. induction l as [|p l IH]; [reflexivity|]. cbn [flat_map]. rewrite !map_app, check_pairs, IH. reflexivity. Qed.

Lemma find_pairs w fields : map row_pair (find_overlapping32 w fields) = map row_pair (find_overlapping w fields).
Proof. unfold find_overlapping32, find_overlapping. rewrite !map_map. cbn [row_pair r_from r_to]. rewrite flat_map_pairs. reflexivity. Qed.

Lemma check32_zero w a z : (forall x, In x z -> (x <= 0)%Z) -> check_overlap32 w a z = [].
Proof.
  intro H. assert (E := check_pairs w a z). rewrite (check_overlap_zero w a z H) in E. destruct (check_overlap32 w a z); [reflexivity|discriminate].
Qed.
Lemma consecutive32 w f r z : (forall x, In x z -> (x <= 0)%Z) ->
  flat_map (fun p => check_overlap32 w (fst p) (snd p)) (combine (f :: r) (r ++ [z])) =
  flat_map (fun t => check_overlap32 w (nth t (f :: r) []) (nth (S t) (f :: r) [])) (seq 0 (length r)).
Proof.
  intro Hz. revert f. induction r as [|g r IH]; intro f.
  - cbn [combine app flat_map fst snd length seq]. rewrite check32_zero by exact Hz. reflexivity.
  - change (combine (f :: g :: r) ((g :: r) ++ [z])) with ((f, g) :: combine (g :: r) (r ++ [z])).
    change (seq 0 (length (g :: r))) with (0 :: seq 1 (length r)).
    rewrite <- seq_shift, !flat_map_concat_map. cbn [map]. rewrite map_map.
    cbn [concat]. f_equal. rewrite <- !flat_map_concat_map. exact (IH g).
Qed.
Lemma find_all32 w fields :
  flat_map (fun p => check_overlap32 w (fst p) (snd p)) (combine fields (shifted fields)) =
  flat_map (fun t => check_overlap32 w (nth t fields []) (nth (S t) fields [])) (seq 0 (length fields - 1)).
Proof.
  destruct fields as [|f r]; [reflexivity|]. unfold shifted.
  rewrite consecutive32.
  - cbn [length]. replace (S (length r) - 1) with (length r) by lia. reflexivity.
  - intros x H. apply in_map_iff in H. destruct H as (y & <- & _). lia.
Qed.

(** ** Rows of one pair of time steps *)
(** The areas of the cells of both objects, in cell order. *)
Definition both_cells (w : list Q) (a b : list Z) (i j : Z) : list Q :=
  map snd (filter (fun c => Z.eqb (c_from c) i && Z.eqb (c_to c) j) (cells3 w a b)).

Lemma check32_row w a b r : length a = length b -> length a = length w -> In r (check_overlap32 w a b) ->
  (0 < r_from r)%Z /\ (0 < r_to r)%Z /\ meets a b (r_from r) (r_to r) /\ r_area r = sum32 (both_cells w a b (r_from r) (r_to r)).
Proof.
  intros La Lw H.
  assert (P : In (row_pair r) (map row_pair (check_overlap w a b))) by (rewrite <- check_pairs; apply in_map; exact H).
  apply in_map_iff in P. destruct P as (r' & E & R'). destruct (check_overlap_sound w a b La Lw r' R') as (A & B & M & _).
  unfold row_pair in E. injection E as E1 E2. rewrite E1 in *. rewrite E2 in *. split; [exact A|]. split; [exact B|]. split; [exact M|].
  rewrite check_overlap32_eq in H. apply in_map_iff in H. destruct H as (k & Ek & K). subst r. cbn [r_from r_to r_area] in *.
  rewrite unique_codes_In in K. apply in_map_iff in K. destruct K as (c & <- & C). cbn beta. rewrite (filter_code w a b La Lw c C). destruct (code_div w a b La Lw c C) as [D1 D2]. rewrite D1, D2. reflexivity.
Qed.

(** ** Sums *)
Lemma sum32_representable l : representable 24 (sum32 l).
Proof.
  unfold sum32. assert (G : forall l s, representable 24 s -> representable 24 (fold_left (fun s a => single (s + a)) l s)).
  { clear l. induction l as [|a l IH]; intros s R; [exact R|]. cbn [fold_left]. apply IH, rounded_representable. lia. }
  apply G, representable_zero. lia.
Qed.
Lemma sum32_one x : representable 24 x -> (sum32 [x] == x)%Q.
Proof. intro R. unfold sum32. cbn [fold_left]. unfold single. rewrite (rounded_eq 24 (0 + x) x) by (lia || ring). apply rounded_fixed; [lia|exact R]. Qed.

Lemma rounded_pos p q : (1 <= p)%Z -> (0 < q)%Q -> (0 < rounded p q)%Q.
Proof.
  intros P L. destruct (rounded_spec p q L) as (e & A & B & E). rewrite E. destruct (significand p q e P A B) as [S1 _].
  assert (G : (0 < 2 ^ (p - 1))%Z) by (apply Z.pow_pos_nonneg; lia). apply Qmult_lt_0_compat; [|apply pow2_pos].
  change 0%Q with (inject_Z 0). rewrite <- Zlt_Qlt. lia.
Qed.
Lemma sum32_pos l : l <> [] -> (forall a, In a l -> (0 < a)%Q) -> (0 < sum32 l)%Q.
Proof.
  intros N P. destruct l as [|x l]; [contradiction|]. unfold sum32. cbn [fold_left].
  assert (G : forall l s, (forall a, In a l -> (0 < a)%Q) -> (0 < s)%Q -> (0 < fold_left (fun s a => single (s + a)) l s)%Q).
  { clear. induction l as [|a l IH]; intros s P S; [exact S|]. cbn [fold_left]. apply IH; [intros; apply P; right; assumption|].
    apply rounded_pos; [lia|]. assert (A := P a (or_introl eq_refl)). lra. }
  apply G; [intros; apply P; right; assumption|]. apply rounded_pos; [lia|]. assert (A := P x (or_introl eq_refl)). lra.
Qed.

(** ** The areas of the objects on the same cells *)
Lemma area32_from w a b i : length a = length b -> length a = length w ->
  area32 w i a = sum32 (map snd (filter (fun c => Z.eqb (c_from c) i) (cells3 w a b))).
Proof.
  intros La Lw. unfold area32. f_equal. revert b w La Lw. induction a as [|x a IH]; intros [|y b] [|q w] La Lw; try discriminate; [reflexivity|].
  cbn [combine]. unfold cells3 in *. cbn [combine filter fst c_from]. rewrite Z.eqb_sym.
  injection La as La. injection Lw as Lw. destruct (Z.eqb x i); cbn [map snd]; rewrite (IH b w La Lw); reflexivity.
Qed.
Lemma area32_to w a b j : length a = length b -> length a = length w ->
  area32 w j b = sum32 (map snd (filter (fun c => Z.eqb (c_to c) j) (cells3 w a b))).
Proof.
  intros La Lw. unfold area32. f_equal. revert b w La Lw. induction a as [|x a IH]; intros [|y b] [|q w] La Lw; try discriminate; [reflexivity|].
  cbn [combine]. unfold cells3 in *. cbn [combine filter fst c_to snd]. rewrite Z.eqb_sym.
  injection La as La. injection Lw as Lw. destruct (Z.eqb y j); cbn [map snd]; rewrite (IH b w La Lw); reflexivity.
Qed.

(** ** Rows of a series in which every ID occurs at one time *)
Lemma filter_flat_one {A} (f : row -> bool) (g : A -> list row) l t r : NoDup l -> In t l ->
  (forall s, In s l -> s <> t -> filter f (g s) = []) -> filter f (g t) = [r] -> filter f (flat_map g l) = [r].
Proof.
  induction l as [|s l IH]; intros N I Z T; [destruct I|]. cbn [flat_map]. rewrite filter_app. inversion N as [|? ? Ns Nl]. subst.
  destruct I as [<-|I].
  - rewrite T. replace (filter f (flat_map g l)) with (@nil row); [reflexivity|]. symmetry.
    assert (Z' : forall u, In u l -> filter f (g u) = []) by (intros u U; apply Z; [right; exact U|intros ->; exact (Ns U)]). clear -Z'.
    induction l as [|u l IH]; [reflexivity|]. cbn [flat_map]. rewrite filter_app, Z' by (left; reflexivity). apply IH. intros v V. apply Z'. right. exact V.
  - rewrite Z; [|left; reflexivity|intros ->; exact (Ns I)]. apply IH; [exact Nl|exact I| |exact T]. intros u U V. apply Z; [right; exact U|exact V].
Qed.
Lemma filter_pair_one l r : NoDup (map row_pair l) -> In r l -> filter (fun x => pair_eqb (row_pair x) (row_pair r)) l = [r].
Proof.
  induction l as [|x l IH]; intros N I; [destruct I|]. cbn [map] in N. inversion N as [|? ? Nx Nl]. subst. cbn [filter]. destruct I as [->|I].
  - assert (E : pair_eqb (row_pair r) (row_pair r) = true) by (unfold pair_eqb; rewrite !Z.eqb_refl; reflexivity). rewrite E. f_equal.
    assert (G : forall y, In y l -> pair_eqb (row_pair y) (row_pair r) = false).
    { intros y Y. destruct (pair_eqb (row_pair y) (row_pair r)) eqn:C; [|reflexivity]. exfalso. apply Nx. rewrite <- (proj1 (pair_eqb_spec _ _) C). apply in_map. exact Y. }
    clear -G. induction l as [|y l IH]; [reflexivity|]. cbn [filter]. rewrite G by (left; reflexivity). apply IH. intros z Z. apply G. right. exact Z.
  - destruct (pair_eqb (row_pair x) (row_pair r)) eqn:C.
    + exfalso. apply Nx. rewrite (proj1 (pair_eqb_spec _ _) C). apply in_map. exact I.
    + apply IH; assumption.
Qed.


Lemma find32_row w fields r : (forall f, In f fields -> length f = length w) -> one_time fields ->
  In r (find_overlapping32 w fields) ->
  (0 < r_from r)%Z /\ (0 < r_to r)%Z /\ exists t, S t < length fields /\ meets (nth t fields []) (nth (S t) fields []) (r_from r) (r_to r) /\
    (r_area r == sum32 (both_cells w (nth t fields []) (nth (S t) fields []) (r_from r) (r_to r)))%Q.
Proof.
  intros L U H.
  assert (P : In (row_pair r) (map row_pair (find_overlapping w fields))) by (rewrite <- find_pairs; apply in_map; exact H).
  apply in_map_iff in P. destruct P as (r' & E & R'). unfold row_pair in E. injection E as E1 E2.
  assert (HP : exists n, In (mkRow (r_from r) (r_to r) n) (find_overlapping w fields)) by (exists (r_area r'); rewrite <- E1, <- E2; destruct r'; exact R').
  apply (find_overlapping_pair w fields L) in HP. destruct HP as (Pi & Pj & t & T & M). split; [exact Pi|]. split; [exact Pj|]. exists t. split; [exact T|]. split; [exact M|].
  assert (Lt : length (nth t fields []) = length w) by (apply L, nth_In; lia).
  assert (Lt' : length (nth (S t) fields []) = length w) by (apply L, nth_In; lia).
  destruct (meets_In _ _ _ _ (eq_trans Lt (eq_sym Lt')) M) as [I1 I2].
  unfold find_overlapping32 in H. rewrite find_all32 in H. apply in_map_iff in H. destruct H as (p & Ep & Hp). subst r. cbn [r_from r_to r_area] in *.
  assert (S0 : exists x, In x (check_overlap32 w (nth t fields []) (nth (S t) fields [])) /\ row_pair x = p).
  { destruct (check_overlap_complete w _ _ (eq_trans Lt (eq_sym Lt')) Lt (fst p) (snd p) Pi Pj M) as (n & C & N1 & N2).
    assert (C' : In (row_pair n) (map row_pair (check_overlap32 w (nth t fields []) (nth (S t) fields [])))) by (rewrite check_pairs; apply in_map; exact C).
    apply in_map_iff in C'. destruct C' as (x & X & Ix). exists x. split; [exact Ix|]. rewrite X. unfold row_pair. rewrite N1, N2. destruct p; reflexivity. }
  destruct S0 as (x & Ix & Xp). subst p.
  rewrite (filter_flat_one _ _ _ t x).
  - cbn [map]. destruct (check32_row w _ _ x (eq_trans Lt (eq_sym Lt')) Lt Ix) as (_ & _ & _ & A). rewrite A. rewrite sum32_one by apply sum32_representable. reflexivity.
  - apply seq_NoDup.
  - apply in_seq. lia.
  - intros s S1 Ne. apply in_seq in S1.
    assert (Ls : length (nth s fields []) = length w) by (apply L, nth_In; lia).
    assert (Ls' : length (nth (S s) fields []) = length w) by (apply L, nth_In; lia).
    destruct (filter _ _) as [|y ys] eqn:F; [reflexivity|]. exfalso.
    assert (Y : In y (filter (fun r => pair_eqb (row_pair r) (row_pair x)) (check_overlap32 w (nth s fields []) (nth (S s) fields [])))) by (rewrite F; left; reflexivity).
    apply filter_In in Y. destruct Y as [Y C]. apply pair_eqb_spec in C. destruct (check32_row w _ _ y (eq_trans Ls (eq_sym Ls')) Ls Y) as (_ & _ & My & _).
    unfold row_pair in C, I1, Pi. injection C as C1 C2. cbn [fst snd] in *. rewrite C1 in My. destruct (meets_In _ _ _ _ (eq_trans Ls (eq_sym Ls')) My) as [J1 _].
    apply Ne. apply (U (r_from x)); assumption.
  - apply filter_pair_one; [|exact Ix]. rewrite check_pairs. apply check_overlap_NoDup; congruence.
Qed.

(** ** Fractions *)
Definition object_cells (w : list Q) (f : list Z) (i : Z) : list Q := map snd (filter (fun c => Z.eqb i (fst c)) (combine f w)).


Lemma sumQ_object w f i : length f = length w -> (sumQ (object_cells w f i) == object_area w f i)%Q.
Proof. intro L. rewrite <- (area_of_object w f i L). reflexivity. Qed.
Lemma length_object w f i : length f = length w -> length (object_cells w f i) = length (filter (Z.eqb i) f).
Proof.
  unfold object_cells. rewrite map_length. revert w. induction f as [|x f IH]; intros [|q w] L; try discriminate; [reflexivity|].
  cbn [combine filter fst]. injection L as L. destruct (Z.eqb i x); cbn [length]; rewrite (IH w L); reflexivity.
Qed.
Lemma object_cells_In w f i q : In q (object_cells w f i) -> In q w.
Proof.
  unfold object_cells. intro H. apply in_map_iff in H. destruct H as ([x y] & <- & H). apply filter_In in H. destruct H as [H _].
  apply in_combine_r in H. exact H.
Qed.
Lemma both_cells_In w a b i j q : In q (both_cells w a b i j) -> In q w.
Proof.
  unfold both_cells. intro H. apply in_map_iff in H. destruct H as ([x y] & <- & H). apply filter_In in H. destruct H as [H _].
  unfold cells3 in H. apply in_combine_r in H. exact H.
Qed.
Lemma length_both w a b i j : length a = length b -> length a = length w -> length (both_cells w a b i j) <= length (filter (Z.eqb i) a).
Proof.
  unfold both_cells. rewrite map_length. revert b w. induction a as [|x a IH]; intros [|y b] [|q w] La Lw; try discriminate; [reflexivity|].
  unfold cells3 in *. cbn [combine filter]. unfold c_from at 1, c_to at 1. cbn [fst snd]. injection La as La. injection Lw as Lw.
  specialize (IH b w La Lw). rewrite (Z.eqb_sym i x). destruct (Z.eqb x i); cbn [andb]; [|exact IH].
  destruct (Z.eqb y j); cbn [length]; lia.
Qed.

Section Pair.
Context (w : list Q) (a b : list Z) (i j : Z).
Context (La : length a = length b) (Lw : length a = length w).
Context (Wp : forall q, In q w -> (0 < q)%Q) (M : meets a b i j).
Let o := sum32 (both_cells w a b i j).
Let O := shared_area w a b i j.

Lemma cells_pos c : In c (cells3 w a b) -> (0 <= snd c)%Q.
Proof. intro C. destruct c as [[x y] q]. unfold cells3 in C. apply in_combine_r in C. apply Qlt_le_weak, Wp. exact C. Qed.
Lemma shared32_le : (o <= area32 w i a /\ o <= area32 w j b)%Q.
Proof.
  rewrite (area32_from w a b i La Lw), (area32_to w a b j La Lw). unfold o, both_cells. split; apply sum32_sub; try exact cells_pos; intros x _; rewrite andb_true_iff; tauto.
Qed.
Lemma shared_pos : (0 < o)%Q.
Proof.
  apply sum32_pos; [|intros q Q0; apply Wp; exact (both_cells_In _ _ _ _ _ _ Q0)].
  apply (cells3_meets w) in M; auto. destruct M as (c & C & E1 & E2). unfold both_cells. intro N. apply map_eq_nil in N.
  assert (I : In c (filter (fun c => Z.eqb (c_from c) i && Z.eqb (c_to c) j) (cells3 w a b))) by (apply filter_In; split; [exact C|lia]). rewrite N in I. destruct I.
Qed.
Lemma areas_pos : (0 < area32 w i a /\ 0 < area32 w j b)%Q.
Proof. assert (P := shared_pos). destruct shared32_le. split; lra. Qed.

(** The whole of one object lies in the other. *)
Lemma inside_from : (forall k, k < length a -> nth k a 0%Z = i -> nth k b 0%Z = j) -> (o == area32 w i a)%Q.
Proof.
  intro H. apply Qle_antisym; [apply shared32_le|]. rewrite (area32_from w a b i La Lw). unfold o, both_cells. apply sum32_sub; [|exact cells_pos].
  intros x X E. rewrite E. cbn [andb]. destruct (In_nth _ _ ((0, 0)%Z, 0%Q) X) as (k & K & N). unfold cells3 in K, N. rewrite !combine_length in K.
  rewrite combine_nth in N by (rewrite combine_length; lia). rewrite combine_nth in N by lia. subst x. unfold c_from, c_to in *. cbn [fst snd] in *.
  apply Z.eqb_eq in E. apply Z.eqb_eq. apply H; [lia|exact E].
Qed.
Lemma inside_to : (forall k, k < length a -> nth k b 0%Z = j -> nth k a 0%Z = i) -> (o == area32 w j b)%Q.
Proof.
  intro H. apply Qle_antisym; [apply shared32_le|]. rewrite (area32_to w a b j La Lw). unfold o, both_cells. apply sum32_sub; [|exact cells_pos].
  intros x X E. rewrite E, andb_true_r. destruct (In_nth _ _ ((0, 0)%Z, 0%Q) X) as (k & K & N). unfold cells3 in K, N. rewrite !combine_length in K.
  rewrite combine_nth in N by (rewrite combine_length; lia). rewrite combine_nth in N by lia. subst x. unfold c_from, c_to in *. cbn [fst snd] in *.
  apply Z.eqb_eq in E. apply Z.eqb_eq. apply H; [lia|exact E].
Qed.

(** Relative errors. *)
Context (n : nat) (Na : length (filter (Z.eqb i) a) <= n) (Nb : length (filter (Z.eqb j) b) <= n).
Let u := (inject_Z (Z.of_nat n) * ulp32)%Q.
Context (Hu : (16 * u <= 1)%Q).

Lemma list_close l : (forall q, In q l -> (0 <= q)%Q) -> length l <= n -> (sumQ l * (1 - u) <= sum32 l /\ sum32 l <= sumQ l * (1 + 2 * u))%Q.
Proof.
  intros P L.
  assert (V : (inject_Z (Z.of_nat (length l)) * ulp32 <= u)%Q).
  { unfold u. apply Qmult_le_compat_r; [|discriminate]. rewrite <- Zle_Qle. lia. }
  assert (U0 : (0 <= inject_Z (Z.of_nat (length l)) * ulp32)%Q).
  { apply Qmult_le_0_compat; [|discriminate]. change 0%Q with (inject_Z 0). rewrite <- Zle_Qle. lia. }
  set (v := (inject_Z (Z.of_nat (length l)) * ulp32)%Q) in *.
  destruct (sum32_close l P) as [A B]; [apply Qle_trans with (2 * v)%Q; [apply Qle_lteq; right; unfold v; ring|lra]|]. fold v in A.
  assert (B' : (sum32 l <= sumQ l * (1 + 2 * v))%Q) by (eapply Qle_trans; [exact B|apply Qle_lteq; right; unfold v; ring]).
  assert (S0 : (0 <= sumQ l)%Q).
  { clear -P. induction l as [|q l IH]; [apply Qle_refl|]. cbn [sumQ]. assert (A := P q (or_introl eq_refl)). assert (B := IH (fun x X => P x (or_intror X))). lra. }
  split; [eapply Qle_trans; [|exact A]|eapply Qle_trans; [exact B'|]]; rewrite !(Qmult_comm (sumQ l)); apply Qmult_le_compat_r; lra.
Qed.
Lemma shared_close : (O * (1 - u) <= o /\ o <= O * (1 + 2 * u))%Q.
Proof.
  assert (E := cells3_shared w a b i j La Lw). fold (both_cells w a b i j) in E. fold O in E. rewrite <- E. apply list_close.
  - intros q Q0. apply Qlt_le_weak, Wp. exact (both_cells_In _ _ _ _ _ _ Q0).
  - assert (B := length_both w a b i j La Lw). lia.
Qed.
Lemma area_close f x : length f = length w -> length (filter (Z.eqb x) f) <= n ->
  (object_area w f x * (1 - u) <= area32 w x f /\ area32 w x f <= object_area w f x * (1 + 2 * u))%Q.
Proof.
  intros L H. rewrite <- (sumQ_object w f x L). apply list_close.
  - intros q Q0. apply Qlt_le_weak, Wp. exact (object_cells_In _ _ _ _ Q0).
  - rewrite (length_object w f x L). exact H.
Qed.
Lemma min_close : let m := Qmin (area32 w i a) (area32 w j b) in let A := Qmin (object_area w a i) (object_area w b j) in
  (A * (1 - u) <= m /\ m <= A * (1 + 2 * u))%Q.
Proof.
  cbn zeta. destruct (area_close a i Lw Na) as [A1 A2]. destruct (area_close b j (eq_trans (eq_sym La) Lw) Nb) as [B1 B2].
  assert (U0 : (0 <= u)%Q) by (apply Qmult_le_0_compat; [|discriminate]; change 0%Q with (inject_Z 0); rewrite <- Zle_Qle; lia).
  set (x := object_area w a i) in *. set (y := object_area w b j) in *. set (p := area32 w i a) in *. set (q := area32 w j b) in *. split.
  - apply Q.min_glb; [eapply Qle_trans; [|exact A1]|eapply Qle_trans; [|exact B1]]; apply Qmult_le_compat_r; try lra; [apply Q.le_min_l|apply Q.le_min_r].
  - destruct (Q.min_spec x y) as [[_ E]|[_ E]]; rewrite E; [eapply Qle_trans; [apply Q.le_min_l|exact A2]|eapply Qle_trans; [apply Q.le_min_r|exact B2]].
Qed.

Lemma decision thr : (0 <= thr)%Q ->
  let A := Qmin (object_area w a i) (object_area w b j) in
  (thr * A * (1 + 8 * u) <= O -> thr <= float64 (o / Qmin (area32 w i a) (area32 w j b)))%Q /\
  (O * (1 + 8 * u) < thr * A -> float64 (o / Qmin (area32 w i a) (area32 w j b)) < thr)%Q.
Proof.
  intros T. cbn zeta. destruct shared_close as [O1 O2]. destruct min_close as [M1 M2]. destruct areas_pos as [P1 P2]. assert (Po := shared_pos).
  assert (U0 : (0 <= u)%Q) by (apply Qmult_le_0_compat; [|discriminate]; change 0%Q with (inject_Z 0); rewrite <- Zle_Qle; lia).
  set (A := Qmin (object_area w a i) (object_area w b j)) in *. set (m := Qmin (area32 w i a) (area32 w j b)) in *.
  assert (Pm : (0 < m)%Q) by (apply Q.min_glb_lt; assumption).
  assert (PA : (0 < A)%Q) by nra. assert (PO : (0 < O)%Q) by nra.
  assert (Pf : (0 <= o / m)%Q) by (apply Qle_shift_div_l; lra).
  assert (Er := rounded_error 53 (o / m) ltac:(lia) Pf). fold float64 in Er. change (rounded 53 (o / m)) with (float64 (o / m)) in Er.
  apply Qabs_Qle_condition in Er. destruct Er as [E1 E2].
  set (F := float64 (o / m)) in *. set (v := pow2 (- (53))) in *. 
  assert (V : (0 < v /\ v <= u)%Q).
  { split; [reflexivity|]. unfold u. apply Qle_trans with (1 * ulp32)%Q; [discriminate|]. apply Qmult_le_compat_r; [|discriminate].
    change 1%Q with (inject_Z 1). rewrite <- Zle_Qle. enough (1 <= n) by lia.
    enough (1 <= length (filter (Z.eqb i) a)) by lia. destruct M as (k & K & X & _). assert (I : In i (filter (Z.eqb i) a)) by (apply filter_In; split; [rewrite <- X; apply nth_In; exact K|apply Z.eqb_refl]).
    destruct (filter (Z.eqb i) a); [destruct I|cbn; lia]. }
  destruct V as [V0 V1].
  assert (Fm : (o / m * m == o)%Q) by (field; lra). set (f := (o / m)%Q) in *.
  split; intro H.
  - (* F >= f (1 - v) >= thr *)
    assert (G : (thr * m <= f * (1 - v) * m)%Q).
    { setoid_replace (f * (1 - v) * m)%Q with (o * (1 - v))%Q by (rewrite <- Fm; ring).
      apply Qle_trans with (thr * (A * (1 + 2 * u)))%Q; [rewrite !(Qmult_comm thr); apply Qmult_le_compat_r; lra|].
      apply Qle_trans with (thr * A * (1 + 8 * u) * ((1 - u) * (1 - v)))%Q.
      - setoid_replace (thr * (A * (1 + 2 * u)))%Q with (thr * A * (1 + 2 * u))%Q by ring.
        setoid_replace (thr * A * (1 + 8 * u) * ((1 - u) * (1 - v)))%Q with (thr * A * ((1 + 8 * u) * ((1 - u) * (1 - v))))%Q by ring.
        rewrite !(Qmult_comm (thr * A)). apply Qmult_le_compat_r; [|apply Qmult_le_0_compat; lra]. nra.
      - apply Qle_trans with (O * ((1 - u) * (1 - v)))%Q; [apply Qmult_le_compat_r; [exact H|nra]|].
        setoid_replace (O * ((1 - u) * (1 - v)))%Q with (O * (1 - u) * (1 - v))%Q by ring. apply Qmult_le_compat_r; [exact O1|lra]. }
    apply Qmult_lt_0_le_reg_r in G; [|exact Pm]. nra.
  - assert (G : (f * (1 + v) * m < thr * m)%Q).
    { setoid_replace (f * (1 + v) * m)%Q with (o * (1 + v))%Q by (rewrite <- Fm; ring).
      apply Qlt_le_trans with (thr * (A * (1 - u)))%Q; [|rewrite !(Qmult_comm thr); apply Qmult_le_compat_r; lra].
      apply Qle_lt_trans with (O * (1 + 2 * u) * (1 + v))%Q; [apply Qmult_le_compat_r; [exact O2|lra]|].
      apply Qle_lt_trans with (O * (1 + 8 * u) * (1 - u))%Q.
      - rewrite <- !Qmult_assoc. rewrite !(Qmult_comm O). apply Qmult_le_compat_r; [|lra]. nra.
      - rewrite Qmult_assoc. apply Qmult_lt_compat_r; [lra|exact H]. }
    apply Qmult_lt_r in G; [|exact Pm]. nra.
Qed.
End Pair.
