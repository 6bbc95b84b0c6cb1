(** Pooling histograms over days and neighbouring cells. *)
From Coq Require Import Lqa Qround Sorted.
From Verif Require Import Base Filter FilterProofs FilterMoreProofs Overlap OverlapProofs Partition PartitionProofs Cluster ClusterProofs ClusterFinal Detect DetectProofs Climatology ClimatologySpec ClimatologyProofs Detrend DetrendProofs Histogram HistogramSpec HistogramProofs.
Open Scope nat_scope.

Lemma sumN_ext {A} (f g : A -> nat) l : (forall x, In x l -> f x = g x) -> sumN (map f l) = sumN (map g l).
Proof. intro H. f_equal. apply map_ext_in. exact H. Qed.
Lemma sumN_cons x l : sumN (x :: l) = x + sumN l.
Proof. reflexivity. Qed.
Lemma sumN_plus {A} (f g : A -> nat) l : sumN (map (fun x => f x + g x) l) = sumN (map f l) + sumN (map g l).
Proof. induction l as [|x l IH]; [reflexivity|]. cbn [map]. rewrite !sumN_cons, IH. lia. Qed.
Lemma sumN_zero {A} (l : list A) : sumN (map (fun _ => 0) l) = 0.
Proof. induction l as [|x l IH]; [reflexivity|]. cbn [map]. rewrite sumN_cons, IH. reflexivity. Qed.
Lemma sumN_swap {A B} (f : A -> B -> nat) a b : sumN (map (fun x => sumN (map (f x) b)) a) = sumN (map (fun y => sumN (map (fun x => f x y) a)) b).
Proof.
  induction a as [|x a IH]; [cbn; rewrite sumN_zero; reflexivity|]. cbn [map]. rewrite sumN_cons, IH, <- sumN_plus. apply sumN_ext. intros y _. cbn [map]. rewrite sumN_cons. reflexivity.
Qed.
Lemma count_flat {A B} (P : B -> bool) (h : A -> list B) l : count P (flat_map h l) = sumN (map (fun x => count P (h x)) l).
Proof. induction l as [|x l IH]; [reflexivity|]. cbn [flat_map map]. rewrite count_app, IH, sumN_cons. reflexivity. Qed.

(** Cyclic padding of rows. *)
Lemma last_rows_length {A} k (l : list A) : 0 < k -> k <= length l -> length (last_rows k l) = k.
Proof. intros K L. unfold last_rows. destruct (Nat.eqb_spec k 0); [lia|]. rewrite skipn_length. lia. Qed.
Lemma nth_skipn' {A} (l : list A) k i d : nth i (skipn k l) d = nth (k + i) l d.
Proof. revert l i. induction k as [|k IH]; intros l i; [reflexivity|]. destruct l as [|x l]; [destruct i; reflexivity|]. cbn. apply IH. Qed.
Lemma around_mod n c h j : 0 < n -> h <= n -> Z.to_nat ((Z.of_nat c - Z.of_nat h + Z.of_nat j) mod Z.of_nat n) = (c + j + (n - h)) mod n.
Proof.
  intros N H. apply Nat2Z.inj. rewrite Z2Nat.id by (apply Z.mod_pos_bound; lia). rewrite Nat2Z.inj_mod.
  replace (Z.of_nat (c + j + (n - h))) with (Z.of_nat c - Z.of_nat h + Z.of_nat j + 1 * Z.of_nat n)%Z by lia. rewrite Z_mod_plus_full. reflexivity.
Qed.
Lemma padded_nth {A} (d : A) k l i : 0 < k -> k <= length l -> i < length l + 2 * k ->
  nth i (last_rows k l ++ l ++ firstn k l) d = nth ((i + (length l - k)) mod length l) l d.
Proof.
  intros K L I. assert (Ll := last_rows_length k l K L). set (n := length l) in *.
  destruct (Nat.ltb_spec i k) as [C|C].
  - rewrite app_nth1 by lia. unfold last_rows. destruct (Nat.eqb_spec k 0); [lia|]. rewrite nth_skipn'. fold n. rewrite Nat.mod_small by lia. f_equal. lia.
  - rewrite app_nth2 by lia. rewrite Ll. destruct (Nat.ltb_spec (i - k) n) as [D|D].
    + rewrite app_nth1 by exact D. f_equal. replace (i + (n - k)) with (i - k + 1 * n) by lia. rewrite Nat.mod_add by lia. rewrite Nat.mod_small by lia. reflexivity.
    + rewrite app_nth2 by exact D. fold n. rewrite nth_firstn_lt by lia. f_equal. replace (i + (n - k)) with (i - k - n + 2 * n) by lia. rewrite Nat.mod_add by lia. rewrite Nat.mod_small by lia. reflexivity.
Qed.
Lemma zip_add_length a b : length b = length a -> length (zip_add a b) = length a.
Proof. revert b. induction a as [|x a IH]; intros [|y b] L; try reflexivity; try discriminate. cbn in *. rewrite IH by lia. reflexivity. Qed.
Lemma zip_add_nth a : forall b i, length b = length a -> nth i (zip_add a b) 0 = nth i a 0 + nth i b 0.
Proof.
  induction a as [|x a IH]; intros [|y b] i L; try discriminate; [destruct i; reflexivity|]. destruct i as [|i]; [reflexivity|]. cbn in *. apply IH. lia.
Qed.
Lemma sum_rows_spec n rows : (forall r, In r rows -> length r = n) -> length (sum_rows n rows) = n /\
  forall b, b < n -> nth b (sum_rows n rows) 0 = sumN (map (fun r => nth b r 0) rows).
Proof.
  induction rows as [|r rows IH]; intro H.
  - cbn. split; [apply repeat_length|]. intros b B. apply nth_repeat.
  - destruct (IH (fun x I => H x (or_intror I))) as [L E]. assert (Lr := H r (or_introl eq_refl)). unfold sum_rows in *. cbn [fold_right map].
    split; [rewrite zip_add_length; lia|]. intros b B. rewrite zip_add_nth by lia. rewrite (E b B), sumN_cons. reflexivity.
Qed.
Lemma firstn_skipn_seq {A} (d : A) w i l : i + w <= length l -> firstn w (skipn i l) = map (fun j => nth (i + j) l d) (seq 0 w).
Proof.
  intro L. apply (nth_ext _ _ d d).
  - rewrite firstn_length, skipn_length, map_length, seq_length. lia.
  - intros j J. rewrite firstn_length, skipn_length in J. rewrite nth_firstn_lt by lia. rewrite nth_skipn'. rewrite (nth_map_gen _ _ _ 0) by (rewrite seq_length; lia). rewrite seq_nth by lia. reflexivity.
Qed.
Lemma half_odd k : (2 * k + 1) / 2 = k.
Proof. replace (2 * k + 1) with (1 + k * 2) by lia. rewrite Nat.div_add by lia. reflexivity. Qed.

Lemma windowed_rows k n hist : 0 < k -> k <= length hist -> (forall r, In r hist -> length r = n) ->
  windowed (2 * k + 1) n hist =
  map (fun i => map (fun b => sumN (map (fun e => nth b (nth e hist []) 0) (around (length hist) i k))) (seq 0 n)) (seq 0 (length hist)).
Proof.
  intros K L H. unfold windowed. rewrite half_odd. set (P := last_rows k hist ++ hist ++ firstn k hist). set (N := length hist) in *.
  assert (Lp : length P = N + 2 * k). { unfold P. rewrite !app_length, last_rows_length, firstn_length by assumption. fold N. lia. }
  unfold sliding. rewrite Lp. replace (S (N + 2 * k) - (2 * k + 1)) with N by lia. rewrite map_map. apply map_ext_in. intros i I. apply in_seq in I.
  assert (Rows : forall r, In r (firstn (2 * k + 1) (skipn i P)) -> length r = n).
  { rewrite (firstn_skipn_seq []) by lia. intros r R. apply in_map_iff in R. destruct R as (j & <- & J). apply in_seq in J. unfold P. rewrite padded_nth by (fold N; lia). apply H. apply nth_In. apply Nat.mod_upper_bound. fold N. lia. }
  destruct (sum_rows_spec n _ Rows) as [Ls Es]. apply (nth_ext _ _ 0 0); [rewrite Ls, map_length, seq_length; reflexivity|].
  intros b B. rewrite Ls in B. rewrite (Es b B). rewrite (nth_map_gen _ _ _ 0) by (rewrite seq_length; exact B). rewrite seq_nth by exact B. cbn [plus].
  rewrite (firstn_skipn_seq []) by lia. unfold around. rewrite !map_map. apply sumN_ext. intros j J. apply in_seq in J. unfold P. rewrite padded_nth by (fold N; lia). fold N.
  rewrite around_mod by lia. reflexivity.
Qed.

Lemma rolling_quantile_eq k q cs hist : 0 < k -> k <= length hist -> (forall r, In r hist -> length r = length cs) ->
  rolling_histogram_quantile (2 * k + 1) q cs hist =
  Ok (map (fun i => row_quantile q cs (map (fun b => sumN (map (fun e => nth b (nth e hist []) 0) (around (length hist) i k))) (seq 0 (length cs)))) (seq 0 (length hist))).
Proof.
  intros K L H. unfold rolling_histogram_quantile. rewrite windowed_rows by assumption. rewrite map_length, seq_length, Nat.eqb_refl, map_map. reflexivity.
Qed.
Lemma rolling_quantile_one q cs hist : hist <> [] -> rolling_histogram_quantile 1 q cs hist = Err ShapeMismatch.
Proof.
  intro N. unfold rolling_histogram_quantile, windowed, sliding, last_rows. rewrite !map_length, seq_length. change (1 / 2) with 0. cbn [Nat.eqb firstn]. rewrite app_nil_r, app_length.
  destruct hist as [|r hist]; [congruence|]. cbn [length]. destruct (Nat.eqb_spec (S (S (length hist) + S (length hist)) - 1) (S (length hist))); [lia|reflexivity].
Qed.

Lemma filter_none {A} (P : A -> bool) l : (forall x, In x l -> P x = false) -> filter P l = [].
Proof. induction l as [|x l IH]; intro H; [reflexivity|]. cbn. rewrite (H x) by (left; reflexivity). apply IH. intros y I. apply H. right. exact I. Qed.

(** Spatial pooling. *)
Lemma filter_interval a b len : a <= b -> b < len -> filter (fun j => Nat.leb a j && Nat.leb j b) (seq 0 len) = seq a (S b - a).
Proof.
  intros A B. replace (seq 0 len) with (seq 0 a ++ seq a (S b - a) ++ seq (S b) (len - S b)).
  - rewrite !filter_app.
    rewrite (filter_none _ (seq 0 a)), (filter_all _ (seq a (S b - a))), (filter_none _ (seq (S b) (len - S b))); [rewrite app_nil_r; reflexivity| | |].
    + intros j J. apply in_seq in J. destruct (Nat.leb_spec a j), (Nat.leb_spec j b); try reflexivity; lia.
    + intros j J. apply in_seq in J. destruct (Nat.leb_spec a j), (Nat.leb_spec j b); try reflexivity; lia.
    + intros j J. apply in_seq in J. destruct (Nat.leb_spec a j), (Nat.leb_spec j b); try reflexivity; lia.
  - replace len with (a + ((S b - a) + (len - S b))) at 2 by lia. rewrite !seq_app. cbn [plus]. f_equal. f_equal. f_equal; lia.
Qed.
Lemma seq_offset a w : seq a w = map (fun j => a + j) (seq 0 w).
Proof. revert a. induction w as [|w IH]; intro a; [reflexivity|]. cbn [seq map]. rewrite Nat.add_0_r. f_equal. rewrite IH, <- seq_shift, map_map. apply map_ext. intro; lia. Qed.
Lemma pool_columns_spec nx h f x : x < nx -> pool_columns nx (2 * h + 1) f x = sumN (map f (around nx x h)).
Proof.
  intro X. unfold pool_columns, rolling_sum. rewrite half_odd. cbv zeta. replace (2 * h + 1 - 1 - h) with h by lia. replace (x + h - h) with x by lia.
  rewrite filter_interval by lia. replace (S (x + h + h) - x) with (2 * h + 1) by lia. rewrite seq_offset. unfold around. rewrite !map_map. apply sumN_ext. intros j _. unfold pad_wrap. do 3 f_equal. lia.
Qed.
Lemma rolling_rows_spec ny h f y : rolling_sum ny (2 * h + 1) f y = sumN (map f (rows_near ny y h)).
Proof.
  unfold rolling_sum, rows_near. rewrite half_odd. replace (2 * h + 1 - 1 - h) with h by lia. f_equal. f_equal. apply filter_ext. intro j.
  destruct (Nat.leb_spec (y - h) j), (Nat.leb_spec y (j + h)); try reflexivity; lia.
Qed.
Lemma rows_near_0 ny y : y < ny -> rows_near ny y 0 = [y].
Proof.
  intro Y. unfold rows_near. transitivity (filter (fun j => Nat.leb y j && Nat.leb j y) (seq 0 ny)).
  - apply filter_ext. intro j. rewrite !Nat.add_0_r. reflexivity.
  - rewrite filter_interval by lia. replace (S y - y) with 1 by lia. reflexivity.
Qed.
Lemma around_0 n c : c < n -> around n c 0 = [c].
Proof. intro C. unfold around. cbn. f_equal. rewrite Z.sub_0_r, Z.add_0_r, Z.mod_small by lia. lia. Qed.
Lemma pool_space_spec ny nx h f y x : x < nx -> y < ny ->
  pool_space ny nx (Some (2 * h + 1)) f y x = sumN (map (fun y' => sumN (map (f y') (around nx x h))) (rows_near ny y h)).
Proof.
  intros X Y. unfold pool_space. destruct (Nat.ltb_spec 1 (2 * h + 1)) as [L|L].
  - rewrite rolling_rows_spec. apply sumN_ext. intros y' _. apply pool_columns_spec. exact X.
  - assert (h = 0) by lia. subst h. rewrite rows_near_0, around_0 by assumption. cbn. lia.
Qed.

(** Counting a sample. *)
Lemma combine_seq_map (doys : list nat) (v : nat -> option Q) : combine doys (map v (seq 0 (length doys))) = map (fun t => (nth t doys 0, v t)) (seq 0 (length doys)).
Proof.
  assert (L : length doys = length (map v (seq 0 (length doys)))) by (rewrite map_length, seq_length; reflexivity).
  rewrite combine_nth_lists by exact L. rewrite <- L. apply map_ext_in. intros t T. apply in_seq in T. f_equal. rewrite (nth_map_gen _ _ _ 0) by (rewrite seq_length; lia). rewrite seq_nth by lia. reflexivity.
Qed.
Lemma hist_raw_sample p mx doys (da : nat -> nat -> option Q) c d b :
  hist_raw p mx doys (map (fun t => da t c) (seq 0 (length doys))) d b =
  count (fun v => Nat.eqb (digitize (edges p mx) v) b) (values_on doys da c d).
Proof.
  unfold hist_raw, values_on. rewrite combine_seq_map, count_map. cbn [fst snd]. rewrite count_flat.
  induction (seq 0 (length doys)) as [|t l IH]; [reflexivity|]. cbn [map]. rewrite count_cons, sumN_cons, IH. f_equal.
  destruct (Nat.eqb (nth t doys 0) d); [|reflexivity]. cbn [andb]. destruct (da t c) as [v|]; [|reflexivity]. cbn [in_bin]. unfold count. cbn. destruct (Nat.eqb (digitize (edges p mx) v) b); reflexivity.
Qed.

Definition odd_window (ws : option nat) (h : option nat) : Prop :=
  match ws, h with None, None => True | Some w, Some h => w = 2 * h + 1 | _, _ => False end.

Lemma pooled_count p mx ny nx doys da ws h k y x d b : odd_window ws h -> x < nx -> y < ny ->
  sumN (map (fun e => pool_space ny nx ws (fun y' x' => hist_raw p mx doys (map (fun t => da t (y' * nx + x')) (seq 0 (length doys))) e b) y x) (days_near d k)) =
  count (fun v => Nat.eqb (digitize (edges p mx) v) b) (pooled_sample ny nx doys da h k y x d).
Proof.
  intros W X Y. unfold pooled_sample.
  set (ys := match h with Some h => rows_near ny y h | None => [y] end). set (xs := match h with Some h => around nx x h | None => [x] end).
  assert (E : forall e, pool_space ny nx ws (fun y' x' => hist_raw p mx doys (map (fun t => da t (y' * nx + x')) (seq 0 (length doys))) e b) y x =
    sumN (map (fun y' => sumN (map (fun x' => count (fun v => Nat.eqb (digitize (edges p mx) v) b) (values_on doys da (y' * nx + x') e)) xs)) ys)).
  { intro e. destruct ws as [w|], h as [h|]; unfold odd_window in W; try contradiction.
    - subst w. rewrite pool_space_spec by assumption. unfold ys, xs. apply sumN_ext. intros y' _. apply sumN_ext. intros x' _. apply hist_raw_sample.
    - unfold ys, xs. cbn [map]. rewrite !sumN_cons. change (sumN []) with 0. rewrite !Nat.add_0_r. cbn [pool_space]. apply hist_raw_sample. }
  rewrite (sumN_ext _ _ _ (fun e _ => E e)). rewrite sumN_swap. rewrite count_flat. apply sumN_ext. intros y' _. rewrite count_flat. rewrite sumN_swap. apply sumN_ext. intros x' _. rewrite count_flat. reflexivity.
Qed.

Lemma around_lt n c h e : 0 < n -> In e (around n c h) -> e < n.
Proof. intros N I. unfold around in I. apply in_map_iff in I. destruct I as (j & <- & _). assert (B := Z.mod_pos_bound (Z.of_nat c - Z.of_nat h + Z.of_nat j) (Z.of_nat n) ltac:(lia)). lia. Qed.

Theorem thresholds_eq p mx q ny nx doys da ws h k y x : odd_window ws h -> 0 < k -> k <= 366 -> x < nx -> y < ny ->
  hobday_thresholds p mx q (2 * k + 1) ws ny nx doys da y x =
  Ok (map (fun d => match da 0 (y * nx + x) with
                    | Some _ => at_least (lower_bound p) (row_quantile q (centres p mx) (row_of (digitize (edges p mx)) (n_edges p mx) (pooled_sample ny nx doys da h k y x d)))
                    | None => None end) (seq 1 366)).
Proof.
  intros W K K2 X Y. unfold hobday_thresholds. cbv zeta.
  set (pooled := fun d b => pool_space ny nx ws (fun y' x' => hist_raw p mx doys (map (fun t => da t (y' * nx + x')) (seq 0 (length doys))) d b) y x).
  change (map (fun d => map (fun b => pool_space ny nx ws (fun y' x' => hist_raw p mx doys (map (fun t => da t (y' * nx + x')) (seq 0 (length doys))) d b) y x) (seq 0 (n_edges p mx))) (seq 1 366))
    with (map (fun d => map (pooled d) (seq 0 (n_edges p mx))) (seq 1 366)).
  set (hist := map (fun d => map (pooled d) (seq 0 (n_edges p mx))) (seq 1 366)).
  assert (Lh : length hist = 366) by (unfold hist; rewrite map_length, seq_length; reflexivity).
  rewrite rolling_quantile_eq; [|exact K|rewrite Lh; exact K2|].
  2: { intros r R. unfold hist in R. apply in_map_iff in R. destruct R as (d & <- & _). rewrite map_length, seq_length. rewrite centres_length. reflexivity. }
  cbn [bind]. rewrite Lh. rewrite map_map. rewrite centres_length. f_equal.
  rewrite <- (seq_shift 366 0), map_map. apply map_ext_in. intros i I. apply in_seq in I.
  destruct (da 0 (y * nx + x)); [|reflexivity]. f_equal. f_equal. unfold row_of. apply map_ext_in. intros b B. apply in_seq in B.
  rewrite <- (pooled_count p mx ny nx doys da ws h k y x (S i) b W X Y). unfold days_near. rewrite map_map. replace (S i - 1) with i by lia.
  apply sumN_ext. intros e E. apply around_lt in E; [|lia]. unfold hist. rewrite (nth_map_gen _ _ _ 0) by (rewrite seq_length; exact E). rewrite seq_nth by exact E.
  rewrite (nth_map_gen _ _ _ 0) by (rewrite seq_length; lia). rewrite seq_nth by lia. reflexivity.
Qed.
