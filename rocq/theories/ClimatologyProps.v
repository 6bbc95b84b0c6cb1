(** Properties of the climatologies and baselines. *)
From Verif Require Import Base Filter Overlap OverlapProofs Partition Cluster ClusterFinal Detect DetectProofs Climatology ClimatologySpec ClimatologyProofs.
Open Scope nat_scope.

(** C50. *)
Theorem C50_previous_window w years doys data t first :
  length doys = length years -> length data = length years -> t < length years ->
  (forall i, i < length years -> 1 <= nth i doys 0 <= 366) ->
  In first years -> (forall y, In y years -> (first <= y)%Z) ->
  let Y := nth t years 0%Z in
  if Z.ltb Y (first + w) then nth t (rolling_climatology w years doys data) None = None
  else mean_of
         (samples data (fun i => Nat.eqb (nth i doys 0) (nth t doys 0) && (Z.leb (Y - w) (nth i years 0%Z) && Z.ltb (nth i years 0%Z) Y)))
         (nth t (rolling_climatology w years doys data) None).
Proof.
  intros L1 L2 T D F M Y. rewrite rolling_nth by auto. fold Y.
  assert (E : minZ years = first).
  { destruct (minZ_spec years) as [I L]; [intros ->; destruct F|]. specialize (L _ F). specialize (M _ I). lia. }
  rewrite E. destruct (Z.ltb_spec Y (first + w)); destruct (Z.leb_spec (first + w) Y); try lia; [reflexivity|].
  rewrite <- L2. rewrite <- (present_samples data). rewrite (filter_ext _ (in_window w years doys Y (nth t doys 0))).
  - apply nanmean_mean.
  - intro i. unfold in_window. f_equal. rewrite andb_comm. f_equal. destruct (Z.leb_spec (Y - w) (nth i years 0%Z)), (Z.leb_spec Y (nth i years 0%Z + w)); try reflexivity; lia.
Qed.
Print Assumptions C50_previous_window.

(** 2003 day 1 averages 2001 and 2002 only; 2001 precedes the first full window;
    2004 lacks a value in 2003. *)
Example C50_case :
  rolling_climatology 2 [2000; 2001; 2002; 2003; 2004; 2002]%Z [1; 1; 1; 1; 1; 2] [Some 8; Some 1; Some 3; None; Some 9; Some 5]%Q =
  [None; None; Some (9 # 2); Some (4 # 2); Some (3 # 1); None]%Q.
Proof. vm_compute. reflexivity. Qed.

(** The anomalies: value minus the climatology of the smoothed values of the
    previous window. *)
Lemma all_present (win : list (option Q)) : forallb (fun v => match v with Some _ => true | None => false end) win = true -> win = map Some (present win).
Proof. induction win as [|[q|] win IH]; intro F; [reflexivity| |discriminate]. cbn in F. unfold present in *. cbn. rewrite <- (IH F). reflexivity. Qed.
Lemma smoothed_nth W data i : 0 < W -> i < length data -> smoothed_of W data i (nth i (rolling_mean W data) None).
Proof.
  intros Wp I. rewrite rolling_mean_nth by exact I. assert (Dv : W / 2 < W) by (apply Nat.div_lt; lia).
  destruct (Nat.leb_spec (W / 2) i); [|left; assumption]. destruct (Nat.ltb_spec (i + (W - 1 - W / 2)) (length data)); cbn [andb]; [|right; left; lia]. cbv zeta.
  set (win := map (fun k => nth (i - W / 2 + k) data None) (seq 0 W)).
  assert (N : forall k, k < W -> nth k win None = nth (i - W / 2 + k) data None).
  { intros k K. unfold win. rewrite (nth_map_gen _ (seq 0 W) k 0) by (rewrite seq_length; exact K). rewrite seq_nth by exact K. reflexivity. }
  assert (Lw : length win = W) by (unfold win; rewrite map_length, seq_length; reflexivity).
  destruct (forallb _ win) eqn:F.
  - split; [assumption|]. split; [lia|]. assert (E := all_present win F). exists (present win). split; [|split].
    + intros k K. rewrite <- N by exact K. rewrite E at 1. rewrite (nth_map_gen _ _ k 0%Q); [reflexivity|]. rewrite <- Lw, E, map_length in K. exact K.
    + rewrite <- (map_length Some), <- E. exact Lw.
    + change (inject_Z (Z.of_nat W)) with (natQ W). change sum with sumQ. field. apply natQ_nonzero. exact Wp.
  - right. right. assert (X : existsb (fun v : option Q => match v with Some _ => false | None => true end) win = true).
    { clear - F. induction win as [|[q|] win IH]; [discriminate|exact (IH F)|reflexivity]. }
    apply existsb_exists in X. destruct X as (v & V & Ev). destruct v; [discriminate|]. apply (In_nth _ _ None) in V. destruct V as (k & K & Ek). exists k. rewrite Lw in K. split; [exact K|]. rewrite <- N by exact K. exact Ek.
Qed.
Theorem C50_shifting_anomalies w W years doys data t first :
  0 < W -> length doys = length years -> length data = length years -> t < length years ->
  (forall i, i < length years -> 1 <= nth i doys 0 <= 366) ->
  In first years -> (forall y, In y years -> (first <= y)%Z) ->
  let Y := nth t years 0%Z in
  exists smooth climatology, length smooth = length data /\
    (forall i, i < length data -> smoothed_of W data i (nth i smooth None)) /\
    (if Z.ltb Y (first + w) then climatology = None
     else mean_of
            (samples smooth (fun i => Nat.eqb (nth i doys 0) (nth t doys 0) && (Z.leb (Y - w) (nth i years 0%Z) && Z.ltb (nth i years 0%Z) Y)))
            climatology) /\
    difference_of (nth t data None) climatology (nth t (shifting_baseline w W years doys data) None).
Proof.
  intros Wp L1 L2 T D F M Y. exists (rolling_mean W data), (nth t (smoothed_rolling_climatology w W years doys data) None).
  split; [apply rolling_mean_length|]. split; [intros i I; apply smoothed_nth; assumption|]. split.
  - apply (C50_previous_window w years doys (rolling_mean W data) t first); auto. rewrite rolling_mean_length. exact L2.
  - rewrite shifting_nth by (auto; lia). destruct (nth t data None), (nth t (smoothed_rolling_climatology w W years doys data) None); cbn; reflexivity.
Qed.
Print Assumptions C50_shifting_anomalies.
Example C50_shifting_case :
  shifting_baseline 2 3 [2000; 2000; 2000; 2001; 2001; 2001; 2002; 2002]%Z [1; 2; 3; 1; 2; 3; 2; 3] [Some 3; Some 6; Some 9; Some 0; Some 3; Some 6; Some 100; Some 7]%Q =
  [None; None; None; None; None; None; Some (1719 # 18); Some (-246 # 18)]%Q.
Proof. vm_compute. reflexivity. Qed.

(** C51, for the climatology itself: only years before the present one count. *)
Theorem C51_no_future_partial w years doys a b t :
  length doys = length years -> length a = length years -> length b = length years -> t < length years ->
  (forall i, i < length years -> 1 <= nth i doys 0 <= 366) ->
  (forall i, i < length years -> (nth i years 0 < nth t years 0)%Z -> nth i a None = nth i b None) ->
  nth t (rolling_climatology w years doys a) None = nth t (rolling_climatology w years doys b) None.
Proof.
  intros L1 L2 L3 T D H. rewrite !rolling_nth by auto. destruct (Z.leb _ _); [|reflexivity]. f_equal.
  apply map_ext_in. intros i I. apply filter_In in I. destruct I as [I P]. apply in_seq in I. unfold in_window in P.
  apply andb_prop in P. destruct P as [_ P]. apply andb_prop in P. destruct P as [P _]. apply Z.ltb_lt in P. apply H; [lia|exact P].
Qed.
Print Assumptions C51_no_future_partial.

(** With smoothing, steps up to half a smoothing window after the end of an
    earlier year count as well, and nothing later.
    Missing for the full claim: those steps belong to year Y. *)
Theorem C51_smoothed_partial w W years doys a b t :
  0 < W -> length doys = length years -> length a = length years -> length b = length years -> t < length years ->
  (forall i, i < length years -> 1 <= nth i doys 0 <= 366) ->
  (forall j, j < length years -> (nth j years 0 < nth t years 0)%Z -> forall i, i <= j + (W - 1 - W / 2) -> nth i a None = nth i b None) ->
  nth t (smoothed_rolling_climatology w W years doys a) None = nth t (smoothed_rolling_climatology w W years doys b) None.
Proof.
  intros Wp L1 L2 L3 T D H. unfold smoothed_rolling_climatology. apply C51_no_future_partial; auto; try (rewrite rolling_mean_length; assumption).
  intros j J Y. apply rolling_mean_agree; [lia|lia|exact (H j J Y)|exact Wp].
Qed.
Print Assumptions C51_smoothed_partial.

(** The claim as stated fails for the climatology marEx subtracts: changing a
    value of 2001 changes the climatology of 2001. *)
Theorem C51_smoothing_leaks_refuted :
  exists w W years doys a b t, 0 < W /\ t < length years /\
    (forall i, i < length years -> 1 <= nth i doys 0 <= 366) /\
    (forall i, i < length years -> (nth i years 0 < nth t years 0)%Z -> nth i a None = nth i b None) /\
    length a = length years /\ length b = length years /\ length doys = length years /\
    ~ same (nth t (smoothed_rolling_climatology w W years doys a) None) (nth t (smoothed_rolling_climatology w W years doys b) None).
Proof.
  exists 1%Z, 3, [2000; 2000; 2001; 2001]%Z, [1; 2; 1; 2], [Some 0; Some 0; Some 0; Some 0]%Q, [Some 0; Some 0; Some 3; Some 0]%Q, 3.
  split; [lia|]. split; [cbn; lia|]. split.
  { intros i I. cbn in I. do 4 (destruct i as [|i]; [cbn; lia|]). lia. }
  split.
  { intros i I Y. cbn in I. do 4 (destruct i as [|i]; [cbn in Y; try lia; reflexivity|]). lia. }
  split; [reflexivity|]. split; [reflexivity|]. split; [reflexivity|]. vm_compute. discriminate.
Qed.
Print Assumptions C51_smoothing_leaks_refuted.

(** The present year's value is irrelevant to the unsmoothed climatology. *)
Example C51_case :
  nth 1 (rolling_climatology 1 [2000; 2001]%Z [1; 1] [Some 4; Some 7]%Q) None = Some (4 # 1)%Q /\
  nth 1 (rolling_climatology 1 [2000; 2001]%Z [1; 1] [Some 4; Some 9]%Q) None = Some (4 # 1)%Q.
Proof. split; vm_compute; reflexivity. Qed.

(** C53. *)
Theorem C53_zero_sum_by_day doys data d : length doys = length data ->
  (sum (samples (fixed_baseline doys data) (fun i => Nat.eqb (nth i doys 0%nat) d)) == 0)%Q.
Proof. apply fixed_zero_sum. Qed.
Print Assumptions C53_zero_sum_by_day.

Theorem C53_missing_only_where_missing doys data i : length doys = length data -> i < length data ->
  (nth i (fixed_baseline doys data) None = None <-> nth i data None = None).
Proof. apply fixed_missing. Qed.
Print Assumptions C53_missing_only_where_missing.

(** Anomalies of the same day differ exactly as the data do. *)
Theorem C53_differences_kept doys data i j x y : length doys = length data -> i < length data -> j < length data ->
  nth i doys 0 = nth j doys 0 -> nth i data None = Some x -> nth j data None = Some y ->
  exists a b, nth i (fixed_baseline doys data) None = Some a /\ nth j (fixed_baseline doys data) None = Some b /\ (a - b == x - y)%Q.
Proof.
  intros L I J E X Y. rewrite !fixed_nth by auto. destruct (daily_some doys data i x L I X) as (m & M). rewrite <- E, M, X, Y.
  exists (x - m)%Q, (y - m)%Q. split; [reflexivity|]. split; [reflexivity|]. ring.
Qed.
Print Assumptions C53_differences_kept.

Theorem C53_twice_is_once doys data i : length doys = length data -> i < length data ->
  same (nth i (fixed_baseline doys (fixed_baseline doys data)) None) (nth i (fixed_baseline doys data) None).
Proof. apply fixed_twice. Qed.
Print Assumptions C53_twice_is_once.

Example C53_case :
  fixed_baseline [1; 2; 1; 2; 1] [Some 1; Some 5; Some 3; None; Some 8]%Q = [Some (-9 # 3); Some (0 # 1); Some (-3 # 3); None; Some (12 # 3)]%Q.
Proof. vm_compute. reflexivity. Qed.

(** C86. [shifted c a b]: b is a plus c where a is available. *)
Theorem C86_seasonal_cycle_removed (s : nat -> Q) doys a b i :
  length doys = length a -> length b = length a ->
  (forall k, k < length a ->
     match nth k a None, nth k b None with Some x, Some y => (y == x + s (nth k doys 0%nat))%Q | None, None => True | _, _ => False end) ->
  i < length a ->
  same (nth i (fixed_baseline doys b) None) (nth i (fixed_baseline doys a) None).
Proof. intros L1 L2 H. exact (fixed_seasonal s doys a b L1 L2 H i). Qed.
Print Assumptions C86_seasonal_cycle_removed.

Theorem C86_offset_removed c w W years doys a b i :
  0 < W -> length doys = length years -> length a = length years -> length b = length years ->
  (forall k, k < length years -> 1 <= nth k doys 0 <= 366) ->
  (forall k, k < length years ->
     match nth k a None, nth k b None with Some x, Some y => (y == x + c)%Q | None, None => True | _, _ => False end) ->
  i < length years ->
  same (nth i (shifting_baseline w W years doys b) None) (nth i (shifting_baseline w W years doys a) None).
Proof. intros Wp L1 L2 L3 D H. exact (shifting_constant c w W years doys a b Wp L1 L2 L3 D H i). Qed.
Print Assumptions C86_offset_removed.

Example C86_case :
  fixed_baseline [1; 2; 1; 2] [Some 1; Some 5; Some 3; Some 9]%Q = [Some (-2 # 2); Some (-4 # 2); Some (2 # 2); Some (4 # 2)]%Q /\
  fixed_baseline [1; 2; 1; 2] [Some 11; Some 105; Some 13; Some 109]%Q = [Some (-2 # 2); Some (-4 # 2); Some (2 # 2); Some (4 # 2)]%Q /\
  shifting_baseline 1 1 [2000; 2001]%Z [1; 1] [Some 4; Some 9]%Q = [None; Some (5 # 1)]%Q /\
  shifting_baseline 1 1 [2000; 2001]%Z [1; 1] [Some 24; Some 29]%Q = [None; Some (5 # 1)]%Q.
Proof. split; [vm_compute; reflexivity|]. split; [vm_compute; reflexivity|]. split; vm_compute; reflexivity. Qed.
