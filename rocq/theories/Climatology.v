(** Model of the climatologies and baselines of detect.py: rolling_climatology
    (1536-1628), smoothed_rolling_climatology (1741-1756),
    _compute_anomaly_shifting_baseline (1776-1790), _compute_anomaly_fixed_baseline
    (2234-2275).

    All of them act on each cell by itself, so a field is the time series of one
    cell: [years] and [doys] (1 ... 366) of its time steps and its values, [None]
    being NaN.  float32 rounding and the accumulation order of flox are not
    modelled: arithmetic is exact.  Chunking is not modelled. *)
From Verif Require Import Base Filter Overlap Partition Cluster Detect.
Open Scope nat_scope.

Notation series := (list (option Q)).

Definition present (l : series) : list Q := flat_map (fun v => match v with Some q => [q] | None => [] end) l.
(** nanmean with fill_value NaN for empty groups (detect.py:1604-1608). *)
Definition nanmean (l : series) : option Q :=
  match present l with [] => None | p => Some (sumQ p / natQ (length p))%Q end.

(** rolling_climatology.  The long form: (time index, target year, day of year)
    for every target year a time step contributes to (detect.py:1553-1580). *)
Definition contributions (w : Z) (years : list Z) (doys : list nat) : list (nat * Z * nat) :=
  let uy := unique_codes years in
  flat_map
    (fun p =>
       let candidates := filter (fun u => Z.ltb (fst (snd p)) u && Z.leb u (fst (snd p) + w)) uy in
       let valid := filter (fun u => Z.leb (minZ uy + w) u) candidates in
       map (fun target => (fst p, target, snd (snd p))) valid)
    (combine (seq 0 (length years)) (combine years doys)).
Definition climatology_group (w : Z) (years : list Z) (doys : list nat) (data : series) (target : Z) (d : nat) : option Q :=
  nanmean (map (fun c => nth (fst (fst c)) data None)
             (filter (fun c => Z.eqb (snd (fst c)) target && Nat.eqb (snd c) d) (contributions w years doys))).
(** The table over expected_groups (detect.py:1598-1609), then the entry of the year and
    day of each time step (1615-1623). *)
Definition rolling_climatology (w : Z) (years : list Z) (doys : list nat) (data : series) : series :=
  let uy := unique_codes years in
  let table := map (fun target => map (climatology_group w years doys data target) (seq 1 366)) uy in
  map (fun p => nth (snd p - 1) (nth (index_ofZ (fst p) uy) table []) None) (combine years doys).

(** rolling(time=W, center=True).mean(): missing unless the window is complete (detect.py:1750-1752). *)
Definition rolling_mean (W : nat) (data : series) : series :=
  map (fun i =>
         if Nat.leb (W / 2) i && Nat.ltb (i + (W - 1 - W / 2)) (length data)
         then let win := map (fun k => nth (i - W / 2 + k) data None) (seq 0 W) in
              if forallb (fun v => match v with Some _ => true | None => false end) win
              then Some (sumQ (present win) / natQ W)%Q else None
         else None)
      (seq 0 (length data)).
(** detect.py:1745-1756. *)
Definition smoothed_rolling_climatology (w : Z) (W : nat) (years : list Z) (doys : list nat) (data : series) : series :=
  rolling_climatology w years doys (rolling_mean W data).

(** difference, NaN if either is, detect.py:1784. *)
Definition osub (a b : option Q) : option Q := match a, b with Some x, Some y => Some (x - y)%Q | _, _ => None end.
(** _compute_anomaly_shifting_baseline, detect.py:1778-1784. *)
Definition shifting_baseline (w : Z) (W : nat) (years : list Z) (doys : list nat) (data : series) : series :=
  map (fun p => osub (fst p) (snd p)) (combine data (smoothed_rolling_climatology w W years doys data)).

(** _compute_anomaly_fixed_baseline: mean of each day over all years, subtracted
    by day (detect.py:2243-2251). *)
Definition daily_climatology (doys : list nat) (data : series) (d : nat) : option Q :=
  nanmean (map snd (filter (fun p => Nat.eqb (fst p) d) (combine doys data))).
(** detect.py:2255-2257. *)
Definition fixed_baseline (doys : list nat) (data : series) : series :=
  map (fun p => osub (snd p) (daily_climatology doys data (fst p))) (combine doys data).
(** mask: finite at the first step (detect.py:1787, 2269). *)
Definition ocean (data : series) : bool := match nth 0 data None with Some _ => true | None => false end.
