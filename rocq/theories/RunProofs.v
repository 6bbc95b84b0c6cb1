(** Proofs about checkpoints, whole runs and attributes. *)
From Coq Require Import String.
From Verif Require Import Base Morph MorphSpec MorphProofs MorphProps Label LabelSpec LabelProofs LabelProps Filter FilterSpec FilterProofs FilterGridProofs FilterProps
  Overlap OverlapSpec Merge MergeSpec Partition Cluster ClusterSpec ClusterFinal ClusterPipe ClusterProps Run RunSpec.
Open Scope nat_scope.

(** ** The store *)
Lemma put_map {A} k (v : A) g n : put k v (map g (seq 0 n)) = map (fun i => if Nat.eqb i k then v else g i) (seq 0 n).
Proof.
  unfold put. rewrite map_length, seq_length.
  assert (G : forall a, map (fun p : nat * A => if Nat.eqb (fst p) k then v else snd p) (combine (seq a n) (map g (seq a n)))
                   = map (fun i => if Nat.eqb i k then v else g i) (seq a n)).
  { induction n as [|m IH]; intro a; [reflexivity|]. cbn. rewrite IH. reflexivity. }
  apply G.
Qed.

Lemma run_io_app a b dk : run_io (a ++ b) dk = run_io b (run_io a dk).
Proof. apply fold_left_app. Qed.

Lemma erase_npz l : forall dk, d_npz (run_io (map EraseStep l) dk) = d_npz dk.
Proof. induction l as [|k l IH]; intro dk; [reflexivity|]. cbn [map]. change (run_io (EraseStep k :: map EraseStep l) dk) with (run_io (map EraseStep l) (apply_io dk (EraseStep k))). rewrite IH. reflexivity. Qed.
Lemma put_npz f l : forall dk, d_npz (run_io (map (fun k => PutStep k (nth k f [])) l) dk) = d_npz dk.
Proof. induction l as [|k l IH]; intro dk; [reflexivity|]. cbn [map]. change (run_io (PutStep k (nth k f []) :: map (fun k => PutStep k (nth k f [])) l) dk) with (run_io (map (fun k => PutStep k (nth k f [])) l) (apply_io dk (PutStep k (nth k f [])))). rewrite IH. reflexivity. Qed.

(** Entries of the store after writing the steps satisfying [P]. *)
Definition part_written (f : field) (P : nat -> bool) : list (nat * option (list bool)) :=
  map (fun k => (length (nth k f []), if P k then Some (nth k f []) else None)) (seq 0 (length f)).

Lemma puts_written f l : forall P dk, d_zarr dk = Some (part_written f P) ->
  d_zarr (run_io (map (fun k => PutStep k (nth k f [])) l) dk) = Some (part_written f (fun k => memN k l || P k)).
Proof.
  induction l as [|k l IH]; intros P dk E; [exact E|]. cbn [map].
  change (run_io (PutStep k (nth k f []) :: map (fun k => PutStep k (nth k f [])) l) dk) with (run_io (map (fun k => PutStep k (nth k f [])) l) (apply_io dk (PutStep k (nth k f [])))).
  rewrite (IH (fun i => Nat.eqb i k || P i)).
  - f_equal. apply map_ext. intro i. cbn [memN existsb]. f_equal. unfold memN. cbn [existsb].
    destruct (existsb (Nat.eqb i) l), (Nat.eqb i k); reflexivity.
  - cbn [apply_io d_zarr]. rewrite E. cbn [option_map]. f_equal. unfold part_written. rewrite put_map. apply map_ext. intro i.
    destruct (Nat.eqb_spec i k) as [->|]; reflexivity.
Qed.

Lemma map_seq_nth {A} (d : A) l : map (fun k => nth k l d) (seq 0 (length l)) = l.
Proof.
  apply (nth_ext _ _ d d); [rewrite map_length, seq_length; reflexivity|]. intros n H. rewrite map_length, seq_length in H.
  rewrite (nth_map_gen (fun k => nth k l d) (seq 0 (length l)) n 0 d) by (rewrite seq_length; exact H). rewrite seq_nth by exact H. reflexivity.
Qed.

Lemma write_field_npz erase order f dk : d_npz (run_io (write_field erase order f) dk) = d_npz dk.
Proof. unfold write_field. rewrite !run_io_app, put_npz. cbn. apply erase_npz. Qed.

Lemma memN_In x l : memN x l = true <-> In x l.
Proof. unfold memN. rewrite existsb_exists. split; [intros (y & H & E); apply Nat.eqb_eq in E; subst; exact H|intro H; exists x; split; [exact H|apply Nat.eqb_refl]]. Qed.

Lemma write_field_load erase order f dk : writes_all order (length f) -> load_field (run_io (write_field erase order f) dk) = Ok f.
Proof.
  intro W. unfold write_field. rewrite !run_io_app. unfold load_field.
  rewrite (puts_written f order (fun _ => false)).
  - f_equal. unfold part_written. rewrite map_map. transitivity (map (fun k => nth k f []) (seq 0 (length f))); [|apply map_seq_nth]. apply map_ext_in. intros k K. apply in_seq in K.
    unfold read_step. cbn [snd fst]. assert (M : memN k order = true) by (apply memN_In, W; lia). rewrite M. reflexivity.
  - cbn. f_equal. unfold part_written. rewrite <- (map_seq_nth [] f) at 1. rewrite !map_map. reflexivity.
Qed.

(** Effects on the statistics file, at every crash point. *)
Definition keeps_npz (o : io) : bool := match o with OpenStats | CloseStats _ => false | _ => true end.
Lemma keeps_run l : forallb keeps_npz l = true -> forall dk, d_npz (run_io l dk) = d_npz dk.
Proof.
  induction l as [|o l IH]; intros H dk; [reflexivity|]. cbn in H. apply andb_prop in H. destruct H as [H1 H2].
  change (run_io (o :: l) dk) with (run_io l (apply_io dk o)). rewrite (IH H2). destruct o; try discriminate; reflexivity.
Qed.
Lemma write_field_keeps erase order f : forallb keeps_npz (write_field erase order f) = true.
Proof.
  unfold write_field. rewrite !forallb_app. assert (A : forallb keeps_npz (map EraseStep erase) = true) by (induction erase; auto).
  rewrite A. cbn. induction order; auto.
Qed.
Lemma forallb_firstn {A} (p : A -> bool) n l : forallb p l = true -> forallb p (firstn n l) = true.
Proof. revert n. induction l as [|x l IH]; intros [|n] H; auto. cbn in *. apply andb_prop in H. destruct H as [-> H]. apply IH. exact H. Qed.

Section Phases.
Variable clean : field -> result run_err filtered.
Variable area : field -> Q.

Lemma load_split dk f s : load dk = Ok (f, s) -> load_field dk = Ok f /\ d_npz dk = Whole s.
Proof.
  unfold load, load_stats. destruct (load_field dk) as [g|e]; cbn; [|discriminate].
  destruct (d_npz dk); cbn; try discriminate. intro H. injection H as -> ->. auto.
Qed.

Lemma saved_run erase order arg tr dk d f : t_data tr = Some d -> t_scratch tr = true ->
  loads (effective arg tr) = false -> saves (effective arg tr) = true -> clean d = Ok f -> writes_all order (length (f_keep f)) ->
  run_preprocess clean area erase order arg tr dk =
    match stats_of area d f (f_keep f) with
    | Err e => (without_data tr, write_field erase order (f_keep f), Err e)
    | Ok s => (without_data tr, write_field erase order (f_keep f) ++ write_stats s, Ok (f_keep f, s))
    end.
Proof.
  intros Dt Sc Lo Sa Cl W. unfold run_preprocess. rewrite Lo, Dt, Cl, Sa, Sc. rewrite write_field_load by exact W. cbn [bind].
  destruct (stats_of area d f (f_keep f)) as [s|e]; [|reflexivity]. f_equal. rewrite run_io_app. unfold load.
  assert (E : load_field (run_io (write_stats s) (run_io (write_field erase order (f_keep f)) dk)) = load_field (run_io (write_field erase order (f_keep f)) dk)) by reflexivity.
  rewrite E, write_field_load by exact W. reflexivity.
Qed.
End Phases.

(** ** Structured runs *)

Section Grid.
Variable g : grid.
Let nt := g_nt g. Let ny := g_ny g. Let nx := g_nx g.

Lemma flat_img_nth f y x : y < ny -> x < nx -> nth (y * nx + x) (flat_img ny nx f) false = f (Z.of_nat y) (Z.of_nat x).
Proof.
  intros Y X. unfold flat_img. rewrite (nth_map_gen _ _ _ 0) by (rewrite seq_length; nia). rewrite seq_nth by nia. cbn [Nat.add].
  rewrite Nat.div_add_l by lia. rewrite (Nat.div_small x) by lia. rewrite Nat.add_0_r. rewrite (Nat.add_comm (y * nx) x), Nat.mod_add by lia. rewrite Nat.mod_small by lia.
  reflexivity.
Qed.
Lemma flat_img_length f : length (flat_img ny nx f) = ny * nx.
Proof. unfold flat_img. rewrite map_length, seq_length. reflexivity. Qed.

Lemma concat_length_const {A} (l : list (list A)) n : (forall r, In r l -> length r = n) -> length (concat l) = length l * n.
Proof. induction l as [|r l IH]; intro H; [reflexivity|]. cbn. rewrite app_length, IH by (intros; apply H; right; assumption). rewrite (H r) by (left; reflexivity). reflexivity. Qed.
Lemma concat_nth_const {A} (d : A) l n : (forall r, In r l -> length r = n) -> forall t k, t < length l -> k < n ->
  nth (t * n + k) (concat l) d = nth k (nth t l []) d.
Proof.
  induction l as [|r l IH]; intros H t k T K; [cbn in T; lia|]. assert (Lr : length r = n) by (apply H; left; reflexivity). cbn [concat].
  destruct t as [|t].
  - cbn [Nat.mul Nat.add nth]. apply app_nth1. lia.
  - rewrite app_nth2 by (cbn; lia). cbn [nth]. assert (Tl : t < length l) by (cbn in T; lia). rewrite <- (IH ltac:(intros; apply H; right; assumption) t k Tl K). f_equal. cbn. lia.
Qed.

Definition shaped (s : field) : Prop := length s = nt /\ forall r, In r s -> length r = ny * nx.
Lemma shaped_concat s : shaped s -> length (concat s) = nt * ny * nx.
Proof. intros [L H]. rewrite (concat_length_const s (ny * nx) H), L. lia. Qed.
Lemma shaped_cell s t y x : shaped s -> t < nt -> y < ny -> x < nx ->
  nth (flat ny nx (t, y, x)) (concat s) false = nth (y * nx + x) (nth t s []) false.
Proof.
  intros [L H] T Y X. unfold flat. replace ((t * ny + y) * nx + x) with (t * (ny * nx) + (y * nx + x)) by lia.
  apply (concat_nth_const false s (ny * nx) H); [lia|nia].
Qed.

Lemma fill_grid_ok data s : length data = nt -> fill_grid g data = Some s ->
  shaped s /\ forall t y x, t < nt -> y < ny -> x < nx ->
    nth (y * nx + x) (nth t s []) false = true -> nth (y * nx + x) (g_mask g) false = true.
Proof.
  intros L. unfold fill_grid. destruct (preprocess_morph _ _ _ _ _ _ _) as [im|] eqn:E; [|discriminate]. cbn [option_map]. intro H. injection H as <-.
  destruct (C06_masked_out_cells_never_marked _ _ _ _ _ _ _ _ E) as [Li Le]. rewrite map_length in Li.
  split.
  - split; [rewrite map_length, Li; exact L|]. intros r R. apply in_map_iff in R. destruct R as (f & <- & _). apply flat_img_length.
  - intros t y x T Y X V. rewrite (nth_map_gen _ im t (fun _ _ => false)) in V by lia. fold ny nx in V. rewrite flat_img_nth in V by assumption.
    rewrite Forall_forall in Le. apply (Le (nth t im (fun _ _ => false))) in V; [|apply nth_In; lia]. unfold img_of in V. rewrite !Nat2Z.id in V. exact V.
Qed.

Lemma filter_shaped s f : shaped s -> filter_grid (g_regional g) (g_rule g) nt ny nx (concat s) = Ok f -> shaped (f_keep f).
Proof.
  intros Sh H. unfold filter_grid in H. destruct (identify_grid _ _ _ _ _ _) as [lab n]. unfold filter_labelled in H.
  destruct (grid_props _) as [|p ps]; [discriminate|]. injection H as <-. cbn [f_keep]. split; [rewrite !map_length, seq_length; reflexivity|].
  intros r R. apply in_map_iff in R. destruct R as (q & <- & Q0). rewrite map_length. apply in_map_iff in Q0. destruct Q0 as (t & <- & _).
  unfold slice. rewrite map_length. apply slice_cells_length.
Qed.

Lemma clean_grid_ok data f : length data = nt -> clean_grid g data = Ok f -> shaped (f_keep f) /\
  forall t y x, t < nt -> y < ny -> x < nx ->
    nth (y * nx + x) (nth t (f_keep f) []) false = true -> nth (y * nx + x) (g_mask g) false = true.
Proof.
  intros L. unfold clean_grid. destruct (fill_grid g data) as [s|] eqn:E; [|discriminate]. destruct (fill_grid_ok _ _ L E) as [Sh Oc].
  fold nt ny nx. destruct (filter_grid _ _ _ _ _ _) as [f'|] eqn:F; [|discriminate]. intro H. injection H as ->.
  split; [exact (filter_shaped s f Sh F)|]. intros t y x T Y X K.
  destruct (C17_subset_and_whole_objects _ _ _ _ _ _ _ (shaped_concat _ Sh) F) as [Sub _].
  assert (Ex : extreme ny nx (concat s) (t, y, x)) by (apply Sub; [cbn; auto|exact K]).
  unfold extreme in Ex. rewrite shaped_cell in Ex by assumption. exact (Oc t y x T Y X Ex).
Qed.

(** Cells of the tracked field. *)
Definition ids_are (F : list (list Z)) (n : Z) (kept : field) : Prop :=
  length F = nt /\
  (forall t y x, t < nt -> y < ny -> x < nx ->
     (id_at F t (y * nx + x) <> 0%Z <-> nth (y * nx + x) (nth t kept []) false = true)) /\
  (forall k, (1 <= k <= n)%Z <-> exists t y x, t < nt /\ y < ny /\ x < nx /\ k <> 0%Z /\ id_at F t (y * nx + x) = k).

Lemma track_simple_ok kept F n mg : shaped kept -> track_simple g kept = Ok (F, n, mg) -> ids_are F n kept.
Proof.
  intros Sh. unfold track_simple. fold nt ny nx. destruct (run_tracking_simple _ _ _ _ _) as [lab m] eqn:E. intro H. injection H as <- <- _.
  assert (Lc := shaped_concat _ Sh).
  destruct (C71_events_without_merging_are_space_time_components _ _ _ _ _ _ _ Lc E) as (Ll & Z0 & _ & On).
  assert (V : forall t y x, t < nt -> y < ny -> x < nx -> id_at (time_fields nt ny nx lab) t (y * nx + x) = label_of ny nx lab (t, y, x)).
  { intros t y x T Y X. unfold id_at, time_fields. rewrite (nth_map_gen _ _ _ 0) by (rewrite seq_length; exact T). rewrite seq_nth by exact T.
    apply slice_nth; assumption. }
  split; [unfold time_fields; rewrite map_length, seq_length; reflexivity|]. split.
  - intros t y x T Y X. rewrite V by assumption. rewrite <- (shaped_cell kept t y x Sh T Y X).
    specialize (Z0 (t, y, x) ltac:(cbn; auto)). unfold extreme in Z0. split.
    + intro N. destruct (nth (flat ny nx (t, y, x)) (concat kept) false) eqn:D; [reflexivity|]. exfalso. apply N, Z0. congruence.
    + intros D N. apply Z0 in N. congruence.
  - intro k. rewrite On. split.
    + intros (i & I & Di & Li). rewrite Lc in I. destruct (flat_surj nt ny nx (concat kept) Lc i I) as ([[t y] x] & R & Fl). cbn [in_range] in R. destruct R as (T & Y & X).
      exists t, y, x. repeat (split; [assumption|]). rewrite V by assumption. unfold label_of. rewrite Fl. split; [|exact Li].
      intro K0. rewrite K0 in Li. specialize (Z0 (t, y, x) ltac:(cbn; auto)). unfold label_of, extreme in Z0. rewrite Fl in Z0. apply Z0 in Li. congruence.
    + intros (t & y & x & T & Y & X & K0 & E1). rewrite V in E1 by assumption. exists (flat ny nx (t, y, x)).
      assert (R : in_range nt ny nx (t, y, x)) by (cbn; auto). split; [rewrite Lc; apply flat_lt; exact R|]. split; [|exact E1].
      specialize (Z0 (t, y, x) R). unfold extreme in Z0.
      destruct (nth (flat ny nx (t, y, x)) (concat kept) false) eqn:D; [reflexivity|]. exfalso. apply K0. rewrite <- E1. apply Z0. congruence.
Qed.

Lemma track_merging_ok nn cent thr ca sizes kept F n mg : shaped kept -> fold_right Nat.add 0 sizes = nt ->
  (exists k, nth k (concat kept) false = true) ->
  track_merging g nn cent thr ca sizes kept = Ok (F, n, mg) -> ids_are F n kept.
Proof.
  intros Sh Hs Ex. unfold track_merging. fold nt ny nx. destruct (track_grid _ _ _ _ _ _ _ _ _ _) as [[ev mg']|] eqn:E; [|discriminate].
  intro H. injection H as <- <- _. assert (Lc := shaped_concat _ Sh).
  destruct (C25_tracked_cells_are_the_data nn (g_regional g) nt ny nx cent thr ca sizes (concat kept) Lc Hs Ex) as (ev' & mg2 & E' & Lf & Ln & Cells).
  rewrite E in E'. injection E' as <- <-.
  assert (N0 : forall t y x, t < nt -> y < ny -> x < nx -> (id_at (v_field ev) t (y * nx + x) <> 0%Z <-> nth (y * nx + x) (nth t kept []) false = true)).
  { intros t y x T Y X. rewrite <- (shaped_cell kept t y x Sh T Y X). destruct (Cells t y x T Y X) as [P Z0].
    change (flat ny nx (t, y, x)) with ((t * ny + y) * nx + x). destruct (nth _ (concat kept) false); split; intro; try discriminate.
    - reflexivity.
    - specialize (P eq_refl). lia.
    - exfalso. auto. }
  split; [exact Lf|]. split; [exact N0|].
  unfold track_grid in E. set (lab := time_fields nt ny nx (fst (identify_grid (g_regional g) false nt ny nx (concat kept)))) in E.
  assert (Ll : length lab = nt) by apply fields_length.
  destruct (C33_tracked_events_are_overlap_chains nn (g_regional g) ny nx cent thr (repeat 1%Q (ny * nx)) ca sizes lab (repeat_length _ _)
     ltac:(intros q Q0; apply repeat_spec in Q0; subst; reflexivity) ltac:(congruence) (fields_series _ _ _ _ _ Lc Ex)) as (ev3 & mg3 & E3 & _ & _ & On).
  rewrite E in E3. injection E3 as <- <-. intro k. rewrite On. split.
  - intros (t & P & Pr). apply (In_nth _ _ 0%Z) in Pr. destruct Pr as (c & C & Ec).
    assert (T : t < nt). { destruct (Nat.lt_ge_cases t nt) as [T|T]; [exact T|]. rewrite nth_overflow in C by lia. cbn in C. lia. }
    rewrite Ln in C by exact T. assert (nx <> 0) by nia. exists t, (c / nx), (c mod nx).
    assert (D := Nat.div_mod c nx ltac:(assumption)). assert (M := Nat.mod_upper_bound c nx ltac:(assumption)).
    split; [exact T|]. split; [apply Nat.div_lt_upper_bound; [assumption|lia]|]. split; [exact M|]. split; [lia|].
    unfold id_at. replace (c / nx * nx + c mod nx) with c by lia. exact Ec.
  - intros (t & y & x & T & Y & X & K0 & Ek). exists t.
    assert (C : y * nx + x < length (nth t (v_field ev) [])) by (rewrite Ln by exact T; nia).
    destruct (Cells t y x T Y X) as [P Z0]. split.
    + destruct (nth ((t * ny + y) * nx + x) (concat kept) false); [specialize (P eq_refl); lia|]. specialize (Z0 eq_refl). lia.
    + unfold present_at. rewrite <- Ek. apply nth_In. exact C.
Qed.

Lemma count_zero {A} (p : A -> bool) l : (forall x, In x l -> p x = false) -> count p l = 0.
Proof. unfold count. intro H. induction l as [|x l IH]; [reflexivity|]. cbn. rewrite (H x) by (left; reflexivity). apply IH. intros; apply H; right; assumption. Qed.

Lemma nothing_kept s : shaped s -> (forall t y x, t < nt -> y < ny -> x < nx -> nth (y * nx + x) (nth t s []) false = false) -> area_grid s = nat_Q 0.
Proof.
  intros Sh H. unfold area_grid. f_equal. apply count_zero. intros b B. apply (In_nth _ _ false) in B. destruct B as (i & I & <-).
  rewrite (shaped_concat _ Sh) in I. destruct (flat_surj nt ny nx (concat s) (shaped_concat _ Sh) i I) as ([[t y] x] & (T & Y & X) & <-).
  rewrite shaped_cell by assumption. apply H; assumption.
Qed.

Lemma one_object_nothing data s f : length data = nt -> fill_grid g data = Some s -> one_object (g_regional g) nt ny nx (concat s) ->
  filter_grid (g_regional g) (g_rule g) nt ny nx (concat s) = Ok f -> area_grid (f_keep f) = nat_Q 0.
Proof.
  intros L E (_ & One) F. destruct (fill_grid_ok _ _ L E) as [Sh _]. assert (Lc := shaped_concat _ Sh).
  apply nothing_kept; [exact (filter_shaped s f Sh F)|]. intros t y x T Y X.
  destruct (nth (y * nx + x) (nth t (f_keep f) []) false) eqn:K; [|reflexivity]. exfalso.
  destruct (C16_keeps_other_objects_partial _ _ _ _ _ _ _ Lc F) as (Kp & _). specialize (Kp (t, y, x) ltac:(cbn; auto)).
  cbn [kept_at] in Kp. apply Kp in K. destruct K as (Ex & _ & No). apply No.
  destruct (first_exists nt ny nx (concat s) (t, y, x) ltac:(cbn; auto) Ex) as (c0 & C0).
  exists c0. split; [exact C0|]. destruct C0 as (R0 & E0 & _). apply One; try assumption. cbn. auto.
Qed.
End Grid.

Lemma first_unique nt ny nx data c d : first_extreme nt ny nx data c -> first_extreme nt ny nx data d -> c = d.
Proof.
  intros (Rc & Xc & Mc) (Rd & Xd & Md). apply (flat_inj nt ny nx); [assumption|assumption|].
  specialize (Mc d Rd Xd). specialize (Md c Rc Xc). lia.
Qed.

(** ** Attributes *)
Lemma get_set d k v k' : get (set_attr d k v) k' = if String.eqb k k' then Some v else get d k'.
Proof.
  induction d as [|[a b] d IH]; cbn; [reflexivity|].
  destruct (String.eqb_spec a k) as [->|N]; cbn.
  - destruct (String.eqb k k'); reflexivity.
  - destruct (String.eqb_spec a k') as [->|N']; [|exact IH]. destruct (String.eqb_spec k k') as [->|]; [congruence|reflexivity].
Qed.
Lemma get_update_out new : forall d k, ~ has_key new k -> get (update_attrs d new) k = get d k.
Proof.
  induction new as [|[a b] new IH]; intros d k N; [reflexivity|]. unfold update_attrs. cbn [fold_left fst snd].
  change (get (update_attrs (set_attr d a b) new) k = get d k). rewrite IH by (intros (v & V); apply N; exists v; right; exact V).
  rewrite get_set. destruct (String.eqb_spec a k) as [->|]; [exfalso; apply N; exists b; left; reflexivity|reflexivity].
Qed.
Lemma get_update_in new : NoDup (map fst new) -> forall d k v, In (k, v) new -> get (update_attrs d new) k = Some v.
Proof.
  induction new as [|[a b] new IH]; intros ND d k v I; [destruct I|]. inversion ND as [|? ? Na ND']; subst.
  change (get (update_attrs (set_attr d a b) new) k = Some v). destruct I as [E|I]; [|apply IH; assumption].
  injection E as -> ->. rewrite get_update_out by (intros (w & W); apply Na; apply in_map_iff; exists (k, w); auto).
  rewrite get_set, String.eqb_refl. reflexivity.
Qed.

Lemma general_NoDup u s n : NoDup (map fst (general_attrs u s n)).
Proof. cbn. repeat (constructor; [cbn; intuition discriminate|]). constructor. Qed.
Lemma merge_NoDup u mg : NoDup (map fst (merge_attrs u mg)).
Proof. cbn. repeat (constructor; [cbn; intuition discriminate|]). constructor. Qed.

Lemma reported_attr u ea s n mg k v : reports u s n mg k v -> ~ has_key (u_data_attrs u) k ->
  get (stats_attributes u ea s n mg) k = Some v.
Proof.
  intros R N. unfold stats_attributes. rewrite get_update_out by exact N.
  assert (G : forall k v, In (k, v) (general_attrs u s n) -> ~ has_key (merge_attrs u mg) k ->
    get (if u_merging u then update_attrs (update_attrs ea (general_attrs u s n)) (merge_attrs u mg)
         else update_attrs ea (general_attrs u s n)) k = Some v).
  { intros k0 v0 I Nk. destruct (u_merging u); [rewrite get_update_out by exact Nk|]; apply get_update_in; auto using general_NoDup. }
  destruct R as [| | | | | | | | | |M|M|M|M];
    try (apply G; [cbn; unfold bool_int; tauto|intros (w & W); cbn in W; intuition discriminate]);
    rewrite M; apply get_update_in; try apply merge_NoDup; cbn; unfold bool_int, count; tauto.
Qed.
