(** Property theorems C146-C149 (what is drawn where, and how). *)
From Coq Require Import String QArith Qround Lqa Lia.
From Verif Require Import Base Errors Support Partition Histogram Plot PlotProps Draw.
Open Scope string_scope.
Open Scope list_scope.
Open Scope nat_scope.

(** ** C146 *)
Lemma nth_map_seq {A : Type} (f : nat -> A) (d : A) n i : i < n -> nth i (map f (seq 0 n)) d = f i.
Proof. intro H. rewrite (nth_indep _ d (f 0)) by (rewrite map_length, seq_length; exact H). rewrite map_nth, seq_nth by exact H. reflexivity. Qed.
Lemma nth_map_in {A B : Type} (f : A -> B) (l : list A) i d e : i < length l -> nth i (map f l) e = f (nth i l d).
Proof. intro H. rewrite (nth_indep _ e (f d)) by (rewrite map_length; exact H). apply map_nth. Qed.
Lemma transpose_nth rows n i j : j < n -> nth i (nth j (transpose n rows) []) None = nth j (nth i rows []) None.
Proof.
  intro J. unfold transpose. rewrite nth_map_seq by exact J. destruct (Nat.lt_ge_cases i (length rows)) as [H|H].
  - rewrite (nth_map_in _ _ _ []) by exact H. reflexivity.
  - rewrite (nth_overflow (map _ _)) by (rewrite map_length; exact H). rewrite (nth_overflow rows) by exact H. destruct j; reflexivity.
Qed.
Lemma transpose_length n rows : length (transpose n rows) = n.
Proof. unfold transpose. rewrite map_length, seq_length. reflexivity. Qed.
Lemma in_pcolormesh lon lat vs m : In m (pcolormesh lon lat vs) <->
  exists i j, i < length lat /\ j < length lon /\ m = At (nth j lon 0%Q) (nth i lat 0%Q) (nth j (nth i vs []) None).
Proof.
  unfold pcolormesh. rewrite in_flat_map. split.
  - intros (i & I & H). apply in_map_iff in H. destruct H as (j & <- & J). apply in_seq in I, J. exists i, j. split; [lia|]. split; [lia|reflexivity].
  - intros (i & j & I & J & ->). exists i. split; [apply in_seq; lia|]. apply in_map_iff. exists j. split; [reflexivity|apply in_seq; lia].
Qed.
Lemma wrap_cases {A : Type} lon (cols : list A) lon' cols' : wrap_lon lon cols = Some (lon', cols') ->
  (lon' = lon /\ cols' = cols) \/ (exists x c r q, lon = x :: r /\ cols = c :: q /\ lon' = lon ++ [(x + 360)%Q] /\ cols' = cols ++ [c]).
Proof.
  unfold wrap_lon. destruct lon as [|x [|y r]]; try discriminate. destruct cols as [|c q]; [discriminate|].
  destruct (Qltb _ _); intro E; injection E as <- <-; [right|left; split; reflexivity].
  exists x, c, (y :: r), q. split; [reflexivity|]. split; [reflexivity|]. split; reflexivity.
Qed.
Lemma single_ok {P : Type} flat each plot has_time (steps : list P) c pic : single_plot flat each plot has_time steps c = Ok pic ->
  plot has_time (shown each c steps) = Ok (pc_marks pic).
Proof.
  unfold single_plot. destruct (setup _ _ _) as [sb|e]; [|discriminate]. cbn [bind].
  destruct (plot has_time (shown each c steps)) as [l|e]; [|discriminate]. cbn [bind]. intro E. injection E as <-. reflexivity.
Qed.
(** What is shown of a value: everything, or the IDs. *)
Definition shown_value (c : config) (v : value) : value := if c_ids c then where_positive v else v.
Lemma shown_row c s i j : nth j (nth i (if c_ids c then each_row where_positive s else s) []) None = shown_value c (nth j (nth i s []) None).
Proof.
  unfold shown_value. destruct (c_ids c); [|reflexivity]. unfold each_row. destruct (Nat.lt_ge_cases i (length s)) as [H|H].
  - rewrite (nth_map_in _ _ _ []) by exact H. destruct (Nat.lt_ge_cases j (length (nth i s []))) as [J|J].
    + rewrite (nth_map_in _ _ _ None) by exact J. reflexivity.
    + rewrite !nth_overflow; [reflexivity|exact J|rewrite map_length; exact J].
  - rewrite (nth_overflow (map _ _)) by (rewrite map_length; exact H). rewrite (nth_overflow s) by exact H. destruct j; reflexivity.
Qed.

(** On a grid stored as (latitude, longitude): every value at its coordinates, and
    nothing else but possibly the first longitude once more, 360 degrees further. *)
Theorem C146_grid_values_partial (g : grid) (has_time : bool) (s : list (list value)) (c : config) (pic : picture) :
  g_rows_lat g = true -> grid_single g has_time [s] c = Ok pic ->
  (forall i j, i < length (g_lat g) -> j < length (g_lon g) ->
     In (At (nth j (g_lon g) 0%Q) (nth i (g_lat g) 0%Q) (shown_value c (nth j (nth i s []) None))) (pc_marks pic)) /\
  (forall m, In m (pc_marks pic) -> exists i j, i < length (g_lat g) /\ j < length (g_lon g) /\
     (m = At (nth j (g_lon g) 0%Q) (nth i (g_lat g) 0%Q) (shown_value c (nth j (nth i s []) None)) \/
      (j = 0 /\ m = At (nth 0 (g_lon g) 0%Q + 360)%Q (nth i (g_lat g) 0%Q) (shown_value c (nth 0 (nth i s []) None))))).
Proof.
  intros R H. apply single_ok in H. set (s' := if c_ids c then each_row where_positive s else s).
  assert (Sh : shown each_row c [s] = [s']) by (unfold shown, s'; destruct (c_ids c); reflexivity).
  rewrite Sh in H. unfold grid_plot, columns, grid_marks in H. rewrite R in H. set (lon := g_lon g) in *. set (lat := g_lat g) in *.
  destruct (wrap_lon lon (transpose (length lon) s')) as [(lon', cols')|] eqn:W; [|discriminate]. injection H as H.
  assert (V : forall i j, j < length lon -> nth i (nth j (transpose (length lon) s') []) None = shown_value c (nth j (nth i s []) None)).
  { intros i j J. rewrite transpose_nth by exact J. apply shown_row. }
  assert (T : forall i j, i < length lat -> nth j (nth i (transpose (length lat) cols') []) None = nth i (nth j cols' []) None) by (intros i j I; apply transpose_nth; exact I).
  destruct (wrap_cases _ _ _ _ W) as [(-> & ->)|(x & c0 & r & q & El & Ec & -> & ->)].
  - split.
    + intros i j I J. rewrite <- H. apply in_pcolormesh. exists i, j. split; [exact I|]. split; [exact J|]. rewrite T, V by assumption. reflexivity.
    + intros m M. rewrite <- H in M. apply in_pcolormesh in M. destruct M as (i & j & I & J & ->). exists i, j. split; [exact I|]. split; [exact J|]. left. rewrite T, V by assumption. reflexivity.
  - assert (Lc : length (transpose (length lon) s') = length lon) by apply transpose_length.
    assert (L0 : 0 < length lon) by (rewrite El; cbn; lia).
    assert (C0 : c0 = nth 0 (transpose (length lon) s') []) by (rewrite Ec; reflexivity).
    assert (X0 : x = nth 0 lon 0%Q) by (rewrite El; reflexivity).
    assert (In1 : forall i j, i < length lat -> j < length lon -> nth j (nth i (transpose (length lat) (transpose (length lon) s' ++ [c0])) []) None = shown_value c (nth j (nth i s []) None)).
    { intros i j I J. rewrite T by exact I. rewrite app_nth1 by (rewrite Lc; exact J). apply V. exact J. }
    split.
    + intros i j I J. rewrite <- H. apply in_pcolormesh. exists i, j. split; [exact I|]. split; [rewrite app_length; lia|]. rewrite app_nth1 by exact J. rewrite In1 by assumption. reflexivity.
    + intros m M. rewrite <- H in M. apply in_pcolormesh in M. destruct M as (i & j & I & J & ->). rewrite app_length in J. cbn [length] in J.
      destruct (Nat.lt_ge_cases j (length lon)) as [Jl|Jl].
      * exists i, j. split; [exact I|]. split; [exact Jl|]. left. rewrite app_nth1 by exact Jl. rewrite In1 by assumption. reflexivity.
      * assert (Ej : j = length lon) by lia. subst j. exists i, 0. split; [exact I|]. split; [exact L0|]. right. split; [reflexivity|].
        rewrite T by exact I. rewrite app_nth2 by lia. rewrite Nat.sub_diag. cbn [nth]. rewrite app_nth2 by lia. rewrite Lc, Nat.sub_diag. cbn [nth]. rewrite C0, V by exact L0. rewrite X0. reflexivity.
Qed.
Print Assumptions C146_grid_values_partial.

(** Stored as (longitude, latitude) the plot fails, unless there are as many
    longitudes (with the added one) as latitudes: then the picture is mirrored along
    the diagonal. *)
Definition plain : config := post_init (mkConfig None "" false None None None true true false None false "both" None).
Theorem C146_transposed_refuted :
  (forall g has_time s c, g_rows_lat g = false -> length s = length (g_lon g) -> length (g_lon g) <> length (g_lat g) -> S (length (g_lon g)) <> length (g_lat g) ->
     exists e, grid_single g has_time [s] c = Err e) /\
  exists g s pic, g_rows_lat g = false /\ length s = length (g_lon g) /\ Forall (fun col => length col = length (g_lat g)) s /\
    grid_single g false [s] plain = Ok pic /\
    In (At 20 (-10) (Some 7%Q)) (pc_marks pic) /\ nth 0 (nth 1 s []) None <> Some 7%Q /\ nth 1 (g_lon g) 0%Q = 20%Q /\ nth 0 (g_lat g) 0%Q = (-10)%Q.
Proof.
  split.
  - intros g ht s c R Ls N1 N2. destruct (grid_single g ht [s] c) as [pic|e] eqn:E; [|exists e; reflexivity]. exfalso. apply single_ok in E.
    set (s' := if c_ids c then each_row where_positive s else s).
    assert (Sh : shown each_row c [s] = [s']) by (unfold shown, s'; destruct (c_ids c); reflexivity). rewrite Sh in E.
    unfold grid_plot, columns, grid_marks in E. rewrite R in E. destruct (wrap_lon (g_lon g) s') as [(lon', cols')|] eqn:W; [|discriminate].
    assert (L : length lon' = length (g_lon g) \/ length lon' = S (length (g_lon g))).
    { destruct (wrap_cases _ _ _ _ W) as [(-> & _)|(x & c0 & r & q & _ & _ & -> & _)]; [left; reflexivity|right; rewrite app_length; cbn; lia]. }
    destruct (Nat.eqb_spec (length lon') (length (g_lat g))) as [H|H]; [lia|discriminate].
  - exists (mkGrid false [10; 20]%Q [-10; 0]%Q), [[Some 1; Some 7]; [Some 2; Some 3]]%Q. eexists. split; [reflexivity|]. split; [reflexivity|].
    split; [repeat constructor|]. split; [vm_compute; reflexivity|]. split; [cbn; tauto|]. split; [discriminate|]. split; reflexivity.
Qed.
Print Assumptions C146_transposed_refuted.

Lemma collect_ok {A B E : Type} (f : A -> result E B) : forall l vs, collect (map f l) = Ok vs -> length vs = length l /\ forall k d e, k < length l -> f (nth k l d) = Ok (nth k vs e).
Proof.
  induction l as [|a l IH]; intros vs H; cbn [map collect] in H.
  - injection H as <-. split; [reflexivity|]. intros k d e K. cbn in K. lia.
  - destruct (f a) as [b|err] eqn:F; [|discriminate]. destruct (collect (map f l)) as [t|err] eqn:C; [|discriminate]. cbn [bind] in H. injection H as <-.
    destruct (IH t eq_refl) as [L N]. split; [cbn; congruence|]. intros [|k] d e K; cbn [nth]; [exact F|]. apply N. cbn in K. lia.
Qed.
Lemma collect_some {A B E : Type} (f : A -> result E B) : forall l, (forall a, In a l -> exists b, f a = Ok b) -> exists vs, collect (map f l) = Ok vs.
Proof.
  induction l as [|a l IH]; intro H; [exists []; reflexivity|]. destruct (H a (or_introl eq_refl)) as [b Eb]. destruct IH as [t Et]; [intros x Hx; apply H; right; exact Hx|].
  exists (b :: t). cbn [map collect]. rewrite Eb, Et. reflexivity.
Qed.

(** On a mesh with a table of nearest cells, read in one file of the right shape: every
    pixel shows a cell nearest to it. *)
Theorem C146_tree_shows_nearest_cells (m : mesh) (path : string) (t : tree) (c : config) (data : list value) (dist : nat -> nat -> nat -> Q) :
  m_tree m = Some path -> m_trees m path = Some (Some t) ->
  length (k_indices t) = length (k_lat t) * length (k_lon t) ->
  (forall i j, i < length (k_lat t) -> j < length (k_lon t) -> exists k, k < length data /\ nth (i * length (k_lon t) + j) (k_indices t) (-1)%Z = Z.of_nat k /\
     forall k', k' < length data -> (dist i j k <= dist i j k')%Q) ->
  c_ids c = false ->
  exists pic, mesh_single m false [data] c = Ok pic /\ length (pc_marks pic) = length (k_lat t) * length (k_lon t) /\
    forall i j, i < length (k_lat t) -> j < length (k_lon t) -> exists k, k < length data /\
      nth (i * length (k_lon t) + j) (pc_marks pic) (At 0 0 None) = At (nth j (k_lon t) 0%Q) (nth i (k_lat t) 0%Q) (nth k data None) /\
      forall k', k' < length data -> (dist i j k <= dist i j k')%Q.
Proof.
  intros Mt Mf Li Hk Ids. unfold mesh_single, single_plot.
  assert (Se : exists sb, setup false (map (fun s : list value => s) [data]) c = Ok sb) by (unfold setup; rewrite Ids; eexists; reflexivity).
  destruct Se as [sb ->]. cbn [bind]. unfold shown. rewrite Ids. unfold mesh_plot. rewrite Mt. unfold open, load. cbn [lookup]. rewrite Mf. cbn [bind hd]. unfold tree_marks.
  set (nx := length (k_lon t)) in *. set (ny := length (k_lat t)) in *.
  assert (All : forall a, In a (k_indices t) -> exists b, take data a = Ok b).
  { intros a Ha. apply (In_nth _ _ (-1)%Z) in Ha. destruct Ha as (n & N & <-). rewrite Li in N. assert (Nx : nx <> 0) by (intro Z; rewrite Z in N; lia).
    assert (Dm := Nat.div_mod n nx Nx). assert (Mb := Nat.mod_upper_bound n nx Nx). set (q := n / nx) in *. set (r := n mod nx) in *. clearbody q r.
    destruct (Hk q r) as (k & K & E & _); [nia|exact Mb|]. replace n with (q * nx + r) by lia. rewrite E. unfold take.
    replace (0 <=? Z.of_nat k)%Z with true by (symmetry; apply Z.leb_le; lia). replace (Z.of_nat k <? Z.of_nat (length data))%Z with true by (symmetry; apply Z.ltb_lt; lia).
    eexists. reflexivity. }
  destruct (collect_some (take data) _ All) as [vs Ev]. rewrite Ev. cbn [bind]. destruct (collect_ok _ _ _ Ev) as [Lv Nv].
  rewrite Lv, Li, Nat.eqb_refl. cbn [bind]. eexists. split; [reflexivity|]. cbn [pc_marks].
  set (g := fun i => map (fun j => At (nth j (k_lon t) 0%Q) (nth i (k_lat t) 0%Q) (nth (i * nx + j) vs None)) (seq 0 nx)).
  assert (Lg : forall i, length (g i) = nx) by (intro i; unfold g; rewrite map_length, seq_length; reflexivity).
  assert (Fl : forall n s, length (flat_map g (seq s n)) = n * nx).
  { induction n as [|n IH]; intro s; [reflexivity|]. cbn [seq flat_map]. rewrite app_length, Lg, IH. lia. }
  assert (Fn : forall n s i j d, i < n -> j < nx -> nth (i * nx + j) (flat_map g (seq s n)) d = nth j (g (s + i)) d).
  { induction n as [|n IH]; intros s i j d I J; [lia|]. cbn [seq flat_map]. destruct i as [|i].
    - rewrite app_nth1 by (rewrite Lg; lia). rewrite Nat.add_0_r. reflexivity.
    - rewrite app_nth2 by (rewrite Lg; lia). rewrite Lg. replace (S i * nx + j - nx) with (i * nx + j) by lia. rewrite IH by lia. f_equal. f_equal. lia. }
  split; [apply Fl|]. intros i j I J. destruct (Hk i j I J) as (k & K & E & Mn). exists k. split; [exact K|]. split; [|exact Mn].
  rewrite Fn by assumption. cbn [Nat.add]. unfold g. rewrite nth_map_seq by exact J. f_equal.
  assert (B : i * nx + j < length (k_indices t)) by (rewrite Li; nia). assert (Tk := Nv (i * nx + j) (-1)%Z None B). rewrite E in Tk. unfold take in Tk.
  replace (0 <=? Z.of_nat k)%Z with true in Tk by (symmetry; apply Z.leb_le; lia). replace (Z.of_nat k <? Z.of_nat (length data))%Z with true in Tk by (symmetry; apply Z.ltb_lt; lia).
  cbn [andb] in Tk. rewrite Nat2Z.id in Tk. injection Tk as <-. reflexivity.
Qed.
Print Assumptions C146_tree_shows_nearest_cells.

(** Whatever the table: what is drawn at a pixel is the value of some cell, and tables
    naming a cell that is not there raise. *)
Theorem C146_tree_shows_cells (m : mesh) (path : string) (t : tree) (c : config) (data : list value) (pic : picture) :
  m_tree m = Some path -> m_trees m path = Some (Some t) -> c_ids c = false -> mesh_single m false [data] c = Ok pic ->
  length (pc_marks pic) = length (k_indices t) /\
  (forall a, In a (k_indices t) -> exists k, k < length data /\ (a = Z.of_nat k \/ a = Z.of_nat k - Z.of_nat (length data))%Z) /\
  forall mk, In mk (pc_marks pic) -> exists i j k, i < length (k_lat t) /\ j < length (k_lon t) /\ k < length data /\ mk = At (nth j (k_lon t) 0%Q) (nth i (k_lat t) 0%Q) (nth k data None).
Proof.
  intros Mt Mf Ids H. apply single_ok in H. unfold shown in H. rewrite Ids in H. unfold mesh_plot in H. rewrite Mt in H. unfold open, load in H. cbn [lookup] in H. rewrite Mf in H. cbn [bind hd] in H. unfold tree_marks in H.
  destruct (collect (map (take data) (k_indices t))) as [vs|e] eqn:Ev; [|discriminate]. cbn [bind] in H. destruct (collect_ok _ _ _ Ev) as [Lv Nv].
  destruct (Nat.eqb_spec (length vs) (length (k_lat t) * length (k_lon t))) as [Ls|]; [|discriminate]. injection H as H.
  set (nx := length (k_lon t)) in *. set (ny := length (k_lat t)) in *.
  assert (Tk : forall a v, take data a = Ok v -> exists k, k < length data /\ (a = Z.of_nat k \/ a = Z.of_nat k - Z.of_nat (length data))%Z /\ v = nth k data None).
  { intros a v. unfold take. destruct (0 <=? a)%Z eqn:A0; cbn [andb].
    - apply Z.leb_le in A0. destruct (a <? Z.of_nat (length data))%Z eqn:A1.
      + apply Z.ltb_lt in A1. intro E. injection E as <-. exists (Z.to_nat a). split; [lia|]. split; [left; lia|reflexivity].
      + destruct ((- _ <=? a)%Z && (a <? 0)%Z) eqn:A2; [|discriminate]. apply andb_true_iff in A2. destruct A2 as [_ A2]. apply Z.ltb_lt in A2. lia.
    - destruct ((- _ <=? a)%Z && (a <? 0)%Z) eqn:A2; [|discriminate]. apply andb_true_iff in A2. destruct A2 as [A2 A3]. apply Z.leb_le in A2. apply Z.ltb_lt in A3.
      intro E. injection E as <-. exists (Z.to_nat (Z.of_nat (length data) + a)). split; [lia|]. split; [right; lia|reflexivity]. }
  split; [|split].
  - rewrite <- H, <- Lv, Ls. assert (G : forall n s, length (flat_map (fun i => map (fun j => At (nth j (k_lon t) 0%Q) (nth i (k_lat t) 0%Q) (nth (i * nx + j) vs None)) (seq 0 nx)) (seq s n)) = n * nx).
    { induction n as [|n IH]; intro s; [reflexivity|]. cbn [seq flat_map]. rewrite app_length, map_length, seq_length, IH. lia. }
    apply G.
  - intros a Ia. apply (In_nth _ _ 0%Z) in Ia. destruct Ia as (i & Ii & <-). destruct (Tk _ _ (Nv i 0%Z None Ii)) as (k & K & E & _). exists k. split; assumption.
  - intros mk I. rewrite <- H in I. apply in_flat_map in I. destruct I as (i & Ii & I). apply in_map_iff in I. destruct I as (j & <- & Ij). apply in_seq in Ii, Ij.
    destruct (Tk _ _ (Nv (i * nx + j) 0%Z None ltac:(nia))) as (k & K & _ & Ek). exists i, j, k. split; [lia|]. split; [lia|]. split; [exact K|]. rewrite Ek. reflexivity.
Qed.
Print Assumptions C146_tree_shows_cells.

(** On a triangulation with as many values as triangles, and not as many as points,
    every triangle shows its own value; with any other number of values nothing is drawn. *)
Theorem C146_triangles_show_their_cells (m : mesh) (path : string) (t : triangulation) (c : config) (data : list value) :
  m_tree m = None -> m_tri m = Some path -> m_tris m path = Some (Some t) -> c_ids c = false ->
  (forall a b d, In (a, b, d) (t_vertices t) -> (1 <= a <= Z.of_nat (length (t_lon t)) /\ 1 <= b <= Z.of_nat (length (t_lon t)) /\ 1 <= d <= Z.of_nat (length (t_lon t)))%Z) ->
  length data <> length (t_lon t) ->
  (length data = length (t_vertices t) -> exists pic, mesh_single m false [data] c = Ok pic /\ length (pc_marks pic) = length data /\
     forall i a b d, nth_error (t_vertices t) i = Some (a, b, d) ->
       let at_vertex k := (nth (Z.to_nat (k - 1)) (t_lon t) 0%Q, nth (Z.to_nat (k - 1)) (t_lat t) 0%Q) in
       nth_error (pc_marks pic) i = Some (Triangle (at_vertex a) (at_vertex b) (at_vertex d) (nth i data None))) /\
  (length data <> length (t_vertices t) -> exists e, mesh_single m false [data] c = Err e).
Proof.
  intros Mt Mf Fl Ids Vs Np. unfold mesh_single, single_plot.
  assert (Se : exists sb, setup false (map (fun s : list value => s) [data]) c = Ok sb) by (unfold setup; rewrite Ids; eexists; reflexivity).
  destruct Se as [sb ->]. cbn [bind]. unfold shown. rewrite Ids. unfold mesh_plot. rewrite Mt, Mf. unfold open, load. cbn [lookup]. rewrite Fl. cbn [bind hd]. unfold tri_marks.
  assert (A : forallb (fun v => is_point t (fst (fst v)) && is_point t (snd (fst v)) && is_point t (snd v)) (zero_based t) = true).
  { apply forallb_forall. intros v I. unfold zero_based in I. apply in_map_iff in I. destruct I as (((a & b) & d) & <- & I). cbn [fst snd]. destruct (Vs a b d I) as (Ha & Hb & Hd). unfold is_point.
    rewrite !andb_true_iff, !Z.leb_le, !Z.ltb_lt. lia. }
  rewrite A. cbn [negb String.eqb Ascii.eqb Bool.eqb orb]. apply Nat.eqb_neq in Np. rewrite Np. assert (Lz : length (zero_based t) = length (t_vertices t)) by (unfold zero_based; apply map_length). rewrite Lz. split; intro L.
  - rewrite L, Nat.eqb_refl. cbn [bind]. eexists. split; [reflexivity|]. cbn [pc_marks]. split.
    + rewrite map_length, combine_length, Lz, L. apply Nat.min_id.
    + intros i a b d N. cbn zeta. assert (Li : i < length data) by (rewrite L; apply nth_error_Some; rewrite N; discriminate).
      assert (Nc : nth_error (combine (zero_based t) data) i = Some ((a - 1, b - 1, d - 1)%Z, nth i data None)).
      { unfold zero_based. clear - N L Li. revert i data L N Li. induction (t_vertices t) as [|v vs IH]; intros i data L N Li; [destruct i; discriminate|]. destruct data as [|x data]; [cbn in Li; lia|].
        destruct i as [|i]; cbn [map combine nth_error nth] in *; [injection N as ->; reflexivity|]. apply IH; cbn in *; try lia. exact N. }
      rewrite (map_nth_error _ _ _ Nc). reflexivity.
  - apply Nat.eqb_neq in L. rewrite L. cbn [bind]. eexists. reflexivity.
Qed.
Print Assumptions C146_triangles_show_their_cells.
(** A grid file with a triangle at a point that is not there raises. *)
Theorem C146_bad_triangles_raise (m : mesh) (path : string) (t : triangulation) (c : config) (data : list value) (a b d k : Z) :
  m_tree m = None -> m_tri m = Some path -> m_tris m path = Some (Some t) -> In (a, b, d) (t_vertices t) -> In k [a; b; d] ->
  (k < 1 \/ Z.of_nat (length (t_lon t)) < k)%Z -> exists e, mesh_single m false [data] c = Err e.
Proof.
  intros Mt Mf Fl Iv Ik Bad. unfold mesh_single, single_plot. destruct (setup _ _ _) as [sb|e]; [|exists e; reflexivity]. cbn [bind].
  assert (R : exists e, mesh_plot m false (shown (@map value value) c [data]) = Err e).
  { unfold mesh_plot. rewrite Mt, Mf. unfold open, load. cbn [lookup]. rewrite Fl. cbn [bind]. unfold tri_marks.
    assert (A : forallb (fun v => is_point t (fst (fst v)) && is_point t (snd (fst v)) && is_point t (snd v)) (zero_based t) = false).
    { destruct (forallb _ (zero_based t)) eqn:A; [|reflexivity]. exfalso. rewrite forallb_forall in A. specialize (A (a - 1, b - 1, d - 1)%Z).
      assert (I : In (a - 1, b - 1, d - 1)%Z (zero_based t)) by (unfold zero_based; apply in_map_iff; exists (a, b, d); split; [reflexivity|exact Iv]).
      apply A in I. cbn [fst snd] in I. unfold is_point in I. rewrite !andb_true_iff, !Z.leb_le, !Z.ltb_lt in I. cbn [In] in Ik. destruct Ik as [<-|[<-|[<-|[]]]]; lia. }
    rewrite A. cbn [negb]. eexists. reflexivity. }
  destruct R as [e R]. exists e. rewrite R. reflexivity.
Qed.
Print Assumptions C146_bad_triangles_raise.

(** On a triangulation, triangles are drawn in the mean of three cells: an ID that no
    cell has. *)
Theorem C146_triangles_refuted : exists m data pic a b c v, (forall w, In (Some w) data -> ~ (w == v)%Q) /\
  mesh_single m false [data] (post_init (mkConfig None "" false None None None true true false None true "both" None)) = Ok pic /\
  In (Triangle a b c (Some v)) (pc_marks pic).
Proof.
  exists (mkMesh None (Some "grid.nc") (fun _ => None) (fun _ => Some (Some (mkTri [0; 1; 0]%Q [0; 0; 1]%Q [(1, 2, 3)%Z])))), [Some 1; Some 2; Some 6]%Q.
  eexists. exists (0, 0)%Q, (1, 0)%Q, (0, 1)%Q, (9 # 3)%Q. split.
  - intros w [E|[E|[E|[]]]]; injection E as <-; discriminate.
  - split; [vm_compute; reflexivity|]. cbn. left. reflexivity.
Qed.
Print Assumptions C146_triangles_refuted.
Example C146_triangles_case : exists pic, mesh_single (mkMesh None (Some "grid.nc") (fun _ => None) (fun _ => Some (Some (mkTri [0; 1; 0; 1]%Q [0; 0; 1; 1]%Q [(1, 2, 3); (2, 4, 3)]%Z)))) false [[Some 5; None]]%Q plain = Ok pic /\
  pc_marks pic = [Triangle (0, 0) (1, 0) (0, 1) (Some 5); Triangle (1, 0) (1, 1) (0, 1) None]%Q.
Proof. eexists. split; vm_compute; reflexivity. Qed.
Example C146_case :
  (exists pic, grid_single (mkGrid true [0; 120; 240]%Q [-45; 45]%Q) true [[[Some 1; Some 2; Some 3]; [Some 4; None; Some 6]]]%Q plain = Ok pic /\
     length (pc_marks pic) = 8 /\ In (At 240 (-45) (Some 3%Q)) (pc_marks pic) /\ In (At (0 + 360) 45 (Some 4%Q))%Q (pc_marks pic)) /\
  (exists pic, mesh_single (mkMesh (Some "tree") None (fun _ => Some (Some (mkTree [0; 1; 2]%Q [0; 1]%Q [0; 0; 1; 1; 2; 2]%Z))) (fun _ => None)) false [[Some 7; Some 8; None]]%Q plain = Ok pic /\
     pc_marks pic = [At 0 0 (Some 7); At 1 0 (Some 7); At 2 0 (Some 8); At 0 1 (Some 8); At 1 1 None; At 2 1 None]%Q).
Proof. split; eexists; (split; [vm_compute; reflexivity|]); [|reflexivity]. split; [reflexivity|]. split; cbn; tauto. Qed.

(** ** C147 *)
Lemma setup_scale has_time steps c sb : setup has_time steps c = Ok sb -> st_clim (fst sb) <> None \/ st_norm (fst sb) <> None.
Proof.
  unfold setup. destruct (c_ids c).
  - destruct (max_id _) as [m|]; [|discriminate]. destruct (c_cmap c) as [[n|n]|]; try discriminate; [destruct (Nat.ltb n m); [discriminate|]|]; intro E; injection E as <-; right; discriminate.
  - intro E. injection E as <-. cbn [fst st_clim st_norm]. destruct (c_clim c); [left; discriminate|]. destruct (c_norm c); [right; discriminate|left; discriminate].
Qed.
Lemma panel_scale {P : Type} flat each plot (c : config) sb title (s : P) pic : st_clim (fst sb) <> None \/ st_norm (fst sb) <> None ->
  single_plot flat each plot false [s] (panel_config c sb title) = Ok pic -> pc_scale pic = scale (fst sb).
Proof.
  intros N. unfold single_plot, setup, panel_config, post_init. cbn [c_ids c_cmap c_clim c_norm c_issym c_units c_extend c_cperc bind map shown].
  destruct (plot _ _) as [l|e]; [|discriminate]. cbn [bind]. intro E. injection E as <-. cbn [pc_scale fst]. unfold scale. cbn [st_cmap st_norm st_clim]. f_equal.
  destruct (st_norm (fst sb)); [reflexivity|]. f_equal. destruct (st_clim (fst sb)); [reflexivity|]. destruct N as [N|N]; contradiction.
Qed.
Lemma collect_in {A B E : Type} (f : A -> result E B) l vs b : collect (map f l) = Ok vs -> In b vs -> exists a, In a l /\ f a = Ok b.
Proof.
  intros C H. destruct (collect_ok f l vs C) as [L N]. apply (In_nth _ _ b) in H. destruct H as (k & K & Ek). rewrite L in K.
  destruct l as [|a0 l]; [cbn in K; lia|]. exists (nth k (a0 :: l) a0). split; [apply nth_In; exact K|]. rewrite <- Ek. apply N. exact K.
Qed.
Lemma one_scale {P : Type} flat each plot draw (steps : list P) title c : exists sc,
  (forall pics p, panels flat each plot steps title c = Ok pics -> In p pics -> pc_scale p = sc) /\
  (forall pics p, frames_of flat each draw steps title c = Ok pics -> In p pics -> pc_scale p = sc).
Proof.
  unfold panels, frames_of. destruct (setup true (map flat steps) c) as [sb|e] eqn:Es.
  - exists (scale (fst sb)). cbn [bind]. split; intros pics p H I; destruct (collect_in _ _ _ _ H I) as (a & _ & F).
    + apply (panel_scale _ _ _ _ _ _ _ _ (setup_scale _ _ _ _ Es) F).
    + unfold frame in F. destruct (draw (snd a)) as [[l|]|e]; [| |discriminate]; cbn [bind] in F; [injection F as <-; reflexivity|].
      destruct (c_colorbar c); [discriminate|]. injection F as <-. reflexivity.
  - exists (Named "", inr None). split; intros pics p H; discriminate.
Qed.

(** All panels and all frames of the same data and configuration share one colour
    scale, on grids and meshes. *)
Theorem C147_one_scale (g : grid) (m : mesh) (steps : list (list (list value))) (cells : list (list value)) (title : nat -> string) (c : config) :
  (exists sc, (forall pics p, grid_panels g steps title c = Ok pics -> In p pics -> pc_scale p = sc) /\
              (forall pics p, grid_frames g steps title c = Ok pics -> In p pics -> pc_scale p = sc)) /\
  (exists sc, (forall pics p, mesh_panels m cells title c = Ok pics -> In p pics -> pc_scale p = sc) /\
              (forall pics p, mesh_frames m cells title c = Ok pics -> In p pics -> pc_scale p = sc)).
Proof. split; apply one_scale. Qed.
Print Assumptions C147_one_scale.

(** What the configuration asks of the colours: the given map, else one for symmetric
    and one for other data; the given norm, else the given limits. *)
Definition colours_asked (c : config) (sc : cmap * (norm + option (option (Q * Q)))) : Prop :=
  (forall m, c_cmap c = Some m -> fst sc = m) /\
  (c_cmap c = None -> c_issym c = true -> fst sc = Named "RdBu_r") /\ (c_cmap c = None -> c_issym c = false -> fst sc = Named "viridis") /\
  (forall n, c_norm c = Some n -> snd sc = inl n) /\ (forall l, c_norm c = None -> c_clim c = Some l -> snd sc = inr (Some l)).
(** The colour bar: there if asked for, with the units and the extension. *)
Definition bar_asked (c : config) (bar : option (string * string)) : Prop :=
  (c_colorbar c = true -> bar = Some (c_units c, c_extend c)) /\ (c_colorbar c = false -> bar = None).
Lemma setup_asked has_time steps c sb : c_ids c = false -> setup has_time steps c = Ok sb -> colours_asked c (scale (fst sb)) /\ snd sb = (c_units c, c_extend c).
Proof.
  intros I. unfold setup. rewrite I. intro E. injection E as <-. split; [|reflexivity]. unfold colours_asked, scale. cbn [fst snd st_cmap st_norm st_clim].
  split; [intros m ->; reflexivity|]. split; [intros -> ->; reflexivity|]. split; [intros -> ->; reflexivity|]. split; [intros n ->; reflexivity|intros l -> ->; reflexivity].
Qed.
Lemma plots_asked {P : Type} flat each plot draw (steps : list P) title c pic pics p : c_ids c = false ->
  (forall ht, single_plot flat each plot ht steps c = Ok pic -> colours_asked c (pc_scale pic) /\ bar_asked c (pc_bar pic)) /\
  (panels flat each plot steps title c = Ok pics -> In p pics -> colours_asked c (pc_scale p)) /\
  (frames_of flat each draw steps title c = Ok pics -> In p pics -> colours_asked c (pc_scale p) /\ bar_asked c (pc_bar p)).
Proof.
  intro I. split; [|split].
  - intros ht H. unfold single_plot in H. destruct (setup _ _ _) as [sb|e] eqn:Es; [|discriminate]. destruct (setup_asked _ _ _ _ I Es) as [A B]. cbn [bind] in H.
    destruct (plot ht _) as [l|e]; [|discriminate]. cbn [bind] in H. injection H as <-. cbn [pc_scale pc_bar]. split; [exact A|]. rewrite B. split; intros ->; reflexivity.
  - intros H Ip. unfold panels in H. destruct (setup _ _ _) as [sb|e] eqn:Es; [|discriminate]. destruct (setup_asked _ _ _ _ I Es) as [A B]. cbn [bind] in H.
    destruct (collect_in _ _ _ _ H Ip) as (a & _ & F). rewrite (panel_scale _ _ _ _ _ _ _ _ (setup_scale _ _ _ _ Es) F). exact A.
  - intros H Ip. unfold frames_of in H. destruct (setup _ _ _) as [sb|e] eqn:Es; [|discriminate]. destruct (setup_asked _ _ _ _ I Es) as [A B]. cbn [bind] in H.
    destruct (collect_in _ _ _ _ H Ip) as (a & _ & F). unfold frame in F.
    assert (G : forall l, mkPicture l (scale (fst sb)) (Some (title (fst a))) robinson true (c_labels c) (if c_colorbar c then Some (snd sb) else None) = p ->
              colours_asked c (pc_scale p) /\ bar_asked c (pc_bar p)).
    { intros l <-. cbn [pc_scale pc_bar]. split; [exact A|]. rewrite B. split; intros ->; reflexivity. }
    destruct (draw (snd a)) as [[l|]|e]; [| |discriminate]; cbn [bind] in F; [injection F as F; exact (G l F)|].
    destruct (c_colorbar c) eqn:Cb; [discriminate|]. injection F as F. exact (G [] F).
Qed.
Theorem C147_colours_as_asked (g : grid) (m : mesh) (steps : list (list (list value))) (cells : list (list value)) (title : nat -> string) (c : config) (pic p : picture) (pics : list picture) (ht : bool) :
  c_ids c = false ->
  (grid_single g ht steps c = Ok pic \/ mesh_single m ht cells c = Ok pic -> colours_asked c (pc_scale pic) /\ bar_asked c (pc_bar pic)) /\
  (grid_panels g steps title c = Ok pics \/ mesh_panels m cells title c = Ok pics -> In p pics -> colours_asked c (pc_scale p)) /\
  (grid_frames g steps title c = Ok pics \/ mesh_frames m cells title c = Ok pics -> In p pics -> colours_asked c (pc_scale p) /\ bar_asked c (pc_bar p)).
Proof.
  intro I. destruct (plots_asked (@List.concat value) each_row (grid_plot g) (grid_draw g) steps title c pic pics p I) as (A1 & A2 & A3).
  destruct (plots_asked (fun s : list value => s) (@map value value) (mesh_plot m) (mesh_frame m) cells title c pic pics p I) as (B1 & B2 & B3).
  split; [intros [H|H]; [exact (A1 ht H)|exact (B1 ht H)]|]. split; intros [H|H]; auto.
Qed.
Print Assumptions C147_colours_as_asked.

(** Plots of object numbers carry no colour bar, whatever the configuration says; other
    plots have one exactly when the configuration says so. *)
Theorem C147_no_bar_for_ids (g : grid) (m : mesh) (steps : list (list (list value))) (cells : list (list value)) (title : nat -> string) (c : config) (pic : picture) (pics : list picture) (ht : bool) :
  grid_single g ht steps (post_init c) = Ok pic \/ mesh_single m ht cells (post_init c) = Ok pic \/
  ((grid_frames g steps title (post_init c) = Ok pics \/ mesh_frames m cells title (post_init c) = Ok pics) /\ In pic pics) ->
  pc_bar pic <> None <-> c_ids c = false /\ c_colorbar c = true.
Proof.
  assert (Cb : c_colorbar (post_init c) = true <-> c_ids c = false /\ c_colorbar c = true).
  { cbn [post_init c_colorbar]. destruct (c_ids c); split; [discriminate|intros [X _]; discriminate|auto|intros [_ X]; exact X]. }
  assert (S : forall (P : Type) flat each (plot : bool -> list P -> result draw_err (list mark)) st c', single_plot flat each plot ht st c' = Ok pic -> pc_bar pic <> None <-> c_colorbar c' = true).
  { intros P flat each plot st c' H. unfold single_plot in H. destruct (setup _ _ _) as [sb|e]; [|discriminate]. cbn [bind] in H.
    destruct (plot ht _) as [l|e]; [|discriminate]. cbn [bind] in H. injection H as <-. cbn [pc_bar]. destruct (c_colorbar c'); split; congruence. }
  assert (F : forall (P : Type) flat each (draw : P -> result draw_err (option (list mark))) st c', frames_of flat each draw st title c' = Ok pics -> In pic pics -> pc_bar pic <> None <-> c_colorbar c' = true).
  { intros P flat each draw st c' H Ip. unfold frames_of in H. destruct (setup _ _ _) as [sb|e]; [|discriminate]. cbn [bind] in H.
    destruct (collect_in _ _ _ _ H Ip) as (a & _ & F). unfold frame in F. destruct (draw (snd a)) as [[l|]|e]; [| |discriminate]; cbn [bind] in F.
    - injection F as <-. cbn [pc_bar]. destruct (c_colorbar c'); split; congruence.
    - destruct (c_colorbar c'); [discriminate|]. injection F as <-. cbn [pc_bar]. split; congruence. }
  rewrite <- Cb. intros [H|[H|[[H|H] I]]].
  - exact (S _ _ _ _ _ _ H).
  - exact (S _ _ _ _ _ _ H).
  - exact (F _ _ _ _ _ _ H I).
  - exact (F _ _ _ _ _ _ H I).
Qed.
Print Assumptions C147_no_bar_for_ids.

Lemma collect_nth {A B E : Type} (f : A -> result E B) l vs i a : collect (map f l) = Ok vs -> nth_error l i = Some a -> exists b, nth_error vs i = Some b /\ f a = Ok b.
Proof.
  revert vs i. induction l as [|x l IH]; intros vs i C H; [destruct i; discriminate|]. cbn [map collect] in C.
  destruct (f x) as [b|e] eqn:F; [|discriminate]. destruct (collect (map f l)) as [t|e] eqn:Ct; [|discriminate]. cbn [bind] in C. injection C as <-.
  destruct i as [|i]; [injection H as <-; exists b; split; [reflexivity|exact F]|]. exact (IH t i eq_refl H).
Qed.
Lemma numbered {P : Type} (l : list P) i s : nth_error l i = Some s -> nth_error (combine (seq 0 (length l)) l) i = Some (i, s).
Proof.
  assert (G : forall l i k, nth_error l i = Some s -> nth_error (combine (seq k (length l)) l) i = Some (k + i, s)).
  { induction l0 as [|x l0 IH]; intros j k H; [destruct j; discriminate|]. destruct j as [|j]; cbn [length seq combine nth_error] in *; [injection H as ->; rewrite Nat.add_0_r; reflexivity|].
    rewrite (IH j (S k) H). f_equal. f_equal. lia. }
  intro H. exact (G l i 0 H).
Qed.
Lemma shown_length {P : Type} (each : (value -> value) -> P -> P) c steps : length (shown each c steps) = length steps.
Proof. unfold shown. destruct (c_ids c); [apply map_length|reflexivity]. Qed.
Lemma shown_nth {P : Type} (each : (value -> value) -> P -> P) c steps i s : nth_error steps i = Some s ->
  nth_error (shown each c steps) i = Some (if c_ids c then each where_positive s else s).
Proof. intro H. unfold shown. destruct (c_ids c); [apply map_nth_error; exact H|exact H]. Qed.

(** Panel [i] shows step [i], under its title, as single_plot does, on the map asked for
    and always with grid lines and without labels or a colour bar. *)
Theorem C147_panel_shows_its_step (g : grid) (steps : list (list (list value))) (title : nat -> string) (c c1 : config) (pics : list picture) (i : nat) (s : list (list value)) (one : picture) :
  grid_panels g steps title c = Ok pics -> nth_error steps i = Some s -> title i <> "" -> c_ids c1 = c_ids c -> grid_single g false [s] c1 = Ok one ->
  length pics = length steps /\ exists pic, nth_error pics i = Some pic /\ pc_title pic = Some (title i) /\
    (pc_projection pic = projection_of c /\ pc_lines pic = true /\ pc_labels pic = false /\ pc_bar pic = None) /\ pc_marks pic = pc_marks one.
Proof.
  intros H Hs T Ci H1. apply single_ok in H1. unfold grid_panels, panels in H. destruct (setup _ _ _) as [sb|e]; [|discriminate]. cbn [bind] in H.
  split.
  - destruct (collect_ok _ _ _ H) as [L _]. rewrite L, combine_length, seq_length, shown_length. apply Nat.min_id.
  - assert (N := numbered _ _ _ (shown_nth each_row c steps i s Hs)). rewrite shown_length in N. destruct (collect_nth _ _ _ _ _ H N) as (pic & Np & F). exists pic. split; [exact Np|]. cbn [fst snd] in F. split.
    + unfold single_plot in F. destruct (setup _ _ _) as [sb'|e]; [|discriminate]. cbn [bind] in F. destruct (grid_plot g false (shown each_row (panel_config c sb (title i)) _)) as [l|e]; [|discriminate]. cbn [bind] in F. injection F as <-. cbn [pc_title panel_config post_init c_title]. destruct (title i); [contradiction|reflexivity].
    + split; [|].
      { unfold single_plot in F. destruct (setup _ _ _) as [sb'|e]; [|discriminate]. cbn [bind] in F. destruct (grid_plot g false (shown each_row (panel_config c sb (title i)) _)) as [l|e]; [|discriminate]. cbn [bind] in F. injection F as <-.
        split; [unfold projection_of; cbn; destruct (c_projection c); reflexivity|]. split; [reflexivity|]. split; reflexivity. }
       apply single_ok in F. unfold shown in F, H1. rewrite Ci in H1. change (c_ids (panel_config c sb (title i))) with false in F. cbv iota in F. destruct (c_ids c); cbn [map] in H1; congruence.
Qed.
Print Assumptions C147_panel_shows_its_step.

(** Automatic limits without a time dimension: as in C99, on all values. *)
Theorem C147_limits_partial (g : grid) (s : list (list value)) (c : config) (pic : picture) (p0 p1 lo hi : Q) :
  grid_single g false [s] c = Ok pic -> c_ids c = false -> c_clim c = None -> c_norm c = None -> c_cperc c = Some (p0, p1) ->
  snd (pc_scale pic) = inr (Some (Some (lo, hi))) ->
  (0 <= p0)%Q -> (p0 <= p1)%Q -> (p1 <= 100)%Q -> c_issym c = true \/ ~ (p0 == 0)%Q ->
  let values := valid (List.concat s) in
  (lo <= hi)%Q /\ (natQ (count (fun v => Qltb v lo || Qltb hi v) values) <= ((p0 + (100 - p1)) / 100) * natQ (length values - 1) + 2)%Q.
Proof.
  intros H I Cl Cn Cp Sc A B C D values. unfold grid_single, single_plot, setup in H. rewrite I, Cl, Cn, Cp in H. cbn [bind map fst snd] in H.
  destruct (grid_plot g false _) as [l|e]; [|discriminate]. cbn [bind] in H. injection H as <-. cbn [pc_scale scale snd st_norm st_clim fst] in Sc. injection Sc as Sc.
  cbn [List.concat] in Sc. rewrite app_nil_r in Sc. apply (C99_cover_partial values (c_issym c) p0 p1 lo hi A B C D Sc).
Qed.
Print Assumptions C147_limits_partial.
(** Without a choice of percentiles at most 8% of the values, and two, are outside. *)
Theorem C147_default_limits_partial (g : grid) (s : list (list value)) (c : config) (pic : picture) (lo hi : Q) :
  grid_single g false [s] (post_init c) = Ok pic -> c_ids c = false -> c_clim c = None -> c_norm c = None -> c_cperc c = None ->
  snd (pc_scale pic) = inr (Some (Some (lo, hi))) ->
  let values := valid (List.concat s) in
  (lo <= hi)%Q /\ (natQ (count (fun v => Qltb v lo || Qltb hi v) values) <= (8 # 100) * natQ (length values - 1) + 2)%Q.
Proof.
  intros H I Cl Cn Cp Sc values.
  assert (A : (0 <= 4)%Q) by lra. assert (B : (4 <= 96)%Q) by lra. assert (C : (96 <= 100)%Q) by lra. assert (D : ~ (4 == 0)%Q) by lra.
  assert (P : c_cperc (post_init c) = Some (4, 96)%Q) by (cbn [post_init c_cperc]; rewrite Cp; reflexivity).
  destruct (C147_limits_partial g s (post_init c) pic 4 96 lo hi H I Cl Cn P Sc A B C (or_intror D)) as [T1 T2]. split; [exact T1|].
  fold values in T2. assert (E : ((4 + (100 - 96)) / 100 == 8 # 100)%Q) by reflexivity. rewrite E in T2. exact T2.
Qed.
Print Assumptions C147_default_limits_partial.
Example C147_default_case : exists pic, grid_single (mkGrid true [0; 1]%Q [0]%Q) false [[[Some 0; Some 100]]]%Q (post_init (mkConfig None "" false None None None true true false None false "both" None)) = Ok pic /\
  exists lo hi, snd (pc_scale pic) = inr (Some (Some (lo, hi))) /\ (lo == 4)%Q /\ (hi == 96)%Q.
Proof. eexists. split; [vm_compute; reflexivity|]. eexists. eexists. split; [reflexivity|]. split; reflexivity. Qed.

(** With a time dimension only every tenth step is looked at: all values of all other
    steps can lie outside limits that should hold them all. *)
Theorem C147_limits_refuted : exists g steps c frs lo hi, c_cperc c = Some (0, 100)%Q /\ grid_frames g steps (fun _ => "day") c = Ok frs /\
  (forall p, In p frs -> snd (pc_scale p) = inr (Some (Some (lo, hi)))) /\ (forall t v, 0 < t < length steps -> In (Some v) (List.concat (nth t steps [])) -> (hi < v)%Q).
Proof.
  exists (mkGrid true [0; 1]%Q [0]%Q), [[[Some 1; Some 2]]; [[Some 30; Some 40]]; [[Some 50; Some 60]]]%Q, (post_init (mkConfig None "" false None (Some (0, 100)%Q) None true true false None false "both" None)).
  eexists. eexists. eexists. split; [reflexivity|]. split; [vm_compute; reflexivity|]. split.
  - intros p [<-|[<-|[<-|[]]]]; reflexivity.
  - intros t v Ht Hv. destruct t as [|[|[|t]]]; cbn in Ht; try lia; cbn in Hv; destruct Hv as [E|[E|[]]]; injection E as <-; reflexivity.
Qed.
Print Assumptions C147_limits_refuted.
Example C147_case : exists pics, grid_panels (mkGrid true [0; 1]%Q [0]%Q) [[[Some 1; Some 2]]; [[Some 30; None]]]%Q (fun i => match i with 0 => "a" | _ => "b" end) plain = Ok pics /\
  map pc_title pics = [Some "a"; Some "b"] /\ map (fun p => pc_marks p) pics = [[At 0 0 (Some 1); At 1 0 (Some 2)]; [At 0 0 (Some 30); At 1 0 None]]%Q.
Proof. eexists. split; [vm_compute; reflexivity|]. split; reflexivity. Qed.
Example C147_colours_case : exists pic, grid_single (mkGrid true [0; 1]%Q [0]%Q) false [[[Some (-1); Some 2]]]%Q
    (post_init (mkConfig None "m" true None None (Some (Some (-3, 3)%Q)) true true false None false "both" None)) = Ok pic /\
  pc_scale pic = (Named "RdBu_r", inr (Some (Some (-3, 3)%Q))) /\ pc_bar pic = Some ("m", "both").
Proof. eexists. split; [vm_compute; reflexivity|]. split; reflexivity. Qed.

(** ** C148 *)
Definition titled (c : config) (t : string) : config :=
  mkConfig (Some t) (c_units c) (c_issym c) (c_cmap c) (c_cperc c) (c_clim c) (c_colorbar c) (c_lines c) (c_labels c) (c_norm c) (c_ids c) (c_extend c) (c_projection c).
Definition fixed_scale (c : config) : Prop := c_ids c = false /\ (c_clim c <> None \/ c_norm c <> None).
Lemma setup_fixed c t ht1 ht2 s1 s2 : fixed_scale c -> setup ht1 s1 c = setup ht2 s2 (titled c t).
Proof.
  intros [I S]. unfold setup, titled. cbn [c_ids c_cmap c_issym c_clim c_norm c_cperc c_units c_extend]. rewrite I.
  destruct (c_clim c) as [l|]; [reflexivity|]. destruct (c_norm c) as [n|]; [reflexivity|]. destruct S as [S|S]; contradiction.
Qed.
Lemma frame_single {P : Type} flat each plot draw (steps : list P) title c frs i s one :
  frames_of flat each draw steps title c = Ok frs -> nth_error steps i = Some s -> title i <> "" -> fixed_scale c -> c_lines c = true -> projection_of c = robinson ->
  (forall l, plot false [s] = Ok l -> draw s = Ok (Some l)) ->
  single_plot flat each plot false [s] (titled c (title i)) = Ok one -> nth_error frs i = Some one.
Proof.
  intros H Hs T Fx Ln Pr Dr H1. unfold frames_of in H. unfold single_plot in H1. rewrite <- (setup_fixed c (title i) true false (map flat steps) (map flat [s]) Fx) in H1.
  destruct (setup true (map flat steps) c) as [sb|e]; [|discriminate]. cbn [bind] in H, H1. destruct Fx as [I _].
  assert (N := numbered _ _ _ (shown_nth each c steps i s Hs)). rewrite shown_length, I in N. destruct (collect_nth _ _ _ _ _ H N) as (pic & Np & F). rewrite Np. f_equal. cbn [fst snd] in F.
  unfold shown, titled in H1. cbn [c_ids] in H1. rewrite I in H1. destruct (plot false [s]) as [l|e] eqn:Pl; [|discriminate]. cbn [bind] in H1.
  unfold frame in F. rewrite (Dr l eq_refl) in F. cbn [bind] in F. injection F as <-. injection H1 as <-. cbn [c_title c_lines c_labels c_colorbar]. rewrite Ln.
  change (projection_of _) with (projection_of c). rewrite Pr. destruct (title i); [contradiction|reflexivity].
Qed.

(** Frames show what single_plot shows: on grids that need no additional column, and on
    meshes with a table of nearest cells; in the default projection with grid lines,
    and with a given colour scale. *)
Theorem C148_frames_partial (g : grid) (m : mesh) (steps : list (list (list value))) (cells : list (list value)) (title : nat -> string) (c : config) (i : nat) :
  fixed_scale c -> c_lines c = true -> projection_of c = robinson -> title i <> "" ->
  (forall frs s one, wrap_lon (g_lon g) (columns g s) = Some (g_lon g, columns g s) ->
     grid_frames g steps title c = Ok frs -> nth_error steps i = Some s -> grid_single g false [s] (titled c (title i)) = Ok one -> nth_error frs i = Some one) /\
  (forall path frs s one, m_tree m = Some path ->
     mesh_frames m cells title c = Ok frs -> nth_error cells i = Some s -> mesh_single m false [s] (titled c (title i)) = Ok one -> nth_error frs i = Some one).
Proof.
  intros Fx Ln Pr T. split.
  - intros frs s one W H Hs H1. apply (frame_single _ _ (grid_plot g) _ _ _ _ _ _ _ _ H Hs T Fx Ln Pr); [|exact H1].
    intros l Hl. unfold grid_plot in Hl. rewrite W in Hl. unfold grid_draw. rewrite Hl. reflexivity.
  - intros path frs s one Mt H Hs H1. apply (frame_single _ _ (mesh_plot m) _ _ _ _ _ _ _ _ H Hs T Fx Ln Pr); [|exact H1].
    intros l Hl. unfold mesh_plot in Hl. unfold mesh_frame. rewrite Mt in *. destruct (open (m_trees m) path) as [t|e]; [|discriminate]. cbn [bind hd] in *. rewrite Hl. reflexivity.
Qed.
Print Assumptions C148_frames_partial.

(** The requested projection is ignored by every frame of every animation. *)
Theorem C148_projection_refuted (g : grid) (steps : list (list (list value))) (title : nat -> string) (c : config) (name : string) (frs : list picture) :
  c_projection c = Some name -> name <> "Robinson" -> grid_frames g steps title c = Ok frs ->
  forall p s one, In p frs -> grid_single g false [s] c = Ok one -> pc_projection p <> pc_projection one.
Proof.
  intros Cp N H p s one I H1. unfold grid_frames, frames_of in H. destruct (setup true _ c) as [sb|e]; [|discriminate]. cbn [bind] in H.
  destruct (collect_in _ _ _ _ H I) as (a & _ & F). unfold frame in F.
  assert (P1 : pc_projection p = "Robinson").
  { destruct (grid_draw g (snd a)) as [[l|]|e]; [| |discriminate]; cbn [bind] in F; [injection F as <-; reflexivity|]. destruct (c_colorbar c); [discriminate|]. injection F as <-. reflexivity. }
  unfold grid_single, single_plot in H1. destruct (setup false _ c) as [sb'|e]; [|discriminate]. cbn [bind] in H1. destruct (grid_plot g false _) as [l|e]; [|discriminate]. cbn [bind] in H1. injection H1 as <-.
  cbn [pc_projection]. unfold projection_of. rewrite Cp, P1. congruence.
Qed.
Print Assumptions C148_projection_refuted.

(** Frames of a triangulation always fail, and without any grid file, where single_plot
    raises, frames are empty. *)
Theorem C148_meshes_refuted (m : mesh) (cells : list (list value)) (title : nat -> string) (c : config) :
  m_tree m = None -> cells <> [] ->
  (forall path, m_tri m = Some path -> exists e, mesh_frames m cells title c = Err e) /\
  (m_tri m = None -> c_colorbar c = false -> forall frs, mesh_frames m cells title c = Ok frs ->
     length frs = length cells /\ (forall p, In p frs -> pc_marks p = []) /\
     forall has_time, exists e, mesh_single m has_time cells c = Err e).
Proof.
  intros Mt Ne. destruct cells as [|s0 cells]; [contradiction|]. clear Ne. split.
  - intros path Mp. unfold mesh_frames, frames_of. destruct (setup true _ c) as [sb|e]; [|exists e; reflexivity]. cbn [bind].
    assert (D : forall s, exists e, frame (mesh_frame m) c sb (title 0) s = Err e).
    { intro s. unfold frame, mesh_frame. rewrite Mt, Mp. destruct (open (m_tris m) path) as [t|e]; [|exists e; reflexivity]. cbn [bind].
      assert (A : exists e, tri_marks "auto" t s = Err e) by (unfold tri_marks; destruct (negb (forallb _ _)); exists ValueErr; reflexivity).
      destruct A as [e ->]. exists e. reflexivity. }
    unfold shown. destruct (c_ids c); cbn [map length seq combine collect fst snd]; [destruct (D (map where_positive s0)) as [e ->]|destruct (D s0) as [e ->]]; exists e; reflexivity.
  - intros Mp Cb frs H. unfold mesh_frames, frames_of in H. destruct (setup true _ c) as [sb|e]; [|discriminate]. cbn [bind] in H. split; [|split].
    + destruct (collect_ok _ _ _ H) as [L _]. rewrite L, combine_length, seq_length, shown_length. apply Nat.min_id.
    + intros p I. destruct (collect_in _ _ _ _ H I) as (a & _ & F). unfold frame, mesh_frame in F. rewrite Mt, Mp in F. cbn [bind] in F. rewrite Cb in F. injection F as <-. reflexivity.
    + intro ht. unfold mesh_single, single_plot. destruct (setup ht _ c) as [sb'|e]; [|exists e; reflexivity]. cbn [bind]. unfold mesh_plot. rewrite Mt, Mp. eexists. reflexivity.
Qed.
Print Assumptions C148_meshes_refuted.

(** A global grid: the column that closes the seam is missing in frames. *)
Definition limited : config := post_init (mkConfig None "" false None None (Some (Some (0, 9)%Q)) false true false None false "both" None).
Theorem C148_seam_refuted : exists g s frs one m, grid_frames g [s] (fun _ => "day") limited = Ok frs /\ grid_single g false [s] limited = Ok one /\
  In m (pc_marks one) /\ forall p, In p frs -> ~ In m (pc_marks p).
Proof.
  exists (mkGrid true [0; 120; 240]%Q [0]%Q), [[Some 1; Some 2; Some 3]]%Q. eexists. eexists. exists (At (0 + 360) 0 (Some 1))%Q.
  split; [vm_compute; reflexivity|]. split; [vm_compute; reflexivity|]. split; [cbn; tauto|].
  intros p [<-|[]] [E|[E|[E|[]]]]; discriminate.
Qed.
Print Assumptions C148_seam_refuted.
Example C148_case : exists frs one, fixed_scale limited /\ grid_frames (mkGrid true [0; 1]%Q [0]%Q) [[[Some 1; Some 2]]; [[Some 3; None]]]%Q (fun _ => "day") limited = Ok frs /\
  grid_single (mkGrid true [0; 1]%Q [0]%Q) false [[[Some 3; None]]]%Q (titled limited "day") = Ok one /\ nth_error frs 1 = Some one.
Proof. eexists. eexists. split; [split; [reflexivity|left; discriminate]|]. split; [vm_compute; reflexivity|]. split; vm_compute; reflexivity. Qed.

(** ** C149 *)
(** A colour map given by name cannot be used for IDs. *)
Theorem C149_named_maps_refuted (g : grid) (m : mesh) (c : config) (name : string) :
  c_ids c = true -> c_cmap c = Some (Named name) ->
  (forall has_time steps, exists e, grid_single g has_time steps c = Err e) /\ (forall has_time cells, exists e, mesh_single m has_time cells c = Err e).
Proof.
  intros I N. split; intros ht steps; [unfold grid_single|unfold mesh_single]; unfold single_plot, setup; rewrite I, N; destruct (max_id _); eexists; reflexivity.
Qed.
Print Assumptions C149_named_maps_refuted.

(** With a list of colours, long enough, or none given: IDs are drawn, zero and missing
    cells left out, each ID in a colour of its own, without a colour bar. *)
Lemma max_id_spec l largest : (exists q, In (Some q) l /\ (q == natQ largest)%Q) -> (forall q, In (Some q) l -> (q <= natQ largest)%Q) -> max_id l = Some largest.
Proof.
  assert (Vi : forall l q, In q (valid l) <-> In (Some q) l).
  { induction l0 as [|[x|] l0 IH]; intro q; cbn [valid In]; [tauto| |]; rewrite IH; (split; [intros [->|H]; auto|intros [E|H]; [injection E; auto|auto]]) || (split; [auto|intros [E|H]; [discriminate|exact H]]). }
  intros (q & Iq & Eq) Le. unfold max_id. destruct (valid l) as [|x r] eqn:V; [apply Vi in Iq; rewrite V in Iq; destruct Iq|].
  destruct (maxQ_spec r x) as [Mi Mm]. set (m := maxQ_of x r) in *. f_equal.
  assert (E : (m == natQ largest)%Q).
  { apply Qle_antisym; [apply Le, Vi; rewrite V; exact Mi|]. rewrite <- Eq. apply Mm. rewrite <- V. apply Vi. exact Iq. }
  rewrite (Qfloor_comp _ _ E). unfold natQ. rewrite Qfloor_Z. apply Nat2Z.id.
Qed.
Theorem C149_ids_partial (g : grid) (s : list (list value)) (c0 : config) (largest : nat) :
  let c := post_init c0 in
  c_ids c0 = true -> (forall name, c_cmap c0 <> Some (Named name)) ->
  (exists q, In (Some q) (List.concat s) /\ (q == natQ largest)%Q) -> (forall q, In (Some q) (List.concat s) -> (q <= natQ largest)%Q) ->
  (forall n, c_cmap c0 = Some (Listed n) -> largest <= n) -> g_rows_lat g = true -> 2 <= length (g_lon g) ->
  exists pic n, grid_single g false [s] c = Ok pic /\ pc_scale pic = (Listed n, inl (Bounds (id_bounds largest) n)) /\ pc_bar pic = None /\
    (forall lon lat v, In (At lon lat (Some v)) (pc_marks pic) -> (0 < v)%Q) /\
    forall id, 1 <= id <= largest -> exists k, colour largest (Some n) id = Ok k /\ k < n /\
    forall id' k', 1 <= id' <= largest -> colour largest (Some n) id' = Ok k' -> id <> id' -> k <> k'.
Proof.
  intros c I N Ex Mx Fit R L2. assert (M := max_id_spec _ _ Ex Mx). change (c_ids c0) with (c_ids c) in I. change (c_cmap c0) with (c_cmap c) in N, Fit.
  assert (Cb : c_colorbar c = false) by (unfold c in *; cbn [post_init c_ids c_colorbar] in *; rewrite I; reflexivity). clearbody c. clear Ex Mx c0.
  set (n := match c_cmap c with Some (Listed n) => n | _ => largest end).
  assert (Ln : largest <= n) by (unfold n; destruct (c_cmap c) as [[nm|k]|]; [destruct (N nm eq_refl)|apply Fit; reflexivity|lia]).
  assert (Se : setup false (map (@List.concat value) [s]) c = Ok (mkStyle (Listed n) (Some (Bounds (id_bounds largest) n)) None, ("ID", "neither"))).
  { unfold setup. rewrite I. cbn [map List.concat]. rewrite app_nil_r, M. unfold n in *. destruct (c_cmap c) as [[nm|k]|]; [destruct (N nm eq_refl)| |reflexivity].
    destruct (Nat.ltb_spec k largest) as [?|_]; [lia|reflexivity]. }
  assert (Pl : exists l, grid_plot g false (shown each_row c [s]) = Ok l).
  { unfold shown. rewrite I. cbn [map]. unfold grid_plot, grid_marks, columns. rewrite R. destruct (wrap_lon _ _) as [(lo, co)|] eqn:W; [eexists; reflexivity|]. exfalso.
    unfold wrap_lon in W. destruct (g_lon g) as [|x [|y r]]; cbn in L2; try lia. cbn [length transpose seq map] in W. destruct (Qltb _ _); discriminate. }
  destruct Pl as [l Pl]. set (pic := mkPicture l (Listed n, inl (Bounds (id_bounds largest) n)) (match c_title c with Some "" => None | t => t end) (projection_of c) (c_lines c) (c_labels c) (if c_colorbar c then Some ("ID", "neither") else None)).
  assert (G : grid_single g false [s] c = Ok pic) by (unfold grid_single, single_plot; rewrite Se; cbn [bind]; rewrite Pl; reflexivity).
  exists pic, n. split; [exact G|]. split; [reflexivity|]. split; [cbn [pic pc_bar]; rewrite Cb; reflexivity|]. split.
  - intros lon lat v Hm. destruct (C146_grid_values_partial g false s c pic R G) as [_ B]. destruct (B _ Hm) as (i & j & _ & _ & E).
    assert (Wp : forall w, Some v = shown_value c w -> (0 < v)%Q).
    { intros w Ew. unfold shown_value in Ew. rewrite I in Ew. unfold where_positive in Ew. destruct w as [q|]; [|discriminate]. destruct (Qltb 0 q) eqn:Lt; [|discriminate]. injection Ew as ->. apply Qltb_spec in Lt. exact Lt. }
    destruct E as [E|(_ & E)]; injection E as _ _ E; apply (Wp _ E).
  - intros id Hid. apply (C100_own_colour largest (Some n)); [intros k E; injection E as <-; exact Ln|exact Hid].
Qed.
Print Assumptions C149_ids_partial.
Example C149_case : exists pic, grid_single (mkGrid true [0; 1]%Q [0]%Q) false [[[Some 0; Some 2]]]%Q (post_init (mkConfig None "" false (Some (Listed 5)) None None true true false None true "both" None)) = Ok pic /\
  pc_marks pic = [At 0 0 None; At 1 0 (Some 2)]%Q /\ pc_bar pic = None.
Proof. eexists. split; [vm_compute; reflexivity|]. split; reflexivity. Qed.
