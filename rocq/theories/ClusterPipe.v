From Verif Require Import Base Graph GraphProofs Label LabelSpec LabelProofs Filter FilterSpec FilterProofs FilterGridProofs
  Overlap OverlapSpec OverlapProofs ConsolidateProofs
  Merge MergeSpec MergeProofs MergeLoop MergeMore Partition PartitionMore Cluster ClusterSpec ClusterProofs ClusterMore ClusterFinal.
Open Scope nat_scope.

Lemma object_area_pos w f x : length f = length w -> (forall q, In q w -> (0 < q)%Q) -> In x f -> (0 < object_area w f x)%Q.
Proof.
  intros L P X. destruct (In_nth _ _ 0%Z X) as (k & K & E). unfold object_area.
  assert (G : forall n g, (forall i, i < n -> (0 <= g i)%Q) -> (0 <= totalQ g n)%Q).
  { induction n as [|n IH]; intros g H; cbn [totalQ]; [apply Qle_refl|].
    apply (Qplus_le_compat 0 _ 0); [apply IH; intros; apply H; lia|apply H; lia]. }
  assert (W : forall i, i < length f -> (0 < nth i w 0)%Q) by (intros i I; apply P, nth_In; lia).
  set (g := fun k => if Z.eqb (nth k f 0%Z) x then nth k w 0%Q else 0%Q).
  assert (Gn : forall i, i < length f -> (0 <= g i)%Q).
  { intros i I. unfold g. destruct (Z.eqb _ _); [apply Qlt_le_weak, W; exact I|apply Qle_refl]. }
  assert (Gk : (0 < g k)%Q) by (unfold g; rewrite E, Z.eqb_refl; apply W; exact K).
  clearbody g. clear - G Gn Gk K. revert Gn K. induction (length f) as [|n IH]; intros Gn K; [lia|]. cbn [totalQ].
  destruct (Nat.eq_dec k n) as [->|N].
  - assert (A : (0 <= totalQ g n)%Q) by (apply G; intros; apply Gn; lia).
    apply (Qlt_le_trans _ (0 + g n)); [rewrite Qplus_0_l; exact Gk|]. apply Qplus_le_compat; [exact A|apply Qle_refl].
  - assert (A : (0 < totalQ g n)%Q) by (apply IH; [intros; apply Gn; lia|lia]).
    apply (Qlt_le_trans _ (totalQ g n + 0)); [rewrite Qplus_0_r; exact A|].
    apply Qplus_le_compat; [apply Qle_refl|apply Gn; lia].
Qed.

Section Pairs.
Variables (w : list Q) (cent : list bool -> Q * Q) (thr : Q) (fields : list (list Z)) (ps : props).
Hypothesis Hs : labelled_series (length w) fields.
Hypothesis Ht : table_for w cent fields ps.
Hypothesis Hw : forall q, In q w -> (0 < q)%Q.

Lemma table_area t x : In x (nth t fields []) -> (0 < x)%Z ->
  exists p, lookup x ps = Some p /\ (p_area p == object_area w (nth t fields []) x)%Q /\ (0 < p_area p)%Q.
Proof.
  intros X P. destruct Ht as (N & I & A). assert (J : In x (prop_ids ps)) by (apply I; eauto).
  apply lookup_ids in J. destruct J as (p & E). exists p. split; [exact E|].
  assert (B := lookup_In _ _ _ E). destruct (A t x p X B) as [B1 _]. split; [exact B1|]. rewrite B1.
  apply object_area_pos; [|exact Hw|exact X]. destruct Hs as (L & _). apply L.
  destruct (Nat.lt_ge_cases t (length fields)) as [T|T]; [apply nth_In; exact T|rewrite nth_overflow in X by exact T; destruct X].
Qed.
Lemma table_pos id p : lookup id ps = Some p -> (0 < p_area p)%Q.
Proof.
  intro E. assert (J : In id (prop_ids ps)) by (apply lookup_ids; eauto). destruct Ht as (N & I & A).
  apply I in J. destruct J as (P & t & X). destruct (table_area t id X P) as (p' & E' & _ & Q0). congruence.
Qed.
Lemma meets_left a b i j : meets a b i j -> In i a.
Proof. intros (k & K & <- & _). apply nth_In. exact K. Qed.
Lemma meets_right a b i j : length a = length b -> meets a b i j -> In j b.
Proof. intros L (k & K & _ & <-). apply nth_In. lia. Qed.

Lemma overlap_total t i j : S t < length fields -> (0 < i)%Z -> (0 < j)%Z ->
  meets (nth t fields []) (nth (S t) fields []) i j ->
  (totalQ (fun u => shared_area w (nth u fields []) (nth (S u) fields []) i j) (length fields - 1) ==
   shared_area w (nth t fields []) (nth (S t) fields []) i j)%Q.
Proof.
  intros T Pi Pj M. apply (totalQ_single (fun u => shared_area w (nth u fields []) (nth (S u) fields []) i j) (length fields - 1) t); [lia|].
  intros u U Ne. apply shared_zero. intro M'. apply Ne. destruct Hs as (_ & _ & One & _).
  apply (One i); [exact Pi|eapply meets_left; exact M'|eapply meets_left; exact M].
Qed.

Lemma final_pair i j st : s_props st = ps ->
  (In (i, j) (final_overlaps w thr fields st) <-> consecutive_overlap w thr fields i j).
Proof.
  intro Es. unfold final_overlaps. rewrite Es. rewrite in_map_iff.
  assert (Hl : forall f, In f fields -> length f = length w) by (apply Hs).
  assert (Ln : forall t, t < length fields -> length (nth t fields []) = length w) by (intros; apply Hl, nth_In; assumption).
  split.
  - intros (r & E & R). unfold row_pair in E. injection E as <- <-.
    apply (enforce_spec thr ps _ r table_pos) in R. destruct R as (R & p0 & p1 & E0 & E1 & T).
    assert (X : exists n, In (mkRow (r_from r) (r_to r) n) (find_overlapping w fields)) by (exists (r_area r); destruct r; exact R).
    apply (find_overlapping_pair w fields Hl) in X. destruct X as (Pi & Pj & t & St & M).
    exists t. split; [exact St|]. split; [exact Pi|]. split; [exact Pj|]. split; [exact M|].
    assert (Ar := find_overlapping_area w fields Hl r R). rewrite (overlap_total t _ _ St Pi Pj M) in Ar.
    destruct (table_area t (r_from r)) as (q0 & F0 & A0 & _); [eapply meets_left; exact M|exact Pi|].
    destruct (table_area (S t) (r_to r)) as (q1 & F1 & A1 & _).
    { eapply meets_right; [|exact M]. rewrite !Ln by lia. reflexivity. } { exact Pj. }
    assert (p0 = q0) by congruence. assert (p1 = q1) by congruence. subst q0 q1.
    rewrite <- A0, <- A1, <- Ar. tauto.
  - intros (t & St & Pi & Pj & M & T).
    assert (X : exists n, In (mkRow i j n) (find_overlapping w fields)).
    { apply (find_overlapping_pair w fields Hl). split; [exact Pi|]. split; [exact Pj|]. exists t. auto. }
    destruct X as (n & R). exists (mkRow i j n). split; [reflexivity|].
    apply (enforce_spec thr ps _ _ table_pos). split; [exact R|]. cbn [r_from r_to r_area].
    assert (Ar := find_overlapping_area w fields Hl _ R). cbn [r_from r_to r_area] in Ar. rewrite (overlap_total t _ _ St Pi Pj M) in Ar.
    destruct (table_area t i) as (q0 & F0 & A0 & _); [eapply meets_left; exact M|exact Pi|].
    destruct (table_area (S t) j) as (q1 & F1 & A1 & _).
    { eapply meets_right; [|exact M]. rewrite !Ln by lia. reflexivity. } { exact Pj. }
    exists q0, q1. split; [exact F0|]. split; [exact F1|]. rewrite A0, A1, Ar. tauto.
Qed.

(** Overlapping objects are at consecutive times. *)
Lemma overlap_times i j : consecutive_overlap w thr fields i j ->
  exists t, S t < length fields /\ In i (nth t fields []) /\ In j (nth (S t) fields []) /\ (0 < i)%Z /\ (0 < j)%Z.
Proof.
  intros (t & T & Pi & Pj & M & _). exists t. split; [exact T|]. split; [eapply meets_left; exact M|].
  split; [|auto]. eapply meets_right; [|exact M]. destruct Hs as (L & _).
  rewrite !L by (apply nth_In; lia). reflexivity.
Qed.

(** Along a chain of overlaps every time between the ends is visited. *)
Lemma chain_visits x y : chained (consecutive_overlap w thr fields) x y -> (0 < x)%Z ->
  forall a b t, In x (nth a fields []) -> In y (nth b fields []) -> (a <= t <= b \/ b <= t <= a) ->
  exists z, (0 < z)%Z /\ In z (nth t fields []) /\ chained (consecutive_overlap w thr fields) x z.
Proof.
  destruct Hs as (_ & _ & One & _).
  induction 1 as [x|x y z R C IH|x y z R C IH]; intros P a b t A B T.
  - assert (a = b) by (apply (One x); assumption). assert (t = a) by lia. subst. exists x. split; [exact P|]. split; [exact A|constructor].
  - destruct (overlap_times _ _ R) as (u & U & I & J & _ & Py). assert (u = a) by (apply (One x); assumption). subst u.
    destruct (Nat.eq_dec t a) as [->|Ne]; [exists x; split; [exact P|]; split; [exact A|constructor]|].
    destruct (IH Py (S a) b t J B) as (v & V1 & V2 & V3); [lia|]. exists v. split; [exact V1|]. split; [exact V2|].
    eapply chained_fwd; eassumption.
  - destruct (overlap_times _ _ R) as (u & U & I & J & Py & _). assert (S u = a) by (apply (One x); assumption). subst a.
    destruct (Nat.eq_dec t (S u)) as [->|Ne]; [exists x; split; [exact P|]; split; [exact A|constructor]|].
    destruct (IH Py u b t I B) as (v & V1 & V2 & V3); [lia|]. exists v. split; [exact V1|]. split; [exact V2|].
    eapply chained_bwd; eassumption.
Qed.
End Pairs.

(** ** Merging followed by clustering *)
Lemma pad_In n l p : In p (pad_to n l) -> (0 < p)%Z -> In p l.
Proof. unfold pad_to. rewrite in_app_iff. intros [H|H] P; [exact H|]. apply repeat_spec in H. lia. Qed.

Lemma split_by_concat {A} sizes : forall l : list A, fold_right Nat.add 0 sizes = length l -> concat (split_by sizes l) = l.
Proof.
  induction sizes as [|k r IH]; intros l H; cbn [split_by concat fold_right] in *.
  - destruct l; [reflexivity|discriminate].
  - rewrite IH by (rewrite skipn_length; lia). apply firstn_skipn.
Qed.

Section Run.
Variables (w : list Q) (cent : list bool -> Q * Q) (thr : Q).
Variable part : props -> list Z -> list bool -> list Z -> list Z -> list Z.
Hypothesis Cov : covers (length w) part.
Hypothesis Hw : forall q, In q w -> (0 < q)%Q.
Variable chunks : list (list (list Z)).
Hypothesis In0 : labelled_series (length w) (concat chunks).
Let st := split_and_merge w cent thr part chunks.
Let objs := fst st.
Let pairs := final_overlaps w thr objs (snd st).
Let mg := merge_dataset (s_events (snd st)).

Lemma objs_series : labelled_series (length w) objs.
Proof. exact (final_series w cent thr part Cov chunks In0). Qed.
Lemma objs_table : table_for w cent objs (s_props (snd st)).
Proof. exact (final_table w cent thr part Cov chunks In0). Qed.
Lemma objs_pair i j : In (i, j) pairs <-> consecutive_overlap w thr objs i j.
Proof. exact (final_pair w cent thr objs (s_props (snd st)) objs_series objs_table Hw i j (snd st) eq_refl). Qed.

Lemma objs_input : cluster_input objs pairs (m_parents mg).
Proof.
  split; [|split].
  - intros f x Ff X. destruct objs_series as (_ & N & _). exact (N f x Ff X).
  - intros a b P. apply objs_pair in P. destruct (overlap_times w thr objs objs_series Hw a b P)
      as (t & T & A & B & Pa & Pb).
    split; [exact Pa|]. split; [exact Pb|]. split; apply concat_In_nth; [exists t|exists (S t)]; (split; [lia|assumption]).
  - intros row p R P Pp. unfold mg, merge_dataset in R. cbn [m_parents] in R.
    apply in_map_iff in R. destruct R as (l & <- & R). apply in_map_iff in R. destruct R as (e & <- & E).
    apply pad_In in P; [|exact Pp].
    destruct (final_events w cent thr part Cov chunks In0 e E) as (Te & _ & _ & _ & _ & _ & Pe & _).
    destruct (Pe p P) as [_ X]. apply concat_In_nth. exists (e_time e - 1). split; [|exact X].
    destruct (Nat.lt_ge_cases (e_time e - 1) (length objs)) as [L|L]; [exact L|].
    fold st in X. fold objs in X. rewrite nth_overflow in X by exact L. destruct X.
Qed.
Lemma mg_lengths : length (m_time mg) = length (m_parents mg).
Proof. unfold mg, merge_dataset. cbn [m_time m_parents]. rewrite !map_length. reflexivity. Qed.
End Run.

(** ** From binary data *)
Section Grid.
Variables (regional : bool) (nt ny nx : nat) (data : list bool).
Hypothesis L : length data = nt * ny * nx.
Let lab := fst (identify_grid regional false nt ny nx data).
Let fields := time_fields nt ny nx lab.

Lemma fields_nth t : t < nt -> nth t fields [] = slice ny nx 0%Z lab t.
Proof.
  intro T. unfold fields, time_fields. rewrite (nth_map_gen _ _ t 0 []) by (rewrite seq_length; exact T).
  rewrite seq_nth by exact T. reflexivity.
Qed.
Lemma fields_length : length fields = nt.
Proof. unfold fields, time_fields. rewrite map_length, seq_length. reflexivity. Qed.
Lemma fields_cell t y x : t < nt -> y < ny -> x < nx ->
  (0 < id_at fields t (y * nx + x))%Z <-> nth (flat ny nx (t, y, x)) data false = true.
Proof.
  intros T Y X. unfold id_at. rewrite fields_nth by exact T. rewrite slice_nth by assumption.
  apply (lab_pos regional nt ny nx data L (t, y, x)). repeat split; assumption.
Qed.
Lemma fields_series : (exists k, nth k data false = true) -> labelled_series (ny * nx) fields.
Proof.
  intros (k & K). split; [|split; [|split]].
  - intros f Ff. destruct (In_nth _ _ [] Ff) as (t & T & <-). rewrite fields_length in T. rewrite fields_nth by exact T.
    unfold slice. rewrite map_length. apply slice_cells_length.
  - intros f x Ff X. destruct (In_nth _ _ [] Ff) as (t & T & <-). rewrite fields_length in T. rewrite fields_nth in X by exact T.
    apply slice_In in X. destruct X as (y & c & _ & _ & <-). apply label_on_nonneg.
  - intros x j l P J K'.
    assert (D := slices_disjoint regional nt ny nx data L). unfold time_disjoint in D. apply (D j l x P).
    + exact J.
    + exact K'.
  - assert (B : k < length data).
    { destruct (Nat.lt_ge_cases k (length data)) as [H|H]; [exact H|]. rewrite nth_overflow in K by exact H. discriminate. }
    rewrite L in B. destruct (flat_surj nt ny nx data L k B) as (c & R & E). destruct c as [[t y] x].
    destruct R as (T & Y & X). exists t, (id_at fields t (y * nx + x)). split.
    + apply fields_cell; auto. rewrite E. exact K.
    + apply nth_In. rewrite fields_nth by exact T. unfold slice. rewrite map_length, slice_cells_length. nia.
Qed.
End Grid.

(** ** The result of tracking *)
Lemma built_of ca fields pairs mg ev : cluster_input fields pairs (m_parents mg) ->
  cluster_rename ca fields pairs mg = Ok ev ->
  exists tab n, ev = built ca fields mg tab n /\ facts fields pairs tab n.
Proof.
  intros H E. destruct (cluster_built ca fields pairs mg H) as (tab & n & E' & F). exists tab, n.
  split; [congruence|exact F].
Qed.

Lemma track_result cent thr part w ca sizes lab : covers (length w) part -> (forall q, In q w -> (0 < q)%Q) ->
  fold_right Nat.add 0 sizes = length lab -> labelled_series (length w) lab ->
  let st := split_and_merge w cent thr part (split_by sizes lab) in
  let mg := merge_dataset (s_events (snd st)) in
  let pairs := final_overlaps w thr (fst st) (snd st) in
  cluster_input (fst st) pairs (m_parents mg) /\
  exists ev, cluster_rename ca (fst st) pairs mg = Ok ev /\
    track_objects cent thr part w ca sizes lab = Ok (ev, mg).
Proof.
  intros Cov Hw Hs Hl st mg pairs. assert (Ec := split_by_concat sizes lab Hs).
  assert (Hl' : labelled_series (length w) (concat (split_by sizes lab))) by (rewrite Ec; exact Hl).
  assert (I := objs_input w cent thr part Cov Hw (split_by sizes lab) Hl').
  split; [exact I|]. destruct (cluster_built ca _ _ _ I) as (tab & n & E & F).
  fold st in E. fold mg in E. fold pairs in E.
  exists (built ca (fst st) mg tab n). split; [exact E|]. unfold track_objects. fold st. fold mg. fold pairs. rewrite E. cbn [bind].
  f_equal. f_equal. unfold built. cbn [v_field v_count v_global v_presence v_start v_end v_area v_ledger]. f_equal.
  rewrite map_map. apply map_ext_in. intros f Ff. unfold map_ids. rewrite map_map. apply map_ext_in. intros v V.
  destruct (Z.ltb_spec 0 v) as [P|P]; [|reflexivity].
  assert (O : In v (concat (fst st))) by (apply in_concat; eauto).
  assert (R := t_range _ _ _ _ F v P O). destruct (Z.ltb_spec 0 (nth (Z.to_nat v) tab 0%Z)); [reflexivity|lia].
Qed.
