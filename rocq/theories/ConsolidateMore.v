(** Which IDs consolidate_object_ids identifies. *)
From Coq Require Import Sorted.
From Verif Require Import Base Filter FilterProofs Overlap OverlapSpec OverlapProofs ConsolidateProofs.
Open Scope nat_scope.

Definition area_table (ps : props) (id : Z) : option Q := option_map p_area (lookup id ps).

Lemma accepted_row w thr ps f2 f1 p c :
  length f2 = length f1 -> length f2 = length w ->
  (forall id q, lookup id ps = Some q -> (0 < p_area q)%Q) ->
  (accepted w thr (area_table ps) f2 f1 p c <->
   exists r, In r (enforce_threshold thr ps (check_overlap w f2 f1)) /\ r_from r = p /\ r_to r = c).
Proof.
  intros L Lw Hp. split.
  - intros (P & C & M & ap & ac & Ap & Ac & T).
    destruct (check_overlap_complete w f2 f1 L Lw p c P C M) as (r & R & F & E).
    exists r. split; [|auto]. apply enforce_spec; [exact Hp|]. split; [exact R|].
    destruct (check_overlap_sound w f2 f1 L Lw r R) as (_ & _ & _ & A). rewrite F, E in A |- *.
    unfold area_table in Ap, Ac. destruct (lookup p ps) as [q0|] eqn:E0; [|discriminate].
    destruct (lookup c ps) as [q1|] eqn:E1; [|discriminate]. cbn in Ap, Ac. inversion Ap; inversion Ac; subst ap ac.
    exists q0, q1. split; [reflexivity|]. split; [reflexivity|]. rewrite A. tauto.
  - intros (r & R & <- & <-). apply enforce_spec in R; [|exact Hp].
    destruct R as (R & p0 & p1 & E0 & E1 & T).
    destruct (check_overlap_sound w f2 f1 L Lw r R) as (P & C & M & A).
    split; [exact P|]. split; [exact C|]. split; [exact M|].
    exists (p_area p0), (p_area p1). unfold area_table. rewrite E0, E1. cbn.
    split; [reflexivity|]. split; [reflexivity|]. rewrite <- A. tauto.
Qed.

Definition group (ov : list row) (p : Z) : list Z := map r_to (filter (fun r => Z.eqb (r_from r) p) ov).
Lemma group_In ov p c : In c (group ov p) <-> exists r, In r ov /\ r_from r = p /\ r_to r = c.
Proof.
  unfold group. rewrite in_map_iff. split.
  - intros (r & E & H). apply filter_In in H. destruct H as [H P]. apply Z.eqb_eq in P. exists r. auto.
  - intros (r & H & P & E). exists r. split; [exact E|]. apply filter_In. split; [exact H|]. apply Z.eqb_eq. exact P.
Qed.
Lemma group_NoDup ov p : NoDup (map row_pair ov) -> NoDup (group ov p).
Proof.
  unfold group. induction ov as [|r ov IH]; intro Nd; [constructor|].
  cbn [map] in Nd. inversion Nd as [|? ? Nr Nd']; subst. cbn [filter].
  destruct (Z.eqb_spec (r_from r) p) as [Er|]; [|apply IH; exact Nd'].
  cbn [map]. constructor; [|apply IH; exact Nd'].
  intro C. apply in_map_iff in C. destruct C as (r' & Et & R). apply filter_In in R.
  destruct R as [R Ep]. apply Z.eqb_eq in Ep. apply Nr. apply in_map_iff. exists r'.
  split; [|exact R]. unfold row_pair. congruence.
Qed.

(** Every step renames whole objects. *)
Lemma rename_children_map first rest : forall f ps,
  exists g, fst (fold_left (rename_child first) rest (f, ps)) = map g f.
Proof.
  induction rest as [|c rest IH]; intros f ps; cbn [fold_left].
  - exists (fun v => v). rewrite map_id. reflexivity.
  - unfold rename_child at 2. destruct (memZ c (prop_ids ps)).
    + destruct (IH (rename c first f) (drop_id c ps)) as (g & G). eexists. rewrite G. unfold rename. rewrite map_map. reflexivity.
    + apply IH.
Qed.
Lemma consolidate_parent_map w cent ov f ps p :
  exists g, fst (consolidate_parent w cent ov (f, ps) p) = map g f.
Proof.
  assert (Stay : exists g, f = map g f) by (exists (fun v => v); rewrite map_id; reflexivity).
  unfold consolidate_parent. destruct (negb (memZ p (prop_ids ps))); [exact Stay|].
  destruct (map r_to _) as [|first [|c rest]]; [exact Stay|exact Stay|].
  destruct (negb (memZ first (prop_ids ps))); [exact Stay|].
  destruct (rename_children_map first (c :: rest) f ps) as (g & G).
  destruct (fold_left (rename_child first) (c :: rest) (f, ps)) as [f' ps']. cbn [fst] in G.
  exists g. destruct (memZ first f'); exact G.
Qed.
Lemma consolidate_parents_map w cent ov parents : forall f ps,
  exists g, fst (fold_left (consolidate_parent w cent ov) parents (f, ps)) = map g f.
Proof.
  induction parents as [|p parents IH]; intros f ps; cbn [fold_left].
  - exists (fun v => v). rewrite map_id. reflexivity.
  - destruct (consolidate_parent_map w cent ov f ps p) as (g & G).
    destruct (consolidate_parent w cent ov (f, ps) p) as [f1 ps1]. cbn [fst] in G. subst f1.
    destruct (IH (map g f) ps1) as (g2 & G2). exists (fun v => g2 (g v)). rewrite G2, map_map. reflexivity.
Qed.
Lemma consolidate_map w cent thr f2 f1 ps : exists g, fst (consolidate w cent thr f2 f1 ps) = map g f1.
Proof. apply consolidate_parents_map. Qed.

(** The effect when everything involved is still in the table. *)
Definition fold_ids (first : Z) (rest : list Z) (v : Z) : Z := if memZ v rest then first else v.

Lemma rename_children_exact first rest : forall f ps,
  ~ In first rest -> NoDup rest -> (forall c, In c rest -> In c (prop_ids ps)) ->
  let st := fold_left (rename_child first) rest (f, ps) in
  fst st = map (fold_ids first rest) f /\
  forall x, In x (prop_ids (snd st)) <-> In x (prop_ids ps) /\ ~ In x rest.
Proof.
  induction rest as [|c rest IH]; intros f ps F N Hc; cbn [fold_left].
  - cbn [fst snd]. split; [|intro x; simpl; tauto].
    rewrite <- (map_id f) at 1. apply map_ext. intro v. reflexivity.
  - inversion N as [|? ? Nc N']; subst.
    unfold rename_child at 2. unfold rename_child at 3.
    assert (M : memZ c (prop_ids ps) = true) by (apply memZ_In, Hc; left; reflexivity). rewrite M.
    destruct (IH (rename c first f) (drop_id c ps)) as (A & B).
    + intro C. apply F. right. exact C.
    + exact N'.
    + intros x X. apply drop_ids. split; [apply Hc; right; exact X|]. intros ->. contradiction.
    + split.
      * rewrite A. unfold rename. rewrite map_map. apply map_ext. intro v. unfold fold_ids.
        cbn [memZ existsb]. change (existsb (Z.eqb v) rest) with (memZ v rest).
        destruct (Z.eqb_spec v c) as [E|E]; cbn [orb].
        -- assert (Mf : memZ first rest = false) by (apply memZ_false; intro C; apply F; right; exact C).
           rewrite Mf. reflexivity.
        -- reflexivity.
      * intro x. rewrite B, drop_ids. simpl. intuition.
Qed.

Lemma consolidate_parent_exact w cent ov f ps p first c rest :
  NoDup (group ov p) -> group ov p = first :: c :: rest ->
  In p (prop_ids ps) -> (forall x, In x (group ov p) -> In x (prop_ids ps)) ->
  let st := consolidate_parent w cent ov (f, ps) p in
  fst st = map (fold_ids first (c :: rest)) f /\
  forall x, In x (prop_ids (snd st)) <-> In x (prop_ids ps) /\ ~ In x (c :: rest).
Proof.
  intros N E P Hc. unfold consolidate_parent.
  assert (M : memZ p (prop_ids ps) = true) by (apply memZ_In; exact P). rewrite M. cbn [negb].
  fold (group ov p). rewrite E.
  assert (M2 : memZ first (prop_ids ps) = true) by (apply memZ_In, Hc; rewrite E; left; reflexivity).
  rewrite M2. cbn [negb]. rewrite E in N. inversion N as [|? ? Nf N']; subst.
  destruct (rename_children_exact first (c :: rest) f ps Nf N') as (A & B).
  { intros x X. apply Hc. rewrite E. right. exact X. }
  destruct (fold_left (rename_child first) (c :: rest) (f, ps)) as [f' ps']. cbn [fst snd] in *.
  destruct (memZ first f'); cbn [fst snd].
  - split; [exact A|]. intro x. rewrite set_prop_ids. apply B.
  - split; [exact A|exact B].
Qed.

Lemma fold_ids_in first rest x y : In x (first :: rest) -> In y (first :: rest) ->
  fold_ids first rest x = fold_ids first rest y.
Proof.
  assert (H : forall z, In z (first :: rest) -> fold_ids first rest z = first).
  { intros z [->|Z]; unfold fold_ids; [destruct (memZ z rest); reflexivity|].
    assert (M : memZ z rest = true) by (apply memZ_In; exact Z). rewrite M. reflexivity. }
  intros X Y. rewrite !H; auto.
Qed.
Lemma fold_ids_out first rest x : ~ In x rest -> fold_ids first rest x = x.
Proof. intro H. unfold fold_ids. apply memZ_false in H. rewrite H. reflexivity. Qed.
Lemma fold_ids_val first rest x : fold_ids first rest x = x \/ (In x rest /\ fold_ids first rest x = first).
Proof. unfold fold_ids. destruct (memZ x rest) eqn:M; [right|left; reflexivity]. apply memZ_In in M. auto. Qed.

Lemma consolidate_parents_exact w cent ov parents : NoDup (map row_pair ov) ->
  (forall p q c, In c (group ov p) -> In c (group ov q) -> p = q) ->
  (forall p q, In p parents -> ~ In p (group ov q)) ->
  (forall p, In p parents -> 1 < length (group ov p)) ->
  NoDup parents -> forall f ps,
  (forall p, In p parents -> In p (prop_ids ps) /\ forall c, In c (group ov p) -> In c (prop_ids ps)) ->
  exists g, fst (fold_left (consolidate_parent w cent ov) parents (f, ps)) = map g f /\
    (forall p x y, In p parents -> In x (group ov p) -> In y (group ov p) -> g x = g y) /\
    (forall x, (forall p, In p parents -> ~ In x (group ov p)) -> g x = x) /\
    (forall x, g x = x \/ exists p, In p parents /\ In x (group ov p) /\ In (g x) (group ov p)).
Proof.
  intros Nd Dj Pn Sz. induction parents as [|p parents IH]; intros N f ps Hp; cbn [fold_left].
  - exists (fun v => v). cbn [fst]. rewrite map_id. split; [reflexivity|]. split; [intros q x y []|]. split; auto.
  - inversion N as [|? ? Np N']; subst.
    destruct (group ov p) as [|first [|c rest]] eqn:E.
    { specialize (Sz p (or_introl eq_refl)). rewrite E in Sz. simpl in Sz. lia. }
    { specialize (Sz p (or_introl eq_refl)). rewrite E in Sz. simpl in Sz. lia. }
    destruct (Hp p (or_introl eq_refl)) as [Hpp Hpc].
    destruct (consolidate_parent_exact w cent ov f ps p first c rest (group_NoDup ov p Nd) E Hpp Hpc) as (A & B).
    destruct (consolidate_parent w cent ov (f, ps) p) as [f1 ps1]. cbn [fst snd] in A, B. subst f1.
    assert (Hout : forall q x, In q parents -> In x (group ov q) -> ~ In x (first :: c :: rest)).
    { intros q x Q X C. rewrite <- E in C. assert (p = q) by (apply (Dj p q x); auto). subst. contradiction. }
    destruct (IH (fun q r Q => Pn q r (or_intror Q)) (fun q Q => Sz q (or_intror Q)) N'
                (map (fold_ids first (c :: rest)) f) ps1) as (g & G1 & G2 & G3 & G4).
    { intros q Q. destruct (Hp q (or_intror Q)) as [Hq Hc]. split.
      - apply B. split; [exact Hq|]. intro C. apply (Pn q p (or_intror Q)). rewrite E. right. exact C.
      - intros x X. apply B. split; [apply Hc; exact X|]. intro C. apply (Hout q x Q X). right. exact C. }
    assert (Gf : g first = first).
    { apply G3. intros q Q C. apply (Hout q first Q C). left. reflexivity. }
    exists (fun v => g (fold_ids first (c :: rest) v)). split; [rewrite G1, map_map; reflexivity|].
    split; [|split].
    + intros q x y [<-|Q] X Y.
      * f_equal. rewrite E in X, Y. apply fold_ids_in; assumption.
      * rewrite !fold_ids_out.
        -- apply (G2 q); assumption.
        -- intro C. apply (Hout q y Q Y). right. exact C.
        -- intro C. apply (Hout q x Q X). right. exact C.
    + intros x X. rewrite fold_ids_out.
      * apply G3. intros q Q. apply X. right. exact Q.
      * intro C. apply (X p (or_introl eq_refl)). rewrite E. right. exact C.
    + intro x. destruct (fold_ids_val first (c :: rest) x) as [Ex|[Hx Ex]]; rewrite Ex.
      * destruct (G4 x) as [H|(q & Q & H1 & H2)]; [left; exact H|right; exists q; auto using in_cons].
      * right. exists p. split; [left; reflexivity|]. rewrite Gf, E. split; [right; exact Hx|left; reflexivity].
Qed.

Lemma splitting_In ov p : In p (splitting_parents ov) <-> 1 < length (group ov p).
Proof.
  unfold splitting_parents. rewrite filter_In, unique_codes_In.
  assert (E : length (group ov p) = count (fun r => Z.eqb (r_from r) p) ov) by (unfold group, count; apply map_length).
  rewrite E. split.
  - intros [_ H]. apply Nat.ltb_lt in H. exact H.
  - intro H. split; [|apply Nat.ltb_lt; exact H].
    assert (H' : 0 < count (fun r => Z.eqb (r_from r) p) ov) by lia.
    apply count_pos in H'. destruct H' as (r & R & Er). apply Z.eqb_eq in Er. subst. apply in_map. exact R.
Qed.

Lemma nth_map0 g (f : list Z) k : k < length f -> nth k (map g f) 0%Z = g (nth k f 0%Z).
Proof.
  intro K. rewrite (nth_indep (map g f) 0%Z (g 0%Z)) by (rewrite map_length; exact K). apply map_nth.
Qed.

(** Statement about cells, with no child of two parents and IDs that do not
    persist from t-2 to t-1. *)
Lemma consolidate_identifies w cent thr f2 f1 ps :
  length f2 = length f1 -> length f2 = length w ->
  (forall id q, lookup id ps = Some q -> (0 < p_area q)%Q) ->
  (forall x, (0 < x)%Z -> In x f2 -> ~ In x f1) ->
  (forall p q c, accepted w thr (area_table ps) f2 f1 p c -> accepted w thr (area_table ps) f2 f1 q c -> p = q) ->
  let f := fst (consolidate w cent thr f2 f1 ps) in
  (forall p k l, k < length f1 -> l < length f1 ->
     accepted w thr (area_table ps) f2 f1 p (nth k f1 0%Z) ->
     accepted w thr (area_table ps) f2 f1 p (nth l f1 0%Z) -> nth k f 0%Z = nth l f 0%Z) /\
  (forall k, k < length f1 -> nth k f 0%Z <> nth k f1 0%Z ->
     exists p, accepted w thr (area_table ps) f2 f1 p (nth k f1 0%Z) /\
               accepted w thr (area_table ps) f2 f1 p (nth k f 0%Z)).
Proof.
  intros L Lw Hp Sep Uq f. unfold f, consolidate. set (ov := enforce_threshold thr ps (check_overlap w f2 f1)).
  assert (Hacc : forall p c, In c (group ov p) <-> accepted w thr (area_table ps) f2 f1 p c).
  { intros p c. rewrite group_In. symmetry. apply accepted_row; assumption. }
  assert (Nd : NoDup (map row_pair ov)) by (apply enforce_subsequence, check_overlap_NoDup; assumption).
  assert (Hids : forall p c, In c (group ov p) -> In p (prop_ids ps) /\ In c (prop_ids ps)).
  { intros p c H. apply Hacc in H. destruct H as (_ & _ & _ & ap & ac & A & B & _).
    unfold area_table in A, B. split; apply lookup_ids.
    - destruct (lookup p ps) as [q|]; [exists q; reflexivity|discriminate].
    - destruct (lookup c ps) as [q|]; [exists q; reflexivity|discriminate]. }
  destruct (consolidate_parents_exact w cent ov (splitting_parents ov) Nd) with (f := f1) (ps := ps) as (g & G1 & G2 & G3 & G4).
  - intros p q c A B. apply (Uq p q c); apply Hacc; assumption.
  - intros p q P C.
    assert (A := splitting_In ov p). apply A in P.
    destruct (group ov p) as [|x r] eqn:E; [simpl in P; lia|].
    assert (X : In x (group ov p)) by (rewrite E; left; reflexivity). apply Hacc in X.
    destruct X as (P0 & _ & (k & K & K2 & _) & _). apply Hacc in C. destruct C as (_ & _ & (l & Kl & _ & L1) & _).
    apply (Sep p P0); [rewrite <- K2; apply nth_In; exact K|rewrite <- L1; apply nth_In; lia].
  - intros p P. apply splitting_In. exact P.
  - unfold splitting_parents. apply NoDup_filter. apply unique_codes_NoDup.
  - intros p P. apply splitting_In in P. destruct (group ov p) as [|x r] eqn:E; [simpl in P; lia|].
    split; [|intros c C; rewrite <- E in C; apply (Hids p c C)].
    apply (Hids p x). rewrite E. left. reflexivity.
  - rewrite G1. split.
    + intros p k l K Ll A B. rewrite !nth_map0 by assumption.
      destruct (Nat.lt_ge_cases 1 (length (group ov p))) as [S|S].
      * apply (G2 p); [apply splitting_In; exact S|apply Hacc; exact A|apply Hacc; exact B].
      * apply Hacc in A, B. destruct (group ov p) as [|x [|y r]]; [destruct A| |simpl in S; lia].
        destruct A as [A|[]], B as [B|[]]. congruence.
    + intros k K Hne. rewrite nth_map0 in Hne by exact K.
      destruct (G4 (nth k f1 0%Z)) as [H|(p & P & H1 & H2)]; [contradiction|].
      exists p. rewrite nth_map0 by exact K. split; apply Hacc; assumption.
Qed.
