(** Proofs about consolidate_object_ids: the object table stays in step with the
    fields, the footprint is preserved, and which IDs are identified. *)
From Coq Require Import Sorted.
From Verif Require Import Base Filter FilterProofs Overlap OverlapSpec OverlapProofs.
Open Scope nat_scope.

(** ** Tables *)

Lemma lookup_In id ps p : lookup id ps = Some p -> In (id, p) ps.
Proof.
  induction ps as [|[k q] ps IH]; simpl; [discriminate|].
  destruct (Z.eqb_spec k id) as [->|]; [intro H; inversion H; left; reflexivity|right; auto].
Qed.
Lemma lookup_None id ps : lookup id ps = None <-> ~ In id (prop_ids ps).
Proof.
  induction ps as [|[k q] ps IH]; simpl; [tauto|].
  destruct (Z.eqb_spec k id) as [->|N]; [split; [discriminate|tauto]|].
  rewrite IH. split; [intros H [C|C]; auto|intros H C; apply H; right; exact C].
Qed.
Lemma lookup_ids id ps : In id (prop_ids ps) <-> exists p, lookup id ps = Some p.
Proof.
  destruct (lookup id ps) as [p|] eqn:E.
  - split; [intros _; exists p; reflexivity|]. intros _. apply lookup_In in E.
    apply in_map_iff. exists (id, p). auto.
  - apply lookup_None in E. split; [contradiction|intros (p & C); discriminate].
Qed.
Lemma In_lookup id ps p : NoDup (prop_ids ps) -> In (id, p) ps -> lookup id ps = Some p.
Proof.
  induction ps as [|[k q] ps IH]; simpl; [intros _ []|]. intro N. inversion N as [|? ? Nk N']; subst.
  intros [E|H].
  - inversion E; subst. rewrite Z.eqb_refl. reflexivity.
  - destruct (Z.eqb_spec k id) as [->|]; [|apply IH; auto].
    exfalso. apply Nk. apply in_map_iff. exists (id, p). auto.
Qed.

Lemma drop_ids id ps x : In x (prop_ids (drop_id id ps)) <-> In x (prop_ids ps) /\ x <> id.
Proof.
  unfold drop_id, prop_ids. rewrite !in_map_iff. split.
  - intros (e & <- & H). apply filter_In in H. destruct H as [H E]. split; [exists e; auto|].
    apply negb_true_iff, Z.eqb_neq in E. exact E.
  - intros ((e & <- & H) & N). exists e. split; [reflexivity|]. apply filter_In. split; [exact H|].
    apply negb_true_iff, Z.eqb_neq. exact N.
Qed.
Lemma drop_lookup id ps x : lookup x (drop_id id ps) = if Z.eqb x id then None else lookup x ps.
Proof.
  induction ps as [|[k q] ps IH]; [simpl; destruct (Z.eqb x id); reflexivity|].
  unfold drop_id in *. cbn [filter fst]. destruct (Z.eqb_spec k id) as [->|N]; cbn [negb].
  - rewrite IH. simpl. destruct (Z.eqb_spec x id) as [|Nx]; [reflexivity|].
    destruct (Z.eqb_spec id x); [congruence|reflexivity].
  - simpl. destruct (Z.eqb_spec k x) as [->|].
    + destruct (Z.eqb_spec x id); [contradiction|reflexivity].
    + exact IH.
Qed.
Lemma drop_NoDup id ps : NoDup (prop_ids ps) -> NoDup (prop_ids (drop_id id ps)).
Proof. intro N. unfold prop_ids, drop_id. now apply NoDup_map_filter. Qed.

Lemma set_prop_ids id p ps : prop_ids (set_prop id p ps) = prop_ids ps.
Proof.
  unfold prop_ids, set_prop. rewrite map_map. apply map_ext. intros [k q]. simpl.
  destruct (Z.eqb_spec k id); simpl; congruence.
Qed.
Lemma set_prop_lookup id p ps x :
  lookup x (set_prop id p ps) =
  if Z.eqb x id then (if memZ id (prop_ids ps) then Some p else None) else lookup x ps.
Proof.
  induction ps as [|[k q] ps IH]; [simpl; destruct (Z.eqb x id); reflexivity|].
  unfold set_prop in *. cbn [map fst prop_ids memZ existsb].
  change (existsb (Z.eqb id) (map fst ps)) with (memZ id (prop_ids ps)).
  destruct (Z.eqb_spec k id) as [->|N].
  - rewrite Z.eqb_refl. cbn [orb lookup]. rewrite IH.
    destruct (Z.eqb_spec x id) as [Ex|Nx].
    + destruct (Z.eqb_spec id x); [reflexivity|congruence].
    + destruct (Z.eqb_spec id x); [congruence|reflexivity].
  - cbn [lookup]. rewrite IH. destruct (Z.eqb_spec k x) as [->|Nx].
    + destruct (Z.eqb_spec x id); [contradiction|reflexivity].
    + assert (E : Z.eqb id k = false) by (apply Z.eqb_neq; congruence).
      rewrite E. cbn [orb]. reflexivity.
Qed.

(** ** Areas *)

Lemma area_of_object w : forall f id, length f = length w -> (area_of w id f == object_area w f id)%Q.
Proof.
  unfold area_of, object_area.
  induction w as [|q w IH]; intros [|x f] id L; simpl in L; try lia; [reflexivity|].
  cbn [combine filter fst length]. rewrite totalQ_shift. cbn [nth].
  rewrite Z.eqb_sym. destruct (Z.eqb x id); cbn [map sumQ snd]; rewrite IH by lia; [reflexivity|ring].
Qed.

Lemma area_of_mask w id : forall f g, mask_of id f = mask_of id g -> area_of w id f = area_of w id g.
Proof.
  unfold mask_of, area_of. induction w as [|q w IH]; intros f g E.
  - destruct f, g; reflexivity.
  - destruct f as [|x f], g as [|y g]; simpl in E; try discriminate; [reflexivity|].
    injection E as E1 E2. cbn [combine filter fst]. rewrite E1.
    destruct (Z.eqb id y); cbn [map sumQ snd]; [f_equal|]; apply IH; exact E2.
Qed.

Lemma measure_mask w cent id f g : mask_of id f = mask_of id g -> measure w cent id f = measure w cent id g.
Proof. intro E. unfold measure. rewrite E, (area_of_mask w id f g E). reflexivity. Qed.

Lemma mask_isolate id f : (0 < id)%Z ->
  mask_of id (map (fun v => if Z.eqb v id then id else 0%Z) f) = mask_of id f.
Proof.
  intro P. unfold mask_of. rewrite map_map. apply map_ext. intro v.
  destruct (Z.eqb_spec v id) as [->|]; [reflexivity|].
  destruct (Z.eqb_spec id 0); [lia|]. destruct (Z.eqb_spec id v); [lia|reflexivity].
Qed.

Lemma mask_rename_other a b id f : id <> a -> id <> b -> mask_of id (rename a b f) = mask_of id f.
Proof.
  intros A B. unfold mask_of, rename. rewrite map_map. apply map_ext. intro v.
  destruct (Z.eqb_spec v a) as [->|]; [|reflexivity].
  destruct (Z.eqb_spec id b); [contradiction|]. destruct (Z.eqb_spec id a); [contradiction|reflexivity].
Qed.

Lemma rename_In a b f x : In x (rename a b f) <-> (In x f /\ x <> a) \/ (x = b /\ In a f).
Proof.
  unfold rename. rewrite in_map_iff. split.
  - intros (v & E & H). destruct (Z.eqb_spec v a) as [Ev|N]; subst; auto.
  - intros [[H N]|[-> H]].
    + exists x. destruct (Z.eqb_spec x a); [contradiction|auto].
    + exists a. rewrite Z.eqb_refl. auto.
Qed.

Lemma object_properties_ids w cent f : prop_ids (object_properties w cent f) = unique_pos f.
Proof. unfold prop_ids, object_properties. rewrite map_map. simpl. apply map_id. Qed.
Lemma object_properties_lookup w cent f id :
  lookup id (object_properties w cent f) =
  if Z.ltb 0 id && memZ id f then Some (measure w cent id f) else None.
Proof.
  destruct (Z.ltb 0 id && memZ id f) eqn:E.
  - apply In_lookup; [rewrite object_properties_ids; apply unique_pos_NoDup|].
    apply in_map_iff. exists id. split; [reflexivity|]. apply unique_pos_In.
    apply andb_true_iff in E. destruct E as [E1 E2]. apply memZ_In in E2. split; [lia|exact E2].
  - apply lookup_None. rewrite object_properties_ids, unique_pos_In.
    apply andb_false_iff in E. rewrite memZ_false in E. intros [A B]. destruct E; [lia|contradiction].
Qed.

(** ** The table matches one field, [O] being the IDs of the other times *)

Record good_at (w : list Q) (cent : list bool -> Q * Q) (O : Z -> Prop) (f : list Z) (ps : props)
    (stale : option Z) : Prop := mkGood {
  g_len : length f = length w;
  g_nonneg : forall x, In x f -> (0 <= x)%Z;
  g_sep : forall x, (0 < x)%Z -> In x f -> ~ O x;
  g_nodup : NoDup (prop_ids ps);
  g_ids : forall x, In x (prop_ids ps) <-> (0 < x)%Z /\ (In x f \/ O x);
  g_measure : forall x p, In x f -> stale <> Some x -> lookup x ps = Some p -> p = measure w cent x f }.

(** Cells keep their state: background stays background, object cells stay
    object cells. *)
Definition same_foot (f g : list Z) : Prop :=
  length f = length g /\ forall k, (0 < nth k f 0)%Z <-> (0 < nth k g 0)%Z.

Lemma same_foot_refl f : same_foot f f.
Proof. split; [reflexivity|tauto]. Qed.
Lemma same_foot_trans f g h : same_foot f g -> same_foot g h -> same_foot f h.
Proof. intros [A B] [C D]. split; [congruence|]. intro k. rewrite B. apply D. Qed.
Lemma rename_foot a b f : (0 < a)%Z -> (0 < b)%Z -> same_foot f (rename a b f).
Proof.
  intros A B. split; [unfold rename; rewrite map_length; reflexivity|]. intro k.
  destruct (Nat.lt_ge_cases k (length f)) as [K|K].
  - unfold rename. rewrite (nth_indep (map _ f) 0%Z (if Z.eqb 0 a then b else 0%Z)) by (rewrite map_length; exact K).
    rewrite (map_nth (fun v => if Z.eqb v a then b else v)).
    destruct (Z.eqb_spec (nth k f 0%Z) a); lia.
  - rewrite !nth_overflow; [tauto| |exact K]. unfold rename. rewrite map_length. exact K.
Qed.

Section Step.
Variables (w : list Q) (cent : list bool -> Q * Q) (O : Z -> Prop).

(** One child folded into [first]. *)
Lemma rename_child_good first f ps child :
  good_at w cent O f ps (Some first) -> In first f -> (0 < first)%Z -> child <> first ->
  (In child (prop_ids ps) -> In child f) ->
  let st := rename_child first (f, ps) child in
  good_at w cent O (fst st) (snd st) (Some first) /\ In first (fst st) /\ same_foot f (fst st) /\
  (forall x, In x (fst st) -> In x f) /\
  (forall x, O x -> lookup x (snd st) = lookup x ps) /\
  (forall x, In x (prop_ids (snd st)) -> In x (prop_ids ps)).
Proof.
  intros G F P N Hc. unfold rename_child.
  destruct (memZ child (prop_ids ps)) eqn:M; cbn [fst snd].
  2:{ repeat split; try tauto; try apply G; auto. }
  apply memZ_In in M. specialize (Hc M).
  assert (Pc : (0 < child)%Z) by (apply (g_ids _ _ _ _ _ _ G); exact M).
  assert (Sub : forall x, In x (rename child first f) -> In x f).
  { intros x X. apply rename_In in X. destruct X as [[X _]|[-> _]]; [exact X|exact F]. }
  split; [|split; [|split; [|split; [|split]]]].
  - constructor.
    + unfold rename. rewrite map_length. apply G.
    + intros x X. apply (g_nonneg _ _ _ _ _ _ G). apply Sub. exact X.
    + intros x X X'. apply (g_sep _ _ _ _ _ _ G); auto.
    + apply drop_NoDup. apply G.
    + intro x. rewrite drop_ids, (g_ids _ _ _ _ _ _ G), rename_In.
      split.
      * intros [[X [Y|Y]] Z]; auto.
      * intros [X [[[Y Z]|[-> Y]]|Y]]; auto.
        split; [auto|]. intros ->. apply (g_sep _ _ _ _ _ _ G child); auto.
    + intros x p X S E. rewrite drop_lookup in E. destruct (Z.eqb_spec x child) as [->|Nx]; [discriminate|].
      rewrite (measure_mask w cent x (rename child first f) f).
      * apply (g_measure _ _ _ _ _ _ G); auto.
      * apply mask_rename_other; [exact Nx|]. intros ->. apply S. reflexivity.
  - apply rename_In. left. auto.
  - apply rename_foot; assumption.
  - exact Sub.
  - intros x X. rewrite drop_lookup. destruct (Z.eqb_spec x child) as [->|]; [|reflexivity].
    exfalso. apply (g_sep _ _ _ _ _ _ G child); auto.
  - intros x X. apply drop_ids in X. tauto.
Qed.

Lemma rename_children_good first rest : forall f ps,
  good_at w cent O f ps (Some first) -> In first f -> (0 < first)%Z -> ~ In first rest ->
  (forall c, In c rest -> ~ O c) ->
  let st := fold_left (rename_child first) rest (f, ps) in
  good_at w cent O (fst st) (snd st) (Some first) /\ In first (fst st) /\ same_foot f (fst st) /\
  (forall x, In x (fst st) -> In x f) /\
  (forall x, O x -> lookup x (snd st) = lookup x ps) /\
  (forall x, In x (prop_ids (snd st)) -> In x (prop_ids ps)).
Proof.
  induction rest as [|c rest IH]; intros f ps G F P N Ho; cbn [fold_left].
  - cbn [fst snd]. split; [exact G|]. split; [exact F|]. split; [apply same_foot_refl|]. auto.
  - assert (Nc : c <> first) by (intros ->; apply N; left; reflexivity).
    assert (Hc : In c (prop_ids ps) -> In c f).
    { intro H. apply (g_ids _ _ _ _ _ _ G) in H. destruct H as [_ [H|H]]; [exact H|].
      exfalso. apply (Ho c); [left; reflexivity|exact H]. }
    destruct (rename_child_good first f ps c G F P Nc Hc) as (G1 & F1 & S1 & I1 & L1 & D1).
    destruct (rename_child first (f, ps) c) as [f1 ps1] eqn:E. cbn [fst snd] in *.
    destruct (IH f1 ps1 G1 F1 P) as (G2 & F2 & S2 & I2 & L2 & D2).
    + intro C. apply N. right. exact C.
    + intros x X. apply Ho. right. exact X.
    + split; [exact G2|]. split; [exact F2|]. split; [exact (same_foot_trans _ _ _ S1 S2)|].
      split; [auto|]. split; [|auto]. intros x X. rewrite L2, L1 by exact X. reflexivity.
Qed.

Lemma good_weaken f ps s : good_at w cent O f ps None -> good_at w cent O f ps s.
Proof. intros [A B C D E F]. constructor; auto. intros x p X _ L. apply F; auto. discriminate. Qed.

(** One splitting parent. *)
Lemma consolidate_parent_good ov f ps parent :
  good_at w cent O f ps None ->
  (forall r, In r ov -> (0 < r_to r)%Z /\ ~ O (r_to r)) ->
  NoDup (map row_pair ov) ->
  let st := consolidate_parent w cent ov (f, ps) parent in
  good_at w cent O (fst st) (snd st) None /\ same_foot f (fst st) /\
  (forall x, In x (fst st) -> In x f) /\
  (forall x, O x -> lookup x (snd st) = lookup x ps) /\
  (forall x, In x (prop_ids (snd st)) -> In x (prop_ids ps)).
Proof.
  intros G Hr Nd.
  assert (Stay : good_at w cent O f ps None /\ same_foot f f /\ (forall x, In x f -> In x f) /\
     (forall x, O x -> lookup x ps = lookup x ps) /\ (forall x, In x (prop_ids ps) -> In x (prop_ids ps))).
  { split; [exact G|]. split; [apply same_foot_refl|]. auto. }
  unfold consolidate_parent. destruct (memZ parent (prop_ids ps)); [|exact Stay]. cbn [negb].
  destruct (map r_to (filter (fun r => Z.eqb (r_from r) parent) ov)) as [|first [|c rest]] eqn:E; [exact Stay|exact Stay|].
  destruct (memZ first (prop_ids ps)) eqn:Mf; [|exact Stay]. cbn [negb].
  assert (Hin : forall x, In x (first :: c :: rest) -> (0 < x)%Z /\ ~ O x).
  { intros x X. rewrite <- E in X. apply in_map_iff in X. destruct X as (r & <- & R).
    apply filter_In in R. apply Hr. tauto. }
  assert (Ndc : NoDup (first :: c :: rest)).
  { rewrite <- E. clear - Nd. induction ov as [|r ov IH]; [constructor|].
    cbn [map] in Nd. inversion Nd as [|? ? Nr Nd']; subst. cbn [filter].
    destruct (Z.eqb_spec (r_from r) parent) as [Er|]; [|apply IH; exact Nd'].
    cbn [map]. constructor; [|apply IH; exact Nd'].
    intro C. apply in_map_iff in C. destruct C as (r' & Et & R). apply filter_In in R.
    destruct R as [R Ep]. apply Z.eqb_eq in Ep. apply Nr. apply in_map_iff. exists r'.
    split; [|exact R]. unfold row_pair. congruence. }
  inversion Ndc as [|? ? Nf _]; subst.
  destruct (Hin first (or_introl eq_refl)) as [Pf Of].
  apply memZ_In in Mf.
  assert (Ff : In first f).
  { apply (g_ids _ _ _ _ _ _ G) in Mf. destruct Mf as [_ [H|H]]; [exact H|contradiction]. }
  destruct (rename_children_good first (c :: rest) f ps (good_weaken _ _ _ G) Ff Pf Nf) as (G1 & F1 & S1 & I1 & L1 & D1).
  { intros x X. apply Hin. right. exact X. }
  destruct (fold_left (rename_child first) (c :: rest) (f, ps)) as [f' ps'] eqn:Ef.
  cbn [fst snd] in *.
  assert (M : memZ first f' = true) by (apply memZ_In; exact F1). rewrite M. cbn [fst snd].
  set (p := measure w cent first _).
  assert (Ep : p = measure w cent first f') by (apply measure_mask, mask_isolate; exact Pf).
  split; [|split; [|split; [|split]]]; auto.
  - destruct G1 as [A B C D Ei F]. constructor; auto.
    + rewrite set_prop_ids. exact D.
    + intro x. rewrite set_prop_ids. apply Ei.
    + intros x q X _ L. rewrite set_prop_lookup in L. destruct (Z.eqb_spec x first) as [->|Nx].
      * assert (Mi : memZ first (prop_ids ps') = true) by (apply memZ_In, Ei; auto).
        rewrite Mi in L. inversion L; subst. exact Ep.
      * apply F; auto. intro C'. inversion C'. congruence.
  - intros x X. rewrite set_prop_lookup. destruct (Z.eqb_spec x first) as [->|]; [contradiction|]. apply L1. exact X.
  - intros x X. rewrite set_prop_ids in X. auto.
Qed.

(** All splitting parents. *)
Lemma consolidate_parents_good ov parents : 
  (forall r, In r ov -> (0 < r_to r)%Z /\ ~ O (r_to r)) ->
  NoDup (map row_pair ov) -> forall f ps,
  good_at w cent O f ps None ->
  let st := fold_left (consolidate_parent w cent ov) parents (f, ps) in
  good_at w cent O (fst st) (snd st) None /\ same_foot f (fst st) /\
  (forall x, In x (fst st) -> In x f) /\
  (forall x, O x -> lookup x (snd st) = lookup x ps) /\
  (forall x, In x (prop_ids (snd st)) -> In x (prop_ids ps)).
Proof.
  intros Hr Nd. induction parents as [|p parents IH]; intros f ps G; cbn [fold_left].
  - cbn [fst snd]. split; [exact G|]. split; [apply same_foot_refl|]. auto.
  - destruct (consolidate_parent_good ov f ps p G Hr Nd) as (G1 & S1 & I1 & L1 & D1).
    destruct (consolidate_parent w cent ov (f, ps) p) as [f1 ps1]. cbn [fst snd] in *.
    destruct (IH f1 ps1 G1) as (G2 & S2 & I2 & L2 & D2).
    split; [exact G2|]. split; [exact (same_foot_trans _ _ _ S1 S2)|]. split; [auto|].
    split; [|auto]. intros x X. rewrite L2, L1 by exact X. reflexivity.
Qed.

(** consolidate_object_ids keeps the table in step with the fields. *)
Lemma consolidate_good thr f2 f1 ps :
  length f2 = length f1 ->
  good_at w cent O f1 ps None ->
  let st := consolidate w cent thr f2 f1 ps in
  good_at w cent O (fst st) (snd st) None /\ same_foot f1 (fst st) /\
  (forall x, In x (fst st) -> In x f1) /\
  (forall x, O x -> lookup x (snd st) = lookup x ps) /\
  (forall x, In x (prop_ids (snd st)) -> In x (prop_ids ps)).
Proof.
  intros L G. unfold consolidate. set (ov := enforce_threshold _ _ _).
  assert (Lw : length f2 = length w) by (rewrite L; apply G).
  apply consolidate_parents_good; [| |exact G].
  - intros r R. unfold ov, enforce_threshold in R. apply filter_In in R. destruct R as [R _].
    destruct (check_overlap_sound w f2 f1 L Lw r R) as (_ & P & (k & K & _ & T) & _).
    split; [exact P|]. apply (g_sep _ _ _ _ _ _ G); [exact P|].
    rewrite <- T. apply nth_In. lia.
  - apply enforce_subsequence, check_overlap_NoDup; assumption.
Qed.
End Step.
