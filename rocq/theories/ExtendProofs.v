(** Proofs for a record and its continuation. *)
From Coq Require Import Permutation String.
From Verif Require Import Base Morph MorphSpec MorphProofs MorphProps Label LabelSpec LabelProofs Filter FilterSpec FilterProofs FilterGridProofs FilterAreaProofs FilterProps Overlap Merge Partition Cluster ClusterSpec ClusterFinal
  Run RunSpec RunProofs RunProps GridRunProps PipelineProps RelateSpec RelateProofs RelateProps.
Open Scope nat_scope.

(** ** Objects of a record and of its continuation *)
Section Prefix.
Variables (wrap : bool) (nt nt' ny nx h : nat).
Hypothesis Le : nt <= nt'.
Variables (on on' : cell -> Prop).
Hypothesis Sub : forall c, in_range nt ny nx c -> on c -> on' c.
Hypothesis Agr : forall c, in_range nt ny nx c -> fst (fst c) < h -> (on' c <-> on c).

Lemma range_more c : in_range nt ny nx c -> in_range nt' ny nx c.
Proof using Le. destruct c as [[t y] x]. unfold in_range. lia. Qed.
Lemma range_less c : in_range nt' ny nx c -> fst (fst c) < nt -> in_range nt ny nx c.
Proof using Type. clear. destruct c as [[t y] x]. unfold in_range. cbn. lia. Qed.
Lemma chain_more b (a a' : cell -> Prop) c d : (forall c, in_range nt ny nx c -> a c -> a' c) -> chain b wrap nt ny nx a c d -> chain b wrap nt' ny nx a' c d.
Proof using Le. intros S0 H. induction H as [c|c d e R O T C IH]; [constructor|]. apply (chain_step _ _ _ _ _ _ c d e); [apply range_more; exact R|apply S0; assumption|exact T|exact IH]. Qed.
Lemma chain_early c d : fst (fst c) < h -> fst (fst c) < nt -> (chain false wrap nt' ny nx on' c d <-> chain false wrap nt ny nx on c d).
Proof using Le Sub Agr.
  intros Hc Tc. split; [|apply chain_more; exact Sub]. intro H. induction H as [c|c d e R O T C IH]; [constructor|].
  assert (Ed : fst (fst d) = fst (fst c)) by (destruct c as [[t y] x], d as [[t' y'] x']; cbn in T |- *; destruct T as [T _]; congruence).
  assert (Rd : in_range nt ny nx d) by (apply range_less; [exact R|lia]).
  apply (chain_step _ _ _ _ _ _ c d e); [exact Rd|apply Agr; [exact Rd|lia|exact O]|exact T|apply IH; lia].
Qed.

Lemma flat_time c d : in_range nt' ny nx c -> in_range nt' ny nx d -> flat ny nx c <= flat ny nx d -> fst (fst c) <= fst (fst d).
Proof using Type.
  clear. destruct c as [[t y] x], d as [[t' y'] x']. unfold in_range, flat. cbn [fst snd]. intros (T & Y & X) (T' & Y' & X') H.
  destruct (Nat.lt_ge_cases t' t) as [L|L]; [|exact L]. exfalso.
  assert (t' * ny + y' + 1 <= t * ny + y) by nia. nia.
Qed.
Lemma first_same c : in_range nt ny nx c -> fst (fst c) < h -> on c -> forall e, first_of ny nx nt on e <-> first_of ny nx nt' on' e.
Proof using Le Sub Agr.
  intros Rc Hc Oc e.
  assert (One : forall e', first_of ny nx nt' on' e' -> first_of ny nx nt on e').
  { intros e' (R & O & M). assert (Ft : fst (fst e') <= fst (fst c)) by (apply flat_time; [exact R|apply range_more; exact Rc|apply M; [apply range_more; exact Rc|apply Sub; assumption]]).
    assert (R0 : in_range nt ny nx e') by (apply range_less; [exact R|destruct c as [[t y] x]; cbn in *; lia]).
    split; [exact R0|]. split; [apply Agr; [exact R0|lia|exact O]|]. intros d Rd Od. apply M; [apply range_more; exact Rd|apply Sub; assumption]. }
  split; [|apply One]. intros (R & O & M). split; [apply range_more; exact R|]. split; [apply Sub; assumption|].
  intros d Rd Od. destruct (Nat.lt_ge_cases (flat ny nx d) (flat ny nx e)) as [L|L]; [|exact L]. exfalso.
  assert (Fe : fst (fst e) <= fst (fst c)) by (apply flat_time; [apply range_more; exact R|apply range_more; exact Rc|apply M; assumption]).
  assert (Fd : fst (fst d) <= fst (fst e)) by (apply flat_time; [exact Rd|apply range_more; exact R|lia]).
  assert (Rd0 : in_range nt ny nx d) by (apply range_less; [exact Rd|destruct c as [[t y] x]; cbn in *; lia]).
  assert (H := M d Rd0 (proj1 (Agr d Rd0 ltac:(lia)) Od)). lia.
Qed.

Variables (thr : Q) (ev ev' : cell -> Prop).
Hypothesis E : events_are wrap ny nx nt on thr ev.
Hypothesis E' : events_are wrap ny nx nt' on' thr ev'.
(* every object can be listed *)
Hypothesis Fin : forall c, in_range nt' ny nx c -> on' c -> exists l, NoDup l /\ forall d, In d l <-> in_range nt' ny nx d /\ on' d /\ chain false wrap nt' ny nx on' c d.

Lemma events_early c : in_range nt ny nx c -> fst (fst c) < h -> (ev' c <-> ev c).
Proof using Le Sub Agr E E'.
  clear Fin. intros Rc Hc. assert (Tc : fst (fst c) < nt) by (destruct c as [[t y] x]; apply Rc).
  rewrite (E c Rc), (E' c (range_more c Rc)). rewrite (Agr c Rc Hc).
  assert (Ch := fun d => chain_early c d Hc Tc).
  assert (Lst : forall l, (NoDup l /\ (forall d, In d l <-> in_range nt' ny nx d /\ on' d /\ chain false wrap nt' ny nx on' c d)) <->
                          (NoDup l /\ (forall d, In d l <-> in_range nt ny nx d /\ on d /\ chain false wrap nt ny nx on c d))).
  { assert (Q : forall d, (in_range nt' ny nx d /\ on' d /\ chain false wrap nt' ny nx on' c d) <-> (in_range nt ny nx d /\ on d /\ chain false wrap nt ny nx on c d)).
    { intro d. split.
      - intros (R & O & C). apply Ch in C. assert (S0 := chain_one_step _ _ _ _ _ _ _ C). assert (R0 : in_range nt ny nx d) by (apply range_less; [exact R|lia]).
        split; [exact R0|]. split; [apply Agr; [exact R0|lia|exact O]|exact C].
      - intros (R & O & C). split; [apply range_more; exact R|]. split; [apply Sub; assumption|apply Ch; exact C]. }
    intro l. split; intros (N & M); (split; [exact N|]); intro d; rewrite M; [apply Q|symmetry; apply Q]. }
  split; intros (O & (l & Ml & Zl) & N); (split; [exact O|]); (split; [exists l; split; [apply Lst; exact Ml|exact Zl]|]); intros (e & Fe & C); apply N; exists e.
  - split; [apply (first_same c Rc Hc O); exact Fe|apply Ch; exact C].
  - split; [apply (first_same c Rc Hc O); exact Fe|apply Ch; exact C].
Qed.

Lemma events_kept c c0 : in_range nt ny nx c0 -> fst (fst c0) < h -> on c0 -> in_range nt ny nx c -> ev c -> ev' c.
Proof using Le Sub Agr E E' Fin.
  intros R0 H0 O0 Rc Ec. destruct (Nat.lt_ge_cases (fst (fst c)) h) as [Hc|Hc]; [apply events_early; assumption|].
  apply (E c Rc) in Ec. destruct Ec as (O & (l & (ND & M) & Zl) & N). assert (O' := Sub c Rc O). assert (Rc' := range_more c Rc). apply (E' c Rc'). split; [exact O'|]. split.
  - destruct (Fin c Rc' O') as (l' & ND' & M'). exists l'. split; [split; assumption|]. apply (Qle_trans _ _ _ Zl). unfold nat_Q, Qle. cbn. rewrite !Z.mul_1_r. apply inj_le.
    apply NoDup_incl_length; [exact ND|]. intros d I. apply M' . apply M in I. destruct I as (A & B & C). split; [apply range_more; exact A|]. split; [apply Sub; assumption|apply (chain_more false on on' c d Sub C)].
  - intros (e & Fe & C). assert (Fe0 := proj2 (first_same c0 R0 H0 O0 e) Fe). destruct Fe0 as (Re & Oe & Me). assert (S0 := chain_one_step _ _ _ _ _ _ _ C).
    assert (Ft : fst (fst e) <= fst (fst c0)) by (apply flat_time; [apply range_more; exact Re|apply range_more; exact R0|apply Me; assumption]). lia.
Qed.
End Prefix.

(** ** Filling *)
Lemma ext_more l more t : (t < Z.of_nat (length l))%Z -> (ext (l ++ more) t <-> ext l t).
Proof.
  intro T. unfold ext, at_t. destruct (Z.leb_spec 0 t) as [A|A]; cbn [andb]; [|reflexivity]. rewrite app_length.
  destruct (Z.ltb_spec t (Z.of_nat (length l))) as [B|B]; [|lia]. destruct (Z.ltb_spec t (Z.of_nat (length l + length more))) as [D|D]; [|lia]. rewrite app_nth1 by lia. reflexivity.
Qed.
Lemma ext_within l t : ext l t -> (0 <= t < Z.of_nat (length l))%Z.
Proof. unfold ext, at_t. destruct (Z.leb_spec 0 t), (Z.ltb_spec t (Z.of_nat (length l))); cbn; intro U; try discriminate. lia. Qed.
Lemma closed_more T l more t : (t < Z.of_nat (length l))%Z -> ext l t \/ in_short_gap T l t -> ext (l ++ more) t \/ in_short_gap T (l ++ more) t.
Proof.
  intros Tt [X|(a & b & B & W & A1 & B1 & Q)]; [left; apply ext_more; assumption|right]. assert (Bl := ext_within _ _ B1).
  exists a, b. split; [exact B|]. split; [exact W|]. split; [apply ext_more; [lia|exact A1]|]. split; [apply ext_more; [lia|exact B1]|].
  intros u U X. apply (Q u U). apply ext_more in X; [exact X|lia].
Qed.
Lemma closed_early T l more t : (t + T < Z.of_nat (length l))%Z -> (0 <= T)%Z ->
  (ext (l ++ more) t \/ in_short_gap T (l ++ more) t <-> ext l t \/ in_short_gap T l t).
Proof.
  intros Tt T0. split; [|apply closed_more; lia]. intros [X|(a & b & B & W & A1 & B1 & Q)]; [left; apply ext_more in X; [exact X|lia]|right].
  exists a, b. split; [exact B|]. split; [exact W|]. split; [apply ext_more in A1; [exact A1|lia]|]. split; [apply ext_more in B1; [exact B1|lia]|].
  intros u U X. apply (Q u U). apply ext_more; [lia|exact X].
Qed.

Lemma extend_fill g more data s : (0 <= g_R g)%Z -> Z.even (g_T g) = true -> length data = g_nt g -> fill_grid g data = Some s ->
  exists s', fill_grid (with_steps g (g_nt g + length more)) (data ++ more) = Some s' /\ (0 <= g_T g)%Z /\
    (forall c, in_range (g_nt g) (g_ny g) (g_nx g) c -> value_at (g_nx g) s c = true -> value_at (g_nx g) s' c = true) /\
    (forall c, in_range (g_nt g) (g_ny g) (g_nx g) c -> (Z.of_nat (fst (fst c)) + g_T g < Z.of_nat (g_nt g))%Z -> value_at (g_nx g) s' c = value_at (g_nx g) s c).
Proof.
  intros R0 Te L E. set (g' := with_steps g (g_nt g + length more)). set (data' := data ++ more).
  set (ny := g_ny g) in *. set (nx := g_nx g) in *. set (nt := g_nt g) in *.
  assert (L' : length data' = nt + length more) by (unfold data'; rewrite app_length, L; reflexivity).
  assert (T0 : (0 <= g_T g)%Z).
  { unfold fill_grid, preprocess_morph, fill_time_gaps in E. destruct (Z.eqb_spec (g_T g) 0); [lia|]. destruct (Z.ltb_spec (g_T g + 1) 0); [discriminate|].
    destruct (Z.eq_dec (g_T g) (-1)) as [H1|H1]; [rewrite H1 in Te; discriminate|lia]. }
  unfold fill_grid in E. destruct (preprocess_morph (g_regional g) (g_T g) (g_R g) (Z.of_nat (g_ny g)) (Z.of_nat (g_nx g)) (img_of (g_nx g) (g_mask g)) (map (img_of (g_nx g)) data)) as [im|] eqn:P; [|discriminate].
  cbn [option_map] in E. injection E as <-. fold ny nx in P |- *.
  destruct (preprocess_morph (g_regional g) (g_T g) (g_R g) (Z.of_nat ny) (Z.of_nat nx) (img_of nx (g_mask g)) (map (img_of nx) data')) as [im'|] eqn:P'.
  2: { exfalso. unfold preprocess_morph, fill_time_gaps in P'. destruct (Z.eqb_spec (g_T g) 0); [discriminate|]. destruct (Z.ltb_spec (g_T g + 1) 0); [lia|discriminate]. }
  exists (map (flat_img ny nx) im'). split.
  { unfold fill_grid. change (g_regional g') with (g_regional g). change (g_T g') with (g_T g). change (g_R g') with (g_R g). change (g_ny g') with ny. change (g_nx g') with nx. change (g_mask g') with (g_mask g). rewrite P'. reflexivity. }
  split; [exact T0|].
  unfold preprocess_morph in P, P'. set (im1 := fill_holes (g_regional g) (g_R g) (Z.of_nat ny) (Z.of_nat nx) (img_of nx (g_mask g)) (map (img_of nx) data)) in *.
  set (im2 := fill_holes (g_regional g) (g_R g) (Z.of_nat ny) (Z.of_nat nx) (img_of nx (g_mask g)) (map (img_of nx) more)) in *.
  assert (Im1' : fill_holes (g_regional g) (g_R g) (Z.of_nat ny) (Z.of_nat nx) (img_of nx (g_mask g)) (map (img_of nx) data') = im1 ++ im2).
  { unfold im1, im2, fill_holes, data'. rewrite !map_app. reflexivity. }
  rewrite Im1' in P'. clear Im1'.
  set (dark := (fun _ _ => false) : img).
  assert (L1 : length im1 = nt) by (unfold im1, fill_holes; rewrite !map_length; exact L).
  assert (L1' : length (im1 ++ im2) = nt + length more) by (rewrite app_length, L1; f_equal; unfold im2, fill_holes; rewrite !map_length; reflexivity).
  assert (Ser : forall y x, series_at (im1 ++ im2) y x = series_at im1 y x ++ series_at im2 y x) by (intros y x; unfold series_at; apply map_app).
  assert (Len : forall y x, length (series_at im1 y x) = nt) by (intros y x; unfold series_at; rewrite (map_length _ im1); exact L1).
  destruct (C10_record_level _ _ _ _ _ _ _ _ T0 Te P) as (Li & cl & Lc & Cl & Op). destruct (C10_record_level _ _ _ _ _ _ _ _ T0 Te P') as (Li' & cl' & Lc' & Cl' & Op').
  assert (Up : forall t y x, t < nt -> nth t cl dark y x = true -> nth t cl' dark y x = true).
  { intros t y x T V. apply (Cl' y x t); [rewrite L1'; lia|]. apply (Cl y x t) in V; [|rewrite L1; exact T]. rewrite Ser. apply closed_more; [rewrite Len; lia|exact V]. }
  assert (Eq : forall t y x, (Z.of_nat t + g_T g < Z.of_nat nt)%Z -> nth t cl' dark y x = nth t cl dark y x).
  { intros t y x T. assert (Tt : t < nt) by lia. apply eq_true_iff_eq. unfold dark in *. rewrite (Cl' y x t) by (rewrite L1'; lia). rewrite (Cl y x t) by (rewrite L1; exact Tt). rewrite Ser. apply closed_early; [rewrite Len; exact T|exact T0]. }
  assert (Lm : length im = nt) by (rewrite Li; exact L1). assert (Lm' : length im' = nt + length more) by (rewrite Li'; exact L1').
  assert (Rup : forall t y x, t < nt -> nth t im dark y x = true -> nth t im' dark y x = true).
  { destruct Op as [[Tz ->]|[Tp ->]], Op' as [[Tz' ->]|[Tp' ->]]; [|lia|lia|].
    - intros t y x T V. rewrite app_nth1 by (rewrite L1; exact T). exact V.
    - intros t y x T. unfold fill_holes. rewrite (nth_map_gen _ cl t dark) by (rewrite Lc; unfold dark; rewrite L1; exact T). rewrite (nth_map_gen _ cl' t dark) by (rewrite Lc'; unfold dark; rewrite L1'; lia).
      apply C07_monotone_structured. intros y0 x0. apply Up. exact T. }
  assert (Req : forall t y x, (Z.of_nat t + g_T g < Z.of_nat nt)%Z -> y < ny -> x < nx -> nth t im' dark (Z.of_nat y) (Z.of_nat x) = nth t im dark (Z.of_nat y) (Z.of_nat x)).
  { destruct Op as [[Tz ->]|[Tp ->]], Op' as [[Tz' ->]|[Tp' ->]]; [|lia|lia|].
    - intros t y x T _ _. rewrite app_nth1 by (rewrite L1; lia). reflexivity.
    - intros t y x T Y X. assert (Tt : t < nt) by lia. unfold fill_holes. rewrite (nth_map_gen _ cl t dark) by (rewrite Lc; unfold dark; rewrite L1; exact Tt). rewrite (nth_map_gen _ cl' t dark) by (rewrite Lc'; unfold dark; rewrite L1'; lia).
      apply slice_same; [lia|lia| |unfold in_grid; lia]. intros y0 x0 _. apply Eq. exact T. }
  split.
  - intros [[t y] x] (T & Y & X). cbn [value_at]. rewrite (nth_map_gen _ im' t dark) by (rewrite Lm'; unfold nt in *; lia). rewrite (nth_map_gen _ im t dark) by (rewrite Lm; exact T). rewrite !flat_at by assumption. apply Rup. exact T.
  - intros [[t y] x] (T & Y & X) H. cbn [fst] in H. cbn [value_at]. rewrite (nth_map_gen _ im' t dark) by (rewrite Lm'; unfold nt in *; lia). rewrite (nth_map_gen _ im t dark) by (rewrite Lm; exact T). rewrite !flat_at by assumption. apply Req; assumption.
Qed.

(** Every object can be listed. *)
Lemma objects_finite regional r nt ny nx data f c : length data = nt * ny * nx -> filter_grid regional r nt ny nx data = Ok f ->
  in_range nt ny nx c -> extreme ny nx data c -> exists l, object_cells regional nt ny nx data c l.
Proof.
  intros L E R X. destruct (areas_are_sizes _ _ _ _ _ L _ _ E) as (_ & reps & F & _ & C). destruct (C c R X) as (d & I & J).
  assert (G : exists l, object_cells regional nt ny nx data d l) by (clear - F I; induction F as [|c0 a cs az (R0 & X0 & l & O & _) F IH]; [destruct I|]; destruct I as [<-|I]; [exists l; exact O|apply IH; exact I]).
  destruct G as (l & N & M). exists l. split; [exact N|]. intro e. rewrite M. split; intros (A & B & D); (split; [exact A|]); (split; [exact B|]).
  - apply (chain_join _ _ _ _ _ _ c d e); assumption.
  - apply (chain_join _ _ _ _ _ _ d c e); [apply chain_back; assumption|exact D].
Qed.
