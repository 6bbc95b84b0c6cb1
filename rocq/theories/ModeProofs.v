(** Regional and global mode on a record whose last column is quiet. *)
From Verif Require Import Base Morph MorphSpec MorphProofs MorphProps Graph Label LabelSpec LabelProofs Filter FilterSpec FilterProofs FilterGridProofs FilterProps Overlap Merge Partition Cluster ClusterSpec ClusterFinal
  Run RunSpec RunProofs RunProps GridRunProps PipelineProps RelateSpec RelateProofs CutSpec CutProofs CutProps.
Open Scope nat_scope.

(** ** Labels *)

Lemma filter_flat_map {A B} (P : B -> bool) (f : A -> list B) l : filter P (flat_map f l) = flat_map (fun a => filter P (f a)) l.
Proof. induction l as [|a l IH]; [reflexivity|]. cbn [flat_map]. rewrite filter_app, IH. reflexivity. Qed.
Lemma flat_map_in {A B} (f g : A -> list B) l : (forall a, In a l -> f a = g a) -> flat_map f l = flat_map g l.
Proof. intro H. induction l as [|a l IH]; [reflexivity|]. cbn [flat_map]. rewrite (H a (or_introl eq_refl)), IH; [reflexivity|]. intros b Hb. apply H. right. exact Hb. Qed.
Lemma filter_map {A B} (P : B -> bool) (f : A -> B) l : filter P (map f l) = map f (filter (fun a => P (f a)) l).
Proof. induction l as [|a l IH]; [reflexivity|]. cbn [map filter]. destruct (P (f a)); cbn [map]; rewrite IH; reflexivity. Qed.
Lemma filter_within {A} (p q : A -> bool) l : (forall x, In x l -> p x = true -> q x = true) -> filter p (filter q l) = filter p l.
Proof.
  induction l as [|a l IH]; intro H; [reflexivity|]. cbn [filter]. destruct (q a) eqn:Q0; cbn [filter].
  - rewrite IH; [reflexivity|]. intros x X. apply H. right. exact X.
  - destruct (p a) eqn:P0; [rewrite (H a (or_introl eq_refl) P0) in Q0; discriminate|]. apply IH. intros x X. apply H. right. exact X.
Qed.
Lemma filter_products {A B C} (P : C -> bool) (f : A * B -> C) (q : B -> bool) la X X' :
  filter q X = filter q X' -> (forall a x, In a la -> In x X \/ In x X' -> P (f (a, x)) = true -> q x = true) ->
  filter P (map f (list_prod la X)) = filter P (map f (list_prod la X')).
Proof.
  intros E H. induction la as [|a la IH]; [reflexivity|]. cbn [list_prod]. rewrite !map_app, !filter_app. f_equal.
  - rewrite !map_map, !filter_map. f_equal.
    rewrite <- (filter_within (fun x => P (f (a, x))) q X) by (intros x I; apply (H a x); [left; reflexivity|left; exact I]).
    rewrite <- (filter_within (fun x => P (f (a, x))) q X') by (intros x I; apply (H a x); [left; reflexivity|right; exact I]).
    rewrite E. reflexivity.
  - apply IH. intros b x Ib. apply H. right. exact Ib.
Qed.

Section Quiet.
Variables (nt ny nx : nat) (on : list bool).
Hypothesis Nx : 0 < nx.
Hypothesis Last : forall t y, t < nt -> y < ny -> onb on (flat ny nx (t, y, nx - 1)) = false.

Lemma steps_alike x : x < nx -> x <> nx - 1 ->
  filter (fun j => negb (Nat.eqb j (nx - 1))) (steps_wrap nx x) = filter (fun j => negb (Nat.eqb j (nx - 1))) (steps nx x).
Proof.
  intros X N. unfold steps_wrap, steps. rewrite mod_minus1, mod_plus1, Nat.mod_small by exact X.
  destruct (Nat.eqb_spec (x + 1) nx) as [H|H]; [lia|]. destruct x as [|p].
  - destruct nx as [|[|m]]; [lia|lia|]. cbn. rewrite Nat.eqb_refl. reflexivity.
  - cbn [Nat.eqb]. replace (S p - 1) with p by lia. replace (S p + 1) with (S (S p)) by lia. f_equal. cbn [filter].
    destruct (Nat.ltb_spec p nx) as [H1|H1]; [|lia]. destruct (Nat.ltb_spec (S p) nx) as [H2|H2]; [|lia]. destruct (Nat.ltb_spec (S (S p)) nx) as [H3|H3]; [|lia]. reflexivity.
Qed.

Lemma edges_alike tconn : filter (fun e => onb on (fst e) && onb on (snd e)) (grid_edges tconn true nt ny nx) =
  filter (fun e => onb on (fst e) && onb on (snd e)) (grid_edges tconn false nt ny nx).
Proof.
  unfold grid_edges. rewrite !filter_flat_map. apply flat_map_in. intros [[t y] x] I. apply cells_In in I. destruct I as (T & Y & X).
  destruct (Nat.eq_dec x (nx - 1)) as [->|N].
  - assert (G : forall l, filter (fun e => onb on (fst e) && onb on (snd e)) (map (fun c' => (flat ny nx (t, y, nx - 1), flat ny nx c')) l) = []).
    { induction l as [|c l IH]; [reflexivity|]. cbn [map filter fst snd]. rewrite (Last t y T Y). exact IH. }
    rewrite !G. reflexivity.
  - unfold neighbour_cells.
    apply (filter_products (fun e => onb on (fst e) && onb on (snd e)) (fun c' => (flat ny nx (t, y, x), flat ny nx c')) (fun j => negb (Nat.eqb j (nx - 1)))
      (list_prod (if tconn then steps nt t else [t]) (steps ny y)) (steps_wrap nx x) (steps nx x)); [apply steps_alike; assumption|].
    intros [t2 y2] j Ia _ V. cbn [fst snd] in V. apply andb_true_iff in V. destruct V as [_ V]. apply in_prod_iff in Ia. destruct Ia as [It Iy]. apply steps_In in Iy.
    assert (T2 : t2 < nt) by (destruct tconn; [apply steps_In in It; lia|destruct It as [<-|[]]; exact T]).
    destruct (Nat.eqb_spec j (nx - 1)) as [->|Nj]; [|reflexivity]. rewrite (Last t2 y2 T2 (proj1 Iy)) in V. discriminate.
Qed.

Lemma labels_alike tconn : identify_grid false tconn nt ny nx on = identify_grid true tconn nt ny nx on.
Proof. unfold identify_grid, label_on, label_count, compact_edges. cbn [negb]. rewrite edges_alike. reflexivity. Qed.
End Quiet.

(** ** Filling *)

(** [g] in regional ([r = true]) or global mode. *)
Definition in_mode (r : bool) (g : grid) : grid :=
  mkGrid r (g_nt g) (g_ny g) (g_nx g) (g_mask g) (g_R g) (g_T g) (g_rule g).
(** No extreme in the last column. *)
Definition last_quiet (g : grid) (data : field) : Prop :=
  forall t y, t < g_nt g -> y < g_ny g -> value_at (g_nx g) data (t, y, g_nx g - 1) = false.

Lemma flat_img_ext ny nx (f f' : img) : (forall y x, y < ny -> x < nx -> f (Z.of_nat y) (Z.of_nat x) = f' (Z.of_nat y) (Z.of_nat x)) -> flat_img ny nx f = flat_img ny nx f'.
Proof.
  intro H. unfold flat_img. apply map_ext_in. intros k K. apply in_seq in K.
  assert (N : nx <> 0) by lia. apply H; [apply Nat.div_lt_upper_bound; lia|apply Nat.mod_upper_bound; exact N].
Qed.

Lemma mode_fill r g data s : length data = g_nt g -> 0 < g_nx g -> (0 <= g_R g)%Z -> Z.even (g_T g) = true ->
  last_quiet g data -> (g_R g = 0%Z \/ room (2 * Z.to_nat (g_R g)) g data) ->
  fill_grid (in_mode r g) data = Some s -> fill_grid (in_mode (negb r) g) data = Some s /\ last_quiet g s.
Proof.
  intros L Nx R0 Te Lq Rm E. set (dark := (fun _ _ => false) : img).
  set (ny := Z.of_nat (g_ny g)). set (nx := Z.of_nat (g_nx g)). set (mask := img_of (g_nx g) (g_mask g)). set (im0 := map (img_of (g_nx g)) data).
  assert (Tot : forall reg n, exists im, preprocess_morph reg (g_T g) (g_R g) ny n mask im0 = Some im).
  { intros reg n. unfold fill_grid in E. cbn [in_mode g_regional g_T g_R g_ny g_nx g_mask] in E. unfold preprocess_morph, fill_time_gaps in *.
    destruct (Z.eqb (g_T g) 0); [eexists; reflexivity|]. destruct (Z.ltb (g_T g + 1) 0); [discriminate|]. eexists. reflexivity. }
  destruct (Tot true (nx - 1)%Z) as (imc & Pc). destruct (Tot r nx) as (im & P). destruct (Tot (negb r) nx) as (im' & P').
  assert (Li : length im0 = g_nt g) by (unfold im0; rewrite map_length; exact L).
  assert (En : forall reg t, t < g_nt g -> enough reg (g_R g) ny nx (nth t im0 dark)).
  { intros reg t T. destruct Rm as [Z0|Rm]; [left; exact Z0|]. destruct (Z.eq_dec (g_R g) 0) as [Z0|Z0]; [left; exact Z0|right].
    assert (C := room_enough g data t _ L Rm T). replace (Z.of_nat (2 * Z.to_nat (g_R g))) with (2 * g_R g)%Z in C by lia. fold ny nx im0 dark in C.
    intros y x G V. specialize (C y x G V). destruct reg; lia. }
  assert (Hd : forall reg im1, preprocess_morph reg (g_T g) (g_R g) ny nx mask im0 = Some im1 ->
    forall t, t < g_nt g -> holds 0 0 ny (nx - 1) ny nx (nth t imc dark) (nth t im1 dark)).
  { intros reg im1 P1. apply (record_holds 0 0 ny (nx - 1) ny nx (g_R g) (g_T g) true reg mask mask (g_nt g) R0 Te ltac:(lia) ltac:(lia) ltac:(lia) ltac:(lia)) with (s := im0) (s' := im0); try assumption.
    - intros y x _. rewrite !Z.add_0_r. reflexivity.
    - intros t T. split; [intros y x _; rewrite !Z.add_0_r; reflexivity|]. intros y x [Y X] V. rewrite !Z.sub_0_r. split; [exact Y|].
      destruct (Z.eq_dec x (nx - 1)) as [->|N]; [exfalso|lia]. unfold im0 in V. rewrite (nth_map_gen _ data t []) in V by lia. unfold img_of in V.
      assert (Q0 := Lq t (Z.to_nat y) T ltac:(unfold ny in *; lia)). cbn [value_at] in Q0. replace (Z.to_nat (nx - 1)) with (g_nx g - 1) in V by (unfold nx; lia). rewrite Q0 in V. discriminate.
    - intros t T. destruct Rm as [Z0|Rm]; [left; exact Z0|]. destruct (Z.eq_dec (g_R g) 0) as [Z0|Z0]; [left; exact Z0|right].
      assert (C := room_enough g data t _ L Rm T). replace (Z.of_nat (2 * Z.to_nat (g_R g))) with (2 * g_R g)%Z in C by lia. fold ny nx im0 dark in C.
      intros y x [Y X] V. specialize (C y x ltac:(unfold in_grid in *; lia) V). lia. 
    - intros t T. apply En. exact T. }
  assert (Len : forall reg im1, preprocess_morph reg (g_T g) (g_R g) ny nx mask im0 = Some im1 -> length im1 = g_nt g).
  { intros reg im1 P1. destruct (C06_masked_out_cells_never_marked _ _ _ _ _ _ _ _ P1) as [Lm _]. lia. }
  assert (H := Hd r im P). assert (H' := Hd (negb r) im' P'). assert (Lm := Len r im P). assert (Lm' := Len (negb r) im' P').
  unfold fill_grid in E |- *. cbn [in_mode g_regional g_T g_R g_ny g_nx g_mask] in E |- *. fold ny nx mask im0 in E |- *. rewrite P in E. rewrite P'. cbn [option_map] in E |- *. injection E as <-.
  clear Tot En Hd Len P P' Pc Rm Lq Li R0 Te. clearbody im0 mask dark. subst ny nx.
  split.
  - apply f_equal. apply nth_ext with (d := @nil bool) (d' := @nil bool); [rewrite !map_length, Lm, Lm'; reflexivity|]. intros t T. rewrite map_length in T. assert (T1 : t < length im) by (rewrite Lm, <- Lm'; exact T). assert (T2 : t < g_nt g) by (rewrite <- Lm'; exact T).
    rewrite (nth_map_gen (flat_img (g_ny g) (g_nx g)) im' t dark [] T). rewrite (nth_map_gen (flat_img (g_ny g) (g_nx g)) im t dark [] T1). apply flat_img_ext. intros y x Y X.
    destruct (H t T2) as [A1 A2]. destruct (H' t T2) as [B1 B2]. destruct (Nat.eq_dec x (g_nx g - 1)) as [->|N].
    + destruct (nth t im' dark (Z.of_nat y) (Z.of_nat (g_nx g - 1))) eqn:V1; [exfalso; destruct (B2 (Z.of_nat y) (Z.of_nat (g_nx g - 1)) ltac:(unfold in_grid; lia) V1) as [_ X0]; lia|].
      destruct (nth t im dark (Z.of_nat y) (Z.of_nat (g_nx g - 1))) eqn:V2; [exfalso; destruct (A2 (Z.of_nat y) (Z.of_nat (g_nx g - 1)) ltac:(unfold in_grid; lia) V2) as [_ X0]; lia|]. reflexivity.
    + specialize (A1 (Z.of_nat y) (Z.of_nat x) ltac:(unfold in_grid; lia)). specialize (B1 (Z.of_nat y) (Z.of_nat x) ltac:(unfold in_grid; lia)). rewrite !Z.add_0_r in A1, B1. congruence.
  - intros t y T Y. cbn [value_at]. rewrite (nth_map_gen _ im t dark) by lia. rewrite flat_at by lia. destruct (nth t im dark (Z.of_nat y) (Z.of_nat (g_nx g - 1))) eqn:V; [|reflexivity].
    exfalso. destruct (H t T) as [_ A2]. destruct (A2 (Z.of_nat y) (Z.of_nat (g_nx g - 1)) ltac:(unfold in_grid; lia) V) as [_ X0]. lia.
Qed.
