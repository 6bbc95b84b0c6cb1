(** The areas filter_small_objects works with are the sizes of the objects. *)
From Coq Require Import Permutation.
From Verif Require Import Base Label LabelSpec LabelProofs Filter FilterSpec FilterProofs FilterGridProofs.
Open Scope nat_scope.

Section Areas.
Variables (regional : bool) (nt ny nx : nat) (data : list bool).
Hypothesis L : length data = nt * ny * nx.
Notation jn := (joined regional nt ny nx data).

Lemma areas_are_sizes r f : filter_grid regional r nt ny nx data = Ok f ->
  f_threshold f = threshold_of r (f_areas f) /\
  exists reps,
    Forall2 (fun c a => in_range nt ny nx c /\ extreme ny nx data c /\ exists l, object_cells regional nt ny nx data c l /\ length l = a) reps (f_areas f) /\
    ForallOrdPairs (fun a b => ~ jn a b) reps /\
    (forall c, in_range nt ny nx c -> extreme ny nx data c -> exists r, In r reps /\ jn c r).
Proof.
  rewrite filter_grid_eq. set (es := grid_edges false (negb regional) nt ny nx). set (lab := label_on data es). set (slices := map (slice ny nx 0%Z lab) (seq 0 nt)).
  destruct (grid_props slices) as [|p0 l0] eqn:G; [discriminate|]. rewrite <- G. intro E. injection E as <-. cbn [f_threshold f_areas].
  split; [reflexivity|].
  assert (ND := props_NoDup slices (slices_disjoint regional nt ny nx data L)).
  destruct (lab_spec regional nt ny nx data L) as (_ & Sm & _). fold es in Sm. fold lab in Sm.
  assert (Ex : exists reps,
    Forall2 (fun c p => in_range nt ny nx c /\ extreme ny nx data c /\ label_of ny nx lab c = fst p /\ exists l, object_cells regional nt ny nx data c l /\ length l = snd p) reps (grid_props slices)).
  { assert (All : forall p, In p (grid_props slices) -> exists c, in_range nt ny nx c /\ extreme ny nx data c /\ label_of ny nx lab c = fst p /\ exists l, object_cells regional nt ny nx data c l /\ length l = snd p).
    { intros [id a] I. apply props_In in I. destruct I as (s & Hs & Hi & P & ->). apply in_map_iff in Hs. destruct Hs as (t & <- & T). apply in_seq in T.
      apply (slice_has regional nt ny nx data L t id ltac:(lia) P) in Hi. destruct Hi as (c & R & Tc & X & <-). exists c. split; [exact R|]. split; [exact X|]. split; [reflexivity|].
      destruct (object_cells_exist regional nt ny nx data L c R X) as (l & O). exists l. split; [exact O|]. cbn [snd]. rewrite <- Tc. symmetry. exact (object_size regional nt ny nx data L c l R X O). }
    clear - All. induction (grid_props slices) as [|p ps IH]; [exists []; constructor|].
    destruct (All p (or_introl eq_refl)) as (c & C). destruct IH as (reps & F); [intros q I; apply All; right; exact I|]. exists (c :: reps). constructor; assumption. }
  destruct Ex as (reps & F). exists reps. split; [|split].
  - clear - F. induction F as [|c p cs ps H F IH]; [constructor|]. cbn. constructor; [|exact IH]. tauto.
  - clear - F ND Sm. induction F as [|c p cs ps (R & X & Lc & _) F IH]; [constructor|]. cbn in ND. inversion ND as [|? ? N N']; subst. constructor; [|apply IH; exact N'].
    apply Forall_forall. intros d I J. apply N. assert (H : exists q, In q ps /\ in_range nt ny nx d /\ extreme ny nx data d /\ label_of ny nx lab d = fst q).
    { clear - F I. induction F as [|c q cs qs H F IH]; [destruct I|]. destruct I as [->|I]; [exists q; split; [left; reflexivity|tauto]|]. destruct (IH I) as (q' & A & B). exists q'. split; [right; exact A|exact B]. }
    destruct H as (q & Iq & Rd & Xd & Ld). apply (Sm c d R Rd X Xd) in J. rewrite <- Lc, J, Ld. apply in_map. exact Iq.
  - intros c R X. assert (I : In (label_of ny nx lab c, cells_with (label_of ny nx lab c) (slice ny nx 0%Z lab (fst (fst c)))) (grid_props slices)).
    { assert (P : (0 < label_of ny nx lab c)%Z) by (apply (lab_pos regional nt ny nx data L); assumption).
      apply props_In. exists (slice ny nx 0%Z lab (fst (fst c))). assert (Ht : fst (fst c) < nt) by (destruct c as [[t y] x]; simpl in *; tauto).
      split; [apply in_map, in_seq; lia|]. split; [|split; [exact P|reflexivity]]. apply (slice_has regional nt ny nx data L); [exact Ht|exact P|]. exists c. auto. }
    revert I. generalize (cells_with (label_of ny nx lab c) (slice ny nx 0%Z lab (fst (fst c)))). intros a I.
    clear - F I Sm R X. induction F as [|d p ds ps (Rd & Xd & Ld & _) F IH]; [destruct I|]. destruct I as [->|I].
    + exists d. split; [left; reflexivity|]. apply Sm; auto.
    + destruct (IH I) as (r & A & B). exists r. split; [right; exact A|exact B].
Qed.
End Areas.

(** ** The percentile does not depend on the order of the areas *)
Lemma insert_swap x y l : insert_nat x (insert_nat y l) = insert_nat y (insert_nat x l).
Proof.
  induction l as [|z l IH]; cbn.
  - destruct (Nat.leb_spec x y), (Nat.leb_spec y x); try reflexivity; [assert (x = y) by lia; subst; reflexivity|lia].
  - destruct (Nat.leb_spec y z), (Nat.leb_spec x z); cbn;
    repeat match goal with |- context [Nat.leb ?a ?b] => destruct (Nat.leb_spec a b) end; try reflexivity; try lia; try (assert (x = y) by lia; subst; reflexivity).
    rewrite IH. reflexivity.
Qed.
Lemma sort_permuted l l' : Permutation l l' -> sort_nat l = sort_nat l'.
Proof. induction 1; cbn; [reflexivity|f_equal; assumption|apply insert_swap|congruence]. Qed.
Lemma threshold_permuted r l l' : Permutation l l' -> threshold_of r l = threshold_of r l'.
Proof. intro P. destruct r; [reflexivity|]. cbn. unfold percentile. rewrite (sort_permuted _ _ P). reflexivity. Qed.
