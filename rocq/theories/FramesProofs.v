(** Invariants of frames that share pyplot's state. *)
From Verif Require Import Base Frames.
Open Scope nat_scope.

Definition number (p : place) : option nat :=
  match p with Waiting | Finished => None | HasFigure n | HasAxes n | Drawn n | Saved n => Some n end.
Lemma next_fresh figs f : In f figs -> fst f < next_number figs.
Proof.
  unfold next_number. induction figs as [|g r IH]; intro I; [destruct I|]. cbn [map fold_right]. destruct I as [->|I]; [lia|]. specialize (IH I). lia.
Qed.
Lemma add_axes_last a figs f : add_axes a (figs ++ [f]) = figs ++ [(fst f, snd f ++ [a])].
Proof.
  induction figs as [|g r IH]; [reflexivity|]. cbn [app]. rewrite <- IH. destruct (r ++ [f]) eqn:E; [destruct r; discriminate|reflexivity].
Qed.
Lemma add_axes_after a us extra : extra <> [] -> exists extra', add_axes a (us ++ extra) = us ++ extra' /\ map fst extra' = map fst extra.
Proof.
  intro N. destruct (exists_last N) as (l & f & ->). exists (l ++ [(fst f, snd f ++ [a])]). rewrite app_assoc, add_axes_last, <- app_assoc. split; [reflexivity|].
  rewrite !map_app. reflexivity.
Qed.
Lemma draw_app i a b : draw i (a ++ b) = draw i a ++ draw i b.
Proof. apply map_app. Qed.
Lemma draw_numbers i a : map fst (draw i a) = map fst a.
Proof. unfold draw. rewrite map_map. reflexivity. Qed.
Lemma draw_users i us : (forall f a, In f us -> In a (snd f) -> exists k, a = Users k) -> draw i us = us.
Proof.
  intro U. induction us as [|f r IH]; [reflexivity|]. cbn [draw map]. fold (draw i r). rewrite IH by (intros g a G; apply U; right; exact G). f_equal.
  destruct f as [n l]. cbn [fst snd]. f_equal. assert (V : forall a, In a l -> exists k, a = Users k) by (intros a I; apply (U (n, l)); [left; reflexivity|exact I]).
  clear U IH. induction l as [|a l IH]; [reflexivity|]. cbn [map]. rewrite IH by (intros b I; apply V; right; exact I). f_equal.
  destruct (V a ltac:(left; reflexivity)) as (k & ->). reflexivity.
Qed.
Lemma close_app n a b : close n (a ++ b) = close n a ++ close n b.
Proof. apply filter_app. Qed.
Lemma close_none n a : ~ In n (map fst a) -> close n a = a.
Proof.
  intro N. induction a as [|f r IH]; [reflexivity|]. cbn [close filter]. destruct (Nat.eqb_spec (fst f) n) as [E|E]; [destruct N; left; exact E|].
  cbn [negb]. fold (close n r). rewrite IH; [reflexivity|]. intro I. apply N. right. exact I.
Qed.
Lemma close_numbers n m a : In m (map fst (close n a)) <-> In m (map fst a) /\ m <> n.
Proof.
  unfold close. rewrite !in_map_iff. split.
  - intros (f & E & I). apply filter_In in I. destruct I as [I K]. destruct (Nat.eqb_spec (fst f) n); [discriminate|]. split; [exists f; split; assumption|congruence].
  - intros ((f & E & I) & N). exists f. split; [exact E|]. apply filter_In. split; [exact I|]. destruct (Nat.eqb_spec (fst f) n); [congruence|reflexivity].
Qed.
Lemma close_nodup n a : NoDup (map fst a) -> NoDup (map fst (close n a)).
Proof.
  induction a as [|f r IH]; intro H; [exact H|]. inversion H as [|x l N R]; subst. cbn [close filter]. destruct (negb _); [|exact (IH R)].
  cbn [map]. constructor; [|exact (IH R)]. intro I. apply N. apply (close_numbers n) in I. tauto.
Qed.

Lemma NoDup_snoc (l : list nat) x : NoDup l -> ~ In x l -> NoDup (l ++ [x]).
Proof.
  intros H N. induction H as [|y l Y H IH]; [constructor; [intros []|constructor]|]. cbn [app]. constructor.
  - rewrite in_app_iff. intros [I|[I|[]]]; [exact (Y I)|]. subst. apply N. left. reflexivity.
  - apply IH. intro I. apply N. right. exact I.
Qed.
Section Run.
Variable us : list figure.
Hypothesis Us : forall f a, In f us -> In a (snd f) -> exists k, a = Users k.

(** In every schedule. *)
Definition kept (s : studio) : Prop := exists extra, c_figs (s_canvas s) = us ++ extra /\ NoDup (map fst extra) /\
  (forall n, In n (map fst extra) -> ~ In n (map fst us)) /\
  (forall n, In n (map fst extra) <-> exists i, number (s_place s i) = Some n) /\
  (forall i j n, number (s_place s i) = Some n -> number (s_place s j) = Some n -> i = j).

Lemma kept_same s s' : kept s -> (exists extra extra', c_figs (s_canvas s) = us ++ extra /\ c_figs (s_canvas s') = us ++ extra' /\ map fst extra' = map fst extra) ->
  (forall i, number (s_place s' i) = number (s_place s i)) -> kept s'.
Proof.
  intros (e & E & Nd & Nu & Own & Inj) (e1 & e2 & E1 & E2 & M) P. rewrite E in E1. apply app_inv_head in E1. subst e1.
  exists e2. split; [exact E2|]. rewrite M. split; [exact Nd|]. split; [exact Nu|]. split.
  - intro n. rewrite Own. split; intros (i & I); exists i; [rewrite P|rewrite <- P]; exact I.
  - intros i j n. rewrite !P. apply Inj.
Qed.
Lemma kept_advance s i : kept s -> kept (advance s i).
Proof.
  intro K. assert (K0 := K). destruct K as (e & E & Nd & Nu & Own & Inj). unfold advance. destruct (s_place s i) as [|n|n|n|n|] eqn:P; cbn [step].
  - set (n := next_number (c_figs (s_canvas s))). exists (e ++ [(n, [])]). cbn [s_canvas c_figs s_place].
    assert (Fr : forall m, In m (map fst (us ++ e)) -> m < n).
    { intros m I. apply in_map_iff in I. destruct I as (f & <- & I). apply next_fresh. rewrite E. exact I. }
    split; [rewrite E, app_assoc; reflexivity|]. rewrite map_app. cbn [map fst]. split; [|split; [|split]].
    + apply NoDup_snoc; [exact Nd|]. intro I. specialize (Fr n). rewrite map_app, in_app_iff in Fr. specialize (Fr (or_intror I)). lia.
    + intros m I. apply in_app_iff in I. destruct I as [I|[<-|[]]]; [apply Nu; exact I|]. intro J. specialize (Fr n). rewrite map_app, in_app_iff in Fr. specialize (Fr (or_introl J)). lia.
    + intro m. rewrite in_app_iff, Own. split.
      * intros [(j & J)|[<-|[]]]; [exists j; destruct (Nat.eqb_spec j i) as [->|_]; [rewrite P in J; discriminate|exact J]|].
        exists i. rewrite Nat.eqb_refl. reflexivity.
      * intros (j & J). destruct (Nat.eqb j i); [injection J as J; right; left; exact J|]. left. exists j. exact J.
    + intros a b m. assert (Old : forall j, number (s_place s j) = Some n -> False).
      { intros j J. assert (I : In n (map fst e)) by (apply Own; exists j; exact J). specialize (Fr n). rewrite map_app, in_app_iff in Fr. specialize (Fr (or_intror I)). lia. }
      destruct (Nat.eqb_spec a i) as [Qa|_]; destruct (Nat.eqb_spec b i) as [Qb|_]; cbn [number]; intros A B; try congruence.
      exact (Inj _ _ _ A B).
  - apply (kept_same s); [exact K0| |].
    + assert (Ne : e <> []) by (intros ->; apply (proj2 (Own n)); exists i; rewrite P; reflexivity).
      destruct (add_axes_after (OfFrame i false) us e Ne) as (e' & A & M). exists e, e'. cbn [s_canvas c_figs]. rewrite E. auto.
    + intro j. cbn [s_place]. destruct (Nat.eqb_spec j i) as [->|_]; [rewrite P; reflexivity|reflexivity].
  - apply (kept_same s); [exact K0| |].
    + exists e, (draw i e). cbn [s_canvas c_figs]. rewrite E, draw_app, (draw_users i us Us), draw_numbers. auto.
    + intro j. cbn [s_place]. destruct (Nat.eqb_spec j i) as [->|_]; [rewrite P; reflexivity|reflexivity].
  - apply (kept_same s); [exact K0| |].
    + exists e, e. cbn [s_canvas c_figs]. auto.
    + intro j. cbn [s_place]. destruct (Nat.eqb_spec j i) as [->|_]; [rewrite P; reflexivity|reflexivity].
  - assert (In_n : In n (map fst e)) by (apply Own; exists i; rewrite P; reflexivity).
    exists (close n e). cbn [s_canvas c_figs s_place]. rewrite E, close_app, (close_none n us) by (apply Nu; exact In_n). split; [reflexivity|].
    split; [apply close_nodup; exact Nd|]. split; [|split].
    + intros m I. apply close_numbers in I. apply Nu. tauto.
    + intro m. rewrite close_numbers, Own. split.
      * intros ((j & J) & Ne). exists j. destruct (Nat.eqb_spec j i) as [->|_]; [rewrite P in J; cbn in J; congruence|exact J].
      * intros (j & J). destruct (Nat.eqb_spec j i) as [Q|Ne]; [discriminate|]. split; [exists j; exact J|]. intros ->. apply Ne. apply (Inj _ _ n J). rewrite P. reflexivity.
    + intros a b m. destruct (Nat.eqb_spec a i); destruct (Nat.eqb_spec b i); cbn [number]; intros A B; try discriminate. exact (Inj _ _ _ A B).
  - destruct s as [pl c]. cbn [s_place s_canvas] in *. apply (kept_same (mkStudio pl c)); [exact K0|exists e, e; auto|].
    intro j. cbn [s_place]. destruct (Nat.eqb_spec j i) as [->|_]; [rewrite P; reflexivity|reflexivity].
Qed.

(** When no frame calls plt.figure while another is between plt.figure and plt.axes. *)
Definition right (s : studio) : Prop :=
  (forall i n, s_place s i = HasFigure n -> exists front, c_figs (s_canvas s) = front ++ [(n, [])]) /\
  (forall i n, s_place s i = HasAxes n -> In (n, [OfFrame i false]) (c_figs (s_canvas s))) /\
  (forall i n, s_place s i = Drawn n \/ s_place s i = Saved n -> In (n, [OfFrame i true]) (c_figs (s_canvas s))) /\
  (forall i img, In (i, img) (c_files (s_canvas s)) -> img = [OfFrame i true]).

Lemma one_figure s n l : kept s -> (exists i, number (s_place s i) = Some n) -> In (n, l) (c_figs (s_canvas s)) -> axes_of n (c_figs (s_canvas s)) = l.
Proof.
  intros (e & E & Nd & Nu & Own & _) N I. apply Own in N. assert (Nn := Nu _ N). rewrite E in *. clear E Own Nu. unfold axes_of.
  assert (F : forall a, ~ In n (map fst a) -> @find figure (fun f : nat * list axes => Nat.eqb (fst f) n) (a ++ e) = @find figure (fun f : nat * list axes => Nat.eqb (fst f) n) e).
  { induction a as [|f a IH]; intro A; [reflexivity|]. cbn [app find]. destruct (Nat.eqb_spec (fst f) n) as [X|X]; [destruct A; left; exact X|]. apply IH. intro J. apply A. right. exact J. }
  assert (F' := F us Nn). unfold figure in *. rewrite F'. apply in_app_iff in I. destruct I as [I|I]; [destruct Nn; apply in_map_iff; exists (n, l); auto|]. clear F F' N.
  induction e as [|f e IH]; [destruct I|]. inversion Nd as [|x y N1 N2]; subst. cbn [find]. destruct I as [->|I].
  - cbn [fst]. rewrite Nat.eqb_refl. reflexivity.
  - destruct (Nat.eqb_spec (fst f) n) as [X|X]; [|apply IH; assumption]. destruct N1. apply in_map_iff. exists (n, l). split; [symmetry; exact X|exact I].
Qed.
Lemma last_same (a b : list figure) x y : a ++ [x] = b ++ [y] -> x = y.
Proof. intro H. apply app_inj_tail in H. tauto. Qed.
Lemma right_advance s i : kept s -> right s -> (s_place s i = Waiting -> forall j n, s_place s j <> HasFigure n) -> right (advance s i).
Proof.
  intros K (F & A & D & Im) Ap. assert (Ka := kept_advance s i K). destruct K as (e & E & Nd & Nu & Own & Inj). assert (K : kept s) by (exists e; auto).
  unfold advance in *. destruct (s_place s i) as [|n|n|n|n|] eqn:P; cbn [step] in *; unfold right; cbn [s_canvas s_place c_figs c_files].
  - split; [|split; [|split]].
    + intros j m. destruct (Nat.eqb_spec j i) as [Q|_]; intro H; [injection H as <-; eexists; reflexivity|]. destruct (Ap eq_refl j m H).
    + intros j m. destruct (Nat.eqb_spec j i) as [Q|_]; intro H; [discriminate|]. apply in_app_iff. left. apply A. exact H.
    + intros j m. destruct (Nat.eqb_spec j i) as [Q|_]; intro H; [destruct H; discriminate|]. apply in_app_iff. left. apply D. exact H.
    + exact Im.
  - destruct (F i n P) as (front & Fr). rewrite Fr, add_axes_last. cbn [fst snd app].
    assert (Other : forall j m l, j <> i -> number (s_place s j) = Some m -> In (m, l) (front ++ [(n, [])]) -> In (m, l) (front ++ [(n, [OfFrame i false])])).
    { intros j m l N M I. apply in_app_iff in I. apply in_app_iff. destruct I as [I|[I|[]]]; [left; exact I|]. injection I as X Y. subst m.
      exfalso. apply N. apply (Inj _ _ n M). rewrite P. reflexivity. }
    split; [|split; [|split]].
    + intros j m. destruct (Nat.eqb_spec j i) as [Q|N]; intro H; [discriminate|]. destruct (F j m H) as (fr' & E'). rewrite Fr in E'. apply last_same in E'. injection E' as X.
      exfalso. apply N. apply (Inj _ _ m); [rewrite H; reflexivity|rewrite P, X; reflexivity].
    + intros j m. destruct (Nat.eqb_spec j i) as [Q|N]; intro H; [injection H as <-; subst j; apply in_app_iff; right; left; reflexivity|].
      apply (Other j); [exact N|rewrite H; reflexivity|]. rewrite <- Fr. apply A. exact H.
    + intros j m. destruct (Nat.eqb_spec j i) as [Q|N]; intro H; [destruct H; discriminate|].
      apply (Other j); [exact N|destruct H as [H|H]; rewrite H; reflexivity|]. rewrite <- Fr. apply D. exact H.
    + exact Im.
  - assert (Dr : forall m l, In (m, l) (c_figs (s_canvas s)) -> In (m, map (draw_axes i) l) (draw i (c_figs (s_canvas s)))).
    { intros m l I. unfold draw. apply in_map_iff. exists (m, l). split; [reflexivity|exact I]. }
    split; [|split; [|split]].
    + intros j m. destruct (Nat.eqb_spec j i) as [Q|_]; intro H; [discriminate|]. destruct (F j m H) as (front & Fr). exists (draw i front). rewrite Fr, draw_app. reflexivity.
    + intros j m. destruct (Nat.eqb_spec j i) as [Q|N]; intro H; [discriminate|]. specialize (Dr _ _ (A j m H)). cbn [map draw_axes] in Dr.
      destruct (Nat.eqb_spec j i); [congruence|]. exact Dr.
    + intros j m. destruct (Nat.eqb_spec j i) as [Q|N]; intro H.
      * destruct H as [H|H]; [|discriminate]. injection H as <-. subst j. specialize (Dr _ _ (A i n P)). cbn [map draw_axes] in Dr. rewrite Nat.eqb_refl in Dr. exact Dr.
      * specialize (Dr _ _ (D j m H)). cbn [map draw_axes] in Dr. destruct (Nat.eqb_spec j i); [congruence|]. exact Dr.
    + exact Im.
  - split; [|split; [|split]].
    + intros j m. destruct (Nat.eqb_spec j i) as [Q|_]; intro H; [discriminate|]. exact (F j m H).
    + intros j m. destruct (Nat.eqb_spec j i) as [Q|N]; intro H; [discriminate|]. exact (A j m H).
    + intros j m. destruct (Nat.eqb_spec j i) as [Q|N]; intro H; [|exact (D j m H)]. destruct H as [H|H]; [discriminate|]. injection H as <-. subst j. apply D. left. exact P.
    + intros j img I. apply in_app_iff in I. destruct I as [I|[I|[]]]; [exact (Im j img I)|]. injection I as <- <-.
      apply one_figure; [exact K|exists i; rewrite P; reflexivity|]. apply D. left. exact P.
  - assert (Cl : forall j m l, j <> i -> number (s_place s j) = Some m -> In (m, l) (c_figs (s_canvas s)) -> In (m, l) (close n (c_figs (s_canvas s)))).
    { intros j m l N M I. unfold close. apply filter_In. split; [exact I|]. cbn [fst]. destruct (Nat.eqb_spec m n) as [->|_]; [|reflexivity].
      exfalso. apply N. apply (Inj _ _ n M). rewrite P. reflexivity. }
    split; [|split; [|split]].
    + intros j m. destruct (Nat.eqb_spec j i) as [Q|N]; intro H; [discriminate|]. destruct (F j m H) as (front & Fr). exists (close n front). rewrite Fr, close_app. f_equal.
      cbn [close filter fst]. destruct (Nat.eqb_spec m n) as [->|_]; [|reflexivity]. exfalso. apply N. apply (Inj _ _ n); [rewrite H|rewrite P]; reflexivity.
    + intros j m. destruct (Nat.eqb_spec j i) as [Q|N]; intro H; [discriminate|]. apply (Cl j); [exact N|rewrite H; reflexivity|exact (A j m H)].
    + intros j m. destruct (Nat.eqb_spec j i) as [Q|N]; intro H; [destruct H; discriminate|]. apply (Cl j); [exact N|destruct H as [H|H]; rewrite H; reflexivity|exact (D j m H)].
    + exact Im.
  - split; [|split; [|split]].
    + intros j m. destruct (Nat.eqb_spec j i) as [Q|_]; intro H; [discriminate|]. exact (F j m H).
    + intros j m. destruct (Nat.eqb_spec j i) as [Q|N]; intro H; [discriminate|]. exact (A j m H).
    + intros j m. destruct (Nat.eqb_spec j i) as [Q|N]; intro H; [destruct H; discriminate|exact (D j m H)].
    + exact Im.
Qed.
Lemma animate_snoc sch i : animate us (sch ++ [i]) = advance (animate us sch) i.
Proof. unfold animate. rewrite fold_left_app. reflexivity. Qed.
Lemma kept_always sch : kept (animate us sch).
Proof.
  induction sch as [|i sch IH] using rev_ind; [|rewrite animate_snoc; apply kept_advance; exact IH].
  exists []. rewrite app_nil_r. split; [reflexivity|]. split; [constructor|]. split; [intros n []|]. split; [|discriminate].
  intro n. split; [intros []|intros (i & I); discriminate].
Qed.
Lemma right_always sch :
  (forall pre i post, sch = pre ++ i :: post -> s_place (animate us pre) i = Waiting -> forall j n, s_place (animate us pre) j <> HasFigure n) ->
  right (animate us sch).
Proof.
  induction sch as [|i sch IH] using rev_ind; intro H.
  - split; [discriminate|]. split; [discriminate|]. split; [intros i n [X|X]; discriminate|intros i img []].
  - rewrite animate_snoc. apply right_advance; [apply kept_always| |].
    + apply IH. intros pre j post ->. apply (H pre j (post ++ [i])). rewrite <- app_assoc. reflexivity.
    + intros W. apply (H sch i []); [reflexivity|exact W].
Qed.
End Run.
