(** Proofs for two runs on related data. *)
From Coq Require Import Permutation String.
From Verif Require Import Base Morph MorphSpec MorphProps Label LabelSpec Filter FilterSpec FilterProofs FilterGridProofs FilterAreaProofs FilterProps Overlap Merge Partition Cluster ClusterSpec ClusterFinal
  Run RunSpec RunProofs RunProps GridRunProps RelateSpec.
Open Scope nat_scope.

(** ** Chains in general *)
Lemma chain_join b wrap nt ny nx on c d e : chain b wrap nt ny nx on c d -> chain b wrap nt ny nx on d e -> chain b wrap nt ny nx on c e.
Proof. induction 1 as [c|c d0 e0 R O T C IH]; intro H; [exact H|]. apply (chain_step _ _ _ _ _ _ c d0 e); auto. Qed.
Lemma touch_sym b wrap nx c d : touching b wrap nx c d -> touching b wrap nx d c.
Proof. destruct c as [[t y] x], d as [[t' y'] x']. unfold touching, col_next, dist1. destruct b; intuition lia. Qed.
Lemma chain_back b wrap nt ny nx (on : cell -> Prop) c d : in_range nt ny nx c -> on c -> chain b wrap nt ny nx on c d -> chain b wrap nt ny nx on d c.
Proof.
  intros R O H. induction H as [c|c d e Rd Od T C IH]; [constructor|]. apply (chain_join _ _ _ _ _ _ e d c); [apply IH; assumption|].
  apply (chain_step _ _ _ _ _ _ d c c); [exact R|exact O|apply touch_sym; exact T|constructor].
Qed.
Lemma chain_one_step wrap nt ny nx on c d : chain false wrap nt ny nx on c d -> fst (fst c) = fst (fst d).
Proof. induction 1 as [c|c d e R O T C IH]; [reflexivity|]. rewrite <- IH. destruct c as [[t y] x], d as [[t' y'] x']. cbn in *. tauto. Qed.
Lemma chain_end b wrap nt ny nx (on : cell -> Prop) c d : in_range nt ny nx c -> on c -> chain b wrap nt ny nx on c d -> in_range nt ny nx d /\ on d.
Proof. intros R O H. induction H as [c|c d e Rd Od T C IH]; [auto|]. apply IH; assumption. Qed.

(** What C123 says about the cells of events. *)
Definition events_are (wrap : bool) (ny nx n : nat) (on : cell -> Prop) (thr : Q) (ev : cell -> Prop) : Prop :=
  forall c, in_range n ny nx c ->
    (ev c <-> on c /\
      (exists l, (NoDup l /\ forall d, In d l <-> in_range n ny nx d /\ on d /\ chain false wrap n ny nx on c d) /\ (thr <= nat_Q (length l))%Q) /\
      ~ (exists e, (in_range n ny nx e /\ on e /\ forall d, in_range n ny nx d -> on d -> flat ny nx e <= flat ny nx d) /\ chain false wrap n ny nx on c e)).
Definition first_of (ny nx n : nat) (on : cell -> Prop) (e : cell) : Prop :=
  in_range n ny nx e /\ on e /\ forall d, in_range n ny nx d -> on d -> flat ny nx e <= flat ny nx d.
Lemma flat_once ny nx n c d : in_range n ny nx c -> in_range n ny nx d -> flat ny nx c = flat ny nx d -> c = d.
Proof.
  destruct c as [[t y] x], d as [[t' y'] x']. cbn. intros (T & Y & X) (T' & Y' & X') E.
  assert (t * ny + y = t' * ny + y' /\ x = x').
  { split; [|assert (H : t * ny + y = t' * ny + y'); [|rewrite H in E; lia]];
    destruct (Nat.lt_trichotomy (t * ny + y) (t' * ny + y')) as [L|[L|L]]; try exact L; exfalso; nia. }
  assert (t = t') by (destruct (Nat.lt_trichotomy t t') as [L|[L|L]]; [nia|exact L|nia]). subst. f_equal; [f_equal; lia|lia].
Qed.
Lemma first_once ny nx n on e f : first_of ny nx n on e -> first_of ny nx n on f -> e = f.
Proof. intros (R & O & M) (R' & O' & M'). apply (flat_once ny nx n e f R R'). specialize (M f R' O'). specialize (M' e R O). lia. Qed.

(** ** An embedding of one record in another *)
Section Embed.
Variables (wrap wrap' : bool) (nt ny nx nt' ny' nx' : nat) (sig : cell -> cell).
Hypothesis Sr : forall c, in_range nt ny nx c -> in_range nt' ny' nx' (sig c).
Hypothesis Si : forall c d, in_range nt ny nx c -> in_range nt ny nx d -> sig c = sig d -> c = d.
Hypothesis St : forall b c d, in_range nt ny nx c -> in_range nt ny nx d -> (touching b wrap' nx' (sig c) (sig d) <-> touching b wrap nx c d).

Lemma chain_embed b (on on' : cell -> Prop) c d :
  (forall c, in_range nt ny nx c -> (on' (sig c) <-> on c)) ->
  (forall d, in_range nt' ny' nx' d -> on' d -> exists c, in_range nt ny nx c /\ sig c = d) ->
  in_range nt ny nx c -> in_range nt ny nx d ->
  (chain b wrap' nt' ny' nx' on' (sig c) (sig d) <-> chain b wrap nt ny nx on c d).
Proof.
  intros Eq Im Rc Rd. split.
  - intro H. remember (sig c) as p. remember (sig d) as q. revert c d Heqp Heqq Rc Rd. induction H as [p|p r q R O T C IH]; intros c d Ep Eq' Rc Rd.
    + assert (c = d) by (apply Si; congruence). subst d. constructor.
    + destruct (Im r R O) as (e & Re & <-). subst p. apply (chain_step _ _ _ _ _ _ c e d); [exact Re|exact (proj1 (Eq e Re) O)|exact (proj1 (St b c e Rc Re) T)|].
      apply IH; auto.
  - intro H. induction H as [c|c e d Re O T C IH]; [constructor|]. apply (chain_step _ _ _ _ _ _ _ (sig e) _); [apply Sr; exact Re|apply Eq; assumption|apply St; assumption|apply IH; assumption].
Qed.

Definition small_of w y x t (on : cell -> Prop) (thr : Q) (e : cell) : Prop :=
  forall l, NoDup l /\ (forall d, In d l <-> in_range t y x d /\ on d /\ chain false w t y x on e d) -> (nat_Q (length l) < thr)%Q.
Lemma events_embed on on' thr ev ev' :
  (forall c, in_range nt ny nx c -> (on' (sig c) <-> on c)) ->
  (forall d, in_range nt' ny' nx' d -> on' d -> exists c, in_range nt ny nx c /\ sig c = d) ->
  (exists e e', first_of ny nx nt on e /\ first_of ny' nx' nt' on' e' /\
     (chain false wrap' nt' ny' nx' on' (sig e) e' \/ small_of wrap ny nx nt on thr e /\ small_of wrap' ny' nx' nt' on' thr e')) ->
  events_are wrap ny nx nt on thr ev -> events_are wrap' ny' nx' nt' on' thr ev' ->
  forall c, in_range nt ny nx c -> (ev' (sig c) <-> ev c).
Proof.
  intros Eq Im (e0 & e1 & F0 & F1 & J) E E' c Rc. rewrite (E c Rc), (E' (sig c) (Sr c Rc)), (Eq c Rc).
  assert (Ch : forall d, in_range nt ny nx d -> (chain false wrap' nt' ny' nx' on' (sig c) (sig d) <-> chain false wrap nt ny nx on c d)) by (intros d Rd; apply chain_embed; assumption).
  destruct F0 as (R0 & O0 & M0). assert (O0' : on' (sig e0)) by (apply Eq; assumption).
  (* an object of sufficient size is not a small one *)
  assert (Not : forall w y x t (on : cell -> Prop) (c e : cell) l, in_range t y x c -> on c -> (NoDup l /\ forall d, In d l <-> in_range t y x d /\ on d /\ chain false w t y x on c d) -> (thr <= nat_Q (length l))%Q ->
     chain false w t y x on c e -> small_of w y x t on thr e -> False).
  { intros w y x t o c1 e l R1 O1 (ND & M) Z0 C Sm. apply (Qlt_not_le (nat_Q (length l)) thr); [|exact Z0]. apply Sm. split; [exact ND|]. intro d. rewrite M. split; intros (A & B & D); (split; [exact A|split; [exact B|]]).
    - apply (chain_join _ _ _ _ _ _ _ c1); [|exact D]. apply chain_back; assumption.
    - apply (chain_join _ _ _ _ _ _ _ e); assumption. }
  split; intros (O & (l & (ND & M) & Z0) & N); (split; [exact O|]).
  - assert (Ex : exists l0, Forall (in_range nt ny nx) l0 /\ map sig l0 = l).
    { assert (A : forall d, In d l -> exists c, in_range nt ny nx c /\ sig c = d) by (intros d I; apply M in I; destruct I as (A & B & _); apply Im; assumption).
      clear - A. induction l as [|d l IH]; [exists []; split; [constructor|reflexivity]|]. destruct (A d (or_introl eq_refl)) as (c & Rc & <-).
      destruct IH as (l0 & F & <-); [intros d I; apply A; right; exact I|]. exists (c :: l0). split; [constructor; assumption|reflexivity]. }
    destruct Ex as (l0 & Fr & <-). rewrite Forall_forall in Fr. rewrite map_length in Z0.
    assert (Ob : NoDup l0 /\ forall d, In d l0 <-> in_range nt ny nx d /\ on d /\ chain false wrap nt ny nx on c d).
    { split; [apply NoDup_map_inv in ND; exact ND|]. intro d. split.
      * intro I. assert (Rd := Fr d I). apply (in_map sig) in I. apply M in I. destruct I as (_ & B & C). split; [exact Rd|]. split; [apply Eq; assumption|apply Ch; assumption].
      * intros (Rd & Od & C). assert (I : In (sig d) (map sig l0)) by (apply M; split; [apply Sr; exact Rd|split; [apply Eq; assumption|apply Ch; assumption]]).
        apply in_map_iff in I. destruct I as (d' & E1 & I). apply Si in E1; [subst; exact I|apply Fr; exact I|exact Rd]. }
    split; [exists l0; split; [exact Ob|exact Z0]|].
    intros (e & Fe & C). assert (e = e0) by (apply (first_once ny nx nt on); [exact Fe|split; auto]). subst e.
    destruct J as [J|[S0 _]]; [|exact (Not _ _ _ _ _ _ _ _ Rc O Ob Z0 C S0)].
    apply N. exists e1. split; [exact F1|]. apply (chain_join _ _ _ _ _ _ _ (sig e0)); [apply Ch; assumption|exact J].
  - assert (Ob : NoDup (map sig l) /\ forall d, In d (map sig l) <-> in_range nt' ny' nx' d /\ on' d /\ chain false wrap' nt' ny' nx' on' (sig c) d).
    { split.
      - assert (Fr : forall d, In d l -> in_range nt ny nx d) by (intros d I; apply M in I; apply I).
        clear - ND Fr Si. induction l as [|d l IH]; [constructor|]. inversion ND; subst. cbn. constructor.
        * intro I. apply in_map_iff in I. destruct I as (d' & E & I). apply Si in E; [subst; contradiction|apply Fr; right; exact I|apply Fr; left; reflexivity].
        * apply IH; [assumption|]. intros x I. apply Fr. right. exact I.
      - intro d. split.
        * intro I. apply in_map_iff in I. destruct I as (d0 & <- & I). apply M in I. destruct I as (A & B & C). split; [apply Sr; exact A|]. split; [apply Eq; assumption|apply Ch; assumption].
        * intros (Rd & Od & C). destruct (Im d Rd Od) as (d0 & R & <-). apply in_map. apply M. split; [exact R|]. split; [apply Eq; assumption|apply Ch; assumption]. }
    split; [exists (map sig l); split; [exact Ob|rewrite map_length; exact Z0]|].
    intros (e & Fe & C). assert (e = e1) by (apply (first_once ny' nx' nt' on'); assumption). subst e.
    destruct J as [J|[_ S1]]; [|apply (Not wrap' ny' nx' nt' on' (sig c) e1 (map sig l) (Sr c Rc) (proj2 (Eq c Rc) O) Ob); [rewrite map_length; exact Z0|exact C|exact S1]].
    apply N. exists e0. split; [split; auto|].
    apply (Ch e0 R0). apply (chain_join _ _ _ _ _ _ _ e1); [exact C|]. apply chain_back; [apply Sr; exact R0|exact O0'|exact J].
Qed.
End Embed.

(** ** Two complete lists of objects *)
Section Systems.
Variables (A : Type) (R : A -> A -> Prop) (size : A -> nat -> Prop).
Hypothesis Rs : forall a b, R a b -> R b a.
Hypothesis Rt : forall a b c, R a b -> R b c -> R a c.
Hypothesis Sz : forall a b m n, R a b -> size a m -> size b n -> m = n.

Lemma Forall2_split (l1 l2 : list A) x sz : Forall2 size (l1 ++ x :: l2) sz ->
  exists s1 m s2, sz = s1 ++ m :: s2 /\ size x m /\ Forall2 size (l1 ++ l2) (s1 ++ s2).
Proof.
  revert sz. induction l1 as [|a l1 IH]; intros sz H; inversion H; subst; cbn.
  - exists [], y, l'. split; [reflexivity|]. split; assumption.
  - destruct (IH _ H4) as (s1 & m & s2 & -> & X & F). exists (y :: s1), m, s2. split; [reflexivity|]. split; [exact X|]. constructor; assumption.
Qed.
Lemma pairs_drop (P : A -> A -> Prop) (l1 l2 : list A) x : ForallOrdPairs P (l1 ++ x :: l2) ->
  ForallOrdPairs P (l1 ++ l2) /\ (forall y, In y (l1 ++ l2) -> P x y \/ P y x).
Proof.
  induction l1 as [|a l1 IH]; cbn; intro H; inversion H; subst.
  - split; [assumption|]. rewrite Forall_forall in H2. intros y I. left. apply H2. exact I.
  - destruct (IH H3) as [F D]. rewrite Forall_forall in H2. split.
    + constructor; [|exact F]. apply Forall_forall. intros y I. apply H2. apply in_app_iff in I. apply in_app_iff. cbn. tauto.
    + intros y [<-|I]; [right; apply H2; apply in_app_iff; right; left; reflexivity|apply D; exact I].
Qed.

Lemma systems_agree (la lb : list A) (sa sb : list nat) :
  ForallOrdPairs (fun a b => ~ R a b) la -> ForallOrdPairs (fun a b => ~ R a b) lb ->
  Forall2 size la sa -> Forall2 size lb sb ->
  (forall a, In a la -> exists b, In b lb /\ R a b) -> (forall b, In b lb -> exists a, In a la /\ R a b) ->
  Permutation sa sb.
Proof.
  revert lb sa sb. induction la as [|a la IH]; intros lb sa sb Pa Pb Fa Fb Ab Ba.
  - inversion Fa; subst. destruct lb as [|b lb]; [inversion Fb; constructor|]. destruct (Ba b (or_introl eq_refl)) as (a & [] & _).
  - inversion Fa as [|? m ? sa' Sa Fa']; subst. inversion Pa as [|? ? Na Pa']; subst. rewrite Forall_forall in Na.
    destruct (Ab a (or_introl eq_refl)) as (b & Ib & Rab). apply in_split in Ib. destruct Ib as (l1 & l2 & ->).
    destruct (Forall2_split _ _ _ _ Fb) as (s1 & n & s2 & -> & Sb & Fb'). destruct (pairs_drop _ _ _ _ Pb) as (Pb' & Db).
    rewrite (Sz a b m n Rab Sa Sb). apply Permutation_cons_app. apply (IH (l1 ++ l2)); [exact Pa'|exact Pb'|exact Fa'|exact Fb'| |].
    + intros c I. destruct (Ab c (or_intror I)) as (d & Id & Rcd). exists d. split; [|exact Rcd]. apply in_app_iff in Id. apply in_app_iff. destruct Id as [Id|[<-|Id]]; [tauto| |tauto].
      exfalso. apply (Na c I). apply (Rt a b c); [exact Rab|apply Rs; exact Rcd].
    + intros d I. assert (Id : In d (l1 ++ b :: l2)) by (apply in_app_iff in I; apply in_app_iff; cbn; tauto).
      destruct (Ba d Id) as (c & [<-|Ic] & Rcd); [|exists c; auto]. exfalso. destruct (Db d I) as [N|N]; apply N; [apply (Rt b a d)|apply (Rt d a b)]; auto.
Qed.
End Systems.

Lemma same_object_size regional ny nx n data0 c d l m : in_range n ny nx c -> extreme ny nx data0 c -> joined regional n ny nx data0 c d ->
  object_cells regional n ny nx data0 c l -> object_cells regional n ny nx data0 d m -> length l = length m.
Proof.
  intros R X J (N & M) (N' & M'). apply Permutation_length. apply NoDup_Permutation; [exact N|exact N'|]. intro e. rewrite M, M'. unfold joined in *.
  split; intros (A & B & C); (split; [exact A|]); (split; [exact B|]).
  - apply (chain_join _ _ _ _ _ _ d c e); [apply chain_back; assumption|exact C].
  - apply (chain_join _ _ _ _ _ _ c d e); assumption.
Qed.

(** Moved statistics. *)
Lemma filtered_permuted (q : nat -> bool) a b : Permutation a b -> Permutation (filter q a) (filter q b).
Proof. induction 1; cbn; repeat match goal with |- context [q ?x] => destruct (q x) end; econstructor; eauto. Qed.
Lemma summed_permuted a b : Permutation a b -> sumN a = sumN b.
Proof. intro P. unfold sumN. induction P as [|x l l' P IH|x y l|l l' l'' P1 IH1 P2 IH2]; cbn [fold_right]; lia. Qed.
Lemma repeat_permuted n n' : Permutation (repeat 0 n) (repeat 0 n') -> n = n'.
Proof. intro P. apply Permutation_length in P. rewrite !repeat_length in P. exact P. Qed.

(** The areas of embedded records. *)
Section EmbedAreas.
Variables (regional regional' : bool) (nt ny nx nt' ny' nx' : nat) (sig : cell -> cell).
Hypothesis Sr : forall c, in_range nt ny nx c -> in_range nt' ny' nx' (sig c).
Hypothesis Si : forall c d, in_range nt ny nx c -> in_range nt ny nx d -> sig c = sig d -> c = d.
Hypothesis St : forall b c d, in_range nt ny nx c -> in_range nt ny nx d -> (touching b (negb regional') nx' (sig c) (sig d) <-> touching b (negb regional) nx c d).
Variables (data data' : list bool) (r : area_rule) (f f' : filtered).
Hypothesis L : length data = nt * ny * nx.
Hypothesis L' : length data' = nt' * ny' * nx'.
Hypothesis Eq : forall c, in_range nt ny nx c -> (extreme ny' nx' data' (sig c) <-> extreme ny nx data c).
Hypothesis Im : forall d, in_range nt' ny' nx' d -> extreme ny' nx' data' d -> exists c, in_range nt ny nx c /\ sig c = d.

Lemma image_object c l : in_range nt ny nx c -> object_cells regional nt ny nx data c l -> object_cells regional' nt' ny' nx' data' (sig c) (map sig l).
Proof.
  intros Rc (ND & M).
  assert (Ch : forall d, in_range nt ny nx d -> (joined regional' nt' ny' nx' data' (sig c) (sig d) <-> joined regional nt ny nx data c d)).
  { intros d Rd. exact (chain_embed (negb regional) (negb regional') nt ny nx nt' ny' nx' sig Sr Si St false (extreme ny nx data) (extreme ny' nx' data') c d Eq Im Rc Rd). }
  split.
  - assert (Fr : forall d, In d l -> in_range nt ny nx d) by (intros d I; apply M in I; apply I).
    clear - ND Fr Si. induction l as [|d l IH]; [constructor|]. inversion ND; subst. cbn. constructor.
    + intro I. apply in_map_iff in I. destruct I as (d' & E & I). apply Si in E; [subst; contradiction|apply Fr; right; exact I|apply Fr; left; reflexivity].
    + apply IH; [assumption|]. intros x I. apply Fr. right. exact I.
  - intro d. split.
    + intro I. apply in_map_iff in I. destruct I as (d0 & <- & I). apply M in I. destruct I as (A & B & C). split; [apply Sr; exact A|]. split; [apply Eq; assumption|apply Ch; assumption].
    + intros (Rd & Od & C). destruct (Im d Rd Od) as (d0 & R & <-). apply in_map. apply M. split; [exact R|]. split; [apply Eq; assumption|apply Ch; assumption].
Qed.

Lemma areas_embed : filter_grid regional r nt ny nx data = Ok f -> filter_grid regional' r nt' ny' nx' data' = Ok f' ->
  Permutation (f_areas f) (f_areas f') /\ f_threshold f' = f_threshold f.
Proof.
  intros E E'. destruct (areas_are_sizes _ _ _ _ _ L _ _ E) as (T & reps & F & P & C). destruct (areas_are_sizes _ _ _ _ _ L' _ _ E') as (T' & reps' & F' & P' & C').
  enough (Pm : Permutation (f_areas f) (f_areas f')) by (split; [exact Pm|rewrite T, T'; symmetry; apply threshold_permuted; exact Pm]).
  set (good := fun c => in_range nt' ny' nx' c /\ extreme ny' nx' data' c).
  apply (systems_agree cell (fun a b => good a /\ good b /\ joined regional' nt' ny' nx' data' a b)
     (fun c a => good c /\ exists l, object_cells regional' nt' ny' nx' data' c l /\ length l = a)) with (la := map sig reps) (lb := reps').
  - intros a b (Ga & Gb & J). split; [exact Gb|]. split; [exact Ga|]. destruct Ga. apply chain_back; assumption.
  - intros a b c (Ga & Gb & J) (_ & Gc & K). split; [exact Ga|]. split; [exact Gc|]. apply (chain_join _ _ _ _ _ _ a b c J K).
  - intros a b m n ([Ra Xa] & _ & J) (_ & l & O & <-) (_ & l2 & O2 & <-). exact (same_object_size regional' ny' nx' nt' data' a b l l2 Ra Xa J O O2).
  - assert (G : forall c, In c reps -> in_range nt ny nx c).
    { clear - F. induction F as [|c a cs az (R & _) F IH]; [intros c []|]. intros d [<-|I]; [exact R|apply IH; exact I]. }
    clear - P Eq G Sr Si St Im. induction P as [|c cs N P IH]; [constructor|]. cbn. constructor; [|apply IH; intros d I; apply G; right; exact I].
    apply Forall_forall. intros d I. apply in_map_iff in I. destruct I as (d0 & <- & I). intros (_ & _ & J). rewrite Forall_forall in N. apply (N d0 I).
    exact (proj1 (chain_embed (negb regional) (negb regional') nt ny nx nt' ny' nx' sig Sr Si St false (extreme ny nx data) (extreme ny' nx' data') c d0 Eq Im (G c (or_introl eq_refl)) (G d0 (or_intror I))) J).
  - clear - P'. induction P' as [|c cs N P IH]; [constructor|]. constructor; [|exact IH]. rewrite Forall_forall in *. intros d I (_ & _ & J). exact (N d I J).
  - clear - F Eq Sr Si St Im. induction F as [|c a cs az (R & X & l & O & Ll) F IH]; [constructor|]. cbn. constructor; [|exact IH].
    split; [split; [apply Sr; exact R|apply Eq; assumption]|]. exists (map sig l). split; [apply image_object; assumption|rewrite map_length; exact Ll].
  - clear - F'. induction F' as [|c a cs az (R & X & l & O & Ll) F IH]; [constructor|]. constructor; [|exact IH]. split; [split; assumption|]. exists l. auto.
  - intros a I. apply in_map_iff in I. destruct I as (c & <- & I).
    assert (G : in_range nt ny nx c /\ extreme ny nx data c) by (clear - F I; induction F as [|d a cs az (R & X & _) F IH]; [destruct I|]; destruct I as [<-|I]; [split; assumption|apply IH; exact I]).
    destruct G as [R X]. assert (X' : extreme ny' nx' data' (sig c)) by (apply Eq; assumption). destruct (C' (sig c) (Sr c R) X') as (b & Ib & J). exists b. split; [exact Ib|].
    assert (Gc : good (sig c)) by (split; [apply Sr; exact R|exact X']). split; [exact Gc|]. split; [|exact J]. destruct Gc as [G1 G2]. exact (chain_end _ _ _ _ _ _ _ _ G1 G2 J).
  - intros b Ib. assert (G : in_range nt' ny' nx' b /\ extreme ny' nx' data' b) by (clear - F' Ib; induction F' as [|d a cs az (R & X & _) F IH]; [destruct Ib|]; destruct Ib as [<-|I]; [split; assumption|apply IH; exact I]).
    destruct G as [R X]. destruct (Im b R X) as (c & Rc & <-). assert (Xc : extreme ny nx data c) by (apply Eq; assumption). destruct (C c Rc Xc) as (d & Id & J).
    exists (sig d). split; [apply in_map; exact Id|]. destruct (chain_end _ _ _ _ _ _ _ _ Rc Xc J) as [Rd Xd].
    split; [split; [apply Sr; exact Rd|apply Eq; assumption]|]. split; [split; assumption|].
    apply (proj2 (chain_embed (negb regional) (negb regional') nt ny nx nt' ny' nx' sig Sr Si St false (extreme ny nx data) (extreme ny' nx' data') d c Eq Im Rd Rc)). apply chain_back; assumption.
Qed.

Lemma counts_embed (P P' : cell -> Prop) n n' :
  (forall c, P c -> extreme ny nx data c) -> (forall c, in_range nt ny nx c -> (P' (sig c) <-> P c)) ->
  (forall d, in_range nt' ny' nx' d -> P' d -> extreme ny' nx' data' d) ->
  counts_objects regional nt ny nx data n P -> counts_objects regional' nt' ny' nx' data' n' P' -> n' = n.
Proof.
  intros Px Mv Px' (reps & <- & Rp & Dj & Cv) (reps' & <- & Rp' & Dj' & Cv').
  set (good := fun c => in_range nt' ny' nx' c /\ extreme ny' nx' data' c).
  assert (Ch : forall c d, in_range nt ny nx c -> in_range nt ny nx d -> (joined regional' nt' ny' nx' data' (sig c) (sig d) <-> joined regional nt ny nx data c d)).
  { intros c d Rc Rd. exact (chain_embed (negb regional) (negb regional') nt ny nx nt' ny' nx' sig Sr Si St false (extreme ny nx data) (extreme ny' nx' data') c d Eq Im Rc Rd). }
  assert (Fz : forall (A : Type) (l : list A), Forall2 (fun (_ : A) m => m = 0) l (repeat 0 (length l))) by (intros A l; induction l as [|a l IHl]; cbn; constructor; [reflexivity|exact IHl]).
  symmetry. rewrite <- (map_length sig reps). apply repeat_permuted.
  apply (systems_agree cell (fun a b => good a /\ good b /\ joined regional' nt' ny' nx' data' a b) (fun _ m => m = 0)) with (la := map sig reps) (lb := reps').
  - intros a b (Ga & Gb & J). split; [exact Gb|]. split; [exact Ga|]. destruct Ga. apply chain_back; assumption.
  - intros a b c (Ga & Gb & J) (_ & Gc & K). split; [exact Ga|]. split; [exact Gc|]. apply (chain_join _ _ _ _ _ _ a b c J K).
  - intros a b m m' _ -> ->. reflexivity.
  - assert (G : forall c, In c reps -> in_range nt ny nx c) by (intros c I; apply Rp; exact I).
    clear - Dj G Ch. induction Dj as [|c cs N D IH]; [constructor|]. cbn. constructor; [|apply IH; intros d I; apply G; right; exact I].
    apply Forall_forall. intros d I. apply in_map_iff in I. destruct I as (d0 & <- & I). intros (_ & _ & J). rewrite Forall_forall in N. apply (N d0 I).
    apply (Ch c d0); [apply G; left; reflexivity|apply G; right; exact I|exact J].
  - clear - Dj'. induction Dj' as [|c cs N D IH]; [constructor|]. constructor; [|exact IH]. rewrite Forall_forall in *. intros d I (_ & _ & J). exact (N d I J).
  - apply Fz.
  - apply Fz.
  - intros a I. apply in_map_iff in I. destruct I as (c & <- & I). destruct (Rp c I) as [R X]. assert (X' := proj2 (Mv c R) X).
    destruct (Cv' (sig c) (Sr c R) X') as (b & Ib & J). exists b. split; [exact Ib|].
    assert (Gc : good (sig c)) by (split; [apply Sr; exact R|apply Px'; [apply Sr; exact R|exact X']]). split; [exact Gc|]. split; [|exact J]. destruct Gc as [G1 G2]. exact (chain_end _ _ _ _ _ _ _ _ G1 G2 J).
  - intros b Ib. destruct (Rp' b Ib) as [R X]. assert (Xe := Px' b R X). destruct (Im b R Xe) as (c & Rc & <-). assert (Pc := proj1 (Mv c Rc) X).
    destruct (Cv c Rc Pc) as (d & Id & J). exists (sig d). split; [apply in_map; exact Id|]. destruct (chain_end _ _ _ _ _ _ _ _ Rc (Px c Pc) J) as [Rd Xd].
    split; [split; [apply Sr; exact Rd|apply Eq; assumption]|]. split; [split; assumption|]. apply Ch; [exact Rd|exact Rc|]. apply chain_back; [exact Rc|exact (Px c Pc)|exact J].
Qed.
End EmbedAreas.

(** ** Runs *)
Lemma run_parts g k data s F n mg st : length data = g_nt g -> fill_grid g data = Some s -> fresh_run g k data = Ok (F, n, mg, st) ->
  exists f, filter_grid (g_regional g) (g_rule g) (g_nt g) (g_ny g) (g_nx g) (concat s) = Ok f /\ s_threshold st = f_threshold f /\
    shaped g (f_keep f) /\ (k_merging k = false -> track_simple g (f_keep f) = Ok (F, n, mg)).
Proof.
  intros L E. unfold fresh_run, run, run_preprocess. cbn [effective t_checkpoint t_data t_scratch loads saves].
  destruct (fill_grid_ok g data s L E) as [Sh _]. unfold clean_grid. rewrite E.
  destruct (filter_grid (g_regional g) (g_rule g) (g_nt g) (g_ny g) (g_nx g) (concat s)) as [f|e] eqn:Ef; [|discriminate].
  cbn [snd]. destruct (stats_of area_grid data f (f_keep f)) as [s0|] eqn:St; [|discriminate]. cbn [bind fst snd].
  destruct (if k_merging k then _ else _) as [[[F0 n0] mg0]|] eqn:Tr; [|discriminate]. cbn [bind]. intro H. injection H as -> -> -> ->.
  exists f. split; [reflexivity|]. split.
  { revert St. unfold stats_of. destruct (Nat.eqb _ 0); [discriminate|]. destruct (Qeq_bool _ _); [discriminate|]. intro H. injection H as <-. reflexivity. }
  split; [exact (filter_shaped g s f Sh Ef)|]. intro K. rewrite K in Tr. exact Tr.
Qed.
Lemma run_keeps g k data s F n mg st f : length data = g_nt g -> fill_grid g data = Some s -> fresh_run g k data = Ok (F, n, mg, st) ->
  filter_grid (g_regional g) (g_rule g) (g_nt g) (g_ny g) (g_nx g) (concat s) = Ok f ->
  exists c, in_range (g_nt g) (g_ny g) (g_nx g) c /\ kept_at (g_nx g) (f_keep f) c.
Proof.
  intros L E R Ef. destruct (fill_grid_ok g data s L E) as [Sh _]. destruct (filter_shaped g s f Sh Ef) as [Lk Rk].
  unfold fresh_run, run, run_preprocess in R. cbn [effective t_checkpoint t_data t_scratch loads saves] in R. unfold clean_grid in R. rewrite E, Ef in R. cbn [snd] in R.
  destruct (stats_of area_grid data f (f_keep f)) as [s0|] eqn:St; [|discriminate]. clear R.
  destruct (existsb (fun b => b) (concat (f_keep f))) eqn:Eb.
  - apply existsb_exists in Eb. destruct Eb as (b & B & ->). apply in_concat in B. destruct B as (row & Ir & B).
    destruct (In_nth _ _ [] Ir) as (t & T & Et). destruct (In_nth _ _ false B) as (i & I & Ei). rewrite (Rk row Ir) in I. rewrite Lk in T.
    assert (Nx : 0 < g_nx g) by nia. exists (t, i / g_nx g, i mod g_nx g). split.
    + split; [exact T|]. split; [apply Nat.div_lt_upper_bound; lia|apply Nat.mod_upper_bound; lia].
    + cbn [kept_at]. rewrite Et. replace (i / g_nx g * g_nx g + i mod g_nx g) with i by (rewrite (Nat.div_mod i (g_nx g)) at 1 by lia; rewrite (Nat.mul_comm (g_nx g)); reflexivity). exact Ei.
  - exfalso. assert (Z0 : area_grid (f_keep f) = nat_Q 0).
    { unfold area_grid. f_equal. apply count_zero. intros b B. destruct b; [|reflexivity]. exfalso.
      assert (T : existsb (fun b => b) (concat (f_keep f)) = true) by (apply existsb_exists; exists true; auto). congruence. }
    unfold stats_of in St. rewrite Z0 in St. destruct (Nat.eqb (total_area_IDed f) 0); discriminate.
Qed.
Lemma run_fills g k data r : fresh_run g k data = Ok r -> exists s, fill_grid g data = Some s.
Proof.
  unfold fresh_run, run, run_preprocess. cbn [effective t_checkpoint t_data t_scratch loads saves]. unfold clean_grid.
  destruct (fill_grid g data) as [s|]; [intros _; exists s; reflexivity|discriminate].
Qed.

Lemma count_le (P : Z -> Z -> Prop) (n n' : Z) : (forall k, 1 <= k <= n -> exists k', 1 <= k' <= n' /\ P k k')%Z ->
  (forall k j k', 1 <= k <= n -> 1 <= j <= n -> P k k' -> P j k' -> k = j)%Z -> (0 <= n')%Z -> (n <= n')%Z.
Proof.
  intros Ex In N'. destruct (Z.le_gt_cases n 0) as [H|H]; [lia|].
  set (ks := map (fun i => Z.of_nat (S i)) (seq 0 (Z.to_nat n))). set (ks' := map (fun i => Z.of_nat (S i)) (seq 0 (Z.to_nat n'))).
  assert (Rk : forall k, List.In k ks -> (1 <= k <= n)%Z) by (intros k I; apply in_map_iff in I; destruct I as (i & <- & I); apply in_seq in I; lia).
  assert (ND : NoDup ks) by (apply FinFun.Injective_map_NoDup; [intros a b E; lia|apply seq_NoDup]).
  assert (E : exists l, Forall2 P ks l /\ Forall (fun k' => 1 <= k' <= n')%Z l).
  { clear - Ex Rk. induction ks as [|k ks IH]; [exists []; split; constructor|]. destruct IH as (l & A & B); [intros j I; apply Rk; right; exact I|].
    destruct (Ex k (Rk k (or_introl eq_refl))) as (k' & K & Pk). exists (k' :: l). split; constructor; assumption. }
  destruct E as (l & F & B).
  assert (NDl : NoDup l).
  { clear - F ND Rk In. induction F as [|k k' ks l Pk F IH]; [constructor|]. inversion ND; subst. constructor; [|apply IH; [intros j I; apply Rk; right; exact I|assumption]].
    intro I. assert (G : exists j, List.In j ks /\ P j k') by (clear - F I; induction F as [|j j' js l Pj F IH]; [destruct I|]; destruct I as [<-|I]; [exists j; split; [left; reflexivity|exact Pj]|destruct (IH I) as (q & A & B); exists q; split; [right; exact A|exact B]]).
    destruct G as (j & Ij & Pj). assert (k = j) by (apply (In k j k'); [apply Rk; left; reflexivity|apply Rk; right; exact Ij|exact Pk|exact Pj]). subst j. contradiction. }
  assert (Le : length l <= length ks').
  { apply NoDup_incl_length; [exact NDl|]. intros k' I. rewrite Forall_forall in B. specialize (B k' I). apply in_map_iff. exists (Z.to_nat k' - 1). split; [lia|]. apply in_seq. lia. }
  assert (Ll : length l = length ks) by (clear - F; induction F; cbn; congruence).
  unfold ks, ks' in *. rewrite !map_length, !seq_length in *. lia.
Qed.

(** The cells of a record that are true, each once. *)
Lemma count_places (l : list bool) : count (fun b => b) l = length (filter (fun i => nth i l false) (seq 0 (length l))).
Proof.
  unfold count. induction l as [|b l IH] using rev_ind; [reflexivity|]. rewrite app_length. cbn [length]. rewrite Nat.add_1_r, seq_S, !filter_app, !app_length. cbn [Nat.add].
  rewrite IH. f_equal.
  - f_equal. apply filter_ext_in. intros i I. apply in_seq in I. rewrite app_nth1 by lia. reflexivity.
  - cbn [filter]. rewrite app_nth2, Nat.sub_diag by lia. cbn [nth]. destruct b; reflexivity.
Qed.
Lemma true_cells g K : shaped g K -> exists l, NoDup l /\ length l = count (fun b => b) (concat K) /\
  forall c, In c l <-> in_range (g_nt g) (g_ny g) (g_nx g) c /\ value_at (g_nx g) K c = true.
Proof.
  intro Sh. assert (Lc := shaped_concat g K Sh). set (ny := g_ny g) in *. set (nx := g_nx g) in *.
  set (un := fun i => (i / nx / ny, (i / nx) mod ny, i mod nx)).
  assert (U : forall i, i < g_nt g * ny * nx -> in_range (g_nt g) ny nx (un i) /\ flat ny nx (un i) = i).
  { intros i I. assert (X0 : nx <> 0) by nia. assert (Y0 : ny <> 0) by nia. unfold un, in_range, flat.
    assert (A := Nat.div_mod i nx X0). assert (B := Nat.div_mod (i / nx) ny Y0). assert (C := Nat.mod_upper_bound i nx X0). assert (D := Nat.mod_upper_bound (i / nx) ny Y0).
    revert A B C D. generalize (i mod nx) as r. generalize ((i / nx) mod ny) as q. generalize (i / nx / ny) as p. generalize (i / nx) as w. intros w p q r A B C D.
    split; [split; [|split; assumption]|subst w; rewrite A; ring].
    destruct (Nat.lt_ge_cases p (g_nt g)) as [H|H]; [exact H|exfalso]. assert (ny * g_nt g <= w) by (subst w; nia). assert (nx * (ny * g_nt g) <= nx * w) by (apply Nat.mul_le_mono_l; assumption). nia. }
  exists (map un (filter (fun i => nth i (concat K) false) (seq 0 (length (concat K))))). split; [|split].
  - apply NoDup_map_inv with (f := flat ny nx). rewrite map_map.
    assert (E : map (fun i => flat ny nx (un i)) (filter (fun i => nth i (concat K) false) (seq 0 (length (concat K)))) = filter (fun i => nth i (concat K) false) (seq 0 (length (concat K)))).
    { rewrite <- (map_id (filter _ _)) at 2. apply map_ext_in. intros i I. apply filter_In in I. destruct I as [I _]. apply in_seq in I. apply U. rewrite Lc in I. lia. }
    rewrite E. apply NoDup_filter, seq_NoDup.
  - rewrite map_length. symmetry. apply count_places.
  - intro c. rewrite in_map_iff. split.
    + intros (i & <- & I). apply filter_In in I. destruct I as [I V]. apply in_seq in I. rewrite Lc in I. destruct (U i ltac:(lia)) as [R E]. split; [exact R|].
      destruct (un i) as [[t y] x]. destruct R as (T & Y & X). rewrite <- E in V. unfold ny, nx in V. rewrite (shaped_cell g K t y x Sh T Y X) in V. exact V.
    + intros [R V]. destruct c as [[t y] x]. destruct R as (T & Y & X). exists (flat ny nx (t, y, x)).
      assert (B : flat ny nx (t, y, x) < g_nt g * ny * nx) by (cbn [flat]; fold ny in Y; fold nx in X; assert ((t * ny + y) + 1 <= g_nt g * ny) by nia; nia). destruct (U _ B) as [R2 E2]. split.
      * apply (flat_once ny nx (g_nt g)); [exact R2|split; [exact T|split; assumption]|exact E2].
      * apply filter_In. split; [apply in_seq; rewrite Lc; lia|]. unfold ny, nx. rewrite (shaped_cell g K t y x Sh T Y X). exact V.
Qed.
Lemma true_cells_moved g g' sig K K' : shaped g K -> shaped g' K' ->
  (forall c, in_range (g_nt g) (g_ny g) (g_nx g) c -> in_range (g_nt g') (g_ny g') (g_nx g') (sig c)) ->
  (forall c d, in_range (g_nt g) (g_ny g) (g_nx g) c -> in_range (g_nt g) (g_ny g) (g_nx g) d -> sig c = sig d -> c = d) ->
  (forall c, in_range (g_nt g) (g_ny g) (g_nx g) c -> (value_at (g_nx g') K' (sig c) = true <-> value_at (g_nx g) K c = true)) ->
  (forall d, in_range (g_nt g') (g_ny g') (g_nx g') d -> value_at (g_nx g') K' d = true -> exists c, in_range (g_nt g) (g_ny g) (g_nx g) c /\ sig c = d) ->
  count (fun b => b) (concat K') = count (fun b => b) (concat K).
Proof.
  intros Sh Sh' Sr Si Mv Im. destruct (true_cells g K Sh) as (l & N & <- & M). destruct (true_cells g' K' Sh') as (l' & N' & <- & M').
  rewrite <- (map_length sig l). apply Permutation_length, NoDup_Permutation; [exact N'| |].
  - assert (Fr : forall d, In d l -> in_range (g_nt g) (g_ny g) (g_nx g) d) by (intros d I; apply M in I; apply I).
    clear - N Fr Si. induction l as [|d l IH]; [constructor|]. inversion N; subst. cbn. constructor.
    + intro I. apply in_map_iff in I. destruct I as (d' & E & I). apply Si in E; [subst; contradiction|apply Fr; right; exact I|apply Fr; left; reflexivity].
    + apply IH; [assumption|]. intros x I. apply Fr. right. exact I.
  - intro d. rewrite M', in_map_iff. split.
    + intros [R V]. destruct (Im d R V) as (c & Rc & <-). exists c. split; [reflexivity|]. apply M. split; [exact Rc|apply Mv; assumption].
    + intros (c & <- & I). apply M in I. destruct I as [R V]. split; [apply Sr; exact R|apply Mv; assumption].
Qed.
Lemma run_stats g k data s F n mg st f : length data = g_nt g -> fill_grid g data = Some s -> fresh_run g k data = Ok (F, n, mg, st) ->
  filter_grid (g_regional g) (g_rule g) (g_nt g) (g_ny g) (g_nx g) (concat s) = Ok f ->
  st = mkStats (nat_Q (total_area_IDed f)) (f_before f) (f_after f) (f_threshold f) (accepted_area_fraction f) (area_grid data / area_grid (f_keep f))%Q.
Proof.
  intros L E R Ef. unfold fresh_run, run, run_preprocess in R. cbn [effective t_checkpoint t_data t_scratch loads saves] in R. unfold clean_grid in R. rewrite E, Ef in R. cbn [snd] in R.
  destruct (stats_of area_grid data f (f_keep f)) as [s0|] eqn:St; [|discriminate]. cbn [bind fst snd] in R.
  destruct (if k_merging k then _ else _) as [[[F0 n0] mg0]|] eqn:Tr; [|discriminate]. cbn [bind] in R. injection R as -> -> -> ->.
  revert St. unfold stats_of. destruct (Nat.eqb _ 0); [discriminate|]. destruct (Qeq_bool _ _); [discriminate|]. intro H. injection H as <-. reflexivity.
Qed.

Section Runs.
Variables (g g' : grid) (k k' : tracking) (data data' s s' : field) (sig : cell -> cell).
Variables (F F' : list (list Z)) (n n' : Z) (mg mg' : option merges) (st st' : stats).
Let nt := g_nt g. Let nt' := g_nt g'. Let ny := g_ny g. Let nx := g_nx g. Let ny' := g_ny g'. Let nx' := g_nx g'.
Hypothesis Gu : g_rule g' = g_rule g.
Hypothesis Km : k_merging k' = k_merging k.
Hypothesis Lg : length data = g_nt g.
Hypothesis Lg' : length data' = g_nt g'.
Hypothesis Ch : fold_right Nat.add 0 (k_chunks k) = g_nt g.
Hypothesis Ch' : fold_right Nat.add 0 (k_chunks k') = g_nt g'.
Hypothesis Fs : fill_grid g data = Some s.
Hypothesis Fs' : fill_grid g' data' = Some s'.
Hypothesis Rn : fresh_run g k data = Ok (F, n, mg, st).
Hypothesis Sr : forall c, in_range nt ny nx c -> in_range nt' ny' nx' (sig c).
Hypothesis Si : forall c d, in_range nt ny nx c -> in_range nt ny nx d -> sig c = sig d -> c = d.
Hypothesis St : forall b c d, in_range nt ny nx c -> in_range nt ny nx d -> (touching b (negb (g_regional g')) nx' (sig c) (sig d) <-> touching b (negb (g_regional g)) nx c d).
Hypothesis Eq : forall c, in_range nt ny nx c -> value_at nx' s' (sig c) = value_at nx s c.
Hypothesis Im : forall d, in_range nt' ny' nx' d -> value_at nx' s' d = true -> exists c, in_range nt ny nx c /\ sig c = d.
Hypothesis Fo : drops_alike g g' sig s s' (s_threshold st).

Lemma extreme_value c : in_range nt ny nx c -> (extreme ny nx (concat s) c <-> value_at nx s c = true).
Proof. destruct c as [[t y] x]. intros (T & Y & X). unfold extreme. destruct (fill_grid_ok g data s Lg Fs) as [Sh _]. unfold ny, nx. rewrite (shaped_cell g s t y x Sh T Y X). reflexivity. Qed.
Lemma extreme_value' c : in_range nt' ny' nx' c -> (extreme ny' nx' (concat s') c <-> value_at nx' s' c = true).
Proof. destruct c as [[t y] x]. intros (T & Y & X). unfold extreme. destruct (fill_grid_ok g' data' s' Lg' Fs') as [Sh _]. unfold ny', nx'. rewrite (shaped_cell g' s' t y x Sh T Y X). reflexivity. Qed.
Lemma extreme_moved c : in_range nt ny nx c -> (extreme ny' nx' (concat s') (sig c) <-> extreme ny nx (concat s) c).
Proof. intro R. rewrite extreme_value by exact R. rewrite extreme_value' by (apply Sr; exact R). rewrite (Eq c R). reflexivity. Qed.
Lemma extreme_image d : in_range nt' ny' nx' d -> extreme ny' nx' (concat s') d -> exists c, in_range nt ny nx c /\ sig c = d.
Proof. intros R X. apply Im; [exact R|]. apply extreme_value'; assumption. Qed.

(** The second run returns too. *)
Lemma second_returns : k_merging k' = false -> exists r, fresh_run g' k' data' = Ok r.
Proof.
  intro Km'. destruct (run_parts g k data s F n mg st Lg Fs Rn) as (f & Ef & Th & Sk & Tk).
  destruct (fill_grid_ok g data s Lg Fs) as [Sh _]. destruct (fill_grid_ok g' data' s' Lg' Fs') as [Sh' _].
  assert (Lc := shaped_concat g s Sh). assert (Lc' := shaped_concat g' s' Sh'). 
  fold nt ny nx in Ef, Lc. fold nt' ny' nx' in Lc'.
  destruct (run_keeps g k data s F n mg st f Lg Fs Rn Ef) as (c & Rc & Kc). fold nt ny nx in Rc. fold nx in Kc.
  destruct (C16_keeps_other_objects_partial _ _ _ _ _ _ _ Lc Ef) as (Kp & _).
  assert (Xc : extreme ny nx (concat s) c) by (apply Kp; assumption).
  destruct (filter_grid (g_regional g') (g_rule g') (g_nt g') (g_ny g') (g_nx g') (concat s')) as [f'|e0] eqn:Ef'.
  2: { exfalso. fold nt' ny' nx' in Ef'. destruct (C16_fails_only_without_objects _ _ _ _ _ _ _ Lc' Ef') as [_ No]. apply (No (sig c) (Sr c Rc)). apply extreme_moved; assumption. }
  assert (Ef2 : filter_grid (g_regional g') (g_rule g) nt' ny' nx' (concat s') = Ok f') by (rewrite <- Gu; exact Ef').
  destruct (areas_embed (g_regional g) (g_regional g') nt ny nx nt' ny' nx' sig Sr Si St (concat s) (concat s') (g_rule g) f f' Lc Lc' extreme_moved extreme_image Ef Ef2) as [_ Tt].
  destruct (C16_keeps_other_objects_partial _ _ _ _ _ _ _ Lc' Ef2) as (Kp' & _).
  destruct (first_exists nt ny nx (concat s) c Rc Xc) as (e & Fe).
  destruct (first_exists nt' ny' nx' (concat s') (sig c) (Sr c Rc) (proj2 (extreme_moved c Rc) Xc)) as (e' & Fe').
  assert (Jo := Fo e e' Fe Fe'). rewrite Th in Jo.
  assert (Kc' : kept_at nx' (f_keep f') (sig c)).
  { apply (events_embed (negb (g_regional g)) (negb (g_regional g')) nt ny nx nt' ny' nx' sig Sr Si St (extreme ny nx (concat s)) (extreme ny' nx' (concat s')) (f_threshold f) (kept_at nx (f_keep f)) (kept_at nx' (f_keep f')));
      [exact extreme_moved|exact extreme_image|exists e, e'; split; [exact Fe|split; [exact Fe'|exact Jo]]|exact Kp|rewrite Tt in Kp'; exact Kp'|exact Rc|exact Kc]. }
  assert (Pos : 0 < total_area_IDed f') by (destruct (C19_total_area_is_extreme_cells _ _ _ _ _ _ _ Lc' Ef2) as [_ P]; exact P).
  unfold fresh_run, run, run_preprocess. cbn [effective t_checkpoint t_data t_scratch loads saves]. unfold clean_grid. rewrite Fs', Ef'. cbn [snd]. rewrite Km'.
  assert (So : exists s0, stats_of area_grid data' f' (f_keep f') = Ok s0).
  { unfold stats_of. destruct (Nat.eqb_spec (total_area_IDed f') 0) as [Z0|_]; [lia|].
    destruct (Qeq_bool (area_grid (f_keep f')) 0) eqn:Eb; [|eexists; reflexivity]. exfalso. apply Qeq_bool_iff in Eb. unfold area_grid, nat_Q, Qeq in Eb. cbn in Eb.
    assert (Cz : count (fun b => b) (concat (f_keep f')) = 0) by lia.
    destruct (sig c) as [[t y] x]. cbn [kept_at] in Kc'.
    assert (In true (concat (f_keep f'))).
    { apply in_concat. exists (nth t (f_keep f') []). split.
      - apply nth_In. destruct (Nat.lt_ge_cases t (length (f_keep f'))) as [H|H]; [exact H|]. rewrite nth_overflow with (n := t) in Kc' by exact H. destruct (y * nx' + x); discriminate.
      - rewrite <- Kc'. apply nth_In. destruct (Nat.lt_ge_cases (y * nx' + x) (length (nth t (f_keep f') []))) as [H|H]; [exact H|]. rewrite nth_overflow in Kc' by exact H. discriminate. }
    unfold count in Cz. assert (In true (filter (fun b => b) (concat (f_keep f')))) by (apply filter_In; split; [assumption|reflexivity]).
    destruct (filter (fun b => b) (concat (f_keep f'))); [contradiction|discriminate]. }
  destruct So as (s0 & ->). cbn [bind fst snd]. unfold track_simple. destruct (run_tracking_simple _ _ _ _ _) as [lab m]. cbn [bind]. eexists. reflexivity.
Qed.

Hypothesis Rn' : fresh_run g' k' data' = Ok (F', n', mg', st').

Lemma in_event_id m G c : in_event m G c <-> id_of m G c <> 0%Z.
Proof. destruct c as [[t y] x]. reflexivity. Qed.

Lemma runs_related :
  same_figures data data' st st' /\
  ((forall c, in_range nt ny nx c -> (id_of nx' F' (sig c) <> 0%Z <-> id_of nx F c <> 0%Z)) /\
   (forall d, in_range nt' ny' nx' d -> id_of nx' F' d <> 0%Z -> exists c, in_range nt ny nx c /\ sig c = d)) /\
  (k_merging k = false -> n' = n /\ (forall c d, in_range nt ny nx c -> in_range nt ny nx d -> id_of nx F c <> 0%Z -> id_of nx F d <> 0%Z ->
     (id_of nx' F' (sig c) = id_of nx' F' (sig d) <-> id_of nx F c = id_of nx F d))).
Proof.
  destruct (run_parts g k data s F n mg st Lg Fs Rn) as (f & Ef & Th & Sk & Tk).
  destruct (run_parts g' k' data' s' F' n' mg' st' Lg' Fs' Rn') as (f' & Ef' & Th' & Sk' & Tk').
  destruct (fill_grid_ok g data s Lg Fs) as [Sh _]. destruct (fill_grid_ok g' data' s' Lg' Fs') as [Sh' _].
  assert (Lc := shaped_concat g s Sh). assert (Lc' := shaped_concat g' s' Sh').
  assert (Ef2 : filter_grid (g_regional g') (g_rule g) nt' ny' nx' (concat s') = Ok f') by (rewrite <- Gu; exact Ef').
  destruct (areas_embed (g_regional g) (g_regional g') nt ny nx nt' ny' nx' sig Sr Si St (concat s) (concat s') (g_rule g) f f' Lc Lc' extreme_moved extreme_image Ef Ef2) as [Pm Tt].
  assert (Tst : s_threshold st' = s_threshold st) by congruence.
  destruct (C123_run_on_a_grid_partial g (k_merging k) (k_nn k) (k_centroid k) (k_overlap k) (k_areas k) (k_chunks k) [] [] None
     (mkTracker (Some data) None false) (mkFiles None NoNpz) data s F n mg st eq_refl eq_refl Lg Ch Fs Rn) as ((Lf & Lr) & Ev & Num & _ & _ & Gp).
  destruct (C123_run_on_a_grid_partial g' (k_merging k') (k_nn k') (k_centroid k') (k_overlap k') (k_areas k') (k_chunks k') [] [] None
     (mkTracker (Some data') None false) (mkFiles None NoNpz) data' s' F' n' mg' st' eq_refl eq_refl Lg' Ch' Fs' Rn') as ((Lf' & Lr') & Ev' & Num' & _ & _ & Gp').
  clear Lr' Num'. fold nt ny nx in Ev, Gp, Lc, Ef. fold nt' ny' nx' in Ev', Gp', Lc'.
  (* a first extreme cell *)
  assert (Ex : exists c, in_range nt ny nx c /\ extreme ny nx (concat s) c).
  { destruct (areas_are_sizes _ _ _ _ _ Lc _ _ Ef) as (_ & reps & Fr & _). destruct (f_areas f) as [|a az] eqn:Ea.
    - exfalso. unfold filter_grid in Ef. destruct (identify_grid _ _ _ _ _ _) as [lab m]. unfold filter_labelled in Ef. destruct (grid_props _); [discriminate|]. injection Ef as <-. discriminate Ea.
    - inversion Fr as [|c ? ? ? (R & X & _)]; subst. exists c. auto. }
  destruct Ex as (c0 & R0 & X0). destruct (first_exists nt ny nx (concat s) c0 R0 X0) as (e & Fe).
  destruct (first_exists nt' ny' nx' (concat s') (sig c0) (Sr c0 R0) (proj2 (extreme_moved c0 R0) X0)) as (e' & Fe').
  assert (Jo := Fo e e' Fe Fe'). rewrite Th in Jo.
  assert (Mv : forall c, in_range nt ny nx c -> (in_event nx' F' (sig c) <-> in_event nx F c)).
  { apply (events_embed (negb (g_regional g)) (negb (g_regional g')) nt ny nx nt' ny' nx' sig Sr Si St (extreme ny nx (concat s)) (extreme ny' nx' (concat s')) (f_threshold f) (in_event nx F) (in_event nx' F')).
    - exact extreme_moved.
    - exact extreme_image.
    - exists e, e'. split; [exact Fe|]. split; [exact Fe'|exact Jo].
    - rewrite Th in Ev. exact Ev.
    - rewrite Tst, Th in Ev'. exact Ev'. }
  assert (Img : forall d, in_range nt' ny' nx' d -> in_event nx' F' d -> exists c, in_range nt ny nx c /\ sig c = d).
  { intros d R I. apply extreme_image; [exact R|]. apply (Ev' d R) in I. apply I. }
  split.
  { fold nt' ny' nx' in Ef'. assert (Z1 := run_stats g k data s F n mg st f Lg Fs Rn Ef). assert (Z2 := run_stats g' k' data' s' F' n' mg' st' f' Lg' Fs' Rn' Ef').
    destruct (C16_keeps_other_objects_partial _ _ _ _ _ _ _ Lc Ef) as (Kp & Cb & Ca). destruct (C16_keeps_other_objects_partial _ _ _ _ _ _ _ Lc' Ef2) as (Kp' & Cb' & Ca').
    assert (Kr : forall c, kept_at nx (f_keep f) c -> in_range nt ny nx c -> extreme ny nx (concat s) c) by (intros c Kc Rc; apply (Kp c Rc); exact Kc).
    assert (Mk : forall c, in_range nt ny nx c -> (kept_at nx' (f_keep f') (sig c) <-> kept_at nx (f_keep f) c)).
    { apply (events_embed (negb (g_regional g)) (negb (g_regional g')) nt ny nx nt' ny' nx' sig Sr Si St (extreme ny nx (concat s)) (extreme ny' nx' (concat s')) (f_threshold f) (kept_at nx (f_keep f)) (kept_at nx' (f_keep f')));
        [exact extreme_moved|exact extreme_image|exists e, e'; split; [exact Fe|split; [exact Fe'|exact Jo]]|exact Kp|rewrite Tt in Kp'; exact Kp']. }
    assert (Kx : forall d, in_range nt' ny' nx' d -> kept_at nx' (f_keep f') d -> extreme ny' nx' (concat s') d) by (intros d Rd Kd; apply (Kp' d Rd); exact Kd).
    assert (Bf : f_before f' = f_before f).
    { apply (counts_embed (g_regional g) (g_regional g') nt ny nx nt' ny' nx' sig Sr Si St (concat s) (concat s') extreme_moved extreme_image (extreme ny nx (concat s)) (extreme ny' nx' (concat s')));
        [intros c H; exact H|exact extreme_moved|intros d _ H; exact H|exact Cb|exact Cb']. }
    assert (Af : f_after f' = f_after f).
    { apply (counts_embed (g_regional g) (g_regional g') nt ny nx nt' ny' nx' sig Sr Si St (concat s) (concat s') extreme_moved extreme_image (fun c => in_range nt ny nx c /\ kept_at nx (f_keep f) c) (kept_at nx' (f_keep f')));
        [intros c [A B]; apply Kr; assumption|intros c Rc; rewrite (Mk c Rc); tauto|exact Kx| |exact Ca'].
      destruct Ca as (reps & A & B & C & D). exists reps. split; [exact A|]. split; [intros c I; destruct (B c I); auto|]. split; [exact C|]. intros c Rc [_ Kc]. apply D; assumption. }
    assert (Tf : total_area_IDed f' = total_area_IDed f) by (unfold total_area_IDed; symmetry; apply summed_permuted; exact Pm).
    assert (Xf : accepted_area f' = accepted_area f) by (unfold accepted_area; rewrite Tt; symmetry; apply summed_permuted, filtered_permuted; exact Pm).
    assert (Va : forall m K c, kept_at m K c <-> value_at m K c = true) by (intros m K [[t y] x]; reflexivity).
    assert (Cf : count (fun b => b) (concat (f_keep f')) = count (fun b => b) (concat (f_keep f))).
    { apply (true_cells_moved g g' sig); [exact Sk|exact Sk'|exact Sr|exact Si|intros c Rc; rewrite <- !Va; apply Mk; exact Rc|].
      intros d Rd Vd. apply Va in Vd. apply extreme_image; [exact Rd|]. apply Kx; assumption. }
    rewrite Z1, Z2. unfold same_figures. cbn [s_total s_before s_after s_threshold s_accepted s_processed]. unfold accepted_area_fraction, area_grid. rewrite Tf, Bf, Af, Tt, Xf, Cf.
    split; [reflexivity|]. split; [reflexivity|]. split; [reflexivity|]. split; [reflexivity|]. split; [reflexivity|]. intros ->. reflexivity. }
  split.
  { split; [intros c R; rewrite <- !in_event_id; apply Mv; exact R|]. intros d R I. rewrite <- in_event_id in I. apply Img; assumption. }
  intro Km0. assert (Km1 : k_merging k' = false) by congruence. destruct (Gp Km0) as [_ G1]. destruct (Gp' Km1) as [_ G2].
  assert (Same : (forall c d, in_range nt ny nx c -> in_range nt ny nx d -> id_of nx F c <> 0%Z -> id_of nx F d <> 0%Z ->
     (id_of nx' F' (sig c) = id_of nx' F' (sig d) <-> id_of nx F c = id_of nx F d))).
  { intros c d Rc Rd Ic Id. rewrite <- in_event_id in Ic, Id.
    assert (C1 := chain_embed (negb (g_regional g)) (negb (g_regional g')) nt ny nx nt' ny' nx' sig Sr Si St true (in_event nx F) (in_event nx' F') c d Mv Img Rc Rd).
    assert (Rc' := Sr c Rc). assert (Rd' := Sr d Rd). assert (Ic' := proj2 (Mv c Rc) Ic). assert (Id' := proj2 (Mv d Rd) Id).
    destruct c as [[t y] x], d as [[t2 y2] x2]. destruct (sig (t, y, x)) as [[u v] w] eqn:E1, (sig (t2, y2, x2)) as [[u2 v2] w2] eqn:E2.
    change (id_of nx' F' (u, v, w)) with (id_at F' u (v * nx' + w)). change (id_of nx' F' (u2, v2, w2)) with (id_at F' u2 (v2 * nx' + w2)).
    change (id_of nx F (t, y, x)) with (id_at F t (y * nx + x)). change (id_of nx F (t2, y2, x2)) with (id_at F t2 (y2 * nx + x2)).
    rewrite (G1 t y x t2 y2 x2 Rc Rd Ic Id), (G2 u v w u2 v2 w2 Rc' Rd' Ic' Id'). exact C1. }
  split; [|exact Same].
  assert (N0 : (0 <= n)%Z).
  { specialize (Tk Km0). unfold track_simple in Tk. destruct (run_tracking_simple _ _ _ _ _). injection Tk as _ <- _. lia. }
  assert (N0' : (0 <= n')%Z).
  { specialize (Tk' Km1). unfold track_simple in Tk'. destruct (run_tracking_simple _ _ _ _ _). injection Tk' as _ <- _. lia. }
  destruct (track_simple_ok g (f_keep f) F n mg Sk (Tk Km0)) as (_ & _ & On). destruct (track_simple_ok g' (f_keep f') F' n' mg' Sk' (Tk' Km1)) as (_ & _ & On').
  fold nt ny nx in On. fold nt' ny' nx' in On'.
  set (P := fun a b => exists c, in_range nt ny nx c /\ a <> 0%Z /\ b <> 0%Z /\ id_of nx F c = a /\ id_of nx' F' (sig c) = b).
  apply Z.le_antisymm.
  - apply (count_le (fun b a => P a b)); [| |exact N0].
    + intros b B. apply On' in B. destruct B as (t & y & x & T & Y & X & Nz & I). assert (Rd : in_range nt' ny' nx' (t, y, x)) by (split; [exact T|split; assumption]).
      assert (Iv : in_event nx' F' (t, y, x)) by (cbn; rewrite I; exact Nz). destruct (Img _ Rd Iv) as ([[t0 y0] x0] & Rc & Ec).
      assert (Iv0 : in_event nx F (t0, y0, x0)) by (apply Mv; [exact Rc|rewrite Ec; exact Iv]).
      exists (id_at F t0 (y0 * nx + x0)). split.
      * apply On. exists t0, y0, x0. destruct Rc as (A & B & C). split; [exact A|]. split; [exact B|]. split; [exact C|]. split; [exact Iv0|reflexivity].
      * exists (t0, y0, x0). split; [exact Rc|]. split; [exact Iv0|]. split; [exact Nz|]. split; [reflexivity|]. rewrite Ec. exact I.
    + intros b1 b2 a _ _ (c & Rc & A1 & B1 & I1 & J1) (d & Rd & A2 & B2 & I2 & J2). rewrite <- J1, <- J2. apply Same; try assumption; congruence.
  - apply (count_le P); [| |exact N0'].
    + intros a B. apply On in B. destruct B as (t & y & x & T & Y & X & Nz & I). assert (Rc : in_range nt ny nx (t, y, x)) by (split; [exact T|split; assumption]).
      assert (Iv : in_event nx F (t, y, x)) by (cbn; rewrite I; exact Nz). assert (Iv' := proj2 (Mv _ Rc) Iv). assert (Rd := Sr _ Rc).
      destruct (sig (t, y, x)) as [[u v] w] eqn:Es. exists (id_at F' u (v * nx' + w)). split.
      * apply On'. exists u, v, w. destruct Rd as (A & B & C). split; [exact A|]. split; [exact B|]. split; [exact C|]. split; [exact Iv'|reflexivity].
      * exists (t, y, x). split; [exact Rc|]. split; [exact Nz|]. split; [exact Iv'|]. split; [exact I|]. rewrite Es. reflexivity.
    + intros a1 a2 b _ _ (c & Rc & A1 & B1 & I1 & J1) (d & Rd & A2 & B2 & I2 & J2). rewrite <- I1, <- I2. apply Same; try assumption; congruence.
Qed.
End Runs.
