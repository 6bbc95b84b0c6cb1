(** Properties of the dependency report. *)
From Coq Require Import String List Bool Arith Lia.
Import ListNotations.
From Verif Require Import Errors ErrorsSpec ErrorsProps Support SupportProps Report.
Open Scope string_scope.
Open Scope list_scope.

(** ** C175 *)
Definition is_status (l : line) : bool := match l with Status _ _ => true | _ => false end.
Definition is_suggestion (l : line) : bool := match l with Suggest _ => true | _ => false end.
(** A table as the tracker keeps it: one entry for each of the nine packages, in any order. *)
Definition full_table (table : list (string * bool)) : Prop := NoDup (map fst table) /\ forall d, In d (map fst table) <-> In d optional_packages.
Lemma lookup_In {A} d (table : list (string * A)) x : lookup d table = Some x -> In (d, x) table.
Proof.
  induction table as [|[k v] r IH]; cbn; [discriminate|]. destruct (String.eqb_spec d k) as [->|D]; [intro H; injection H as ->; left; reflexivity|].
  intro H. right. exact (IH H).
Qed.
Lemma lookup_some {A} d (table : list (string * A)) : In d (map fst table) -> exists x, lookup d table = Some x.
Proof.
  induction table as [|[k v] r IH]; cbn; [intros []|]. destruct (String.eqb_spec d k) as [->|D]; [intros _; eexists; reflexivity|].
  intros [->|H]; [congruence|exact (IH H)].
Qed.
Lemma lookup_unique {A} d x (table : list (string * A)) : NoDup (map fst table) -> In (d, x) table -> lookup d table = Some x.
Proof.
  induction table as [|[k v] r IH]; cbn; intros N H; [destruct H|]. inversion N as [|? ? N1 N2]; subst. destruct (String.eqb_spec d k) as [->|D].
  - destruct H as [H|H]; [injection H as ->; reflexivity|]. destruct N1. apply (in_map fst) in H. exact H.
  - destruct H as [H|H]; [congruence|exact (IH N2 H)].
Qed.
(** Relative to the table.  The status is printed for each of the nine packages, once, and says of
    each what has_dependency says; suggestions appear exactly when something is missing; what is
    listed as missing is what is not available; a warning is given exactly for what is not
    available, and names the package, the feature and how to install it. *)
Theorem C175_report_partial : forall table, full_table table ->
  (forall d b, In (Status d b) (print_status table) <-> In d optional_packages /\ has_dependency table d = b) /\
  length (filter is_status (print_status table)) = 9 /\
  (filter is_suggestion (print_status table) = [] <-> forall d, In d optional_packages -> has_dependency table d = true) /\
  (forall d, In d (missing_dependencies table) <-> In d optional_packages /\ has_dependency table d = false) /\
  (forall d feature, warn_missing table d feature = None <-> has_dependency table d = true) /\
  (forall d feature text, warn_missing table d feature = Some text -> in_order [d; feature; install_command d] text) /\
  (warn_on_import table = None <-> has_dependency table "jax" = true).
Proof.
  intros table [N F].
  assert (H : forall d, In d optional_packages -> lookup d table = Some (has_dependency table d)).
  { intros d Hd. apply F in Hd. destruct (lookup_some d table Hd) as [x E]. unfold has_dependency. rewrite E. reflexivity. }
  assert (SL : status_lines table = flat_map (fun c => Category (fst c) :: map (fun d => Status d (has_dependency table d)) (snd c)) categories).
  { unfold status_lines, categories. cbn [flat_map snd fst map app]. rewrite !H by (cbn; tauto). reflexivity. }
  assert (M : forall d, In d (missing_dependencies table) <-> In d optional_packages /\ has_dependency table d = false).
  { intro d. unfold missing_dependencies. rewrite in_map_iff. split.
    - intros ([d' b] & E & Hin). cbn in E. subst d'. apply filter_In in Hin. destruct Hin as [Hin B]. cbn in B. split.
      + apply F. apply (in_map fst) in Hin. exact Hin.
      + unfold has_dependency. rewrite (lookup_unique _ _ _ N Hin). destruct b; [discriminate B|reflexivity].
    - intros [Hd B]. exists (d, false). split; [reflexivity|]. apply filter_In. split; [|reflexivity]. rewrite <- B. apply lookup_In. exact (H d Hd). }
  split; [|split; [|split; [|split; [exact M|split; [|split]]]]].
  - intros d b. unfold print_status. rewrite SL, !in_app_iff. split.
    + intros [I|[I|I]].
      * cbn in I. intuition discriminate.
      * cbn in I. repeat (destruct I as [I|I]; [first [discriminate I|injection I as <- <-; split; [cbn; tauto|reflexivity]]|]). destruct I.
      * destruct (missing_dependencies table); cbn in I; intuition discriminate.
    + intros [I <-]. right. left. cbn in I. cbn. repeat (destruct I as [<-|I]; [tauto|]). destruct I.
  - unfold print_status. rewrite SL. destruct (missing_dependencies table); reflexivity.
  - unfold print_status. rewrite SL. destruct (missing_dependencies table) as [|m r] eqn:E.
    + split; [|reflexivity]. intros _ d Hd. destruct (has_dependency table d) eqn:B; [reflexivity|]. destruct (proj2 (M d) (conj Hd B)).
    + split; [discriminate|]. intro A. assert (I : In m (m :: r)) by (left; reflexivity). apply M in I. destruct I as [I B]. rewrite (A m I) in B. discriminate B.
  - intros d feature. unfold warn_missing. destruct (has_dependency table d); cbn; split; congruence.
  - intros d feature text. unfold warn_missing. destruct (has_dependency table d); cbn [negb]; [discriminate|]. intro E. injection E as <-.
    exists "". eexists. split; [reflexivity|]. exists " not installed. ". eexists. split; [reflexivity|].
    exists " will be slower or unavailable. For best performance, install with: ", "". split; [rewrite app_nil_s; reflexivity|exact I].
  - unfold warn_on_import, warn_missing. destruct (has_dependency table "jax"); cbn; split; congruence.
Qed.
Print Assumptions C175_report_partial.
(** Of the machine it says nothing: whatever is installed, every package is printed as available,
    nothing is listed as missing, and importing marEx warns of nothing. *)
Theorem C175_report_refuted : forall installed, full_table (check_all installed) /\ missing_dependencies (check_all installed) = [] /\
  warn_on_import (check_all installed) = None /\ forall d, In d optional_packages -> In (Status d true) (print_status (check_all installed)).
Proof.
  intro installed. split; [|split; [reflexivity|split; [reflexivity|]]].
  - split; [|intro d; reflexivity]. unfold check_all. cbn. repeat (constructor; [cbn; intuition discriminate|]). constructor.
  - intros d I. cbn in I. cbn. repeat (destruct I as [<-|I]; [tauto|]). destruct I.
Qed.
Print Assumptions C175_report_refuted.
Definition no_jax : list (string * bool) := [("jax", false); ("jaxlib", true); ("dask_jobqueue", true); ("psutil", true); ("matplotlib", true); ("cartopy", true);
  ("seaborn", true); ("cmocean", true); ("pillow", false)].
Example C175_case : full_table no_jax /\ missing_dependencies no_jax = ["jax"; "pillow"] /\
  warn_on_import no_jax = Some "jax not installed. Some operations will be slower or unavailable. For best performance, install with: pip install marEx[performance]".
Proof.
  split; [|split; reflexivity]. split; [|intro d; reflexivity]. cbn. repeat (constructor; [cbn; intuition discriminate|]). constructor.
Qed.
