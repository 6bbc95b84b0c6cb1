(** Vocabulary for whole runs. *)
From Coq Require Import String.
From Verif Require Import Base Label LabelSpec FilterSpec Merge Cluster Run.
Open Scope nat_scope.

(** Every time step gets written. *)
Definition writes_all (order : list nat) (n : nat) : Prop := forall k, k < n -> In k order.

(** The extreme cells form a single object. *)
Definition one_object (regional : bool) (nt ny nx : nat) (data : list bool) : Prop :=
  (exists c, in_range nt ny nx c /\ extreme ny nx data c) /\
  forall c d, in_range nt ny nx c -> extreme ny nx data c -> in_range nt ny nx d -> extreme ny nx data d ->
    joined regional nt ny nx data c d.

(** Value of an attribute. *)
Fixpoint get (d : attrs) (k : string) : option attr :=
  match d with [] => None | (k', v) :: r => if String.eqb k' k then Some v else get r k end.
Definition has_key (d : attrs) (k : string) : Prop := exists v, In (k, v) d.

(** The statistics a run reports, by name. *)
Inductive reports (u : setup) (s : stats) (n : Z) (mg : merges) : string -> attr -> Prop :=
| rep_merging : reports u s n mg "allow_merging" (AInt (if u_merging u then 1 else 0))
| rep_before : reports u s n mg "N_objects_prefiltered" (AInt (Z.of_nat (s_before s)))
| rep_after : reports u s n mg "N_objects_filtered" (AInt (Z.of_nat (s_after s)))
| rep_events : reports u s n mg "N_events_final" (AInt n)
| rep_R : reports u s n mg "R_fill" (AInt (u_R u))
| rep_T : reports u s n mg "T_fill" (AInt (u_T u))
| rep_quartile : reports u s n mg "area_filter_quartile" (ANum (u_quartile u))
| rep_threshold : reports u s n mg "area_threshold (cells)" (ANum (s_threshold s))
| rep_accepted : reports u s n mg "accepted_area_fraction" (ANum (s_accepted s))
| rep_processed : reports u s n mg "preprocessed_area_fraction" (ANum (s_processed s))
| rep_overlap : u_merging u = true -> reports u s n mg "overlap_threshold" (ANum (u_overlap u))
| rep_nn : u_merging u = true -> reports u s n mg "nn_partitioning" (AInt (if u_nn u then 1 else 0))
| rep_merges : u_merging u = true -> reports u s n mg "total_merges" (AInt (Z.of_nat (length (m_time mg))))
| rep_multi : u_merging u = true ->
    reports u s n mg "multi_parent_merges" (AInt (Z.of_nat (length (filter (fun k => Z.ltb 2 k) (m_n_parents mg))))).
