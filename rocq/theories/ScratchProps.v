(** C189: trackers and their scratch directories. *)
From Coq Require Import String.
From Verif Require Import Base Graph Morph Label Overlap Merge Cluster Parallel Run MeshRun Scratch ScratchProofs.
Open Scope nat_scope.

(** What the tracker gives when it is alone in the world. *)
Definition alone (j : job) : outcome :=
  with_err (track_mesh (j_mesh j) (j_mask j) (j_w j) (j_cent j) (j_thr j) (j_part j) (j_order j) (j_tc j) (j_limit j) (j_data j)).
(** Nothing has been built yet; the disk may hold the remains of earlier programs. *)
Definition at_start (d : disk) : world := (fun _ => New, d).

(** C189.  Trackers with directories of their own: whatever the disk holds at first, and in
    whatever order the steps of all trackers follow each other, a tracker that finishes gives what
    it gives alone, and it finishes once it has had 2 max_iteration + 4 steps. *)
Theorem C189_own_directories_partial (jobs : nat -> job) (d : disk) (sched : list nat) (i : nat) :
  (forall k, In k sched -> k <> i -> j_dir (jobs k) <> j_dir (jobs i)) ->
  (forall o, fst (executed jobs (at_start d) sched) i = Done o -> o = alone (jobs i)) /\
  (2 * j_limit (jobs i) + 4 <= count_occ Nat.eq_dec sched i -> fst (executed jobs (at_start d) sched) i = Done (alone (jobs i))).
Proof.
  intro N. destruct (executed_on_track jobs i sched (at_start d) N I) as [A B]. split.
  - intros o E. rewrite E in A. exact A.
  - intro C. apply (left_done _ _ _ A). cbn [at_start fst left_over] in B. lia.
Qed.
Print Assumptions C189_own_directories_partial.

(** One after the other in one directory: a tracker that has been built, and that then runs to its
    end while no other tracker with its directory acts, gives what it gives alone, whatever was
    built and run before and whatever happens afterwards. *)
Theorem C189_one_after_the_other_partial (jobs : nat -> job) (d : disk) (before during after : list nat) (i : nat) :
  fst (executed jobs (at_start d) before) i = Built ->
  (forall k, In k during -> k <> i -> j_dir (jobs k) <> j_dir (jobs i)) -> 2 * j_limit (jobs i) + 3 <= count_occ Nat.eq_dec during i ->
  fst (executed jobs (at_start d) (before ++ during ++ after)) i = Done (alone (jobs i)).
Proof.
  intros S N C. unfold executed. rewrite !fold_left_app. fold (executed jobs (at_start d) before). set (w := executed jobs (at_start d) before) in *. fold (executed jobs w during).
  fold (executed jobs (executed jobs w during) after). apply done_on.
  destruct (executed_on_track jobs i during w N ltac:(rewrite S; exact I)) as [A B]. apply (left_done _ _ _ A). rewrite S in B. cbn [left_over] in B. lia.
Qed.
Print Assumptions C189_one_after_the_other_partial.

(** Two cells without neighbours, two steps. *)
Definition two_cells (dir : string) (data : list (list bool)) : job :=
  mkJob dir [[-1; -1; -1]; [-1; -1; -1]]%Z [true; true] [1; 1]%Q (fun _ => (0, 0)%Q) (1 # 2) (fun _ _ _ _ => Ok []) (fun l => l) 2 3 data.
Definition first_tracker (dir : string) : job := two_cells dir [[true; false]; [true; false]].
Definition second_tracker (dir : string) : job := two_cells dir [[true; false]; [false; true]].
Definition pair_of (a b : string) (k : nat) : job := match k with O => first_tracker a | _ => second_tracker b end.

(** As claimed trackers could share a directory at any time.  But running side by side one can get
    the events of the other, and one built while another runs takes its store away. *)
Theorem C189_shared_directory_refuted : exists (a b : job) (s1 s2 : list nat),
  let jobs k := match k with O => a | _ => b end in
  j_dir a = j_dir b /\ alone a <> alone b /\
  fst (executed jobs (at_start (fun _ => None)) s1) 0 = Done (alone b) /\ fst (executed jobs (at_start (fun _ => None)) s2) 0 = Done (Err StoreGone).
Proof.
  exists (first_tracker "tmp"), (second_tracker "tmp"), [0; 1; 0; 1; 0; 0], [0; 0; 1; 0]. cbv zeta. split; [reflexivity|]. split; [vm_compute; discriminate|]. split; vm_compute; reflexivity.
Qed.
Print Assumptions C189_shared_directory_refuted.

Example C189_case :
  fst (executed (pair_of "a" "b") (at_start (fun _ => Some [[7%Z]])) [0; 1; 0; 1; 0; 0; 1; 1]) 0 = Done (alone (first_tracker "a")) /\
  fst (executed (pair_of "a" "a") (at_start (fun _ => None)) [0; 1; 0; 0; 0; 1; 1; 1]) 1 = Done (alone (second_tracker "a")) /\
  (exists x, alone (first_tracker "a") = Ok x) /\ exists x, alone (second_tracker "a") = Ok x.
Proof. split; [vm_compute; reflexivity|]. split; [vm_compute; reflexivity|]. split; eexists; vm_compute; reflexivity. Qed.
