(** Property theorems C13-C15, C71 (object identification). *)
From Verif Require Import Base Label LabelSpec LabelProofs Morph MorphSpec Filter FilterMoreProofs.
Open Scope nat_scope.

(** C13: labels are the connected components of the extreme cells. *)
Theorem C13_labels_are_connected_components (regional tconn : bool) (nt ny nx : nat) (data : list bool)
    (lab : list Z) (n : nat) :
  length data = nt * ny * nx ->
  identify_grid regional tconn nt ny nx data = (lab, n) ->
  length lab = length data /\
  (forall c, in_range nt ny nx c -> (label_of ny nx lab c = 0%Z <-> ~ extreme ny nx data c)) /\
  (forall c c', in_range nt ny nx c -> in_range nt ny nx c' -> extreme ny nx data c -> extreme ny nx data c' ->
     (label_of ny nx lab c = label_of ny nx lab c' <->
      chain tconn (negb regional) nt ny nx (extreme ny nx data) c c')) /\
  (forall k, (1 <= k <= Z.of_nat n)%Z <->
     exists i, i < length data /\ nth i data false = true /\ nth i lab 0%Z = k).
Proof. exact (identify_grid_spec regional tconn nt ny nx data lab n). Qed.
Print Assumptions C13_labels_are_connected_components.

(** A diagonal pair joined across the seam, one more object, and a second time step. *)
Definition seam_data : list bool :=
  [true; false; false; false;  false; false; false; true;   false; false; false; false; false; true; false; false;
   true; false; false; false;  false; false; false; false;  false; false; false; false; false; false; false; false].
Example C13_case_global : identify_grid false false 2 4 4 seam_data =
  ([1;0;0;0; 0;0;0;1; 0;0;0;0; 0;2;0;0;  3;0;0;0; 0;0;0;0; 0;0;0;0; 0;0;0;0]%Z, 3).
Proof. vm_compute. reflexivity. Qed.
Example C13_case_regional : identify_grid true false 2 4 4 seam_data =
  ([1;0;0;0; 0;0;0;2; 0;0;0;0; 0;3;0;0;  4;0;0;0; 0;0;0;0; 0;0;0;0; 0;0;0;0]%Z, 4).
Proof. vm_compute. reflexivity. Qed.

(** C71: tracking without merging: an event is a connected set in space and time. *)
Theorem C71_events_without_merging_are_space_time_components (regional : bool) (nt ny nx : nat) (data : list bool)
    (lab : list Z) (n : nat) :
  length data = nt * ny * nx ->
  run_tracking_simple regional nt ny nx data = (lab, n) ->
  length lab = length data /\
  (forall c, in_range nt ny nx c -> (label_of ny nx lab c = 0%Z <-> ~ extreme ny nx data c)) /\
  (forall c c', in_range nt ny nx c -> in_range nt ny nx c' -> extreme ny nx data c -> extreme ny nx data c' ->
     (label_of ny nx lab c = label_of ny nx lab c' <->
      chain true (negb regional) nt ny nx (extreme ny nx data) c c')) /\
  (forall k, (1 <= k <= Z.of_nat n)%Z <->
     exists i, i < length data /\ nth i data false = true /\ nth i lab 0%Z = k).
Proof. exact (run_tracking_simple_spec regional nt ny nx data lab n). Qed.
Print Assumptions C71_events_without_merging_are_space_time_components.
Example C71_case : run_tracking_simple false 2 4 4 seam_data =
  ([1;0;0;0; 0;0;0;1; 0;0;0;0; 0;2;0;0;  1;0;0;0; 0;0;0;0; 0;0;0;0; 0;0;0;0]%Z, 2).
Proof. vm_compute. reflexivity. Qed.

(** C14: on a mesh, labels are the components of the neighbour graph on extreme ocean cells. *)
Theorem C14_mesh_labels_are_connected_components (m : mesh) (mask data : list bool) :
  mesh_ok m -> length mask = length m -> length data = length m ->
  let lab := identify_mesh m mask data in
  let on := fun i => i < length m /\ nth i mask false = true /\ nth i data false = true in
  length lab = length m /\
  (forall i, i < length m -> (nth i lab 0%Z = 0%Z <-> ~ on i)) /\
  (forall i, (0 <= nth i lab 0)%Z) /\
  (forall i j, on i -> on j -> (nth i lab 0%Z = nth j lab 0%Z <-> mesh_chain m on i j)).
Proof. exact (identify_mesh_spec m mask data). Qed.
Print Assumptions C14_mesh_labels_are_connected_components.

(** Five cells in a row, the middle one on land; missing neighbours are -1. *)
Definition row_mesh : mesh := [[-1; 1; -1]; [0; 2; -1]; [1; 3; -1]; [2; 4; -1]; [3; -1; -1]]%Z.
Example C14_case : mesh_ok row_mesh /\
  identify_mesh row_mesh [true; true; false; true; true] [true; true; true; true; true] = [1; 1; 0; 2; 2]%Z.
Proof. split; [apply mesh_okb_ok|]; vm_compute; reflexivity. Qed.

(** C15: after offsetting, an ID is used at one time only and the partition is unchanged. *)
Theorem C15_ids_unique_across_time (fields : list (list Z)) :
  (forall s, In s fields -> forall x, In x s -> (0 <= x)%Z) ->
  (forall t i, t < length fields -> i < length (nth t fields []) ->
     (0 <= at2 (offset_ids fields) t i)%Z /\ (at2 (offset_ids fields) t i = 0%Z <-> at2 fields t i = 0%Z)) /\
  (forall t i j, t < length fields -> i < length (nth t fields []) -> j < length (nth t fields []) ->
     (at2 (offset_ids fields) t i = at2 (offset_ids fields) t j <-> at2 fields t i = at2 fields t j)) /\
  (forall t t' i j, t < length fields -> t' < length fields ->
     i < length (nth t fields []) -> j < length (nth t' fields []) -> t <> t' ->
     at2 (offset_ids fields) t i <> 0%Z -> at2 (offset_ids fields) t i <> at2 (offset_ids fields) t' j).
Proof. exact (offset_ids_spec fields). Qed.
Print Assumptions C15_ids_unique_across_time.
Example C15_case : offset_ids [[1; 0; 2]; [0; 0; 0]; [0; 1; 1]]%Z = [[1; 0; 2]; [0; 0; 0]; [0; 3; 3]]%Z.
Proof. reflexivity. Qed.
