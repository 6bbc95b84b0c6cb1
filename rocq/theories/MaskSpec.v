(** Vocabulary for the same record over another mask. *)
From Verif Require Import Base Morph MorphSpec Filter Overlap Merge Partition Cluster Run RelateSpec NearProps.
Open Scope nat_scope.

(** Some step is extreme within R_fill of a cell within R_fill/2 of the cell. *)
Definition near_extreme (g : grid) (data : field) (y x : nat) : Prop :=
  let by_ := beside (g_regional g) (Z.of_nat (g_ny g)) (Z.of_nat (g_nx g)) in
  exists t y1 x1 y2 x2, t < g_nt g /\ by_ (g_R g / 2)%Z (Z.of_nat y) (Z.of_nat x) y1 x1 /\ by_ (g_R g) y1 x1 (Z.of_nat y2) (Z.of_nat x2) /\
    value_at (g_nx g) data (t, y2, x2) = true.
Definition masks_agree (g : grid) (mask' : list bool) (data : field) : Prop :=
  forall y x, y < g_ny g -> x < g_nx g -> near_extreme g data y x -> nth (y * g_nx g + x) mask' false = nth (y * g_nx g + x) (g_mask g) false.

(** A mesh with another mask; the masks agree on every cell within [n] hops of a cell
    that is extreme at some step; every cell is within [n] hops of the ocean. *)
Definition with_ocean (h : mesh_setup) (mask : list bool) : mesh_setup :=
  mkMesh (h_nbs h) mask (h_R h) (h_T h) (h_rule h) (h_area h).
Definition masks_agree_within (n : nat) (h : mesh_setup) (mask' : list bool) (data : field) : Prop :=
  forall t l c, t < length data -> atb (nth t data []) l = true -> within (h_nbs h) n l c -> atb (h_mask h) c = atb mask' c.
Definition ocean_within (n : nat) (m : mesh) (mask : list bool) : Prop :=
  forall c, c < length m -> exists j, within m n c j /\ atb mask j = true.
