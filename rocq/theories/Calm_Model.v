(** Model of the efforts on bodies in calm water (DefaultSurfaceElevation.cpp:10-61): gravity (GravityForceModel.cpp:23-36), fast non-linear
    hydrostatic (FastHydrostaticForceModel.cpp:44-63) on the immersed facets found for the position of the body (BodyWithSurfaceForces.cpp:20-38),
    Coriolis efforts and any other models, summed by Sim.cpp:144-176. The intersection is computed from the mesh as it was loaded: it does
    not depend on the previous ones (C126). *)
From Coq Require Import ZArith Reals List.
From Verif Require Import Common History_Model History_Real_Proofs Blocked_Model Sim_Model Sim_Spec Solver_Model Drift_Model Force_Model Hull_Model Mesh_Model Closing_Model Froude_Model Geometry.
Import ListNotations.
Open Scope R_scope.

(** Body.cpp:32-38, 54-57: position of the body [idx] in NED *)
Definition placement (x : list R) (idx : nat) : transform :=
  mkT (get_rot_from_ned_to x idx) (V3 (state_of x idx 0) (state_of x idx 1) (state_of x idx 2)).
(** ssc (external): the inverse of a transform, by transposition of its matrix *)
Definition inverse_transform (T : transform) : transform := mkT (transpose (t_rot T)) (vopp (mapply (transpose (t_rot T)) (t_point T))).
(** Hull, mass (element (2,2) of the inertia matrix) and centre of gravity of a body *)
Record hull : Type := mkHull { h_inter : inter; h_stored : list R * list R; h_mass : R; h_G : vec3 }.
(** ssc (external): Wrench::to_vector *)
Definition to_vector (t : torsor) : vec := fun k =>
  match k with 0%nat => vx (fst t) | 1%nat => vy (fst t) | 2%nat => vz (fst t) | 3%nat => vx (snd t) | 4%nat => vy (snd t) | _ => vz (snd t) end.

Section Calm.
Variable aeqR : Z -> R -> R -> bool.
(** Density, gravity, level of the water *)
Variables rho g level : R.
Variable hulls : nat -> hull.
(** coriolis_and_centripetal (ssc, external), a function of the velocities u, v, w, p, q, r *)
Variable coriolis : nat -> list R -> torsor.
(** The other models: efforts in the body frame, and efforts of the controlled models. *)
Variable others : list (memory aeqR) -> nat -> list R -> R -> outcome (list wrench * list torsor).

(** FastHydrostaticForceModel.cpp:44-63 on the facets of BodyWithSurfaceForces.cpp:20-38 *)
Definition buoyancy (idx : nat) (T : transform) (t : R) : outcome torsor :=
  do J <- immerse (Calm level) T t (h_stored (hulls idx)) (h_inter (hulls idx));
  do fs <- facets_at J (i_immersed J);
  do ps <- mapO_list (with_points J) fs;
  Ok (fast_hydrostatic rho g T (m_orientation (i_mesh J)) (h_G (hulls idx)) ps).
(** Sim.cpp:144-176 *)
Definition efforts (m : list (memory aeqR)) (idx : nat) (x : list R) (t : R) : outcome vec :=
  let T := placement x idx in
  let w := gravity (inverse_transform T) (h_mass (hulls idx)) g in
  do b <- buoyancy idx T t;
  do o <- others m idx x t;
  let G := h_G (hulls idx) in
  Ok (to_vector (sum_of_forces (coriolis idx (map (state_of x idx) [3; 4; 5; 6; 7; 8]%nat))
        (Force_Model.mkW G (fst w) (snd w) :: Force_Model.mkW G (fst b) (snd b) :: fst o) (snd o))).
End Calm.
