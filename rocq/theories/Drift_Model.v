(** Model of what the solvers integrate: the derivative of the states of each body (core/src/Body.cpp:129-163) computed with the rotation matrix
    of the quaternion of the state vector as it is (core/src/BodyStates.cpp:105-108, core/src/Body.cpp:54-57, 67-71), inside the evaluation of
    core/src/Sim.cpp:111-134 and the steppers of Solver_Model.v.
    Sim.cpp:114 stores the normalised states in the evaluated object only: the steppers of boost (external) take the system by value, so it is a
    member of a copy; the vector they integrate is not normalised. The sum of the forces is any function of the memory of the bodies, of the states
    and of the date. Exact reals. *)
From Coq Require Import ZArith Reals List.
From Verif Require Import Common History_Model History_Real_Proofs Blocked_Model Sim_Model Sim_Spec Solver_Model Geometry.
Import ListNotations.
Open Scope R_scope.

(** BodyStates.cpp:105-108: Eigen's [Quaternion::matrix] of the four components found in the state vector, whatever their norm. *)
Definition get_rot_from_ned_to (x : list R) (idx : nat) : mat3 :=
  qmat (state_of x idx 9) (state_of x idx 10) (state_of x idx 11) (state_of x idx 12).
(** The same matrix as the function of its indices used by Sim_Model.v. *)
Definition entries (M : mat3) : mat := fun i j =>
  let row := match i with 0%nat => r1 M | 1%nat => r2 M | _ => r3 M end in
  match j with 0%nat => vx row | 1%nat => vy row | _ => vz row end.

Section Drift.
Variable aeqR : Z -> R -> R -> bool.
Variable Itp : Type.
Variable itp_f itp_df : Itp -> R -> outcome R.
(** Body number [i] of the simulation. *)
Variable bodies : nat -> body Itp.
(** Sim.cpp:144-176 *)
Variable sum_of_forces : list (memory aeqR) -> nat -> list R -> R -> outcome vec.

(** Body.cpp:76-78: the forced states of the copy that is recorded. *)
Definition forced (idx : nat) (x : list R) (t : R) : outcome (list R) := force_states Rltb itp_f (bd_blocked (bodies idx)) x t.
(** Sim.cpp:131-132, Body.cpp:129-163, with Body.cpp:140 reading the matrix put there by Body.cpp:122. *)
Definition derivatives (m : list (memory aeqR)) (idx : nat) (x dx : list R) (t : R) : outcome (list R) :=
  do F <- sum_of_forces m idx x t ;
  calculate_state_derivatives itp_df (bodies idx) F (entries (get_rot_from_ned_to x idx)) x dx t.
(** A step, and a simulation, of [n_bodies] bodies (Solver_Model.v). *)
Definition evaluate (n_bodies : nat) : list (memory aeqR) -> list R -> R -> result aeqR (list R) := system aeqR forced derivatives n_bodies.
Definition step (n_bodies : nat) (s : method) : list (memory aeqR) -> list R -> R -> R -> result aeqR (list R) := do_step aeqR forced derivatives n_bodies s.
Definition run (n_bodies : nat) (after : list R -> R -> list R) (s : method) (n : nat) (m : list (memory aeqR)) (x : list R) (t0 dt : R) : result aeqR (list R) :=
  steps aeqR forced derivatives n_bodies after s n 0 m x t0 dt.
End Drift.
