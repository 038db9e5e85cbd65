(** Model of an evaluation of the derivative of a body some velocities of which are forced: core/src/Body.cpp:76-92 and
    108-161, core/src/Sim.cpp:127-176; then of the time loops: core/inc/solver.hpp:34-47 (library and servers, the state is
    forced after each step) and that of the main program (executables/src/xdyn.cpp:40, ssc::solver::quicksolve, external: it
    is not), with the Euler scheme (external).

    The Coriolis and centripetal efforts (ssc, external), the force models and the rotation matrix are parameters. *)
From Coq Require Import ZArith List Bool Reals.
From Verif Require Import Common Blocked_Model Sim_Model.
Import ListNotations.
Open Scope R_scope.

Section Forced.
Variable Itp : Type.
Variable itp_f itp_df : Itp -> R -> outcome R.
(** coriolis_and_centripetal(G, inertia, uvw, pqr), on the velocities u, v, w, p, q, r. *)
Variable coriolis : list R -> vec.
(** The sum of the other efforts: function of the thirteen states given to the models, and of the date. *)
Variable forces : list R -> R -> vec.
(** Rotation from NED to the body, function of the quaternion. *)
Variable rotation : list R -> mat.

(** [_U(x, idx)] mapped to six numbers, and the thirteen numbers of a body. *)
Definition velocities (x : list R) (i : nat) : list R := firstn 6 (skipn (UIDX i) x).
Definition quaternion (x : list R) (i : nat) : list R := firstn 4 (skipn (QRIDX i) x).
Definition body_states (x : list R) (i : nat) : list R := firstn 13 (skipn (XIDX i) x).

(** Body.cpp:123: the frames are those of [x]. Body.cpp:76-92: the states recorded, hence given to the models, are forced.
    Sim.cpp:147-150: the velocities given to [coriolis_and_centripetal] are those of [x]. Body.cpp:129-161: those of the
    derivatives of the position and of the quaternion too. *)
Definition derivative (b : body Itp) (x dx : list R) (t : R) : outcome (list R) :=
  let i := bd_idx b in
  do xf <- force_states Rltb itp_f (bd_blocked b) x t ;
  let F := fun k => coriolis (velocities x i) k + forces (body_states xf i) t k in
  calculate_state_derivatives itp_df b F (rotation (quaternion x i)) x dx t.

(** Explicit Euler. *)
Definition euler (dt : R) (x dx : list R) : list R := map (fun p => fst p + dt * snd p) (combine x dx).

(** [n] steps for a single body, from date [t]: [forcing] is true for solver.hpp (line 38: with the date of the beginning of
    the step), false for the main program. *)
Fixpoint run (forcing : bool) (b : body Itp) (n : nat) (x : list R) (t dt : R) : outcome (list R) :=
  match n with
  | O => Ok x
  | S n' =>
      do dx <- derivative b x (repeat 0 (List.length x)) t ;
      let x1 := euler dt x dx in
      do x2 <- (if forcing then force_states Rltb itp_f (bd_blocked b) x1 t else Ok x1) ;
      run forcing b n' x2 (t + dt) dt
  end.
End Forced.
