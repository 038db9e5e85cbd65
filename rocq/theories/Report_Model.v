(** Model of the efforts reported by the observers: core/src/Sim.cpp:111-116 and 145-176 (what an evaluation of the
    derivative stores), core/src/Sim.cpp:199-237 and core/src/ForceModel.cpp:30-68 (what an observation reports),
    core/inc/solver.hpp:23-48 (the time loop, in [Sim_Model]).

    The steppers are those of Boost odeint (external): explicit Euler and the classical Runge-Kutta scheme of order 4. They
    work on their own copy of the object of class Sim, so the member [state] that [Sim::operator()] assigns (Sim.cpp:114) is
    not the state of the simulation, but all the rest is held through a pointer, and is shared (Sim.hpp: [pimpl]). *)
From Coq Require Import Reals List.
From Verif Require Import Sim_Model.
Import ListNotations.
Open Scope R_scope.

(** The vector of states: one real number per index. *)
Definition states : Type := nat -> R.

Section Report.
(** [M]: what the models remember (histories, frames, meshes). [E]: the efforts, of each model and their sum. *)
Variables M E : Type.
(** The derivative of the states, the efforts and the new memory. *)
Variable derivative : M -> states -> R -> states.
Variable efforts : M -> states -> R -> E.
Variable remember : M -> states -> R -> M.

(** [sm_efforts]: [force_in_body_frame], [sum_of_forces_in_body_frame], etc. As constructed: [None]. *)
Record sim : Type := mkSim { sm_state : states; sm_memory : M; sm_efforts : option E }.

(** Sim.cpp:111-116 and ForceModel.cpp:30-35: an evaluation stores the efforts. *)
Definition evaluate (s : sim) (x : states) (t : R) : states * sim :=
  (derivative (sm_memory s) x t, mkSim (sm_state s) (remember (sm_memory s) x t) (Some (efforts (sm_memory s) x t))).
Definition set_state (s : sim) (x : states) : sim := mkSim x (sm_memory s) (sm_efforts s).

Definition plus (x : states) (h : R) (k : states) : states := fun i => x i + h * k i.

(** boost::numeric::odeint::euler (external): one evaluation. *)
Definition euler_step (s : sim) (t dt : R) : sim :=
  let x := sm_state s in
  let '(k, s) := evaluate s x t in
  set_state s (plus x dt k).

(** boost::numeric::odeint::runge_kutta4 (external): four evaluations. *)
Definition rk4_step (s : sim) (t dt : R) : sim :=
  let x := sm_state s in
  let '(k1, s) := evaluate s x t in
  let '(k2, s) := evaluate s (plus x (dt / 2) k1) (t + dt / 2) in
  let '(k3, s) := evaluate s (plus x (dt / 2) k2) (t + dt / 2) in
  let '(k4, s) := evaluate s (plus x dt k3) (t + dt) in
  set_state s (fun i => x i + dt / 6 * (k1 i + 2 * k2 i + 2 * k3 i + k4 i)).

(** Sim.cpp:118-124: the forced states. *)
Variable forced : states -> R -> states.
Definition force_sim (s : sim) (t : R) : sim := set_state s (forced (sm_state s) t).

(** Sim.cpp:199-237: what is reported: the states and the efforts stored. (Forcing and normalising the states that are
    reported is in [Sim_Model].) *)
Definition output (s : sim) : states * option E := (sm_state s, sm_efforts s).
End Report.
Arguments mkSim {M E}. Arguments sm_state {M E}. Arguments sm_memory {M E}. Arguments sm_efforts {M E}.
Arguments output {M E}.
