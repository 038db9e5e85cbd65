(** Model of what a simulation does with the dates at which a solver evaluates the derivative of the states: the choice of the solver
    (executables/src/xdyn.cpp:34-54, observers_and_api/src/SimStepper.cpp:63-78), the evaluation (core/src/Sim.cpp:111-134, which works on the
    bodies it shares with its copies), the recording of the thirteen states of each body in its histories (core/src/Body.cpp:76-92).
    The steppers are those of ssc and boost (external): explicit Runge-Kutta methods, which evaluate their stages in order. Their tables are those of
    the literature for the names of the help of the programs (parse_XdynCommandLineArguments.cpp:45): Euler, Runge-Kutta 4, Runge-Kutta-Cash-Karp.
    Exact reals; two dates are almost equal according to any reflexive test [aeqR] (History.cpp:25-44). *)
From Coq Require Import ZArith Reals List String.
From Verif Require Import Common History_Model History_Real_Proofs.
Import ListNotations.
Open Scope R_scope.

(** ** Tables of the methods: nodes, coefficients of the stages, weights *)
Record method : Type := mkMethod { nodes : list R; coefficients : list (list R); weights : list R }.
(** boost/numeric/odeint/stepper/euler.hpp (external) *)
Definition euler : method := mkMethod [0] [[]] [1].
(** boost/numeric/odeint/stepper/runge_kutta4.hpp (external) *)
Definition rk4 : method := mkMethod [0; 1/2; 1/2; 1] [[]; [1/2]; [0; 1/2]; [0; 0; 1]] [1/6; 1/3; 1/3; 1/6].
(** boost/numeric/odeint/stepper/runge_kutta_cash_karp54.hpp (external) *)
Definition rkck : method := mkMethod [0; 1/5; 3/10; 3/5; 1; 7/8]
  [[]; [1/5]; [3/40; 9/40]; [3/10; -9/10; 6/5]; [-11/54; 5/2; -70/27; 35/27]; [1631/55296; 175/512; 575/13824; 44275/110592; 253/4096]]
  [37/378; 0; 250/621; 125/594; 0; 512/1771].
(** xdyn.cpp:36-54: any other name gives Euler's method *)
Definition solver_of_the_program (name : string) : method :=
  if String.eqb name "euler" then euler else if String.eqb name "rk4" then rk4 else if String.eqb name "rkck" then rkck else euler.
(** SimStepper.cpp:63-78: any other name is an error *)
Definition solver_of_the_server (name : string) : outcome method :=
  if String.eqb name "euler" then Ok euler else if String.eqb name "rk4" then Ok rk4 else if String.eqb name "rkck" then Ok rkck else Throw.

Section Solver.
Variable aeqR : Z -> R -> R -> bool.
Notation A := (Rarith aeqR).
(** The thirteen histories of a body, in the order of the recordings. *)
Definition memory : Type := list (hist A).
(** Result of a call that may be left by an exception, with the state of the objects. *)
Inductive result (X : Type) : Type := Done (m : list memory) (x : X) | Failed (m : list memory) | Wild.
Arguments Done {X}. Arguments Failed {X}. Arguments Wild {X}.
Definition bind {X Y} (r : result X) (f : list memory -> X -> result Y) : result Y :=
  match r with Done m x => f m x | Failed m => Failed m | Wild => Wild end.

(** Body.cpp:79-91: the histories one after the other; the first refusal stops the recordings. The boolean tells whether all were made. *)
Fixpoint record_states (hs : memory) (t : R) (xs : list R) : option (memory * bool) :=
  match hs, xs with
  | [], [] => Some ([], true)
  | h :: hs, v :: xs =>
      match record A h t v with
      | Returned h => match record_states hs t xs with Some (hs, b) => Some (h :: hs, b) | None => None end
      | Threw h => Some (h :: hs, false)
      | Undefined => None
      end
  | _, _ => None
  end.
(** StateMacros.hpp: the thirteen values of the body number [idx] in the state vector. *)
Definition states_of_body (x : list R) (idx : nat) : list R := firstn 13 (skipn (13 * idx) x).
(** BlockedDOF::force_states (Blocked_Model.v) of each body: any function. *)
Variable forced : nat -> list R -> R -> outcome (list R).
(** Body.cpp:76-92: [x] is a copy. *)
Definition update_body_states (idx : nat) (m : list memory) (x : list R) (t : R) : result unit :=
  match forced idx x t with
  | Ok x => match nth_error m idx with
            | None => Wild
            | Some hs => match record_states hs t (states_of_body x idx) with
                         | None => Wild
                         | Some (hs, b) => let m := set_nth m idx hs in if b then Done m tt else Failed m
                         end
            end
  | Throw => Failed m
  | UB => Wild
  end.
(** Frames and free surface (Body.cpp:122, 124-125), sum of the forces and derivatives of the states of the body (Sim.cpp:131-132): any function of the
    memory of the bodies, which may fail. *)
Variable derivatives : list memory -> nat -> list R -> list R -> R -> outcome (list R).
(** Sim.cpp:126-134 *)
Fixpoint dx_dt (n idx : nat) (m : list memory) (x dx : list R) (t : R) : result (list R) :=
  match n with
  | O => Done m dx
  | S n => bind (update_body_states idx m x t) (fun m _ =>
           match derivatives m idx x dx t with
           | Ok dx => dx_dt n (S idx) m x dx t
           | Throw => Failed m
           | UB => Wild
           end)
  end.
Variable n_bodies : nat.
(** Sim.cpp:111-116: a stage of the stepper; the vector of derivatives given by the stepper is overwritten (Sim_Model.v), here it starts from zeros. *)
Definition system (m : list memory) (x : list R) (t : R) : result (list R) := dx_dt n_bodies 0 m x (repeat 0 (List.length x)) t.

(** x + dt * sum of the a_i k_i *)
Definition combine_with (x : list R) (dt : R) (coeffs : list R) (ks : list (list R)) : list R :=
  map (fun i => nth i x 0 + dt * fold_right Rplus 0 (map (fun ak => fst ak * nth i (snd ak) 0) (combine coeffs ks))) (seq 0 (List.length x)).
(** Explicit Runge-Kutta step (boost, external): the stages are evaluated in the order of the table. *)
Fixpoint stages (cs : list R) (table : list (list R)) (m : list memory) (x : list R) (t dt : R) (ks : list (list R)) : result (list (list R)) :=
  match cs, table with
  | c :: cs, row :: table => bind (system m (combine_with x dt row ks) (t + c * dt)) (fun m k => stages cs table m x t dt (ks ++ [k]))
  | _, _ => Done m ks
  end.
Definition do_step (s : method) (m : list memory) (x : list R) (t dt : R) : result (list R) :=
  bind (stages (nodes s) (coefficients s) m x t dt []) (fun m ks => Done m (combine_with x dt (weights s) ks)).
(** core/inc/solver.hpp:20-45 (and the loop of ssc): [n] steps at the dates t0 + i dt; [after] is what happens to the states after a step (forced states). *)
Variable after : list R -> R -> list R.
Fixpoint steps (s : method) (n i : nat) (m : list memory) (x : list R) (t0 dt : R) : result (list R) :=
  match n with
  | O => Done m x
  | S n => bind (do_step s m x (t0 + INR i * dt) dt) (fun m x => steps s n (S i) m (after x (t0 + INR i * dt)) t0 dt)
  end.
End Solver.
Arguments Done {aeqR X}. Arguments Failed {aeqR X}. Arguments Wild {aeqR X}.
