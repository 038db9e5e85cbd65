(** Model of what a server keeps from a request to the next one: observers_and_api/src/XdynForME.cpp:22-35, XdynForCS.cpp:33-40, SimStepper.cpp:39-90,
    core/src/Sim.cpp:239-264 (states of the first body, commands, reset of the histories), core/src/Body.cpp:219-239, observers_and_api/inc/simulator_api.hpp:29-38.
    The evaluations are those of Solver_Model, the commands those of Command_Model, the requests those of Server_Model. Exact reals.
    Parameters: the forced states, the derivatives (any function of the commands, of the memory of the bodies, of the states and of the date), the efforts
    written by the observers (any function of the commands and of the memory after the latest evaluation), the states written by the observers (forced and
    normalised: Sim_Model), the number of steps made by the scheduler of ssc (external). Decoding of the text of the requests: Wire_Model. *)
From Coq Require Import ZArith Reals List String.
From Verif Require Import Common History_Model History_Real_Proofs Builder_Model Command_Model Server_Model Solver_Model.
Import ListNotations.
Open Scope R_scope.

Section Requests.
Variable aeqR : Z -> R -> R -> bool.
Notation A := (Rarith aeqR).
Context {Itp E : Type}.
Notation commands := (@data_source Itp).
Variable n_bodies : nat.
(** Duration of the histories (ConfBuilder.cpp:6-16). *)
Variable Tmax : R.
Variable forced : nat -> list R -> R -> outcome (list R).
Variable derivatives : commands -> list (memory aeqR) -> nat -> list R -> list R -> R -> outcome (list R).
Variable efforts : commands -> list (memory aeqR) -> E.
Variable after : list R -> R -> list R.
Variable written : list R -> R -> list R.
Variable count : R -> R -> R -> nat.

(** SimServerInputs.hpp: Dt, states received, commands. *)
Record request : Type := mkRequest { rq_Dt : R; rq_states : list (ystate A); rq_commands : list (string * R) }.
(** What stays in the server between two requests: the data source of the commands (pimpl->command_listener), the histories of the bodies, the
    state vector (Sim::state), the efforts of the latest evaluation if there was one. *)
Record server : Type := mkServer { sv_commands : commands; sv_memory : list (memory aeqR); sv_state : list R; sv_efforts : option E }.

(** Sim.cpp:249-255: [map] iterates in the order of the names; the names of a map are distinct. *)
Fixpoint set_commands (ds : commands) (l : list (string * R)) : commands :=
  match l with [] => ds | (n, v) :: r => set_commands (map_set ds n (Constant v)) r end.
(** The thirteen histories in the order of the recordings of Body.cpp:79-91. *)
Definition histories (s : state A) : memory aeqR :=
  [s_x s; s_y s; s_z s; s_u s; s_v s; s_w s; s_p s; s_q s; s_r s; s_qr s; s_qi s; s_qj s; s_qk s].
(** Body.cpp:224-239, Sim.cpp:257-263 *)
Definition reset_histories (m : list (memory aeqR)) : list (memory aeqR) := map (map (reset A)) m.
(** Sim.cpp:239-247: [bodies.at(0)]. *)
Definition set_bodystates (m : list (memory aeqR)) (x : list R) (s : state A) : outcome (list (memory aeqR) * list R) :=
  match m with
  | [] => Throw
  | _ :: rest =>
      match L (s_x s) with
      | [] => Ok (histories s :: rest, x)
      | _ => do y <- get_StateType A s (List.length (L (s_x s)) - 1) ; Ok (histories s :: rest, y)
      end
  end.

(** ** Model exchange: XdynForME.cpp:22-35. The answer: the derivatives, or an error. *)
Definition me_request (s : server) (r : request) : server * outcome (list R) :=
  match make_server_inputs A (rq_Dt r) Tmax (rq_states r) with
  | Throw => (s, Throw)
  | UB => (s, UB)
  | Ok i =>
      match set_bodystates (sv_memory s) (sv_state s) (history_except_last i) with
      | Throw => (s, Throw)
      | UB => (s, UB)
      | Ok (m, x) =>
          let c := set_commands (sv_commands s) (rq_commands r) in
          match system aeqR forced (derivatives c) n_bodies m (state_at_t i) (in_t i) with
          | Done m dx => (mkServer c m x (Some (efforts c m)), Ok dx)
          | Failed m => (mkServer c m x (Some (efforts c m)), Throw)
          | Wild => (mkServer c m x (sv_efforts s), UB)
          end
      end
  end.

(** ** Co-simulation. An observation: date, states and efforts. *)
Record observation : Type := mkObs { ob_t : R; ob_states : list R; ob_efforts : option E }.
(** core/inc/solver.hpp:29-44 (Sim_Model.quicksolve): the observations after each step, and what remains. *)
Fixpoint play (s : method) (c : commands) (n i : nat) (m : list (memory aeqR)) (x : list R) (t0 dt : R) : list observation * list R * result aeqR unit :=
  match n with
  | O => ([], x, Done m tt)
  | S n =>
      match do_step aeqR forced (derivatives c) n_bodies s m x (t0 + INR i * dt) dt with
      | Done m y =>
          let y := after y (t0 + INR i * dt) in
          let t := t0 + INR (S i) * dt in
          let '(obs, z, e) := play s c n (S i) m y t0 dt in
          (mkObs t (written y t) (Some (efforts c m)) :: obs, z, e)
      | Failed m => ([], x, Failed m)
      | Wild => ([], x, Wild)
      end
  end.
(** SimStepper.cpp:39-55, 80-84: the conversion of the last result leaves its states as only element of the histories of the first body,
    at the date 0, with histories that keep nothing else (State.cpp:3-20). [record] of a history without past never fails. *)
Definition after_conversion (m : list (memory aeqR)) (last : list R) : list (memory aeqR) :=
  match m with [] => [] | _ :: rest => map (fun v => @mkHist A 0 [(0, v)] 0) last :: rest end.
Definition last_states (obs : list observation) : list R := match rev obs with [] => [] | o :: _ => ob_states o end.
(** XdynForCS.cpp:33-40, SimStepper.cpp:57-91, simulator_api.hpp:29-38: the observation made at the end is dropped. *)
Definition cs_request (solver : string) (dt : R) (s : server) (r : request) : server * outcome (list observation) :=
  match make_server_inputs A (rq_Dt r) Tmax (rq_states r) with
  | Throw => (s, Throw)
  | UB => (s, UB)
  | Ok i =>
      if negb (lt A 0 (in_Dt i)) then (s, Throw) else
      let m := reset_histories (sv_memory s) in
      match set_bodystates m (sv_state s) (full_history i) with
      | Throw => (mkServer (sv_commands s) m (sv_state s) (sv_efforts s), Throw)
      | UB => (s, UB)
      | Ok (m, x) =>
          let c := set_commands (sv_commands s) (rq_commands r) in
          match solver_of_the_server solver with
          | Ok method =>
              let n := count (in_t i) (in_t i + in_Dt i) dt in
              let first := mkObs (in_t i) (written x (in_t i)) (sv_efforts s) in
              let '(obs, y, e) := play method c n 0 m x (in_t i) dt in
              match e with
              | Done m _ => (mkServer c (after_conversion m (last_states (first :: obs))) y (match obs with [] => sv_efforts s | _ => Some (efforts c m) end), Ok (first :: obs))
              | Failed m => (mkServer c m y (Some (efforts c m)), Throw)
              | Wild => (mkServer c m y (sv_efforts s), UB)
              end
          | _ => (mkServer c m x (sv_efforts s), Throw)
          end
      end
  end.

(** Any sequence of requests. *)
Definition me_requests (s : server) (l : list request) : server := fold_left (fun s r => fst (me_request s r)) l s.
Definition cs_requests (solver : string) (dt : R) (s : server) (l : list request) : server := fold_left (fun s r => fst (cs_request solver dt s r)) l s.
End Requests.
Arguments mkRequest {aeqR}. Arguments rq_Dt {aeqR}. Arguments rq_states {aeqR}. Arguments rq_commands {aeqR}.
Arguments mkServer {aeqR Itp E}. Arguments sv_commands {aeqR Itp E}. Arguments sv_memory {aeqR Itp E}. Arguments sv_state {aeqR Itp E}. Arguments sv_efforts {aeqR Itp E}.
Arguments mkObs {E}. Arguments ob_t {E}. Arguments ob_states {E}. Arguments ob_efforts {E}.
