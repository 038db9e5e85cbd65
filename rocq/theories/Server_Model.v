(** Model of the requests of the co-simulation (CS) and model-exchange (ME) servers:
    observers_and_api/src/{SimServerInputs,HistoryParser,SimStepper,XdynForCS,XdynForME}.cpp, core/src/State.cpp:48-63,
    core/src/Sim.cpp:239-247. The histories are those of History_Model, over the same arbitrary arithmetic.

    Not modelled: decoding of the JSON/YAML text into the list of states, the numerical solver. *)
From Coq Require Import ZArith List Bool.
From Verif Require Import Common History_Model.
Import ListNotations.

(** core/inc/AbstractStates.hpp: the thirteen states of a body, each of type X. *)
Record abs_states (X : Type) : Type := mkStates { s_x : X ; s_y : X ; s_z : X ; s_u : X ; s_v : X ; s_w : X ; s_p : X ; s_q : X ; s_r : X ; s_qr : X ; s_qi : X ; s_qj : X ; s_qk : X }.
Arguments mkStates {X}.
Arguments s_x {X}.
Arguments s_y {X}.
Arguments s_z {X}.
Arguments s_u {X}.
Arguments s_v {X}.
Arguments s_w {X}.
Arguments s_p {X}.
Arguments s_q {X}.
Arguments s_r {X}.
Arguments s_qr {X}.
Arguments s_qi {X}.
Arguments s_qj {X}.
Arguments s_qk {X}.

Section Server.
Variable A : arith.
Notation num := (num A).

(** YamlState.hpp: the received instant and the thirteen values (phi, theta, psi are not used as inputs and are omitted). *)
Record ystate : Type := mkY { y_t : num; y_val : abs_states num }.

(** State : AbstractStates<History> (core/inc/State.hpp:8). *)
Definition state : Type := abs_states (hist A).

(** State.cpp:22-25. *)
Definition new_state (T : num) : state := mkStates (new_history A T) (new_history A T) (new_history A T) (new_history A T) (new_history A T) (new_history A T) (new_history A T) (new_history A T) (new_history A T) (new_history A T) (new_history A T) (new_history A T) (new_history A T).

(** A call made for its effect inside a constructor: if it throws, so does the constructor. *)
Definition effect (c : call (hist A)) : outcome (hist A) :=
  match c with Returned h => Ok h | Threw _ => Throw | Undefined => UB end.

(** SimServerInputs.cpp:14-29. *)
Definition record_state (s : state) (y : ystate) : outcome state :=
  do hx <- effect (record A (s_x s) (y_t y) (s_x (y_val y))) ;
  do hy <- effect (record A (s_y s) (y_t y) (s_y (y_val y))) ;
  do hz <- effect (record A (s_z s) (y_t y) (s_z (y_val y))) ;
  do hu <- effect (record A (s_u s) (y_t y) (s_u (y_val y))) ;
  do hv <- effect (record A (s_v s) (y_t y) (s_v (y_val y))) ;
  do hw <- effect (record A (s_w s) (y_t y) (s_w (y_val y))) ;
  do hp <- effect (record A (s_p s) (y_t y) (s_p (y_val y))) ;
  do hq <- effect (record A (s_q s) (y_t y) (s_q (y_val y))) ;
  do hr <- effect (record A (s_r s) (y_t y) (s_r (y_val y))) ;
  do hqr <- effect (record A (s_qr s) (y_t y) (s_qr (y_val y))) ;
  do hqi <- effect (record A (s_qi s) (y_t y) (s_qi (y_val y))) ;
  do hqj <- effect (record A (s_qj s) (y_t y) (s_qj (y_val y))) ;
  do hqk <- effect (record A (s_qk s) (y_t y) (s_qk (y_val y))) ;
  Ok (mkStates hx hy hz hu hv hw hp hq hr hqr hqi hqj hqk).

(** SimServerInputs.hpp. [commands] are copied and not modelled. *)
Record server_inputs : Type := mkInputs {
  in_t : num; in_Dt : num; state_at_t : list num; history_except_last : state; full_history : state }.

(** SimServerInputs.cpp:41-45: the loop over all the states but the last. *)
Fixpoint record_all (s : state) (ys : list ystate) : outcome state :=
  match ys with [] => Ok s | y :: r => do s' <- record_state s y ; record_all s' r end.

(** SimServerInputs.cpp:31-62. *)
Definition make_server_inputs (Dt T : num) (ys : list ystate) : outcome server_inputs :=
  match ys with
  | [] => Ok (mkInputs (zero A) Dt (repeat (zero A) 13) (new_state T) (new_state T))
  | y0 :: _ =>
      let init := removelast ys in
      let back := last ys y0 in
      do past <- record_all (new_state T) init ;
      do full <- record_all (new_state T) init ;
      let v := y_val back in
      do full' <- record_state full back ;
      Ok (mkInputs (y_t back) Dt
            [s_x v; s_y v; s_z v; s_u v; s_v v; s_w v; s_p v; s_q v; s_r v; s_qr v; s_qi v; s_qj v; s_qk v]
            past full')
  end.

(** HistoryParser.cpp:10-61. *)
Definition check_state_history_size (s : state) : outcome unit :=
  let N := length (L (s_x s)) in
  if negb (length (L (s_y s)) =? N)%nat then Throw else
  if negb (length (L (s_z s)) =? N)%nat then Throw else
  if negb (length (L (s_u s)) =? N)%nat then Throw else
  if negb (length (L (s_v s)) =? N)%nat then Throw else
  if negb (length (L (s_w s)) =? N)%nat then Throw else
  if negb (length (L (s_p s)) =? N)%nat then Throw else
  if negb (length (L (s_q s)) =? N)%nat then Throw else
  if negb (length (L (s_r s)) =? N)%nat then Throw else
  if negb (length (L (s_qr s)) =? N)%nat then Throw else
  if negb (length (L (s_qi s)) =? N)%nat then Throw else
  if negb (length (L (s_qj s)) =? N)%nat then Throw else
  if negb (length (L (s_qk s)) =? N)%nat then Throw else
  Ok tt.

(** HistoryParser.cpp:63-86: [state.x[i]] is History::operator[], [L.at] (History.cpp:229-233). [resize] comes before the check. *)
Definition states_of_history (s : state) : outcome (list ystate) :=
  let N := length (L (s_x s)) in
  do _ <- check_state_history_size s ;
  fold_left (fun acc i =>
    do l <- acc ;
    do x <- at_throw (L (s_x s)) i ;
    do y <- at_throw (L (s_y s)) i ;
    do z <- at_throw (L (s_z s)) i ;
    do u <- at_throw (L (s_u s)) i ;
    do v <- at_throw (L (s_v s)) i ;
    do w <- at_throw (L (s_w s)) i ;
    do p <- at_throw (L (s_p s)) i ;
    do q <- at_throw (L (s_q s)) i ;
    do r <- at_throw (L (s_r s)) i ;
    do qr <- at_throw (L (s_qr s)) i ;
    do qi <- at_throw (L (s_qi s)) i ;
    do qj <- at_throw (L (s_qj s)) i ;
    do qk <- at_throw (L (s_qk s)) i ;
    Ok (l ++ [mkY (fst x) (mkStates (snd x) (snd y) (snd z) (snd u) (snd v) (snd w) (snd p) (snd q) (snd r) (snd qr) (snd qi) (snd qj) (snd qk))]))
    (seq 0 N) (Ok []).

(** State.cpp:48-63. *)
Definition get_StateType (s : state) (i : nat) : outcome (list num) :=
  do x <- at_throw (L (s_x s)) i ;
  do y <- at_throw (L (s_y s)) i ;
  do z <- at_throw (L (s_z s)) i ;
  do u <- at_throw (L (s_u s)) i ;
  do v <- at_throw (L (s_v s)) i ;
  do w <- at_throw (L (s_w s)) i ;
  do p <- at_throw (L (s_p s)) i ;
  do q <- at_throw (L (s_q s)) i ;
  do r <- at_throw (L (s_r s)) i ;
  do qr <- at_throw (L (s_qr s)) i ;
  do qi <- at_throw (L (s_qi s)) i ;
  do qj <- at_throw (L (s_qj s)) i ;
  do qk <- at_throw (L (s_qk s)) i ;
  Ok [snd x; snd y; snd z; snd u; snd v; snd w; snd p; snd q; snd r; snd qr; snd qi; snd qj; snd qk].

(** What one CS step starts from: the start date and the thirteen values held by the simulator when the solver starts.
    XdynForCS.cpp:33-40 (the check on Dt), SimStepper.cpp:57-62, Sim.cpp:239-247. [previous] is the state left in the
    simulator by the previous request. [Dt <= 0] is [not (0 < Dt)] (no NaN). *)
Definition cs_start (previous : list num) (i : server_inputs) : outcome (num * list num) :=
  if negb (lt A (zero A) (in_Dt i)) then Throw
  else match L (s_x (full_history i)) with
       | [] => Ok (in_t i, previous)
       | _ => do v <- get_StateType (full_history i) (length (L (s_x (full_history i))) - 1) ; Ok (in_t i, v)
       end.

(** What ME evaluates: the date, the state vector and the history given to the force models. XdynForME.cpp:24-35. *)
Definition me_arguments (i : server_inputs) : num * list num * state :=
  (in_t i, state_at_t i, history_except_last i).

End Server.
Arguments mkY {A}. Arguments y_t {A}. Arguments y_val {A}. Arguments mkInputs {A}. Arguments in_t {A}. Arguments in_Dt {A}.
Arguments state_at_t {A}. Arguments history_except_last {A}. Arguments full_history {A}.
