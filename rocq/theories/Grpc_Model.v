(** Model of the gRPC services of the co-simulation (CS) and model exchange (ME) servers:
    executables/src/CosimulationServiceImpl.cpp, executables/src/ModelExchangeServiceImpl.cpp, over the messages of
    grpc/cosimulation.proto and grpc/model_exchange.proto. The request given to the simulator is that of Server_Model.

    Not modelled: the transport, the [commands] (copied), the NULL request (never sent by gRPC). External, hence parameters:
    the simulator itself ([play], [deriv]) and the two attitude conversions of BodyStates.cpp:39-82, which call the ssc and
    Eigen libraries. *)
From Coq Require Import ZArith List Bool String Reals.
From Verif Require Import Common History_Model Server_Model Geometry.
Import ListNotations.

Section Services.
Variable A : arith.
Notation num := (num A).

(** cosimulation.proto:24-43 (CosimulationStatesQuaternion), model_exchange.proto:21-37 (same fields): one list per state. *)
Record quaternion_request : Type := mkReqQ { q_Dt : num; q_t : list num; q_states : abs_states (list num) }.
(** cosimulation.proto (CosimulationStatesEuler), model_exchange.proto:39-54 *)
Record euler_request : Type := mkReqE { e_Dt : num; e_t : list num; e_x : list num; e_y : list num; e_z : list num;
  e_u : list num; e_v : list num; e_w : list num; e_p : list num; e_q : list num; e_r : list num;
  e_phi : list num; e_theta : list num; e_psi : list num }.

(** grpc::Status. The text of an INVALID_ARGUMENT is kept as the list of its lines: name of the state, its size, size of t. *)
Definition problem : Type := (string * nat * nat)%type.
Inductive status : Type := StOk | StInvalidArgument (lines : list problem) | StInternal.

(** CosimulationServiceImpl.cpp:18-24, ModelExchangeServiceImpl.cpp:23-28 (macro CHECK_SIZE) *)
Definition CHECK_SIZE (t : list num) (name : string) (s : list num) : list problem :=
  if Nat.eqb (List.length s) (List.length t) then [] else [(name, List.length s, List.length t)].
Definition status_of (msg : list problem) : status := match msg with [] => StOk | _ => StInvalidArgument msg end.

(** CosimulationServiceImpl.cpp:59-88, ModelExchangeServiceImpl.cpp:62-92 *)
Definition check_states_size_quaternion (r : quaternion_request) : status :=
  let check := CHECK_SIZE (q_t r) in
  let s := q_states r in
  status_of (check "x"%string (s_x s) ++ check "y"%string (s_y s) ++ check "z"%string (s_z s) ++ check "u"%string (s_u s) ++ check "v"%string (s_v s)
    ++ check "w"%string (s_w s) ++ check "p"%string (s_p s) ++ check "q"%string (s_q s) ++ check "r"%string (s_r s) ++ check "qr"%string (s_qr s)
    ++ check "qi"%string (s_qi s) ++ check "qj"%string (s_qj s) ++ check "qk"%string (s_qk s)).
(** CosimulationServiceImpl.cpp:27-56, ModelExchangeServiceImpl.cpp:30-60 *)
Definition check_states_size_euler (r : euler_request) : status :=
  let check := CHECK_SIZE (e_t r) in
  status_of (check "x"%string (e_x r) ++ check "y"%string (e_y r) ++ check "z"%string (e_z r) ++ check "u"%string (e_u r) ++ check "v"%string (e_v r)
    ++ check "w"%string (e_w r) ++ check "p"%string (e_p r) ++ check "q"%string (e_q r) ++ check "r"%string (e_r r) ++ check "phi"%string (e_phi r)
    ++ check "theta"%string (e_theta r) ++ check "psi"%string (e_psi r)).

(** One turn of a loop per date; accessors of repeated fields are not checked. *)
Fixpoint rows {X} (f : nat -> outcome X) (i n : nat) : outcome (list X) :=
  match n with O => Ok [] | S n' => do x <- f i ; do l <- rows f (S i) n' ; Ok (x :: l) end.

(** CosimulationServiceImpl.cpp:131-163, ModelExchangeServiceImpl.cpp:133-165: the states are default constructed
    (YamlState.cpp:3-7: all zero), then every field but [t] is set. *)
Definition from_grpc_quaternion (r : quaternion_request) : outcome (list (ystate A)) :=
  let s := q_states r in
  rows (fun i =>
    do x <- at_ub (s_x s) i ; do y <- at_ub (s_y s) i ; do z <- at_ub (s_z s) i ;
    do u <- at_ub (s_u s) i ; do v <- at_ub (s_v s) i ; do w <- at_ub (s_w s) i ;
    do p <- at_ub (s_p s) i ; do q <- at_ub (s_q s) i ; do r <- at_ub (s_r s) i ;
    do qr <- at_ub (s_qr s) i ; do qi <- at_ub (s_qi s) i ; do qj <- at_ub (s_qj s) i ; do qk <- at_ub (s_qk s) i ;
    Ok (mkY (zero A) (mkStates x y z u v w p q r qr qi qj qk))) 0 (List.length (q_t r)).
(** CosimulationServiceImpl.cpp:90-129, ModelExchangeServiceImpl.cpp:92-131. [to_quaternion phi theta psi] is
    BodyStates::convert(angles, rot) with the convention z y' x'' (BodyStates.cpp:57-82). *)
Variable to_quaternion : num -> num -> num -> num * num * num * num.
Definition from_grpc_euler (r : euler_request) : outcome (list (ystate A)) :=
  rows (fun i =>
    do x <- at_ub (e_x r) i ; do y <- at_ub (e_y r) i ; do z <- at_ub (e_z r) i ;
    do u <- at_ub (e_u r) i ; do v <- at_ub (e_v r) i ; do w <- at_ub (e_w r) i ;
    do p <- at_ub (e_p r) i ; do q <- at_ub (e_q r) i ; do rr <- at_ub (e_r r) i ;
    do phi <- at_ub (e_phi r) i ; do theta <- at_ub (e_theta r) i ; do psi <- at_ub (e_psi r) i ;
    let '(qr, qi, qj, qk) := to_quaternion phi theta psi in
    Ok (mkY (zero A) (mkStates x y z u v w p q rr qr qi qj qk))) 0 (List.length (e_t r)).

(** YamlState.hpp: a state returned by the simulator, with its Euler angles. *)
Record out_state : Type := mkOut { o_y : ystate A; o_phi : num; o_theta : num; o_psi : num }.
(** cosimulation.proto: CosimulationStates *)
Record all_states : Type := mkAll { a_t : list num; a_val : abs_states (list num); a_phi : list num; a_theta : list num; a_psi : list num }.
Record cs_response : Type := mkCS { cs_last : out_state; cs_all : all_states }.
Definition no_states : all_states := mkAll [] (mkStates [] [] [] [] [] [] [] [] [] [] [] [] []) [] [] [].
(** CosimulationServiceImpl.cpp:180-199: one turn of the loop *)
Definition add_state (a : all_states) (o : out_state) : all_states :=
  let s := a_val a in
  let v := y_val (o_y o) in
  mkAll (a_t a ++ [y_t (o_y o)])
    (mkStates (s_x s ++ [s_x v]) (s_y s ++ [s_y v]) (s_z s ++ [s_z v]) (s_u s ++ [s_u v]) (s_v s ++ [s_v v]) (s_w s ++ [s_w v])
       (s_p s ++ [s_p v]) (s_q s ++ [s_q v]) (s_r s ++ [s_r v]) (s_qr s ++ [s_qr v]) (s_qi s ++ [s_qi v]) (s_qj s ++ [s_qj v])
       (s_qk s ++ [s_qk v]))
    (a_phi a ++ [o_phi o]) (a_theta a ++ [o_theta o]) (a_psi a ++ [o_psi o]).
(** CosimulationServiceImpl.cpp:165-222 *)
Definition to_grpc_cs (res : list out_state) : status * option cs_response :=
  match res with
  | [] => (StInternal, None)
  | o :: _ => (StOk, Some (mkCS (last res o) (fold_left add_state res no_states)))
  end.

(** XdynForCS.cpp:24-40 around [play], which is SimStepper::step. [Dt <= 0] is [not (0 < Dt)] (no NaN). *)
Definition play_one_step (play : server_inputs A -> outcome (list out_state)) (Tmax Dt : num) (ys : list (ystate A)) : outcome (list out_state) :=
  do i <- make_server_inputs A Dt Tmax ys ;
  if negb (lt A (zero A) (in_Dt i)) then Throw else play i.
(** CosimulationServiceImpl.cpp:239-251 *)
Definition step_quaternion (play : server_inputs A -> outcome (list out_state)) (Tmax : num) (r : quaternion_request) : outcome (status * option cs_response) :=
  match check_states_size_quaternion r with
  | StOk => do ys <- from_grpc_quaternion r ; do res <- play_one_step play Tmax (q_Dt r) ys ; Ok (to_grpc_cs res)
  | s => Ok (s, None)
  end.
(** CosimulationServiceImpl.cpp:224-237 *)
Definition step_euler_321 (play : server_inputs A -> outcome (list out_state)) (Tmax : num) (r : euler_request) : outcome (status * option cs_response) :=
  match check_states_size_euler r with
  | StOk => do ys <- from_grpc_euler r ; do res <- play_one_step play Tmax (e_Dt r) ys ; Ok (to_grpc_cs res)
  | s => Ok (s, None)
  end.

(** model_exchange.proto:56-80 (ModelExchangeStateDerivatives) *)
Record me_response : Type := mkME { d_t : num; d_val : abs_states num; d_phi : num; d_theta : num; d_psi : num }.
(** ModelExchangeServiceImpl.cpp:167-187: the reads of the state vector, [state[9]] ... [state[8]]. [rates] is the rest. *)
Variable rates : num * num * num * num -> num * num * num -> num * num * num.
Definition get_euler_derivative (state : list num) : outcome (num * num * num) :=
  do qr <- at_ub state 9 ; do qi <- at_ub state 10 ; do qj <- at_ub state 11 ; do qk <- at_ub state 12 ;
  do p <- at_ub state 6 ; do q <- at_ub state 7 ; do r <- at_ub state 8 ;
  Ok (rates (qr, qi, qj, qk) (p, q, r)).
(** ModelExchangeServiceImpl.cpp:189-219 *)
Definition to_grpc_me (res : list num) (i : server_inputs A) : outcome (status * option me_response) :=
  match res with
  | [x; y; z; u; v; w; p; q; r; qr; qi; qj; qk] =>
      do e <- get_euler_derivative (state_at_t i) ;
      Ok (StOk, Some (mkME (in_t i) (mkStates x y z u v w p q r qr qi qj qk) (fst (fst e)) (snd (fst e)) (snd e)))
  | _ => Ok (StInternal, None)
  end.
(** SimServerInputs.cpp:64-73: the other constructor, which takes a duration and is not [explicit]. *)
Definition server_inputs_of_double (Dt : num) : server_inputs A := mkInputs (zero A) Dt [] (new_state A Dt) (new_state A Dt).
(** ModelExchangeServiceImpl.cpp:221-234; [deriv] is XdynForME::calculate_dx_dt. *)
Definition dx_dt_euler_321 (deriv : server_inputs A -> outcome (list num)) (Tmax : num) (r : euler_request) : outcome (status * option me_response) :=
  match check_states_size_euler r with
  | StOk => do ys <- from_grpc_euler r ; do i <- make_server_inputs A (zero A) Tmax ys ; do out <- deriv i ; to_grpc_me out i
  | s => Ok (s, None)
  end.
(** ModelExchangeServiceImpl.cpp:236-253. Line 251 passes the date [t] where SimServerInputs is expected: the implicit conversion
    is SimServerInputs(const double Dt). *)
Definition dx_dt_quaternion (deriv : server_inputs A -> outcome (list num)) (Tmax : num) (r : quaternion_request) : outcome (status * option me_response) :=
  match check_states_size_quaternion r with
  | StOk =>
      do ys <- from_grpc_quaternion r ;
      match ys with
      | [] => Ok (StInternal, None)
      | y0 :: _ =>
          let t := y_t (last ys y0) in
          do i <- make_server_inputs A (zero A) Tmax ys ;
          do out <- deriv i ;
          to_grpc_me out (server_inputs_of_double t)
      end
  | s => Ok (s, None)
  end.
End Services.
Arguments mkReqQ {A}. Arguments q_Dt {A}. Arguments q_t {A}. Arguments q_states {A}.
Arguments mkReqE {A}. Arguments e_Dt {A}. Arguments e_t {A}. Arguments e_x {A}. Arguments e_y {A}. Arguments e_z {A}. Arguments e_u {A}.
Arguments e_v {A}. Arguments e_w {A}. Arguments e_p {A}. Arguments e_q {A}. Arguments e_r {A}. Arguments e_phi {A}. Arguments e_theta {A}. Arguments e_psi {A}.
Arguments mkOut {A}. Arguments o_y {A}. Arguments o_phi {A}. Arguments o_theta {A}. Arguments o_psi {A}.
Arguments mkAll {A}. Arguments a_t {A}. Arguments a_val {A}. Arguments a_phi {A}. Arguments a_theta {A}. Arguments a_psi {A}.
Arguments mkCS {A}. Arguments cs_last {A}. Arguments cs_all {A}.
Arguments mkME {A}. Arguments d_t {A}. Arguments d_val {A}. Arguments d_phi {A}. Arguments d_theta {A}. Arguments d_psi {A}.

(** ** Euler angle rates, over the reals *)
Open Scope R_scope.
(** ModelExchangeServiceImpl.cpp:167-187. [euler_angles] is BodyStates::convert(R, rot) with the convention z y' x''
    (phi, theta, psi). *)
Definition euler_rates (euler_angles : mat3 -> R * R * R) (quat : R * R * R * R) (pqr : R * R * R) : R * R * R :=
  let '(qr, qi, qj, qk) := quat in
  let '(p, q, r) := pqr in
  let '(phi, theta, psi) := euler_angles (qmat qr qi qj qk) in
  let cos_phi := cos phi in
  let sin_phi := sin phi in
  let cos_theta := cos theta in
  let tan_theta := tan theta in
  (p + sin_phi * tan_theta * q + cos_phi * tan_theta * r,
   cos_phi * q - sin_phi * r,
   sin_phi / cos_theta * q + cos_phi / cos_theta * r).
