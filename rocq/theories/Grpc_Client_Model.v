(** Model of xdyn as a gRPC client: a force computed by a distant server (grpc/src/GRPCForceModel.cpp, ToGRPC.cpp, FromGRPC.cpp, over the
    messages of grpc/force.proto) and waves computed by a distant server (grpc/src/SurfaceElevationFromGRPC.cpp).

    The distant servers are arbitrary functions from requests to (status code, response). Not modelled: the transport, the texts of
    the error messages, the YAML sent to the servers, the RAO grids of the distant waves (copied). External, hence a parameter: the
    conversion of a quaternion into Euler angles ([to_euler], BodyStates.cpp:39-56 with the conventions of the input file). *)
From Coq Require Import ZArith List Bool String.
From Verif Require Import Common History_Model Server_Model.
Import ListNotations.

(** grpc::StatusCode (grpcpp/impl/codegen/status_code_enum.h): OK is 0. The cases of the switch that throw, in order: ABORTED,
    ALREADY_EXISTS, CANCELLED, DATA_LOSS, DEADLINE_EXCEEDED, DO_NOT_USE, FAILED_PRECONDITION, INTERNAL, INVALID_ARGUMENT, NOT_FOUND,
    OUT_OF_RANGE, PERMISSION_DENIED, RESOURCE_EXHAUSTED, UNAUTHENTICATED, UNAVAILABLE, UNIMPLEMENTED, UNKNOWN.
    GRPCForceModel.cpp:39-136, SurfaceElevationFromGRPC.cpp:51-148 (the same switch). *)
Definition throwing_cases : list Z := [10; 6; 1; 15; 4; -1; 9; 13; 3; 5; 11; 7; 8; 16; 14; 12; 2]%Z.
Definition throw_if_invalid_status (code : Z) : outcome unit :=
  if Z.eqb code 0 then Ok tt else if existsb (Z.eqb code) throwing_cases then Throw else Ok tt.

Section Client.
Variable A : arith.
Notation num := (num A).

(** wave_types.proto (submodule): XYTGrid, XYZTGrid, SpectrumRequest; GRPCTypes.hpp:13-43: XYTs, XYZTs, XYT. *)
Record xyts : Type := mkXYT { g2_x : list num; g2_y : list num; g2_t : num }.
Record xyzts : Type := mkXYZT { g3_x : list num; g3_y : list num; g3_z : list num; g3_t : num }.
Record xyt : Type := mkPoint { p_x : num; p_y : num; p_t : num }.
(** force.proto:21-30 (RequiredWaveInformationResponse); GRPCTypes.hpp:36-45 (WaveRequest) has the same fields. *)
Record wave_request : Type := mkWR { wr_elevations : xyts; wr_pressures : xyzts; wr_velocities : xyzts; wr_spectrum : xyt;
  wr_frequencies : bool; wr_directions : bool; wr_need_spectrum : bool }.
(** FromGRPC.cpp:10-37. The copy of the z-coordinates of the pressures is missing. *)
Definition to_wave_request (r : wave_request) : wave_request :=
  let p := wr_pressures r in
  mkWR (wr_elevations r) (mkXYZT (g3_x p) (g3_y p) [] (g3_t p)) (wr_velocities r) (wr_spectrum r) (wr_frequencies r) (wr_directions r) (wr_need_spectrum r).

(** DiscreteDirectionalWaveSpectrum: what is transmitted of it. *)
Record wire_spectrum : Type := mkWS { ws_Si : list num; ws_Dj : list num; ws_omega : list num; ws_psi : list num; ws_k : list num; ws_phase : list (list num) }.

(** The wave model, as the force models see it: the virtual functions of SurfaceElevationInterface.hpp:156-215. *)
Record wave_model : Type := mkWM {
  wm_height : list num -> list num -> num -> outcome (list num);
  wm_pressure : num -> num -> list num -> list num -> list num -> list num -> num -> outcome (list num);
  wm_velocity : num -> list num -> list num -> list num -> num -> list num -> outcome (list (num * num * num));
  wm_spectra : num -> num -> num -> outcome (list wire_spectrum) }.
Definition same_size {X Y} (a : list X) (b : list Y) : bool := Nat.eqb (List.length a) (List.length b).
(** core/src/SurfaceElevationInterface.cpp:153-164 *)
Definition check_height (w : wave_model) (x y : list num) (t : num) : outcome (list num) :=
  if negb (same_size x y) then Throw else wm_height w x y t.
(** core/src/SurfaceElevationInterface.cpp:166-192 *)
Definition check_pressure (w : wave_model) (rho g : num) (x y z eta : list num) (t : num) : outcome (list num) :=
  if negb (same_size x y) then Throw else if negb (same_size x z) then Throw else if negb (same_size x eta) then Throw
  else wm_pressure w rho g x y z eta t.
(** core/src/SurfaceElevationInterface.cpp:194-209 *)
Definition check_velocity (w : wave_model) (g : num) (x y z : list num) (t : num) (eta : list num) : outcome (list (num * num * num)) :=
  if negb (same_size x y) || negb (same_size x z) || negb (same_size x eta) then Throw else wm_velocity w g x y z t eta.

(** force.proto:32-40 (WaveInformation) *)
Record elevations_t : Type := mkEl { el_x : list num; el_y : list num; el_z : list num; el_t : num }.
Record pressures_t : Type := mkPd { pd_x : list num; pd_y : list num; pd_z : list num; pd_p : list num; pd_t : num }.
Record velocities_t : Type := mkOv { ov_x : list num; ov_y : list num; ov_z : list num; ov_vx : list num; ov_vy : list num; ov_vz : list num; ov_t : num }.
Record wave_information : Type := mkWI { wi_elevations : elevations_t; wi_pressures : pressures_t; wi_velocities : velocities_t;
  wi_spectrum : option (list wire_spectrum); wi_frequencies : option (list num); wi_directions : option (list num) }.
Definition no_information : wave_information :=
  mkWI (mkEl [] [] [] (zero A)) (mkPd [] [] [] [] (zero A)) (mkOv [] [] [] [] [] [] (zero A)) None None None.
Record environment : Type := mkEnv { env_w : option wave_model; env_rho : num; env_g : num }.

(** ToGRPC.cpp:64-155. An exception of the wave model is rethrown with a longer message. *)
Definition from_wave_information (r : wave_request) (t : num) (env : environment) : outcome wave_information :=
  match env_w env with
  | None => Throw
  | Some w =>
      do spectrum <- (if wr_need_spectrum r
                      then do s <- wm_spectra w (p_x (wr_spectrum r)) (p_y (wr_spectrum r)) (p_t (wr_spectrum r)) ; Ok (Some s)
                      else Ok None) ;
      let v := wr_velocities r in
      do eta <- check_height w (g3_x v) (g3_y v) (g3_t v) ;
      do vel <- check_velocity w (env_g env) (g3_x v) (g3_y v) (g3_z v) t eta ;
      let e := wr_elevations r in
      do z <- check_height w (g2_x e) (g2_y e) (g2_t e) ;
      let p := wr_pressures r in
      do eta2 <- check_height w (g3_x p) (g3_y p) (g3_t p) ;
      do pdyn <- check_pressure w (env_rho env) (env_g env) (g3_x p) (g3_y p) (g3_z p) eta2 t ;
      Ok (mkWI (mkEl (g2_x e) (g2_y e) z t) (mkPd (g3_x p) (g3_y p) (g3_z p) pdyn t)
               (mkOv (g3_x v) (g3_y v) (g3_z v) (map (fun c => fst (fst c)) vel) (map (fun c => snd (fst c)) vel) (map snd vel) t)
               spectrum None None)
  end.

(** force.proto:63-83 (States): the thirteen states and the Euler angles. *)
Record wire_states : Type := mkWSt { st_t : list num; st_val : abs_states (list num); st_phi : list num; st_theta : list num; st_psi : list num }.
Variable to_euler : num * num * num * num -> num * num * num.
(** ToGRPC.cpp:166-173: the loop over the quaternions. *)
Fixpoint euler_loop (n i : nat) (qr qi qj qk : list num) : outcome (list (num * num * num)) :=
  match n with
  | O => Ok []
  | S n' =>
      do a <- at_ub qr i ; do b <- at_ub qi i ; do c <- at_ub qj i ; do d <- at_ub qk i ;
      do l <- euler_loop n' (S i) qr qi qj qk ;
      Ok (to_euler (a, b, c, d) :: l)
  end.
(** ToGRPC.cpp:157-195 *)
Definition from_state (s : state A) (tmax : num) : outcome wire_states :=
  do qr <- get_values A (s_qr s) tmax ; do qi <- get_values A (s_qi s) tmax ;
  do qj <- get_values A (s_qj s) tmax ; do qk <- get_values A (s_qk s) tmax ;
  do e <- euler_loop (List.length qr) 0 qr qi qj qk ;
  do x <- get_values A (s_x s) tmax ; do y <- get_values A (s_y s) tmax ; do z <- get_values A (s_z s) tmax ;
  do u <- get_values A (s_u s) tmax ; do v <- get_values A (s_v s) tmax ; do w <- get_values A (s_w s) tmax ;
  do p <- get_values A (s_p s) tmax ; do q <- get_values A (s_q s) tmax ; do r <- get_values A (s_r s) tmax ;
  Ok (mkWSt (get_dates A (s_x s) tmax) (mkStates x y z u v w p q r qr qi qj qk)
        (map (fun a => fst (fst a)) e) (map (fun a => snd (fst a)) e) (map snd e)).

(** force.proto:85-102 *)
Definition command_map : Type := list (string * num).
Record force_request : Type := mkFR { fr_states : wire_states; fr_commands : command_map; fr_waves : wave_information; fr_name : string }.
Record force_response : Type := mkFS { Fx : num; Fy : num; Fz : num; Mx : num; My : num; Mz : num; fs_extra : command_map }.
(** The distant force model: its answers. *)
Record force_server : Type := mkSrv {
  srv_required : num -> num -> num -> num -> Z * wave_request;
  srv_force : force_request -> Z * force_response }.
(** FromGRPC.cpp:39-49 *)
Definition to_force (r : force_response) : list num := [Fx r; Fy r; Fz r; Mx r; My r; Mz r].
(** GRPCForceModel.cpp:181-189 *)
Definition required_wave_information (srv : force_server) (t x y z : num) : outcome wave_request :=
  let '(code, response) := srv_required srv t x y z in
  do _ <- throw_if_invalid_status code ; Ok (to_wave_request response).
(** GRPCForceModel.cpp:225-233 *)
Definition get_wave_information (srv : force_server) (needs_wave_outputs : bool) (t x y z : num) (env : environment) : outcome wave_information :=
  if needs_wave_outputs then do r <- required_wave_information srv t x y z ; from_wave_information r t env
  else Ok no_information.
(** GRPCForceModel.cpp:191-201. [state.x(0)] is the current value. Returns the force and the extra observations. *)
Definition force (srv : force_server) (needs_wave_outputs : bool) (max_history_length : num) (name : string)
  (t : num) (s : state A) (commands : command_map) (env : environment) : outcome (list num * command_map) :=
  do states <- from_state s max_history_length ;
  do x <- value_at A (s_x s) (zero A) ; do y <- value_at A (s_y s) (zero A) ; do z <- value_at A (s_z s) (zero A) ;
  do waves <- get_wave_information srv needs_wave_outputs t x y z env ;
  let '(code, response) := srv_force srv (mkFR states commands waves name) in
  do _ <- throw_if_invalid_status code ;
  Ok (to_force response, fs_extra response).

(** ** Waves computed by a distant server *)
Record wave_server : Type := mkWSrv {
  ws_elevations : list num -> list num -> num -> Z * list num;
  ws_pressures : list num -> list num -> list num -> num -> Z * list num;
  ws_velocities : list num -> list num -> list num -> num -> Z * (list num * list num * list num);
  ws_spectra : num -> num -> num -> Z * list wire_spectrum }.
(** SurfaceElevationFromGRPC.cpp:151-165 *)
Definition remote_elevations (srv : wave_server) (x y : list num) (t : num) : outcome (list num) :=
  let '(code, z) := ws_elevations srv x y t in do _ <- throw_if_invalid_status code ; Ok z.
(** SurfaceElevationFromGRPC.cpp:167-182 *)
Definition remote_pressures (srv : wave_server) (x y z : list num) (t : num) : outcome (list num) :=
  let '(code, p) := ws_pressures srv x y z t in do _ <- throw_if_invalid_status code ; Ok p.
(** SurfaceElevationFromGRPC.cpp:184-222 *)
Definition remote_velocities (srv : wave_server) (x y z : list num) (t : num) : outcome (list (num * num * num)) :=
  let '(code, (vx, vy, vz)) := ws_velocities srv x y z t in
  do _ <- throw_if_invalid_status code ;
  match vx, vy, vz with
  | [a], [b], [c] => Ok [(a, b, c)]
  | _, _, _ => Throw
  end.
(** SurfaceElevationFromGRPC.cpp:252-256: the inner loop, whose index [j] shadows that of the outer loop: the phases read are those of
    row [j] of spectrum [j], and the end of the loop is the number of rows of spectrum [j]. [fuel] bounds the turns. *)
Fixpoint phase_loop (fuel j : nat) (spectra : list wire_spectrum) (phase : list (list num)) : outcome (list (list num)) :=
  match fuel with
  | O => UB
  | S fuel' =>
      do s <- at_ub spectra j ;
      if Nat.ltb j (List.length (ws_phase s)) then
        do row <- at_ub phase j ;
        do r <- at_ub (ws_phase s) j ;
        phase_loop fuel' (S j) spectra (firstn j phase ++ (row ++ r) :: skipn (S j) phase)
      else Ok phase
  end.
(** SurfaceElevationFromGRPC.cpp:238-258: one spectrum *)
Definition decode_one (spectra : list wire_spectrum) (s : wire_spectrum) : outcome wire_spectrum :=
  do phase <- (if Nat.eqb (List.length (ws_phase s)) 0 then Ok []
               else phase_loop (S (List.length spectra)) 0 spectra (repeat [] (List.length (ws_phase s)))) ;
  Ok (mkWS (ws_Si s) (ws_Dj s) (ws_omega s) (ws_psi s) (ws_k s) phase).
Fixpoint decode_all (spectra l : list wire_spectrum) : outcome (list wire_spectrum) :=
  match l with [] => Ok [] | s :: r => do d <- decode_one spectra s ; do ds <- decode_all spectra r ; Ok (d :: ds) end.
(** SurfaceElevationFromGRPC.cpp:224-262 *)
Definition remote_spectra (srv : wave_server) (x y t : num) : outcome (list wire_spectrum) :=
  let '(code, spectra) := ws_spectra srv x y t in do _ <- throw_if_invalid_status code ; decode_all spectra spectra.
(** SurfaceElevationFromGRPC.cpp:327-406 *)
Definition remote_waves (srv : wave_server) : wave_model :=
  mkWM (remote_elevations srv) (fun _ _ x y z _ t => remote_pressures srv x y z t) (fun _ x y z t _ => remote_velocities srv x y z t) (remote_spectra srv).
End Client.
Arguments mkXYT {A}. Arguments g2_x {A}. Arguments g2_y {A}. Arguments g2_t {A}.
Arguments mkXYZT {A}. Arguments g3_x {A}. Arguments g3_y {A}. Arguments g3_z {A}. Arguments g3_t {A}.
Arguments mkPoint {A}. Arguments p_x {A}. Arguments p_y {A}. Arguments p_t {A}.
Arguments mkWR {A}. Arguments wr_elevations {A}. Arguments wr_pressures {A}. Arguments wr_velocities {A}. Arguments wr_spectrum {A}.
Arguments wr_frequencies {A}. Arguments wr_directions {A}. Arguments wr_need_spectrum {A}.
Arguments mkWS {A}. Arguments ws_Si {A}. Arguments ws_Dj {A}. Arguments ws_omega {A}. Arguments ws_psi {A}. Arguments ws_k {A}. Arguments ws_phase {A}.
Arguments mkWM {A}. Arguments wm_height {A}. Arguments wm_pressure {A}. Arguments wm_velocity {A}. Arguments wm_spectra {A}.
Arguments mkEl {A}. Arguments el_x {A}. Arguments el_y {A}. Arguments el_z {A}. Arguments el_t {A}.
Arguments mkPd {A}. Arguments pd_x {A}. Arguments pd_y {A}. Arguments pd_z {A}. Arguments pd_p {A}. Arguments pd_t {A}.
Arguments mkOv {A}. Arguments ov_x {A}. Arguments ov_y {A}. Arguments ov_z {A}. Arguments ov_vx {A}. Arguments ov_vy {A}. Arguments ov_vz {A}. Arguments ov_t {A}.
Arguments mkWI {A}. Arguments wi_elevations {A}. Arguments wi_pressures {A}. Arguments wi_velocities {A}. Arguments wi_spectrum {A}.
Arguments wi_frequencies {A}. Arguments wi_directions {A}.
Arguments mkEnv {A}. Arguments env_w {A}. Arguments env_rho {A}. Arguments env_g {A}.
Arguments mkWSt {A}. Arguments st_t {A}. Arguments st_val {A}. Arguments st_phi {A}. Arguments st_theta {A}. Arguments st_psi {A}.
Arguments mkFR {A}. Arguments fr_states {A}. Arguments fr_commands {A}. Arguments fr_waves {A}. Arguments fr_name {A}.
Arguments mkFS {A}. Arguments Fx {A}. Arguments Fy {A}. Arguments Fz {A}. Arguments Mx {A}. Arguments My {A}. Arguments Mz {A}. Arguments fs_extra {A}.
Arguments mkSrv {A}. Arguments srv_required {A}. Arguments srv_force {A}.
Arguments mkWSrv {A}. Arguments ws_elevations {A}. Arguments ws_pressures {A}. Arguments ws_velocities {A}. Arguments ws_spectra {A}.
