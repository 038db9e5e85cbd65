(** Model of the construction of a simulation from the input file, over exact reals: core/src/SimulatorBuilder.cpp, core/inc/ForceModel.hpp:60-105,
    core/inc/ControllableForceModel.hpp:55-85, core/src/BodyBuilder.cpp:67-95, core/src/update_kinematics.cpp, core/src/yaml2eigen.cpp,
    core/src/Sim.cpp:29-41, yaml_parser/src/check_input_yaml.cpp. The YAML text is already split in sections (yaml-cpp); the constructors of the
    force models and of the wave models are parameters ([p_build]). *)
From Coq Require Import Reals List Arith Bool String.
From Verif Require Import Common Geometry Blocked_Model Sim_Model Matrix_Model Inertia_Model.
Import ListNotations.
Open Scope R_scope.
Open Scope string_scope.

(** external_data_structures/inc/YamlModel.hpp: the name of a model and its own YAML text. *)
Record yaml_model : Type := mkYaml { ym_model : string; ym_yaml : string }.

(** What the builder uses of a force model, controlled or not: what it was made from, the body given to its constructor (get_body_name), how much
    history it needs (get_Tmax) and whether it is a surface force model (ForceModel.hpp:48-60, ControllableForceModel.hpp:47-52). *)
Record force : Type := mkForce { f_model : string; f_yaml : string; f_body : string; f_Tmax : R; f_surface : bool }.

(** [std::map<std::string, X>]: an association list, the last value written for a name is the one found. *)
Section Maps.
Context {A : Type}.
Fixpoint map_get (m : list (string * A)) (k : string) : option A :=
  match m with [] => None | (k', v) :: r => if string_dec k' k then Some v else map_get r k end.
Definition map_set (m : list (string * A)) (k : string) (v : A) : list (string * A) := (k, v) :: m.
End Maps.

(** ** Rotations *)
(** YamlRotation.hpp *)
Record rotations : Type := mkRot { order_by : string; convention : list string }.
(** [a.at(i) == s and ...]: [std::out_of_range] when the vector is too short, evaluated from left to right (yaml2eigen.cpp:38-41). *)
Definition conventions_match (c : list string) (first second third : string) : outcome bool :=
  do a <- at_throw c 0 ;
  if negb (String.eqb a first) then Ok false
  else do b <- at_throw c 1 ;
       if negb (String.eqb b second) then Ok false
       else do d <- at_throw c 2 ; Ok (String.eqb d third).
(** ssc::kinematics::rotation_matrix<INTRINSIC, CHANGING_ANGLE_ORDER, 3, 2, 1> (external): yaw about z, then pitch about the new y, then roll about the
    new x. *)
Definition rotation_matrix_321 (phi theta psi : R) : mat3 :=
  M3 (V3 (cos psi * cos theta) (cos psi * sin theta * sin phi - sin psi * cos phi) (cos psi * sin theta * cos phi + sin psi * sin phi))
     (V3 (sin psi * cos theta) (sin psi * sin theta * sin phi + cos psi * cos phi) (sin psi * sin theta * cos phi - cos psi * sin phi))
     (V3 (- sin theta) (cos theta * sin phi) (cos theta * cos phi)).
(** YamlAngle.hpp *)
Record angles : Type := mkAngles { a_phi : R; a_theta : R; a_psi : R }.
(** yaml2eigen.cpp:19-36 *)
Definition angle2matrix (a : angles) (r : rotations) : outcome mat3 :=
  if String.eqb (order_by r) "angle" then
    do m <- conventions_match (convention r) "z" "y'" "x''" ;
    if m then Ok (rotation_matrix_321 (a_phi a) (a_theta a) (a_psi a)) else Throw
  else Throw.
(** check_input_yaml.cpp:26-41 *)
Definition is_an_axis (name : string) : bool :=
  if (String.eqb name "x" || String.eqb name "x'" || String.eqb name "x''")%bool then true
  else if (String.eqb name "y" || String.eqb name "y'" || String.eqb name "y''")%bool then true
  else if (String.eqb name "z" || String.eqb name "z'" || String.eqb name "z''")%bool then true
  else false.
(** check_input_yaml.cpp:43-67: the errors are collected, then thrown; [.at] throws at once. *)
Definition check_rotations (r : rotations) : outcome unit :=
  let e0 := negb (Nat.eqb (List.length (convention r)) 3) in
  do a <- at_throw (convention r) 0 ;
  do b <- at_throw (convention r) 1 ;
  do c <- at_throw (convention r) 2 ;
  let errors := (e0 || negb (is_an_axis a) || negb (is_an_axis b) || negb (is_an_axis c) ||
                 (negb (String.eqb (order_by r) "angle") && negb (String.eqb (order_by r) "axis")))%bool in
  if errors then Throw else Ok tt.

(** Eigen::Quaternion<double>(const Matrix3d&) (Eigen, external, algorithm of Geometry/Quaternion.h, internal::quaternionbase_assign_impl): the real part
    first when the trace is positive, else the component of the largest diagonal element. Returns (w, x, y, z). *)
Definition quaternion_of (m : mat3) : R * R * R * R :=
  let '(M3 (V3 m00 m01 m02) (V3 m10 m11 m12) (V3 m20 m21 m22)) := m in
  let t := m00 + m11 + m22 in
  if Rltb 0 t then
    let s := sqrt (t + 1) in
    let h := / 2 / s in
    (/ 2 * s, (m21 - m12) * h, (m02 - m20) * h, (m10 - m01) * h)
  else
    let i1 := Rltb m00 m11 in
    let i2 := Rltb (if i1 then m11 else m00) m22 in
    if i2 then
      let s := sqrt (m22 - m00 - m11 + 1) in let h := / 2 / s in
      ((m10 - m01) * h, (m02 + m20) * h, (m12 + m21) * h, / 2 * s)
    else if i1 then
      let s := sqrt (m11 - m22 - m00 + 1) in let h := / 2 / s in
      ((m02 - m20) * h, (m01 + m10) * h, / 2 * s, (m21 + m12) * h)
    else
      let s := sqrt (m00 - m11 - m22 + 1) in let h := / 2 / s in
      ((m21 - m12) * h, / 2 * s, (m10 + m01) * h, (m20 + m02) * h).

(** ** The input *)
Record velocity : Type := mkVelocity { v_u : R; v_v : R; v_w : R; v_p : R; v_q : R; v_r : R }.
Section Builder.
(** Environment given to the constructors, wave models, meshes, contents of the section "blocked dof" and the object built from it (C14-C16). *)
Context {Env Wave Mesh Dof Blocked : Type}.
Variable blocked_dof : Dof -> nat -> outcome Blocked.
(** YamlBody.hpp: what the builder reads. [y_mesh] is the STL file already read (SimulatorBuilder.cpp:282-290). *)
Record yaml_body : Type := mkBody0 {
  y_name : string; y_mesh : outcome Mesh;
  y_mesh_position : vec3; y_mesh_angle : angles;
  y_position : vec3; y_angle : angles; y_velocity : velocity;
  y_inertia : rows6; y_added : added_mass; y_blocked : Dof;
  y_external : list yaml_model; y_controlled : list yaml_model }.
(** YamlSimulatorInput.hpp *)
Record yaml_input : Type := mkInput0 { y_rotations : rotations; y_bodies : list yaml_body; y_environment : list yaml_model }.

(** ** Parsers *)
(** ForceModel.hpp:60-105, ControllableForceModel.hpp:55-85: a model is built when the name is the one of the class; an invalid text throws. [p_build] is
    the parsing of the text and the constructor: it gives get_Tmax and is_a_surface_force_model. *)
Record parser : Type := mkParser { p_name : string; p_build : Env -> string -> string -> outcome (R * bool) }.
Definition try_to_parse (p : parser) (model : yaml_model) (body_name : string) (env : Env) : outcome (option force) :=
  if String.eqb (ym_model model) (p_name p) then
    do x <- p_build p env (ym_yaml model) body_name ;
    Ok (Some (mkForce (ym_model model) (ym_yaml model) body_name (fst x) (snd x)))
  else Ok None.
(** SimulatorBuilder.cpp:186-207 and 209-229: every parser is tried; it is an error when none accepts the model. The parsers of the other section are then
    tried too (could_parse, lines 162-184), but only to choose the text of the error: not modelled. *)
Fixpoint add_loop (parsers : list parser) (model : yaml_model) (L : list force) (body_name : string) (env : Env) (parsed : bool) : outcome (list force * bool) :=
  match parsers with
  | [] => Ok (L, parsed)
  | p :: r =>
    do f <- try_to_parse p model body_name env ;
    match f with Some x => add_loop r model (L ++ [x])%list body_name env true | None => add_loop r model L body_name env parsed end
  end.
Definition add (parsers : list parser) (model : yaml_model) (L : list force) (body_name : string) (env : Env) : outcome (list force) :=
  do r <- add_loop parsers model L body_name env false ;
  if snd r then Ok (fst r) else Throw.
(** SimulatorBuilder.cpp:142-150 and 152-160 *)
Fixpoint forces_from (parsers : list parser) (models : list yaml_model) (L : list force) (body_name : string) (env : Env) : outcome (list force) :=
  match models with [] => Ok L | m :: r => do L' <- add parsers m L body_name env ; forces_from parsers r L' body_name env end.
(** SimulatorBuilder.cpp:104-112 and 132-140; [section] selects the list of models of the body. *)
Fixpoint get_forces (parsers : list parser) (section : yaml_body -> list yaml_model) (bodies : list yaml_body) (env : Env) : outcome (list (list force)) :=
  match bodies with
  | [] => Ok []
  | b :: r => do l <- forces_from parsers (section b) [] (y_name b) env ; do ls <- get_forces parsers section r env ; Ok (l :: ls)
  end.
(** SimulatorBuilder.cpp:73-102. The parsers of wave models return an optional object, as above. *)
Record wave_parser : Type := mkWaveParser { wp_name : string; wp_build : string -> outcome Wave }.
Fixpoint wave_loop (parsers : list wave_parser) (model : yaml_model) (ret : option Wave) (parsed : bool) : outcome (option Wave * bool) :=
  match parsers with
  | [] => Ok (ret, parsed)
  | p :: r =>
    if String.eqb (ym_model model) (wp_name p) then
      do w <- wp_build p (ym_yaml model) ;
      match ret with Some _ => Throw | None => wave_loop r model (Some w) true end
    else wave_loop r model ret parsed
  end.
Fixpoint wave_models (parsers : list wave_parser) (models : list yaml_model) (ret : option Wave) : outcome (option Wave) :=
  match models with
  | [] => Ok ret
  | m :: r => do x <- wave_loop parsers m ret false ; if snd x then wave_models parsers r (fst x) else Throw
  end.
Definition get_wave (parsers : list wave_parser) (models : list yaml_model) : outcome (option Wave) :=
  match parsers with [] => Throw | _ => wave_models parsers models None end.

(** ** Bodies *)
(** SimulatorBuilder.cpp:114-130; [std::max(a, b)] is [if a < b then b else a]. *)
Definition std_max (a b : R) : R := if Rltb a b then b else a.
Definition longest (forces : list force) : R := fold_left (fun T f => std_max T (f_Tmax f)) forces 0.
Definition record_external (ret : list (string * R)) (forces : list force) : list (string * R) :=
  match forces with [] => ret | f :: _ => map_set ret (f_body f) (longest forces) end.
(** [ret[name]] creates a zero when the name is absent *)
Definition history_of (ret : list (string * R)) (name : string) : R := match map_get ret name with Some T => T | None => 0 end.
Definition record_controlled (ret : list (string * R)) (forces : list force) : list (string * R) :=
  match forces with [] => ret | f :: _ => map_set ret (f_body f) (std_max (longest forces) (history_of ret (f_body f))) end.
Definition get_max_history_length (forces controlled : list (list force)) : list (string * R) :=
  fold_left record_controlled controlled (fold_left record_external forces []).
(** SimulatorBuilder.cpp:231-244 *)
Definition are_there_surface_forces_acting_on_body (forces : list (list force)) : list bool :=
  map (fun l => fold_left (fun b f => (b || f_surface f)%bool) l false) forces.
(** SimulatorBuilder.cpp:272-280: the meshes are stored under the name of the body. *)
Fixpoint make_mesh_map (bodies : list yaml_body) (ret : list (string * Mesh)) : outcome (list (string * Mesh)) :=
  match bodies with [] => Ok ret | b :: r => do m <- y_mesh b ; make_mesh_map r (map_set ret (y_name b) m) end.
(** BodyBuilder.cpp:67-95: what is kept of a body; the velocities are the only states recorded at t0. [b_frame] is mesh<-body. *)
Record built_body : Type := mkBuilt {
  b_name : string; b_idx : nat; b_Tmax : R; b_mesh : Mesh; b_frame : transform; b_inertia : inertia;
  b_velocity : velocity; b_blocked : Blocked; b_surface : bool }.
Definition build_body (input : yaml_body) (mesh : Mesh) (idx : nat) (c : rotations) (Tmax : R) (has_surface_forces : bool) : outcome built_body :=
  do rot <- angle2matrix (y_mesh_angle input) c ;
  do i <- add_inertia (y_inertia input) (y_added input) ;
  do blocked <- blocked_dof (y_blocked input) idx ;
  Ok (mkBuilt (y_name input) idx Tmax mesh (mkT rot (y_mesh_position input)) i (y_velocity input) blocked has_surface_forces).
(** SimulatorBuilder.cpp:31-49 *)
Fixpoint get_bodies (c : rotations) (bodies : list yaml_body) (meshes : list (string * Mesh)) (surface : list bool) (history : list (string * R)) (i : nat)
  : outcome (list built_body) :=
  match bodies with
  | [] => Ok []
  | b :: r =>
    match map_get meshes (y_name b) with
    | None => Throw
    | Some mesh =>
      do s <- at_throw surface i ;
      do x <- build_body b mesh i c (history_of history (y_name b)) s ;
      do xs <- get_bodies c r meshes surface history (i + 1) ;
      Ok (x :: xs)
    end
  end.
(** update_kinematics.cpp:19-44 *)
Definition initial_state (c : rotations) (b : yaml_body) (i : nat) : outcome (list (nat * R)) :=
  do m <- angle2matrix (y_angle b) c ;
  let '(w, x, y, z) := quaternion_of m in
  let n := sqrt (w * w + x * x + y * y + z * z) in
  let v := y_velocity b in
  Ok [(XIDX i, vx (y_position b)); (YIDX i, vy (y_position b)); (ZIDX i, vz (y_position b));
      (UIDX i, v_u v); (VIDX i, v_v v); (WIDX i, v_w v); (PIDX i, v_p v); (QIDX i, v_q v); (RIDX i, v_r v);
      (QRIDX i, w / n); (QIIDX i, x / n); (QJIDX i, y / n); (QKIDX i, z / n)].
Fixpoint initial_loop (c : rotations) (bodies : list yaml_body) (i : nat) (ret : list R) : outcome (list R) :=
  match bodies with
  | [] => Ok ret
  | b :: r => do l <- initial_state c b i ; do ret' <- set_all ret l ; initial_loop c r (i + 1) ret'
  end.
Definition get_initial_states (c : rotations) (bodies : list yaml_body) : outcome (list R) :=
  initial_loop c bodies 0 (repeat 0 (13 * List.length bodies)).

(** ** The simulation *)
(** Sim.cpp:29-41: the forces are stored under the name of the body. *)
Record sim : Type := mkSim {
  s_bodies : list built_body; s_forces : list (string * list force); s_controlled : list (string * list force); s_state : list R; s_wave : option Wave }.
Fixpoint index_forces (bodies : list built_body) (forces controlled : list (list force)) (i : nat) (ret : list (string * list force) * list (string * list force))
  : outcome (list (string * list force) * list (string * list force)) :=
  match bodies with
  | [] => Ok ret
  | b :: r =>
    do f <- at_throw forces i ; do c <- at_throw controlled i ;
    index_forces r forces controlled (i + 1) (map_set (fst ret) (b_name b) f, map_set (snd ret) (b_name b) c)
  end.
(** Forces summed for a body (Sim.cpp:151 and 168): those found under its name. *)
Definition forces_on (m : list (string * list force)) (name : string) : list force := match map_get m name with Some l => l | None => [] end.
(** SimulatorBuilder.cpp:61-71 and 246-265; [make_env] is the environment given to the force models (gravity, density, waves, frames). The controlled forces
    are built twice (lines 250 and 254), the second ones are used. *)
Definition build_with (make_env : option Wave -> Env) (waves : list wave_parser) (external controllable : list parser) (input : yaml_input)
  (meshes : list (string * Mesh)) : outcome sim :=
  do w <- get_wave waves (y_environment input) ;
  let env := make_env w in
  do forces <- get_forces external y_external (y_bodies input) env ;
  do controlled <- get_forces controllable y_controlled (y_bodies input) env ;
  let history := get_max_history_length forces controlled in
  do bodies <- get_bodies (y_rotations input) (y_bodies input) meshes (are_there_surface_forces_acting_on_body forces) history 0 ;
  do _ <- get_initial_states (y_rotations input) (y_bodies input) ;
  do controlled2 <- get_forces controllable y_controlled (y_bodies input) env ;
  do x <- get_initial_states (y_rotations input) (y_bodies input) ;
  do fs <- index_forces bodies forces controlled2 0 ([], []) ;
  Ok (mkSim bodies (fst fs) (snd fs) x w).
Definition build (make_env : option Wave -> Env) (waves : list wave_parser) (external controllable : list parser) (input : yaml_input) : outcome sim :=
  do meshes <- make_mesh_map (y_bodies input) [] ;
  build_with make_env waves external controllable input meshes.
End Builder.

(** The models known to the simulator (observers_and_api/src/simulator_api.cpp:43-72, [can_parse] chooses the list from the base class of the model; names: the functions
    model_name of each class). *)
Definition external_names : list string :=
  ["gravity"; "non-linear hydrostatic (exact)"; "non-linear hydrostatic (fast)"; "non-linear Froude-Krylov"; "hydrostatic"; "linear damping";
   "resistance curve"; "diffraction"; "radiation damping"; "quadratic damping"; "GM"; "constant force"; "linear hydrostatics"].
Definition controllable_names : list string :=
  ["wageningen B-series"; "simple heading controller"; "maneuvering"; "simple station-keeping controller"; "propeller+rudder"; "Kt(J) & Kq(J)"; "grpc"].
Definition wave_names : list string := ["no waves"; "waves"; "grpc"].
