(** Model of the reading of the input file: yaml_parser/src/external_data_structures_parsers.cpp, yaml_parser/src/parse_commands.cpp,
    yaml_parser/src/SimulatorYamlParser.cpp, yaml_parser/src/environment_parsers.cpp (without the unused checks_on_p1_p2_m) and the structures of
    external_data_structures/inc. The text is already a tree (yaml-cpp 0.3, external); numbers and units are read by yaml-cpp and ssc (external):
    parameters [dbl], [int_of], [factor], [mul]. Exceptions carry no message. *)
From Coq Require Import List Arith Bool String Ascii ZArith.
From Verif Require Import Common Blocked_Model Builder_Model Hdf5_Mesh_Model.
Import ListNotations.
Open Scope string_scope.

(** YAML::Node (yaml-cpp, external). A mapping is the content of its std::map, keys read as strings. *)
Inductive yaml : Type :=
| Null
| Scalar (s : string)
| Seq (l : list yaml)
| Map (l : list (string * yaml)).

(** YAML::Node::size *)
Definition size (n : yaml) : nat := match n with Seq l => List.length l | Map l => List.length l | _ => 0 end.
Fixpoint find_entry (l : list (string * yaml)) (k : string) : option yaml :=
  match l with [] => None | (k', v) :: r => if String.eqb k' k then Some v else find_entry r k end.
(** YAML::Node::FindValue(std::string): the null pointer unless the node is a mapping with this key. *)
Definition FindValue (n : yaml) (k : string) : option yaml := match n with Map l => find_entry l k | _ => None end.
(** YAML::Node::operator[](std::string): throws when there is no such key. *)
Definition get (n : yaml) (k : string) : outcome yaml := match FindValue n k with Some v => Ok v | None => Throw end.
(** [node >> std::string]: YAML::Node::GetScalar is "~" for a null node, refuses the sequences and the mappings. *)
Definition read_string (n : yaml) : outcome string :=
  match n with Scalar s => Ok s | Null => Ok "~" | _ => Throw end.
(** Apply a reader to an optional key, keeping the default otherwise (external_data_structures_parsers.hpp:32-36, SimulatorYamlParser.cpp:19-23). *)
Definition try_to_parse {A} (n : yaml) (k : string) (read : yaml -> outcome A) (default : A) : outcome A :=
  match FindValue n k with Some v => read v | None => Ok default end.

Section Reading.
Variable D : Type.
Variable zero : D.
Variable mul : D -> D -> D.
Variable dbl : string -> option D.
Variable int_of : string -> option Z.
(** The SI value of one unit, ssc::units (external) *)
Variable factor : string -> option D.

(** [node >> double] *)
Definition read_double (n : yaml) : outcome D :=
  do s <- read_string n; match dbl s with Some d => Ok d | None => Throw end.
(** [node >> int] *)
Definition read_int (n : yaml) : outcome Z :=
  do s <- read_string n; match int_of s with Some d => Ok d | None => Throw end.
(** YAML::Node::operator[](int) on a mapping: the first key that reads as this integer. *)
Fixpoint find_int (l : list (string * yaml)) (i : Z) : outcome yaml :=
  match l with [] => Throw | (k, v) :: r =>
    if match int_of k with Some j => Z.eqb j i | None => false end then Ok v else find_int r i end.
(** The elements that [node >> std::vector] reads, node[0] .. node[size-1]: no element for a scalar or a null node. *)
Definition items (n : yaml) : outcome (list yaml) :=
  match n with
  | Seq l => Ok l
  | Map l => traverse (fun i => find_int l (Z.of_nat i)) (seq 0 (List.length l))
  | _ => Ok []
  end.
Definition read_vector {A} (read : yaml -> outcome A) (n : yaml) : outcome (list A) := do l <- items n; traverse read l.
(** ssc::yaml_parser::parse_uv(node, double&) (ssc, external): {value, unit}. *)
Definition parse_uv (n : yaml) : outcome D :=
  do v <- get n "value"; do d <- read_double v; do u <- get n "unit"; do s <- read_string u;
  match factor s with Some f => Ok (mul d f) | None => Throw end.
(** ssc::yaml_parser::parse_uv(node, std::vector<double>&) (ssc, external): {values, unit}. *)
Definition parse_uvs (n : yaml) : outcome (list D) :=
  do v <- get n "values"; do d <- read_vector read_double v; do u <- get n "unit"; do s <- read_string u;
  match factor s with Some f => Ok (map (fun d => mul d f) d) | None => Throw end.
(** parse_uv(node[key], x) *)
Definition uv (n : yaml) (k : string) : outcome D := do v <- get n k; parse_uv v.
(** node[key] >> x *)
Definition string_at (n : yaml) (k : string) : outcome string := do v <- get n k; read_string v.
Definition double_at (n : yaml) (k : string) : outcome D := do v <- get n k; read_double v.
Definition doubles_at (n : yaml) (k : string) : outcome (list D) := do v <- get n k; read_vector read_double v.

(** external_data_structures_parsers.cpp:14-34 *)
Definition try_to_parse_positive_integer (n : yaml) (k : string) : outcome Z :=
  do v <- get n k; do x <- read_int v; if Z.ltb x 0 then Throw else Ok x.

(** ** Rotations *)
(** [std::string::find(f, pos)] then [replace]: external_data_structures_parsers.cpp:45-53, for a non-empty [f] that does not occur in [r]; the search
    goes on after the replacement. *)
Fixpoint prefix_of (f s : string) : option string :=
  match f, s with
  | EmptyString, _ => Some s
  | String a f, String b s => if Ascii.eqb a b then prefix_of f s else None
  | _, EmptyString => None
  end.
Fixpoint search_and_replace_fuel (fuel : nat) (source f r : string) : string :=
  match fuel with
  | O => source
  | S fuel =>
    match prefix_of f source with
    | Some rest => r ++ search_and_replace_fuel fuel rest f r
    | None => match source with EmptyString => EmptyString | String c s => String c (search_and_replace_fuel fuel s f r) end
    end
  end.
Definition search_and_replace (source f r : string) : string := search_and_replace_fuel (S (String.length source)) source f r.
(** [si.substr(0, si.find_first_of('\''))] *)
Fixpoint before_apostrophe (s : string) : string :=
  match s with EmptyString => EmptyString | String c s => if Ascii.eqb c "'" then EmptyString else String c (before_apostrophe s) end.
Definition one_of (s a b c : string) : bool := (String.eqb s a || String.eqb s b || String.eqb s c)%bool.
(** The body of the loop, external_data_structures_parsers.cpp:68-96: the flags persist from one element to the next. *)
Definition rotation_step (st : bool * bool * list string) (si : string) : outcome (bool * bool * list string) :=
  let '(axis, angle, conv) := st in
  if Nat.ltb 7 (String.length si) then Throw else
  let base := before_apostrophe si in
  let axis := (axis || one_of base "x" "y" "z")%bool in
  let is_angle := one_of base "phi" "theta" "psi" in
  let angle := (angle || is_angle)%bool in
  let si := if is_angle then search_and_replace (search_and_replace (search_and_replace si "phi" "x") "theta" "y") "psi" "z" else si in
  if (axis || angle)%bool then Ok (axis, angle, (conv ++ [si])%list) else Throw.
Fixpoint rotation_loop (l : list string) (st : bool * bool * list string) : outcome (bool * bool * list string) :=
  match l with [] => Ok st | si :: l => do st' <- rotation_step st si; rotation_loop l st' end.
(** external_data_structures_parsers.cpp:55-99 *)
Definition read_rotations (n : yaml) : outcome rotations :=
  do s <- read_vector read_string n;
  if Nat.eqb (List.length s) 3 then
    do st <- rotation_loop s (false, false, []);
    let '(axis, angle, conv) := st in
    let order := if axis then "axis" else "" in
    let order := if angle then "angle" else order in
    Ok (mkRot order conv)
  else Throw.

(** ** Structures *)
(** YamlCoordinates.hpp, YamlAngle.hpp, YamlPoint.hpp, YamlPosition.hpp, YamlSpeed.hpp *)
Record coordinates : Type := mkCoord { y_x : D; y_y : D; y_z : D }.
Record yangle : Type := mkAngle { y_phi : D; y_theta : D; y_psi : D }.
Record point : Type := mkPoint { pt_name : string; pt_frame : string; pt_at : coordinates }.
Record position : Type := mkPosition { pos_frame : string; pos_at : coordinates; pos_angle : yangle }.
Record speed : Type := mkSpeed { sp_frame : string; sp_u : D; sp_v : D; sp_w : D; sp_p : D; sp_q : D; sp_r : D }.
(** YamlDynamics6x6Matrix.hpp *)
Record matrix6 : Type := mkMatrix6 { m_from_file : bool; m_hdb : string; m_frame : string; m_rows : list (list D) }.
(** YamlDynamics.hpp *)
Record dynamics : Type := mkDynamics { d_centre : point; d_inertia : matrix6; d_added : matrix6; d_hydro : coordinates }.
(** YamlBody.hpp: the blocked degrees of freedom, as Blocked_Model but with times and values still read by nobody. *)
Inductive blockable : Type := BU | BV | BW | BP | BQ | BR.
Inductive interpolation : Type := PiecewiseConstant | Linear | Spline.
Record dof (T : Type) : Type := mkDof { dof_state : blockable; dof_t : T; dof_value : T; dof_interp : interpolation }.
Record csv_dof : Type := mkCsv { csv_dof_of : dof string; csv_filename : string }.
Record blocked_dof : Type := mkBlockedDof { from_yaml : list (dof (list D)); from_csv : list csv_dof }.
(** YamlModel.hpp: the node stands for the text the emitter writes (yaml-cpp, external); the line number, used in error messages only, is left out. *)
Record model : Type := mkModel { mod_name : string; mod_yaml : yaml }.
Record body : Type := mkBody { b_name : string; b_mesh : string; b_mesh_position : position; b_position : position; b_speed : speed;
                               b_dynamics : dynamics; b_external : list model; b_controlled : list model; b_blocked : blocked_dof }.
(** YamlEnvironmentalConstants.hpp, YamlCommands.hpp (a std::map: an association list with the last value written first), YamlSimulatorInput.hpp *)
Record constants : Type := mkConstants { ec_g : D; ec_rho : D; ec_nu : D }.
Record commands : Type := mkCommands { c_name : string; c_t : list D; c_values : list (string * list D) }.
Record input : Type := mkInput { i_rotations : rotations; i_constants : constants; i_environment : list model; i_bodies : list body;
                                 i_commands : list commands }.

(** external_data_structures_parsers.cpp:145-150, 138-143, 131-136, 152-161 *)
Definition read_coordinates (n : yaml) : outcome coordinates :=
  do x <- uv n "x"; do y <- uv n "y"; do z <- uv n "z"; Ok (mkCoord x y z).
Definition read_angle (n : yaml) : outcome yangle :=
  do a <- uv n "phi"; do b <- uv n "theta"; do c <- uv n "psi"; Ok (mkAngle a b c).
Definition read_position (n : yaml) : outcome position :=
  do a <- read_angle n; do c <- read_coordinates n; do f <- string_at n "frame"; Ok (mkPosition f c a).
Definition read_speed (n : yaml) : outcome speed :=
  do f <- string_at n "frame"; do u <- uv n "u"; do v <- uv n "v"; do w <- uv n "w"; do p <- uv n "p"; do q <- uv n "q"; do r <- uv n "r";
  Ok (mkSpeed f u v w p q r).
(** external_data_structures_parsers.cpp:36-43 and 213-218 *)
Definition parse_point_with_name (n : yaml) (name : string) : outcome point :=
  do c <- read_coordinates n; do f <- string_at n "frame"; Ok (mkPoint name f c).
Definition read_point (n : yaml) : outcome point := do name <- string_at n "name"; parse_point_with_name n name.
Definition has (n : yaml) (k : string) : bool := match FindValue n k with Some _ => true | None => false end.
(** external_data_structures_parsers.cpp:220-253 *)
Definition parse_matrix6 (n : yaml) (parse_frame : bool) (frame_name : string) : outcome matrix6 :=
  match FindValue n "from hdb" with
  | Some p =>
    if (has n "row 1" || has n "row 2" || has n "row 3" || has n "row 4" || has n "row 5" || has n "row 6")%bool then Throw
    else do h <- read_string p; Ok (mkMatrix6 true h "" [[]; []; []; []; []; []])
  | None =>
    do f <- (if parse_frame then string_at n "frame" else Ok frame_name);
    do r1 <- doubles_at n "row 1"; do r2 <- doubles_at n "row 2"; do r3 <- doubles_at n "row 3";
    do r4 <- doubles_at n "row 4"; do r5 <- doubles_at n "row 5"; do r6 <- doubles_at n "row 6";
    Ok (mkMatrix6 false "" f [r1; r2; r3; r4; r5; r6])
  end.
(** external_data_structures_parsers.cpp:163-211 *)
Definition at_buoyancy_or_gravity (n : yaml) (what : string) (frame : string) : outcome matrix6 :=
  match FindValue n (what ++ " matrix at the center of buoyancy projected in the body frame") with
  | Some m => parse_matrix6 m false frame
  | None => do m <- get n (what ++ " matrix at the center of gravity and projected in the body frame"); parse_matrix6 m false frame
  end.
Definition read_dynamics (n : yaml) : outcome dynamics :=
  do c <- get n "centre of inertia"; do c <- parse_point_with_name c "centre of inertia";
  do i <- at_buoyancy_or_gravity n "rigid body inertia" (pt_frame c);
  do a <- at_buoyancy_or_gravity n "added mass" (pt_frame c);
  do h <- get n "hydrodynamic forces calculation point in body frame"; do h <- read_coordinates h;
  Ok (mkDynamics c i a h).
(** external_data_structures_parsers.cpp:262-316 *)
Definition read_state (n : yaml) : outcome blockable :=
  do t <- read_string n;
  if String.eqb t "u" then Ok BU else if String.eqb t "v" then Ok BV else if String.eqb t "w" then Ok BW
  else if String.eqb t "p" then Ok BP else if String.eqb t "q" then Ok BQ else if String.eqb t "r" then Ok BR else Throw.
Definition read_interpolation (n : yaml) : outcome interpolation :=
  do t <- read_string n;
  if String.eqb t "piecewise constant" then Ok PiecewiseConstant else if String.eqb t "linear" then Ok Linear
  else if String.eqb t "spline" then Ok Spline else Throw.
Definition read_csv_dof (n : yaml) : outcome csv_dof :=
  do f <- string_at n "filename"; do i <- get n "interpolation"; do i <- read_interpolation i; do s <- get n "state"; do s <- read_state s;
  do t <- string_at n "t"; do v <- string_at n "value"; Ok (mkCsv (mkDof string s t v i) f).
Definition read_yaml_dof (n : yaml) : outcome (dof (list D)) :=
  do i <- get n "interpolation"; do i <- read_interpolation i; do s <- get n "state"; do s <- read_state s;
  do t <- doubles_at n "t"; do v <- doubles_at n "value"; Ok (mkDof (list D) s t v i).
Definition no_blocked_dof : blocked_dof := mkBlockedDof [] [].
Definition read_blocked_dof (n : yaml) : outcome blocked_dof :=
  do c <- try_to_parse n "from CSV" (read_vector read_csv_dof) [];
  do y <- try_to_parse n "from YAML" (read_vector read_yaml_dof) [];
  Ok (mkBlockedDof y c).
(** external_data_structures_parsers.cpp:318-333 *)
Definition parse_blocked_dof (n : yaml) : outcome blocked_dof :=
  if Nat.eqb (size n) 0 then Ok no_blocked_dof else try_to_parse n "blocked dof" read_blocked_dof no_blocked_dof.
(** external_data_structures_parsers.cpp:121-129 *)
Definition read_model (n : yaml) : outcome model := do m <- string_at n "model"; Ok (mkModel m n).
(** external_data_structures_parsers.cpp:101-119 *)
Definition read_body (n : yaml) : outcome body :=
  do name <- string_at n "name";
  do mesh <- try_to_parse n "mesh" read_string "";
  do ext <- try_to_parse n "external forces" (read_vector read_model) [];
  do con <- try_to_parse n "controlled forces" (read_vector read_model) [];
  do pm <- get n "position of body frame relative to mesh"; do pm <- read_position pm;
  do pn <- get n "initial position of body frame relative to NED"; do pn <- read_position pn;
  do sp <- get n "initial velocity of body frame relative to NED"; do sp <- read_speed sp;
  do dy <- get n "dynamics"; do dy <- read_dynamics dy;
  do bl <- try_to_parse n "blocked dof" read_blocked_dof no_blocked_dof;
  Ok (mkBody name mesh pm pn sp dy ext con bl).
(** external_data_structures_parsers.cpp:255-260 *)
Definition read_constants (n : yaml) : outcome constants :=
  do g <- uv n "g"; do rho <- uv n "rho"; do nu <- uv n "nu"; Ok (mkConstants g rho nu).

(** parse_commands.cpp:13-35: every key of the mapping but two. *)
Fixpoint commands_loop (n : yaml) (keys : list string) (acc : list (string * list D)) : outcome (list (string * list D)) :=
  match keys with
  | [] => Ok acc
  | key :: keys =>
    if (String.eqb key "name" || String.eqb key "t")%bool then commands_loop n keys acc
    else do v <- get n key; do values <- parse_uvs v; commands_loop n keys (map_set acc key values)
  end.
Definition keys_of (n : yaml) : list string := match n with Map l => map fst l | _ => [] end.
Definition read_commands (n : yaml) : outcome commands :=
  do name <- string_at n "name"; do t <- doubles_at n "t"; do values <- commands_loop n (keys_of n) []; Ok (mkCommands name t values).
(** parse_commands.cpp:37-46 *)
Definition parse_command_yaml (n : yaml) : outcome (list commands) := do c <- get n "commands"; read_vector read_commands c.

(** SimulatorYamlParser.cpp:25-40 *)
Definition parse_simulator (n : yaml) : outcome input :=
  if Nat.eqb (size n) 0 then Throw else
  do ec <- try_to_parse n "environmental constants" read_constants (mkConstants zero zero zero);
  do bodies <- try_to_parse n "bodies" (read_vector read_body) [];
  do r <- get n "rotations convention"; do r <- read_rotations r;
  do env <- try_to_parse n "environment models" (read_vector read_model) [];
  do com <- try_to_parse n "commands" (read_vector read_commands) [];
  Ok (mkInput r ec env bodies com).

(** ** Waves *)
(** YamlWaveOutput.hpp, YamlWaveModelInput.hpp, YamlGRPC.hpp *)
Record wave_output : Type := mkWaveOutput { wo_frame : string; wo_xmin : D; wo_xmax : D; wo_nx : Z; wo_ymin : D; wo_ymax : D; wo_ny : Z }.
Definition no_wave_output : wave_output := mkWaveOutput "" zero zero 0 zero zero 0.
Record discretization : Type := mkDiscretization { di_n : Z; di_min : D; di_max : D; di_energy : D }.
Record stretching : Type := mkYStretching { st_h : D; st_delta : D }.
Record spectra : Type := mkSpectra { s_model : string; s_yaml : yaml; s_spreading_type : string; s_spreading : yaml; s_density_type : string;
                                     s_density : yaml; s_stretching : stretching; s_depth : D }.
Record wave_model : Type := mkWaveModel { wm_discretization : discretization; wm_spectra : list spectra; wm_output : wave_output }.
Record default_wave_model : Type := mkDefaultWave { dw_z : D; dw_output : wave_output }.
Record grpc_model : Type := mkGrpcModel { gm_url : string; gm_output : wave_output; gm_yaml : yaml }.

(** environment_parsers.cpp:141-150, one assignment after the other: what has been read before an error stays in the structure. *)
Definition wave_output_steps (n : yaml) : list (wave_output -> outcome wave_output) :=
  let mesh k := do m <- get n "mesh"; uv m k in
  let count k := do m <- get n "mesh"; try_to_parse_positive_integer m k in
  [ fun g => do f <- string_at n "frame of reference"; Ok (mkWaveOutput f (wo_xmin g) (wo_xmax g) (wo_nx g) (wo_ymin g) (wo_ymax g) (wo_ny g));
    fun g => do x <- mesh "xmin"; Ok (mkWaveOutput (wo_frame g) x (wo_xmax g) (wo_nx g) (wo_ymin g) (wo_ymax g) (wo_ny g));
    fun g => do x <- mesh "xmax"; Ok (mkWaveOutput (wo_frame g) (wo_xmin g) x (wo_nx g) (wo_ymin g) (wo_ymax g) (wo_ny g));
    fun g => do x <- count "nx"; Ok (mkWaveOutput (wo_frame g) (wo_xmin g) (wo_xmax g) x (wo_ymin g) (wo_ymax g) (wo_ny g));
    fun g => do x <- mesh "ymin"; Ok (mkWaveOutput (wo_frame g) (wo_xmin g) (wo_xmax g) (wo_nx g) x (wo_ymax g) (wo_ny g));
    fun g => do x <- mesh "ymax"; Ok (mkWaveOutput (wo_frame g) (wo_xmin g) (wo_xmax g) (wo_nx g) (wo_ymin g) x (wo_ny g));
    fun g => do x <- count "ny"; Ok (mkWaveOutput (wo_frame g) (wo_xmin g) (wo_xmax g) (wo_nx g) (wo_ymin g) (wo_ymax g) x) ].
(** The structure when the reading ends, and whether it ended with an exception. *)
Fixpoint run_steps (steps : list (wave_output -> outcome wave_output)) (g : wave_output) : wave_output * bool :=
  match steps with [] => (g, false) | f :: r => match f g with Ok g' => run_steps r g' | _ => (g, true) end end.
(** [node["output"] >> ret.output] in a try block that ignores the exceptions (environment_parsers.cpp:32-38, 397-403). *)
Definition output_or_nothing (n : yaml) : wave_output :=
  match get n "output" with Ok o => fst (run_steps (wave_output_steps o) no_wave_output) | _ => no_wave_output end.
(** environment_parsers.cpp:24-40 *)
Definition parse_default_wave_model (n : yaml) : outcome default_wave_model :=
  do z <- uv n "constant sea elevation in NED frame"; Ok (mkDefaultWave z (output_or_nothing n)).
(** environment_parsers.cpp:86-92, 94-116, 126-139 *)
Definition read_discretization (n : yaml) : outcome discretization :=
  do k <- try_to_parse_positive_integer n "n"; do lo <- uv n "omega min"; do hi <- uv n "omega max"; do e <- double_at n "energy fraction";
  Ok (mkDiscretization k lo hi e).
Definition read_stretching (n : yaml) : outcome stretching := do h <- uv n "h"; do d <- double_at n "delta"; Ok (mkYStretching h d).
Definition read_spectra (n : yaml) : outcome spectra :=
  do m <- string_at n "model";
  do sp <- get n "directional spreading"; do spt <- string_at sp "type";
  do de <- get n "spectral density"; do det <- string_at de "type";
  do st <- get n "stretching"; do st <- read_stretching st;
  do depth <- uv n "depth";
  Ok (mkSpectra m n spt sp det de st depth).
(** environment_parsers.cpp:42-84 *)
Definition read_wave_output (n : yaml) : outcome wave_output :=
  let '(g, failed) := run_steps (wave_output_steps n) no_wave_output in if failed then Throw else Ok g.
Definition parse_waves (n : yaml) : outcome wave_model :=
  do d <- get n "discretization"; do d <- read_discretization d;
  do s <- get n "spectra"; do s <- read_vector read_spectra s;
  do o <- try_to_parse n "output" read_wave_output no_wave_output;
  Ok (mkWaveModel d s o).
(** environment_parsers.cpp:393-417 *)
Definition parse_grpc (n : yaml) : outcome grpc_model := do u <- string_at n "url"; Ok (mkGrpcModel u (output_or_nothing n) n).
(** environment_parsers.cpp:279-316: the number, or nothing for the word none. *)
Definition parse_seed (n : yaml) : outcome (option Z) :=
  match try_to_parse_positive_integer n "seed of the random data generator" with
  | Ok x => Ok (Some x)
  | _ => match try_to_parse n "seed of the random data generator" read_string "" with
         | Ok none => if String.eqb none "none" then Ok None else Throw
         | _ => Throw
         end
  end.
(** environment_parsers.cpp:153-277: the parameters of each spectrum and of each spreading, in the order of their constructors. *)
Definition parse_dirac_direction (n : yaml) : outcome D := uv n "waves propagating to".
Definition parse_dirac_spectrum (n : yaml) : outcome (D * D) := do hs <- uv n "Hs"; do w <- uv n "omega0"; Ok (w, hs).
Definition parse_jonswap (n : yaml) : outcome (D * D * D) := do hs <- uv n "Hs"; do tp <- uv n "Tp"; do g <- double_at n "gamma"; Ok (hs, tp, g).
Definition parse_pierson_moskowitz (n : yaml) : outcome (D * D) := do hs <- uv n "Hs"; do tp <- uv n "Tp"; Ok (hs, tp).
Definition parse_bretschneider (n : yaml) : outcome (D * D) := do hs <- uv n "Hs"; do tp <- uv n "Tp"; Ok (hs, tp).
Definition parse_cos2s (n : yaml) : outcome (D * D) := do p <- uv n "waves propagating to"; do s <- double_at n "s"; Ok (p, s).
End Reading.

(** Implicit arguments *)
Arguments mkCoord {D}. Arguments y_x {D}. Arguments y_y {D}. Arguments y_z {D}. 
Arguments mkAngle {D}. Arguments y_phi {D}. Arguments y_theta {D}. Arguments y_psi {D}. 
Arguments mkPoint {D}. Arguments pt_name {D}. Arguments pt_frame {D}. Arguments pt_at {D}. 
Arguments mkPosition {D}. Arguments pos_frame {D}. Arguments pos_at {D}. Arguments pos_angle {D}. 
Arguments mkSpeed {D}. Arguments sp_frame {D}. Arguments sp_u {D}. Arguments sp_v {D}. Arguments sp_w {D}. Arguments sp_p {D}. Arguments sp_q {D}. Arguments sp_r {D}. 
Arguments mkMatrix6 {D}. Arguments m_from_file {D}. Arguments m_hdb {D}. Arguments m_frame {D}. Arguments m_rows {D}. 
Arguments mkDynamics {D}. Arguments d_centre {D}. Arguments d_inertia {D}. Arguments d_added {D}. Arguments d_hydro {D}. 
Arguments mkBlockedDof {D}. Arguments from_yaml {D}. Arguments from_csv {D}. 
Arguments mkBody {D}. Arguments b_name {D}. Arguments b_mesh {D}. Arguments b_mesh_position {D}. Arguments b_position {D}. Arguments b_speed {D}. Arguments b_dynamics {D}. Arguments b_external {D}. Arguments b_controlled {D}. Arguments b_blocked {D}. 
Arguments mkConstants {D}. Arguments ec_g {D}. Arguments ec_rho {D}. Arguments ec_nu {D}. 
Arguments mkCommands {D}. Arguments c_name {D}. Arguments c_t {D}. Arguments c_values {D}. 
Arguments mkInput {D}. Arguments i_rotations {D}. Arguments i_constants {D}. Arguments i_environment {D}. Arguments i_bodies {D}. Arguments i_commands {D}. 
Arguments mkWaveOutput {D}. Arguments wo_frame {D}. Arguments wo_xmin {D}. Arguments wo_xmax {D}. Arguments wo_nx {D}. Arguments wo_ymin {D}. Arguments wo_ymax {D}. Arguments wo_ny {D}. 
Arguments mkDiscretization {D}. Arguments di_n {D}. Arguments di_min {D}. Arguments di_max {D}. Arguments di_energy {D}. 
Arguments mkYStretching {D}. Arguments st_h {D}. Arguments st_delta {D}. 
Arguments mkSpectra {D}. Arguments s_model {D}. Arguments s_yaml {D}. Arguments s_spreading_type {D}. Arguments s_spreading {D}. Arguments s_density_type {D}. Arguments s_density {D}. Arguments s_stretching {D}. Arguments s_depth {D}. 
Arguments mkWaveModel {D}. Arguments wm_discretization {D}. Arguments wm_spectra {D}. Arguments wm_output {D}. 
Arguments mkDefaultWave {D}. Arguments dw_z {D}. Arguments dw_output {D}. 
Arguments mkGrpcModel {D}. Arguments gm_url {D}. Arguments gm_output {D}. Arguments gm_yaml {D}. 
Arguments mkDof {T}. Arguments dof_state {T}. Arguments dof_t {T}. Arguments dof_value {T}. Arguments dof_interp {T}.
Arguments no_blocked_dof {D}.
