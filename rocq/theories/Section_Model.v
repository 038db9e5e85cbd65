(** Model of the sections of the force models in the input file: the functions parse of force_models/src, the constructors they feed, and the force that results, over
    exact reals. The reading is that of Yaml_Model (yaml-cpp and ssc are external: [dbl], [int_of], [factor]; [bool_of] and [unsigned_of] read a bool and a size_t); the
    laws of force are those of Force_Model. *)
From Coq Require Import Reals List Bool String ZArith.
From Verif Require Import Common Sim_Model Hdf5_Mesh_Model Yaml_Model Geometry Force_Model.
Import ListNotations.
Open Scope R_scope.

Section Sections.
Variable dbl : string -> option R.
Variable int_of : string -> option Z.
Variable factor : string -> option R.
Variable bool_of : string -> option bool.
Variable unsigned_of : string -> option Z.
Notation uv := (uv R Rmult dbl factor). Notation double_at := (double_at R dbl). Notation doubles_at := (doubles_at R dbl int_of).
Notation read_position := (read_position R Rmult dbl factor). Notation read_coordinates := (read_coordinates R Rmult dbl factor).

Definition at_key {A} (read : string -> option A) (n : yaml) (k : string) : outcome A :=
  do s <- string_at n k; match read s with Some a => Ok a | None => Throw end.
Definition position_at (n : yaml) (k : string) := do v <- get n k; read_position v.
Definition coordinates_at (n : yaml) (k : string) := do v <- get n k; read_coordinates v.

(** ConstantForceModel.cpp:34-75 *)
Record constant_input : Type := mkConstant { cf_frame : string; cf_point : vec3; cf_force : vec3; cf_torque : vec3 }.
Definition parse_constant_force (n : yaml) : outcome constant_input :=
  do f <- string_at n "frame"; do x <- uv n "x"; do y <- uv n "y"; do z <- uv n "z"; do X <- uv n "X"; do Y <- uv n "Y"; do Z <- uv n "Z";
  do K <- uv n "K"; do M <- uv n "M"; do N <- uv n "N"; Ok (mkConstant f (V3 x y z) (V3 X Y Z) (V3 K M N)).
(** ConstantForceModel.cpp:77-93. [frames f] is the transform from the body frame to the frame [f], ssc::kinematics (external), which throws for an unknown frame. *)
Definition constant_force_of (frames : string -> outcome transform) (G : vec3) (n : yaml) : outcome torsor :=
  do i <- parse_constant_force n; do T <- frames (cf_frame i); Ok (constant_force T (cf_point i) (cf_force i) (cf_torque i) G).

(** SimpleHeadingKeepingController.cpp:25-36 *)
Definition parse_heading (n : yaml) : outcome (string * R * R) :=
  do name <- string_at n "name"; do ksi <- double_at n "ksi"; do Tp <- uv n "Tp"; Ok (name, ksi, Tp).
(** SimpleStationKeepingController.cpp:33-48 *)
Definition parse_station (n : yaml) : outcome (string * station_parameters) :=
  do name <- string_at n "name"; do kx <- double_at n "ksi_x"; do tx <- uv n "T_x"; do ky <- double_at n "ksi_y"; do ty <- uv n "T_y";
  do kp <- double_at n "ksi_psi"; do tp <- uv n "T_psi"; Ok (name, mkStation kx tx ky ty kp tp).

(** LinearDampingForceModel.cpp:27-50 and QuadraticDampingForceModel.cpp:28-51: the six elements of each row are read with operator[]. The exceptions carry no message
    here, so the rethrow with a longer message is not visible. *)
Definition row6 (l : list R) : outcome (list R) := traverse (fun j => at_ub l j) (seq 0 6).
Definition parse_damping (n : yaml) : outcome mat :=
  do v <- get n "damping matrix at the center of gravity projected in the body frame";
  do m <- parse_matrix6 R dbl int_of v false "";
  match m_rows m with
  | [a; b; c; d; e; f] =>
    do a <- row6 a; do b <- row6 b; do c <- row6 c; do d <- row6 d; do e <- row6 e; do f <- row6 f;
    Ok (fun i j => nth j (nth i [a; b; c; d; e; f] []) 0)
  | _ => UB
  end.
(** DampingForceModel.cpp:24-37 *)
Definition damping_of (law : mat -> vec -> vec) (point v omega : vec3) (n : yaml) : outcome wrench := do d <- parse_damping n; Ok (damping law d point v omega).

(** LinearHydrostaticForceModel.cpp:36-58 (parse) and 60-84 (constructor): std::vector::at throws *)
Definition row3 (l : list R) : outcome vec3 := do a <- at_throw l 0; do b <- at_throw l 1; do c <- at_throw l 2; Ok (V3 a b c).
Definition parse_linear_hydrostatic (n : yaml) : outcome linear_hydrostatics :=
  do z <- uv n "z eq"; do phi <- uv n "phi eq"; do theta <- uv n "theta eq";
  do k1 <- doubles_at n "K row 1"; do k2 <- doubles_at n "K row 2"; do k3 <- doubles_at n "K row 3";
  do x1 <- uv n "x1"; do x2 <- uv n "x2"; do x3 <- uv n "x3"; do x4 <- uv n "x4";
  do y1 <- uv n "y1"; do y2 <- uv n "y2"; do y3 <- uv n "y3"; do y4 <- uv n "y4";
  do k1 <- row3 k1; do k2 <- row3 k2; do k3 <- row3 k3;
  Ok (mkLH (M3 k1 k2 k3) (V3 x1 y1 0) (V3 x2 y2 0) (V3 x3 y3 0) (V3 x4 y4 0) z theta phi).

(** GMForceModel.cpp:58-85 *)
Definition parse_gm (n : yaml) : outcome (string * R) :=
  do name <- string_at n "name of hydrostatic force model"; do step <- uv n "roll step";
  if String.eqb name "hydrostatic" then Ok (name, step)
  else if String.eqb name "non-linear hydrostatic (exact)" then Ok (name, step)
  else if String.eqb name "non-linear hydrostatic (fast)" then Ok (name, step)
  else Throw.

(** DiffractionForceModel.cpp:227-238 *)
Record diffraction_input : Type := mkDiffraction { df_hdb : string; df_point : coordinates R; df_mirror : bool }.
Definition parse_diffraction (n : yaml) : outcome diffraction_input :=
  do h <- string_at n "hdb"; do p <- coordinates_at n "calculation point in body frame"; do m <- at_key bool_of n "mirror for 180 to 360"; Ok (mkDiffraction h p m).

(** RadiationDampingForceModel.cpp:212-261; TypeOfQuadrature.hpp *)
Inductive quadrature : Type := GaussKronrod | Rectangle | Simpson | Trapezoidal | Burcher | ClenshawCurtis | Filon.
Definition quadrature_of (s : string) : option quadrature :=
  if String.eqb s "gauss-kronrod" then Some GaussKronrod else if String.eqb s "rectangle" then Some Rectangle else if String.eqb s "simpson" then Some Simpson
  else if String.eqb s "trapezoidal" then Some Trapezoidal else if String.eqb s "burcher" then Some Burcher
  else if String.eqb s "clenshaw-curtis" then Some ClenshawCurtis else if String.eqb s "filon" then Some Filon else None.
Record radiation_input : Type := mkRadiation { ra_hdb : string; ra_cos : quadrature; ra_convolution : quadrature; ra_n : Z; ra_omega_min : R; ra_omega_max : R;
  ra_tau_min : R; ra_tau_max : R; ra_output : bool; ra_point : coordinates R }.
(** The reading of the HDB file itself is in Hdb_Model *)
Definition parse_radiation (n : yaml) : outcome radiation_input :=
  do h <- string_at n "hdb"; do qcos <- at_key quadrature_of n "type of quadrature for cos transform"; do qcon <- at_key quadrature_of n "type of quadrature for convolution";
  do nb <- at_key unsigned_of n "nb of points for retardation function discretization";
  do o1 <- uv n "omega min"; do o2 <- uv n "omega max"; do t1 <- uv n "tau min"; do t2 <- uv n "tau max"; do out <- at_key bool_of n "output Br and K";
  do p <- coordinates_at n "calculation point in body frame"; Ok (mkRadiation h qcos qcon nb o1 o2 t1 t2 out p).

(** ResistanceCurveForceModel.cpp:49-59 (parse) and 20-46 (constructors): [std::vector::front] and [back] of an empty vector are undefined. [spline] is
    ssc::interpolation::SplineVariableStep (external), queries outside the bounds being allowed; its constructor may throw. The warnings are not modelled. *)
Variable spline : list R -> list R -> outcome (R -> R).
Definition parse_resistance (n : yaml) : outcome (list R * list R) :=
  do v <- get n "speed"; do v <- parse_uvs R Rmult dbl int_of factor v; do r <- get n "resistance"; do r <- parse_uvs R Rmult dbl int_of factor r; Ok (v, r).
Definition resistance_curve (n : yaml) : outcome (R -> R) :=
  do i <- parse_resistance n; do s <- spline (fst i) (snd i); do _ <- at_ub (fst i) 0; Ok s.
(** ResistanceCurveForceModel.cpp:61-66 *)
Definition resistance_of (point : vec3) (u : R) (n : yaml) : outcome wrench :=
  do s <- resistance_curve n; Ok (mkW point (V3 (- s u) 0 0) v0).

(** AbstractWageningen.cpp:31-48 *)
Record propeller_input : Type := mkPropeller { pi_name : string; pi_frame : position R; pi_w : R; pi_etaR : R; pi_t : R; pi_clockwise : bool; pi_D : R }.
Definition parse_propeller (n : yaml) : outcome propeller_input :=
  do rot <- string_at n "rotation"; do t <- double_at n "thrust deduction factor t"; do w <- double_at n "wake coefficient w"; do name <- string_at n "name";
  do p <- position_at n "position of propeller frame"; do eta <- double_at n "relative rotative efficiency etaR"; do d <- uv n "diameter";
  Ok (mkPropeller name p w eta t (String.eqb rot "clockwise") d).
(** AbstractWageningen.cpp:57-67; [rho] comes from the environment *)
Definition propeller_from (rho : R) (Kt Kq : R -> R) (i : propeller_input) : propeller :=
  mkProp (pi_w i) (pi_etaR i) (pi_t i) (pi_clockwise i) (pi_D i) rho Kt Kq.
(** WageningenControlledForceModel.cpp:123-133 and 46-71. The numbers 0.3 and 1.05 are exact here (Propeller_Model has the floating point version). *)
Definition parse_wageningen (n : yaml) : outcome (propeller_input * R * Z) :=
  do p <- parse_propeller n; do a <- double_at n "blade area ratio AE/A0"; do z <- try_to_parse_positive_integer int_of n "number of blades"; Ok (p, a, z).
Definition wageningen_section (n : yaml) : outcome (propeller_input * R * Z) :=
  do i <- parse_wageningen n;
  let '(p, a, z) := i in
  if (Z.ltb z 2 || Z.ltb 7 z)%bool then Throw else if (Rltb a (3 / 10) || Rltb (105 / 100) a)%bool then Throw else Ok i.
(** KtKqForceModel.cpp:48-60 and 62-65, 67-95. [spline_in_bounds] is SplineVariableStep: its constructor may throw; the queries outside the bounds throw
    IndexFinderException, rethrown as NumericalErrorException. *)
Variable spline_in_bounds : list R -> list R -> outcome (R -> outcome R).
Definition parse_ktkq (n : yaml) : outcome (propeller_input * list R * list R * list R) :=
  do p <- parse_propeller n; do j <- doubles_at n "J"; do kt <- doubles_at n "Kt"; do kq <- doubles_at n "Kq"; Ok (p, j, kt, kq).
(** AbstractWageningen.cpp:50-55 and 69-77 *)
Definition ktkq_force_of (rho u rpm : R) (n : yaml) : outcome torsor :=
  do i <- parse_ktkq n;
  let '(p, j, kt, kq) := i in
  do skt <- spline_in_bounds j kt; do skq <- spline_in_bounds j kq;
  let J := advance_ratio (propeller_from rho (fun _ => 0) (fun _ => 0) p) u rpm in
  do a <- skt J; do b <- skq J;
  Ok (propeller_force (propeller_from rho (fun _ => a) (fun _ => b) p) u rpm).
(** RudderForceModel.cpp:267-283, on top of WageningenControlledForceModel::parse; the constructor is WageningenControlledForceModel's, then lines 46-60 *)
Record rudder_input : Type := mkRudderIn { ri_propeller : propeller_input; ri_AE_A0 : R; ri_Z : Z; ri_Ar : R; ri_b : R; ri_ear : R; ri_lift : R; ri_drag : R; ri_position : coordinates R }.
Definition parse_rudder (n : yaml) : outcome rudder_input :=
  do i <- parse_wageningen n;
  let '(p, a, z) := i in
  do ar <- uv n "rudder area"; do b <- uv n "rudder height"; do e <- double_at n "effective aspect ratio factor"; do l <- double_at n "lift tuning coefficient";
  do d <- double_at n "drag tuning coefficient"; do c <- coordinates_at n "position of rudder in body frame"; Ok (mkRudderIn p a z ar b e l d c).
End Sections.
