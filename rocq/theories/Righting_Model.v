(** Model of the construction of the simulation used by the righting-lever tool, gz_curves/src/make_sim_for_GZ.cpp:13-33, of its
    resultant of efforts, gz_curves/src/ResultantForceComputer.cpp:17-68, and of the check made when a curve is built,
    gz_curves/src/GZCurve.cpp:18-36. Over exact reals: the tests on NaN (lines 31-37 of ResultantForceComputer.cpp) are not
    modelled. *)
From Coq Require Import Reals List Bool String Ascii.
From Verif Require Import Common Geometry Sim_Model Force_Model Hull_Model Mesh_Model Closing_Model Gz_Model Builder_Model.
Import ListNotations.
Open Scope R_scope.

(** ** make_sim_for_GZ.cpp *)
Section Make.
Context {Env Wave Mesh Dof Blocked : Type}.
Variable blocked_dof : Dof -> nat -> outcome Blocked.
(** Lines 20-25: the models of the tool; only the field [model] is set. *)
Definition gz_external : list yaml_model := [mkYaml "gravity" ""; mkYaml "non-linear hydrostatic (fast)" ""].
(** Lines 28-30. *)
Definition gz_environment : list yaml_model := [mkYaml "no waves" "constant sea elevation in NED frame: {value: 0, unit: m}"].
(** Lines 16-30: [input.bodies.front()] is undefined without bodies. *)
Definition gz_input (input : @yaml_input Mesh Dof) : outcome (@yaml_input Mesh Dof) :=
  match y_bodies input with
  | [] => UB
  | b :: r =>
    let b' := mkBody0 (y_name b) (y_mesh b) (y_mesh_position b) (y_mesh_angle b) (y_position b) (y_angle b) (y_velocity b)
                (y_inertia b) (y_added b) (y_blocked b) gz_external [] in
    Ok (mkInput0 (y_rotations input) (b' :: r) gz_environment)
  end.
(** simulator_api.cpp:83-89 (get_system): the mesh read from the file is given to the first body only. [stl]: the mesh already
    read. make_sim_for_GZ.cpp:32: the rotations are checked. *)
Definition make_sim (make_env : option Wave -> Env) (waves : list wave_parser) (external controllable : list parser)
  (input : @yaml_input Mesh Dof) (stl : outcome Mesh) : outcome sim :=
  do input <- gz_input input ;
  do _ <- check_rotations (y_rotations input) ;
  match y_bodies input with
  | [] => UB
  | b :: _ => do mesh <- stl ; build_with blocked_dof make_env waves external controllable input [(y_name b, mesh)]
  end.

(** ResultantForceComputer.cpp:17-28. [s.get_forces()] is a std::map: [begin()] has the smallest name, of any body.
    [front()] and [back()] of an empty vector, [begin()] of an empty map: undefined. *)
Definition string_lt (a b : string) : bool := match String.compare a b with Lt => true | _ => false end.
Fixpoint smallest (m : list (string * list force)) (k : string) : string :=
  match m with [] => k | (k', _) :: r => smallest r (if string_lt k' k then k' else k) end.
Definition forces_begin (m : list (string * list force)) : outcome (list force) :=
  match m with [] => UB | (k, _) :: r => match map_get m (smallest r k) with Some l => Ok l | None => UB end end.
Record computer : Type := mkComputer { rc_body : @built_body Mesh Blocked; rc_gravity : force; rc_hydrostatic : force }.
Definition make_computer (s : @sim Wave Mesh Blocked) : outcome computer :=
  do b <- at_ub (s_bodies s) 0 ;
  do l <- forces_begin (s_forces s) ;
  do f <- at_ub l 0 ;
  do h <- at_ub l (List.length l - 1) ;
  Ok (mkComputer b f h).
End Make.

(** ** ResultantForceComputer.cpp:30-68 *)
Section Resultant.
(** Density, gravity, mass (element (2,2) of the inertia matrix), centre of gravity, in the body frame; [orientation] of the
    mesh (Mesh.cpp:38); [immersed]: the immersed facets for a position of the body (C36 and following). *)
Variables rho g m : R.
Variable G : vec3.
Variable orientation : R.
Variable immersed : transform -> list facet.
(** The value of a division by zero. *)
Variable undefined : R.

(** Lines 38-50 (x = y = psi = 0) and Body.cpp:47-60: NED<-body, from the quaternion made from the angles. *)
Definition position (z phi theta : R) : transform :=
  let '(w, x, y, q) := quaternion_of (rotation_matrix_321 phi theta 0) in mkT (qmat w x y q) (V3 0 0 z).
(** Lines 52-67. Both efforts are expressed in NED by project_into_NED_frame, then summed: the torques are about G. *)
Definition resultant_at (z phi theta : R) : resultant :=
  let T := position z phi theta in
  let Tbn := mkT (transpose (t_rot T)) (vopp (mapply (transpose (t_rot T)) (t_point T))) in
  let gravity_force := project_into_ned_frame (t_rot T) (gravity Tbn m g) in
  let hydrostatic_force := project_into_ned_frame (t_rot T) (fast_hydrostatic rho g T orientation G (immersed T)) in
  let lever := match calculate_gz (t_rot T) (fst hydrostatic_force) (snd hydrostatic_force) with Some v => v | None => undefined end in
  mkRes (vz (fst gravity_force) + vz (fst hydrostatic_force)) (vx (snd gravity_force) + vx (snd hydrostatic_force))
        (vy (snd gravity_force) + vy (snd hydrostatic_force)) lever.
End Resultant.

(** ** GZCurve.cpp:22-36: the check made when a curve is built; [I] is the intersector once the body has been put at the origin
    (the state is null; the rotation of a null quaternion is the identity). The order in which the volumes are computed is
    unspecified: see [Righting_Props]. *)
Definition check_floats (rho m : R) (I : inter) : outcome inter :=
  do e <- emerged_volume I ;
  do i <- immersed_volume (fst e) ;
  if Rltb (rho * (snd e + snd i)) m then Throw else Ok (fst i).
