(** Model of the environment given to the force models (core/src/EnvironmentAndFrames.cpp, core/src/SimulatorBuilder.cpp:61-71) and of the wave field it
    writes in the outputs (EnvironmentAndFrames.cpp:38-63), after the states of the same instant (core/src/Sim.cpp:199-236). Exact reals. *)
From Coq Require Import ZArith Reals List String.
From Verif Require Import Common Blocked_Model Sim_Model Sim_Spec Wave_Model Yaml_Model Drift_Model Calm_Model Geometry.
Import ListNotations.
Open Scope R_scope.
Open Scope list_scope.

Section Environment.
Context {Wave : Type}.
(** EnvironmentAndFrames.hpp:36-44, without the frames and the conventions of angles. *)
Record environment : Type := mkEnvironment { e_w : option Wave; e_rho : R; e_nu : R; e_g : R }.
(** EnvironmentAndFrames.cpp:17-36: the members are set to zero, then tested. *)
Definition new_environment : outcome environment :=
  let e := mkEnvironment None 0 0 0 in
  if Sim_Model.Rltb (e_rho e) 0 then Throw else if Sim_Model.Rltb (e_nu e) 0 then Throw else if Sim_Model.Rltb (e_g e) 0 then Throw else Ok e.
(** SimulatorBuilder.cpp:61-71: the members are assigned one by one; [get_wave] may fail (Builder_Model). *)
Definition get_environment (c : constants R) (get_wave : outcome (option Wave)) : outcome environment :=
  do e <- new_environment;
  let e := mkEnvironment (e_w e) (e_rho e) (e_nu e) (ec_g c) in
  let e := mkEnvironment (e_w e) (ec_rho c) (e_nu e) (e_g e) in
  let e := mkEnvironment (e_w e) (e_rho e) (ec_nu c) (e_g e) in
  do w <- get_wave;
  Ok (mkEnvironment w (e_rho e) (e_nu e) (e_g e)).
End Environment.

(** ** Wave field *)
(** Body.cpp:59-68: the two frames of each body, in the order in which they are added. *)
Definition frames_of (x : list R) (idx : nat) (name : string) : list (string * transform) :=
  let T := placement x idx in [(name, T); (("NED(" ++ name ++ ")")%string, mkT id3 (t_point T))].
Fixpoint update_kinematics (names : list string) (idx : nat) (x : list R) : list (string * transform) :=
  match names with [] => [] | n :: r => frames_of x idx n ++ update_kinematics r (S idx) x end.
(** SurfaceElevationInterface.cpp:19-38: NED <- frame. [kinematics] lists the frames added, a new one replaces the former of the same name (ssc, external);
    [known] has the frames added before, such as those of the meshes. *)
Definition to_NED (known : string -> option transform) (kinematics : list (string * transform)) (frame : string) : outcome transform :=
  if String.eqb frame "NED" then Ok (mkT id3 v0)
  else match find (fun f => String.eqb (fst f) frame) (rev kinematics) with
       | Some f => Ok (snd f)
       | None => match known frame with Some T => Ok T | None => Throw end
       end.
Definition triple (p : vec3) : R * R * R := (vx p, vy p, vz p).
Definition point (p : R * R * R) : vec3 := V3 (fst (fst p)) (snd (fst p)) (snd p).
(** EnvironmentAndFrames.cpp:38-63 ([z.size()] is zero for a grid without rows). [frame]: "frame of reference" of the section "output". The frame is looked
    for only if the mesh has points (SurfaceElevationInterface.cpp:258). *)
Definition feed (known : string -> option transform) (w : option surface) (frame : string) (names : list string) (x : list R) (t : R) : outcome (option grid) :=
  match w with
  | None => Ok None
  | Some s =>
      let k := update_kinematics names 0 x in
      do T <- match su_mesh s with [] => Ok (mkT id3 v0) | _ => to_NED known k frame end;
      do g <- get_waves_on_mesh_as_a_grid s (fun p => triple (tapply T (point p))) t;
      match g_z g with [] => Ok None | _ => Ok (Some g) end
  end.
(** Sim.cpp:199-231: the states written (Body::feed) and the wave field. *)
Definition output {Itp} (itp_f : Itp -> R -> outcome R) (aeq : R -> R -> bool) (known : string -> option transform) (w : option surface) (frame : string)
  (bodies : list (string * Sim_Model.body Itp)) (x : list R) (t : R) : outcome (list R * option grid) :=
  do y <- output_states itp_f aeq (map snd bodies) x t;
  do g <- feed known w frame (map fst bodies) y t;
  Ok (y, g).
