(** Model of the force model "GM" and of its effect on the sum of forces and on the derivative of the states, over exact reals:
    force_models/src/GMForceModel.cpp, core/src/Body.cpp:104-155, core/src/BodyWithSurfaceForces.cpp:22-38, core/src/Sim.cpp:126-176.
    [EnvironmentAndFrames] is copied in the force models, but its frames ([env.k]), its waves and the mesh intersector of a body are shared pointers: what a
    force model writes in them is seen by all the others. They are the [world] below. One body; errors of the wave model are not modelled. *)
From Coq Require Import Reals List.
From Verif Require Import Common Geometry Force_Model Gz_Model Builder_Model.
Import ListNotations.
Open Scope R_scope.

Section GM.
(** Intersection of a hull and of the free surface: BodyWithSurfaceForces.cpp:22-38, from the position of the body and the date. *)
Context {Cut : Type}.
Variable intersect : transform -> R -> Cut.
(** ssc::kinematics::euler_angles<INTRINSIC, CHANGING_ANGLE_ORDER, 3, 2, 1> (external) *)
Variable euler_angles : mat3 -> angles.

(** Current values of BodyStates: position, quaternion, linear and angular velocities. *)
Record states : Type := mkStates { st_position : vec3; st_quaternion : R * R * R * R; st_uvw : vec3; st_pqr : vec3 }.
(** BodyStates.cpp:99-107 (get_rot_from_ned_to_body, get_rot_from_ned_to) *)
Definition rot_of (s : states) : mat3 := let '(a, b, c, d) := st_quaternion s in qmat a b c d.
(** What the force models share: the frame of the body (NED<-body, [env.k]) and the intersector of the body. *)
Record world : Type := mkWorld { w_frame : transform; w_cut : Cut }.
(** Body.cpp:104-127: the frames and the intersection are updated from the states (the history and g_in_mesh_frame belong to the body). *)
Definition body_update (s : states) (t : R) : world :=
  let T := mkT (rot_of s) (st_position s) in mkWorld T (intersect T t).

(** A force model as the sum of forces uses it: force and torque at G, in the body frame. *)
Definition force_function : Type := world -> states -> R -> torsor.
(** GMForceModel.cpp:87-99: the roll angle is decreased by [dphi]; the record at t+1 makes the new quaternion the current one. *)
Definition get_shifted_states (dphi : R) (s : states) : states :=
  let euler := euler_angles (rot_of s) in
  let q := quaternion_of (rotation_matrix_321 (a_phi euler - dphi) (a_theta euler) (a_psi euler)) in
  mkStates (st_position s) q (st_uvw s) (st_pqr s).
(** calculate_gz.cpp:23-26, ForceModel.cpp:30-40: rotation of the shared frame, force projected in NED with the states given to update. *)
Definition gz_of (w : world) (s : states) (F : torsor) : option R :=
  let N := project_into_ned_frame (rot_of s) F in calculate_gz (t_rot (w_frame w)) (fst N) (snd N).
(** Values kept for the observers; None: not a number. *)
Record gm_report : Type := mkReport { gm_GM : option R; gm_GZ : option R }.
Definition map2 (f : R -> R -> R) (a b : option R) : option R := match a, b with Some x, Some y => Some (f x y) | _, _ => None end.
(** GMForceModel.cpp:101-109: returns GZ and the world left by [body_for_gm.update(env, ...)]. *)
Definition get_gz_for_shifted_states (hs : force_function) (dphi : R) (s : states) (t : R) : option R * world :=
  let new_states := get_shifted_states dphi s in
  let w' := body_update new_states t in
  (gz_of w' new_states (hs w' new_states t), w').
(** GMForceModel.cpp:111-120. [x / 0] is not a number when x is 0. *)
Definition gm_call (hs : force_function) (dphi : R) (w : world) (s : states) (t : R) : torsor * world * gm_report :=
  let ret := hs w s t in
  let gz1 := gz_of w s ret in
  let (gz2, w') := get_gz_for_shifted_states hs dphi s t in
  let GM := if Req_EM_T dphi 0 then None else map2 (fun a b => (a - b) / dphi) gz1 gz2 in
  let GZ := map2 (fun a b => (a + b) / 2) gz1 gz2 in
  (ret, w', mkReport GM GZ).

(** A force model of the input file: the GM model, on top of a hydrostatic model, or another one (which only reads the world). *)
Inductive force_model : Type := Other (f : force_function) | Gm (hs : force_function) (dphi : R).
Definition call (m : force_model) (w : world) (s : states) (t : R) : torsor * world :=
  match m with Other f => (f w s t, w) | Gm hs dphi => fst (gm_call hs dphi w s t) end.
Definition tadd (a b : torsor) : torsor := (vadd (fst a) (fst b), vadd (snd a) (snd b)).
(** Sim.cpp:145-173, for the forces expressed in the body frame; [F] is the sum so far, first the Coriolis and centripetal forces. *)
Fixpoint sum_of_forces (models : list force_model) (F : torsor) (w : world) (s : states) (t : R) : torsor * world :=
  match models with
  | [] => (F, w)
  | m :: r => let (tau, w') := call m w s t in sum_of_forces r (tadd F tau) w' s t
  end.
(** Sim.cpp:129-134 and Body.cpp:141-147: sum of forces and derivative of the position. The rotation is read in the shared frames, after the forces. *)
Definition derivative (models : list force_model) (coriolis : torsor) (s : states) (t : R) : torsor * vec3 :=
  let (F, w) := sum_of_forces models coriolis (body_update s t) s t in
  (F, mapply (t_rot (w_frame w)) (st_uvw s)).
End GM.
Arguments mkWorld {Cut}. Arguments Other {Cut}. Arguments Gm {Cut}.
