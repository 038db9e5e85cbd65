(** Model of the force models (code/force_models) and of the summation of forces (code/core), over exact reals.
    A wrench is a point of application, a force and a torque, all expressed in the body frame unless stated otherwise.
    [transform] A<-B stands for [Kinematics::get(A,B)]: rotation from B to A, position of the origin of B in A (ssc, external). *)
From Coq Require Import Reals Lra List Bool.
From Verif Require Import Common Geometry Sim_Model.
Import ListNotations.
Open Scope R_scope.

Definition torsor := (vec3 * vec3)%type.
Record wrench : Type := mkW { w_point : vec3; w_force : vec3; w_torque : vec3 }.

(** ** Damping *)
(** LinearDampingForceModel.cpp:22-25 *)
Definition linear_damping (D : mat) (W : vec) : vec := fun i => - mul6 D W i.
(** QuadraticDampingForceModel.cpp:22-25 *)
Definition quadratic_damping (D : mat) (W : vec) : vec := fun i => - mul6 D (fun j => Rabs (W j) * W j) i.
(** DampingForceModel.cpp:19-29: the wrench is given at the hydrodynamic forces calculation point. *)
Definition damping_wrench (point : vec3) (F : vec) : wrench :=
  mkW point (V3 (F 0%nat) (F 1%nat) (F 2%nat)) (V3 (F 3%nat) (F 4%nat) (F 5%nat)).
(** DampingForceModel.cpp:19-29: [v] is (u, v, w) and [omega] is (p, q, r); [get] is get_force_and_torque of the derived class. *)
Definition states6 (v omega : vec3) : vec := fun i => match i with 0%nat => vx v | 1%nat => vy v | 2%nat => vz v | 3%nat => vx omega | 4%nat => vy omega | 5%nat => vz omega | _ => 0 end.
Definition damping (get : mat -> vec -> vec) (D : mat) (point v omega : vec3) : wrench := damping_wrench point (get D (states6 v omega)).

(** ** Controlled forces *)
(** ControllableForceModel.cpp:53-77: [T] is body<-internal, [G] the point where forces are summed, [F] the result of get_force. *)
Definition controlled_wrench (T : transform) (G : vec3) (F : torsor) : torsor :=
  let rot_from_internal_frame_to_body_frame := t_rot T in
  let OP := t_point T in
  let GO := vopp G in
  let GP := vadd GO OP in
  let force := mapply rot_from_internal_frame_to_body_frame (fst F) in
  (force, vadd (mapply rot_from_internal_frame_to_body_frame (snd F)) (cross GP force)).
(** ControllableForceModel.cpp:128-148 (feed): what is reported in the internal frame, from the latest wrench at G in the body frame. *)
Definition reported_in_internal_frame (T : transform) (G : vec3) (tau : torsor) : torsor :=
  let rot := transpose (t_rot T) in
  let PG := vsub G (t_point T) in
  (mapply rot (fst tau), mapply rot (vadd (snd tau) (cross PG (fst tau)))).
(** ControllableForceModel.cpp:135-155 (feed): what is reported in the NED frame, about the origin of NED; [Tbn] is body<-NED. *)
Definition reported_in_ned_frame (Tbn : transform) (G : vec3) (tau : torsor) : torsor :=
  let rot := transpose (t_rot Tbn) in
  let OO1 := vopp (t_point Tbn) in
  let OG := vadd OO1 G in
  (mapply rot (fst tau), mapply rot (vadd (snd tau) (cross OG (fst tau)))).
(** ForceModel.cpp:37-40 (project_into_NED_frame), used for the non-controlled forces and for the sum of forces:
    the rotation is applied but the torque stays about the same point. *)
Definition project_into_ned_frame (rot_ned_from_body : mat3) (tau : torsor) : torsor :=
  (mapply rot_ned_from_body (fst tau), mapply rot_ned_from_body (snd tau)).

(** ** Constant force: ConstantForceModel.cpp:74-88. [T] is body<-internal frame, [p] the point of application, in the internal frame. *)
Definition constant_force (T : transform) (p force torque G : vec3) : torsor :=
  let OP := p in
  let GO := vopp G in
  let GP := vadd GO OP in
  (mapply (t_rot T) force, mapply (t_rot T) (vadd torque (cross GP force))).

(** ** Gravity: GravityForceModel.cpp:23-36. [Tbn] is body<-NED, [m] element (2,2) of the inertia matrix, [x] the state vector. *)
Definition gravity (Tbn : transform) (m g : R) : torsor := (mapply (t_rot Tbn) (V3 0 0 (m * g)), v0).
Definition gravity_potential_energy (m g : R) (x : list R) : outcome R := do z <- at_ub x 2; Ok (- m * g * z).

(** ** Controllers *)
(** SimpleHeadingKeepingController.cpp:38-57. [total_inertia] is the total inertia matrix. *)
Definition heading_torque (total_inertia : mat) (ksi Tp psi_co psi r : R) : R :=
  let omega0 := 2 * PI / Tp in
  let delta_psi := psi_co - psi in
  let sigma_zz := total_inertia 2%nat 2%nat in
  let K_psi := sigma_zz * omega0 * omega0 in
  let K_r := 2 * ksi * omega0 * sigma_zz in
  K_psi * delta_psi - K_r * r.
(** SimpleStationKeepingController.cpp:50-84 *)
Record station_parameters : Type := mkStation { ksi_x : R; T_x : R; ksi_y : R; T_y : R; ksi_psi : R; T_psi : R }.
Definition station_keeping (total_inertia : mat) (c : station_parameters) (x_co y_co psi_co x y psi u v r : R) : torsor :=
  let omega_x := 2 * PI / T_x c in
  let omega_y := 2 * PI / T_y c in
  let omega_psi := 2 * PI / T_psi c in
  let delta_x := x_co - x in
  let delta_y := y_co - y in
  let delta_psi := psi_co - psi in
  let sigma_xx := total_inertia 0%nat 0%nat in
  let sigma_yy := total_inertia 1%nat 1%nat in
  let sigma_psipsi := total_inertia 5%nat 5%nat in
  let K_x := sigma_xx * omega_x * omega_x in
  let K_u := 2 * ksi_x c * omega_x * sigma_xx in
  let K_y := sigma_yy * omega_y * omega_y in
  let K_v := 2 * ksi_y c * omega_y * sigma_yy in
  let K_psi := sigma_psipsi * omega_psi * omega_psi in
  let K_r := 2 * ksi_psi c * omega_psi * sigma_psipsi in
  (V3 (K_x * delta_x - K_u * u) (K_y * delta_y - K_v * v) 0, V3 0 0 (K_psi * delta_psi - K_r * r)).

(** ** Linear hydrostatics: LinearHydrostaticForceModel.cpp:60-136 *)
Record linear_hydrostatics : Type := mkLH { lh_K : mat3; lh_P1 : vec3; lh_P2 : vec3; lh_P3 : vec3; lh_P4 : vec3; lh_z_eq : R; lh_theta_eq : R; lh_phi_eq : R }.
Definition lh_d12 (m : linear_hydrostatics) := norm (vsub (lh_P1 m) (lh_P2 m)).
Definition lh_d34 (m : linear_hydrostatics) := norm (vsub (lh_P3 m) (lh_P4 m)).
Definition lh_d13 (m : linear_hydrostatics) := norm (vsub (lh_P1 m) (lh_P3 m)).
Definition lh_d24 (m : linear_hydrostatics) := norm (vsub (lh_P2 m) (lh_P4 m)).
(** lines 86-99; [z1..z4] are z[0]..z[3], the wave elevations at the four points. *)
Definition compute_zbar (z1 z2 z3 z4 : R) : R := 25 / 100 * (z1 + z2 + z3 + z4).
Definition compute_phibar (m : linear_hydrostatics) (z1 z2 z3 z4 : R) : R := 5 / 10 * (atan (z2 - z1) / lh_d12 m + atan (z4 - z3) / lh_d34 m).
Definition compute_thetabar (m : linear_hydrostatics) (z1 z2 z3 z4 : R) : R := 5 / 10 * (atan (z2 - z4) / lh_d24 m + atan (z1 - z3) / lh_d13 m).
(** lines 123-136; the angles are those of the body (Euler angles, external conversion). *)
Definition linear_hydrostatic_force (m : linear_hydrostatics) (z1 z2 z3 z4 z phi theta : R) : torsor :=
  let v := V3 (z - compute_zbar z1 z2 z3 z4 - lh_z_eq m) (phi - compute_phibar m z1 z2 z3 z4 - lh_phi_eq m) (theta - compute_thetabar m z1 z2 z3 z4 - lh_theta_eq m) in
  let F := vopp (mapply (lh_K m) v) in
  (V3 0 0 (vx F), V3 (vy F) (vz F) 0).

(** ** Sum of forces: Sim.cpp:145-176, for forces whose frame is the body frame (line 165). [UnsafeWrench::operator+=] (ssc, external) adds
    the forces and adds the torques, without looking at the points of application. *)
Definition sum_of_forces (coriolis : torsor) (forces : list wrench) (controlled : list torsor) : torsor :=
  let add (acc : torsor) (t : torsor) := (vadd (fst acc) (fst t), vadd (snd acc) (snd t)) in
  let after_forces := fold_left add (map (fun w => (w_force w, w_torque w)) forces) coriolis in
  fold_left add controlled after_forces.

(** ** Rudder: RudderForceModel.cpp *)
Record rudder : Type := mkRudder { rd_Ar : R; rd_b : R; rd_ear : R; rd_lift_coeff : R; rd_drag_coeff : R; rd_prop : vec3; rd_pos : vec3; rd_D : R; rd_rho : R; rd_nu : R }.
(** lines 46-60 (constructor) *)
Definition rd_chord (m : rudder) := rd_Ar m / rd_b m.
Definition rd_lambda (m : rudder) := rd_ear m * rd_b m * rd_b m / rd_Ar m.
Definition rd_translation (m : rudder) : vec3 := vsub (rd_prop m) (rd_pos m).
(** With a null distance the code divides 0.15 by +0, which gives +infinity: Kr is then 0.5. *)
Definition rd_Kr (m : rudder) : R :=
  let distance := Rabs (vx (rd_prop m) - vx (rd_pos m)) in
  let q := Rabs (distance / rd_D m) in
  5 / 10 + (if Rltb 0 q then (5 / 10) / (1 + (15 / 100) / q) else 0).
(** lines 69-81: the result is not a finite number when log10(Rn) = 2, that is Rn = 100; with Rn = 0 the logarithm is -infinity and Cf = 0. *)
Definition rd_Cd (m : rudder) (Vs Cl : R) : option R :=
  let Rn := Vs * rd_chord m / rd_nu m in
  let base := 11 / 10 * Cl * Cl / (PI * rd_lambda m) in
  if Rltb 0 Rn then
    let l := ln Rn / ln 10 - 2 in
    if Rltb 0 (l * l) then Some (base + 25 / 10 * ((75 / 1000) / (l * l))) else None
  else Some base.
(** lines 83-87 *)
Definition rd_Cl (m : rudder) (alpha : R) : R :=
  2 * PI * rd_lambda m * (rd_lambda m + 1) / (rd_lambda m + 2) / (rd_lambda m + 2) * sin alpha.
(** lines 89-105 *)
Definition rd_lift (m : rudder) (Vs Cl alpha area : R) : R := 5 / 10 * rd_rho m * area * (Vs * Vs) * Cl * cos alpha * rd_lift_coeff m.
Definition rd_drag (m : rudder) (Vs Cd area : R) : R := 5 / 10 * rd_rho m * area * (Vs * Vs) * Cd * rd_drag_coeff m.
(** lines 107-125 *)
Definition rd_force (m : rudder) (lift drag angle : R) : torsor :=
  let f := V3 (- lift * sin angle - drag * cos angle) (lift * cos angle - drag * sin angle) 0 in
  (f, vopp (cross (rd_translation m) f)).
(** lines 127-144; 13.71742 is (0.5/0.135)^2. *)
Definition rd_RF (CTh : R) : R := if Rltb (1371742 / 100000) CTh then 5 / 10 else 1 - 135 / 1000 * sqrt CTh.
Definition rd_Vchange (m : rudder) (Va T : R) : R := sqrt (Va * Va + 8 / PI * T / (rd_rho m * (rd_D m * rd_D m))) - Va.
Definition rd_vs_in (m : rudder) (CTh Va v T : R) : R * R := ((Va + rd_Kr m * rd_Vchange m Va T) * rd_RF CTh, v).
Definition rd_vs_out (Va v : R) : R * R := (Va, v).
(** lines 146-153: std::atan2. *)
Definition atan2 (y x : R) : R :=
  if Rltb 0 x then atan (y / x)
  else if Rltb x 0 then (if Rltb y 0 then atan (y / x) - PI else atan (y / x) + PI)
  else if Rltb 0 y then PI / 2 else if Rltb y 0 then - (PI / 2) else 0.
(** lines 167-179 *)
Definition rd_wrench (m : rudder) (rudder_angle fluid_angle Vs area : R) : option torsor :=
  let alpha := rudder_angle - fluid_angle in
  let Cl := rd_Cl m alpha in
  let lift := rd_lift m Vs Cl alpha area in
  match rd_Cd m Vs Cl with
  | None => None
  | Some Cd => Some (rd_force m lift (rd_drag m Vs Cd area) fluid_angle)
  end.
(** lines 181-191: area in the wake, area outside. *)
Definition rd_areas (m : rudder) (CTh : R) : R * R :=
  let Cj := 1 + rd_Kr m * (sqrt (1 + CTh) - 1) in
  let Dwake := rd_D m * sqrt ((1 + 5 / 10 * (sqrt (1 + CTh) - 1)) / Cj) in
  let in_wake := Rmin (rd_Ar m) (rd_chord m * Dwake) in
  (in_wake, rd_Ar m - in_wake).
(** lines 206-219 (get_rudder_force); [w] is the wake coefficient. *)
Definition rd_CTh (m : rudder) (Va T : R) : R :=
  let DVa := rd_D m * Va in
  if Rltb (Rabs DVa) (1 / 10000000000) then 800000000000000000000 / PI * T / rd_rho m else 8 / PI * T / (rd_rho m * (DVa * DVa)).
Definition rudder_force (m : rudder) (w u v beta T : R) : option torsor :=
  let Va := u * (1 - w) in
  let CTh := rd_CTh m Va T in
  let vi := rd_vs_in m CTh Va v T in
  let vo := rd_vs_out Va v in
  let (ai, ao) := rd_areas m CTh in
  match rd_wrench m beta (atan2 (snd vi) (fst vi)) (sqrt (fst vi * fst vi + snd vi * snd vi)) ai,
        rd_wrench m beta (atan2 (snd vo) (fst vo)) (sqrt (fst vo * fst vo + snd vo * snd vo)) ao with
  | Some a, Some b => Some (vadd (fst a) (fst b), vadd (snd a) (snd b))
  | _, _ => None
  end.

(** ** Propellers: AbstractWageningen.cpp:50-77. [Kt] and [Kq] are the coefficients of the series (or the splines of KtKqForceModel),
    functions of the advance ratio; [kappa] is -1 or 1. The case rpm = 0 is treated with floating point numbers in Propeller_Model. *)
Record propeller : Type := mkProp { pr_w : R; pr_etaR : R; pr_t : R; pr_clockwise : bool; pr_D : R; pr_rho : R; pr_Kt : R -> R; pr_Kq : R -> R }.
Definition advance_ratio (p : propeller) (u rpm : R) : R := (1 - pr_w p) * Rabs u / (rpm / (2 * PI)) / pr_D p.
Definition propeller_force (p : propeller) (u rpm : R) : torsor :=
  let n2 := rpm * rpm / (4 * PI * PI) in
  let J := advance_ratio p u rpm in
  let D4 := pr_D p * pr_D p * pr_D p * pr_D p in
  let D5 := D4 * pr_D p in
  let kappa := if pr_clockwise p then -1 else 1 in
  (V3 ((1 - pr_t p) * pr_rho p * n2 * D4 * pr_Kt p J) 0 0, V3 (kappa * pr_etaR p * pr_rho p * n2 * D5 * pr_Kq p J) 0 0).
(** RudderForceModel.cpp:193-204 and 221-231 (get_force). [translation_from_rudder_to_propeller] is the difference between the position of
    the propeller and [rudder_position], which is built from the position of the propeller too (line 196): it is null. The result of
    [change_point_of_application] (line 228) is not used. [norm6] is the norm of the 6-vector. *)
Definition norm6 (t : torsor) : R := sqrt (dot (fst t) (fst t) + dot (snd t) (snd t)).
Definition propeller_and_rudder (p : propeller) (m : rudder) (u v rpm beta : R) : option torsor :=
  let pf := propeller_force p u rpm in
  match rudder_force m (pr_w p) u v beta (norm6 pf) with
  | None => None
  | Some rf => Some (vadd (fst rf) (fst pf), vadd (snd rf) (snd pf))
  end.
