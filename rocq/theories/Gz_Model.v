(** Model of the righting-lever tool: code/gz_curves/src/GZCurve.cpp, gz_newton_raphson.cpp, ResultantForceComputer.cpp and
    code/force_models/src/calculate_gz.cpp, over exact reals. The forces on the hull (gravity and hydrostatic) are parameters: a function giving
    the vertical force, the roll moment, the pitch moment and GZ of the hull in a given position, or an error. *)
From Coq Require Import Reals List Bool ZArith.
From Verif Require Import Common Geometry Sim_Model Force_Model.
Import ListNotations.
Open Scope R_scope.

(** GZTypes.hpp: State is (z, phi, theta); Resultant is (Z, K, M) and gz. *)
Record resultant : Type := mkRes { r_Z : R; r_K : R; r_M : R; r_gz : R }.
Definition force_function := R -> R -> R -> outcome resultant.

(** ** GZCurve.cpp *)
(** lines 46-58 *)
Definition check_input (dphi phi_max : R) : outcome unit :=
  if Rltb 0 dphi then if Rltb 0 phi_max then if Rltb phi_max dphi then Throw else Ok tt else Throw else Throw.
(** std::round (half away from zero) of a positive number *)
Definition round_half_up (x : R) : Z := (up (x + / 2) - 1)%Z.
(** lines 61-71. The counter is an int compared with a double: the overflow of the counter above 2^31 points is not modelled. *)
Definition compute_phi (dphi phi_max : R) : list R :=
  let N := round_half_up (phi_max / dphi) in
  [- phi_max] ++ map (fun i => (INR i - IZR N) * dphi) (seq 1 (Z.to_nat (2 * N) - 1)) ++ [phi_max].
(** lines 85-89 *)
Definition get_phi (dphi phi_max : R) : outcome (list R) := do _ <- check_input dphi phi_max; Ok (compute_phi dphi phi_max).

(** lines 92-101 *)
Definition delta (z : R * R) : R := snd z - fst z.
Definition average (z : R * R) : R := 5 / 10 * (fst z + snd z).
(** lines 115-121: the while loop. Running out of fuel is reported as UB: termination is to be proved. *)
Fixpoint bisection (fuel : nat) (FZ : R -> outcome R) (z : R * R) : outcome R :=
  if Rltb (1 / 10 ^ 10) (delta z) then
    match fuel with
    | O => UB
    | S fuel => let z0 := average z in do FZ0 <- FZ (average z);
        bisection fuel FZ (if Rltb FZ0 0 then (fst z, z0) else (z0, snd z))
    end
  else Ok (average z).
(** lines 103-122, from the bracket returned by get_zmin_zmax. *)
Definition zeq_in (fuel : nat) (FZ : R -> outcome R) (z : R * R) : outcome R :=
  do FZ_min <- FZ (snd z); do FZ_max <- FZ (fst z);
  if Rltb 0 FZ_min then Ok (fst z) else
  if Rltb FZ_max 0 then Throw else
  bisection fuel FZ z.
(** ResultantForceComputer.cpp:98-121: smallest and largest z of the points of the mesh, in the NED frame, for a body at z = 0 with the given
    heel and no trim. [mesh] are the points in the body frame. The rotation of angle phi about x: x unchanged, z = sin(phi) y + cos(phi) z. *)
Definition heeled_z (phi : R) (p : vec3) : R := sin phi * vy p + cos phi * vz p.
Definition get_zmin_zmax (mesh : list vec3) (phi : R) : outcome (R * R) :=
  match mesh with
  | [] => UB
  | p :: mesh => Ok (fold_left (fun m q => Rmin m (heeled_z phi q)) mesh (heeled_z phi p), fold_left (fun m q => Rmax m (heeled_z phi q)) mesh (heeled_z phi p))
  end.
Definition zeq (fuel : nat) (mesh : list vec3) (f : force_function) (phi theta : R) : outcome R :=
  do z <- get_zmin_zmax mesh phi; zeq_in fuel (fun z => do r <- f z phi theta; Ok (r_Z r)) z.

(** ** gz_newton_raphson.cpp *)
Definition state := (R * R * R)%type.
Definition sz (x : state) := fst (fst x).
Definition sphi (x : state) := snd (fst x).
Definition stheta (x : state) := snd x.
(** lines 13-16 *)
Definition delta3 (a b : state) : R := Rmax (Rmax (Rabs (sz a - sz b)) (Rabs (sphi a - sphi b))) (Rabs (stheta a - stheta b)).
(** a 2x2 matrix *)
Record mat2 : Type := mkM2 { k00 : R; k01 : R; k10 : R; k11 : R }.
(** lines 26-43 *)
Fixpoint newton_loop (n : nat) (f : force_function) (K : state -> outcome mat2) (eps : R) (Xn Xn_1 : state) : outcome state :=
  match n with
  | O => Ok Xn
  | S n =>
      if Rltb (delta3 Xn Xn_1) eps then Ok Xn else
      let Xn_1 := Xn in
      do k <- K Xn_1;
      let det := k00 k * k11 k - k01 k * k10 k in
      if Rltb (Rabs det) (1 / 10 ^ 15) then Throw else
      do r <- f (sz Xn_1) (sphi Xn_1) (stheta Xn_1);
      let y := (r_Z r, r_K r, r_M r) in
      if Rltb (delta3 y (0, 0, 0)) eps then Ok Xn else
      newton_loop n f K eps (sz Xn_1 - (k11 k * sz y - k01 k * stheta y) / det, sphi Xn, stheta Xn_1 - (k00 k * stheta y - k10 k * sz y) / det) Xn_1
  end.
Definition newton_raphson (X0 : state) (f : force_function) (K : state -> outcome mat2) (max_it : nat) (eps : R) : outcome state :=
  newton_loop max_it f K eps X0 (sz X0 + 2 * eps, sphi X0 + 2 * eps, stheta X0 + 2 * eps).

(** ** ResultantForceComputer.cpp:70-96: centred differences; dz and dtheta are both 1E-6 by default *)
Definition stiffness (f : force_function) (dz dtheta : R) (X : state) : outcome mat2 :=
  do a <- f (sz X + dz / 2) (sphi X + 0) (stheta X + 0); do b <- f (sz X - dz / 2) (sphi X - 0) (stheta X - 0);
  do c <- f (sz X + 0) (sphi X + 0) (stheta X + dtheta / 2); do d <- f (sz X - 0) (sphi X - 0) (stheta X - dtheta / 2);
  Ok (mkM2 ((r_Z a - r_Z b) / dz) ((r_Z c - r_Z d) / dtheta) ((r_M a - r_M b) / dz) ((r_M c - r_M d) / dtheta)).

(** GZCurve.cpp:73-79: the result of newton_raphson is not used. *)
Definition get_Xeq (fuel : nat) (mesh : list vec3) (f : force_function) : outcome state :=
  do z0 <- zeq fuel mesh f 0 0;
  do _ <- newton_raphson (z0, 0, 0) f (stiffness f (1 / 10 ^ 6) (1 / 10 ^ 6)) 100 (1 / 10 ^ 6);
  Ok (z0, 0, 0).
(** GZCurve.cpp:81: theta_eq *)
Definition theta_eq (fuel : nat) (mesh : list vec3) (f : force_function) : outcome R := do x <- get_Xeq fuel mesh f; Ok (stheta x).
(** GZCurve.cpp:124-129 *)
Definition gz (fuel : nat) (mesh : list vec3) (f : force_function) (theta phi : R) : outcome R :=
  do z <- zeq fuel mesh f phi theta; do r <- f z phi theta; Ok (r_gz r).

(** ** calculate_gz.cpp:11-21: [rot] is the rotation from body to NED coordinates. None: division by zero. *)
Definition calculate_gz (rot : mat3) (force torque : vec3) : option R :=
  let X := mapply rot (V3 1 0 0) in
  if Req_EM_T (vz force) 0 then None else Some ((vx X * vx torque + vy X * vy torque) / vz force / norm X).
