(** Specification vocabulary for the force models: mechanics of rigid bodies, independent of the code. *)
From Coq Require Import Reals List.
From Verif Require Import Geometry.
Open Scope R_scope.

(** Velocity of point P of a rigid body whose point A has velocity [vA] and whose angular velocity is [omega]. *)
Definition velocity_at (vA omega A P : vec3) : vec3 := vadd vA (cross omega (vsub P A)).
(** Power of a force and a torque about a point moving with the body. *)
Definition power (force torque v omega : vec3) : R := dot force v + dot torque omega.
(** Torque about G of a force applied at P with a torque about P. *)
Definition torque_about (G P force torque : vec3) : vec3 := vadd torque (cross (vsub P G) force).

(** Scalar product of two 6-vectors. *)
Definition dot6 (a b : nat -> R) : R := a 0%nat * b 0%nat + a 1%nat * b 1%nat + a 2%nat * b 2%nat + a 3%nat * b 3%nat + a 4%nat * b 4%nat + a 5%nat * b 5%nat.
(** Quadratic form of a 6x6 matrix. *)
Definition form6 (D : nat -> nat -> R) (v : nat -> R) : R :=
  dot6 v (fun i => D i 0%nat * v 0%nat + D i 1%nat * v 1%nat + D i 2%nat * v 2%nat + D i 3%nat * v 3%nat + D i 4%nat * v 4%nat + D i 5%nat * v 5%nat).
Definition positive_semi_definite (D : nat -> nat -> R) : Prop := forall v, 0 <= form6 D v.
Definition non_negative_diagonal (D : nat -> nat -> R) : Prop :=
  forall i j, (i < 6)%nat -> (j < 6)%nat -> 0 <= D i i /\ (i <> j -> D i j = 0).

(** Mirror image of a force or torque with respect to the longitudinal plane y = 0 (a torque is a pseudo-vector). *)
Definition mirror_force (f : vec3) : vec3 := V3 (vx f) (- vy f) (vz f).
Definition mirror_torque (m : vec3) : vec3 := V3 (- vx m) (vy m) (- vz m).
