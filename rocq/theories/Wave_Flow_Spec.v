(** Specification of a linear (Airy) water flow, independent of the model: partial derivatives are those of the standard library.
    Coordinates are NED: z is positive downwards, the sea is at rest when the free surface is z = 0, and the sea bed is z = h. *)
From Coq Require Import Reals List.
Import ListNotations.
Open Scope R_scope.

(** A scalar field of (x, y, z, t). *)
Definition field : Type := R -> R -> R -> R -> R.
Definition d_dx (f : field) (x y z t d : R) : Prop := derivable_pt_lim (fun s => f s y z t) x d.
Definition d_dy (f : field) (x y z t d : R) : Prop := derivable_pt_lim (fun s => f x s z t) y d.
Definition d_dz (f : field) (x y z t d : R) : Prop := derivable_pt_lim (fun s => f x y s t) z d.
Definition d_dt (f : field) (x y z t d : R) : Prop := derivable_pt_lim (fun s => f x y z s) t d.

(** Mass is conserved: du/dx + dv/dy + dw/dz = 0. *)
Definition divergence_free (u v w : field) : Prop := forall x y z t, exists ux vy wz,
  d_dx u x y z t ux /\ d_dy v x y z t vy /\ d_dz w x y z t wz /\ ux + vy + wz = 0.
(** No rotation. *)
Definition irrotational (u v w : field) : Prop := forall x y z t, exists uy uz vx vz wx wy,
  d_dy u x y z t uy /\ d_dz u x y z t uz /\ d_dx v x y z t vx /\ d_dz v x y z t vz /\ d_dx w x y z t wx /\ d_dy w x y z t wy /\
  vx = uy /\ wx = uz /\ wy = vz.
(** Linearised Euler equation: rho d(u,v,w)/dt = - grad p, where p is the dynamic pressure. *)
Definition linear_momentum (rho : R) (u v w p : field) : Prop := forall x y z t, exists ut vt wt px py pz,
  d_dt u x y z t ut /\ d_dt v x y z t vt /\ d_dt w x y z t wt /\ d_dx p x y z t px /\ d_dy p x y z t py /\ d_dz p x y z t pz /\
  rho * ut = - px /\ rho * vt = - py /\ rho * wt = - pz.
(** A water particle of the (linearised) free surface stays on it: w(z=0) = d eta / dt. *)
Definition kinematic_condition (w : field) (eta : R -> R -> R -> R) : Prop :=
  forall x y t, derivable_pt_lim (fun s => eta x y s) t (w x y 0 t).
(** The pressure is constant on the (linearised) free surface: the dynamic pressure at z = 0 is the weight of the water above it. *)
Definition dynamic_condition (rho g : R) (p : field) (eta : R -> R -> R -> R) : Prop :=
  forall x y t, p x y 0 t = - (rho * g * eta x y t).
