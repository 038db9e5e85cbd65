(** Specification vocabulary for hulls: polygons, closed surfaces, enclosed volumes and pressure integrals. Nothing here refers to the model. *)
From Coq Require Import Reals List Permutation.
From Coquelicot Require Import Coquelicot.
From Verif Require Import Geometry.
Import ListNotations.
Open Scope R_scope.

(** The directed edges of the boundary of a polygon. *)
Fixpoint path (p : vec3) (l : list vec3) (last : vec3) : list (vec3 * vec3) :=
  match l with [] => [(p, last)] | q :: l => (p, q) :: path q l last end.
Definition cycle (l : list vec3) : list (vec3 * vec3) := match l with [] => [] | p :: l => path p l p end.
Definition swap (e : vec3 * vec3) : vec3 * vec3 := (snd e, fst e).
(** A surface is closed (watertight) when each directed edge is matched by the opposite directed edge of a facet. *)
Definition edges (m : list (list vec3)) : list (vec3 * vec3) := concat (map cycle m).
Definition closed (m : list (list vec3)) : Prop := Permutation (edges m) (map swap (edges m)).

(** A convex polygon of unit normal [n]: its vertices are in a plane orthogonal to [n] and any three of them, in order, turn anticlockwise around [n]
    (or are aligned). *)
Definition convex (n : vec3) (l : list vec3) : Prop :=
  norm n = 1 /\
  (forall p q, In p l -> In q l -> dot n (vsub q p) = 0) /\
  (forall i j k, (i < j)%nat -> (j < k)%nat -> (k < length l)%nat ->
     0 <= dot n (cross (vsub (nth j l v0) (nth i l v0)) (vsub (nth k l v0) (nth i l v0)))).

(** Signed volume and first moment of the tetrahedron (O, a, b, c): positive when the normal of (a, b, c) points away from O. *)
Definition tetrahedron (t : vec3 * vec3 * vec3) : R := let '(a, b, c) := t in det3 a b c / 6.
Definition tetrahedron_moment (t : vec3 * vec3 * vec3) : vec3 := let '(a, b, c) := t in vscale (det3 a b c / 6) (vscale (/ 4) (vadd a (vadd b c))).
(** A convex polygon is the union of the triangles (p0, p_i, p_i+1). *)
Fixpoint triangles_from (p0 p : vec3) (l : list vec3) : list (vec3 * vec3 * vec3) :=
  match l with [] => [] | q :: l => (p0, p, q) :: triangles_from p0 q l end.
Definition triangles (l : list vec3) : list (vec3 * vec3 * vec3) := match l with p0 :: p :: l => triangles_from p0 p l | _ => [] end.
Definition Rsum (l : list R) : R := fold_right Rplus 0 l.
(** Volume enclosed by a closed surface with outward normals, and its centre times its volume. *)
Definition enclosed_volume (m : list (list vec3)) : R := Rsum (map tetrahedron (concat (map triangles m))).
Definition volume_moment (m : list (list vec3)) : vec3 := vsum (map tetrahedron_moment (concat (map triangles m))).

(** Integral over the triangle (a, b, c) of a scalar field, times the unit normal and, for the second, with the moment about the origin: surface integrals
    computed with the parametrisation a + u (b - a) + v (c - a), 0 <= u, 0 <= v, u + v <= 1, of vector area element (b - a) x (c - a) du dv. *)
Definition at_uv (a b c : vec3) (u v : R) : vec3 := vadd a (vadd (vscale u (vsub b a)) (vscale v (vsub c a))).
Definition integral (f : vec3 -> R) (t : vec3 * vec3 * vec3) : R :=
  let '(a, b, c) := t in RInt (fun u => RInt (fun v => f (at_uv a b c u v)) 0 (1 - u)) 0 1.
Definition vector_area (t : vec3 * vec3 * vec3) : vec3 := let '(a, b, c) := t in cross (vsub b a) (vsub c a).
(** Force and torque about [G] of the pressure [p] on a triangle: - int p n dS and - int (x - G) x p n dS *)
Definition pressure_force (p : vec3 -> R) (t : vec3 * vec3 * vec3) : vec3 := vscale (- integral p t) (vector_area t).
Definition pressure_torque (p : vec3 -> R) (G : vec3) (t : vec3 * vec3 * vec3) : vec3 :=
  vopp (cross (V3 (integral (fun x => p x * (vx x - vx G)) t) (integral (fun x => p x * (vy x - vy G)) t) (integral (fun x => p x * (vz x - vz G)) t)) (vector_area t)).

(** A facet the mesh code can orient: a convex polygon whose first three vertices are not aligned: the parallelogram they span has an area of at least [tol]. *)
Definition well_shaped (tol : R) (n : vec3) (l : list vec3) : Prop :=
  convex n l /\ match l with a :: b :: c :: _ => tol <= norm (cross (vsub b a) (vsub c a)) | _ => False end.
(** Depth of a point of the body when [T] transforms body coordinates into NED coordinates. *)
Definition depth (T : transform) (p : vec3) : R := vz (tapply T p).
