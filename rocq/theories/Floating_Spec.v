(** What the properties of a floating hull (C102-C104) talk about. Nothing here refers to the model. *)
From Coq Require Import Reals List Permutation.
From Verif Require Import Geometry Hull_Spec Mesh_Spec.
Import ListNotations.
Open Scope R_scope.

Section Water.
  (** Depth of each point under the water surface (negative above). *)
  Variable im : vec3 -> R.
  (** The point of the surface on the segment [a, b], by linear interpolation of the depth *)
  Definition crossing_point (a b : vec3) : vec3 := cut (a, im a) (b, im b).
  (** The part of a polygon that is under water (Sutherland-Hodgman) *)
  Definition wet (l : list vec3) : list vec3 := clip 1 (map (fun p => (p, im p)) l).
  (** Where one enters the water, and leaves it, when running around a polygon *)
  Definition entry_points (l : list vec3) : list vec3 :=
    flat_map (fun '(a, b) => if Rlt_dec (im a) 0 then if Rlt_dec 0 (im b) then [crossing_point a b] else [] else []) (cyclic_pairs l).
  Definition exit_points (l : list vec3) : list vec3 :=
    flat_map (fun '(a, b) => if Rlt_dec 0 (im a) then if Rlt_dec (im b) 0 then [crossing_point a b] else [] else []) (cyclic_pairs l).
  (** The segment of the water surface in a triangle, run with the water on the right of the outward normal, and the segments of a hull *)
  Definition segments (l : list vec3) : list (vec3 * vec3) := combine (entry_points l) (exit_points l).
  Definition waterline (v : list (list vec3)) : list (vec3 * vec3) := flat_map segments v.
  (** The waterline is made of the closed lines [lines], without a common point nor a double point. *)
  Definition waterlines (v lines : list (list vec3)) : Prop := Permutation (waterline v) (edges lines) /\ NoDup (concat lines).
End Water.
