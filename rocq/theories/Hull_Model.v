(** Model of the geometry of facets (code/mesh/src/mesh_manipulations.cpp), of the forces integrated on a mesh (code/core, code/force_models) and of the
    volumes of code/mesh/src/MeshIntersector.cpp, over exact reals. A facet is given here by the coordinates of its vertices (the code stores
    indices in the table of nodes: see Mesh_Model). *)
From Coq Require Import Reals List Bool.
From Verif Require Import Common Geometry Sim_Model Force_Model.
Import ListNotations.
Open Scope R_scope.

(** Comparison [==] of doubles, over the reals. *)
Definition Reqb (a b : R) : bool := if Req_EM_T a b then true else false.

(** ** mesh_manipulations.cpp *)
(** lines 12-28: area of a triangle *)
Definition area3 (A B C : vec3) : R :=
  let x1 := vx B - vx A in let x2 := vy B - vy A in let x3 := vz B - vz A in
  let y1 := vx C - vx A in let y2 := vy C - vy A in let y3 := vz C - vz A in
  let a := x2 * y3 - x3 * y2 in let b := x3 * y1 - x1 * y3 in let c := x1 * y2 - x2 * y1 in
  5 / 10 * sqrt (a * a + b * b + c * c).
(** The loops [for (i = 2; i < n; ++i)] over (p[0], p[i-1], p[i]), lines 34-37, 45-50, 156-161, 171-178, 256-262 *)
Fixpoint fan_from (p0 prev : vec3) (l : list vec3) : list (vec3 * vec3 * vec3) :=
  match l with [] => [] | p :: l => (p0, prev, p) :: fan_from p0 p l end.
Definition fan (l : list vec3) : list (vec3 * vec3 * vec3) :=
  match l with p0 :: p1 :: l => fan_from p0 p1 l | _ => [] end.
(** lines 30-52 *)
Definition area (l : list vec3) : R := fold_left (fun a '(p, q, r) => a + area3 p q r) (fan l) 0.
(** lines 54-71: 0/0 without points *)
Definition barycenter (l : list vec3) : option vec3 :=
  match l with [] => None | _ => Some (vscale (/ INR (length l)) (fold_left vadd l v0)) end.
(** lines 96-121 (unit_normal of a matrix of points); std::numeric_limits<double>::epsilon() is 2^-52; hypot(hypot(A,B),C) is the norm. *)
Definition epsilon : R := / 4503599627370496.
Definition unit_normal (l : list vec3) : outcome vec3 :=
  match l with
  | p0 :: p1 :: p2 :: _ =>
      let c := cross (vsub p1 p0) (vsub p2 p0) in
      let n := norm c in
      if Rltb n (1000 * epsilon) then Ok v0 else Ok (V3 (vx c / n) (vy c / n) (vz c / n))
  | _ => Throw
  end.
(** lines 150-181; None: division by a null area. *)
Definition centre_of_gravity (l : list vec3) : option vec3 :=
  let areas := area l in
  let m := fold_left (fun m '(p, q, r) => vadd m (vscale (area3 p q r / 3) (vadd (vadd p q) r))) (fan l) v0 in
  if Rltb 0 areas then Some (vscale (/ areas) m) else None.
(** lines 216-225 (one facet): None is a comparison with NaN, that is false. *)
Definition oriented_clockwise_facet (l : list vec3) (G : option vec3) : outcome bool :=
  if (length l <? 3)%nat then Ok true else
  do n <- unit_normal l;
  match barycenter l, G with Some C, Some G => Ok (negb (Rltb 0 (dot n (vsub C G)))) | _, _ => Ok false end.

(** lines 73-94: barycentre of all the points of all the facets (with repetitions) *)
Definition mesh_barycenter (m : list (list vec3)) : option vec3 := barycenter (concat m).
(** lines 193-214 *)
Fixpoint count_clockwise (m : list (list vec3)) (G : option vec3) : outcome (nat * nat) :=
  match m with
  | [] => Ok (0%nat, 0%nat)
  | f :: m => do b <- oriented_clockwise_facet f G; do ca <- count_clockwise m G; let (c, a) := ca : nat * nat in if b then Ok (Datatypes.S c, a) else Ok (c, Datatypes.S a)
  end.
Definition oriented_clockwise (m : list (list vec3)) (G : option vec3) : outcome bool :=
  if (length m <? 2)%nat then Ok true else
  do ca <- count_clockwise m G; let (c, a) := ca : nat * nat in
  if (10 * a <? c)%nat then Ok true else if (10 * c <? a)%nat then Ok false else Throw.
(** MeshBuilder.cpp:15 and Mesh.cpp:38: the orientation factor of a mesh built with check_orientation *)
Definition orientation_factor (m : list (list vec3)) : outcome R :=
  do c <- oriented_clockwise m (mesh_barycenter m); Ok (if c then -1 else 1).

(** Facets as built by MeshBuilder.cpp:66-75 *)
Record facet : Type := mkFacet { f_points : list vec3; f_normal : vec3; f_area : R; f_centroid : option vec3 }.
Definition build_facet (l : list vec3) : outcome facet :=
  do n <- unit_normal l; Ok (mkFacet l n (area l) (centre_of_gravity l)).

(** ** SurfaceForceModel.cpp:22-53. [orientation] is the orientation factor, [dF] the result of get_dF for each facet: elementary force and
    point of application. [UnsafeWrench F(states.G)] is null. *)
Definition surface_force (orientation : R) (G : vec3) (dF : list (vec3 * vec3)) : torsor :=
  fold_left (fun (F : torsor) '(f, C) =>
    let x := vx C - vx G in let y := vy C - vy G in let z := vz C - vz G in
    (V3 (vx (fst F) + orientation * vx f) (vy (fst F) + orientation * vy f) (vz (fst F) + orientation * vz f),
     V3 (vx (snd F) + orientation * (y * vz f - z * vy f)) (vy (snd F) + orientation * (z * vx f - x * vz f)) (vz (snd F) + orientation * (x * vy f - y * vx f))))
    dF (v0, v0).
(** SurfaceForceModel.hpp:18-39: [T] is NED<-body. *)
Definition zG_in_NED (T : transform) (p : vec3) : R := vz (t_point T) + vx (r3 (t_rot T)) * vx p + vy (r3 (t_rot T)) * vy p + vz (r3 (t_rot T)) * vz p.
(** FastHydrostaticForceModel.cpp:44-63; [point] is get_application_point. *)
Definition hydrostatic_dF (point : facet -> vec3 -> R -> vec3) (rho g : R) (T : transform) (f : facet) : vec3 * vec3 :=
  if Reqb (f_area f) 0 then (v0, v0) else
  match f_centroid f with
  | None => (v0, v0) (* not reached: the centroid exists if the area is positive *)
  | Some c => let zG := zG_in_NED T c in (vscale (- rho * g * zG) (vscale (f_area f) (f_normal f)), point f c zG)
  end.
Definition fast_hydrostatic (rho g : R) (T : transform) (orientation : R) (G : vec3) (immersed : list facet) : torsor :=
  surface_force orientation G (map (hydrostatic_dF (fun _ c _ => c) rho g T) immersed).

(** ** Volumes: MeshIntersector.cpp:467-487 (center_of_mass of a facet) *)
Definition tetra_volume (a b c : vec3) : R :=
  (vx a * vy b * vz c - vx a * vy c * vz b - vx b * vy a * vz c + vx b * vy c * vz a + vx c * vy a * vz b - vx c * vy b * vz a) / 6.
Definition facet_com_sums (l : list vec3) : R * vec3 :=
  fold_left (fun '(v, m) '(a, b, c) => (v + tetra_volume a b c, vadd m (vscale (tetra_volume a b c / 4) (vadd (vadd a b) c)))) (fan l) (0, v0).
Definition facet_center_of_mass (l : list vec3) : vec3 * R :=
  let '(v, m) := facet_com_sums l in
  if Reqb v 0 then (v0, 0) else (vscale (/ v) m, v).
(** CenterOfMass.cpp:14-19 *)
Definition com_add (a b : vec3 * R) : vec3 * R := (vadd (fst a) (vscale (snd b) (fst b)), snd a + snd b).
(** MeshIntersector.cpp:418-442: [immersed] are the facets between begin and end, [lids] the coordinates of the closing facets that [has] does not find
    among them. The result is G, volume, all_facets_are_in_same_plane. *)
Definition same_plane (l : list facet) : bool :=
  match l with [] => false | f :: _ => forallb (fun g => Rltb (1 - / 1000000) (dot (f_normal f) (f_normal g))) l end.
Definition center_of_mass (immersed : list facet) (lids : list (list vec3)) : vec3 * R * bool :=
  match immersed with
  | [] => (v0, 0, false)
  | _ =>
      let ret := fold_left com_add (map facet_center_of_mass (map f_points immersed ++ lids)) (v0, 0) in
      ((if Reqb (snd ret) 0 then fst ret else vscale (/ snd ret) (fst ret)), Rabs (snd ret), same_plane immersed)
  end.
(** MeshIntersector.cpp:489-509 *)
Definition facet_volume (f : facet) : R := match f_points f with [] => 0 | p :: _ => f_area f * dot (f_normal f) p / 3 end.
Definition volume (l : list facet) : R :=
  let v := fold_left (fun v f => v + facet_volume f) l 0 in
  if (length l <? 3)%nat then 0 else v.
(** FastHydrostaticForceModel.cpp:65-71: [T] (NED<-body) is available but not used: the coordinates of G are those of the body frame. *)
Definition hydrostatic_potential_energy (rho g : R) (T : transform) (com : vec3 * R * bool) : R := let '(G, V, _) := com in - rho * g * V * vz G.
(** HydrostaticForceModel.cpp:30-64: force - rho g V along the vertical of NED, moved from B to G. [Tbn] is body<-NED (k->get(body, "NED")).
    The wrenches, frames and points are those of ssc (external): Force_Model. *)
Definition hydrostatic (rho g : R) (Tbn : transform) (G : vec3) (com : vec3 * R * bool) : torsor :=
  let '(B, V, flat) := com in
  let V := if flat then 0 else V in
  let force := mapply (t_rot Tbn) (V3 0 0 (- rho * g * V)) in
  (force, cross (vsub B G) force).

(** ** Exact application point: mesh_manipulations.cpp:227-387 *)
(** lines 227-246, only the elements that are set *)
Definition inertia_of_triangle (a b c : vec3) : R * R * R :=
  let x12 := vx a + vx b in let x13 := vx a + vx c in let x23 := vx b + vx c in
  let y12 := vy a + vy b in let y13 := vy a + vy c in let y23 := vy b + vy c in
  ((x12 * x12 + x13 * x13 + x23 * x23) / 12, (x12 * y12 + x13 * y13 + x23 * y23) / 12, (y12 * y12 + y13 * y13 + y23 * y23) / 12).
(** lines 248-266: elements (0,0), (0,1), (1,1); None: fewer than three points (uninitialised matrix) or null area *)
Definition inertia_of_polygon (l : list vec3) : option (R * R * R) :=
  let s := fold_left (fun '(s, xx, xy, yy) '(a, b, c) =>
     let S := area3 a b c in let '(jxx, jxy, jyy) := inertia_of_triangle a b c in (s + S, xx + jxx * S, xy + jxy * S, yy + jyy * S)) (fan l) (0, 0, 0, 0) in
  let '(s, xx, xy, yy) := s in
  if Rltb 0 s then Some (xx / s, xy / s, yy / s) else None.
(** lines 354-368 (project_facet_on_free_surface); [h] gives the relative immersion of each vertex. *)
Definition project_on_free_surface (down : vec3) (l : list (vec3 * R)) : list vec3 := map (fun '(p, h) => vsub p (vscale h down)) l.
(** lines 283-299 *)
Definition normal_to_free_surface (down : vec3) (l : list (vec3 * R)) : outcome vec3 :=
  do ns <- unit_normal (project_on_free_surface down l);
  if Rltb (norm ns) (5 / 10) then Ok down else if Rltb (dot ns down) 0 then Ok (vopp ns) else Ok ns.
(** lines 301-327; UB: the returned matrix is not initialised ([R20.Zero()] does not modify it) *)
Definition facet_trihedron (n ns : vec3) : outcome mat3 :=
  let i20 := cross ns n in
  if Rltb (norm i20) (1000 * epsilon) then UB else
  let i20 := vscale (/ norm i20) i20 in
  let j20 := cross n i20 in
  if Rltb (dot ns j20) 0 then Ok (M3 (vopp i20) (vopp j20) n) else Ok (M3 i20 j20 n).
(** lines 329-352 and 370-387; the trihedron is computed before the test but not used in that case: reading it is not modelled. None: division by zero. *)
Definition exact_application_point (n c : vec3) (l : list (vec3 * R)) (down : vec3) (zG : R) : outcome (option vec3) :=
  do ns <- normal_to_free_surface down l;
  if Rltb (norm (cross n ns)) (1000 * epsilon) then Ok (Some c) else
  do R20 <- facet_trihedron n ns;
  match inertia_of_polygon (map (fun '(p, _) => mapply R20 (vsub p c)) l) with
  | None => Ok None
  | Some (jxx, jxy, jyy) =>
      let yG := zG * dot ns down / dot ns (r2 R20) in
      if Reqb yG 0 then Ok None else
      Ok (Some (vadd c (mapply (transpose R20) (V3 (jxy / yG) (jxx / yG) 0))))
  end.
(** Body.cpp:98-105 (update_projection_of_z_in_mesh_frame): [rot] is the rotation of k->get("NED","mesh(body)"). *)
Definition down_direction (rot : mat3) (g : R) : vec3 := mapply rot (V3 0 0 g).
