(** Model of the non-linear Froude-Krylov force: the update of the intersection of a hull with the waves (BodyWithSurfaceForces.cpp:20-38,
    SurfaceElevationInterface.cpp:92-114) and the force (FroudeKrylovForceModel.cpp:24-75, SurfaceForceModel.cpp:22-53). Over exact reals. *)
From Coq Require Import Reals List Bool.
From Verif Require Import Common Wave_Model Geometry Force_Model Hull_Model Mesh_Model Mesh_Spec Closing_Model.
Import ListNotations.
Open Scope R_scope.

(** The two implementations of SurfaceElevationInterface: DefaultSurfaceElevation (DefaultSurfaceElevation.cpp:10-61) with its constant wave height, and
    SurfaceElevationFromWaves with its spectra. The gRPC client is in Grpc_Client_Model. *)
Inductive sea : Type := Calm (height : R) | Waves (fs : list (flat R)).
Definition sea_height (s : sea) (x y : list R) (t : R) : outcome (list R) :=
  match s with
  | Calm h => if negb (Nat.eqb (length x) (length y)) then Throw else Ok (repeat h (length x))
  | Waves fs => get_and_check_wave_height fs x y t
  end.
Definition sea_pressure (s : sea) (rho g : R) (x y z eta : list R) (t : R) : outcome (list R) :=
  match s with
  | Calm _ => Ok (repeat 0 (length x))
  | Waves fs => surface_dynamic_pressure fs rho g x y z eta t
  end.
(** SurfaceElevationInterface.cpp:92-114: elevations and relative heights of the points [P] of the frame whose position in NED is [T]
    (SurfaceElevationInterface.cpp:19-39); [stored] are the previous ones, kept when there is no point (line 99). *)
Definition heights (s : sea) (T : transform) (t : R) (stored : list R * list R) (P : list vec3) : outcome (list R * list R) :=
  match P with
  | [] => Ok stored
  | _ => let OP := map (tapply T) P in
         do zs <- sea_height s (map vx OP) (map vy OP) t;
         do rel <- mapM (fun i => do p <- at_ub OP i; do z <- at_throw zs i; Ok (vz p - z)) (seq 0 (length OP));
         Ok (zs, rel)
  end.
(** BodyWithSurfaceForces.cpp:20-38. [states.M] are the nodes of the mesh without the points added by the intersection (BodyBuilder.cpp:57,64). *)
Definition immerse (s : sea) (T : transform) (t : R) (stored : list R * list R) (I : inter) : outcome inter :=
  do h <- heights s T t stored (static_nodes (i_mesh I));
  update_intersection I (snd h) (fst h).

(** FroudeKrylovForceModel.cpp:31-42: mean of the elevations of the vertices of a facet *)
Definition facet_eta (I : inter) (f : mfacet) : outcome R :=
  do zs <- mapO_list (at_throw (i_waves I)) (mf_vertices f);
  Ok (match mf_vertices f with [] => 0 | l => fold_left Rplus zs 0 / INR (length l) end).
(** FroudeKrylovForceModel.cpp:24-75 (get_dF) within SurfaceForceModel.cpp:22-53. [G] is the centre of gravity in the body frame. The area of a
    facet may be zero: its centroid is then NaN ([None]); its coordinates are then replaced by zeros here to know whether the wave model throws, and the result is
    [None]: some components of the wrench are NaN (the torques at least, because of the lever arms of lines 42-44). *)
Definition centroid_or_zero (f : mfacet) : vec3 := match mf_centroid f with Some c => c | None => v0 end.
Definition has_centroid (f : mfacet) : bool := match mf_centroid f with Some _ => true | None => false end.
Definition froude_krylov_dF (f : mfacet) (p : R) : vec3 * vec3 := (vscale (- p) (vscale (mf_area f) (mf_normal f)), centroid_or_zero f).
Definition froude_krylov (s : sea) (rho g : R) (T : transform) (t : R) (G : vec3) (I : inter) : outcome (option torsor) :=
  do fs <- facets_at I (i_immersed I);
  do etas <- mapO_list (facet_eta I) fs;
  let OP := map (fun f => tapply T (centroid_or_zero f)) fs in
  do pdyn <- sea_pressure s rho g (map vx OP) (map vy OP) (map vz OP) etas t;
  do dF <- mapO_list (fun i => do f <- at_throw fs i; do p <- at_throw pdyn i; Ok (froude_krylov_dF f p)) (seq 0 (length fs));
  Ok (if forallb has_centroid fs then Some (surface_force (m_orientation (i_mesh I)) G dF) else None).
