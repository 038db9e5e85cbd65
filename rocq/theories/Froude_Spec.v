(** Specification vocabulary for the Froude-Krylov force: elevation and dynamic pressure of a sea state (linear wave theory). *)
From Coq Require Import Reals List Bool.
From Verif Require Import Common Wave_Model Wave_Spec Wave_Surface_Props Geometry Hull_Model Mesh_Model Mesh_Spec Cut_Props Frame_Model Froude_Model.
Import ListNotations.
Open Scope R_scope.

(** The i-th wave of a model *)
Definition wave_at (f : flat R) (i : nat) : wave := mkWave (nth i (f_a f) 0) (nth i (f_omega f) 0) (nth i (f_k f) 0) (nth i (f_psi f) 0) (nth i (f_phase f) 0).
(** Sum over all the waves of all the models of a sea state *)
Definition over_waves (fs : list (flat R)) (q : flat R -> wave -> R) : R :=
  Wave_Spec.Rsum (map (fun f => Wave_Spec.Rsum (map (fun i => q f (wave_at f i)) (seq 0 (length (f_psi f))))) fs).
(** Elevation (z downwards) at a point of NED: that of the calm sea, or the sum of those of the waves *)
Definition elevation (s : sea) (t : R) (p : vec3) : R :=
  match s with Calm h => h | Waves fs => over_waves fs (fun _ W => weta W (vx p) (vy p) t) end.
(** Dynamic pressure at a point [p] of NED that is under or above the elevation [eta]: rho g times the sum of a F(k, z, eta) sin(angle), where F is the factor chosen
    for the model (depth, stretching). *)
Definition dynamic_pressure (s : sea) (rho g t : R) (p : vec3) (eta : R) : R :=
  match s with
  | Calm _ => 0
  | Waves fs => if Rlt_dec (vz p) eta then 0 else rho * g * over_waves fs (fun f W => wa W * f_pdyn f (wk W) (vz p) eta * sin (wangle W (vx p) (vy p) t))
  end.
(** The waves come from the constructors of the wave models. *)
Definition regular_sea (s : sea) : Prop := match s with Calm _ => True | Waves fs => List.Forall airy fs end.
(** The mesh of a hull of polygons [v]: built from them, or built in another frame and moved to the frame of the body. *)
Definition hull_mesh (v : list (list vec3)) (m : mesh) : Prop :=
  (exists check, build_mesh check v = Ok m) \/
  (exists rot p v0, rotation rot /\ change_mesh_ref_frame rot p v0 = Ok m /\ v = map (map (to_body rot p)) v0).
(** Mean elevation of the vertices of a facet *)
Definition mean_elevation (I : inter) (f : mfacet) : R :=
  Wave_Spec.Rsum (map (fun i => nth i (i_waves I) 0) (mf_vertices f)) / INR (length (mf_vertices f)).
(** Force on a facet: minus the pressure at its centroid times its area along its normal *)
Definition facet_force (s : sea) (rho g t : R) (T : transform) (I : inter) (f : mfacet) : vec3 :=
  vscale (- (dynamic_pressure s rho g t (tapply T (centroid_or_zero f)) (mean_elevation I f) * mf_area f)) (mf_normal f).
