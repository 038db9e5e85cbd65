(** Model of force models in a simulation without wave model: the section "environment models" may be empty (SimulatorBuilder.cpp:73-102 then returns
    a null pointer; the user's guide, modeles_environnementaux.md line 3, allows it). Constructors: ExactHydrostaticForceModel.cpp:14-20,
    FastHydrostaticForceModel.cpp:16-22, FroudeKrylovForceModel.cpp:15-21, DiffractionForceModel.cpp:73-113, GMForceModel.cpp:27-38,
    LinearHydrostaticForceModel.cpp:60-84, HydrostaticForceModel.cpp:20-23. Evaluations: BodyWithSurfaceForces.cpp:20-38,
    LinearHydrostaticForceModel.cpp:101-136, HydrostaticForceModel.cpp:30-64, SurfaceForceModel.cpp. Speed of the water: RudderForceModel.cpp:206-265. *)
From Coq Require Import Reals List String.
From Verif Require Import Common Wave_Model Geometry Force_Model Hull_Model Mesh_Model Mesh_Spec Closing_Model Froude_Model.
Import ListNotations.
Open Scope R_scope.
Open Scope list_scope.

(** What the forces see of a body at an instant: position in NED (NED<-body), date, centre of gravity, Euler angles phi and theta. *)
Record instant : Type := mkInstant { in_T : transform; in_t : R; in_G : vec3; in_phi : R; in_theta : R }.
(** The models of simulator_api.cpp:53-72. [Other]: those whose constructor and evaluation do not use the wave model (or only if there is one: gRPC). *)
Inductive force : Type :=
| Exact | Fast | FroudeKrylov | Diffraction | Gm
| Linear (m : linear_hydrostatics)
| Hydrostatic
| Other (name : string) (f : instant -> outcome torsor).
Definition name (f : force) : string :=
  match f with
  | Exact => "non-linear hydrostatic (exact)" | Fast => "non-linear hydrostatic (fast)" | FroudeKrylov => "non-linear Froude-Krylov" | Diffraction => "diffraction" | Gm => "GM"
  | Linear _ => "linear hydrostatics" | Hydrostatic => "hydrostatic" | Other n _ => n
  end%string.
(** "<< model_name" without parentheses writes the address of a static member function, converted to bool: "1" (the standard library has no other overload).
    FroudeKrylovForceModel.cpp:19 calls the function. *)
Definition written_name (f : force) : string := match f with FroudeKrylov => name FroudeKrylov | _ => "1" end.
Definition refusal (f : force) : string := ("Force model '" ++ written_name f ++ "' needs a wave model, even if it's 'no waves'")%string.
(** The test of the constructors *)
Definition checked (f : force) : bool := match f with Exact | Fast | FroudeKrylov | Diffraction | Gm => true | _ => false end.
(** Construction of the models of a body, in order: an error message, or nothing *)
Fixpoint construct (w : option sea) (fs : list force) : option string :=
  match fs with
  | [] => None
  | f :: r => match w with None => if checked f then Some (refusal f) else construct w r | Some _ => construct w r end
  end.

Section Evaluation.
Variables rho g : R.
(** The models that need waves, when there are waves (other files: C58, C75, C82, C113, C127). *)
Variable with_waves : force -> sea -> instant -> inter -> outcome torsor.
(** BodyWithSurfaceForces.cpp:20-38: nothing without wave model *)
Definition update_hull (w : option sea) (i : instant) (stored : list R * list R) (I : inter) : outcome inter :=
  match w with None => Ok I | Some s => immerse s (in_T i) (in_t i) stored I end.
(** LinearHydrostaticForceModel.cpp:101-136; [env.w->] on a null pointer is undefined behaviour *)
Definition linear_evaluation (m : linear_hydrostatics) (w : option sea) (i : instant) : outcome torsor :=
  match w with
  | None => UB
  | Some s =>
      let P := map (tapply (in_T i)) [lh_P1 m; lh_P2 m; lh_P3 m; lh_P4 m] in
      do z <- sea_height s (map vx P) (map vy P) (in_t i);
      do z1 <- at_ub z 0; do z2 <- at_ub z 1; do z3 <- at_ub z 2; do z4 <- at_ub z 3;
      Ok (linear_hydrostatic_force m z1 z2 z3 z4 (vz (t_point (in_T i))) (in_phi i) (in_theta i))
  end.
(** [Tbn] of Hull_Model: body<-NED. The object is changed by the query (closing facets). Without wave model the checked models do not exist; their evaluation would
    use the null pointer or an intersection that was never computed. *)
Definition evaluate (w : option sea) (f : force) (i : instant) (I : inter) : outcome (inter * torsor) :=
  match f with
  | Linear m => do x <- linear_evaluation m w i; Ok (I, x)
  | Hydrostatic =>
      do c <- center_of_mass_immersed I;
      Ok (fst c, hydrostatic rho g (mkT (transpose (t_rot (in_T i))) (vopp (mapply (transpose (t_rot (in_T i))) (t_point (in_T i))))) (in_G i) (snd c))
  | Other _ f => do x <- f i; Ok (I, x)
  | _ => match w with None => UB | Some s => do x <- with_waves f s i I; Ok (I, x) end
  end.
Fixpoint evaluate_all (w : option sea) (fs : list force) (i : instant) (I : inter) : outcome (inter * list torsor) :=
  match fs with
  | [] => Ok (I, [])
  | f :: r => do x <- evaluate w f i I; do y <- evaluate_all w r i (fst x); Ok (fst y, snd x :: snd y)
  end.
(** The evaluations of a simulation, each with the stored elevations it finds *)
Fixpoint evaluations (w : option sea) (fs : list force) (l : list (instant * (list R * list R))) (I : inter) : outcome (list (list torsor)) :=
  match l with
  | [] => Ok []
  | (i, stored) :: r => do I <- update_hull w i stored I; do x <- evaluate_all w fs i I; do y <- evaluations w fs r (fst x); Ok (snd x :: y)
  end.
End Evaluation.

(** ** The rudder and the waves *)
(** RudderForceModel.cpp:206-231: the efforts use the surge and sway velocities of the body and the commands; the wave model is a member that is not used. *)
Definition propeller_and_rudder_in (w : option sea) (p : propeller) (m : rudder) (u v rpm beta : R) : option torsor := propeller_and_rudder p m u v rpm beta.
(** RudderForceModel.cpp:233-265. Line 237, "const Point P("NED", -P.v)", reads the variable that it defines, not P_ of line 236: the first lookup below fails. *)
Definition get_ship_speed (w : option sea) (T : transform) (rudder_position : vec3) (u v w0 t : R) : outcome vec3 :=
  let P_ := tapply T rudder_position in
  let variables := [("P_", Some P_); ("P", None)]%string in
  let read n := match find (fun x => String.eqb n (fst x)) variables with Some (_, Some x) => Ok x | _ => UB end in
  do P <- read "P"%string;
  do eta <- match w with None => UB | Some s => sea_height s [- vx P] [- vy P] t end;
  Ok (V3 u v w0).
