(** What the sections of the force models say. *)
From Coq Require Import Reals List Bool String ZArith.
From Verif Require Import Common Sim_Model Yaml_Model Yaml_Spec Geometry Force_Model Section_Model.
Import ListNotations.
Open Scope R_scope.

(** A reading is exact when it gives what the section says, and an exception, not an undefined behaviour, when the section says nothing. *)
Definition exact {A} (read : yaml -> outcome A) (says : yaml -> A -> Prop) : Prop :=
  forall n, (forall i, read n = Ok i <-> says n i) /\ ((forall i, ~ says n i) -> read n = Throw).

Section Spec.
Variable dbl : string -> option R.
Variable int_of : string -> option Z.
Variable factor : string -> option R.
Variable bool_of : string -> option bool.
Variable unsigned_of : string -> option Z.
Notation quantity := (quantity R Rmult dbl factor). Notation quantities := (quantities R Rmult dbl int_of factor). Notation number := (number R dbl).
Notation numbers := (list_of int_of number).
Notation says_position := (describes_position R Rmult dbl factor). Notation says_coordinates := (describes_coordinates R Rmult dbl factor).
(** A word understood by [read] *)
Definition word_for {A} (read : string -> option A) (n : yaml) (a : A) : Prop := exists s, text n s /\ read s = Some a.

Definition says_constant (n : yaml) (i : constant_input) : Prop :=
  under n "frame" text (cf_frame i) /\
  under n "x" quantity (vx (cf_point i)) /\ under n "y" quantity (vy (cf_point i)) /\ under n "z" quantity (vz (cf_point i)) /\
  under n "X" quantity (vx (cf_force i)) /\ under n "Y" quantity (vy (cf_force i)) /\ under n "Z" quantity (vz (cf_force i)) /\
  under n "K" quantity (vx (cf_torque i)) /\ under n "M" quantity (vy (cf_torque i)) /\ under n "N" quantity (vz (cf_torque i)).
Definition says_heading (n : yaml) (i : string * R * R) : Prop :=
  under n "name" text (fst (fst i)) /\ under n "ksi" number (snd (fst i)) /\ under n "Tp" quantity (snd i).
Definition says_station (n : yaml) (i : string * station_parameters) : Prop :=
  under n "name" text (fst i) /\
  under n "ksi_x" number (ksi_x (snd i)) /\ under n "T_x" quantity (T_x (snd i)) /\
  under n "ksi_y" number (ksi_y (snd i)) /\ under n "T_y" quantity (T_y (snd i)) /\
  under n "ksi_psi" number (ksi_psi (snd i)) /\ under n "T_psi" quantity (T_psi (snd i)).
(** Three or more numbers, the first three of which are the coordinates *)
Definition three (n : yaml) (v : vec3) : Prop := exists rest, numbers n (vx v :: vy v :: vz v :: rest).
Definition says_linear_hydrostatic (n : yaml) (m : linear_hydrostatics) : Prop :=
  under n "z eq" quantity (lh_z_eq m) /\ under n "phi eq" quantity (lh_phi_eq m) /\ under n "theta eq" quantity (lh_theta_eq m) /\
  under n "K row 1" three (r1 (lh_K m)) /\ under n "K row 2" three (r2 (lh_K m)) /\ under n "K row 3" three (r3 (lh_K m)) /\
  (exists x y, under n "x1" quantity x /\ under n "y1" quantity y /\ lh_P1 m = V3 x y 0) /\
  (exists x y, under n "x2" quantity x /\ under n "y2" quantity y /\ lh_P2 m = V3 x y 0) /\
  (exists x y, under n "x3" quantity x /\ under n "y3" quantity y /\ lh_P3 m = V3 x y 0) /\
  (exists x y, under n "x4" quantity x /\ under n "y4" quantity y /\ lh_P4 m = V3 x y 0).
Definition says_gm (n : yaml) (i : string * R) : Prop :=
  under n "name of hydrostatic force model" text (fst i) /\ under n "roll step" quantity (snd i) /\
  In (fst i) ["hydrostatic"; "non-linear hydrostatic (exact)"; "non-linear hydrostatic (fast)"]%string.
Definition says_diffraction (n : yaml) (i : diffraction_input) : Prop :=
  under n "hdb" text (df_hdb i) /\ under n "calculation point in body frame" says_coordinates (df_point i) /\
  under n "mirror for 180 to 360" (word_for bool_of) (df_mirror i).
Definition quadrature_name (q : quadrature) : string :=
  match q with GaussKronrod => "gauss-kronrod" | Rectangle => "rectangle" | Simpson => "simpson" | Trapezoidal => "trapezoidal" | Burcher => "burcher"
             | ClenshawCurtis => "clenshaw-curtis" | Filon => "filon" end.
Definition says_radiation (n : yaml) (i : radiation_input) : Prop :=
  under n "hdb" text (ra_hdb i) /\
  under n "type of quadrature for cos transform" text (quadrature_name (ra_cos i)) /\ under n "type of quadrature for convolution" text (quadrature_name (ra_convolution i)) /\
  under n "nb of points for retardation function discretization" (word_for unsigned_of) (ra_n i) /\
  under n "omega min" quantity (ra_omega_min i) /\ under n "omega max" quantity (ra_omega_max i) /\
  under n "tau min" quantity (ra_tau_min i) /\ under n "tau max" quantity (ra_tau_max i) /\
  under n "output Br and K" (word_for bool_of) (ra_output i) /\ under n "calculation point in body frame" says_coordinates (ra_point i).
Definition says_resistance (n : yaml) (i : list R * list R) : Prop := under n "speed" quantities (fst i) /\ under n "resistance" quantities (snd i).

(** Propellers: the word clockwise, or another one *)
Definition says_propeller (n : yaml) (i : propeller_input) : Prop :=
  (exists rot, under n "rotation" text rot /\ (pi_clockwise i = true <-> rot = "clockwise"%string)) /\
  under n "thrust deduction factor t" number (pi_t i) /\ under n "wake coefficient w" number (pi_w i) /\ under n "name" text (pi_name i) /\
  under n "position of propeller frame" says_position (pi_frame i) /\ under n "relative rotative efficiency etaR" number (pi_etaR i) /\
  under n "diameter" quantity (pi_D i).
Definition says_wageningen (n : yaml) (i : propeller_input * R * Z) : Prop :=
  says_propeller n (fst (fst i)) /\ under n "blade area ratio AE/A0" number (snd (fst i)) /\ under n "number of blades" (natural int_of) (snd i).
Definition says_ktkq (n : yaml) (i : propeller_input * list R * list R * list R) : Prop :=
  let '(p, j, kt, kq) := i in says_propeller n p /\ under n "J" numbers j /\ under n "Kt" numbers kt /\ under n "Kq" numbers kq.
Definition says_rudder (n : yaml) (i : rudder_input) : Prop :=
  says_wageningen n (ri_propeller i, ri_AE_A0 i, ri_Z i) /\
  under n "rudder area" quantity (ri_Ar i) /\ under n "rudder height" quantity (ri_b i) /\ under n "effective aspect ratio factor" number (ri_ear i) /\
  under n "lift tuning coefficient" number (ri_lift i) /\ under n "drag tuning coefficient" number (ri_drag i) /\
  under n "position of rudder in body frame" says_coordinates (ri_position i).

(** A damping matrix: six rows of numbers *)
Definition damping_key : string := "damping matrix at the center of gravity projected in the body frame".
Definition says_rows (n : yaml) (rows : list (list R)) : Prop :=
  exists v r1 r2 r3 r4 r5 r6, entry n damping_key v /\ lacks v "from hdb" /\ rows = [r1; r2; r3; r4; r5; r6] /\
    under v "row 1" numbers r1 /\ under v "row 2" numbers r2 /\ under v "row 3" numbers r3 /\
    under v "row 4" numbers r4 /\ under v "row 5" numbers r5 /\ under v "row 6" numbers r6.
(** or the name of a file *)
Definition says_from_hdb (n : yaml) : Prop :=
  exists v f, entry n damping_key v /\ under v "from hdb" text f /\
    lacks v "row 1" /\ lacks v "row 2" /\ lacks v "row 3" /\ lacks v "row 4" /\ lacks v "row 5" /\ lacks v "row 6".
End Spec.

(** A curve through points: what is expected of ssc::interpolation::SplineVariableStep. *)
Definition through (xs ys : list R) (f : R -> R) : Prop := forall i x y, nth_error xs i = Some x -> nth_error ys i = Some y -> f x = y.
(** The same without the values outside the bounds *)
Definition through_in_bounds (xs ys : list R) (f : R -> outcome R) : Prop :=
  (forall i x y, nth_error xs i = Some x -> nth_error ys i = Some y -> f x = Ok y) /\
  (forall x, (forall a, In a xs -> x < a) \/ (forall a, In a xs -> a < x) -> f x = Throw).
