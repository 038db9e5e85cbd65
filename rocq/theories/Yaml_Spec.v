(** What the sections of the input file say, independently of the order in which they are read. *)
From Coq Require Import List Bool String Ascii ZArith.
From Verif Require Import Common Builder_Model Yaml_Model.
Import ListNotations.
Open Scope string_scope.

(** The mapping [n] has the value [v] under the key [k] (the first one, should there be several); it has no such key. *)
Definition entry (n : yaml) (k : string) (v : yaml) : Prop :=
  exists before after, n = Map (before ++ (k, v) :: after) /\ ~ In k (map fst before).
Definition lacks (n : yaml) (k : string) : Prop := match n with Map l => ~ In k (map fst l) | _ => True end.
(** Under the key [k] stands something that says [x]. *)
Definition under {A} (n : yaml) (k : string) (says : yaml -> A -> Prop) (x : A) : Prop := exists v, entry n k v /\ says v x.
(** The same, or the key is absent and [x] is the default value. *)
Definition optionally {A} (n : yaml) (k : string) (says : yaml -> A -> Prop) (default x : A) : Prop :=
  under n k says x \/ (lacks n k /\ x = default).
(** A word. The null node reads as "~". *)
Definition text (n : yaml) (s : string) : Prop := n = Scalar s \/ (n = Null /\ s = "~").

Section Spec.
Variable D : Type.
Variable zero : D.
Variable mul : D -> D -> D.
Variable dbl : string -> option D.
Variable int_of : string -> option Z.
Variable factor : string -> option D.
Notation coordinates := (coordinates D). Notation yangle := (yangle D). Notation position := (position D). Notation point := (point D).
Notation speed := (speed D). Notation matrix6 := (matrix6 D). Notation dynamics := (dynamics D). Notation blocked_dof := (blocked_dof D).
Notation body := (body D). Notation constants := (constants D). Notation commands := (commands D). Notation input := (input D).

(** A number, a non-negative integer *)
Definition number (n : yaml) (x : D) : Prop := exists s, text n s /\ dbl s = Some x.
Definition natural (n : yaml) (x : Z) : Prop := exists s, text n s /\ int_of s = Some x /\ (0 <= x)%Z.
(** {value: .., unit: ..}: the number multiplied by the value of the unit in the International System *)
Definition quantity (n : yaml) (x : D) : Prop :=
  exists d u f, under n "value" number d /\ under n "unit" text u /\ factor u = Some f /\ x = mul d f.
(** The elements of a list: those of a sequence, none for a word or a null node; a mapping is numbered from 0. *)
Definition listed (n : yaml) (l : list yaml) : Prop :=
  match n with
  | Seq l' => l = l'
  | Map m => List.length l = List.length m /\
      forall i v, nth_error l i = Some v ->
        exists before k after, m = (before ++ (k, v) :: after)%list /\ int_of k = Some (Z.of_nat i) /\
                               forall e, In e before -> int_of (fst e) <> Some (Z.of_nat i)
  | _ => l = []
  end.
Definition list_of {A} (says : yaml -> A -> Prop) (n : yaml) (xs : list A) : Prop := exists l, listed n l /\ Forall2 says l xs.
(** {values: [..], unit: ..} *)
Definition quantities (n : yaml) (xs : list D) : Prop :=
  exists ds u f, under n "values" (list_of number) ds /\ under n "unit" text u /\ factor u = Some f /\ xs = map (fun d => mul d f) ds.

(** ** Bodies *)
Definition describes_coordinates (n : yaml) (c : coordinates) : Prop :=
  under n "x" quantity (y_x c) /\ under n "y" quantity (y_y c) /\ under n "z" quantity (y_z c).
Definition describes_angle (n : yaml) (a : yangle) : Prop :=
  under n "phi" quantity (y_phi a) /\ under n "theta" quantity (y_theta a) /\ under n "psi" quantity (y_psi a).
Definition describes_position (n : yaml) (p : position) : Prop :=
  describes_angle n (pos_angle p) /\ describes_coordinates n (pos_at p) /\ under n "frame" text (pos_frame p).
Definition describes_speed (n : yaml) (s : speed) : Prop :=
  under n "frame" text (sp_frame s) /\
  under n "u" quantity (sp_u s) /\ under n "v" quantity (sp_v s) /\ under n "w" quantity (sp_w s) /\
  under n "p" quantity (sp_p s) /\ under n "q" quantity (sp_q s) /\ under n "r" quantity (sp_r s).
Definition describes_centre (n : yaml) (p : point) : Prop :=
  pt_name p = "centre of inertia" /\ describes_coordinates n (pt_at p) /\ under n "frame" text (pt_frame p).
(** A matrix: six rows, or the name of an HDB file but not both. *)
Definition describes_matrix (frame : string) (n : yaml) (m : matrix6) : Prop :=
  (under n "from hdb" text (m_hdb m) /\ m_from_file m = true /\ m_frame m = "" /\ m_rows m = [[]; []; []; []; []; []] /\
   lacks n "row 1" /\ lacks n "row 2" /\ lacks n "row 3" /\ lacks n "row 4" /\ lacks n "row 5" /\ lacks n "row 6") \/
  (lacks n "from hdb" /\ m_from_file m = false /\ m_hdb m = "" /\ m_frame m = frame /\
   exists r1 r2 r3 r4 r5 r6, m_rows m = [r1; r2; r3; r4; r5; r6] /\
     under n "row 1" (list_of number) r1 /\ under n "row 2" (list_of number) r2 /\ under n "row 3" (list_of number) r3 /\
     under n "row 4" (list_of number) r4 /\ under n "row 5" (list_of number) r5 /\ under n "row 6" (list_of number) r6).
(** The matrix at the center of buoyancy or, when this one is absent, at the center of gravity *)
Definition describes_matrix_at (n : yaml) (buoyancy gravity frame : string) (m : matrix6) : Prop :=
  under n buoyancy (describes_matrix frame) m \/ (lacks n buoyancy /\ under n gravity (describes_matrix frame) m).
Definition describes_dynamics (n : yaml) (d : dynamics) : Prop :=
  under n "centre of inertia" describes_centre (d_centre d) /\
  describes_matrix_at n "rigid body inertia matrix at the center of buoyancy projected in the body frame"
                        "rigid body inertia matrix at the center of gravity and projected in the body frame" (pt_frame (d_centre d)) (d_inertia d) /\
  describes_matrix_at n "added mass matrix at the center of buoyancy projected in the body frame"
                        "added mass matrix at the center of gravity and projected in the body frame" (pt_frame (d_centre d)) (d_added d) /\
  under n "hydrodynamic forces calculation point in body frame" describes_coordinates (d_hydro d).
Definition describes_state (n : yaml) (s : blockable) : Prop :=
  text n (match s with BU => "u" | BV => "v" | BW => "w" | BP => "p" | BQ => "q" | BR => "r" end).
Definition describes_interpolation (n : yaml) (i : interpolation) : Prop :=
  text n (match i with PiecewiseConstant => "piecewise constant" | Linear => "linear" | Spline => "spline" end).
Definition describes_yaml_dof (n : yaml) (d : dof (list D)) : Prop :=
  under n "interpolation" describes_interpolation (dof_interp d) /\ under n "state" describes_state (dof_state d) /\
  under n "t" (list_of number) (dof_t d) /\ under n "value" (list_of number) (dof_value d).
Definition describes_csv_dof (n : yaml) (d : csv_dof) : Prop :=
  under n "filename" text (csv_filename d) /\
  under n "interpolation" describes_interpolation (dof_interp (csv_dof_of d)) /\ under n "state" describes_state (dof_state (csv_dof_of d)) /\
  under n "t" text (dof_t (csv_dof_of d)) /\ under n "value" text (dof_value (csv_dof_of d)).
Definition describes_blocked (n : yaml) (b : blocked_dof) : Prop :=
  optionally n "from CSV" (list_of describes_csv_dof) [] (from_csv b) /\
  optionally n "from YAML" (list_of describes_yaml_dof) [] (from_yaml b).
(** A model: its name and its whole section *)
Definition describes_model (n : yaml) (m : model) : Prop := under n "model" text (mod_name m) /\ mod_yaml m = n.
Definition describes_body (n : yaml) (b : body) : Prop :=
  under n "name" text (b_name b) /\
  optionally n "mesh" text "" (b_mesh b) /\
  optionally n "external forces" (list_of describes_model) [] (b_external b) /\
  optionally n "controlled forces" (list_of describes_model) [] (b_controlled b) /\
  under n "position of body frame relative to mesh" describes_position (b_mesh_position b) /\
  under n "initial position of body frame relative to NED" describes_position (b_position b) /\
  under n "initial velocity of body frame relative to NED" describes_speed (b_speed b) /\
  under n "dynamics" describes_dynamics (b_dynamics b) /\
  optionally n "blocked dof" describes_blocked (mkBlockedDof [] []) (b_blocked b).
Definition describes_constants (n : yaml) (c : constants) : Prop :=
  under n "g" quantity (ec_g c) /\ under n "rho" quantity (ec_rho c) /\ under n "nu" quantity (ec_nu c).

(** ** Commands: one list of values for each key but "name" and "t", in the order of the mapping, the last one first *)
Definition keys (n : yaml) : list string := match n with Map l => map fst l | _ => [] end.
Definition describes_commands (n : yaml) (c : commands) : Prop :=
  under n "name" text (c_name c) /\ under n "t" (list_of number) (c_t c) /\
  Forall2 (fun k kv => fst kv = k /\ under n k quantities (snd kv))
          (filter (fun k => negb (String.eqb k "name" || String.eqb k "t")) (keys n)) (rev (c_values c)).

(** ** Rotations *)
(** A word is a name followed by nothing or by an apostrophe and anything. *)
Definition named (s name : string) : Prop := s = name \/ exists rest, s = name ++ "'" ++ rest.
Definition axis_name (s : string) : Prop := named s "x" \/ named s "y" \/ named s "z".
Definition angle_name (s : string) : Prop := named s "phi" \/ named s "theta" \/ named s "psi".
(** phi, theta and psi are replaced with x, y and z in the words that begin with one of them. In words of at most seven characters there is room for a second
    name only as in phi'psi. *)
Definition second_name (rest : string) : string := if String.eqb rest "phi" then "x" else if String.eqb rest "psi" then "z" else rest.
Definition angle_renamed (name axis s t : string) : Prop := (s = name /\ t = axis) \/ exists rest, s = name ++ "'" ++ rest /\ t = axis ++ "'" ++ second_name rest.
Definition renamed (s t : string) : Prop :=
  angle_renamed "phi" "x" s t \/ angle_renamed "theta" "y" s t \/ angle_renamed "psi" "z" s t \/ (~ angle_name s /\ t = s).
(** Three words of at most seven characters, the first of which begins with the name of an axis or of an angle *)
Definition describes_rotations (n : yaml) (r : rotations) : Prop :=
  exists a b c, list_of text n [a; b; c] /\ (forall s, In s [a; b; c] -> String.length s <= 7) /\ (axis_name a \/ angle_name a) /\
    Forall2 renamed [a; b; c] (convention r) /\
    (((exists s, In s [a; b; c] /\ angle_name s) /\ order_by r = "angle") \/
     ((forall s, In s [a; b; c] -> ~ angle_name s) /\ order_by r = "axis")).

(** ** The whole file *)
Definition describes_input (n : yaml) (i : input) : Prop :=
  optionally n "environmental constants" describes_constants (mkConstants zero zero zero) (i_constants i) /\
  optionally n "bodies" (list_of describes_body) [] (i_bodies i) /\
  under n "rotations convention" describes_rotations (i_rotations i) /\
  optionally n "environment models" (list_of describes_model) [] (i_environment i) /\
  optionally n "commands" (list_of describes_commands) [] (i_commands i).

(** ** Waves *)
Notation wave_output := (wave_output D). Notation discretization := (discretization D). Notation stretching := (stretching D).
Notation spectra := (spectra D). Notation wave_model := (wave_model D).
Definition describes_wave_output (n : yaml) (o : wave_output) : Prop :=
  under n "frame of reference" text (wo_frame o) /\
  exists m, entry n "mesh" m /\
    under m "xmin" quantity (wo_xmin o) /\ under m "xmax" quantity (wo_xmax o) /\ under m "nx" natural (wo_nx o) /\
    under m "ymin" quantity (wo_ymin o) /\ under m "ymax" quantity (wo_ymax o) /\ under m "ny" natural (wo_ny o).
Definition no_output : wave_output := mkWaveOutput "" zero zero 0 zero zero 0.
Definition describes_discretization (n : yaml) (d : discretization) : Prop :=
  under n "n" natural (di_n d) /\ under n "omega min" quantity (di_min d) /\ under n "omega max" quantity (di_max d) /\
  under n "energy fraction" number (di_energy d).
Definition describes_stretching (n : yaml) (s : stretching) : Prop :=
  under n "h" quantity (st_h s) /\ under n "delta" number (st_delta s).
(** A section with a type: the type and the section *)
Definition typed (n : yaml) (t : string * yaml) : Prop := under n "type" text (fst t) /\ snd t = n.
Definition describes_spectra (n : yaml) (s : spectra) : Prop :=
  under n "model" text (s_model s) /\ s_yaml s = n /\
  under n "directional spreading" typed (s_spreading_type s, s_spreading s) /\
  under n "spectral density" typed (s_density_type s, s_density s) /\
  under n "stretching" describes_stretching (s_stretching s) /\
  under n "depth" quantity (s_depth s).
Definition describes_waves (n : yaml) (w : wave_model) : Prop :=
  under n "discretization" describes_discretization (wm_discretization w) /\
  under n "spectra" (list_of describes_spectra) (wm_spectra w) /\
  optionally n "output" describes_wave_output no_output (wm_output w).
End Spec.
