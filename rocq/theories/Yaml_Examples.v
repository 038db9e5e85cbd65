(** C139-C141, C145: what goes unnoticed in the input file; and a file to instantiate the theorems with. *)
From Coq Require Import List Arith Bool String Ascii ZArith Lia.
From Verif Require Import Common Builder_Model Hdf5_Mesh_Model Yaml_Model Yaml_Spec Observer_Proofs Yaml_Proofs Yaml_Rotation_Proofs Yaml_Props Yaml_Waves_Props.
Import ListNotations.
Open Scope string_scope.

Section Unnoticed.
Variable D : Type.
Variable zero : D.
Variable mul : D -> D -> D.
Variable dbl : string -> option D.
Variable int_of : string -> option Z.
Variable factor : string -> option D.

Lemma same_but k v l ks : ~ In k ks -> same_under ks (Map l) (Map ((k, v) :: l)).
Proof.
  intros N k' I w. assert (k <> k') by (intros ->; contradiction). rewrite <- !find_ok. cbn [FindValue find_entry]. destruct (String.eqb_spec k k'); [contradiction|reflexivity].
Qed.
(** ** C139: a misspelt optional section, whatever its content, changes nothing and is not reported. *)
Theorem misspelt_section_refuted : forall l v b i,
  (read_body D mul dbl int_of factor (Map l) = Ok b -> read_body D mul dbl int_of factor (Map (("controled forces", v) :: l)) = Ok b) /\
  (parse_simulator D zero mul dbl int_of factor (Map l) = Ok i -> parse_simulator D zero mul dbl int_of factor (Map (("environment model", v) :: l)) = Ok i).
Proof.
  intros l v b i. split; intros H; rewrite <- H; symmetry.
  - apply (other_body_keys_ignored_partial D zero mul dbl int_of factor), same_but. cbn. intuition discriminate.
  - apply (other_sections_ignored_partial D zero mul dbl int_of factor), same_but. cbn. intuition discriminate.
Qed.
(** ** C140: one force given as a word instead of a list of one model disappears. *)
Theorem word_for_a_list_refuted : forall l s b, lacks (Map l) "external forces" ->
  read_body D mul dbl int_of factor (Map l) = Ok b ->
  b_external b = [] /\ read_body D mul dbl int_of factor (Map (("external forces", Scalar s) :: l)) = Ok b.
Proof.
  intros l s b L H. split.
  - apply body_ok in H as (_ & _ & [(v & E & _)|(_ & E)] & _); [exfalso; exact (entry_lacks _ _ _ E L)|exact E].
  - rewrite <- H. unfold read_body, string_at, try_to_parse, get. cbn [FindValue find_entry String.eqb Ascii.eqb Bool.eqb andb].
    apply find_none in L. cbn [FindValue] in L. rewrite L. reflexivity.
Qed.
(** ** C141: a second matrix of inertia, at another point, is ignored whatever it is. *)
Theorem second_inertia_matrix_refuted : forall l v w d,
  entry (Map l) "rigid body inertia matrix at the center of buoyancy projected in the body frame" w -> read_dynamics D mul dbl int_of factor (Map l) = Ok d ->
  read_dynamics D mul dbl int_of factor (Map (("rigid body inertia matrix at the center of gravity and projected in the body frame", v) :: l)) = Ok d.
Proof.
  intros l v w d E H. rewrite <- H. unfold read_dynamics, at_buoyancy_or_gravity, get. cbn [append].
  assert (F : forall k, k <> "rigid body inertia matrix at the center of gravity and projected in the body frame" ->
    FindValue (Map (("rigid body inertia matrix at the center of gravity and projected in the body frame", v) :: l)) k = FindValue (Map l) k).
  { intros k N. cbn [FindValue find_entry]. destruct (String.eqb_spec "rigid body inertia matrix at the center of gravity and projected in the body frame" k); [congruence|reflexivity]. }
  rewrite !F by discriminate. apply find_ok in E. rewrite E. reflexivity.
Qed.
(** ** C145: with no waves or with a distant wave model, any output section is accepted; with waves, only the correct ones are. *)
Theorem wave_output_errors_refuted : forall l v,
  (forall w, parse_default_wave_model D zero mul dbl int_of factor (Map l) = Ok w ->
     exists w', parse_default_wave_model D zero mul dbl int_of factor (Map (("output", v) :: l)) = Ok w' /\ dw_z w' = dw_z w) /\
  (forall w, parse_grpc D zero mul dbl int_of factor (Map l) = Ok w ->
     exists w', parse_grpc D zero mul dbl int_of factor (Map (("output", v) :: l)) = Ok w' /\ gm_url w' = gm_url w).
Proof.
  intros l v. split; intros w H.
  - unfold parse_default_wave_model, uv, get in *. cbn [FindValue find_entry String.eqb Ascii.eqb Bool.eqb andb] in *.
    destruct (find_entry l "constant sea elevation in NED frame") as [z|]; [|discriminate]. cbn [bindO] in *. apply bind_ok in H as (x & Ex & H). rewrite Ex. cbn [bindO].
    eexists. split; [reflexivity|]. injection H as <-. reflexivity.
  - unfold parse_grpc, string_at, get in *. cbn [FindValue find_entry String.eqb Ascii.eqb Bool.eqb andb] in *.
    destruct (find_entry l "url") as [z|]; [|discriminate]. cbn [bindO] in *. apply bind_ok in H as (x & Ex & H). rewrite Ex. cbn [bindO].
    eexists. split; [reflexivity|]. injection H as <-. reflexivity.
Qed.
Theorem wave_output_errors_are_reported_partial : forall l v, (forall o, ~ describes_wave_output D mul dbl int_of factor v o) ->
  forall w, parse_waves D zero mul dbl int_of factor (Map (("output", v) :: l)) <> Ok w.
Proof.
  intros l v N w H. apply waves_section_reading in H as (_ & _ & [(v' & E & Ho)|(L & _)]).
  - apply find_ok in E. cbn in E. injection E as <-. exact (N _ Ho).
  - apply L. left. reflexivity.
Qed.
End Unnoticed.
Print Assumptions misspelt_section_refuted.
Print Assumptions word_for_a_list_refuted.
Print Assumptions second_inertia_matrix_refuted.
Print Assumptions wave_output_errors_refuted.
Print Assumptions wave_output_errors_are_reported_partial.

(** ** A file *)
(** Numbers in thousandths, to keep them integers *)
Fixpoint digits (s : string) (acc : Z) : option Z :=
  match s with
  | EmptyString => Some acc
  | String c s => let n := Z.of_nat (nat_of_ascii c) in if (Z.leb 48 n && Z.leb n 57)%bool then digits s (10 * acc + (n - 48)) else None
  end.
Definition int_of (s : string) : option Z := match s with EmptyString => None | String "-" s => option_map Z.opp (digits s 0) | _ => digits s 0 end.
Definition dbl (s : string) : option Z := int_of s.
Definition factor (s : string) : option Z :=
  if String.eqb s "km" then Some 1000%Z else if (String.eqb s "m" || String.eqb s "rad" || String.eqb s "m/s" || String.eqb s "rad/s" || String.eqb s "m/s^2" || String.eqb s "kg/m^3" || String.eqb s "m^2/s")%bool then Some 1%Z else None.
Definition q (v u : string) : yaml := Map [("unit", Scalar u); ("value", Scalar v)].
Definition place (x : string) : yaml :=
  Map [("frame", Scalar "NED"); ("phi", q "0" "rad"); ("psi", q "0" "rad"); ("theta", q "0" "rad"); ("x", q x "km"); ("y", q "0" "m"); ("z", q "-4" "m")].
Definition row (i : string) : yaml := Seq [Scalar i; Scalar "0"; Scalar "0"; Scalar "0"; Scalar "0"; Scalar "0"].
Definition six : yaml := Map [("row 1", row "1"); ("row 2", row "2"); ("row 3", row "3"); ("row 4", row "4"); ("row 5", row "5"); ("row 6", row "6")].
Definition ship : list (string * yaml) :=
  [("name", Scalar "TestShip"); ("mesh", Scalar "test_ship.stl");
   ("position of body frame relative to mesh", place "0"); ("initial position of body frame relative to NED", place "2");
   ("initial velocity of body frame relative to NED",
      Map [("frame", Scalar "TestShip"); ("p", q "0" "rad/s"); ("q", q "0" "rad/s"); ("r", q "0" "rad/s"); ("u", q "7" "m/s"); ("v", q "0" "m/s"); ("w", q "0" "m/s")]);
   ("dynamics",
      Map [("added mass matrix at the center of gravity and projected in the body frame", Map [("from hdb", Scalar "ship.hdb")]);
           ("centre of inertia", Map [("frame", Scalar "TestShip"); ("x", q "0" "m"); ("y", q "0" "m"); ("z", q "1" "m")]);
           ("hydrodynamic forces calculation point in body frame", Map [("x", q "1" "m"); ("y", q "2" "m"); ("z", q "3" "m")]);
           ("rigid body inertia matrix at the center of buoyancy projected in the body frame", six)])].
Definition controlled : list (string * yaml) :=
  [("controlled forces", Seq [Map [("model", Scalar "wageningen B-series"); ("name", Scalar "port side propeller")]])].
Definition doc : list (string * yaml) :=
  [("bodies", Seq [Map (controlled ++ ship)]);
   ("commands", Seq [Map [("P/D", Map [("unit", Scalar "rad"); ("values", Seq [Scalar "1"; Scalar "2"])]); ("name", Scalar "port side propeller"); ("t", Seq [Scalar "0"; Scalar "3"])]]);
   ("environmental constants", Map [("g", q "9" "m/s^2"); ("nu", q "0" "m^2/s"); ("rho", q "1026" "kg/m^3")]);
   ("rotations convention", Seq [Scalar "psi"; Scalar "theta'"; Scalar "phi''"])].
Notation parse := (parse_simulator Z 0%Z Z.mul dbl int_of factor).
(** The file is accepted; 2 km are 2000 m, the commands are there, and no force model is invented. *)
Example file_accepted : exists i b c, parse (Map doc) = Ok i /\ i_bodies i = [b] /\ b_name b = "TestShip" /\ y_x (pos_at (b_position b)) = 2000%Z /\
  map mod_name (b_controlled b) = ["wageningen B-series"] /\ b_external b = [] /\ m_hdb (d_added (b_dynamics b)) = "ship.hdb" /\
  i_commands i = [c] /\ map_get (c_values c) "P/D" = Some [1%Z; 2%Z] /\ ec_rho (i_constants i) = 1026%Z.
Proof. do 3 eexists. split; [vm_compute; reflexivity|]. repeat split. Qed.
(** Without the name of the ship, it is refused. *)
Example nameless_refused : parse (Map [("bodies", Seq [Map (tl ship)]); ("rotations convention", Seq [Scalar "psi"; Scalar "theta'"; Scalar "phi''"])]) = Throw.
Proof. vm_compute. reflexivity. Qed.
(** With a word for its forces and a misspelt section, it is accepted without any force. *)
Example unnoticed : exists b, read_body Z Z.mul dbl int_of factor (Map (("external forces", Scalar "gravity") :: ("controled forces", Seq [Null]) :: ship)) = Ok b /\
  b_external b = [] /\ b_controlled b = [].
Proof. eexists. split; [vm_compute; reflexivity|]. split; reflexivity. Qed.
Definition mesh_of (ny : string) : yaml := Map [("nx", Scalar "5"); (ny, Scalar "2"); ("xmax", q "3" "m"); ("xmin", q "1" "m"); ("ymax", q "2" "m"); ("ymin", q "1" "m")].
Definition waves_doc (e : string) (out : list (string * yaml)) : list (string * yaml) :=
  out ++ [("constant sea elevation in NED frame", q "0" "m");
   ("discretization", Map [("energy fraction", Scalar e); ("n", Scalar "10"); ("omega max", q "6" "rad/s"); ("omega min", q "1" "rad/s")]);
   ("spectra", Seq [Map [("depth", q "100" "m"); ("directional spreading", Map [("type", Scalar "dirac"); ("waves propagating to", q "1" "rad")]); ("model", Scalar "airy");
      ("seed of the random data generator", Scalar "none");
      ("spectral density", Map [("Hs", q "5" "m"); ("omega0", q "1" "rad/s"); ("type", Scalar "dirac")]); ("stretching", Map [("delta", Scalar "0"); ("h", q "0" "m")])]])].
(** The number of points along y is misspelt: refused with waves; accepted without waves, and the mesh has no point at all along y. *)
Example misspelt_ny : let out := [("output", Map [("frame of reference", Scalar "NED"); ("mesh", mesh_of "my")])] in
  parse_waves Z 0%Z Z.mul dbl int_of factor (Map (waves_doc "1" out)) = Throw /\
  exists w, parse_default_wave_model Z 0%Z Z.mul dbl int_of factor (Map (waves_doc "1" out)) = Ok w /\ wo_nx (dw_output w) = 5%Z /\ wo_ny (dw_output w) = 0%Z.
Proof. split; [vm_compute; reflexivity|]. eexists. split; [vm_compute; reflexivity|]. split; reflexivity. Qed.
Example waves_accepted : exists w s, parse_waves Z 0%Z Z.mul dbl int_of factor (Map (waves_doc "1" [("output", Map [("frame of reference", Scalar "NED"); ("mesh", mesh_of "ny")])])) = Ok w /\
  wm_spectra w = [s] /\ wo_ny (wm_output w) = 2%Z /\ parse_seed int_of (s_yaml s) = Ok None.
Proof. do 2 eexists. split; [vm_compute; reflexivity|]. split; [reflexivity|]. split; reflexivity. Qed.
Example seeds : parse_seed int_of (Map [("seed of the random data generator", Scalar "42")]) = Ok (Some 42%Z) /\
  parse_seed int_of (Map [("seed of the random data generator", Scalar "-1")]) = Throw /\ parse_seed int_of (Map [("seed", Scalar "1")]) = Throw.
Proof. repeat split. Qed.
