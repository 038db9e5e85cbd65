(** Model of the small programs that come with the simulator: executables/src/gz.cpp (righting-lever curve),
    convert_quaternion_to_euler.cpp and convert_stl_files_to_code.cpp. Doubles are exact reals in the two first programs. *)
From Coq Require Import Reals List Bool ZArith String Ascii.
From Verif Require Import Common Geometry Sim_Model Force_Model Gz_Model Builder_Model Gm_Model Wire_Model Main_Model Base91_Model Stl_Model Ascii_Model.
Import ListNotations.
Open Scope R_scope.

(** ** gz.cpp *)
(** Lines 25-38. *)
Record gz_options : Type := mkGz { g_dphi : R; g_phi_max : R; g_stl : string; g_yaml : list string; g_csv : string }.
(** What boost::program_options makes of the command line: an exception, or the options and whether help is asked. *)
Inductive gz_parsed : Type := GzBad | GzParsed (o : gz_options) (help : bool).
(** Where the table goes, and what the program does. *)
Inductive sink : Type := Screen | File (name : string).
Inductive gz_event : Type := Usage | Complaint (m : string) | Line (to : sink) (text : string).

Definition is_empty (s : string) : bool := match s with EmptyString => true | _ => false end.
Definition nothing {A} (l : list A) : bool := match l with [] => true | _ => false end.

(** Lines 34-37. *)
Definition gz_empty (o : gz_options) : bool :=
  (if Req_EM_T (g_dphi o) 0 then true else false) && (if Req_EM_T (g_phi_max o) 0 then true else false) &&
  is_empty (g_stl o) && nothing (g_yaml o) && is_empty (g_csv o).

Section Gz.
(** [os << x] for a double. *)
Variable fmt : R -> string.
(** [std::to_string] as used by [report] (Wire_Model). *)
Variable dec : nat -> string.
(** Whether a file can be opened for writing. *)
Variable opens : string -> bool.
(** Lines 108-111: reading the files, building the simulation and the curve; what [gz] then does at an angle. *)
Variable curve : list string -> string -> result (R -> result R).
(** The message of GZCurve.cpp:50-57. *)
Variable angle_message : R -> R -> string.

Definition endl : string := String (ascii_of_nat 10) "".
(** Lines 40-65. *)
Definition gz_invalid (o : gz_options) : bool * list gz_event :=
  if gz_empty o then (true, []) else
  if is_empty (g_stl o) then (true, [Complaint ("Error: no STL file defined." ++ endl)]) else
  if nothing (g_yaml o) then (true, [Complaint ("Error: no input YAML files defined: need at least one." ++ endl)]) else
  if Rltb 0 (g_dphi o) then
    if Rltb (g_phi_max o) (g_dphi o) then
      (true, [Complaint ("Error: the maximum roll angle should be greater than the roll step. Received " ++ fmt (g_phi_max o) ++ endl)])
    else (false, [])
  else (true, [Complaint ("Error: the roll step should be strictly positive. Received " ++ fmt (g_dphi o) ++ endl)]).

(** Lines 93-96. *)
Definition two_columns (to : sink) (a b : string) : gz_event :=
  Line to (a ++ match to with Screen => String (ascii_of_nat 9) "" | File _ => ";" end ++ b ++ endl).

(** Lines 122-125: the lines written, and the exception that stops the loop, if any. *)
Fixpoint gz_rows (to : sink) (gz : R -> result R) (phis : list R) : list gz_event * option exn :=
  match phis with
  | [] => ([], None)
  | phi :: phis =>
      match gz phi with
      | Thrown e => ([], Some e)
      | Returned v => let '(l, e) := gz_rows to gz phis in (two_columns to (fmt (phi * 180 / PI)) (fmt v) :: l, e)
      end
  end.

(** report_xdyn_exceptions_to_user with an outputter that writes on the standard error (line 127), and the end of main. *)
Definition gz_end (e : option exn) : list gz_event * ending :=
  match e with
  | None => ([], Status 0)
  | Some e => (map Complaint (told (report dec e) ++ stderr (report dec e)), if escapes (report dec e) then Killed else Status 0)
  end.

(** Lines 106-126. A stream on a file that could not be opened swallows what is written. *)
Definition gz_run (o : gz_options) : list gz_event * option exn :=
  match curve (g_yaml o) (g_stl o) with
  | Thrown e => ([], Some e)
  | Returned gz =>
      match get_phi (g_dphi o * PI / 180) (g_phi_max o * PI / 180) with
      | Ok phis =>
          let to := if is_empty (g_csv o) then Screen else File (g_csv o) in
          let '(rows, e) := gz_rows to gz phis in
          (if is_empty (g_csv o) || opens (g_csv o) then two_columns to "Phi [deg]" "GZ(phi) [m]" :: rows else [], e)
      | _ => ([], Some (InvalidInput (angle_message (g_dphi o) (g_phi_max o))))
      end
  end.

(** Lines 80-91 and 99-132. An exception of boost::program_options is caught by nobody. *)
Definition gz_main (p : gz_parsed) : list gz_event * ending :=
  match p with
  | GzBad => ([], Killed)
  | GzParsed o help =>
      let '(bad, said) := gz_invalid o in
      if bad || help then (said ++ [Usage], Status 0)%list
      else let '(lines, e) := gz_run o in let '(said', status) := gz_end e in (said ++ lines ++ said', status)%list
  end.
End Gz.

(** ** convert_quaternion_to_euler.cpp *)
Section Euler.
Variable fmt : R -> string.
Variable dec : nat -> string.
Variable atof : string -> R.
(** ssc::kinematics::euler_angles (external) *)
Variable euler_angles : mat3 -> angles.
Inductive text_event : Type := Cerr (s : string) | Cout (s : string).
(** Lines 29-45. [argv] holds the name of the program first; [argv[argc]] is null, and [std::atof] of a null pointer or a read
    beyond it is undefined. [argc - 1] is never negative here: there is at least the name of the program. *)
Definition euler_main (argv : list string) : outcome (list text_event * Z) :=
  let said := if Nat.eqb (List.length argv) 5 then [] else
    [Cerr ("Need exactly 4 arguments (qr, qi, qj, qk): received " ++ dec (List.length argv - 1) ++ endl)] in
  do a <- at_ub argv 1 ; do b <- at_ub argv 2 ; do c <- at_ub argv 3 ; do d <- at_ub argv 4 ;
  let angles := euler_angles (qmat (atof a) (atof b) (atof c) (atof d)) in
  Ok ((said ++ [Cout ("phi: " ++ fmt (a_phi angles * (180 / PI)) ++ endl ++ "theta: " ++ fmt (a_theta angles * (180 / PI)) ++ endl ++
                     "psi: " ++ fmt (a_psi angles * (180 / PI)) ++ endl)])%list, 0%Z).
End Euler.

(** ** convert_stl_files_to_code.cpp *)
Section Code.
Variables D L : Type.
Variable narrow : D -> Z.
Variable normal_words : list (D * D * D) -> Z * Z * Z.
(** Lines 55-61 and 75 for the facets read from the file: what is written on the standard output. *)
Definition generated_code (points : list (list (D * D * D))) : outcome (list Z) :=
  do data <- write_binary_stl D narrow normal_words points ;
  do text <- b91_encode data ;
  Ok (codes "const std::string s = """ ++ text ++ codes """;" ++ [10%Z])%list.
End Code.
