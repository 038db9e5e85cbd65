(** Model of the command-line programs: executables/src/{xdyn,xdyn_for_cs,xdyn_for_me}.cpp, parse_Xdyn*CommandLineArguments.cpp, Xdyn*CommandLineArguments.cpp,
    build_observers_description.cpp, yaml_parser/src/parse_output.cpp:17-52 and observers_and_api/src/ListOfObservers.cpp.
    boost::program_options (external) is replaced by its result: an error, or the values of the options and the flags that are present. Durations and dates
    are IEEE doubles (Flocq), since boost reads "nan" and "inf". Simulations and servers are parameters that return or throw. *)
From Coq Require Import ZArith List Bool String Ascii.
From Flocq Require Import Core BinarySingleNaN.
From Verif Require Import Common Output_Model Wire_Model Propeller_Model.
Import ListNotations.
Open Scope string_scope.

Definition eqb0 (x : f64) : bool := Beqb x fzero.
Definition leb0 (x : f64) : bool := Bleb x fzero.

(** XdynCommandLineArguments.hpp; the values of the options that are not given are those of XdynCommandLineArguments.cpp:11-20 and of the default_value of
    parse_XdynCommandLineArguments.cpp:46-50. [flags] are the BooleanArguments. *)
Record args : Type := mkArgs {
  a_yaml : list string; a_solver : string; a_output : string; a_waves : string; a_dt : f64; a_tstart : f64; a_tend : f64; a_port : Z }.
Record flags : Type := mkFlags { fl_help : bool; fl_debug : bool; fl_grpc : bool }.
(** Nothing was given: the constructors. *)
Definition no_args : args := mkArgs [] "" "" "" fzero fzero fzero 0.
Inductive parsed : Type := BadCommandLine (what : string) | Parsed (a : args) (f : flags).

(** XdynCommandLineArguments.cpp:22-26. *)
Definition xdyn_empty (a : args) : bool :=
  String.eqb (a_waves a) "" && String.eqb (a_output a) "" && match a_yaml a with [] => true | _ => false end &&
  eqb0 (a_dt a) && eqb0 (a_tstart a) && eqb0 (a_tend a).
(** parse_XdynCommandLineArguments.cpp:18-37. *)
Definition xdyn_invalid (a : args) : bool :=
  if xdyn_empty a then true
  else if match a_yaml a with [] => true | _ => false end then true
  else if String.eqb (a_solver a) "" then true
  else if leb0 (a_dt a) then true
  else false.
(** XdynForCSCommandLineArguments.cpp:16-19, parse_XdynForCSCommandLineArguments.cpp:10-39. *)
Definition cs_empty (a : args) : bool := match a_yaml a with [] => true | _ => false end && eqb0 (a_dt a) && Z.eqb (a_port a) 0.
Definition cs_invalid (a : args) : bool :=
  if cs_empty a then true
  else if match a_yaml a with [] => true | _ => false end then true
  else if String.eqb (a_solver a) "" then true
  else if leb0 (a_dt a) then true
  else if Z.eqb (a_port a) 0 then true
  else if Z.ltb (a_port a) 1024 then true
  else false.
(** XdynForMECommandLineArguments.cpp:20-23, parse_XdynForMECommandLineArguments.cpp:18-37. *)
Definition me_empty (a : args) : bool := match a_yaml a with [] => true | _ => false end && Z.eqb (a_port a) 0.
Definition me_invalid (a : args) : bool :=
  if me_empty a then true
  else if match a_yaml a with [] => true | _ => false end then true
  else if Z.eqb (a_port a) 0 then true
  else if Z.ltb (a_port a) 1024 then true
  else false.

(** ** The solver: xdyn.cpp:33-53 and SimStepper.cpp:63-78 (co-simulation server). *)
Inductive stepper : Type := Euler | RK4 | RKCK.
Definition xdyn_stepper (name : string) : stepper :=
  if String.eqb name "euler" then Euler else if String.eqb name "rk4" then RK4 else if String.eqb name "rkck" then RKCK else Euler.
Definition cs_stepper (name : string) : outcome stepper :=
  if String.eqb name "euler" then Ok Euler else if String.eqb name "rk4" then Ok RK4 else if String.eqb name "rkck" then Ok RKCK else Throw.

(** ** What a program does *)
(** [Ran a s]: a simulation is run with the arguments [a] and the solver [s]; [Served a grpc]: a server is started. [Status] is the exit status; [Killed] is
    std::terminate (an exception leaves main). *)
Inductive event : Type := Help | Message (s : string) | Ran (a : args) (s : stepper) | Served (a : args) (grpc : bool).
Inductive ending : Type := Status (n : Z) | Killed.
Definition run_trace : Type := list event * ending.

Section Programs.
  Context (dec : nat -> string).
  (** What the simulation or the server does: None if it returns, or the exception. *)
  Context (simulate : args -> stepper -> option exn) (serve : args -> bool -> option exn).

  (** Messages of report_xdyn_exceptions_to_user when the outputter writes on the standard error. *)
  Definition report_events (e : exn) : list event := map Message (told (report dec e) ++ stderr (report dec e)).

  (** xdyn.cpp:119-145 (run_simulation and run). *)
  Definition xdyn_run (a : args) (catch : bool) : run_trace :=
    if xdyn_empty a then ([], Status 0)
    else
      let s := xdyn_stepper (a_solver a) in
      match simulate a s with
      | None => ([Ran a s], Status 0)
      | Some e => if catch
                  then if escapes (report dec e) then ([Ran a s], Killed) else (Ran a s :: report_events e, Status 0)
                  else ([Ran a s], Killed)
      end.
  (** parse_XdynCommandLineArguments.cpp:59-75: the error status, and what is displayed. *)
  Definition xdyn_check (a : args) (f : flags) : Z * list event :=
    if fl_help f then (0%Z, [Help])
    else if xdyn_invalid a then (1%Z, [Help])
    else (0%Z, []).
  (** xdyn.cpp:149-190. [argc] counts the name of the program; the handler of lines 178-187 only sees what report_xdyn_exceptions_to_user lets through,
      which is not a std::exception. *)
  Definition xdyn_main (argc : nat) (p : parsed) : run_trace :=
    if Nat.eqb argc 1 then ([Help], Status 0)
    else match p with
         | BadCommandLine what => ([Message ("The command line you supplied is not valid: " ++ what)], Status (-1))
         | Parsed a f =>
             let '(error, shown) := xdyn_check a f in
             if negb (Z.eqb error 0) then (shown, Status error)
             else let '(l, e) := xdyn_run a (negb (fl_debug f)) in ((shown ++ l)%list, e)
         end.

  (** The end of the main of both servers. *)
  Definition serve_run (a : args) (grpc catch : bool) : run_trace :=
    match serve a grpc with
    | None => ([Served a grpc], Status 0)
    | Some e => if catch then if escapes (report dec e) then ([Served a grpc], Killed) else (Served a grpc :: report_events e, Status 0)
                else ([Served a grpc], Killed)
    end.
  (** xdyn_for_cs.cpp:108-139: an error of boost::program_options is caught inside the call, [error] stays 0 and the arguments keep their initial values
      ([catch_exceptions] too: false). *)
  Definition cs_main (argc : nat) (p : parsed) : run_trace :=
    if Nat.eqb argc 1 then ([Help], Status 0)
    else match p with
         | BadCommandLine what =>
             if cs_empty no_args then (report_events (ProgramOptions what), Status 0)
             else let '(l, e) := serve_run no_args false false in ((report_events (ProgramOptions what) ++ l)%list, e)
         | Parsed a f =>
             if fl_help f then ([Help], Status 0)
             else if cs_invalid a then ([], Status 1)
             else if cs_empty a then ([], Status 0)
             else serve_run a (fl_grpc f) (negb (fl_debug f))
         end.
  (** xdyn_for_me.cpp:137-173: same, without the test of an empty command line. *)
  Definition me_main (argc : nat) (p : parsed) : run_trace :=
    if Nat.eqb argc 1 then ([Help], Status 0)
    else match p with
         | BadCommandLine what => let '(l, e) := serve_run no_args false false in ((report_events (ProgramOptions what) ++ l)%list, e)
         | Parsed a f =>
             if fl_help f then ([Help], Status 0)
             else if me_invalid a then ([], Status 1)
             else serve_run a (fl_grpc f) (negb (fl_debug f))
         end.
End Programs.

(** ** Outputs *)

(** An entry of the section 'output' of the YAML file: each key is absent, of the wrong type, or has a value. *)
Inductive key (A : Type) : Type := Absent | Wrong | Value (a : A).
Arguments Absent {A}. Arguments Wrong {A}. Arguments Value {A}.
Record entry : Type := mkEntry { e_filename : key string; e_address : key string; e_port : key Z; e_format : key string; e_data : key (list string) }.

(** parse_output.cpp:17-33. What has been assigned so far is kept when an exception is thrown: (value, thrown). *)
Definition read_entry (e : entry) : output * bool :=
  let o := empty_output in
  match e_filename e with
  | Wrong => (o, true)
  | k =>
      let o := match k with Value f => mkOutput f (o_format o) (o_address o) (o_port o) (o_data o) | _ => o end in
      match e_address e with
      | Wrong => (o, true)
      | k =>
          let o := match k with Value a => mkOutput (o_filename o) (o_format o) a (o_port o) (o_data o) | _ => o end in
          match e_port e with
          | Wrong => (o, true)
          | k =>
              let o := match k with Value p => mkOutput (o_filename o) (o_format o) (o_address o) p (o_data o) | _ => o end in
              match e_format e with
              | Value f =>
                  let o := mkOutput (o_filename o) f (o_address o) (o_port o) (o_data o) in
                  match e_data e with
                  | Value d => (mkOutput (o_filename o) (o_format o) (o_address o) (o_port o) d, false)
                  | _ => (o, true)
                  end
              | _ => (o, true)
              end
          end
      end
  end.
(** yaml-cpp 0.3, operator>> for vectors (external): the vector is resized first, then each element is read. *)
Fixpoint read_entries (l : list entry) : list output :=
  match l with
  | [] => []
  | e :: l' => match read_entry e with
               | (o, true) => o :: map (fun _ => empty_output) l'
               | (o, false) => o :: read_entries l'
               end
  end.
(** parse_output.cpp:35-52: the exceptions are dropped. [section] is None when there is no section 'output' or when it is not a list. *)
Definition parse_output (section : option (list entry)) : list output := match section with None => [] | Some l => read_entries l end.

(** build_observers_description.cpp:18-25. *)
Definition create_a_wave_observer (a : args) : outcome output :=
  do f <- get_format_for_wave_observer (a_waves a); Ok (mkOutput (a_waves a) f "" 0 ["waves"]).
(** build_observers_description.cpp:27-46. *)
Definition add_observers_with_output (bodies : list string) (a : args) (out : list output) : outcome (list output) :=
  do o <- generate_default_outputter bodies (a_output a);
  if negb (String.eqb (a_waves a) "") then
    if (String.eqb (o_format o) "ws" || String.eqb (o_format o) "hdf5" || String.eqb (o_format o) "json")%bool
    then Ok (out ++ [mkOutput (o_filename o) (o_format o) (o_address o) (o_port o) (o_data o ++ ["waves"])])%list
    else do w <- create_a_wave_observer a; Ok (out ++ [w; o])%list
  else Ok (out ++ [o])%list.
(** build_observers_description.cpp:48-68. *)
Definition build_observers_description (section : option (list entry)) (bodies : list string) (a : args) : outcome (list output) :=
  let out := parse_output section in
  if negb (String.eqb (a_output a) "") then add_observers_with_output bodies a out
  else if negb (String.eqb (a_waves a) "") then do w <- create_a_wave_observer a; Ok (out ++ [w])%list
  else Ok out.

(** ListOfObservers.cpp:17-29. *)
Inductive observer : Type :=
| Csv (file : string) (data : list string) | Hdf5 (file : string) (data : list string) | Tsv (file : string) (data : list string) | Map (data : list string)
| Json (file : string) (data : list string) | Ws (address : string) (port : Z) (data : list string).
Definition observers_of (o : output) : list observer :=
  ((if String.eqb (o_format o) "csv" then [Csv (o_filename o) (o_data o)] else []) ++
   (if String.eqb (o_format o) "h5" then [Hdf5 (o_filename o) (o_data o)] else []) ++
   (if String.eqb (o_format o) "hdf5" then [Hdf5 (o_filename o) (o_data o)] else []) ++
   (if String.eqb (o_format o) "tsv" then [Tsv (o_filename o) (o_data o)] else []) ++
   (if String.eqb (o_format o) "map" then [Map (o_data o)] else []) ++
   (if String.eqb (o_format o) "json" then [Json (o_filename o) (o_data o)] else []) ++
   (if String.eqb (o_format o) "ws" then [Ws (o_address o) (o_port o) (o_data o)] else []))%list.
Definition list_of_observers (l : list output) : list observer := flat_map observers_of l.
