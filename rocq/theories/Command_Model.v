(** Model of the commands given to the controlled force models and of the report of their forces: parser_extensions/src/listeners.cpp,
    core/src/ControllableForceModel.cpp:40-95 and 130-175, core/src/Sim.cpp:211-220. ssc::data_source::DataSource (external) is modelled by the last value
    set for each name and by the tables added to it; the linear interpolation of ssc is a parameter. *)
From Coq Require Import Reals List String Ascii Bool.
From Verif Require Import Common Geometry Force_Model Builder_Model.
Import ListNotations.
Open Scope R_scope.

(** YamlCommands.hpp: name of the model, instants, values of each command ([std::map]: distinct names). *)
Record yaml_commands : Type := mkCommands { yc_name : string; yc_t : list R; yc_values : list (string * list R) }.

Section Commands.
(** ssc::interpolation::LinearInterpolationVariableStep: constructor, which checks the table, and value at an instant. *)
Context {Itp : Type}.
Variable interpolation : list R -> list R -> outcome Itp.
Variable itp_f : Itp -> R -> outcome R.

(** A signal: set to a value, or computed from t by an InterpolationModule (InterpolationModule.cpp:32-37). *)
Inductive signal : Type := Constant (x : R) | Table (i : Itp).
Definition data_source : Type := list (string * signal).
(** listeners.cpp:28-32, the same in ControllableForceModel.cpp:82 *)
Definition namify (command_name model_name : string) : string := (model_name ++ "(" ++ command_name ++ ")")%string.
(** listeners.cpp:35-61: [front] of an empty vector is undefined behaviour. *)
Fixpoint add_constants (name : string) (values : list (string * list R)) (ds : data_source) : outcome data_source :=
  match values with
  | [] => Ok ds
  | (c, l) :: r => match l with [] => UB | x :: _ => add_constants name r (map_set ds (namify c name) (Constant x)) end
  end.
Fixpoint add_tables (name : string) (t : list R) (values : list (string * list R)) (ds : data_source) : outcome data_source :=
  match values with
  | [] => Ok ds
  | (c, l) :: r => do i <- interpolation t l ; add_tables name t r (map_set ds (namify c name) (Table i))
  end.
Definition add_command (c : yaml_commands) (ds : data_source) : outcome data_source :=
  if Nat.eqb (List.length (yc_t c)) 1 then add_constants (yc_name c) (yc_values c) ds else add_tables (yc_name c) (yc_t c) (yc_values c) ds.
(** listeners.cpp:63-74 *)
Fixpoint add_commands (l : list yaml_commands) (ds : data_source) : outcome data_source :=
  match l with [] => Ok ds | c :: r => do ds' <- add_command c ds ; add_commands r ds' end.
Definition make_command_listener (l : list yaml_commands) : outcome data_source := add_commands l [].
(** [DataSource::get]; an unknown name throws. *)
Definition ds_get (ds : data_source) (name : string) (t : R) : outcome R :=
  match map_get ds name with None => Throw | Some (Constant x) => Ok x | Some (Table i) => itp_f i t end.
(** ControllableForceModel.cpp:75-95 *)
Definition get_command (model : string) (command : string) (ds : data_source) (t : R) : outcome R := ds_get ds (namify command model) t.
(** ControllableForceModel.cpp:40-50: the commands of the model, then all the values of the data source ([get_all], values currently set: [all]) for the
    names which are not yet in the map ([std::map::insert]). *)
Fixpoint own_commands (model : string) (commands : list string) (ds : data_source) (t : R) (ret : list (string * R)) : outcome (list (string * R)) :=
  match commands with
  | [] => Ok ret
  | c :: r => do x <- get_command model c ds t ; own_commands model r ds t (map_set ret c x)
  end.
Fixpoint insert_all (all ret : list (string * R)) : list (string * R) :=
  match all with
  | [] => ret
  | (n, x) :: r => insert_all r (match map_get ret n with Some _ => ret | None => map_set ret n x end)
  end.
Definition get_commands (model : string) (commands : list string) (ds : data_source) (all : list (string * R)) (t : R) : outcome (list (string * R)) :=
  do ret <- own_commands model commands ds t [] ; Ok (insert_all all ret).
End Commands.
Arguments Constant {Itp}. Arguments Table {Itp}.

(** ** Report of the controlled forces: Sim.cpp:211-220 gives [body->get_origin(x)], the position of the ship in NED (Body.cpp:33-38), as the point G of
    ControllableForceModel::feed (lines 130-155). [T] is body<-internal frame, [Tbn] is body<-NED, [tau] the force in the body frame at G. *)
Record report : Type := mkReported { in_body_frame : torsor; in_internal_frame : torsor; in_ned_frame : torsor }.
Definition sim_output_force (T Tbn : transform) (ship_position : vec3) (tau : torsor) : report :=
  mkReported tau (reported_in_internal_frame T ship_position tau) (reported_in_ned_frame Tbn ship_position tau).
