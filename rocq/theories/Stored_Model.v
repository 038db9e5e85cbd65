(** Model of executables/src/xdyn.cpp lines 104-128: the command stored in the HDF5 file (dataset /inputs/command). [fmt] is operator<<(double) with its default
    precision of six digits. *)
From Coq Require Import ZArith List Bool String Ascii.
From Verif Require Import Common.
Import ListNotations.
Open Scope string_scope.

Section Stored.
Context {D : Type} (fmt : D -> string).
(** XdynCommandLineArguments.hpp *)
Record inputs : Type := mkInputs {
  i_yaml : list string; i_tstart : D; i_tend : D; i_dt : D; i_solver : string; i_output : string; i_waves : string; i_catch : bool }.
Definition input_data_serialize (a : inputs) : string :=
  "xdyn " ++ match i_yaml a with [] => "" | _ => "-y " end ++ String.concat "" (map (fun f => f ++ " ") (i_yaml a)) ++
  " --tstart " ++ fmt (i_tstart a) ++ " " ++ " --tend " ++ fmt (i_tend a) ++ " " ++ " --dt " ++ fmt (i_dt a) ++ " " ++ " --solver " ++ i_solver a ++
  match i_output a with "" => "" | o => " -o " ++ o end ++ match i_waves a with "" => "" | w => " -w " ++ w end.
End Stored.
