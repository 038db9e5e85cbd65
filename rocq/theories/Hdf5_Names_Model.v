(** The variables that a simulation writes, with the name by which they are requested and their address in structured outputs
    (DataAddressing, core/inc/Observer.hpp lines 20-33). *)
From Coq Require Import List String Ascii.
Import ListNotations.
Open Scope string_scope.

Inductive variable : Type :=
| Time                                              (* core/src/Observer.cpp lines 33, 49 *)
| State (body s : string)                           (* core/src/Body.cpp lines 180-196; [s] is the name of the state: x, y, ... psi *)
| Effort (force body frame comp : string)           (* core/src/ForceModel.cpp lines 54-66, ControllableForceModel.cpp lines 158-177,
                                                       core/src/Sim.cpp lines 51-56 (force "sum of forces"), 225-230 ("blocked states") *)
| GM (body : string)                                (* force_models/src/GMForceModel.cpp line 124, where get_name() is "GM" (line 19) *)
| GZ_of_GM (body : string)                          (* force_models/src/GMForceModel.cpp line 125 *)
| GZ (force body : string)                          (* FastHydrostaticForceModel.cpp line 74, HydrostaticForceModel.cpp line 79 *)
| Buoyancy (force body axis : string)               (* HydrostaticForceModel.cpp lines 75-77: axis is x, y or z *)
| Extra (force body observation : string).          (* grpc/src/GRPCForceModel.cpp line 288 *)

(** Core/src/Body.cpp lines 180-196: name of the state and end of its address *)
Definition state_table : list (string * list string) :=
  [("x", ["X"]); ("y", ["Y"]); ("z", ["Z"]); ("u", ["U"]); ("v", ["V"]); ("w", ["W"]); ("p", ["P"]); ("q", ["Q"]); ("r", ["R"]);
   ("qr", ["Quat"; "Qr"]); ("qi", ["Quat"; "Qi"]); ("qj", ["Quat"; "Qj"]); ("qk", ["Quat"; "Qk"]);
   ("phi", ["PHI"]); ("theta", ["THETA"]); ("psi", ["PSI"])].
Fixpoint assoc {A} (k : string) (l : list (string * A)) : option A :=
  match l with [] => None | (a, b) :: l => if String.eqb k a then Some b else assoc k l end.

Definition name_of (v : variable) : string :=
  match v with
  | Time => "t"
  | State body s => s ++ "(" ++ body ++ ")"
  | Effort force body frame comp => comp ++ "(" ++ force ++ "," ++ body ++ "," ++ frame ++ ")"
  | GM body => "GM(" ++ body ++ ")"
  | GZ_of_GM body => "GZ(" ++ body ++ ")"
  | GZ force body => "GZ(" ++ force ++ "," ++ body ++ ")"
  | Buoyancy _ _ axis => "B" ++ axis
  | Extra _ body observation => observation ++ "(" ++ body ++ ")"
  end.
Definition address_of (v : variable) : list string :=
  match v with
  | Time => ["t"]
  | State body s => "states" :: body :: match assoc s state_table with Some l => l | None => [] end
  | Effort force body frame comp => ["efforts"; body; force; frame; comp]
  | GM body => ["efforts"; body; "GM"; "GM"]
  | GZ_of_GM body => ["efforts"; body; "GM"; "GM"]
  | GZ force body => ["efforts"; body; force; body; "GZ"]
  | Buoyancy force body axis => ["efforts"; body; force; "B" ++ axis]
  | Extra force body observation => ["efforts"; body; force; observation]
  end.
