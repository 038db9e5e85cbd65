(** Vocabulary of the properties of the construction of a simulation. *)
From Coq Require Import Reals List String.
From Verif Require Import Common Geometry Builder_Model.
Import ListNotations.
Open Scope R_scope.

(** The force [f] was built for [body] by the parser which knows the name of the model [m], from the text of [m]. *)
Definition made_from {Env : Type} (parsers : list (@parser Env)) (env : Env) (body : string) (m : yaml_model) (f : force) : Prop :=
  f_model f = ym_model m /\ f_yaml f = ym_yaml m /\ f_body f = body /\
  exists p, In p parsers /\ p_name p = ym_model m /\ p_build p env (ym_yaml m) body = Ok (f_Tmax f, f_surface f).
(** A model which the simulator knows and whose text and constructor are accepted. *)
Definition acceptable {Env : Type} (parsers : list (@parser Env)) (env : Env) (body : string) (m : yaml_model) : Prop :=
  exists p T s, In p parsers /\ p_name p = ym_model m /\ p_build p env (ym_yaml m) body = Ok (T, s).
(** The rotation convention of the documentation: yaw about z, pitch about y', roll about x''. *)
Definition documented (r : rotations) : Prop := order_by r = "angle"%string /\ firstn 3 (convention r) = ["z"; "y'"; "x''"]%string.
(** Names of axes. *)
Definition axes : list string := ["x"; "x'"; "x''"; "y"; "y'"; "y''"; "z"; "z'"; "z''"]%string.
