(** The equations of a maneuvering model, independently of their order: which names have a value, and which valuations satisfy the equations. *)
From Coq Require Import Reals List String Ascii.
From Verif Require Import Man_Spec.
Import ListNotations.
Open Scope R_scope.

Definition name_ : Type := list ascii.
(** The variables of an expression *)
Fixpoint variables (e : exp) : list name_ :=
  match e with Num _ => [] | Var n => [n] | Call _ a => variables a | Bin _ a b => (variables a ++ variables b)%list end.
(** In an expression, model(command) is the command of another model, unless "model" is a function: it is the variable of this name. *)
Definition full_name (model command : name_) : name_ := (model ++ "("%char :: command ++ [")"%char])%list.
Fixpoint resolve (functions : list name_) (e : exp) : exp :=
  match e with
  | Call f a => if in_dec (list_eq_dec ascii_dec) f functions then Call f (resolve functions a)
                else match a with Var c => Var (full_name f c) | _ => Call f (resolve functions a) end
  | Bin o a b => Bin o (resolve functions a) (resolve functions b)
  | _ => e
  end.
Section Equations.
  (** The values given from outside (commands, g, nu, rho, t) and the equations [name = expression] *)
  Variable given : list (name_ * R).
  Variable equations : list (name_ * exp).
  (** A name can be computed when it is given, or has an equation whose variables can all be computed: in particular no name depends on itself. *)
  Inductive computable : name_ -> Prop :=
  | by_value k x : In (k, x) given -> computable k
  | by_equation k e : In (k, e) equations -> (forall v, In v (variables e) -> computable v) -> computable k.
  (** A valuation that satisfies the equations of all the names that can be computed *)
  Definition solution (pow : R -> R -> R) (fn : name_ -> R -> R) (var : name_ -> R) : Prop :=
    (forall k x, In (k, x) given -> var k = x) /\ forall k e, In (k, e) equations -> computable k -> var k = value pow var fn e.
End Equations.
