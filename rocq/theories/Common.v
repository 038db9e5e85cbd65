(** Shared vocabulary of the models: observable outcomes of a C++ call. *)
From Coq Require Import ZArith List Bool Lia.
Import ListNotations.

(** What a call can do, as its caller observes it: return, throw, or run into undefined behaviour
    (out-of-bounds access, signed overflow, read of an uninitialised object, ...). *)
Inductive outcome (A : Type) : Type :=
| Ok (a : A)
| Throw
| UB.
Arguments Ok {A} a.
Arguments Throw {A}.
Arguments UB {A}.

Definition bindO {A B} (x : outcome A) (f : A -> outcome B) : outcome B :=
  match x with Ok a => f a | Throw => Throw | UB => UB end.

Definition mapO {A B} (f : A -> B) (x : outcome A) : outcome B :=
  bindO x (fun a => Ok (f a)).

Notation "'do' x <- a ; b" := (bindO a (fun x => b))
  (at level 200, x pattern, a at level 100, b at level 200).

(** Unchecked array access, [a[i]] in C++: out of bounds is undefined behaviour. *)
Definition at_ub {A} (l : list A) (i : nat) : outcome A :=
  match nth_error l i with Some a => Ok a | None => UB end.

(** Checked access, [a.at(i)] in C++: out of bounds throws [std::out_of_range]. *)
Definition at_throw {A} (l : list A) (i : nat) : outcome A :=
  match nth_error l i with Some a => Ok a | None => Throw end.

(** A byte ([unsigned char]). *)
Definition is_byte (b : Z) : Prop := (0 <= b < 256)%Z.
