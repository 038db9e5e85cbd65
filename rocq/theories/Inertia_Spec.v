(** Specification vocabulary for the inertia of a body. *)
From Coq Require Import Reals List Arith.
From Verif Require Import Matrix_Model.
Open Scope R_scope.

Definition symmetric (n : nat) (A : nat -> nat -> R) : Prop := forall i j, (i < n)%nat -> (j < n)%nat -> A i j = A j i.
(** x^T A x *)
Definition quadratic (n : nat) (A : nat -> nat -> R) (x : nat -> R) : R := sum_to n (fun i => x i * sum_to n (fun j => A i j * x j)).
Definition positive_definite (n : nat) (A : nat -> nat -> R) : Prop := forall x, (exists i, (i < n)%nat /\ x i <> 0) -> 0 < quadratic n A x.
(** Coefficient (i,j), counted from 0, of a matrix given by its rows *)
Definition entry (rows : list (list R)) (i j : nat) : R := nth j (nth i rows nil) 0.
