(** Square matrices over the reals, as functions of the row and of the column. Only the mathematical functions that Eigen computes:
    [MatrixBase::determinant()] and [MatrixBase::inverse()] (Eigen, external), taken at their mathematical meaning. *)
From Coq Require Import Reals List Arith Lra Lia.
Open Scope R_scope.

Fixpoint sum_to (n : nat) (f : nat -> R) : R := match n with O => 0 | S m => sum_to m f + f m end.
(** [A] without row [i] and column [j] *)
Definition skip (i k : nat) : nat := if Nat.ltb k i then k else S k.
Definition minor (A : nat -> nat -> R) (i j : nat) : nat -> nat -> R := fun k l => A (skip i k) (skip j l).
(** Laplace expansion along the first row *)
Fixpoint det (n : nat) (A : nat -> nat -> R) : R :=
  match n with
  | O => 1
  | S m => sum_to n (fun j => (-1) ^ j * A O j * det m (minor A O j))
  end.
(** Inverse by cofactors *)
Definition inverse (n : nat) (A : nat -> nat -> R) : nat -> nat -> R :=
  fun i j => (-1) ^ (i + j) * det (n - 1) (minor A j i) / det n A.
