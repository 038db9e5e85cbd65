(** Model of the inertia of a body: core/src/BodyBuilder.cpp:20-45, 98-159. *)
From Coq Require Import Reals List Arith Bool.
From Verif Require Import Common Sim_Model Matrix_Model.
Import ListNotations.
Open Scope R_scope.

(** YamlDynamics6x6Matrix: six rows of any length. *)
Record rows6 : Type := mkRows { row_1 : list R; row_2 : list R; row_3 : list R; row_4 : list R; row_5 : list R; row_6 : list R }.

(** BodyBuilder.cpp:20-30; [std::abs(a - b) > tol]. The matrix is square. *)
Definition tolerance : R := 1 / 10000000000.
Definition is_symmetric (n : nat) (m : mat) : bool :=
  forallb (fun i => forallb (fun j => negb (Rltb tolerance (Rabs (m i j - m j i)))) (seq (i + 1) (n - (i + 1)))) (seq 0 n).
(** BodyBuilder.cpp:34-46: [m.block(0, 0, i, i).determinant()<=0.0] for i = 1..n *)
Definition is_symmetric_definite_positive (n : nat) (m : mat) : bool :=
  is_symmetric n m && forallb (fun i => Rltb 0 (det i m)) (seq 1 n).

(** BodyBuilder.cpp:145-158: for j = 0..5, the [.at(j)] of the six rows. The first access out of bounds throws; the values beyond the sixth of a row
    are never read. *)
Definition convert (M : rows6) : outcome mat :=
  let rows := [row_1 M; row_2 M; row_3 M; row_4 M; row_5 M; row_6 M] in
  let fix loop (l : list (nat * nat)) : outcome unit :=
    match l with [] => Ok tt | (i, j) :: r => do _ <- at_throw (nth i rows []) j ; loop r end in
  do _ <- loop (map (fun p => (snd p, fst p)) (list_prod (seq 0 6) (seq 0 6))) ;
  Ok (fun i j => nth j (nth i rows []) 0).

(** Where the added mass comes from (BodyBuilder.cpp:109-118): the rows of the YAML file, or the matrix read in an HDB file (HDBParser, C81). *)
Inductive added_mass : Type := Added_rows (r : rows6) | Added_hdb (m : outcome mat).
(** The inertia stored in the states of a body (BodyBuilder.cpp:139-142). *)
Record inertia : Type := mkInertia { i_inverse : mat; i_solid : mat; i_total : mat }.
(** BodyBuilder.cpp:98-143 *)
Definition add_inertia (rigid_body_inertia : rows6) (added : added_mass) : outcome inertia :=
  do Mrb <- convert rigid_body_inertia ;
  if negb (is_symmetric_definite_positive 6 Mrb) then Throw
  else
    do Ma <- (match added with Added_rows r => convert r | Added_hdb m => m end) ;
    if negb (is_symmetric 6 Ma) then Throw
    else
      let Mt : mat := fun i j => Mrb i j + Ma i j in
      if negb (is_symmetric_definite_positive 6 Mt) then Throw
      else Ok (mkInertia (inverse 6 Mt) Mrb Mt).
