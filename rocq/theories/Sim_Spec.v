(** Specification vocabulary for C17-C25. *)
From Coq Require Import List Reals.
From Verif Require Import Blocked_Model Blocked_Spec Sim_Model.
Import ListNotations.
Open Scope R_scope.

(** State k (0..12, order x y z u v w p q r qr qi qj qk) of body i in a state vector. *)
Definition state_of (x : list R) (i k : nat) : R := nth (13 * i + k) x 0.

(** Equations of motion of a body without forced states. *)
Definition free_derivative {Itp} (b : body Itp) (F : vec) (rot : mat) (x : list R) : list R :=
  let s := state_of x (bd_idx b) in
  let u := s 3%nat in let v := s 4%nat in let w := s 5%nat in
  let p := s 6%nat in let q := s 7%nat in let r := s 8%nat in
  let q0 := s 9%nat in let q1 := s 10%nat in let q2 := s 11%nat in let q3 := s 12%nat in
  let speed k := rot k 0%nat * u + rot k 1%nat * v + rot k 2%nat * w in
  let acc k := bd_Minv b k 0%nat * F 0%nat + bd_Minv b k 1%nat * F 1%nat + bd_Minv b k 2%nat * F 2%nat
             + bd_Minv b k 3%nat * F 3%nat + bd_Minv b k 4%nat * F 4%nat + bd_Minv b k 5%nat * F 5%nat in
  [ speed 0%nat; speed 1%nat; speed 2%nat;
    acc 0%nat; acc 1%nat; acc 2%nat; acc 3%nat; acc 4%nat; acc 5%nat;
    (- q1 * p - q2 * q - q3 * r) / 2;
    (q0 * p + q2 * r - q3 * q) / 2;
    (q0 * q + q3 * p - q1 * r) / 2;
    (q0 * r + q1 * q - q2 * p) / 2 ].

Definition norm4 (a b c d : R) : R := sqrt (a * a + b * b + c * c + d * d).
Definition quaternion_norm (x : list R) (i : nat) : R :=
  norm4 (state_of x i 9) (state_of x i 10) (state_of x i 11) (state_of x i 12).
