(** Model of the propeller models of code/force_models with IEEE 754 double precision numbers (Flocq, one NaN): the cases that matter here
    (division by zero, NaN going through std::min and std::max) do not exist over the reals. *)
From Coq Require Import ZArith List Bool.
From Flocq Require Import Core BinarySingleNaN.
From Verif Require Import Common.
Import ListNotations.
Open Scope Z_scope.

Definition f64 := binary_float 53 1024.
#[global] Instance prec_gt_0_53 : Prec_gt_0 53 := eq_refl.
#[global] Instance prec_lt_emax_53 : Prec_lt_emax 53 1024 := eq_refl.
(** Rounding to nearest even, as xdyn never changes the rounding mode. *)
Definition fmul : f64 -> f64 -> f64 := Bmult mode_NE.
Definition fadd : f64 -> f64 -> f64 := Bplus mode_NE.
Definition fsub : f64 -> f64 -> f64 := Bminus mode_NE.
Definition fdiv : f64 -> f64 -> f64 := Bdiv mode_NE.
Definition flt : f64 -> f64 -> bool := Bltb.
Definition fzero : f64 := B754_zero false.
Definition fone : f64 := @B754_finite 53 1024 false 4503599627370496 (-52) eq_refl.
Definition f1_5 : f64 := @B754_finite 53 1024 false 6755399441055744 (-52) eq_refl.
Definition f0_3 : f64 := @B754_finite 53 1024 false 5404319552844595 (-54) eq_refl.
Definition f1_05 : f64 := @B754_finite 53 1024 false 4728779608739021 (-52) eq_refl.
(** 2*PI and 4*PI*PI with PI = M_PI. *)
Definition f2PI : f64 := @B754_finite 53 1024 false 7074237752028440 (-50) eq_refl.
Definition f4PIPI : f64 := @B754_finite 53 1024 false 5556093337880030 (-47) eq_refl.

(** std::min(a,b) and std::max(a,b): (b<a) ? b : a and (a<b) ? b : a. *)
Definition std_min (a b : f64) : f64 := if flt b a then b else a.
Definition std_max (a b : f64) : f64 := if flt a b then b else a.

(** AbstractWageningen.cpp:50-55 (advance_ratio) *)
Definition fl_advance_ratio (w D u rpm : f64) : f64 :=
  let Va := Babs u in
  let n := fdiv rpm f2PI in
  fdiv (fdiv (fmul (fsub fone w) Va) n) D.
(** WageningenControlledForceModel.cpp:100-104 (saturate) *)
Definition saturate (J : f64) : f64 := std_max (std_min J f1_5) fzero.

(** WageningenControlledForceModel.cpp:62-71 (constructor) *)
Definition wageningen_ctor (Z : nat) (AE_A0 : f64) : outcome unit :=
  if (Z <? 2)%nat || (7 <? Z)%nat then Throw
  else if flt AE_A0 f0_3 || flt f1_05 AE_A0 then Throw
  else Ok tt.

(** WageningenControlledForceModel.cpp:50-53 and 55-58: the exponents of the two series (the coefficients are parameters of the model). *)
Definition st := [0;1;0;0;2;1;0;0;2;0;1;0;1;0;0;2;3;0;2;3;1;2;0;1;3;0;1;0;0;1;2;3;1;1;2;0;0;3;0]%nat.
Definition tt_ := [0;0;1;2;0;1;2;0;0;1;1;0;0;3;6;6;0;0;0;0;6;6;3;3;3;3;0;2;0;0;0;0;2;6;6;0;3;6;3]%nat.
Definition ut := [0;0;0;0;1;1;1;0;0;0;0;1;1;0;0;0;1;2;2;2;2;2;0;0;0;1;2;2;0;0;0;0;0;0;0;1;1;1;2]%nat.
Definition vt := [0;0;0;0;0;0;0;1;1;1;1;1;1;0;0;0;0;0;0;0;0;0;1;1;1;1;1;1;2;2;2;2;2;2;2;2;2;2;2]%nat.
Definition sq := [0;2;1;0;0;1;2;0;1;0;1;2;2;1;0;3;0;1;0;1;3;0;3;2;0;0;3;3;0;3;0;1;0;2;0;1;3;3;1;2;0;0;0;0;3;0;1]%nat.
Definition tq := [0;0;1;2;1;1;1;2;0;1;1;1;0;1;2;0;3;3;0;0;0;1;1;2;3;6;0;3;6;0;6;0;2;3;6;1;2;6;0;0;2;6;0;3;3;6;6]%nat.
Definition uq := [0;0;0;0;1;1;1;1;0;0;0;0;1;1;1;1;1;1;2;2;2;2;2;2;2;2;0;0;0;1;1;2;2;2;2;0;0;0;1;1;1;1;2;2;2;2;2]%nat.
Definition vq := [0;0;0;0;0;0;0;0;1;1;1;1;1;1;1;0;0;0;0;0;0;0;0;0;0;0;1;1;1;1;1;1;1;1;1;2;2;2;2;2;2;2;2;2;2;2;2]%nat.

(** WageningenControlledForceModel.cpp:106-128 (Kt and Kq): the loop over the arrays, from i = n - fuel. [pow] is std::pow (libm, external)
    with a natural exponent; [fZ] is the number of blades as a double. The warnings printed by [check] are not modelled. *)
Section Series.
  Variable pow : f64 -> nat -> f64.
  Variable c : list f64.
  Variables s t u v : list nat.
  Fixpoint series_loop (fuel i : nat) (fZ AE_A0 P_D J k : f64) : outcome f64 :=
    match fuel with
    | O => Ok k
    | S fuel => do ci <- at_ub c i; do si <- at_ub s i; do ti <- at_ub t i; do ui <- at_ub u i; do vi <- at_ub v i;
        series_loop fuel (S i) fZ AE_A0 P_D J
          (fadd k (fmul (fmul (fmul (fmul ci (pow J si)) (pow P_D ti)) (pow AE_A0 ui)) (pow fZ vi)))
    end.
  Definition series (n : nat) (fZ AE_A0 P_D J : f64) : outcome f64 := series_loop n 0 fZ AE_A0 P_D (saturate J) fzero.
End Series.
Definition fl_Kt (pow : f64 -> nat -> f64) (ct : list f64) := series pow ct st tt_ ut vt 39.
Definition fl_Kq (pow : f64 -> nat -> f64) (cq : list f64) := series pow cq sq tq uq vq 47.

(** AbstractWageningen.cpp:69-77 (get_force): the thrust. [D4] is D*D*D*D. *)
Definition fl_thrust (t rho D4 rpm Kt : f64) : f64 :=
  let n2 := fdiv (fmul rpm rpm) f4PIPI in
  fmul (fmul (fmul (fmul (fsub fone t) rho) n2) D4) Kt.
