(** Specification vocabulary for waves, independent of the model: sums, trapezoidal rule, linear wave theory. *)
From Coq Require Import Reals List Bool ZArith Lra Lia Sorted.
Import ListNotations.
Open Scope R_scope.

(** Sum of a list of reals. *)
Definition Rsum (l : list R) : R := fold_right Rplus 0 l.
(** Integral of the samples [fs] at [xs] by the trapezoidal rule. *)
Fixpoint trapz (xs fs : list R) : R :=
  match xs, fs with
  | x1 :: xs', f1 :: fs' =>
      match xs', fs' with
      | x2 :: _, f2 :: _ => (x2 - x1) * (f1 + f2) / 2 + trapz xs' fs'
      | _, _ => 0
      end
  | _, _ => 0
  end.
(** A grid reduced to a single value stands for a Dirac: its integral is the value itself. *)
Definition integral (xs fs : list R) : R :=
  match fs with [f] => f | _ => trapz xs fs end.
(** Energy of a set of waves, per unit of rho*g: half the sum of the squared amplitudes. *)
Definition wave_energy (a : list R) : R := Rsum (map (fun x => x * x / 2) a).

Definition strictly_increasing (l : list R) : Prop := StronglySorted Rlt l.
Definition nondecreasing (l : list R) : Prop := StronglySorted Rle l.

(** Elementary wave of amplitude a, pulsation w, wave number k, direction psi and phase ph, z downwards:
    phase angle, elevation. *)
Record wave : Type := mkWave { wa : R; ww : R; wk : R; wpsi : R; wph : R }.
Definition wangle (W : wave) (x y t : R) : R := - (ww W * t) + wk W * (x * cos (wpsi W) + y * sin (wpsi W)) + wph W.
Definition weta (W : wave) (x y t : R) : R := - (wa W * sin (wangle W x y t)).
