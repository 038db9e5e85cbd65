(** Model of the retardation functions and of the radiation damping force: code/hdb_interpolators/src/RadiationDampingBuilder.cpp and
    code/force_models/src/RadiationDampingForceModel.cpp, over exact reals. The quadrature formulas, the splines and the root finder belong to
    libraries (ssc, boost) that are not in the repository: they are parameters. *)
From Coq Require Import Reals List Bool.
From Verif Require Import Common Geometry History_Model History_Real_Proofs Force_Model.
Import ListNotations.
Open Scope R_scope.

(** A double that may be NaN (None). *)
Definition fnum := option R.

(** RadiationDampingBuilder.cpp:128-139. For n = 1 the only element is first + 0/0. *)
Definition build_regular_intervals (first last : R) (n : nat) : list fnum :=
  map (fun i => if (n =? 1)%nat then None else Some (first + (last - first) * INR i / (INR n - 1))) (seq 0 n).
(** RadiationDampingBuilder.cpp:141-154. For n = 1 the exponent is 0/0, and std::pow(x, NaN) is NaN unless x is 1. *)
Definition build_exponential_intervals (first last : R) (n : nat) : list fnum :=
  let sgn := if Rltb first last then 1 else -1 in
  let len := Rabs (last - first) in
  map (fun i => if (n =? 1)%nat then (if Req_EM_T (len + 1) 1 then Some (first + sgn * (1 - 1)) else None)
                else Some (first + sgn * (Rpower (len + 1) (INR i / (INR n - 1)) - 1))) (seq 0 n).
(** RadiationDampingBuilder.cpp:156-164 *)
Definition build_exponential_intervals_reversed (first last : R) (n : nat) : list fnum :=
  rev (build_exponential_intervals last first n).

(** boost::math::tools::toms748_solve(g, a, b, tol, max_iter).first *)
Definition root_finder := (R -> R) -> R -> R -> outcome R.
(** RadiationDampingBuilder.cpp:166-178 *)
Definition find_integration_bound (toms748 : root_finder) (f : R -> R) (omega_min omega_max eps : R) : outcome R :=
  if Rltb eps (Rabs (f omega_max)) then Ok omega_max else
  if Rltb (Rabs (f omega_min)) eps then Ok omega_min else
  toms748 (fun omega => Rabs (f omega) - eps) omega_min omega_max.

(** An integration formula of ssc::integrate applied between two bounds: it asks for values of the function to integrate, one after the
    other (adaptive formulas choose the next point from the previous values), then returns. *)
Inductive quad : Type := Done (r : R) | Ask (x : R) (k : R -> quad).
Definition scheme := R -> R -> quad.
Fixpoint run (q : quad) (f : R -> outcome R) : outcome R :=
  match q with Done r => Ok r | Ask x k => do y <- f x; run (k y) f end.

(** RadiationDampingBuilder.cpp:41-72: the integrand is Br(omega) cos(omega tau). The Burcher, Clenshaw-Curtis and Filon cases give Br and tau
    to the library instead: not modelled. *)
Definition cos_transform (Q : scheme) (Br : R -> R) (a b tau : R) : outcome R :=
  do i <- run (Q a b) (fun omega => Ok (Br omega * cos (omega * tau))); Ok (2 / PI * i).
(** RadiationDampingBuilder.cpp:74-83, before the interpolation: the values at the dates taus *)
Fixpoint retardation_values (Q : scheme) (Br : R -> R) (a b : R) (taus : list R) : outcome (list R) :=
  match taus with [] => Ok [] | tau :: taus => do y <- cos_transform Q Br a b tau; do l <- retardation_values Q Br a b taus; Ok (y :: l) end.
Definition build_retardation_function (toms748 : root_finder) (Q : scheme) (spline : list R -> list R -> R -> R) (Br : R -> R) (taus : list R)
    (eps omega_min omega_max : R) : outcome (R -> R) :=
  do bound <- find_integration_bound toms748 Br omega_min omega_max eps;
  do y <- retardation_values Q Br omega_min bound taus; Ok (spline taus y).

Section Force.
Variable aeqR : BinNums.Z -> R -> R -> bool.
Notation hist := (hist (Rarith aeqR)).

(** RadiationDampingBuilder.cpp:85-126. None is Clenshaw-Curtis or Filon, which throw. *)
Definition convolution (Q : option scheme) (h : hist) (f : R -> R) (Tmin Tmax : R) : outcome R :=
  match Q with
  | None => Throw
  | Some Q => run (Q Tmin Tmax) (fun tau => do y <- value_at (Rarith aeqR) h tau; Ok (y * f tau))
  end.

(** The part of YamlRadiationDamping read from the input file by RadiationDampingForceModel::parse (lines 229-260) *)
Record yaml_radiation : Type := mkYR { yr_n : nat; yr_omega_min : R; yr_omega_max : R; yr_tau_min : R; yr_tau_max : R; yr_point : vec3;
  yr_quad_convolution : option scheme; yr_quad_cos : scheme }.

(** RadiationDampingForceModel.cpp:134-148: K i k are the retardation functions, his k the histories of u, v, w, p, q, r *)
Definition get_convolution_for_axis (y : yaml_radiation) (K : nat -> nat -> R -> R) (his : nat -> hist) (i : nat) : outcome R :=
  fold_left (fun acc k => do s <- acc;
      if Rltb (get_duration (Rarith aeqR) (his k)) (yr_tau_min y) then Ok s
      else do co <- convolution (yr_quad_convolution y) (his k) (K i k) (yr_tau_min y) (Rmin (yr_tau_max y) (get_duration (Rarith aeqR) (his k)));
           Ok (s + co))
    (seq 0 6) (Ok 0).
(** RadiationDampingForceModel.cpp:164-177: the point H built from H0 (lines 96 and 167) is not used, and the wrench is created at the
    origin of the body frame. Lines 124-132: the bounds of the integral defining K are those of the table (omegas), not the ones of the file. *)
Definition radiation_wrench (y : yaml_radiation) (K : nat -> nat -> R -> R) (his : nat -> hist) : outcome wrench :=
  do w0 <- get_convolution_for_axis y K his 0; do w1 <- get_convolution_for_axis y K his 1; do w2 <- get_convolution_for_axis y K his 2;
  do w3 <- get_convolution_for_axis y K his 3; do w4 <- get_convolution_for_axis y K his 4; do w5 <- get_convolution_for_axis y K his 5;
  Ok (mkW v0 (V3 (- w0) (- w1) (- w2)) (V3 (- w3) (- w4) (- w5))).
(** RadiationDampingForceModel.cpp:94-132: the constructor, from the interpolated tables Br i k over the frequencies omegas. A NaN date makes the
    spline throw or return NaN: Throw here. *)
Fixpoint all_finite (l : list fnum) : outcome (list R) :=
  match l with [] => Ok [] | Some x :: l => do r <- all_finite l; Ok (x :: r) | None :: _ => Throw end.
Definition radiation_K (toms748 : root_finder) (spline : list R -> list R -> R -> R) (y : yaml_radiation) (Br : nat -> nat -> R -> R) (omegas : list R)
    (i k : nat) : outcome (R -> R) :=
  do taus <- all_finite (build_regular_intervals (yr_tau_min y) (yr_tau_max y) (yr_n y));
  match omegas with
  | [] => UB
  | first :: _ => build_retardation_function toms748 (yr_quad_cos y) spline (Br i k) taus (1 / 1000) first (last omegas first)
  end.
End Force.
