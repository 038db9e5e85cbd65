(** Model of the wave models: spectra, discretisation, Airy kinematics, output mesh
    (code/environment_models/src, code/core/src/SurfaceElevation*.cpp, code/parser_extensions/src/builders.cpp).

    Numbers: exact reals; rounding and infinities are not modelled (so the [isinf] checks never fire).
    NaN is modelled where the code can produce it from finite data: [pow] of a negative number and [sqrt] of a negative number;
    such a number has type [fnum] and NaN is [None]. Divisions by zero are not modelled (in Coq [x / 0] is some real): the theorems
    have the hypotheses that exclude them.
    [std::vector] accesses: [v[i]] out of bounds is [UB], [v.at(i)] out of bounds is [Throw]. *)
From Coq Require Import Reals List Bool ZArith Lra Lia.
From Verif Require Import Common.
Import ListNotations.
Open Scope R_scope.

(** A double computed by [sqrt] or [pow]: [None] is NaN. *)
Definition fnum := option R.

Definition Rleb (x y : R) : bool := if Rle_dec x y then true else false.
Definition Rltb (x y : R) : bool := if Rlt_dec x y then true else false.
Definition Reqb (x y : R) : bool := if Req_EM_T x y then true else false.

Section Loops.
Context {A B : Type}.
(** [for (size_t i = 0 ; i < n ; ++i) v.push_back(f(i))], the shape of most loops below. *)
Definition mapM (f : A -> outcome B) : list A -> outcome (list B) :=
  fix go (l : list A) : outcome (list B) :=
    match l with
    | [] => Ok []
    | a :: l' => do b <- f a; do bs <- go l'; Ok (b :: bs)
    end.
(** [double s = init; for (size_t i = 0 ; i < n ; ++i) s += f(i);] *)
Definition accM (f : A -> outcome R) : R -> list A -> outcome R :=
  fix go (s : R) (l : list A) : outcome R :=
    match l with
    | [] => Ok s
    | a :: l' => do b <- f a; go (s + b) l'
    end.
End Loops.

(** ** Frequency spectra *)

(** [std::set<double>] filled with [insert], then copied and sorted: strictly increasing list without duplicates. *)
Fixpoint set_insert (x : R) (l : list R) : list R :=
  match l with
  | [] => [x]
  | y :: l' => if Rltb x y then x :: l else if Rltb y x then y :: set_insert x l' else l
  end.
Definition set_inserts (xs l : list R) : list R := fold_left (fun s x => set_insert x s) xs l.

(** The classes deriving from WaveSpectralDensity; a value is an object accepted by its constructor (see [spectrum_ctor_ok]). *)
Inductive spectrum : Type :=
| DiracSpectralDensity (omega0 Hs : R)
| BretschneiderSpectrum (Hs Tp : R)
| JonswapSpectrum (Hs Tp gamma : R)
| PiersonMoskowitzSpectrum (Hs Tp : R)
| SumOfWaveSpectralDensities (terms : list spectrum).

(** DiracSpectralDensity.cpp:16-31, BretschneiderSpectrum.cpp:18-31, JonswapSpectrum.cpp:19-38, PiersonMoskowitzSpectrum.cpp:10-12:
    what the constructors accept (the others throw InvalidInputException). *)
Fixpoint spectrum_ctor_ok (S : spectrum) : bool :=
  match S with
  | DiracSpectralDensity omega0 Hs => negb (Rltb Hs 0) && negb (Rleb omega0 0)
  | BretschneiderSpectrum Hs Tp => negb (Rltb Hs 0) && negb (Rleb Tp 0)
  | JonswapSpectrum Hs Tp gamma => negb (Rltb Hs 0) && negb (Rleb Tp 0) && negb (Rleb gamma 0)
  | PiersonMoskowitzSpectrum Hs Tp => negb (Rltb Hs 0) && negb (Rleb Tp 0) && negb (Rleb 1 0)
  | SumOfWaveSpectralDensities terms => forallb spectrum_ctor_ok terms
  end.

(** JonswapSpectrum.cpp:40-53, with the members initialised lines 19-38. [pow(gamma,r)] with gamma > 0 is [Rpower]. *)
Definition jonswap (Hs Tp gamma omega : R) : outcome R :=
  if Rleb omega 0 then Throw else
  let omega0 := 2 * PI / Tp in
  let coeff := 1 - 287 / 1000 * ln gamma in
  let sigma := if Rleb omega omega0 then 7 / 100 else 9 / 100 in
  let ratio := omega0 / omega in
  let alpha := (ratio * ratio) * (ratio * ratio) in
  let Awm5 := 5 / 16 * alpha / omega * (Hs * Hs) in
  let Bwm4 := 125 / 100 * alpha in
  let r := exp (- (1 / 2) * ((omega - omega0) / (sigma * omega0) * ((omega - omega0) / (sigma * omega0)))) in
  Ok (coeff * Awm5 * exp (- Bwm4) * Rpower gamma r).

(** operator()(omega): DiracSpectralDensity.cpp:33-44, BretschneiderSpectrum.cpp:33-41, JonswapSpectrum.cpp:40-53,
    SumOfWaveSpectralDensities.cpp:36-46. *)
Fixpoint density (S : spectrum) (omega : R) : outcome R :=
  match S with
  | DiracSpectralDensity omega0 Hs =>
      if Rleb omega 0 then Throw else if Rltb (Rabs (omega - omega0)) (/ 10 ^ 15) then Ok (Hs * Hs / 8) else Ok 0
  | BretschneiderSpectrum Hs Tp =>
      if Rleb omega 0 then Throw else
      let omega0 := 2 * PI / Tp in
      let alpha := (omega0 / omega * (omega0 / omega)) * (omega0 / omega * (omega0 / omega)) in
      Ok (3125 / 10000 * (alpha / omega) * (Hs * Hs) * exp (- (125 / 100) * alpha))
  | JonswapSpectrum Hs Tp gamma => jonswap Hs Tp gamma omega
  | PiersonMoskowitzSpectrum Hs Tp => jonswap Hs Tp 1 omega
  | SumOfWaveSpectralDensities terms => accM (fun t => density t omega) 0 terms
  end.

(** WaveSpectralDensity.cpp:31-89 *)
Definition base_angular_frequencies (omega_min omega_max : R) (n : nat) : outcome (list R) :=
  if Rleb omega_min 0 then Throw
  else if Rleb omega_max 0 then Throw
  else if Rltb omega_max omega_min then Throw
  else if Nat.eqb n 0 then Throw
  else if Nat.eqb n 1 then (if negb (Reqb omega_min omega_max) then Throw else Ok [omega_min])
  else if Reqb omega_min omega_max then Throw
  else let Domega := omega_max - omega_min in
       Ok (map (fun i => omega_min + INR (i - 1) / INR (n - 1) * Domega) (seq 1 n)).

(** get_angular_frequencies: WaveSpectralDensity.cpp:31-89 (inherited), DiracSpectralDensity.cpp:46-52,
    SumOfWaveSpectralDensities.cpp:57-72. *)
Fixpoint angular_frequencies (S : spectrum) (omega_min omega_max : R) (n : nat) : outcome (list R) :=
  match S with
  | DiracSpectralDensity omega0 _ => Ok [omega0]
  | SumOfWaveSpectralDensities terms =>
      (fix go (ts : list spectrum) (s : list R) : outcome (list R) :=
         match ts with
         | [] => Ok s
         | t :: ts' => do f <- angular_frequencies t omega_min omega_max n; go ts' (set_inserts f s)
         end) terms []
  | _ => base_angular_frequencies omega_min omega_max n
  end.

(** WaveSpectralDensity.cpp:91-95: gravity is the literal 9.81. *)
Definition wave_number_inf (omega : R) : R := omega * omega / (981 / 100).

(** WaveNumberFunctor.cpp:13-30: the function given to the root finder, its first and second derivatives. *)
Definition wave_number_functor (h omega k : R) : R * R * R :=
  let g := 981 / 100 in
  let h2 := h * h in
  let omega2 := omega * omega in
  let gk := g * k in
  let tkh := tanh (k * h) in
  let f := gk * tkh - omega2 in
  let t3 := tkh * tkh in
  let df := g * tkh + gk * (1 - t3) * h in
  let t4 := 1 - t3 in
  let d2f := 2 * g * t4 * h - 2 * gk * tkh * t4 * h2 in
  (f, df, d2f).

(** WaveSpectralDensity.cpp:97-125. [boost::math::tools::halley_iterate(f, guess, min, max, digits)] is external: [halley f guess min max]
    is an arbitrary function returning a double ([None] is NaN). *)
Definition halley_t := (R -> R * R * R) -> R -> R -> R -> fnum.
Definition wave_number (halley : halley_t) (omega h : R) : outcome R :=
  if Reqb omega 0 then Ok 0 else
  let guess := wave_number_inf omega in
  match halley (wave_number_functor h omega) guess guess (35 / 10 * guess) with
  | None => Throw
  | Some k => Ok k
  end.

(** ** Directional spreadings *)

(** C's [pow]: a negative base gives NaN unless the exponent is an integer. *)
Definition cpow (x y : R) : fnum :=
  if Rltb 0 x then Some (Rpower x y)
  else if Reqb x 0 then (if Reqb y 0 then Some 1 else Some 0) (* used with y >= 0 only *)
  else if Reqb (IZR (Int_part y)) y
       then Some (if Z.even (Int_part y) then Rpower (- x) y else - Rpower (- x) y)
       else None.

(** Cos2sDirectionalSpreading.cpp:27: Fs is computed with boost's Gamma function, which is external: the model keeps [Fs] as a value. *)
Inductive spreading : Type :=
| DiracDirectionalSpreading (psi0 : R)
| Cos2sDirectionalSpreading (psi0 s Fs : R)
| SumOfWaveDirectionalSpreadings (terms : list spreading).

(** Cos2sDirectionalSpreading.cpp:23-26 *)
Fixpoint spreading_ctor_ok (D : spreading) : bool :=
  match D with
  | DiracDirectionalSpreading _ => true
  | Cos2sDirectionalSpreading _ s _ => negb (Rltb s 0)
  | SumOfWaveDirectionalSpreadings terms => forallb spreading_ctor_ok terms
  end.

Definition fadd (a b : fnum) : fnum := match a, b with Some x, Some y => Some (x + y) | _, _ => None end.
Definition fmul (a b : fnum) : fnum := match a, b with Some x, Some y => Some (x * y) | _, _ => None end.
(** [sqrt]: NaN for a negative number. *)
Definition fsqrt (a : fnum) : fnum := match a with Some x => if Rltb x 0 then None else Some (sqrt x) | None => None end.

(** operator()(psi): DiracDirectionalSpreading.cpp:17-24, Cos2sDirectionalSpreading.cpp:30-34, SumOfWaveDirectionalSpreadings.cpp:35-44. *)
Fixpoint spread (D : spreading) (psi : R) : fnum :=
  match D with
  | DiracDirectionalSpreading psi0 => if Rltb (Rabs (psi - psi0)) (/ 10 ^ 15) then Some 1 else Some 0
  | Cos2sDirectionalSpreading psi0 s Fs => fmul (Some Fs) (cpow (cos ((psi - psi0) / 2)) (2 * s))
  | SumOfWaveDirectionalSpreadings terms => fold_left (fun acc t => fadd acc (spread t psi)) terms (Some 0)
  end.

(** WaveDirectionalSpreading.cpp:28-39 *)
Definition base_directions (n : nat) : list R :=
  let two_pi := 2 * PI in
  let scale := two_pi / INR n in
  map (fun i => INR i * scale) (seq 0 n).
(** get_directions: WaveDirectionalSpreading.cpp:28-39 (inherited), DiracDirectionalSpreading.cpp:31-34,
    SumOfWaveDirectionalSpreadings.cpp:55-66. *)
Fixpoint directions (D : spreading) (n : nat) : list R :=
  match D with
  | DiracDirectionalSpreading psi0 => [psi0]
  | Cos2sDirectionalSpreading _ _ _ => base_directions n
  | SumOfWaveDirectionalSpreadings terms => fold_left (fun s t => set_inserts (directions t n) s) terms []
  end.

(** ** Stretching *)
Record stretching : Type := mkStretching { st_delta : R; st_h : R }.
(** Stretching.cpp:14-41 *)
Definition rescaled_z (st : stretching) (z ksi : R) : R :=
  let h := st_h st in
  if Reqb h 0 then z
  else if Rltb h z then z
  else (z - h) * (st_delta st * ksi - h) / (ksi - h) + h.

(** discretize.cpp:222-238 (infinite depth), 240-258 and 260-270 (finite depth). *)
Definition dynamic_pressure_factor_inf (st : stretching) (k z eta : R) : R :=
  if negb (Reqb eta 0) && Rltb z eta then 0 else exp (- k * rescaled_z st z eta).
Definition dynamic_pressure_factor (h : R) (st : stretching) (k z eta : R) : R :=
  if negb (Reqb eta 0) && Rltb z eta then 0
  else if Rltb h z then 0
  else cosh (k * (h - rescaled_z st z eta)) / cosh (k * h).
Definition dynamic_pressure_factor_sh (h : R) (st : stretching) (k z eta : R) : R :=
  if negb (Reqb eta 0) && Rltb z eta then 0
  else if Rltb h z then 0
  else sinh (k * (h - rescaled_z st z eta)) / cosh (k * h).

(** ** Discretisation *)

(** DiscreteDirectionalWaveSpectrum (DiscreteDirectionalWaveSpectrum.hpp:23-37) *)
Record discrete : Type := mkDiscrete {
  d_Si : list R; d_Dj : list fnum; d_omega : list R; d_psi : list R; d_k : list R; d_phase : list (list R);
  d_pdyn : R -> R -> R -> R; d_pdyn_sh : R -> R -> R -> R }.

(** discretize.cpp:28-44 and 46-61: infinite depth. *)
Definition discretize_inf (S : spectrum) (D : spreading) (omega_min omega_max : R) (n : nat) (st : stretching) : outcome discrete :=
  do omega <- angular_frequencies S omega_min omega_max n;
  let psi := directions D n in
  do Si <- mapM (density S) omega;
  let Dj := map (spread D) psi in
  Ok (mkDiscrete Si Dj omega psi (map wave_number_inf omega) [] (dynamic_pressure_factor_inf st) (dynamic_pressure_factor_inf st)).

(** discretize.cpp:28-44 and 69-93: finite depth. The loop of lines 82-89 throws at the first wave number with k*h < PI/10. *)
Definition discretize_h (halley : halley_t) (S : spectrum) (D : spreading) (omega_min omega_max : R) (n : nat) (h : R) (st : stretching)
  : outcome discrete :=
  do omega <- angular_frequencies S omega_min omega_max n;
  let psi := directions D n in
  do Si <- mapM (density S) omega;
  let Dj := map (spread D) psi in
  do k <- mapM (fun w => wave_number halley w h) omega;
  if existsb (fun ki => Rltb (ki * h) (PI / 10)) k then Throw
  else Ok (mkDiscrete Si Dj omega psi k [] (dynamic_pressure_factor h st) (dynamic_pressure_factor_sh h st)).

(** parser_extensions/src/builders.cpp:91-100 (parse_directional_spectrum): which discretisation the input file gets. *)
Definition parse_directional_spectrum (halley : halley_t) (S : spectrum) (D : spreading) (omega_min omega_max : R) (n : nat)
  (depth : R) (st : stretching) : outcome discrete :=
  if Rltb 0 depth then discretize_inf S D omega_min omega_max n st
  else discretize_h halley S D omega_min omega_max n depth st.

(** WaveModel.cpp:19-33 *)
Definition add_constant_phases (sp : discrete) (phase : R) : discrete :=
  let n := List.length (d_Si sp) in
  let p := List.length (d_Dj sp) in
  if Nat.ltb 0 (n * p)
  then mkDiscrete (d_Si sp) (d_Dj sp) (d_omega sp) (d_psi sp) (d_k sp) (repeat (repeat phase n) n) (d_pdyn sp) (d_pdyn_sh sp)
  else sp.
(** WaveModel.cpp:36-56. The Mersenne twister is external: [draw i j] is the number drawn for component (i,j). *)
Definition add_random_phases (sp : discrete) (draw : nat -> nat -> R) : discrete :=
  let n := List.length (d_Si sp) in
  let p := List.length (d_Dj sp) in
  if Nat.ltb 0 (n * p)
  then mkDiscrete (d_Si sp) (d_Dj sp) (d_omega sp) (d_psi sp) (d_k sp) (map (fun i => map (draw i) (seq 0 p)) (seq 0 n)) (d_pdyn sp) (d_pdyn_sh sp)
  else sp.

(** FlatDiscreteDirectionalWaveSpectrum (DiscreteDirectionalWaveSpectrum.hpp:47-59); the amplitudes may be NaN before
    [check_sizes]. *)
Record flat (A : Type) : Type := mkFlat {
  f_a : list A; f_omega : list R; f_psi : list R; f_cos : list R; f_sin : list R; f_k : list R; f_phase : list R;
  f_pdyn : R -> R -> R -> R; f_pdyn_sh : R -> R -> R -> R }.
Arguments mkFlat {A}. Arguments f_a {A}. Arguments f_omega {A}. Arguments f_psi {A}. Arguments f_cos {A}. Arguments f_sin {A}.
Arguments f_k {A}. Arguments f_phase {A}. Arguments f_pdyn {A}. Arguments f_pdyn_sh {A}.

(** discretize.cpp:121-139 and 142-160: the width attached to value number [i] of a grid of [n] values. *)
Definition width (grid : list R) (i : nat) : outcome R :=
  let n := List.length grid in
  if Nat.ltb 1 n then
    if Nat.eqb i 0 then (do b <- at_throw grid 1; do a <- at_throw grid 0; Ok ((b - a) / 2))
    else if Nat.eqb i (n - 1) then (do b <- at_throw grid (n - 1); do a <- at_throw grid (n - 2); Ok ((b - a) / 2))
    else (do b <- at_throw grid i; do a <- at_throw grid (i - 1); do c <- at_throw grid (i + 1); do b' <- at_throw grid i;
          Ok ((b - a) / 2 + (c - b') / 2))
  else Ok 1.

(** One component, discretize.cpp:140-169. *)
Record component (A : Type) : Type := mkComp { c_a : A; c_omega : R; c_psi : R; c_k : R; c_phase : R }.
Arguments mkComp {A}. Arguments c_a {A}. Arguments c_omega {A}. Arguments c_psi {A}. Arguments c_k {A}. Arguments c_phase {A}.
Definition flatten_component (sp : discrete) (i j : nat) : outcome (component fnum) :=
  do domega <- width (d_omega sp) i;
  do dpsi <- width (d_psi sp) j;
  do k <- at_ub (d_k sp) i;
  do omega <- at_ub (d_omega sp) i;
  do psi <- at_ub (d_psi sp) j;
  do si <- at_ub (d_Si sp) i;
  do dj <- at_ub (d_Dj sp) j;
  let s := fmul (Some si) dj in
  let a := fsqrt (fmul (fmul (fmul (Some 2) s) (Some domega)) (Some dpsi)) in
  do row <- at_throw (d_phase sp) i;
  do phase <- at_throw row j;
  Ok (mkComp a omega psi k phase).
(** discretize.cpp:106-174. The seven vectors are filled in parallel. *)
Definition flatten (sp : discrete) : outcome (flat fnum) :=
  do cs <- mapM (fun ij => flatten_component sp (fst ij) (snd ij)) (list_prod (seq 0 (List.length (d_omega sp))) (seq 0 (List.length (d_psi sp))));
  Ok (mkFlat (map c_a cs) (map c_omega cs) (map c_psi cs) (map (fun c => cos (c_psi c)) cs) (map (fun c => sin (c_psi c)) cs)
             (map c_k cs) (map c_phase cs) (d_pdyn sp) (d_pdyn_sh sp)).

(** WaveModel.cpp:68-109: throws on an empty spectrum or a NaN amplitude (omega and k are never NaN in this model). *)
Fixpoint all_numbers (l : list fnum) : option (list R) :=
  match l with
  | [] => Some []
  | Some x :: l' => match all_numbers l' with Some xs => Some (x :: xs) | None => None end
  | None :: _ => None
  end.
Definition is_nil {A} (l : list A) : bool := match l with [] => true | _ => false end.
Definition check_sizes (f : flat fnum) : outcome (flat R) :=
  if is_nil (f_omega f) || is_nil (f_a f) || is_nil (f_k f) || is_nil (f_phase f) then Throw
  else match all_numbers (f_a f) with
       | None => Throw
       | Some a => Ok (mkFlat a (f_omega f) (f_psi f) (f_cos f) (f_sin f) (f_k f) (f_phase f) (f_pdyn f) (f_pdyn_sh f))
       end.

(** Airy.cpp:18-24 with WaveModel.cpp:58-66: the two constructors. *)
Definition airy_constant (sp : discrete) (phase : R) : outcome (flat R) :=
  do f <- flatten (add_constant_phases sp phase); check_sizes f.
Definition airy_random (sp : discrete) (draw : nat -> nat -> R) : outcome (flat R) :=
  do f <- flatten (add_random_phases sp draw); check_sizes f.

(** discretize.cpp:95-98, 203 and [std::list::sort], which is stable: insertion sort in decreasing order of the first member. *)
Fixpoint insert_desc (v : R * nat) (l : list (R * nat)) : list (R * nat) :=
  match l with
  | [] => [v]
  | w :: l' => if Rltb (fst w) (fst v) then v :: l else w :: insert_desc v l'
  end.
Definition sort_desc (l : list (R * nat)) : list (R * nat) := fold_left (fun s v => insert_desc v s) l [].

(** discretize.cpp:203-218: the indices kept. *)
Fixpoint filter_loop (max_energy cumsum : R) (l : list (R * nat)) : list nat :=
  match l with
  | [] => []
  | v :: l' => if Rleb max_energy cumsum then [] else snd v :: filter_loop max_energy (cumsum + fst v) l'
  end.
(** discretize.cpp:185-220. The spectrum filtered is one without NaN. Note that [phase] is not copied. *)
Definition filter_spectrum (f : flat R) (ratio : R) : outcome (flat R) :=
  let n := List.length (f_omega f) in
  do energies <- mapM (fun i => do a <- at_throw (f_a f) i; Ok (a * a, i)) (seq 0 n);
  let total := fold_left (fun s v => s + fst v) energies 0 in
  let kept := filter_loop (ratio * total) 0 (sort_desc energies) in
  do a <- mapM (at_throw (f_a f)) kept;
  do omega <- mapM (at_throw (f_omega f)) kept;
  do psi <- mapM (at_throw (f_psi f)) kept;
  do c <- mapM (at_throw (f_cos f)) kept;
  do s <- mapM (at_throw (f_sin f)) kept;
  do k <- mapM (at_throw (f_k f)) kept;
  Ok (mkFlat a omega psi c s k [] (f_pdyn f) (f_pdyn_sh f)).

(** ** Airy kinematics *)

(** The phase angle of component [i] at (x,y,t): Airy.cpp:65-67, 109-113, 150-151. *)
Definition angle (f : flat R) (x y t : R) (i : nat) : outcome R :=
  do w <- at_ub (f_omega f) i;
  do k <- at_ub (f_k f) i;
  do c <- at_ub (f_cos f) i;
  do s <- at_ub (f_sin f) i;
  do theta <- at_ub (f_phase f) i;
  Ok (- (w * t) + k * (x * c + y * s) + theta).

Definition pairs {A B} (xs : list A) (ys : list B) : list (A * B) := combine xs ys.

(** Airy.cpp:52-73 behind WaveModel.cpp:125-136 (get_elevation). *)
Definition elevation1 (f : flat R) (t : R) (x y : R) : outcome R :=
  accM (fun i => do a <- at_ub (f_a f) i; do th <- angle f x y t i; Ok (- (a * sin th))) 0 (seq 0 (List.length (f_psi f))).
Definition get_elevation (f : flat R) (x y : list R) (t : R) : outcome (list R) :=
  if negb (Nat.eqb (List.length x) (List.length y)) then Throw
  else mapM (fun p => elevation1 f t (fst p) (snd p)) (combine x y).

(** Airy.cpp:75-120 behind WaveModel.cpp:155-171 (get_dynamic_pressure). *)
Definition dynamic_pressure1 (f : flat R) (rho g t : R) (x y z eta : R) : outcome R :=
  if Rltb z eta then Ok 0
  else do p <- accM (fun i => do a <- at_ub (f_a f) i; do k <- at_ub (f_k f) i; do th <- angle f x y t i;
                              Ok (a * f_pdyn f k z eta * sin th)) 0 (seq 0 (List.length (f_psi f)));
       Ok (p * (rho * g)).
Definition get_dynamic_pressure (f : flat R) (rho g : R) (x y z eta : list R) (t : R) : outcome (list R) :=
  if negb (Nat.eqb (List.length x) (List.length y)) || negb (Nat.eqb (List.length x) (List.length z)) || negb (Nat.eqb (List.length x) (List.length eta)) then Throw
  else mapM (fun p => dynamic_pressure1 f rho g t (fst (fst (fst p))) (snd (fst (fst p))) (snd (fst p)) (snd p))
            (combine (combine (combine x y) z) eta).

(** Airy.cpp:122-167 behind WaveModel.cpp:138-153 (get_orbital_velocity). *)
Definition orbital_velocity1 (f : flat R) (g t : R) (x y z eta : R) : outcome (R * R * R) :=
  if Rltb z eta then Ok (0, 0, 0)
  else
    let comp i := do w <- at_ub (f_omega f) i; do k <- at_ub (f_k f) i; do th <- angle f x y t i; do a <- at_ub (f_a f) i;
                  do c <- at_ub (f_cos f) i; do s <- at_ub (f_sin f) i;
                  let ako := a * k / w in
                  Ok (ako * f_pdyn f k z 0 * sin th * c, ako * f_pdyn f k z 0 * sin th * s, ako * f_pdyn_sh f k z 0 * cos th) in
    let n := List.length (f_psi f) in
    do u <- accM (fun i => do v <- comp i; Ok (fst (fst v))) 0 (seq 0 n);
    do v <- accM (fun i => do v <- comp i; Ok (snd (fst v))) 0 (seq 0 n);
    do w <- accM (fun i => do v <- comp i; Ok (snd v)) 0 (seq 0 n);
    Ok (u * g, v * g, w * g).
Definition get_orbital_velocity (f : flat R) (g : R) (x y z : list R) (t : R) (eta : list R) : outcome (list (R * R * R)) :=
  if negb (Nat.eqb (List.length x) (List.length y)) || negb (Nat.eqb (List.length x) (List.length z)) || negb (Nat.eqb (List.length x) (List.length eta)) then Throw
  else mapM (fun p => orbital_velocity1 f g t (fst (fst (fst p))) (snd (fst (fst p))) (snd (fst p)) (snd p))
            (combine (combine (combine x y) z) eta).

(** SurfaceElevationInterface.cpp:116-151 (evaluate_rao); Airy.cpp:27-50 is its body for one spectrum. The phases of the RAO are
    read with [v[i]]. *)
Definition rao_spectrum (f : flat R) (x y t : R) (modules phases : list R) : outcome R :=
  if negb (Nat.eqb (List.length modules) (List.length (f_k f))) then Throw
  else accM (fun i => do m <- at_ub modules i; do a <- at_ub (f_a f) i; do th <- angle f x y t i; do ph <- at_ub phases i;
                      Ok (- (m * a * sin (th + ph)))) 0 (seq 0 (List.length modules)).
Definition evaluate_rao (fs : list (flat R)) (x y t : R) (modules phases : list (list R)) : outcome R :=
  accM (fun i => do m <- at_throw modules i; do p <- at_throw phases i; do f <- at_throw fs i; rao_spectrum f x y t m p) 0 (seq 0 (List.length fs)).

(** SurfaceElevationFromWaves.cpp:39-56: the result of every spectrum is added to the total; [zwave.at(i)] throws if a spectrum
    returns more values than there are points, and a spectrum returning fewer values leaves the others unchanged. *)
Fixpoint add_into (acc v : list R) : outcome (list R) :=
  match v, acc with
  | [], _ => Ok acc
  | _ :: _, [] => Throw
  | b :: v', a :: acc' => do r <- add_into acc' v'; Ok (a + b :: r)
  end.
Fixpoint wave_height_loop (fs : list (flat R)) (x y : list R) (t : R) (acc : list R) : outcome (list R) :=
  match fs with
  | [] => Ok acc
  | f :: fs' => do v <- get_elevation f x y t; do acc' <- add_into acc v; wave_height_loop fs' x y t acc'
  end.
Definition wave_height (fs : list (flat R)) (x y : list R) (t : R) : outcome (list R) :=
  wave_height_loop fs x y t (repeat 0 (List.length x)).
(** SurfaceElevationInterface.cpp:153-164 *)
Definition get_and_check_wave_height (fs : list (flat R)) (x y : list R) (t : R) : outcome (list R) :=
  if negb (Nat.eqb (List.length x) (List.length y)) then Throw else wave_height fs x y t.
(** SurfaceElevationFromWaves.cpp:104-123: [dynamic_pressure_for_spectrum.at(i)] throws if a spectrum returns fewer values than there
    are points. *)
Fixpoint pressure_loop (fs : list (flat R)) (rho g : R) (x y z eta : list R) (t : R) (acc : list R) : outcome (list R) :=
  match fs with
  | [] => Ok acc
  | f :: fs' => do v <- get_dynamic_pressure f rho g x y z eta t;
                do acc' <- mapM (fun i => do a <- at_ub acc i; do b <- at_throw v i; Ok (a + b)) (seq 0 (List.length acc));
                pressure_loop fs' rho g x y z eta t acc'
  end.
Definition surface_dynamic_pressure (fs : list (flat R)) (rho g : R) (x y z eta : list R) (t : R) : outcome (list R) :=
  pressure_loop fs rho g x y z eta t (repeat 0 (List.length x)).
(** SurfaceElevationFromWaves.cpp:125-144 *)
Fixpoint velocity_loop (fs : list (flat R)) (g : R) (x y z : list R) (t : R) (eta : list R) (acc : list (R * R * R)) : outcome (list (R * R * R)) :=
  match fs with
  | [] => Ok acc
  | f :: fs' => do v <- get_orbital_velocity f g x y z t eta;
                do acc' <- mapM (fun i => do a <- at_ub acc i; do b <- at_ub v i;
                                          Ok (fst (fst a) + fst (fst b), snd (fst a) + snd (fst b), snd a + snd b)) (seq 0 (List.length v));
                velocity_loop fs' g x y z t eta acc'
  end.
Definition surface_orbital_velocity (fs : list (flat R)) (g : R) (x y z : list R) (t : R) (eta : list R) : outcome (list (R * R * R)) :=
  velocity_loop fs g x y z t eta (repeat (0, 0, 0) (List.length x)).

(** ** Output mesh *)

(** YamlWaveOutput without the frame of reference *)
Record wave_output : Type := mkWaveOutput { xmin : R; xmax : R; onx : nat; ymin : R; ymax : R; ony : nat }.
(** SurfaceElevationBuilder.cpp:16-21 *)
Definition mesh_step (lo hi : R) (n : nat) : R := (hi - lo) / INR (if Nat.ltb 1 n then n - 1 else 1).
(** SurfaceElevationBuilder.cpp:23-29 (get_wave_mesh_size) *)
Definition mesh_count (lo hi : R) (n : nat) : nat := if Reqb (mesh_step lo hi n) 0 && negb (Nat.eqb n 0) then 1 else n.
Definition get_wave_mesh_size (o : wave_output) : nat * nat := (mesh_count (xmin o) (xmax o) (onx o), mesh_count (ymin o) (ymax o) (ony o)).
(** SurfaceElevationBuilder.cpp:31-53 (make_wave_mesh) *)
Definition make_wave_mesh (o : wave_output) : list (R * R * R) :=
  let nx := mesh_count (xmin o) (xmax o) (onx o) in
  let ny := mesh_count (ymin o) (ymax o) (ony o) in
  let dx := mesh_step (xmin o) (xmax o) (onx o) in
  let dy := mesh_step (ymin o) (ymax o) (ony o) in
  map (fun ji => (xmin o + INR (snd ji) * dx, ymin o + INR (fst ji) * dy, 0)) (list_prod (seq 0 ny) (seq 0 nx)).

(** SurfaceElevationFromWaves.cpp:13-24: constructor; throws if the declared size is not the number of points. *)
Record surface : Type := mkSurface { su_spectra : list (flat R); su_size : nat * nat; su_mesh : list (R * R * R) }.
Definition make_surface (fs : list (flat R)) (size : nat * nat) (mesh : list (R * R * R)) : outcome surface :=
  if negb (Nat.eqb (fst size * snd size) (List.length mesh)) then Throw else Ok (mkSurface fs size mesh).

(** SurfaceElevationInterface.cpp:55-80 (get_points_on_free_surface) *)
Definition points_on_free_surface (fs : list (flat R)) (t : R) (P : list (R * R * R)) : outcome (list (R * R * R)) :=
  do zs <- get_and_check_wave_height fs (map (fun p => fst (fst p)) P) (map (fun p => snd (fst p)) P) t;
  mapM (fun i => do p <- at_ub P i; do z <- at_throw zs i; Ok (fst (fst p), snd (fst p), z)) (seq 0 (List.length P)).
(** SurfaceElevationInterface.cpp:92-114 (update_surface_elevation): surface elevations and relative heights, computed for points already
    in the NED frame ([compute_position_in_NED_frame] is [to_ned]); [None] is line 99, where nothing is updated. *)
Definition update_surface_elevation (fs : list (flat R)) (to_ned : R * R * R -> R * R * R) (t : R) (P : list (R * R * R))
  : outcome (option (list R * list R)) :=
  match P with
  | [] => Ok None
  | _ => let OP := map to_ned P in
         do zs <- get_and_check_wave_height fs (map (fun p => fst (fst p)) OP) (map (fun p => snd (fst p)) OP) t;
         do rel <- mapM (fun i => do p <- at_ub OP i; do z <- at_throw zs i; Ok (snd p - z)) (seq 0 (List.length OP));
         Ok (Some (zs, rel))
  end.
(** SurfaceElevationInterface.cpp:253-260 (get_waves_on_mesh) *)
Definition get_waves_on_mesh (s : surface) (to_ned : R * R * R -> R * R * R) (t : R) : outcome (list (R * R * R)) :=
  match su_mesh s with
  | [] => Ok []
  | _ => points_on_free_surface (su_spectra s) t (map to_ned (su_mesh s))
  end.
(** SurfaceElevationInterface.cpp:262-300 (get_waves_on_mesh_as_a_grid); z(i,j) is element i of row j of [g_z]. *)
Record grid : Type := mkGrid { g_x : list R; g_y : list R; g_z : list (list R) }.
Definition get_waves_on_mesh_as_a_grid (s : surface) (to_ned : R * R * R -> R * R * R) (t : R) : outcome grid :=
  do res <- get_waves_on_mesh s to_ned t;
  match res with
  | [] => Ok (mkGrid [] [] [])
  | _ => let nx := fst (su_size s) in
         let ny := snd (su_size s) in
         if negb (Nat.eqb (nx * ny) (List.length res)) then Throw
         else do xs <- mapM (fun i => do p <- at_ub res i; Ok (fst (fst p))) (seq 0 nx);
              do ys <- mapM (fun j => do p <- at_ub res (j * nx); Ok (snd (fst p))) (seq 0 ny);
              do zs <- mapM (fun j => mapM (fun i => do p <- at_ub res (j * nx + i); Ok (snd p)) (seq 0 nx)) (seq 0 ny);
              Ok (mkGrid xs ys zs)
  end.
