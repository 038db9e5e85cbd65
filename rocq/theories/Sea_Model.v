(** Model of the construction of the sea from the waves section of the input file: parser_extensions/src/builders.cpp, over exact reals. The reading is that of
    Yaml_Model, the discretisation and the kinematics those of Wave_Model. *)
From Coq Require Import Reals List Arith Bool String ZArith.
From Verif Require Import Common Hdf5_Mesh_Model Yaml_Model Wave_Model.
Import ListNotations.
Open Scope string_scope.

Section Sea.
Variable dbl : string -> option R.
Variable int_of : string -> option Z.
Variable factor : string -> option R.
(** boost::math::tools::halley_iterate (external), as in Wave_Model *)
Variable halley : halley_t.
(** The value of Fs computed by the constructor (boost::math::tgamma, external), Cos2sDirectionalSpreading.cpp:27 *)
Variable Fs : R -> R.
(** The phases drawn with a seed (boost::mt19937, external), WaveModel.cpp:36-56 *)
Variable draw : Z -> nat -> nat -> R.

(** builders.cpp:53-71, 130-178: one builder for each type; the types are distinct, so that the order of the builders does not matter. *)
Definition checked_spectrum (S : spectrum) : outcome spectrum := if spectrum_ctor_ok S then Ok S else Throw.
Definition parse_spectral_density (s : spectra R) : outcome spectrum :=
  let t := s_density_type s in let n := s_density s in
  if String.eqb t "bretschneider" then do p <- parse_bretschneider R Rmult dbl factor n; checked_spectrum (BretschneiderSpectrum (fst p) (snd p))
  else if String.eqb t "jonswap" then do p <- parse_jonswap R Rmult dbl factor n; checked_spectrum (JonswapSpectrum (fst (fst p)) (snd (fst p)) (snd p))
  else if String.eqb t "pierson-moskowitz" then do p <- parse_pierson_moskowitz R Rmult dbl factor n; checked_spectrum (PiersonMoskowitzSpectrum (fst p) (snd p))
  else if String.eqb t "dirac" then do p <- parse_dirac_spectrum R Rmult dbl factor n; checked_spectrum (DiracSpectralDensity (fst p) (snd p))
  else Throw.
(** builders.cpp:73-89, 180-202 *)
Definition parse_directional_spreading (s : spectra R) : outcome spreading :=
  let t := s_spreading_type s in let n := s_spreading s in
  if String.eqb t "dirac" then do p <- parse_dirac_direction R Rmult dbl factor n; Ok (DiracDirectionalSpreading p)
  else if String.eqb t "cos2s" then do p <- parse_cos2s R Rmult dbl factor n;
       let D := Cos2sDirectionalSpreading (fst p) (snd p) (Fs (snd p)) in if spreading_ctor_ok D then Ok D else Throw
  else Throw.
(** builders.cpp:91-114 and 36-51: the only wave model is airy. *)
Definition parse_wave_model (d : discretization R) (s : spectra R) : outcome (flat R) :=
  do Sd <- parse_spectral_density s;
  do Dd <- parse_directional_spreading s;
  do sp <- parse_directional_spectrum halley Sd Dd (di_min d) (di_max d) (Z.to_nat (di_n d)) (s_depth s) (mkStretching (Yaml_Model.st_delta (s_stretching s)) (Yaml_Model.st_h (s_stretching s)));
  if String.eqb (s_model s) "airy" then
    do seed <- parse_seed int_of (s_yaml s);
    match seed with Some k => airy_random sp (draw k) | None => airy_constant sp 0%R end
  else Throw.
Definition output_mesh (o : Yaml_Model.wave_output R) : wave_output :=
  Wave_Model.mkWaveOutput (wo_xmin o) (wo_xmax o) (Z.to_nat (wo_nx o)) (wo_ymin o) (wo_ymax o) (Z.to_nat (wo_ny o)).
(** builders.cpp:116-128 *)
Definition build_sea (n : yaml) : outcome surface :=
  do i <- parse_waves R 0%R Rmult dbl int_of factor n;
  let o := output_mesh (wm_output i) in
  do models <- traverse (parse_wave_model (wm_discretization i)) (wm_spectra i);
  make_surface models (get_wave_mesh_size o) (make_wave_mesh o).
End Sea.
