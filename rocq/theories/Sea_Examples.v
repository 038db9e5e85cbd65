(** C146, C147: a waves section that meets the hypotheses of the theorems of Sea_Props. *)
From Coq Require Import Reals List Arith Bool String ZArith Lra Lia.
From Verif Require Import Common Hdf5_Mesh_Model Yaml_Model Yaml_Spec Yaml_Proofs Yaml_Props Yaml_Waves_Props Yaml_Examples Wave_Model Sea_Model Sea_Props.
Import ListNotations.
Open Scope R_scope.

Definition dblR (s : string) : option R := option_map IZR (dbl s).
Definition factorR (s : string) : option R := option_map IZR (factor s).
Definition waves_file (e : string) : yaml := Map (waves_doc e [("output", Map [("frame of reference", Scalar "NED"); ("mesh", mesh_of "ny")])])%string.
Notation says_waves := (describes_waves R 0 Rmult dblR int_of factorR).
Lemma accepted : exists w s, says_waves (waves_file "1") w /\ wm_spectra w = [s] /\
  s_model s = "airy"%string /\ s_density_type s = "dirac"%string /\ s_spreading_type s = "dirac"%string /\ 0 < s_depth s /\
  under (s_density s) "Hs" (quantity R Rmult dblR factorR) 5 /\ under (s_density s) "omega0" (quantity R Rmult dblR factorR) 1 /\
  under (s_spreading s) "waves propagating to" (quantity R Rmult dblR factorR) 1 /\ under (s_yaml s) "seed of the random data generator" text "none".
Proof.
  do 2 eexists. split; [apply waves_section_reading; cbv -[IZR Rmult]; reflexivity|]. split; [reflexivity|]. cbv [s_model s_density_type s_spreading_type s_depth s_density s_spreading s_yaml].
  do 3 (split; [reflexivity|]). split; [lra|].
  split; [|split; [|split]]; try (apply uv_ok; cbv -[IZR Rmult]; f_equal; ring). eexists. split; [apply find_ok; reflexivity|apply string_ok; reflexivity].
Qed.
(** C147: the wave of that section, 5 m high *)
Example wave_of_the_file : forall halley Fs draw, exists sea, build_sea dblR int_of factorR halley Fs draw (waves_file "1") = Ok sea /\ forall x y t,
  get_and_check_wave_height (su_spectra sea) [x] [y] t = Ok [- (5 / 2 * sin (- (1 * t) + 1 * 1 / (981 / 100) * (x * cos 1 + y * sin 1)))].
Proof.
  intros halley Fs draw. destruct accepted as (w & s & H & E & A & B & C & P & U1 & U2 & U3 & U4).
  exact (regular_wave_of_the_file_partial dblR int_of factorR halley Fs draw _ w s 5 1 1 H E A B C U1 U2 U3 U4 eq_refl ltac:(lra) ltac:(lra) P).
Qed.
(** C146: keeping all the energy, or none *)
Example energy_fraction_ignored : forall halley Fs draw,
  build_sea dblR int_of factorR halley Fs draw (waves_file "1") = build_sea dblR int_of factorR halley Fs draw (waves_file "0").
Proof.
  intros halley Fs draw. eapply energy_fraction_refuted; apply waves_section_reading; cbv -[IZR Rmult]; reflexivity.
Qed.
(** C147: a model that does not exist *)
Definition stokes : yaml :=
  Map [("constant sea elevation in NED frame", q "0" "m");
   ("discretization", Map [("energy fraction", Scalar "1"); ("n", Scalar "10"); ("omega max", q "6" "rad/s"); ("omega min", q "1" "rad/s")]);
   ("spectra", Seq [Map [("depth", q "100" "m"); ("directional spreading", Map [("type", Scalar "dirac"); ("waves propagating to", q "1" "rad")]); ("model", Scalar "stokes");
      ("seed of the random data generator", Scalar "none");
      ("spectral density", Map [("Hs", q "5" "m"); ("omega0", q "1" "rad/s"); ("type", Scalar "dirac")]); ("stretching", Map [("delta", Scalar "0"); ("h", q "0" "m")])]])]%string.
Example stokes_refused : forall halley Fs draw sea, build_sea dblR int_of factorR halley Fs draw stokes <> Ok sea.
Proof.
  intros halley Fs draw. eapply unknown_wave_models_are_refused; [apply waves_section_reading; cbv -[IZR Rmult]; reflexivity|left; reflexivity|left; discriminate].
Qed.
