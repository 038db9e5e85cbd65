(** C146, C147: the sea built from the waves section. *)
From Coq Require Import Reals List Arith Bool String ZArith Lra Lia.
From Verif Require Import Common Hdf5_Mesh_Model Yaml_Model Yaml_Spec Yaml_Proofs Yaml_Rotation_Proofs Yaml_Props Yaml_Waves_Props Wave_Model Wave_Spec Wave_Proofs Wave_Flat_Proofs Wave_Airy_Proofs
  Wave_Surface_Props Sea_Model.
Import ListNotations.
Open Scope string_scope.
Open Scope R_scope.

Section Sea.
Variable dbl : string -> option R.
Variable int_of : string -> option Z.
Variable factor : string -> option R.
Variable halley : halley_t.
Variable Fs : R -> R.
Variable draw : Z -> nat -> nat -> R.
Notation build := (build_sea dbl int_of factor halley Fs draw).
Notation says_waves := (describes_waves R 0 Rmult dbl int_of factor).
Notation says_quantity := (quantity R Rmult dbl factor).

(** ** C146: the energy fraction has no effect *)
Theorem energy_fraction_refuted : forall n n' k lo hi e e' s o,
  says_waves n (mkWaveModel (mkDiscretization k lo hi e) s o) -> says_waves n' (mkWaveModel (mkDiscretization k lo hi e') s o) ->
  build n = build n'.
Proof.
  intros n n' k lo hi e e' s o H H'. unfold build_sea. apply waves_section_reading in H, H'. rewrite H, H'. cbn [bindO wm_output wm_discretization wm_spectra]. reflexivity.
Qed.

(** ** C147: a regular wave *)
Lemma regular_flat w Hs psi st : 0 <= Hs -> 0 < w -> forall lo hi n,
  (do sp <- discretize_inf (DiracSpectralDensity w Hs) (DiracDirectionalSpreading psi) lo hi n st; airy_constant sp 0) =
  Ok (mkFlat [Hs / 2] [w] [psi] [cos psi] [sin psi] [wave_number_inf w] [0] (dynamic_pressure_factor_inf st) (dynamic_pressure_factor_inf st)).
Proof.
  intros HH Hw lo hi n. unfold discretize_inf. cbn [angular_frequencies bindO directions map mapM density spread].
  rewrite Rleb_f by lra. assert (Z : forall u, Rltb (Rabs (u - u)) (/ 10 ^ 15) = true).
  { intros u. apply Rltb_t. unfold Rminus. rewrite Rplus_opp_r, Rabs_R0. apply Rinv_0_lt_compat, pow_lt. lra. }
  rewrite !Z. cbn [bindO].
  unfold airy_constant, add_constant_phases, flatten, flatten_component, width. cbn -[sqrt cos sin].
  replace (2 * (Hs * Hs / 8 * 1) * 1 * 1) with ((Hs / 2) * (Hs / 2)) by field. rewrite Rltb_f by (pose proof (Rle_0_sqr (Hs / 2)) as Q; unfold Rsqr in Q; lra). cbn -[sqrt cos sin].
  rewrite sqrt_square by lra. reflexivity.
Qed.
Lemma regular_elevation A w psi k pd ps x y t : get_and_check_wave_height [mkFlat [A] [w] [psi] [cos psi] [sin psi] [k] [0] pd ps] [x] [y] t =
  Ok [- (A * sin (- (w * t) + k * (x * cos psi + y * sin psi)))].
Proof.
  unfold get_and_check_wave_height, wave_height, get_elevation. cbn [List.length Nat.eqb negb wave_height_loop]. unfold get_elevation. cbn [List.length Nat.eqb negb].
  cbn [mapM combine fst snd]. unfold elevation1, angle. cbn -[sin cos]. do 2 f_equal. replace (- (w * t) + k * (x * cos psi + y * sin psi) + 0) with (- (w * t) + k * (x * cos psi + y * sin psi)) by ring. ring.
Qed.
(** A dirac spectrum in one direction and no seed: a sinusoid of height Hs that travels towards psi with the dispersion relation of infinitely deep water. *)
Theorem regular_wave_of_the_file_partial : forall n w s Hs om psi,
  says_waves n w -> wm_spectra w = [s] -> s_model s = "airy"%string -> s_density_type s = "dirac"%string -> s_spreading_type s = "dirac"%string ->
  under (s_density s) "Hs" says_quantity Hs -> under (s_density s) "omega0" says_quantity om -> under (s_spreading s) "waves propagating to" says_quantity psi ->
  under (s_yaml s) "seed of the random data generator" text "none" -> int_of "none" = None ->
  0 <= Hs -> 0 < om -> 0 < s_depth s ->
  exists sea, build n = Ok sea /\ forall x y t,
    get_and_check_wave_height (su_spectra sea) [x] [y] t =
    Ok [- (Hs / 2 * sin (- (om * t) + om * om / (981 / 100) * (x * cos psi + y * sin psi)))].
Proof.
  intros n w s Hs om psi Hw Es Em Ed Ep UH Uo Up Us Ni PH Po Pd.
  unfold build_sea. apply waves_section_reading in Hw. rewrite Hw. cbn [bindO]. rewrite Es. cbn [traverse].
  assert (M : parse_wave_model dbl int_of factor halley Fs draw (wm_discretization w) s =
    Ok (mkFlat [Hs / 2] [om] [psi] [cos psi] [sin psi] [wave_number_inf om] [0] (dynamic_pressure_factor_inf (mkStretching (Yaml_Model.st_delta (s_stretching s)) (Yaml_Model.st_h (s_stretching s))))
       (dynamic_pressure_factor_inf (mkStretching (Yaml_Model.st_delta (s_stretching s)) (Yaml_Model.st_h (s_stretching s)))))).
  { unfold parse_wave_model, parse_spectral_density, parse_directional_spreading. rewrite Ed, Ep, Em. cbn [String.eqb Ascii.eqb Bool.eqb andb].
    unfold parse_dirac_spectrum, parse_dirac_direction. apply uv_ok in UH, Uo, Up. rewrite UH, Uo, Up. cbn [bindO fst snd]. unfold checked_spectrum. cbn [spectrum_ctor_ok].
    rewrite Rltb_f, Rleb_f by lra. cbn [negb andb bindO].
    assert (Sd : parse_seed int_of (s_yaml s) = Ok None).
    { apply seed_reading. right. split; [exact Us|]. split; [reflexivity|]. intros (z & Ez & _). congruence. }
    unfold parse_directional_spectrum. rewrite Rltb_t by exact Pd.
    pose proof (regular_flat om Hs psi (mkStretching (Yaml_Model.st_delta (s_stretching s)) (Yaml_Model.st_h (s_stretching s))) PH Po (di_min (wm_discretization w)) (di_max (wm_discretization w)) (Z.to_nat (di_n (wm_discretization w)))) as F.
    apply bind_ok in F as (sp & Esp & F). rewrite Esp. cbn [bindO]. rewrite Sd. cbn [bindO]. exact F. }
  rewrite M. cbn [bindO]. unfold make_surface.
  assert (L : Nat.eqb (fst (get_wave_mesh_size (output_mesh (wm_output w))) * snd (get_wave_mesh_size (output_mesh (wm_output w)))) (List.length (make_wave_mesh (output_mesh (wm_output w)))) = true).
  { apply Nat.eqb_eq. unfold get_wave_mesh_size, make_wave_mesh. cbn [fst snd]. rewrite map_length, prod_length, !seq_length. lia. }
  rewrite L. cbn [negb]. eexists. split; [reflexivity|]. intros x y t. cbn [su_spectra]. apply regular_elevation.
Qed.
(** The other models, spectra and spreadings are refused, as are the impossible parameters. *)
Theorem unknown_wave_models_are_refused : forall n w s, says_waves n w -> In s (wm_spectra w) ->
  s_model s <> "airy"%string \/ ~ In (s_density_type s) ["bretschneider"; "jonswap"; "pierson-moskowitz"; "dirac"]%string \/ ~ In (s_spreading_type s) ["dirac"; "cos2s"]%string ->
  forall sea, build n <> Ok sea.
Proof.
  intros n w s Hw Is H sea E. unfold build_sea in E. apply waves_section_reading in Hw. rewrite Hw in E. cbn [bindO] in E.
  apply bind_ok in E as (fs & Ef & _). assert (X : exists f, parse_wave_model dbl int_of factor halley Fs draw (wm_discretization w) s = Ok f).
  { revert fs Ef Is. clear. induction (wm_spectra w) as [|a l IH]; intros fs Ef []; cbn [traverse] in Ef; apply bind_ok in Ef as (f & Ea & Ef); [subst; eauto|].
    apply bind_ok in Ef as (t & Et & _). eauto. }
  destruct X as (f & Ef'). unfold parse_wave_model in Ef'. apply bind_ok in Ef' as (Sd & E1 & Ef'). apply bind_ok in Ef' as (Dd & E2 & Ef'). apply bind_ok in Ef' as (sp & E3 & Ef').
  destruct H as [H|[H|H]].
  - destruct (String.eqb_spec (s_model s) "airy"); [contradiction|discriminate].
  - unfold parse_spectral_density in E1. cbv zeta in E1. cbn [In] in H.
    repeat match type of E1 with (if String.eqb ?a ?b then _ else _) = _ => destruct (String.eqb_spec a b) as [Q|_]; [exfalso; apply H; rewrite Q; tauto|] end. discriminate.
  - unfold parse_directional_spreading in E2. cbv zeta in E2. cbn [In] in H.
    repeat match type of E2 with (if String.eqb ?a ?b then _ else _) = _ => destruct (String.eqb_spec a b) as [Q|_]; [exfalso; apply H; rewrite Q; tauto|] end. discriminate.
Qed.
End Sea.
Print Assumptions energy_fraction_refuted.
Print Assumptions regular_wave_of_the_file_partial.
Print Assumptions unknown_wave_models_are_refused.
