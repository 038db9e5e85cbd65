(** C144, C147: the spectral densities and the directional spreadings of the waves section. *)
From Coq Require Import Reals List Arith Bool String ZArith Lra Lia.
From Verif Require Import Common Hdf5_Mesh_Model Yaml_Model Yaml_Spec Yaml_Proofs Yaml_Props Yaml_Waves_Props Yaml_Examples Wave_Model Wave_Spec Wave_Proofs Sea_Model Sea_Props Sea_Examples.
Import ListNotations.
Open Scope string_scope.
Open Scope R_scope.

Section Sea.
Variable dbl : string -> option R.
Variable int_of : string -> option Z.
Variable factor : string -> option R.
Variable halley : halley_t.
Variable Fs : R -> R.
Variable draw : Z -> nat -> nat -> R.
Notation build := (build_sea dbl int_of factor halley Fs draw).
Notation says_waves := (describes_waves R 0 Rmult dbl int_of factor).
Notation says_quantity := (quantity R Rmult dbl factor).
Notation says_number := (Yaml_Spec.number R dbl).

(** What the sub-sections `spectral density` and `directional spreading` say, doc_user/modeles_environnementaux.md *)
Inductive says_density (t : string) (n : yaml) : spectrum -> Prop :=
| SaysDirac Hs om : t = "dirac"%string -> under n "Hs" says_quantity Hs -> under n "omega0" says_quantity om -> 0 <= Hs -> 0 < om ->
    says_density t n (DiracSpectralDensity om Hs)
| SaysBretschneider Hs Tp : t = "bretschneider"%string -> under n "Hs" says_quantity Hs -> under n "Tp" says_quantity Tp -> 0 <= Hs -> 0 < Tp ->
    says_density t n (BretschneiderSpectrum Hs Tp)
| SaysPiersonMoskowitz Hs Tp : t = "pierson-moskowitz"%string -> under n "Hs" says_quantity Hs -> under n "Tp" says_quantity Tp -> 0 <= Hs -> 0 < Tp ->
    says_density t n (PiersonMoskowitzSpectrum Hs Tp)
| SaysJonswap Hs Tp gamma : t = "jonswap"%string -> under n "Hs" says_quantity Hs -> under n "Tp" says_quantity Tp -> under n "gamma" says_number gamma ->
    0 <= Hs -> 0 < Tp -> 0 < gamma -> says_density t n (JonswapSpectrum Hs Tp gamma).
Inductive says_spreading (t : string) (n : yaml) : spreading -> Prop :=
| SaysDirection psi : t = "dirac"%string -> under n "waves propagating to" says_quantity psi -> says_spreading t n (DiracDirectionalSpreading psi)
| SaysCos2s psi s : t = "cos2s"%string -> under n "waves propagating to" says_quantity psi -> under n "s" says_number s -> 0 <= s ->
    says_spreading t n (Cos2sDirectionalSpreading psi s (Fs s)).
Definition says_seed (n : yaml) (s : option Z) : Prop :=
  (exists x, under n "seed of the random data generator" (natural int_of) x /\ s = Some x) \/ (under n "seed of the random data generator" text "none" /\ s = None).

Lemma checked_ok S S' : checked_spectrum S = Ok S' <-> spectrum_ctor_ok S = true /\ S' = S.
Proof. unfold checked_spectrum. destruct (spectrum_ctor_ok S); split; [intros E; injection E as <-; auto|intros (_ & ->); reflexivity|discriminate|intros (E & _); discriminate]. Qed.
Ltac test b := let E := fresh in destruct b eqn:E; [apply Rltb_true in E || apply Rleb_true in E|apply Rltb_false in E || apply Rleb_false in E].
Ltac steps H := repeat match type of H with bindO _ _ = Ok _ => let x := fresh "x" in let E := fresh "E" in apply bind_ok in H as (x & E & H); try (apply uv_ok in E); try (apply double_at_ok in E) end.
Ltac backward := repeat match goal with U : under _ _ says_quantity _ |- _ => apply uv_ok in U; rewrite U; clear U | U : under _ _ says_number _ |- _ => apply double_at_ok in U; rewrite U; clear U end;
  cbn [bindO fst snd].
Theorem density_of_the_file : forall s S,
  parse_spectral_density dbl factor s = Ok S <-> says_density (s_density_type s) (s_density s) S.
Proof.
  intros s S. unfold parse_spectral_density. cbv zeta. generalize (s_density_type s) (s_density s). intros t n. split.
  - repeat match goal with |- (if String.eqb t ?w then _ else _) = _ -> _ => destruct (String.eqb_spec t w) as [->|_] end; intros H; try discriminate;
      apply bind_ok in H as (p & E & H); unfold parse_bretschneider, parse_jonswap, parse_pierson_moskowitz, parse_dirac_spectrum in E; steps E; injection E as <-;
      apply checked_ok in H as (C & ->); cbn [fst snd spectrum_ctor_ok] in *;
      repeat match type of C with context [Rltb ?a ?b] => test (Rltb a b); [discriminate|] | context [Rleb ?a ?b] => test (Rleb a b); [discriminate|] end; econstructor; eauto.
  - intros H. destruct H as [Hs om -> U1 U2 P1 P2|Hs Tp -> U1 U2 P1 P2|Hs Tp -> U1 U2 P1 P2|Hs Tp g -> U1 U2 U3 P1 P2 P3];
      cbn [String.eqb Ascii.eqb Bool.eqb andb]; unfold parse_bretschneider, parse_jonswap, parse_pierson_moskowitz, parse_dirac_spectrum; backward;
      apply checked_ok; split; try reflexivity; cbn [spectrum_ctor_ok]; rewrite ?Rltb_f, ?Rleb_f by lra; reflexivity.
Qed.
Theorem spreading_of_the_file : forall s S,
  parse_directional_spreading dbl factor Fs s = Ok S <-> says_spreading (s_spreading_type s) (s_spreading s) S.
Proof.
  intros s S. unfold parse_directional_spreading. cbv zeta. generalize (s_spreading_type s) (s_spreading s). intros t n. split.
  - destruct (String.eqb_spec t "dirac") as [->|_]; [|destruct (String.eqb_spec t "cos2s") as [->|_]; [|discriminate]]; intros H; apply bind_ok in H as (p & E & H).
    + unfold parse_dirac_direction in E. apply uv_ok in E. injection H as <-. apply SaysDirection; auto.
    + unfold parse_cos2s in E. steps E. injection E as <-. cbn [fst snd spreading_ctor_ok] in H.
      match type of H with context [Rltb ?a ?b] => test (Rltb a b) end; [discriminate|]. injection H as <-. apply SaysCos2s; auto.
  - intros H. destruct H as [psi -> U|psi p -> U1 U2 P]; cbn [String.eqb Ascii.eqb Bool.eqb andb]; unfold parse_dirac_direction, parse_cos2s; backward; [reflexivity|].
    cbn [spreading_ctor_ok]. rewrite Rltb_f by lra. reflexivity.
Qed.
(** The sea of the file: one wave model for each spectrum, in the order of the file, made from what the file says. The discretisation ([parse_directional_spectrum]) and
    the phases ([airy_random], [airy_constant]) are the subject of the theorems of the Wave_ files. *)
Theorem sea_of_the_file : forall n w sea, says_waves n w -> build n = Ok sea ->
  Forall2 (fun s f => exists Sd Dd seed sp,
      says_density (s_density_type s) (s_density s) Sd /\ says_spreading (s_spreading_type s) (s_spreading s) Dd /\ says_seed (s_yaml s) seed /\ s_model s = "airy"%string /\
      parse_directional_spectrum halley Sd Dd (di_min (wm_discretization w)) (di_max (wm_discretization w)) (Z.to_nat (di_n (wm_discretization w))) (s_depth s)
        (mkStretching (Yaml_Model.st_delta (s_stretching s)) (Yaml_Model.st_h (s_stretching s))) = Ok sp /\
      (match seed with Some k => airy_random sp (draw k) | None => airy_constant sp 0 end) = Ok f) (wm_spectra w) (su_spectra sea)
  /\ su_mesh sea = make_wave_mesh (let o := wm_output w in
      Wave_Model.mkWaveOutput (wo_xmin o) (wo_xmax o) (Z.to_nat (wo_nx o)) (wo_ymin o) (wo_ymax o) (Z.to_nat (wo_ny o))).
Proof.
  intros n w sea Hw H. unfold build_sea in H. apply waves_section_reading in Hw. rewrite Hw in H. cbn [bindO] in H.
  apply bind_ok in H as (fs & E & H). unfold make_surface in H. destruct (negb _); [discriminate|]. injection H as <-. cbn [su_spectra su_mesh]. split; [|reflexivity].
  clear - E. revert fs E. induction (wm_spectra w) as [|s l IH]; intros fs E; cbn [traverse] in E.
  - injection E as <-. apply Forall2_nil.
  - apply bind_ok in E as (f & Ef & E). apply bind_ok in E as (r & Er & E). injection E as <-. apply Forall2_cons; [|apply IH, Er].
    unfold parse_wave_model in Ef. apply bind_ok in Ef as (Sd & E1 & Ef). apply bind_ok in Ef as (Dd & E2 & Ef). apply bind_ok in Ef as (sp & E3 & Ef).
    destruct (String.eqb_spec (s_model s) "airy") as [Ea|_]; [|discriminate]. apply bind_ok in Ef as (seed & Es & Ef). exists Sd, Dd, seed, sp.
    split; [apply density_of_the_file, E1|]. split; [apply spreading_of_the_file, E2|]. split; [|auto].
    apply seed_reading in Es. destruct Es as [Es|(Es & Q & _)]; [left; exact Es|right; auto].
Qed.
End Sea.
Print Assumptions density_of_the_file.
Print Assumptions spreading_of_the_file.
Print Assumptions sea_of_the_file.
(** A JONSWAP spectrum *)
Example jonswap_section : says_density dblR factorR "jonswap" (Map [("Hs", q "5" "m"); ("Tp", q "8" "m"); ("gamma", Scalar "3")]%string) (JonswapSpectrum 5 8 3).
Proof.
  apply SaysJonswap; try reflexivity; try lra.
  - apply uv_ok; cbv -[IZR Rmult]; f_equal; ring.
  - apply uv_ok; cbv -[IZR Rmult]; f_equal; ring.
  - apply double_at_ok; cbv -[IZR Rmult]; reflexivity.
Qed.
