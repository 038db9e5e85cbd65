(** Properties C84 (free surface conditions), C85 (shallow water), C86 (choice of the depth). *)
From Coq Require Import Reals List Bool ZArith Lra Lia.
From Coquelicot Require Import Coquelicot.
From Verif Require Import Common Wave_Model Wave_Spec Wave_Proofs Wave_Flat_Proofs Wave_Airy_Proofs Wave_Flow_Spec Wave_Surface_Props Wave_Flow_Proofs Wave_Flow_Props.
Import ListNotations.
Open Scope R_scope.

(** A spectrum one of whose waves is longer than twenty times the depth is refused. *)
Theorem shallow_water_refused : forall hal S D lo hi n h st w k, stays_in_bracket hal -> finds_roots hal -> spectrum_ctor_ok S = true -> 0 < h ->
  (exists ws, angular_frequencies S lo hi n = Ok ws /\ In w ws) -> 0 < k -> dispersion h w k -> k * h < PI / 10 ->
  forall sp, discretize_h hal S D lo hi n h st <> Ok sp.
Proof.
  intros hal S D lo hi n h st w k B F HS Hh (ws & Ews & Iw) Hk Dk Small sp H. pose proof (dispersion_relation hal S D lo hi n h st sp B F HS H) as DR.
  apply discretize_h_sized in H. destruct H as (_ & _ & W & _ & _ & _ & K & _). rewrite Ews in W. injection W as ->.
  apply In_nth_error in Iw. destruct Iw as (i & Ei). destruct (Forall2_nth_l _ _ _ _ _ i _ K Ei) as (k' & Ek & (_ & C)).
  destruct (Forall2_nth_l _ _ _ _ _ i _ DR Ei) as (k'' & Ek2 & Dk'). rewrite Ek in Ek2. injection Ek2 as <-.
  assert (k < k') as L by nra. assert (tanh (k * h) < tanh (k' * h)) as T by (apply tanh_increasing; nra). pose proof (tanh_pos (k * h) ltac:(nra)) as T0.
  unfold dispersion in *. nra.
Qed.
Print Assumptions shallow_water_refused.

(** ** C84 *)
(** With the gravity the wave numbers are computed with (9.81), the waves satisfy both conditions of the linearised free surface. *)
Theorem free_surface_conditions_partial : forall hal ms rho, stays_in_bracket hal -> finds_roots hal -> List.Forall (built hal) ms ->
  exists (w p : field) (eta : R -> R -> R -> R),
  (forall x y t, get_and_check_wave_height (models ms) [x] [y] t = Ok [eta x y t]) /\
  (forall x y z t, 0 <= z -> above_sea_bed ms z -> exists u v, surface_orbital_velocity (models ms) (981 / 100) [x] [y] [z] t [0] = Ok [(u, v, w x y z t)]) /\
  (forall x y z t, 0 <= z -> above_sea_bed ms z -> surface_dynamic_pressure (models ms) rho (981 / 100) [x] [y] [z] [0] t = Ok [p x y z t]) /\
  kinematic_condition w eta /\ dynamic_condition rho (981 / 100) p eta.
Proof.
  intros hal ms rho Br Fr H. destruct (flow_of hal (981 / 100) ms H) as (L & A & B & C & D).
  exists (fsum (pw (981 / 100)) L), (fsum (pp (981 / 100) rho) L), (fun x y t => Rsum (map (fun q => pe q x y t) L)).
  split; [exact D|]. split; [intros x y z t Hz Hb; do 2 eexists; apply B; assumption|]. split; [intros; apply C; auto|]. split.
  - apply pieces_kinematic. intros q Hq. destruct (A q Hq) as ((W & G) & m & I & E). split; [lra|]. rewrite dG_surface. destruct (fst q) as [h|] eqn:Eq.
    + destruct G as (Gn & Gk). destruct (wave_number_bracket hal _ _ _ Br W Gn) as (I2 & Eh). set (k0 := c_omega (snd q) * c_omega (snd q) / (981 / 100)) in *.
      assert (0 < k0) as Hk0 by (unfold k0; nra). pose proof PI_gt_3. assert (0 < h) as Hh by nra. assert (3 / 10 <= 35 / 10 * k0 * h) as Hb by nra.
      assert (fst (fst (wave_number_functor h (c_omega (snd q)) (c_k (snd q)))) = 0) as Z; [|rewrite functor_disp in Z; unfold disp in Z; lra].
      apply (Fr _ _ _ _ _ _ Eh). assert (c_omega (snd q) * c_omega (snd q) = 981 / 100 * k0) as Ew by (unfold k0; field).
      destruct (IVT_cor (disp h (c_omega (snd q))) k0 (35 / 10 * k0)) as (r & Ir & Er).
      * apply disp_continuous.
      * lra.
      * assert (disp h (c_omega (snd q)) k0 < 0) by (unfold disp; pose proof (tanh_lt_1 (k0 * h)); rewrite Ew; nra).
        assert (0 < disp h (c_omega (snd q)) (35 / 10 * k0)) by (unfold disp; pose proof (tanh_lower _ Hb); rewrite Ew; nra). nra.
      * exists r. split; [exact Ir|]. rewrite functor_disp. exact Er.
    + rewrite G. field.
  - apply pieces_dynamic. intros q _. apply dF_surface.
Qed.
Print Assumptions free_surface_conditions_partial.

(** One wave in infinite depth, built by the constructors: pulsation 1 rad/s, amplitude 1 m, travelling North. *)
Definition unit_spectrum : discrete := mkDiscrete [1 / 2] [Some 1] [1] [0] [1 * 1 / (981 / 100)] [] (dynamic_pressure_factor_inf (mkStretching 0 0)) (dynamic_pressure_factor_inf (mkStretching 0 0)).
Definition unit_wave : wave_model := mkModel None (mkStretching 0 0)
  (mkFlat [1] [1] [0] [cos 0] [sin 0] [1 * 1 / (981 / 100)] [0] (dynamic_pressure_factor_inf (mkStretching 0 0)) (dynamic_pressure_factor_inf (mkStretching 0 0))).
Lemma unit_discretized : discretize_inf (DiracSpectralDensity 1 2) (DiracDirectionalSpreading 0) 0 1 3 (mkStretching 0 0) = Ok unit_spectrum.
Proof.
  unfold discretize_inf, unit_spectrum, wave_number_inf. cbn [angular_frequencies bindO directions map mapM density spread].
  rewrite Rleb_f by lra. rewrite Rltb_t by (rewrite Rminus_eq_0, Rabs_R0; apply Rinv_0_lt_compat, pow_lt; lra).
  rewrite Rltb_t by (rewrite Rminus_eq_0, Rabs_R0; apply Rinv_0_lt_compat, pow_lt; lra).
  cbn [bindO]. replace (2 * 2 / 8) with (1 / 2) by lra. reflexivity.
Qed.
Lemma unit_wave_built : forall hal, built hal unit_wave.
Proof.
  intros hal. exists (DiracSpectralDensity 1 2), (DiracDirectionalSpreading 0), 0, 1, 3%nat, unit_spectrum.
  split; [cbn; rewrite Rltb_f, Rleb_f by lra; reflexivity|]. split; [|exact unit_discretized].
  left. exists 0. unfold airy_constant, add_constant_phases, flatten, flatten_component, width, unit_spectrum. cbn -[sqrt cos sin].
  rewrite Rltb_f by lra. cbn -[sqrt cos sin]. replace (2 * (1 / 2 * 1) * 1 * 1) with 1 by lra. rewrite sqrt_1. reflexivity.
Qed.
Lemma unit_velocity : forall g t, get_orbital_velocity (wm_airy unit_wave) g [0] [0] [0] t [0] = Ok [(g * (1 / (981 / 100)) * - sin t, 0, g * (1 / (981 / 100)) * cos t)].
Proof.
  intros g t. change (wm_airy unit_wave) with (flat_of [mkComp 1 1 0 (1 * 1 / (981 / 100)) 0] (dynamic_pressure_factor_inf (mkStretching 0 0)) (dynamic_pressure_factor_inf (mkStretching 0 0))).
  unfold get_orbital_velocity. cbn [List.length Nat.eqb negb orb combine]. rewrite mapM_cons. cbn [fst snd]. rewrite orbital_velocity1_ok by lra. cbn [bindO mapM map Rsum fold_right].
  unfold dynamic_pressure_factor_inf. rewrite Reqb_t by reflexivity. cbn [negb andb]. rewrite rescaled_zero. unfold wangle, ako, wave_of. cbn [c_a c_omega c_psi c_k c_phase ww wk wpsi wph].
  replace (- (1 * 1 / (981 / 100)) * 0) with 0 by lra. rewrite exp_0, cos_0, sin_0.
  replace (- (1 * t) + 1 * 1 / (981 / 100) * (0 * 1 + 0 * 0) + 0) with (- t) by lra. rewrite sin_neg, cos_neg. f_equal. f_equal. f_equal; [f_equal|]; field.
Qed.
Lemma unit_elevation : forall t, get_elevation (wm_airy unit_wave) [0] [0] t = Ok [sin t].
Proof.
  intros t. change (wm_airy unit_wave) with (flat_of [mkComp 1 1 0 (1 * 1 / (981 / 100)) 0] (dynamic_pressure_factor_inf (mkStretching 0 0)) (dynamic_pressure_factor_inf (mkStretching 0 0))).
  rewrite get_elevation_ok by reflexivity. cbn [combine map Rsum fold_right fst snd]. unfold weta, wangle, wave_of. cbn [wa ww wk wpsi wph c_a c_omega c_psi c_k c_phase].
  replace (- (1 * t) + 1 * 1 / (981 / 100) * (0 * cos 0 + 0 * sin 0) + 0) with (- t) by lra. rewrite sin_neg. f_equal. f_equal. ring.
Qed.
Example potential_flow_witness : forall hal, List.Forall (built hal) [unit_wave; unit_wave] /\ no_stretching [unit_wave; unit_wave] /\ above_sea_bed [unit_wave; unit_wave] 10 /\
  exists v, surface_orbital_velocity (models [unit_wave; unit_wave]) 10 [0] [0] [0] 0 [0] = Ok [v] /\ snd v <> 0.
Proof.
  intros hal. split; [repeat constructor; apply unit_wave_built|]. split; [intros m [<-|[<-|[]]]; reflexivity|]. split; [intros m h [<-|[<-|[]]]; discriminate|].
  unfold surface_orbital_velocity, models. cbn [map velocity_loop]. rewrite unit_velocity. cbn [bindO List.length repeat seq mapM at_ub nth_error fst snd].
  eexists. split; [reflexivity|]. cbn [snd]. rewrite cos_0. lra.
Qed.
(** With any other gravity (an input of the simulation) the water goes through the free surface. *)
Theorem free_surface_conditions_refuted : forall hal g, g <> 981 / 100 -> exists m, built hal m /\ wm_depth m = None /\
  ~ exists (w : field) (eta : R -> R -> R -> R),
    (forall x y t, get_and_check_wave_height (models [m]) [x] [y] t = Ok [eta x y t]) /\
    (forall x y z t, 0 <= z -> exists u v, surface_orbital_velocity (models [m]) g [x] [y] [z] t [0] = Ok [(u, v, w x y z t)]) /\
    kinematic_condition w eta.
Proof.
  intros hal g Hg. exists unit_wave. split; [apply unit_wave_built|]. split; [reflexivity|]. intros (w & eta & He & Hw & K).
  destruct (Hw 0 0 0 0 (Rle_refl 0)) as (u & v & E). unfold surface_orbital_velocity, models in E. cbn [map velocity_loop] in E. rewrite unit_velocity in E.
  cbn [bindO List.length repeat seq mapM at_ub nth_error fst snd] in E. rewrite cos_0 in E.
  assert (w 0 0 0 0 = g / (981 / 100)) as W by (injection E as _ _ <-; lra).
  assert (forall t, eta 0 0 t = sin t) as Et.
  { intros t. specialize (He 0 0 t). unfold models, get_and_check_wave_height, wave_height in He. cbn [map List.length Nat.eqb negb wave_height_loop repeat] in He. rewrite unit_elevation in He.
    cbn [bindO add_into] in He. injection He as <-. ring. }
  specialize (K 0 0 0). rewrite W in K. assert (derivable_pt_lim (fun s => eta 0 0 s) 0 1) as K'.
  { apply is_derive_Reals. apply (is_derive_ext sin); [intros; symmetry; apply Et|]. apply is_derive_Reals. rewrite <- cos_0. apply derivable_pt_lim_sin. }
  pose proof (uniqueness_limite _ _ _ _ K K') as U. apply Hg. apply (Rmult_eq_compat_r (981 / 100)) in U. field_simplify in U. lra.
Qed.
Print Assumptions free_surface_conditions_refuted.

(** ** C86 *)
(** The user manual: the depth 0 means infinite depth, otherwise the wave numbers follow the dispersion relation of that depth. The reverse
    is done: a positive depth is not used, and a depth of zero (or less) is refused. *)
Theorem depth_selection_refuted : forall hal S D lo hi n depth st sp, spectrum_ctor_ok S = true -> 0 < depth ->
  parse_directional_spectrum hal S D lo hi n depth st = Ok sp ->
  (forall depth', 0 < depth' -> parse_directional_spectrum hal S D lo hi n depth' st = Ok sp) /\
  Forall2 (fun w k => ~ dispersion depth w k) (d_omega sp) (d_k sp).
Proof.
  intros hal S D lo hi n depth st sp HS Hd H. unfold parse_directional_spectrum in H. rewrite Rltb_t in H by exact Hd. split.
  - intros d' Hd'. unfold parse_directional_spectrum. rewrite Rltb_t by exact Hd'. exact H.
  - apply discretize_inf_sized in H. destruct H as (_ & _ & W & _ & _ & _ & K & _).
    assert (forall w, In w (d_omega sp) -> 0 < w) as P by (apply (angular_frequencies_pos S lo hi n); assumption). rewrite K. clear - P Hd. induction (d_omega sp) as [|w ws IH]; constructor.
    + specialize (P w (or_introl eq_refl)). unfold dispersion, wave_number_inf. pose proof (tanh_lt_1 (w * w / (981 / 100) * depth)).
      replace (981 / 100 * (w * w / (981 / 100)) * tanh (w * w / (981 / 100) * depth)) with (w * w * tanh (w * w / (981 / 100) * depth)) by field. intros E. assert (0 < w * w) by nra. set (T := tanh (w * w / (981 / 100) * depth)) in *. nra.
    + apply IH. intros. apply P. right. assumption.
Qed.
Print Assumptions depth_selection_refuted.
Theorem infinite_depth_refused_refuted : forall hal S D lo hi n depth st ws, stays_in_bracket hal -> spectrum_ctor_ok S = true -> depth <= 0 ->
  angular_frequencies S lo hi n = Ok ws -> ws <> [] -> parse_directional_spectrum hal S D lo hi n depth st = Throw.
Proof.
  intros hal S D lo hi n depth st ws B HS Hd Ew N. unfold parse_directional_spectrum. rewrite Rltb_f by exact Hd. unfold discretize_h. rewrite Ew. cbn [bindO].
  assert (forall w, In w ws -> 0 < w) as P by (apply (angular_frequencies_pos S lo hi n); assumption).
  rewrite (mapM_ok _ _ (density S) (fun w => match density S w with Ok s => s | _ => 0 end)) by (intros w Iw; destruct (density_ok S w (P w Iw)) as (s & ->); reflexivity). cbn [bindO].
  destruct (mapM (fun w => wave_number hal w depth) ws) as [ks| |] eqn:E.
  - cbn [bindO]. apply mapM_inv in E. destruct ws as [|w ws]; [congruence|]. inversion E as [|? k ? ks' Ek _]; subst. cbn [existsb].
    destruct (wave_number_bracket hal w depth k B (P w (or_introl eq_refl)) Ek) as ((L & _) & _). specialize (P w (or_introl eq_refl)).
    assert (0 < w * w / (981 / 100)) by nra. pose proof PI_RGT_0. assert (k * depth <= 0) by nra. rewrite Rltb_t by lra. reflexivity.
  - reflexivity.
  - exfalso. clear -E. induction ws as [|w ws IH]; [discriminate|]. rewrite mapM_cons in E. unfold wave_number in E at 1. destruct (Reqb w 0); [|destruct (hal _ _ _ _)]; cbn [bindO] in E; try discriminate.
    + destruct (mapM _ ws) eqn:E2; cbn [bindO] in E; try discriminate. apply IH. reflexivity.
    + destruct (mapM _ ws) eqn:E2; cbn [bindO] in E; try discriminate. apply IH. reflexivity.
Qed.
Print Assumptions infinite_depth_refused_refuted.
(** A spectrum both theorems are about: one wave of 1 rad/s. *)
Example depth_witness : forall hal, parse_directional_spectrum hal (DiracSpectralDensity 1 2) (DiracDirectionalSpreading 0) 0 1 3 10 (mkStretching 0 0) = Ok unit_spectrum /\
  (stays_in_bracket hal -> parse_directional_spectrum hal (DiracSpectralDensity 1 2) (DiracDirectionalSpreading 0) 0 1 3 0 (mkStretching 0 0) = Throw).
Proof.
  intros hal. split; [unfold parse_directional_spectrum; rewrite Rltb_t by lra; exact unit_discretized|]. intros B.
  apply (infinite_depth_refused_refuted hal _ _ _ _ _ _ _ [1]); auto; [cbn; rewrite Rltb_f, Rleb_f by lra; reflexivity|lra|discriminate].
Qed.

(** A root finder with both properties: it recovers the depth and the pulsation from the function and solves for the root in the bracket. *)
Definition disp2 (h q k : R) : R := 981 / 100 * k * tanh (k * h) - q.
Lemma disp2_continuous : forall h q, continuity (disp2 h q).
Proof.
  intros h q k. assert (is_derive (disp2 h q) k (981 / 100 * tanh (k * h) + 981 / 100 * k * ((1 - tanh (k * h) * tanh (k * h)) * h))) as D.
  { pose proof (tanh_kh h k) as T. assert (ex_derive (fun s : R => tanh (s * h)) k) as X by (eexists; exact T). set (th := fun s : R => tanh (s * h)) in *.
    apply (is_derive_ext (fun s => 981 / 100 * s * th s - q)); [reflexivity|]. auto_derive; [exact X|]. change (Derive (fun x : R => th x) k) with (Derive th k). rewrite (is_derive_unique _ _ _ T). unfold th. ring. }
  apply derivable_continuous_pt. eexists. apply is_derive_Reals. exact D.
Qed.
Definition a_solver : halley_t := fun F _ lo hi =>
  let q := - fst (fst (F 0)) in
  let h := snd (F 0) / (2 * (981 / 100)) in
  match Rle_dec lo hi with
  | left L => match Rle_dec (disp2 h q lo * disp2 h q hi) 0 with
              | left H => Some (proj1_sig (IVT_cor (disp2 h q) lo hi (disp2_continuous h q) L H))
              | right _ => None
              end
  | right _ => None
  end.
Lemma a_solver_params : forall h w, - fst (fst (wave_number_functor h w 0)) = w * w /\ snd (wave_number_functor h w 0) / (2 * (981 / 100)) = h.
Proof.
  intros h w. unfold wave_number_functor. cbn [fst snd]. split; [ring|]. replace (0 * h) with 0 by ring. rewrite tanh_0'. field.
Qed.
Lemma a_solver_spec : stays_in_bracket a_solver /\ finds_roots a_solver.
Proof.
  split.
  - intros F guess lo hi k H. unfold a_solver in H. destruct (Rle_dec lo hi) as [L|]; [|discriminate]. destruct (Rle_dec _ 0) as [P|]; [|discriminate].
    destruct (IVT_cor _ _ _ _ _ _) as (r & I & E). cbn in H. injection H as <-. exact I.
  - intros h w guess lo hi k H _. unfold a_solver in H. destruct (a_solver_params h w) as (E1 & E2). rewrite E1, E2 in H. destruct (Rle_dec lo hi) as [L|]; [|discriminate]. destruct (Rle_dec _ 0) as [P|]; [|discriminate].
    destruct (IVT_cor _ _ _ _ _ _) as (r & I & E). cbn in H. injection H as <-. exact E.
Qed.
Lemma a_solver_finds : forall h w, 0 < w -> 0 < h -> 3 / 10 <= 35 / 10 * (w * w / (981 / 100)) * h -> exists k, wave_number a_solver w h = Ok k.
Proof.
  intros h w Hw Hh Hb. unfold wave_number, wave_number_inf. rewrite Reqb_f by lra. set (k0 := w * w / (981 / 100)) in *. unfold a_solver. destruct (a_solver_params h w) as (E1 & E2). rewrite E1, E2.
  assert (0 < w * w) by nra. assert (0 < k0) as Hk0 by (unfold k0; lra). assert (w * w = 981 / 100 * k0) as Ew by (unfold k0; field).
  destruct (Rle_dec k0 (35 / 10 * k0)) as [L|N]; [|exfalso; apply N; lra].
  destruct (Rle_dec (disp2 h (w * w) k0 * disp2 h (w * w) (35 / 10 * k0)) 0) as [P|N]; [eexists; reflexivity|]. exfalso. apply N.
  assert (disp2 h (w * w) k0 < 0) by (unfold disp2; pose proof (tanh_lt_1 (k0 * h)); rewrite Ew; nra).
  assert (0 < disp2 h (w * w) (35 / 10 * k0)) by (unfold disp2; pose proof (tanh_lower _ Hb); rewrite Ew; nra). nra.
Qed.
Lemma dirac_discretized : forall hal w h, 0 < w -> discretize_h hal (DiracSpectralDensity w 2) (DiracDirectionalSpreading 0) 0 1 3 h (mkStretching 0 0) =
  (do k <- wave_number hal w h; if Rltb (k * h) (PI / 10) then Throw else Ok (mkDiscrete [1 / 2] [Some 1] [w] [0] [k] [] (dynamic_pressure_factor h (mkStretching 0 0)) (dynamic_pressure_factor_sh h (mkStretching 0 0)))).
Proof.
  intros hal w h Hw. unfold discretize_h. cbn [angular_frequencies bindO directions map mapM density spread]. rewrite Rleb_f by lra.
  rewrite Rltb_t by (rewrite Rminus_eq_0, Rabs_R0; apply Rinv_0_lt_compat, pow_lt; lra). rewrite Rltb_t by (rewrite Rminus_eq_0, Rabs_R0; apply Rinv_0_lt_compat, pow_lt; lra).
  cbn [bindO]. replace (2 * 2 / 8) with (1 / 2) by lra. destruct (wave_number hal w h) as [k| |]; [|reflexivity|reflexivity]. cbn [bindO existsb]. rewrite orb_false_r. reflexivity.
Qed.
(** A wave of 1 rad/s in 10 m of water is accepted, and satisfies the dispersion relation. *)
Example dispersion_witness : exists k sp, discretize_h a_solver (DiracSpectralDensity 1 2) (DiracDirectionalSpreading 0) 0 1 3 10 (mkStretching 0 0) = Ok sp /\
  d_k sp = [k] /\ dispersion 10 1 k.
Proof.
  destruct (a_solver_finds 10 1) as (k & E); [lra|lra|lra|]. destruct a_solver_spec as (B & F). destruct (wave_number_bracket a_solver 1 10 k B ltac:(lra) E) as (I & _).
  pose proof PI_4 as P4. assert (discretize_h a_solver (DiracSpectralDensity 1 2) (DiracDirectionalSpreading 0) 0 1 3 10 (mkStretching 0 0) = 
    Ok (mkDiscrete [1 / 2] [Some 1] [1] [0] [k] [] (dynamic_pressure_factor 10 (mkStretching 0 0)) (dynamic_pressure_factor_sh 10 (mkStretching 0 0)))) as H.
  { rewrite dirac_discretized by lra. rewrite E. cbn [bindO]. rewrite Rltb_f by lra. reflexivity. }
  exists k. eexists. split; [exact H|]. split; [reflexivity|]. apply dispersion_relation in H; [|exact B|exact F|cbn; rewrite Rltb_f, Rleb_f by lra; reflexivity].
  inversion H; subst. assumption.
Qed.
(** A wave of wave number 1 in 10 cm of water. *)
Example shallow_witness : let w := sqrt (981 / 100 * tanh (1 / 10)) in 0 < w /\ dispersion (1 / 10) w 1 /\ 1 * (1 / 10) < PI / 10 /\
  discretize_h a_solver (DiracSpectralDensity w 2) (DiracDirectionalSpreading 0) 0 1 3 (1 / 10) (mkStretching 0 0) = Throw.
Proof.
  intros w. pose proof (tanh_pos (1 / 10) ltac:(lra)) as T. assert (0 < w) as Hw by (apply sqrt_lt_R0; lra).
  assert (w * w = 981 / 100 * tanh (1 / 10)) as Q by (apply sqrt_sqrt; lra). assert (dispersion (1 / 10) w 1) as Dw by (unfold dispersion; rewrite Q, Rmult_1_l; ring).
  pose proof PI_gt_3. assert (1 * (1 / 10) < PI / 10) as S1 by lra. split; [exact Hw|]. split; [exact Dw|]. split; [exact S1|].
  destruct a_solver_spec as (B & F).
  assert (forall sp, discretize_h a_solver (DiracSpectralDensity w 2) (DiracDirectionalSpreading 0) 0 1 3 (1 / 10) (mkStretching 0 0) <> Ok sp) as N.
  { apply (shallow_water_refused a_solver _ _ _ _ _ _ _ w 1 B F); [cbn; rewrite Rltb_f, Rleb_f by lra; reflexivity|lra|exists [w]; split; [reflexivity|left; reflexivity]|lra|exact Dw|exact S1]. }
  rewrite dirac_discretized in * by exact Hw. unfold wave_number in *. destruct (Reqb w 0); [|destruct (a_solver _ _ _ _)]; cbn [bindO] in *; try reflexivity; destruct (Rltb _ _); try reflexivity; exfalso; eapply N; reflexivity.
Qed.
