(** Properties C33 to C40: discretisation of the sea states, elevation, pressure, output mesh. *)
From Coq Require Import Reals List Bool ZArith Lra Lia Sorted Permutation.
From Verif Require Import Common Wave_Model Wave_Spec Wave_Proofs Wave_Flat_Proofs Wave_Airy_Proofs.
Import ListNotations.
Open Scope R_scope.

(** ** C33: the frequency grid *)
Definition has_continuous_density (S : spectrum) : Prop :=
  match S with BretschneiderSpectrum _ _ | JonswapSpectrum _ _ _ | PiersonMoskowitzSpectrum _ _ => True | _ => False end.
Lemma continuous_grid : forall S lo hi n, has_continuous_density S -> angular_frequencies S lo hi n = base_angular_frequencies lo hi n.
Proof. intros [] lo hi n H; try destruct H; reflexivity. Qed.

Theorem frequency_grid : forall S lo hi n, has_continuous_density S -> 0 < lo -> lo < hi -> (2 <= n)%nat ->
  exists l, angular_frequencies S lo hi n = Ok l /\ List.length l = n /\ strictly_increasing l /\
    nth_error l 0 = Some lo /\ nth_error l (n - 1) = Some hi /\
    (forall i, (i + 1 < n)%nat -> nth (i + 1) l 0 - nth i l 0 = (hi - lo) / INR (n - 1)).
Proof.
  intros S lo hi n C H1 H2 Hn. rewrite (continuous_grid S lo hi n C). exists (omega_grid lo hi n). assert (0 < INR (n - 1)) as Hp by (apply INR_pos; lia). repeat split.
  - apply base_grid_ok; assumption.
  - apply omega_grid_length.
  - apply omega_grid_increasing; assumption.
  - rewrite (nth_error_nth' _ 0) by (rewrite omega_grid_length; lia). rewrite omega_grid_nth by lia. f_equal. cbn [INR]. unfold Rdiv. lra.
  - rewrite (nth_error_nth' _ 0) by (rewrite omega_grid_length; lia). rewrite omega_grid_nth by lia. f_equal. field. lra.
  - intros i Hi. rewrite !omega_grid_nth by lia. rewrite plus_INR. cbn [INR]. field. lra.
Qed.
Print Assumptions frequency_grid.
Theorem frequency_grid_single : forall S w, has_continuous_density S -> 0 < w -> angular_frequencies S w w 1 = Ok [w].
Proof. intros S w C H. rewrite (continuous_grid S w w 1 C). apply base_grid_single. exact H. Qed.
Print Assumptions frequency_grid_single.
(** Exactly the other requests are refused. *)
Theorem frequency_grid_rejected : forall S lo hi n, has_continuous_density S ->
  (angular_frequencies S lo hi n = Throw <-> ~ ((0 < lo < hi /\ (2 <= n)%nat) \/ (0 < lo /\ lo = hi /\ n = 1%nat))).
Proof.
  intros S lo hi n C. rewrite (continuous_grid S lo hi n C). destruct (base_grid_cases lo hi n) as [(E & A & B)|[(E & A & B & C')|(E & A & B & C')]]; rewrite E; split; try discriminate; auto.
  - intros _ [[? ?]|?]; [apply A|apply B]; tauto.
  - intros H. exfalso. apply H. left. tauto.
  - intros H. exfalso. apply H. right. tauto.
Qed.
Print Assumptions frequency_grid_rejected.
(** Sums of spectra: the frequencies of all the terms, once each, in increasing order, all positive. *)
Theorem frequency_grid_sum : forall ts lo hi n l, angular_frequencies (SumOfWaveSpectralDensities ts) lo hi n = Ok l ->
  strictly_increasing l /\ (forall w, In w l <-> exists t f, In t ts /\ angular_frequencies t lo hi n = Ok f /\ In w f).
Proof.
  intros ts lo hi n l H. rewrite angular_frequencies_sum in H. destruct (sum_frequencies_spec lo hi n ts [] l H (SSorted_nil _)) as [A B].
  split; [exact A|]. intros w. rewrite B. split; [intros [[]|X]; exact X|tauto].
Qed.
Print Assumptions frequency_grid_sum.
Theorem frequencies_positive : forall S lo hi n l, spectrum_ctor_ok S = true -> angular_frequencies S lo hi n = Ok l -> strictly_increasing l /\ forall w, In w l -> 0 < w.
Proof. intros S lo hi n l C H. split; [apply (angular_frequencies_sorted S lo hi n); exact H|]. apply (angular_frequencies_pos S lo hi n l C H). Qed.
Print Assumptions frequencies_positive.
Example grid_witness : exists l, angular_frequencies (BretschneiderSpectrum 5 15) (1/10) 6 40 = Ok l /\ List.length l = 40%nat.
Proof. destruct (frequency_grid (BretschneiderSpectrum 5 15) (1/10) 6 40 I) as (l & A & B & _); try lra; try lia. exists l. auto. Qed.
Example sum_grid_witness : exists l, angular_frequencies (SumOfWaveSpectralDensities [DiracSpectralDensity 3 1; JonswapSpectrum 2 10 3]) 1 2 2 = Ok l /\ In 3 l /\ In 2 l.
Proof.
  rewrite angular_frequencies_sum. cbn [sum_frequencies angular_frequencies bindO]. rewrite base_grid_ok by (try lra; lia). cbn [bindO].
  eexists. split; [reflexivity|]. split; rewrite !set_inserts_in; simpl; auto. left. right. left. lra.
Qed.

(** ** C34: flattening *)
(** The vectors of a discretised spectrum have consistent sizes: n frequencies and p directions. *)
Definition consistent (sp : discrete) (n p : nat) : Prop :=
  List.length (d_omega sp) = n /\ List.length (d_Si sp) = n /\ List.length (d_k sp) = n /\
  List.length (d_psi sp) = p /\ List.length (d_Dj sp) = p.
Definition has_phases (sp : discrete) (n p : nat) : Prop := List.length (d_phase sp) = n /\ forall r, In r (d_phase sp) -> List.length r = p.
Lemma consistent_sized : forall sp n p, consistent sp n p -> sized sp n p.
Proof. intros sp n p (A & B & C & D & E). constructor; assumption. Qed.
Lemma has_phases_phased : forall sp n p, has_phases sp n p -> phased sp n p.
Proof. intros sp n p [A B]. constructor; [exact A|]. intros r Hr. rewrite (B r Hr). lia. Qed.

(** One component per (frequency, direction), in order: component i*p+j is (omega_i, psi_j). *)
Theorem flatten_components : forall sp n p, consistent sp n p -> has_phases sp n p ->
  exists f, flatten sp = Ok f /\ List.length (f_a f) = (n * p)%nat /\ List.length (f_omega f) = (n * p)%nat /\
  forall i j w k si psi dj row ph, nth_error (d_omega sp) i = Some w -> nth_error (d_k sp) i = Some k -> nth_error (d_Si sp) i = Some si ->
    nth_error (d_psi sp) j = Some psi -> nth_error (d_Dj sp) j = Some (Some dj) -> nth_error (d_phase sp) i = Some row -> nth_error row j = Some ph ->
    let q := (i * p + j)%nat in
    nth_error (f_omega f) q = Some w /\ nth_error (f_k f) q = Some k /\ nth_error (f_psi f) q = Some psi /\ nth_error (f_cos f) q = Some (cos psi) /\
    nth_error (f_sin f) q = Some (sin psi) /\ nth_error (f_phase f) q = Some ph.
Proof.
  intros sp n p C P. pose proof (consistent_sized _ _ _ C) as Sz. pose proof (has_phases_phased _ _ _ P) as Ph.
  exists (flat_of (comps sp) (d_pdyn sp) (d_pdyn_sh sp)). split; [apply (flatten_ok sp n p); assumption|]. unfold flat_of. cbn [f_a f_omega f_k f_psi f_cos f_sin f_phase].
  rewrite !map_length, (comps_length sp n p Sz). split; [reflexivity|]. split; [reflexivity|].
  intros i j w k si psi dj row ph Hw Hk Hs Hpsi Hd Hr Hph. destruct C as (C1 & C2 & C3 & C4 & C5).
  assert (i < n)%nat by (rewrite <- C1; apply nth_error_Some; congruence). assert (j < p)%nat by (rewrite <- C4; apply nth_error_Some; congruence).
  rewrite !nth_error_map, (comps_nth sp n p i j Sz) by assumption. unfold comp_of. cbn [option_map c_omega c_k c_psi c_phase].
  rewrite (nth_error_nth _ _ 0 Hw), (nth_error_nth _ _ 0 Hk), (nth_error_nth _ _ 0 Hpsi), (nth_error_nth _ _ [] Hr), (nth_error_nth _ _ 0 Hph). repeat split.
Qed.
Print Assumptions flatten_components.

(** The energy of the components is the trapezoidal double sum of the spectral density. *)
Theorem flatten_energy : forall sp n p ds, consistent sp n p -> has_phases sp n p -> (1 <= n)%nat -> (1 <= p)%nat ->
  nondecreasing (d_omega sp) -> nondecreasing (d_psi sp) -> (forall s, In s (d_Si sp) -> 0 <= s) -> d_Dj sp = map Some ds -> (forall d, In d ds -> 0 <= d) ->
  exists f a, flatten sp = Ok f /\ f_a f = map Some a /\ List.length a = (n * p)%nat /\ (forall x, In x a -> 0 <= x) /\
    wave_energy a = integral (d_omega sp) (d_Si sp) * integral (d_psi sp) ds.
Proof.
  intros sp n p ds C P Hn Hp S1 S2 HS HD Hd. pose proof (consistent_sized _ _ _ C) as Sz. pose proof (has_phases_phased _ _ _ P) as Ph.
  destruct C as (C1 & C2 & C3 & C4 & C5).
  set (e := fun ij : nat * nat => 2 * (nth (fst ij) (d_Si sp) 0 * nth (snd ij) ds 0) * wd (d_omega sp) (fst ij) * wd (d_psi sp) (snd ij)).
  assert (List.length ds = p) as Lds by (rewrite <- C5, HD, map_length; reflexivity).
  assert (forall i j, (i < n)%nat -> (j < p)%nat -> 0 <= e (i, j)) as En.
  { intros i j Hi Hj. unfold e. cbn [fst snd]. repeat apply Rmult_le_pos; try lra.
    - apply HS, nth_In. lia.
    - apply Hd, nth_In. lia.
    - apply wd_nonneg; [assumption|lia].
    - apply wd_nonneg; [assumption|lia]. }
  exists (flat_of (comps sp) (d_pdyn sp) (d_pdyn_sh sp)), (map (fun ij => sqrt (e ij)) (list_prod (seq 0 (List.length (d_omega sp))) (seq 0 (List.length (d_psi sp))))).
  split; [apply (flatten_ok sp n p); assumption|]. split; [|split; [|split]].
  - unfold flat_of, comps. cbn [f_a]. rewrite !map_map. apply map_ext_in. intros [i j] Hij. apply in_prod_iff in Hij. rewrite !in_seq in Hij. cbn [fst snd comp_of c_a].
    rewrite (amplitude_number sp i j (nth i (d_Si sp) 0) (nth j ds 0)); [reflexivity|reflexivity| |].
    + rewrite HD. rewrite (nth_indep _ None (Some 0)) by (rewrite map_length; lia). rewrite map_nth. reflexivity.
    + apply (En i j); lia.
  - rewrite map_length, list_prod_len. congruence.
  - intros x Hx. apply in_map_iff in Hx. destruct Hx as (ij & <- & _). apply sqrt_pos.
  - unfold wave_energy. rewrite map_map.
    rewrite (Rsum_ext _ _ (fun ij => (fun i => nth i (d_Si sp) 0 * wd (d_omega sp) i) (fst ij) * (fun j => nth j ds 0 * wd (d_psi sp) j) (snd ij))).
    + rewrite (Rsum_prod _ _ (fun i => nth i (d_Si sp) 0 * wd (d_omega sp) i) (fun j => nth j ds 0 * wd (d_psi sp) j)). rewrite (wd_integral (d_omega sp)) by lia. rewrite (wd_integral (d_psi sp)) by lia. reflexivity.
    + intros [i j] Hij. apply in_prod_iff in Hij. rewrite !in_seq in Hij. cbn [fst snd]. rewrite sqrt_sqrt by (apply En; lia). unfold e. cbn [fst snd]. lra.
Qed.
Print Assumptions flatten_energy.

Definition sample_spectrum : discrete :=
  mkDiscrete [1; 3] [Some 1; Some 2; Some 0] [1; 2] [0; 1; 2] [1; 4] [[0; 1; 2]; [3; 4; 5]] (fun _ _ _ => 1) (fun _ _ _ => 1).
Example flatten_witness : exists f a, flatten sample_spectrum = Ok f /\ f_a f = map Some a /\ wave_energy a = 5.
Proof.
  destruct (flatten_energy sample_spectrum 2 3 [1; 2; 0]) as (f & a & E1 & E2 & _ & _ & E3); cbn; try lia.
  - repeat split.
  - repeat split. cbn. intros r [<-|[<-|[]]]; reflexivity.
  - repeat constructor; lra.
  - repeat constructor; lra.
  - intros s [<-|[<-|[]]]; lra.
  - reflexivity.
  - intros s [<-|[<-|[<-|[]]]]; lra.
  - exists f, a. split; [exact E1|]. split; [exact E2|]. rewrite E3. unfold integral, sample_spectrum. cbn. lra.
Qed.

(** ** C35: wave models with imposed phases *)
(** They work when there are at most as many directions as frequencies, and every phase is the imposed one. *)
Theorem constant_phase_partial : forall sp n p ds c, consistent sp n p -> (1 <= p <= n)%nat ->
  nondecreasing (d_omega sp) -> nondecreasing (d_psi sp) -> (forall s, In s (d_Si sp) -> 0 <= s) -> d_Dj sp = map Some ds -> (forall d, In d ds -> 0 <= d) ->
  exists f, airy_constant sp c = Ok f /\ List.length (f_a f) = (n * p)%nat /\ f_phase f = repeat c (n * p).
Proof.
  intros sp n p ds c C Hp S1 S2 HS HD Hd. pose proof (add_constant_sized sp c _ _ (consistent_sized _ _ _ C)) as Sz.
  pose proof (add_constant_phased sp c n p (consistent_sized _ _ _ C) ltac:(nia) ltac:(lia)) as Ph.
  unfold airy_constant. rewrite (flatten_ok _ n p Sz Ph). cbn [bindO].
  set (sp' := add_constant_phases sp c) in *.
  assert (d_Si sp' = d_Si sp /\ d_omega sp' = d_omega sp /\ d_psi sp' = d_psi sp /\ d_Dj sp' = d_Dj sp) as (E1 & E2 & E3 & E4) by (unfold sp', add_constant_phases; destruct (Nat.ltb _ _); auto).
  assert (d_phase sp' = repeat (repeat c n) n) as Ep. { unfold sp', add_constant_phases. destruct C as (C1 & C2 & C3 & C4 & C5). rewrite C2, C5.
    replace (Nat.ltb 0 (n * p)) with true by (symmetry; apply Nat.ltb_lt; nia). reflexivity. }
  destruct C as (C1 & C2 & C3 & C4 & C5).
  assert (List.length ds = p) as Lds by (rewrite <- C5, HD, map_length; reflexivity).
  set (a := map (fun ij => sqrt (2 * (nth (fst ij) (d_Si sp) 0 * nth (snd ij) ds 0) * wd (d_omega sp) (fst ij) * wd (d_psi sp) (snd ij))) (list_prod (seq 0 n) (seq 0 p))).
  assert (map c_a (comps sp') = map Some a) as Ea.
  { unfold comps, a. rewrite E2, E3, C1, C4, !map_map. apply map_ext_in. intros [i j] Hij. apply in_prod_iff in Hij. rewrite !in_seq in Hij. cbn [fst snd comp_of c_a].
    rewrite (amplitude_number sp' i j (nth i (d_Si sp) 0) (nth j ds 0)); rewrite ?E1, ?E2, ?E3; auto.
    + rewrite E4, HD. rewrite (nth_indep _ None (Some 0)) by (rewrite map_length; lia). rewrite map_nth. reflexivity.
    + repeat apply Rmult_le_pos; try lra; [apply HS, nth_In; lia|apply Hd, nth_In; lia|apply wd_nonneg; auto; lia|apply wd_nonneg; auto; lia]. }
  assert (List.length (comps sp') = (n * p)%nat) as Lc by (apply comps_length; assumption).
  unfold check_sizes, flat_of. cbn [f_omega f_a f_k f_phase f_psi f_cos f_sin f_pdyn f_pdyn_sh].
  assert (is_nil (map c_omega (comps sp')) || is_nil (map c_a (comps sp')) || is_nil (map c_k (comps sp')) || is_nil (map c_phase (comps sp')) = false) as ->.
  { destruct (comps sp'); [simpl in Lc; nia|reflexivity]. }
  rewrite (proj2 (all_numbers_spec _ a) Ea). eexists. split; [reflexivity|]. cbn [f_a f_phase]. split.
  - unfold a. rewrite map_length, list_prod_len. reflexivity.
  - assert (map c_phase (comps sp') = map (fun _ => c) (list_prod (seq 0 n) (seq 0 p))) as ->.
    { unfold comps. rewrite E2, E3, C1, C4, map_map. apply map_ext_in. intros [i j] Hij. apply in_prod_iff in Hij. rewrite !in_seq in Hij. cbn [fst snd comp_of c_phase].
      rewrite Ep. assert (nth i (repeat (repeat c n) n) [] = repeat c n) as ->. { apply nth_error_nth. apply nth_error_repeat. lia. }
      apply nth_error_nth. apply nth_error_repeat. lia. }
    rewrite <- (list_prod_len n p). generalize (list_prod (seq 0 n) (seq 0 p)). induction l; cbn; congruence.
Qed.
Print Assumptions constant_phase_partial.
(** As soon as there are more directions than frequencies the constructor throws std::out_of_range, whatever the spectrum. *)
Theorem constant_phase_refuted : forall sp n p c, consistent sp n p -> (1 <= n < p)%nat -> airy_constant sp c = Throw.
Proof.
  intros sp n p c C Hp. pose proof (consistent_sized _ _ _ C) as Sz. pose proof (add_constant_sized sp c _ _ Sz) as Sz'. unfold airy_constant, flatten.
  set (sp' := add_constant_phases sp c) in *. destruct C as (C1 & C2 & C3 & C4 & C5).
  assert (d_phase sp' = repeat (repeat c n) n) as Ep. { unfold sp', add_constant_phases. rewrite C2, C5.
    replace (Nat.ltb 0 (n * p)) with true by (symmetry; apply Nat.ltb_lt; nia). reflexivity. }
  destruct Sz' as [z1 z2 z3 z4 z5].
  rewrite mapM_throw; [reflexivity| |].
  - intros [i j] Hij. apply in_prod_iff in Hij. rewrite !in_seq in Hij. cbn [fst snd]. unfold flatten_component. rewrite !width_ok by lia. cbn [bindO].
    rewrite (at_ub_ok _ (d_k sp') i 0), (at_ub_ok _ (d_omega sp') i 0), (at_ub_ok _ (d_psi sp') j 0), (at_ub_ok _ (d_Si sp') i 0), (at_ub_ok _ (d_Dj sp') j None) by lia. cbn [bindO].
    rewrite (at_throw_ok _ _ i []) by (rewrite Ep, repeat_length; lia). cbn [bindO]. unfold at_throw. destruct (nth_error _ j); discriminate.
  - exists (0, n)%nat. split; [apply in_prod_iff; rewrite !in_seq; lia|]. cbn [fst snd]. unfold flatten_component. rewrite !width_ok by lia. cbn [bindO].
    rewrite (at_ub_ok _ (d_k sp') 0 0), (at_ub_ok _ (d_omega sp') 0 0), (at_ub_ok _ (d_psi sp') n 0), (at_ub_ok _ (d_Si sp') 0 0), (at_ub_ok _ (d_Dj sp') n None) by lia. cbn [bindO].
    rewrite Ep. rewrite (at_throw_ok _ _ 0 []) by (rewrite repeat_length; lia). cbn [bindO].
    assert (nth 0 (repeat (repeat c n) n) [] = repeat c n) as -> by (apply nth_error_nth, nth_error_repeat; lia).
    rewrite at_throw_out by (rewrite repeat_length; lia). reflexivity.
Qed.
Print Assumptions constant_phase_refuted.
(** In particular a monochromatic sea (Dirac spectrum) with any spread of n >= 2 directions cannot be used without a random seed... *)
Theorem monochromatic_spread_sea_refuted : forall w0 Hs psi0 s Fs lo hi n st c, 0 < w0 -> (2 <= n)%nat ->
  exists sp, discretize_inf (DiracSpectralDensity w0 Hs) (Cos2sDirectionalSpreading psi0 s Fs) lo hi n st = Ok sp /\ airy_constant sp c = Throw.
Proof.
  intros w0 Hs psi0 s Fs lo hi n st c Hw Hn. destruct (density_ok (DiracSpectralDensity w0 Hs) w0 Hw) as (v & Ev).
  unfold discretize_inf. cbn [angular_frequencies bindO]. rewrite mapM_cons, Ev. cbn [bindO mapM]. eexists. split; [reflexivity|].
  apply (constant_phase_refuted _ 1 n); [|lia]. repeat split; cbn; unfold base_directions; rewrite ?map_length, ?seq_length; reflexivity.
Qed.
Print Assumptions monochromatic_spread_sea_refuted.
(** ... whereas the model with random phases accepts every grid and keeps the number drawn for each component. *)
Theorem random_phase : forall sp n p ds draw, consistent sp n p -> (1 <= n)%nat -> (1 <= p)%nat ->
  nondecreasing (d_omega sp) -> nondecreasing (d_psi sp) -> (forall s, In s (d_Si sp) -> 0 <= s) -> d_Dj sp = map Some ds -> (forall d, In d ds -> 0 <= d) ->
  exists f, airy_random sp draw = Ok f /\ List.length (f_a f) = (n * p)%nat /\
    forall i j, (i < n)%nat -> (j < p)%nat -> nth_error (f_phase f) (i * p + j) = Some (draw i j).
Proof.
  intros sp n p ds draw C Hn Hp S1 S2 HS HD Hd. pose proof (add_random_sized sp draw _ _ (consistent_sized _ _ _ C)) as Sz.
  pose proof (add_random_phased sp draw n p (consistent_sized _ _ _ C) ltac:(nia)) as Ph.
  unfold airy_random. rewrite (flatten_ok _ n p Sz Ph). cbn [bindO].
  set (sp' := add_random_phases sp draw) in *.
  assert (d_Si sp' = d_Si sp /\ d_omega sp' = d_omega sp /\ d_psi sp' = d_psi sp /\ d_Dj sp' = d_Dj sp) as (E1 & E2 & E3 & E4) by (unfold sp', add_random_phases; destruct (Nat.ltb _ _); auto).
  destruct C as (C1 & C2 & C3 & C4 & C5).
  assert (d_phase sp' = map (fun i => map (draw i) (seq 0 p)) (seq 0 n)) as Ep. { unfold sp', add_random_phases. rewrite C2, C5.
    replace (Nat.ltb 0 (n * p)) with true by (symmetry; apply Nat.ltb_lt; nia). reflexivity. }
  assert (List.length ds = p) as Lds by (rewrite <- C5, HD, map_length; reflexivity).
  set (a := map (fun ij => sqrt (2 * (nth (fst ij) (d_Si sp) 0 * nth (snd ij) ds 0) * wd (d_omega sp) (fst ij) * wd (d_psi sp) (snd ij))) (list_prod (seq 0 n) (seq 0 p))).
  assert (map c_a (comps sp') = map Some a) as Ea.
  { unfold comps, a. rewrite E2, E3, C1, C4, !map_map. apply map_ext_in. intros [i j] Hij. apply in_prod_iff in Hij. rewrite !in_seq in Hij. cbn [fst snd comp_of c_a].
    rewrite (amplitude_number sp' i j (nth i (d_Si sp) 0) (nth j ds 0)); rewrite ?E1, ?E2, ?E3; auto.
    + rewrite E4, HD. rewrite (nth_indep _ None (Some 0)) by (rewrite map_length; lia). rewrite map_nth. reflexivity.
    + repeat apply Rmult_le_pos; try lra; [apply HS, nth_In; lia|apply Hd, nth_In; lia|apply wd_nonneg; auto; lia|apply wd_nonneg; auto; lia]. }
  assert (List.length (comps sp') = (n * p)%nat) as Lc by (apply comps_length; assumption).
  unfold check_sizes, flat_of. cbn [f_omega f_a f_k f_phase f_psi f_cos f_sin f_pdyn f_pdyn_sh].
  assert (is_nil (map c_omega (comps sp')) || is_nil (map c_a (comps sp')) || is_nil (map c_k (comps sp')) || is_nil (map c_phase (comps sp')) = false) as ->.
  { destruct (comps sp'); [simpl in Lc; nia|reflexivity]. }
  rewrite (proj2 (all_numbers_spec _ a) Ea). eexists. split; [reflexivity|]. cbn [f_a f_phase]. split.
  - unfold a. rewrite map_length, list_prod_len. reflexivity.
  - intros i j Hi Hj. rewrite nth_error_map, (comps_nth sp' n p i j Sz) by assumption. cbn [option_map comp_of c_phase]. f_equal. rewrite Ep.
    rewrite (nth_map_seq _ (fun i => map (draw i) (seq 0 p)) 0 n i []) by exact Hi. rewrite nth_map_seq by exact Hj. f_equal; lia.
Qed.
Print Assumptions random_phase.
Example constant_phase_witness : exists f, airy_constant (mkDiscrete [1; 3] [Some 1; Some 2] [1; 2] [0; 1] [1; 4] [] (fun _ _ _ => 1) (fun _ _ _ => 1)) (1/2) = Ok f /\ f_phase f = [1/2; 1/2; 1/2; 1/2].
Proof.
  destruct (constant_phase_partial (mkDiscrete [1; 3] [Some 1; Some 2] [1; 2] [0; 1] [1; 4] [] (fun _ _ _ => 1) (fun _ _ _ => 1)) 2 2 [1; 2] (1/2)) as (f & A & B & C); cbn; try lia.
  - repeat split.
  - repeat constructor; lra.
  - repeat constructor; lra.
  - intros s [<-|[<-|[]]]; lra.
  - reflexivity.
  - intros s [<-|[<-|[]]]; lra.
  - exists f. split; [exact A|exact C].
Qed.
Example random_phase_witness : exists f, airy_random sample_spectrum (fun i j => INR (i + j)) = Ok f /\ nth_error (f_phase f) 5 = Some (INR 3).
Proof.
  destruct (random_phase sample_spectrum 2 3 [1; 2; 0] (fun i j => INR (i + j))) as (f & A & B & C); cbn; try lia.
  - repeat split.
  - repeat constructor; lra.
  - repeat constructor; lra.
  - intros s [<-|[<-|[]]]; lra.
  - reflexivity.
  - intros s [<-|[<-|[<-|[]]]]; lra.
  - exists f. split; [exact A|]. apply (C 1%nat 2%nat); lia.
Qed.

(** ** C36: filtering *)
Definition same_sizes (f : flat R) : Prop :=
  let n := List.length (f_omega f) in
  List.length (f_a f) = n /\ List.length (f_psi f) = n /\ List.length (f_cos f) = n /\ List.length (f_sin f) = n /\ List.length (f_k f) = n /\ List.length (f_phase f) = n.
Definition energy_of (f : flat R) (i : nat) : R := nth i (f_a f) 0 * nth i (f_a f) 0.
Definition picks {A} (d : A) (l : list A) (kept : list nat) : list A := map (fun i => nth i l d) kept.
(** The rays kept are distinct, in decreasing order of energy; no dropped ray has more energy than a kept one; together they reach the
    requested share of the energy, and no fewer of them would. Everything but the phase is copied. *)
Theorem filter_keeps_most_energetic_partial : forall f ratio, same_sizes f -> 0 <= ratio <= 1 ->
  exists g kept, filter_spectrum f ratio = Ok g /\
    NoDup kept /\ (forall i, In i kept -> (i < List.length (f_omega f))%nat) /\
    StronglySorted (fun i j => energy_of f j <= energy_of f i) kept /\
    (forall i j, In i kept -> (j < List.length (f_omega f))%nat -> ~ In j kept -> energy_of f j <= energy_of f i) /\
    ratio * Rsum (map (fun a => a * a) (f_a f)) <= Rsum (map (energy_of f) kept) /\
    (forall q, (q < List.length kept)%nat -> Rsum (map (energy_of f) (firstn q kept)) < ratio * Rsum (map (fun a => a * a) (f_a f))) /\
    f_a g = picks 0 (f_a f) kept /\ f_omega g = picks 0 (f_omega f) kept /\ f_psi g = picks 0 (f_psi f) kept /\
    f_cos g = picks 0 (f_cos f) kept /\ f_sin g = picks 0 (f_sin f) kept /\ f_k g = picks 0 (f_k f) kept.
Proof.
  intros f ratio (L1 & L2 & L3 & L4 & L5 & L6) Hr. set (n := List.length (f_omega f)) in *. unfold filter_spectrum. fold n.
  rewrite (mapM_ok _ _ _ (fun i => (energy_of f i, i))).
  2: { intros i Hi. apply in_seq in Hi. rewrite (at_throw_ok _ _ i 0) by lia. reflexivity. }
  cbn [bindO]. set (E := map (fun i => (energy_of f i, i)) (seq 0 n)).
  set (total := fold_left (fun s v => s + fst v) E 0).
  assert (total = Rsum (map (fun a => a * a) (f_a f))) as Et.
  { unfold total. rewrite fold_total, Rplus_0_l. unfold E. rewrite map_map. cbn [fst]. rewrite <- L1. unfold energy_of.
    rewrite (map_seq_nth_f _ _ (fun a => a * a)). reflexivity. }
  assert (forall v, In v (sort_desc E) -> fst v = energy_of f (snd v) /\ (snd v < n)%nat) as HE.
  { intros v Hv. apply (Permutation_in v (Permutation_sym (sort_desc_perm E))) in Hv. unfold E in Hv. apply in_map_iff in Hv. destruct Hv as (i & <- & Hi). apply in_seq in Hi. cbn. split; [reflexivity|lia]. }
  destruct (filter_loop_spec (ratio * total) (sort_desc E) 0) as (m & F1 & F2 & F3 & F4). rewrite F1.
  set (kept := map snd (firstn m (sort_desc E))).
  assert (forall v q, In v (firstn q (sort_desc E)) -> In v (sort_desc E)) as Hfirst by (intros v q Hv; rewrite <- (firstn_skipn q (sort_desc E)); apply in_or_app; left; exact Hv).
  assert (forall q, map fst (firstn q (sort_desc E)) = map (energy_of f) (map snd (firstn q (sort_desc E)))) as Hfst.
  { intros q. rewrite map_map. apply map_ext_in. intros v Hv. apply HE, (Hfirst v q), Hv. }
  assert (forall i, In i kept -> (i < n)%nat) as Hk. { intros i Hi. unfold kept in Hi. apply in_map_iff in Hi. destruct Hi as (v & <- & Hv). apply HE, (Hfirst v m), Hv. }
  assert (NoDup (map snd (sort_desc E))) as ND.
  { eapply Permutation_NoDup; [apply Permutation_map, sort_desc_perm|]. unfold E. rewrite map_map. cbn. rewrite map_id. apply seq_NoDup. }
  assert (forall l (L : List.length l = n), mapM (at_throw l) kept = Ok (picks 0 l kept)) as Hp.
  { intros l L. unfold picks. apply mapM_ok. intros i Hi. apply at_throw_ok. rewrite L. apply Hk, Hi. }
  rewrite (Hp (f_a f)), (Hp (f_omega f)), (Hp (f_psi f)), (Hp (f_cos f)), (Hp (f_sin f)), (Hp (f_k f)) by auto. cbn [bindO].
  eexists. exists kept. split; [reflexivity|]. split; [|split; [exact Hk|split; [|split; [|split; [|split; [|repeat split]]]]]].
  - unfold kept. rewrite <- (firstn_skipn m (sort_desc E)), map_app in ND. apply NoDup_app_l in ND. exact ND.
  - unfold kept. pose proof (sort_desc_sorted E) as SS. rewrite <- (firstn_skipn m (sort_desc E)) in SS.
    assert (forall a b, StronglySorted desc (a ++ b) -> StronglySorted desc a) as SA.
    { induction a as [|v a IH]; intros b Hs; [constructor|]. inversion Hs as [|? ? H1 H2]; subst. constructor; [eapply IH; exact H1|]. apply Forall_app in H2. apply H2. }
    apply SA in SS. assert (forall v, In v (firstn m (sort_desc E)) -> fst v = energy_of f (snd v)) as He by (intros; apply HE, (Hfirst v m); assumption).
    clear - SS He. induction SS as [|v l Hs IH Hf]; [constructor|]. cbn [map]. constructor.
    + apply IH. intros w Hw. apply He. right. exact Hw.
    + rewrite Forall_forall in *. intros j Hj. apply in_map_iff in Hj. destruct Hj as (w & <- & Hw). rewrite <- !He by (try (left; reflexivity); right; exact Hw). apply Hf, Hw.
  - intros i j Hi Hj Nj. unfold kept in *. apply in_map_iff in Hi. destruct Hi as (v & <- & Hv).
    assert (In (energy_of f j, j) (sort_desc E)) as Hin. { apply (Permutation_in _ (sort_desc_perm E)). unfold E. apply in_map_iff. exists j. split; [reflexivity|]. apply in_seq. lia. }
    rewrite <- (firstn_skipn m (sort_desc E)) in Hin. apply in_app_or in Hin. destruct Hin as [Hin|Hin].
    + exfalso. apply Nj. apply in_map_iff. exists (energy_of f j, j). auto.
    + pose proof (sort_desc_sorted E) as SS. rewrite <- (firstn_skipn m (sort_desc E)) in SS.
      rewrite <- (proj1 (HE v (Hfirst v m Hv))). clear - SS Hv Hin. induction (firstn m (sort_desc E)) as [|w l IH]; [destruct Hv|].
      cbn in SS. inversion SS as [|? ? H1 H2]; subst. destruct Hv as [->|Hv]; [|apply IH; assumption]. rewrite Forall_forall in H2.
      apply (H2 (energy_of f j, j)). apply in_or_app. right. exact Hin.
  - rewrite <- Et. unfold kept. rewrite <- Hfst. destruct F4 as [F4|F4]; [|rewrite Rplus_0_l in F4; exact F4].
    rewrite F4, firstn_all. assert (Rsum (map fst (sort_desc E)) = total) as ->.
    { unfold total. rewrite fold_total, Rplus_0_l. apply Rsum_perm. apply Permutation_map. apply Permutation_sym, sort_desc_perm. }
    assert (0 <= total). { rewrite Et. apply Rsum_nonneg. intros x Hx. apply in_map_iff in Hx. destruct Hx as (y & <- & _). nra. } nra.
  - intros q Hq. rewrite <- Et. unfold kept in *. rewrite map_length, firstn_length in Hq. rewrite firstn_map, firstn_firstn. replace (Nat.min q m) with q by lia.
    rewrite <- Hfst. specialize (F3 q ltac:(lia)). lra.
Qed.
Print Assumptions filter_keeps_most_energetic_partial.
(** The phases are lost: a filtered spectrum has none, and computing an elevation with it reads outside its arrays. *)
Theorem filter_phase_refuted : forall f ratio g, same_sizes f -> filter_spectrum f ratio = Ok g -> f_phase g = [] /\
  (f_psi g <> [] -> forall x y t, elevation1 g t x y = UB).
Proof.
  intros f ratio g (L1 & L2 & L3 & L4 & L5 & L6) H. set (n := List.length (f_omega f)) in *. unfold filter_spectrum in H. fold n in H.
  match type of H with bindO ?X _ = _ => destruct X as [en| |] eqn:E0; try discriminate; cbn [bindO] in H end.
  match type of H with bindO ?X _ = _ => destruct X as [la| |] eqn:E1; try discriminate; cbn [bindO] in H end.
  match type of H with bindO ?X _ = _ => destruct X as [lw| |] eqn:E2; try discriminate; cbn [bindO] in H end.
  match type of H with bindO ?X _ = _ => destruct X as [lp| |] eqn:E3; try discriminate; cbn [bindO] in H end.
  match type of H with bindO ?X _ = _ => destruct X as [lc| |] eqn:E4; try discriminate; cbn [bindO] in H end.
  match type of H with bindO ?X _ = _ => destruct X as [ls| |] eqn:E5; try discriminate; cbn [bindO] in H end.
  match type of H with bindO ?X _ = _ => destruct X as [lk| |] eqn:E6; try discriminate; cbn [bindO] in H end.
  injection H as <-. cbn [f_phase]. split; [reflexivity|]. intros N x y t. unfold elevation1. cbn [f_psi f_a f_omega] in *.
  apply mapM_length in E1, E2, E3, E4, E5, E6. destruct lp as [|psi lp]; [contradiction|]. cbn [List.length seq] in *. rewrite accM_cons.
  unfold angle. cbn [f_omega f_k f_cos f_sin f_phase List.length] in *.
  rewrite (at_ub_ok _ la 0 0), (at_ub_ok _ lw 0 0), (at_ub_ok _ lk 0 0), (at_ub_ok _ lc 0 0), (at_ub_ok _ ls 0 0) by lia. reflexivity.
Qed.
Print Assumptions filter_phase_refuted.
Definition sample_flat : flat R := mkFlat [1; 3; 2] [1; 2; 3] [0; 0; 0] [1; 1; 1] [0; 0; 0] [1; 4; 9] [0; 1; 2] (fun _ _ _ => 1) (fun _ _ _ => 1).
Example filter_witness : exists g, filter_spectrum sample_flat (9/10) = Ok g /\ f_a g = [3; 2].
Proof.
  unfold filter_spectrum, sample_flat. cbn [f_a f_omega List.length seq]. rewrite (mapM_ok _ _ _ (fun i => (nth i [1; 3; 2] 0 * nth i [1; 3; 2] 0, i))).
  2: { intros i Hi. rewrite (at_throw_ok _ _ i 0); [reflexivity|]. cbn in Hi |- *. lia. }
  cbn [bindO map nth fold_left fst].
  assert (sort_desc [(1 * 1, 0%nat); (3 * 3, 1%nat); (2 * 2, 2%nat)] = [(3 * 3, 1%nat); (2 * 2, 2%nat); (1 * 1, 0%nat)]) as ->.
  { unfold sort_desc. cbn [fold_left insert_desc fst]. rewrite Rltb_t by lra. cbn [insert_desc fst]. rewrite Rltb_f by lra. cbn [insert_desc fst]. rewrite Rltb_t by lra. reflexivity. }
  cbn [filter_loop fst snd]. rewrite !Rleb_f by lra. rewrite Rleb_t by lra. cbn. eexists. split; reflexivity.
Qed.

(** ** C39: stretching *)
Theorem stretching_identity : forall st z ksi, st_h st = 0 \/ st_h st < z \/ ksi = 0 -> rescaled_z st z ksi = z.
Proof.
  intros st z ksi [H|[H| ->]].
  - apply rescaled_none. exact H.
  - unfold rescaled_z. destruct (Reqb (st_h st) 0); [reflexivity|]. rewrite Rltb_t by exact H. reflexivity.
  - apply rescaled_zero.
Qed.
Print Assumptions stretching_identity.
Theorem stretching_bounds : forall st ksi, st_h st <> 0 -> ksi < st_h st ->
  rescaled_z st (st_h st) ksi = st_h st /\ rescaled_z st ksi ksi = st_delta st * ksi.
Proof.
  intros st ksi H K. unfold rescaled_z. rewrite (Reqb_f (st_h st) 0) by exact H. rewrite !Rltb_f by lra. split; [unfold Rdiv; ring|field; lra].
Qed.
Print Assumptions stretching_bounds.
Theorem stretching_monotonic : forall st ksi z1 z2, ksi < st_h st -> st_delta st * ksi < st_h st -> z1 < z2 -> rescaled_z st z1 ksi < rescaled_z st z2 ksi.
Proof.
  intros st ksi z1 z2 K D H. unfold rescaled_z. destruct (Reqb (st_h st) 0) eqn:E; rb; [exact H|].
  set (c := (st_delta st * ksi - st_h st) / (ksi - st_h st)).
  assert (0 < c) as Hc. { unfold c. replace ((st_delta st * ksi - st_h st) / (ksi - st_h st)) with ((st_h st - st_delta st * ksi) / (st_h st - ksi)) by (field; lra). apply Rdiv_lt_0_compat; lra. }
  assert (forall z, (z - st_h st) * (st_delta st * ksi - st_h st) / (ksi - st_h st) = (z - st_h st) * c) as Ec by (intros; unfold c; field; lra). rewrite !Ec.
  destruct (Rltb (st_h st) z1) eqn:E1, (Rltb (st_h st) z2) eqn:E2; rb; nra.
Qed.
Print Assumptions stretching_monotonic.
Example stretching_witness : rescaled_z (mkStretching (1/2) 10) 2 2 = 1 /\ rescaled_z (mkStretching (1/2) 10) 6 2 < rescaled_z (mkStretching (1/2) 10) 7 2.
Proof.
  split.
  - destruct (stretching_bounds (mkStretching (1/2) 10) 2) as [_ ->]; cbn; lra.
  - apply stretching_monotonic; cbn; lra.
Qed.
