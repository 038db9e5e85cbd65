(** Properties C87 (spectral densities), C88 (directional spreadings), C89 (response amplitude operators on waves). *)
From Coq Require Import Reals List Bool ZArith Lra Lia.
From Coquelicot Require Import Coquelicot.
From Verif Require Import Common Wave_Model Wave_Spec Wave_Proofs Wave_Flat_Proofs Wave_Airy_Proofs Wave_Surface_Props.
Import ListNotations.
Open Scope R_scope.

(** ** C87 *)
Definition s_bret (Hs Tp w : R) : R :=
  let w0 := 2 * PI / Tp in 3125 / 10000 * ((w0 / w) ^ 4 / w) * (Hs * Hs) * exp (- (125 / 100) * (w0 / w) ^ 4).
Lemma bret_ok : forall Hs Tp w, 0 < w -> density (BretschneiderSpectrum Hs Tp) w = Ok (s_bret Hs Tp w).
Proof. intros Hs Tp w H. cbn [density]. rewrite Rleb_f by exact H. unfold s_bret. f_equal. f_equal; [f_equal; f_equal; f_equal; ring|f_equal; ring]. Qed.
Definition jfac (Tp gamma w : R) : R :=
  let w0 := 2 * PI / Tp in let sigma := if Rleb w w0 then 7 / 100 else 9 / 100 in
  (1 - 287 / 1000 * ln gamma) * Rpower gamma (exp (- (1 / 2) * ((w - w0) / (sigma * w0) * ((w - w0) / (sigma * w0))))).
Lemma jonswap_ok : forall Hs Tp gamma w, 0 < w -> jonswap Hs Tp gamma w = Ok (s_bret Hs Tp w * jfac Tp gamma w).
Proof.
  intros Hs Tp gamma w H. unfold jonswap. rewrite Rleb_f by exact H. unfold s_bret, jfac. cbv zeta. f_equal.
  replace (- (125 / 100 * (2 * PI / Tp / w * (2 * PI / Tp / w) * (2 * PI / Tp / w * (2 * PI / Tp / w))))) with (- (125 / 100) * (2 * PI / Tp / w) ^ 4) by ring.
  match goal with |- ?c * ?a * ?e * ?p = ?a2 * ?e * (?c * ?p) => replace a with a2; [ring|] end. set (q := 2 * PI / Tp / w). field. lra.
Qed.
Lemma s_bret_nonneg : forall Hs Tp w, 0 < w -> 0 <= s_bret Hs Tp w.
Proof.
  intros Hs Tp w H. unfold s_bret. cbv zeta. pose proof (exp_pos (- (125 / 100) * (2 * PI / Tp / w) ^ 4)). assert (0 <= Hs * Hs) by nra.
  assert (0 <= (2 * PI / Tp / w) ^ 4 / w). { apply Rmult_le_pos; [|left; apply Rinv_0_lt_compat; exact H]. replace ((2 * PI / Tp / w) ^ 4) with (((2 * PI / Tp / w) ^ 2) ^ 2) by ring. apply pow2_ge_0. }
  apply Rmult_le_pos; [|lra]. apply Rmult_le_pos; [|assumption]. lra.
Qed.
Lemma s_bret_pos : forall Hs Tp w, 0 < w -> 0 < Hs -> 0 < Tp -> 0 < s_bret Hs Tp w.
Proof.
  intros Hs Tp w H H1 H2. unfold s_bret. cbv zeta. pose proof (exp_pos (- (125 / 100) * (2 * PI / Tp / w) ^ 4)). pose proof PI_RGT_0.
  assert (0 < (2 * PI / Tp / w) ^ 4 / w). { apply Rdiv_lt_0_compat; [|exact H]. apply pow_lt. apply Rdiv_lt_0_compat; [|exact H]. apply Rdiv_lt_0_compat; lra. }
  apply Rmult_lt_0_compat; [|assumption]. apply Rmult_lt_0_compat; [lra|]. apply Rmult_lt_0_compat; assumption.
Qed.
(** Jonswap's peak enhancement is not too large: 1 - 0.287 ln(gamma) >= 0, i.e. gamma <= 32.6... *)
Fixpoint moderate_peak (S : spectrum) : Prop :=
  match S with
  | JonswapSpectrum _ _ gamma => ln gamma <= 1000 / 287
  | SumOfWaveSpectralDensities ts => (fix all l := match l with [] => True | t :: l' => moderate_peak t /\ all l' end) ts
  | _ => True
  end.
(** The energy densities are not negative. *)
Theorem density_nonneg_partial : forall S w, spectrum_ctor_ok S = true -> moderate_peak S -> 0 < w -> exists s, density S w = Ok s /\ 0 <= s.
Proof.
  fix IH 1. intros S w C M Hw. destruct S as [w0 Hs|Hs Tp|Hs Tp gamma|Hs Tp|ts].
  - cbn [density]. rewrite Rleb_f by exact Hw. destruct (Rltb _ _); eexists; (split; [reflexivity|]); nra.
  - rewrite bret_ok by exact Hw. eexists. split; [reflexivity|]. apply s_bret_nonneg. exact Hw.
  - cbn [density]. rewrite jonswap_ok by exact Hw. eexists. split; [reflexivity|]. apply Rmult_le_pos; [apply s_bret_nonneg; exact Hw|]. unfold jfac. cbv zeta.
    cbn [moderate_peak] in M. apply Rmult_le_pos; [lra|]. unfold Rpower. left. apply exp_pos.
  - cbn [density]. rewrite jonswap_ok by exact Hw. eexists. split; [reflexivity|]. apply Rmult_le_pos; [apply s_bret_nonneg; exact Hw|]. unfold jfac. cbv zeta. rewrite ln_1.
    apply Rmult_le_pos; [lra|]. unfold Rpower. left. apply exp_pos.
  - cbn [density spectrum_ctor_ok moderate_peak] in *.
    assert (forall a, 0 <= a -> exists s, accM (fun t => density t w) a ts = Ok s /\ 0 <= s) as G; [|apply (G 0); lra].
    induction ts as [|t ts IHts]; intros a Ha; [exists a; split; [reflexivity|exact Ha]|]. cbn [forallb] in C. apply andb_prop in C. destruct C as (C1 & C2). destruct M as (M1 & M2).
    rewrite accM_cons. destruct (IH t w C1 M1 Hw) as (s & -> & Hs). cbn [bindO]. apply IHts; [exact C2|exact M2|lra].
Qed.
Print Assumptions density_nonneg_partial.
(** Jonswap spectra with a larger peak are accepted, and every density is negative. *)
Theorem density_nonneg_refuted : forall Hs Tp w, 0 < Hs -> 0 < Tp -> 0 < w -> spectrum_ctor_ok (JonswapSpectrum Hs Tp (exp 4)) = true /\
  exists s, density (JonswapSpectrum Hs Tp (exp 4)) w = Ok s /\ s < 0.
Proof.
  intros Hs Tp w H1 H2 H3. pose proof (exp_pos 4). split; [cbn; rewrite Rltb_f, !Rleb_f by lra; reflexivity|]. cbn [density]. rewrite jonswap_ok by exact H3. eexists. split; [reflexivity|].
  unfold jfac. cbv zeta. rewrite ln_exp. match goal with |- context[Rpower (exp 4) ?e] => set (r := e) end. pose proof (s_bret_pos Hs Tp w H3 H1 H2). assert (0 < Rpower (exp 4) r) by (unfold Rpower; apply exp_pos).
  assert (0 < s_bret Hs Tp w * Rpower (exp 4) r) by (apply Rmult_lt_0_compat; assumption). replace (s_bret Hs Tp w * ((1 - 287 / 1000 * 4) * Rpower (exp 4) r)) with (- (148 / 1000) * (s_bret Hs Tp w * Rpower (exp 4) r)) by field. lra.
Qed.
Print Assumptions density_nonneg_refuted.
(** Pierson-Moskowitz is Bretschneider. *)
Theorem pierson_moskowitz_is_bretschneider : forall Hs Tp w, density (PiersonMoskowitzSpectrum Hs Tp) w = density (BretschneiderSpectrum Hs Tp) w.
Proof.
  intros Hs Tp w. destruct (Rle_dec w 0) as [H|H]; [cbn [density]; unfold jonswap; rewrite !Rleb_t by exact H; reflexivity|]. apply Rnot_le_lt in H.
  rewrite bret_ok by exact H. cbn [density]. rewrite jonswap_ok by exact H. unfold jfac. cbv zeta. rewrite ln_1. unfold Rpower. rewrite ln_1, !Rmult_0_r, exp_0. f_equal. ring.
Qed.
Print Assumptions pierson_moskowitz_is_bretschneider.
(** The density is largest at the pulsation 2 PI / Tp of the peak period. *)
Lemma peak_shape : forall x, 0 < x -> x ^ 5 * exp (- (125 / 100) * x ^ 4) <= exp (- (125 / 100)).
Proof.
  intros x H. assert (x ^ 5 = exp (5 * ln x)) as ->. { replace (5 * ln x) with (INR 5 * ln x) by (simpl; ring). fold (Rpower x (INR 5)). rewrite Rpower_pow by exact H. reflexivity. }
  rewrite <- exp_plus. assert (4 * ln x <= x ^ 4 - 1) as L.
  { assert (x ^ 4 = exp (4 * ln x)) as ->. { replace (4 * ln x) with (INR 4 * ln x) by (simpl; ring). fold (Rpower x (INR 4)). rewrite Rpower_pow by exact H. reflexivity. }
    destruct (Req_dec (4 * ln x) 0) as [->|N]; [rewrite exp_0; lra|]. pose proof (exp_ineq1 _ N). lra. }
  set (u := x ^ 4) in *. set (l := ln x) in *. destruct (Req_dec (5 * l + - (125 / 100) * u) (- (125 / 100))) as [E|N]; [rewrite E; lra|]. left. apply exp_increasing. lra.
Qed.
Lemma s_bret_peak : forall Hs Tp w, 0 < Tp -> 0 < w -> s_bret Hs Tp w <= s_bret Hs Tp (2 * PI / Tp).
Proof.
  intros Hs Tp w HT Hw. unfold s_bret. cbv zeta. pose proof PI_RGT_0. set (w0 := 2 * PI / Tp). assert (0 < w0) as H0 by (apply Rdiv_lt_0_compat; lra).
  replace (w0 / w0) with 1 by (field; lra). rewrite pow1. assert (0 < w0 / w) as Hx by (apply Rdiv_lt_0_compat; assumption). pose proof (peak_shape (w0 / w) Hx) as P. set (x := w0 / w) in *.
  replace (x ^ 4 / w) with (x ^ 5 / w0) by (unfold x; field; lra). rewrite !Rmult_1_r.
  replace (3125 / 10000 * (x ^ 5 / w0) * (Hs * Hs) * exp (- (125 / 100) * x ^ 4)) with (3125 / 10000 / w0 * (Hs * Hs) * (x ^ 5 * exp (- (125 / 100) * x ^ 4))) by (field; lra).
  replace (3125 / 10000 * (1 / w0) * (Hs * Hs) * exp (- (125 / 100))) with (3125 / 10000 / w0 * (Hs * Hs) * exp (- (125 / 100))) by (field; lra).
  apply Rmult_le_compat_l; [|exact P]. apply Rmult_le_pos; [|nra]. left. apply Rdiv_lt_0_compat; lra.
Qed.
Theorem peak_period : forall Hs Tp gamma w, 0 < Tp -> 0 < w -> 1 <= gamma -> ln gamma <= 1000 / 287 ->
  (exists s s0, density (BretschneiderSpectrum Hs Tp) w = Ok s /\ density (BretschneiderSpectrum Hs Tp) (2 * PI / Tp) = Ok s0 /\ s <= s0) /\
  (exists s s0, density (JonswapSpectrum Hs Tp gamma) w = Ok s /\ density (JonswapSpectrum Hs Tp gamma) (2 * PI / Tp) = Ok s0 /\ s <= s0).
Proof.
  intros Hs Tp gamma w HT Hw Hg Hm. pose proof PI_RGT_0. assert (0 < 2 * PI / Tp) as H0 by (apply Rdiv_lt_0_compat; lra). pose proof (s_bret_peak Hs Tp w HT Hw) as P. split.
  - rewrite !bret_ok by assumption. eauto.
  - cbn [density]. rewrite !jonswap_ok by assumption. do 2 eexists. split; [reflexivity|]. split; [reflexivity|].
    apply Rmult_le_compat; [apply s_bret_nonneg; exact Hw| |exact P|].
    + unfold jfac. cbv zeta. apply Rmult_le_pos; [lra|left; apply exp_pos].
    + unfold jfac. cbv zeta. apply Rmult_le_compat_l; [lra|]. replace ((2 * PI / Tp - 2 * PI / Tp) / ((if Rleb (2 * PI / Tp) (2 * PI / Tp) then 7 / 100 else 9 / 100) * (2 * PI / Tp)) *
        ((2 * PI / Tp - 2 * PI / Tp) / ((if Rleb (2 * PI / Tp) (2 * PI / Tp) then 7 / 100 else 9 / 100) * (2 * PI / Tp)))) with 0 by (unfold Rdiv; ring).
      rewrite Rmult_0_r, exp_0. set (q := (w - 2 * PI / Tp) / _). assert (exp (- (1 / 2) * (q * q)) <= 1) as E.
      { rewrite <- exp_0 at 2. destruct (Req_dec (q * q) 0) as [->|N]; [rewrite Rmult_0_r; lra|]. left. apply exp_increasing. nra. }
      unfold Rpower. assert (0 <= ln gamma) as L. { destruct (Req_dec gamma 1) as [->|N]; [rewrite ln_1; lra|]. left. rewrite <- ln_1. apply ln_increasing; lra. }
      destruct (Req_dec (exp (- (1 / 2) * (q * q)) * ln gamma) (1 * ln gamma)) as [->|N]; [lra|]. left. apply exp_increasing. nra.
Qed.
Print Assumptions peak_period.
(** The area under the spectrum is Hs^2/16: the density is the derivative of an energy that goes from 0 to Hs^2/16. *)
Definition bret_energy (Hs Tp w : R) : R := Hs * Hs / 16 * exp (- (125 / 100) * (2 * PI / Tp / w) ^ 4).
Lemma pow4_derive : forall w0 w : R, 0 < w -> is_derive (fun s : R => - (125 / 100) * (w0 / s) ^ 4) w (5 * (w0 / w) ^ 4 / w).
Proof.
  intros w0 w H. apply (is_derive_ext (fun s : R => - (125 / 100) * (w0 / s * (w0 / s) * (w0 / s) * (w0 / s)))); [intros s; cbn [pow]; f_equal; set (q := w0 / s); rewrite Rmult_1_r; rewrite !Rmult_assoc; reflexivity|].
  auto_derive; [repeat split; lra|]. field. lra.
Qed.
Lemma bret_derive : forall w0 w Hs : R, 0 < w -> is_derive (fun s : R => Hs * Hs / 16 * exp (- (125 / 100) * (w0 / s) ^ 4)) w
  (3125 / 10000 * ((w0 / w) ^ 4 / w) * (Hs * Hs) * exp (- (125 / 100) * (w0 / w) ^ 4)).
Proof.
  intros w0 w Hs H. replace (3125 / 10000 * ((w0 / w) ^ 4 / w) * (Hs * Hs) * exp (- (125 / 100) * (w0 / w) ^ 4)) with (Hs * Hs / 16 * (5 * (w0 / w) ^ 4 / w * exp (- (125 / 100) * (w0 / w) ^ 4))) by (set (e := exp _); field; lra).
  apply (is_derive_scal (fun s : R => exp (- (125 / 100) * (w0 / s) ^ 4))). apply (is_derive_comp exp (fun s : R => - (125 / 100) * (w0 / s) ^ 4) w); [|apply pow4_derive; exact H].
  apply is_derive_Reals, derivable_pt_lim_exp.
Qed.
Theorem spectrum_energy : forall Hs Tp, 0 < Tp -> exists E : R -> R,
  (forall w, 0 < w -> exists s, density (BretschneiderSpectrum Hs Tp) w = Ok s /\ density (PiersonMoskowitzSpectrum Hs Tp) w = Ok s /\ derivable_pt_lim E w s) /\
  (forall eps, 0 < eps -> exists a, 0 < a /\ forall w, 0 < w < a -> Rabs (E w) < eps) /\
  (forall eps, 0 < eps -> exists A, 0 < A /\ forall w, A < w -> Rabs (E w - Hs * Hs / 16) < eps).
Proof.
  intros Hs Tp HT. pose proof PI_RGT_0. set (w0 := 2 * PI / Tp). assert (0 < w0) as H0 by (apply Rdiv_lt_0_compat; lra). exists (bret_energy Hs Tp). split; [|split].
  - intros w Hw. exists (s_bret Hs Tp w). rewrite pierson_moskowitz_is_bretschneider, bret_ok by exact Hw. split; [reflexivity|]. split; [reflexivity|].
    apply is_derive_Reals. unfold bret_energy, s_bret. fold w0. cbv zeta. apply bret_derive; lra.
  - intros eps He. unfold bret_energy. fold w0. set (K := Hs * Hs / 16). assert (0 <= K) as HK by (unfold K; nra).
    (* exp(-y) <= 1/y with y = 1.25 (w0/w)^4 >= 1.25 w0/w when w <= w0 *)
    exists (Rmin w0 (eps * (125 / 100) * w0 / (K + 1))). split.
    { apply Rmin_glb_lt; [exact H0|]. apply Rdiv_lt_0_compat; [|lra]. apply Rmult_lt_0_compat; [|exact H0]. lra. }
    intros w (Hw & Hm). assert (w < w0) as W1 by (eapply Rlt_le_trans; [exact Hm|apply Rmin_l]). assert (w < eps * (125 / 100) * w0 / (K + 1)) as W2 by (eapply Rlt_le_trans; [exact Hm|apply Rmin_r]).
    set (x := w0 / w). assert (1 < x) as Hx. { unfold x. apply (Rmult_lt_reg_r w); [exact Hw|]. unfold Rdiv. rewrite Rmult_assoc, Rinv_l by lra. lra. }
    assert (x <= x ^ 4) as X4. { assert (1 <= x ^ 3) by (apply pow_R1_Rle; lra). replace (x ^ 4) with (x * x ^ 3) by ring. nra. }
    assert (0 < 125 / 100 * x ^ 4) as Y by lra. replace (- (125 / 100) * x ^ 4) with (- (125 / 100 * x ^ 4)) by ring. set (y := 125 / 100 * x ^ 4) in *.
    assert (exp (- y) * y < 1) as EY. { rewrite exp_Ropp. assert (1 + y < exp y) by (apply exp_ineq1; lra). apply (Rmult_lt_reg_l (exp y)); [apply exp_pos|]. rewrite <- Rmult_assoc, Rinv_r by (apply Rgt_not_eq, exp_pos). lra. }
    rewrite Rabs_pos_eq by (apply Rmult_le_pos; [exact HK|left; apply exp_pos]).
    assert (K + 1 < eps * y) as KE.
    { apply (Rmult_lt_compat_r (K + 1)) in W2; [|lra]. unfold Rdiv in W2. rewrite Rmult_assoc, Rinv_l, Rmult_1_r in W2 by lra.
      assert (w * x = w0) as WX by (unfold x; field; lra). assert (w * (K + 1) < w * (eps * (125 / 100) * x)) as Q by (rewrite <- WX in W2; lra).
      apply Rmult_lt_reg_l in Q; [|exact Hw]. unfold y. assert (eps * (125 / 100) * x <= eps * (125 / 100 * x ^ 4)) by (rewrite Rmult_assoc; apply Rmult_le_compat_l; lra). lra. }
    pose proof (exp_pos (- y)) as EP. assert (K * exp (- y) < (K + 1) * exp (- y)) by nra. assert ((K + 1) * exp (- y) < eps * y * exp (- y)) by nra. assert (eps * (exp (- y) * y) < eps * 1) by (apply Rmult_lt_compat_l; assumption). lra.
  - intros eps He. unfold bret_energy. fold w0. set (K := Hs * Hs / 16). assert (0 <= K) as HK by (unfold K; nra).
    exists (Rmax w0 ((K + 1) * (125 / 100) * w0 / eps)). split; [eapply Rlt_le_trans; [exact H0|apply Rmax_l]|].
    intros w Hm. assert (w0 < w) as W1 by (eapply Rle_lt_trans; [apply Rmax_l|exact Hm]). assert ((K + 1) * (125 / 100) * w0 / eps < w) as W2 by (eapply Rle_lt_trans; [apply Rmax_r|exact Hm]).
    set (x := w0 / w). assert (0 < x) as Hx by (apply Rdiv_lt_0_compat; lra). assert (x < 1) as Hx1. { unfold x. apply (Rmult_lt_reg_r w); [lra|]. unfold Rdiv. rewrite Rmult_assoc, Rinv_l by lra. lra. }
    assert (x ^ 4 <= x) as X4. { assert (x ^ 3 <= 1) by (replace 1 with (1 ^ 3) by ring; apply pow_incr; lra). replace (x ^ 4) with (x * x ^ 3) by ring. nra. }
    assert (0 < x ^ 4) as P4 by (apply pow_lt; exact Hx). set (y := 125 / 100 * x ^ 4) in *. replace (- (125 / 100) * x ^ 4) with (- y) by (unfold y; ring).
    assert (1 - y < exp (- y)) as E1 by (apply (exp_ineq1 (- y)); unfold y; lra). assert (exp (- y) < 1) as E2 by (rewrite <- exp_0; apply exp_increasing; unfold y; lra).
    replace (K * exp (- y) - K) with (- (K * (1 - exp (- y)))) by ring. rewrite Rabs_Ropp, Rabs_pos_eq by (apply Rmult_le_pos; lra).
    assert ((K + 1) * (125 / 100) * x < eps) as KE.
    { apply (Rmult_lt_compat_r eps) in W2; [|exact He]. unfold Rdiv in W2. rewrite Rmult_assoc, Rinv_l, Rmult_1_r in W2 by lra. assert (w * x = w0) as WX by (unfold x; field; lra).
      rewrite <- WX in W2. apply (Rmult_lt_reg_l w); [lra|]. lra. }
    assert (K * (1 - exp (- y)) <= K * y) by (apply Rmult_le_compat_l; lra). assert (K * y <= (K + 1) * (125 / 100) * x) by (unfold y; nra). lra.
Qed.
Print Assumptions spectrum_energy.
Example spectrum_witness : spectrum_ctor_ok (SumOfWaveSpectralDensities [BretschneiderSpectrum 2 10; JonswapSpectrum 1 8 2; DiracSpectralDensity 1 1]) = true /\
  moderate_peak (SumOfWaveSpectralDensities [BretschneiderSpectrum 2 10; JonswapSpectrum 1 8 2; DiracSpectralDensity 1 1]).
Proof.
  split; [cbn; rewrite !Rltb_f, !Rleb_f by lra; reflexivity|]. cbn. repeat split. rewrite <- (ln_exp (1000 / 287)). left. apply ln_increasing; [lra|].
  apply Rlt_trans with (1 + 1000 / 287); [lra|]. apply exp_ineq1. lra.
Qed.
