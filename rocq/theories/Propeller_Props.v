(** C57: the propeller series are evaluated inside their domain. *)
From Coq Require Import ZArith Reals Lra Lia List Bool Psatz.
From Flocq Require Import Core BinarySingleNaN.
From Verif Require Import Common Propeller_Model.
Import ListNotations.
Open Scope R_scope.

Lemma B2R_1_5 : B2R f1_5 = 15 / 10. Proof. unfold f1_5, B2R, F2R. cbn. lra. Qed.
Lemma B2R_zero : B2R fzero = 0. Proof. reflexivity. Qed.
Lemma B2R_one : B2R fone = 1. Proof. unfold fone, B2R, F2R. cbn. lra. Qed.

(** The saturation keeps every number (infinities included) in [0,1.5]. *)
Theorem saturate_range : forall J, is_nan J = false -> is_finite (saturate J) = true /\ 0 <= B2R (saturate J) <= 15 / 10.
Proof.
  intros J H. unfold saturate, std_max, std_min, flt.
  assert (forall a, is_finite a = true -> B2R a <= 15 / 10 -> is_finite (if Bltb a fzero then fzero else a) = true /\ 0 <= B2R (if Bltb a fzero then fzero else a) <= 15 / 10) as K.
  { intros a Fa La. rewrite Bltb_correct by (exact Fa || reflexivity). rewrite B2R_zero. destruct (Rlt_bool_spec (B2R a) 0); [rewrite B2R_zero|]; split; try assumption; try reflexivity; lra. }
  destruct (is_finite J) eqn:F.
  - rewrite (Bltb_correct _ _ f1_5 J eq_refl F). rewrite B2R_1_5. destruct (Rlt_bool_spec (15 / 10) (B2R J)) as [L|L].
    + apply K; [reflexivity|]. rewrite B2R_1_5. lra.
    + apply K; [exact F|exact L].
  - destruct J as [s|[|]| |s m e B]; try discriminate; cbn.
    + split; [reflexivity|lra].
    + split; [reflexivity|]. unfold F2R. cbn. lra.
Qed.
Print Assumptions saturate_range.
(** Inside the domain nothing is changed. *)
Theorem saturate_inside : forall J, is_finite J = true -> 0 <= B2R J <= 15 / 10 -> saturate J = J.
Proof.
  intros J F H. unfold saturate, std_max, std_min, flt. rewrite (Bltb_correct _ _ f1_5 J eq_refl F). rewrite B2R_1_5, Rlt_bool_false by lra.
  rewrite Bltb_correct by (exact F || reflexivity). rewrite B2R_zero, Rlt_bool_false by lra. reflexivity.
Qed.
Print Assumptions saturate_inside.

(** When is the advance ratio a number? *)
Lemma mult_not_nan : forall x y, is_finite x = true -> is_finite y = true -> is_nan (fmul x y) = false.
Proof.
  intros x y Fx Fy. pose proof (Bmult_correct 53 1024 _ _ mode_NE x y) as H. unfold fmul. destruct (Rlt_bool _ _).
  - destruct H as (_ & F & _). rewrite Fx, Fy in F. destruct (Bmult mode_NE x y); try discriminate; reflexivity.
  - rewrite <- is_nan_SF_B2SF, H. apply is_nan_binary_overflow.
Qed.
Lemma div_not_nan : forall x y, is_nan x = false -> is_finite y = true -> ~ (B2R x = 0 /\ is_finite x = true /\ B2R y = 0) -> is_nan (fdiv x y) = false.
Proof.
  intros x y Nx Fy H. unfold fdiv. destruct (Req_dec (B2R y) 0) as [Zy|Zy].
  - assert (exists b, y = B754_zero b) as [b ->].
    { destruct y as [b| | |s m e B]; try discriminate; [eauto|]. exfalso. cbn in Zy. apply eq_0_F2R in Zy. destruct s; discriminate. }
    destruct x as [s|s| |s m e B]; try discriminate; try reflexivity. exfalso. apply H. auto.
  - destruct x as [s|s| |s m e B]; try discriminate.
    + destruct y; try discriminate; [exfalso; apply Zy; reflexivity|reflexivity].
    + destruct y; try discriminate; reflexivity.
    + pose proof (Bdiv_correct 53 1024 _ _ mode_NE (B754_finite s m e B) y Zy) as C. destruct (Rlt_bool _ _).
      * destruct C as (_ & F & _). cbn [is_finite] in F. destruct (Bdiv mode_NE (B754_finite s m e B) y); try discriminate; reflexivity.
      * rewrite <- is_nan_SF_B2SF, C. apply is_nan_binary_overflow.
Qed.
Lemma div_2PI_finite : forall rpm, is_finite rpm = true -> is_finite (fdiv rpm f2PI) = true.
Proof.
  intros rpm F. unfold fdiv.
  assert (1 <= B2R f2PI) as P by (unfold f2PI, B2R, F2R; cbn; lra).
  pose proof (Bdiv_correct 53 1024 _ _ mode_NE rpm f2PI ltac:(lra)) as C.
  assert (Rabs (B2R rpm / B2R f2PI) <= Rabs (B2R rpm)) as L.
  { unfold Rdiv. rewrite Rabs_mult, (Rabs_right (/ B2R f2PI)) by (left; apply Rinv_0_lt_compat; lra). rewrite <- (Rmult_1_r (Rabs (B2R rpm))) at 2.
    apply Rmult_le_compat_l; [apply Rabs_pos|]. rewrite <- Rinv_1. apply Rinv_le_contravar; lra. }
  rewrite Rlt_bool_true in C.
  - destruct C as (_ & C & _). rewrite C. exact F.
  - eapply Rle_lt_trans; [|apply (abs_B2R_lt_emax 53 1024 rpm)]. rewrite <- (round_generic radix2 (SpecFloat.fexp 53 1024) (round_mode mode_NE) (Rabs (B2R rpm))).
    + rewrite <- round_NE_abs. 2: apply fexp_correct, prec_gt_0_53. apply round_le; [apply fexp_correct, prec_gt_0_53|apply valid_rnd_round_mode|exact L].
    + apply generic_format_abs. apply generic_format_B2R.
Qed.
Lemma one_minus_finite : forall w, is_finite w = true -> 0 <= B2R w <= 1 -> is_finite (fsub fone w) = true.
Proof.
  intros w F H. pose proof (Bminus_correct 53 1024 _ _ mode_NE fone w eq_refl F) as C. unfold fsub. rewrite B2R_one in C. rewrite Rlt_bool_true in C; [apply C|].
  assert (Rabs (round radix2 (SpecFloat.fexp 53 1024) (round_mode mode_NE) (1 - B2R w)) <= 1) as L.
  { apply abs_round_le_generic; [apply fexp_correct, prec_gt_0_53|apply valid_rnd_round_mode| |rewrite Rabs_right; lra].
    rewrite <- B2R_one. apply generic_format_B2R. }
  eapply Rle_lt_trans; [exact L|]. change 1 with (bpow radix2 0). apply bpow_lt. lia.
Qed.
Definition fl_is_zero (x : f64) : Prop := exists b, x = B754_zero b.
Lemma zero_B2R : forall x : f64, is_finite x = true -> B2R x = 0 -> fl_is_zero x.
Proof. intros [b| | |s m e B] F Z; try discriminate; [exists b; reflexivity|]. exfalso. cbn in Z. apply eq_0_F2R in Z. destruct s; discriminate. Qed.

(** With a wake coefficient in [0,1], a positive diameter and finite speeds, the advance ratio is a number unless both the rotation speed and the
    speed of the water at the propeller are zero. *)
Theorem advance_ratio_number : forall w D u rpm, is_finite w = true -> 0 <= B2R w <= 1 -> is_finite D = true -> 0 < B2R D -> is_finite u = true -> is_finite rpm = true ->
  (is_nan (fl_advance_ratio w D u rpm) = true <-> fl_is_zero (fdiv rpm f2PI) /\ fl_is_zero (fmul (fsub fone w) (Babs u))).
Proof.
  intros w D u rpm Fw Hw FD HD Fu Fr. unfold fl_advance_ratio. cbv zeta.
  pose proof (div_2PI_finite rpm Fr) as Fn. pose proof (one_minus_finite w Fw Hw) as F1. assert (is_finite (Babs u) = true) as Fa by (rewrite is_finite_Babs; exact Fu).
  pose proof (mult_not_nan _ _ F1 Fa) as Np. set (p := fmul (fsub fone w) (Babs u)) in *. set (n := fdiv rpm f2PI) in *.
  split.
  - intros N. destruct (is_nan (fdiv p n)) eqn:E.
    + destruct (Req_dec (B2R n) 0) as [Zn|Zn].
      * destruct (Req_dec (B2R p) 0) as [Zp|Zp].
        -- destruct (is_finite p) eqn:Fp; [split; apply zero_B2R; assumption|]. rewrite div_not_nan in E; try assumption; [discriminate|]. rewrite Fp. intros (_ & X & _). discriminate.
        -- rewrite div_not_nan in E; try assumption; [discriminate|]. intros (X & _). exact (Zp X).
      * rewrite div_not_nan in E; try assumption; [discriminate|]. intros (_ & _ & X). exact (Zn X).
    + rewrite (div_not_nan (fdiv p n) D E FD) in N; [discriminate|]. intros (_ & _ & X). lra.
  - intros ((a & Ha) & (b & Hb)). rewrite Ha, Hb. reflexivity.
Qed.
Print Assumptions advance_ratio_number.
(** So the series are evaluated inside [0,1.5] unless the propeller and the water are both stopped... *)
Theorem propeller_domain_partial : forall w D u rpm, is_finite w = true -> 0 <= B2R w <= 1 -> is_finite D = true -> 0 < B2R D -> is_finite u = true -> is_finite rpm = true ->
  ~ (fl_is_zero (fdiv rpm f2PI) /\ fl_is_zero (fmul (fsub fone w) (Babs u))) ->
  is_finite (saturate (fl_advance_ratio w D u rpm)) = true /\ 0 <= B2R (saturate (fl_advance_ratio w D u rpm)) <= 15 / 10.
Proof.
  intros w D u rpm Fw Hw FD HD Fu Fr H. apply saturate_range. destruct (is_nan _) eqn:E; [|reflexivity]. exfalso. apply H. apply (advance_ratio_number w D u rpm); assumption.
Qed.
Print Assumptions propeller_domain_partial.

(** The coefficients are those of an advance ratio of the domain of the series. *)
Theorem coefficients_are_taken_in_the_domain : forall J, is_nan J = false -> exists J', is_finite J' = true /\ 0 <= B2R J' <= 15 / 10 /\ (is_finite J = true -> 0 <= B2R J <= 15 / 10 -> J' = J) /\
  forall pow ct cq Z A P, fl_Kt pow ct Z A P J = fl_Kt pow ct Z A P J' /\ fl_Kq pow cq Z A P J = fl_Kq pow cq Z A P J'.
Proof.
  intros J H. destruct (saturate_range J H) as [F B]. exists (saturate J). split; [exact F|]. split; [exact B|]. split; [apply saturate_inside|].
  intros. unfold fl_Kt, fl_Kq, series. rewrite (saturate_inside (saturate J) F B). split; reflexivity.
Qed.
Print Assumptions coefficients_are_taken_in_the_domain.
(** The thrust depends on the rotation speed through its square: its sign does not matter. *)
Theorem thrust_does_not_depend_on_the_sign_of_the_rotation : forall t rho D4 rpm Kt, fl_thrust t rho D4 (Bopp rpm) Kt = fl_thrust t rho D4 rpm Kt.
Proof.
  intros t rho D4 rpm Kt. unfold fl_thrust. cbv zeta. assert (E : fmul (Bopp rpm) (Bopp rpm) = fmul rpm rpm); [|rewrite E; reflexivity].
  destruct rpm as [b|b| |b m e He]; [destruct b; reflexivity|destruct b; reflexivity|reflexivity|]. apply B2SF_inj. unfold fmul, Bopp, Bmult. rewrite !B2SF_SF2B. destruct b; reflexivity.
Qed.
Print Assumptions thrust_does_not_depend_on_the_sign_of_the_rotation.

(** ... and then the coefficients and the thrust are not numbers, whatever the coefficients of the series, if pow(NaN,n) is NaN for n > 0 as in the C standard. *)
Lemma fmul_nan_l : forall x, fmul B754_nan x = B754_nan. Proof. reflexivity. Qed.
Lemma fmul_nan_r : forall x, fmul x B754_nan = B754_nan. Proof. intros [| | |]; reflexivity. Qed.
Lemma fadd_nan_l : forall x, fadd B754_nan x = B754_nan. Proof. reflexivity. Qed.
Lemma fadd_nan_r : forall x, fadd x B754_nan = B754_nan. Proof. intros [| | |]; reflexivity. Qed.
Lemma at_ub_in : forall (A : Type) (l : list A) i, (i < length l)%nat -> exists a, at_ub l i = Ok a.
Proof. intros A l i H. unfold at_ub. destruct (nth_error l i) eqn:E; [eauto|]. apply nth_error_None in E. lia. Qed.
Section SeriesNaN.
  Variable pow : f64 -> nat -> f64.
  Hypothesis pow_nan : forall n, pow B754_nan (S n) = B754_nan.
  Variable c : list f64.
  Variables s t u v : list nat.
  Variable n : nat.
  Hypothesis lengths : (n <= length c)%nat /\ (n <= length s)%nat /\ (n <= length t)%nat /\ (n <= length u)%nat /\ (n <= length v)%nat.
  Lemma series_loop_nan : forall fuel i Z A P, (i + fuel = n)%nat ->
    series_loop pow c s t u v fuel i Z A P B754_nan B754_nan = Ok B754_nan /\
    ((exists j, (i <= j < n)%nat /\ nth j s O <> O) -> forall k, series_loop pow c s t u v fuel i Z A P B754_nan k = Ok B754_nan).
  Proof.
    induction fuel as [|fuel IH]; intros i Z A P E; cbn [series_loop].
    - split; [reflexivity|]. intros (j & Hj & _). lia.
    - destruct (at_ub_in _ c i ltac:(lia)) as [ci ->]. destruct (at_ub_in _ s i ltac:(lia)) as [si Hs]. rewrite Hs. destruct (at_ub_in _ t i ltac:(lia)) as [ti ->].
      destruct (at_ub_in _ u i ltac:(lia)) as [ui ->]. destruct (at_ub_in _ v i ltac:(lia)) as [vi ->]. cbn [bindO].
      destruct (IH (S i) Z A P ltac:(lia)) as [I1 I2]. split; [rewrite fadd_nan_l; exact I1|].
      intros (j & Hj & Nj) k. destruct (Nat.eq_dec i j) as [->|Ne].
      + unfold at_ub in Hs. destruct (nth_error s j) eqn:Es; [|discriminate]. injection Hs as <-. rewrite (nth_error_nth s j O Es) in Nj. destruct n0 as [|q]; [contradiction|].
        rewrite pow_nan, fmul_nan_r, !fmul_nan_l, fadd_nan_r. exact I1.
      + apply I2. exists j. split; [lia|exact Nj].
  Qed.
End SeriesNaN.
Theorem propeller_domain_refuted : exists w D u rpm, is_finite w = true /\ 0 <= B2R w <= 1 /\ is_finite D = true /\ 0 < B2R D /\ is_finite u = true /\ is_finite rpm = true /\
  is_nan (saturate (fl_advance_ratio w D u rpm)) = true /\
  forall pow ct cq Z A P, (forall n, pow B754_nan (S n) = B754_nan) -> length ct = 39%nat -> length cq = 47%nat ->
    exists kt kq, fl_Kt pow ct Z A P (fl_advance_ratio w D u rpm) = Ok kt /\ is_nan kt = true /\ fl_Kq pow cq Z A P (fl_advance_ratio w D u rpm) = Ok kq /\ is_nan kq = true /\
      forall t rho D4, is_nan (fl_thrust t rho D4 rpm kt) = true.
Proof.
  exists fzero, fone, fzero, fzero. assert (fl_advance_ratio fzero fone fzero fzero = B754_nan) as E by reflexivity. rewrite E.
  split; [reflexivity|]. rewrite B2R_zero, B2R_one. split; [lra|]. split; [reflexivity|]. split; [lra|]. do 3 (split; [reflexivity|]).
  intros pow ct cq Z A P Hp Lt Lq. exists B754_nan, B754_nan. unfold fl_Kt, fl_Kq, series. change (saturate B754_nan) with (B754_nan : f64).
  split; [|split; [reflexivity|split; [|split; [reflexivity|]]]].
  - apply (series_loop_nan pow Hp ct st tt_ ut vt 39); [rewrite Lt; cbn; lia|lia|]. exists 1%nat. split; [lia|]. cbn. lia.
  - apply (series_loop_nan pow Hp cq sq tq uq vq 47); [rewrite Lq; cbn; lia|lia|]. exists 1%nat. split; [lia|]. cbn. lia.
  - intros t rho D4. unfold fl_thrust. cbv zeta. rewrite fmul_nan_r. reflexivity.
Qed.
Print Assumptions propeller_domain_refuted.

(** The arrays are never read out of bounds. *)
Theorem series_in_bounds : forall pow ct cq Z A P J, length ct = 39%nat -> length cq = 47%nat ->
  (exists k, fl_Kt pow ct Z A P J = Ok k) /\ (exists k, fl_Kq pow cq Z A P J = Ok k).
Proof.
  assert (forall pow c s t u v Z A P J fuel i k, (i + fuel <= length c)%nat -> (i + fuel <= length s)%nat -> (i + fuel <= length t)%nat -> (i + fuel <= length u)%nat -> (i + fuel <= length v)%nat ->
    exists r, series_loop pow c s t u v fuel i Z A P J k = Ok r) as G.
  { intros pow c s t u v Z A P J. induction fuel as [|fuel IH]; intros i k Hc Hs Ht Hu Hv; cbn [series_loop]; [eauto|].
    destruct (at_ub_in _ c i ltac:(lia)) as [ci ->]. destruct (at_ub_in _ s i ltac:(lia)) as [si ->]. destruct (at_ub_in _ t i ltac:(lia)) as [ti ->].
    destruct (at_ub_in _ u i ltac:(lia)) as [ui ->]. destruct (at_ub_in _ v i ltac:(lia)) as [vi ->]. cbn [bindO]. apply IH; lia. }
  intros pow ct cq Z A P J Ht Hq. split; unfold fl_Kt, fl_Kq, series; apply G; try (rewrite Ht || rewrite Hq); cbn; lia.
Qed.
Print Assumptions series_in_bounds.

(** A model that was built has a number of blades and an area ratio of the series (or an area ratio that is not a number: YAML's ".nan" is not refused). *)
Theorem wageningen_parameters : forall Z A, wageningen_ctor Z A = Ok tt -> is_nan A = false -> (2 <= Z <= 7)%nat /\ is_finite A = true /\ B2R f0_3 <= B2R A <= B2R f1_05.
Proof.
  intros Z A H N. unfold wageningen_ctor, flt in H. destruct (Z <? 2)%nat eqn:E1; [discriminate|]. destruct (7 <? Z)%nat eqn:E2; [discriminate|]. cbn [orb] in H.
  apply Nat.ltb_ge in E1. apply Nat.ltb_ge in E2. split; [lia|].
  destruct (is_finite A) eqn:F.
  - split; [reflexivity|]. rewrite !Bltb_correct in H by (exact F || reflexivity). destruct (Rlt_bool_spec (B2R A) (B2R f0_3)); [discriminate|]. destruct (Rlt_bool_spec (B2R f1_05) (B2R A)); [discriminate|]. lra.
  - destruct A as [| [|] | |]; try discriminate.
Qed.
Print Assumptions wageningen_parameters.
Theorem wageningen_parameters_converse : forall Z A, wageningen_ctor Z A = Ok tt \/ wageningen_ctor Z A = Throw.
Proof. intros. unfold wageningen_ctor. destruct (_ || _); [right; reflexivity|]. destruct (_ || _); auto. Qed.

Example propeller_witness : (exists J, is_nan J = false /\ saturate J <> J) /\ wageningen_ctor 4 fone = Ok tt /\ wageningen_ctor 8 fone = Throw /\ wageningen_ctor 4 f2PI = Throw /\
  is_nan (fl_advance_ratio fzero fone fone f2PI) = false /\ saturate (fl_advance_ratio fzero fone fone f2PI) = fone /\
  saturate (fl_advance_ratio fzero fone fone (Bopp f2PI)) = fzero /\ saturate (fl_advance_ratio fzero fone fone fzero) = f1_5.
Proof.
  split; [exists f2PI; split; [reflexivity|]; intros E; apply (f_equal B2SF) in E; vm_compute in E; discriminate|].
  do 4 (split; [reflexivity|]). split; [|split]; apply B2SF_inj; vm_compute; reflexivity.
Qed.

(** ** C72: reversing the propeller. [propeller_force] is the model over the reals (Force_Model), with the coefficients of the Wageningen model: functions
    of the saturated advance ratio. A propeller turning astern gives exactly the thrust of the same propeller turning ahead at zero speed. *)
From Verif Require Import Geometry Force_Model.
Theorem reverse_rotation_refuted : forall p K u rpm, 0 < pr_D p -> pr_w p <= 1 -> rpm < 0 -> (forall J, pr_Kt p J = K (Rmax (Rmin J (15 / 10)) 0)) ->
  fst (propeller_force p u rpm) = fst (propeller_force p 0 (- rpm)) /\
  (0 < K 0 -> pr_t p < 1 -> 0 < pr_rho p -> 0 < vx (fst (propeller_force p u rpm))).
Proof.
  intros p K u rpm HD Hw Hr HK. pose proof PI_RGT_0 as P0.
  assert (advance_ratio p u rpm <= 0) as J1.
  { unfold advance_ratio. replace ((1 - pr_w p) * Rabs u / (rpm / (2 * PI)) / pr_D p) with (- (((1 - pr_w p) * Rabs u) * (/ (- rpm) * (2 * PI)) * / pr_D p)) by (field; lra).
    assert (0 <= (1 - pr_w p) * Rabs u * (/ - rpm * (2 * PI)) * / pr_D p); [|lra].
    assert (0 < / - rpm) by (apply Rinv_0_lt_compat; lra). assert (0 < / pr_D p) by (apply Rinv_0_lt_compat; lra). pose proof (Rabs_pos u).
    apply Rmult_le_pos; [|lra]. apply Rmult_le_pos; [apply Rmult_le_pos; lra|]. apply Rmult_le_pos; lra. }
  assert (advance_ratio p 0 (- rpm) = 0) as J2. { unfold advance_ratio. rewrite Rabs_R0. unfold Rdiv. ring. }
  assert (Rmax (Rmin (advance_ratio p u rpm) (15 / 10)) 0 = 0) as E1 by (rewrite Rmin_left by lra; apply Rmax_right; exact J1).
  assert (Rmax (Rmin 0 (15 / 10)) 0 = 0) as E2 by (rewrite Rmin_left by lra; apply Rmax_right; lra).
  unfold propeller_force. cbn [fst]. rewrite !HK, J2, E1, E2. split.
  - replace (- rpm * - rpm) with (rpm * rpm) by ring. reflexivity.
  - intros K0 Ht Hrho. cbn [vx].
    assert (0 < rpm * rpm / (4 * PI * PI)) by (apply Rdiv_lt_0_compat; nra). repeat (apply Rmult_lt_0_compat; try lra).
Qed.
Print Assumptions reverse_rotation_refuted.
(** Turning ahead, the thrust has the sign of the thrust coefficient. *)
Theorem thrust_sign_partial : forall p K u rpm, 0 < pr_D p -> pr_t p < 1 -> 0 < pr_rho p -> rpm <> 0 -> (forall J, pr_Kt p J = K (Rmax (Rmin J (15 / 10)) 0)) ->
  (forall J, 0 <= J <= 15 / 10 -> 0 <= K J) -> 0 <= vx (fst (propeller_force p u rpm)) /\ vy (fst (propeller_force p u rpm)) = 0 /\ vz (fst (propeller_force p u rpm)) = 0.
Proof.
  intros p K u rpm HD Ht Hrho Hr HK HJ. pose proof PI_RGT_0 as P0. unfold propeller_force. cbn [fst vx vy vz]. split; [|split; reflexivity]. rewrite HK.
  apply Rmult_le_pos; [|apply HJ; split; [apply Rmax_r|apply Rmax_lub; [apply Rmin_r|lra]]].
  assert (0 < rpm * rpm / (4 * PI * PI)) by (apply Rdiv_lt_0_compat; nra). left. repeat (apply Rmult_lt_0_compat; try lra).
Qed.
Print Assumptions thrust_sign_partial.
Example reverse_witness : let p := mkProp (1 / 10) 1 (1 / 10) true 2 1000 (fun J => (fun j => 1 / 2 - j / 3) (Rmax (Rmin J (15 / 10)) 0)) (fun _ => 0) in
  0 < pr_D p /\ pr_w p <= 1 /\ (forall J, 0 <= J <= 15 / 10 -> 0 <= 1 / 2 - J / 3) /\ 0 < vx (fst (propeller_force p 3 (- 10))).
Proof.
  intros p. split; [cbn; lra|]. split; [cbn; lra|]. split; [intros; lra|].
  apply (proj2 (reverse_rotation_refuted p (fun j => 1 / 2 - j / 3) 3 (-10) ltac:(cbn; lra) ltac:(cbn; lra) ltac:(lra) ltac:(reflexivity))); cbn; lra.
Qed.
