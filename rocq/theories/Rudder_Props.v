(** C56 and C68-C71: rudder areas, wake, dissipation, mirror symmetry, thrust. *)
From Coq Require Import Reals Lra Lia List Psatz.
From Verif Require Import Common Geometry Sim_Model Force_Model Force_Spec Force_Props.
From Verif Require Wave_Airy_Proofs.
Import ListNotations.
Open Scope R_scope.

(** Parameters a user would give. *)
Definition sensible (m : rudder) : Prop :=
  0 < rd_Ar m /\ 0 < rd_b m /\ 0 < rd_ear m /\ 0 <= rd_lift_coeff m /\ 0 <= rd_drag_coeff m /\ 0 < rd_D m /\ 0 < rd_rho m /\ 0 < rd_nu m.

Lemma Kr_bounds : forall m, 1 / 2 <= rd_Kr m < 1.
Proof.
  intros m. unfold rd_Kr. cbv zeta. set (q := Rabs _). destruct (Rltb_dec 0 q) as [[-> H]|[-> H]]; [|lra].
  assert (0 < 15 / 100 / q) as A by (apply Rdiv_lt_0_compat; lra). set (a := 15 / 100 / q) in *.
  assert (0 < 5 / 10 / (1 + a)) by (apply Rdiv_lt_0_compat; lra).
  assert (5 / 10 / (1 + a) < 5 / 10). { apply (Rmult_lt_reg_r (1 + a)); [lra|]. unfold Rdiv. rewrite Rmult_assoc, Rinv_l by lra. lra. }
  lra.
Qed.
Lemma sqrt_1_le : forall x, 0 <= x -> 1 <= sqrt (1 + x).
Proof. intros x H. rewrite <- sqrt_1 at 1. apply sqrt_le_1_alt. lra. Qed.

(** ** C56: the two areas *)
(** The part of the rudder in the wake and the part outside are areas and share the rudder exactly. *)
Theorem rudder_areas_share : forall m CTh, sensible m -> 0 <= CTh ->
  let (in_wake, outside) := rd_areas m CTh in 0 < in_wake <= rd_Ar m /\ 0 <= outside < rd_Ar m /\ in_wake + outside = rd_Ar m.
Proof.
  intros m c (A & B & _ & _ & _ & D & _) H. unfold rd_areas. cbv zeta. pose proof (sqrt_1_le c H). pose proof (Kr_bounds m).
  set (s := sqrt (1 + c) - 1). assert (0 <= s) by (unfold s; lra).
  assert (0 < (1 + 5 / 10 * s) / (1 + rd_Kr m * s)) as R by (apply Rdiv_lt_0_compat; [lra|nra]).
  pose proof (sqrt_lt_R0 _ R).
  assert (0 < rd_chord m * (rd_D m * sqrt ((1 + 5 / 10 * s) / (1 + rd_Kr m * s)))) as P.
  { apply Rmult_lt_0_compat; [unfold rd_chord; apply Rdiv_lt_0_compat; lra|]. apply Rmult_lt_0_compat; lra. }
  unfold Rmin. destruct (Rle_dec _ _); lra.
Qed.
Print Assumptions rudder_areas_share.

(** The wake is not wider than the propeller and not narrower than a jet fully contracted (its section is at least half the disc). *)
Theorem rudder_wake_area_bounds : forall m CTh, sensible m -> 0 <= CTh ->
  Rmin (rd_Ar m) (rd_chord m * rd_D m * sqrt (1 / 2)) <= fst (rd_areas m CTh) <= Rmin (rd_Ar m) (rd_chord m * rd_D m).
Proof.
  intros m c (A & B & _ & _ & _ & D & _) H. unfold rd_areas. cbv zeta. cbn [fst]. pose proof (sqrt_1_le c H). pose proof (Kr_bounds m).
  set (s := sqrt (1 + c) - 1). assert (0 <= s) by (unfold s; lra).
  assert (0 <= rd_Kr m * s) by nra.
  set (q := (1 + 5 / 10 * s) / (1 + rd_Kr m * s)).
  assert (q * (1 + rd_Kr m * s) = 1 + 5 / 10 * s) as Q by (unfold q; field; lra).
  assert (1 / 2 * s <= rd_Kr m * s) by (apply Rmult_le_compat_r; lra). assert (rd_Kr m * s <= 1 * s) by (apply Rmult_le_compat_r; lra).
  assert (q <= 1) as Q1 by (apply (Rmult_le_reg_r (1 + rd_Kr m * s)); lra). assert (1 / 2 <= q) as Q2 by (apply (Rmult_le_reg_r (1 + rd_Kr m * s)); lra).
  assert (0 < rd_chord m) as C by (unfold rd_chord; apply Rdiv_lt_0_compat; lra).
  assert (0 < rd_chord m * rd_D m) as CD by (apply Rmult_lt_0_compat; lra).
  pose proof (sqrt_le_1_alt _ _ Q1) as S1. rewrite sqrt_1 in S1. pose proof (sqrt_le_1_alt _ _ Q2) as S2.
  rewrite <- Rmult_assoc. set (k := rd_chord m * rd_D m) in *. set (t := sqrt q) in *. set (h := sqrt (1 / 2)) in *.
  assert (k * t <= k) by nra. assert (k * h <= k * t) by nra. clearbody k t h.
  unfold Rmin. repeat destruct (Rle_dec _ _); lra.
Qed.
Print Assumptions rudder_wake_area_bounds.

(** The reduction factor of the speed in the wake is between 1/2 and 1 and decreases with the thrust loading. *)
Theorem rudder_reduction_factor : forall a b, 0 <= a <= b -> 1 / 2 <= rd_RF b <= rd_RF a /\ rd_RF a <= 1.
Proof.
  intros a b H. unfold rd_RF. pose proof (sqrt_pos a). pose proof (sqrt_le_1_alt a b ltac:(lra)).
  assert (forall x, x <= 1371742 / 100000 -> sqrt x <= 100 / 27) as B.
  { intros x Hx. destruct (Rle_dec 0 x); [|rewrite sqrt_neg_0; lra]. apply Rsqr_incr_0_var; [|lra]. rewrite Rsqr_sqrt by assumption. unfold Rsqr. lra. }
  destruct (Rltb_dec (1371742 / 100000) a) as [[-> Ha]|[-> Ha]], (Rltb_dec (1371742 / 100000) b) as [[-> Hb]|[-> Hb]]; try lra.
  - pose proof (B a Ha). lra.
  - pose proof (B b Hb). lra.
Qed.
Print Assumptions rudder_reduction_factor.

(** ** Without thrust the distinction disappears: one rudder of area Ar in the flow (Va, v), if the ship goes ahead. *)
Lemma areas_no_thrust : forall m, 0 < rd_D m -> rd_areas m 0 = (Rmin (rd_Ar m) (rd_chord m * rd_D m), rd_Ar m - Rmin (rd_Ar m) (rd_chord m * rd_D m)).
Proof. intros m D. unfold rd_areas. rewrite Rplus_0_r, sqrt_1. replace ((1 + 5 / 10 * (1 - 1)) / (1 + rd_Kr m * (1 - 1))) with 1 by field. rewrite sqrt_1, Rmult_1_r. reflexivity. Qed.
Lemma wrench_area : forall m b f Vs a1 a2 x y, rd_wrench m b f Vs a1 = Some x -> rd_wrench m b f Vs a2 = Some y ->
  rd_wrench m b f Vs (a1 + a2) = Some (vadd (fst x) (fst y), vadd (snd x) (snd y)).
Proof.
  intros m b f Vs a1 a2 x y. unfold rd_wrench. destruct (rd_Cd m Vs (rd_Cl m (b - f))) as [cd|]; [|discriminate].
  intros X Y. injection X as <-. injection Y as <-. unfold rd_force, rd_lift, rd_drag. cbn [fst snd]. f_equal.
  generalize (rd_translation m). intros tr. f_equal; vring.
Qed.
Lemma wrench_defined : forall m b f Vs a1 a2 x, rd_wrench m b f Vs a1 = Some x -> exists y, rd_wrench m b f Vs a2 = Some y.
Proof. intros m b f Vs a1 a2 x. unfold rd_wrench. destruct (rd_Cd m Vs (rd_Cl m (b - f))); [eauto|discriminate]. Qed.
Theorem rudder_without_thrust : forall m w u v beta t, sensible m -> 0 <= u * (1 - w) -> rudder_force m w u v beta 0 = Some t ->
  rd_wrench m beta (atan2 v (u * (1 - w))) (norm (V3 (u * (1 - w)) v 0)) (rd_Ar m) = Some t.
Proof.
  intros m w u v beta t (A & B & _ & _ & _ & D & R & _) Hu E. unfold rudder_force in E. cbv zeta in E. set (Va := u * (1 - w)) in *.
  assert (rd_CTh m Va 0 = 0) as C. { unfold rd_CTh. rewrite !Rmult_0_r. unfold Rdiv. rewrite !Rmult_0_l. destruct (Rltb _ _); reflexivity. }
  assert (rd_vs_in m 0 Va v 0 = (Va, v)) as V.
  { unfold rd_vs_in, rd_Vchange. rewrite Rmult_0_r. unfold Rdiv at 1. rewrite Rmult_0_l, Rplus_0_r. rewrite sqrt_square by exact Hu.
    unfold rd_RF. rewrite sqrt_0. rewrite Rltb_f by lra. f_equal. ring. }
  rewrite C, V, areas_no_thrust in E by exact D. unfold rd_vs_out in E. cbn [fst snd] in E.
  assert (norm (V3 Va v 0) = sqrt (Va * Va + v * v)) as N by (unfold norm; f_equal; vec; ring). rewrite N.
  set (a := Rmin _ _) in *.
  destruct (rd_wrench m beta _ _ a) as [x|] eqn:X; [|discriminate]. destruct (rd_wrench m beta _ _ (rd_Ar m - a)) as [y|] eqn:Y; [|discriminate].
  pose proof (wrench_area _ _ _ _ _ _ _ _ X Y) as W. rewrite <- E. etransitivity; [|exact W]. f_equal. ring.
Qed.
Print Assumptions rudder_without_thrust.
(** Going astern it does not: the part in the wake sees a flow coming from ahead. *)
Theorem rudder_without_thrust_astern_refuted : exists m w u v, sensible m /\ rd_CTh m (u * (1 - w)) 0 = 0 /\
  u * (1 - w) < 0 /\ 0 < fst (rd_vs_in m 0 (u * (1 - w)) v 0).
Proof.
  exists (mkRudder 1 1 1 1 1 (V3 15 0 0) v0 1 1 1), 0, (-1), 0. split; [unfold sensible; cbn; lra|]. replace (-1 * (1 - 0)) with (-1) by ring. split; [|split; [lra|]].
  - unfold rd_CTh. rewrite !Rmult_0_r. unfold Rdiv. rewrite !Rmult_0_l. destruct (Rltb _ _); reflexivity.
  - unfold rd_vs_in, rd_Vchange. cbn [fst]. rewrite Rmult_0_r. unfold Rdiv at 1. rewrite Rmult_0_l, Rplus_0_r. replace (-1 * -1) with 1 by ring. rewrite sqrt_1.
    unfold rd_RF. rewrite sqrt_0. rewrite Rltb_f by lra. unfold rd_Kr. cbn [vx rd_prop rd_pos rd_D]. cbn [v0 vx]. replace (15 - 0) with 15 by ring. rewrite (Rabs_right 15) by lra.
    replace (15 / 1) with 15 by field. rewrite (Rabs_right 15), Rltb_t by lra. lra.
Qed.
Print Assumptions rudder_without_thrust_astern_refuted.

(** ** C68: dissipation *)
Lemma atan2_polar : forall y x, let V := sqrt (x * x + y * y) in V * cos (atan2 y x) = x /\ V * sin (atan2 y x) = y.
Proof.
  intros y x V. pose proof PI_RGT_0.
  assert (V * V = x * x + y * y) as HV by (apply sqrt_sqrt; nra). assert (0 <= V) as V0 by apply sqrt_pos.
  assert (x <> 0 -> sqrt (1 + (y / x)²) = V / Rabs x) as S.
  { intros Hx. replace (1 + (y / x)²) with ((x * x + y * y) / (x * x)) by (unfold Rsqr; field; assumption). rewrite sqrt_div_alt by nra. f_equal. exact (sqrt_Rsqr_abs x). }
  assert (x <> 0 -> V <> 0) as VN by (intros Hx E; rewrite E in HV; nra).
  unfold atan2. destruct (Rltb_dec 0 x) as [[-> Hx]|[-> Hx]].
  - rewrite cos_atan, sin_atan, S by lra. rewrite Rabs_right by lra. split; field; lra.
  - destruct (Rltb_dec x 0) as [[-> Hx']|[-> Hx']].
    + assert (cos (atan (y / x)) = - x / V /\ sin (atan (y / x)) = - y / V) as [C Sn].
      { rewrite cos_atan, sin_atan, S by lra. rewrite Rabs_left by lra. split; field; lra. }
      destruct (Rltb y 0).
      * rewrite cos_minus, sin_minus, cos_PI, sin_PI, C, Sn. split; field; lra.
      * rewrite neg_cos, neg_sin, C, Sn. split; field; lra.
    + assert (x = 0) by lra. subst x. destruct (Rltb_dec 0 y) as [[-> Hy]|[-> Hy]].
      * rewrite cos_PI2, sin_PI2. split; [ring|]. apply Rsqr_inj; [lra|lra|]. unfold Rsqr. lra.
      * destruct (Rltb_dec y 0) as [[-> Hy']|[-> Hy']].
        -- rewrite cos_neg, sin_neg, cos_PI2, sin_PI2. split; [ring|]. assert (V = - y) by (apply Rsqr_inj; [lra|lra|]; unfold Rsqr; lra). lra.
        -- assert (y = 0) by lra. subst y. assert (V = 0) by nra. rewrite H0. split; ring.
Qed.
Lemma Cd_nonneg : forall m Vs Cl Cd, sensible m -> rd_Cd m Vs Cl = Some Cd -> 0 <= Cd.
Proof.
  intros m Vs Cl Cd (A & B & E & _). unfold rd_Cd. cbv zeta. pose proof PI_RGT_0.
  assert (0 <= 11 / 10 * Cl * Cl / (PI * rd_lambda m)) as P.
  { apply Rmult_le_pos; [nra|]. left. apply Rinv_0_lt_compat. apply Rmult_lt_0_compat; [lra|]. unfold rd_lambda. apply Rdiv_lt_0_compat; [|lra]. apply Rmult_lt_0_compat; [|lra]. apply Rmult_lt_0_compat; lra. }
  destruct (Rltb _ _); [|intros X; injection X as <-; exact P]. set (l := ln _ / ln 10 - 2). destruct (Rltb_dec 0 (l * l)) as [[-> L]|[-> L]]; [|discriminate].
  intros X. injection X as <-. assert (0 < 75 / 1000 / (l * l)) by (apply Rdiv_lt_0_compat; lra). lra.
Qed.
(** Seen from the water, each part of the rudder never produces energy: the force is against the motion (x, y) of the rudder. *)
Theorem rudder_dissipates : forall m beta x y area t, sensible m -> 0 <= area ->
  rd_wrench m beta (atan2 y x) (sqrt (x * x + y * y)) area = Some t -> dot (fst t) (V3 x y 0) <= 0.
Proof.
  intros m beta x y area t M Ha. unfold rd_wrench. destruct (atan2_polar y x) as [Hx Hy]. set (V := sqrt (x * x + y * y)) in *. set (f := atan2 y x) in *.
  destruct (rd_Cd m V (rd_Cl m (beta - f))) as [cd|] eqn:C; [|discriminate]. apply Cd_nonneg in C; [|exact M]. intros E. injection E as <-.
  unfold rd_force. cbn [fst]. generalize (rd_lift m V (rd_Cl m (beta - f)) (beta - f) area). intros L. rewrite <- Hx, <- Hy. clear Hx Hy. vec.
  apply Rle_trans with (- (rd_drag m V cd area * V)).
  - pose proof (sin2_cos2 f) as SC. unfold Rsqr in SC. apply Req_le.
    transitivity (- (rd_drag m V cd area * V) * (sin f * sin f + cos f * cos f)); [ring|]. rewrite SC. ring.
  - destruct M as (_ & _ & _ & _ & Dc & _ & Rh & _). assert (0 <= V) by apply sqrt_pos. unfold rd_drag.
    assert (0 <= 5 / 10 * rd_rho m * area * (V * V) * cd * rd_drag_coeff m * V); [|lra].
    repeat (apply Rmult_le_pos; try assumption; try lra).
Qed.
Print Assumptions rudder_dissipates.
(** In particular the whole rudder behind a stopped propeller, going ahead. *)
Theorem rudder_alone_dissipates : forall m w u v beta t, sensible m -> 0 <= u * (1 - w) -> rudder_force m w u v beta 0 = Some t -> dot (fst t) (V3 (u * (1 - w)) v 0) <= 0.
Proof.
  intros m w u v beta t M Hu E. apply rudder_without_thrust in E; [|exact M|exact Hu].
  assert (norm (V3 (u * (1 - w)) v 0) = sqrt (u * (1 - w) * (u * (1 - w)) + v * v)) as N by (unfold norm; f_equal; vec; ring). rewrite N in E.
  refine (rudder_dissipates m beta _ _ _ _ M _ E). destruct M as (A & _). lra.
Qed.
Print Assumptions rudder_alone_dissipates.

(** ** C69: port-starboard symmetry *)
Lemma atan2_mirror : forall y x, cos (atan2 (- y) x) = cos (atan2 y x) /\ sin (atan2 (- y) x) = - sin (atan2 y x).
Proof.
  intros y x. destruct (atan2_polar y x) as [A B]. destruct (atan2_polar (- y) x) as [C D].
  replace (x * x + - y * - y) with (x * x + y * y) in * by ring. set (V := sqrt (x * x + y * y)) in *.
  destruct (Req_dec V 0) as [E|E].
  - assert (V * V = x * x + y * y) as HV by (apply sqrt_sqrt; nra). rewrite E in HV. assert (x = 0) by nra. assert (y = 0) by nra. subst.
    unfold atan2. rewrite Ropp_0. rewrite (Rltb_f 0 0) by lra. rewrite sin_0. lra.
  - split; apply (Rmult_eq_reg_l V); try exact E; lra.
Qed.
Lemma wrench_mirror : forall m beta y x Vs area t, vy (rd_translation m) = 0 ->
  rd_wrench m beta (atan2 y x) Vs area = Some t ->
  rd_wrench m (- beta) (atan2 (- y) x) Vs area = Some (mirror_force (fst t), mirror_torque (snd t)).
Proof.
  intros m beta y x Vs area t Hy. destruct (atan2_mirror y x) as [C S]. set (f := atan2 y x) in *. set (g := atan2 (- y) x) in *.
  assert (sin (- beta - g) = - sin (beta - f)) as S2 by (rewrite !sin_minus, C, S, sin_neg, cos_neg; ring).
  assert (cos (- beta - g) = cos (beta - f)) as C2 by (rewrite !cos_minus, C, S, sin_neg, cos_neg; ring).
  unfold rd_wrench.
  assert (rd_Cl m (- beta - g) = - rd_Cl m (beta - f)) as -> by (unfold rd_Cl; rewrite S2; ring).
  generalize (rd_Cl m (beta - f)). intros cl. assert (rd_Cd m Vs (- cl) = rd_Cd m Vs cl) as -> by (unfold rd_Cd; replace (11 / 10 * - cl * - cl) with (11 / 10 * cl * cl) by ring; reflexivity).
  destruct (rd_Cd m Vs cl) as [cd|]; [|discriminate]. intros E. injection E as <-.
  unfold rd_force, rd_lift, mirror_force, mirror_torque. cbn [fst snd]. rewrite C2, C, S. f_equal. destruct (rd_translation m) as [a b c]. cbn [vy] in Hy. subst b.
  vec. f_equal; apply vec_eq; cbn [vx vy vz]; ring.
Qed.
(** Turning the rudder the other way while drifting the other way gives the mirror image of the force and of the torque, if the propeller
    and the rudder are in the same longitudinal plane. *)
Theorem rudder_symmetry : forall m w u v beta T t, vy (rd_prop m) = vy (rd_pos m) -> rudder_force m w u v beta T = Some t ->
  rudder_force m w u (- v) (- beta) T = Some (mirror_force (fst t), mirror_torque (snd t)).
Proof.
  intros m w u v beta T t Hy. assert (vy (rd_translation m) = 0) as Ht by (unfold rd_translation, vsub; cbn; lra).
  unfold rudder_force, rd_vs_in, rd_vs_out. cbv zeta. cbn [fst snd]. replace (- v * - v) with (v * v) by ring.
  destruct (rd_areas m _) as [ai ao].
  destruct (rd_wrench m beta _ _ ai) as [a|] eqn:A; [|discriminate]. destruct (rd_wrench m beta _ _ ao) as [b|] eqn:B; [|discriminate].
  intros E. injection E as <-. rewrite (wrench_mirror _ _ _ _ _ _ _ Ht A), (wrench_mirror _ _ _ _ _ _ _ Ht B). cbn [fst snd].
  unfold mirror_force, mirror_torque, vadd. cbn [vx vy vz]. do 2 f_equal; apply vec_eq; cbn [vx vy vz]; ring.
Qed.
Print Assumptions rudder_symmetry.

(** No transverse force without drift and with the rudder amidships. *)
Theorem rudder_amidships : forall m w u T t, vy (rd_prop m) = vy (rd_pos m) -> rudder_force m w u 0 0 T = Some t ->
  vy (fst t) = 0 /\ vx (snd t) = 0 /\ vz (snd t) = 0.
Proof.
  intros m w u T t Hy E. pose proof (rudder_symmetry m w u 0 0 T t Hy E) as M. rewrite Ropp_0, E in M. injection M as M.
  destruct t as [[a b c] [d e f]]. unfold mirror_force, mirror_torque in M. cbn [fst snd vx vy vz] in *. injection M as M1 M2 M3. lra.
Qed.
Print Assumptions rudder_amidships.

(** ** C70: the thrust seen by the rudder *)
(** If the propeller has no torque, the rudder works in the wake of the propeller thrust (in absolute value: reverse thrust is not distinguished). *)
Theorem rudder_sees_the_thrust_partial : forall p m u v rpm beta, pr_Kq p (advance_ratio p u rpm) = 0 ->
  propeller_and_rudder p m u v rpm beta =
  match rudder_force m (pr_w p) u v beta (Rabs (vx (fst (propeller_force p u rpm)))) with
  | None => None
  | Some rf => Some (vadd (fst rf) (fst (propeller_force p u rpm)), vadd (snd rf) (snd (propeller_force p u rpm)))
  end.
Proof.
  intros p m u v rpm beta K. unfold propeller_and_rudder. assert (norm6 (propeller_force p u rpm) = Rabs (vx (fst (propeller_force p u rpm)))) as ->; [|reflexivity].
  unfold norm6, propeller_force. cbn [fst snd vx]. rewrite K. vec. rewrite <- sqrt_Rsqr_abs. f_equal. unfold Rsqr. ring.
Qed.
Print Assumptions rudder_sees_the_thrust_partial.

Definition bollard_rudder : rudder := mkRudder 1 (1 / 2) 4 1 0 v0 v0 1 1 2.
Lemma bollard_sensible : sensible bollard_rudder.
Proof. unfold sensible, bollard_rudder. cbn. lra. Qed.
(** At bollard pull, with a rudder angle of 45 degrees, the transverse force is proportional to the thrust given to the rudder model. *)
Lemma bollard : forall T, 1 <= T <= 10 -> exists t, rudder_force bollard_rudder 0 0 0 (PI / 4) T = Some t /\ vy (fst t) = T / 18.
Proof.
  intros T HT. assert (0 < PI) as P0 by apply PI_RGT_0. assert (PI <= 4) as P4 by apply PI_4.
  set (m := bollard_rudder). assert (rd_Kr m = 1 / 2) as K.
  { unfold rd_Kr, m, bollard_rudder. cbn [rd_prop rd_pos rd_D]. cbn [v0 vx]. replace (0 - 0) with 0 by ring. rewrite Rabs_R0. unfold Rdiv at 2. rewrite Rmult_0_l, Rabs_R0, Rltb_f by lra. lra. }
  unfold rudder_force. cbv zeta. replace (0 * (1 - 0)) with 0 by ring.
  assert (rd_CTh m 0 T = 800000000000000000000 / PI * T) as C.
  { unfold rd_CTh. cbv zeta. rewrite Rmult_0_r, Rabs_R0, Rltb_t by lra. unfold m, bollard_rudder. cbn [rd_rho]. field. lra. }
  set (c := rd_CTh m 0 T) in *.
  assert (0 < / PI) as I0 by (apply Rinv_0_lt_compat; lra).
  assert (/ 4 <= / PI) as I4 by (apply Rinv_le_contravar; lra).
  assert (20 < c) as Hc. { rewrite C. unfold Rdiv. assert (/ 4 * 1 <= / PI * T) by (apply Rmult_le_compat; lra). nra. }
  assert (rd_areas m c = (1, 0)) as ->.
  { unfold rd_areas. cbv zeta. rewrite K. pose proof (sqrt_1_le c ltac:(lra)). replace ((1 + 5 / 10 * (sqrt (1 + c) - 1)) / (1 + 1 / 2 * (sqrt (1 + c) - 1))) with 1 by (field; lra).
    rewrite sqrt_1. unfold m, bollard_rudder, rd_chord. cbn [rd_Ar rd_b rd_D]. replace (1 / (1 / 2) * (1 * 1)) with 2 by field. rewrite Rmin_left by lra. f_equal. ring. }
  set (q := sqrt (8 / PI * T)). assert (0 < 8 / PI * T) as Q0 by (unfold Rdiv; nra). assert (0 < q) as Qp by (apply sqrt_lt_R0; exact Q0). assert (q * q = 8 / PI * T) as QQ by (apply sqrt_sqrt; lra).
  assert (rd_vs_in m c 0 0 T = (q / 4, 0)) as ->.
  { unfold rd_vs_in, rd_Vchange. rewrite K. unfold rd_RF. rewrite Rltb_t by lra. unfold m, bollard_rudder. cbn [rd_rho rd_D]. replace (0 * 0 + 8 / PI * T / (1 * (1 * 1))) with (8 / PI * T) by (field; lra). fold q. f_equal. lra. }
  unfold rd_vs_out. cbn [fst snd].
  assert (atan2 0 (q / 4) = 0) as ->. { unfold atan2. rewrite Rltb_t by lra. replace (0 / (q / 4)) with 0 by (field; lra). apply atan_0. }
  assert (atan2 0 0 = 0) as ->. { unfold atan2. rewrite (Rltb_f 0 0) by lra. reflexivity. }
  replace (q / 4 * (q / 4) + 0 * 0) with (Rsqr (q / 4)) by (unfold Rsqr; ring). rewrite sqrt_Rsqr by lra. replace (0 * 0 + 0 * 0) with 0 by ring. rewrite sqrt_0.
  unfold rd_wrench. rewrite Rminus_0_r. set (cl := rd_Cl m (PI / 4)).
  assert (q / 4 < 3) as Qb. { apply Rsqr_incrst_0; [|lra|lra]. unfold Rsqr. replace (q / 4 * (q / 4)) with (q * q / 16) by field. rewrite QQ. assert (/ PI < / 3) by (apply Rinv_lt_contravar; [lra|]; pose proof Wave_Airy_Proofs.PI_gt_3; lra). unfold Rdiv. assert (/ PI * T <= / 3 * 10) by (apply Rmult_le_compat; lra). nra. }
  assert (exists cd, rd_Cd m (q / 4) cl = Some cd) as [cd ->].
  { unfold rd_Cd. cbv zeta. replace (q / 4 * rd_chord m / rd_nu m) with (q / 4) by (unfold m, bollard_rudder, rd_chord; cbn [rd_Ar rd_b rd_nu]; field). rewrite Rltb_t by lra.
    assert (ln (q / 4) / ln 10 - 2 < 0) as L.
    { assert (ln 1 < ln 10) as L10 by (apply ln_increasing; lra). rewrite ln_1 in L10. assert (ln (q / 4) < ln 10) as Lq by (apply ln_increasing; lra).
      assert (ln (q / 4) / ln 10 < 1); [|lra]. apply (Rmult_lt_reg_r (ln 10)); [lra|]. unfold Rdiv. rewrite Rmult_assoc, Rinv_l by lra. lra. }
    rewrite Rltb_t by nra. eauto. }
  assert (exists cd', rd_Cd m 0 cl = Some cd') as [cd' ->].
  { unfold rd_Cd. cbv zeta. replace (0 * rd_chord m / rd_nu m) with 0 by (unfold Rdiv; ring). rewrite Rltb_f by lra. eauto. }
  eexists. split; [reflexivity|]. unfold rd_force, rd_lift, rd_drag. cbn [fst vadd vy]. rewrite sin_0, cos_0. unfold cl, rd_Cl, m, bollard_rudder, rd_lambda. cbn [rd_rho rd_lift_coeff rd_drag_coeff rd_ear rd_b rd_Ar].
  assert (sin (PI / 4) * cos (PI / 4) = 1 / 2) as SC by (rewrite sin_PI4, cos_PI4; assert (sqrt 2 * sqrt 2 = 2) by (apply sqrt_sqrt; lra); assert (sqrt 2 <> 0) by (intros E; rewrite E in *; lra); replace (1 / sqrt 2 * (1 / sqrt 2)) with (1 / (sqrt 2 * sqrt 2)) by (field; assumption); rewrite H; reflexivity).
  transitivity (q * q * PI / 72 * (sin (PI / 4) * cos (PI / 4))); [field|]. rewrite SC, QQ. field. lra.
Qed.
(** Two propellers with the same thrust and different torques: the rudder does not see the same wake, because the norm of the whole vector of
    forces and torques (newtons and newton metres together) is used as the thrust. *)
Theorem rudder_sees_the_thrust_refuted : exists p q m u v rpm beta a b, sensible m /\ fst (propeller_force p u rpm) = fst (propeller_force q u rpm) /\
  propeller_and_rudder p m u v rpm beta = Some a /\ propeller_and_rudder q m u v rpm beta = Some b /\ vy (fst a) <> vy (fst b).
Proof.
  pose proof PI_RGT_0 as P0.
  set (p := fun kq => mkProp 0 1 0 false 1 1 (fun _ => 3) (fun _ => kq)).
  assert (forall kq, propeller_force (p kq) 0 (2 * PI) = (V3 3 0 0, V3 kq 0 0)) as F.
  { intros kq. unfold propeller_force, p. cbn [pr_t pr_rho pr_D pr_Kt pr_Kq pr_clockwise pr_etaR]. replace (2 * PI * (2 * PI) / (4 * PI * PI)) with 1 by (field; lra). f_equal; apply vec_eq; cbn [vx vy vz]; ring. }
  assert (norm6 (V3 3 0 0, V3 0 0 0) = 3) as N3. { unfold norm6. cbn [fst snd]. vec. replace (3 * 3 + 0 * 0 + 0 * 0 + (0 * 0 + 0 * 0 + 0 * 0)) with (3 * 3) by ring. apply sqrt_square. lra. }
  assert (norm6 (V3 3 0 0, V3 4 0 0) = 5) as N5. { unfold norm6. cbn [fst snd]. vec. replace (3 * 3 + 0 * 0 + 0 * 0 + (4 * 4 + 0 * 0 + 0 * 0)) with (5 * 5) by ring. apply sqrt_square. lra. }
  destruct (bollard 3) as (a & Ea & Ya); [lra|]. destruct (bollard 5) as (b & Eb & Yb); [lra|].
  exists (p 0), (p 4), bollard_rudder, 0, 0, (2 * PI), (PI / 4). unfold propeller_and_rudder. rewrite !F, N3, N5. cbn [pr_w p]. rewrite Ea, Eb.
  eexists. eexists. split; [exact bollard_sensible|]. split; [reflexivity|]. split; [reflexivity|]. split; [reflexivity|]. cbn [fst snd vadd vy]. rewrite Ya, Yb. lra.
Qed.
Print Assumptions rudder_sees_the_thrust_refuted.

(** C71: the drag has no bound, even at bounded speed: the friction line has a pole at a Reynolds number of 100. *)
Theorem rudder_drag_bounded_refuted : forall m K, sensible m -> 0 < rd_drag_coeff m ->
  exists Vs Cd, 0 < Vs /\ Vs * rd_chord m / rd_nu m <= 1000 /\ rd_Cd m Vs 0 = Some Cd /\ K < rd_drag m Vs Cd (rd_Ar m).
Proof.
  intros m K M Dc. pose proof M as (A & B & E & _ & _ & D & Rh & Nu).
  assert (0 < rd_chord m) as C by (unfold rd_chord; apply Rdiv_lt_0_compat; lra).
  set (h := 5 / 10 * rd_rho m * rd_Ar m). assert (0 < h) as Hh by (unfold h; apply Rmult_lt_0_compat; [lra|exact A]).
  set (V1 := 100 * rd_nu m / rd_chord m). assert (0 < V1) as HV1 by (unfold V1; apply Rdiv_lt_0_compat; lra).
  set (G := h * (V1 * V1) * rd_drag_coeff m). assert (0 < G) as HG by (unfold G; apply Rmult_lt_0_compat; [|assumption]; apply Rmult_lt_0_compat; [assumption|]; apply Rmult_lt_0_compat; assumption).
  set (N := 10 + 10 * (Rabs K / G)). assert (0 <= Rabs K / G) as HK by (apply Rmult_le_pos; [apply Rabs_pos|left; apply Rinv_0_lt_compat; exact HG]).
  assert (10 <= N) as HN by (unfold N; lra). assert (0 < / N <= / 10) as HI by (split; [apply Rinv_0_lt_compat; lra|apply Rinv_le_contravar; lra]).
  assert (0 < ln 10) as L10 by (rewrite <- ln_1; apply ln_increasing; lra).
  set (Rn := exp (ln 10 * (2 + / N))).
  assert (100 <= Rn <= 1000) as HR.
  { assert (exp (ln 10 * 2) = 100) as E2 by (replace (ln 10 * 2) with (ln 10 + ln 10) by ring; rewrite exp_plus, exp_ln by lra; ring).
    assert (exp (ln 10 * 3) = 1000) as E3 by (replace (ln 10 * 3) with (ln 10 + ln 10 + ln 10) by ring; rewrite !exp_plus, exp_ln by lra; ring).
    assert (forall a b, a <= b -> exp a <= exp b) as Em by (intros a b [X|X]; [left; apply exp_increasing; exact X|rewrite X; right; reflexivity]).
    rewrite <- E2, <- E3. split; apply Em; apply Rmult_le_compat_l; lra. }
  exists (Rn * rd_nu m / rd_chord m). assert (Rn * rd_nu m / rd_chord m * rd_chord m / rd_nu m = Rn) as RR by (field; lra).
  assert (ln Rn = ln 10 * (2 + / N)) as LR by (unfold Rn; apply ln_exp).
  unfold rd_Cd. rewrite RR. rewrite Rltb_t by lra. rewrite LR. replace (ln 10 * (2 + / N) / ln 10 - 2) with (/ N) by (field; lra).
  rewrite Rltb_t by nra. eexists. split; [apply Rdiv_lt_0_compat; nra|]. split; [lra|]. split; [reflexivity|].
  unfold rd_drag. fold h. replace (25 / 10 * (75 / 1000 / (/ N * / N))) with (3 / 16 * (N * N)) by (field; lra). replace (11 / 10 * 0 * 0 / (PI * rd_lambda m)) with 0 by (unfold Rdiv; ring). rewrite Rplus_0_l.
  set (V := Rn * rd_nu m / rd_chord m). assert (V1 <= V) as HV. { unfold V1, V, Rdiv. apply Rmult_le_compat_r; [left; apply Rinv_0_lt_compat; exact C|]. apply Rmult_le_compat_r; lra. }
  assert (V1 * V1 <= V * V) as VV by (apply Rmult_le_compat; lra).
  assert (G <= h * (V * V) * rd_drag_coeff m) as GG. { unfold G. apply Rmult_le_compat_r; [lra|]. apply Rmult_le_compat_l; lra. }
  assert (N <= 3 / 16 * (N * N)) as NN by nra.
  assert (G * N <= h * (V * V) * rd_drag_coeff m * (3 / 16 * (N * N))) as Z by (apply Rmult_le_compat; lra).
  assert (G * N = 10 * G + 10 * Rabs K) as GN by (unfold N; field; lra). pose proof (Rle_abs K). pose proof (Rabs_pos K).
  replace (h * (V * V) * (3 / 16 * (N * N)) * rd_drag_coeff m) with (h * (V * V) * rd_drag_coeff m * (3 / 16 * (N * N))) by ring. lra.
Qed.
Print Assumptions rudder_drag_bounded_refuted.

(** A concrete case meets the hypotheses above. *)
Example rudder_witness : sensible bollard_rudder /\ vy (rd_prop bollard_rudder) = vy (rd_pos bollard_rudder) /\
  exists t, rudder_force bollard_rudder 0 0 0 (PI / 4) 3 = Some t /\ vy (fst t) = 1 / 6.
Proof. split; [exact bollard_sensible|]. split; [reflexivity|]. destruct (bollard 3) as (t & E & Y); [lra|]. exists t. split; [exact E|]. lra. Qed.

(** ** C106: similitude. Multiplying all the speeds by k multiplies the thrust and the lift by k^2. *)
Lemma atan2_scale : forall k y x, 0 < k -> atan2 (k * y) (k * x) = atan2 y x.
Proof.
  intros k y x Hk. unfold atan2. assert (forall z, Rltb 0 (k * z) = Rltb 0 z) as P. { intros z. destruct (Rltb_dec 0 z) as [[-> H]|[-> H]]; [apply Rltb_t; nra|apply Rltb_f; nra]. }
  assert (forall z, Rltb (k * z) 0 = Rltb z 0) as N. { intros z. destruct (Rltb_dec z 0) as [[-> H]|[-> H]]; [apply Rltb_t; nra|apply Rltb_f; nra]. }
  rewrite !P, !N. assert (x <> 0 -> k * y / (k * x) = y / x) as Q by (intros; field; split; lra).
  destruct (Rltb_dec 0 x) as [[-> H]|[-> H]]; [rewrite Q by lra; reflexivity|]. destruct (Rltb_dec x 0) as [[-> H']|[-> H']]; [rewrite Q by lra; reflexivity|]. reflexivity.
Qed.
Lemma sqrt_scale : forall k z, 0 < k -> sqrt (k * k * z) = k * sqrt z.
Proof. intros k z Hk. rewrite sqrt_mult_alt by nra. rewrite sqrt_square by lra. reflexivity. Qed.
Lemma wrench_scale : forall m beta angle k V area a b, 0 < k -> rd_drag_coeff m = 0 -> rd_wrench m beta angle V area = Some a -> rd_wrench m beta angle (k * V) area = Some b ->
  b = (vscale (k * k) (fst a), vscale (k * k) (snd a)).
Proof.
  intros m beta angle k V area a b Hk Hd. unfold rd_wrench. set (al := beta - angle). destruct (rd_Cd m V (rd_Cl m al)) as [c1|]; [|discriminate]. destruct (rd_Cd m (k * V) (rd_Cl m al)) as [c2|]; [|discriminate].
  intros E1 E2. injection E1 as <-. injection E2 as <-. unfold rd_force, rd_drag. rewrite Hd. cbn [fst snd]. unfold rd_lift. set (t := rd_translation m). destruct t as [tx ty tz].
  f_equal; apply vec_eq; unfold vscale, vopp, cross; cbn [vx vy vz]; ring.
Qed.
(** The hypothesis on the speed excludes the numerical safeguard of the code for speeds below 1e-10 m/s. *)
Theorem rudder_lift_scales_with_the_square_of_the_speed : forall m w u v beta T k a b, 1 <= k -> rd_drag_coeff m = 0 -> 1 / 10000000000 <= Rabs (rd_D m * (u * (1 - w))) ->
  rudder_force m w u v beta T = Some a -> rudder_force m w (k * u) (k * v) beta (k * k * T) = Some b -> b = (vscale (k * k) (fst a), vscale (k * k) (snd a)).
Proof.
  intros m w u v beta T k a b Hk1 Hd Hv E1 E2. assert (0 < k) as Hk by lra.
  assert (rd_CTh m (k * u * (1 - w)) (k * k * T) = rd_CTh m (u * (1 - w)) T) as C.
  { unfold rd_CTh. rewrite (Rltb_f (Rabs (rd_D m * (u * (1 - w))))) by lra. rewrite Rltb_f.
    - set (V := u * (1 - w)) in *. replace (k * u * (1 - w)) with (k * V) by (unfold V; ring). replace (rd_D m * (k * V) * (rd_D m * (k * V))) with (k * k * (rd_D m * V * (rd_D m * V))) by ring.
      assert (rd_D m * V <> 0) as N. { intros E. rewrite E, Rabs_R0 in Hv. lra. } assert (rd_D m <> 0 /\ V <> 0) as (N1 & N2) by (split; intros E; apply N; rewrite E; ring).
      destruct (Req_dec (rd_rho m) 0) as [E|Nr].
      + rewrite E, !Rmult_0_l. unfold Rdiv. rewrite Rinv_0. ring.
      + pose proof PI_RGT_0. field. repeat split; try assumption; lra.
    - replace (rd_D m * (k * u * (1 - w))) with (k * (rd_D m * (u * (1 - w)))) by ring. rewrite Rabs_mult, (Rabs_right k) by lra. nra. }
  revert E1 E2. unfold rudder_force. rewrite C. cbv zeta. set (c := rd_CTh m (u * (1 - w)) T). destruct (rd_areas m c) as (ai & ao).
  assert (rd_vs_in m c (k * u * (1 - w)) (k * v) (k * k * T) = (k * fst (rd_vs_in m c (u * (1 - w)) v T), k * snd (rd_vs_in m c (u * (1 - w)) v T))) as ->.
  { unfold rd_vs_in. cbn [fst snd]. f_equal. unfold rd_Vchange. set (V := u * (1 - w)). replace (k * u * (1 - w)) with (k * V) by (unfold V; ring).
    replace (k * V * (k * V) + 8 / PI * (k * k * T) / (rd_rho m * (rd_D m * rd_D m))) with (k * k * (V * V + 8 / PI * T / (rd_rho m * (rd_D m * rd_D m)))) by (unfold Rdiv; ring).
    rewrite sqrt_scale by exact Hk. ring. }
  assert (rd_vs_out (k * u * (1 - w)) (k * v) = (k * fst (rd_vs_out (u * (1 - w)) v), k * snd (rd_vs_out (u * (1 - w)) v))) as ->. { unfold rd_vs_out. cbn [fst snd]. f_equal. ring. }
  cbn [fst snd]. set (vi := rd_vs_in m c (u * (1 - w)) v T). set (vo := rd_vs_out (u * (1 - w)) v).
  rewrite !atan2_scale by exact Hk. assert (forall x y, sqrt (k * x * (k * x) + k * y * (k * y)) = k * sqrt (x * x + y * y)) as N by (intros x y; rewrite <- sqrt_scale by exact Hk; f_equal; ring).
  rewrite !N.
  destruct (rd_wrench m beta (atan2 (snd vi) (fst vi)) (sqrt (fst vi * fst vi + snd vi * snd vi)) ai) as [a1|] eqn:A1; [|discriminate].
  destruct (rd_wrench m beta (atan2 (snd vo) (fst vo)) (sqrt (fst vo * fst vo + snd vo * snd vo)) ao) as [a2|] eqn:A2; [|discriminate].
  destruct (rd_wrench m beta (atan2 (snd vi) (fst vi)) (k * sqrt (fst vi * fst vi + snd vi * snd vi)) ai) as [b1|] eqn:B1; [|discriminate].
  destruct (rd_wrench m beta (atan2 (snd vo) (fst vo)) (k * sqrt (fst vo * fst vo + snd vo * snd vo)) ao) as [b2|] eqn:B2; [|discriminate].
  intros E1 E2. injection E1 as <-. injection E2 as <-. rewrite (wrench_scale m beta _ k _ ai a1 b1 Hk Hd A1 B1), (wrench_scale m beta _ k _ ao a2 b2 Hk Hd A2 B2). cbn [fst snd].
  f_equal; apply vec_eq; unfold vscale, vadd; cbn [vx vy vz]; ring.
Qed.
Print Assumptions rudder_lift_scales_with_the_square_of_the_speed.
Theorem propeller_scales_with_the_square_of_the_speed : forall p u rpm k, 0 < k -> rpm <> 0 ->
  propeller_force p (k * u) (k * rpm) = (vscale (k * k) (fst (propeller_force p u rpm)), vscale (k * k) (snd (propeller_force p u rpm))).
Proof.
  intros p u rpm k Hk Hr. unfold propeller_force. assert (advance_ratio p (k * u) (k * rpm) = advance_ratio p u rpm) as ->.
  { unfold advance_ratio. rewrite Rabs_mult, (Rabs_right k) by lra. pose proof PI_RGT_0. unfold Rdiv. f_equal. rewrite !Rinv_mult, !Rinv_inv. field. split; lra. }
  cbv zeta. cbn [fst snd]. unfold vscale. cbn [vx vy vz]. f_equal; apply vec_eq; cbn [vx vy vz]; try ring; unfold Rdiv; ring.
Qed.
Print Assumptions propeller_scales_with_the_square_of_the_speed.
(** A rudder, without drag, that meets the hypotheses *)
Example rudder_scale_case : exists m a b, rudder_force m 0 1 0 (PI / 4) 0 = Some a /\ rudder_force m 0 2 0 (PI / 4) 0 = Some b /\ rd_drag_coeff m = 0 /\ 1 / 10000000000 <= Rabs (rd_D m * (1 * (1 - 0))).
Proof.
  set (m := mkRudder 1 1 1 1 0 (V3 15 0 0) v0 1 1 1). exists m.
  assert (forall V c, V = 1 \/ V = 2 -> exists d, rd_Cd m V c = Some d) as D.
  { intros V c HV. unfold rd_Cd. cbv zeta. unfold rd_chord, m. cbn [rd_Ar rd_b rd_nu]. replace (V * (1 / 1) / 1) with V by field. rewrite Rltb_t by lra.
    assert (ln V / ln 10 < 1) as L. { assert (0 < ln 10) by (rewrite <- ln_1; apply ln_increasing; lra). apply (Rmult_lt_reg_r (ln 10)); [assumption|]. unfold Rdiv. rewrite Rmult_assoc, Rinv_l by lra. rewrite Rmult_1_l, Rmult_1_r. apply ln_increasing; lra. }
    rewrite Rltb_t by nra. eexists. reflexivity. }
  assert (forall u, u = 1 \/ u = 2 -> exists t, rudder_force m 0 u 0 (PI / 4) 0 = Some t) as F.
  { intros u Hu. unfold rudder_force. cbv zeta. assert (rd_CTh m (u * (1 - 0)) 0 = 0) as ->. { unfold rd_CTh. rewrite !Rmult_0_r. unfold Rdiv. rewrite !Rmult_0_l. destruct (Rltb _ _); reflexivity. }
    destruct (rd_areas m 0) as (ai & ao). assert (rd_vs_in m 0 (u * (1 - 0)) 0 0 = (u, 0)) as ->.
    { unfold rd_vs_in, rd_Vchange. rewrite Rmult_0_r. unfold Rdiv at 1. rewrite Rmult_0_l, Rplus_0_r. replace (u * (1 - 0)) with u by ring. rewrite sqrt_square by lra. unfold rd_RF. rewrite sqrt_0, Rltb_f by lra. f_equal. ring. }
    unfold rd_vs_out. cbn [fst snd]. replace (u * (1 - 0)) with u by ring. replace (u * u + 0 * 0) with (u * u) by ring. rewrite sqrt_square by lra.
    unfold rd_wrench. cbv zeta. match goal with |- context [rd_Cd m u ?c] => destruct (D u c Hu) as (d & ->) end. eexists. reflexivity. }
  destruct (F 1 (or_introl eq_refl)) as (a & Ea). destruct (F 2 (or_intror eq_refl)) as (b & Eb). exists a, b. split; [exact Ea|]. split; [exact Eb|]. split; [reflexivity|].
  cbn. rewrite Rabs_right; lra.
Qed.
