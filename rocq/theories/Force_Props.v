(** C52-C55 and C64-C67: force models and sum of forces. *)
From Coq Require Import Reals Lra Lia List Permutation Psatz.
From Coquelicot Require Import Coquelicot.
From Verif Require Import Common Geometry Sim_Model Force_Model Force_Spec.
Import ListNotations.
Open Scope R_scope.

Lemma Rltb_t : forall a b, a < b -> Rltb a b = true.
Proof. intros a b H. unfold Rltb. destruct (Rlt_dec a b); [reflexivity|contradiction]. Qed.
Lemma Rltb_f : forall a b, b <= a -> Rltb a b = false.
Proof. intros a b H. unfold Rltb. destruct (Rlt_dec a b); [lra|reflexivity]. Qed.
Lemma Rltb_dec : forall a b, (Rltb a b = true /\ a < b) \/ (Rltb a b = false /\ b <= a).
Proof. intros a b. unfold Rltb. destruct (Rlt_dec a b); [left|right]; split; auto; lra. Qed.

(** ** C52: damping *)
Lemma linear_damping6 : forall D W, positive_semi_definite D -> dot6 (linear_damping D W) W <= 0.
Proof. intros D W H. specialize (H W). unfold form6, dot6, linear_damping, mul6, sum6 in *. lra. Qed.

Lemma quadratic_damping6 : forall D W, non_negative_diagonal D -> dot6 (quadratic_damping D W) W <= 0.
Proof.
  intros D W H. unfold dot6, quadratic_damping, mul6, sum6.
  assert (forall i j, (i < 6)%nat -> (j < 6)%nat -> i <> j -> D i j = 0) as Z by (intros i j Hi Hj N; apply H; assumption).
  repeat match goal with |- context [D ?i ?j] => tryif constr_eq i j then fail else rewrite (Z i j) by lia end.
  assert (forall i, (i < 6)%nat -> 0 <= D i i * (Rabs (W i) * (W i * W i))) as P.
  { intros i Hi. apply Rmult_le_pos; [apply (H i i Hi Hi)|]. apply Rmult_le_pos; [apply Rabs_pos|]. nra. }
  pose proof (P 0%nat ltac:(lia)). pose proof (P 1%nat ltac:(lia)). pose proof (P 2%nat ltac:(lia)). pose proof (P 3%nat ltac:(lia)). pose proof (P 4%nat ltac:(lia)). pose proof (P 5%nat ltac:(lia)). lra.
Qed.
(** The power of the damping wrench, for any velocity and rotation of the body (the velocity that is damped is the one of the origin of the body). *)
Lemma damping_power : forall get D point v omega, w_point (damping get D point v omega) = point /\ power (w_force (damping get D point v omega)) (w_torque (damping get D point v omega)) v omega = dot6 (get D (states6 v omega)) (states6 v omega).
Proof. intros get D point [a b c] [p q r]. unfold damping, damping_wrench, power, dot6, states6, dot. cbn [w_point w_force w_torque vx vy vz]. split; [reflexivity|ring]. Qed.
Theorem linear_damping_dissipates : forall D point v omega, positive_semi_definite D ->
  let w := damping linear_damping D point v omega in w_point w = point /\ power (w_force w) (w_torque w) v omega <= 0.
Proof. intros D point v omega H w. destruct (damping_power linear_damping D point v omega) as (P & E). split; [exact P|]. unfold w. rewrite E. apply linear_damping6. exact H. Qed.
Print Assumptions linear_damping_dissipates.
Theorem quadratic_damping_dissipates : forall D point v omega, non_negative_diagonal D ->
  let w := damping quadratic_damping D point v omega in w_point w = point /\ power (w_force w) (w_torque w) v omega <= 0.
Proof. intros D point v omega H w. destruct (damping_power quadratic_damping D point v omega) as (P & E). split; [exact P|]. unfold w. rewrite E. apply quadratic_damping6. exact H. Qed.
Print Assumptions quadratic_damping_dissipates.

(** With off-diagonal terms the quadratic model may produce power, even if the matrix is symmetric positive semi-definite. *)
Definition coupled_damping : nat -> nat -> R := fun i j => match i, j with 0%nat, 0%nat => 1 | 0%nat, 1%nat => 2 | 1%nat, 0%nat => 2 | 1%nat, 1%nat => 4 | _, _ => 0 end.
Theorem quadratic_damping_full_matrix_refuted : exists D point v omega, positive_semi_definite D /\ (forall i j, D i j = D j i) /\
  let w := damping quadratic_damping D point v omega in 0 < power (w_force w) (w_torque w) v omega.
Proof.
  exists coupled_damping, v0, (V3 1 (- (6 / 10)) 0), v0. split; [|split].
  - intros v. unfold form6, dot6, coupled_damping. cbv beta iota. pose proof (Rle_0_sqr (v 0%nat + 2 * v 1%nat)) as Hsq. unfold Rsqr in Hsq. lra.
  - intros [|[|i]] [|[|j]]; reflexivity.
  - cbv zeta. rewrite (proj2 (damping_power _ _ _ _ _)). unfold dot6, quadratic_damping, mul6, sum6, coupled_damping, states6. cbv beta iota. cbn [vx vy vz]. rewrite (Rabs_right 1), (Rabs_left (- (6 / 10))) by lra. lra.
Qed.
Print Assumptions quadratic_damping_full_matrix_refuted.
Example damping_witness : positive_semi_definite coupled_damping /\ non_negative_diagonal (fun i j => if Nat.eqb i j then INR i else 0) /\
  (let w := damping linear_damping coupled_damping v0 (V3 1 1 1) v0 in power (w_force w) (w_torque w) (V3 1 1 1) v0 < 0) /\
  (let w := damping quadratic_damping (fun i j => if Nat.eqb i j then INR i else 0) v0 v0 (V3 0 (-2) 0) in power (w_force w) (w_torque w) v0 (V3 0 (-2) 0) < 0).
Proof.
  split; [|split; [|split]].
  - intros v. unfold form6, dot6, coupled_damping. cbv beta iota. pose proof (Rle_0_sqr (v 0%nat + 2 * v 1%nat)) as Hsq. unfold Rsqr in Hsq. lra.
  - intros i j Hi Hj. rewrite Nat.eqb_refl. split; [apply pos_INR|]. intros N. apply Nat.eqb_neq in N. rewrite N. reflexivity.
  - cbv zeta. rewrite (proj2 (damping_power _ _ _ _ _)). unfold dot6, linear_damping, mul6, sum6, coupled_damping, states6. cbv beta iota. cbn [vx vy vz v0]. lra.
  - cbv zeta. rewrite (proj2 (damping_power _ _ _ _ _)). unfold dot6, quadratic_damping, mul6, sum6, states6. cbn -[Rabs]. rewrite Rabs_R0, (Rabs_left (-2)) by lra. lra.
Qed.

(** ** C53: controlled forces. The power of the wrench computed at G in the body frame is, for every rigid motion, the power of the original
    wrench: force and torque expressed in the internal frame, applied at the origin of that frame. *)
Theorem controlled_force_power : forall T G F vG omega,
  let (force, torque) := controlled_wrench T G F in
  power force torque vG omega =
  power (fst F) (snd F) (mapply (transpose (t_rot T)) (velocity_at vG omega G (t_point T))) (mapply (transpose (t_rot T)) omega).
Proof. intros [R P] G [f m] v w. unfold controlled_wrench, power, velocity_at. cbn [fst snd t_rot t_point]. vring. Qed.
Print Assumptions controlled_force_power.
(** What is reported in the internal frame is what the model computed. *)
Theorem controlled_force_reported : forall T G F, rotation (t_rot T) -> reported_in_internal_frame T G (controlled_wrench T G F) = F.
Proof.
  intros [R P] G [f m] H. unfold reported_in_internal_frame, controlled_wrench. cbn [fst snd t_rot t_point] in *.
  rewrite rotation_inverse by exact H. f_equal.
  replace (vadd (vadd (mapply R m) (cross (vadd (vopp G) P) (mapply R f))) (cross (vsub G P) (mapply R f))) with (mapply R m) by (clear; generalize (mapply R m) (mapply R f); intros; vring).
  apply rotation_inverse. exact H.
Qed.
Print Assumptions controlled_force_reported.
(** What is reported in the NED frame is the same wrench, about the origin of NED. *)
Theorem controlled_force_reported_in_ned : forall Tbn G tau vG omega, rotation (t_rot Tbn) ->
  let (force, torque) := reported_in_ned_frame Tbn G tau in
  power force torque (mapply (transpose (t_rot Tbn)) (velocity_at vG omega G (t_point Tbn))) (mapply (transpose (t_rot Tbn)) omega)
  = power (fst tau) (snd tau) vG omega.
Proof.
  intros [R P] G [f m] v w H. unfold reported_in_ned_frame, power, velocity_at. cbn [fst snd t_rot t_point] in *.
  rewrite !rotation_dot by (apply rotation_columns; exact H). clear. vring.
Qed.
Print Assumptions controlled_force_reported_in_ned.
Example controlled_witness : let T := mkT (rotz (PI / 2)) (V3 1 2 3) in rotation (t_rot T) /\
  controlled_wrench T (V3 0 0 1) (V3 10 0 0, V3 0 0 5) = (V3 (cos (PI / 2) * 10) (sin (PI / 2) * 10) 0, V3 (- (sin (PI / 2) * 20)) (cos (PI / 2) * 20) (5 + (sin (PI / 2) * 10) - (cos (PI / 2) * 20))).
Proof.
  cbn [t_rot]. split; [apply rotz_rotation|]. unfold controlled_wrench, rotz. cbn [fst snd t_rot t_point]. vec. f_equal; apply vec_eq; cbn [vx vy vz]; ring.
Qed.

(** ** C54: constant force. [T] is body<-frame of the force. The force is right; the torque is right if the frame is that of the body... *)
Theorem constant_force_partial : forall T p f m G, rotation (t_rot T) ->
  fst (constant_force T p f m G) = mapply (t_rot T) f /\
  (t_rot T = id3 -> t_point T = v0 -> snd (constant_force T p f m G) = torque_about G (tapply T p) (mapply (t_rot T) f) (mapply (t_rot T) m)).
Proof.
  intros [R P] p f m G H. unfold constant_force, torque_about, tapply. cbn [fst snd t_rot t_point] in *. split; [reflexivity|]. intros -> ->. rewrite !mapply_id. vring.
Qed.
Print Assumptions constant_force_partial.
(** ... and in general exactly when the vector from the centre of gravity G to the point that has in the frame of the force the coordinates
    of G in the body is parallel to the force. *)
Theorem constant_force_torque_iff : forall T p f m G, rotation (t_rot T) ->
  (snd (constant_force T p f m G) = torque_about G (tapply T p) (mapply (t_rot T) f) (mapply (t_rot T) m) <->
   cross (vsub (tapply T G) G) (mapply (t_rot T) f) = v0).
Proof.
  intros [R P] p f m G H. unfold constant_force, torque_about, tapply. cbn [fst snd t_rot t_point] in *.
  rewrite mapply_add. rewrite (rotation_cross R _ f H). rewrite mapply_add.
  replace (mapply R (vopp G)) with (vopp (mapply R G)) by vring.
  generalize (mapply R G) (mapply R p) (mapply R f) (mapply R m). intros a b c d.
  replace (vadd d (cross (vsub (vadd P b) G) c)) with (vadd (vadd d (cross (vadd (vopp a) b) c)) (cross (vsub (vadd P a) G) c)) by vring.
  split; intros E.
  - assert (forall u w, u = vadd u w -> w = v0) as K. { intros u w K. destruct u as [u1 u2 u3], w as [w1 w2 w3]. vec. injection K as K1 K2 K3. apply vec_eq; cbn [vx vy vz]; lra. }
    apply (K _ _ E).
  - rewrite E. vring.
Qed.
Print Assumptions constant_force_torque_iff.
(** A force of 1000 N to the east applied at the origin of NED on a ship which is 100 m north of it: no torque is computed. *)
Theorem constant_force_refuted : exists T p f m G, rotation (t_rot T) /\
  snd (constant_force T p f m G) <> torque_about G (tapply T p) (mapply (t_rot T) f) (mapply (t_rot T) m).
Proof.
  exists (mkT id3 (V3 (-100) 0 0)), v0, (V3 0 1000 0), v0, v0. split; [apply rotation_id|].
  unfold constant_force, torque_about, tapply. cbn [snd t_rot t_point]. vec. intros E. injection E as _ _ E. lra.
Qed.
Print Assumptions constant_force_refuted.
(** Also with the frame of the body: nothing depends on the position of the ship, as it should. *)
Example constant_force_witness : constant_force (mkT id3 v0) (V3 10 0 0) (V3 0 1000 0) v0 (V3 2 0 0) = (V3 0 1000 0, V3 0 0 8000).
Proof. unfold constant_force. cbn [t_rot t_point]. vec. f_equal; apply vec_eq; cbn [vx vy vz]; ring. Qed.

(** ** C64: gravity is conservative. [Tbn] is body<-NED; v is the velocity of the origin of the body frame, projected in the body frame. *)
Theorem gravity_force : forall Tbn m g, rotation (t_rot Tbn) -> mapply (transpose (t_rot Tbn)) (fst (gravity Tbn m g)) = V3 0 0 (m * g) /\ norm (fst (gravity Tbn m g)) = Rabs (m * g) /\ snd (gravity Tbn m g) = v0.
Proof.
  intros T m g H. unfold gravity. cbn [fst snd]. split; [apply rotation_inverse, H|]. split; [|reflexivity]. rewrite rotation_norm by exact H.
  unfold norm. vec. replace (0 * 0 + 0 * 0 + m * g * (m * g)) with (Rsqr (m * g)) by (unfold Rsqr; ring). apply sqrt_Rsqr_abs.
Qed.
Print Assumptions gravity_force.
(** Whatever the trajectory of the origin of the body frame (its NED coordinates are the first three states), the power of gravity, applied
    at G, should be the opposite of the derivative of the potential energy reported. *)
Definition energy_balance (G : vec3) (Tbn : R -> transform) (m g : R) (x y z : R -> R) (v omega : R -> vec3) (rest : list R) (t : R) : Prop :=
  exists pe, (forall s, gravity_potential_energy m g (x s :: y s :: z s :: rest) = Ok (pe s)) /\
    is_derive pe t (- power (fst (gravity (Tbn t) m g)) (snd (gravity (Tbn t) m g)) (velocity_at (v t) (omega t) v0 G) (omega t)).
(** It is if the centre of gravity is the origin of the body frame. *)
Theorem gravity_is_conservative_partial : forall (Tbn : R -> transform) m g (x y z : R -> R) (v omega : R -> vec3) rest t,
  is_derive z t (vz (mapply (transpose (t_rot (Tbn t))) (v t))) -> energy_balance v0 Tbn m g x y z v omega rest t.
Proof.
  intros Tbn m g x y z v omega rest t Hz. exists (fun s => - m * g * z s). split; [reflexivity|].
  replace (- power (fst (gravity (Tbn t) m g)) (snd (gravity (Tbn t) m g)) (velocity_at (v t) (omega t) v0 v0) (omega t)) with (- m * g * vz (mapply (transpose (t_rot (Tbn t))) (v t))).
  - apply (is_derive_scal z t (- m * g)). exact Hz.
  - unfold gravity, power, velocity_at. cbn [fst snd]. generalize (v t) (omega t) (t_rot (Tbn t)). intros a b r. vring.
Qed.
Print Assumptions gravity_is_conservative_partial.
(** With G elsewhere it is not: the body pitches at 1 rad/s about its origin, which does not move; G, 1 m ahead, goes up and gravity
    works, but the potential energy does not change. *)
Theorem gravity_is_conservative_refuted : exists G (Tbn : R -> transform) m g x y z v omega rest t, (forall s, rotation (t_rot (Tbn s))) /\ is_derive z t (vz (mapply (transpose (t_rot (Tbn t))) (v t))) /\ ~ energy_balance G Tbn m g x y z v omega rest t.
Proof.
  exists (V3 1 0 0), (fun _ => mkT id3 v0), 1, 10, (fun _ => 0), (fun _ => 0), (fun _ => 0), (fun _ => v0), (fun _ => V3 0 1 0), [], 0.
  split; [intros; apply rotation_id|]. split.
  - replace (vz (mapply (transpose (t_rot (mkT id3 v0))) v0)) with 0 by (cbn [t_rot]; vec; ring). apply (@is_derive_const R_AbsRing R_NormedModule).
  - intros (pe & E & D). assert (forall s, pe s = 0) as Z. { intros s. specialize (E s). cbn in E. injection E as E. rewrite <- E. ring. }
    assert (Derive pe 0 = 0) as D0 by (rewrite (Derive_ext pe (fun _ => 0) 0 Z); apply Derive_const).
    apply is_derive_unique in D. rewrite D0 in D. unfold gravity, power, velocity_at in D. cbn [fst snd t_rot] in D. vec. lra.
Qed.
Print Assumptions gravity_is_conservative_refuted.

(** ** C55: heading controller. Pure yaw motion: psi' = r and I r' = N where I is the total yaw inertia, element (5,5). *)
Definition yaw_motion (I : R) (psi r N : R -> R) : Prop := forall t, is_derive psi t (r t) /\ exists a, is_derive r t a /\ I * a = N t.
Definition second_order (ksi omega0 : R) (e : R -> R) : Prop :=
  forall t, Derive (Derive e) t + 2 * ksi * omega0 * Derive e t + omega0 * omega0 * e t = 0.
Lemma second_order_of : forall I ksi Tp psi_co psi r N, I <> 0 -> yaw_motion I psi r N ->
  (forall t, N t = I * (2 * PI / Tp) * (2 * PI / Tp) * (psi_co - psi t) - 2 * ksi * (2 * PI / Tp) * I * r t) ->
  second_order ksi (2 * PI / Tp) (fun t => psi_co - psi t).
Proof.
  intros I ksi Tp pc psi r N HI M HN t.
  assert (forall s, is_derive (fun t => pc - psi t) s (- r s)) as D1.
  { intros s. destruct (M s) as [A _]. replace (- r s) with (0 - r s) by ring. apply (is_derive_minus (fun _ => pc) psi s 0 (r s)); [apply (@is_derive_const R_AbsRing R_NormedModule)|exact A]. }
  assert (forall s, Derive (fun t => pc - psi t) s = - r s) as E1 by (intros s; apply is_derive_unique, D1).
  rewrite (Derive_ext _ _ t E1), E1. destruct (M t) as (_ & a & Da & Ea). rewrite HN in Ea.
  assert (Derive (fun s => - r s) t = - a) as ->. { apply is_derive_unique. apply (is_derive_opp r t a Da). }
  set (w := 2 * PI / Tp) in *. assert (a = w * w * (pc - psi t) - 2 * ksi * w * r t) as -> by (apply (Rmult_eq_reg_l I); [lra|exact HI]). ring.
Qed.
Theorem heading_controller_partial : forall inertia ksi Tp psi_co psi r, inertia 5%nat 5%nat <> 0 -> inertia 2%nat 2%nat = inertia 5%nat 5%nat ->
  yaw_motion (inertia 5%nat 5%nat) psi r (fun t => heading_torque inertia ksi Tp psi_co (psi t) (r t)) ->
  second_order ksi (2 * PI / Tp) (fun t => psi_co - psi t).
Proof. intros I ksi Tp pc psi r HI E M. eapply second_order_of; [exact HI|exact M|]. intros t. unfold heading_torque. rewrite E. reflexivity. Qed.
Print Assumptions heading_controller_partial.
(** The code uses the heave inertia, element (2,2). With a heave inertia four times the yaw inertia, the heading oscillates at twice the
    frequency asked for. *)
Theorem heading_controller_refuted : exists inertia ksi Tp psi_co psi r, inertia 5%nat 5%nat = 1 /\
  yaw_motion (inertia 5%nat 5%nat) psi r (fun t => heading_torque inertia ksi Tp psi_co (psi t) (r t)) /\
  ~ second_order ksi (2 * PI / Tp) (fun t => psi_co - psi t) /\ second_order ksi (2 * (2 * PI / Tp)) (fun t => psi_co - psi t).
Proof.
  exists (fun i j => match i, j with 2%nat, 2%nat => 4 | 5%nat, 5%nat => 1 | _, _ => 0 end), 0, (2 * PI), 0, (fun t => cos (2 * t)), (fun t => - 2 * sin (2 * t)).
  pose proof PI_RGT_0.
  assert (2 * PI / (2 * PI) = 1) as E by (field; lra).
  assert (forall s, Derive (fun t => 0 - cos (2 * t)) s = 2 * sin (2 * s)) as D1 by (intros s; apply is_derive_unique; auto_derive; [auto|ring]).
  assert (forall s, Derive (Derive (fun t => 0 - cos (2 * t))) s = 4 * cos (2 * s)) as D2. { intros s. rewrite (Derive_ext _ _ s D1). apply is_derive_unique. auto_derive; [auto|ring]. }
  split; [reflexivity|]. split; [|split].
  - intros t. split; [auto_derive; [auto|ring]|]. exists (- 4 * cos (2 * t)). split; [auto_derive; [auto|ring]|]. unfold heading_torque. rewrite E. ring.
  - rewrite E. intros S. specialize (S 0). rewrite D1, D2 in S. rewrite Rmult_0_r, cos_0 in S. lra.
  - rewrite E. intros t. rewrite D1, D2. ring.
Qed.
Print Assumptions heading_controller_refuted.
(** Two commands equal modulo 2 pi do not give the same torque: the heading error is not reduced to ]-pi,pi]. *)
Theorem heading_command_modulo_refuted : exists inertia ksi Tp psi_co psi r,
  heading_torque inertia ksi Tp psi_co psi r <> heading_torque inertia ksi Tp (psi_co + 2 * PI) psi r.
Proof.
  exists (fun _ _ => 1), 0, (2 * PI), 0, 0, 0. pose proof PI_RGT_0. unfold heading_torque. replace (2 * PI / (2 * PI)) with 1 by (field; lra). intros E. lra.
Qed.
Print Assumptions heading_command_modulo_refuted.
(** Station keeping: the yaw part uses the yaw inertia. *)
Theorem station_keeping_heading : forall inertia c x_co y_co psi_co x y psi u v r, inertia 5%nat 5%nat <> 0 ->
  yaw_motion (inertia 5%nat 5%nat) psi r (fun t => vz (snd (station_keeping inertia c x_co y_co psi_co (x t) (y t) (psi t) (u t) (v t) (r t)))) ->
  second_order (ksi_psi c) (2 * PI / T_psi c) (fun t => psi_co - psi t).
Proof. intros I c xc yc pc x y psi u v r HI M. eapply second_order_of; [exact HI|exact M|]. intros t. unfold station_keeping. cbn [snd vz]. reflexivity. Qed.
Print Assumptions station_keeping_heading.
(** C65: station keeping in position, motion along the x axis of NED at constant heading psi: x' = u cos psi and I u' = X. Right for psi = 0. *)
Definition surge_motion (I : R) (x u X : R -> R) (psi : R) : Prop := forall t, is_derive x t (cos psi * u t) /\ exists a, is_derive u t a /\ I * a = X t.
Theorem station_keeping_position_partial : forall inertia c x_co y_co psi_co x y u v r, inertia 0%nat 0%nat <> 0 ->
  surge_motion (inertia 0%nat 0%nat) x u (fun t => vx (fst (station_keeping inertia c x_co y_co psi_co (x t) (y t) 0 (u t) (v t) (r t)))) 0 ->
  second_order (ksi_x c) (2 * PI / T_x c) (fun t => x_co - x t).
Proof.
  intros I c xc yc pc x y u v r HI M. eapply (second_order_of (I 0%nat 0%nat) (ksi_x c) (T_x c) xc x u); [exact HI| |].
  - intros t. destruct (M t) as (A & a & B & C). rewrite cos_0, Rmult_1_l in A. split; [exact A|]. exists a. split; [exact B|exact C].
  - intros t. reflexivity.
Qed.
Print Assumptions station_keeping_position_partial.
(** The same in sway: y' = v at zero heading. *)
Theorem station_keeping_sway_partial : forall inertia c x_co y_co psi_co x y u v r, inertia 1%nat 1%nat <> 0 ->
  surge_motion (inertia 1%nat 1%nat) y v (fun t => vy (fst (station_keeping inertia c x_co y_co psi_co (x t) (y t) 0 (u t) (v t) (r t)))) 0 ->
  second_order (ksi_y c) (2 * PI / T_y c) (fun t => y_co - y t).
Proof.
  intros I c xc yc pc x y u v r HI M. eapply (second_order_of (I 1%nat 1%nat) (ksi_y c) (T_y c) yc y v); [exact HI| |].
  - intros t. destruct (M t) as (A & a & B & C). rewrite cos_0, Rmult_1_l in A. split; [exact A|]. exists a. split; [exact B|exact C].
  - intros t. reflexivity.
Qed.
Print Assumptions station_keeping_sway_partial.
(** The controller pushes in the horizontal plane only and yaws only. *)
Theorem station_keeping_planar : forall inertia c x_co y_co psi_co x y psi u v r,
  let F := station_keeping inertia c x_co y_co psi_co x y psi u v r in vz (fst F) = 0 /\ vx (snd F) = 0 /\ vy (snd F) = 0.
Proof. intros. repeat split. Qed.
Print Assumptions station_keeping_planar.
(** But the position error is not projected in the body frame: with a ship heading south (psi = PI), for all parameters of the controller and
    all inertias there is a motion, starting at rest heading-wise and as close as wanted to the set point, that goes away without bound. *)
Theorem station_keeping_position_refuted : forall inertia c x_co y_co eps, 0 < inertia 0%nat 0%nat -> 0 < T_x c -> 0 <= ksi_x c -> 0 < eps ->
  exists x u, surge_motion (inertia 0%nat 0%nat) x u (fun t => vx (fst (station_keeping inertia c x_co y_co PI (x t) y_co PI (u t) 0 0))) PI /\
    x 0 = x_co + eps /\ forall M, exists t, 0 <= t /\ M < x t.
Proof.
  intros I c xc yc eps HI HT Hk He. pose proof PI_RGT_0. set (w := 2 * PI / T_x c).
  assert (0 < w) as Hw by (unfold w; apply Rdiv_lt_0_compat; lra).
  set (k := ksi_x c) in *. set (s := sqrt (k * k + 1)). assert (s * s = k * k + 1) as Hs by (apply sqrt_sqrt; nra). assert (0 <= s) as Hs0 by apply sqrt_pos.
  assert (k < s) as Hks by nra. set (l := w * (s - k)). assert (0 < l) as Hl by (unfold l; apply Rmult_lt_0_compat; lra).
  assert (l * l + 2 * k * w * l - w * w = 0) as Hq.
  { unfold l. transitivity (w * w * (s * s - k * k - 1)); [ring|]. rewrite Hs. ring. }
  exists (fun t => xc + eps * exp (l * t)), (fun t => - (eps * l * exp (l * t))). split; [|split].
  - intros t. rewrite cos_PI. split; [auto_derive; [auto|ring]|]. exists (- (eps * l * l * exp (l * t))). split; [auto_derive; [auto|ring]|].
    unfold station_keeping. cbn [fst vx]. fold w k.
    transitivity (I 0%nat 0%nat * eps * exp (l * t) * (2 * k * w * l - w * w - (l * l + 2 * k * w * l - w * w))); [ring|]. rewrite Hq. ring.
  - rewrite Rmult_0_r, exp_0. ring.
  - intros M. exists (Rabs (M - xc) / (eps * l) ). pose proof (Rabs_pos (M - xc)). assert (0 < eps * l) by (apply Rmult_lt_0_compat; lra). split.
    + apply Rmult_le_pos; [lra|]. left. apply Rinv_0_lt_compat. lra.
    + pose proof (exp_ineq1_le (l * (Rabs (M - xc) / (eps * l)))) as X. replace (l * (Rabs (M - xc) / (eps * l))) with (Rabs (M - xc) / eps) in * by (field; lra).
      assert (eps * (1 + Rabs (M - xc) / eps) <= eps * exp (Rabs (M - xc) / eps)) as Y by (apply Rmult_le_compat_l; lra).
      replace (eps * (1 + Rabs (M - xc) / eps)) with (eps + Rabs (M - xc)) in Y by (field; lra).
      pose proof (Rle_abs (M - xc)). lra.
Qed.
Print Assumptions station_keeping_position_refuted.
Example station_witness : let I := fun i j => if Nat.eqb i j then 1000 else 0 in
  station_keeping I (mkStation 1 (2 * PI) 1 (2 * PI) 1 (2 * PI)) 10 20 0 9 18 0 1 0 0 = (V3 (-1000) 2000 0, V3 0 0 0).
Proof. pose proof PI_RGT_0. unfold station_keeping. cbn. replace (2 * PI / (2 * PI)) with 1 by (field; lra). f_equal; apply vec_eq; cbn [vx vy vz]; ring. Qed.

(** ** C66: linear hydrostatics. No force at the equilibrium in calm water, and a linear restoring force around it. *)
Theorem linear_hydrostatics_calm : forall m z phi theta,
  linear_hydrostatic_force m 0 0 0 0 (lh_z_eq m + z) (lh_phi_eq m + phi) (lh_theta_eq m + theta) =
  let F := mapply (lh_K m) (V3 z phi theta) in (V3 0 0 (- vx F), V3 (- vy F) (- vz F) 0).
Proof.
  intros m z phi theta. unfold linear_hydrostatic_force, compute_zbar, compute_phibar, compute_thetabar. rewrite !Rminus_0_r, atan_0. cbn zeta.
  replace (lh_z_eq m + z - 25 / 100 * (0 + 0 + 0 + 0) - lh_z_eq m) with z by ring. replace (lh_phi_eq m + phi - 5 / 10 * (0 / lh_d12 m + 0 / lh_d34 m) - lh_phi_eq m) with phi by (unfold Rdiv; ring).
  replace (lh_theta_eq m + theta - 5 / 10 * (0 / lh_d24 m + 0 / lh_d13 m) - lh_theta_eq m) with theta by (unfold Rdiv; ring). reflexivity.
Qed.
Print Assumptions linear_hydrostatics_calm.
(** A uniform rise of the sea surface is followed exactly. *)
Theorem linear_hydrostatics_rise : forall m h z phi theta, linear_hydrostatic_force m h h h h (z + h) phi theta = linear_hydrostatic_force m 0 0 0 0 z phi theta.
Proof.
  intros m h z phi theta. unfold linear_hydrostatic_force, compute_zbar, compute_phibar, compute_thetabar. replace (h - h) with 0 by ring. replace (0 - 0) with 0 by ring.
  replace (z + h - 25 / 100 * (h + h + h + h) - lh_z_eq m) with (z - 25 / 100 * (0 + 0 + 0 + 0) - lh_z_eq m) by lra. reflexivity.
Qed.
Print Assumptions linear_hydrostatics_rise.
(** With a heave stiffness [k] not coupled to roll and pitch, the vertical force follows the mean of the elevations at the four points, each with
    the same weight, on any sea surface. *)
Theorem linear_hydrostatics_mean : forall m k z1 z2 z3 z4 z phi theta, r1 (lh_K m) = V3 k 0 0 ->
  fst (linear_hydrostatic_force m z1 z2 z3 z4 z phi theta) = V3 0 0 (- (k * (z - lh_z_eq m - (z1 + z2 + z3 + z4) / 4))).
Proof.
  intros m k z1 z2 z3 z4 z phi theta E. unfold linear_hydrostatic_force. cbn [fst]. unfold mapply, vopp. cbn [vx vy vz]. rewrite E. unfold dot. cbn [vx vy vz].
  unfold compute_zbar. apply vec_eq; cbn [vx vy vz]; [reflexivity|reflexivity|field].
Qed.
Print Assumptions linear_hydrostatics_mean.
Example linear_hydrostatics_mean_case : fst (linear_hydrostatic_force (mkLH (M3 (V3 5 0 0) (V3 0 1 2) (V3 0 3 4)) (V3 1 (-1) 0) (V3 1 1 0) (V3 (-1) (-1) 0) (V3 (-1) 1 0) 1 0 0) 1 2 3 6 5 0 0) = V3 0 0 (-5).
Proof. rewrite (linear_hydrostatics_mean _ 5) by reflexivity. apply vec_eq; cbn; lra. Qed.
(** On a sea surface inclined by the angle alpha about the longitudinal axis, the mean roll angle of the surface is alpha if the points are
    1 m apart... *)
Theorem inclined_sea_partial : forall m alpha z1 z3, - PI / 2 < alpha < PI / 2 -> lh_d12 m = 1 -> lh_d34 m = 1 ->
  compute_phibar m z1 (z1 + lh_d12 m * tan alpha) z3 (z3 + lh_d34 m * tan alpha) = alpha.
Proof.
  intros m a z1 z3 Ha E1 E2. unfold compute_phibar. rewrite E1, E2. replace (z1 + 1 * tan a - z1) with (tan a) by ring. replace (z3 + 1 * tan a - z3) with (tan a) by ring.
  rewrite atan_tan by lra. field.
Qed.
Print Assumptions inclined_sea_partial.
(** The same for a surface inclined about the transverse axis. *)
Theorem inclined_sea_pitch_partial : forall m alpha z3 z4, - PI / 2 < alpha < PI / 2 -> lh_d24 m = 1 -> lh_d13 m = 1 ->
  compute_thetabar m (z3 + lh_d13 m * tan alpha) (z4 + lh_d24 m * tan alpha) z3 z4 = alpha.
Proof.
  intros m a z3 z4 Ha E1 E2. unfold compute_thetabar. rewrite E1, E2. replace (z3 + 1 * tan a - z3) with (tan a) by ring. replace (z4 + 1 * tan a - z4) with (tan a) by ring.
  rewrite atan_tan by lra. field.
Qed.
Print Assumptions inclined_sea_pitch_partial.
(** ... but not otherwise: with points 2 m apart, a ship following a surface inclined by 45 degrees is pushed back by the model. *)
Theorem inclined_sea_refuted : exists m alpha z1 z3, 0 < alpha < PI / 2 /\ 0 < lh_d12 m /\ 0 < lh_d34 m /\ lh_phi_eq m = 0 /\
  compute_phibar m z1 (z1 + lh_d12 m * tan alpha) z3 (z3 + lh_d34 m * tan alpha) <> alpha.
Proof.
  pose proof PI_RGT_0. set (m := mkLH id3 (V3 1 (-1) 0) (V3 1 1 0) (V3 (-1) (-1) 0) (V3 (-1) 1 0) 0 0 0).
  assert (forall a, norm (V3 a (-2) 0) = sqrt (a * a + 4)) as N by (intros a; unfold norm; vec; f_equal; ring).
  assert (sqrt 4 = 2) as S4 by (replace 4 with (2 * 2) by ring; apply sqrt_square; lra).
  assert (lh_d12 m = 2) as D1. { unfold lh_d12, m. cbn [lh_P1 lh_P2]. unfold vsub. cbn [vx vy vz]. replace (1 - 1) with 0 by ring. replace (-1 - 1) with (-2) by ring. replace (0 - 0) with 0 by ring. rewrite N. rewrite Rmult_0_l, Rplus_0_l. exact S4. }
  assert (lh_d34 m = 2) as D2. { unfold lh_d34, m. cbn [lh_P3 lh_P4]. unfold vsub. cbn [vx vy vz]. replace (-1 - -1) with 0 by ring. replace (-1 - 1) with (-2) by ring. replace (0 - 0) with 0 by ring. rewrite N. rewrite Rmult_0_l, Rplus_0_l. exact S4. }
  exists m, (PI / 4), 0, 0. rewrite D1, D2, tan_PI4. split; [lra|]. split; [lra|]. split; [lra|]. split; [reflexivity|].
  unfold compute_phibar. rewrite D1, D2. replace (0 + 2 * 1 - 0) with 2 by ring. pose proof (atan_bound 2). intros E. lra.
Qed.
Print Assumptions inclined_sea_refuted.

(** ** C67: sum of forces at the centre of gravity *)
Lemma fold_torsor : forall l acc, fold_left (fun (acc t : torsor) => (vadd (fst acc) (fst t), vadd (snd acc) (snd t))) l acc =
  (vadd (fst acc) (vsum (map fst l)), vadd (snd acc) (vsum (map snd l))).
Proof.
  induction l as [|[f m] l IH]; intros [F M]; cbn [fold_left map fst snd].
  - cbn [vsum fold_right]. rewrite !vadd_0_r. reflexivity.
  - rewrite IH. cbn [fst snd]. change (vsum (f :: map fst l)) with (vadd f (vsum (map fst l))). change (vsum (m :: map snd l)) with (vadd m (vsum (map snd l))). rewrite !vadd_assoc. reflexivity.
Qed.
(** If every force is given at G, the result is the resultant and the total torque about G. *)
Theorem sum_of_forces_partial : forall cor forces controlled G, (forall w, In w forces -> w_point w = G) ->
  sum_of_forces cor forces controlled =
  (vadd (fst cor) (vadd (vsum (map w_force forces)) (vsum (map fst controlled))),
   vadd (snd cor) (vadd (vsum (map (fun w => torque_about G (w_point w) (w_force w) (w_torque w)) forces)) (vsum (map snd controlled)))).
Proof.
  intros cor fs cs G H. unfold sum_of_forces. rewrite !fold_torsor. cbn [fst snd]. rewrite !map_map. cbn [fst snd]. rewrite <- !vadd_assoc. f_equal. f_equal. f_equal. f_equal.
  apply map_ext_in. intros w Hw. rewrite (H w Hw). unfold torque_about. destruct w as [p f m]. cbn [w_point w_force w_torque]. vring.
Qed.
Print Assumptions sum_of_forces_partial.
(** The damping and resistance models give their wrench at the hydrodynamic calculation point, which the user may choose: its lever arm is lost. *)
Theorem sum_of_forces_refuted : exists D v omega point G, let w := damping linear_damping D point v omega in
  snd (sum_of_forces (v0, v0) [w] []) <> torque_about G point (w_force w) (w_torque w).
Proof.
  exists (fun i j => if Nat.eqb i j then 1 else 0), (V3 0 1 0), v0, (V3 1 0 0), v0. cbv zeta.
  unfold sum_of_forces, torque_about, damping, damping_wrench, linear_damping, mul6, sum6, states6. cbn. vec. intros E. injection E as _ _ E. lra.
Qed.
Print Assumptions sum_of_forces_refuted.
(** The order in which the forces are declared does not matter. *)
Theorem sum_of_forces_order : forall cor f1 f2 c1 c2, Permutation.Permutation f1 f2 -> Permutation.Permutation c1 c2 -> sum_of_forces cor f1 c1 = sum_of_forces cor f2 c2.
Proof.
  assert (forall l l' : list vec3, Permutation.Permutation l l' -> vsum l = vsum l') as P.
  { induction 1; [reflexivity| | |congruence].
    - change (vadd x (vsum l) = vadd x (vsum l')). rewrite IHPermutation. reflexivity.
    - change (vadd y (vadd x (vsum l)) = vadd x (vadd y (vsum l))). rewrite !vadd_assoc, (vadd_comm y x). reflexivity. }
  intros cor f1 f2 c1 c2 Hf Hc. unfold sum_of_forces. rewrite !fold_torsor. cbn [fst snd].
  assert (forall g : torsor -> vec3, vsum (map g (map (fun w => (w_force w, w_torque w)) f1)) = vsum (map g (map (fun w => (w_force w, w_torque w)) f2))) as A by (intros g; apply P, Permutation.Permutation_map, Permutation.Permutation_map, Hf).
  assert (forall g : torsor -> vec3, vsum (map g c1) = vsum (map g c2)) as B by (intros g; apply P, Permutation.Permutation_map, Hc).
  f_equal; (f_equal; [f_equal; apply A|apply B]).
Qed.
Print Assumptions sum_of_forces_order.
(** The torques reported in NED do not add up: those of the controlled forces are about the origin of NED, the total is about G.
    [Tnb] is the rotation from body to NED. *)
Theorem reported_torques_add_up_refuted : exists Tbn G tau, rotation (t_rot Tbn) /\
  snd (reported_in_ned_frame Tbn G tau) <> snd (project_into_ned_frame (transpose (t_rot Tbn)) (sum_of_forces (v0, v0) [] [tau])).
Proof.
  exists (mkT id3 (V3 (-100) 0 0)), v0, (V3 0 1 0, v0). split; [apply rotation_id|].
  unfold reported_in_ned_frame, project_into_ned_frame, sum_of_forces. cbn. vec. intros E. injection E as _ _ E. lra.
Qed.
Print Assumptions reported_torques_add_up_refuted.
Theorem reported_forces_add_up : forall Tbn G forces controlled,
  fst (project_into_ned_frame (transpose (t_rot Tbn)) (sum_of_forces (v0, v0) forces controlled)) =
  vadd (vsum (map (fun w => fst (project_into_ned_frame (transpose (t_rot Tbn)) (w_force w, w_torque w))) forces))
       (vsum (map (fun t => fst (reported_in_ned_frame Tbn G t)) controlled)).
Proof.
  intros T G fs cs. unfold sum_of_forces. rewrite !fold_torsor. unfold project_into_ned_frame, reported_in_ned_frame. cbn [fst snd]. rewrite !map_map. cbn [fst snd].
  rewrite vadd_0_l, mapply_add.
  assert (forall (A : Type) (g : A -> vec3) l, mapply (transpose (t_rot T)) (vsum (map g l)) = vsum (map (fun a => mapply (transpose (t_rot T)) (g a)) l)) as L.
  { induction l as [|a l IH]; cbn [map]; [cbn; vring|]. change (mapply (transpose (t_rot T)) (vadd (g a) (vsum (map g l))) = vadd (mapply (transpose (t_rot T)) (g a)) (vsum (map (fun a => mapply (transpose (t_rot T)) (g a)) l))). rewrite mapply_add, IH. reflexivity. }
  rewrite !L. reflexivity.
Qed.
Print Assumptions reported_forces_add_up.
Example sum_witness : sum_of_forces (v0, V3 1 0 0) [mkW (V3 0 0 1) (V3 1 2 3) v0; mkW (V3 0 0 1) (V3 10 0 0) (V3 0 5 0)] [(V3 0 0 7, V3 1 1 1)] = (V3 11 2 10, V3 2 6 1).
Proof. unfold sum_of_forces. cbn. unfold vadd, v0. cbn. f_equal; apply vec_eq; cbn [vx vy vz]; ring. Qed.
