(** C112-C114. The force model "GM". *)
From Coq Require Import Reals Lra List Permutation.
From Coquelicot Require Import Coquelicot.
From Verif Require Import Common Grpc_Spec Attitude_Props Rudder_Props Force_Model Gz_Model Builder_Model Builder_Attitude_Proofs Builder_Props Geometry Gm_Model.
Import ListNotations.
Open Scope R_scope.

(** The angles found in a rotation matrix are angles of this rotation (ssc). *)
Definition good_angles (euler_angles : mat3 -> angles) : Prop :=
  forall M, rotation M -> euler_matrix (a_phi (euler_angles M)) (a_theta (euler_angles M)) (a_psi (euler_angles M)) = M.
Definition unit_quaternion (s : states) : Prop := let '(a, b, c, d) := st_quaternion s in a * a + b * b + c * c + d * d = 1.
(** Models without GM, and the same list where GM is replaced by its hydrostatic model. *)
Definition no_gm {Cut} (m : @force_model Cut) : Prop := match m with Other _ => True | Gm _ _ => False end.
Definition without_gm {Cut} (m : @force_model Cut) : force_model := match m with Other f => Other f | Gm hs _ => Other hs end.

Ltac mvec := unfold mmul; cbv zeta; unfold transpose; vec.
Lemma rotx_add : forall a b, mmul (rotx a) (rotx b) = rotx (a + b).
Proof. intros a b. unfold mmul, rotx, transpose, mapply, dot. cbn [r1 r2 r3 vx vy vz]. rewrite cos_plus, sin_plus. apply mat_eq; apply vec_eq; cbn; ring. Qed.
Lemma mmul_assoc : forall a b c, mmul a (mmul b c) = mmul (mmul a b) c.
Proof. intros a b c. apply mat_eq; apply vec_eq; mvec; ring. Qed.
Lemma mapply_mmul : forall a b v, mapply (mmul a b) v = mapply a (mapply b v).
Proof. intros a b v. apply vec_eq; mvec; ring. Qed.

Section Gm.
Context {Cut : Type}.
Variable intersect : transform -> R -> Cut.
Variable euler_angles : mat3 -> angles.
Hypothesis GA : good_angles euler_angles.
Notation derivative := (derivative intersect euler_angles).
Notation sum_of_forces := (sum_of_forces intersect euler_angles).

Lemma rot_of_rotation : forall s, unit_quaternion s -> rotation (rot_of s).
Proof. intros [p [[[a b] c] d] u w] H. apply qmat_rotation. exact H. Qed.
Lemma shifted_rotation : forall dphi s, unit_quaternion s -> rot_of (get_shifted_states euler_angles dphi s) = mmul (rot_of s) (rotx (- dphi)).
Proof.
  intros dphi s H. apply rot_of_rotation in H. unfold get_shifted_states, rot_of at 1. cbn [st_quaternion]. set (e := euler_angles (rot_of s)).
  assert (Q : rotation (rotation_matrix_321 (a_phi e - dphi) (a_theta e) (a_psi e))) by (rewrite rotation_321; apply euler_rotation).
  apply quaternion_of_rotation in Q. unfold represents in Q. destruct (quaternion_of _) as [[[a b] c] d] eqn:E. destruct Q as [-> _]. rewrite rotation_321. rewrite <- (GA _ H) at 1. fold e.
  unfold euler_matrix. rewrite <- !mmul_assoc. rewrite rotx_add. reflexivity.
Qed.
(** What the GM model leaves behind: the frame of the body and its intersection with the water are those of the heeled ship. *)
Theorem gm_leaves_the_ship_heeled : forall hs dphi w s t, unit_quaternion s ->
  let T := mkT (mmul (rot_of s) (rotx (- dphi))) (st_position s) in
  call intersect euler_angles (Gm hs dphi) w s t = (hs w s t, mkWorld T (intersect T t)).
Proof.
  intros hs dphi w s t H T. unfold call, gm_call, get_gz_for_shifted_states. cbn [fst snd]. f_equal. unfold body_update. rewrite shifted_rotation by exact H. reflexivity.
Qed.

(** ** C112: the models are summed, in any order, when GM is not used. *)
Lemma sum_other : forall models, List.Forall no_gm models -> forall F w s t,
  sum_of_forces models F w s t = (fold_left tadd (map (fun m => fst (call intersect euler_angles m w s t)) models) F, w).
Proof.
  intros models H. induction H as [|m r Hm Hr IH]; intros F w s t; [reflexivity|]. destruct m as [f|]; [|destruct Hm]. cbn [Gm_Model.sum_of_forces call map fold_left fst]. apply IH.
Qed.
Lemma fold_tadd_perm : forall l m, Permutation l m -> forall F, fold_left tadd l F = fold_left tadd m F.
Proof.
  intros l m H. induction H as [|x l m _ IH|x y l|l m n _ IH1 _ IH2]; intros F; cbn [fold_left]; [reflexivity|apply IH| |rewrite IH1; apply IH2].
  f_equal. destruct F as [a b], x as [c d], y as [e f]. unfold tadd. cbn [fst snd]. f_equal; apply vec_eq; vec; ring.
Qed.
Theorem forces_do_not_depend_on_the_order_partial : forall models models' coriolis s t, Permutation models models' -> List.Forall no_gm models ->
  derivative models coriolis s t = derivative models' coriolis s t.
Proof.
  intros models models' c s t P H. unfold Gm_Model.derivative. assert (H' : List.Forall no_gm models') by (rewrite List.Forall_forall in *; intros m Hm; apply H; eapply Permutation_in; [apply Permutation_sym; exact P|exact Hm]).
  rewrite !sum_other by assumption. rewrite (fold_tadd_perm _ _ (Permutation_map _ P)). reflexivity.
Qed.
(** ** C113: computing GM changes the motion. *)
(** Without GM, the derivative of the position is the velocity of the ship... *)
Theorem position_follows_the_velocity_partial : forall models coriolis s t, List.Forall no_gm models -> snd (derivative models coriolis s t) = mapply (rot_of s) (st_uvw s).
Proof. intros models c s t H. unfold Gm_Model.derivative. rewrite sum_other by exact H. reflexivity. Qed.
Lemma sum_app : forall l m F w s t, sum_of_forces (l ++ m) F w s t = let (F', w') := sum_of_forces l F w s t in sum_of_forces m F' w' s t.
Proof. induction l as [|x l IH]; intros m F w s t; [reflexivity|]. cbn [app Gm_Model.sum_of_forces]. destruct (call _ _ x w s t) as [tau w']. apply IH. Qed.
(** ... and after GM, wherever it is in the list, it is the velocity seen from the ship heeled by the last roll step. *)
Theorem position_rate_after_gm : forall before hs dphi after coriolis s t, unit_quaternion s -> List.Forall no_gm after ->
  snd (derivative (before ++ Gm hs dphi :: after) coriolis s t) = mapply (rot_of s) (mapply (rotx (- dphi)) (st_uvw s)).
Proof.
  intros before hs dphi after c s t H A. unfold Gm_Model.derivative. rewrite sum_app. destruct (sum_of_forces before c _ s t) as [F' w']. cbn [Gm_Model.sum_of_forces].
  pose proof (gm_leaves_the_ship_heeled hs dphi w' s t H) as E. cbn zeta in E. rewrite E. rewrite sum_other by exact A. cbn [snd w_frame t_rot]. apply mapply_mmul.
Qed.
(** It is right for a ship that only goes straight ahead, and wrong for all the others. *)
Theorem position_rate_after_gm_is_wrong : forall before hs dphi after coriolis s t, unit_quaternion s -> List.Forall no_gm after -> cos dphi <> 1 ->
  (snd (derivative (before ++ Gm hs dphi :: after) coriolis s t) = mapply (rot_of s) (st_uvw s) <-> vy (st_uvw s) = 0 /\ vz (st_uvw s) = 0).
Proof.
  intros before hs dphi after c s t H A N. rewrite position_rate_after_gm by assumption. pose proof (rot_of_rotation s H) as R0. destruct (st_uvw s) as [u v w]. cbn [vy vz].
  unfold mapply at 2, rotx, dot. cbn [r1 r2 r3 vx vy vz]. rewrite cos_neg, sin_neg. split.
  - intros E. apply (f_equal (mapply (transpose (rot_of s)))) in E. rewrite !rotation_inverse in E by exact R0. injection E as _ E2 E3.
    assert (D : (1 - cos dphi) <> 0) by (intros X; apply N; lra).
    pose proof (sin2_cos2 dphi) as SC0. unfold Rsqr in SC0. assert (SC : sin dphi * sin dphi = 1 - cos dphi * cos dphi) by lra.
    (* (c-1) v + s w = 0 and -s v + (c-1) w = 0, so ((c-1)^2 + s^2) = 2 (1-c) annihilates v and w *)
    assert (Hv : 2 * (1 - cos dphi) * v = 0) by (transitivity ((cos dphi - 1) * ((cos dphi - 1) * v + sin dphi * w) - sin dphi * ((cos dphi - 1) * w - sin dphi * v)); [ring [SC]|replace ((cos dphi - 1) * v + sin dphi * w) with 0 by lra; replace ((cos dphi - 1) * w - sin dphi * v) with 0 by lra; ring]).
    assert (Hw : 2 * (1 - cos dphi) * w = 0) by (transitivity ((cos dphi - 1) * ((cos dphi - 1) * w - sin dphi * v) + sin dphi * ((cos dphi - 1) * v + sin dphi * w)); [ring [SC]|replace ((cos dphi - 1) * v + sin dphi * w) with 0 by lra; replace ((cos dphi - 1) * w - sin dphi * v) with 0 by lra; ring]).
    split; [apply Rmult_integral in Hv; destruct Hv; [lra|assumption]|apply Rmult_integral in Hw; destruct Hw; [lra|assumption]].
  - intros [-> ->]. f_equal. apply vec_eq; cbn; ring.
Qed.
(** The sum of forces is right when GM is the last model of the list. *)
Theorem gm_listed_last_keeps_the_forces_partial : forall before hs dphi coriolis s t, List.Forall no_gm before ->
  fst (derivative (before ++ [Gm hs dphi]) coriolis s t) = fst (derivative (before ++ [Other hs]) coriolis s t).
Proof.
  intros before hs dphi c s t H. unfold Gm_Model.derivative. rewrite !sum_app, sum_other by exact H. reflexivity.
Qed.

(** ** C114: the metacentric height. [curve a] is GZ of the ship heeled by [a] from its current attitude, for the hydrostatic model [hs]. *)
Definition is_gz_curve (hs : force_function) (s : states) (t : R) (curve : R -> R) : Prop :=
  forall s' a, rot_of s' = mmul (rot_of s) (rotx a) -> st_position s' = st_position s -> st_uvw s' = st_uvw s -> st_pqr s' = st_pqr s ->
  let w' := body_update intersect s' t in gz_of w' s' (hs w' s' t) = Some (curve a).
Notation report hs dphi s t := (snd (gm_call intersect euler_angles hs dphi (body_update intersect s t) s t)).
Lemma gm_values : forall hs dphi s t curve, unit_quaternion s -> is_gz_curve hs s t curve -> dphi <> 0 ->
  gm_GM (report hs dphi s t) = Some ((curve 0 - curve (- dphi)) / dphi) /\ gm_GZ (report hs dphi s t) = Some ((curve 0 + curve (- dphi)) / 2).
Proof.
  intros hs dphi s t curve H C N. unfold gm_call, get_gz_for_shifted_states. cbn [snd gm_GM gm_GZ]. destruct (Req_EM_T dphi 0); [contradiction|].
  assert (C0 : gz_of (body_update intersect s t) s (hs (body_update intersect s t) s t) = Some (curve 0)).
  { apply (C s 0); try reflexivity. unfold rotx. rewrite cos_0, sin_0. generalize (rot_of s). clear. intros m. apply mat_eq; apply vec_eq; mvec; ring. }
  pose proof (C (get_shifted_states euler_angles dphi s) (- dphi) (shifted_rotation dphi s H) eq_refl eq_refl eq_refl) as C1. cbn zeta in C1. rewrite C0, C1. split; reflexivity.
Qed.
(** GM is the slope of the curve of GZ between the current heel and the heel minus the roll step. *)
Theorem gm_is_a_slope_of_gz_partial : forall hs dphi s t curve, unit_quaternion s -> is_gz_curve hs s t curve -> dphi > 0 -> (forall a, ex_derive curve a) ->
  exists a, - dphi <= a <= 0 /\ gm_GM (report hs dphi s t) = Some (Derive curve a).
Proof.
  intros hs dphi s t curve H C P D. destruct (gm_values hs dphi s t curve H C (Rgt_not_eq _ _ P)) as [E _]. rewrite E.
  destruct (MVT_gen curve (- dphi) 0 (Derive curve)) as (a & Ha & Ea).
  - intros x _. apply Derive_correct. apply D.
  - intros x _. apply continuity_pt_filterlim. apply (ex_derive_continuous curve x). apply D.
  - exists a. rewrite Rmin_left, Rmax_right in Ha by lra. split; [exact Ha|]. f_equal. rewrite Ea. field. lra.
Qed.
(** A linear curve gives its exact slope, for any roll step. *)
Theorem gm_of_a_linear_curve : forall hs dphi s t g0 g1, unit_quaternion s -> is_gz_curve hs s t (fun a => g0 + g1 * a) -> dphi <> 0 -> gm_GM (report hs dphi s t) = Some g1.
Proof. intros hs dphi s t g0 g1 H C N. destruct (gm_values hs dphi s t _ H C N) as [E _]. rewrite E. f_equal. field. exact N. Qed.
(** The value written as GZ is the one of the current heel only if the curve takes the same value a roll step away. *)
Theorem gz_reported_with_gm : forall hs dphi s t curve, unit_quaternion s -> is_gz_curve hs s t curve -> dphi <> 0 ->
  (gm_GZ (report hs dphi s t) = Some (curve 0) <-> curve (- dphi) = curve 0).
Proof.
  intros hs dphi s t curve H C N. destruct (gm_values hs dphi s t curve H C N) as [_ E]. rewrite E. split; [intros X; injection X; lra|intros ->; f_equal; lra].
Qed.
Theorem gm_with_a_null_roll_step : forall hs s t, gm_GM (report hs 0 s t) = None.
Proof. intros hs s t. unfold gm_call. destruct (get_gz_for_shifted_states _ _ hs 0 s t). cbn. destruct (Req_EM_T 0 0); [reflexivity|contradiction]. Qed.
End Gm.
Print Assumptions gm_leaves_the_ship_heeled. Print Assumptions forces_do_not_depend_on_the_order_partial. Print Assumptions position_follows_the_velocity_partial.
Print Assumptions position_rate_after_gm. Print Assumptions position_rate_after_gm_is_wrong. Print Assumptions gm_listed_last_keeps_the_forces_partial.
Print Assumptions gm_is_a_slope_of_gz_partial. Print Assumptions gm_of_a_linear_curve. Print Assumptions gz_reported_with_gm. Print Assumptions gm_with_a_null_roll_step.

(** ** Witnesses *)
(** Angles can be found in every rotation matrix (also when the ship points straight up or down). *)
Definition some_angles (m : mat3) : angles :=
  if Req_EM_T (vz (r1 m) * 0 + vx (r1 m) * vx (r1 m) + vx (r2 m) * vx (r2 m)) 0
  then mkAngles 0 (atan2 (- vx (r3 m)) 0) (atan2 (- vy (r1 m)) (vy (r2 m)))
  else mkAngles (atan2 (vy (r3 m)) (vz (r3 m))) (atan2 (- vx (r3 m)) (sqrt (vx (r1 m) * vx (r1 m) + vx (r2 m) * vx (r2 m)))) (atan2 (vx (r2 m)) (vx (r1 m))).
Lemma angles_exist : good_angles some_angles.
Proof.
  intros m H. pose proof (rotation_columns m H) as C. destruct (rotation_cofactors m H) as [P Q]. destruct H as (A1 & A2 & A3 & A4 & A5 & A6 & A7). destruct C as (B1 & B2 & B3 & B4 & B5 & B6 & _).
  rewrite euler_matrix_val. unfold some_angles. destruct m as [[a b c] [d e f] [g h i]]. unfold transpose, dot, cross in *. cbn [r1 r2 r3 vx vy vz] in *.
  injection P as P1 P2 P3. injection Q as Q1 Q2 Q3. injection A7 as X1 X2 X3.
  destruct (Req_EM_T (c * 0 + a * a + d * d) 0) as [Z|Z]; cbn [a_phi a_theta a_psi].
  - assert (a = 0) by (clear - Z; nra). assert (d = 0) by (clear - Z; nra). subst a d. assert (G2 : g * g = 1) by lra.
    assert (h = 0) by (clear - A3 G2; nra). assert (i = 0) by (clear - A3 G2; nra). subst h i.
    pose proof (atan2_polar (- g) 0) as T. pose proof (atan2_polar (- b) e) as S0. cbv zeta in T, S0. replace (0 * 0 + - g * - g) with 1 in T by lra. replace (e * e + - b * - b) with 1 in S0 by lra.
    rewrite sqrt_1 in T, S0. destruct T as [T1 T2]. destruct S0 as [S1 S2]. rewrite Rmult_1_l in T1, T2, S1, S2. rewrite T1, T2, S1, S2, cos_0, sin_0.
    assert (c = - (e * g)) by lra. assert (f = b * g) by lra. apply mat_eq; apply vec_eq; cbn [r1 r2 r3 vx vy vz]; lra.
  - set (r := sqrt (a * a + d * d)). assert (R2 : r * r = a * a + d * d) by (apply sqrt_sqrt; clear; nra). assert (R0 : 0 < r) by (apply sqrt_lt_R0; clear - Z; assert (a * a >= 0) by nra; assert (d * d >= 0) by nra; lra).
    assert (Hr : r = sqrt (i * i + h * h)) by (unfold r; f_equal; lra).
    pose proof (atan2_polar (- g) r) as T. pose proof (atan2_polar d a) as S0. pose proof (atan2_polar h i) as F. cbv zeta in T, S0, F. replace (r * r + - g * - g) with 1 in T by lra. rewrite sqrt_1 in T. fold r in S0. rewrite <- Hr in F.
    destruct T as [T1 T2]. destruct S0 as [S1 S2]. destruct F as [F1 F2]. rewrite Rmult_1_l in T1, T2. rewrite T1, T2.
    set (ca := cos (atan2 d a)) in *. set (sa := sin (atan2 d a)) in *. set (ch := cos (atan2 h i)) in *. set (sh := sin (atan2 h i)) in *. clearbody ca sa ch sh.
    assert (N : r <> 0) by lra.
    assert (ca = a / r) by (rewrite <- S1; field; exact N). assert (sa = d / r) by (rewrite <- S2; field; exact N). assert (ch = i / r) by (rewrite <- F1; field; exact N). assert (sh = h / r) by (rewrite <- F2; field; exact N). subst ca sa ch sh.
    assert (N2 : r * r <> 0) by (apply Rmult_integral_contrapositive_currified; exact N).
    assert (K : forall x y, x * (r * r) = y -> y / (r * r) = x) by (intros x y <-; field; exact N).
    assert (GH : g * h = - (a * b + d * e)) by lra. assert (GI : g * i = - (a * c + d * f)) by lra. assert (Ei : i = a * e - b * d) by lra. assert (Eh : h = c * d - a * f) by lra.
    clear - N N2 K R2 GH GI Ei Eh.
    apply mat_eq; apply vec_eq; cbn [r1 r2 r3 vx vy vz]; try (field; exact N).
    + transitivity ((- (a * (g * h)) - d * i) / (r * r)); [field; exact N|]. apply K. rewrite R2, GH, Ei. ring.
    + transitivity ((- (a * (g * i)) + d * h) / (r * r)); [field; exact N|]. apply K. rewrite R2, GI, Eh. ring.
    + transitivity ((- (d * (g * h)) + a * i) / (r * r)); [field; exact N|]. apply K. rewrite R2, GH, Ei. ring.
    + transitivity ((- (d * (g * i)) - a * h) / (r * r)); [field; exact N|]. apply K. rewrite R2, GI, Eh. ring.
Qed.

(** An upright ship drifting sideways at 1 m/s; the gravity of 1 kg and a hydrostatic model whose GZ is the sine of the heel. *)
Definition no_cut : transform -> R -> unit := fun _ _ => tt.
Definition drifting : states := mkStates v0 (1, 0, 0, 0) (V3 0 1 0) v0.
Definition weight : @force_function unit := fun w _ _ => gravity (mkT (transpose (t_rot (w_frame w))) v0) 1 10.
Definition buoy : @force_function unit := fun w _ _ => (mapply (transpose (t_rot (w_frame w))) (V3 0 0 (-10)), mapply (transpose (t_rot (w_frame w))) (V3 (- 10 * vy (r3 (t_rot (w_frame w)))) 0 0)).
Lemma drifting_unit : unit_quaternion drifting.
Proof. cbn. ring. Qed.
Lemma drifting_upright : rot_of drifting = id3.
Proof. unfold rot_of, drifting, qmat, id3. cbn. apply mat_eq; apply vec_eq; cbn; ring. Qed.
Lemma buoy_curve : is_gz_curve no_cut buoy drifting 0 sin.
Proof.
  intros s' a E _ _ _ w'. unfold gz_of, buoy, w', body_update, project_into_ned_frame. cbn [w_frame t_rot fst snd]. rewrite E, drifting_upright.
  assert (I : mmul id3 (rotx a) = rotx a) by (apply mat_eq; apply vec_eq; unfold mmul; cbv zeta; unfold transpose, rotx; vec; ring). rewrite I.
  pose proof (sin2_cos2 a) as SC. unfold Rsqr in SC. unfold calculate_gz.
  assert (F : mapply (rotx a) (mapply (transpose (rotx a)) (V3 0 0 (-10))) = V3 0 0 (-10)) by (apply vec_eq; unfold rotx; vec; [ring|ring|replace ((0 * (1 * 0 + 0 * 0 + 0 * -10) + sin a * (0 * 0 + cos a * 0 + sin a * -10) + cos a * (0 * 0 + - sin a * 0 + cos a * -10))) with (-10 * (sin a * sin a + cos a * cos a)) by ring; rewrite SC; ring]).
  assert (M : mapply (rotx a) (mapply (transpose (rotx a)) (V3 (- 10 * vy (r3 (rotx a))) 0 0)) = V3 (- 10 * sin a) 0 0) by (apply vec_eq; unfold rotx; vec; ring).
  rewrite F, M. cbn [vz]. destruct (Req_EM_T (-10) 0) as [X|_]; [exfalso; lra|]. f_equal.
  assert (X : mapply (rotx a) (V3 1 0 0) = V3 1 0 0) by (apply vec_eq; unfold rotx; vec; ring). rewrite X.
  assert (N : norm (V3 1 0 0) = 1) by (unfold norm, dot; cbn [vx vy vz]; replace (1 * 1 + 0 * 0 + 0 * 0) with 1 by ring; apply sqrt_1). rewrite N. cbn [vx vy]. field.
Qed.
(** Gravity listed after GM pushes the upright ship sideways: the order of the models matters. *)
Theorem order_of_the_models_refuted : exists models models', Permutation models models' /\
  fst (fst (derivative no_cut some_angles models (v0, v0) drifting 0)) <> fst (fst (derivative no_cut some_angles models' (v0, v0) drifting 0)).
Proof.
  exists [Gm buoy (PI / 6); Other weight], ([Other weight] ++ [Gm buoy (PI / 6)]). split; [apply perm_swap|].
  rewrite (gm_listed_last_keeps_the_forces_partial no_cut some_angles [Other weight]) by (repeat constructor). unfold derivative. cbn [sum_of_forces app].
  pose proof (gm_leaves_the_ship_heeled no_cut some_angles angles_exist buoy (PI / 6)) as E. cbv zeta in E. rewrite E by exact drifting_unit.
  cbn [call fst snd]. unfold buoy, weight, tadd, gravity, body_update. cbn [w_frame t_rot t_point fst snd]. rewrite drifting_upright.
  assert (I : mmul id3 (rotx (- (PI / 6))) = rotx (- (PI / 6))) by (apply mat_eq; apply vec_eq; unfold mmul; cbv zeta; unfold transpose, rotx; vec; ring). rewrite I.
  unfold rotx. rewrite cos_neg, sin_neg, sin_PI6. intros X. apply (f_equal vy) in X. vec. lra.
Qed.
Print Assumptions order_of_the_models_refuted.
(** Computing GM changes the path of the ship. *)
Theorem computing_gm_changes_the_motion_refuted : exists (models : list (@force_model unit)) s,
  snd (derivative no_cut some_angles models (v0, v0) s 0) <> snd (derivative no_cut some_angles (map without_gm models) (v0, v0) s 0).
Proof.
  exists ([Other weight] ++ [Gm buoy (PI / 6)]), drifting. rewrite (position_follows_the_velocity_partial no_cut some_angles (map without_gm ([Other weight] ++ [Gm buoy (PI / 6)]))) by (cbn; repeat constructor).
  intros X. apply (position_rate_after_gm_is_wrong no_cut some_angles angles_exist [Other weight] buoy (PI / 6) [] (v0, v0) drifting 0 drifting_unit) in X; [|constructor|rewrite cos_PI6].
  - destruct X as [X _]. cbn in X. lra.
  - intros X0. assert (S3 : sqrt 3 = 2) by lra. pose proof (sqrt_sqrt 3 ltac:(lra)) as S4. rewrite S3 in S4. lra.
Qed.
Print Assumptions computing_gm_changes_the_motion_refuted.
(** GZ written by the GM model for an upright ship, whose GZ is zero. *)
Theorem gz_reported_with_gm_refuted : exists (hs : @force_function unit) dphi s t curve, is_gz_curve no_cut hs s t curve /\ curve 0 = 0 /\
  gm_GZ (snd (gm_call no_cut some_angles hs dphi (body_update no_cut s t) s t)) = Some (- (1 / 4)).
Proof.
  exists buoy, (PI / 6), drifting, 0, sin. split; [exact buoy_curve|]. split; [apply sin_0|].
  destruct (gm_values no_cut some_angles angles_exist buoy (PI / 6) drifting 0 sin drifting_unit buoy_curve) as [_ E]; [pose proof PI_RGT_0; lra|]. rewrite E. rewrite sin_0, sin_neg, sin_PI6. f_equal. field.
Qed.
Print Assumptions gz_reported_with_gm_refuted.
Example gm_witness : exists a, - (PI / 6) <= a <= 0 /\ gm_GM (snd (gm_call no_cut some_angles buoy (PI / 6) (body_update no_cut drifting 0) drifting 0)) = Some (Derive sin a).
Proof.
  apply (gm_is_a_slope_of_gz_partial no_cut some_angles angles_exist buoy (PI / 6) drifting 0 sin drifting_unit buoy_curve); [pose proof PI_RGT_0; lra|]. intros a. exists (cos a). apply is_derive_Reals. apply derivable_pt_lim_sin.
Qed.
