(** C173: the point where the effort of the rudder is applied *)
From Coq Require Import Reals Lra Lia List Psatz.
From Verif Require Import Common Geometry Sim_Model Force_Model Force_Spec Force_Props Rudder_Props.
Import ListNotations.
Open Scope R_scope.

(** Moment about [G] of a force [f] applied at [P]. *)
Definition moment_about (G P f : vec3) : vec3 := cross (vsub P G) f.
(** Effort at G, in the axes of the body, of a propeller (force and torque in its own axes, at [P]) and of a rudder (force in the same axes, at [Q]). *)
Definition effort_of_propeller_and_rudder (rot : mat3) (P Q G : vec3) (propeller : torsor) (rudder_force : vec3) : torsor :=
  (vadd (mapply rot (fst propeller)) (mapply rot rudder_force),
   vadd (vadd (mapply rot (snd propeller)) (moment_about G P (mapply rot (fst propeller)))) (moment_about G Q (mapply rot rudder_force))).

Lemma wrench_torque m b f V a t : rd_wrench m b f V a = Some t -> snd t = vopp (cross (rd_translation m) (fst t)).
Proof. unfold rd_wrench. destruct (rd_Cd m V (rd_Cl m (b - f))); [|discriminate]. intros E. injection E as <-. reflexivity. Qed.
Lemma rudder_torque m w u v beta T t : rudder_force m w u v beta T = Some t -> snd t = vopp (cross (rd_translation m) (fst t)).
Proof.
  unfold rudder_force. cbv zeta. destruct (rd_areas m (rd_CTh m (u * (1 - w)) T)) as (ai, ao).
  match goal with |- context [match ?a with _ => _ end] => destruct a as [x|] eqn:Ex; [|discriminate] end.
  match goal with |- context [match ?a with _ => _ end] => destruct a as [y|] eqn:Ey; [|discriminate] end.
  intros E. injection E as <-. apply wrench_torque in Ex, Ey. cbn [fst snd]. rewrite Ex, Ey. clear. destruct (rd_translation m), x as [[? ? ?] ?], y as [[? ? ?] ?]. cbn [fst]. apply vec_eq; vec; ring.
Qed.
Lemma rot_cross M a b : rotation M -> mapply M (cross a b) = cross (mapply M a) (mapply M b).
Proof. apply rotation_cross. Qed.
Lemma torque_at_G M P Q G fp tp fr : rotation M ->
  vadd (mapply M (vadd (vopp (cross (vsub P Q) fr)) tp)) (cross (vadd (vopp G) P) (mapply M (vadd fr fp))) =
  vsub (vadd (vadd (mapply M tp) (cross (vsub P G) (mapply M fp))) (cross (vsub Q G) (mapply M fr)))
       (cross (vsub (mapply M (vsub P Q)) (vsub P Q)) (mapply M fr)).
Proof.
  intros H. assert (L : forall a b, mapply M (vadd a b) = vadd (mapply M a) (mapply M b)) by (intros; destruct M, a, b; apply vec_eq; vec; ring).
  assert (O : forall a, mapply M (vopp a) = vopp (mapply M a)) by (intros; destruct M, a; apply vec_eq; vec; ring).
  rewrite !L, O, rot_cross by exact H. generalize (mapply M (vsub P Q)) (mapply M fr) (mapply M fp) (mapply M tp). intros a b c d. destruct a, b, c, d, P, Q, G. apply vec_eq; vec; ring.
Qed.
Lemma mapply_vadd_swap M a b : mapply M (vadd a b) = vadd (mapply M b) (mapply M a).
Proof. destruct M as [[? ? ?] [? ? ?] [? ? ?]], a, b. apply vec_eq; vec; ring. Qed.
(** The effort computed is that of the propeller and of the rudder at their positions, up to a moment due to the orientation of the propeller. *)
Theorem rudder_position : forall p m u v rpm beta T G F, rotation (t_rot T) -> t_point T = rd_prop m -> propeller_and_rudder p m u v rpm beta = Some F ->
  exists rf, rudder_force m (pr_w p) u v beta (norm6 (propeller_force p u rpm)) = Some rf /\
  let expected := effort_of_propeller_and_rudder (t_rot T) (rd_prop m) (rd_pos m) G (propeller_force p u rpm) (fst rf) in
  let d := vsub (rd_prop m) (rd_pos m) in
  fst (controlled_wrench T G F) = fst expected /\
  snd (controlled_wrench T G F) = vsub (snd expected) (cross (vsub (mapply (t_rot T) d) d) (mapply (t_rot T) (fst rf))).
Proof.
  intros p m u v rpm beta T G F H E X. unfold propeller_and_rudder in X.
  destruct (rudder_force m (pr_w p) u v beta (norm6 (propeller_force p u rpm))) as [rf|] eqn:R; [|discriminate].
  assert (EF : F = (vadd (fst rf) (fst (propeller_force p u rpm)), vadd (snd rf) (snd (propeller_force p u rpm)))) by congruence. subst F. clear X. exists rf. split; [reflexivity|]. cbv zeta. apply rudder_torque in R. destruct (propeller_force p u rpm) as (fp, tp).
  destruct rf as (fr, tr). cbn [fst snd] in *. unfold controlled_wrench, effort_of_propeller_and_rudder, moment_about. cbn [fst snd]. rewrite E, R. unfold rd_translation. split.
  - apply mapply_vadd_swap.
  - apply torque_at_G. exact H.
Qed.
(** When the axes of the propeller are those of the body (or when it is turned about the line from the rudder to the propeller), the effort is right. *)
Theorem rudder_acts_at_its_position_partial : forall p m u v rpm beta T G F, rotation (t_rot T) -> t_point T = rd_prop m ->
  mapply (t_rot T) (vsub (rd_prop m) (rd_pos m)) = vsub (rd_prop m) (rd_pos m) -> propeller_and_rudder p m u v rpm beta = Some F ->
  exists rf, rudder_force m (pr_w p) u v beta (norm6 (propeller_force p u rpm)) = Some rf /\
  controlled_wrench T G F = effort_of_propeller_and_rudder (t_rot T) (rd_prop m) (rd_pos m) G (propeller_force p u rpm) (fst rf).
Proof.
  intros p m u v rpm beta T G F H E K X. destruct (rudder_position p m u v rpm beta T G F H E X) as (rf & R & Ef & Et). exists rf. split; [exact R|].
  cbv zeta in Ef, Et. rewrite K in Et. destruct (controlled_wrench T G F) as (a, b). destruct (effort_of_propeller_and_rudder (t_rot T) (rd_prop m) (rd_pos m) G (propeller_force p u rpm) (fst rf)) as (c, d).
  cbn [fst snd] in *. subst a b. f_equal. generalize (vsub (rd_prop m) (rd_pos m)) (mapply (t_rot T) (fst rf)). intros s r. destruct d, s, r. apply vec_eq; vec; ring.
Qed.
Print Assumptions rudder_position.
Print Assumptions rudder_acts_at_its_position_partial.

(** A propeller above its rudder whose frame has its z axis upwards: the moment of the rudder is wrong. *)
Definition z_up : mat3 := M3 (V3 1 0 0) (V3 0 (-1) 0) (V3 0 0 (-1)).
Lemma z_up_rotation : rotation z_up.
Proof. unfold rotation, z_up. vec. repeat split; try (apply vec_eq; cbn [vx vy vz]); lra. Qed.
Definition high_propeller : rudder := mkRudder 1 (1 / 2) 4 1 0 (V3 0 0 1) v0 1 1 2.
Lemma high_wrench b f V a : match rd_wrench bollard_rudder b f V a with Some t => exists y, rd_wrench high_propeller b f V a = Some y /\ fst y = fst t | None => True end.
Proof.
  unfold rd_wrench. change (rd_Cl high_propeller) with (rd_Cl bollard_rudder). change (rd_Cd high_propeller) with (rd_Cd bollard_rudder).
  destruct (rd_Cd bollard_rudder V (rd_Cl bollard_rudder (b - f))); [|exact I]. eexists. split; [reflexivity|]. reflexivity.
Qed.
Lemma high_force beta T t : rudder_force bollard_rudder 0 0 0 beta T = Some t -> exists y, rudder_force high_propeller 0 0 0 beta T = Some y /\ fst y = fst t.
Proof.
  unfold rudder_force. cbv zeta. change (rd_CTh high_propeller) with (rd_CTh bollard_rudder). change (rd_areas high_propeller) with (rd_areas bollard_rudder). change (rd_vs_in high_propeller) with (rd_vs_in bollard_rudder).
  destruct (rd_areas bollard_rudder (rd_CTh bollard_rudder (0 * (1 - 0)) T)) as (ai, ao).
  match goal with |- match rd_wrench _ ?b ?f ?V ?a with _ => _ end = _ -> _ => pose proof (high_wrench b f V a) as H1; destruct (rd_wrench bollard_rudder b f V a) as [x1|]; [|discriminate] end.
  destruct H1 as (y1 & -> & F1).
  match goal with |- match rd_wrench _ ?b ?f ?V ?a with _ => _ end = _ -> _ => pose proof (high_wrench b f V a) as H2; destruct (rd_wrench bollard_rudder b f V a) as [x2|]; [|discriminate] end.
  destruct H2 as (y2 & -> & F2). intros E. injection E as <-. eexists. split; [reflexivity|]. cbn [fst]. rewrite F1, F2. reflexivity.
Qed.
Theorem rudder_acts_at_its_position_refuted : exists p m u v rpm beta T G F rf, sensible m /\ rotation (t_rot T) /\ t_point T = rd_prop m /\ propeller_and_rudder p m u v rpm beta = Some F /\
  rudder_force m (pr_w p) u v beta (norm6 (propeller_force p u rpm)) = Some rf /\
  controlled_wrench T G F <> effort_of_propeller_and_rudder (t_rot T) (rd_prop m) (rd_pos m) G (propeller_force p u rpm) (fst rf).
Proof.
  pose proof PI_RGT_0 as P0. set (p := mkProp 0 1 0 false 1 1 (fun _ => 3) (fun _ => 0)).
  assert (Fp : propeller_force p 0 (2 * PI) = (V3 3 0 0, V3 0 0 0)).
  { unfold propeller_force, p. cbn [pr_t pr_rho pr_D pr_Kt pr_Kq pr_clockwise pr_etaR]. replace (2 * PI * (2 * PI) / (4 * PI * PI)) with 1 by (field; lra). f_equal; apply vec_eq; cbn [vx vy vz]; ring. }
  assert (N3 : norm6 (V3 3 0 0, V3 0 0 0) = 3). { unfold norm6. cbn [fst snd]. vec. replace (3 * 3 + 0 * 0 + 0 * 0 + (0 * 0 + 0 * 0 + 0 * 0)) with (3 * 3) by ring. apply sqrt_square. lra. }
  destruct (bollard 3) as (a & Ea & Ya); [lra|]. destruct (high_force _ _ _ Ea) as (rf & Er & Fr).
  assert (Rw : rudder_force high_propeller (pr_w p) 0 0 (PI / 4) (norm6 (propeller_force p 0 (2 * PI))) = Some rf) by (rewrite Fp, N3; exact Er).
  assert (X : exists F, propeller_and_rudder p high_propeller 0 0 (2 * PI) (PI / 4) = Some F) by (unfold propeller_and_rudder; rewrite Rw; eauto). destruct X as (F & EF).
  exists p, high_propeller, 0, 0, (2 * PI), (PI / 4), (mkT z_up (V3 0 0 1)), v0, F, rf.
  split; [unfold sensible, high_propeller; cbn; lra|]. split; [exact z_up_rotation|]. split; [reflexivity|]. split; [exact EF|]. split; [exact Rw|].
  destruct (rudder_position p high_propeller 0 0 (2 * PI) (PI / 4) (mkT z_up (V3 0 0 1)) v0 F z_up_rotation eq_refl EF) as (rf' & R' & _ & Et). rewrite Rw in R'. injection R' as <-.
  cbv zeta in Et. intros Q. rewrite Q in Et. cbn [t_rot] in Et. revert Et. cbn [rd_prop rd_pos high_propeller].
  generalize (snd (effort_of_propeller_and_rudder z_up (V3 0 0 1) v0 v0 (propeller_force p 0 (2 * PI)) (fst rf))). intros w Et.
  apply (f_equal vx) in Et. rewrite <- Fr in Ya. destruct (fst rf) as [fx fy fz]. cbn [vy] in Ya. clear - Et Ya. unfold z_up in Et. destruct w as [w1 w2 w3]. cbv [vx vy vz vsub vadd vopp vscale cross mapply dot r1 r2 r3 v0] in Et. lra.
Qed.
Print Assumptions rudder_acts_at_its_position_refuted.
(** Without rotation the hypotheses hold, with the force of the witness above. *)
Example upright_propeller : rotation (t_rot (mkT id3 (V3 0 0 1))) /\ t_point (mkT id3 (V3 0 0 1)) = rd_prop high_propeller /\ mapply (t_rot (mkT id3 (V3 0 0 1))) (vsub (V3 0 0 1) v0) = vsub (V3 0 0 1) v0.
Proof. cbn [t_rot t_point]. split; [unfold rotation; vec; repeat split; try (apply vec_eq; cbn [vx vy vz]); lra|]. split; [reflexivity|]. apply vec_eq; vec; lra. Qed.
