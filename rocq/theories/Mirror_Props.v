(** C187: port and starboard. A simulation seen in a mirror (the plane y = 0 of NED) is the simulation of the mirrored ship: nothing in the equations of motion, in the
    solvers or in the usual efforts prefers a side. The model is Drift_Model.v (derivatives of Body.cpp:129-163 inside the steppers) and Force_Model.v. *)
From Coq Require Import ZArith Reals Lra Lia Psatz List.
From Verif Require Import Common History_Model History_Real_Proofs Blocked_Model Sim_Model Sim_Spec Sim_Props Solver_Model Solver_Props Drift_Model Drift_Props Force_Model Force_Spec Calm_Model Calm_Props Fall_Props Rudder_Props Converge_Props Geometry.
Import ListNotations.
Open Scope R_scope.

(** ** Specification *)
(** In a mirror, y and v change sign, and so do p and r (the rotations about x and z) and the components of the quaternion along x and z. *)
Definition sign (k : nat) : R := match k with 1%nat | 4%nat | 6%nat | 8%nat | 10%nat | 12%nat => -1 | _ => 1 end.
Definition mirrored (n_bodies : nat) (x x' : list R) : Prop :=
  List.length x = (13 * n_bodies)%nat /\ List.length x' = (13 * n_bodies)%nat /\ forall i k, (i < n_bodies)%nat -> (k < 13)%nat -> state_of x' i k = sign k * state_of x i k.
(** Forces along y and torques about x and z change sign. *)
Definition effort_sign (k : nat) : R := match k with 1%nat | 3%nat | 5%nat => -1 | _ => 1 end.
Definition mirrored_efforts (F F' : vec) : Prop := forall k, (k < 6)%nat -> F' k = effort_sign k * F k.
Definition mirrored_matrix (M M' : mat) : Prop := forall j k, (j < 6)%nat -> (k < 6)%nat -> M' j k = effort_sign j * effort_sign k * M j k.
(** A force (or a position, a speed) and a torque (or a rotation rate) seen in the mirror: Force_Spec.mirror_force and mirror_torque *)
Definition seen_torsor (t : torsor) : torsor := (mirror_force (fst t), mirror_torque (snd t)).
(** A change of axes seen in the mirror *)
Definition seen_matrix (M : mat3) : mat3 := M3 (mirror_force (r1 M)) (vopp (mirror_force (r2 M))) (mirror_force (r3 M)).
Definition seen_transform (T : transform) : transform := mkT (seen_matrix (t_rot T)) (mirror_force (t_point T)).

(** ** Proofs *)
Section Mirror.
Variable aeqR : Z -> R -> R -> bool.
Variable Itp : Type.
Variable itp_f itp_df : Itp -> R -> outcome R.
Variable bodies bodies' : nat -> body Itp.
Variable n_bodies : nat.
Hypothesis bodies_numbered : numbered Itp bodies n_bodies.
Hypothesis bodies_free : not_forced Itp bodies n_bodies.
Hypothesis bodies_numbered' : numbered Itp bodies' n_bodies.
Hypothesis bodies_free' : not_forced Itp bodies' n_bodies.
Variable E E' : list (memory aeqR) -> nat -> list R -> R -> outcome vec.
(** The inertia and the efforts of the second ship are the ones of the first, in the mirror. *)
Definition opposite_hands : Prop :=
  (forall i, (i < n_bodies)%nat -> mirrored_matrix (bd_Minv (bodies i)) (bd_Minv (bodies' i))) /\
  (forall m m' i x x' t F F', (i < n_bodies)%nat -> mirrored n_bodies x x' -> E m i x t = Ok F -> E' m' i x' t = Ok F' -> mirrored_efforts F F').
Hypothesis hands : opposite_hands.
Notation ev := (evaluate aeqR Itp itp_f itp_df bodies E n_bodies).
Notation ev' := (evaluate aeqR Itp itp_f itp_df bodies' E' n_bodies).

Lemma evaluate_mirrored m m' x x' t m1 k m1' k' : mirrored n_bodies x x' -> ev m x t = Done m1 k -> ev' m' x' t = Done m1' k' -> mirrored n_bodies k k'.
Proof.
  intros Mx H H'. pose proof Mx as (L & L' & V).
  assert (Lk : List.length k = (13 * n_bodies)%nat).
  { unfold evaluate, system in H. destruct (dx_dt_free aeqR Itp itp_f itp_df bodies n_bodies bodies_numbered bodies_free E n_bodies 0 m x (repeat 0 (List.length x)) t m1 k (Nat.le_refl _) L ltac:(rewrite repeat_length; exact L) H) as (Q & _). exact Q. }
  assert (Lk' : List.length k' = (13 * n_bodies)%nat).
  { unfold evaluate, system in H'. destruct (dx_dt_free aeqR Itp itp_f itp_df bodies' n_bodies bodies_numbered' bodies_free' E' n_bodies 0 m' x' (repeat 0 (List.length x')) t m1' k' (Nat.le_refl _) L' ltac:(rewrite repeat_length; exact L') H') as (Q & _). exact Q. }
  split; [exact Lk|]. split; [exact Lk'|]. intros i j Hi Hj.
  destruct (evaluate_free aeqR Itp itp_f itp_df bodies n_bodies bodies_numbered bodies_free E m x t m1 k i L Hi H) as (_ & mi & F & EF & D).
  destruct (evaluate_free aeqR Itp itp_f itp_df bodies' n_bodies bodies_numbered' bodies_free' E' m' x' t m1' k' i L' Hi H') as (_ & mi' & F' & EF' & D').
  destruct hands as (HM & HF). specialize (HM i Hi). specialize (HF mi mi' i x x' t F F' Hi Mx EF EF').
  destruct (bodies_numbered i Hi) as (Ib & _). destruct (bodies_numbered' i Hi) as (Ib' & _). rewrite D, D' by exact Hj. clear D D'.
  unfold free_derivative. rewrite Ib, Ib'. cbv zeta. unfold get_rot_from_ned_to.
  rewrite !(HM 0%nat), !(HM 1%nat), !(HM 2%nat), !(HM 3%nat), !(HM 4%nat), !(HM 5%nat) by lia.
  rewrite (HF 0%nat), (HF 1%nat), (HF 2%nat), (HF 3%nat), (HF 4%nat), (HF 5%nat) by lia.
  rewrite (V i 3%nat), (V i 4%nat), (V i 5%nat), (V i 6%nat), (V i 7%nat), (V i 8%nat), (V i 9%nat), (V i 10%nat), (V i 11%nat), (V i 12%nat) by lia.
  unfold entries, qmat. cbn [r1 r2 r3 vx vy vz]. clear -Hj.
  do 13 (destruct j as [|j]; [cbn [nth sign effort_sign]; field|]). lia.
Qed.
Lemma combine_mirrored x x' dt a ks ks' : mirrored n_bodies x x' -> List.Forall2 (mirrored n_bodies) ks ks' -> mirrored n_bodies (combine_with x dt a ks) (combine_with x' dt a ks').
Proof.
  intros (L & L' & V) H. split; [rewrite combine_with_length; exact L|]. split; [rewrite combine_with_length; exact L'|]. intros i j Hi Hj.
  rewrite !state_of_combine by (apply (index_ok n_bodies); auto; lia). rewrite V by auto.
  assert (fold_right Rplus 0 (map (fun ak : R * list R => fst ak * state_of (snd ak) i j) (combine a ks')) = sign j * fold_right Rplus 0 (map (fun ak : R * list R => fst ak * state_of (snd ak) i j) (combine a ks))) as ->; [|ring].
  clear V L L'. revert a. induction H as [|k k' ks ks' (_ & _ & K) _ IH]; intros [|c a]; cbn [combine map fold_right fst snd]; try ring. rewrite K, IH by auto. ring.
Qed.
Lemma stages_mirrored : forall cs table m m' x x' t dt ks ks' m1 m1' k k', mirrored n_bodies x x' -> List.Forall2 (mirrored n_bodies) ks ks' ->
  stages aeqR (forced Itp itp_f bodies) (derivatives aeqR Itp itp_df bodies E) n_bodies cs table m x t dt ks = Done m1 k ->
  stages aeqR (forced Itp itp_f bodies') (derivatives aeqR Itp itp_df bodies' E') n_bodies cs table m' x' t dt ks' = Done m1' k' -> List.Forall2 (mirrored n_bodies) k k'.
Proof.
  induction cs as [|c cs IH]; intros table m m' x x' t dt ks ks' m1 m1' k k' Mx Hk H H'; cbn [stages] in H, H'.
  - injection H as _ <-. injection H' as _ <-. exact Hk.
  - destruct table as [|row table]; [injection H as _ <-; injection H' as _ <-; exact Hk|].
    match type of H with bind _ ?s _ = _ => destruct s as [m2 d| |] eqn:Q end; cbn [bind] in H; try discriminate.
    match type of H' with bind _ ?s _ = _ => destruct s as [m2' d'| |] eqn:Q' end; cbn [bind] in H'; try discriminate.
    refine (IH _ _ _ _ _ _ _ _ _ _ _ _ _ Mx _ H H'). apply Forall2_app; [exact Hk|]. constructor; [|constructor].
    exact (evaluate_mirrored _ _ _ _ _ _ _ _ _ (combine_mirrored x x' dt row ks ks' Mx Hk) Q Q').
Qed.
Lemma step_mirrored s m m' x x' t dt m1 m1' y y' : mirrored n_bodies x x' -> step aeqR Itp itp_f itp_df bodies E n_bodies s m x t dt = Done m1 y -> step aeqR Itp itp_f itp_df bodies' E' n_bodies s m' x' t dt = Done m1' y' -> mirrored n_bodies y y'.
Proof.
  intros Mx H H'. unfold step, do_step in H, H'.
  match type of H with bind _ ?s _ = _ => destruct s as [m2 d| |] eqn:Q end; cbn [bind] in H; try discriminate.
  match type of H' with bind _ ?s _ = _ => destruct s as [m2' d'| |] eqn:Q' end; cbn [bind] in H'; try discriminate.
  injection H as _ <-. injection H' as _ <-. apply combine_mirrored; [exact Mx|]. exact (stages_mirrored _ _ _ _ _ _ _ _ _ _ _ _ _ _ Mx (Forall2_nil _) Q Q').
Qed.
(** Any solver, any number of steps, any step, any memories: the computed trajectories are mirrored, exactly. *)
Theorem mirrored_simulations : forall s n m m' x x' t0 dt m1 m1' y y', mirrored n_bodies x x' ->
  run aeqR Itp itp_f itp_df bodies E n_bodies (fun x _ => x) s n m x t0 dt = Done m1 y -> run aeqR Itp itp_f itp_df bodies' E' n_bodies (fun x _ => x) s n m' x' t0 dt = Done m1' y' -> mirrored n_bodies y y'.
Proof.
  intros s n m m' x x' t0 dt m1 m1' y y' Mx. unfold run. revert m1 m1' y y'. induction n as [|n IH]; intros m1 m1' y y' H H'.
  - cbn [steps] in H, H'. injection H as _ <-. injection H' as _ <-. exact Mx.
  - apply steps_last in H as (m2 & x2 & x3 & H1 & H2 & ->). apply steps_last in H' as (m2' & x2' & x3' & H1' & H2' & ->). exact (step_mirrored _ _ _ _ _ _ _ _ _ _ _ (IH _ _ _ _ H1 H1') H2 H2').
Qed.
End Mirror.
Print Assumptions mirrored_simulations.
(** Of one symmetrical ship: it starts upright without drift, so it goes straight. *)
Definition no_side (n_bodies : nat) (x : list R) : Prop := forall i, (i < n_bodies)%nat ->
  state_of x i 1 = 0 /\ state_of x i 4 = 0 /\ state_of x i 6 = 0 /\ state_of x i 8 = 0 /\ state_of x i 10 = 0 /\ state_of x i 12 = 0.
Lemma no_side_mirrored n_bodies x : List.length x = (13 * n_bodies)%nat -> no_side n_bodies x <-> mirrored n_bodies x x.
Proof.
  intros L. split.
  - intros H. split; [exact L|]. split; [exact L|]. intros i k Hi Hk. destruct (H i Hi) as (A & B & C & D & F & G). do 13 (destruct k as [|k]; [cbn [sign]; lra|]). lia.
  - intros (_ & _ & V) i Hi. pose proof (V i 1%nat Hi ltac:(lia)). pose proof (V i 4%nat Hi ltac:(lia)). pose proof (V i 6%nat Hi ltac:(lia)). pose proof (V i 8%nat Hi ltac:(lia)). pose proof (V i 10%nat Hi ltac:(lia)). pose proof (V i 12%nat Hi ltac:(lia)). cbn [sign] in *. repeat split; lra.
Qed.
Theorem symmetrical_ships_go_straight : forall (aeqR : Z -> R -> R -> bool) Itp (itp_f itp_df : Itp -> R -> outcome R) (bodies : nat -> body Itp) n_bodies E s n m x t0 dt m' y,
  numbered Itp bodies n_bodies -> not_forced Itp bodies n_bodies -> opposite_hands aeqR Itp bodies bodies n_bodies E E -> List.length x = (13 * n_bodies)%nat -> no_side n_bodies x ->
  run aeqR Itp itp_f itp_df bodies E n_bodies (fun x _ => x) s n m x t0 dt = Done m' y -> no_side n_bodies y.
Proof.
  intros aeqR Itp itp_f itp_df bodies n_bodies E s n m x t0 dt m' y Hn Hf Hh L H Q. apply no_side_mirrored in H; [|exact L].
  pose proof (mirrored_simulations aeqR Itp itp_f itp_df bodies bodies n_bodies Hn Hf Hn Hf E E Hh s n m m x x t0 dt m' m' y y H Q Q) as G. apply no_side_mirrored; [exact (proj1 G)|exact G].
Qed.
Print Assumptions symmetrical_ships_go_straight.

(** ** The efforts of the models, in the mirror *)
Lemma to_vector_mirrored t : mirrored_efforts (to_vector t) (to_vector (seen_torsor t)).
Proof. intros k Hk. destruct t as [[a b c] [d e f]]. do 6 (destruct k as [|k]; [unfold to_vector, seen_torsor, mirror_force, mirror_torque; cbn [fst snd vx vy vz effort_sign]; ring|]). lia. Qed.
Lemma sum_mirrored c ws ts : Force_Model.sum_of_forces (seen_torsor c) (map (fun w => Force_Model.mkW (mirror_force (Force_Model.w_point w)) (mirror_force (Force_Model.w_force w)) (mirror_torque (Force_Model.w_torque w))) ws) (map seen_torsor ts)
  = seen_torsor (Force_Model.sum_of_forces c ws ts).
Proof.
  unfold Force_Model.sum_of_forces. rewrite map_map. cbn [Force_Model.w_force Force_Model.w_torque].
  assert (G : forall l c, fold_left (fun acc t : torsor => (vadd (fst acc) (fst t), vadd (snd acc) (snd t))) (map seen_torsor l) (seen_torsor c) = seen_torsor (fold_left (fun acc t : torsor => (vadd (fst acc) (fst t), vadd (snd acc) (snd t))) l c)).
  { induction l as [|a l IH]; intros c'; [reflexivity|]. cbn [map fold_left]. rewrite <- IH. f_equal. unfold seen_torsor, mirror_force, mirror_torque, vadd. cbn [fst snd vx vy vz]. f_equal; apply vec_eq; cbn [vx vy vz]; ring. }
  rewrite <- G. f_equal. rewrite <- G. f_equal. rewrite map_map. reflexivity.
Qed.
Theorem weight_in_the_mirror : forall n_bodies x x' i mass g, mirrored n_bodies x x' -> (i < n_bodies)%nat ->
  gravity (inverse_transform (placement x' i)) mass g = seen_torsor (gravity (inverse_transform (placement x i)) mass g).
Proof.
  intros n_bodies x x' i mass g (_ & _ & V) Hi. unfold gravity, inverse_transform, placement, get_rot_from_ned_to. cbn [t_rot].
  rewrite (V i 9%nat), (V i 10%nat), (V i 11%nat), (V i 12%nat) by lia. cbn [sign]. unfold seen_torsor, mirror_force, mirror_torque, qmat, transpose, mapply, dot, v0. cbn [fst snd r1 r2 r3 vx vy vz]. f_equal; apply vec_eq; cbn [vx vy vz]; ring.
Qed.
Print Assumptions weight_in_the_mirror.
Theorem damping_in_the_mirror : forall D D' P v omega, mirrored_matrix D D' ->
  (forall get, get = linear_damping \/ get = quadratic_damping -> let w := damping get D P v omega in let w' := damping get D' (mirror_force P) (mirror_force v) (mirror_torque omega) in
   Force_Model.w_point w' = mirror_force (Force_Model.w_point w) /\ Force_Model.w_force w' = mirror_force (Force_Model.w_force w) /\ Force_Model.w_torque w' = mirror_torque (Force_Model.w_torque w)).
Proof.
  intros D D' P v omega HD get Hg. cbv zeta. split; [reflexivity|].
  assert (N : forall a, Rabs (- a) * - a = - (Rabs a * a)) by (intros a; rewrite Rabs_Ropp; ring).
  destruct Hg as [-> | ->]; unfold damping, damping_wrench, linear_damping, quadratic_damping, mul6, sum6; cbn [Force_Model.w_force Force_Model.w_torque states6];
    unfold mirror_force, mirror_torque; cbn [vx vy vz states6]; rewrite !(HD 0%nat), !(HD 1%nat), !(HD 2%nat), !(HD 3%nat), !(HD 4%nat), !(HD 5%nat) by lia; cbn [effort_sign]; rewrite ?N; split; apply vec_eq; cbn [vx vy vz]; ring.
Qed.
Print Assumptions damping_in_the_mirror.
(** A propeller in the mirror turns the other way; the rudder, too. *)
Definition other_hand (p : propeller) : propeller := mkProp (pr_w p) (pr_etaR p) (pr_t p) (negb (pr_clockwise p)) (pr_D p) (pr_rho p) (pr_Kt p) (pr_Kq p).
Theorem propeller_and_rudder_in_the_mirror : forall p m u v rpm beta, vy (rd_prop m) = vy (rd_pos m) ->
  propeller_and_rudder (other_hand p) m u (- v) rpm (- beta) = option_map seen_torsor (propeller_and_rudder p m u v rpm beta).
Proof.
  intros p m u v rpm beta Hy. unfold propeller_and_rudder. cbv zeta.
  assert (Pf : propeller_force (other_hand p) u rpm = seen_torsor (propeller_force p u rpm)).
  { unfold propeller_force, other_hand, advance_ratio, seen_torsor, mirror_force, mirror_torque. cbn [pr_w pr_etaR pr_t pr_clockwise pr_D pr_rho pr_Kt pr_Kq fst snd vx vy vz]. destruct (pr_clockwise p); cbn [negb]; f_equal; apply vec_eq; cbn [vx vy vz]; ring. }
  assert (Nf : norm6 (seen_torsor (propeller_force p u rpm)) = norm6 (propeller_force p u rpm)).
  { unfold norm6, seen_torsor, mirror_force, mirror_torque, dot. cbn [fst snd vx vy vz]. f_equal. ring. }
  rewrite Pf, Nf. change (pr_w (other_hand p)) with (pr_w p). set (T := norm6 _). set (pf := propeller_force p u rpm).
  destruct (rudder_force m (pr_w p) u v beta T) as [rf|] eqn:Er.
  - rewrite (rudder_symmetry _ _ _ _ _ _ _ Hy Er). cbn [option_map fst snd]. f_equal. unfold seen_torsor, mirror_force, mirror_torque, vadd. cbn [fst snd vx vy vz]. f_equal; apply vec_eq; cbn [vx vy vz]; ring.
  - destruct (rudder_force m (pr_w p) u (- v) (- beta) T) as [rf|] eqn:Er'; [|reflexivity]. exfalso.
    pose proof (rudder_symmetry _ _ _ _ _ _ _ Hy Er') as K. rewrite !Ropp_involutive, Er in K. discriminate.
Qed.
Print Assumptions propeller_and_rudder_in_the_mirror.
(** The transport to the centre of gravity of what a controlled model gives in its own axes *)
Theorem controlled_efforts_in_the_mirror : forall T G F, controlled_wrench (seen_transform T) (mirror_force G) (seen_torsor F) = seen_torsor (controlled_wrench T G F).
Proof.
  intros [[[a b c] [d e f] [g h i]] [p q r]] [x y z] [[k l m] [n o s]]. unfold controlled_wrench, seen_torsor, seen_transform, seen_matrix, mirror_force, mirror_torque, mapply, vadd, vopp, cross, dot. cbn [t_rot t_point fst snd r1 r2 r3 vx vy vz].
  f_equal; apply vec_eq; cbn [vx vy vz]; ring.
Qed.
Theorem constant_efforts_in_the_mirror : forall T p force torque G, constant_force (seen_transform T) (mirror_force p) (mirror_force force) (mirror_torque torque) (mirror_force G) = seen_torsor (constant_force T p force torque G).
Proof.
  intros [[[a b c] [d e f] [g h i]] [p q r]] [p1 p2 p3] [x y z] [k l m] [n o s]. unfold constant_force, seen_torsor, seen_transform, seen_matrix, mirror_force, mirror_torque, mapply, vadd, vopp, cross, dot. cbn [t_rot t_point fst snd r1 r2 r3 vx vy vz].
  f_equal; apply vec_eq; cbn [vx vy vz]; ring.
Qed.
(** The controllers: the opposite orders for the opposite deviations *)
Theorem controllers_in_the_mirror : forall M ksi Tp psi_co psi r c x_co y_co x y u v,
  heading_torque M ksi Tp (- psi_co) (- psi) (- r) = - heading_torque M ksi Tp psi_co psi r /\
  station_keeping M c x_co (- y_co) (- psi_co) x (- y) (- psi) u (- v) (- r) = seen_torsor (station_keeping M c x_co y_co psi_co x y psi u v r).
Proof.
  intros. split; [unfold heading_torque; ring|]. unfold station_keeping, seen_torsor, mirror_force, mirror_torque. cbn [fst snd vx vy vz]. f_equal; apply vec_eq; cbn [vx vy vz]; ring.
Qed.
(** Linear hydrostatics: the points of port and starboard are swapped *)
Definition other_side (m : linear_hydrostatics) : linear_hydrostatics :=
  mkLH (seen_matrix (lh_K m)) (mirror_force (lh_P2 m)) (mirror_force (lh_P1 m)) (mirror_force (lh_P4 m)) (mirror_force (lh_P3 m)) (lh_z_eq m) (lh_theta_eq m) (- lh_phi_eq m).
Theorem linear_hydrostatics_in_the_mirror : forall m z1 z2 z3 z4 z phi theta,
  linear_hydrostatic_force (other_side m) z2 z1 z4 z3 z (- phi) theta = seen_torsor (linear_hydrostatic_force m z1 z2 z3 z4 z phi theta).
Proof.
  intros m z1 z2 z3 z4 z phi theta.
  assert (Nn : forall a b, norm (vsub (mirror_force a) (mirror_force b)) = norm (vsub a b) /\ norm (vsub (mirror_force b) (mirror_force a)) = norm (vsub a b)).
  { intros [a b c] [d e f]. unfold norm, vsub, mirror_force, dot. cbn [vx vy vz]. split; f_equal; ring. }
  assert (Ph : compute_phibar (other_side m) z2 z1 z4 z3 = - compute_phibar m z1 z2 z3 z4).
  { unfold compute_phibar, lh_d12, lh_d34. cbn [other_side lh_P1 lh_P2 lh_P3 lh_P4]. rewrite (proj2 (Nn (lh_P1 m) (lh_P2 m))), (proj2 (Nn (lh_P3 m) (lh_P4 m))).
    replace (z1 - z2) with (- (z2 - z1)) by ring. replace (z3 - z4) with (- (z4 - z3)) by ring. rewrite !atan_opp. unfold Rdiv. ring. }
  assert (Th : compute_thetabar (other_side m) z2 z1 z4 z3 = compute_thetabar m z1 z2 z3 z4).
  { unfold compute_thetabar, lh_d24, lh_d13. cbn [other_side lh_P1 lh_P2 lh_P3 lh_P4]. rewrite (proj1 (Nn (lh_P1 m) (lh_P3 m))), (proj1 (Nn (lh_P2 m) (lh_P4 m))). unfold Rdiv. ring. }
  unfold linear_hydrostatic_force. cbv zeta. rewrite Ph, Th. unfold compute_zbar. cbn [other_side lh_z_eq lh_theta_eq lh_phi_eq lh_K]. unfold seen_torsor, mirror_force, mirror_torque, seen_matrix, vopp, mapply, dot. cbn [fst snd r1 r2 r3 vx vy vz].
  destruct (lh_K m) as [[a b c] [d e f] [g h i]]. cbn [r1 r2 r3 vx vy vz mirror_force]. f_equal; apply vec_eq; cbn [vx vy vz]; ring.
Qed.
Print Assumptions controlled_efforts_in_the_mirror.
Print Assumptions constant_efforts_in_the_mirror.
Print Assumptions controllers_in_the_mirror.
Print Assumptions linear_hydrostatics_in_the_mirror.

(** ** A ship with a propeller and a rudder *)
(** Its weight, its damping, and the propeller and the rudder whose frame in the ship is [T], ordered to turn at [rpm t] with the angle [beta t]; [UB] stands for the
    efforts that are not numbers (RudderForceModel.cpp:69-81). *)
Definition sailing {aeqR : Z -> R -> R -> bool} (mass g : R) (D1 D2 : mat) (P G : vec3) (T : transform) (p : propeller) (m : rudder) (rpm beta : R -> R) (_ : list (memory aeqR)) (i : nat) (x : list R) (t : R) : outcome vec :=
  match propeller_and_rudder p m (state_of x i 3) (state_of x i 4) (rpm t) (beta t) with
  | None => UB
  | Some F => Ok (usual mass g D1 D2 P (controlled_wrench T G F) i t x)
  end.
Lemma usual_mirrored n_bodies mass g D1 D1' D2 D2' P push i t x x' : mirrored_matrix D1 D1' -> mirrored_matrix D2 D2' -> mirrored n_bodies x x' -> (i < n_bodies)%nat ->
  mirrored_efforts (usual mass g D1 D2 P push i t x) (usual mass g D1' D2' (mirror_force P) (seen_torsor push) i t x').
Proof.
  intros H1 H2 Mx Hi. pose proof Mx as (_ & _ & V). unfold usual. cbv zeta.
  set (v := V3 (state_of x i 3) (state_of x i 4) (state_of x i 5)). set (om := V3 (state_of x i 6) (state_of x i 7) (state_of x i 8)).
  assert (V3 (state_of x' i 3) (state_of x' i 4) (state_of x' i 5) = mirror_force v) as -> by (unfold v, mirror_force; cbn [vx vy vz]; rewrite (V i 3%nat), (V i 4%nat), (V i 5%nat) by lia; cbn [sign]; apply vec_eq; cbn [vx vy vz]; ring).
  assert (V3 (state_of x' i 6) (state_of x' i 7) (state_of x' i 8) = mirror_torque om) as -> by (unfold om, mirror_torque; cbn [vx vy vz]; rewrite (V i 6%nat), (V i 7%nat), (V i 8%nat) by lia; cbn [sign]; apply vec_eq; cbn [vx vy vz]; ring).
  rewrite (weight_in_the_mirror n_bodies x x' i mass g Mx Hi). set (w := gravity (inverse_transform (placement x i)) mass g).
  pose proof (damping_in_the_mirror D1 D1' P v om H1 linear_damping (or_introl eq_refl)) as (_ & A1 & B1). pose proof (damping_in_the_mirror D2 D2' P v om H2 quadratic_damping (or_intror eq_refl)) as (_ & A2 & B2).
  set (d1' := damping linear_damping D1' _ _ _) in *. set (d2' := damping quadratic_damping D2' _ _ _) in *. set (d1 := damping linear_damping D1 P v om) in *. set (d2 := damping quadratic_damping D2 P v om) in *.
  pose proof (sum_mirrored (v0, v0) [Force_Model.mkW v0 (fst w) (snd w); d1; d2] [push]) as Q.
  pose proof (to_vector_mirrored (Force_Model.sum_of_forces (v0, v0) [Force_Model.mkW v0 (fst w) (snd w); d1; d2] [push])) as K. rewrite <- Q in K.
  match type of K with mirrored_efforts _ (to_vector ?a) => match goal with |- mirrored_efforts _ (to_vector ?b) => assert (a = b) as EQ; [|rewrite <- EQ; exact K] end end.
  unfold Force_Model.sum_of_forces. cbn [map Force_Model.w_force Force_Model.w_torque Force_Model.w_point]. rewrite A1, B1, A2, B2.
  assert (seen_torsor (v0, v0) = (v0, v0)) as -> by (unfold seen_torsor, mirror_force, mirror_torque, v0; cbn [fst snd vx vy vz]; f_equal; apply vec_eq; cbn [vx vy vz]; ring). reflexivity.
Qed.
(** The turning circle to port is the mirror image of the one to starboard, with the propeller that turns the other way. *)
Theorem port_and_starboard : forall (aeqR : Z -> R -> R -> bool) Itp (itp_f itp_df : Itp -> R -> outcome R) (bodies bodies' : nat -> body Itp) n_bodies mass g D1 D1' D2 D2' P G T p r rpm beta s n m m' x x' t0 dt m1 m1' y y',
  numbered Itp bodies n_bodies -> not_forced Itp bodies n_bodies -> numbered Itp bodies' n_bodies -> not_forced Itp bodies' n_bodies ->
  (forall i, (i < n_bodies)%nat -> mirrored_matrix (bd_Minv (bodies i)) (bd_Minv (bodies' i))) -> mirrored_matrix D1 D1' -> mirrored_matrix D2 D2' -> vy (rd_prop r) = vy (rd_pos r) -> mirrored n_bodies x x' ->
  run aeqR Itp itp_f itp_df bodies (sailing mass g D1 D2 P G T p r rpm beta) n_bodies (fun x _ => x) s n m x t0 dt = Done m1 y ->
  run aeqR Itp itp_f itp_df bodies' (sailing mass g D1' D2' (mirror_force P) (mirror_force G) (seen_transform T) (other_hand p) r rpm (fun t => - beta t)) n_bodies (fun x _ => x) s n m' x' t0 dt = Done m1' y' ->
  mirrored n_bodies y y'.
Proof.
  intros aeqR Itp itp_f itp_df bodies bodies' n_bodies mass g D1 D1' D2 D2' P G T p r rpm beta s n m m' x x' t0 dt m1 m1' y y' N F N' F' HM H1 H2 Hy Mx Q Q'.
  refine (mirrored_simulations aeqR Itp itp_f itp_df bodies bodies' n_bodies N F N' F' _ _ _ s n m m' x x' t0 dt m1 m1' y y' Mx Q Q'). split; [exact HM|].
  intros ma mb i z z' t f f' Hi Mz Ef Ef'. unfold sailing in Ef, Ef'. pose proof Mz as (_ & _ & V). rewrite (V i 3%nat), (V i 4%nat) in Ef' by lia. cbn [sign] in Ef'.
  replace (1 * state_of z i 3) with (state_of z i 3) in Ef' by ring. replace (-1 * state_of z i 4) with (- state_of z i 4) in Ef' by ring. rewrite propeller_and_rudder_in_the_mirror in Ef' by exact Hy.
  destruct (propeller_and_rudder p r (state_of z i 3) (state_of z i 4) (rpm t) (beta t)) as [Fp|]; [|discriminate]. cbn [option_map] in Ef'. injection Ef as <-. injection Ef' as <-.
  rewrite controlled_efforts_in_the_mirror. apply (usual_mirrored n_bodies); assumption.
Qed.
Print Assumptions port_and_starboard.
(** ** Twin screws that turn in opposite directions *)
Definition both_of (a b : torsor) : torsor := (vadd (fst a) (fst b), vadd (snd a) (snd b)).
Definition twin_screws {aeqR : Z -> R -> R -> bool} (mass g : R) (D1 D2 : mat) (P G : vec3) (T : transform) (p : propeller) (rpm : R -> R) (_ : list (memory aeqR)) (i : nat) (x : list R) (t : R) : outcome vec :=
  let u := state_of x i 3 in
  Ok (usual mass g D1 D2 P (both_of (controlled_wrench T G (propeller_force p u (rpm t))) (controlled_wrench (seen_transform T) G (propeller_force (other_hand p) u (rpm t)))) i t x).
Lemma propeller_mirrored p u rpm : propeller_force (other_hand p) u rpm = seen_torsor (propeller_force p u rpm).
Proof. unfold propeller_force, other_hand, advance_ratio, seen_torsor, mirror_force, mirror_torque. cbn [pr_w pr_etaR pr_t pr_clockwise pr_D pr_rho pr_Kt pr_Kq fst snd vx vy vz]. destruct (pr_clockwise p); cbn [negb]; f_equal; apply vec_eq; cbn [vx vy vz]; ring. Qed.
Lemma twin_hands (aeqR : Z -> R -> R -> bool) Itp (bodies : nat -> body Itp) n_bodies mass g D1 D2 P G T p rpm :
  (forall i, (i < n_bodies)%nat -> mirrored_matrix (bd_Minv (bodies i)) (bd_Minv (bodies i))) -> mirrored_matrix D1 D1 -> mirrored_matrix D2 D2 -> vy P = 0 -> vy G = 0 ->
  opposite_hands aeqR Itp bodies bodies n_bodies (twin_screws mass g D1 D2 P G T p rpm) (twin_screws mass g D1 D2 P G T p rpm).
Proof.
  intros HM H1 H2 HP HG. split; [exact HM|]. intros ma mb i z z' t f f' Hi Mz Ef Ef'. unfold twin_screws in Ef, Ef'. cbv zeta in Ef, Ef'. injection Ef as <-. injection Ef' as <-. pose proof Mz as (_ & _ & V).
  rewrite (V i 3%nat) by lia. cbn [sign]. replace (1 * state_of z i 3) with (state_of z i 3) by ring. rewrite propeller_mirrored. set (F := propeller_force p (state_of z i 3) (rpm t)).
  assert (EP : mirror_force P = P) by (apply vec_eq; unfold mirror_force; cbn [vx vy vz]; rewrite ?HP; ring).
  assert (EG : mirror_force G = G) by (apply vec_eq; unfold mirror_force; cbn [vx vy vz]; rewrite ?HG; ring).
  pose proof (controlled_efforts_in_the_mirror T G F) as C. rewrite EG in C. rewrite C. set (w := controlled_wrench T G F).
  pose proof (usual_mirrored n_bodies mass g D1 D1 D2 D2 P (both_of w (seen_torsor w)) i t z z' H1 H2 Mz Hi) as K. rewrite EP in K.
  assert (seen_torsor (both_of w (seen_torsor w)) = both_of w (seen_torsor w)) as EQ; [|rewrite EQ in K; exact K].
  unfold both_of, seen_torsor, mirror_force, mirror_torque, vadd. cbn [fst snd vx vy vz]. f_equal; apply vec_eq; cbn [vx vy vz]; ring.
Qed.
Theorem twin_screws_go_straight : forall (aeqR : Z -> R -> R -> bool) Itp (itp_f itp_df : Itp -> R -> outcome R) (bodies : nat -> body Itp) n_bodies mass g D1 D2 P G T p rpm s n m x t0 dt m' y,
  numbered Itp bodies n_bodies -> not_forced Itp bodies n_bodies -> (forall i, (i < n_bodies)%nat -> mirrored_matrix (bd_Minv (bodies i)) (bd_Minv (bodies i))) -> mirrored_matrix D1 D1 -> mirrored_matrix D2 D2 -> vy P = 0 -> vy G = 0 ->
  List.length x = (13 * n_bodies)%nat -> no_side n_bodies x ->
  run aeqR Itp itp_f itp_df bodies (twin_screws mass g D1 D2 P G T p rpm) n_bodies (fun x _ => x) s n m x t0 dt = Done m' y -> no_side n_bodies y.
Proof.
  intros aeqR Itp itp_f itp_df bodies n_bodies mass g D1 D2 P G T p rpm s n m x t0 dt m' y N F HM H1 H2 HP HG L Hx Q.
  refine (symmetrical_ships_go_straight aeqR Itp itp_f itp_df bodies n_bodies _ s n m x t0 dt m' y N F _ L Hx Q). apply twin_hands; assumption.
Qed.
Print Assumptions twin_screws_go_straight.

(** ** The hypotheses are met *)
Definition screw : propeller := mkProp 0 1 0 true 1 1 (fun _ => 1) (fun _ => 1).
Definition starboard_shaft : transform := mkT (M3 (V3 1 0 0) (V3 0 1 0) (V3 0 0 1)) (V3 (-10) 2 1).
Definition two6 : mat := fun j k => if Nat.eqb j k then 2 else 0.
Definition light (i : nat) : body R := @mkBody R i (mkBlocked mempty i mempty mempty) two6 two6.
Lemma two6_mirrored : mirrored_matrix two6 two6.
Proof. intros j k _ _. unfold two6. destruct (Nat.eqb_spec j k) as [<-|N]; [|ring]. do 6 (destruct j as [|j]; [cbn [effort_sign]; ring|]). cbn [effort_sign]. ring. Qed.
Definition underway : list R := [0; 0; 0; 5; 0; 0; 0; 0; 0; 1; 0; 0; 0].
Example twin_screws_witness : forall s n dt, s = euler \/ s = rk4 -> 0 <= dt -> exists m' y,
  run same R rf rdf light (twin_screws 2 10 two6 two6 v0 v0 starboard_shaft screw (fun _ => 10)) 1 (fun x _ => x) s n blank underway 0 dt = Done m' y /\ no_side 1 y.
Proof.
  intros s n dt Hs Hd. assert (N : numbered R light 1) by (intros i _; split; reflexivity). assert (NF : not_forced R light 1) by (intros i q _; destruct q; reflexivity).
  destruct (forward_solvers_run same Drift_Props.same_refl (forced R rf light) (derivatives same R rdf light (twin_screws 2 10 two6 two6 v0 v0 starboard_shaft screw (fun _ => 10))) 1 s (fun x _ => x) n blank underway 0 dt) as (m' & y & Q & _); auto.
  - destruct rk_in_order as (Oe & Or & _). destruct Hs as [->| ->]; assumption.
  - apply free_bodies_computable; auto. intros. eexists. reflexivity.
  - exact blank_ok.
  - exists m', y. split; [exact Q|]. refine (twin_screws_go_straight same R rf rdf light 1 2 10 two6 two6 v0 v0 starboard_shaft screw (fun _ => 10) s n blank underway 0 dt m' y N NF _ two6_mirrored two6_mirrored eq_refl eq_refl eq_refl _ Q).
    + intros i _. exact two6_mirrored.
    + intros i Hi. assert (i = 0)%nat as -> by lia. repeat split; reflexivity.
Qed.
(** One screw alone is not its own image: its torque makes the same ship heel at the first step. *)
Definition single_screw (_ : list (memory same)) (i : nat) (x : list R) (t : R) : outcome vec :=
  Ok (usual 2 10 two6 two6 v0 (controlled_wrench (mkT (M3 (V3 1 0 0) (V3 0 1 0) (V3 0 0 1)) (V3 (-10) 0 0)) v0 (propeller_force screw (state_of x i 3) 10)) i t x).
Example single_screw_heels : forall dt, 0 < dt -> exists m' y, run same R rf rdf light single_screw 1 (fun x _ => x) euler 1 blank underway 0 dt = Done m' y /\ state_of y 0 6 < 0.
Proof.
  intros dt Hd. assert (N : numbered R light 1) by (intros i _; split; reflexivity). assert (NF : not_forced R light 1) by (intros i q _; destruct q; reflexivity).
  destruct (forward_solvers_run same Drift_Props.same_refl (forced R rf light) (derivatives same R rdf light single_screw) 1 euler (fun x _ => x) 1 blank underway 0 dt) as (m' & y & Q & _); auto.
  - destruct rk_in_order as (Oe & _). exact Oe.
  - apply free_bodies_computable; auto. intros. eexists. reflexivity.
  - lra.
  - exact blank_ok.
  - exists m', y. split; [exact Q|]. apply steps_last in Q as (m2 & x2 & x3 & H1 & H2 & ->). cbn [steps] in H1. injection H1 as <- <-. apply euler_inv in H2 as (k & H2 & ->).
    destruct (evaluate_free same R rf rdf light 1 N NF single_screw _ underway _ _ k 0 eq_refl ltac:(lia) H2) as (_ & mi & F & EF & D). rewrite state_of_combine by (cbn; lia). cbn [combine map fold_right fst snd]. rewrite D by lia.
    unfold single_screw in EF. injection EF as <-. set (w := controlled_wrench _ _ _).
    assert (Tw : vx (snd w) < 0).
    { unfold w, controlled_wrench, propeller_force, screw, mapply, vadd, vopp, cross, dot, v0. cbn [t_rot t_point fst snd r1 r2 r3 vx vy vz pr_clockwise pr_etaR pr_rho pr_D pr_Kq pr_t pr_Kt].
      assert (0 < 10 * 10 / (4 * PI * PI)) by (apply Rdiv_lt_0_compat; [lra|]; pose proof PI_RGT_0; nra). lra. }
    generalize dependent w. intros w Tw.
    assert (S6 : state_of underway 0 6 = 0) by reflexivity. rewrite S6.
    unfold free_derivative. cbv zeta. cbn [nth light bd_Minv]. assert (T6 : forall j k, two6 j k = if Nat.eqb j k then 2 else 0) by reflexivity. rewrite !T6. cbn [Nat.eqb].
    assert (U : forall t, usual 2 10 two6 two6 v0 w 0 t underway 3%nat = vx (snd w)).
    { intros t. unfold usual. assert (E3 : state_of underway 0 3 = 5) by reflexivity. assert (E4 : state_of underway 0 4 = 0) by reflexivity. assert (E5 : state_of underway 0 5 = 0) by reflexivity. assert (E6 : state_of underway 0 6 = 0) by reflexivity. assert (E7 : state_of underway 0 7 = 0) by reflexivity. assert (E8 : state_of underway 0 8 = 0) by reflexivity.
      rewrite E3, E4, E5, E6, E7, E8. unfold Force_Model.sum_of_forces, gravity, damping, damping_wrench, linear_damping, quadratic_damping, mul6, sum6, two6. cbn [map fold_left fst snd Force_Model.w_force Force_Model.w_torque states6 v0 vx vy vz to_vector vadd Nat.eqb]. ring. }
    rewrite U. nra.
Qed.
(** A turning ship: its rudder at 30 degrees, its propeller at 10 rad/s, one step of Euler. *)
Definition fast_rudder : rudder := mkRudder 1 1 4 1 1 v0 v0 1 1 (1 / 1000).
Lemma Cd_defined V Cl : 1 <= V -> exists c, rd_Cd fast_rudder V Cl = Some c.
Proof.
  intros HV. unfold rd_Cd. cbv zeta. unfold rd_chord. cbn [fast_rudder rd_Ar rd_b rd_nu]. set (Rn := V * (1 / 1) / (1 / 1000)). assert (HR : 1000 <= Rn) by (unfold Rn; field_simplify; lra).
  destruct (Force_Props.Rltb_dec 0 Rn) as [[-> _]|[_ H]]; [|lra].
  assert (L : 2 * ln 10 < ln Rn). { replace (2 * ln 10) with (ln (10 * 10)) by (rewrite ln_mult by lra; ring). apply ln_increasing; lra. }
  assert (0 < ln 10) by (rewrite <- ln_1; apply ln_increasing; lra). assert (0 < ln Rn / ln 10 - 2). { apply Rmult_lt_reg_r with (ln 10); [assumption|]. field_simplify; lra. }
  destruct (Force_Props.Rltb_dec 0 ((ln Rn / ln 10 - 2) * (ln Rn / ln 10 - 2))) as [[-> _]|[_ Q]]; [eauto|nra].
Qed.
Lemma wrench_fast b f V a : 1 <= V -> exists w, rd_wrench fast_rudder b f V a = Some w.
Proof. intros HV. unfold rd_wrench. cbv zeta. destruct (Cd_defined V (rd_Cl fast_rudder (b - f)) HV) as (c & ->). eauto. Qed.
Lemma root_above a b : 1 <= a -> 1 <= sqrt (a * a + b * b).
Proof. intros H. rewrite <- sqrt_1 at 1. apply sqrt_le_1_alt. nra. Qed.
Lemma fast_defined beta v T : 0 <= T -> exists w, rudder_force fast_rudder 0 5 v beta T = Some w.
Proof.
  intros HT. unfold rudder_force. cbv zeta. replace (5 * (1 - 0)) with 5 by ring. set (CTh := rd_CTh fast_rudder 5 T). destruct (rd_areas fast_rudder CTh) as (ai, ao).
  assert (HC : 0 <= CTh). { unfold CTh, rd_CTh. cbv zeta. cbn [fast_rudder rd_D rd_rho]. pose proof PI_RGT_0 as Pp. pose proof (Rinv_0_lt_compat PI Pp). assert (0 <= 8 / PI * T) by (unfold Rdiv; apply Rmult_le_pos; [nra|exact HT]).
    destruct (Force_Props.Rltb_dec (Rabs (1 * 5)) (1 / 10000000000)) as [[_ K]|[-> _]]; [rewrite Rabs_pos_eq in K by lra; lra|]. apply Rmult_le_pos; [assumption|]. left. apply Rinv_0_lt_compat. lra. }
  assert (HR : 1 / 2 <= rd_RF CTh) by (apply (rudder_reduction_factor CTh CTh); lra). pose proof (Kr_bounds fast_rudder) as HK.
  assert (HV : 0 <= rd_Vchange fast_rudder 5 T).
  { unfold rd_Vchange. cbn [fast_rudder rd_rho rd_D]. assert (5 <= sqrt (5 * 5 + 8 / PI * T / (1 * (1 * 1)))); [|lra]. rewrite <- (sqrt_square 5) at 1 by lra. apply sqrt_le_1_alt.
    pose proof PI_RGT_0 as Pp. pose proof (Rinv_0_lt_compat PI Pp). assert (0 <= 8 / PI * T) by (unfold Rdiv; apply Rmult_le_pos; [nra|exact HT]). replace (8 / PI * T / (1 * (1 * 1))) with (8 / PI * T) by (field; lra). lra. }
  unfold rd_vs_in, rd_vs_out. cbn [fst snd].
  assert (1 <= (5 + rd_Kr fast_rudder * rd_Vchange fast_rudder 5 T) * rd_RF CTh). { assert (0 <= rd_Kr fast_rudder * rd_Vchange fast_rudder 5 T) by (apply Rmult_le_pos; lra). nra. }
  match goal with |- context [rd_wrench fast_rudder beta ?f ?V ai] => destruct (wrench_fast beta f V ai) as (w1 & ->); [apply root_above; assumption|] end.
  match goal with |- context [rd_wrench fast_rudder beta ?f ?V ao] => destruct (wrench_fast beta f V ao) as (w2 & ->); [apply root_above; lra|] end. eauto.
Qed.
Lemma sailing_defined p beta m t : pr_w p = 0 -> exists F, sailing (aeqR := same) 2 10 two6 two6 v0 v0 starboard_shaft p fast_rudder (fun _ => 10) beta m 0 underway t = Ok F.
Proof.
  intros W. unfold sailing. change (state_of underway 0 3) with 5. change (state_of underway 0 4) with 0. unfold propeller_and_rudder. cbv zeta. rewrite W.
  destruct (fast_defined (beta t) 0 (norm6 (propeller_force p 5 10))) as (w & ->); [apply sqrt_pos|]. eauto.
Qed.
(** Efforts that can be computed at the beginning are enough for one step. *)
Lemma one_step (E : list (memory same) -> nat -> list R -> R -> outcome vec) dt : 0 <= dt -> (forall m t, exists F, E m 0%nat underway t = Ok F) ->
  exists m1 y, run same R rf rdf light E 1 (fun x _ => x) euler 1 blank underway 0 dt = Done m1 y.
Proof.
  intros Hd HE. assert (N : numbered R light 1) by (intros i _; split; reflexivity). assert (NF : not_forced R light 1) by (intros i q _; destruct q; reflexivity).
  set (E2 := fun m i x t => match E m i x t with Ok F => Ok F | _ => Ok (fun _ => 0) end).
  destruct (forward_solvers_run same Drift_Props.same_refl (forced R rf light) (derivatives same R rdf light E2) 1 euler (fun x _ => x) 1 blank underway 0 dt) as (m1 & y & Q & _); auto.
  - destruct rk_in_order as (Oe & _). exact Oe.
  - apply free_bodies_computable; auto. intros. unfold E2. destruct (E m i x t); eauto.
  - exact blank_ok.
  - exists m1, y. rewrite <- Q. unfold run. cbn [steps]. unfold do_step. cbn [euler nodes coefficients stages]. unfold system. cbn [dx_dt].
    assert (EU : combine_with underway dt [] [] = underway). { unfold combine_with, underway. cbn [List.length seq map combine fold_right nth]. assert (Z : forall a, a + dt * 0 = a) by (intros; ring). rewrite !Z. reflexivity. }
    rewrite EU. destruct (update_body_states same (forced R rf light) 0 blank underway _) as [m2 []| |]; cbn [bind]; try reflexivity.
    unfold derivatives, E2. destruct (HE m2 (0 + INR 0 * dt + 0 * dt)) as (F & ->). reflexivity.
Qed.
Example port_and_starboard_witness : forall dt, 0 <= dt -> exists m1 y m1' y',
  run same R rf rdf light (sailing 2 10 two6 two6 v0 v0 starboard_shaft screw fast_rudder (fun _ => 10) (fun _ => PI / 6)) 1 (fun x _ => x) euler 1 blank underway 0 dt = Done m1 y /\
  run same R rf rdf light (sailing 2 10 two6 two6 (mirror_force v0) (mirror_force v0) (seen_transform starboard_shaft) (other_hand screw) fast_rudder (fun _ => 10) (fun _ => - (PI / 6))) 1 (fun x _ => x) euler 1 blank underway 0 dt = Done m1' y' /\
  mirrored 1 y y'.
Proof.
  intros dt Hd. assert (N : numbered R light 1) by (intros i _; split; reflexivity). assert (NF : not_forced R light 1) by (intros i q _; destruct q; reflexivity).
  destruct (one_step (sailing 2 10 two6 two6 v0 v0 starboard_shaft screw fast_rudder (fun _ => 10) (fun _ => PI / 6)) dt Hd) as (m1 & y & Q); [intros; apply sailing_defined; reflexivity|].
  assert (EV : mirror_force v0 = v0) by (apply vec_eq; unfold mirror_force, v0; cbn [vx vy vz]; ring).
  destruct (one_step (sailing 2 10 two6 two6 (mirror_force v0) (mirror_force v0) (seen_transform starboard_shaft) (other_hand screw) fast_rudder (fun _ => 10) (fun _ => - (PI / 6))) dt Hd) as (m1' & y' & Q').
  { intros m t. unfold sailing. change (state_of underway 0 3) with 5. change (state_of underway 0 4) with 0. unfold propeller_and_rudder. cbv zeta. change (pr_w (other_hand screw)) with 0.
    destruct (fast_defined (- (PI / 6)) 0 (norm6 (propeller_force (other_hand screw) 5 10))) as (w & ->); [apply sqrt_pos|]. eauto. }
  exists m1, y, m1', y'. split; [exact Q|]. split; [exact Q'|].
  refine (port_and_starboard same R rf rdf light light 1 2 10 two6 two6 two6 two6 v0 v0 starboard_shaft screw fast_rudder (fun _ => 10) (fun _ => PI / 6) euler 1 blank blank underway underway 0 dt m1 m1' y y' N NF N NF _ two6_mirrored two6_mirrored eq_refl _ Q Q').
  - intros i _. exact two6_mirrored.
  - apply no_side_mirrored; [reflexivity|]. intros i Hi. assert (i = 0)%nat as -> by lia. repeat split; reflexivity.
Qed.
