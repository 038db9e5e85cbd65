(** C180: uniformly accelerated motions, rest and free fall. The model is Drift_Model.v (derivatives of Body.cpp:129-163 inside the steppers). *)
From Coq Require Import ZArith Reals Lra Lia Psatz List.
From Verif Require Import Common History_Model History_Real_Proofs Blocked_Model Blocked_Spec Blocked_Proofs Sim_Model Sim_Spec Sim_Proofs Sim_Props Solver_Model Solver_Props Drift_Model Drift_Props Force_Model Calm_Model Calm_Props Geometry.
Import ListNotations.
Open Scope R_scope.

(** Position in NED, velocity in the axes of the body. *)
Definition position (x : list R) (i : nat) : vec3 := V3 (state_of x i 0) (state_of x i 1) (state_of x i 2).
Definition velocity (x : list R) (i : nat) : vec3 := V3 (state_of x i 3) (state_of x i 4) (state_of x i 5).
(** Not turning, with the attitude of [x]. *)
Definition steady (x y : list R) (i : nat) : Prop :=
  (forall k, (6 <= k < 9)%nat -> state_of y i k = 0) /\ (forall k, (9 <= k < 13)%nat -> state_of y i k = state_of x i k).
(** Line [k] of the inverse of the inertia times the efforts. *)
Definition acceleration {Itp} (b : body Itp) (F : vec) (k : nat) : R := fold_right Rplus 0 (map (fun l => bd_Minv b k l * F l) (seq 0 6)).

Section Fall.
Variable aeqR : Z -> R -> R -> bool.
Variable Itp : Type.
Variable itp_f itp_df : Itp -> R -> outcome R.
Variable bodies : nat -> body Itp.
Variable n_bodies : nat.
Hypothesis bodies_numbered : numbered Itp bodies n_bodies.
Hypothesis bodies_free : not_forced Itp bodies n_bodies.
Variable sum_of_forces : list (memory aeqR) -> nat -> list R -> R -> outcome vec.
Notation der := (derivatives aeqR Itp itp_df bodies sum_of_forces).
Notation frc := (forced Itp itp_f bodies).
Notation ev := (evaluate aeqR Itp itp_f itp_df bodies sum_of_forces n_bodies).
Notation stp := (step aeqR Itp itp_f itp_df bodies sum_of_forces n_bodies).
Notation rn := (run aeqR Itp itp_f itp_df bodies sum_of_forces n_bodies (fun x _ => x)).

(** As long as the body [i] has the attitude of [x] and does not turn, the efforts on it accelerate it by [a] (in its axes) without turning it. *)
Definition pushed (x : list R) (i : nat) (a : vec3) : Prop := forall m y t F, List.length y = (13 * n_bodies)%nat -> steady x y i -> sum_of_forces m i y t = Ok F ->
  V3 (acceleration (bodies i) F 0) (acceleration (bodies i) F 1) (acceleration (bodies i) F 2) = a /\ forall k, (3 <= k < 6)%nat -> acceleration (bodies i) F k = 0.

Lemma dx_dt_free : forall n idx m x dx t m' dx', (idx + n <= n_bodies)%nat -> List.length x = (13 * n_bodies)%nat -> List.length dx = (13 * n_bodies)%nat -> Solver_Model.dx_dt aeqR frc der n idx m x dx t = Done m' dx' ->
  List.length dx' = (13 * n_bodies)%nat /\ (forall i k, (i < idx)%nat -> (k < 13)%nat -> state_of dx' i k = state_of dx i k) /\
  (forall i, (idx <= i < idx + n)%nat -> exists mi F, sum_of_forces mi i x t = Ok F /\ forall k, (k < 13)%nat -> state_of dx' i k = nth k (free_derivative (bodies i) F (entries (get_rot_from_ned_to x i)) x) 0).
Proof.
  induction n as [|n IH]; intros idx m x dx t m' dx' B Lx Ld H; cbn [Solver_Model.dx_dt] in H.
  - injection H as <- <-. split; [exact Ld|]. split; [reflexivity|]. intros; lia.
  - destruct (update_body_states aeqR frc idx m x t) as [m1 []| |]; cbn [bind] in H; try discriminate.
    pose proof (der_free aeqR Itp itp_f itp_df bodies n_bodies bodies_numbered bodies_free sum_of_forces m1 idx x dx t ltac:(lia) Lx Ld) as D.
    destruct (sum_of_forces m1 idx x t) as [F| |] eqn:EF; [|rewrite D in H; discriminate|rewrite D in H; discriminate].
    destruct D as (d1 & E1 & L1 & V1 & O1). rewrite E1 in H. destruct (IH (S idx) m1 x d1 t m' dx' ltac:(lia) Lx L1 H) as (L2 & O2 & V2).
    split; [exact L2|]. split.
    + intros i k Hi Hk. rewrite O2 by lia. apply O1; lia.
    + intros i Hi. destruct (Nat.eq_dec i idx) as [->|Q]; [|apply V2; lia]. exists m1, F. split; [exact EF|]. intros k Hk. rewrite O2 by lia. apply V1. exact Hk.
Qed.
Lemma evaluate_free m x t m' k i : List.length x = (13 * n_bodies)%nat -> (i < n_bodies)%nat -> ev m x t = Done m' k ->
  List.length k = (13 * n_bodies)%nat /\ exists mi F, sum_of_forces mi i x t = Ok F /\ forall j, (j < 13)%nat -> state_of k i j = nth j (free_derivative (bodies i) F (entries (get_rot_from_ned_to x i)) x) 0.
Proof.
  intros Lx Hi H. unfold evaluate, system in H. destruct (dx_dt_free n_bodies 0 m x (repeat 0 (List.length x)) t m' k (Nat.le_refl _) Lx ltac:(rewrite repeat_length; exact Lx) H) as (L & _ & V).
  split; [exact L|]. apply V. lia.
Qed.
(** The derivative of a body that does not turn. *)
Lemma evaluate_pushed m x y t m' k i a : List.length y = (13 * n_bodies)%nat -> (i < n_bodies)%nat -> pushed x i a -> steady x y i -> ev m y t = Done m' k ->
  position k i = mapply (get_rot_from_ned_to x i) (velocity y i) /\ velocity k i = a /\ forall j, (6 <= j < 13)%nat -> state_of k i j = 0.
Proof.
  intros Ly Hi P St H. destruct (evaluate_free m y t m' k i Ly Hi H) as (_ & mi & F & EF & V). destruct (P mi y t F Ly St EF) as (<- & Z). destruct St as (Sr & Sq).
  destruct (bodies_numbered i Hi) as (Ib & _). unfold free_derivative in V. rewrite Ib in V.
  assert (G : get_rot_from_ned_to y i = get_rot_from_ned_to x i) by (unfold get_rot_from_ned_to; rewrite !Sq by lia; reflexivity). rewrite G in V.
  split; [|split].
  - unfold position, velocity, mapply, dot. apply vec_eq; cbn [vx vy vz]; rewrite V by lia; cbv zeta; cbn [nth]; unfold entries; cbv zeta iota beta; ring.
  - unfold velocity, acceleration. cbn [seq map fold_right]. apply vec_eq; cbn [vx vy vz]; rewrite V by lia; cbv zeta; cbn [nth]; ring.
  - intros j Hj. rewrite V by lia. pose proof (Sr 6%nat ltac:(lia)) as R6. pose proof (Sr 7%nat ltac:(lia)) as R7. pose proof (Sr 8%nat ltac:(lia)) as R8.
    assert (j = 6 \/ j = 7 \/ j = 8 \/ 9 <= j < 13)%nat as [->|[->|[->|Q]]] by lia; cbn [nth].
    + rewrite <- (Z 3%nat ltac:(lia)). unfold acceleration. cbn [seq map fold_right]. ring.
    + rewrite <- (Z 4%nat ltac:(lia)). unfold acceleration. cbn [seq map fold_right]. ring.
    + rewrite <- (Z 5%nat ltac:(lia)). unfold acceleration. cbn [seq map fold_right]. ring.
    + rewrite R6, R7, R8. assert (j = 9 \/ j = 10 \/ j = 11 \/ j = 12)%nat as [->|[->|[->| ->]]] by lia; cbn [nth]; field.
Qed.
Lemma combine_position x dt a ks i : List.length x = (13 * n_bodies)%nat -> (i < n_bodies)%nat ->
  position (combine_with x dt a ks) i = vadd (position x i) (vscale dt (vsum (map (fun ak => vscale (fst ak) (position (snd ak) i)) (combine a ks)))).
Proof.
  intros L B. unfold position at 1. rewrite !state_of_combine by (apply (index_ok n_bodies); auto; lia). induction (combine a ks) as [|q l IH]; cbn [map fold_right].
  - apply vec_eq; unfold vsum, v0, position, velocity, vadd, vscale; cbn [fold_right vx vy vz]; ring.
  - apply (f_equal (fun p => vsub p (position x i))) in IH. apply vec_eq; [apply (f_equal vx) in IH|apply (f_equal vy) in IH|apply (f_equal vz) in IH]; unfold vsum in *; cbn [fold_right]; unfold position, vadd, vscale, vsub in *; cbn [vx vy vz] in *; lra.
Qed.
Lemma combine_velocity x dt a ks i : List.length x = (13 * n_bodies)%nat -> (i < n_bodies)%nat ->
  velocity (combine_with x dt a ks) i = vadd (velocity x i) (vscale dt (vsum (map (fun ak => vscale (fst ak) (velocity (snd ak) i)) (combine a ks)))).
Proof.
  intros L B. unfold velocity at 1. rewrite !state_of_combine by (apply (index_ok n_bodies); auto; lia). induction (combine a ks) as [|q l IH]; cbn [map fold_right].
  - apply vec_eq; unfold vsum, v0, position, velocity, vadd, vscale; cbn [fold_right vx vy vz]; ring.
  - apply (f_equal (fun p => vsub p (velocity x i))) in IH. apply vec_eq; [apply (f_equal vx) in IH|apply (f_equal vy) in IH|apply (f_equal vz) in IH]; unfold vsum in *; cbn [fold_right]; unfold velocity, vadd, vscale, vsub in *; cbn [vx vy vz] in *; lra.
Qed.
Lemma combine_steady x y dt a ks i : List.length y = (13 * n_bodies)%nat -> (i < n_bodies)%nat -> (forall k j, In k ks -> (6 <= j < 13)%nat -> state_of k i j = 0) -> steady x y i -> steady x (combine_with y dt a ks) i.
Proof.
  intros L B Z (Sr & Sq). assert (Q : forall j, (6 <= j < 13)%nat -> state_of (combine_with y dt a ks) i j = state_of y i j).
  { intros j Hj. rewrite state_of_combine by (apply (index_ok n_bodies); auto; lia).
    assert (fold_right Rplus 0 (map (fun ak : R * list R => fst ak * state_of (snd ak) i j) (combine a ks)) = 0) as ->; [|ring].
    assert (forall ak, In ak (combine a ks) -> state_of (snd ak) i j = 0) as Z' by (intros [c k] I; apply in_combine_r in I; exact (Z k j I Hj)).
    revert Z'. generalize (combine a ks). induction l as [|ak l IH]; intros Z'; [reflexivity|]. cbn [map fold_right]. rewrite (Z' ak (or_introl eq_refl)), IH by (intros; apply Z'; right; assumption). ring. }
  split; intros k Hk; rewrite Q by lia; [apply Sr|apply Sq]; exact Hk.
Qed.

(** ** One step *)
Lemma euler_step_pushed x y m t dt m' y' i a : List.length y = (13 * n_bodies)%nat -> (i < n_bodies)%nat -> pushed x i a -> steady x y i -> stp euler m y t dt = Done m' y' ->
  List.length y' = (13 * n_bodies)%nat /\ steady x y' i /\ position y' i = vadd (position y i) (mapply (get_rot_from_ned_to x i) (vscale dt (velocity y i))) /\ velocity y' i = vadd (velocity y i) (vscale dt a).
Proof.
  intros Ly Hi P St H. apply euler_inv in H as (k & H & ->). destruct (evaluate_pushed m x y t m' k i a Ly Hi P St H) as (Kp & Kv & Kz).
  split; [rewrite combine_with_length; exact Ly|]. split; [apply combine_steady; auto; intros k' j [<-|[]] Hj; apply Kz; exact Hj|]. split.
  - rewrite combine_position by auto. cbn [combine map fst snd]. rewrite Kp. unfold vsum. cbn [fold_right]. generalize (get_rot_from_ned_to x i) (velocity y i) (position y i). intros M u p. apply vec_eq; vec; ring.
  - rewrite combine_velocity by auto. cbn [combine map fst snd]. rewrite Kv. unfold vsum. cbn [fold_right]. apply vec_eq; vec; ring.
Qed.
Lemma rk4_step_pushed x y m t dt m' y' i a : List.length y = (13 * n_bodies)%nat -> (i < n_bodies)%nat -> pushed x i a -> steady x y i -> stp rk4 m y t dt = Done m' y' ->
  List.length y' = (13 * n_bodies)%nat /\ steady x y' i /\ position y' i = vadd (position y i) (mapply (get_rot_from_ned_to x i) (vadd (vscale dt (velocity y i)) (vscale (dt * dt / 2) a))) /\ velocity y' i = vadd (velocity y i) (vscale dt a).
Proof.
  intros Ly Hi P St H. unfold step, do_step in H. cbn [nodes coefficients weights rk4] in H.
  match type of H with bind _ ?s _ = _ => destruct s as [m4 ks4| |] eqn:E; cbn [bind] in H; try discriminate end. injection H as _ <-.
  apply stage_inv in E as (m1 & k1 & E1 & E). apply stage_inv in E as (m2 & k2 & E2 & E). apply stage_inv in E as (m3 & k3 & E3 & E). apply stage_inv in E as (m5 & k4 & E4 & E).
  cbn [stages app] in E. injection E as _ <-. cbn [app] in E2, E3, E4.
  pose proof (fun HL HS => evaluate_pushed _ x _ _ _ _ i a HL Hi P HS E1) as K. destruct K as (P1 & V1 & Z1); [rewrite combine_with_length; exact Ly|apply combine_steady; auto; intros k' j []|].
  pose proof (fun HL HS => evaluate_pushed _ x _ _ _ _ i a HL Hi P HS E2) as K. destruct K as (P2 & V2 & Z2); [rewrite combine_with_length; exact Ly|apply combine_steady; auto; intros k' j [<-|[]] Hj; auto|].
  pose proof (fun HL HS => evaluate_pushed _ x _ _ _ _ i a HL Hi P HS E3) as K. destruct K as (P3 & V3' & Z3); [rewrite combine_with_length; exact Ly|apply combine_steady; auto; intros k' j [<-|[<-|[]]] Hj; auto|].
  pose proof (fun HL HS => evaluate_pushed _ x _ _ _ _ i a HL Hi P HS E4) as K. destruct K as (P4 & V4 & Z4); [rewrite combine_with_length; exact Ly|apply combine_steady; auto; intros k' j [<-|[<-|[<-|[]]]] Hj; auto|].
  rewrite combine_velocity in P1, P2, P3, P4 by auto. cbn [combine map fst snd] in P1, P2, P3, P4. rewrite ?V1, ?V2, ?V3', ?V4 in *.
  split; [rewrite combine_with_length; exact Ly|]. split; [apply combine_steady; auto; intros k' j [<-|[<-|[<-|[<-|[]]]]] Hj; auto|].
  split; [rewrite combine_position by auto; cbn [combine map fst snd]; rewrite P1, P2, P3, P4|rewrite combine_velocity by auto; cbn [combine map fst snd]; rewrite V1, V2, V3', V4];
    generalize (get_rot_from_ned_to x i) (velocity y i) (position y i); intros M u p; clear; apply vec_eq; unfold vsum, v0, mapply, vadd, vscale, dot; cbn [fold_right vx vy vz]; field.
Qed.
(** ** Any number of steps *)
Lemma steady_refl x i : (forall k, (6 <= k < 9)%nat -> state_of x i k = 0) -> steady x x i.
Proof. intros H. split; [exact H|reflexivity]. Qed.
(** Runge and Kutta's method gives the exact motion: u T + a T^2 / 2 in the axes of the body. *)
Theorem runge_kutta_is_exact_under_a_constant_push : forall n m x t0 dt m' y i a, List.length x = (13 * n_bodies)%nat -> (i < n_bodies)%nat -> (forall k, (6 <= k < 9)%nat -> state_of x i k = 0) -> pushed x i a ->
  rn rk4 n m x t0 dt = Done m' y -> let T := INR n * dt in
  steady x y i /\ velocity y i = vadd (velocity x i) (vscale T a) /\ position y i = vadd (position x i) (mapply (get_rot_from_ned_to x i) (vadd (vscale T (velocity x i)) (vscale (T * T / 2) a))).
Proof.
  intros n m x t0 dt m' y i a Lx Hi Hr P H T.
  assert (G : List.length y = (13 * n_bodies)%nat /\ steady x y i /\ velocity y i = vadd (velocity x i) (vscale T a) /\ position y i = vadd (position x i) (mapply (get_rot_from_ned_to x i) (vadd (vscale T (velocity x i)) (vscale (T * T / 2) a)))); [|tauto].
  unfold T. clear T. revert m' y H. induction n as [|n IH]; intros m' y H.
  - unfold run in H. cbn [steps] in H. injection H as _ <-. split; [exact Lx|]. split; [apply steady_refl; exact Hr|]. cbn [INR]. generalize (get_rot_from_ned_to x i) (velocity x i) (position x i). intros M u p. split; apply vec_eq; vec; field.
  - unfold run in H. apply steps_last in H as (m1 & x1 & x2 & H1 & H2 & ->). destruct (IH m1 x1 H1) as (L1 & St1 & V1 & P1).
    destruct (rk4_step_pushed x x1 _ _ _ _ _ i a L1 Hi P St1 H2) as (L2 & St2 & P2 & V2). split; [exact L2|]. split; [exact St2|]. rewrite V2, P2, V1, P1, S_INR.
    generalize (get_rot_from_ned_to x i) (velocity x i) (position x i). intros M u p. split; apply vec_eq; unfold mapply, vadd, vscale, dot; cbn [vx vy vz]; field.
Qed.
(** Euler's method is late by a T dt / 2. *)
Theorem euler_is_late_under_a_constant_push : forall n m x t0 dt m' y i a, List.length x = (13 * n_bodies)%nat -> (i < n_bodies)%nat -> (forall k, (6 <= k < 9)%nat -> state_of x i k = 0) -> pushed x i a ->
  rn euler n m x t0 dt = Done m' y -> let T := INR n * dt in
  steady x y i /\ velocity y i = vadd (velocity x i) (vscale T a) /\ position y i = vadd (position x i) (mapply (get_rot_from_ned_to x i) (vadd (vscale T (velocity x i)) (vscale ((T * T - T * dt) / 2) a))).
Proof.
  intros n m x t0 dt m' y i a Lx Hi Hr P H T.
  assert (G : List.length y = (13 * n_bodies)%nat /\ steady x y i /\ velocity y i = vadd (velocity x i) (vscale T a) /\ position y i = vadd (position x i) (mapply (get_rot_from_ned_to x i) (vadd (vscale T (velocity x i)) (vscale ((T * T - T * dt) / 2) a)))); [|tauto].
  unfold T. clear T. revert m' y H. induction n as [|n IH]; intros m' y H.
  - unfold run in H. cbn [steps] in H. injection H as _ <-. split; [exact Lx|]. split; [apply steady_refl; exact Hr|]. cbn [INR]. generalize (get_rot_from_ned_to x i) (velocity x i) (position x i). intros M u p. split; apply vec_eq; vec; field.
  - unfold run in H. apply steps_last in H as (m1 & x1 & x2 & H1 & H2 & ->). destruct (IH m1 x1 H1) as (L1 & St1 & V1 & P1).
    destruct (euler_step_pushed x x1 _ _ _ _ _ i a L1 Hi P St1 H2) as (L2 & St2 & P2 & V2). split; [exact L2|]. split; [exact St2|]. rewrite V2, P2, V1, P1, S_INR.
    generalize (get_rot_from_ned_to x i) (velocity x i) (position x i). intros M u p. split; apply vec_eq; unfold mapply, vadd, vscale, dot; cbn [vx vy vz]; field.
Qed.
End Fall.
Print Assumptions runge_kutta_is_exact_under_a_constant_push.
Print Assumptions euler_is_late_under_a_constant_push.

(** ** Rest *)
Section Rest.
Variable aeqR : Z -> R -> R -> bool.
Variable Itp : Type.
Variable itp_f itp_df : Itp -> R -> outcome R.
Variable bodies : nat -> body Itp.
Variable n_bodies : nat.
Hypothesis bodies_numbered : numbered Itp bodies n_bodies.
Hypothesis bodies_free : not_forced Itp bodies n_bodies.
Variable sum_of_forces : list (memory aeqR) -> nat -> list R -> R -> outcome vec.
Notation frc := (forced Itp itp_f bodies).
Notation der := (derivatives aeqR Itp itp_df bodies sum_of_forces).
Notation ev := (evaluate aeqR Itp itp_f itp_df bodies sum_of_forces n_bodies).
Notation rn := (run aeqR Itp itp_f itp_df bodies sum_of_forces n_bodies (fun x _ => x)).
(** The efforts on the body [i] vanish when it is where it is in [x]. *)
Definition balanced (x : list R) (i : nat) : Prop := forall m y t F, (forall k, (k < 13)%nat -> state_of y i k = state_of x i k) -> sum_of_forces m i y t = Ok F ->
  forall k, (k < 6)%nat -> acceleration (bodies i) F k = 0.
Lemma stages_at_rest x i : List.length x = (13 * n_bodies)%nat -> (i < n_bodies)%nat -> (forall k, (3 <= k < 9)%nat -> state_of x i k = 0) -> balanced x i ->
  forall y, List.length y = (13 * n_bodies)%nat -> (forall k, (k < 13)%nat -> state_of y i k = state_of x i k) ->
  forall cs table m t dt ks m' ks', (forall k j, In k ks -> (j < 13)%nat -> state_of k i j = 0) -> stages aeqR frc der n_bodies cs table m y t dt ks = Done m' ks' ->
  forall k j, In k ks' -> (j < 13)%nat -> state_of k i j = 0.
Proof.
  intros Lx Hi Hr B y Ly Hy. induction cs as [|c cs IH]; intros table m t dt ks m' ks' Z H.
  - cbn [stages] in H. injection H as _ <-. exact Z.
  - destruct table as [|row table]; [cbn [stages] in H; injection H as _ <-; exact Z|]. apply stage_inv in H as (m1 & k1 & E1 & H).
    assert (Q : forall j, (j < 13)%nat -> state_of (combine_with y dt row ks) i j = state_of x i j).
    { intros j Hj. rewrite state_of_combine by (apply (index_ok n_bodies); auto). rewrite Hy by exact Hj.
      assert (fold_right Rplus 0 (map (fun ak : R * list R => fst ak * state_of (snd ak) i j) (combine row ks)) = 0) as ->; [|ring].
      assert (forall ak, In ak (combine row ks) -> state_of (snd ak) i j = 0) as Z' by (intros [a k] I; apply in_combine_r in I; exact (Z k j I Hj)).
      revert Z'. generalize (combine row ks). induction l as [|ak l IHl]; intros Z'; [reflexivity|]. cbn [map fold_right]. rewrite (Z' ak (or_introl eq_refl)), IHl by (intros; apply Z'; right; assumption). ring. }
    apply (IH table m1 t dt (ks ++ [k1]) m' ks'); [|exact H]. intros k j Ik Hj. apply in_app_iff in Ik as [Ik|[<-|[]]]; [exact (Z k j Ik Hj)|].
    pose proof (fun HL => evaluate_free aeqR Itp itp_f itp_df bodies n_bodies bodies_numbered bodies_free sum_of_forces _ _ _ _ _ i HL Hi E1) as K. destruct K as (_ & mi & F & EF & V); [rewrite combine_with_length; exact Ly|].
    pose proof (B mi _ _ F Q EF) as A. rewrite V by exact Hj. unfold free_derivative. rewrite (proj1 (bodies_numbered i Hi)). cbv zeta.
    assert (Rs : forall q, (3 <= q < 9)%nat -> state_of (combine_with y dt row ks) i q = 0) by (intros q Hq; rewrite Q by lia; apply Hr; exact Hq).
    pose proof (Rs 3%nat ltac:(lia)) as R3. pose proof (Rs 4%nat ltac:(lia)) as R4. pose proof (Rs 5%nat ltac:(lia)) as R5. pose proof (Rs 6%nat ltac:(lia)) as R6. pose proof (Rs 7%nat ltac:(lia)) as R7. pose proof (Rs 8%nat ltac:(lia)) as R8.
    rewrite R3, R4, R5, R6, R7, R8. unfold acceleration in A. cbn [seq map fold_right] in A.
    pose proof (A 0%nat ltac:(lia)) as A0. pose proof (A 1%nat ltac:(lia)) as A1. pose proof (A 2%nat ltac:(lia)) as A2. pose proof (A 3%nat ltac:(lia)) as A3. pose proof (A 4%nat ltac:(lia)) as A4. pose proof (A 5%nat ltac:(lia)) as A5.
    do 13 (destruct j as [|j]; [cbn [nth]; lra|]). lia.
Qed.
(** A body at rest where the efforts balance stays there, whatever the solver, the step and the number of steps, and whatever the other bodies do. *)
Theorem rest_is_kept : forall s n m x t0 dt m' y i, List.length x = (13 * n_bodies)%nat -> (i < n_bodies)%nat -> (forall k, (3 <= k < 9)%nat -> state_of x i k = 0) -> balanced x i ->
  rn s n m x t0 dt = Done m' y -> forall k, (k < 13)%nat -> state_of y i k = state_of x i k.
Proof.
  intros s n m x t0 dt m' y i Lx Hi Hr B H.
  assert (G : List.length y = (13 * n_bodies)%nat /\ forall k, (k < 13)%nat -> state_of y i k = state_of x i k); [|apply G].
  revert m' y H. induction n as [|n IH]; intros m' y H.
  - unfold run in H. cbn [steps] in H. injection H as _ <-. auto.
  - unfold run in H. apply steps_last in H as (m1 & x1 & x2 & H1 & H2 & ->). destruct (IH m1 x1 H1) as (L1 & V1). unfold step, do_step in H2.
    match type of H2 with bind _ ?st _ = _ => destruct st as [m4 ks4| |] eqn:E; cbn [bind] in H2; try discriminate end. injection H2 as _ <-.
    pose proof (stages_at_rest x i Lx Hi Hr B x1 L1 V1 _ _ _ _ _ [] _ _ ltac:(intros k j []) E) as Z. split; [rewrite combine_with_length; exact L1|].
    intros j Hj. rewrite state_of_combine by (apply (index_ok n_bodies); auto). rewrite V1 by exact Hj.
    assert (fold_right Rplus 0 (map (fun ak : R * list R => fst ak * state_of (snd ak) i j) (combine (weights s) ks4)) = 0) as ->; [|ring].
    assert (forall ak, In ak (combine (weights s) ks4) -> state_of (snd ak) i j = 0) as Z' by (intros [a k] I; apply in_combine_r in I; exact (Z k j I Hj)).
    revert Z'. generalize (combine (weights s) ks4). induction l as [|ak l IHl]; intros Z'; [reflexivity|]. cbn [map fold_right]. rewrite (Z' ak (or_introl eq_refl)), IHl by (intros; apply Z'; right; assumption). ring.
Qed.
End Rest.
Print Assumptions rest_is_kept.

(** ** Free fall: the only force is the weight (GravityForceModel.cpp:23-36) of a body of mass [mass], given at its centre of gravity. *)
Definition weight {aeqR : Z -> R -> R -> bool} (mass g : R) (_ : list (memory aeqR)) (i : nat) (x : list R) (_ : R) : outcome vec :=
  let w := gravity (inverse_transform (placement x i)) mass g in
  Ok (to_vector (Force_Model.sum_of_forces (v0, v0) [Force_Model.mkW v0 (fst w) (snd w)] [])).
(** A force through the centre of gravity gives F / mass, and does not turn the body. *)
Definition mass_only {Itp} (mass : R) (b : body Itp) : Prop :=
  forall k l, (l < 3)%nat -> (k < 6)%nat -> bd_Minv b k l = if Nat.eqb k l then / mass else 0.
Lemma weight_pushes (aeqR : Z -> R -> R -> bool) Itp (bodies : nat -> body Itp) n_bodies mass g x i : mass <> 0 -> mass_only mass (bodies i) ->
  pushed aeqR Itp bodies n_bodies (weight mass g) x i (mapply (transpose (get_rot_from_ned_to x i)) (V3 0 0 g)).
Proof.
  intros Hm Mo m y t F _ (_ & Sq) EF. unfold weight in EF. injection EF as <-.
  assert (G : get_rot_from_ned_to y i = get_rot_from_ned_to x i) by (unfold get_rot_from_ned_to; rewrite !Sq by lia; reflexivity).
  unfold gravity, inverse_transform, placement. cbn [t_rot fst snd]. rewrite G. generalize (get_rot_from_ned_to x i). intros M.
  unfold acceleration. cbn [seq map fold_right]. unfold Force_Model.sum_of_forces. cbn [map fold_left w_force w_torque fst snd]. unfold to_vector. cbn [fst snd].
  assert (Q : forall k l, (l < 3)%nat -> (k < 6)%nat -> bd_Minv (bodies i) k l = if Nat.eqb k l then / mass else 0) by exact Mo. split.
  - rewrite (Q 0%nat 0%nat ltac:(lia) ltac:(lia)), (Q 0%nat 1%nat ltac:(lia) ltac:(lia)), (Q 0%nat 2%nat ltac:(lia) ltac:(lia)), (Q 1%nat 0%nat ltac:(lia) ltac:(lia)), (Q 1%nat 1%nat ltac:(lia) ltac:(lia)), (Q 1%nat 2%nat ltac:(lia) ltac:(lia)), (Q 2%nat 0%nat ltac:(lia) ltac:(lia)), (Q 2%nat 1%nat ltac:(lia) ltac:(lia)), (Q 2%nat 2%nat ltac:(lia) ltac:(lia)). cbn [Nat.eqb]. apply vec_eq; unfold mapply, transpose, vadd, v0, dot; cbn [vx vy vz r1 r2 r3 fst snd]; field; exact Hm.
  - intros k Hk. rewrite (Q k 0%nat ltac:(lia) ltac:(lia)), (Q k 1%nat ltac:(lia) ltac:(lia)), (Q k 2%nat ltac:(lia) ltac:(lia)). assert (k = 3 \/ k = 4 \/ k = 5)%nat as [->|[->| ->]] by lia; cbn [Nat.eqb]; unfold vadd, v0; cbn [vx vy vz]; ring.
Qed.
Lemma unit_rotation x i : quaternion2 x i = 1 -> rotation (get_rot_from_ned_to x i).
Proof. intros H. apply matrix_is_a_rotation_iff_unit. left. exact H. Qed.
Theorem free_fall : forall (aeqR : Z -> R -> R -> bool) Itp (itp_f itp_df : Itp -> R -> outcome R) (bodies : nat -> body Itp) n_bodies mass g n m x t0 dt m' y i,
  numbered Itp bodies n_bodies -> not_forced Itp bodies n_bodies -> List.length x = (13 * n_bodies)%nat -> (i < n_bodies)%nat -> mass <> 0 -> mass_only mass (bodies i) ->
  quaternion2 x i = 1 -> (forall k, (6 <= k < 9)%nat -> state_of x i k = 0) -> let T := INR n * dt in let u := mapply (get_rot_from_ned_to x i) (velocity x i) in
  (run aeqR Itp itp_f itp_df bodies (weight mass g) n_bodies (fun x _ => x) rk4 n m x t0 dt = Done m' y -> position y i = vadd (vadd (position x i) (vscale T u)) (V3 0 0 (g * T * T / 2))) /\
  (run aeqR Itp itp_f itp_df bodies (weight mass g) n_bodies (fun x _ => x) euler n m x t0 dt = Done m' y -> position y i = vadd (vadd (position x i) (vscale T u)) (V3 0 0 (g * T * (T - dt) / 2))).
Proof.
  intros aeqR Itp itp_f itp_df bodies n_bodies mass g n m x t0 dt m' y i N Fr Lx Hi Hm Mo U Hr T u.
  pose proof (weight_pushes aeqR Itp bodies n_bodies mass g x i Hm Mo) as P. pose proof (rotation_inverse' _ (V3 0 0 g) (unit_rotation x i U)) as Rv.
  assert (Lin : forall c d p v, mapply p (vadd (vscale c (velocity x i)) (vscale d v)) = vadd (vscale c (mapply p (velocity x i))) (vscale d (mapply p v))).
  { intros c d p v. apply vec_eq; unfold mapply, vadd, vscale, dot; cbn [vx vy vz]; ring. }
  split; intros H.
  - destruct (runge_kutta_is_exact_under_a_constant_push aeqR Itp itp_f itp_df bodies n_bodies N Fr (weight mass g) n m x t0 dt m' y i _ Lx Hi Hr P H) as (_ & _ & ->). rewrite Lin, Rv. fold u T. clearbody u T. apply vec_eq; unfold vadd, vscale; cbn [vx vy vz]; field.
  - destruct (euler_is_late_under_a_constant_push aeqR Itp itp_f itp_df bodies n_bodies N Fr (weight mass g) n m x t0 dt m' y i _ Lx Hi Hr P H) as (_ & _ & ->). rewrite Lin, Rv. fold u T. clearbody u T. apply vec_eq; unfold vadd, vscale; cbn [vx vy vz]; field.
Qed.
Print Assumptions free_fall.

(** The hypotheses are met: a body of one kilogram, heeled by 90 degrees; the fall runs for any number of steps. *)
Definition released : list R := [0; 0; 0; 0; 0; 0; 0; 0; 0; sqrt (1 / 2); sqrt (1 / 2); 0; 0].
Example fall_witness : numbered R free_ship 1 /\ not_forced R free_ship 1 /\ List.length released = (13 * 1)%nat /\ mass_only 1 (free_ship 0) /\ quaternion2 released 0 = 1 /\ (forall k, (6 <= k < 9)%nat -> state_of released 0 k = 0) /\
  (forall s n, s = euler \/ s = rk4 -> exists m y, run same R rf rdf free_ship (weight 1 (981 / 100)) 1 (fun x _ => x) s n blank released 0 (1 / 10) = Done m y) /\
  balanced same R free_ship no_effort released 0.
Proof.
  assert (Nf : not_forced R free_ship 1) by (intros i s _; destruct s; reflexivity).
  split; [exact free_numbered|]. split; [exact Nf|]. split; [reflexivity|]. split; [|split; [|split; [|split]]].
  - intros k l Hl Hk. do 6 (destruct k as [|k]; [destruct l as [|[|[|l]]]; try lia; cbn; try reflexivity; field|]). lia.
  - unfold quaternion2, released, state_of. cbn [nth Nat.mul Nat.add]. rewrite sqrt_sqrt by lra. lra.
  - intros k Hk. assert (k = 6 \/ k = 7 \/ k = 8)%nat as [->|[->| ->]] by lia; reflexivity.
  - intros s n Hs. destruct (forward_solvers_run same Drift_Props.same_refl (forced R rf free_ship) (derivatives same R rdf free_ship (weight 1 (981 / 100))) 1 s (fun x _ => x) n blank released 0 (1 / 10)) as (m' & y & E & _).
    + destruct rk_in_order as (Oe & Or & _). destruct Hs as [->| ->]; assumption.
    + apply free_bodies_computable; [exact free_numbered|exact Nf|intros; unfold weight; eauto].
    + lra.
    + exact blank_ok.
    + reflexivity.
    + reflexivity.
    + exists m', y. exact E.
  - intros m y t F _ EF k Hk. unfold no_effort in EF. injection EF as <-. unfold acceleration. cbn [seq map fold_right]. ring.
Qed.
