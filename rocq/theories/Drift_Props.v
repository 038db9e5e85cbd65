(** C175: the attitude during the integration. *)
From Coq Require Import ZArith Reals Lra Lia Psatz List.
From Verif Require Import Common History_Model History_Real_Proofs Blocked_Model Blocked_Spec Blocked_Proofs Sim_Model Sim_Spec Sim_Proofs Sim_Props Solver_Model Solver_Props Drift_Model Geometry.
Import ListNotations.
Open Scope R_scope.

(** Square of the norm of the quaternion of body [i], and of its rotation rate. *)
Definition quaternion2 (x : list R) (i : nat) : R :=
  state_of x i 9 * state_of x i 9 + state_of x i 10 * state_of x i 10 + state_of x i 11 * state_of x i 11 + state_of x i 12 * state_of x i 12.
Definition rate2 (x : list R) (i : nat) : R := state_of x i 6 * state_of x i 6 + state_of x i 7 * state_of x i 7 + state_of x i 8 * state_of x i 8.

(** ** The matrix of a quaternion of any norm *)
Lemma qmat_apply2 a b c d u : dot (mapply (qmat a b c d) u) (mapply (qmat a b c d) u) =
  dot u u + 4 * (a * a + b * b + c * c + d * d - 1) * dot (cross (V3 b c d) u) (cross (V3 b c d) u).
Proof. destruct u as [x y z]. unfold qmat, mapply, dot, cross. cbn [vx vy vz r1 r2 r3]. ring. Qed.

(** Speed over ground against speed through the hull: they agree only if the quaternion has norm 1 (or the speed is along the axis of the rotation). *)
Theorem speed_with_a_drifted_quaternion : forall x i u,
  let M := get_rot_from_ned_to x i in let axis := V3 (state_of x i 10) (state_of x i 11) (state_of x i 12) in
  dot (mapply M u) (mapply M u) = dot u u + 4 * (quaternion2 x i - 1) * dot (cross axis u) (cross axis u).
Proof. intros. unfold M, axis, get_rot_from_ned_to, quaternion2. apply qmat_apply2. Qed.

Theorem matrix_is_a_rotation_iff_unit : forall x i,
  rotation (get_rot_from_ned_to x i) <-> quaternion2 x i = 1 \/ (state_of x i 10 = 0 /\ state_of x i 11 = 0 /\ state_of x i 12 = 0).
Proof.
  intros x i. unfold get_rot_from_ned_to, quaternion2. set (a := state_of x i 9). set (b := state_of x i 10). set (c := state_of x i 11). set (d := state_of x i 12). split.
  - intros H. destruct (Req_dec (a * a + b * b + c * c + d * d) 1) as [E|N]; [left; exact E|right].
    assert (forall u, dot (cross (V3 b c d) u) (cross (V3 b c d) u) = 0) as Z.
    { intros u. pose proof (qmat_apply2 a b c d u) as E. rewrite (rotation_dot (qmat a b c d) u u H) in E.
      assert (4 * (a * a + b * b + c * c + d * d - 1) * dot (cross (V3 b c d) u) (cross (V3 b c d) u) = 0) as P by lra.
      apply Rmult_integral in P as [P|P]; [exfalso; lra|exact P]. }
    pose proof (Z (V3 1 0 0)) as Z1. pose proof (Z (V3 0 1 0)) as Z2. unfold dot, cross in Z1, Z2. cbn [vx vy vz] in Z1, Z2.
    assert (c * c = 0 /\ d * d = 0 /\ b * b = 0) as (C & D & B) by (split; [|split]; nra).
    repeat split; nra.
  - intros [E|(B & C & D)]; [exact (qmat_rotation a b c d E)|]. rewrite B, C, D. replace (qmat a 0 0 0) with id3; [exact rotation_id|]. unfold qmat, id3. apply mat_eq; apply vec_eq; cbn [vx vy vz r1 r2 r3]; ring.
Qed.
Print Assumptions speed_with_a_drifted_quaternion.
Print Assumptions matrix_is_a_rotation_iff_unit.

Section Drift.
Variable aeqR : Z -> R -> R -> bool.
Variable Itp : Type.
Variable itp_f itp_df : Itp -> R -> outcome R.
Variable bodies : nat -> body Itp.
Variable sum_of_forces : list (memory aeqR) -> nat -> list R -> R -> outcome vec.
Variable n_bodies : nat.
(** Each body and its forced states are those of its number. *)
Definition numbered : Prop := forall i, (i < n_bodies)%nat -> bd_idx (bodies i) = i /\ b_idx (bd_blocked (bodies i)) = i.
Notation der := (derivatives aeqR Itp itp_df bodies sum_of_forces).
Notation frc := (forced Itp itp_f bodies).
Notation ev := (evaluate aeqR Itp itp_f itp_df bodies sum_of_forces n_bodies).
Notation stp := (step aeqR Itp itp_f itp_df bodies sum_of_forces n_bodies).
Notation rn := (run aeqR Itp itp_f itp_df bodies sum_of_forces n_bodies).

Lemma der_inv m idx x dx t dx' : numbered -> (idx < n_bodies)%nat -> der m idx x dx t = Ok dx' ->
  List.length dx' = List.length dx /\
  (forall j, (j < 13 * idx \/ 13 * idx + 13 <= j)%nat -> nth_error dx' j = nth_error dx j) /\
  exists F, forall k, (9 <= k < 13)%nat -> nth_error dx' (13 * idx + k) = nth_error (free_derivative (bodies idx) F (entries (get_rot_from_ned_to x idx)) x) k.
Proof.
  intros N B H. destruct (N idx B) as (I & I'). unfold derivatives in H. destruct (sum_of_forces m idx x t) as [F| |]; try discriminate. cbn [bindO] in H.
  assert (b_idx (bd_blocked (bodies idx)) = bd_idx (bodies idx)) as II by congruence.
  pose proof (calc_other _ _ _ _ _ _ _ _ _ II H) as (L & O). rewrite I in O. split; [exact L|]. split; [exact O|]. exists F.
  apply calc_inv in H as (dx1 & Fd & _ & V & _). rewrite I in V. intros k Hk. rewrite <- V by lia.
  apply (force_loop_other _ _ _ _ _ _ _ Fd). intros s. rewrite I'. unfold slot, rank. destruct s; lia.
Qed.

(** Derivative of the quaternion: half the product of the quaternion and of the rate. *)
Definition dquaternion (x : list R) (i k : nat) : R :=
  let p := state_of x i 6 in let q := state_of x i 7 in let r := state_of x i 8 in
  let a := state_of x i 9 in let b := state_of x i 10 in let c := state_of x i 11 in let d := state_of x i 12 in
  match k with
  | 9%nat => (- b * p - c * q - d * r) / 2
  | 10%nat => (a * p + c * r - d * q) / 2
  | 11%nat => (a * q + d * p - b * r) / 2
  | 12%nat => (a * r + b * q - c * p) / 2
  | _ => 0
  end.

Lemma dx_dt_quaternion : numbered -> forall n idx m x dx t m' dx', (idx + n <= n_bodies)%nat -> Solver_Model.dx_dt aeqR frc der n idx m x dx t = Done m' dx' ->
  List.length dx' = List.length dx /\ (forall j, (j < 13 * idx)%nat -> nth_error dx' j = nth_error dx j) /\
  (forall i k, (idx <= i < idx + n)%nat -> (9 <= k < 13)%nat -> state_of dx' i k = dquaternion x i k).
Proof.
  intros N. induction n as [|n IH]; intros idx m x dx t m' dx' B H; cbn [Solver_Model.dx_dt] in H.
  - injection H as <- <-. split; [reflexivity|]. split; [reflexivity|]. intros; lia.
  - destruct (update_body_states aeqR frc idx m x t) as [m1 []| |]; cbn [bind] in H; try discriminate.
    destruct (der m1 idx x dx t) as [d1| |] eqn:E; try discriminate.
    assert (idx < n_bodies)%nat as B0 by lia. assert (S idx + n <= n_bodies)%nat as B1 by lia.
    destruct (der_inv _ _ _ _ _ _ N B0 E) as (L1 & O1 & F & V1).
    destruct (IH _ _ _ _ _ _ _ B1 H) as (L2 & O2 & V2). split; [congruence|]. split.
    + intros j Hj. rewrite O2 by lia. apply O1. lia.
    + intros i k Hi Hk. destruct (Nat.eq_dec i idx) as [->|Q]; [|apply V2; lia].
      assert (nth_error dx' (13 * idx + k) = nth_error (free_derivative (bodies idx) F (entries (get_rot_from_ned_to x idx)) x) k) as W by (rewrite O2 by lia; apply V1; exact Hk).
      unfold free_derivative in W. rewrite (proj1 (N idx B0)) in W.
      assert (k = 9 \/ k = 10 \/ k = 11 \/ k = 12)%nat as [->|[->|[->| ->]]] by lia; cbn [nth_error] in W; apply (nth_error_nth _ _ 0) in W; unfold state_of at 1; rewrite W; reflexivity.
Qed.
Lemma evaluate_quaternion m x t m' k : numbered -> ev m x t = Done m' k ->
  List.length k = List.length x /\ forall i j, (i < n_bodies)%nat -> (9 <= j < 13)%nat -> state_of k i j = dquaternion x i j.
Proof.
  intros N H. unfold evaluate, system in H. destruct (dx_dt_quaternion N n_bodies 0 _ _ _ _ _ _ (Nat.le_refl _) H) as (L & _ & V).
  rewrite repeat_length in L. split; [exact L|]. intros i j Hi Hj. apply V; lia.
Qed.

Lemma state_of_combine x dt a ks i k : (13 * i + k < List.length x)%nat ->
  state_of (combine_with x dt a ks) i k = state_of x i k + dt * fold_right Rplus 0 (map (fun ak => fst ak * state_of (snd ak) i k) (combine a ks)).
Proof.
  intros H. unfold state_of at 1. unfold combine_with.
  set (f := fun j => nth j x 0 + dt * fold_right Rplus 0 (map (fun ak : R * list R => fst ak * nth j (snd ak) 0) (combine a ks))).
  rewrite (nth_indep _ 0 (f 0%nat)) by (rewrite map_length, seq_length; exact H). rewrite map_nth, seq_nth by exact H. reflexivity.
Qed.
Lemma index_ok (x : list R) i k : List.length x = (13 * n_bodies)%nat -> (i < n_bodies)%nat -> (k < 13)%nat -> (13 * i + k < List.length x)%nat.
Proof. intros -> H1 H2. assert (13 * (i + 1) <= 13 * n_bodies)%nat by (apply Nat.mul_le_mono_l; lia). lia. Qed.

(** ** One step of Euler's method *)
Lemma euler_inv m x t dt m' x' : stp euler m x t dt = Done m' x' -> exists k, ev m x t = Done m' k /\ x' = combine_with x dt [1] [k].
Proof.
  intros H. unfold step, do_step in H. cbn [nodes coefficients weights euler stages] in H. replace (combine_with x dt [] []) with x in H.
  - replace (t + 0 * dt) with t in H by ring. fold (ev m x t) in H. destruct (ev m x t) as [m1 k| |]; cbn [bind app] in H; try discriminate. injection H as <- <-. exists k. split; reflexivity.
  - unfold combine_with. cbn [combine map fold_right]. transitivity (map (fun i => nth i x 0) (seq 0 (List.length x))).
    + clear. induction x as [|a x IH]; [reflexivity|]. cbn [List.length seq map nth]. f_equal. rewrite <- seq_shift, map_map. exact IH.
    + apply map_ext. intros. ring.
Qed.
Theorem euler_step_stretches_the_quaternion : forall m x t dt m' x' i, numbered -> List.length x = (13 * n_bodies)%nat -> (i < n_bodies)%nat ->
  stp euler m x t dt = Done m' x' -> quaternion2 x' i = quaternion2 x i * (1 + dt * dt * rate2 x i / 4).
Proof.
  intros m x t dt m' x' i N L B H. apply euler_inv in H as (k & H & ->). apply evaluate_quaternion in H as (_ & V); [|exact N].
  unfold quaternion2. rewrite !state_of_combine by (apply index_ok; auto; lia). cbn [combine map fold_right fst snd].
  rewrite !V by (auto; lia). unfold dquaternion, rate2. field.
Qed.

(** ** Any number of steps *)
Lemma steps_last s after : forall n i m x t0 dt m' x', steps aeqR frc der n_bodies after s (S n) i m x t0 dt = Done m' x' ->
  exists m1 x1 x2, steps aeqR frc der n_bodies after s n i m x t0 dt = Done m1 x1 /\ stp s m1 x1 (t0 + INR (i + n) * dt) dt = Done m' x2 /\ x' = after x2 (t0 + INR (i + n) * dt).
Proof.
  induction n as [|n IH]; intros i m x t0 dt m' x' H.
  - cbn [steps] in H |- *. rewrite Nat.add_0_r. destruct (do_step aeqR frc der n_bodies s m x (t0 + INR i * dt) dt) as [m1 x1| |] eqn:E; cbn [bind] in H; try discriminate.
    injection H as <- <-. exists m, x, x1. auto.
  - remember (S n) as k eqn:K. cbn [steps] in H |- *. destruct (do_step aeqR frc der n_bodies s m x (t0 + INR i * dt) dt) as [m1 x1| |] eqn:E; cbn [bind] in H; try discriminate.
    subst k. apply IH in H as (m2 & x2 & x3 & H1 & H2 & H3). exists m2, x2, x3. replace (i + S n)%nat with (S i + n)%nat by lia.
    split; [|split; assumption]. cbn [steps]. rewrite E. cbn [bind]. exact H1.
Qed.
Lemma steps_prefix s after : forall n k m x t0 dt m' x', (k <= n)%nat -> rn after s n m x t0 dt = Done m' x' -> exists mk xk, rn after s k m x t0 dt = Done mk xk.
Proof.
  induction n as [|n IH]; intros k m x t0 dt m' x' K H; [assert (k = O) as -> by lia; eauto|].
  destruct (Nat.eq_dec k (S n)) as [->|Q]; [eauto|]. apply steps_last in H as (m1 & x1 & x2 & H1 & _). apply (IH k m x t0 dt m1 x1 ltac:(lia) H1).
Qed.
(** What follows a step (the forced states) keeps the quaternions. *)
Definition keeps_quaternions (after : list R -> R -> list R) : Prop :=
  forall x t, List.length x = (13 * n_bodies)%nat -> List.length (after x t) = List.length x /\ forall i k, (i < n_bodies)%nat -> (9 <= k < 13)%nat -> state_of (after x t) i k = state_of x i k.
Lemma keeps_norm after x t i : keeps_quaternions after -> List.length x = (13 * n_bodies)%nat -> (i < n_bodies)%nat -> quaternion2 (after x t) i = quaternion2 x i.
Proof. intros K L B. destruct (K x t L) as (_ & V). unfold quaternion2. rewrite !V by (auto; lia). reflexivity. Qed.
Lemma run_length s after : keeps_quaternions after -> forall n m x t0 dt m' x', List.length x = (13 * n_bodies)%nat -> rn after s n m x t0 dt = Done m' x' -> List.length x' = (13 * n_bodies)%nat.
Proof.
  intros K. induction n as [|n IH]; intros m x t0 dt m' x' L H; [unfold run in H; cbn [steps] in H; injection H as <- <-; exact L|].
  apply steps_last in H as (m1 & x1 & x2 & H1 & H2 & ->). pose proof (IH _ _ _ _ _ _ L H1) as L1.
  assert (List.length x2 = (13 * n_bodies)%nat) as L2.
  { unfold step, do_step in H2. destruct (stages aeqR frc der n_bodies _ _ m1 x1 _ dt []) as [m2 ks| |]; cbn [bind] in H2; try discriminate. injection H2 as _ <-. rewrite combine_with_length. exact L1. }
  rewrite (proj1 (K x2 _ L2)). exact L2.
Qed.

(** Product of the stretchings of the first [n] steps, [traj k] being the states after [k] steps. *)
Fixpoint stretching (dt : R) (i : nat) (traj : nat -> list R) (n : nat) : R :=
  match n with O => 1 | S n => stretching dt i traj n * (1 + dt * dt * rate2 (traj n) i / 4) end.
Theorem euler_drift_is_the_product_of_the_stretchings : forall after n m x t0 dt traj i, numbered -> keeps_quaternions after -> List.length x = (13 * n_bodies)%nat -> (i < n_bodies)%nat ->
  (forall k, (k <= n)%nat -> exists mk, rn after euler k m x t0 dt = Done mk (traj k)) ->
  quaternion2 (traj n) i = quaternion2 x i * stretching dt i traj n.
Proof.
  intros after n m x t0 dt traj i N K L B. induction n as [|n IH]; intros H.
  - destruct (H O (le_n _)) as (mk & E). unfold run in E. cbn [steps] in E. injection E as _ <-. cbn [stretching]. ring.
  - pose proof (IH (fun k Hk => H k ltac:(lia))) as E. destruct (H (S n) (le_n _)) as (mn & Hn). apply steps_last in Hn as (m1 & x1 & x2 & H1 & H2 & E').
    destruct (H n ltac:(lia)) as (m1' & H1'). unfold run in H1'. rewrite H1' in H1. assert (m1 = m1' /\ x1 = traj n) as (-> & ->) by (split; congruence).
    pose proof (run_length euler after K _ _ _ _ _ _ _ L H1') as Ln.
    assert (List.length x2 = (13 * n_bodies)%nat) as L2 by (apply euler_inv in H2 as (k & _ & ->); rewrite combine_with_length; exact Ln).
    rewrite E', (keeps_norm after x2 _ i K L2 B). rewrite (euler_step_stretches_the_quaternion _ _ _ _ _ _ _ N Ln B H2), E. cbn [stretching]. ring.
Qed.

Lemma stretching_low dt i traj w : forall n, (forall k, (k < n)%nat -> w * w <= rate2 (traj k) i) -> 1 + INR n * (dt * dt * (w * w) / 4) <= stretching dt i traj n.
Proof.
  induction n as [|n IH]; intros H; [cbn [stretching INR]; lra|]. cbn [stretching]. pose proof (IH (fun k Hk => H k ltac:(lia))) as I. pose proof (H n ltac:(lia)) as Hn. rewrite S_INR.
  set (e := dt * dt * (w * w) / 4) in *. set (f := dt * dt * rate2 (traj n) i / 4).
  assert (0 <= e <= f) as (E1 & E2).
  { pose proof (Rle_0_sqr dt) as D. pose proof (Rle_0_sqr w) as W. unfold Rsqr in D, W. unfold e, f. split; [nra|]. apply Rmult_le_compat_r; [lra|]. apply Rmult_le_compat_l; [exact D|exact Hn]. }
  pose proof (pos_INR n) as P. assert (0 <= INR n * e) by (apply Rmult_le_pos; assumption). nra.
Qed.
Lemma exp_ge x : 1 + x <= exp x.
Proof. destruct (Req_dec x 0) as [->|H]; [rewrite exp_0; lra|]. left. apply exp_ineq1. exact H. Qed.
Lemma stretching_high dt i traj w : forall n, (forall k, (k < n)%nat -> rate2 (traj k) i <= w * w) -> 1 <= stretching dt i traj n <= exp (INR n * (dt * dt * (w * w) / 4)).
Proof.
  induction n as [|n IH]; intros H; [cbn [stretching INR]; rewrite Rmult_0_l, exp_0; lra|]. cbn [stretching]. pose proof (IH (fun k Hk => H k ltac:(lia))) as (I1 & I2). pose proof (H n ltac:(lia)) as Hn. rewrite S_INR.
  set (e := dt * dt * (w * w) / 4) in *. set (f := dt * dt * rate2 (traj n) i / 4).
  assert (0 <= f <= e) as (E1 & E2).
  { pose proof (Rle_0_sqr dt) as D. unfold Rsqr in D. unfold e, f. assert (0 <= rate2 (traj n) i).
    { unfold rate2. pose proof (Rle_0_sqr (state_of (traj n) i 6)). pose proof (Rle_0_sqr (state_of (traj n) i 7)). pose proof (Rle_0_sqr (state_of (traj n) i 8)). unfold Rsqr in *. lra. }
    split; [|apply Rmult_le_compat_r; [lra|]; apply Rmult_le_compat_l; [exact D|exact Hn]]. assert (0 <= dt * dt * rate2 (traj n) i) by (apply Rmult_le_pos; assumption). lra. }
  split; [nra|]. rewrite Rmult_plus_distr_r, Rmult_1_l, exp_plus. apply Rmult_le_compat; [lra|lra|exact I2|]. pose proof (exp_ge e). lra.
Qed.

(** What holds: with Euler's method the norm never decreases, and after n steps of dt with rates of at most w it is at most exp(n dt (dt w^2) / 8):
    as small as wanted for a given duration n dt. *)
Theorem euler_drift_bounded_partial : forall after n m x t0 dt traj i w, numbered -> keeps_quaternions after -> List.length x = (13 * n_bodies)%nat -> (i < n_bodies)%nat ->
  (forall k, (k <= n)%nat -> exists mk, rn after euler k m x t0 dt = Done mk (traj k)) -> (forall k, (k < n)%nat -> rate2 (traj k) i <= w * w) ->
  quaternion2 x i <= quaternion2 (traj n) i <= quaternion2 x i * exp (INR n * dt * (dt * (w * w)) / 4).
Proof.
  intros after n m x t0 dt traj i w N K L B H W. rewrite (euler_drift_is_the_product_of_the_stretchings after n m x t0 dt traj i N K L B H).
  destruct (stretching_high dt i traj w n W) as (S1 & S2). replace (INR n * dt * (dt * (w * w)) / 4) with (INR n * (dt * dt * (w * w) / 4)) by field.
  assert (0 <= quaternion2 x i) as Q.
  { unfold quaternion2. pose proof (Rle_0_sqr (state_of x i 9)). pose proof (Rle_0_sqr (state_of x i 10)). pose proof (Rle_0_sqr (state_of x i 11)). pose proof (Rle_0_sqr (state_of x i 12)). unfold Rsqr in *. lra. }
  split; [nra|]. apply Rmult_le_compat_l; assumption.
Qed.
(** What does not: a body that keeps turning at w or more. The square of the norm grows at least like 1 + n (dt w)^2 / 4: it exceeds any bound. *)
Theorem euler_drift_grows : forall after n m x t0 dt traj i w, numbered -> keeps_quaternions after -> List.length x = (13 * n_bodies)%nat -> (i < n_bodies)%nat ->
  (forall k, (k <= n)%nat -> exists mk, rn after euler k m x t0 dt = Done mk (traj k)) -> (forall k, (k < n)%nat -> w * w <= rate2 (traj k) i) ->
  quaternion2 x i * (1 + INR n * ((dt * w) * (dt * w) / 4)) <= quaternion2 (traj n) i.
Proof.
  intros after n m x t0 dt traj i w N K L B H W. rewrite (euler_drift_is_the_product_of_the_stretchings after n m x t0 dt traj i N K L B H).
  apply Rmult_le_compat_l; [|replace (dt * w * (dt * w) / 4) with (dt * dt * (w * w) / 4) by field; exact (stretching_low dt i traj w n W)].
  unfold quaternion2. pose proof (Rle_0_sqr (state_of x i 9)). pose proof (Rle_0_sqr (state_of x i 10)). pose proof (Rle_0_sqr (state_of x i 11)). pose proof (Rle_0_sqr (state_of x i 12)). unfold Rsqr in *. lra.
Qed.
Lemma INR_above r : exists n, r < INR n.
Proof.
  destruct (archimed r) as (H & _). exists (Z.to_nat (up r)). rewrite INR_IZR_INZ. destruct (Z_le_gt_dec 0 (up r)) as [P|P]; [rewrite Z2Nat.id by exact P; exact H|].
  apply Z.gt_lt, IZR_lt in P. pose proof (pos_INR (Z.to_nat (up r))) as Q. rewrite INR_IZR_INZ in Q. lra.
Qed.
(** In particular no bound holds whatever the number of steps. *)
Theorem euler_drift_unbounded : forall after x t0 dt m traj i w bound, numbered -> keeps_quaternions after -> List.length x = (13 * n_bodies)%nat -> (i < n_bodies)%nat ->
  quaternion2 x i = 1 -> dt <> 0 -> w <> 0 ->
  (forall k, exists mk, rn after euler k m x t0 dt = Done mk (traj k)) -> (forall k, w * w <= rate2 (traj k) i) -> exists n, bound < quaternion2 (traj n) i.
Proof.
  intros after x t0 dt m traj i w bound N K L B Q D W H HW.
  assert (0 < dt * w * (dt * w) / 4) as P. { assert (dt * w <> 0) as DW by (apply Rmult_integral_contrapositive_currified; assumption). pose proof (Rsqr_pos_lt _ DW) as S. unfold Rsqr in S. lra. }
  set (e := dt * w * (dt * w) / 4) in *. destruct (INR_above (bound / e)) as (n & Hn). exists n.
  pose proof (euler_drift_grows after n m x t0 dt traj i w N K L B (fun k _ => H k) (fun k _ => HW k)) as G. rewrite Q, Rmult_1_l in G. fold e in G.
  assert (bound < INR n * e). { apply Rmult_lt_reg_r with (/ e); [apply Rinv_0_lt_compat; exact P|]. rewrite Rmult_assoc, Rinv_r by lra. rewrite Rmult_1_r. exact Hn. } lra.
Qed.

(** ** Runge-Kutta 4, at a constant rate: the norm decreases, by a factor 1 - h^6/72 + h^8/576 of its square at each step of h = dt w / 2 *)
Lemma dq_combine x dt a ks i : List.length x = (13 * n_bodies)%nat -> (i < n_bodies)%nat ->
  (forall k j, In k ks -> (6 <= j < 9)%nat -> state_of k i j = 0) -> forall j, (6 <= j < 9)%nat -> state_of (combine_with x dt a ks) i j = state_of x i j.
Proof.
  intros L B Z j Hj. rewrite state_of_combine by (apply index_ok; auto; lia).
  assert (fold_right Rplus 0 (map (fun ak : R * list R => fst ak * state_of (snd ak) i j) (combine a ks)) = 0) as ->; [|ring].
  assert (forall ak, In ak (combine a ks) -> state_of (snd ak) i j = 0) as Z' by (intros [c k] I; apply in_combine_r in I; exact (Z k j I Hj)).
  revert Z'. generalize (combine a ks). induction l as [|ak l IH]; intros Z'; [reflexivity|]. cbn [map fold_right]. rewrite (Z' ak (or_introl eq_refl)), IH by (intros; apply Z'; right; assumption). ring.
Qed.
(** The body does not accelerate in rotation: the derivatives of p, q, r vanish at each evaluation. *)
Definition steady_rotation (i : nat) : Prop := forall m x t m' k j, ev m x t = Done m' k -> (6 <= j < 9)%nat -> state_of k i j = 0.
Lemma stage_inv cs row table m x t dt c ks m' ks' : stages aeqR frc der n_bodies (c :: cs) (row :: table) m x t dt ks = Done m' ks' ->
  exists m1 k, ev m (combine_with x dt row ks) (t + c * dt) = Done m1 k /\ stages aeqR frc der n_bodies cs table m1 x t dt (ks ++ [k]) = Done m' ks'.
Proof.
  intros H. cbn [stages] in H. unfold evaluate. destruct (system aeqR frc der n_bodies m (combine_with x dt row ks) (t + c * dt)) as [m1 k| |]; cbn [bind] in H; try discriminate. eauto.
Qed.
Theorem runge_kutta_step_at_a_constant_rate : forall m x t dt m' x' i, numbered -> steady_rotation i -> List.length x = (13 * n_bodies)%nat -> (i < n_bodies)%nat ->
  stp rk4 m x t dt = Done m' x' -> let h2 := dt * dt * rate2 x i / 4 in
  quaternion2 x' i = quaternion2 x i * (1 - h2 * h2 * h2 / 72 + h2 * h2 * h2 * h2 / 576) /\ rate2 x' i = rate2 x i.
Proof.
  intros m x t dt m' x' i N Z L B H. unfold step, do_step in H. cbn [nodes coefficients weights rk4] in H.
  match type of H with bind _ ?s _ = _ => destruct s as [m4 ks4| |] eqn:E; cbn [bind] in H; try discriminate end. injection H as _ <-.
  apply stage_inv in E as (m1 & k1 & E1 & E). apply stage_inv in E as (m2 & k2 & E2 & E). apply stage_inv in E as (m3 & k3 & E3 & E). apply stage_inv in E as (m5 & k4 & E4 & E).
  cbn [stages app] in E. injection E as _ <-. cbn [app] in E2, E3, E4.
  set (x1 := combine_with x dt [] []) in E1. set (x2 := combine_with x dt [1 / 2] [k1]) in E2. set (x3 := combine_with x dt [0; 1 / 2] [k1; k2]) in E3. set (x4 := combine_with x dt [0; 0; 1] [k1; k2; k3]) in E4.
  pose proof (fun j => Z _ _ _ _ _ j E1) as Z1. pose proof (fun j => Z _ _ _ _ _ j E2) as Z2. pose proof (fun j => Z _ _ _ _ _ j E3) as Z3. pose proof (fun j => Z _ _ _ _ _ j E4) as Z4.
  apply evaluate_quaternion in E1 as (_ & V1); [|exact N]. apply evaluate_quaternion in E2 as (_ & V2); [|exact N]. apply evaluate_quaternion in E3 as (_ & V3); [|exact N]. apply evaluate_quaternion in E4 as (_ & V4); [|exact N].
  pose proof (fun j => V1 i j B) as W1. pose proof (fun j => V2 i j B) as W2. pose proof (fun j => V3 i j B) as W3. pose proof (fun j => V4 i j B) as W4. clear V1 V2 V3 V4.
  assert (forall j, (6 <= j < 9)%nat -> state_of x1 i j = state_of x i j) as R1 by (intros j Hj; unfold x1; apply dq_combine; auto; intros k j' []).
  assert (forall j, (6 <= j < 9)%nat -> state_of x2 i j = state_of x i j) as R2 by (intros j Hj; unfold x2; apply dq_combine; auto; cbn [In]; intros k j' I Hj'; destruct I as [<-|[]]; auto).
  assert (forall j, (6 <= j < 9)%nat -> state_of x3 i j = state_of x i j) as R3 by (intros j Hj; unfold x3; apply dq_combine; auto; cbn [In]; intros k j' I Hj'; destruct I as [<-|[<-|[]]]; auto).
  assert (forall j, (6 <= j < 9)%nat -> state_of x4 i j = state_of x i j) as R4 by (intros j Hj; unfold x4; apply dq_combine; auto; cbn [In]; intros k j' I Hj'; destruct I as [<-|[<-|[<-|[]]]]; auto).
  pose proof (conj (R1 6%nat ltac:(lia)) (conj (R1 7%nat ltac:(lia)) (R1 8%nat ltac:(lia)))) as (A6 & A7 & A8). pose proof (conj (R2 6%nat ltac:(lia)) (conj (R2 7%nat ltac:(lia)) (R2 8%nat ltac:(lia)))) as (B6 & B7 & B8).
  pose proof (conj (R3 6%nat ltac:(lia)) (conj (R3 7%nat ltac:(lia)) (R3 8%nat ltac:(lia)))) as (C6 & C7 & C8). pose proof (conj (R4 6%nat ltac:(lia)) (conj (R4 7%nat ltac:(lia)) (R4 8%nat ltac:(lia)))) as (D6 & D7 & D8).
  split.
  - unfold quaternion2, rate2. rewrite !state_of_combine by (apply index_ok; auto; lia). cbn [combine map fold_right fst snd].
    rewrite !W4, !W3, !W2, !W1 by lia. unfold dquaternion. rewrite ?A6, ?A7, ?A8, ?B6, ?B7, ?B8, ?C6, ?C7, ?C8, ?D6, ?D7, ?D8. unfold x2, x3, x4, x1.
    rewrite !state_of_combine by (apply index_ok; auto; lia). cbn [combine map fold_right fst snd]. rewrite !W3, !W2, !W1 by lia. unfold dquaternion. rewrite ?A6, ?A7, ?A8, ?B6, ?B7, ?B8, ?C6, ?C7, ?C8. unfold x2, x3, x1.
    rewrite !state_of_combine by (apply index_ok; auto; lia). cbn [combine map fold_right fst snd]. rewrite !W2, !W1 by lia. unfold dquaternion. rewrite ?A6, ?A7, ?A8, ?B6, ?B7, ?B8. unfold x2, x1.
    rewrite !state_of_combine by (apply index_ok; auto; lia). cbn [combine map fold_right fst snd]. rewrite !W1 by lia. unfold dquaternion. rewrite ?A6, ?A7, ?A8. unfold x1.
    rewrite !state_of_combine by (apply index_ok; auto; lia). cbn [combine map fold_right fst snd].
    generalize (state_of x i 9) (state_of x i 10) (state_of x i 11) (state_of x i 12) (state_of x i 6) (state_of x i 7) (state_of x i 8). intros. field.
  - unfold rate2. assert (forall j, (6 <= j < 9)%nat -> state_of (combine_with x dt [1 / 6; 1 / 3; 1 / 3; 1 / 6] [k1; k2; k3; k4]) i j = state_of x i j) as RR; [|rewrite !RR by lia; reflexivity].
    intros j Hj. apply dq_combine; auto. cbn [In]. intros k j' I Hj'. destruct I as [<-|[<-|[<-|[<-|[]]]]]; auto.
Qed.
End Drift.
Print Assumptions euler_step_stretches_the_quaternion.
Print Assumptions euler_drift_is_the_product_of_the_stretchings.
Print Assumptions euler_drift_bounded_partial.
Print Assumptions euler_drift_grows.
Print Assumptions euler_drift_unbounded.
Print Assumptions runge_kutta_step_at_a_constant_rate.

(** ** A ship left to itself, turning at 0.1 rad/s (6 degrees per second), Euler's method with a step of 0.1 s: the hypotheses of the theorems above
    are met, and the attitude is not a rotation any more after one step; after 1000 s the quaternion has a norm of more than 1.11. *)
Section Free.
Variable aeqR : Z -> R -> R -> bool.
Variable Itp : Type.
Variable itp_f itp_df : Itp -> R -> outcome R.
Variable bodies : nat -> body Itp.
Variable sum_of_forces : list (memory aeqR) -> nat -> list R -> R -> outcome vec.
Variable n_bodies : nat.
Definition not_forced : Prop := forall i s, (i < n_bodies)%nat -> b_dof (bd_blocked (bodies i)) s = None.
Lemma free_loop (eval : Itp -> R -> outcome R) (b : blocked R Itp) x t : (forall s, b_dof b s = None) -> forall l, force_loop Rltb eval b l x t = Ok x.
Proof. intros H. induction l as [|s l IH]; cbn [force_loop]; [reflexivity|]. rewrite H. exact IH. Qed.
(** Bodies without forced states, and forces that can be computed: the derivatives can be computed (hypothesis [computable] of C171). *)
Lemma free_bodies_computable : numbered Itp bodies n_bodies -> not_forced -> (forall m i x t, exists F, sum_of_forces m i x t = Ok F) ->
  computable aeqR (forced Itp itp_f bodies) (derivatives aeqR Itp itp_df bodies sum_of_forces) n_bodies.
Proof.
  intros N NF FF. split.
  - intros idx x t I L. exists x. split; [|reflexivity]. unfold forced, force_states. apply free_loop. intros s. apply NF. exact I.
  - intros m idx x dx t I L Ld. destruct (N idx I) as (Ib & Ib'). unfold derivatives. destruct (FF m idx x t) as (F & ->). cbn [bindO].
    assert (forall k, (k < 13)%nat -> exists v, at_ub x (idx * 13 + k) = Ok v) as G.
    { intros k Hk. assert (idx * 13 + k < List.length x)%nat as B by (rewrite L; assert ((idx + 1) * 13 <= n_bodies * 13)%nat by (apply Nat.mul_le_mono_r; lia); lia).
      unfold at_ub. rewrite (nth_error_nth_ok x _ 0 B). eauto. }
    assert (exists dx', calculate_state_derivatives itp_df (bodies idx) F (entries (get_rot_from_ned_to x idx)) x dx t = Ok dx') as (dx' & E).
    { unfold calculate_state_derivatives. rewrite Ib. unfold UIDX, VIDX, WIDX, PIDX, QIDX, RIDX, QRIDX, QIIDX, QJIDX, QKIDX. unfold NB_OF_STATES_PER_BODY.
      repeat match goal with |- context [at_ub x (idx * 13 + ?k)] => destruct (G k ltac:(lia)) as (?v & ->); cbn [bindO] end. cbn [qmul].
      match goal with |- context [set_all dx ?l] => destruct (set_all_ok l dx) as (d1 & ->) end.
      - cbn [map fst In]. unfold XIDX, YIDX, ZIDX, NB_OF_STATES_PER_BODY. intros j Hj. assert (idx * 13 <= j < idx * 13 + 13)%nat as B by lia. assert ((idx + 1) * 13 <= n_bodies * 13)%nat by (apply Nat.mul_le_mono_r; lia). lia.
      - cbn [bindO]. exists d1. unfold force_state_derivatives. apply free_loop. intros s. apply NF. exact I. }
    exists dx'. split; [exact E|]. assert (b_idx (bd_blocked (bodies idx)) = bd_idx (bodies idx)) as II by congruence. exact (proj1 (calc_other _ _ _ _ _ _ _ _ _ II E)).
Qed.
End Free.

(** The ship: unit inertia, no effort, u = 1 m/s, r = 0.1 rad/s. *)
Definition free_ship (i : nat) : body R := ship i (mkBlocked mempty i mempty mempty).
Definition no_effort (_ : list (memory same)) (_ : nat) (_ : list R) (_ : R) : outcome vec := Ok (fun _ => 0).
Definition turning : list R := [0; 0; 0; 1; 0; 0; 0; 0; 1 / 10; 1; 0; 0; 0].
Definition voyage (n : nat) : result same (list R) := run same R rf rdf free_ship no_effort 1 (fun x _ => x) euler n blank turning 0 (1 / 10).
Definition logbook (n : nat) : list R := match voyage n with Done _ x => x | _ => [] end.

Lemma free_numbered : numbered R free_ship 1.
Proof. intros i _. split; reflexivity. Qed.
Lemma free_keeps : keeps_quaternions 1 (fun x _ => x).
Proof. intros x t _. split; reflexivity. Qed.
Lemma blank_ok : memory_at same 1 0 blank.
Proof.
  assert (G : genuine same (new_history (Rarith same) 0)) by (exists 0, []; split; [lra|constructor]).
  split; [reflexivity|]. unfold blank. constructor; [|constructor]. split; [reflexivity|]. apply Forall_forall. intros h I. apply repeat_spec in I. subst h. split; [exact G|intros p []].
Qed.
Lemma same_refl : forall n x, same n x x = true.
Proof. intros. unfold same. destruct (Req_EM_T x x); [reflexivity|contradiction]. Qed.
Lemma voyage_goes_on n : exists mk, voyage n = Done mk (logbook n).
Proof.
  destruct (forward_solvers_run same same_refl (forced R rf free_ship) (derivatives same R rdf free_ship no_effort) 1 euler (fun x _ => x) n blank turning 0 (1 / 10)) as (m' & y & E & _).
  - apply rk_in_order.
  - apply free_bodies_computable; [exact free_numbered|intros i s _; destruct s; reflexivity|intros; unfold no_effort; eauto].
  - lra.
  - exact blank_ok.
  - reflexivity.
  - reflexivity.
  - exists m'. unfold logbook. assert (voyage n = Done m' y) as -> by exact E. reflexivity.
Qed.
Lemma free_ship_steady : steady_rotation same R rf rdf free_ship no_effort 1 0.
Proof.
  intros m x t m' k j H Hj. unfold evaluate, system in H. cbn [Solver_Model.dx_dt] in H.
  destruct (update_body_states same (forced R rf free_ship) 0 m x t) as [m1 []| |]; cbn [bind] in H; try discriminate.
  destruct (derivatives same R rdf free_ship no_effort m1 0 x (repeat 0 (List.length x)) t) as [d| |] eqn:E; try discriminate. assert (k = d) as -> by congruence. clear H.
  unfold derivatives, no_effort in E. cbn [bindO] in E. apply calc_inv in E as (dx1 & Fd & _ & V & _). unfold force_state_derivatives in Fd. rewrite free_loop in Fd by (intros s; destruct s; reflexivity).
  injection Fd as <-. specialize (V j ltac:(lia)). cbn [free_ship ship bd_idx Nat.mul Nat.add] in V. unfold state_of. cbn [Nat.mul Nat.add].
  assert (nth_error (free_derivative (free_ship 0) (fun _ => 0) (entries (get_rot_from_ned_to x 0)) x) j = Some 0) as Z.
  { assert (j = 6 \/ j = 7 \/ j = 8)%nat as [->|[->| ->]] by lia; cbn [free_derivative nth_error]; f_equal; ring. }
  rewrite Z in V. exact (nth_error_nth _ _ 0 V).
Qed.
Lemma logbook_0 : logbook 0 = turning. Proof. reflexivity. Qed.
Lemma logbook_step n : exists m m' k t, evaluate same R rf rdf free_ship no_effort 1 m (logbook n) t = Done m' k /\ logbook (S n) = combine_with (logbook n) (1 / 10) [1] [k] /\ List.length (logbook n) = 13%nat.
Proof.
  destruct (voyage_goes_on (S n)) as (mk & E). destruct (voyage_goes_on n) as (mn & En). pose proof (run_length same R rf rdf free_ship no_effort 1 euler _ free_keeps _ _ _ _ _ _ _ (eq_refl : List.length turning = (13 * 1)%nat) En) as Ln.
  apply steps_last in E as (m1 & x1 & x2 & H1 & H2 & E'). cbv beta in E'. change (steps same (forced R rf free_ship) (derivatives same R rdf free_ship no_effort) 1 (fun x _ => x) euler n 0 blank turning 0 (1 / 10)) with (voyage n) in H1.
  rewrite En in H1. assert (x1 = logbook n) as -> by congruence. apply euler_inv in H2 as (k & H2 & ->). exists m1, mk, k. eexists. split; [exact H2|]. split; [exact E'|exact Ln].
Qed.
Lemma logbook_rates n : forall j, (6 <= j < 9)%nat -> state_of (logbook n) 0 j = state_of turning 0 j.
Proof.
  induction n as [|n IH]; intros j Hj; [reflexivity|]. destruct (logbook_step n) as (m & m' & k & t & E & -> & L). rewrite <- IH by exact Hj.
  apply (dq_combine 1); [exact L|lia| |exact Hj]. cbn [In]. intros k' j' I Hj'. destruct I as [<-|[]]. exact (free_ship_steady _ _ _ _ _ _ E Hj').
Qed.
Lemma logbook_rate2 n : rate2 (logbook n) 0 = 1 / 100.
Proof. unfold rate2. rewrite !logbook_rates by lia. unfold turning, state_of. cbn [nth Nat.mul Nat.add]. lra. Qed.

Theorem attitude_stays_a_rotation_refuted :
  quaternion2 turning 0 = 1 /\ (forall n, exists m, voyage n = Done m (logbook n)) /\ (forall n, rate2 (logbook n) 0 = 1 / 100) /\
  ~ rotation (get_rot_from_ned_to (logbook 1) 0) /\
  5 / 4 <= quaternion2 (logbook (100 * 100)) 0 /\ (forall bound, exists n, bound < quaternion2 (logbook n) 0).
Proof.
  assert (quaternion2 turning 0 = 1) as Q by (unfold quaternion2, turning, state_of; cbn [nth Nat.mul Nat.add]; lra).
  assert (forall k, 1 / 10 * (1 / 10) <= rate2 (logbook k) 0) as HW by (intros k; rewrite logbook_rate2; lra).
  split; [exact Q|]. split; [exact voyage_goes_on|]. split; [exact logbook_rate2|]. split; [|split].
  - intros H. apply matrix_is_a_rotation_iff_unit in H. destruct (logbook_step 0) as (m & m' & k & t & E & S1 & L).
    destruct H as [H|(_ & _ & H)].
    + pose proof (euler_drift_grows same R rf rdf free_ship no_effort 1 (fun x _ => x) 1 blank turning 0 (1 / 10) logbook 0 (1 / 10) free_numbered free_keeps eq_refl ltac:(lia) (fun k _ => voyage_goes_on k)
        (fun k _ => HW k)) as G. rewrite Q, H in G. cbn [INR] in G. lra.
    + rewrite S1, state_of_combine in H by (rewrite L; lia). apply evaluate_quaternion in E as (_ & V); [|exact free_numbered]. cbn [combine map fold_right fst snd] in H. rewrite V in H by lia.
      rewrite logbook_0 in H. unfold dquaternion, turning, state_of in H. cbn [nth Nat.mul Nat.add] in H. lra.
  - pose proof (euler_drift_grows same R rf rdf free_ship no_effort 1 (fun x _ => x) (100 * 100) blank turning 0 (1 / 10) logbook 0 (1 / 10) free_numbered free_keeps eq_refl ltac:(lia) (fun k _ => voyage_goes_on k)
        (fun k _ => HW k)) as G. rewrite Q, mult_INR, (INR_IZR_INZ 100) in G. change (Z.of_nat 100) with 100%Z in G. lra.
  - intros bound. apply (euler_drift_unbounded same R rf rdf free_ship no_effort 1 (fun x _ => x) turning 0 (1 / 10) blank logbook 0 (1 / 10) bound free_numbered free_keeps eq_refl ltac:(lia) Q); [lra|lra|exact voyage_goes_on|].
    intros k. rewrite logbook_rate2. lra.
Qed.
Print Assumptions attitude_stays_a_rotation_refuted.
(** The same ship meets the hypotheses of the theorem on Runge-Kutta 4. *)
Example runge_kutta_witness : numbered R free_ship 1 /\ steady_rotation same R rf rdf free_ship no_effort 1 0 /\ exists m' x', step same R rf rdf free_ship no_effort 1 rk4 blank turning 0 (1 / 10) = Done m' x'.
Proof.
  split; [exact free_numbered|]. split; [exact free_ship_steady|].
  destruct (step_forward same same_refl (forced R rf free_ship) (derivatives same R rdf free_ship no_effort) 1 rk4 blank turning 0 (1 / 10)) as (m' & y & E & _).
  - apply free_bodies_computable; [exact free_numbered|intros i s _; destruct s; reflexivity|intros; unfold no_effort; eauto].
  - lra.
  - apply rk_in_order.
  - exact blank_ok.
  - reflexivity.
  - eauto.
Qed.

(** What follows a step in the local loop (solver.hpp:39, Sim.cpp:118-124) keeps the quaternions: the forced states are never among them. *)
Theorem forced_states_keep_quaternions : forall Itp (itp_f : Itp -> R -> outcome R) (l : list (body Itp)) n_bodies, 
  keeps_quaternions n_bodies (fun x t => match sim_force_states itp_f l x t with Ok y => y | _ => x end).
Proof.
  intros Itp itp_f l n_bodies x t _. cbv beta.
  assert (forall y, sim_force_states itp_f l x t = Ok y -> List.length y = List.length x /\ forall i k, (9 <= k < 13)%nat -> nth_error y (13 * i + k) = nth_error x (13 * i + k)) as G.
  { revert x. induction l as [|b l IH]; intros x y H; cbn [sim_force_states] in H; [injection H as <-; auto|].
    destruct (force_states Rltb itp_f (bd_blocked b) x t) as [x1| |] eqn:E; cbn [bindO] in H; try discriminate. destruct (IH _ _ H) as (L1 & V1). split; [rewrite L1; exact (force_loop_length _ _ _ _ _ _ _ E)|].
    intros i k Hk. rewrite V1 by exact Hk. apply (force_loop_other _ _ _ _ _ _ _ E). intros s. unfold slot, rank. destruct s; lia. }
  destruct (sim_force_states itp_f l x t) as [y| |]; [|auto|auto]. destruct (G y eq_refl) as (L & V). split; [exact L|]. intros i k _ Hk. exact (state_of_ext _ _ _ _ (V i k Hk)).
Qed.
Print Assumptions forced_states_keep_quaternions.
