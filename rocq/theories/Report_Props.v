(** Efforts reported by the observers: at which instant and for which states they were computed. *)
From Coq Require Import Reals List Lra Lia.
From Verif Require Import Sim_Model Sim_Props Report_Model.
Import ListNotations.
Open Scope R_scope.

Section Report.
Variables M E : Type.
Variable derivative : M -> states -> R -> states.
Variable efforts : M -> states -> R -> E.
Variable remember : M -> states -> R -> M.
Variable forced : states -> R -> states.
(** The scheduler, external, and the rounding of the instants: arbitrary. *)
Variable instant : R -> nat -> R -> R.
Variable Sch : Type.
Variable get_time : Sch -> R.
Variable more : Sch -> bool.
Variable append : Sch -> R -> Sch.

Notation run step := (quicksolve (sim M E) R instant Sch get_time more append step (force_sim M E forced)).
Notation euler := (euler_step M E derivative efforts remember).
Notation rk4 := (rk4_step M E derivative efforts remember).

(** ** C166. The efforts of the first report are those stored before the simulation: none was computed. *)
Theorem first_report_has_no_efforts : forall step n dt x m sch obs fin t s,
  run step n dt (mkSim x m None) sch = (obs, fin) -> nth_error obs 0 = Some (t, s) -> output s = (x, None).
Proof.
  intros step n dt x m sch obs fin t s H H0. unfold quicksolve in H.
  destruct (quicksolve_loop _ _ _ _ _ _ _ _ _ n 0 _ dt _ sch) as [o f]. injection H as <- <-. cbn in H0. injection H0 as <- <-. reflexivity.
Qed.

(** With the Euler scheme, the efforts of each report are those of the states and instant of the previous report: they are
    one step late. *)
Theorem euler_reports_are_late_partial : forall n dt s0 sch obs fin, run euler n dt s0 sch = (obs, fin) ->
  forall k t s t' s', nth_error obs k = Some (t, s) -> nth_error obs (S k) = Some (t', s') ->
  snd (output s') = Some (efforts (sm_memory s) (fst (output s)) t).
Proof.
  intros n dt s0 sch obs fin H k t s t' s' H0 H1.
  rewrite (forced_at_the_previous_instant _ _ _ _ _ _ _ _ _ _ _ _ _ _ _ H _ _ _ _ _ H0 H1). reflexivity.
Qed.

(** With the Runge-Kutta scheme they are those of the end of the step, for the last predicted states, which are not the
    states reported: they lack the correction of the end of the step. *)
Definition predicted (m : M) (x : states) (t dt : R) : states * R * M :=
  let k1 := derivative m x t in
  let m1 := remember m x t in
  let x2 := fun i => x i + dt / 2 * k1 i in
  let k2 := derivative m1 x2 (t + dt / 2) in
  let m2 := remember m1 x2 (t + dt / 2) in
  let x3 := fun i => x i + dt / 2 * k2 i in
  let k3 := derivative m2 x3 (t + dt / 2) in
  let m3 := remember m2 x3 (t + dt / 2) in
  (fun i => x i + dt * k3 i, t + dt, m3).
Theorem rk4_reports_predictions_partial : forall n dt s0 sch obs fin, run rk4 n dt s0 sch = (obs, fin) ->
  forall k t s t' s', nth_error obs k = Some (t, s) -> nth_error obs (S k) = Some (t', s') ->
  let '(x, tp, m) := predicted (sm_memory s) (fst (output s)) t dt in
  snd (output s') = Some (efforts m x tp).
Proof.
  intros n dt s0 sch obs fin H k t s t' s' H0 H1.
  rewrite (forced_at_the_previous_instant _ _ _ _ _ _ _ _ _ _ _ _ _ _ _ H _ _ _ _ _ H0 H1). reflexivity.
Qed.

(** How far the predicted states are from those reported, when none is forced: the step times the variations of the
    derivative over the step. *)
Theorem rk4_prediction_error : forall dt s t c, 0 <= dt ->
  let s' := rk4 s t dt in
  let '(x, tp, _) := predicted (sm_memory s) (sm_state s) t dt in
  (* the four slopes *)
  let m1 := remember (sm_memory s) (sm_state s) t in
  let k1 := derivative (sm_memory s) (sm_state s) t in
  let x2 := fun i => sm_state s i + dt / 2 * k1 i in
  let k2 := derivative m1 x2 (t + dt / 2) in
  let m2 := remember m1 x2 (t + dt / 2) in
  let x3 := fun i => sm_state s i + dt / 2 * k2 i in
  let k3 := derivative m2 x3 (t + dt / 2) in
  let m3 := remember m2 x3 (t + dt / 2) in
  let k4 := derivative m3 x tp in
  forall i, Rabs (k3 i - k1 i) <= c -> Rabs (k3 i - k2 i) <= c -> Rabs (k3 i - k4 i) <= c ->
  tp = t + dt /\ Rabs (x i - sm_state s' i) <= 2 / 3 * dt * c.
Proof.
  intros dt s t c D. cbv zeta. unfold predicted. cbv zeta beta iota. intros i H1 H2 H4. split; [reflexivity|].
  unfold rk4_step, evaluate. cbv zeta. cbn [sm_state sm_memory sm_efforts set_state]. unfold plus.
  set (k1 := derivative (sm_memory s) (sm_state s) t) in *.
  set (m1 := remember (sm_memory s) (sm_state s) t) in *.
  set (k2 := derivative m1 _ _) in *. set (m2 := remember m1 _ _) in *. set (k3 := derivative m2 _ _) in *. set (m3 := remember m2 _ _) in *.
  set (k4 := derivative m3 _ _) in *.
  replace (sm_state s i + dt * k3 i - (sm_state s i + dt / 6 * (k1 i + 2 * k2 i + 2 * k3 i + k4 i))) with
    (dt / 6 * ((k3 i - k1 i) + 2 * (k3 i - k2 i) + (k3 i - k4 i))) by field.
  rewrite Rabs_mult, (Rabs_right (dt / 6)) by lra.
  assert (Rabs (k3 i - k1 i + 2 * (k3 i - k2 i) + (k3 i - k4 i)) <= 4 * c) as B.
  { unfold Rabs in *. repeat destruct Rcase_abs; lra. }
  replace (2 / 3 * dt * c) with (dt / 6 * (4 * c)) by field. apply Rmult_le_compat_l; lra.
Qed.
End Report.
Print Assumptions first_report_has_no_efforts.
Print Assumptions euler_reports_are_late_partial.
Print Assumptions rk4_reports_predictions_partial.
Print Assumptions rk4_prediction_error.

(** A falling body: the state 0 is a velocity with x' = 1, and the effort is the velocity (a drag). *)
Definition fall (step : forall (M E : Type), (M -> states -> R -> states) -> (M -> states -> R -> E) -> (M -> states -> R -> M) -> sim M E -> R -> R -> sim M E) :=
  quicksolve (sim unit R) R (fun t0 i dt => t0 + INR i * dt) nat (fun n => INR n) (fun n => Nat.ltb n 2) (fun n _ => S n)
    (step unit R (fun _ _ _ _ => 1) (fun _ x _ => x 0%nat) (fun m _ _ => m)) (force_sim unit R (fun x _ => x)) 3 1
    (mkSim (fun _ => 0) tt None) 0%nat.
Theorem reported_efforts_refuted :
  (exists obs t s, fall euler_step = (obs, true) /\ nth_error obs 2 = Some (t, s) /\
     fst (output s) 0%nat = 2 /\ snd (output s) = Some 1) /\
  (exists obs t s, fall euler_step = (obs, true) /\ nth_error obs 0 = Some (t, s) /\ snd (output s) = None).
Proof.
  assert (exists s0 s1 s2 t0 t1 t2, fall euler_step = ([(t0, s0); (t1, s1); (t2, s2)], true) /\ sm_efforts s0 = None /\ sm_state s2 0%nat = 0 + 1 * 1 + 1 * 1 /\ sm_efforts s2 = Some (0 + 1 * 1)) as
    (s0 & s1 & s2 & t0 & t1 & t2 & E & E0 & E1 & E2).
  { do 6 eexists. split; [reflexivity|]. split; [reflexivity|]. split; reflexivity. }
  split.
  - do 3 eexists. split; [exact E|]. split; [reflexivity|]. unfold output. cbn [fst snd]. rewrite E1, E2. split; [lra|]. f_equal. lra.
  - do 3 eexists. split; [exact E|]. split; [reflexivity|]. exact E0.
Qed.
Print Assumptions reported_efforts_refuted.
(** With the other scheme, on x' = x from 1 with a step of 1: the state reported is 1 + 1 + 1/2 + 1/6 + 1/24 and the effort
    that of 1 + 1 + 1/2 + 1/4. *)
Theorem reported_efforts_rk4_refuted :
  let s' := rk4_step unit R (fun _ x _ => x) (fun _ x _ => x 0%nat) (fun m _ _ => m) (mkSim (fun _ => 1) tt None) 0 1 in
  sm_state s' 0%nat = 65 / 24 /\ sm_efforts s' = Some (66 / 24).
Proof. unfold rk4_step, evaluate, plus. cbn. split; [lra|]. f_equal. lra. Qed.
Print Assumptions reported_efforts_rk4_refuted.
