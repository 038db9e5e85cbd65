(** C185: energy of the simulated bodies. The equations of motion (Sim_Spec.free_derivative) and the weight (Force_Model.gravity) against mechanics: the mechanical
    energy changes by the work of the efforts other than the weight, and the trajectories computed by the simulator do the same when the step tends to zero. *)
From Coq Require Import ZArith Reals Lra Lia Psatz List.
From Coquelicot Require Import Coquelicot.
From Verif Require Import Common History_Model History_Real_Proofs Blocked_Model Sim_Model Sim_Spec Sim_Props Solver_Model Solver_Props Drift_Model Drift_Props Force_Model Force_Spec Force_Props Calm_Model Calm_Props Fall_Props Inertia_Spec Converge_Proofs Converge_Props Geometry.
Import ListNotations.
Open Scope R_scope.

(** ** Specification *)
(** The six velocities of the body [i] (u, v, w, p, q, r) *)
Definition velocities (x : list R) (i : nat) : vec := fun k => state_of x i (3 + k).
Definition kinetic_energy (M : mat) (x : list R) (i : nat) : R := 1 / 2 * form6 M (velocities x i).
(** z points downwards. *)
Definition potential_energy (mass g : R) (x : list R) (i : nat) : R := - (mass * g * state_of x i 2).
Definition mechanical_energy {Itp} (b : body Itp) (mass g : R) (x : list R) (i : nat) : R := kinetic_energy (bd_M b) x i + potential_energy mass g x i.
(** The weight, in the axes of the body *)
Definition weight_on (mass g : R) (x : list R) (i : nat) : vec := to_vector (gravity (inverse_transform (placement x i)) mass g).
(** Power of some efforts on the body [i] *)
Definition power_of (F : vec) (x : list R) (i : nat) : R := dot6 F (velocities x i).
(** The inertia matrix of a body and its inverse *)
Definition good_inertia {Itp} (b : body Itp) : Prop :=
  symmetric 6 (bd_M b) /\ forall j k, (j < 6)%nat -> (k < 6)%nat -> sum6 (fun l => bd_M b j l * bd_Minv b l k) = if Nat.eqb j k then 1 else 0.

(** ** Proofs *)
Lemma inertia_times_acceleration Itp (b : body Itp) F j : good_inertia b -> (j < 6)%nat -> sum6 (fun k => bd_M b j k * row (bd_Minv b) F k) = F j.
Proof.
  intros (_ & H) Hj. pose proof (H j 0%nat Hj ltac:(lia)) as H0. pose proof (H j 1%nat Hj ltac:(lia)) as H1. pose proof (H j 2%nat Hj ltac:(lia)) as H2. pose proof (H j 3%nat Hj ltac:(lia)) as H3. pose proof (H j 4%nat Hj ltac:(lia)) as H4. pose proof (H j 5%nat Hj ltac:(lia)) as H5.
  transitivity (sum6 (fun l => bd_M b j l * bd_Minv b l 0%nat) * F 0%nat + sum6 (fun l => bd_M b j l * bd_Minv b l 1%nat) * F 1%nat + sum6 (fun l => bd_M b j l * bd_Minv b l 2%nat) * F 2%nat + sum6 (fun l => bd_M b j l * bd_Minv b l 3%nat) * F 3%nat + sum6 (fun l => bd_M b j l * bd_Minv b l 4%nat) * F 4%nat + sum6 (fun l => bd_M b j l * bd_Minv b l 5%nat) * F 5%nat).
  - unfold sum6, row. ring.
  - rewrite H0, H1, H2, H3, H4, H5. do 6 (destruct j as [|j]; [cbn [Nat.eqb]; ring|]). lia.
Qed.
Lemma sum6_derivable (f : nat -> R -> R) (l : nat -> R) t : (forall k, (k < 6)%nat -> derivable_pt_lim (f k) t (l k)) -> derivable_pt_lim (fun s => sum6 (fun k => f k s)) t (sum6 l).
Proof.
  intros H. unfold sum6. repeat (match goal with |- derivable_pt_lim (fun s => @?a s + @?b s) _ (?u + ?v) => apply (derivable_pt_lim_plus a b) end; [|apply H; lia]). apply H. lia.
Qed.
Lemma form6_sum D v : form6 D v = sum6 (fun j => v j * sum6 (fun k => D j k * v k)).
Proof. reflexivity. Qed.
Lemma form6_derivable (D : mat) (v : nat -> R -> R) (a : nat -> R) t : symmetric 6 D -> (forall k, (k < 6)%nat -> derivable_pt_lim (v k) t (a k)) ->
  derivable_pt_lim (fun s => form6 D (fun k => v k s)) t (2 * sum6 (fun j => v j t * sum6 (fun k => D j k * a k))).
Proof.
  intros Sy H.
  assert (G : derivable_pt_lim (fun s => sum6 (fun j => v j s * sum6 (fun k => D j k * v k s))) t (sum6 (fun j => a j * sum6 (fun k => D j k * v k t) + v j t * sum6 (fun k => D j k * a k)))).
  { apply (sum6_derivable (fun j s => v j s * sum6 (fun k => D j k * v k s))). intros j Hj. apply (derivable_pt_lim_mult (v j) (fun s => sum6 (fun k => D j k * v k s))); [apply H; exact Hj|].
    apply (sum6_derivable (fun k s => D j k * v k s)). intros k Hk. apply (derivable_pt_lim_scal (v k)). apply H. exact Hk. }
  match type of G with derivable_pt_lim ?f ?x ?l => match goal with |- derivable_pt_lim _ _ ?l' => assert (E : l = l'); [|exact (eq_ind l (fun z => derivable_pt_lim f x z) G l' E)] end end.
  unfold sum6.
  rewrite (Sy 1%nat 0%nat), (Sy 2%nat 0%nat), (Sy 3%nat 0%nat), (Sy 4%nat 0%nat), (Sy 5%nat 0%nat), (Sy 2%nat 1%nat), (Sy 3%nat 1%nat), (Sy 4%nat 1%nat), (Sy 5%nat 1%nat), (Sy 3%nat 2%nat), (Sy 4%nat 2%nat), (Sy 5%nat 2%nat), (Sy 4%nat 3%nat), (Sy 5%nat 3%nat), (Sy 5%nat 4%nat) by lia. ring.
Qed.

Section Energy.
Context {Itp : Type}.
Variable bodies : nat -> body Itp.
Variable n_bodies : nat.
Hypothesis bodies_numbered : numbered Itp bodies n_bodies.
Variable F : nat -> R -> list R -> vec.
Variables mass g : R.
(** What acts on a body besides its weight *)
Definition other_efforts (i : nat) (t : R) (x : list R) : vec := fun k => F i t x k - weight_on mass g x i k.

(** Along a solution, the energy changes by the work of the other efforts. *)
Theorem energy_rate : forall X t0 T i t, solution bodies n_bodies F X t0 T -> (i < n_bodies)%nat -> good_inertia (bodies i) -> t0 <= t <= t0 + T ->
  derivable_pt_lim (fun s => mechanical_energy (bodies i) mass g (X s) i) t (power_of (other_efforts i t (X t)) (X t) i).
Proof.
  intros X t0 T i t S Hi GI Ht. destruct (bodies_numbered i Hi) as (Ei & _). pose proof (proj2 (S t Ht) i) as D.
  set (a := row (bd_Minv (bodies i)) (F i t (X t))).
  assert (Da : forall k, (k < 6)%nat -> derivable_pt_lim (fun s => velocities (X s) i k) t (a k)).
  { intros k Hk. specialize (D (3 + k)%nat Hi ltac:(lia)). unfold velocities. unfold free_derivative in D. cbv zeta in D.
    do 6 (destruct k as [|k]; [exact D|]). lia. }
  assert (Dz := D 2%nat Hi ltac:(lia)). unfold free_derivative in Dz. rewrite Ei in Dz. cbv zeta in Dz. cbn [nth] in Dz.
  pose proof (derivable_pt_lim_scal _ (1 / 2) _ _ (form6_derivable (bd_M (bodies i)) (fun k s => velocities (X s) i k) a t (proj1 GI) Da)) as K.
  pose proof (derivable_pt_lim_opp _ _ _ (derivable_pt_lim_scal _ (mass * g) _ _ Dz)) as P. pose proof (derivable_pt_lim_plus _ _ _ _ _ K P) as G.
  match type of G with derivable_pt_lim ?f ?x ?l => match goal with |- derivable_pt_lim _ _ ?l' => assert (E : l = l'); [|exact (eq_ind l (fun z => derivable_pt_lim f x z) G l' E)] end end.
  assert (sum6 (fun j => velocities (X t) i j * sum6 (fun k => bd_M (bodies i) j k * a k)) = dot6 (F i t (X t)) (velocities (X t) i)) as ->.
  { unfold a. unfold sum6 at 1. rewrite (inertia_times_acceleration _ _ _ 0%nat GI), (inertia_times_acceleration _ _ _ 1%nat GI), (inertia_times_acceleration _ _ _ 2%nat GI), (inertia_times_acceleration _ _ _ 3%nat GI), (inertia_times_acceleration _ _ _ 4%nat GI), (inertia_times_acceleration _ _ _ 5%nat GI) by lia. unfold dot6. ring. }
  unfold power_of, other_efforts, weight_on, gravity, inverse_transform, placement, get_rot_from_ned_to, dot6, velocities, entries, to_vector, mapply, transpose, dot, v0. cbn [fst snd t_rot r1 r2 r3 vx vy vz Nat.add]. field.
Qed.
Lemma rate_integrates (f : R -> R) f' a b : a <= b -> (forall t, a <= t <= b -> derivable_pt_lim f t (f' t)) -> (forall t, a <= t <= b -> f' t <= 0) -> f b <= f a.
Proof.
  intros H Hd Hn. destruct (Rle_lt_or_eq_dec a b H) as [Lt|<-]; [|lra]. destruct (MVT_cor2 f f' a b Lt Hd) as (c & E & Hc). specialize (Hn c ltac:(lra)). nra.
Qed.
(** Efforts that never give energy (damping, Coriolis): the energy never grows. *)
Theorem energy_never_grows : forall X t0 T i, solution bodies n_bodies F X t0 T -> (i < n_bodies)%nat -> good_inertia (bodies i) -> (forall t, t0 <= t <= t0 + T -> power_of (other_efforts i t (X t)) (X t) i <= 0) ->
  forall a b, t0 <= a -> a <= b -> b <= t0 + T -> mechanical_energy (bodies i) mass g (X b) i <= mechanical_energy (bodies i) mass g (X a) i.
Proof.
  intros X t0 T i S Hi GI Hp a b Ha Hab Hb. apply (rate_integrates (fun s => mechanical_energy (bodies i) mass g (X s) i) (fun t => power_of (other_efforts i t (X t)) (X t) i)); [exact Hab| |].
  - intros t Ht. apply (energy_rate X t0 T); auto. lra.
  - intros t Ht. apply Hp. lra.
Qed.
Theorem energy_is_conserved : forall X t0 T i, solution bodies n_bodies F X t0 T -> (i < n_bodies)%nat -> good_inertia (bodies i) -> (forall t, t0 <= t <= t0 + T -> power_of (other_efforts i t (X t)) (X t) i = 0) ->
  forall t, t0 <= t <= t0 + T -> mechanical_energy (bodies i) mass g (X t) i = mechanical_energy (bodies i) mass g (X t0) i.
Proof.
  intros X t0 T i S Hi GI Hp t Ht. apply Rle_antisym; [apply (energy_never_grows X t0 T); auto; try lra; intros u Hu; rewrite Hp by exact Hu; lra|].
  apply Ropp_le_cancel. apply (rate_integrates (fun s => - mechanical_energy (bodies i) mass g (X s) i) (fun t => - power_of (other_efforts i t (X t)) (X t) i)); [lra| |].
  - intros u Hu. apply (derivable_pt_lim_opp (fun s => mechanical_energy (bodies i) mass g (X s) i)). apply (energy_rate X t0 T); auto. lra.
  - intros u Hu. rewrite Hp by lra. lra.
Qed.
Lemma energy_regular i t0 T : (i < n_bodies)%nat -> regular n_bodies t0 T (fun _ y => mechanical_energy (bodies i) mass g y i).
Proof. intros Hi. unfold mechanical_energy, kinetic_energy, potential_energy, form6, dot6, velocities. cbn [Nat.add]. reg. Qed.
End Energy.
Print Assumptions energy_rate.
Print Assumptions energy_never_grows.
Print Assumptions energy_is_conserved.

(** ** The trajectories of the simulator *)
Section Simulated.
Variable aeqR : Z -> R -> R -> bool.
Hypothesis aeqR_refl : forall n x, aeqR n x x = true.
Variable Itp : Type.
Variable itp_f itp_df : Itp -> R -> outcome R.
Variable bodies : nat -> body Itp.
Variable n_bodies : nat.
Hypothesis bodies_numbered : numbered Itp bodies n_bodies.
Hypothesis bodies_free : not_forced Itp bodies n_bodies.
Variable F : nat -> R -> list R -> vec.
Variable sum_of_forces : list (memory aeqR) -> nat -> list R -> R -> outcome vec.
Hypothesis no_memory : forall m i x t, sum_of_forces m i x t = Ok (F i t x).
Variables mass g : R.
Notation simulate := (run aeqR Itp itp_f itp_df bodies sum_of_forces n_bodies (fun x _ => x)).
Lemma energy_follows s X t0 T m i : s = euler \/ s = rk4 -> 0 <= T -> regular_efforts n_bodies F t0 T -> solution bodies n_bodies F X t0 T -> memory_at aeqR n_bodies t0 m -> (i < n_bodies)%nat ->
  exists c h0, 0 <= c /\ 0 < h0 /\ forall n h, 0 <= h <= h0 -> INR n * h <= T -> exists m' y, simulate s n m (X t0) t0 h = Done m' y /\
    Rabs (mechanical_energy (bodies i) mass g y i - mechanical_energy (bodies i) mass g (X (t0 + INR n * h)) i) <= c * h.
Proof.
  intros Hs HT RF S Mm Hi.
  destruct (trajectories_converge_at_first_order aeqR aeqR_refl Itp itp_f itp_df bodies n_bodies bodies_numbered bodies_free F sum_of_forces no_memory s X t0 T m Hs HT RF S Mm) as (c & h0 & Pc & Ph & G).
  destruct (solution_bounded bodies n_bodies F t0 T X HT S) as (M & PM & HM).
  destruct (energy_regular bodies n_bodies mass g i t0 T Hi (M + c * h0)) as (B & L & PB & PL & _ & HL).
  exists (L * c), h0. split; [nra|]. split; [exact Ph|]. intros n h Hh Hn. destruct (G n h Hh Hn) as (m' & y & E & D). exists m', y. split; [exact E|].
  pose proof (pos_INR n) as Pn. assert (Ht : t0 <= t0 + INR n * h <= t0 + T) by nra. assert (Pch : 0 <= c * h) by nra. assert (c * h <= c * h0) by (apply Rmult_le_compat_l; lra).
  assert (Ly : List.length y = (13 * n_bodies)%nat).
  { destruct (forward_solvers_run aeqR aeqR_refl (forced Itp itp_f bodies) (derivatives aeqR Itp itp_df bodies sum_of_forces) n_bodies s (fun x _ => x) n m (X t0) t0 h) as (m2 & y2 & E2 & _ & L2); auto; try lra.
    - destruct rk_in_order as (Oe & Or & _). destruct Hs as [->| ->]; assumption.
    - apply free_bodies_computable; auto. intros; rewrite no_memory; eauto.
    - apply (S t0). lra.
    - unfold run in E. rewrite E in E2. injection E2 as <- <-. rewrite L2. apply (S t0). lra. }
  set (t := t0 + INR n * h) in *. specialize (HL t t y (X t) (c * h) Ht Ht Ly (proj1 (S t Ht))).
  replace (Rabs (t - t) + c * h) with (c * h) in HL by (replace (t - t) with 0 by ring; rewrite Rabs_R0; ring). rewrite Rmult_assoc. apply HL; [| |exact Pch|exact D].
  - intros j k Hj Hk. specialize (D j k Hj Hk). pose proof (HM j k Hj Hk t Ht). replace (state_of y j k) with (state_of (X t) j k + (state_of y j k - state_of (X t) j k)) by ring. eapply Rle_trans; [apply Rabs_triang|]. lra.
  - intros j k Hj Hk. pose proof (HM j k Hj Hk t Ht). assert (0 <= c * h0) by nra. lra.
Qed.
(** Without efforts that work besides the weight, the energy of the computed trajectory is the one of the beginning, up to a constant times the step. *)
Theorem simulated_energy_is_conserved : forall s X t0 T m i, s = euler \/ s = rk4 -> 0 <= T -> regular_efforts n_bodies F t0 T -> solution bodies n_bodies F X t0 T -> memory_at aeqR n_bodies t0 m -> (i < n_bodies)%nat -> good_inertia (bodies i) ->
  (forall t x, t0 <= t <= t0 + T -> power_of (other_efforts F mass g i t x) x i = 0) ->
  exists c h0, 0 <= c /\ 0 < h0 /\ forall n h, 0 <= h <= h0 -> INR n * h <= T -> exists m' y, simulate s n m (X t0) t0 h = Done m' y /\
    Rabs (mechanical_energy (bodies i) mass g y i - mechanical_energy (bodies i) mass g (X t0) i) <= c * h.
Proof.
  intros s X t0 T m i Hs HT RF S Mm Hi GI Hp. destruct (energy_follows s X t0 T m i Hs HT RF S Mm Hi) as (c & h0 & Pc & Ph & G). exists c, h0. split; [exact Pc|]. split; [exact Ph|].
  intros n h Hh Hn. destruct (G n h Hh Hn) as (m' & y & E & D). exists m', y. split; [exact E|]. pose proof (pos_INR n).
  rewrite (energy_is_conserved bodies n_bodies bodies_numbered F mass g X t0 T i S Hi GI (fun t Ht => Hp t (X t) Ht) (t0 + INR n * h) ltac:(nra)) in D. exact D.
Qed.
(** Efforts that never give energy: the computed trajectory does not gain more than a constant times the step. *)
Theorem simulated_energy_never_grows : forall s X t0 T m i, s = euler \/ s = rk4 -> 0 <= T -> regular_efforts n_bodies F t0 T -> solution bodies n_bodies F X t0 T -> memory_at aeqR n_bodies t0 m -> (i < n_bodies)%nat -> good_inertia (bodies i) ->
  (forall t x, t0 <= t <= t0 + T -> power_of (other_efforts F mass g i t x) x i <= 0) ->
  exists c h0, 0 <= c /\ 0 < h0 /\ forall n h, 0 <= h <= h0 -> INR n * h <= T -> exists m' y, simulate s n m (X t0) t0 h = Done m' y /\
    mechanical_energy (bodies i) mass g y i <= mechanical_energy (bodies i) mass g (X t0) i + c * h.
Proof.
  intros s X t0 T m i Hs HT RF S Mm Hi GI Hp. destruct (energy_follows s X t0 T m i Hs HT RF S Mm Hi) as (c & h0 & Pc & Ph & G). exists c, h0. split; [exact Pc|]. split; [exact Ph|].
  intros n h Hh Hn. destruct (G n h Hh Hn) as (m' & y & E & D). exists m', y. split; [exact E|]. pose proof (pos_INR n).
  pose proof (energy_never_grows bodies n_bodies bodies_numbered F mass g X t0 T i S Hi GI (fun t Ht => Hp t (X t) Ht) t0 (t0 + INR n * h) ltac:(lra) ltac:(nra) ltac:(lra)) as K. apply Rabs_le_between in D. lra.
Qed.
End Simulated.
Print Assumptions simulated_energy_is_conserved.
Print Assumptions simulated_energy_never_grows.
(** The damping models with a suitable matrix only take energy. *)
Theorem damped_efforts_take_energy : forall mass g D1 D2 P i t x, positive_semi_definite D1 -> non_negative_diagonal D2 ->
  power_of (other_efforts (usual mass g D1 D2 P (v0, v0)) mass g i t x) x i <= 0.
Proof.
  intros mass g D1 D2 P i t x H1 H2. set (v := V3 (state_of x i 3) (state_of x i 4) (state_of x i 5)). set (om := V3 (state_of x i 6) (state_of x i 7) (state_of x i 8)).
  pose proof (proj2 (linear_damping_dissipates D1 P v om H1)) as A1. pose proof (proj2 (quadratic_damping_dissipates D2 P v om H2)) as A2.
  match goal with |- ?l <= 0 => assert (l = power (w_force (damping linear_damping D1 P v om)) (w_torque (damping linear_damping D1 P v om)) v om + power (w_force (damping quadratic_damping D2 P v om)) (w_torque (damping quadratic_damping D2 P v om)) v om) as ->; [|lra] end.
  unfold power_of, other_efforts, weight_on, usual, dot6, velocities, Force_Model.sum_of_forces. fold v om. cbv zeta.
  set (w := gravity _ mass g). set (d1 := damping linear_damping D1 P v om). set (d2 := damping quadratic_damping D2 P v om). cbn [map fold_left fst snd Force_Model.w_force Force_Model.w_torque to_vector vadd v0 vx vy vz].
  unfold power, dot, v, om. cbn [vx vy vz Nat.add]. ring.
Qed.
Print Assumptions damped_efforts_take_energy.

(** A body of 2 kg that falls in a viscous fluid (its speed tends to 10 m/s), and in the void. *)
Definition two : mat := fun j k => if Nat.eqb j k then 2 else 0.
Definition half : mat := fun j k => if Nat.eqb j k then / 2 else 0.
Definition ball (i : nat) : body R := @mkBody R i (mkBlocked mempty i mempty mempty) two half.
Lemma ball_inertia i : good_inertia (ball i).
Proof. split; [intros j k _ _; cbn; unfold two; rewrite Nat.eqb_sym; reflexivity|]. intros j k Hj Hk. cbn [ball bd_M bd_Minv]. unfold sum6, two, half. do 6 (destruct j as [|j]; [do 6 (destruct k as [|k]; [cbn [Nat.eqb]; field|]); lia|]). lia. Qed.
Definition sinking (t : R) : list R := [0; 0; 10 * (t - 1 + exp (- t)); 0; 0; 10 * (1 - exp (- t)); 0; 0; 0; 1; 0; 0; 0].
Definition falling (t : R) : list R := [0; 0; 5 * t * t; 0; 0; 10 * t; 0; 0; 0; 1; 0; 0; 0].
Definition none : mat := fun _ _ => 0.
(** The efforts on a body that falls straight at the speed [w] *)
Definition upright (z w : R) : list R := [0; 0; z; 0; 0; w; 0; 0; 0; 1; 0; 0; 0].
Lemma usual_upright D t z w k : (k < 6)%nat -> usual 2 10 D none v0 (v0, v0) 0 t (upright z w) k = (if Nat.eqb k 2 then 20 else 0) - D k 2%nat * w.
Proof.
  intros Hk. unfold usual. set (y := upright z w).
  assert (E3 : state_of y 0 3 = 0) by reflexivity. assert (E4 : state_of y 0 4 = 0) by reflexivity. assert (E5 : state_of y 0 5 = w) by reflexivity. assert (E6 : state_of y 0 6 = 0) by reflexivity. assert (E7 : state_of y 0 7 = 0) by reflexivity. assert (E8 : state_of y 0 8 = 0) by reflexivity.
  assert (Q : get_rot_from_ned_to y 0 = qmat 1 0 0 0) by reflexivity. rewrite E3, E4, E5, E6, E7, E8. unfold Force_Model.sum_of_forces, gravity, inverse_transform, placement. cbn [t_rot]. rewrite Q.
  unfold damping, damping_wrench, linear_damping, quadratic_damping, mul6, sum6, none, qmat, transpose, mapply, dot. cbn [map fold_left fst snd Force_Model.w_force Force_Model.w_torque states6 v0 vx vy vz r1 r2 r3]. unfold vadd. cbn [vx vy vz v0 to_vector fst snd].
  do 6 (destruct k as [|k]; [cbn [Nat.eqb to_vector fst snd vx vy vz]; ring|]). lia.
Qed.
(** A motion straight down, [z] with the speed [w] and the acceleration [10 - d w / 2] *)
Lemma straight_down D (z w : R -> R) T : (forall k, (k < 6)%nat -> k <> 2%nat -> D k 2%nat = 0) -> (forall t, derivable_pt_lim z t (w t)) -> (forall t, derivable_pt_lim w t (10 - D 2%nat 2%nat * w t / 2)) ->
  solution ball 1 (usual 2 10 D none v0 (v0, v0)) (fun t => upright (z t) (w t)) 0 T.
Proof.
  intros HD Hz Hw t _. split; [reflexivity|]. intros i k Hi Hk. assert (i = 0%nat) as -> by lia.
  assert (K0 : derivable_pt_lim (fun _ : R => 0) t 0) by apply derivable_pt_lim_const. assert (K1 : derivable_pt_lim (fun _ : R => 1) t 0) by apply derivable_pt_lim_const.
  assert (U : forall l l' f, derivable_pt_lim f t l -> l = l' -> derivable_pt_lim f t l') by (intros l l' f G <-; exact G).
  unfold free_derivative. cbv zeta. cbn [ball bd_Minv bd_idx]. rewrite !usual_upright by lia. rewrite (HD 0%nat), (HD 1%nat), (HD 3%nat), (HD 4%nat), (HD 5%nat) by lia. unfold half, entries, qmat. cbn [Nat.eqb r1 r2 r3 vx vy vz].
  set (y := upright (z t) (w t)).
  assert (E3 : state_of y 0 3 = 0) by reflexivity. assert (E4 : state_of y 0 4 = 0) by reflexivity. assert (E5 : state_of y 0 5 = w t) by reflexivity. assert (E6 : state_of y 0 6 = 0) by reflexivity. assert (E7 : state_of y 0 7 = 0) by reflexivity. assert (E8 : state_of y 0 8 = 0) by reflexivity.
  assert (E9 : state_of y 0 9 = 1) by reflexivity. assert (E10 : state_of y 0 10 = 0) by reflexivity. assert (E11 : state_of y 0 11 = 0) by reflexivity. assert (E12 : state_of y 0 12 = 0) by reflexivity.
  rewrite E3, E4, E5, E6, E7, E8, E9, E10, E11, E12.
  do 13 (destruct k as [|k]; [cbn [nth]; first [refine (U _ _ _ K0 _); field; fail|refine (U _ _ _ K1 _); field; fail|refine (U _ _ _ (Hz t) _); field; fail|refine (U _ _ _ (Hw t) _); field]|]). lia.
Qed.
Lemma sinking_solves T : solution ball 1 (usual 2 10 two none v0 (v0, v0)) sinking 0 T.
Proof.
  apply (straight_down two (fun t => 10 * (t - 1 + exp (- t))) (fun t => 10 * (1 - exp (- t)))).
  - intros k Hk N. unfold two. destruct (Nat.eqb_spec k 2); [contradiction|reflexivity].
  - intros t. apply is_derive_Reals. evar_last; [auto_derive; [exact Logic.I|reflexivity]|]. ring.
  - intros t. apply is_derive_Reals. unfold two. cbn [Nat.eqb]. evar_last; [auto_derive; [exact Logic.I|reflexivity]|]. field.
Qed.
Lemma falling_solves T : solution ball 1 (usual 2 10 none none v0 (v0, v0)) falling 0 T.
Proof.
  apply (straight_down none (fun t => 5 * t * t) (fun t => 10 * t)).
  - reflexivity.
  - intros t. apply is_derive_Reals. evar_last; [auto_derive; [exact Logic.I|reflexivity]|]. ring.
  - intros t. apply is_derive_Reals. unfold none. evar_last; [auto_derive; [exact Logic.I|reflexivity]|]. field.
Qed.
Lemma two_damps : positive_semi_definite two.
Proof. intros v. unfold form6, dot6, two. cbn [Nat.eqb]. pose proof (Rle_0_sqr (v 0%nat)). pose proof (Rle_0_sqr (v 1%nat)). pose proof (Rle_0_sqr (v 2%nat)). pose proof (Rle_0_sqr (v 3%nat)). pose proof (Rle_0_sqr (v 4%nat)). pose proof (Rle_0_sqr (v 5%nat)). unfold Rsqr in *. lra. Qed.
Lemma none_damps : non_negative_diagonal none.
Proof. intros i j _ _. unfold none. split; [lra|reflexivity]. Qed.
Definition pushes (D : mat) (_ : list (memory same)) (i : nat) (x : list R) (t : R) : outcome vec := Ok (usual 2 10 D none v0 (v0, v0) i t x).
Example energy_witness : forall s, s = euler \/ s = rk4 ->
  (exists c h0, 0 <= c /\ 0 < h0 /\ forall n h, 0 <= h <= h0 -> INR n * h <= 60 -> exists m' y, run same R rf rdf ball (pushes none) 1 (fun x _ => x) s n blank (falling 0) 0 h = Done m' y /\ Rabs (mechanical_energy (ball 0) 2 10 y 0) <= c * h) /\
  (exists c h0, 0 <= c /\ 0 < h0 /\ forall n h, 0 <= h <= h0 -> INR n * h <= 60 -> exists m' y, run same R rf rdf ball (pushes two) 1 (fun x _ => x) s n blank (sinking 0) 0 h = Done m' y /\ mechanical_energy (ball 0) 2 10 y 0 <= c * h).
Proof.
  intros s Hs. assert (N : numbered R ball 1) by (intros i _; split; reflexivity). assert (NF : not_forced R ball 1) by (intros i q _; destruct q; reflexivity). split.
  - destruct (simulated_energy_is_conserved same Drift_Props.same_refl R rf rdf ball 1 N NF (usual 2 10 none none v0 (v0, v0)) (pushes none) ltac:(reflexivity) 2 10 s falling 0 60 blank 0 Hs ltac:(lra) (usual_efforts_are_regular _ _ _ _ _ _ _ _ _) (falling_solves 60) blank_ok ltac:(lia) (ball_inertia 0)) as (c & h0 & Pc & Ph & G).
    + intros t x _. unfold power_of, other_efforts, weight_on, usual, dot6, velocities, Force_Model.sum_of_forces, damping, damping_wrench, linear_damping, quadratic_damping, mul6, sum6, none. cbv zeta. cbn [map fold_left fst snd Force_Model.w_force Force_Model.w_torque to_vector vadd v0 vx vy vz]. ring.
    + exists c, h0. split; [exact Pc|]. split; [exact Ph|]. intros n h Hh Hn. destruct (G n h Hh Hn) as (m' & y & E & D). exists m', y. split; [exact E|].
      assert (mechanical_energy (ball 0) 2 10 (falling 0) 0 = 0) as Z by (unfold mechanical_energy, kinetic_energy, potential_energy, form6, dot6, velocities, state_of, falling, ball, two; cbn -[IZR]; field). rewrite Z, Rminus_0_r in D. exact D.
  - destruct (simulated_energy_never_grows same Drift_Props.same_refl R rf rdf ball 1 N NF (usual 2 10 two none v0 (v0, v0)) (pushes two) ltac:(reflexivity) 2 10 s sinking 0 60 blank 0 Hs ltac:(lra) (usual_efforts_are_regular _ _ _ _ _ _ _ _ _) (sinking_solves 60) blank_ok ltac:(lia) (ball_inertia 0)) as (c & h0 & Pc & Ph & G).
    + intros t x _. apply damped_efforts_take_energy; [exact two_damps|exact none_damps].
    + exists c, h0. split; [exact Pc|]. split; [exact Ph|]. intros n h Hh Hn. destruct (G n h Hh Hn) as (m' & y & E & D). exists m', y. split; [exact E|].
      assert (mechanical_energy (ball 0) 2 10 (sinking 0) 0 = 0) as Z by (unfold mechanical_energy, kinetic_energy, potential_energy, form6, dot6, velocities, state_of, sinking, ball, two; cbn -[IZR exp]; rewrite Ropp_0, exp_0; field). rewrite Z in D. lra.
Qed.
