(** C183: when the time step tends to zero, the trajectory computed by the simulator tends to the solution of the equations of motion.
    The model is Drift_Model.v (equations of motion of each body inside the steppers of Solver_Model.v). *)
From Coq Require Import ZArith Reals Lra Lia Psatz List.
From Coquelicot Require Import Coquelicot.
From Verif Require Import Common History_Model History_Real_Proofs Blocked_Model Blocked_Spec Blocked_Proofs Sim_Model Sim_Spec Sim_Proofs Sim_Props Solver_Model Solver_Props Drift_Model Drift_Props Force_Model Calm_Model Calm_Props Fall_Props Converge_Proofs Geometry.
Import ListNotations.
Open Scope R_scope.

(** ** Specification *)
Section Spec.
Context {Itp : Type}.
Variable bodies : nat -> body Itp.
Variable n_bodies : nat.
(** Efforts on the body [i] at the date [t] when the states are [y]. *)
Variable F : nat -> R -> list R -> vec.
(** A trajectory of the states of all bodies that satisfies the equations of motion (Sim_Spec.free_derivative) from [t0] to [t0 + T]. *)
Definition solution (X : R -> list R) (t0 T : R) : Prop := forall t, t0 <= t <= t0 + T -> List.length (X t) = (13 * n_bodies)%nat /\
  forall i k, (i < n_bodies)%nat -> (k < 13)%nat -> derivable_pt_lim (fun s => state_of (X s) i k) t (nth k (free_derivative (bodies i) (F i t (X t)) (entries (qmat (state_of (X t) i 9) (state_of (X t) i 10) (state_of (X t) i 11) (state_of (X t) i 12))) (X t)) 0).
(** Two state vectors that differ by at most [e] *)
Definition differ_by_at_most (e : R) (y z : list R) : Prop := forall i k, (i < n_bodies)%nat -> (k < 13)%nat -> Rabs (state_of y i k - state_of z i k) <= e.
Definition bounded_by (r : R) (y : list R) : Prop := forall i k, (i < n_bodies)%nat -> (k < 13)%nat -> Rabs (state_of y i k) <= r.
(** A function of the date and the states that is bounded and Lipschitz on bounded sets. *)
Definition regular (t0 T : R) (f : R -> list R -> R) : Prop := forall r, exists B L, 0 <= B /\ 0 <= L /\
  (forall t y, t0 <= t <= t0 + T -> List.length y = (13 * n_bodies)%nat -> bounded_by r y -> Rabs (f t y) <= B) /\
  (forall t t' y y' e, t0 <= t <= t0 + T -> t0 <= t' <= t0 + T -> List.length y = (13 * n_bodies)%nat -> List.length y' = (13 * n_bodies)%nat -> bounded_by r y -> bounded_by r y' -> 0 <= e -> differ_by_at_most e y y' ->
     Rabs (f t y - f t' y') <= L * (Rabs (t - t') + e)).
Definition regular_efforts (t0 T : R) : Prop := forall i k, (i < n_bodies)%nat -> (k < 6)%nat -> regular t0 T (fun t y => F i t y k).
End Spec.

(** ** Sums and products of regular functions *)
Section Regular.
Variable n : nat.
Variables t0 T : R.
Notation reg := (regular n t0 T).
Lemma reg_ext f g : (forall t y, f t y = g t y) -> reg f -> reg g.
Proof. intros E H r. destruct (H r) as (B & L & P & Q & H1 & H2). exists B, L. split; [exact P|]. split; [exact Q|]. split; intros; rewrite <- !E; auto. Qed.
Lemma reg_const c : reg (fun _ _ => c).
Proof. intros r. exists (Rabs c), 0. split; [apply Rabs_pos|]. split; [lra|]. split; intros; [lra|]. replace (c - c) with 0 by ring. rewrite Rabs_R0. lra. Qed.
Lemma reg_date : reg (fun t _ => t).
Proof. intros r. exists (Rabs t0 + Rabs T), 1. pose proof (Rabs_pos t0). pose proof (Rabs_pos T). split; [lra|]. split; [lra|]. split; intros; [|lra]. apply Rabs_le. pose proof (Rle_abs t0). pose proof (Rle_abs T). pose proof (Rabs_maj2 t0). pose proof (Rabs_maj2 T). lra. Qed.
Lemma reg_state i k : (i < n)%nat -> (k < 13)%nat -> reg (fun _ y => state_of y i k).
Proof.
  intros Hi Hk r. exists (Rabs r), 1. split; [apply Rabs_pos|]. split; [lra|]. split; intros.
  - eapply Rle_trans; [apply (H1 i k Hi Hk)|apply Rle_abs].
  - specialize (H6 i k Hi Hk). pose proof (Rabs_pos (t - t')). lra.
Qed.
Lemma reg_add f g : reg f -> reg g -> reg (fun t y => f t y + g t y).
Proof.
  intros Hf Hg r. destruct (Hf r) as (B1 & L1 & P1 & Q1 & F1 & G1). destruct (Hg r) as (B2 & L2 & P2 & Q2 & F2 & G2). exists (B1 + B2), (L1 + L2). split; [lra|]. split; [lra|]. split; intros.
  - eapply Rle_trans; [apply Rabs_triang|]. apply Rplus_le_compat; auto.
  - replace (f t y + g t y - (f t' y' + g t' y')) with ((f t y - f t' y') + (g t y - g t' y')) by ring. eapply Rle_trans; [apply Rabs_triang|]. rewrite Rmult_plus_distr_r. apply Rplus_le_compat; auto.
Qed.
Lemma reg_opp f : reg f -> reg (fun t y => - f t y).
Proof.
  intros Hf r. destruct (Hf r) as (B1 & L1 & P1 & Q1 & F1 & G1). exists B1, L1. split; [lra|]. split; [lra|]. split; intros.
  - rewrite Rabs_Ropp. auto.
  - replace (- f t y - - f t' y') with (- (f t y - f t' y')) by ring. rewrite Rabs_Ropp. auto.
Qed.
Lemma reg_sub f g : reg f -> reg g -> reg (fun t y => f t y - g t y).
Proof. intros Hf Hg. apply (reg_add f (fun t y => - g t y)); [exact Hf|apply reg_opp; exact Hg]. Qed.
Lemma reg_mul f g : reg f -> reg g -> reg (fun t y => f t y * g t y).
Proof.
  intros Hf Hg r. destruct (Hf r) as (B1 & L1 & P1 & Q1 & F1 & G1). destruct (Hg r) as (B2 & L2 & P2 & Q2 & F2 & G2). exists (B1 * B2), (B1 * L2 + B2 * L1). split; [nra|]. split; [nra|]. split; intros.
  - rewrite Rabs_mult. apply Rmult_le_compat; auto using Rabs_pos.
  - replace (f t y * g t y - f t' y' * g t' y') with (f t y * (g t y - g t' y') + g t' y' * (f t y - f t' y')) by ring. eapply Rle_trans; [apply Rabs_triang|]. rewrite !Rabs_mult, Rmult_plus_distr_r, !Rmult_assoc.
    apply Rplus_le_compat; apply Rmult_le_compat; auto using Rabs_pos.
Qed.
Lemma reg_abs f : reg f -> reg (fun t y => Rabs (f t y)).
Proof.
  intros Hf r. destruct (Hf r) as (B1 & L1 & P1 & Q1 & F1 & G1). exists B1, L1. split; [lra|]. split; [lra|]. split; intros.
  - rewrite Rabs_Rabsolu. auto.
  - eapply Rle_trans; [apply Rabs_triang_inv2|]. auto.
Qed.
Lemma reg_half f : reg f -> reg (fun t y => f t y / 2).
Proof. intros H. apply (reg_mul f (fun _ _ => / 2)); [exact H|apply reg_const]. Qed.
End Regular.
Ltac reg := repeat first [assumption | apply reg_const | apply reg_half | apply reg_add | apply reg_sub | apply reg_opp | apply reg_mul | apply reg_abs | apply reg_state; [assumption|lia]].

Section Motion.
Context {Itp : Type}.
Variable bodies : nat -> body Itp.
Variable n_bodies : nat.
Variable F : nat -> R -> list R -> vec.
Definition motion (t : R) (y : list R) (i k : nat) : R := nth k (free_derivative (bodies i) (F i t y) (entries (get_rot_from_ned_to y i)) y) 0.
Variables t0 T : R.
Hypothesis N : numbered Itp bodies n_bodies.
Hypothesis RF : regular_efforts n_bodies F t0 T.
Lemma motion_regular i k : (i < n_bodies)%nat -> (k < 13)%nat -> regular n_bodies t0 T (fun t y => motion t y i k).
Proof.
  intros Hi Hk. destruct (N i Hi) as (Ei & _). unfold motion, free_derivative. rewrite Ei.
  assert (forall k, (k < 6)%nat -> regular n_bodies t0 T (fun t y => F i t y k)) as RFi by (intros; apply RF; assumption).
  pose proof (RFi 0%nat ltac:(lia)). pose proof (RFi 1%nat ltac:(lia)). pose proof (RFi 2%nat ltac:(lia)). pose proof (RFi 3%nat ltac:(lia)). pose proof (RFi 4%nat ltac:(lia)). pose proof (RFi 5%nat ltac:(lia)).
  do 13 (destruct k as [|k]; [cbv zeta; cbn [nth]; unfold entries, get_rot_from_ned_to, qmat; cbn [r1 r2 r3 vx vy vz]; reg|]). lia.
Qed.
(** The same constants for all states of all bodies *)
Lemma uniform (P : nat -> nat -> R -> Prop) a b : (forall i k, (i < a)%nat -> (k < b)%nat -> exists M, 0 <= M /\ P i k M) -> (forall i k M M', P i k M -> M <= M' -> P i k M') ->
  exists M, 0 <= M /\ forall i k, (i < a)%nat -> (k < b)%nat -> P i k M.
Proof.
  intros H Mo. assert (G : forall c, (c <= b)%nat -> forall i, (i < a)%nat -> exists M, 0 <= M /\ forall k, (k < c)%nat -> P i k M).
  { induction c as [|c IH]; intros Hc i Hi; [exists 0; split; [lra|intros; lia]|]. destruct (IH ltac:(lia) i Hi) as (M & PM & HM). destruct (H i c Hi ltac:(lia)) as (M' & PM' & HM').
    exists (M + M'). split; [lra|]. intros k Hk. destruct (Nat.eq_dec k c) as [->|]; [apply (Mo _ _ M'); [exact HM'|lra]|apply (Mo _ _ M); [apply HM; lia|lra]]. }
  assert (Q : forall c, (c <= a)%nat -> exists M, 0 <= M /\ forall i k, (i < c)%nat -> (k < b)%nat -> P i k M).
  { induction c as [|c IH]; intros Hc; [exists 0; split; [lra|intros; lia]|]. destruct (IH ltac:(lia)) as (M & PM & HM). destruct (G b ltac:(lia) c ltac:(lia)) as (M' & PM' & HM').
    exists (M + M'). split; [lra|]. intros i k Hi Hk. destruct (Nat.eq_dec i c) as [->|]; [apply (Mo _ _ M'); [apply HM'; exact Hk|lra]|apply (Mo _ _ M); [apply HM; lia|lra]]. }
  exact (Q a (Nat.le_refl a)).
Qed.
Variable X : R -> list R.
Hypothesis HT : 0 <= T.
Hypothesis S : solution bodies n_bodies F X t0 T.
Lemma solution_bounded : exists M, 0 <= M /\ forall i k, (i < n_bodies)%nat -> (k < 13)%nat -> forall t, t0 <= t <= t0 + T -> Rabs (state_of (X t) i k) <= M.
Proof.
  apply uniform.
  - intros i k Hi Hk. assert (forall c, t0 <= c <= t0 + T -> continuity_pt (fun s => state_of (X s) i k) c) as Ct.
    { intros c Hc. apply derivable_continuous_pt. eexists. apply (proj2 (S c Hc) i k Hi Hk). }
    destruct (continuity_ab_maj _ t0 (t0 + T) ltac:(lra) Ct) as (a & Ha & _). destruct (continuity_ab_min _ t0 (t0 + T) ltac:(lra) Ct) as (b & Hb & _).
    exists (Rabs (state_of (X a) i k) + Rabs (state_of (X b) i k)). pose proof (Rabs_pos (state_of (X a) i k)). pose proof (Rabs_pos (state_of (X b) i k)). split; [lra|].
    intros t Ht. specialize (Ha t Ht). specialize (Hb t Ht). cbv beta in Ha, Hb. apply Rabs_le. pose proof (Rle_abs (state_of (X a) i k)). pose proof (Rabs_maj2 (state_of (X b) i k)). lra.
  - intros i k M M' H HM t Ht. specialize (H t Ht). lra.
Qed.
End Motion.

(** ** C184: errors in the initial states and in the efforts *)
Definition row (M : mat) (v : vec) (k : nat) : R := M k 0%nat * v 0%nat + M k 1%nat * v 1%nat + M k 2%nat * v 2%nat + M k 3%nat * v 3%nat + M k 4%nat * v 4%nat + M k 5%nat * v 5%nat.
Lemma row_close (M : mat) (v w : vec) eps k : (forall j, (j < 6)%nat -> Rabs (v j - w j) <= eps) -> Rabs (row M v k - row M w k) <= (Rabs (M k 0%nat) + Rabs (M k 1%nat) + Rabs (M k 2%nat) + Rabs (M k 3%nat) + Rabs (M k 4%nat) + Rabs (M k 5%nat)) * eps.
Proof.
  intros H. unfold row. assert (G : forall j, (j < 6)%nat -> Rabs (M k j * (v j - w j)) <= Rabs (M k j) * eps) by (intros j Hj; rewrite Rabs_mult; apply Rmult_le_compat_l; [apply Rabs_pos|apply H; exact Hj]).
  pose proof (G 0%nat ltac:(lia)). pose proof (G 1%nat ltac:(lia)). pose proof (G 2%nat ltac:(lia)). pose proof (G 3%nat ltac:(lia)). pose proof (G 4%nat ltac:(lia)). pose proof (G 5%nat ltac:(lia)).
  match goal with |- Rabs ?z <= _ => replace z with (M k 0%nat * (v 0%nat - w 0%nat) + M k 1%nat * (v 1%nat - w 1%nat) + M k 2%nat * (v 2%nat - w 2%nat) + M k 3%nat * (v 3%nat - w 3%nat) + M k 4%nat * (v 4%nat - w 4%nat) + M k 5%nat * (v 5%nat - w 5%nat)) by ring end.
  repeat (eapply Rle_trans; [apply Rabs_triang|]; rewrite Rmult_plus_distr_r; apply Rplus_le_compat; [|assumption]). assumption.
Qed.
Section Theorem_C184.
Variable aeqR : Z -> R -> R -> bool.
Hypothesis aeqR_refl : forall n x, aeqR n x x = true.
Variable Itp : Type.
Variable itp_f itp_df : Itp -> R -> outcome R.
Variable bodies : nat -> body Itp.
Variable n_bodies : nat.
Hypothesis bodies_numbered : numbered Itp bodies n_bodies.
Hypothesis bodies_free : not_forced Itp bodies n_bodies.
Variable F : nat -> R -> list R -> vec.
(** The efforts used by the simulator: they may depend on the past. *)
Definition never_fail (sum_of_forces : list (memory aeqR) -> nat -> list R -> R -> outcome vec) : Prop := forall m i x t, exists v, sum_of_forces m i x t = Ok v.
(** They are those of the equations up to [eps], at least when the states are close to those of the solution. *)
Definition efforts_up_to (eps : R) (X : R -> list R) (t0 T : R) (sum_of_forces : list (memory aeqR) -> nat -> list R -> R -> outcome vec) : Prop :=
  forall m i x t v, (i < n_bodies)%nat -> t0 <= t <= t0 + T -> List.length x = (13 * n_bodies)%nat -> differ_by_at_most n_bodies 2 x (X t) -> sum_of_forces m i x t = Ok v ->
  forall k, (k < 6)%nat -> Rabs (v k - F i t x k) <= eps.
Theorem trajectories_are_robust : forall s X t0 T, s = euler \/ s = rk4 -> 0 <= T -> regular_efforts n_bodies F t0 T -> solution bodies n_bodies F X t0 T ->
  exists c r, 0 <= c /\ 0 < r /\ forall sum_of_forces eps d x m n h, never_fail sum_of_forces -> efforts_up_to eps X t0 T sum_of_forces -> 0 <= eps ->
    List.length x = (13 * n_bodies)%nat -> differ_by_at_most n_bodies d x (X t0) -> 0 <= d -> memory_at aeqR n_bodies t0 m -> 0 <= h -> INR n * h <= T -> h + eps + d <= r ->
    exists m' y, run aeqR Itp itp_f itp_df bodies sum_of_forces n_bodies (fun x _ => x) s n m x t0 h = Done m' y /\ differ_by_at_most n_bodies (c * (h + eps + d)) y (X (t0 + INR n * h)).
Proof.
  intros s X t0 T Hs HT RF S.
  destruct (solution_bounded bodies n_bodies F t0 T X HT S) as (M & PM & HM). set (rho := M + 1).
  assert (U1 : exists B, 0 <= B /\ forall i k, (i < n_bodies)%nat -> (k < 13)%nat -> forall t y, t0 <= t <= t0 + T -> List.length y = (13 * n_bodies)%nat -> within n_bodies rho y -> Rabs (motion bodies F t y i k) <= B).
  { apply uniform; [|intros i k B B' H HB t y Ht Ly W; specialize (H t y Ht Ly W); lra]. intros i k Hi Hk. destruct (motion_regular bodies n_bodies F t0 T bodies_numbered RF i k Hi Hk rho) as (B & L & P & Q & H1 & _). exists B. split; [exact P|exact H1]. }
  assert (U2 : exists L, 0 <= L /\ forall i k, (i < n_bodies)%nat -> (k < 13)%nat -> forall t t' y y' e, t0 <= t <= t0 + T -> t0 <= t' <= t0 + T -> List.length y = (13 * n_bodies)%nat -> List.length y' = (13 * n_bodies)%nat ->
    within n_bodies rho y -> within n_bodies rho y' -> 0 <= e -> near n_bodies e y y' -> Rabs (motion bodies F t y i k - motion bodies F t' y' i k) <= L * (Rabs (t - t') + e)).
  { apply uniform.
    - intros i k Hi Hk. destruct (motion_regular bodies n_bodies F t0 T bodies_numbered RF i k Hi Hk rho) as (B & L & P & Q & _ & H2). exists L. split; [exact Q|exact H2].
    - intros i k L L' H HL t t' y y' e Ht Ht' Ly Ly' W W' He Hn. eapply Rle_trans; [apply (H t t' y y' e); auto|]. apply Rmult_le_compat_r; [pose proof (Rabs_pos (t - t')); lra|exact HL]. }
  assert (U3 : exists c, 0 <= c /\ forall i k, (i < n_bodies)%nat -> (k < 6)%nat -> forall (v w : vec) eps, 0 <= eps -> (forall j, (j < 6)%nat -> Rabs (v j - w j) <= eps) -> Rabs (row (bd_Minv (bodies i)) v k - row (bd_Minv (bodies i)) w k) <= c * eps).
  { apply uniform.
    - intros i k Hi Hk. eexists. split; [|intros v w eps He H; apply row_close; exact H]. pose proof (Rabs_pos (bd_Minv (bodies i) k 0%nat)). pose proof (Rabs_pos (bd_Minv (bodies i) k 1%nat)). pose proof (Rabs_pos (bd_Minv (bodies i) k 2%nat)).
      pose proof (Rabs_pos (bd_Minv (bodies i) k 3%nat)). pose proof (Rabs_pos (bd_Minv (bodies i) k 4%nat)). pose proof (Rabs_pos (bd_Minv (bodies i) k 5%nat)). lra.
    - intros i k c c' H Hc v w eps He Hv. eapply Rle_trans; [apply (H v w eps He Hv)|]. apply Rmult_le_compat_r; lra. }
  destruct U1 as (B & PB & HB). destruct U2 as (L & PL & HL). destruct U3 as (q & Pq & Hq). destruct consistent_methods as (Ce & Cr & _). assert (Cs : consistent s) by (destruct Hs as [->| ->]; assumption).
  set (c := C T B L s). pose proof (C_pos T B L PB PL s HT) as Pc. fold c in Pc. pose proof (spread_pos s) as PA. assert (PAB : 0 <= spread s * (B + 1)) by (apply Rmult_le_pos; lra).
  set (D := (q + 1) * (c + spread s * (B + 1) + B + 2)). assert (PD : 0 < D) by (apply Rmult_lt_0_compat; lra).
  exists (c * (q + 1)), (/ D). split; [apply Rmult_le_pos; lra|]. split; [apply Rinv_0_lt_compat; exact PD|].
  intros sof eps d x m n h NF EU He Lx Hx Hd Mm Hh Hn Hr.
  destruct (forward_solvers_run aeqR aeqR_refl (forced Itp itp_f bodies) (derivatives aeqR Itp itp_df bodies sof) n_bodies s (fun x _ => x) n m x t0 h) as (m' & y & E & _); auto.
  { destruct rk_in_order as (Oe & Or & _). destruct Hs as [->| ->]; assumption. }
  { apply free_bodies_computable; auto. }
  exists m', y. split; [exact E|].
  assert (R1 : D * (h + eps + d) <= 1) by (apply (Rmult_le_compat_l D) in Hr; [rewrite Rinv_r in Hr by lra; exact Hr|lra]).
  set (z := h + eps + d) in *. assert (Pz : 0 <= z) by (unfold z; lra). set (w := c + spread s * (B + 1)) in *. assert (Pw : 0 <= w) by (unfold w; lra).
  assert (R2 : (q + 1) * (w * z) + (q + 1) * ((B + 2) * z) <= 1) by (unfold D in R1; fold w in R1; replace (w + B + 2) with (w + (B + 2)) in R1 by ring; lra).
  assert (P1 : 0 <= w * z) by (apply Rmult_le_pos; lra). assert (P2 : 0 <= (B + 2) * z) by (apply Rmult_le_pos; lra). assert (P3 : 0 <= B * z) by (apply Rmult_le_pos; lra).
  assert (P4 : 0 <= q * (w * z)) by (apply Rmult_le_pos; lra). assert (P5 : 0 <= q * ((B + 2) * z)) by (apply Rmult_le_pos; lra). assert (P6 : 0 <= q * (B * z)) by (apply Rmult_le_pos; lra). assert (P7 : 0 <= q * z) by (apply Rmult_le_pos; lra).
  assert (P8 : 0 <= q * eps) by (apply Rmult_le_pos; lra). assert (P9 : q * eps <= q * z) by (apply Rmult_le_compat_l; unfold z; lra).
  assert (Zq : h + q * eps + d <= (q + 1) * z) by (unfold z in *; assert (0 <= q * h) by (apply Rmult_le_pos; lra); assert (0 <= q * d) by (apply Rmult_le_pos; lra); lra).
  assert (B * z <= (B + 2) * z) by (apply Rmult_le_compat_r; lra).
  assert (Small : B * h <= 1).
  { apply (Rle_trans _ (B * z)); [apply Rmult_le_compat_l; unfold z; lra|]. lra. }
  intros i k Hi Hk. refine (Rle_trans _ _ _ (run_robust aeqR Itp itp_f itp_df bodies n_bodies sof (motion bodies F) t0 T rho B L (q * eps) PB PL _ _ _ X _ _ _ h _ s Cs HT n m x h d m' y Lx Hd Hx _ Hn _ E i k Hi Hk) _).
  - split; [exact P8|]. replace ((B + 2) * z) with (B * z + 2 * z) in * by ring. lra.
  - intros; apply HB; assumption.
  - intros t t' y1 y2 e Ht Ht' Ly Ly' W W' Hnr i' k' Hi' Hk'. apply HL; auto. specialize (Hnr i' k' Hi' Hk'). pose proof (Rabs_pos (state_of y1 i' k' - state_of y2 i' k')). lra.
  - intros t Ht. apply (S t Ht).
  - intros t i' k' Ht Hi' Hk'. apply (proj2 (S t Ht) i' k' Hi' Hk').
  - intros t Ht i' k' Hi' Hk'. unfold rho. replace (M + 1 - 1) with M by ring. apply HM; assumption.
  - intros m1 y1 t m2 dx t' Ht' Hg Ht Ly N1 Ev i' k' Hi' Hk'.
    destruct (evaluate_free aeqR Itp itp_f itp_df bodies n_bodies bodies_numbered bodies_free sof m1 y1 t m2 dx i' Ly Hi' Ev) as (_ & mi & F' & EF & V).
    assert (N2 : differ_by_at_most n_bodies 2 y1 (X t)).
    { intros i2 k2 Hi2 Hk2. specialize (N1 i2 k2 Hi2 Hk2). assert (XM : near n_bodies (B * (t - t')) (X t) (X t')).
      { apply (X_moves n_bodies (motion bodies F) t0 T rho B); try lra.
        - intros; apply HB; assumption.
        - intros u Hu; apply (S u Hu).
        - intros u i3 k3 Hu Hi3 Hk3. apply (proj2 (S u Hu) i3 k3 Hi3 Hk3).
        - intros u Hu i3 k3 Hi3 Hk3. unfold rho. replace (M + 1 - 1) with M by ring. apply HM; assumption. }
      specialize (XM i2 k2 Hi2 Hk2). assert (B * (t - t') <= B * h) by (apply Rmult_le_compat_l; lra).
      replace (state_of y1 i2 k2 - state_of (X t) i2 k2) with ((state_of y1 i2 k2 - state_of (X t') i2 k2) + - (state_of (X t) i2 k2 - state_of (X t') i2 k2)) by ring. eapply Rle_trans; [apply Rabs_triang|]. rewrite Rabs_Ropp. lra. }
    specialize (EU mi i' y1 t F' Hi' ltac:(lra) Ly N2 EF). rewrite (V k' Hk'). unfold motion, free_derivative.
    assert (G : forall j, (j < 6)%nat -> Rabs (row (bd_Minv (bodies i')) F' j - row (bd_Minv (bodies i')) (F i' t y1) j) <= q * eps) by (intros j Hj; apply Hq; auto).
    assert (Z0 : forall u, Rabs (u - u) <= q * eps) by (intros u; replace (u - u) with 0 by ring; rewrite Rabs_R0; exact P8).
    do 13 (destruct k' as [|k']; [cbv zeta; cbn [nth]; first [exact (Z0 _)|apply (G 0%nat); lia|apply (G 1%nat); lia|apply (G 2%nat); lia|apply (G 3%nat); lia|apply (G 4%nat); lia|apply (G 5%nat); lia]|]). lia.
  - split; [exact Hh|lra].
  - fold c. fold w. apply (Rle_trans _ (w * ((q + 1) * z))); [apply Rmult_le_compat_l; lra|]. lra.
  - fold c. rewrite Rmult_assoc. apply Rmult_le_compat_l; lra.
Qed.
End Theorem_C184.
Print Assumptions trajectories_are_robust.

(** ** C183 *)
Section Theorem_C183.
Variable aeqR : Z -> R -> R -> bool.
Hypothesis aeqR_refl : forall n x, aeqR n x x = true.
Variable Itp : Type.
Variable itp_f itp_df : Itp -> R -> outcome R.
Variable bodies : nat -> body Itp.
Variable n_bodies : nat.
Hypothesis bodies_numbered : numbered Itp bodies n_bodies.
Hypothesis bodies_free : not_forced Itp bodies n_bodies.
Variable F : nat -> R -> list R -> vec.
Variable sum_of_forces : list (memory aeqR) -> nat -> list R -> R -> outcome vec.
(** The efforts depend on the states and the date, not on the past. *)
Hypothesis no_memory : forall m i x t, sum_of_forces m i x t = Ok (F i t x).
Notation simulate := (run aeqR Itp itp_f itp_df bodies sum_of_forces n_bodies (fun x _ => x)).

Theorem trajectories_converge_at_first_order : forall s X t0 T m, s = euler \/ s = rk4 -> 0 <= T -> regular_efforts n_bodies F t0 T -> solution bodies n_bodies F X t0 T -> memory_at aeqR n_bodies t0 m ->
  exists c h0, 0 <= c /\ 0 < h0 /\ forall n h, 0 <= h <= h0 -> INR n * h <= T ->
    exists m' y, simulate s n m (X t0) t0 h = Done m' y /\ differ_by_at_most n_bodies (c * h) y (X (t0 + INR n * h)).
Proof.
  intros s X t0 T m Hs HT RF S Mm.
  destruct (trajectories_are_robust aeqR aeqR_refl Itp itp_f itp_df bodies n_bodies bodies_numbered bodies_free F s X t0 T Hs HT RF S) as (c & r & Pc & Pr & G).
  exists c, r. split; [exact Pc|]. split; [exact Pr|]. intros n h Hh Hn. destruct (G sum_of_forces 0 0 (X t0) m n h) as (m' & y & E & D); auto; try lra.
  - intros m1 i x t. rewrite no_memory. eauto.
  - intros m1 i x t v _ _ _ _ Ev k _. rewrite no_memory in Ev. injection Ev as <-. replace (_ - _) with 0 by ring. rewrite Rabs_R0. lra.
  - apply (S t0). lra.
  - intros i k _ _. replace (_ - _) with 0 by ring. rewrite Rabs_R0. lra.
  - exists m', y. split; [exact E|]. intros i k Hi Hk. specialize (D i k Hi Hk). rewrite !Rplus_0_r in D. exact D.
Qed.
(** At a given date, with [n] steps: as close as one wants when [n] is large enough. *)
Theorem trajectories_converge : forall s X t0 T m, s = euler \/ s = rk4 -> 0 < T -> regular_efforts n_bodies F t0 T -> solution bodies n_bodies F X t0 T -> memory_at aeqR n_bodies t0 m ->
  forall eps, 0 < eps -> exists n0, forall n, (n0 <= n)%nat -> exists m' y, simulate s n m (X t0) t0 (T / INR n) = Done m' y /\ differ_by_at_most n_bodies eps y (X (t0 + T)).
Proof.
  intros s X t0 T m Hs HT RF S Mm eps He. destruct (trajectories_converge_at_first_order s X t0 T m Hs ltac:(lra) RF S Mm) as (c & h0 & Pc & Ph & G).
  destruct (INR_above (T / h0 + (c + 1) * T / eps + 1)) as (n0 & Hn0). exists n0. intros n Hn. apply le_INR in Hn.
  assert (Q1 : 0 < T / h0) by (apply Rdiv_lt_0_compat; lra). assert (Q2 : 0 < (c + 1) * T / eps) by (apply Rdiv_lt_0_compat; [nra|lra]).
  assert (Pn : 0 < INR n) by lra. assert (Hh : 0 < T / INR n) by (apply Rdiv_lt_0_compat; lra).
  destruct (G n (T / INR n)) as (m' & y & E & D).
  - split; [lra|]. apply (Rmult_le_reg_r (INR n)); [exact Pn|]. unfold Rdiv. rewrite Rmult_assoc, Rinv_l, Rmult_1_r by lra. apply (Rmult_le_reg_r (/ h0)); [apply Rinv_0_lt_compat; exact Ph|]. replace (h0 * INR n * / h0) with (INR n) by (field; lra). unfold Rdiv in *. lra.
  - apply Req_le. field. lra.
  - exists m', y. split; [exact E|]. replace (t0 + INR n * (T / INR n)) with (t0 + T) in D by (field; lra). intros i k Hi Hk. eapply Rle_trans; [apply (D i k Hi Hk)|].
    apply (Rmult_le_reg_r (INR n)); [exact Pn|]. replace (c * (T / INR n) * INR n) with (c * T) by (field; lra).
    assert ((c + 1) * T <= eps * INR n); [|nra]. apply (Rmult_le_reg_r (/ eps)); [apply Rinv_0_lt_compat; exact He|]. replace (eps * INR n * / eps) with (INR n) by (field; lra). unfold Rdiv in *. lra.
Qed.
End Theorem_C183.
Print Assumptions trajectories_converge_at_first_order.
Print Assumptions trajectories_converge.

(** ** The states written: the quaternions are normalised (Sim.cpp:199-206) *)
Lemma free_output Itp (itp_f : Itp -> R -> outcome R) (bodies : nat -> body Itp) n_bodies t x : not_forced Itp bodies n_bodies ->
  forall n i acc, (i + n <= n_bodies)%nat -> block_states_loop itp_f (map bodies (seq i n)) x acc t = Ok (match n with O => acc | _ => x end).
Proof.
  intros NF. induction n as [|n IH]; intros i acc H; [reflexivity|]. cbn [seq map block_states_loop].
  assert (force_states Sim_Model.Rltb itp_f (bd_blocked (bodies i)) x t = Ok x) as E by (unfold force_states; apply free_loop; intros q; apply NF; lia).
  rewrite E. cbn [bindO]. rewrite IH by lia. destruct n; reflexivity.
Qed.
Lemma norm_close a b c d A B C D e : A * A + B * B + C * C + D * D = 1 -> Rabs (a - A) <= e -> Rabs (b - B) <= e -> Rabs (c - C) <= e -> Rabs (d - D) <= e -> Rabs (norm4 a b c d - 1) <= 2 * e.
Proof.
  intros U Ha Hb Hc Hd. assert (Pe : 0 <= e) by (pose proof (Rabs_pos (a - A)); lra). unfold norm4. set (q2 := a * a + b * b + c * c + d * d). assert (P2 : 0 <= q2) by (unfold q2; nra). set (q := sqrt q2).
  assert (Pq : 0 <= q) by apply sqrt_pos. assert (Q : q * q = q2) by (apply sqrt_sqrt; exact P2).
  assert (CS : a * A + b * B + c * C + d * D <= q).
  { apply Rnot_lt_le. intros N. assert (q * q < (a * A + b * B + c * C + d * D) * (a * A + b * B + c * C + d * D)) by nra.
    assert ((a * A + b * B + c * C + d * D) * (a * A + b * B + c * C + d * D) <= q2 * (A * A + B * B + C * C + D * D)).
    { unfold q2. assert (0 <= (a * B - b * A) * (a * B - b * A) + (a * C - c * A) * (a * C - c * A) + (a * D - d * A) * (a * D - d * A) + (b * C - c * B) * (b * C - c * B) + (b * D - d * B) * (b * D - d * B) + (c * D - d * C) * (c * D - d * C)); [|lra].
      pose proof (Rle_0_sqr (a * B - b * A)). pose proof (Rle_0_sqr (a * C - c * A)). pose proof (Rle_0_sqr (a * D - d * A)). pose proof (Rle_0_sqr (b * C - c * B)). pose proof (Rle_0_sqr (b * D - d * B)). pose proof (Rle_0_sqr (c * D - d * C)). unfold Rsqr in *. lra. }
    rewrite U in H0. lra. }
  assert (Sq : forall z, Rabs z <= e -> z * z <= e * e) by (intros z Hz; apply Rsqr_le_abs_1; rewrite (Rabs_right e) by lra; exact Hz).
  pose proof (Sq _ Ha). pose proof (Sq _ Hb). pose proof (Sq _ Hc). pose proof (Sq _ Hd).
  assert ((q - 1) * (q - 1) <= (2 * e) * (2 * e)) by (unfold q2 in *; lra).
  apply Rsqr_le_abs_0 in H3. rewrite (Rabs_right (2 * e)) in H3 by lra. exact H3.
Qed.
Lemma normal_close q N Q e : 0 <= N -> Rabs q <= N -> Rabs (q - Q) <= e -> Rabs (N - 1) <= 2 * e -> Rabs (q / N - Q) <= 3 * e.
Proof.
  intros PN Hq He HN. destruct (Rle_lt_or_eq_dec 0 N PN) as [P|<-].
  - replace (q / N - Q) with ((q - Q) + (q / N) * (1 - N)) by (field; lra). eapply Rle_trans; [apply Rabs_le_sum; exact He|]. rewrite Rabs_mult, (Rabs_minus_sym 1 N). unfold Rdiv. rewrite Rabs_mult, (Rabs_right (/ N)) by (apply Rle_ge; left; apply Rinv_0_lt_compat; exact P).
    assert (Rabs q * / N <= 1) by (apply (Rmult_le_reg_r N); [exact P|]; rewrite Rmult_assoc, Rinv_l by lra; lra). pose proof (Rabs_pos q). pose proof (Rabs_pos (N - 1)). pose proof (Rinv_0_lt_compat _ P). assert (0 <= Rabs q * / N) by nra. nra.
  - assert (q = 0) as -> by (apply Rabs_eq_0; pose proof (Rabs_pos q); lra). unfold Rdiv. rewrite Rmult_0_l. pose proof (Rabs_pos (0 - Q)). lra.
Qed.
Lemma component_below a b c d : Rabs a <= norm4 a b c d /\ Rabs b <= norm4 a b c d /\ Rabs c <= norm4 a b c d /\ Rabs d <= norm4 a b c d.
Proof.
  unfold norm4. assert (G : forall z, z * z <= a * a + b * b + c * c + d * d -> Rabs z <= sqrt (a * a + b * b + c * c + d * d)) by (intros z Hz; rewrite <- sqrt_Rsqr_abs; apply sqrt_le_1_alt; unfold Rsqr; exact Hz).
  repeat split; apply G; pose proof (Rle_0_sqr a); pose proof (Rle_0_sqr b); pose proof (Rle_0_sqr c); pose proof (Rle_0_sqr d); unfold Rsqr in *; lra.
Qed.
(** The attitude of the solution stays a rotation. *)
Lemma solution_unit Itp (bodies : nat -> body Itp) n_bodies F X t0 T : numbered Itp bodies n_bodies -> 0 <= T -> solution bodies n_bodies F X t0 T -> forall i, (i < n_bodies)%nat -> quaternion2 (X t0) i = 1 ->
  forall t, t0 <= t <= t0 + T -> quaternion2 (X t) i = 1.
Proof.
  intros N HT S i Hi U t Ht. destruct (Req_dec t t0) as [->|Nt]; [exact U|].
  destruct (MVT_cor2 (fun s => quaternion2 (X s) i) (fun _ => 0) t0 t ltac:(lra)) as (c & E & _); [|lra].
  intros c Hc. pose proof (proj2 (S c ltac:(lra)) i) as D. unfold free_derivative in D. destruct (N i Hi) as (Ei & _). rewrite Ei in D. cbv zeta in D.
  pose proof (D 9%nat Hi ltac:(lia)) as D9. pose proof (D 10%nat Hi ltac:(lia)) as D10. pose proof (D 11%nat Hi ltac:(lia)) as D11. pose proof (D 12%nat Hi ltac:(lia)) as D12. cbn [nth] in D9, D10, D11, D12. clear D.
  pose proof (derivable_pt_lim_plus _ _ _ _ _ (derivable_pt_lim_plus _ _ _ _ _ (derivable_pt_lim_plus _ _ _ _ _ (derivable_pt_lim_mult _ _ _ _ _ D9 D9) (derivable_pt_lim_mult _ _ _ _ _ D10 D10)) (derivable_pt_lim_mult _ _ _ _ _ D11 D11)) (derivable_pt_lim_mult _ _ _ _ _ D12 D12)) as G.
  match type of G with derivable_pt_lim ?f ?x ?l => assert (El : l = 0) by (cbv beta; field); apply (eq_ind l (fun z => derivable_pt_lim f x z) G 0 El) end.
Qed.
Theorem written_states_converge : forall (aeqR : Z -> R -> R -> bool) Itp (itp_f itp_df : Itp -> R -> outcome R) (bodies : nat -> body Itp) n_bodies F sum_of_forces (aeq : R -> R -> bool) s X t0 T m,
  (forall n x, aeqR n x x = true) -> numbered Itp bodies n_bodies -> not_forced Itp bodies n_bodies -> (forall m i x t, sum_of_forces m i x t = Ok (F i t x)) ->
  s = euler \/ s = rk4 -> 0 <= T -> regular_efforts n_bodies F t0 T -> solution bodies n_bodies F X t0 T -> memory_at aeqR n_bodies t0 m -> (forall i, (i < n_bodies)%nat -> quaternion2 (X t0) i = 1) ->
  exists c h0, 0 <= c /\ 0 < h0 /\ forall n h, 0 <= h <= h0 -> INR n * h <= T ->
    exists m' y w, run aeqR Itp itp_f itp_df bodies sum_of_forces n_bodies (fun x _ => x) s n m (X t0) t0 h = Done m' y /\
      output_states itp_f aeq (map bodies (seq 0 n_bodies)) y (t0 + INR n * h) = Ok w /\ differ_by_at_most n_bodies (c * h) w (X (t0 + INR n * h)).
Proof.
  intros aeqR Itp itp_f itp_df bodies n_bodies F sof aeq s X t0 T m Rf N NF NM Hs HT RF S Mm U.
  destruct (trajectories_converge_at_first_order aeqR Rf Itp itp_f itp_df bodies n_bodies N NF F sof NM s X t0 T m Hs HT RF S Mm) as (c & h0 & Pc & Ph & G).
  exists (3 * c), h0. split; [lra|]. split; [exact Ph|]. intros n h Hh Hn. destruct (G n h Hh Hn) as (m' & y & E & D).
  pose proof (pos_INR n) as Pn. assert (Ht : t0 <= t0 + INR n * h <= t0 + T) by nra. set (t := t0 + INR n * h) in *.
  assert (Ly : List.length y = (13 * n_bodies)%nat).
  { destruct (forward_solvers_run aeqR Rf (forced Itp itp_f bodies) (derivatives aeqR Itp itp_df bodies sof) n_bodies s (fun x _ => x) n m (X t0) t0 h) as (m2 & y2 & E2 & _ & L2); auto; try lra.
    - destruct rk_in_order as (Oe & Or & _). destruct Hs as [->| ->]; assumption.
    - apply free_bodies_computable; auto. intros; rewrite NM; eauto.
    - apply (S t0). lra.
    - unfold run in E. rewrite E in E2. injection E2 as <- <-. rewrite L2. apply (S t0). lra. }
  assert (exists w, output_states itp_f aeq (map bodies (seq 0 n_bodies)) y t = Ok w /\ differ_by_at_most n_bodies (3 * c * h) w (X t)) as (w & Ew & Dw); [|exists m', y, w; auto].
  unfold output_states. rewrite (free_output Itp itp_f bodies n_bodies t y NF n_bodies 0 [] (Nat.le_refl _)). cbn [bindO]. rewrite map_length, seq_length.
  destruct (Nat.eq_dec n_bodies 0) as [Z|Z]; [rewrite Z; exists []; split; [reflexivity|intros i k Hi; lia]|]. replace (match n_bodies with O => [] | _ => y end) with y by (destruct n_bodies; [contradiction|reflexivity]).
  destruct (normalisation_succeeds aeq n_bodies y ltac:(lia)) as (w & Ew). exists w. split; [exact Ew|]. unfold normalize_quaternions in Ew. apply normalize_from_spec in Ew as (_ & O & V).
  intros i k Hi Hk. assert (P3 : 0 <= c * h) by nra. pose proof (D i k Hi Hk) as Dk. destruct (le_lt_dec 9 k) as [K9|K9].
  - destruct (V i ltac:(lia)) as [(_ & V')|(_ & V')]; rewrite (V' k ltac:(lia)); [lra|]. clear V'.
    pose proof (solution_unit Itp bodies n_bodies F X t0 T N HT S i Hi (U i Hi) t Ht) as Ut. unfold quaternion2 in Ut.
    pose proof (norm_close (state_of y i 9) (state_of y i 10) (state_of y i 11) (state_of y i 12) _ _ _ _ (c * h) Ut (D i 9%nat Hi ltac:(lia)) (D i 10%nat Hi ltac:(lia)) (D i 11%nat Hi ltac:(lia)) (D i 12%nat Hi ltac:(lia))) as NC.
    pose proof (component_below (state_of y i 9) (state_of y i 10) (state_of y i 11) (state_of y i 12)) as CB. unfold quaternion_norm. rewrite Rmult_assoc. apply normal_close; [apply sqrt_pos| |exact Dk|exact NC].
    assert (k = 9 \/ k = 10 \/ k = 11 \/ k = 12)%nat as [->|[->|[->| ->]]] by lia; apply CB.
  - assert (state_of w i k = state_of y i k) as ->; [|lra]. unfold state_of. specialize (O (13 * i + k)%nat). assert (nth_error w (13 * i + k) = nth_error y (13 * i + k)) as O' by (apply O; intros q _ Q; unfold quaternion_slot in Q; lia).
    destruct (nth_error y (13 * i + k)) as [v|] eqn:Ey; [rewrite (nth_error_nth _ _ 0 O'), (nth_error_nth _ _ 0 Ey); reflexivity|]. rewrite !nth_overflow; [reflexivity|apply nth_error_None; exact Ey|apply nth_error_None; exact O'].
Qed.
Print Assumptions written_states_converge.

(** ** The hypotheses are met *)
(** Gravity, linear and quadratic damping and constant efforts in the axes of the body are regular. *)
Definition usual (mass g : R) (D1 D2 : mat) (P : vec3) (push : torsor) (i : nat) (_ : R) (y : list R) : vec :=
  let v := V3 (state_of y i 3) (state_of y i 4) (state_of y i 5) in
  let omega := V3 (state_of y i 6) (state_of y i 7) (state_of y i 8) in
  let w := gravity (inverse_transform (placement y i)) mass g in
  to_vector (Force_Model.sum_of_forces (v0, v0) [Force_Model.mkW v0 (fst w) (snd w); damping linear_damping D1 P v omega; damping quadratic_damping D2 P v omega] [push]).
Theorem usual_efforts_are_regular : forall n_bodies mass g D1 D2 P push t0 T, regular_efforts n_bodies (usual mass g D1 D2 P push) t0 T.
Proof.
  intros n_bodies mass g D1 D2 P push t0 T i k Hi Hk. unfold usual, Force_Model.sum_of_forces, damping, damping_wrench, linear_damping, quadratic_damping, gravity, inverse_transform, placement, get_rot_from_ned_to, qmat, to_vector.
  cbn [map fold_left w_force w_torque fst snd t_rot]. unfold mapply, transpose, vadd, v0, dot, mul6. cbn [vx vy vz r1 r2 r3 states6].
  do 6 (destruct k as [|k]; [cbn [states6 vx vy vz]; reg|]). lia.
Qed.
Print Assumptions usual_efforts_are_regular.
(** A ship that turns at constant speed: a circle of radius 10 m. *)
Definition circle (t : R) : list R := [10 * sin (t / 10); 10 * (1 - cos (t / 10)); 0; 1; 0; 0; 0; 0; 1 / 10; cos (t / 20); 0; 0; sin (t / 20)].
Definition nothing (_ : nat) (_ : R) (_ : list R) : vec := fun _ => 0.
Lemma circle_solves t0 T : solution free_ship 1 nothing circle t0 T.
Proof.
  intros t _. split; [reflexivity|]. intros i k Hi Hk. assert (i = 0%nat) as -> by lia.
  assert (C2 : cos (t / 20) * cos (t / 20) = (1 + cos (t / 10)) / 2 /\ sin (t / 20) * sin (t / 20) = (1 - cos (t / 10)) / 2 /\ cos (t / 20) * sin (t / 20) = sin (t / 10) / 2).
  { replace (t / 10) with (2 * (t / 20)) by field. rewrite cos_2a, sin_2a. pose proof (sin2_cos2 (t / 20)) as E. unfold Rsqr in E. repeat split; lra. }
  destruct C2 as (C1 & C2 & C3). apply is_derive_Reals.
  do 13 (destruct k as [|k]; [unfold free_derivative, entries, qmat, state_of, circle, nothing; cbn -[IZR sin cos is_derive]; match goal with |- is_derive _ _ ?l => evar (d : R); replace l with d; [unfold d; auto_derive; [exact Logic.I|]; reflexivity|unfold d; cbn -[IZR sin cos]; try nra] end|]); lia.
Qed.
Example converge_witness : forall s, s = euler \/ s = rk4 -> forall eps, 0 < eps -> exists n0, forall n, (n0 <= n)%nat ->
  exists m' y, run same R rf rdf free_ship no_effort 1 (fun x _ => x) s n blank (circle 0) 0 (60 / INR n) = Done m' y /\ differ_by_at_most 1 eps y (circle 60).
Proof.
  intros s Hs eps He.
  destruct (trajectories_converge same Drift_Props.same_refl R rf rdf free_ship 1 free_numbered ltac:(intros i q _; destruct q; reflexivity) nothing no_effort ltac:(reflexivity) s circle 0 60 blank Hs ltac:(lra)
    (fun i k _ _ => reg_const 1 0 60 0) (circle_solves 0 60) blank_ok eps He) as (n0 & H).
  exists n0. intros n Hn. destruct (H n Hn) as (m' & y & E & D). exists m', y. rewrite Rplus_0_l in D. split; assumption.
Qed.

(** ** Consequences *)
Section Consequences.
Variable aeqR : Z -> R -> R -> bool.
Hypothesis aeqR_refl : forall n x, aeqR n x x = true.
Variable Itp : Type.
Variable itp_f itp_df : Itp -> R -> outcome R.
Variable bodies : nat -> body Itp.
Variable n_bodies : nat.
Hypothesis bodies_numbered : numbered Itp bodies n_bodies.
Hypothesis bodies_free : not_forced Itp bodies n_bodies.
Variable F : nat -> R -> list R -> vec.
Notation simulate sof := (run aeqR Itp itp_f itp_df bodies sof n_bodies (fun x _ => x)).

(** Two simulations, from states at most [d] apart, with efforts at most [eps] apart from those of the equations, with the same or different solvers and steps, end at most c (h + h' + eps + d) apart. *)
Theorem close_simulations : forall X t0 T s s', s = euler \/ s = rk4 -> s' = euler \/ s' = rk4 -> 0 <= T -> regular_efforts n_bodies F t0 T -> solution bodies n_bodies F X t0 T ->
  exists c r, 0 <= c /\ 0 < r /\ forall sof sof' eps d x m m' n n' h h', never_fail aeqR sof -> never_fail aeqR sof' -> efforts_up_to aeqR n_bodies F eps X t0 T sof -> efforts_up_to aeqR n_bodies F eps X t0 T sof' ->
    0 <= eps -> List.length x = (13 * n_bodies)%nat -> differ_by_at_most n_bodies d x (X t0) -> 0 <= d -> memory_at aeqR n_bodies t0 m -> memory_at aeqR n_bodies t0 m' -> 0 <= h -> 0 <= h' -> INR n * h <= T -> INR n' * h' = INR n * h -> h + h' + eps + d <= r ->
    exists m1 m2 y y', simulate sof s n m x t0 h = Done m1 y /\ simulate sof' s' n' m' (X t0) t0 h' = Done m2 y' /\ differ_by_at_most n_bodies (c * (h + h' + eps + d)) y y'.
Proof.
  intros X t0 T s s' Hs Hs' HT RF S.
  destruct (trajectories_are_robust aeqR aeqR_refl Itp itp_f itp_df bodies n_bodies bodies_numbered bodies_free F s X t0 T Hs HT RF S) as (c & r & Pc & Pr & G).
  destruct (trajectories_are_robust aeqR aeqR_refl Itp itp_f itp_df bodies n_bodies bodies_numbered bodies_free F s' X t0 T Hs' HT RF S) as (c' & r' & Pc' & Pr' & G').
  exists (c + c'), (Rmin r r'). split; [lra|]. split; [apply Rmin_glb_lt; assumption|]. intros sof sof' eps d x m m' n n' h h' N1 N2 E1 E2 He Lx Hx Hd Mm Mm' Hh Hh' Hn Hn' Hr.
  pose proof (Rmin_l r r'). pose proof (Rmin_r r r').
  destruct (G sof eps d x m n h N1 E1 He Lx Hx Hd Mm Hh Hn ltac:(lra)) as (m1 & y & R1 & D1).
  destruct (G' sof' eps 0 (X t0) m' n' h' N2 E2 He) as (m2 & y' & R2 & D2); auto; try lra.
  - apply (S t0). lra.
  - intros i k _ _. replace (_ - _) with 0 by ring. rewrite Rabs_R0. lra.
  - exists m1, m2, y, y'. split; [exact R1|]. split; [exact R2|]. intros i k Hi Hk. specialize (D1 i k Hi Hk). specialize (D2 i k Hi Hk). rewrite Hn' in D2.
    set (z := state_of (X (t0 + INR n * h)) i k) in *. replace (state_of y i k - state_of y' i k) with ((state_of y i k - z) + - (state_of y' i k - z)) by ring. eapply Rle_trans; [apply Rabs_triang|]. rewrite Rabs_Ropp.
    assert (0 <= c * h') by nra. assert (0 <= c' * h) by nra. assert (0 <= c' * d) by nra. rewrite Rplus_0_r in D2. lra.
Qed.
End Consequences.
Print Assumptions close_simulations.

(** The equations of motion leave no choice: two solutions from the same states are the same, for all regular efforts (the simulator computes both). *)
Lemma solution_until Itp (bodies : nat -> body Itp) n_bodies F X t0 T T' : solution bodies n_bodies F X t0 T -> T' <= T -> solution bodies n_bodies F X t0 T'.
Proof. intros S H t Ht. apply S. lra. Qed.
Lemma regular_until n_bodies F t0 T T' : regular_efforts n_bodies F t0 T -> T' <= T -> regular_efforts n_bodies F t0 T'.
Proof.
  intros H HT i k Hi Hk r. destruct (H i k Hi Hk r) as (B & L & PB & PL & H1 & H2). exists B, L. split; [exact PB|]. split; [exact PL|]. split.
  - intros t y Ht. apply H1. lra.
  - intros t t' y y' e Ht Ht'. apply H2; lra.
Qed.
Definition unused (n : nat) : list (memory same) := repeat (repeat (new_history (Rarith same) 0) 13) n.
Lemma unused_ok n t : memory_at same n t (unused n).
Proof.
  assert (G : genuine same (new_history (Rarith same) 0)) by (exists 0, []; split; [lra|constructor]).
  split; [apply repeat_length|]. apply List.Forall_forall. intros hs I. apply repeat_spec in I. subst hs. split; [reflexivity|]. apply List.Forall_forall. intros h I. apply repeat_spec in I. subst h. split; [exact G|intros p []].
Qed.
Theorem motion_is_determined : forall Itp (bodies : nat -> body Itp) n_bodies F X Y t0 T, numbered Itp bodies n_bodies -> regular_efforts n_bodies F t0 T ->
  solution bodies n_bodies F X t0 T -> solution bodies n_bodies F Y t0 T -> X t0 = Y t0 -> forall t, t0 <= t <= t0 + T -> X t = Y t.
Proof.
  intros Itp bodies n_bodies F X Y t0 T N RF SX SY E0 t Ht.
  assert (D : forall i k, (i < n_bodies)%nat -> (k < 13)%nat -> state_of (X t) i k = state_of (Y t) i k).
  { intros i k Hi Hk. destruct (Req_dec t t0) as [->|Nt]; [rewrite E0; reflexivity|].
    set (b' := fun i => @mkBody R (bd_idx (bodies i)) (mkBlocked (Itp:=R) mempty (bd_idx (bodies i)) mempty mempty) (bd_M (bodies i)) (bd_Minv (bodies i))).
    assert (N' : numbered R b' n_bodies) by (intros j Hj; split; apply (N j Hj)). assert (NF' : not_forced R b' n_bodies) by (intros j q _; destruct q; reflexivity).
    assert (SX' : solution b' n_bodies F X t0 (t - t0)) by (apply (solution_until R b' n_bodies F X t0 T); [exact SX|lra]). assert (SY' : solution b' n_bodies F Y t0 (t - t0)) by (apply (solution_until R b' n_bodies F Y t0 T); [exact SY|lra]).
    assert (RF' : regular_efforts n_bodies F t0 (t - t0)) by (apply (regular_until n_bodies F t0 T); [exact RF|lra]).
    assert (Small : forall eps, 0 < eps -> Rabs (state_of (X t) i k - state_of (Y t) i k) <= 2 * eps).
    { intros eps He.
      destruct (trajectories_converge same Drift_Props.same_refl R rf rdf b' n_bodies N' NF' F (fun _ i x t => Ok (F i t x)) ltac:(reflexivity) euler X t0 (t - t0) (unused n_bodies) ltac:(left; reflexivity) ltac:(lra) RF' SX' (unused_ok _ _) eps He) as (n1 & G1).
      destruct (trajectories_converge same Drift_Props.same_refl R rf rdf b' n_bodies N' NF' F (fun _ i x t => Ok (F i t x)) ltac:(reflexivity) euler Y t0 (t - t0) (unused n_bodies) ltac:(left; reflexivity) ltac:(lra) RF' SY' (unused_ok _ _) eps He) as (n2 & G2).
      destruct (G1 (n1 + n2)%nat ltac:(lia)) as (m1 & y1 & R1 & D1). destruct (G2 (n1 + n2)%nat ltac:(lia)) as (m2 & y2 & R2 & D2). rewrite E0 in R1. rewrite R1 in R2. injection R2 as _ <-.
      specialize (D1 i k Hi Hk). specialize (D2 i k Hi Hk). replace (t0 + (t - t0)) with t in * by ring.
      replace (state_of (X t) i k - state_of (Y t) i k) with ((state_of y1 i k - state_of (Y t) i k) + - (state_of y1 i k - state_of (X t) i k)) by ring. eapply Rle_trans; [apply Rabs_triang|]. rewrite Rabs_Ropp. lra. }
    apply Rminus_diag_uniq. apply Rabs_eq_0. apply Rle_antisym; [|apply Rabs_pos]. apply le_epsilon. intros eps He. specialize (Small (eps / 2) ltac:(lra)). lra. }
  apply (nth_ext _ _ 0 0); [rewrite (proj1 (SX t Ht)), (proj1 (SY t Ht)); reflexivity|].
  intros j Hj. rewrite (proj1 (SX t Ht)) in Hj. specialize (D (j / 13)%nat (j mod 13)%nat). unfold state_of in D. rewrite <- (Nat.div_mod_eq j 13) in D. apply D; [apply Nat.div_lt_upper_bound; lia|apply Nat.mod_upper_bound; lia].
Qed.
Print Assumptions motion_is_determined.
(** The ship of [circle], put down at most [d] away, with a vibration of [eps] that changes with the number of values in its memory, still goes round, with either solver. *)
Definition vibration (eps : R) (m : list (memory same)) (_ : nat) (_ : list R) (t : R) : outcome vec := Ok (fun _ => eps * sin (1000 * t + INR (List.length (concat m)))).
Example robust_witness : forall s, s = euler \/ s = rk4 -> exists c r, 0 <= c /\ 0 < r /\ forall eps d x n h, 0 <= eps -> 0 <= d -> List.length x = 13%nat -> differ_by_at_most 1 d x (circle 0) -> 0 <= h -> INR n * h <= 60 -> h + eps + d <= r ->
  exists m' y, run same R rf rdf free_ship (vibration eps) 1 (fun x _ => x) s n blank x 0 h = Done m' y /\ differ_by_at_most 1 (c * (h + eps + d)) y (circle (INR n * h)).
Proof.
  intros s Hs.
  destruct (trajectories_are_robust same Drift_Props.same_refl R rf rdf free_ship 1 free_numbered ltac:(intros i q _; destruct q; reflexivity) nothing s circle 0 60 Hs ltac:(lra) (fun i k _ _ => reg_const 1 0 60 0) (circle_solves 0 60)) as (c & r & Pc & Pr & G).
  exists c, r. split; [exact Pc|]. split; [exact Pr|]. intros eps d x n h He Hd Lx Hx Hh Hn Hr. destruct (G (vibration eps) eps d x blank n h) as (m' & y & E & D); auto; try lra.
  - intros m i y t. unfold vibration. eauto.
  - intros m i y t v _ _ _ _ Ev k _. unfold vibration in Ev. injection Ev as <-. unfold nothing. rewrite Rminus_0_r, Rabs_mult, (Rabs_right eps) by lra. rewrite <- (Rmult_1_r eps) at 2. apply Rmult_le_compat_l; [exact He|]. apply Rabs_le. pose proof (SIN_bound (1000 * t + INR (List.length (concat m)))). lra.
  - exact blank_ok.
  - exists m', y. rewrite Rplus_0_l in D. split; assumption.
Qed.
