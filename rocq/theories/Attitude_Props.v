(** Property C93: Euler angle rates returned by the model exchange service; property C21: what the quaternion derivatives mean. *)
From Coq Require Import ZArith List Bool String.
From Verif Require Import Common History_Model Server_Model Server_Spec Geometry Grpc_Model Grpc_Spec Blocked_Model Blocked_Spec Blocked_Proofs Sim_Model Sim_Spec Sim_Proofs Sim_Props.
From Coq Require Import Reals Lra Lia.
From Coquelicot Require Import Coquelicot.
Import ListNotations.
Open Scope R_scope.

Lemma euler_matrix_val : forall f t s, euler_matrix f t s =
  M3 (V3 (cos s * cos t) (cos s * sin t * sin f - sin s * cos f) (cos s * sin t * cos f + sin s * sin f))
     (V3 (sin s * cos t) (sin s * sin t * sin f + cos s * cos f) (sin s * sin t * cos f - cos s * sin f))
     (V3 (- sin t) (cos t * sin f) (cos t * cos f)).
Proof.
  intros. unfold euler_matrix, mmul, rotz, roty, rotx, transpose, mapply, dot. cbn [r1 r2 r3 vx vy vz].
  apply f_equal3; apply vec_eq; cbn [vx vy vz]; ring.
Qed.

Lemma derive_eq : forall (f g : R -> R) (t0 a b : R), (forall t, f t = g t) -> is_derive f t0 a -> is_derive g t0 b -> a = b.
Proof.
  intros f g t0 a b E Ha Hb. rewrite <- (is_derive_unique _ _ _ Ha). apply is_derive_unique. apply (is_derive_ext g); [|exact Hb].
  intros t. symmetry. apply E.
Qed.
Lemma d_neg_sin : forall (g : R -> R) (t0 d : R), is_derive g t0 d -> is_derive (fun t => - sin (g t)) t0 (- (d * cos (g t0))).
Proof.
  intros g t0 d H. auto_derive; [exists d; exact H|]. change (Derive (fun x => g x) t0) with (Derive g t0). rewrite (is_derive_unique _ _ _ H). ring.
Qed.
Lemma d_cos_sin : forall (g h : R -> R) (t0 d e : R), is_derive g t0 d -> is_derive h t0 e ->
  is_derive (fun t => cos (g t) * sin (h t)) t0 (- d * sin (g t0) * sin (h t0) + cos (g t0) * (e * cos (h t0))).
Proof.
  intros g h t0 d e H K. auto_derive; [repeat split; [exists d; exact H|exists e; exact K]|].
  change (Derive (fun x => g x) t0) with (Derive g t0). change (Derive (fun x => h x) t0) with (Derive h t0).
  rewrite (is_derive_unique _ _ _ H), (is_derive_unique _ _ _ K). ring.
Qed.
Lemma d_cos_cos : forall (g h : R -> R) (t0 d e : R), is_derive g t0 d -> is_derive h t0 e ->
  is_derive (fun t => cos (g t) * cos (h t)) t0 (- d * sin (g t0) * cos (h t0) - cos (g t0) * (e * sin (h t0))).
Proof.
  intros g h t0 d e H K. auto_derive; [repeat split; [exists d; exact H|exists e; exact K]|].
  change (Derive (fun x => g x) t0) with (Derive g t0). change (Derive (fun x => h x) t0) with (Derive h t0).
  rewrite (is_derive_unique _ _ _ H), (is_derive_unique _ _ _ K). ring.
Qed.
Lemma cancel : forall c x y, c <> 0 -> c * x = c * y -> x = y.
Proof. intros c x y Hc H. apply (Rmult_eq_reg_l c); assumption. Qed.

(** The angles of an attitude that turns at the rate (p, q, r), in terms of any angles that describe it. *)
Lemma rates_of_turn : forall (phi theta psi : R -> R) (t0 dphi dtheta dpsi p q r : R),
  is_derive phi t0 dphi -> is_derive theta t0 dtheta -> is_derive psi t0 dpsi -> cos (theta t0) <> 0 ->
  turns_at (fun t => euler_matrix (phi t) (theta t) (psi t)) (V3 p q r) t0 ->
  dphi = p + sin (phi t0) * tan (theta t0) * q + cos (phi t0) * tan (theta t0) * r /\
  dtheta = cos (phi t0) * q - sin (phi t0) * r /\
  dpsi = sin (phi t0) / cos (theta t0) * q + cos (phi t0) / cos (theta t0) * r.
Proof.
  intros phi theta psi t0 dphi dtheta dpsi p q r Hf Ht Hs C T.
  pose proof (T (V3 1 0 0) (V3 0 0 1)) as T31. pose proof (T (V3 0 1 0) (V3 0 0 1)) as T32. pose proof (T (V3 0 0 1) (V3 0 0 1)) as T33.
  pose proof (T (V3 1 0 0) (V3 1 0 0)) as T11. pose proof (T (V3 1 0 0) (V3 0 1 0)) as T21. clear T.
  assert (dot (V3 0 0 1) (mapply (euler_matrix (phi t0) (theta t0) (psi t0)) (cross (V3 p q r) (V3 1 0 0))) = - (dtheta * cos (theta t0))) as E31.
  { eapply derive_eq; [|exact T31|apply d_neg_sin; exact Ht]. intros t. cbv beta. rewrite euler_matrix_val. vec. ring. }
  assert (dot (V3 0 0 1) (mapply (euler_matrix (phi t0) (theta t0) (psi t0)) (cross (V3 p q r) (V3 0 1 0)))
    = - dtheta * sin (theta t0) * sin (phi t0) + cos (theta t0) * (dphi * cos (phi t0))) as E32.
  { eapply derive_eq; [|exact T32|apply d_cos_sin; [exact Ht|exact Hf]]. intros t. cbv beta. rewrite euler_matrix_val. vec. ring. }
  assert (dot (V3 0 0 1) (mapply (euler_matrix (phi t0) (theta t0) (psi t0)) (cross (V3 p q r) (V3 0 0 1)))
    = - dtheta * sin (theta t0) * cos (phi t0) - cos (theta t0) * (dphi * sin (phi t0))) as E33.
  { eapply derive_eq; [|exact T33|apply d_cos_cos; [exact Ht|exact Hf]]. intros t. cbv beta. rewrite euler_matrix_val. vec. ring. }
  assert (dot (V3 1 0 0) (mapply (euler_matrix (phi t0) (theta t0) (psi t0)) (cross (V3 p q r) (V3 1 0 0)))
    = - dtheta * sin (theta t0) * cos (psi t0) - cos (theta t0) * (dpsi * sin (psi t0))) as E11.
  { eapply derive_eq; [|exact T11|apply d_cos_cos; [exact Ht|exact Hs]]. intros t. cbv beta. rewrite euler_matrix_val. vec. ring. }
  assert (dot (V3 0 1 0) (mapply (euler_matrix (phi t0) (theta t0) (psi t0)) (cross (V3 p q r) (V3 1 0 0)))
    = - dtheta * sin (theta t0) * sin (psi t0) + cos (theta t0) * (dpsi * cos (psi t0))) as E21.
  { eapply derive_eq; [|exact T21|apply d_cos_sin; [exact Ht|exact Hs]]. intros t. cbv beta. rewrite euler_matrix_val. vec. ring. }
  clear T31 T32 T33 T11 T21. rewrite euler_matrix_val in *. unfold mapply, dot, cross in *. cbn [vx vy vz r1 r2 r3] in *. unfold tan.
  pose proof (sin2_cos2 (phi t0)) as Sf. pose proof (sin2_cos2 (psi t0)) as Ss. unfold Rsqr in *.
  set (cf := cos (phi t0)) in *. set (sf := sin (phi t0)) in *. set (ct := cos (theta t0)) in *. set (st := sin (theta t0)) in *.
  set (cs := cos (psi t0)) in *. set (ss := sin (psi t0)) in *. clearbody cf sf ct st cs ss.
  assert (dtheta = cf * q - sf * r) as Et by (apply (cancel ct); [exact C|]; lra).
  split; [|split; [exact Et|]].
  - apply (cancel ct); [exact C|].
    assert (ct * dphi = cf * (ct * (dphi * cf)) + sf * (ct * (dphi * sf))) as K by (replace (ct * dphi) with (ct * dphi * (sf * sf + cf * cf)) by (rewrite Sf; ring); ring).
    rewrite K. replace (ct * (dphi * cf)) with (r * st + p * (ct * cf) + dtheta * st * sf) by lra.
    replace (ct * (dphi * sf)) with (q * st + p * (ct * sf) - dtheta * st * cf) by lra. 
    field_simplify; [|exact C]. replace (cf ^ 2) with (1 - sf ^ 2) by lra. field; exact C.
  - apply (cancel ct); [exact C|].
    assert (ct * dpsi = cs * (ct * (dpsi * cs)) + ss * (ct * (dpsi * ss))) as K by (replace (ct * dpsi) with (ct * dpsi * (ss * ss + cs * cs)) by (rewrite Ss; ring); ring).
    rewrite K. match type of E21 with ?a = _ => replace (ct * (dpsi * cs)) with (a + dtheta * st * ss) by lra end.
    match type of E11 with ?a = _ => replace (ct * (dpsi * ss)) with (- a - dtheta * st * cs) by lra end.
    field_simplify; [|exact C]. replace (cs ^ 2) with (1 - ss ^ 2) by lra. field; exact C.
Qed.

(** ** C93. The rates returned for phi, theta and psi are the time derivatives of the Euler angles, for every attitude with a pitch
    strictly between -90 and 90 degrees, every rotation rate (p, q, r) and every motion of the body: whenever the Euler angles of
    the moving body are phi(t), theta(t), psi(t), the attitude given in the request is that of instant t0, and the body turns at
    the rate (p, q, r) at that instant. [euler_angles] is the external conversion; all that is required of it is that the angles it
    returns for this attitude describe it, with a pitch between -90 and 90 degrees. *)
Theorem euler_rates_are_the_derivatives : forall euler_angles (phi theta psi : R -> R) (t0 dphi dtheta dpsi qr qi qj qk p q r : R),
  is_derive phi t0 dphi -> is_derive theta t0 dtheta -> is_derive psi t0 dpsi ->
  - (PI / 2) < theta t0 < PI / 2 ->
  euler_matrix (phi t0) (theta t0) (psi t0) = qmat qr qi qj qk ->
  turns_at (fun t => euler_matrix (phi t) (theta t) (psi t)) (V3 p q r) t0 ->
  (let '(a, b, c) := euler_angles (qmat qr qi qj qk) in euler_matrix a b c = qmat qr qi qj qk /\ - (PI / 2) <= b <= PI / 2) ->
  euler_rates euler_angles (qr, qi, qj, qk) (p, q, r) = (dphi, dtheta, dpsi).
Proof.
  intros ea phi theta psi t0 df dt ds qr qi qj qk p q r Hf Ht Hs Rt Em T K.
  assert (0 < cos (theta t0)) as Ct by (apply cos_gt_0; apply Rt).
  destruct (rates_of_turn phi theta psi t0 df dt ds p q r Hf Ht Hs ltac:(lra) T) as (-> & -> & ->).
  unfold euler_rates. destruct (ea (qmat qr qi qj qk)) as [[a b] c]. destruct K as [Km Kb].
  rewrite <- Em, !euler_matrix_val in Km. injection Km as M11 M12 M13 M21 M22 M23 M31 M32 M33.
  assert (sin b = sin (theta t0)) as Sb by lra.
  assert (cos b = cos (theta t0)) as Cb.
  { pose proof (cos_ge_0 b ltac:(lra) ltac:(lra)) as C0. pose proof (sin2_cos2 b) as S1. pose proof (sin2_cos2 (theta t0)) as S2. unfold Rsqr in *.
    rewrite Sb in S1. apply Rsqr_inj; [lra|lra|]. unfold Rsqr. lra. }
  rewrite Cb in M32, M33. assert (sin a = sin (phi t0)) as Sa by (apply (cancel (cos (theta t0))); lra).
  assert (cos a = cos (phi t0)) as Ca by (apply (cancel (cos (theta t0))); lra).
  unfold tan. rewrite Sa, Ca, Sb, Cb. reflexivity.
Qed.
Print Assumptions euler_rates_are_the_derivatives.
(** A yawing body: heading 0.3 t, at t0 = 0. *)
Example euler_rates_example : exists euler_angles, euler_rates euler_angles (1, 0, 0, 0) (0, 0, 3/10) = (0, 0, 3/10).
Proof.
  exists (fun _ => (0, 0, 0)).
  apply (euler_rates_are_the_derivatives (fun _ => (0, 0, 0)) (fun _ => 0) (fun _ => 0) (fun t => 3/10 * t) 0).
  - auto_derive; [exact I|ring].
  - auto_derive; [exact I|ring].
  - auto_derive; [exact I|ring].
  - pose proof PI_RGT_0. lra.
  - rewrite euler_matrix_val. replace (3 / 10 * 0) with 0 by ring. rewrite sin_0, cos_0. unfold qmat. apply mat_eq; cbn [r1 r2 r3]; apply vec_eq; cbn [vx vy vz]; ring.
  - intros v w. apply (is_derive_ext (fun t => vx w * (cos (3/10*t) * vx v - sin (3/10*t) * vy v) + vy w * (sin (3/10*t) * vx v + cos (3/10*t) * vy v) + vz w * vz v)).
    { intros t. rewrite euler_matrix_val, sin_0, cos_0. vec. match goal with |- ?a = ?b => change (@eq R a b) end. ring. }
    auto_derive; [repeat split|]. rewrite euler_matrix_val, !sin_0, !cos_0. replace (3 / 10 * 0) with 0 by ring. rewrite sin_0, cos_0. vec. ring.
  - split.
    + rewrite euler_matrix_val, sin_0, cos_0. unfold qmat. apply mat_eq; cbn [r1 r2 r3]; apply vec_eq; cbn [vx vy vz]; ring.
    + pose proof PI_RGT_0. lra.
Qed.

(** ** C21. What the derivatives of the quaternion mean: if the quaternion moves with the derivatives computed by the simulator, the
    attitude of the body turns at the rate (p, q, r). *)
Lemma quaternion_turns : forall (a b c d : R -> R) (t0 p q r : R),
  is_derive a t0 ((- (b t0 * p) - c t0 * q - d t0 * r) / 2) -> is_derive b t0 ((a t0 * p + c t0 * r - d t0 * q) / 2) ->
  is_derive c t0 ((a t0 * q - b t0 * r + d t0 * p) / 2) -> is_derive d t0 ((a t0 * r + b t0 * q - c t0 * p) / 2) ->
  a t0 * a t0 + b t0 * b t0 + c t0 * c t0 + d t0 * d t0 = 1 ->
  turns_at (fun t => qmat (a t) (b t) (c t) (d t)) (V3 p q r) t0.
Proof.
  intros a b c d t0 p q r Ha Hb Hc Hd N [v1 v2 v3] [w1 w2 w3]. unfold mapply, qmat, dot, cross. cbn [vx vy vz r1 r2 r3].
  auto_derive; [repeat split; first [exists ((- (b t0 * p) - c t0 * q - d t0 * r) / 2); exact Ha | exists ((a t0 * p + c t0 * r - d t0 * q) / 2); exact Hb
    | exists ((a t0 * q - b t0 * r + d t0 * p) / 2); exact Hc | exists ((a t0 * r + b t0 * q - c t0 * p) / 2); exact Hd]|].
  change (Derive (fun x => a x) t0) with (Derive a t0). change (Derive (fun x => b x) t0) with (Derive b t0).
  change (Derive (fun x => c x) t0) with (Derive c t0). change (Derive (fun x => d x) t0) with (Derive d t0).
  rewrite (is_derive_unique _ _ _ Ha), (is_derive_unique _ _ _ Hb), (is_derive_unique _ _ _ Hc), (is_derive_unique _ _ _ Hd).
  clear Ha Hb Hc Hd. set (A := a t0) in *. set (B := b t0) in *. set (C := c t0) in *. set (D := d t0) in *. clearbody A B C D.
  assert (A * A = 1 - B * B - C * C - D * D) as E by lra. field_simplify. replace (A ^ 2) with (1 - B ^ 2 - C ^ 2 - D ^ 2) by lra. ring.
Qed.
Theorem quaternion_derivatives_turn_the_body : forall Itp (itp_df : Itp -> R -> outcome R) b F rot x dx t dx' (a bb c d : R -> R) (t0 : R),
  b_idx (bd_blocked b) = bd_idx b -> dx_dt itp_df [(b, F, rot)] x dx t = Ok dx' ->
  let s k := state_of x (bd_idx b) k in let ds k := state_of dx' (bd_idx b) k in
  a t0 = s 9%nat -> bb t0 = s 10%nat -> c t0 = s 11%nat -> d t0 = s 12%nat ->
  is_derive a t0 (ds 9%nat) -> is_derive bb t0 (ds 10%nat) -> is_derive c t0 (ds 11%nat) -> is_derive d t0 (ds 12%nat) ->
  s 9%nat * s 9%nat + s 10%nat * s 10%nat + s 11%nat * s 11%nat + s 12%nat * s 12%nat = 1 ->
  turns_at (fun u => qmat (a u) (bb u) (c u) (d u)) (V3 (s 6%nat) (s 7%nat) (s 8%nat)) t0.
Proof.
  intros Itp itp_df b F rot x dx t dx' fa fb fc fd t0 I H. simpl in H.
  destruct (calculate_state_derivatives itp_df b F rot x dx t) as [e| |] eqn:E; try discriminate. injection H as ->.
  apply calc_inv in E as (dx1 & Fd & _ & V & _).
  assert (forall k, (9 <= k < 13)%nat -> nth_error dx' (13 * bd_idx b + k) = nth_error (free_derivative b F rot x) k) as W.
  { intros k Hk. rewrite <- V by lia. apply (force_loop_other _ _ _ _ _ _ _ Fd). intros s. rewrite I. unfold slot, rank. destruct s; lia. }
  assert (forall k v, nth_error dx' (13 * bd_idx b + k) = Some v -> state_of dx' (bd_idx b) k = v) as N.
  { intros k v Hv. exact (nth_error_nth _ _ 0 Hv). }
  cbv beta zeta. pose proof (W 9%nat ltac:(lia)) as W9. pose proof (W 10%nat ltac:(lia)) as W10. pose proof (W 11%nat ltac:(lia)) as W11.
  pose proof (W 12%nat ltac:(lia)) as W12. cbn [free_derivative nth_error] in W9, W10, W11, W12. apply N in W9, W10, W11, W12.
  rewrite W9, W10, W11, W12. clear. intros <- <- <- <- Ha Hb Hc Hd U.
  set (p := state_of x (bd_idx b) 6) in *. set (q := state_of x (bd_idx b) 7) in *. set (r := state_of x (bd_idx b) 8) in *. clearbody p q r.
  apply quaternion_turns; [| | | |exact U].
  - match type of Ha with is_derive _ _ ?v => replace ((- (fb t0 * p) - fc t0 * q - fd t0 * r) / 2) with v by field end. exact Ha.
  - match type of Hb with is_derive _ _ ?v => replace ((fa t0 * p + fc t0 * r - fd t0 * q) / 2) with v by field end. exact Hb.
  - match type of Hc with is_derive _ _ ?v => replace ((fa t0 * q - fb t0 * r + fd t0 * p) / 2) with v by field end. exact Hc.
  - match type of Hd with is_derive _ _ ?v => replace ((fa t0 * r + fb t0 * q - fc t0 * p) / 2) with v by field end. exact Hd.
Qed.
Print Assumptions quaternion_derivatives_turn_the_body.
