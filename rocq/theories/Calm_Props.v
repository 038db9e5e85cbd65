(** C176: calm water has no origin and no direction. *)
From Coq Require Import ZArith Reals Lra Lia List Bool.
From Verif Require Import Common History_Model History_Real_Proofs Blocked_Model Blocked_Spec Sim_Model Sim_Spec Sim_Proofs Sim_Props Solver_Model Solver_Props Drift_Model Drift_Props
  Force_Model Hull_Model Wave_Model Mesh_Model Mesh_Spec Closing_Model Froude_Model Calm_Model Calm_Proofs Geometry.
Import ListNotations.
Open Scope R_scope.

Section States.
Variable n_bodies : nat.
(** [x'] is [x] with every body moved horizontally by (a, b). *)
Definition moved (a b : R) (x x' : list R) : Prop :=
  List.length x = (13 * n_bodies)%nat /\ List.length x' = (13 * n_bodies)%nat /\
  forall i, (i < n_bodies)%nat -> state_of x' i 0 = state_of x i 0 + a /\ state_of x' i 1 = state_of x i 1 + b /\ forall k, (2 <= k < 13)%nat -> state_of x' i k = state_of x i k.
(** [x'] has the depth and the velocities (in the body frames) of [x], and its attitudes turned by the angle psi about the vertical. *)
Definition turned (psi : R) (x x' : list R) : Prop :=
  List.length x = (13 * n_bodies)%nat /\ List.length x' = (13 * n_bodies)%nat /\
  forall i, (i < n_bodies)%nat -> (forall k, (2 <= k <= 8)%nat -> state_of x' i k = state_of x i k) /\
    (state_of x' i 9, state_of x' i 10, state_of x' i 11, state_of x' i 12) =
      qmul (cos (psi / 2), 0, 0, sin (psi / 2)) (state_of x i 9, state_of x i 10, state_of x i 11, state_of x i 12).
(** What can be felt in calm water: depth, velocities in the body frame, direction of the vertical in the body frame. *)
Definition seen (x x' : list R) : Prop := forall i, (i < n_bodies)%nat ->
  (forall k, (2 <= k <= 8)%nat -> state_of x i k = state_of x' i k) /\ r3 (get_rot_from_ned_to x i) = r3 (get_rot_from_ned_to x' i).
Lemma moved_seen a b x x' : moved a b x x' -> seen x x'.
Proof.
  intros (_ & _ & H) i Hi. destruct (H i Hi) as (_ & _ & V). split; [intros; symmetry; apply V; lia|]. unfold get_rot_from_ned_to. rewrite !V by lia. reflexivity.
Qed.
(** The matrix of a turned quaternion *)
Lemma qmat_turn C S0 a b c d : C * C + S0 * S0 = 1 -> r3 (qmat (C * a - S0 * d) (C * b - S0 * c) (C * c + S0 * b) (C * d + S0 * a)) = r3 (qmat a b c d).
Proof. intros H. assert (C * C = 1 - S0 * S0) as Hc by lra. unfold qmat. cbn [r3]. apply vec_eq; cbn [vx vy vz]; ring [Hc]. Qed.
Lemma turned_quaternion psi x x' i : turned psi x x' -> (i < n_bodies)%nat -> let C := cos (psi / 2) in let S0 := sin (psi / 2) in
  state_of x' i 9 = C * state_of x i 9 - S0 * state_of x i 12 /\ state_of x' i 10 = C * state_of x i 10 - S0 * state_of x i 11 /\
  state_of x' i 11 = C * state_of x i 11 + S0 * state_of x i 10 /\ state_of x' i 12 = C * state_of x i 12 + S0 * state_of x i 9.
Proof. intros (_ & _ & H) Hi C S0. destruct (H i Hi) as (_ & Q). cbn [qmul] in Q. injection Q as Qa Qb Qc Qd. unfold C, S0. rewrite Qa, Qb, Qc, Qd. repeat split; ring. Qed.
Lemma turned_seen psi x x' : turned psi x x' -> seen x x'.
Proof.
  intros T i Hi. pose proof (turned_quaternion psi x x' i T Hi) as (Qa & Qb & Qc & Qd). destruct T as (_ & _ & H). destruct (H i Hi) as (V & _).
  split; [intros; symmetry; apply V; lia|]. unfold get_rot_from_ned_to. rewrite Qa, Qb, Qc, Qd. symmetry. apply qmat_turn. pose proof (sin2_cos2 (psi / 2)) as E. unfold Rsqr in E. lra.
Qed.
End States.

Section Symmetry.
Variable aeqR : Z -> R -> R -> bool.
Variable Itp : Type.
Variable itp_f itp_df : Itp -> R -> outcome R.
Variable bodies : nat -> body Itp.
Variable n_bodies : nat.
Hypothesis bodies_numbered : numbered Itp bodies n_bodies.
Hypothesis bodies_free : not_forced Itp bodies n_bodies.
Variable sum_of_forces : list (memory aeqR) -> nat -> list R -> R -> outcome vec.
(** Forces that depend only on what can be felt in calm water, now and in the recorded past ([mrel]: the same histories of z, u, v, w, p, q, r). *)
Definition blind {X} (F : list (memory aeqR) -> nat -> list R -> R -> X) : Prop := forall m m' idx x x' t, (idx < n_bodies)%nat -> mrel aeqR m m' -> seen n_bodies x x' -> F m idx x t = F m' idx x' t.
Hypothesis forces_blind : blind sum_of_forces.
Notation der := (derivatives aeqR Itp itp_df bodies sum_of_forces).
Notation frc := (forced Itp itp_f bodies).
Notation rn := (run aeqR Itp itp_f itp_df bodies sum_of_forces n_bodies (fun x _ => x)).
Notation ev := (evaluate aeqR Itp itp_f itp_df bodies sum_of_forces n_bodies).

Lemma frc_free : forall i x t, (i < n_bodies)%nat -> frc i x t = Ok x.
Proof. intros i x t Hi. unfold forced, force_states. apply free_loop. intros s. apply bodies_free. exact Hi. Qed.
(** The derivative of a free body is that of the equations of motion (C19 and following), whatever was there. *)
Lemma der_free m idx x dx t : (idx < n_bodies)%nat -> List.length x = (13 * n_bodies)%nat -> List.length dx = (13 * n_bodies)%nat ->
  match sum_of_forces m idx x t with
  | Ok F => exists dx', der m idx x dx t = Ok dx' /\ List.length dx' = (13 * n_bodies)%nat /\
      (forall k, (k < 13)%nat -> state_of dx' idx k = nth k (free_derivative (bodies idx) F (entries (get_rot_from_ned_to x idx)) x) 0) /\
      (forall i k, i <> idx -> (k < 13)%nat -> state_of dx' i k = state_of dx i k)
  | Throw => der m idx x dx t = Throw
  | UB => der m idx x dx t = UB
  end.
Proof.
  intros Hi Lx Ld. destruct (sum_of_forces m idx x t) as [F| |] eqn:EF; [|unfold derivatives; rewrite EF; reflexivity|unfold derivatives; rewrite EF; reflexivity].
  destruct (free_bodies_computable aeqR Itp itp_f itp_df bodies (fun _ _ _ _ => Ok F) n_bodies bodies_numbered bodies_free ltac:(intros; eauto)) as (_ & Cd).
  destruct (Cd m idx x dx t Hi Lx ltac:(lia)) as (dx' & E & Ln). unfold derivatives in E. cbn [bindO] in E. exists dx'. unfold derivatives. rewrite EF. cbn [bindO]. split; [exact E|]. split; [lia|].
  destruct (bodies_numbered idx Hi) as (Ib & Ib'). assert (b_idx (bd_blocked (bodies idx)) = bd_idx (bodies idx)) as II by congruence.
  destruct (calc_other _ _ _ _ _ _ _ _ _ II E) as (_ & O). rewrite Ib in O. apply calc_inv in E as (dx1 & Fd & _ & V & _). unfold force_state_derivatives in Fd. rewrite free_loop in Fd by (intros s; apply bodies_free; exact Hi).
  injection Fd as <-. rewrite Ib in V. split.
  - intros k Hk. specialize (V k Hk). unfold state_of. destruct (nth_error dx1 (13 * idx + k)) as [v|] eqn:Q.
    + rewrite (nth_error_nth _ _ 0 Q). symmetry. apply nth_error_nth. symmetry. exact V.
    + symmetry in V. apply nth_error_None in V. unfold free_derivative in V. cbn [List.length] in V. lia.
  - intros i k Hn Hk. apply state_of_ext. apply O. lia.
Qed.

(** ** Any number of steps of any solver: the other trajectory is the same, moved *)
Definition written (rel : nat -> list R -> list R -> Prop) (idx : nat) (dx dx' : list R) : Prop :=
  List.length dx = (13 * n_bodies)%nat /\ List.length dx' = (13 * n_bodies)%nat /\ forall i, (i < idx)%nat -> rel i dx dx'.
Lemma fold_same {X} (f g : X -> R) (l : list X) : (forall x, In x l -> f x = g x) -> fold_right Rplus 0 (map f l) = fold_right Rplus 0 (map g l).
Proof. intros H. f_equal. apply map_ext_in. exact H. Qed.
Definition every (i : nat) (k k' : list R) : Prop := forall j, (j < 13)%nat -> state_of k' i j = state_of k i j.
Lemma Forall2_sum (i j : nat) (f : R -> R) : (forall u v, f (u + v) = f u + f v) -> (forall c u, f (c * u) = c * f u) -> f 0 = 0 -> forall a ks ks', Forall2 (fun k k' => state_of k' i j = f (state_of k i j)) ks ks' ->
  fold_right Rplus 0 (map (fun ak => fst ak * state_of (snd ak) i j) (combine a ks')) = f (fold_right Rplus 0 (map (fun ak => fst ak * state_of (snd ak) i j) (combine a ks))).
Proof.
  intros Fa Fc F0 a ks ks' H. revert a. induction H as [|k k' ks ks' Hk H IH]; intros [|c a]; cbn [combine map fold_right fst snd]; try (symmetry; exact F0).
  rewrite IH, Hk, Fa, Fc. reflexivity.
Qed.
Definition one_step_moved k k' : Prop := written every n_bodies k k'.
Lemma moved_combine a b x x' dt w ks ks' : moved n_bodies a b x x' -> Forall2 one_step_moved ks ks' -> moved n_bodies a b (combine_with x dt w ks) (combine_with x' dt w ks').
Proof.
  intros (L1 & L2 & V) K. split; [rewrite combine_with_length; exact L1|]. split; [rewrite combine_with_length; exact L2|]. intros i Hi. destruct (V i Hi) as (V0 & V1 & Vk).
  assert (forall j, (j < 13)%nat -> state_of (combine_with x' dt w ks') i j - state_of x' i j = state_of (combine_with x dt w ks) i j - state_of x i j) as D.
  { intros j Hj. rewrite !state_of_combine by (first [rewrite L1 | rewrite L2]; assert (13 * (i + 1) <= 13 * n_bodies)%nat by (apply Nat.mul_le_mono_l; lia); lia).
    rewrite (Forall2_sum i j (fun u => u)) with (ks := ks); [ring|reflexivity|reflexivity|reflexivity|]. clear - K Hi Hj. induction K as [|k k' ks ks' Hk K IH]; constructor; [|exact IH]. destruct Hk as (_ & _ & Hk). apply Hk; assumption. }
  repeat split.
  - specialize (D 0%nat ltac:(lia)). lra.
  - specialize (D 1%nat ltac:(lia)). lra.
  - intros k Hk. specialize (D k ltac:(lia)). rewrite (Vk k Hk) in D. lra.
Qed.
Lemma written_start rel (x x' : list R) : List.length x = (13 * n_bodies)%nat -> List.length x' = (13 * n_bodies)%nat -> written rel 0 (repeat 0 (List.length x)) (repeat 0 (List.length x')).
Proof. intros L1 L2. split; [rewrite repeat_length; exact L1|]. split; [rewrite repeat_length; exact L2|]. intros; lia. Qed.
Lemma der_moved a b idx m m' x x' dx dx' t : (idx < n_bodies)%nat -> mrel aeqR m m' -> moved n_bodies a b x x' -> written every idx dx dx' ->
  both (written every (S idx)) (der m idx x dx t) (der m' idx x' dx' t).
Proof.
  intros Hi M Mx (Ld & Ld' & W). pose proof (moved_seen _ _ _ _ _ Mx) as Sx. destruct Mx as (L1 & L2 & V).
  pose proof (der_free m idx x dx t Hi L1 Ld) as G. pose proof (der_free m' idx x' dx' t Hi L2 Ld') as G'. rewrite <- (forces_blind m m' idx x x' t Hi M Sx) in G'.
  destruct (sum_of_forces m idx x t) as [F| |]; [|rewrite G, G'; exact I|rewrite G, G'; exact I].
  destruct G as (d & -> & Le & Ve & Oe). destruct G' as (d' & -> & Le' & Ve' & Oe'). cbn [both]. split; [exact Le|]. split; [exact Le'|]. intros i Hi' j Hj.
  destruct (Nat.eq_dec i idx) as [->|Q]; [|rewrite Oe, Oe' by auto; apply W; [lia|exact Hj]]. rewrite Ve, Ve' by exact Hj.
  destruct (V idx Hi) as (_ & _ & Vk). unfold free_derivative, get_rot_from_ned_to. rewrite (proj1 (bodies_numbered idx Hi)), !Vk by lia. reflexivity.
Qed.
(** Both runs end in the same way, and when they end their states are moved by the same (a, b). *)
Definition same_ending (P : list R -> list R -> Prop) (r r' : result aeqR (list R)) : Prop :=
  match r, r' with Done _ y, Done _ y' => P y y' | Failed _, Failed _ => True | Wild, Wild => True | _, _ => False end.
Theorem no_origin : forall s n m m' x x' t0 dt a b, mrel aeqR m m' -> moved n_bodies a b x x' -> same_ending (moved n_bodies a b) (rn s n m x t0 dt) (rn s n m' x' t0 dt).
Proof.
  intros s n m m' x x' t0 dt a b M Mx. unfold run.
  pose proof (steps_follow aeqR frc der n_bodies (moved n_bodies a b) one_step_moved frc_free) as G.
  specialize (G ltac:(intros y y' (H1 & H2 & _); split; assumption)).
  specialize (G ltac:(intros y y' i k Hy Hi Hk; exact (proj1 (moved_seen _ _ _ _ _ Hy i Hi) k Hk))).
  specialize (G (written every) (der_moved a b)). specialize (G ltac:(intros y y' (H1 & H2 & _); apply written_start; assumption)). specialize (G ltac:(intros k k' H; exact H)).
  specialize (G ltac:(intros; apply moved_combine; assumption) s n 0%nat m m' x x' t0 dt M Mx).
  destruct (steps aeqR frc der n_bodies _ s n 0 m x t0 dt), (steps aeqR frc der n_bodies _ s n 0 m' x' t0 dt); cbn [follows] in G; cbn [same_ending]; try contradiction; try exact I. apply G.
Qed.

(** ** Heading *)
Definition half_turned (psi : R) (i : nat) (k k' : list R) : Prop :=
  (forall j, (2 <= j <= 8)%nat -> state_of k' i j = state_of k i j) /\
  state_of k' i 9 = cos (psi / 2) * state_of k i 9 - sin (psi / 2) * state_of k i 12 /\ state_of k' i 10 = cos (psi / 2) * state_of k i 10 - sin (psi / 2) * state_of k i 11 /\
  state_of k' i 11 = cos (psi / 2) * state_of k i 11 + sin (psi / 2) * state_of k i 10 /\ state_of k' i 12 = cos (psi / 2) * state_of k i 12 + sin (psi / 2) * state_of k i 9.
Lemma turned_iff psi x x' : turned n_bodies psi x x' <-> written (half_turned psi) n_bodies x x'.
Proof.
  split.
  - intros T. pose proof (fun i => turned_quaternion n_bodies psi x x' i T) as Q. destruct T as (L1 & L2 & V). split; [exact L1|]. split; [exact L2|]. intros i Hi. split; [apply V; exact Hi|apply Q; exact Hi].
  - intros (L1 & L2 & V). split; [exact L1|]. split; [exact L2|]. intros i Hi. destruct (V i Hi) as (V1 & Qa & Qb & Qc & Qd). split; [exact V1|]. rewrite Qa, Qb, Qc, Qd. cbn [qmul]. do 3 (apply f_equal2; [|ring]). ring.
Qed.
(** Linear combinations of two components *)
Lemma Forall2_sum2 (i j j1 j2 : nat) (c1 c2 : R) : forall a ks ks', Forall2 (fun k k' => state_of k' i j = c1 * state_of k i j1 + c2 * state_of k i j2) ks ks' ->
  fold_right Rplus 0 (map (fun ak => fst ak * state_of (snd ak) i j) (combine a ks')) =
  c1 * fold_right Rplus 0 (map (fun ak => fst ak * state_of (snd ak) i j1) (combine a ks)) + c2 * fold_right Rplus 0 (map (fun ak => fst ak * state_of (snd ak) i j2) (combine a ks)).
Proof.
  intros a ks ks' H. revert a. induction H as [|k k' ks ks' Hk H IH]; intros [|c a]; cbn [combine map fold_right fst snd]; try ring. rewrite IH, Hk. ring.
Qed.
Lemma turned_combine psi x x' dt w ks ks' : turned n_bodies psi x x' -> Forall2 (written (half_turned psi) n_bodies) ks ks' -> turned n_bodies psi (combine_with x dt w ks) (combine_with x' dt w ks').
Proof.
  intros T K. apply turned_iff. apply turned_iff in T as (L1 & L2 & V). split; [rewrite combine_with_length; exact L1|]. split; [rewrite combine_with_length; exact L2|]. intros i Hi.
  assert (forall j, (j < 13)%nat -> (13 * i + j < List.length x)%nat) as B1 by (intros; assert (13 * (i + 1) <= 13 * n_bodies)%nat by (apply Nat.mul_le_mono_l; lia); lia).
  assert (forall j, (j < 13)%nat -> (13 * i + j < List.length x')%nat) as B2 by (intros; assert (13 * (i + 1) <= 13 * n_bodies)%nat by (apply Nat.mul_le_mono_l; lia); lia).
  destruct (V i Hi) as (V1 & Qa & Qb & Qc & Qd).
  assert (Forall2 (fun k k' => half_turned psi i k k') ks ks') as K'. { clear - K Hi. induction K as [|k k' ks ks' (_ & _ & Hk) K IH]; constructor; [apply Hk; exact Hi|exact IH]. }
  split; [|repeat split].
  - intros j Hj. rewrite !state_of_combine by (first [apply B1 | apply B2]; lia). rewrite (V1 j Hj). f_equal. f_equal.
    rewrite (Forall2_sum i j (fun u => u)) with (ks := ks); [reflexivity|reflexivity|reflexivity|reflexivity|]. clear - K' Hj. induction K' as [|k k' ks ks' (Hk & _) K IH]; constructor; [apply Hk; exact Hj|exact IH].
  - rewrite !state_of_combine by (first [apply B1 | apply B2]; lia). rewrite Qa, (Forall2_sum2 i 9 9 12 (cos (psi / 2)) (- sin (psi / 2)) w ks ks'); [ring|].
    clear - K'. induction K' as [|k k' ks ks' (_ & Hk & _) K IH]; constructor; [rewrite Hk; ring|exact IH].
  - rewrite !state_of_combine by (first [apply B1 | apply B2]; lia). rewrite Qb, (Forall2_sum2 i 10 10 11 (cos (psi / 2)) (- sin (psi / 2)) w ks ks'); [ring|].
    clear - K'. induction K' as [|k k' ks ks' (_ & _ & Hk & _) K IH]; constructor; [rewrite Hk; ring|exact IH].
  - rewrite !state_of_combine by (first [apply B1 | apply B2]; lia). rewrite Qc, (Forall2_sum2 i 11 11 10 (cos (psi / 2)) (sin (psi / 2)) w ks ks'); [ring|].
    clear - K'. induction K' as [|k k' ks ks' (_ & _ & _ & Hk & _) K IH]; constructor; [rewrite Hk; ring|exact IH].
  - rewrite !state_of_combine by (first [apply B1 | apply B2]; lia). rewrite Qd, (Forall2_sum2 i 12 12 9 (cos (psi / 2)) (sin (psi / 2)) w ks ks'); [ring|].
    clear - K'. induction K' as [|k k' ks ks' (_ & _ & _ & _ & Hk) K IH]; constructor; [rewrite Hk; ring|exact IH].
Qed.
Lemma free_derivative_turned psi idx F x x' : (idx < n_bodies)%nat -> turned n_bodies psi x x' ->
  let d := free_derivative (bodies idx) F (entries (get_rot_from_ned_to x idx)) x in let d' := free_derivative (bodies idx) F (entries (get_rot_from_ned_to x' idx)) x' in
  (forall j, (2 <= j <= 8)%nat -> nth j d' 0 = nth j d 0) /\
  nth 9 d' 0 = cos (psi / 2) * nth 9 d 0 - sin (psi / 2) * nth 12 d 0 /\ nth 10 d' 0 = cos (psi / 2) * nth 10 d 0 - sin (psi / 2) * nth 11 d 0 /\
  nth 11 d' 0 = cos (psi / 2) * nth 11 d 0 + sin (psi / 2) * nth 10 d 0 /\ nth 12 d' 0 = cos (psi / 2) * nth 12 d 0 + sin (psi / 2) * nth 9 d 0.
Proof.
  intros Hi T d d'. pose proof (turned_quaternion n_bodies psi x x' idx T Hi) as (Qa & Qb & Qc & Qd). pose proof (proj2 (turned_seen n_bodies psi x x' T idx Hi)) as R3.
  destruct T as (_ & _ & V). destruct (V idx Hi) as (V1 & _). split; [|repeat split].
  - intros j Hj. unfold d, d', free_derivative. rewrite (proj1 (bodies_numbered idx Hi)).
    assert (j = 2 \/ j = 3 \/ j = 4 \/ j = 5 \/ j = 6 \/ j = 7 \/ j = 8)%nat as [->|Q] by lia.
    + cbn [nth]. unfold entries. cbv beta iota zeta. rewrite <- R3, !V1 by lia. reflexivity.
    + destruct Q as [->|[->|[->|[->|[->| ->]]]]]; reflexivity.
  - unfold d, d', free_derivative. rewrite (proj1 (bodies_numbered idx Hi)). cbn [nth]. rewrite Qb, Qc, Qd, !V1 by lia. field.
  - unfold d, d', free_derivative. rewrite (proj1 (bodies_numbered idx Hi)). cbn [nth]. rewrite Qa, Qc, Qd, !V1 by lia. field.
  - unfold d, d', free_derivative. rewrite (proj1 (bodies_numbered idx Hi)). cbn [nth]. rewrite Qa, Qb, Qd, !V1 by lia. field.
  - unfold d, d', free_derivative. rewrite (proj1 (bodies_numbered idx Hi)). cbn [nth]. rewrite Qa, Qb, Qc, !V1 by lia. field.
Qed.
Lemma der_turned psi idx m m' x x' dx dx' t : (idx < n_bodies)%nat -> mrel aeqR m m' -> turned n_bodies psi x x' -> written (half_turned psi) idx dx dx' ->
  both (written (half_turned psi) (S idx)) (der m idx x dx t) (der m' idx x' dx' t).
Proof.
  intros Hi M T (Ld & Ld' & W). pose proof (turned_seen _ _ _ _ T) as Sx. pose proof T as (L1 & L2 & V).
  pose proof (der_free m idx x dx t Hi L1 Ld) as G. pose proof (der_free m' idx x' dx' t Hi L2 Ld') as G'. rewrite <- (forces_blind m m' idx x x' t Hi M Sx) in G'.
  destruct (sum_of_forces m idx x t) as [F| |]; [|rewrite G, G'; exact I|rewrite G, G'; exact I].
  destruct G as (d & -> & Le & Ve & Oe). destruct G' as (d' & -> & Le' & Ve' & Oe'). cbn [both]. split; [exact Le|]. split; [exact Le'|]. intros i Hi'.
  destruct (Nat.eq_dec i idx) as [->|Q].
  - destruct (free_derivative_turned psi idx F x x' Hi T) as (D1 & D2 & D3 & D4 & D5). split; [intros j Hj; rewrite Ve, Ve' by lia; apply D1; exact Hj|]. rewrite !Ve, !Ve' by lia. repeat split; assumption.
  - destruct (W i ltac:(lia)) as (W1 & W2 & W3 & W4 & W5). split; [intros j Hj; rewrite Oe, Oe' by (auto; lia); apply W1; exact Hj|]. rewrite !Oe, !Oe' by (auto; lia). repeat split; assumption.
Qed.
(** Depth, velocities in the body frame and attitude: those of the first run, turned, at any step. *)
Theorem no_direction_partial : forall s n m m' x x' t0 dt psi, mrel aeqR m m' -> turned n_bodies psi x x' -> same_ending (turned n_bodies psi) (rn s n m x t0 dt) (rn s n m' x' t0 dt).
Proof.
  intros s n m m' x x' t0 dt psi M T. unfold run.
  pose proof (steps_follow aeqR frc der n_bodies (turned n_bodies psi) (written (half_turned psi) n_bodies) frc_free) as G.
  specialize (G ltac:(intros y y' (H1 & H2 & _); split; assumption)).
  specialize (G ltac:(intros y y' i k Hy Hi Hk; exact (proj1 (turned_seen _ _ _ _ Hy i Hi) k Hk))).
  specialize (G (written (half_turned psi)) (der_turned psi)). specialize (G ltac:(intros y y' (H1 & H2 & _); apply written_start; assumption)). specialize (G ltac:(intros k k' H; exact H)).
  specialize (G ltac:(intros; apply turned_combine; assumption) s n 0%nat m m' x x' t0 dt M T).
  destruct (steps aeqR frc der n_bodies _ s n 0 m x t0 dt), (steps aeqR frc der n_bodies _ s n 0 m' x' t0 dt); cbn [follows] in G; cbn [same_ending]; try contradiction; try exact I. apply G.
Qed.
End Symmetry.
Print Assumptions no_origin.
Print Assumptions no_direction_partial.

(** ** Gravity and hydrostatics in calm water feel only the depth and the direction of the vertical *)
Lemma mapM_same {A B} (f f' : A -> outcome B) l : (forall a, In a l -> f a = f' a) -> mapM f l = mapM f' l.
Proof. induction l as [|a l IH]; intros H; cbn [mapM]; [reflexivity|]. rewrite (H a (or_introl eq_refl)), IH by (intros; apply H; right; assumption). reflexivity. Qed.
Lemma vz_tapply T p : vz (tapply T p) = vz (t_point T) + dot (r3 (t_rot T)) p.
Proof. destruct T as [[ra rb [ca cb cc]] [pa pb pc]], p as [qa qb qc]. unfold tapply, vadd, mapply, dot. cbn [vx vy vz t_rot t_point r1 r2 r3]. ring. Qed.
Lemma heights_calm h T T' t stored P : r3 (t_rot T) = r3 (t_rot T') -> vz (t_point T) = vz (t_point T') -> heights (Calm h) T t stored P = heights (Calm h) T' t stored P.
Proof.
  intros E1 E2. unfold heights. destruct P as [|p P]; [reflexivity|]. set (Q := p :: P). cbn [sea_height]. rewrite !map_length. cbv zeta.
  destruct (negb (Nat.eqb (List.length Q) (List.length Q))); cbn [bindO]; [reflexivity|]. f_equal. apply mapM_same. intros i _. unfold at_ub. rewrite !nth_error_map. destruct (nth_error Q i) as [q|]; cbn [option_map bindO]; [|reflexivity].
  rewrite !vz_tapply, E1, E2. reflexivity.
Qed.
Lemma immerse_calm h T T' t stored J : r3 (t_rot T) = r3 (t_rot T') -> vz (t_point T) = vz (t_point T') -> immerse (Calm h) T t stored J = immerse (Calm h) T' t stored J.
Proof. intros E1 E2. unfold immerse. rewrite (heights_calm h T T' t stored _ E1 E2). reflexivity. Qed.
Lemma fast_calm rho g T T' o G fs : r3 (t_rot T) = r3 (t_rot T') -> vz (t_point T) = vz (t_point T') -> fast_hydrostatic rho g T o G fs = fast_hydrostatic rho g T' o G fs.
Proof.
  intros E1 E2. unfold fast_hydrostatic. f_equal. apply map_ext. intros f. unfold hydrostatic_dF, zG_in_NED. rewrite E1, E2. reflexivity.
Qed.
Lemma vertical_force M k : mapply (transpose M) (V3 0 0 k) = vscale k (r3 M).
Proof. destruct M as [[a1 a2 a3] [b1 b2 b3] [c1 c2 c3]]. unfold transpose, mapply, dot, vscale. apply vec_eq; cbn [vx vy vz r1 r2 r3]; ring. Qed.
Lemma gravity_calm T T' m g : r3 (t_rot T) = r3 (t_rot T') -> gravity (inverse_transform T) m g = gravity (inverse_transform T') m g.
Proof. intros E. unfold gravity, inverse_transform. cbn [t_rot]. rewrite !vertical_force, E. reflexivity. Qed.
Section Water.
Variable aeqR : Z -> R -> R -> bool.
Variables rho g level : R.
Variable hulls : nat -> hull.
Variable coriolis : nat -> list R -> torsor.
Variable others : list (memory aeqR) -> nat -> list R -> R -> outcome (list wrench * list torsor).
Variable n_bodies : nat.
Theorem calm_water_is_blind : blind aeqR n_bodies others -> blind aeqR n_bodies (efforts aeqR rho g level hulls coriolis others).
Proof.
  intros B m m' idx x x' t Hi M Sx. unfold efforts. rewrite <- (B m m' idx x x' t Hi M Sx). destruct (Sx idx Hi) as (V & R3).
  assert (r3 (t_rot (placement x idx)) = r3 (t_rot (placement x' idx))) as E1 by exact R3. assert (vz (t_point (placement x idx)) = vz (t_point (placement x' idx))) as E2 by (cbn [placement t_point vz]; apply V; lia).
  rewrite <- (gravity_calm _ _ (h_mass (hulls idx)) g E1). cbv zeta.
  assert (buoyancy rho g level hulls idx (placement x idx) t = buoyancy rho g level hulls idx (placement x' idx) t) as <-.
  { unfold buoyancy. rewrite <- (immerse_calm level _ _ t (h_stored (hulls idx)) (h_inter (hulls idx)) E1 E2). destruct (immerse (Calm level) (placement x idx) t _ _) as [J| |]; cbn [bindO]; try reflexivity.
    destruct (facets_at J (i_immersed J)) as [fs| |]; cbn [bindO]; try reflexivity. destruct (mapO_list (with_points J) fs) as [ps| |]; cbn [bindO]; try reflexivity. rewrite (fast_calm rho g _ _ _ _ ps E1 E2). reflexivity. }
  assert (map (state_of x idx) [3; 4; 5; 6; 7; 8]%nat = map (state_of x' idx) [3; 4; 5; 6; 7; 8]%nat) as <- by (apply map_ext_in; intros k Hk; apply V; cbn [In] in Hk; lia).
  reflexivity.
Qed.
Variable Itp : Type.
Variable itp_f itp_df : Itp -> R -> outcome R.
Variable bodies : nat -> body Itp.
Notation rn := (run aeqR Itp itp_f itp_df bodies (efforts aeqR rho g level hulls coriolis others) n_bodies (fun x _ => x)).
(** Any number of hulls in calm water, whatever their shapes, the solver, the step and the duration. *)
Theorem calm_water_has_no_origin : forall s n m m' x x' t0 dt a b, numbered Itp bodies n_bodies -> not_forced Itp bodies n_bodies -> blind aeqR n_bodies others -> mrel aeqR m m' ->
  moved n_bodies a b x x' -> same_ending aeqR (moved n_bodies a b) (rn s n m x t0 dt) (rn s n m' x' t0 dt).
Proof. intros. apply no_origin; auto. apply calm_water_is_blind. assumption. Qed.
Theorem calm_water_has_no_direction_partial : forall s n m m' x x' t0 dt psi, numbered Itp bodies n_bodies -> not_forced Itp bodies n_bodies -> blind aeqR n_bodies others -> mrel aeqR m m' ->
  turned n_bodies psi x x' -> same_ending aeqR (turned n_bodies psi) (rn s n m x t0 dt) (rn s n m' x' t0 dt).
Proof. intros. apply no_direction_partial; auto. apply calm_water_is_blind. assumption. Qed.
End Water.
Print Assumptions calm_water_is_blind.
Print Assumptions calm_water_has_no_origin.
Print Assumptions calm_water_has_no_direction_partial.

(** ** The horizontal speed is turned too, as long as the quaternion has norm 1 *)
Theorem speed_is_turned_partial : forall n_bodies psi x x' i u, turned n_bodies psi x x' -> (i < n_bodies)%nat -> quaternion2 x i = 1 ->
  mapply (get_rot_from_ned_to x' i) u = mapply (rotz psi) (mapply (get_rot_from_ned_to x i) u).
Proof.
  intros n_bodies psi x x' i u T Hi Q. pose proof (turned_quaternion n_bodies psi x x' i T Hi) as (Qa & Qb & Qc & Qd). unfold get_rot_from_ned_to. rewrite Qa, Qb, Qc, Qd. unfold quaternion2 in Q.
  set (C := cos (psi / 2)). set (S0 := sin (psi / 2)).
  assert (cos psi = C * C - S0 * S0) as Ec by (replace psi with (psi / 2 + psi / 2) at 1 by field; rewrite cos_plus; reflexivity).
  assert (sin psi = 2 * (S0 * C)) as Es by (replace psi with (psi / 2 + psi / 2) at 1 by field; rewrite sin_plus; unfold C, S0; ring).
  assert (C * C = 1 - S0 * S0) as Hc by (pose proof (sin2_cos2 (psi / 2)) as E; unfold Rsqr in E; unfold C, S0; lra).
  revert Q. generalize (state_of x i 9) (state_of x i 10) (state_of x i 11) (state_of x i 12). intros a b c d Q. assert (a * a = 1 - b * b - c * c - d * d) as Ha by lra.
  unfold rotz. rewrite Ec, Es. destruct u as [p q r]. unfold qmat, mapply, dot. apply vec_eq; cbn [vx vy vz r1 r2 r3]; ring [Hc Ha].
Qed.
Print Assumptions speed_is_turned_partial.


(** ** Both hypotheses on the efforts and on the states are met: any hull left alone in calm water, and two starts at other places and on other headings *)
Definition nothing_else (_ : list (memory same)) (_ : nat) (_ : list R) (_ : R) : outcome (list wrench * list torsor) := Ok ([], []).
Definition turning_south : list R := [0; 0; 0; 1; 0; 0; 0; 0; 1 / 10; 0; 0; 0; 1].
Definition turning_away : list R := [30; -7; 0; 1; 0; 0; 0; 0; 1 / 10; 1; 0; 0; 0].
Lemma half_pi_cos : cos (PI / 2) = 0. Proof. exact cos_PI2. Qed.
Lemma turned_south : turned 1 PI turning turning_south.
Proof.
  split; [reflexivity|]. split; [reflexivity|]. intros i Hi. assert (i = 0)%nat as -> by lia. split.
  - intros k Hk. assert (k = 2 \/ k = 3 \/ k = 4 \/ k = 5 \/ k = 6 \/ k = 7 \/ k = 8)%nat as Q by lia. destruct Q as [->|[->|[->|[->|[->|[->| ->]]]]]]; reflexivity.
  - rewrite cos_PI2, sin_PI2. unfold turning, turning_south, state_of. cbn [nth Nat.mul Nat.add qmul]. do 3 (apply f_equal2; [|ring]). ring.
Qed.
Example calm_witness : forall rho g level hulls coriolis,
  numbered R free_ship 1 /\ not_forced R free_ship 1 /\ blind same 1 nothing_else /\ blind same 1 (efforts same rho g level hulls coriolis nothing_else) /\ mrel same blank blank /\
  moved 1 30 (-7) turning turning_away /\ turned 1 PI turning turning_south.
Proof.
  intros. split; [exact free_numbered|]. split; [intros i s _; destruct s; reflexivity|]. assert (blind same 1 nothing_else) as B by (intros m m' idx x x' t _ _ _; reflexivity).
  split; [exact B|]. split; [apply calm_water_is_blind; exact B|]. split; [apply mrel_refl|]. split; [|exact turned_south].
  split; [reflexivity|]. split; [reflexivity|]. intros i Hi. assert (i = 0)%nat as -> by lia. split; [unfold turning, turning_away, state_of; cbn [nth Nat.mul Nat.add]; ring|].
  split; [unfold turning, turning_away, state_of; cbn [nth Nat.mul Nat.add]; ring|]. intros k Hk. destruct k as [|[|k]]; [lia|lia|]. reflexivity.
Qed.

(** ** The track is not turned: the quaternion that drifts (C175) no longer gives a rotation, and the drift depends on the heading *)
Definition voyage_from (x : list R) (n : nat) : result same (list R) := run same R rf rdf free_ship no_effort 1 (fun x _ => x) euler n blank x 0 (1 / 10).
Lemma voyage_from_goes_on x n : List.length x = 13%nat -> exists m y, voyage_from x n = Done m y /\ List.length y = 13%nat.
Proof.
  intros L. destruct (forward_solvers_run same same_refl (forced R rf free_ship) (derivatives same R rdf free_ship no_effort) 1 euler (fun x _ => x) n blank x 0 (1 / 10)) as (m' & y & E & _).
  - apply rk_in_order.
  - apply free_bodies_computable; [exact free_numbered|intros i s _; destruct s; reflexivity|intros; unfold no_effort; eauto].
  - lra.
  - exact blank_ok.
  - exact L.
  - reflexivity.
  - exists m', y. split; [exact E|]. exact (run_length same R rf rdf free_ship no_effort 1 euler _ free_keeps _ _ _ _ _ _ _ (L : List.length x = (13 * 1)%nat) E).
Qed.
Lemma voyage_from_step x n m y : List.length x = 13%nat -> voyage_from x (S n) = Done m y -> exists m1 z, voyage_from x n = Done m1 z /\
  forall j, (j < 13)%nat -> state_of y 0 j = state_of z 0 j + 1 / 10 * nth j (free_derivative (free_ship 0) (fun _ => 0) (entries (get_rot_from_ned_to z 0)) z) 0.
Proof.
  intros L E. destruct (voyage_from_goes_on x n L) as (m1 & z & E1 & L1). exists m1, z. split; [exact E1|]. intros j Hj.
  unfold voyage_from, run in E, E1. apply steps_last in E as (m2 & x1 & x2 & H1 & H2 & E'). cbv beta in E'. rewrite E1 in H1. assert (x1 = z) as -> by congruence. apply euler_inv in H2 as (k & H2 & ->). subst y.
  rewrite state_of_combine by (cbn [Nat.mul Nat.add]; lia). cbn [combine map fold_right fst snd]. f_equal. f_equal.
  unfold evaluate, system in H2. cbn [Solver_Model.dx_dt] in H2.
  generalize dependent (0 + INR (0 + n) * (1 / 10)). intros tn H2. destruct (update_body_states same (forced R rf free_ship) 0 m2 z tn) as [m3 []| |]; cbn [bind] in H2; try discriminate.
  destruct (derivatives same R rdf free_ship no_effort m3 0 z (repeat 0 (List.length z)) tn) as [d| |] eqn:E; try discriminate. assert (k = d) as -> by congruence. clear H2.
  unfold derivatives, no_effort in E. cbn [bindO] in E. apply calc_inv in E as (dx1 & Fd & _ & V & _). unfold force_state_derivatives in Fd. rewrite free_loop in Fd by (intros s; destruct s; reflexivity).
  injection Fd as <-. specialize (V j Hj). cbn [free_ship ship bd_idx Nat.mul Nat.add] in V. unfold state_of at 1. cbn [Nat.mul Nat.add].
  destruct (nth_error dx1 j) as [v|] eqn:Q.
  - rewrite (nth_error_nth _ _ 0 Q). symmetry in V. pose proof (nth_error_nth _ _ 0 V) as V'. rewrite V'. ring.
  - symmetry in V. apply nth_error_None in V. unfold free_derivative in V. cbn [List.length] in V. lia.
Qed.
(** Two starts from the origin at the same speed, with unit quaternions, one on the opposite heading: after two steps of Euler's method the
    second boat is not opposite to the first. *)
Theorem track_is_turned_refuted : exists m m' y y', quaternion2 turning 0 = 1 /\ quaternion2 turning_south 0 = 1 /\ turned 1 PI turning turning_south /\
  voyage_from turning 2 = Done m y /\ voyage_from turning_south 2 = Done m' y' /\
  mapply (rotz PI) (V3 (state_of turning 0 0) (state_of turning 0 1) (state_of turning 0 2)) = V3 (state_of turning_south 0 0) (state_of turning_south 0 1) (state_of turning_south 0 2) /\
  turned 1 PI y y' /\ mapply (rotz PI) (V3 (state_of y 0 0) (state_of y 0 1) (state_of y 0 2)) <> V3 (state_of y' 0 0) (state_of y' 0 1) (state_of y' 0 2).
Proof.
  destruct (voyage_from_goes_on turning 2 eq_refl) as (m & y & E & L). destruct (voyage_from_goes_on turning_south 2 eq_refl) as (m' & y' & E' & L'). exists m, m', y, y'.
  split; [unfold quaternion2, turning, state_of; cbn [nth Nat.mul Nat.add]; lra|]. split; [unfold quaternion2, turning_south, state_of; cbn [nth Nat.mul Nat.add]; lra|]. split; [exact turned_south|]. split; [exact E|]. split; [exact E'|].
  split; [unfold turning, turning_south, state_of, rotz, mapply, dot; cbn [nth Nat.mul Nat.add]; apply vec_eq; cbn [vx vy vz r1 r2 r3]; ring|]. split.
  - pose proof (no_direction_partial same R rf rdf free_ship 1 free_numbered ltac:(intros i s _; destruct s; reflexivity) no_effort ltac:(intros ? ? ? ? ? ? _ _ _; reflexivity) euler 2 blank blank turning turning_south 0 (1 / 10) PI (mrel_refl _ _) turned_south) as G.
    unfold voyage_from in E, E'. rewrite E, E' in G. exact G.
  - apply voyage_from_step in E as (m1 & z & E1 & S2); [|reflexivity]. apply voyage_from_step in E1 as (m0 & w & E0 & S1); [|reflexivity]. assert (w = turning) as -> by (unfold voyage_from, run in E0; cbn in E0; congruence).
    apply voyage_from_step in E' as (m1' & z' & E1' & S2'); [|reflexivity]. apply voyage_from_step in E1' as (m0' & w' & E0' & S1'); [|reflexivity]. assert (w' = turning_south) as -> by (unfold voyage_from, run in E0'; cbn in E0'; congruence).
    assert (forall j, (j < 13)%nat -> state_of z 0 j = nth j [1 / 10; 0; 0; 1; 0; 0; 0; 0; 1 / 10; 1; 0; 0; 1 / 200] 0) as Z.
    { intros j Hj. rewrite S1 by exact Hj. do 13 (destruct j as [|j]; [unfold turning, state_of, free_derivative, entries, get_rot_from_ned_to, qmat; cbn [nth Nat.mul Nat.add state_of free_ship ship bd_idx bd_Minv r1 r2 r3 vx vy vz]; unfold state_of; cbn [nth Nat.mul Nat.add]; lra|]). lia. }
    assert (forall j, (j < 13)%nat -> state_of z' 0 j = nth j [- 1 / 10; 0; 0; 1; 0; 0; 0; 0; 1 / 10; - 1 / 200; 0; 0; 1] 0) as Z'.
    { intros j Hj. rewrite S1' by exact Hj. do 13 (destruct j as [|j]; [unfold turning_south, state_of, free_derivative, entries, get_rot_from_ned_to, qmat; cbn [nth Nat.mul Nat.add state_of free_ship ship bd_idx bd_Minv r1 r2 r3 vx vy vz]; unfold state_of; cbn [nth Nat.mul Nat.add]; lra|]). lia. }
    intros C. apply (f_equal vx) in C. unfold rotz, mapply, dot in C. cbn [vx vy vz r1 r2 r3] in C. rewrite cos_PI, sin_PI in C. rewrite !S2, !S2' in C by lia. clear S2 S2' S1 S1'.
    unfold free_derivative, entries, get_rot_from_ned_to, qmat in C. cbn [nth free_ship ship bd_idx r1 r2 r3 vx vy vz] in C. rewrite !Z, !Z' in C by lia. cbn [nth] in C. lra.
Qed.

(** ** The direction of the vertical used by the exact hydrostatic model *)
(** Body.cpp:98-105 multiplies by the rotation NED<-mesh: the result is the third column of that matrix. It should be the third row, the direction of the
    vertical seen from the body (that of gravity, GravityForceModel.cpp:23-36), which does not depend on the heading. *)
Theorem down_direction_refuted : exists M psi g, rotation M /\ 0 < g /\ mapply (transpose (mmul (rotz psi) M)) (V3 0 0 g) = mapply (transpose M) (V3 0 0 g) /\
  down_direction (mmul (rotz psi) M) g <> down_direction M g /\ down_direction M g <> mapply (transpose M) (V3 0 0 g).
Proof.
  exists (M3 (V3 0 0 1) (V3 0 1 0) (V3 (-1) 0 0)), PI, 1. split; [unfold rotation, dot, cross; cbn [vx vy vz r1 r2 r3]; repeat split; try ring; apply vec_eq; cbn [vx vy vz]; ring|]. split; [lra|].
  unfold rotz. rewrite cos_PI, sin_PI. unfold down_direction, mmul, transpose, mapply, dot. cbn [vx vy vz r1 r2 r3]. split; [apply vec_eq; cbn [vx vy vz]; ring|].
  split; intros C; apply (f_equal vx) in C; cbn [vx] in C; lra.
Qed.
(** It is right for a level body, whatever its heading; for a body with an angle of roll phi (and no yaw), it is on the wrong side. *)
Theorem down_direction_partial : forall psi g, down_direction (rotz psi) g = mapply (transpose (rotz psi)) (V3 0 0 g).
Proof. intros. unfold down_direction, rotz, transpose, mapply, dot. cbn [vx vy vz r1 r2 r3]. apply vec_eq; cbn [vx vy vz]; ring. Qed.
Theorem down_direction_mirrored : forall phi g, let M := M3 (V3 1 0 0) (V3 0 (cos phi) (- sin phi)) (V3 0 (sin phi) (cos phi)) in
  rotation M /\ mapply (transpose M) (V3 0 0 g) = V3 0 (g * sin phi) (g * cos phi) /\ down_direction M g = V3 0 (- (g * sin phi)) (g * cos phi).
Proof.
  intros phi g M. pose proof (sin2_cos2 phi) as E. unfold Rsqr in E. unfold M. split.
  - unfold rotation, dot, cross. cbn [vx vy vz r1 r2 r3]. repeat split; try lra; try ring. apply vec_eq; cbn [vx vy vz]; ring.
  - unfold down_direction, transpose, mapply, dot. cbn [vx vy vz r1 r2 r3]. split; apply vec_eq; cbn [vx vy vz]; ring.
Qed.
Print Assumptions track_is_turned_refuted.
Print Assumptions down_direction_refuted.
Print Assumptions down_direction_partial.
Print Assumptions down_direction_mirrored.
