(** Properties C90-C93: the gRPC services of the co-simulation and model exchange servers. *)
From Coq Require Import ZArith List Bool Lia String.
From Verif Require Import Server_Spec.
From Coq Require Import Reals Lra.
From Coquelicot Require Import Coquelicot.
From Verif Require Import Common History_Model History_Order_Proofs History_Real_Proofs Server_Model Server_Proofs Server_Props Geometry Grpc_Model Grpc_Spec Attitude_Props.
Import ListNotations.
Open Scope list_scope.

(** ** Helpers *)
Lemma rows_ok : forall X (f : nat -> outcome X) n i, (forall k, (i <= k < i + n)%nat -> exists x, f k = Ok x) ->
  exists l, rows f i n = Ok l /\ List.length l = n.
Proof.
  intros X f. induction n as [|n IH]; intros i H; [exists []; split; reflexivity|]. cbn [rows].
  destruct (H i ltac:(lia)) as (x & ->). destruct (IH (S i)) as (l & -> & E); [intros k Hk; apply H; lia|]. exists (x :: l). cbn. split; [reflexivity|lia].
Qed.
Lemma rows_inv : forall X (f : nat -> outcome X) n i l, rows f i n = Ok l -> List.length l = n /\ forall k x, nth_error l k = Some x -> f (i + k)%nat = Ok x.
Proof.
  intros X f. induction n as [|n IH]; intros i l H; cbn [rows] in H.
  - injection H as <-. split; [reflexivity|]. intros [|k] x E; discriminate.
  - destruct (f i) as [x| |] eqn:E; try discriminate. destruct (rows f (S i) n) as [t| |] eqn:Et; try discriminate. cbn in H. injection H as <-.
    destruct (IH _ _ Et) as [L N]. split; [cbn; lia|]. intros [|k] y Hy; cbn in Hy.
    + injection Hy as <-. rewrite Nat.add_0_r. exact E.
    + rewrite <- Nat.add_succ_comm. apply N. exact Hy.
Qed.
Lemma at_ub_lt : forall X (l : list X) i, (i < List.length l)%nat -> exists x, at_ub l i = Ok x /\ nth_error l i = Some x.
Proof. intros X l i H. unfold at_ub. destruct (nth_error l i) eqn:E; [eauto|]. apply nth_error_None in E. lia. Qed.
Lemma at_ub_inv : forall X (l : list X) i x, at_ub l i = Ok x -> nth_error l i = Some x.
Proof. intros X l i x H. unfold at_ub in H. destruct (nth_error l i); congruence. Qed.
(** A list of the same size as the rows, element by element. *)
Lemma rows_column : forall X Y (ys : list X) (col : list Y) (g : X -> Y), List.length col = List.length ys ->
  (forall k y, nth_error ys k = Some y -> nth_error col k = Some (g y)) -> map g ys = col.
Proof.
  intros X Y ys. induction ys as [|y ys IH]; intros [|c col] g L H; try discriminate; [reflexivity|]. cbn.
  pose proof (H 0%nat y eq_refl) as E. cbn in E. injection E as <-. f_equal. apply IH; [cbn in L; lia|]. intros k z Hz. exact (H (S k) z Hz).
Qed.
Lemma check_size_faulty : forall A (t : list (num A)) name l, CHECK_SIZE A t name l = faulty t [(name, l)].
Proof. intros A t name l. unfold CHECK_SIZE, faulty. cbn. destruct (Nat.eqb (List.length l) (List.length t)); reflexivity. Qed.
Lemma faulty_cons : forall X Y (t : list X) (f : string * list Y) ls, faulty t (f :: ls) = faulty t [f] ++ faulty t ls.
Proof. intros X Y t f ls. unfold faulty. cbn. destruct (negb _); reflexivity. Qed.
Lemma faulty_nil : forall X Y (t : list X) (ls : list (string * list Y)), faulty t ls = [] <-> well_sized t ls.
Proof.
  intros X Y t ls. unfold well_sized. induction ls as [|[n l] ls IH]; [split; [intros _ ? ? []|reflexivity]|].
  rewrite faulty_cons. split.
  - intros E. apply app_eq_nil in E as [E1 E2]. intros name l' [H|H]; [|apply (proj1 IH E2 _ _ H)]. injection H as <- <-.
    unfold faulty in E1. cbn in E1. destruct (Nat.eqb (List.length l) (List.length t)) eqn:Q; [apply Nat.eqb_eq; exact Q|discriminate].
  - intros H. rewrite (proj2 IH) by (intros; eapply H; right; eassumption). unfold faulty. cbn. rewrite (H n l (or_introl eq_refl)), Nat.eqb_refl. reflexivity.
Qed.
Lemma check_quaternion : forall A (r : quaternion_request A), check_states_size_quaternion A r = status_of (faulty (q_t r) (quaternion_lists r)).
Proof.
  intros A r. unfold check_states_size_quaternion, quaternion_lists. rewrite !check_size_faulty. rewrite !(faulty_cons _ _ _ _ (_ :: _)). reflexivity.
Qed.
Lemma check_euler : forall A (r : euler_request A), check_states_size_euler A r = status_of (faulty (e_t r) (euler_lists r)).
Proof.
  intros A r. unfold check_states_size_euler, euler_lists. rewrite !check_size_faulty. rewrite !(faulty_cons _ _ _ _ (_ :: _)). reflexivity.
Qed.
Lemma status_of_cases : forall l, (l = [] /\ status_of l = StOk) \/ (l <> [] /\ status_of l = StInvalidArgument l).
Proof. intros [|p l]; [left; split; reflexivity|right; split; [discriminate|reflexivity]]. Qed.

(** ** C90. A request in which a list does not have the size of the list of dates is refused, before anything is given to the
    simulator, with a message that names exactly the lists at fault and gives both sizes. *)
Theorem grpc_inconsistent_sizes_are_refused : forall A to_quaternion rates play deriv Tmax,
  (forall r : quaternion_request A, ~ well_sized (q_t r) (quaternion_lists r) ->
     step_quaternion A play Tmax r = Ok (StInvalidArgument (faulty (q_t r) (quaternion_lists r)), None) /\
     dx_dt_quaternion A rates deriv Tmax r = Ok (StInvalidArgument (faulty (q_t r) (quaternion_lists r)), None)) /\
  (forall r : euler_request A, ~ well_sized (e_t r) (euler_lists r) ->
     step_euler_321 A to_quaternion play Tmax r = Ok (StInvalidArgument (faulty (e_t r) (euler_lists r)), None) /\
     dx_dt_euler_321 A to_quaternion rates deriv Tmax r = Ok (StInvalidArgument (faulty (e_t r) (euler_lists r)), None)).
Proof.
  intros A tq rt play deriv Tmax. split; intros r N.
  - unfold step_quaternion, dx_dt_quaternion. rewrite check_quaternion.
    destruct (status_of_cases (faulty (q_t r) (quaternion_lists r))) as [[E _]|[_ ->]]; [|auto]. apply faulty_nil in E. contradiction.
  - unfold step_euler_321, dx_dt_euler_321. rewrite check_euler.
    destruct (status_of_cases (faulty (e_t r) (euler_lists r))) as [[E _]|[_ ->]]; [|auto]. apply faulty_nil in E. contradiction.
Qed.
Print Assumptions grpc_inconsistent_sizes_are_refused.
(** The others are read without any out-of-range access, giving one state per date, and never get that answer. *)
Ltac lists W := repeat match goal with |- context [at_ub ?l ?k] => 
  let x := fresh "x" in let E := fresh "E" in destruct (at_ub_lt _ l k) as (x & E & _); [erewrite W; [eassumption || lia|unfold quaternion_lists, euler_lists; cbn; tauto]|rewrite E; clear E; cbn [bindO]] end.
Lemma from_quaternion_ok : forall A (r : quaternion_request A), well_sized (q_t r) (quaternion_lists r) ->
  exists ys, from_grpc_quaternion A r = Ok ys /\ List.length ys = List.length (q_t r).
Proof.
  intros A r W. apply rows_ok. intros k Hk. lists W. eexists; reflexivity.
Qed.
Lemma from_euler_ok : forall A tq (r : euler_request A), well_sized (e_t r) (euler_lists r) ->
  exists ys, from_grpc_euler A tq r = Ok ys /\ List.length ys = List.length (e_t r).
Proof.
  intros A tq r W. apply rows_ok. intros k Hk. lists W. destruct (tq _ _ _) as [[[a b] c] d]. eexists; reflexivity.
Qed.
Theorem grpc_consistent_sizes_are_accepted : forall A to_quaternion play Tmax,
  (forall r : quaternion_request A, well_sized (q_t r) (quaternion_lists r) ->
     (exists ys, from_grpc_quaternion A r = Ok ys /\ List.length ys = List.length (q_t r)) /\
     forall lines resp, step_quaternion A play Tmax r <> Ok (StInvalidArgument lines, resp)) /\
  (forall r : euler_request A, well_sized (e_t r) (euler_lists r) ->
     (exists ys, from_grpc_euler A to_quaternion r = Ok ys /\ List.length ys = List.length (e_t r)) /\
     forall lines resp, step_euler_321 A to_quaternion play Tmax r <> Ok (StInvalidArgument lines, resp)).
Proof.
  intros A tq play Tmax. split; intros r W.
  - split; [apply from_quaternion_ok; exact W|]. intros lines resp E. unfold step_quaternion in E. rewrite check_quaternion in E.
    rewrite (proj2 (faulty_nil _ _ _ _) W) in E. cbn [status_of] in E. destruct (from_grpc_quaternion A r); try discriminate. cbn in E.
    destruct (play_one_step A play Tmax (q_Dt r) a) as [res| |]; try discriminate. cbn in E. destruct res; discriminate.
  - split; [apply from_euler_ok; exact W|]. intros lines resp E. unfold step_euler_321 in E. rewrite check_euler in E.
    rewrite (proj2 (faulty_nil _ _ _ _) W) in E. cbn [status_of] in E. destruct (from_grpc_euler A tq r); try discriminate. cbn in E.
    destruct (play_one_step A play Tmax (e_Dt r) a) as [res| |]; try discriminate. cbn in E. destruct res; discriminate.
Qed.
Print Assumptions grpc_consistent_sizes_are_accepted.

(** ** C91. The states given to the simulator are those of the request, in the same order: all the values... *)
Ltac columns H := repeat match type of H with context [at_ub ?l ?k] =>
  let x := fresh "x" in let E := fresh "E" in destruct (at_ub l k) as [x| |] eqn:E; [cbn [bindO] in H; apply at_ub_inv in E|discriminate|discriminate] end.
Theorem grpc_states_are_those_of_the_request_partial : forall A (r : quaternion_request A) ys,
  well_sized (q_t r) (quaternion_lists r) -> from_grpc_quaternion A r = Ok ys ->
  forall c, map (fun y => get c (y_val y)) ys = get c (q_states r).
Proof.
  intros A r ys W H c. apply rows_inv in H as [L N].
  assert (List.length (get c (q_states r)) = List.length ys) as Lc.
  { rewrite L. destruct c; cbn [get]; eapply W; unfold quaternion_lists; cbn; tauto. }
  apply rows_column; [exact Lc|]. intros k y Hy. apply N in Hy. cbn [Nat.add] in Hy. columns Hy. injection Hy as <-. destruct c; cbn; assumption.
Qed.
Print Assumptions grpc_states_are_those_of_the_request_partial.
(** ...and, for requests with Euler angles, the attitudes: [to_quaternion] is the external conversion, of which it is required that
    the quaternion represents the rotation (yaw, then pitch, then roll). *)
Definition good_conversion (to_quaternion : Rdefinitions.R -> Rdefinitions.R -> Rdefinitions.R -> Rdefinitions.R * Rdefinitions.R * Rdefinitions.R * Rdefinitions.R) : Prop :=
  forall phi theta psi, let '(a, b, c, d) := to_quaternion phi theta psi in qmat a b c d = euler_matrix phi theta psi.
Definition attitude {aeqR} (y : ystate (Rarith aeqR)) : mat3 := qmat (s_qr (y_val y)) (s_qi (y_val y)) (s_qj (y_val y)) (s_qk (y_val y)).
Theorem grpc_euler_states_are_those_of_the_request_partial : forall aeqR to_quaternion (r : euler_request (Rarith aeqR)) ys,
  good_conversion to_quaternion -> well_sized (e_t r) (euler_lists r) -> from_grpc_euler (Rarith aeqR) to_quaternion r = Ok ys ->
  map (fun y => s_x (y_val y)) ys = e_x r /\ map (fun y => s_y (y_val y)) ys = e_y r /\ map (fun y => s_z (y_val y)) ys = e_z r /\
  map (fun y => s_u (y_val y)) ys = e_u r /\ map (fun y => s_v (y_val y)) ys = e_v r /\ map (fun y => s_w (y_val y)) ys = e_w r /\
  map (fun y => s_p (y_val y)) ys = e_p r /\ map (fun y => s_q (y_val y)) ys = e_q r /\ map (fun y => s_r (y_val y)) ys = e_r r /\
  forall k y phi theta psi, nth_error ys k = Some y -> nth_error (e_phi r) k = Some phi -> nth_error (e_theta r) k = Some theta ->
    nth_error (e_psi r) k = Some psi -> attitude y = euler_matrix phi theta psi.
Proof.
  intros aeqR tq r ys G W H. apply rows_inv in H as [L N]. 
  repeat match goal with |- _ /\ _ => split end;
    try (apply rows_column; [rewrite L; eapply W; unfold euler_lists; cbn; tauto|]; intros k y Hy; apply N in Hy; cbn [Nat.add] in Hy; columns Hy;
         destruct (tq _ _ _) as [[[qa qb] qc] qd]; injection Hy as <-; cbn; assumption).
  intros k y phi theta psi Hy Hf Ht Hs. apply N in Hy. cbn [Nat.add] in Hy. columns Hy. 
  repeat match goal with A1 : nth_error ?l k = Some ?a, A2 : nth_error ?l k = Some ?b |- _ => rewrite A1 in A2; injection A2 as -> end.
  pose proof (G phi theta psi) as Q. cbn [num Rarith] in *. destruct (tq phi theta psi) as [[[qa qb] qc] qd]. injection Hy as <-. exact Q.
Qed.
Print Assumptions grpc_euler_states_are_those_of_the_request_partial.
(** A conversion of the required kind: the half-angle formulas. *)
Definition half_angles (phi theta psi : Rdefinitions.R) : Rdefinitions.R * Rdefinitions.R * Rdefinitions.R * Rdefinitions.R :=
  (let cf := cos (phi / 2) in let sf := sin (phi / 2) in let ct := cos (theta / 2) in let st := sin (theta / 2) in
   let cs := cos (psi / 2) in let ss := sin (psi / 2) in
   (cf * ct * cs + sf * st * ss, sf * ct * cs - cf * st * ss, cf * st * cs + sf * ct * ss, cf * ct * ss - sf * st * cs))%R.
Example a_good_conversion : good_conversion half_angles.
Proof.
  intros f t s. unfold half_angles. rewrite euler_matrix_val.
  replace (cos f) with (cos (2 * (f / 2))) by (f_equal; field). replace (sin f) with (sin (2 * (f / 2))) by (f_equal; field).
  replace (cos t) with (cos (2 * (t / 2))) by (f_equal; field). replace (sin t) with (sin (2 * (t / 2))) by (f_equal; field).
  replace (cos s) with (cos (2 * (s / 2))) by (f_equal; field). replace (sin s) with (sin (2 * (s / 2))) by (f_equal; field).
  rewrite !sin_2a, !cos_2a.
  pose proof (sin2_cos2 (f / 2)) as Hf. pose proof (sin2_cos2 (t / 2)) as Ht. pose proof (sin2_cos2 (s / 2)) as Hs. unfold Rsqr in *.
  set (cf := cos (f / 2)) in *. set (sf := sin (f / 2)) in *. set (ct := cos (t / 2)) in *. set (st := sin (t / 2)) in *.
  set (cs := cos (s / 2)) in *. set (ss := sin (s / 2)) in *. clearbody cf sf ct st cs ss.
  assert (sf * sf = 1 - cf * cf)%R as Ef by lra. assert (st * st = 1 - ct * ct)%R as Et by lra. assert (ss * ss = 1 - cs * cs)%R as Es by lra.
  unfold qmat. apply mat_eq; cbn [r1 r2 r3]; apply vec_eq; cbn [vx vy vz]; ring [Ef Et Es].
Qed.
(** A request with two states. *)
Definition two_dates (aeqR : Z -> Rdefinitions.R -> Rdefinitions.R -> bool) : quaternion_request (Rarith aeqR) :=
  (let z := [0; 0] in mkReqQ (A := Rarith aeqR) (1/10) [99; 100] (mkStates z z z [1; 2] z z z z z [1; 1] z z z))%R.
Example two_dates_ok : forall aeqR, well_sized (q_t (two_dates aeqR)) (quaternion_lists (two_dates aeqR)).
Proof. intros aeqR name l H. cbn in H. repeat (destruct H as [H|H]; [injection H as <- <-; reflexivity|]). destruct H. Qed.

(** The dates are lost: the answers of the services do not depend on them. (Violation of C91.) *)
Theorem grpc_dates_refuted : forall A to_quaternion rates play deriv Tmax,
  (forall (r : quaternion_request A) t, List.length t = List.length (q_t r) ->
    step_quaternion A play Tmax (with_dates t r) = step_quaternion A play Tmax r /\
    dx_dt_quaternion A rates deriv Tmax (with_dates t r) = dx_dt_quaternion A rates deriv Tmax r) /\
  (forall (r : euler_request A) t, List.length t = List.length (e_t r) ->
    step_euler_321 A to_quaternion play Tmax (with_dates_e t r) = step_euler_321 A to_quaternion play Tmax r /\
    dx_dt_euler_321 A to_quaternion rates deriv Tmax (with_dates_e t r) = dx_dt_euler_321 A to_quaternion rates deriv Tmax r) /\
  (forall (r : quaternion_request A) ys, from_grpc_quaternion A r = Ok ys -> forall y, In y ys -> y_t y = zero A) /\
  (forall (r : euler_request A) ys, from_grpc_euler A to_quaternion r = Ok ys -> forall y, In y ys -> y_t y = zero A).
Proof.
  intros A tq rt play deriv Tmax. split; [|split; [|split]].
  - intros [Dt t0 s] t L. cbn [q_t] in L. unfold with_dates. cbn [q_Dt q_states].
    unfold step_quaternion, dx_dt_quaternion, check_states_size_quaternion, from_grpc_quaternion, CHECK_SIZE. cbn [q_t q_states q_Dt]. rewrite L. split; reflexivity.
  - intros [Dt t0 x y z u v w p q r f th s] t L. cbn [e_t] in L. unfold with_dates_e. cbn.
    unfold step_euler_321, dx_dt_euler_321, check_states_size_euler, from_grpc_euler, CHECK_SIZE. cbn. rewrite L. split; reflexivity.
  - intros r ys H y Hy. apply rows_inv in H as [_ N]. apply In_nth_error in Hy as [k Hk]. apply N in Hk. columns Hk. injection Hk as <-. reflexivity.
  - intros r ys H y Hy. apply rows_inv in H as [_ N]. apply In_nth_error in Hy as [k Hk]. apply N in Hk. columns Hk. destruct (tq _ _ _) as [[[a b] c] d]. injection Hk as <-. reflexivity.
Qed.
Print Assumptions grpc_dates_refuted.

(** Consequence: whatever the past states of the request, the history given to the force models has at most one point. *)
Section Lost.
Variable aeqR : Z -> Rdefinitions.R -> Rdefinitions.R -> bool.
Hypothesis aeqR_refl : forall n x, aeqR n x x = true.
Notation A := (Rarith aeqR).
Lemma lt00 : Rltb 0 0 = false. Proof. apply Rltb_false. lra. Qed.
Lemma finish0 : forall T l0 v, (0 <= T)%R -> l0 = [] \/ (exists a, l0 = [(0, a)]%R) ->
  bindO (add_value_to_history A (update_oldest_recorded_instant A (mkHist (A := A) T l0 0%R) 0%R) 0%R v) (shift_oldest_recorded_instant_if_necessary A)
  = Ok (mkHist (A := A) T [(0, v)]%R 0%R).
Proof.
  intros T l0 v HT H.
  assert (shift_oldest_recorded_instant_if_necessary A (mkHist (A := A) T [(0, v)]%R 0%R) = Ok (mkHist (A := A) T [(0, v)]%R 0%R)) as E.
  { unfold shift_oldest_recorded_instant_if_necessary, get_current_time, ge. cbn [L last fst oldest Tmax lt sub Rarith]. rewrite Rminus_0_r.
    destruct (Rltb 0 T) eqn:E; [reflexivity|]. cbn [negb]. apply Rltb_false in E. assert (T = 0)%R as -> by lra. rewrite Rminus_0_r.
    unfold interpolate_value_in_interval, find_braketing_position, ge. cbn [length Nat.leb Nat.eqb orb mapO at_ub nth_error bindO last fst lt Rarith]. rewrite lt00. cbn [negb skipn].
    cbn [bindO skipn fst aeq Rarith]. rewrite aeqR_refl. reflexivity. }
  assert (update_oldest_recorded_instant A (mkHist (A := A) T l0 0%R) 0%R = mkHist (A := A) T l0 0%R) as ->.
  { unfold update_oldest_recorded_instant, minn. cbn [L Tmax oldest lt Rarith]. destruct l0; rewrite lt00; reflexivity. }
  unfold add_value_to_history. cbn [L Tmax oldest]. destruct H as [->|[a ->]].
  - unfold find_braketing_position. cbn [bindO length Nat.eqb firstn skipn app]. exact E.
  - unfold find_braketing_position, ge. cbn [last fst lt Rarith]. rewrite lt00. cbn [negb bindO length Nat.eqb at_ub nth_error fst aeq Rarith]. rewrite aeqR_refl.
    cbn [set_nth bindO]. exact E.
Qed.
Lemma record_at_0 : forall (h : hist A) (v : Rdefinitions.R), (0 <= Tmax h)%R -> oldest h = 0%R -> L h = [] \/ (exists a, L h = [(0, a)]%R) ->
  record A h 0%R v = Returned (mkHist (A := A) (Tmax h) [(0, v)]%R 0%R).
Proof.
  intros [T l o] v HT E2 H. cbn [Tmax oldest L] in *. subst o. unfold record. cbn [L].
  pose proof (finish0 T l v HT H) as F. destruct H as [->|[a ->]].
  - rewrite F. reflexivity.
  - cbn [last fst aeq lt Rarith]. rewrite aeqR_refl, lt00, F. reflexivity.
Qed.
Definition one_point (recs : list (Rdefinitions.R * Rdefinitions.R)) (l0 : list (Rdefinitions.R * Rdefinitions.R)) : list (Rdefinitions.R * Rdefinitions.R) :=
  match recs with [] => l0 | p :: _ => [(0%R, snd (last recs p))] end.
Lemma run_at_0 : forall (recs : list (Rdefinitions.R * Rdefinitions.R)) (h : hist A), (0 <= Tmax h)%R -> oldest h = 0%R -> L h = [] \/ (exists a, L h = [(0, a)]%R) ->
  (forall p, In p recs -> fst p = 0%R) ->
  exists h' : hist A, run1 A h recs = Returned h' /\ L h' = one_point recs (L h).
Proof.
  induction recs as [|[t v] recs IH]; intros h HT E2 H Z0; cbn [run1].
  - exists h. auto.
  - pose proof (Z0 _ (or_introl eq_refl)) as Ht. cbn in Ht. subst t. rewrite (record_at_0 h v HT E2 H).
    destruct (IH (mkHist (A := A) (Tmax h) [(0, v)]%R 0%R)) as (h' & -> & K); auto.
    + right. exists v. reflexivity.
    + intros p Hp. apply Z0. right. exact Hp.
    + exists h'. split; [reflexivity|]. rewrite K. unfold one_point. destruct recs as [|p recs]; [reflexivity|]. cbn [last]. destruct recs; [reflexivity|]. do 2 f_equal.
      f_equal. clear. generalize p0. clear. induction recs as [|q recs IH]; intros q0; [reflexivity|]. exact (IH q).
Qed.
Lemma all_at_0 : forall T (ys : list (ystate A)), (0 <= T)%R -> (forall y, In y ys -> y_t y = 0%R) ->
  exists s, record_all A (new_state A T) ys = Ok s /\ forall c, L (get c s) = one_point (series A c ys) [].
Proof.
  intros T ys HT Z0.
  assert (forall c p, In p (series A c ys) -> fst p = 0%R) as Zc.
  { intros c p Hp. apply in_map_iff in Hp as (y & <- & Hy). exact (Z0 y Hy). }
  pose proof (record_all_cases A ys (new_state A T) (synced_new A T)) as K.
  destruct (run_at_0 (series A X ys) (new_history A T) HT eq_refl (or_introl eq_refl) (Zc X)) as (h & E & _).
  change (s_x (new_state A T)) with (new_history A T) in K. rewrite E in K. destruct K as [s Es]. exists s. split; [exact Es|]. intros c.
  pose proof (record_all_run A ys _ _ Es c) as Rc. rewrite new_synced in Rc.
  destruct (run_at_0 (series A c ys) (new_history A T) HT eq_refl (or_introl eq_refl) (Zc c)) as (h' & E' & L').
  rewrite Rc in E'. injection E' as ->. exact L'.
Qed.
(** Whatever the request (sizes consistent), the simulator starts from its last state, at the date zero, and every force model
    sees a past of at most one point, at the date zero. (Violation of C91.) *)
Definition forgetful (ys : list (ystate A)) (Dt T : Rdefinitions.R) : Prop :=
  exists i, make_server_inputs A Dt T ys = Ok i /\ in_t i = 0%R /\ in_Dt i = Dt /\
    (forall c, match rev ys with
      | [] => L (get c (history_except_last i)) = [] /\ L (get c (full_history i)) = []
      | [back] => L (get c (history_except_last i)) = [] /\ L (get c (full_history i)) = [(0%R, get c (y_val back))]
      | back :: previous :: _ => L (get c (history_except_last i)) = [(0%R, get c (y_val previous))] /\
                                 L (get c (full_history i)) = [(0%R, get c (y_val back))]
      end).
Lemma one_point_last : forall c ys y, one_point (series A c (ys ++ [y])) [] = [(0%R, get c (y_val y))].
Proof.
  intros c ys y. unfold series. rewrite map_app. cbn [map]. unfold one_point.
  destruct (map (fun y0 : ystate A => (y_t y0, get c (y_val y0))) ys ++ [(y_t y, get c (y_val y))]) eqn:E; [destruct ys; discriminate|].
  rewrite <- E, last_last. reflexivity.
Qed.
Lemma zero_dates_forget : forall (ys : list (ystate A)) (Dt T : Rdefinitions.R), (0 <= T)%R -> (forall y, In y ys -> y_t y = 0%R) -> forgetful ys Dt T.
Proof.
  intros ys Dt T HT Z0. destruct ys as [|back ys _] using rev_ind.
  - eexists. split; [reflexivity|]. split; [reflexivity|]. split; [reflexivity|]. intros c. cbn [rev]. destruct c; split; reflexivity.
  - destruct (all_at_0 T ys HT) as (s1 & E1 & L1); [intros y Hy; apply Z0, in_or_app; left; exact Hy|].
    destruct (all_at_0 T (ys ++ [back]) HT Z0) as (s2 & E2 & L2).
    exists (mkInputs (y_t back) Dt (vector (y_val back)) s1 s2). split; [rewrite make_inputs_cases, E1; cbn [bindO]; rewrite E2; reflexivity|].
    split; [apply Z0, in_or_app; right; left; reflexivity|]. split; [reflexivity|]. intros c. rewrite rev_app_distr. cbn [rev app history_except_last full_history].
    destruct ys as [|previous ys _] using rev_ind; [cbn [rev]; rewrite L1, L2; split; reflexivity|]. rewrite rev_app_distr. cbn [rev app].
    rewrite L1, L2. split; apply one_point_last.
Qed.
End Lost.
Theorem grpc_history_is_lost_refuted : forall aeqR, (forall n x, aeqR n x x = true) -> forall to_quaternion Tmax Dt, (0 <= Tmax)%R ->
  (forall (r : quaternion_request (Rarith aeqR)) ys, from_grpc_quaternion (Rarith aeqR) r = Ok ys -> forgetful aeqR ys Dt Tmax) /\
  (forall (r : euler_request (Rarith aeqR)) ys, from_grpc_euler (Rarith aeqR) to_quaternion r = Ok ys -> forgetful aeqR ys Dt Tmax).
Proof.
  intros aeqR Rf tq T Dt HT.
  destruct (grpc_dates_refuted (Rarith aeqR) tq (fun _ x => x) (fun _ => Throw) (fun _ => Throw) T) as (_ & _ & Hq & He).
  split; intros r ys H; apply zero_dates_forget; auto; intros y Hy; [exact (Hq r ys H y Hy)|exact (He r ys H y Hy)].
Qed.
Print Assumptions grpc_history_is_lost_refuted.

(** A step of the simulator, over a request whose lists have consistent sizes, is given the requested duration and the last
    value of each list. *)
Definition last_values {A} (s : abs_states (list (num A))) : list (num A) := map (fun c => last (get c s) (zero A)) all_comps.
Theorem grpc_step_starts_from_the_last_values_partial : forall aeqR, (forall n x, aeqR n x x = true) -> forall T, (0 <= T)%R ->
  forall (r : quaternion_request (Rarith aeqR)) play, well_sized (q_t r) (quaternion_lists r) -> q_t r <> [] ->
  exists i, state_at_t i = last_values (q_states r) /\ in_Dt i = q_Dt r /\
    step_quaternion (Rarith aeqR) play T r =
      (if Rltb 0 (q_Dt r) then bindO (play i) (fun res => Ok (to_grpc_cs (Rarith aeqR) res)) else Throw).
Proof.
  intros aeqR Rf T HT r play W Ne. pose proof (grpc_dates_refuted (Rarith aeqR) (fun _ _ _ => (0,0,0,0)%R) (fun _ x => x) (fun _ => Throw) (fun _ => Throw) T) as (_ & _ & Hq & _).
  destruct (from_quaternion_ok _ r W) as (ys & E & Ln).
  pose proof (grpc_states_are_those_of_the_request_partial _ r ys W E) as C.
  destruct (zero_dates_forget aeqR Rf ys (q_Dt r) T HT (Hq r ys E)) as (i & Ei & _ & ED & _).
  exists i. split; [|split; [exact ED|]].
  - destruct ys as [|back ys _] using rev_ind; [destruct (q_t r); [congruence|discriminate]|].
    destruct (server_current_state_is_last_received _ _ _ _ _ _ Ei) as (_ & _ & ->). unfold vector, last_values. apply map_ext. intros c.
    rewrite <- C, map_app. cbn [map]. rewrite last_last. reflexivity.
  - unfold step_quaternion. rewrite check_quaternion, (proj2 (faulty_nil _ _ _ _) W). cbn [status_of]. rewrite E. cbn [bindO]. unfold play_one_step. rewrite Ei. cbn [bindO].
    rewrite ED. cbn [lt Rarith zero]. destruct (Rltb 0 (q_Dt r)); cbn [negb]; reflexivity.
Qed.
Print Assumptions grpc_step_starts_from_the_last_values_partial.

(** ** C92. The answer of a co-simulation step: all the states computed, in order, one list per state; and the last of them. *)
Definition out_lists {A} (a : all_states A) : list (list (num A)) :=
  [a_t a] ++ map (fun c => get c (a_val a)) all_comps ++ [a_phi a; a_theta a; a_psi a].
Definition out_values {A} (o : out_state A) : list (num A) :=
  [y_t (o_y o)] ++ map (fun c => get c (y_val (o_y o))) all_comps ++ [o_phi o; o_theta o; o_psi o].
Lemma add_states : forall A (res : list (out_state A)) a,
  let b := fold_left (add_state A) res a in
  a_t b = a_t a ++ map (fun o => y_t (o_y o)) res /\ (forall c, get c (a_val b) = get c (a_val a) ++ map (fun o => get c (y_val (o_y o))) res) /\
  a_phi b = a_phi a ++ map o_phi res /\ a_theta b = a_theta a ++ map o_theta res /\ a_psi b = a_psi a ++ map o_psi res.
Proof.
  intros A. induction res as [|o res IH]; intros a; cbn [fold_left map].
  - cbn. rewrite !app_nil_r. split; [|split]; auto. intros c. rewrite app_nil_r. reflexivity.
  - destruct (IH (add_state A a o)) as (E1 & E2 & E3 & E4 & E5). cbv zeta. rewrite E1, E3, E4, E5.
    split; [|split; [|split; [|split]]]; try (cbn; rewrite <- app_assoc; reflexivity). intros c. rewrite E2. destruct c; cbn; rewrite <- app_assoc; reflexivity.
Qed.
Theorem grpc_answers_hold_every_computed_state : forall A (res : list (out_state A)),
  match to_grpc_cs A res with
  | (StOk, Some answer) => exists before, res = before ++ [cs_last answer] /\
      forall k, (k < 17)%nat -> exists l, nth_error (out_lists (cs_all answer)) k = Some l /\
        map Some l = map (fun o => nth_error (out_values o) k) res
  | (StInternal, None) => res = []
  | _ => False
  end.
Proof.
  intros A res. unfold to_grpc_cs. destruct res as [|o res']; [reflexivity|]. cbn [cs_last cs_all].
  assert (exists before back, o :: res' = before ++ [back]) as (before & back & E) by (exists (removelast (o :: res')), (last (o :: res') o); apply app_removelast_last; discriminate).
  rewrite E. exists before. rewrite last_last. split; [reflexivity|].
  destruct (add_states A (before ++ [back]) (no_states A)) as (E1 & E2 & E3 & E4 & E5). intros k Hk. unfold out_lists, out_values.
  cbn [all_comps map app]. rewrite E1, E3, E4, E5. rewrite !E2.
  do 17 (destruct k as [|k]; [cbn [nth_error]; eexists; split; [reflexivity|]; destruct (before ++ [back]) as [|b0 bs]; cbn; [reflexivity|]; f_equal; rewrite map_map; reflexivity|]).
  lia.
Qed.
Print Assumptions grpc_answers_hold_every_computed_state.
Example an_answer : forall aeqR, exists answer,
  to_grpc_cs (Rarith aeqR) (map (fun x => mkOut (A := Rarith aeqR) (mkY (A := Rarith aeqR) x (mkStates x x x x x x x x x x x x x)) 1 2 3)%R [4; 5; 6]%R) = (StOk, Some answer) /\ a_t (cs_all answer) = [4; 5; 6]%R /\ s_qk (a_val (cs_all answer)) = [4; 5; 6]%R.
Proof. intros aeqR. eexists. split; [reflexivity|]. split; reflexivity. Qed.

(** ** C93. The model exchange service. With Euler angles: the thirteen derivatives computed by the simulator, in order, and the
    rates of the Euler angles at the last state (see [euler_rates_are_the_derivatives] for what they are)... *)
Definition thirteen {X} (l : list X) : Prop := List.length l = 13%nat.
Theorem grpc_euler_derivatives_partial : forall aeqR, (forall n x, aeqR n x x = true) -> forall T, (0 <= T)%R ->
  forall to_quaternion rates (r : euler_request (Rarith aeqR)) deriv ys back, well_sized (e_t r) (euler_lists r) ->
  from_grpc_euler (Rarith aeqR) to_quaternion r = Ok (ys ++ [back]) ->
  exists i, state_at_t i = vector (y_val back) /\
  forall out, deriv i = Ok out ->
    let v := y_val back in
    let rate := rates (s_qr v, s_qi v, s_qj v, s_qk v) (s_p v, s_q v, s_r v) in
    dx_dt_euler_321 (Rarith aeqR) to_quaternion rates deriv T r =
      if Nat.eqb (List.length out) 13 then
        Ok (StOk, Some (mkME (A := Rarith aeqR) 0%R (mkStates (nth 0 out 0) (nth 1 out 0) (nth 2 out 0) (nth 3 out 0) (nth 4 out 0) (nth 5 out 0) (nth 6 out 0)
              (nth 7 out 0) (nth 8 out 0) (nth 9 out 0) (nth 10 out 0) (nth 11 out 0) (nth 12 out 0))%R (fst (fst rate)) (snd (fst rate)) (snd rate)))
      else Ok (StInternal, None).
Proof.
  intros aeqR Rf T HT tq rates r deriv ys back W E.
  pose proof (grpc_dates_refuted (Rarith aeqR) tq (fun _ x => x) (fun _ => Throw) (fun _ => Throw) T) as (_ & _ & _ & He).
  destruct (zero_dates_forget aeqR Rf _ 0%R T HT (He r _ E)) as (i & Ei & Et & _ & _).
  destruct (server_current_state_is_last_received _ _ _ _ _ _ Ei) as (_ & _ & Es). exists i. split; [exact Es|].
  intros out Eo. cbv zeta. unfold dx_dt_euler_321. rewrite check_euler, (proj2 (faulty_nil _ _ _ _) W). cbn [status_of]. rewrite E. cbn [bindO].
  change (zero (Rarith aeqR)) with 0%R. rewrite Ei. cbn [bindO]. rewrite Eo. cbn [bindO].
  do 14 (destruct out as [|? out]; [first [reflexivity|unfold to_grpc_me, get_euler_derivative; rewrite Es, Et; cbn; reflexivity]|]). reflexivity.
Qed.
Print Assumptions grpc_euler_derivatives_partial.
(** ...but at the date zero (above), and a request without any state is answered as if the body were at rest at the origin with the
    null quaternion; while the same request with quaternions is refused. (Violations of C93.) *)
Theorem grpc_empty_request_refuted : forall A to_quaternion rates deriv T Dt,
  dx_dt_euler_321 A to_quaternion rates deriv T (mkReqE Dt [] [] [] [] [] [] [] [] [] [] [] [] []) =
    (do i <- make_server_inputs A (zero A) T [] ; do out <- deriv i ; to_grpc_me A rates out i) /\
  (exists i, make_server_inputs A (zero A) T [] = Ok i /\ state_at_t i = repeat (zero A) 13) /\
  dx_dt_quaternion A rates deriv T (mkReqQ Dt [] (mkStates [] [] [] [] [] [] [] [] [] [] [] [] [])) = Ok (StInternal, None).
Proof. intros A tq rates deriv T Dt. split; [reflexivity|split; [eexists; split; reflexivity|reflexivity]]. Qed.
Print Assumptions grpc_empty_request_refuted.
(** With quaternions: every request for which the simulator computes the thirteen derivatives makes the service read outside of
    an empty array. (Violation of C93.) *)
Theorem grpc_quaternion_derivatives_refuted : forall aeqR, (forall n x, aeqR n x x = true) -> forall T, (0 <= T)%R ->
  forall rates (r : quaternion_request (Rarith aeqR)) deriv, well_sized (q_t r) (quaternion_lists r) -> q_t r <> [] ->
  (forall i, exists out, deriv i = Ok out /\ thirteen out) ->
  dx_dt_quaternion (Rarith aeqR) rates deriv T r = UB.
Proof.
  intros aeqR Rf T HT rates r deriv W Ne D.
  pose proof (grpc_dates_refuted (Rarith aeqR) (fun _ _ _ => (0,0,0,0)%R) (fun _ x => x) (fun _ => Throw) (fun _ => Throw) T) as (_ & _ & Hq & _).
  destruct (from_quaternion_ok _ r W) as (ys & E & Ln).
  destruct (zero_dates_forget aeqR Rf ys 0%R T HT (Hq r ys E)) as (i & Ei & _).
  unfold dx_dt_quaternion. rewrite check_quaternion, (proj2 (faulty_nil _ _ _ _) W). cbn [status_of]. rewrite E. cbn [bindO].
  destruct ys as [|y0 ys]; [destruct (q_t r); [congruence|discriminate]|]. change (zero (Rarith aeqR)) with 0%R. rewrite Ei. cbn [bindO].
  destruct (D i) as (out & -> & L13). cbn [bindO]. unfold thirteen in L13.
  do 13 (destruct out as [|? out]; [discriminate|]). destruct out; [|discriminate]. reflexivity.
Qed.
Print Assumptions grpc_quaternion_derivatives_refuted.
Example the_service_reads_outside : forall aeqR, (forall n x, aeqR n x x = true) ->
  dx_dt_quaternion (Rarith aeqR) (fun _ x => x) (fun _ => Ok (repeat 0%R 13)) 10%R (two_dates aeqR) = UB.
Proof.
  intros aeqR Rf. apply grpc_quaternion_derivatives_refuted; auto; [lra|apply two_dates_ok|discriminate|].
  intros i. exists (repeat 0%R 13). split; reflexivity.
Qed.
