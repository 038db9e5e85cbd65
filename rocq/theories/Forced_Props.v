(** Bodies whose velocities are forced: what sees the forced values. *)
From Coq Require Import ZArith List Bool Reals Lra Lia.
From Verif Require Import Common Blocked_Model Blocked_Spec Blocked_Proofs Sim_Model Sim_Spec Sim_Proofs Sim_Props Forced_Model.
Import ListNotations.
Open Scope R_scope.

(** State k of the only body. *)
Definition st (x : list R) (k : nat) : R := nth k x 0.

(** States [k] to [k + n - 1] of body [i]. *)
Definition states_from (x : list R) (i k n : nat) : list R := firstn n (skipn (13 * i + k) x).
Lemma velocities_are : forall x i, velocities x i = states_from x i 3 6.
Proof. intros. unfold velocities, states_from, UIDX, NB_OF_STATES_PER_BODY. do 2 f_equal. lia. Qed.
Lemma quaternion_is : forall x i, quaternion x i = states_from x i 9 4.
Proof. intros. unfold quaternion, states_from, QRIDX, NB_OF_STATES_PER_BODY. do 2 f_equal. lia. Qed.
Lemma body_states_are : forall x i, body_states x i = states_from x i 0 13.
Proof. intros. unfold body_states, states_from, XIDX, NB_OF_STATES_PER_BODY. do 2 f_equal. lia. Qed.
Section Forced.
Variable Itp : Type.
Variable itp_f itp_df : Itp -> R -> outcome R.
Variable coriolis : list R -> vec.
Variable forces : list R -> R -> vec.
Variable rotation : list R -> mat.
Notation derivative := (derivative Itp itp_f itp_df coriolis forces rotation).
Notation run := (run Itp itp_f itp_df coriolis forces rotation).

(** The states a table forces at this date. *)
Definition forced_now (b : blocked R Itp) (s : bstate) (t : R) (i : Itp) : Prop :=
  b_dof b s = Some i /\ state_is_blocked_at_that_date Rltb b s t = true.

(** ** C167. What sees the forced values: the force models do; the Coriolis and centripetal efforts, the derivative of the
    position and that of the attitude do not: they use the velocities of the state vector [x]. *)
Theorem forced_values_seen_partial : forall b x dx t dx', b_idx (bd_blocked b) = bd_idx b -> derivative b x dx t = Ok dx' ->
  exists xf, force_states Rltb itp_f (bd_blocked b) x t = Ok xf /\
  let F := fun k => coriolis (states_from x (bd_idx b) 3 6) k + forces (states_from xf (bd_idx b) 0 13) t k in
  let free := free_derivative b F (rotation (states_from x (bd_idx b) 9 4)) x in
  (forall k, (k < 3 \/ 9 <= k < 13)%nat -> nth_error dx' (13 * bd_idx b + k) = nth_error free k) /\
  (forall s, (forall i, ~ forced_now (bd_blocked b) s t i) -> nth_error dx' (slot (bd_idx b) s) = nth_error free (rank s)) /\
  (forall s i, forced_now (bd_blocked b) s t i -> exists v, itp_df i t = Ok v /\ nth_error dx' (slot (bd_idx b) s) = Some v).
Proof.
  intros b x dx t dx' EI H. unfold Forced_Model.derivative in H. cbv zeta in H. rewrite velocities_are, quaternion_is in H.
  destruct (force_states Rltb itp_f (bd_blocked b) x t) as [xf| |] eqn:E; [|discriminate|discriminate]. cbn [bindO] in H. rewrite body_states_are in H.
  exists xf. split; [reflexivity|]. cbv zeta. apply calc_inv in H. destruct H as (dx1 & Fd & L & V & _).
  unfold force_state_derivatives in Fd. apply force_loop_spec in Fd; [|apply all_states_NoDup]. destruct Fd as (L' & O & Y).
  split; [|split].
  - intros k Hk. rewrite O; [apply V; lia|]. intros s _ _ _. rewrite slot_state_index, EI. unfold slot, rank. destruct s; lia.
  - intros s N. rewrite O.
    + unfold slot. apply V. unfold rank. destruct s; lia.
    + intros s' _ D Bl. rewrite slot_state_index, EI. intros Es. apply slot_inj in Es. destruct Es as [_ ->].
      destruct (b_dof (bd_blocked b) s') as [i|] eqn:Ei; [|congruence]. apply (N i). split; assumption.
  - intros s i [D Bl]. destruct (Y s i (all_states_complete s) D Bl) as (v & Ev & En). exists v. split; [exact Ev|].
    now rewrite slot_state_index, EI in En.
Qed.

(** If the state vector already has the forced values, everything sees them. *)
Theorem forced_values_seen_when_up_to_date_partial : forall b x dx t dx', b_idx (bd_blocked b) = bd_idx b ->
  force_states Rltb itp_f (bd_blocked b) x t = Ok x -> derivative b x dx t = Ok dx' ->
  let F := fun k => coriolis (states_from x (bd_idx b) 3 6) k + forces (states_from x (bd_idx b) 0 13) t k in
  forall k, (k < 3 \/ 9 <= k < 13)%nat ->
  nth_error dx' (13 * bd_idx b + k) = nth_error (free_derivative b F (rotation (states_from x (bd_idx b) 9 4)) x) k.
Proof.
  intros b x dx t dx' EI E H. destruct (forced_values_seen_partial b x dx t dx' EI H) as (xf & E' & A & _). assert (xf = x) by congruence. subst xf. exact A.
Qed.

(** One step of the loops, for a single body. *)
Lemma euler_nth : forall dt x dx k a d, nth_error x k = Some a -> nth_error dx k = Some d -> nth_error (euler dt x dx) k = Some (a + dt * d).
Proof.
  intros dt x dx k a d. unfold euler. revert dx k. induction x as [|x0 x IH]; intros [|d0 dx] [|k]; cbn; try discriminate.
  - intros H1 H2. congruence.
  - apply IH.
Qed.
Lemma euler_length : forall dt x dx, List.length dx = List.length x -> List.length (euler dt x dx) = List.length x.
Proof. intros dt x dx H. unfold euler. rewrite map_length, combine_length. lia. Qed.
Lemma derivative_length : forall b x dx t dx', derivative b x dx t = Ok dx' -> List.length dx' = List.length dx.
Proof.
  intros b x dx t dx' H. unfold Forced_Model.derivative in H. destruct (force_states Rltb itp_f (bd_blocked b) x t); [|discriminate|discriminate].
  cbn [bindO] in H. apply calc_inv in H. destruct H as (dx1 & Fd & L & _). unfold force_state_derivatives in Fd.
  apply force_loop_spec in Fd; [|apply all_states_NoDup]. destruct Fd as (L' & _). congruence.
Qed.
Lemma st_nth : forall x k, (k < List.length x)%nat -> nth_error x k = Some (st x k).
Proof. intros x k H. apply nth_error_nth'. exact H. Qed.
Lemma st_of : forall x k v, nth_error x k = Some v -> st x k = v.
Proof. intros x k v H. unfold st. now apply nth_error_nth. Qed.

(** Main program: a forced velocity is integrated from its initial value, whatever the value requested: after n steps it is
    the initial value plus the sum of the increments given by the derivative of the table. *)
Fixpoint increments (f : R -> R) (n : nat) (t dt : R) : R :=
  match n with O => 0 | S n' => dt * f t + increments f n' (t + dt) dt end.
Theorem main_program_integrates_forced_velocities_partial : forall b s i df, bd_idx b = 0%nat -> b_idx (bd_blocked b) = 0%nat -> forall n x t dt x',
  List.length x = 13%nat -> run false b n x t dt = Ok x' ->
  (forall k, (k < n)%nat -> forced_now (bd_blocked b) s (t + INR k * dt) i /\ itp_df i (t + INR k * dt) = Ok (df (t + INR k * dt))) ->
  st x' (rank s) = st x (rank s) + increments df n t dt.
Proof.
  intros b s i df Ib Ib'. induction n as [|n IH]; intros x t dt x' L H B; cbn [Forced_Model.run increments] in *.
  - injection H as <-. lra.
  - destruct (derivative b x (repeat 0 (List.length x)) t) as [dx| |] eqn:E; [|discriminate|discriminate]. cbn [bindO] in H.
    pose proof (derivative_length _ _ _ _ _ E) as Ld. rewrite repeat_length in Ld.
    destruct (B 0%nat ltac:(lia)) as [B0 B0']. replace (t + INR 0 * dt) with t in B0, B0' by (cbn; lra).
    apply forced_values_seen_partial in E; [|congruence]. destruct E as (xf & _ & _ & _ & Y). destruct (Y s i B0) as (v & Ev & En).
    rewrite Ib in En. assert (slot 0 s = rank s) as Es by (unfold slot; lia). rewrite Es in En.
    assert (v = df t) by congruence. subst v.
    assert (nth_error (euler dt x dx) (rank s) = Some (st x (rank s) + dt * df t)) as Ee.
    { apply euler_nth; [|exact En]. apply st_nth. rewrite L. destruct s; cbn; lia. }
    rewrite (IH _ _ _ _ (eq_trans (euler_length dt x dx Ld) L) H).
    + rewrite (st_of _ _ _ Ee). lra.
    + intros k Hk. destruct (B (S k) ltac:(lia)) as [Bk Bk']. rewrite S_INR in Bk, Bk'. replace (t + dt + INR k * dt) with (t + (INR k + 1) * dt) by lra. split; assumption.
Qed.

(** Library and servers: after each step a forced velocity has the value of its table at the beginning of the step. *)
Theorem library_forces_velocities_late_partial : forall b s i, bd_idx b = 0%nat -> b_idx (bd_blocked b) = 0%nat -> forall n x t dt x',
  run true b (S n) x t dt = Ok x' -> forced_now (bd_blocked b) s (t + INR n * dt) i ->
  exists v, itp_f i (t + INR n * dt) = Ok v /\ st x' (rank s) = v.
Proof.
  intros b s i Ib Ib'. induction n as [|n IH]; intros x t dt x' H B.
  - cbn [Forced_Model.run] in H. destruct (derivative b x _ t) as [dx| |]; [|discriminate|discriminate]. cbn [bindO] in H.
    destruct (force_states Rltb itp_f (bd_blocked b) (euler dt x dx) t) as [x2| |] eqn:E; [|discriminate|discriminate]. cbn [bindO] in H. injection H as <-.
    cbn [INR] in *. replace (t + 0 * dt) with t in * by lra. destruct B as [D Bl].
    unfold force_states in E. apply force_loop_spec in E; [|apply all_states_NoDup]. destruct E as (_ & _ & Y).
    destruct (Y s i (all_states_complete s) D Bl) as (v & Ev & En). exists v. split; [exact Ev|]. apply st_of.
    rewrite slot_state_index, Ib' in En. replace (slot 0 s) with (rank s) in En by (unfold slot; lia). exact En.
  - cbn [Forced_Model.run] in H. destruct (derivative b x _ t) as [dx| |]; [|discriminate|discriminate]. cbn [bindO] in H.
    destruct (force_states Rltb itp_f (bd_blocked b) (euler dt x dx) t) as [x2| |] eqn:E; [|discriminate|discriminate]. cbn [bindO] in H.
    rewrite S_INR in B |- *. replace (t + (INR n + 1) * dt) with (t + dt + INR n * dt) in * by lra. exact (IH _ _ _ _ H B).
Qed.

End Forced.
Print Assumptions forced_values_seen_partial.
Print Assumptions forced_values_seen_when_up_to_date_partial.
Print Assumptions main_program_integrates_forced_velocities_partial.
Print Assumptions library_forces_velocities_late_partial.

(** A ship at rest whose velocity u is forced to be 1 at every date from 0 to 100: in the main program it never moves. *)
Definition blocked_u : blocked R R := mkBlocked (mset mempty SU 1) 0 (mset mempty SU 0) (mset mempty SU 100).
Definition rest : list R := [0; 0; 0; 0; 0; 0; 0; 0; 0; 1; 0; 0; 0].
Definition nothing (l : list R) : vec := fun _ => 0.
Definition nothing_t (l : list R) (t : R) : vec := fun _ => 0.
Definition eye (l : list R) : mat := id6.
Lemma blocked_u_built : make_blocked Rltb rbuild rcsv (mkInput [mkTable SU [0; 100] [1; 1] PIECEWISE_CONSTANT] []) 0 = Ok blocked_u.
Proof. cbn. unfold min_element, max_element. cbn. repeat match goal with |- context [Rltb ?a ?b] => unfold Rltb at 1; destruct (Rlt_dec a b); try lra end. reflexivity. Qed.

Lemma rest_derivative : forall t, 0 <= t <= 100 ->
  exists dx, derivative R rf rdf nothing nothing_t eye (ship 0 blocked_u) rest (repeat 0 13) t = Ok dx /\ dx = repeat 0 13.
Proof.
  intros t B. unfold derivative, force_states, calculate_state_derivatives, force_state_derivatives, all_states, ship, bd_blocked, bd_idx, force_loop.
  unfold state_is_blocked_at_that_date. cbn. unfold le.
  repeat match goal with |- context [Rltb ?a ?b] => unfold Rltb at 1; destruct (Rlt_dec a b); try lra end. cbn.
  eexists. split; [reflexivity|]. unfold mul6, sum6, mul3, sum3, nothing, nothing_t, eye, id6. cbn. repeat f_equal; lra.
Qed.
Theorem forced_ship_does_not_move_refuted : forall n, (n <= 100)%nat ->
  run R rf rdf nothing nothing_t eye false (ship 0 blocked_u) n rest 0 1 = Ok rest /\ st rest 0 = 0.
Proof.
  assert (forall n t, 0 <= t -> t + INR n <= 101 -> run R rf rdf nothing nothing_t eye false (ship 0 blocked_u) n rest t 1 = Ok rest) as H.
  { induction n as [|n IH]; intros t T Tn; [reflexivity|]. rewrite S_INR in Tn. cbn [run]. pose proof (pos_INR n).
    destruct (rest_derivative t ltac:(lra)) as (dx & E & ->). change (repeat 0 (List.length rest)) with (repeat 0 13). rewrite E. cbn [bindO].
    assert (euler 1 rest (repeat 0 13) = rest) as ->.
    { unfold euler, rest. cbn. repeat f_equal; lra. }
    apply IH; lra. }
  intros n L. split; [|reflexivity]. apply H; [lra|]. apply le_INR in L. replace (INR 100) with 100 in L by (rewrite INR_IZR_INZ; reflexivity). lra.
Qed.
Print Assumptions forced_ship_does_not_move_refuted.
(** The hypotheses of the theorem on the main program are met by this ship. *)
Example forced_now_witness : forall t, 0 <= t <= 100 -> forced_now R blocked_u SU t 1 /\ rdf 1 t = Ok 0.
Proof.
  intros t T. split; [|reflexivity]. split; [reflexivity|]. unfold state_is_blocked_at_that_date. cbn. unfold le.
  repeat match goal with |- context [Rltb ?a ?b] => unfold Rltb at 1; destruct (Rlt_dec a b); try lra end.
Qed.
(** With the library the ship starts to move at the second step. *)
Theorem library_ship_moves_late_refuted : exists x1 x2,
  run R rf rdf nothing nothing_t eye true (ship 0 blocked_u) 1 rest 0 1 = Ok x1 /\ st x1 0 = 0 /\
  run R rf rdf nothing nothing_t eye true (ship 0 blocked_u) 2 rest 0 1 = Ok x2 /\ st x2 0 = 1.
Proof.
  unfold run, derivative, force_states, calculate_state_derivatives, force_state_derivatives, all_states, ship, bd_blocked, bd_idx, force_loop.
  unfold state_is_blocked_at_that_date. cbn. unfold le.
  repeat match goal with |- context [Rltb ?a ?b] => unfold Rltb at 1; destruct (Rlt_dec a b); try lra end. cbn. unfold le.
  repeat match goal with |- context [Rltb ?a ?b] => unfold Rltb at 1; destruct (Rlt_dec a b); try lra end. cbn.
  do 2 eexists. split; [reflexivity|]. split; [|split; [reflexivity|]]; unfold st, mul3, sum3, eye, id6; cbn; lra.
Qed.
Print Assumptions library_ship_moves_late_refuted.
