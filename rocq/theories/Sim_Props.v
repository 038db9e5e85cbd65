(** Properties C17-C25: state vector, forced states, quaternions, time loop. *)
From Coq Require Import ZArith List Bool Lia Reals Lra String.
From Verif Require Import Common Blocked_Model Blocked_Spec Blocked_Proofs Sim_Model Sim_Spec Sim_Proofs.
Import ListNotations.
Open Scope R_scope.

(** ** C21. Slots of the state vector. *)
Theorem state_slots_are_distinct : forall i j,
  let slots i := [XIDX i; YIDX i; ZIDX i; UIDX i; VIDX i; WIDX i; PIDX i; QIDX i; RIDX i; QRIDX i; QIIDX i; QJIDX i; QKIDX i] in
  forall k l a, nth_error (slots i) k = Some a -> nth_error (slots j) l = Some a -> i = j /\ k = l.
Proof.
  intros i j slots k l a Hk Hl.
  assert (forall i k a, nth_error (slots i) k = Some a -> (k < 13 /\ a = 13 * i + k)%nat) as E.
  { clear. intros i k a H. unfold slots in H. idx.
    do 13 (destruct k as [|k]; [cbn in H; injection H as <-; split; lia|]). destruct k; discriminate. }
  apply E in Hk as (? & ?). apply E in Hl as (? & ?). lia.
Qed.
Print Assumptions state_slots_are_distinct.

(** The derivative of the state vector is made of the derivatives of each body, as if it were alone. *)
Theorem bodies_do_not_interfere : forall Itp (itp_df : Itp -> R -> outcome R) bodies x dx t dx',
  NoDup (map (fun p => bd_idx (fst (fst p))) bodies) ->
  Forall (fun p => b_idx (bd_blocked (fst (fst p))) = bd_idx (fst (fst p))) bodies ->
  dx_dt itp_df bodies x dx t = Ok dx' ->
  List.length dx' = List.length dx /\
  (forall b F rot, In (b, F, rot) bodies -> exists alone, dx_dt itp_df [(b, F, rot)] x dx t = Ok alone /\
     forall k, (k < 13)%nat -> nth_error dx' (13 * bd_idx b + k) = nth_error alone (13 * bd_idx b + k)) /\
  (forall j, (forall b F rot, In (b, F, rot) bodies -> (j < 13 * bd_idx b \/ 13 * bd_idx b + 13 <= j)%nat) ->
     nth_error dx' j = nth_error dx j).
Proof.
  intros Itp itp_df bodies x dx t dx' ND FI H. destruct (dx_dt_spec Itp itp_df bodies x dx t dx' ND FI H) as (A & B & C).
  split; [exact A|]. split; [|exact C]. intros b F rot Hin. destruct (B b F rot Hin) as (d & E & G). exists d. split; [|exact G].
  simpl. rewrite E. reflexivity.
Qed.
Print Assumptions bodies_do_not_interfere.

(** Without forced states, they are the equations of motion (Sim_Spec). *)
Theorem equations_of_motion : forall Itp (itp_df : Itp -> R -> outcome R) b F rot x dx t dx',
  (forall s, b_dof (bd_blocked b) s = None) -> dx_dt itp_df [(b, F, rot)] x dx t = Ok dx' ->
  forall k, (k < 13)%nat -> nth_error dx' (13 * bd_idx b + k) = nth_error (free_derivative b F rot x) k.
Proof.
  intros Itp itp_df b F rot x dx t dx' NB H k Hk. simpl in H.
  destruct (calculate_state_derivatives itp_df b F rot x dx t) as [d| |] eqn:E; try discriminate. injection H as <-.
  apply calc_inv in E as (dx1 & Fd & _ & V & _). rewrite <- (V k Hk). f_equal.
  unfold force_state_derivatives in Fd. revert Fd. generalize all_states. induction l as [|s l IH]; simpl; [congruence|].
  rewrite NB. exact IH.
Qed.
Print Assumptions equations_of_motion.

(** Concrete interpolators for the examples: a table returns its first value, and 0 as derivative. *)
Definition rbuild (_ : ikind) (ts vs : list R) : outcome R := match vs with v :: _ => Ok v | [] => Throw end.
Definition rf (v : R) (_ : R) : outcome R := Ok v.
Definition rdf (v : R) (_ : R) : outcome R := Ok 0.
Definition rcsv (_ : string) : outcome (list (string * list R)) := Throw.
Definition id6 : mat := fun i j => if Nat.eqb i j then 1 else 0.
Definition no_dof : blocked R R := mkBlocked mempty 0 mempty mempty.
Definition ship (i : nat) (b : blocked R R) : body R := mkBody i b id6 id6.
Ltac rtest := unfold Rltb, le; repeat match goal with |- context [Rlt_dec ?a ?b] => destruct (Rlt_dec a b); try lra end.

Example bodies_witness : exists dx',
  dx_dt rdf [(ship 0 no_dof, (fun i => INR i), id6); (ship 1 (mkBlocked mempty 1 mempty mempty), (fun i => 2), id6)] (repeat 1 26) (repeat 0 26) 0 = Ok dx' /\
  nth_error dx' 4 = Some 1 /\ nth_error dx' 17 = Some 2.
Proof.
  eexists. split; [cbn; reflexivity|]. cbn. unfold mul6, sum6, id6. cbn. split; f_equal; field.
Qed.

(** ** C17. The blocking effort closes the balance. *)
Theorem blocking_effort_closes_the_balance : forall Itp (b : blocked R Itp) dx M F,
  (13 * (b_idx b + 1) <= List.length dx)%nat ->
  exists dF, get_delta_F b dx M F = Ok dF /\
  ((exists s i, b_dof b s = Some i) -> forall i, (i < 6)%nat ->
     F i + dF i = M i 0%nat * state_of dx (b_idx b) 3 + M i 1%nat * state_of dx (b_idx b) 4 + M i 2%nat * state_of dx (b_idx b) 5
                + M i 3%nat * state_of dx (b_idx b) 6 + M i 4%nat * state_of dx (b_idx b) 7 + M i 5%nat * state_of dx (b_idx b) 8) /\
  ((forall s, b_dof b s = None) -> forall i, dF i = 0).
Proof.
  intros Itp b dx M F L. unfold get_delta_F. destruct (no_blocked_dof b) eqn:E.
  - eexists. split; [reflexivity|]. split.
    + intros (s & i & Es). unfold no_blocked_dof in E. rewrite forallb_forall in E. specialize (E s (all_states_complete s)).
      rewrite Es in E. discriminate.
    + reflexivity.
  - assert (forall k, (k < 13)%nat -> at_throw dx (13 * b_idx b + k) = Ok (state_of dx (b_idx b) k)) as G.
    { intros k Hk. apply at_throw_some. apply nth_error_nth_ok. lia. }
    unfold UIDX, VIDX, WIDX, PIDX, QIDX, RIDX, NB_OF_STATES_PER_BODY. replace (b_idx b * 13)%nat with (13 * b_idx b)%nat by lia.
    rewrite !G by lia. cbn [bindO]. eexists. split; [reflexivity|]. split.
    + intros _ i Hi. unfold mul6, sum6. cbn [nth]. ring.
    + intros N. unfold no_blocked_dof in E. exfalso. apply not_true_iff_false in E. apply E. apply forallb_forall. intros s _. rewrite N. reflexivity.
Qed.
Print Assumptions blocking_effort_closes_the_balance.

(** A body whose heave velocity w is imposed, with and without inertial coupling between heave and pitch. *)
Definition tab_w : table R := mkTable SW [0; 10] [7; 7] PIECEWISE_CONSTANT.
Definition blocked_w : blocked R R :=
  mkBlocked (mset mempty SW 7) 0 (mset mempty SW 0) (mset mempty SW 10).
Lemma blocked_w_built : make_blocked Rltb rbuild rcsv (mkInput [tab_w] []) 0 = Ok blocked_w.
Proof. unfold make_blocked, build_tables. cbn. unfold blocked_w. rtest. reflexivity. Qed.
Definition coupled : mat := fun i j => if Nat.eqb i j then 1 else if (Nat.eqb i 4 && Nat.eqb j 2)%bool then 1 else 0.
Definition coupled_inv : mat := fun i j => if Nat.eqb i j then 1 else if (Nat.eqb i 4 && Nat.eqb j 2)%bool then -1 else 0.

(** ** C23. The blocking effort acts only along the blocked states, if these are not coupled to the free ones by the inertia. *)
Theorem blocking_effort_on_blocked_states_only_partial :
  forall Itp (build : ikind -> list R -> list R -> outcome Itp) (itp_df : Itp -> R -> outcome R) read_csv tables b F rot x dx t dx' dF s,
  make_blocked Rltb build read_csv (mkInput tables []) (bd_idx b) = Ok (bd_blocked b) ->
  (forall i j, (i < 6)%nat -> (j < 6)%nat -> sum6 (fun k => bd_M b i k * bd_Minv b k j) = id6 i j) ->
  dx_dt itp_df [(b, F, rot)] x dx t = Ok dx' -> get_delta_F (bd_blocked b) dx' (bd_M b) F = Ok dF ->
  (* s is free at that date *)
  (forall y, In y tables -> t_state y = s -> ~ covers Rltb (t_dates y) t) ->
  (* and the inertia does not couple it to the blocked states *)
  (forall y, In y tables -> covers Rltb (t_dates y) t -> bd_M b (rank s - 3)%nat (rank (t_state y) - 3)%nat = 0) ->
  dF (rank s - 3)%nat = 0.
Proof.
  intros Itp build itp_df read_csv tables b F rot x dx t dx' dF s H Inv D G Free NC. simpl in D.
  destruct (calculate_state_derivatives itp_df b F rot x dx t) as [d| |] eqn:E; try discriminate. injection D as ->.
  destruct (make_blocked_inv R Rltb Rltb_swo Itp build read_csv _ _ _ H) as (ts & ET & ND & I & A).
  rewrite build_tables_yaml in ET. injection ET as <-. unfold declared_states in ND. simpl in ND. rewrite app_nil_r in ND.
  specialize (A ND). apply calc_inv in E as (dx1 & Fd & L & V & _).
  destruct (acts_force R Rltb Itp build itp_df tables (bd_blocked b) dx1 t dx' A Fd) as (L2 & O & _). rewrite I in O.
  assert (forall s', (exists y, In y tables /\ t_state y = s' /\ covers Rltb (t_dates y) t) \/
                     nth_error dx' (slot (bd_idx b) s') = nth_error dx1 (slot (bd_idx b) s')) as Cases.
  { intros s'. destruct (in_dec bstate_eq_dec s' (map t_state tables)) as [Hs|Hs].
    - apply in_map_iff in Hs as (y & Ey & Hy). destruct A as (_ & A2). destruct (A2 y Hy) as (j & _ & _ & C).
      destruct (state_is_blocked_at_that_date Rltb (bd_blocked b) (t_state y) t) eqn:Q; [left; exists y; split; [exact Hy|]; split; [exact Ey|]; apply C; exact Q|].
      right. apply O. intros z Hz Cz X. apply slot_inj in X as (_ & X). destruct (A2 z Hz) as (j' & _ & _ & C').
      apply C' in Cz. rewrite <- X, <- Ey in Cz. congruence.
    - right. apply O. intros y Hy _ X. apply slot_inj in X as (_ & ->). apply Hs. apply in_map. exact Hy. }
  unfold get_delta_F in G. destruct (no_blocked_dof (bd_blocked b)); [injection G as <-; reflexivity|].
  rewrite I in G. idx. replace (bd_idx b * 13)%nat with (13 * bd_idx b)%nat in G by lia.
  destruct (at_throw dx' (13 * bd_idx b + 3)) as [a0| |] eqn:E0; try discriminate; cbn [bindO] in G.
  destruct (at_throw dx' (13 * bd_idx b + 4)) as [a1| |] eqn:E1; try discriminate; cbn [bindO] in G.
  destruct (at_throw dx' (13 * bd_idx b + 5)) as [a2| |] eqn:E2; try discriminate; cbn [bindO] in G.
  destruct (at_throw dx' (13 * bd_idx b + 6)) as [a3| |] eqn:E3; try discriminate; cbn [bindO] in G.
  destruct (at_throw dx' (13 * bd_idx b + 7)) as [a4| |] eqn:E4; try discriminate; cbn [bindO] in G.
  destruct (at_throw dx' (13 * bd_idx b + 8)) as [a5| |] eqn:E5; try discriminate; cbn [bindO] in G.
  apply at_throw_some in E0, E1, E2, E3, E4, E5. injection G as <-. unfold mul6, sum6. cbn [nth].
  set (i := (rank s - 3)%nat) in *. assert (i < 6)%nat as Hi by (unfold i, rank; destruct s; lia).
  assert (forall s' a, nth_error dx' (slot (bd_idx b) s') = Some a ->
    bd_M b i (rank s' - 3)%nat * a = bd_M b i (rank s' - 3)%nat * mul6 (bd_Minv b) F (rank s' - 3)%nat) as K.
  { intros s' a Ha. destruct (Cases s') as [(y & Hy & Ey & C)|C].
    - rewrite <- Ey. rewrite (NC y Hy C). ring.
    - rewrite C in Ha. unfold slot in Ha. rewrite V in Ha by (unfold rank; destruct s'; lia). f_equal.
      unfold mul6, sum6. destruct s'; cbn in Ha; injection Ha as <-; reflexivity. }
  pose proof (K SU _ E0) as K0. pose proof (K SV _ E1) as K1. pose proof (K SW _ E2) as K2.
  pose proof (K SP _ E3) as K3. pose proof (K SQ _ E4) as K4. pose proof (K SR _ E5) as K5. cbn [rank Nat.sub] in K0, K1, K2, K3, K4, K5.
  rewrite K0, K1, K2, K3, K4, K5.
  assert (F i = sum6 (fun j => sum6 (fun k => bd_M b i k * bd_Minv b k j) * F j)) as EF.
  { unfold sum6 at 1. rewrite !Inv by lia. unfold id6. do 6 (destruct i as [|i]; [cbn; ring|]). lia. }
  rewrite EF. unfold mul6, sum6. ring.
Qed.
Print Assumptions blocking_effort_on_blocked_states_only_partial.
Example blocking_effort_witness : exists dx' dF,
  dx_dt rdf [(ship 0 blocked_w, (fun i => INR i), id6)] (repeat 1 13) (repeat 0 13) 5 = Ok dx' /\
  get_delta_F blocked_w dx' id6 (fun i => INR i) = Ok dF /\ dF 2%nat = -2 /\ dF 4%nat = 0.
Proof.
  eexists. eexists. cbn. unfold force_state_derivatives, all_states, force_loop. cbn.
  unfold state_is_blocked_at_that_date. cbn. rtest. cbn. split; [reflexivity|]. split; [reflexivity|].
  unfold mul6, sum6, id6. cbn. split; field.
Qed.

(** In general it does not (C23 violated): with a heave-pitch coupling in the inertia, imposing the heave velocity makes
    the reported blocking effort include a pitch moment, although pitch is free. *)
Theorem blocking_effort_on_blocked_states_only_refuted : exists (b : body R) F dx' dF,
  make_blocked Rltb rbuild rcsv (mkInput [tab_w] []) 0 = Ok (bd_blocked b) /\
  (forall i j, (i < 6)%nat -> (j < 6)%nat -> sum6 (fun k => bd_M b i k * bd_Minv b k j) = id6 i j) /\
  dx_dt rdf [(b, F, id6)] (repeat 1 13) (repeat 0 13) 5 = Ok dx' /\
  get_delta_F (bd_blocked b) dx' (bd_M b) F = Ok dF /\ dF (rank SQ - 3)%nat = -1.
Proof.
  exists (mkBody 0 blocked_w coupled coupled_inv), (fun i => if Nat.eqb i 2 then 1 else 0). eexists. eexists.
  split; [exact blocked_w_built|]. split.
  - intros i j Hi Hj. unfold sum6. cbn [bd_M bd_Minv].
    do 6 (destruct i as [|i]; [do 6 (destruct j as [|j]; [unfold coupled, coupled_inv, id6; cbn; ring|]); lia|]). lia.
  - cbn. unfold force_state_derivatives, all_states, force_loop. cbn.
    unfold state_is_blocked_at_that_date. cbn. rtest. cbn. split; [reflexivity|]. split; [reflexivity|].
    unfold mul6, sum6, coupled, coupled_inv. cbn. field.
Qed.
Print Assumptions blocking_effort_on_blocked_states_only_refuted.

(** ** C18. Normalisation. [aeq] is the ULP comparison [almost_equal], arbitrary here. *)
Theorem quaternions_are_normalised : forall aeq n x x', normalize_quaternions aeq n x = Ok x' ->
  List.length x' = List.length x /\
  (forall i k, (k < 9)%nat -> nth_error x' (13 * i + k) = nth_error x (13 * i + k)) /\
  (forall i k, (n <= i)%nat -> nth_error x' (13 * i + k) = nth_error x (13 * i + k)) /\
  (forall i, (i < n)%nat ->
     (aeq (quaternion_norm x i) 1 = true /\ forall k, (9 <= k < 13)%nat -> state_of x' i k = state_of x i k) \/
     (aeq (quaternion_norm x i) 1 = false /\
      (forall k, (9 <= k < 13)%nat -> state_of x' i k = state_of x i k / quaternion_norm x i) /\
      (quaternion_norm x i <> 0 -> quaternion_norm x' i = 1))).
Proof.
  intros aeq n x x' H. apply normalize_from_spec in H as (L & O & C). split; [exact L|]. split; [|split].
  - intros i k Hk. apply O. intros m _ Q. unfold quaternion_slot in Q. lia.
  - intros i k Hi. apply O. intros m Hm Q. unfold quaternion_slot in Q. lia.
  - intros i Hi. destruct (C i ltac:(lia)) as [?|(A & V)]; [left; assumption|right]. split; [exact A|]. split; [exact V|].
    intros NZ. unfold quaternion_norm at 1. rewrite !V by lia. apply norm4_scale. exact NZ.
Qed.
Print Assumptions quaternions_are_normalised.
Theorem normalisation_succeeds : forall aeq n x, (13 * n <= List.length x)%nat -> exists x', normalize_quaternions aeq n x = Ok x'.
Proof.
  intros aeq n x. unfold normalize_quaternions.
  assert (forall n i x, (13 * (i + n) <= List.length x)%nat -> exists x', normalize_from aeq i n x = Ok x') as G; [|intros H; apply G; exact H].
  clear. induction n as [|n IH]; intros i x H; simpl; [eauto|].
  assert (exists x1, normalize_one aeq i x = Ok x1) as (x1 & E).
  { unfold normalize_one. idx. replace (i * 13)%nat with (13 * i)%nat by lia.
    assert (forall k, (k < 13)%nat -> at_ub x (13 * i + k) = Ok (state_of x i k)) as G.
    { intros k Hk. apply at_ub_some. apply nth_error_nth_ok. lia. }
    rewrite !G by lia. cbn [bindO]. destruct (aeq _ 1); [eauto|]. apply set_all_ok. cbn [map fst In]. intros j Hj. lia. }
  rewrite E. cbn [bindO]. apply IH. apply normalize_one_spec in E as (L & _). lia.
Qed.
Print Assumptions normalisation_succeeds.
Example normalisation_witness :
  let x := repeat 0 9 ++ [3; 0; 4; 0] in quaternion_norm x 0 = 5 /\
  exists x', normalize_quaternions (fun _ _ => false) 1 x = Ok x' /\ nth_error x' 9 = Some (3 / 5) /\ nth_error x' 11 = Some (4 / 5).
Proof.
  assert (norm4 3 0 4 0 = 5) as E. { unfold norm4. replace (3 * 3 + 0 * 0 + 4 * 4 + 0 * 0) with (5 * 5) by ring. apply sqrt_square. lra. }
  split; [exact E|]. cbn. eexists. split; [reflexivity|]. cbn. rewrite hypot_nest, E. auto.
Qed.

(** ** C19. The quaternion derivative is orthogonal to the quaternion (so the norm is preserved by the exact motion), its
    norm is half that of the rotation rate for a unit quaternion, and it is linear in the rotation rate. *)
Theorem quaternion_kinematics : forall Itp (itp_df : Itp -> R -> outcome R) b F rot x dx t dx',
  b_idx (bd_blocked b) = bd_idx b -> dx_dt itp_df [(b, F, rot)] x dx t = Ok dx' ->
  let q k := state_of x (bd_idx b) k in let dq k := state_of dx' (bd_idx b) k in
  q 9%nat * dq 9%nat + q 10%nat * dq 10%nat + q 11%nat * dq 11%nat + q 12%nat * dq 12%nat = 0 /\
  4 * (dq 9%nat * dq 9%nat + dq 10%nat * dq 10%nat + dq 11%nat * dq 11%nat + dq 12%nat * dq 12%nat) =
    (q 9%nat * q 9%nat + q 10%nat * q 10%nat + q 11%nat * q 11%nat + q 12%nat * q 12%nat) *
    (q 6%nat * q 6%nat + q 7%nat * q 7%nat + q 8%nat * q 8%nat).
Proof.
  intros Itp itp_df b F rot x dx t dx' I H. simpl in H.
  destruct (calculate_state_derivatives itp_df b F rot x dx t) as [d| |] eqn:E; try discriminate. injection H as ->.
  apply calc_inv in E as (dx1 & Fd & _ & V & _).
  assert (forall k, (9 <= k < 13)%nat -> nth_error dx' (13 * bd_idx b + k) = nth_error (free_derivative b F rot x) k) as W.
  { intros k Hk. rewrite <- V by lia. apply (force_loop_other _ _ _ _ _ _ _ Fd). intros s. rewrite I. unfold slot, rank. destruct s; lia. }
  assert (forall k v, nth_error dx' (13 * bd_idx b + k) = Some v -> state_of dx' (bd_idx b) k = v) as N.
  { intros k v Hv. exact (nth_error_nth _ _ 0 Hv). }
  cbv beta zeta. pose proof (W 9%nat ltac:(lia)) as W9. pose proof (W 10%nat ltac:(lia)) as W10. pose proof (W 11%nat ltac:(lia)) as W11.
  pose proof (W 12%nat ltac:(lia)) as W12. cbn [free_derivative nth_error] in W9, W10, W11, W12. apply N in W9, W10, W11, W12.
  rewrite W9, W10, W11, W12. split; field.
Qed.
Print Assumptions quaternion_kinematics.
(** Linearity: the derivative for the rates pqr1 + c*pqr2 (same quaternion) is the combination of the derivatives. *)
Theorem quaternion_kinematics_linear : forall q p1 p2 p3 r1 r2 r3 c,
  let d a b e := qmul q (0, a, b, e) in
  let '(w1, x1, y1, z1) := d p1 p2 p3 in let '(w2, x2, y2, z2) := d r1 r2 r3 in
  d (p1 + c * r1) (p2 + c * r2) (p3 + c * r3) = (w1 + c * w2, x1 + c * x2, y1 + c * y2, z1 + c * z2).
Proof. intros [[[a b] e] f] *. cbn. do 3 (apply f_equal2; [|ring]). ring. Qed.
Print Assumptions quaternion_kinematics_linear.

(** ** C20. What is reported for forced states. *)
Lemma block_loop_last : forall Itp (itp_f : Itp -> R -> outcome R) bodies b x acc t y,
  block_states_loop itp_f (bodies ++ [b]) x acc t = Ok y -> force_states Rltb itp_f (bd_blocked b) x t = Ok y.
Proof.
  intros Itp itp_f. induction bodies as [|c r IH]; intros b x acc t y H; simpl in H.
  - destruct (force_states Rltb itp_f (bd_blocked b) x t); try discriminate. exact H.
  - destruct (force_states Rltb itp_f (bd_blocked c) x t); try discriminate. cbn [bindO] in H. eapply IH. exact H.
Qed.
(** With a single body (the case of the co-simulation servers), its reported states are the forced ones: *)
Theorem observers_report_forced_states_partial :
  forall Itp build (itp_f : Itp -> R -> outcome R) read_csv aeq tables b x t y,
  make_blocked Rltb build read_csv (mkInput tables []) (bd_idx b) = Ok (bd_blocked b) ->
  output_states itp_f aeq [b] x t = Ok y ->
  forall tab, In tab tables -> covers Rltb (t_dates tab) t ->
  exists itp v, build (t_kind tab) (t_dates tab) (t_values tab) = Ok itp /\ itp_f itp t = Ok v /\
    nth_error y (slot (bd_idx b) (t_state tab)) = Some v.
Proof.
  intros Itp build itp_f read_csv aeq tables b x t y H O tab Hin C. unfold output_states in O.
  destruct (block_states_loop itp_f [b] x [] t) as [xf| |] eqn:E; try discriminate. cbn [bindO] in O.
  apply (block_loop_last Itp itp_f []) in E.
  destruct (make_blocked_inv R Rltb Rltb_swo Itp build read_csv _ _ _ H) as (ts & ET & ND & I & A).
  rewrite build_tables_yaml in ET. injection ET as <-. unfold declared_states in ND. simpl in ND. rewrite app_nil_r in ND.
  destruct (acts_force R Rltb Itp build itp_f tables (bd_blocked b) x t xf (A ND) E) as (_ & _ & S0).
  destruct (S0 tab Hin C) as (j & v & B & Ev & N). exists j, v. split; [exact B|]. split; [exact Ev|].
  apply quaternions_are_normalised in O as (_ & O & _). rewrite I in N. unfold slot in *. rewrite O; [exact N|].
  unfold rank. destruct (t_state tab); lia.
Qed.
Print Assumptions observers_report_forced_states_partial.
(** ... but with several bodies (C20 violated) the forced states of all the bodies but the last one are never reported: the
    reported velocities of the other bodies are those of the state vector. *)
Theorem observers_report_forced_states_refuted :
  forall Itp (itp_f : Itp -> R -> outcome R) aeq bodies b x t y, output_states itp_f aeq (bodies ++ [b]) x t = Ok y ->
  forall i s, i <> b_idx (bd_blocked b) -> nth_error y (slot i s) = nth_error x (slot i s).
Proof.
  intros Itp itp_f aeq bodies b x t y O i s Hi. unfold output_states in O.
  destruct (block_states_loop itp_f (bodies ++ [b]) x [] t) as [xf| |] eqn:E; try discriminate. cbn [bindO] in O.
  apply block_loop_last in E. apply quaternions_are_normalised in O as (_ & O & _). unfold slot at 1. rewrite O by (unfold rank; destruct s; lia).
  apply (force_loop_other _ _ _ _ _ _ _ E). intros s' X. apply slot_inj in X as (X & _). auto.
Qed.
Print Assumptions observers_report_forced_states_refuted.
Definition blocked_u (i : nat) (v : R) : blocked R R := mkBlocked (mset mempty SU v) i (mset mempty SU 0) (mset mempty SU 10).
(** Two bodies whose surge velocities are imposed (1 and 2 m/s): 0 and 2 are reported. *)
Example observers_report_witness : exists y,
  output_states rf (fun _ _ => true) [ship 0 (blocked_u 0 1); ship 1 (blocked_u 1 2)] (repeat 0 26) 5 = Ok y /\
  nth_error y (slot 0 SU) = Some 0 /\ nth_error y (slot 1 SU) = Some 2.
Proof.
  unfold output_states. cbn. unfold force_states, all_states, force_loop. cbn. unfold state_is_blocked_at_that_date. cbn. rtest.
  cbn. eexists. split; [reflexivity|]. cbn. auto.
Qed.

(** ** C22. Asking for the current state of a body: right for the first body, undefined behaviour for every other. *)
Theorem current_state_values_first_body_partial : forall vals, List.length vals = 13%nat -> get_current_state_values vals 0 = Ok vals.
Proof. intros vals H. do 13 (destruct vals as [|? vals]; [discriminate|]). destruct vals; [reflexivity|discriminate]. Qed.
Print Assumptions current_state_values_first_body_partial.
Theorem current_state_values_other_bodies_refuted : forall vals idx, (1 <= idx)%nat -> get_current_state_values vals idx = UB.
Proof.
  intros vals idx H. unfold get_current_state_values. cbn [set_all].
  assert (set_ub (repeat 0 13) (XIDX idx) (nth 0 vals 0) = UB) as ->; [|reflexivity].
  assert (forall (l : list R) i v, (List.length l <= i)%nat -> set_ub l i v = UB) as G.
  { induction l as [|a l IH]; intros [|i] v Hi; cbn [set_ub List.length] in *; try reflexivity; [lia|]. rewrite IH by lia. reflexivity. }
  apply G. idx. simpl repeat. cbn [List.length]. lia.
Qed.
Print Assumptions current_state_values_other_bodies_refuted.
Example current_state_values_witness : get_current_state_values [1;2;3;4;5;6;7;8;9;10;11;12;13] 0 = Ok [1;2;3;4;5;6;7;8;9;10;11;12;13]
  /\ get_current_state_values [1;2;3;4;5;6;7;8;9;10;11;12;13] 2 = UB.
Proof. split; reflexivity. Qed.

(** ** C24. Instants of observation. The contract of the external scheduler is a hypothesis: its current date is the last event
    appended. [instant tstart i dt] is the number computed by [tstart + i*dt]. *)
Theorem observation_instants : forall Sys T instant Sch get_time more append do_step force,
  (forall (s : Sch) (t : T), get_time (append s t) = t) ->
  forall n dt (sys : Sys) sch obs fin,
  quicksolve Sys T instant Sch get_time more append do_step force n dt sys sch = (obs, fin) ->
  exists times, map fst obs = get_time sch :: times /\
    times = map (fun i => instant (get_time sch) i dt) (seq 1 (List.length times)).
Proof.
  intros Sys T instant Sch get_time more append do_step force HC n dt sys sch obs fin H. unfold quicksolve in H.
  destruct (quicksolve_loop _ _ _ _ _ _ _ _ _ n 0 _ dt sys sch) as [o f] eqn:E. injection H as <- <-.
  apply (loop_instants Sys T Sch) in E; [|exact HC]. exists (map fst o). split; [reflexivity|]. rewrite map_length. exact E.
Qed.
Print Assumptions observation_instants.
(** The API call [simulate] returns exactly the observations of the time loop. *)
Theorem simulate_returns_the_observations : forall Sys T instant Sch get_time more append do_step force n dt tend (sys : Sys) (sch : Sch),
  simulate Sys T instant Sch get_time more append do_step force n dt tend sys sch =
  quicksolve Sys T instant Sch get_time more append do_step force n dt sys sch.
Proof.
  intros. unfold simulate. destruct (quicksolve Sys T instant Sch get_time more append do_step force n dt sys sch) as [obs fin].
  rewrite removelast_last. reflexivity.
Qed.
Print Assumptions simulate_returns_the_observations.

(** A scheduler satisfying the contract: its state is the current date; events remain while it is below 3. *)
Definition demo (force : nat -> nat -> nat) (n : nat) :=
  quicksolve nat nat (fun t0 i dt => t0 + i * dt)%nat nat (fun s => s) (fun s => Nat.ltb s 3) (fun _ t => t)
    (fun sys t dt => sys + 10)%nat force n 1%nat 0%nat 0%nat.
Example observation_instants_witness : demo (fun s _ => s) 7 = ([(0, 0); (1, 10); (2, 20); (3, 30)]%nat, true).
Proof. reflexivity. Qed.

(** ** C25. What is forced on the state after a step is the value at the date of the beginning of the step. *)
Theorem forced_at_the_previous_instant : forall Sys T instant Sch get_time more append do_step force n dt (sys : Sys) (sch : Sch) obs fin,
  quicksolve Sys T instant Sch get_time more append do_step force n dt sys sch = (obs, fin) ->
  forall k t0 s0 t1 s1, nth_error obs k = Some (t0, s0) -> nth_error obs (S k) = Some (t1, s1) ->
  s1 = force (do_step s0 t0 dt) t0.
Proof.
  intros Sys T instant Sch get_time more append do_step force n dt sys sch obs fin H k t0 s0 t1 s1. unfold quicksolve in H.
  destruct (quicksolve_loop _ _ _ _ _ _ _ _ _ n 0 _ dt sys sch) as [o f] eqn:E. injection H as <- ->.
  exact (loop_states Sys T Sch instant get_time more append do_step force n 0%nat _ dt sys sch o fin E k t0 s0 t1 s1).
Qed.
Print Assumptions forced_at_the_previous_instant.
(** C25 is therefore violated when the forced value depends on the date: with a state forced to be 100 + t, the state observed
    at date 1 is 100 instead of 101, that observed at date 2 is 101, and so on. *)
Theorem forced_at_the_observed_instant_refuted :
  demo (fun _ t => 100 + t)%nat 7 = ([(0, 0); (1, 100); (2, 101); (3, 102)]%nat, true).
Proof. reflexivity. Qed.
Print Assumptions forced_at_the_observed_instant_refuted.
(** It holds when the forced values do not depend on the date. *)
Theorem forced_at_the_observed_instant_partial : forall Sys T instant Sch get_time more append do_step force n dt (sys : Sys) (sch : Sch) obs fin,
  (forall s t t', force (force s t) t' = force s t) ->
  quicksolve Sys T instant Sch get_time more append do_step force n dt sys sch = (obs, fin) ->
  forall k t1 s1, nth_error obs (S k) = Some (t1, s1) -> force s1 t1 = s1.
Proof.
  intros Sys T instant Sch get_time more append do_step force n dt sys sch obs fin HF H k t1 s1 H1.
  destruct (nth_error obs k) as [[t0 s0]|] eqn:H0.
  - rewrite (forced_at_the_previous_instant _ _ _ _ _ _ _ _ _ _ _ _ _ _ _ H _ _ _ _ _ H0 H1). apply HF.
  - apply nth_error_None in H0. assert (S k < List.length obs)%nat by (apply nth_error_Some; congruence). lia.
Qed.
Print Assumptions forced_at_the_observed_instant_partial.
