(** Property C130: the model-exchange server and the number of bodies. *)
From Coq Require Import ZArith List Bool Lia Reals Lra.
From Verif Require Import Common History_Model History_Real_Proofs Blocked_Model Blocked_Spec Blocked_Proofs Sim_Model Sim_Spec Sim_Proofs Sim_Props
  Server_Model Server_Proofs Multi_Model.
Import ListNotations.
Open Scope R_scope.

(** The state vector of a request always has 13 values. *)
Lemma thirteen : forall aeqR Dt T ys i, make_server_inputs (Rarith aeqR) Dt T ys = Ok i -> List.length (state_at_t i) = 13%nat.
Proof.
  intros aeqR Dt T ys i H. unfold make_server_inputs in H. destruct ys as [|y0 r]; [injection H as <-; reflexivity|].
  destruct (record_all (Rarith aeqR) (new_state (Rarith aeqR) T) (removelast (y0 :: r))) as [p| |]; try discriminate. cbn [bindO] in H.
  destruct (record_state (Rarith aeqR) p (last (y0 :: r) y0)) as [f| |]; try discriminate. cbn [bindO] in H. injection H as <-. reflexivity.
Qed.


Lemma free_loop : forall Itp (eval : Itp -> R -> outcome R) (b : blocked R Itp) t, (forall s, b_dof b s = None) ->
  forall l x, force_loop Rltb eval b l x t = Ok x.
Proof. intros Itp eval b t NB. induction l as [|s l IH]; intros x; cbn [force_loop]; [reflexivity|]. rewrite NB. apply IH. Qed.

Lemma calc_free : forall Itp (itp_df : Itp -> R -> outcome R) b F rot x dx t,
  bd_idx b = 0%nat -> (forall s, b_dof (bd_blocked b) s = None) -> List.length x = 13%nat -> List.length dx = 13%nat ->
  calculate_state_derivatives itp_df b F rot x dx t = Ok (free_derivative b F rot x).
Proof.
  intros Itp itp_df b F rot x dx t I NB L LD.
  assert (exists d, calculate_state_derivatives itp_df b F rot x dx t = Ok d) as (d & E).
  { unfold calculate_state_derivatives. rewrite I.
    assert (forall k, (k < 13)%nat -> at_ub x k = Ok (nth k x 0)) as G.
    { intros k Hk. apply at_ub_some. apply nth_error_nth_ok. lia. }
    idx. cbn [Nat.mul Nat.add]. rewrite !G by lia. cbn [bindO].
    destruct (qmul _ _) as [[[a0 a1] a2] a3].
    match goal with |- context [set_all ?y ?l] => destruct (set_all_ok l y) as (x1 & ->) end.
    { cbn [map fst In]. intros j Hj. lia. }
    cbn [bindO]. unfold force_state_derivatives. rewrite free_loop by exact NB. eauto. }
  rewrite E. f_equal. apply calc_inv in E as (dx1 & Fd & L1 & V & _). unfold force_state_derivatives in Fd.
  rewrite free_loop in Fd by exact NB. injection Fd as <-. rewrite I in V.
  apply nth_error_ext_eq; [cbn [free_derivative List.length]; congruence|]. intros k y z Hy Hz.
  assert (k < 13)%nat as Hk. { rewrite <- LD, <- L1. apply nth_error_Some. congruence. }
  specialize (V k Hk). cbn [Nat.mul Nat.add] in V. congruence.
Qed.

(** One body without forced states: the answer is the thirteen derivatives of the equations of motion (Sim_Spec) at the state
    received last. *)
Theorem one_body_model_exchange_partial : forall aeqR Itp (itp_df : Itp -> R -> outcome R) b F rot Dt T ys i,
  bd_idx b = 0%nat -> (forall s, b_dof (bd_blocked b) s = None) ->
  make_server_inputs (Rarith aeqR) Dt T ys = Ok i ->
  me_derivatives itp_df [(b, F, rot)] i = Ok (free_derivative b F rot (state_at_t i)).
Proof.
  intros aeqR Itp itp_df b F rot Dt T ys i I NB H. apply thirteen in H. unfold me_derivatives. cbn [at_throw nth_error bindO dx_dt].
  rewrite calc_free; auto.
Qed.
Print Assumptions one_body_model_exchange_partial.

(** No body: the request is refused (standard exception of [vector::at]). *)
Theorem no_body_model_exchange : forall aeqR Itp (itp_df : Itp -> R -> outcome R) (i : server_inputs (Rarith aeqR)), me_derivatives itp_df [] i = Throw.
Proof. reflexivity. Qed.
Print Assumptions no_body_model_exchange.

(** Reading a state of a body of index 1 or more in a state vector of 13 values. *)
Lemma outside : forall Itp (itp_df : Itp -> R -> outcome R) b F rot x dx t, (1 <= bd_idx b)%nat -> List.length x = 13%nat ->
  calculate_state_derivatives itp_df b F rot x dx t = UB.
Proof.
  intros Itp itp_df b F rot x dx t I L. unfold calculate_state_derivatives.
  assert (at_ub x (UIDX (bd_idx b)) = UB) as ->; [|reflexivity].
  unfold at_ub. assert (nth_error x (UIDX (bd_idx b)) = None) as ->; [|reflexivity]. apply nth_error_None. idx. lia.
Qed.

(** Two bodies or more (numbered from 0, as the input file is read): both servers read out of the bounds of the state vector received
    (undefined behaviour), for every request. For model exchange: *)
Theorem several_bodies_model_exchange_refuted : forall aeqR Itp (itp_df : Itp -> R -> outcome R) bodies Dt T ys i,
  (2 <= List.length bodies)%nat ->
  map (fun p => bd_idx (fst (fst p))) bodies = seq 0 (List.length bodies) ->
  (forall b F rot, In (b, F, rot) bodies -> forall s, b_dof (bd_blocked b) s = None) ->
  make_server_inputs (Rarith aeqR) Dt T ys = Ok i ->
  me_derivatives itp_df bodies i = UB.
Proof.
  intros aeqR Itp itp_df bodies Dt T ys i N IX NB H. apply thirteen in H.
  destruct bodies as [|[[b0 F0] R0] [|[[b1 F1] R1] r]]; cbn [List.length] in N; try lia.
  cbn [map List.length seq fst] in IX. injection IX as I0 I1 _.
  unfold me_derivatives. cbn [at_throw nth_error bindO dx_dt].
  rewrite calc_free; [|exact I0|apply (NB b0 F0 R0); left; reflexivity|exact H|reflexivity]. cbn [bindO].
  rewrite outside; [reflexivity|lia|exact H].
Qed.
Print Assumptions several_bodies_model_exchange_refuted.

(** With forced states too, no answer is ever computed; and, for co-simulation, neither is the first derivative asked by the solver,
    whatever the vector [dx] it provides. *)
Lemma never : forall Itp (itp_df : Itp -> R -> outcome R) bodies x dx t d, List.length x = 13%nat ->
  (exists p, In p bodies /\ (1 <= bd_idx (fst (fst p)))%nat) -> dx_dt itp_df bodies x dx t <> Ok d.
Proof.
  intros Itp itp_df. induction bodies as [|[[b F] rot] r IH]; intros x dx t d L (p & Hp & I); [destruct Hp|destruct Hp as [Hp|Hp]].
  - subst p. cbn [fst] in I. cbn [dx_dt]. rewrite outside by assumption. discriminate.
  - cbn [dx_dt]. destruct (calculate_state_derivatives itp_df b F rot x dx t) as [d'| |]; cbn [bindO]; try discriminate.
    apply IH; [exact L|]. eauto.
Qed.

Lemma cs_start_length : forall aeqR previous i t v, cs_start (Rarith aeqR) previous i = Ok (t, v) -> L (s_x (full_history i)) <> [] -> List.length v = 13%nat.
Proof.
  intros aeqR previous i t v H NE. unfold cs_start in H. destruct (negb _); try discriminate.
  destruct (L (s_x (full_history i))) eqn:E; [congruence|].
  unfold get_StateType in H.
  repeat match type of H with bindO (bindO ?a _) _ = _ => destruct a; cbn [bindO] in H; try discriminate end.
  injection H as <- <-. reflexivity.
Qed.

Theorem several_bodies_cosimulation_refuted : forall aeqR Itp (itp_df : Itp -> R -> outcome R) bodies Dt T y ys i previous t x dx d,
  (exists p, In p bodies /\ (1 <= bd_idx (fst (fst p)))%nat) ->
  make_server_inputs (Rarith aeqR) Dt T (y :: ys) = Ok i ->
  cs_start (Rarith aeqR) previous i = Ok (t, x) -> L (s_x (full_history i)) <> [] ->
  dx_dt itp_df bodies x dx t <> Ok d /\ me_derivatives itp_df bodies i <> Ok d.
Proof.
  intros aeqR Itp itp_df bodies Dt T y ys i previous t x dx d B M C NE. split.
  - apply never; [|exact B]. exact (cs_start_length _ _ _ _ _ C NE).
  - unfold me_derivatives. destruct (at_throw bodies 0); cbn [bindO]; try discriminate. apply never; [|exact B].
    exact (thirteen _ _ _ _ _ M).
Qed.
Print Assumptions several_bodies_cosimulation_refuted.

(** A non-trivial case: a request for one body, and the same request for two bodies. *)
Definition still (x : R) : abs_states R := mkStates x 0 0 1 0 0 0 0 0 1 0 0 0.
Definition ask (aeqR : Z -> R -> R -> bool) : list (ystate (Rarith aeqR)) := [@mkY (Rarith aeqR) 3 (still 2)].
Example one_state_received : forall aeqR, exists i, make_server_inputs (Rarith aeqR) 1 10 (ask aeqR) = Ok i /\
  state_at_t i = [2; 0; 0; 1; 0; 0; 0; 0; 0; 1; 0; 0; 0] /\ in_t i = 3 /\ L (s_x (full_history i)) <> [] /\
  (exists v, cs_start (Rarith aeqR) [] i = Ok (3, v)) /\
  me_derivatives rdf [(ship 0 no_dof, (fun k => INR k), id6)] i = Ok (free_derivative (ship 0 no_dof) (fun k => INR k) id6 (state_at_t i)) /\
  me_derivatives rdf [(ship 0 no_dof, (fun k => INR k), id6); (ship 1 (mkBlocked mempty 1 mempty mempty), (fun k => INR k), id6)] i = UB.
Proof.
  intros aeqR.
  assert (exists i, make_server_inputs (Rarith aeqR) 1 10 (ask aeqR) = Ok i /\
    state_at_t i = [2; 0; 0; 1; 0; 0; 0; 0; 0; 1; 0; 0; 0] /\ in_t i = 3 /\ in_Dt i = 1 /\
    exists h, full_history i = h /\ forall g, In g [s_x h; s_y h; s_z h; s_u h; s_v h; s_w h; s_p h; s_q h; s_r h; s_qr h; s_qi h; s_qj h; s_qk h] ->
      exists v, L g = [(3, v)]) as (i & E & X & T & D & h & EH & HL).
  { unfold make_server_inputs, ask. cbn [removelast last record_all bindO].
    assert (forall v, exists h, record (Rarith aeqR) (new_history (Rarith aeqR) 10) 3 v = Returned h /\ L h = [(3, v)]) as G.
    { intros v. unfold record. cbn [L new_history].
      unfold update_oldest_recorded_instant, add_value_to_history, shift_oldest_recorded_instant_if_necessary, new_history. cbn.
      match goal with |- context [ge (Rarith aeqR) ?a 10] => assert (ge (Rarith aeqR) a 10 = false) as -> end.
      { assert (minn (Rarith aeqR) 3 3 = 3) as -> by (unfold minn; destruct (lt (Rarith aeqR) 3 3); reflexivity).
        unfold ge. apply negb_false_iff. apply History_Real_Proofs.Rltb_true. cbn. lra. }
      cbn. eexists; split; reflexivity. }
    unfold record_state. cbn [y_t y_val new_state s_x s_y s_z s_u s_v s_w s_p s_q s_r s_qr s_qi s_qj s_qk still].
    destruct (G 2) as (h2 & -> & ?). destruct (G 1) as (h1 & -> & ?). destruct (G 0) as (h0 & -> & ?).
    cbn [effect bindO]. eexists. split; [reflexivity|]. split; [reflexivity|]. split; [reflexivity|]. split; [reflexivity|].
    eexists. split; [reflexivity|]. cbn [full_history s_x s_y s_z s_u s_v s_w s_p s_q s_r s_qr s_qi s_qj s_qk].
    intros g Hg. cbn [In] in Hg. repeat (destruct Hg as [<-|Hg]; [eauto|]). destruct Hg. }
  exists i. split; [exact E|]. split; [exact X|]. split; [exact T|].
  split. { rewrite EH. destruct (HL (s_x h)) as (v & ->); [left; reflexivity|]. discriminate. }
  split.
  { unfold cs_start. rewrite D, T, EH. cbn [lt Rarith]. 
    assert (forall g, In g [s_x h; s_y h; s_z h; s_u h; s_v h; s_w h; s_p h; s_q h; s_r h; s_qr h; s_qi h; s_qj h; s_qk h] -> exists v, L g = [(3, v)]) as HL' by exact HL.
    unfold get_StateType.
    destruct (HL (s_x h)) as (v0 & ->); [cbn; auto 20|]. destruct (HL (s_y h)) as (v1 & ->); [cbn; auto 20|].
    destruct (HL (s_z h)) as (v2 & ->); [cbn; auto 20|]. destruct (HL (s_u h)) as (v3 & ->); [cbn; auto 20|].
    destruct (HL (s_v h)) as (v4 & ->); [cbn; auto 20|]. destruct (HL (s_w h)) as (v5 & ->); [cbn; auto 20|].
    destruct (HL (s_p h)) as (v6 & ->); [cbn; auto 20|]. destruct (HL (s_q h)) as (v7 & ->); [cbn; auto 20|].
    destruct (HL (s_r h)) as (v8 & ->); [cbn; auto 20|]. destruct (HL (s_qr h)) as (v9 & ->); [cbn; auto 20|].
    destruct (HL (s_qi h)) as (v10 & ->); [cbn; auto 20|]. destruct (HL (s_qj h)) as (v11 & ->); [cbn; auto 20|].
    destruct (HL (s_qk h)) as (v12 & ->); [cbn; auto 20|].
    cbn [List.length Nat.sub at_throw nth_error bindO snd]. 
    match goal with |- context [negb ?b] => assert (b = true) as -> end.
    { apply History_Real_Proofs.Rltb_true. cbn. lra. }
    cbn [negb]. eauto. }
  split.
  - apply (one_body_model_exchange_partial aeqR R rdf (ship 0 no_dof) (fun k => INR k) id6 1 10 (ask aeqR) i); [reflexivity|reflexivity|exact E].
  - apply (several_bodies_model_exchange_refuted aeqR R rdf _ 1 10 (ask aeqR) i); [cbn; lia|reflexivity| |exact E].
    intros b F rot [Hb|[Hb|[]]] s; injection Hb as <- _ _; reflexivity.
Qed.
