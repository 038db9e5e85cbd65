(** C174, end: what the forces see of a request. *)
From Verif Require Import Server_Spec.
From Coq Require Import ZArith Reals Lra Lia List String Bool.
From Verif Require Import Common History_Model History_Real_Proofs History_Order_Proofs Builder_Model Command_Model Server_Model Server_Proofs Server_Props Solver_Model Request_Model Request_Props.
Import ListNotations.
Open Scope list_scope.
Open Scope R_scope.

Section Seen.
Variable aeqR : BinNums.Z -> Rdefinitions.R -> Rdefinitions.R -> bool.
Notation A := (Rarith aeqR).
Context {Itp E : Type}.
Variable n_bodies : nat.
Variable Tmax : Rdefinitions.R.
Variable forced : nat -> list Rdefinitions.R -> Rdefinitions.R -> outcome (list Rdefinitions.R).
Variable derivatives : @data_source Itp -> list (memory aeqR) -> nat -> list Rdefinitions.R -> list Rdefinitions.R -> Rdefinitions.R -> outcome (list Rdefinitions.R).
Variable efforts : @data_source Itp -> list (memory aeqR) -> E.
(** The histories of the first body are those of the received states, coordinate by coordinate and in the order of the state vector. *)
Definition received (hs : memory aeqR) (ys : list (ystate A)) : Prop :=
  List.length hs = 13%nat /\ forall k c, nth_error all_comps k = Some c -> exists h, nth_error hs k = Some h /\ reachable A Tmax h (map (fun y => (y_t y, Server_Spec.get c (y_val y))) ys).
Lemma histories_received s ys : (forall c, reachable A Tmax (Server_Spec.get c s) (map (fun y => (y_t y, Server_Spec.get c (y_val y))) ys)) -> received (histories aeqR s) ys.
Proof.
  intros H. split; [reflexivity|]. intros k c N. assert (histories aeqR s = map (fun c => Server_Spec.get c s) all_comps) as -> by reflexivity.
  exists (Server_Spec.get c s). split; [|apply H]. rewrite nth_error_map, N. reflexivity.
Qed.
(** Model exchange: the answer is the evaluation of the derivatives at the last received state and date, with the earlier states of the request as the
    history of the first body: nothing that the server held before is left in it. *)
Theorem forces_of_a_request_see_its_history : forall (s : @server aeqR Itp E) (r : request aeqR) (ys : list (ystate A)) (back : ystate A) h rest i, sv_memory s = h :: rest -> rq_states r = ys ++ [back] -> make_server_inputs A (rq_Dt r) Tmax (ys ++ [back]) = Ok i ->
  exists hs, received hs ys /\
    match system aeqR forced (derivatives (set_commands (sv_commands s) (rq_commands r))) n_bodies (hs :: rest) (vector (y_val back)) (y_t back) with
    | Done m dx => snd (me_request aeqR n_bodies Tmax forced derivatives efforts s r) = Ok dx /\ sv_memory (fst (me_request aeqR n_bodies Tmax forced derivatives efforts s r)) = m
    | Failed m => snd (me_request aeqR n_bodies Tmax forced derivatives efforts s r) = Throw /\ sv_memory (fst (me_request aeqR n_bodies Tmax forced derivatives efforts s r)) = m
    | Wild => snd (me_request aeqR n_bodies Tmax forced derivatives efforts s r) = UB
    end.
Proof.
  intros s r ys back h rest i Em Es Ei. exists (histories aeqR (history_except_last i)).
  destruct (server_current_state_is_last_received A _ _ _ _ _ Ei) as (Et & _ & Ev).
  split; [apply histories_received; intros c; apply (server_histories_are_the_received_states A _ _ _ _ _ c Ei)|].
  unfold me_request. rewrite Es, Ei, Em. unfold set_bodystates.
  assert (exists x, (match L (s_x (history_except_last i)) with [] => Ok (histories aeqR (history_except_last i) :: rest, sv_state s)
      | _ => do y <- get_StateType A (history_except_last i) (List.length (L (s_x (history_except_last i))) - 1); Ok (histories aeqR (history_except_last i) :: rest, y) end) = Ok (histories aeqR (history_except_last i) :: rest, x)) as (x & ->).
  { destruct (L (s_x (history_except_last i))) as [|p l] eqn:EL; [eauto|]. assert (exists y, get_StateType A (history_except_last i) (List.length (p :: l) - 1) = Ok y) as (y & ->); [|cbn [bindO]; eauto].
    rewrite <- EL. apply (history_state_ok aeqR Tmax i _ _ Ei). rewrite EL. discriminate. }
  rewrite Ev, Et. destruct (system _ _ _ _ _ _ _); cbn [fst snd sv_memory]; auto.
Qed.
End Seen.
Print Assumptions forces_of_a_request_see_its_history.
(** The hypotheses are met by the server of Request_Props, asked with one state. *)
Example request_witness : exists h rest i, sv_memory started = h :: rest /\ rq_states (with_angle 1) = [] ++ [at_rest] /\ make_server_inputs (Rarith Solver_Props.same) (rq_Dt (with_angle 1)) 0 ([] ++ [at_rest]) = Ok i.
Proof. destruct (inputs_at_rest (rq_Dt (with_angle 1))) as (f & E0). do 3 eexists. split; [reflexivity|]. split; [reflexivity|]. exact E0. Qed.
