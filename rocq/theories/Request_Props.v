(** C174: what the answer of a server depends on *)
From Coq Require Import ZArith Reals Lra Lia List String Bool FunctionalExtensionality.
From Verif Require Import Common History_Model History_Real_Proofs Builder_Model Builder_Proofs Command_Model Server_Model Server_Props Solver_Model Solver_Props Request_Model.
Import ListNotations.
Open Scope R_scope.

Section Props.
Variable aeqR : Z -> R -> R -> bool.
Hypothesis aeqR_refl : forall n x, aeqR n x x = true.
Notation A := (Rarith aeqR).
Context {Itp E : Type}.
Notation commands := (@data_source Itp).
Variable Tmax : R.
Hypothesis Tmax_pos : 0 <= Tmax.
Variable forced : nat -> list R -> R -> outcome (list R).
Variable derivatives : commands -> list (memory aeqR) -> nat -> list R -> list R -> R -> outcome (list R).
Variable efforts : commands -> list (memory aeqR) -> E.
Variable after : list R -> R -> list R.
Variable written : list R -> R -> list R.
Variable count : R -> R -> R -> nat.
Notation me := (me_request aeqR 1 Tmax forced derivatives efforts).
Notation mes := (me_requests aeqR 1 Tmax forced derivatives efforts).
Notation cs := (cs_request aeqR 1 Tmax forced derivatives efforts after written count).
Notation css := (cs_requests aeqR 1 Tmax forced derivatives efforts after written count).

(** ** The commands in force *)
(** The latest value given to a command by a list of (name, value), if any. *)
Definition latest (n : string) (l : list (string * R)) : option R :=
  fold_left (fun o p => if string_dec (fst p) n then Some (snd p) else o) l None.
Lemma latest_acc n l : forall o, fold_left (fun o p => if string_dec (fst p) n then Some (snd p) else o) l o = match latest n l with Some v => Some v | None => o end.
Proof.
  unfold latest. set (f := fun (o : option R) (p : string * R) => if string_dec (fst p) n then Some (snd p) else o).
  induction l as [|p l IH]; intros o; [reflexivity|]. change (fold_left f (p :: l) o) with (fold_left f l (f o p)). change (fold_left f (p :: l) None) with (fold_left f l (f None p)).
  rewrite (IH (f o p)), (IH (f None p)). destruct (fold_left f l None); [reflexivity|]. unfold f. destruct (string_dec (fst p) n); reflexivity.
Qed.
Lemma set_commands_get l : forall ds n, map_get (@set_commands Itp ds l) n = match latest n l with Some v => Some (Constant v) | None => map_get ds n end.
Proof.
  induction l as [|(a, v) l IH]; intros ds n; cbn [set_commands]; [reflexivity|]. rewrite IH. unfold latest at 2. cbn [fold_left fst snd]. rewrite latest_acc.
  destruct (latest n l); [reflexivity|]. rewrite map_get_set. destruct (string_dec a n); reflexivity.
Qed.
(** The request was well enough formed for its commands to be taken. *)
Definition taken_by_me (r : request aeqR) : Prop := exists i, make_server_inputs A (rq_Dt r) Tmax (rq_states r) = Ok i.
Lemma history_state_ok i Dt ys : make_server_inputs A Dt Tmax ys = Ok i -> L (s_x (history_except_last i)) <> [] -> exists v, get_StateType A (history_except_last i) (List.length (L (s_x (history_except_last i))) - 1) = Ok v.
Proof.
  intros Ei N. destruct (server_histories_are_consistent A Dt Tmax ys i Ei) as (K & _). generalize dependent (history_except_last i). intros s N K.
  set (n := (List.length (L (s_x s)) - 1)%nat). assert (Hn : (n < List.length (L (s_x s)))%nat) by (unfold n; destruct (L (s_x s)); [congruence|cbn; lia]).
  clearbody n. destruct K as (l & K). unfold states_of_history in K. cbv zeta in K. destruct (check_state_history_size A s) as [[]| |] eqn:K'; [|discriminate|discriminate]. clear K. rename K' into K. unfold check_state_history_size in K. cbv zeta in K.
  repeat match type of K with (if negb (?a =? ?b)%nat then _ else _) = _ => let X := fresh "X" in destruct (a =? b)%nat eqn:X; cbn [negb] in K; [|discriminate]; apply Nat.eqb_eq in X end.
  assert (Q : forall h : hist A, List.length (L h) = List.length (L (s_x s)) -> exists p, at_throw (L h) n = Ok p).
  { intros h Hh. unfold at_throw. destruct (nth_error (L h) n) as [p|] eqn:Ep; [exists p; reflexivity|]. apply nth_error_None in Ep. lia. }
  unfold get_StateType.
  repeat match goal with |- exists _, bindO (at_throw (L ?h) n) _ = _ => let p := fresh in let Ep := fresh in destruct (Q h) as (p & Ep); [first [assumption|reflexivity]|]; rewrite Ep; cbn [bindO]; clear Ep end.
  eexists. reflexivity.
Qed.
Lemma me_commands s r x m : sv_memory s = x :: m -> taken_by_me r -> sv_commands (fst (me s r)) = set_commands (sv_commands s) (rq_commands r).
Proof.
  intros Em (i & Ei). unfold me_request. rewrite Ei, Em. unfold set_bodystates. destruct (L (s_x (history_except_last i))) as [|p l] eqn:EL.
  - destruct (system _ _ _ _ _ _ _); reflexivity.
  - destruct (history_state_ok i _ _ Ei) as (v & Ev); [rewrite EL; discriminate|]. rewrite EL in Ev. rewrite Ev. cbn [bindO]. destruct (system _ _ _ _ _ _ _); reflexivity.
Qed.

(** ** Model exchange: the derivatives answered depend on the request only *)
(** The forces use the commands named in [used] only. *)
Definition uses (used : list string) : Prop :=
  forall c1 c2, (forall n, In n used -> map_get c1 n = map_get c2 n) ->
    (forall m idx x dx t, derivatives c1 m idx x dx t = derivatives c2 m idx x dx t) /\ (forall m, efforts c1 m = efforts c2 m).
Definition gives (r : request aeqR) (n : string) : Prop := In n (map fst (rq_commands r)).
Lemma gives_latest r n : gives r n -> exists v, latest n (rq_commands r) = Some v.
Proof.
  unfold gives. generalize (rq_commands r). induction l as [|(a, v) l IH]; cbn [map In fst]; [intros []|]. intros [->|I]; unfold latest; cbn [fold_left fst snd]; rewrite latest_acc.
  - destruct (latest n l); [eauto|]. destruct (string_dec n n); [eauto|congruence].
  - destruct (IH I) as (w & ->). eauto.
Qed.
Lemma same_commands used r c1 c2 : (forall n, In n used -> gives r n) -> forall n, In n used -> map_get (set_commands c1 (rq_commands r)) n = map_get (@set_commands Itp c2 (rq_commands r)) n.
Proof. intros G n I. rewrite !set_commands_get. destruct (gives_latest r n (G n I)) as (v & ->). reflexivity. Qed.
Lemma same_derivatives used c1 c2 : uses used -> (forall n, In n used -> map_get c1 n = map_get c2 n) -> derivatives c1 = derivatives c2 /\ efforts c1 = efforts c2.
Proof.
  intros U H. destruct (U c1 c2 H) as (Hd & He). split.
  - repeat (apply functional_extensionality; intro). apply Hd.
  - apply functional_extensionality. exact He.
Qed.
Lemma memory_of_one (s : server aeqR (Itp := Itp) (E := E)) : List.length (sv_memory s) = 1%nat -> exists h, sv_memory s = [h].
Proof. destruct (sv_memory s) as [|h [|? ?]]; cbn; try lia. intros _. exists h. reflexivity. Qed.
Lemma update_length idx m x t : match update_body_states aeqR forced idx m x t with Done m' _ => List.length m' = List.length m | Failed m' => List.length m' = List.length m | Wild => True end.
Proof.
  unfold update_body_states. destruct (forced idx x t) as [y| |]; auto. destruct (nth_error m idx) as [h|]; auto. destruct (record_states aeqR h t (states_of_body y idx)) as [(hs, b)|]; auto.
  destruct b; apply length_set_nth.
Qed.
Definition kept {X} (k : nat) (r : result aeqR X) : Prop := match r with Done m _ => List.length m = k | Failed m => List.length m = k | Wild => True end.
Lemma kept_bind {X Y} (r : result aeqR X) (f : list (memory aeqR) -> X -> result aeqR Y) k : kept k r -> (forall m x, List.length m = k -> kept k (f m x)) -> kept k (bind aeqR r f).
Proof. intros H F. destruct r as [m x|m|]; cbn in *; auto. Qed.
Lemma dx_dt_length d : forall n idx m x dx t, kept (List.length m) (dx_dt aeqR forced d n idx m x dx t).
Proof.
  induction n as [|n IH]; intros idx m x dx t; cbn [dx_dt]; [reflexivity|]. apply kept_bind; [exact (update_length idx m x t)|].
  intros m' _ Hm. destruct (d m' idx x dx t) as [dx'| |]; cbn; auto. rewrite <- Hm. apply IH.
Qed.
Lemma system_length d n m x t : kept (List.length m) (system aeqR forced d n m x t).
Proof. apply dx_dt_length. Qed.
Lemma stages_length d n : forall c table m x t dt ks, kept (List.length m) (stages aeqR forced d n c table m x t dt ks).
Proof.
  induction c as [|c cs' IH]; intros [|row table] m x t dt ks; cbn [stages]; try reflexivity. apply kept_bind; [apply system_length|].
  intros m' k Hm. rewrite <- Hm. apply IH.
Qed.
Lemma do_step_length d n s m x t dt : kept (List.length m) (do_step aeqR forced d n s m x t dt).
Proof. unfold do_step. apply kept_bind; [apply stages_length|]. intros m' ks Hm. exact Hm. Qed.
Lemma set_bodystates_length m x s m' x' : set_bodystates aeqR m x s = Ok (m', x') -> List.length m' = List.length m.
Proof.
  unfold set_bodystates. destruct m as [|h m]; [discriminate|]. destruct (L (s_x s)).
  - intros H. injection H as <- <-. reflexivity.
  - destruct (get_StateType A _ _); cbn [bindO]; try discriminate. intros H. injection H as <- <-. reflexivity.
Qed.
Lemma me_length s r : List.length (sv_memory (fst (me s r))) = List.length (sv_memory s).
Proof.
  unfold me_request. destruct (make_server_inputs A _ _ _) as [i| |]; [|reflexivity|reflexivity]. destruct (set_bodystates aeqR _ _ _) as [(m, x)| |] eqn:B; [|reflexivity|reflexivity].
  apply set_bodystates_length in B. rewrite <- B. pose proof (system_length (derivatives (set_commands (sv_commands s) (rq_commands r))) 1 m (state_at_t i) (in_t i)) as K.
  destruct (system _ _ _ _ _ _ _); cbn in *; auto.
Qed.
Lemma me_requests_length l : forall s, List.length (sv_memory (mes s l)) = List.length (sv_memory s).
Proof. unfold me_requests. induction l as [|r l IH]; intros s; cbn [fold_left]; [reflexivity|]. rewrite IH. apply me_length. Qed.
Lemma me_same used s1 s2 r : uses used -> (forall n, In n used -> gives r n) -> List.length (sv_memory s1) = 1%nat -> List.length (sv_memory s2) = 1%nat -> snd (me s1 r) = snd (me s2 r).
Proof.
  intros U G L1 L2. destruct (memory_of_one s1 L1) as (h1 & E1), (memory_of_one s2 L2) as (h2 & E2). unfold me_request. rewrite E1, E2.
  destruct (make_server_inputs A _ _ _) as [i| |]; [|reflexivity|reflexivity]. unfold set_bodystates.
  destruct (same_derivatives used _ _ U (same_commands used r (sv_commands s1) (sv_commands s2) G)) as (-> & ->).
  destruct (L (s_x (history_except_last i))) as [|p l].
  - destruct (system _ _ _ _ _ _ _); reflexivity.
  - destruct (get_StateType A _ _); cbn [bindO]; [|reflexivity|reflexivity]. destruct (system _ _ _ _ _ _ _); reflexivity.
Qed.
(** Whatever requests a server has treated, failures included, its answer is that of a server just started. *)
Theorem derivatives_depend_on_the_request_partial : forall used s l r, uses used -> List.length (sv_memory s) = 1%nat -> (forall n, In n used -> gives r n) ->
  snd (me (mes s l) r) = snd (me s r).
Proof. intros used s l r U Hs G. apply me_same with (used := used); auto. rewrite me_requests_length. exact Hs. Qed.

(** ** Co-simulation *)
Lemma play_length s c : forall n i m x t0 dt, let '(_, _, e) := play aeqR 1 forced derivatives efforts after written s c n i m x t0 dt in kept (List.length m) e.
Proof.
  induction n as [|n IH]; intros i m x t0 dt; cbn [play]; [reflexivity|]. pose proof (do_step_length (derivatives c) 1 s m x (t0 + INR i * dt) dt) as K.
  destruct (do_step _ _ _ _ _ _ _ _ _) as [m' y|m'|]; cbn in K; [|exact K|exact I].
  specialize (IH (S i) m' (after y (t0 + INR i * dt)) t0 dt). destruct (play _ _ _ _ _ _ _ _ _ _ _ m' _ _ _) as ((obs, z), e). rewrite K in IH. exact IH.
Qed.
Lemma cs_length solver dt s r : List.length (sv_memory (fst (cs solver dt s r))) = List.length (sv_memory s).
Proof.
  unfold cs_request. destruct (make_server_inputs A _ _ _) as [i| |]; [|reflexivity|reflexivity]. destruct (negb _); [reflexivity|]. cbv zeta.
  assert (Lr : List.length (reset_histories aeqR (sv_memory s)) = List.length (sv_memory s)) by apply map_length.
  destruct (set_bodystates aeqR _ _ _) as [(m, x)| |] eqn:B; [|exact Lr|reflexivity]. apply set_bodystates_length in B. rewrite Lr in B.
  destruct (solver_of_the_server solver) as [me0| |]; [|exact B|exact B].
  match goal with |- context [play aeqR 1 forced derivatives efforts after written ?a ?b ?c ?d ?e ?f ?g ?h] => pose proof (play_length a b c d e f g h) as K; destruct (play aeqR 1 forced derivatives efforts after written a b c d e f g h) as ((obs, z), e0) end.
  rewrite B in K. destruct e0 as [m' u|m'|]; cbn in *; [|exact K|exact B]. unfold after_conversion. destruct m' as [|h m']; cbn in *; auto.
Qed.
Lemma cs_requests_length solver dt l : forall s, List.length (sv_memory (css solver dt s l)) = List.length (sv_memory s).
Proof. unfold cs_requests. induction l as [|r l IH]; intros s; cbn [fold_left]; [reflexivity|]. rewrite IH. apply cs_length. Qed.

(** Two answers with the same dates and states, and the same efforts but perhaps at the first instant. *)
Definition same_but_first_efforts (a b : outcome (list (observation (E := E)))) : Prop :=
  match a, b with
  | Ok (o1 :: l1), Ok (o2 :: l2) => ob_t o1 = ob_t o2 /\ ob_states o1 = ob_states o2 /\ l1 = l2
  | Throw, Throw => True
  | UB, UB => True
  | _, _ => False
  end.
Lemma cs_same used solver dt s1 s2 r : uses used -> (forall n, In n used -> gives r n) -> rq_states r <> [] -> List.length (sv_memory s1) = 1%nat -> List.length (sv_memory s2) = 1%nat ->
  same_but_first_efforts (snd (cs solver dt s1 r)) (snd (cs solver dt s2 r)).
Proof.
  intros U G N L1 L2. destruct (memory_of_one s1 L1) as (h1 & E1), (memory_of_one s2 L2) as (h2 & E2). unfold cs_request. rewrite E1, E2.
  destruct (make_server_inputs A _ _ _) as [i| |] eqn:Ei; [|exact I|exact I]. destruct (exists_last N) as (ys & back & Ey). rewrite Ey in Ei.
  assert (K : forall p, cs_start A p i = if lt A (zero A) (rq_Dt r) then Ok (y_t back, Server_Spec.vector (y_val back)) else Throw).
  { intros p. apply (cs_step_starts_from_last_received A (R_laws aeqR aeqR_refl) (rq_Dt r) Tmax ys back i p); [|exact Ei]. change (Rltb Tmax 0 = false). apply Rltb_false. exact Tmax_pos. }
  destruct (server_current_state_is_last_received A _ _ _ _ _ Ei) as (Et & ED & _). unfold cs_start in K. rewrite ED in *. change (lt A 0 (rq_Dt r)) with (lt A (zero A) (rq_Dt r)).
  destruct (lt A (zero A) (rq_Dt r)); cbn [negb] in *; [|exact I]. unfold set_bodystates, reset_histories. cbn [map]. cbv zeta.
  destruct (L (s_x (full_history i))) as [|p l] eqn:EL.
  - exfalso. pose proof (K []) as K1. pose proof (K [0]) as K2. rewrite <- K1 in K2. discriminate.
  - destruct (get_StateType A _ _) as [v| |]; cbn [bindO] in *; [|exact I|exact I].
    destruct (same_derivatives used _ _ U (same_commands used r (sv_commands s1) (sv_commands s2) G)) as (Hd & He).
    destruct (solver_of_the_server solver) as [me0| |]; [|exact I|exact I].
    assert (P : forall c1 c2, derivatives c1 = derivatives c2 -> efforts c1 = efforts c2 -> forall n k m x t0 dt,
      play aeqR 1 forced derivatives efforts after written me0 c1 n k m x t0 dt = play aeqR 1 forced derivatives efforts after written me0 c2 n k m x t0 dt).
    { clear. intros c1 c2 Hd He. induction n as [|n IH]; intros k m x t0 dt; cbn [play]; [reflexivity|]. rewrite Hd. destruct (do_step _ _ _ _ _ _ _ _ _); [|reflexivity|reflexivity]. rewrite IH, He. reflexivity. }
    rewrite (P _ _ Hd He). destruct (play _ _ _ _ _ _ _ _ _ _ _ _ _ _ _) as ((obs, z), e). destruct e as [m' u|m'|]; cbn; auto.
Qed.
(** Whatever requests a server has treated, a step that gives at least one state and all the commands used has the answer of a server just started, up to
    the efforts of the first instant. *)
Theorem step_depends_on_the_request_partial : forall used solver dt s l r, uses used -> List.length (sv_memory s) = 1%nat -> (forall n, In n used -> gives r n) -> rq_states r <> [] ->
  same_but_first_efforts (snd (cs solver dt (css solver dt s l) r)) (snd (cs solver dt s r)).
Proof. intros used solver dt s l r U Hs G N. apply cs_same with (used := used); auto. rewrite cs_requests_length. exact Hs. Qed.
(** The efforts of the first instant are those left by the previous request. *)
Theorem first_efforts_of_a_step : forall solver dt s r o l, snd (cs solver dt s r) = Ok (o :: l) -> ob_efforts o = sv_efforts s.
Proof.
  intros solver dt s r o l. unfold cs_request. destruct (make_server_inputs A _ _ _) as [i| |]; try discriminate. destruct (negb _); [discriminate|]. cbv zeta.
  destruct (set_bodystates aeqR _ _ _) as [(m, x)| |]; try discriminate. destruct (solver_of_the_server solver) as [me0| |]; try discriminate.
  destruct (play _ _ _ _ _ _ _ _ _ _ _ _ _ _ _) as ((obs, z), e). destruct e; try discriminate. cbn [snd]. intros H. injection H as <- <-. reflexivity.
Qed.
(** A command that a request does not give keeps the value given by the latest request that gave it, otherwise that of the input file. *)
Theorem command_in_force : forall s l n, List.length (sv_memory s) = 1%nat -> Forall taken_by_me l ->
  map_get (sv_commands (mes s l)) n = match latest n (flat_map rq_commands l) with Some v => Some (Constant v) | None => map_get (sv_commands s) n end.
Proof.
  intros s l n. revert s. induction l as [|r l IH]; intros s Hs F; cbn [me_requests fold_left flat_map]; [reflexivity|].
  change (fold_left (fun s r => fst (me s r)) l (fst (me s r))) with (mes (fst (me s r)) l). inversion F as [|? ? Tr Fr]; subst.
  rewrite IH; [|rewrite me_length; exact Hs|exact Fr].
  destruct (memory_of_one s Hs) as (h & Eh). rewrite (me_commands s r h [] Eh Tr).
  rewrite set_commands_get. unfold latest at 3. rewrite fold_left_app. change (fold_left _ (rq_commands r) None) with (latest n (rq_commands r)). rewrite latest_acc. destruct (latest n (flat_map rq_commands l)); reflexivity.
Qed.
End Props.
Print Assumptions derivatives_depend_on_the_request_partial.
Print Assumptions step_depends_on_the_request_partial.
Print Assumptions first_efforts_of_a_step.
Print Assumptions command_in_force.

(** ** A ship whose rudder angle is a command. *)
Definition free (_ : nat) (x : list R) (_ : R) : outcome (list R) := Ok x.
Definition steered (c : @data_source unit) (_ : list (memory same)) (_ : nat) (_ _ : list R) (_ : R) : outcome (list R) :=
  match map_get c "rudder(beta)" with Some (Constant v) => Ok [v] | _ => Throw end.
Definition angle (c : @data_source unit) (_ : list (memory same)) : R := match map_get c "rudder(beta)" with Some (Constant v) => v | _ => 0 end.
Definition started : server same (Itp := unit) (E := R) := mkServer [("rudder(beta)"%string, Constant 5)] blank (repeat 0 13) None.
Definition at_rest : ystate (Rarith same) := @mkY (Rarith same) 0 (mkStates 0 0 0 0 0 0 0 0 0 1 0 0 0).
Definition with_angle (b : R) : request same := mkRequest 1 [at_rest] [("rudder(beta)"%string, b)].
Definition without_angle : request same := mkRequest 1 [at_rest] [].
Lemma same_refl n x : same n x x = true. Proof. unfold same. destruct (Req_EM_T x x); [reflexivity|contradiction]. Qed.
Lemma inputs_at_rest Dt : exists full, make_server_inputs (Rarith same) Dt 0 [at_rest] = Ok (@mkInputs (Rarith same) 0 Dt [0;0;0;0;0;0;0;0;0;1;0;0;0] (new_state (Rarith same) 0) full) .
Proof.
  destruct (server_accepts_ordered_requests (Rarith same) (R_laws same same_refl) Dt 0 [at_rest]) as (i & Ei).
  - change (Rltb 0 0 = false). apply Rltb_false. lra.
  - intros [|a [|b u]] p q v H; discriminate.
  - pose proof Ei as E0. unfold make_server_inputs in E0. cbn [removelast record_all bindO last] in E0. unfold make_server_inputs. cbn [removelast record_all bindO last].
    destruct (record_state (Rarith same) (new_state (Rarith same) 0) at_rest) as [f| |]; try discriminate. exists f. reflexivity.
Qed.
Lemma steered_answer c m x t b : memory_at same 1 0 m -> 0 <= t -> List.length x = 13%nat -> map_get c "rudder(beta)" = Some (Constant b) -> exists m', system same free (steered c) 1 m x t = Done m' [b].
Proof.
  intros M Ht Lx G. unfold system. cbn [dx_dt].
  destruct (update_forward same same_refl free (fun _ _ _ dx _ => Ok dx) 1 m 0 x 0 t) as (m1 & E1 & _); auto; try lia.
  { split; [|eauto]. intros idx y u Ly. exists y. split; reflexivity. }
  rewrite E1. cbn [bind]. unfold steered at 1. rewrite G. cbn [dx_dt]. eexists. reflexivity.
Qed.
Lemma answer_of s r b : sv_memory s = blank \/ (exists h, sv_memory s = [h]) -> rq_states r = [at_rest] -> map_get (set_commands (sv_commands s) (rq_commands r)) "rudder(beta)" = Some (Constant b) ->
  snd (me_request same 1 0 free steered angle s r) = Ok [b].
Proof.
  intros Hm Hr G. unfold me_request. rewrite Hr. destruct (inputs_at_rest (rq_Dt r)) as (f & ->). assert (exists h, sv_memory s = [h]) as (h & ->) by (destruct Hm as [->|H]; [eexists; reflexivity|exact H]).
  unfold set_bodystates. cbn [history_except_last state_at_t in_t new_state s_x L new_history].
  destruct (steered_answer (set_commands (sv_commands s) (rq_commands r)) [histories same (new_state (Rarith same) 0)] [0;0;0;0;0;0;0;0;0;1;0;0;0] 0 b) as (m' & E'); auto; [|lra|].
  - split; [reflexivity|]. constructor; [|constructor]. split; [reflexivity|]. apply Forall_forall. intros k I. assert (k = new_history (Rarith same) 0) by (cbn in I; decompose [or] I; subst; auto; contradiction).
    subst k. split; [exists 0, []; split; [lra|constructor]|intros p []].
  - rewrite E'. reflexivity.
Qed.
(** A request that does not give the command: the value of the file for a server just started, that of an earlier request otherwise. *)
Theorem omitted_command_refuted : exists r l, (forall q, In q l -> taken_by_me same 0 q) /\ taken_by_me same 0 r /\ snd (me_request same 1 0 free steered angle started r) = Ok [5] /\ snd (me_request same 1 0 free steered angle (me_requests same 1 0 free steered angle started l) r) = Ok [1].
Proof.
  exists without_angle, [with_angle 1].
  assert (Tk : forall Dt, exists i, make_server_inputs (Rarith same) Dt 0 [at_rest] = Ok i) by (intros Dt; destruct (inputs_at_rest Dt) as (f & E0); eauto).
  assert (Tq : forall q, In q [with_angle 1] -> taken_by_me same 0 q) by (intros q [<-|[]]; apply Tk).
  split; [exact Tq|]. split; [apply Tk|]. split.
  - apply answer_of; [left; reflexivity|reflexivity|reflexivity].
  - apply answer_of; [right|reflexivity|].
    + apply memory_of_one. rewrite me_requests_length. reflexivity.
    + cbn [rq_commands without_angle set_commands]. rewrite (command_in_force same 0 free steered angle started [with_angle 1] "rudder(beta)" eq_refl).
      * reflexivity.
      * constructor; [apply Tq; left; reflexivity|constructor].
Qed.
Print Assumptions omitted_command_refuted.
Example steered_uses_its_command : uses same steered angle ["rudder(beta)"%string] /\ (forall b, gives same (with_angle b) "rudder(beta)") /\ List.length (sv_memory started) = 1%nat /\ rq_states (with_angle 1) <> [] /\ snd (me_request same 1 0 free steered angle started (with_angle 1)) = Ok [1].
Proof.
  split; [|split; [|split; [reflexivity|split; [discriminate|]]]].
  - intros c1 c2 H. specialize (H _ (or_introl eq_refl)). unfold steered, angle. rewrite H. auto.
  - intros b. left. reflexivity.
  - apply answer_of; [left; reflexivity|reflexivity|reflexivity].
Qed.

(** The efforts of the first instant of a step are those of the end of the previous request. *)
Definition one_step (_ _ _ : R) : nat := 1%nat.
Definition unforced (x : list R) (_ : R) : list R := x.
Notation cs_toy := (cs_request same 1 0 free steered angle unforced unforced one_step).
Lemma full_at_rest Dt : exists full, make_server_inputs (Rarith same) Dt 0 [at_rest] = Ok (@mkInputs (Rarith same) 0 Dt [0;0;0;0;0;0;0;0;0;1;0;0;0] (new_state (Rarith same) 0) full) /\
  memory_at same 1 0 [histories same full].
Proof.
  assert (G : genuine same (new_history (Rarith same) 0)) by (exists 0, []; split; [lra|constructor]).
  destruct (record_forward same same_refl (new_history (Rarith same) 0) 0 0 0 G ltac:(intros p []) (Rle_refl 0)) as (h & E & Gh & Uh).
  destruct (record_forward same same_refl (new_history (Rarith same) 0) 0 0 1 G ltac:(intros p []) (Rle_refl 0)) as (k & F & Gk & Uk).
  exists (mkStates h h h h h h h h h k h h h). split.
  - unfold make_server_inputs. cbn [removelast record_all bindO last]. unfold record_state, new_state, at_rest.
    cbn [s_x s_y s_z s_u s_v s_w s_p s_q s_r s_qr s_qi s_qj s_qk y_t y_val]. rewrite E, F. reflexivity.
  - split; [reflexivity|]. constructor; [|constructor]. split; [reflexivity|]. cbn [histories s_x s_y s_z s_u s_v s_w s_p s_q s_r s_qr s_qi s_qj s_qk]. repeat (constructor; auto).
Qed.
Lemma starts_at_rest f s h : make_server_inputs (Rarith same) 1 0 [at_rest] = Ok (@mkInputs (Rarith same) 0 1 [0;0;0;0;0;0;0;0;0;1;0;0;0] (new_state (Rarith same) 0) f) ->
  set_bodystates same [h] s f = Ok ([histories same f], [0;0;0;0;0;0;0;0;0;1;0;0;0]).
Proof.
  intros Ei. assert (HT : lt (Rarith same) 0 (zero (Rarith same)) = false) by (change (Rltb 0 0 = false); apply Rltb_false; lra).
  pose proof (fun p => cs_step_starts_from_last_received (Rarith same) (R_laws same same_refl) 1 0 [] at_rest _ p HT Ei) as K. unfold cs_start in K. cbn [in_Dt full_history in_t] in K.
  assert (P : lt (Rarith same) (zero (Rarith same)) 1 = true) by (change (Rltb 0 1 = true); apply Rltb_true; lra). rewrite P in K. cbn [negb] in K.
  unfold set_bodystates. destruct (L (s_x f)) as [|p l].
  - exfalso. pose proof (K []) as K1. pose proof (K [0]) as K2. rewrite <- K1 in K2. discriminate.
  - specialize (K []). destruct (get_StateType (Rarith same) f _) as [v| |]; try discriminate. cbn [bindO] in *. injection K as K. rewrite K. reflexivity.
Qed.
Lemma step_succeeds s b : (exists h, sv_memory s = [h]) -> exists s' o l, cs_toy "euler" 1 s (with_angle b) = (s', Ok (o :: l)) /\ sv_efforts s' = Some b.
Proof.
  intros (h & Em). unfold cs_request. cbn [rq_Dt rq_states with_angle]. destruct (full_at_rest 1) as (f & Ei & M). rewrite Ei. cbn [in_Dt in_t full_history].
  assert (P : lt (Rarith same) 0 1 = true) by (change (Rltb 0 1 = true); apply Rltb_true; lra). rewrite P. cbn [negb]. cbv zeta. rewrite Em. unfold reset_histories. cbn [map].
  rewrite (starts_at_rest f _ _ Ei). cbn [solver_of_the_server String.eqb Ascii.eqb Bool.eqb one_step play].
  match goal with |- context [do_step same free (steered ?c) 1 euler ?m ?x ?t ?dt] => destruct (steered_answer c m (combine_with x dt [] []) (t + 0 * dt) b M) as (m' & E') end.
  - cbn. lra.
  - apply combine_with_length.
  - reflexivity.
  - unfold do_step at 1. cbn [stages euler nodes coefficients]. rewrite E'. cbn [bind]. eexists _, _, _. split; [reflexivity|]. reflexivity.
Qed.
Theorem first_efforts_refuted : exists r l o1 l1 o2 l2, snd (cs_toy "euler" 1 started r) = Ok (o1 :: l1) /\
  snd (cs_toy "euler" 1 (cs_requests same 1 0 free steered angle unforced unforced one_step "euler" 1 started l) r) = Ok (o2 :: l2) /\ ob_efforts o1 <> ob_efforts o2.
Proof.
  destruct (step_succeeds started 1) as (s1 & o1 & l1 & E1 & F1); [exists (repeat (new_history (Rarith same) 0) 13); reflexivity|].
  assert (Hm : exists h, sv_memory s1 = [h]).
  { apply memory_of_one. pose proof (cs_length same 0 free steered angle unforced unforced one_step "euler" 1 started (with_angle 1)) as Q. rewrite E1 in Q. exact Q. }
  destruct (step_succeeds s1 1 Hm) as (s2 & o2 & l2 & E2 & _). exists (with_angle 1), [with_angle 1], o1, l1, o2, l2. split; [rewrite E1; reflexivity|].
  unfold cs_requests. cbn [fold_left]. rewrite E1. cbn [fst]. rewrite E2. split; [reflexivity|].
  rewrite (first_efforts_of_a_step same 0 free steered angle unforced unforced one_step "euler" 1 started (with_angle 1) o1 l1) by (rewrite E1; reflexivity).
  rewrite (first_efforts_of_a_step same 0 free steered angle unforced unforced one_step "euler" 1 s1 (with_angle 1) o2 l2) by (rewrite E2; reflexivity).
  rewrite F1. discriminate.
Qed.
Print Assumptions first_efforts_refuted.
