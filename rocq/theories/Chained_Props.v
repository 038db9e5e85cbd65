(** C179: a simulation cut into several requests to the co-simulation server. The model is Request_Model.v. *)
From Verif Require Import Server_Spec.
From Coq Require Import ZArith Reals Lra Lia List String Bool.
From Verif Require Import Common History_Model History_Real_Proofs History_Order_Proofs History_Props Blocked_Model Builder_Model Command_Model Server_Model Server_Proofs Server_Props Sim_Model Sim_Spec Sim_Proofs Sim_Props Solver_Model Solver_Props Request_Model Request_Props Request_History_Props Drift_Model Drift_Props Geometry.
Import ListNotations.
Open Scope list_scope.
Open Scope R_scope.
Notation R := Rdefinitions.R.
Notation Z := BinNums.Z.

(** What a client reads in an observation: the date and the thirteen states. *)
Definition view {E} (o : observation (E := E)) : R * list R := (ob_t o, ob_states o).

Section Chain.
Variable aeqR : Z -> R -> R -> bool.
Hypothesis aeqR_refl : forall n x, aeqR n x x = true.
Notation A := (Rarith aeqR).
Context {Itp E : Type}.
Notation commands := (@data_source Itp).
Variable Tmax : R.
Hypothesis Tmax_pos : 0 <= Tmax.
Variable forced : nat -> list R -> R -> outcome (list R).
Variable derivatives : commands -> list (memory aeqR) -> nat -> list R -> list R -> R -> outcome (list R).
Variable efforts : commands -> list (memory aeqR) -> E.
Variable after : list R -> R -> list R.
Variable written : list R -> R -> list R.
Variable count : R -> R -> R -> nat.
Notation cs := (cs_request aeqR 1 Tmax forced derivatives efforts after written count).
Notation plays := (play aeqR 1 forced derivatives efforts after written).

(** The state that a client builds from an observation, to send it back. *)
Definition sent_back (o : observation (E := E)) : ystate A :=
  let v k := nth k (ob_states o) 0 in
  @mkY A (ob_t o) (mkStates (v 0%nat) (v 1%nat) (v 2%nat) (v 3%nat) (v 4%nat) (v 5%nat) (v 6%nat) (v 7%nat) (v 8%nat) (v 9%nat) (v 10%nat) (v 11%nat) (v 12%nat)).
Lemma sent_back_vector o : List.length (ob_states o) = 13%nat -> vector (y_val (sent_back o)) = ob_states o.
Proof.
  intros Hl. destruct o as [t x e]. unfold sent_back. cbn [ob_states ob_t y_val] in *. do 13 (destruct x as [|? x]; [discriminate|]). destruct x; [|discriminate]. reflexivity.
Qed.
(** Forces without memory: they use the states and the date of the evaluation only. *)
Definition memoryless : Prop := forall c m m' idx x dx t, derivatives c m idx x dx t = derivatives c m' idx x dx t.
(** Received states in the order of their dates. *)
Definition ordered (ys : list (ystate A)) : Prop := forall u a b v, ys = u ++ a :: b :: v -> y_t a <= y_t b.

Lemma record_until h t v h' t0 : genuine aeqR h -> until aeqR t0 h -> t <= t0 -> record A h t v = Returned h' -> until aeqR t0 h'.
Proof.
  intros G U Ht Er. destruct G as (T & recs & HT & Re).
  destruct (history_latest_is_recorded A (laws aeqR aeqR_refl) T h recs t v (T_pos aeqR T HT) Re) as [(h1 & E1)|(h1 & l & t' & E1 & El & _ & Ct)]; [congruence|].
  assert (h1 = h') as -> by congruence. assert (R' : reachable A T h' (recs ++ [(t, v)])) by (eapply reach_record; eauto).
  pose proof (history_strictly_increasing A (laws aeqR aeqR_refl) T h' _ (T_pos aeqR T HT) R') as Hs. unfold dates in Hs. rewrite El in Hs.
  intros p Ip. rewrite El in Ip. pose proof (sorted_last aeqR _ _ Hs p Ip) as Xp. cbn in Xp. change (num A) with R in *.
  destruct Ct as [->|(_ & l0 & w0 & E0)]; [lra|]. specialize (U (t', w0) (last_in aeqR h l0 _ E0)). cbn in U. lra.
Qed.
Lemma threw_same h t v h' : record A h t v = Threw h' -> genuine aeqR h -> h' = h.
Proof.
  intros Er (T & recs & HT & Re). apply (history_refuses_exactly_the_past A (laws aeqR aeqR_refl) T h recs t v (T_pos aeqR T HT) Re h') in Er as (Eh & _). exact Eh.
Qed.
Lemma reachable_until T h recs t0 : 0 <= T -> reachable A T h recs -> Forall (fun p => fst p <= t0) recs -> until aeqR t0 h.
Proof.
  intros HT Re. induction Re as [|h recs t v h' Re IH Er|h recs t v h' Re IH Er|h recs Re IH]; intros F.
  - intros p [].
  - apply Forall_app in F as (F & Fl). inversion Fl as [|? ? Ft _]; subst. cbn in Ft. apply (record_until h t v h' t0); auto. exists T, recs. auto.
  - rewrite (threw_same h t v h' Er); [auto|]. exists T, recs. auto.
  - intros p [].
Qed.
Lemma ordered_last : forall ys back, ordered (ys ++ [back]) -> List.Forall (fun y : ystate A => Rle (y_t y) (y_t back)) (ys ++ [back]).
Proof.
  induction ys as [|a ys IH]; intros back O; [constructor; [apply Rle_refl|constructor]|]. cbn [app]. 
  assert (F : List.Forall (fun y : ystate A => Rle (y_t y) (y_t back)) (ys ++ [back])). { apply IH. intros u x y w Hy. apply (O (a :: u) x y w). cbn. rewrite Hy. reflexivity. }
  constructor; [|exact F]. destruct ys as [|b ys]; cbn [app] in *.
  - apply (O [] a back []). reflexivity.
  - inversion F as [|? ? Fb _]; subst. pose proof (O [] a b (ys ++ [back]) eq_refl) as Oa. change (num A) with R in *. lra.
Qed.

(** ** A step and a sequence of steps do not depend on the memory *)
Lemma system_same c m m' x t0 t : memoryless -> computable aeqR forced (derivatives c) 1 -> memory_at aeqR 1 t0 m -> memory_at aeqR 1 t0 m' -> t0 <= t -> List.length x = 13%nat ->
  exists m1 m1' k, system aeqR forced (derivatives c) 1 m x t = Done m1 k /\ system aeqR forced (derivatives c) 1 m' x t = Done m1' k /\ memory_at aeqR 1 t m1 /\ memory_at aeqR 1 t m1'.
Proof.
  intros Ml C M M' Ht Lx.
  destruct (system_forward aeqR aeqR_refl forced (derivatives c) 1 m x t0 t C M Ht Lx) as (m1 & k & E1 & M1).
  destruct (system_forward aeqR aeqR_refl forced (derivatives c) 1 m' x t0 t C M' Ht Lx) as (m1' & k' & E1' & M1').
  exists m1, m1', k. split; [exact E1|]. split; [|auto].
  unfold system in E1, E1'. cbn [dx_dt] in E1, E1'. unfold system. cbn [dx_dt].
  destruct (update_body_states aeqR forced 0 m x t) as [ma []| |]; cbn [bind] in E1; try discriminate.
  destruct (update_body_states aeqR forced 0 m' x t) as [mb []| |]; cbn [bind] in E1'; try discriminate. cbn [bind].
  rewrite (Ml c mb ma) in E1' |- *. destruct (derivatives c ma 0%nat x (repeat 0 (List.length x)) t) as [d| |]; try discriminate. congruence.
Qed.
Lemma stages_same c : memoryless -> computable aeqR forced (derivatives c) 1 -> forall cs table m m' x t dt t0 ks, 0 <= dt -> Sorted.StronglySorted Rle cs -> List.Forall (fun a => t0 <= t + a * dt <= t + dt) cs -> t0 <= t + dt ->
  memory_at aeqR 1 t0 m -> memory_at aeqR 1 t0 m' -> List.length x = 13%nat ->
  exists m1 m1' ks', stages aeqR forced (derivatives c) 1 cs table m x t dt ks = Done m1 ks' /\ stages aeqR forced (derivatives c) 1 cs table m' x t dt ks = Done m1' ks' /\
    memory_at aeqR 1 (t + dt) m1 /\ memory_at aeqR 1 (t + dt) m1'.
Proof.
  intros Ml C. induction cs as [|a cs IH]; intros table m m' x t dt t0 ks Hd Hs F Hle M M' Lx.
  - exists m, m', ks. repeat split; try reflexivity; try (apply (memory_le aeqR 1 t0 (t + dt)); assumption).
  - destruct table as [|row table]; [exists m, m', ks; repeat split; try reflexivity; try (apply (memory_le aeqR 1 t0 (t + dt)); assumption)|].
    cbn [stages]. inversion Hs as [|? ? Ss Sa]; subst. inversion F as [|? ? Fc Fr]; subst.
    destruct (system_same c m m' (combine_with x dt row ks) t0 (t + a * dt) Ml C M M') as (m1 & m1' & k & -> & -> & M1 & M1'); [lra|rewrite combine_with_length; exact Lx|]. cbn [bind].
    apply (IH table m1 m1' x t dt (t + a * dt)); auto; [|lra].
    rewrite Forall_forall in *. intros d Id. specialize (Sa d Id). specialize (Fr d Id). assert (a * dt <= d * dt) by (apply Rmult_le_compat_r; lra). lra.
Qed.
Lemma step_same c s m m' x t dt : memoryless -> computable aeqR forced (derivatives c) 1 -> 0 <= dt -> in_order s -> memory_at aeqR 1 t m -> memory_at aeqR 1 t m' -> List.length x = 13%nat ->
  exists m1 m1' y, do_step aeqR forced (derivatives c) 1 s m x t dt = Done m1 y /\ do_step aeqR forced (derivatives c) 1 s m' x t dt = Done m1' y /\
    memory_at aeqR 1 (t + dt) m1 /\ memory_at aeqR 1 (t + dt) m1' /\ List.length y = 13%nat.
Proof.
  intros Ml C Hd (Hs & Hf) M M' Lx. unfold do_step.
  destruct (stages_same c Ml C (nodes s) (coefficients s) m m' x t dt t []) as (m1 & m1' & ks & -> & -> & M1 & M1'); auto; [|lra|].
  - apply Forall_impl with (2 := Hf). intros a Ha. assert (a * dt <= 1 * dt) by (apply Rmult_le_compat_r; lra). assert (0 <= a * dt) by (apply Rmult_le_pos; lra). lra.
  - cbn [bind]. exists m1, m1', (combine_with x dt (weights s) ks). repeat split; try reflexivity; try apply M1; try apply M1'. rewrite combine_with_length. exact Lx.
Qed.
(** Starting at the step [i] from t0 or at the step 0 from t0 + i dt. *)
Lemma play_same s c : memoryless -> computable aeqR forced (derivatives c) 1 -> in_order s -> (forall x t, List.length (after x t) = List.length x) ->
  forall n i i' m m' x t0 t0' dt, 0 <= dt -> t0 + INR i * dt = t0' + INR i' * dt -> memory_at aeqR 1 (t0 + INR i * dt) m -> memory_at aeqR 1 (t0 + INR i * dt) m' -> List.length x = 13%nat ->
  exists obs obs' z m1 m1', plays s c n i m x t0 dt = (obs, z, Done m1 tt) /\ plays s c n i' m' x t0' dt = (obs', z, Done m1' tt) /\ map view obs = map view obs' /\
    memory_at aeqR 1 (t0 + INR (i + n) * dt) m1 /\ List.length z = 13%nat.
Proof.
  intros Ml C So Ha. induction n as [|n IH]; intros i i' m m' x t0 t0' dt Hd Ht M M' Lx; cbn [play].
  - exists [], [], x, m, m'. rewrite Nat.add_0_r. auto.
  - rewrite <- Ht. destruct (step_same c s m m' x (t0 + INR i * dt) dt Ml C Hd So M M' Lx) as (m1 & m1' & y & -> & -> & M1 & M1' & Ly).
    assert (Q : t0 + INR i * dt + dt = t0 + INR (S i) * dt) by (rewrite S_INR; ring). rewrite Q in M1, M1'.
    destruct (IH (S i) (S i') m1 m1' (after y (t0 + INR i * dt)) t0 t0' dt Hd) as (obs & obs' & z & m2 & m2' & -> & -> & V & M2 & Lz); auto.
    + rewrite !S_INR. lra.
    + rewrite Ha. exact Ly.
    + do 5 eexists. split; [reflexivity|]. split; [reflexivity|]. split; [|split; [|exact Lz]].
      * cbn [map]. rewrite V. f_equal. unfold view. cbn [ob_t ob_states]. assert (t0 + INR (S i) * dt = t0' + INR (S i') * dt) as -> by (rewrite !S_INR; lra). reflexivity.
      * replace (i + S n)%nat with (S i + n)%nat by lia. exact M2.
Qed.
(** [a + b] steps are [a] steps, then [b] steps. *)
Lemma play_app s c : forall a b i m x t0 dt obs z m1, plays s c a i m x t0 dt = (obs, z, Done m1 tt) ->
  plays s c (a + b) i m x t0 dt = let '(obs2, z2, e) := plays s c b (i + a) m1 z t0 dt in (obs ++ obs2, z2, e).
Proof.
  induction a as [|a IH]; intros b i m x t0 dt obs z m1 H; cbn [play Nat.add] in *.
  - assert (obs = []) as -> by congruence. assert (z = x) as -> by congruence. assert (m1 = m) as -> by congruence. rewrite Nat.add_0_r. destruct (plays s c b i m x t0 dt) as ((o2, z2), e). reflexivity.
  - destruct (do_step _ _ _ _ _ _ _ _ _) as [m' y|m'|]; try discriminate.
    destruct (plays s c a (S i) m' (after y (t0 + INR i * dt)) t0 dt) as ((o', z'), e') eqn:P. injection H as <- -> ->.
    rewrite (IH b (S i) m' (after y (t0 + INR i * dt)) t0 dt o' z m1 P). replace (i + S a)%nat with (S i + a)%nat by lia.
    destruct (plays s c b (S i + a) m1 z t0 dt) as ((o2, z2), e). reflexivity.
Qed.

Lemma play_last s c : forall n i m x t0 dt obs z m1, plays s c (S n) i m x t0 dt = (obs, z, Done m1 tt) -> exists obs0 e, obs = obs0 ++ [mkObs (t0 + INR (i + S n) * dt) (written z (t0 + INR (i + S n) * dt)) e].
Proof.
  induction n as [|n IH]; intros i m x t0 dt obs z m1 H.
  - cbn [play] in H. destruct (do_step _ _ _ _ _ _ _ _ _) as [m' y|m'|]; try discriminate. injection H as <- <- <-. exists []. eexists. cbn [app]. replace (i + 1)%nat with (S i) by lia. reflexivity.
  - set (k := S n) in *. cbn [play] in H. destruct (do_step _ _ _ _ _ _ _ _ _) as [m' y|m'|]; try discriminate.
    destruct (plays s c k (S i) m' (after y (t0 + INR i * dt)) t0 dt) as ((o', z'), e') eqn:P. injection H as <- -> ->.
    destruct (IH (S i) m' (after y (t0 + INR i * dt)) t0 dt o' z m1 P) as (o0 & e & ->). replace (i + S k)%nat with (S i + S n)%nat by (unfold k; lia). eexists (_ :: o0), e. reflexivity.
Qed.

(** ** The answer of a step *)
Lemma step_answer solver method dt s r ys back n : solver_of_the_server solver = Ok method -> List.length (sv_memory s) = 1%nat -> 0 < rq_Dt r -> rq_states r = ys ++ [back] -> ordered (ys ++ [back]) ->
  count (y_t back) (y_t back + rq_Dt r) dt = n ->
  exists m0, memory_at aeqR 1 (y_t back) m0 /\
    let c := set_commands (sv_commands s) (rq_commands r) in
    forall obs z m1, plays method c n 0 m0 (vector (y_val back)) (y_t back) dt = (obs, z, Done m1 tt) ->
      let first := mkObs (y_t back) (written (vector (y_val back)) (y_t back)) (sv_efforts s) in
      snd (cs solver dt s r) = Ok (first :: obs) /\ sv_state (fst (cs solver dt s r)) = z /\ sv_commands (fst (cs solver dt s r)) = c.
Proof.
  intros Em Hl HD Es O Hc. destruct (memory_of_one aeqR s Hl) as (h & Eh).
  destruct (server_accepts_ordered_requests A (R_laws aeqR aeqR_refl) (rq_Dt r) Tmax (ys ++ [back])) as (i & Ei).
  { change (Rltb Tmax 0 = false). apply Rltb_false. exact Tmax_pos. }
  { intros u a b w Hy. change (Rltb (y_t b) (y_t a) = false). apply Rltb_false. exact (O u a b w Hy). }
  destruct (server_current_state_is_last_received A _ _ _ _ _ Ei) as (Et & ED & _).
  assert (K : forall p, cs_start A p i = Ok (y_t back, Server_Spec.vector (y_val back))).
  { intros p. rewrite (cs_step_starts_from_last_received A (R_laws aeqR aeqR_refl) (rq_Dt r) Tmax ys back i p); [|change (Rltb Tmax 0 = false); apply Rltb_false; exact Tmax_pos|exact Ei].
    assert (lt A (zero A) (rq_Dt r) = true) as ->; [|reflexivity]. change (Rltb 0 (rq_Dt r) = true). apply Rltb_true. exact HD. }
  exists [histories aeqR (full_history i)]. split.
  - split; [reflexivity|]. constructor; [|constructor]. split; [reflexivity|]. apply Forall_forall. intros k Ik. 
    assert (histories aeqR (full_history i) = map (fun c => Server_Spec.get c (full_history i)) all_comps) as Eq by reflexivity. rewrite Eq in Ik. apply in_map_iff in Ik as (c & <- & _).
    pose proof (proj2 (server_histories_are_the_received_states A _ _ _ _ _ c Ei)) as Re. split; [eexists Tmax, _; split; [exact Tmax_pos|exact Re]|].
    apply (reachable_until Tmax _ _ (y_t back) Tmax_pos Re). apply Forall_map. cbn [fst]. exact (ordered_last ys back O).
  - intros c obs z m1 P first. unfold cs_request. rewrite Es, Ei, Eh. unfold cs_start in K. rewrite ED, Et in *.
    assert (lt A 0 (rq_Dt r) = true) as LD by (change (Rltb 0 (rq_Dt r) = true); apply Rltb_true; exact HD). rewrite LD. change (lt A (zero A) (rq_Dt r)) with (lt A 0 (rq_Dt r)) in K. rewrite LD in K. cbn [negb] in *. cbv zeta.
    unfold reset_histories. cbn [map]. unfold set_bodystates. destruct (L (s_x (full_history i))) as [|p l] eqn:EL.
    + exfalso. pose proof (K []) as K1. pose proof (K [0]) as K2. rewrite <- K1 in K2. discriminate.
    + specialize (K []). destruct (get_StateType A (full_history i) _) as [v| |]; try discriminate. cbn [bindO] in *.
      assert (v = vector (y_val back)) as -> by congruence. rewrite Em. rewrite Hc. fold c. cbv beta iota. match goal with |- context [play aeqR 1 forced derivatives efforts after written ?a1 ?a2 ?a3 ?a4 ?a5 ?a6 ?a7 ?a8] => replace (play aeqR 1 forced derivatives efforts after written a1 a2 a3 a4 a5 a6 a7 a8) with (obs, z, @Done aeqR unit m1 tt) by (symmetry; exact P) end. cbn [fst snd sv_state sv_commands]. auto.
Qed.

(** The first request lasts [n1] steps; the second one starts from the last state of its answer and lasts [n2] steps, with the same commands. The dates
    and states of the two answers, put end to end, are those of a single request of n1 + n2 steps. *)
Theorem step_in_two_requests_partial : forall used solver dt (s : @server aeqR Itp E) (r1 r2 r : request aeqR) (past past2 : list (ystate A)) (back : ystate A) n1 n2,
  In solver ["euler"; "rk4"]%string -> 0 < dt -> (0 < n1)%nat -> (0 < n2)%nat -> List.length (sv_memory s) = 1%nat ->
  memoryless -> (forall c, computable aeqR forced (derivatives c) 1) -> uses aeqR derivatives efforts used -> (forall x t, List.length (after x t) = List.length x) ->
  (forall t n, count t (t + INR n * dt) dt = n) ->
  (forall n, In n used -> gives aeqR r1 n) -> rq_commands r2 = rq_commands r1 -> rq_commands r = rq_commands r1 ->
  rq_states r1 = past ++ [back] -> rq_states r = past ++ [back] -> ordered (past ++ [back]) ->
  rq_Dt r1 = INR n1 * dt -> rq_Dt r2 = INR n2 * dt -> rq_Dt r = INR (n1 + n2) * dt ->
  exists a1 o, snd (cs solver dt s r1) = Ok (a1 ++ [o]) /\ ob_t o = y_t back + INR n1 * dt /\
   (** the states are written as they are: their quaternion had norm 1 and nothing is forced *)
   (ob_states o = sv_state (fst (cs solver dt s r1)) ->
    rq_states r2 = past2 ++ [sent_back o] -> ordered (past2 ++ [sent_back o]) ->
    exists first a2 a, snd (cs solver dt (fst (cs solver dt s r1)) r2) = Ok (first :: a2) /\ view first = (ob_t o, written (ob_states o) (ob_t o)) /\
      snd (cs solver dt s r) = Ok a /\ map view a = map view (a1 ++ [o]) ++ map view a2).
Proof.
  intros used solver dt s r1 r2 r past past2 back n1 n2 Hs Hdt Hn1 Hn2 Hl Ml C U Ha Hc G Ec2 Ec E1 Er O D1 D2 D.
  assert (exists method, solver_of_the_server solver = Ok method /\ in_order method) as (method & Em & So).
  { destruct rk_in_order as (Oe & Or & _). destruct Hs as [<-|[<-|[]]]; [exists euler|exists rk4]; split; auto. }
  assert (Pos : forall n, (0 < n)%nat -> 0 < INR n * dt) by (intros n Hn; apply Rmult_lt_0_compat; [apply lt_0_INR; exact Hn|exact Hdt]).
  destruct (step_answer solver method dt s r1 past back n1 Em Hl) as (m0 & M0 & A1); auto; [rewrite D1; apply Pos; exact Hn1|rewrite D1; apply Hc|]. cbv zeta in A1.
  set (c := set_commands (sv_commands s) (rq_commands r1)) in *.
  assert (M00 : memory_at aeqR 1 (y_t back + INR 0 * dt) m0) by (cbn [INR]; rewrite Rmult_0_l, Rplus_0_r; exact M0).
  destruct (play_same method c Ml (C c) So Ha n1 0 0 m0 m0 (vector (y_val back)) (y_t back) (y_t back) dt (Rlt_le _ _ Hdt) eq_refl M00 M00 eq_refl) as (obs & _ & z & m1 & _ & P1 & _ & _ & M1 & Lz).
  destruct (A1 obs z m1 P1) as (B1 & B2 & B3). clear A1.
  destruct n1 as [|k]; [lia|]. destruct (play_last method c k 0 m0 _ _ dt obs z m1 P1) as (obs0 & e & Eo). cbn [Nat.add] in Eo. set (t1 := y_t back + INR (S k) * dt) in *. set (o := mkObs t1 (written z t1) e) in *.
  eexists (_ :: obs0), o. split; [rewrite B1, Eo; reflexivity|]. split; [reflexivity|]. intros W E2 O2.
  assert (L2 : List.length (sv_memory (fst (cs solver dt s r1))) = 1%nat) by (rewrite cs_length; exact Hl).
  destruct (step_answer solver method dt (fst (cs solver dt s r1)) r2 past2 (sent_back o) n2 Em L2) as (mb & Mb & A2); auto; [rewrite D2; apply Pos; exact Hn2|rewrite D2; apply Hc|]. cbv zeta in A2.
  assert (Wz : written z t1 = z) by (rewrite <- B2 at 2; exact W).
  assert (Vb : vector (y_val (sent_back o)) = z). { rewrite sent_back_vector by (cbn [o ob_states]; rewrite Wz; exact Lz). cbn [o ob_states]. exact Wz. }
  rewrite Vb in A2. change (y_t (sent_back o)) with t1 in A2, Mb. rewrite B3 in A2. set (c2 := set_commands c (rq_commands r2)) in *.
  destruct (step_answer solver method dt s r past back (S k + n2) Em Hl) as (m0' & M0' & A3); auto; [rewrite D; apply Pos; lia|rewrite D; apply Hc|]. cbv zeta in A3. rewrite Ec in A3. fold c in A3.
  assert (M00' : memory_at aeqR 1 (y_t back + INR 0 * dt) m0') by (cbn [INR]; rewrite Rmult_0_l, Rplus_0_r; exact M0').
  destruct (play_same method c Ml (C c) So Ha (S k) 0 0 m0 m0' (vector (y_val back)) (y_t back) (y_t back) dt (Rlt_le _ _ Hdt) eq_refl M00 M00' eq_refl) as (obs3 & obs3' & z3 & m3 & m3' & P3 & P3' & V3 & M3 & L3).
  rewrite P1 in P3. assert (obs3 = obs) as -> by congruence. assert (z3 = z) as -> by congruence. clear P3.
  destruct (play_same method c Ml (C c) So Ha (S k) 0 0 m0' m0' (vector (y_val back)) (y_t back) (y_t back) dt (Rlt_le _ _ Hdt) eq_refl M00' M00' eq_refl) as (obs4 & _ & z4 & m4 & _ & P4 & _ & _ & M4 & _).
  rewrite P3' in P4. assert (m4 = m3') as -> by congruence. clear P4.
  assert (Mt : memory_at aeqR 1 (t1 + INR 0 * dt) mb) by (cbn [INR]; rewrite Rmult_0_l, Rplus_0_r; exact Mb).
  assert (Mt' : memory_at aeqR 1 (t1 + INR 0 * dt) m3') by (cbn [INR]; rewrite Rmult_0_l, Rplus_0_r; exact M4).
  assert (c2c : derivatives c2 = derivatives c /\ efforts c2 = efforts c).
  { apply (same_derivatives aeqR derivatives efforts used c2 c U). intros q Iq. unfold c2, c. rewrite Ec2. rewrite !set_commands_get. destruct (gives_latest aeqR r1 q (G q Iq)) as (w & ->). reflexivity. }
  assert (Pc : forall n i m x t0 d, plays method c2 n i m x t0 d = plays method c n i m x t0 d).
  { destruct c2c as (Hd' & He'). induction n as [|n IH]; intros i m x t0 d; cbn [play]; [reflexivity|]. rewrite Hd'. destruct (do_step _ _ _ _ _ _ _ _ _); [|reflexivity|reflexivity]. rewrite IH, He'. reflexivity. }
  destruct (play_same method c Ml (C c) So Ha n2 0 (S k) mb m3' z t1 (y_t back) dt (Rlt_le _ _ Hdt)) as (obs2 & obs2' & z2 & m2 & m2' & P2 & P2' & V2 & _ & _); auto.
  { unfold t1. cbn [INR]. ring. }
  destruct (A2 obs2 z2 m2) as (A2' & _); [rewrite Pc; exact P2|].
  destruct (A3 (obs3' ++ obs2') z2 m2') as (A3' & _). { rewrite (play_app method c (S k) n2 0 m0' _ _ dt obs3' z m3' P3'). cbn [Nat.add]. rewrite P2'. reflexivity. }
  eexists _, obs2, _. split; [exact A2'|]. split; [unfold view; cbn [ob_t ob_states o]; rewrite !Wz; reflexivity|]. split; [exact A3'|].
  cbn [map app]. f_equal. rewrite map_app, <- V3, V2, Eo. reflexivity.
Qed.
End Chain.
Print Assumptions step_in_two_requests_partial.

(** ** A ship that turns: the answer of the first request has a normalised quaternion, the integration goes on with one that is not (C175). *)
Definition exactly_equal (a b : R) : bool := if Req_EM_T a b then true else false.
Definition no_command (_ : @data_source unit) : list (memory same) -> nat -> list R -> list R -> R -> outcome (list R) := Drift_Model.derivatives same R rdf free_ship no_effort.
Definition no_report (_ : @data_source unit) (_ : list (memory same)) : unit := tt.
Definition observed (x : list R) (t : R) : list R := match output_states rf exactly_equal [free_ship 0] x t with Ok y => y | _ => x end.
Definition scheduled (t0 t1 dt : R) : nat := Z.to_nat (up ((t1 - t0) / dt) - 1).
Notation turning_server := (cs_request same 1 0 (Drift_Model.forced R rf free_ship) no_command no_report (fun x _ => x) observed scheduled).
Definition spinning : ystate (Rarith same) := @mkY (Rarith same) 0 (mkStates 0 0 0 1 0 0 0 0 (3 / 2) 1 0 0 0).
Definition idle : @server same unit unit := mkServer [] blank (repeat 0 13) None.

Lemma scheduled_count dt : 0 < dt -> forall t n, scheduled t (t + INR n * dt) dt = n.
Proof.
  intros Hd t n. unfold scheduled. replace ((t + INR n * dt - t) / dt) with (INR n) by (field; lra).
  rewrite <- (tech_up (INR n) (Z.of_nat n + 1)); [lia| |]; rewrite plus_IZR, <- INR_IZR_INZ; lra.
Qed.
Lemma no_command_memoryless : memoryless same no_command.
Proof. intros c m m' idx x dx t. reflexivity. Qed.
Lemma no_command_computable c : computable same (Drift_Model.forced R rf free_ship) (no_command c) 1.
Proof. apply free_bodies_computable; [exact free_numbered|intros i s _; destruct s; reflexivity|intros; unfold no_effort; eauto]. Qed.
Lemma euler_ship c m x t dt m1 y : List.length x = 13%nat -> do_step same (Drift_Model.forced R rf free_ship) (no_command c) 1 euler m x t dt = Done m1 y ->
  List.length y = 13%nat /\ forall j, (j < 13)%nat -> state_of y 0 j = state_of x 0 j + dt * nth j (free_derivative (free_ship 0) (fun _ => 0) (entries (get_rot_from_ned_to x 0)) x) 0.
Proof.
  intros Lx H2. apply (euler_inv same R rf rdf free_ship no_effort 1 m x t dt m1 y) in H2 as (k & H2 & ->). split; [rewrite combine_with_length; exact Lx|]. intros j Hj.
  rewrite state_of_combine by (cbn [Nat.mul Nat.add]; lia). cbn [combine map fold_right fst snd]. f_equal. f_equal.
  unfold evaluate, system in H2. cbn [Solver_Model.dx_dt] in H2.
  destruct (update_body_states same (Drift_Model.forced R rf free_ship) 0 m x t) as [m3 []| |]; cbn [bind] in H2; try discriminate.
  destruct (Drift_Model.derivatives same R rdf free_ship no_effort m3 0 x (repeat 0 (List.length x)) t) as [d| |] eqn:E; try discriminate. assert (k = d) as -> by congruence. clear H2.
  unfold Drift_Model.derivatives, no_effort in E. cbn [bindO] in E. apply calc_inv in E as (dx1 & Fd & _ & V & _). unfold force_state_derivatives in Fd. rewrite free_loop in Fd by (intros s; destruct s; reflexivity).
  injection Fd as <-. specialize (V j Hj). cbn [free_ship ship bd_idx Nat.mul Nat.add] in V. unfold state_of at 1. cbn [Nat.mul Nat.add].
  destruct (nth_error dx1 j) as [v|] eqn:Qe.
  - rewrite (nth_error_nth _ _ 0 Qe). symmetry in V. pose proof (nth_error_nth _ _ 0 V) as V'. rewrite V'. ring.
  - symmetry in V. apply nth_error_None in V. unfold free_derivative in V. cbn [List.length] in V. lia.
Qed.
Lemma list_of_states (y : list R) (l : list R) : List.length y = 13%nat -> List.length l = 13%nat -> (forall j, (j < 13)%nat -> state_of y 0 j = nth j l 0) -> y = l.
Proof. intros Ly Ll H. apply (nth_ext y l 0 0); [congruence|]. intros n Hn. specialize (H n ltac:(lia)). exact H. Qed.
Ltac states := unfold state_of, free_derivative, entries, get_rot_from_ned_to, qmat; cbn [nth Nat.mul Nat.add state_of free_ship ship bd_idx bd_Minv r1 r2 r3 vx vy vz]; unfold state_of; cbn [nth Nat.mul Nat.add]; try lra.
Definition start : list R := [0; 0; 0; 1; 0; 0; 0; 0; 3 / 2; 1; 0; 0; 0].
Definition second : list R := [1; 0; 0; 1; 0; 0; 0; 0; 3 / 2; 1; 0; 0; 3 / 4].
Definition second_seen : list R := [1; 0; 0; 1; 0; 0; 0; 0; 3 / 2; 4 / 5; 0; 0; 3 / 5].
Lemma first_step c m t m1 y : do_step same (Drift_Model.forced R rf free_ship) (no_command c) 1 euler m start t 1 = Done m1 y -> y = second.
Proof.
  intros H. apply euler_ship in H as (Ly & H); [|reflexivity]. apply list_of_states; [exact Ly|reflexivity|]. intros j Hj. rewrite H by exact Hj.
  unfold start, second. do 13 (destruct j as [|j]; [states|]). lia.
Qed.
Lemma observed_second t : observed second t = second_seen.
Proof.
  unfold observed, output_states. cbn [block_states_loop]. unfold force_states. rewrite free_loop by (intros s; destruct s; reflexivity). cbn [bindO List.length].
  unfold normalize_quaternions. cbn [normalize_from]. unfold normalize_one. cbn [second QRIDX QIIDX QJIDX QKIDX at_ub nth_error bindO Nat.mul Nat.add].
  assert (hypot (hypot (hypot 1 0) 0) (3 / 4) = 5 / 4) as ->.
  { unfold hypot. replace (1 * 1 + 0 * 0) with 1 by ring. rewrite sqrt_1. replace (1 * 1 + 0 * 0) with 1 by ring. rewrite sqrt_1. replace (1 * 1 + 3 / 4 * (3 / 4)) with (5 / 4 * (5 / 4)) by field. apply sqrt_square. lra. }
  unfold exactly_equal. destruct (Req_EM_T (5 / 4) 1) as [Hq|_]; [lra|].
  unfold second, second_seen, set_all. cbn [set_all set_ub set_nth nth_error List.length Nat.ltb Nat.leb bindO]. do 13 (apply (f_equal2 (@cons R)); [first [reflexivity|field]|]). reflexivity.
Qed.
Lemma observed_other_states x t j : (j < 9)%nat -> List.length x = 13%nat -> nth j (observed x t) 0 = nth j x 0.
Proof.
  intros Hj Lx. unfold observed, output_states. cbn [block_states_loop]. unfold force_states. rewrite free_loop by (intros s; destruct s; reflexivity). cbn [bindO List.length].
  destruct (normalisation_succeeds exactly_equal 1 x ltac:(lia)) as (x' & E). rewrite E. unfold normalize_quaternions in E. apply normalize_from_spec in E as (_ & O & _).
  assert (nth_error x' j = nth_error x j) as Hn by (apply O; intros m Hm Hq; unfold quaternion_slot in Hq; lia). rewrite <- (nth_default_eq j x' 0), <- (nth_default_eq j x 0). unfold nth_default. rewrite Hn. reflexivity.
Qed.
Lemma second_step c m t x m1 y : do_step same (Drift_Model.forced R rf free_ship) (no_command c) 1 euler m x t 1 = Done m1 y -> List.length x = 13%nat ->
  List.length y = 13%nat /\ nth 1 y 0 = nth 1 x 0 + nth 3 x 0 * (2 * (nth 10 x 0 * nth 11 x 0 + nth 12 x 0 * nth 9 x 0)) + nth 4 x 0 * (1 - 2 * (nth 10 x 0 * nth 10 x 0 + nth 12 x 0 * nth 12 x 0)) + nth 5 x 0 * (2 * (nth 11 x 0 * nth 12 x 0 - nth 10 x 0 * nth 9 x 0)).
Proof.
  intros H Lx. apply euler_ship in H as (Ly & H); [|exact Lx]. split; [exact Ly|]. specialize (H 1%nat ltac:(lia)). unfold state_of at 1 2 in H. cbn [Nat.mul Nat.add] in H. rewrite H.
  unfold free_derivative, entries, get_rot_from_ned_to, qmat. cbn [nth free_ship ship bd_idx r1 r2 r3 vx vy vz]. unfold state_of. cbn [Nat.mul Nat.add]. ring.
Qed.
(** The same voyage of two seconds: 1.5 m to starboard when it is one request, 0.96 m when it is two. *)
Theorem step_in_two_requests_refuted : exists (r1 r2 r : request same) first o first2 o2 p1 p2 p3,
  rq_states r1 = [spinning] /\ rq_states r = [spinning] /\ rq_states r2 = [sent_back same o] /\ rq_commands r1 = [] /\ rq_commands r2 = [] /\ rq_commands r = [] /\ rq_Dt r1 = 1 /\ rq_Dt r2 = 1 /\ rq_Dt r = 2 /\
  quaternion2 (vector (y_val spinning)) 0 = 1 /\
  snd (turning_server "euler" 1 idle r1) = Ok [first; o] /\
  snd (turning_server "euler" 1 (fst (turning_server "euler" 1 idle r1)) r2) = Ok [first2; o2] /\
  snd (turning_server "euler" 1 idle r) = Ok [p1; p2; p3] /\
  view p2 = view o /\ ob_t p3 = ob_t o2 /\ nth 1 (ob_states p3) 0 = 3 / 2 /\ nth 1 (ob_states o2) 0 = 24 / 25.
Proof.
  set (r1 := mkRequest 1 [spinning] [] : request same). set (r := mkRequest 2 [spinning] [] : request same).
  assert (Or : ordered same ([] ++ [spinning])) by (intros [|a [|b u]] p q w Hy; discriminate).
  assert (Run : forall c n m x t0, memory_at same 1 t0 m -> List.length x = 13%nat -> exists obs z m1, play same 1 (Drift_Model.forced R rf free_ship) no_command no_report (fun x _ => x) observed euler c n 0 m x t0 1 = (obs, z, Done m1 tt)).
  { intros c n m x t0 M Lx. assert (M' : memory_at same 1 (t0 + INR 0 * 1) m) by (cbn [INR]; rewrite Rmult_0_l, Rplus_0_r; exact M).
    destruct (play_same same Drift_Props.same_refl (Drift_Model.forced R rf free_ship) no_command no_report (fun x _ => x) observed euler c no_command_memoryless (no_command_computable c) (proj1 rk_in_order) (fun _ _ => eq_refl) n 0 0 m m x t0 t0 1 ltac:(lra) eq_refl M' M' Lx) as (obs & _ & z & m1 & _ & P & _). eauto. }
  assert (Zr : 0 <= 0) by lra.
  destruct (step_answer same Drift_Props.same_refl 0 Zr (Drift_Model.forced R rf free_ship) no_command no_report (fun x _ => x) observed scheduled "euler" euler 1 idle r1 [] spinning 1 eq_refl eq_refl ltac:(cbn; lra) eq_refl Or) as (m0 & M0 & A1).
  { pose proof (scheduled_count 1 Rlt_0_1 (y_t spinning) 1) as Q. cbn [INR] in Q. rewrite Rmult_1_l in Q. exact Q. }
  destruct (Run (set_commands (sv_commands idle) (rq_commands r1)) 1%nat m0 start 0 M0 eq_refl) as (obs & z & m1 & P1). destruct (A1 obs z m1 P1) as (B1 & _ & _). clear A1.
  cbn [play] in P1. destruct (do_step _ _ _ _ _ _ _ _ _) as [ma y|ma|] eqn:S1; try discriminate. apply first_step in S1. subst y.
  assert (Eo : obs = [mkObs (0 + INR 1 * 1) (observed second (0 + INR 1 * 1)) (Some tt)]) by (symmetry; exact (f_equal (fun p => fst (fst p)) P1)). rewrite Eo in B1. set (o := mkObs (0 + INR 1 * 1) (observed second (0 + INR 1 * 1)) (Some tt)) in *. clear P1 Eo.
  set (r2 := mkRequest 1 [sent_back same o] [] : request same).
  assert (Or2 : ordered same ([] ++ [sent_back same o])) by (intros [|a [|b u]] p q w Hy; discriminate).
  assert (Lm : List.length (sv_memory (fst (turning_server "euler" 1 idle r1))) = 1%nat) by (rewrite cs_length; reflexivity).
  destruct (step_answer same Drift_Props.same_refl 0 Zr (Drift_Model.forced R rf free_ship) no_command no_report (fun x _ => x) observed scheduled "euler" euler 1 _ r2 [] (sent_back same o) 1 eq_refl Lm ltac:(cbn; lra) eq_refl Or2) as (mb & Mb & A2).
  { pose proof (scheduled_count 1 Rlt_0_1 (y_t (sent_back same o)) 1) as Q. cbn [INR] in Q. rewrite Rmult_1_l in Q. exact Q. }
  assert (So : ob_states o = second_seen) by (cbn [o ob_states]; apply observed_second).
  assert (Vb : vector (y_val (sent_back same o)) = second_seen) by (rewrite sent_back_vector; rewrite So; reflexivity). cbv zeta in A2. rewrite Vb in A2.
  destruct (Run (set_commands (sv_commands (fst (turning_server "euler" 1 idle r1))) (rq_commands r2)) 1%nat mb second_seen (y_t (sent_back same o)) Mb eq_refl) as (obs2 & z2 & m2 & P2). destruct (A2 obs2 z2 m2 P2) as (B2 & _). clear A2.
  cbn [play] in P2. destruct (do_step _ _ _ _ _ _ _ _ _) as [mc y2|mc|] eqn:S2; try discriminate. apply second_step in S2 as (L2 & N2); [|reflexivity].
  set (o2 := mkObs (y_t (sent_back same o) + INR 1 * 1) (observed y2 (y_t (sent_back same o) + INR 1 * 1)) (Some tt)) in *. assert (Eo2 : obs2 = [o2]) by (symmetry; exact (f_equal (fun p => fst (fst p)) P2)). rewrite Eo2 in B2. clear P2 Eo2.
  destruct (step_answer same Drift_Props.same_refl 0 Zr (Drift_Model.forced R rf free_ship) no_command no_report (fun x _ => x) observed scheduled "euler" euler 1 idle r [] spinning 2 eq_refl eq_refl ltac:(cbn; lra) eq_refl Or) as (m0' & M0' & A3).
  { pose proof (scheduled_count 1 Rlt_0_1 (y_t spinning) 2) as Q. replace (INR 2 * 1) with 2 in Q by (cbn; ring). exact Q. }
  destruct (Run (set_commands (sv_commands idle) (rq_commands r)) 2%nat m0' start 0 M0' eq_refl) as (obs3 & z3 & m3 & P3). destruct (A3 obs3 z3 m3 P3) as (B3 & _). clear A3.
  cbn [play] in P3. destruct (do_step _ _ _ _ _ m0' _ _ _) as [md y|md|] eqn:S3; try discriminate. apply first_step in S3. subst y.
  destruct (do_step _ _ _ _ _ md _ _ _) as [me y3|me|] eqn:S4; try discriminate. apply second_step in S4 as (L4 & N4); [|reflexivity].
  set (p2 := mkObs (0 + INR 1 * 1) (observed second (0 + INR 1 * 1)) (Some tt)) in *. set (p3 := mkObs (0 + INR 2 * 1) (observed y3 (0 + INR 2 * 1)) (Some tt)) in *.
  assert (Eo3 : obs3 = [p2; p3]) by (symmetry; exact (f_equal (fun p => fst (fst p)) P3)). rewrite Eo3 in B3. clear P3 Eo3.
  exists r1, r2, r. do 2 eexists. eexists. exists o2. eexists. exists p2, p3. do 9 (split; [reflexivity|]). split; [unfold quaternion2, state_of; cbn; lra|].
  split; [exact B1|]. split; [exact B2|]. split; [exact B3|]. split; [reflexivity|]. split; [cbn; lra|].
  split; [cbn [p3 ob_states]; rewrite observed_other_states by (try lia; exact L4); rewrite N4; cbn [second nth]; lra|].
  cbn [o2 ob_states]; rewrite observed_other_states by (try lia; exact L2); rewrite N2; cbn [second_seen nth]; lra.
Qed.
Print Assumptions step_in_two_requests_refuted.

(** The hypotheses of the positive theorem are met by a ship that goes straight. *)
Definition straight : ystate (Rarith same) := @mkY (Rarith same) 0 (mkStates 0 0 0 1 0 0 0 0 0 1 0 0 0).
Lemma observed_straight y t : y = [1; 0; 0; 1; 0; 0; 0; 0; 0; 1; 0; 0; 0] -> observed y t = y.
Proof.
  intros ->. unfold observed, output_states. cbn [block_states_loop]. unfold force_states. rewrite free_loop by (intros s; destruct s; reflexivity). cbn [bindO List.length].
  unfold normalize_quaternions. cbn [normalize_from]. unfold normalize_one. cbn [QRIDX QIIDX QJIDX QKIDX at_ub nth_error bindO Nat.mul Nat.add].
  assert (hypot (hypot (hypot 1 0) 0) 0 = 1) as ->. { unfold hypot. replace (1 * 1 + 0 * 0) with 1 by ring. rewrite sqrt_1. replace (1 * 1 + 0 * 0) with 1 by ring. rewrite sqrt_1. replace (1 * 1 + 0 * 0) with 1 by ring. apply sqrt_1. }
  unfold exactly_equal. destruct (Req_EM_T 1 1); [reflexivity|contradiction].
Qed.
Example straight_in_two_requests : exists a1 o first a2 a,
  snd (turning_server "euler" 1 idle (mkRequest 1 [straight] [])) = Ok (a1 ++ [o]) /\
  snd (turning_server "euler" 1 (fst (turning_server "euler" 1 idle (mkRequest 1 [straight] []))) (mkRequest 1 [sent_back same o] [])) = Ok (first :: a2) /\
  snd (turning_server "euler" 1 idle (mkRequest 2 [straight] [])) = Ok a /\ map view a = map view (a1 ++ [o]) ++ map view a2 /\ List.length a2 = 1%nat.
Proof.
  assert (Zr : 0 <= 0) by lra. assert (Or : ordered same ([] ++ [straight])) by (intros [|a [|b u]] p q w Hy; discriminate).
  set (r1 := mkRequest 1 [straight] [] : request same).
  destruct (step_answer same Drift_Props.same_refl 0 Zr (Drift_Model.forced R rf free_ship) no_command no_report (fun x _ => x) observed scheduled "euler" euler 1 idle r1 [] straight 1 eq_refl eq_refl ltac:(cbn; lra) eq_refl Or) as (m0 & M0 & A1).
  { pose proof (scheduled_count 1 Rlt_0_1 (y_t straight) 1) as Q. cbn [INR] in Q. rewrite Rmult_1_l in Q. exact Q. }
  set (c := set_commands (sv_commands idle) (rq_commands r1)) in *.
  destruct (step_forward same Drift_Props.same_refl (Drift_Model.forced R rf free_ship) (no_command c) 1 euler m0 (vector (y_val straight)) 0 1 (no_command_computable c) ltac:(lra) (proj1 rk_in_order) M0 eq_refl) as (m1 & y & S1 & _ & _).
  pose proof S1 as S1'. apply euler_ship in S1' as (Ly & Hy); [|reflexivity].
  assert (Ey : y = [1; 0; 0; 1; 0; 0; 0; 0; 0; 1; 0; 0; 0]).
  { apply list_of_states; [exact Ly|reflexivity|]. intros j Hj. rewrite Hy by exact Hj. change (vector (y_val straight)) with [0; 0; 0; 1; 0; 0; 0; 0; 0; 1; 0; 0; 0]. do 13 (destruct j as [|j]; [states|]). lia. }
  destruct (A1 [mkObs (0 + INR 1 * 1) (observed y (0 + INR 1 * 1)) (Some tt)] y m1) as (B1 & B2 & _).
  { cbn [play]. replace (y_t straight + INR 0 * 1) with 0 by (cbn; ring). rewrite S1. reflexivity. }
  destruct (step_in_two_requests_partial same Drift_Props.same_refl 0 Zr (Drift_Model.forced R rf free_ship) no_command no_report (fun x _ => x) observed scheduled [] "euler" 1 idle r1 (mkRequest 1 [sent_back same (mkObs (0 + INR 1 * 1) (observed y (0 + INR 1 * 1)) (Some tt))] []) (mkRequest 2 [straight] []) [] [] straight 1 1
    ltac:(left; reflexivity) ltac:(lra) ltac:(lia) ltac:(lia) eq_refl no_command_memoryless no_command_computable) as (a1 & o & E1 & _ & Next); auto; try (cbn; lra).
  - intros c1 c2 _. split; reflexivity.
  - apply scheduled_count. lra.
  - rewrite B1 in E1. injection E1 as E1. change ([mkObs (y_t straight) (observed (vector (y_val straight)) (y_t straight)) (sv_efforts idle)] ++ [mkObs (0 + INR 1 * 1) (observed y (0 + INR 1 * 1)) (Some tt)] = a1 ++ [o]) in E1.
    apply app_inj_tail in E1 as (<- & <-). destruct Next as (first & a2 & a & F1 & _ & F2 & F3).
    + rewrite B2. cbn [ob_states]. apply observed_straight. exact Ey.
    + reflexivity.
    + intros [|b [|d u]] p q w Hy'; discriminate.
    + exists [mkObs (y_t straight) (observed (vector (y_val straight)) (y_t straight)) (sv_efforts idle)], (mkObs (0 + INR 1 * 1) (observed y (0 + INR 1 * 1)) (Some tt)), first, a2, a. split; [exact B1|]. split; [exact F1|]. split; [exact F2|]. split; [exact F3|].
      assert (List.length (map view a) = 3%nat) as La; [|rewrite F3, app_length, map_length, map_length in La; cbn [List.length app] in La; lia].
      rewrite map_length. clear - F2. unfold cs_request in F2. revert F2. match goal with |- context [make_server_inputs ?a ?b ?c ?d] => destruct (make_server_inputs a b c d) as [i| |] eqn:Ei; try discriminate end.
      apply (server_current_state_is_last_received _ _ _ [] straight) in Ei as (Et & ED & _). rewrite ED, Et. destruct (negb _); [discriminate|]. cbv zeta. destruct (set_bodystates same _ _ _) as [(m, x)| |]; try discriminate.
      assert (scheduled (y_t straight) (y_t straight + 2) 1 = 2%nat) as K by (pose proof (scheduled_count 1 Rlt_0_1 (y_t straight) 2) as Q; replace (INR 2 * 1) with 2 in Q by (cbn; ring); exact Q).
      cbn [solver_of_the_server String.eqb Ascii.eqb Bool.eqb rq_Dt]. rewrite K. cbn [play]. destruct (do_step _ _ _ _ _ m _ _ _) as [ma za| |]; try discriminate. destruct (do_step _ _ _ _ _ ma _ _ _) as [mb zb| |]; try discriminate. intros H. injection H as <-. reflexivity.
Qed.
