(** C171, C172: the solvers and the histories of the states *)
From Coq Require Import ZArith Reals Lra Lia List String Bool Sorted.
From Verif Require Main_Model.
From Verif Require Import Common History_Model History_Order_Proofs History_Real_Proofs History_Props Solver_Model.
Import ListNotations.
Open Scope R_scope.

Section Props.
Variable aeqR : Z -> R -> R -> bool.
Hypothesis aeqR_refl : forall n x, aeqR n x x = true.
Notation A := (Rarith aeqR).
Variable forced : nat -> list R -> R -> outcome (list R).
Variable derivatives : list (memory aeqR) -> nat -> list R -> list R -> R -> outcome (list R).
Variable n_bodies : nat.
Notation update := (update_body_states aeqR forced).
Notation sys := (system aeqR forced derivatives n_bodies).
Notation step := (do_step aeqR forced derivatives n_bodies).

(** A history that results from any sequence of recordings and resets, with a window of [T] seconds. *)
Definition genuine (h : hist A) : Prop := exists T recs, 0 <= T /\ reachable A T h recs.
(** Nothing has been recorded after [t]. *)
Definition until (t : R) (h : hist A) : Prop := forall p, In p (L h) -> fst p <= t.
(** The memory of the [n_bodies] bodies of a simulation at the date [t]. *)
Definition memory_at (t : R) (m : list (memory aeqR)) : Prop :=
  List.length m = n_bodies /\ Forall (fun hs => List.length hs = 13%nat /\ Forall (fun h => genuine h /\ until t h) hs) m.

Lemma laws : order_laws A. Proof. exact (R_laws aeqR aeqR_refl). Qed.
Lemma T_pos T : 0 <= T -> lt A T (zero A) = false.
Proof. intros H. change (Rltb T 0 = false). apply Rltb_false. exact H. Qed.
Lemma last_in (h : hist A) l p : L h = l ++ [p] -> In p (L h).
Proof. intros E. rewrite E. apply in_app_iff. right. left. reflexivity. Qed.

Lemma record_genuine h t v h' : genuine h -> record A h t v = Returned h' -> genuine h'.
Proof. intros (T & recs & HT & R) E. exists T, (recs ++ [(t, v)]). split; [exact HT|]. eapply reach_record; eauto. Qed.
Lemma sorted_last (l : list (R * R)) p : StronglySorted (fun a b => lt A a b = true) (map fst (l ++ [p])) -> forall q, In q (l ++ [p]) -> fst q <= fst p.
Proof.
  intros Hs q I. induction l as [|a l IH]; cbn in *.
  - destruct I as [<-|[]]. lra.
  - inversion Hs as [|? ? Ss Fa]; subst. destruct I as [<-|I]; [|exact (IH Ss I)]. rewrite Forall_forall in Fa.
    assert (X : lt A (fst a) (fst p) = true). { apply Fa. apply in_map. apply in_app_iff. right. left. reflexivity. }
    apply Rltb_true in X. lra.
Qed.
(** Recording a value at a date that is not in the past. *)
Lemma record_forward h t0 t v : genuine h -> until t0 h -> t0 <= t -> exists h', record A h t v = Returned h' /\ genuine h' /\ until t h'.
Proof.
  intros G U Ht. destruct G as (T & recs & HT & R).
  destruct (history_latest_is_recorded A laws T h recs t v (T_pos T HT) R) as [(h' & E)|(h' & l & t' & E & El & _ & Ct)].
  - exfalso. pose proof (history_refuses_exactly_the_past A laws T h recs t v (T_pos T HT) R h') as Q. apply Q in E as (_ & l & a & b & El & Lt & _).
    apply Rltb_true in Lt. specialize (U (a, b) (last_in h l (a, b) El)). cbn in U. lra.
  - exists h'. split; [exact E|]. split; [eapply record_genuine; eauto; exists T, recs; auto|].
    assert (R' : reachable A T h' (recs ++ [(t, v)])) by (eapply reach_record; eauto).
    pose proof (history_strictly_increasing A laws T h' _ (T_pos T HT) R') as Hs. unfold dates in Hs. rewrite El in Hs.
    intros p I. rewrite El in I. pose proof (sorted_last _ _ Hs p I) as X. cbn in X.
    destruct Ct as [<-|(_ & l0 & v0 & E0)]; [exact X|]. specialize (U (t', v0) (last_in h l0 _ E0)). cbn in U. change (num A) with Rdefinitions.R in *. lra.
Qed.
Lemma record_states_forward : forall hs xs t0 t, List.length hs = List.length xs -> t0 <= t -> Forall (fun h => genuine h /\ until t0 h) hs ->
  exists hs', record_states aeqR hs t xs = Some (hs', true) /\ List.length hs' = List.length hs /\ Forall (fun h => genuine h /\ until t h) hs'.
Proof.
  induction hs as [|h hs IH]; intros [|v xs] t0 t Hl Ht F; cbn in Hl; try discriminate.
  - exists []. auto.
  - inversion F as [|? ? (G & U) Fr]; subst. destruct (record_forward h t0 t v G U Ht) as (h' & E & G' & U').
    destruct (IH xs t0 t) as (hs' & E' & L' & F'); [lia|exact Ht|exact Fr|]. exists (h' :: hs'). cbn [record_states]. rewrite E, E'. cbn. auto.
Qed.
Lemma until_le t t' h : t <= t' -> until t h -> until t' h.
Proof. intros H U p I. specialize (U p I). lra. Qed.
Lemma Forall_set_nth {X} (P : X -> Prop) : forall l i x, Forall P l -> P x -> Forall P (set_nth l i x).
Proof. induction l as [|a l IH]; intros [|i] x F p; cbn; auto; inversion F; constructor; auto. Qed.
Lemma length_set_nth {X} : forall l i (x : X), List.length (set_nth l i x) = List.length l.
Proof. induction l as [|a l IH]; intros [|i] x; cbn; auto. Qed.
Lemma nth_set_nth {X} : forall l i (x : X), (i < List.length l)%nat -> nth_error (set_nth l i x) i = Some x.
Proof. induction l as [|a l IH]; intros [|i] x H; cbn in *; try lia; auto. apply IH. lia. Qed.
Lemma nth_set_other {X} : forall l i j (x : X), i <> j -> nth_error (set_nth l i x) j = nth_error l j.
Proof. induction l as [|a l IH]; intros [|i] [|j] x H; cbn; auto; try lia. Qed.

Lemma slice_length (x : list R) idx : List.length x = (13 * n_bodies)%nat -> (idx < n_bodies)%nat -> List.length (states_of_body x idx) = 13%nat.
Proof. intros H I. unfold states_of_body. rewrite firstn_length, skipn_length. lia. Qed.

(** Forcing states and computing derivatives succeed, on vectors of the right size. *)
Definition computable : Prop :=
  (forall idx x t, (idx < n_bodies)%nat -> List.length x = (13 * n_bodies)%nat -> exists y, forced idx x t = Ok y /\ List.length y = List.length x) /\
  (forall m idx x dx t, (idx < n_bodies)%nat -> List.length x = (13 * n_bodies)%nat -> List.length dx = List.length x -> exists dx', derivatives m idx x dx t = Ok dx' /\ List.length dx' = List.length dx).

Lemma update_forward m idx x t0 t : computable -> memory_at t0 m -> t0 <= t -> List.length x = (13 * n_bodies)%nat -> (idx < n_bodies)%nat ->
  exists m', update idx m x t = Done m' tt /\ List.length m' = List.length m /\
    Forall (fun hs => List.length hs = 13%nat /\ Forall (fun h => genuine h /\ until t h) hs) m'.
Proof.
  intros (Cf & _) (Lm & Fm) Ht Lx I. unfold update_body_states. destruct (Cf idx x t I Lx) as (y & -> & Ly).
  destruct (nth_error m idx) as [hs|] eqn:E; [|apply nth_error_None in E; lia].
  assert (Q : List.length hs = 13%nat /\ Forall (fun h => genuine h /\ until t0 h) hs) by (rewrite Forall_forall in Fm; apply Fm; eapply nth_error_In; eauto).
  destruct Q as (Lh & Fh). destruct (record_states_forward hs (states_of_body y idx) t0 t) as (hs' & -> & Lh' & Fh'); [|exact Ht|exact Fh|].
  { rewrite slice_length; lia. }
  eexists. split; [reflexivity|]. rewrite length_set_nth. split; [reflexivity|]. apply Forall_set_nth; [|split; [lia|exact Fh']].
  apply Forall_impl with (2 := Fm). intros l (Ll & Fl). split; [exact Ll|]. apply Forall_impl with (2 := Fl). intros h (g & u). split; [exact g|]. exact (until_le t0 t h Ht u).
Qed.
Lemma dx_dt_forward : forall n idx m x dx t0 t, computable -> memory_at t0 m -> t0 <= t -> List.length x = (13 * n_bodies)%nat -> List.length dx = List.length x -> (idx + n <= n_bodies)%nat ->
  exists m' dx', dx_dt aeqR forced derivatives n idx m x dx t = Done m' dx' /\ memory_at (if Nat.eqb n 0 then t0 else t) m'.
Proof.
  induction n as [|n IH]; intros idx m x dx t0 t C M Ht Lx Ld I; cbn [dx_dt].
  - eexists m, dx. split; [reflexivity|exact M].
  - destruct (update_forward m idx x t0 t C M Ht Lx) as (m1 & -> & L1 & F1); [lia|]. cbn [bind].
    destruct C as (Cf & Cd). destruct (Cd m1 idx x dx t ltac:(lia) Lx Ld) as (dx1 & -> & Ld1).
    assert (M1 : memory_at t m1) by (split; [destruct M; lia|exact F1]).
    destruct (IH (S idx) m1 x dx1 t t (conj Cf Cd) M1 (Rle_refl t) Lx ltac:(lia)) as (m2 & dx2 & E & M2); [lia|].
    exists m2, dx2. split; [exact E|]. cbn [Nat.eqb]. destruct (Nat.eqb n 0); exact M2.
Qed.
Lemma memory_le t t' m : t <= t' -> memory_at t m -> memory_at t' m.
Proof. intros H (a & b). split; [exact a|]. apply Forall_impl with (2 := b). intros l (Ll & Fl). split; [exact Ll|]. apply Forall_impl with (2 := Fl). intros h (g & u). split; [exact g|]. exact (until_le t t' h H u). Qed.
Lemma system_forward m x t0 t : computable -> memory_at t0 m -> t0 <= t -> List.length x = (13 * n_bodies)%nat -> exists m' k, sys m x t = Done m' k /\ memory_at t m'.
Proof.
  intros C M Ht Lx. unfold system. destruct (dx_dt_forward n_bodies 0 m x (repeat 0 (List.length x)) t0 t C M Ht Lx (repeat_length _ _)) as (m' & dx & E & M'); [lia|].
  exists m', dx. split; [exact E|]. destruct (Nat.eqb n_bodies 0); [exact (memory_le _ _ _ Ht M')|exact M'].
Qed.
Lemma combine_with_length x dt a ks : List.length (combine_with x dt a ks) = List.length x.
Proof. unfold combine_with. rewrite map_length, seq_length. reflexivity. Qed.

(** The dates of the stages never go back, and stay within the step. *)
Definition in_order (s : method) : Prop := StronglySorted Rle (nodes s) /\ Forall (fun c => 0 <= c <= 1) (nodes s).
Lemma stages_forward : forall cs table m x t dt t0 ks, computable -> 0 <= dt -> StronglySorted Rle cs -> Forall (fun c => t0 <= t + c * dt <= t + dt) cs -> t0 <= t + dt -> memory_at t0 m ->
  List.length x = (13 * n_bodies)%nat -> exists m' ks', stages aeqR forced derivatives n_bodies cs table m x t dt ks = Done m' ks' /\ memory_at (t + dt) m'.
Proof.
  induction cs as [|c cs IH]; intros table m x t dt t0 ks C Hd Hs F Hle M Lx.
  - exists m, ks. split; [reflexivity|]. exact (memory_le _ _ _ Hle M).
  - destruct table as [|row table]; [exists m, ks; split; [reflexivity|exact (memory_le _ _ _ Hle M)]|]. cbn [stages].
    inversion Hs as [|? ? Ss Sa]; subst. inversion F as [|? ? Fc Fr]; subst.
    destruct (system_forward m (combine_with x dt row ks) t0 (t + c * dt) C M) as (m1 & k & -> & M1); [lra|rewrite combine_with_length; exact Lx|]. cbn [bind].
    destruct (IH table m1 x t dt (t + c * dt) (ks ++ [k]) C Hd Ss) as (m2 & ks2 & E & M2).
    + rewrite Forall_forall in *. intros d Id. specialize (Sa d Id). specialize (Fr d Id). assert (c * dt <= d * dt) by (apply Rmult_le_compat_r; lra). lra.
    + lra.
    + exact M1.
    + exact Lx.
    + exists m2, ks2. auto.
Qed.
Lemma step_forward s m x t dt : computable -> 0 <= dt -> in_order s -> memory_at t m -> List.length x = (13 * n_bodies)%nat ->
  exists m' y, step s m x t dt = Done m' y /\ memory_at (t + dt) m' /\ List.length y = List.length x.
Proof.
  intros C Hd (Hs & Hf) M Lx. unfold do_step. destruct (stages_forward (nodes s) (coefficients s) m x t dt t [] C Hd Hs) as (m' & ks & E & M').
  - apply Forall_impl with (2 := Hf). intros c Hc. assert (c * dt <= 1 * dt) by (apply Rmult_le_compat_r; lra). assert (0 <= c * dt) by (apply Rmult_le_pos; lra). lra.
  - lra.
  - exact M.
  - exact Lx.
  - rewrite E. cbn [bind]. eexists m', _. split; [reflexivity|]. split; [exact M'|]. apply combine_with_length.
Qed.

(** ** C171: a solver whose stages go forward in time runs any number of steps: nothing fails but the forces. *)
Theorem forward_solvers_run : forall s after n m x t0 dt, in_order s -> computable -> 0 <= dt -> memory_at t0 m -> List.length x = (13 * n_bodies)%nat ->
  (forall x t, List.length (after x t) = List.length x) ->
  exists m' y, steps aeqR forced derivatives n_bodies after s n 0 m x t0 dt = Done m' y /\ memory_at (t0 + INR n * dt) m' /\ List.length y = List.length x.
Proof.
  intros s after n m x t0 dt So C Hd M Lx Ha.
  assert (G : forall n i m x, memory_at (t0 + INR i * dt) m -> List.length x = (13 * n_bodies)%nat ->
    exists m' y, steps aeqR forced derivatives n_bodies after s n i m x t0 dt = Done m' y /\ memory_at (t0 + INR (i + n) * dt) m' /\ List.length y = List.length x).
  { clear n m x M Lx. induction n as [|n IH]; intros i m x M Lx; cbn [steps].
    - exists m, x. rewrite Nat.add_0_r. auto.
    - destruct (step_forward s m x (t0 + INR i * dt) dt C Hd So M Lx) as (m1 & y1 & -> & M1 & L1). cbn [bind].
      assert (M1' : memory_at (t0 + INR (S i) * dt) m1) by (rewrite S_INR; apply memory_le with (2 := M1); lra).
      destruct (IH (S i) m1 (after y1 (t0 + INR i * dt)) M1') as (m2 & y2 & E & M2 & L2); [rewrite Ha; lia|].
      exists m2, y2. split; [exact E|]. split; [|rewrite L2, Ha; exact L1]. replace (i + S n)%nat with (S i + n)%nat by lia. exact M2. }
  destruct (G n 0%nat m x) as (m' & y & E & M' & L'); [|exact Lx|exists m', y; auto]. apply memory_le with (2 := M). cbn. lra.
Qed.

Lemma rk_in_order : in_order euler /\ in_order rk4 /\ ~ in_order rkck.
Proof.
  split; [|split].
  - split; cbn; repeat constructor; lra.
  - split; cbn; repeat (constructor; try lra).
  - intros (Hs & _). cbn in Hs. repeat match goal with H : StronglySorted _ (_ :: _) |- _ => inversion H; subst; clear H end.
    repeat match goal with H : Forall _ (_ :: _) |- _ => inversion H; subst; clear H end. lra.
Qed.
(** Euler and Runge-Kutta 4, by the names of the command line *)
Theorem euler_and_runge_kutta_run : forall name after n m x t0 dt, In name ["euler"; "rk4"]%string -> computable -> 0 <= dt -> memory_at t0 m -> List.length x = (13 * n_bodies)%nat ->
  (forall x t, List.length (after x t) = List.length x) ->
  exists s, solver_of_the_server name = Ok s /\ solver_of_the_program name = s /\
  exists m' y, steps aeqR forced derivatives n_bodies after s n 0 m x t0 dt = Done m' y.
Proof.
  intros name after n m x t0 dt I C Hd M Lx Ha. destruct rk_in_order as (Oe & Or & _).
  assert (exists s, solver_of_the_server name = Ok s /\ solver_of_the_program name = s /\ in_order s) as (s & E1 & E2 & O).
  { cbn in I. destruct I as [<-|[<-|[]]]; [exists euler|exists rk4]; auto. }
  exists s. split; [exact E1|]. split; [exact E2|]. destruct (forward_solvers_run s after n m x t0 dt O C Hd M Lx Ha) as (m' & y & E & _). eauto.
Qed.

(** *** Runge-Kutta-Cash-Karp evaluates its last stage before the previous one *)
Lemma dx_dt_keeps : forall n idx m x dx t m' dx', dx_dt aeqR forced derivatives n idx m x dx t = Done m' dx' -> forall j, (j < idx)%nat -> nth_error m' j = nth_error m j.
Proof.
  induction n as [|n IH]; intros idx m x dx t m' dx' H j Hj; cbn [dx_dt] in H.
  - injection H as <- <-. reflexivity.
  - destruct (update idx m x t) as [m1 []|m1|] eqn:U; cbn [bind] in H; try discriminate.
    destruct (derivatives m1 idx x dx t) as [d| |]; try discriminate. rewrite (IH _ _ _ _ _ _ _ H j) by lia.
    unfold update_body_states in U. destruct (forced idx x t) as [y| |]; try discriminate. destruct (nth_error m idx) as [hs|]; [|discriminate].
    destruct (record_states aeqR hs t (states_of_body y idx)) as [(hs', [])|]; try discriminate. injection U as <-. apply nth_set_other. lia.
Qed.
Lemma system_records m x t m' k h hs : (0 < n_bodies)%nat -> sys m x t = Done m' k -> nth_error m 0 = Some (h :: hs) -> exists v h' hs', record A h t v = Returned h' /\ nth_error m' 0 = Some (h' :: hs').
Proof.
  unfold system. intros Hn H E. destruct n_bodies as [|n]; [lia|]. cbn [dx_dt] in H.
  destruct (update 0%nat m x t) as [m1 []|m1|] eqn:U; cbn [bind] in H; try discriminate.
  destruct (derivatives m1 0%nat x (repeat 0 (List.length x)) t) as [d| |]; try discriminate.
  pose proof (dx_dt_keeps _ _ _ _ _ _ _ _ H 0%nat ltac:(lia)) as K.
  unfold update_body_states in U. destruct (forced 0%nat x t) as [y| |]; try discriminate. rewrite E in U.
  destruct (states_of_body y 0) as [|v xs]; cbn [record_states] in U; [discriminate|].
  destruct (record A h t v) as [h'|h'|] eqn:Rc; try discriminate.
  - destruct (record_states aeqR hs t xs) as [(hs', [])|]; try discriminate. injection U as <-. exists v, h', hs'. split; [exact Rc|].
    rewrite K. destruct m; [discriminate|reflexivity].
Qed.
Theorem cash_karp_never_completes_a_step : forall m x t dt h hs, (0 < n_bodies)%nat -> 0 < dt ->
  (forall a b, t <= a <= t + dt -> aeqR 4 a b = true -> Rabs (a - b) < dt / 16) ->
  nth_error m 0 = Some (h :: hs) -> genuine h ->
  forall m' y, step rkck m x t dt <> Done m' y.
Proof.
  intros m x t dt h hs Hn Hd Hr E0 G0 m' y H. unfold do_step, rkck in H. cbn [nodes coefficients weights stages] in H.
  Ltac next_stage := match goal with H : bind _ (bind _ (system _ _ _ _ ?m ?x ?t) _) _ = _, E : nth_error ?m 0 = Some (?h :: ?hs), G : genuine ?h |- _ =>
    let S := fresh "S" in destruct (system _ _ _ _ m x t) as [?m1 ?k|?m1|] eqn:S; cbn [bind] in H; try discriminate;
    destruct (system_records _ _ _ _ _ _ _ ltac:(eassumption) S E) as (?v & ?h' & ?hs' & ?Rc & ?E1);
    pose proof (record_genuine _ _ _ _ G ltac:(eassumption)) end.
  next_stage. next_stage. next_stage. next_stage. next_stage.
  match goal with Rc : record A ?g (t + 1 * dt) ?w = Returned ?g', G : genuine ?g, E : nth_error ?mm 0 = Some (?g' :: _) |- _ => rename g into h4; rename g' into h5; rename Rc into R5; rename G into G4 end.
  assert (X : exists l5 t5 v5, L h5 = l5 ++ [(t5, v5)] /\ t + 15 / 16 * dt < t5).
  { destruct G4 as (T & recs & HT & R4). destruct (history_latest_is_recorded A laws T h4 recs (t + 1 * dt) v3 (T_pos T HT) R4) as [(g & Eg)|(g & l & t' & Eg & El & _ & Ct)]; rewrite R5 in Eg; [discriminate|].
    injection Eg as <-. exists l, t', v3. split; [exact El|]. destruct Ct as [Q|(Q & _)]; [change (t' = t + 1 * dt) in Q; change (num A) with Rdefinitions.R in *; lra|].
    change (aeqR 4 (t + 1 * dt) t' = true) in Q. apply Hr in Q; [|lra]. apply Rabs_def2 in Q. change (num A) with Rdefinitions.R in *. lra. }
  destruct X as (l5 & t5 & v5 & Q5 & B5).
  next_stage. match goal with Rc : record A h5 ?tt ?w = Returned ?g |- _ => rename Rc into R6; rename g into h6; rename w into v6 end.
  match goal with G : genuine h5 |- _ => destruct G as (T & recs & HT & R5r) end.
  pose proof (history_refuses_exactly_the_past A laws T h5 recs (t + 7 / 8 * dt) v6 (T_pos T HT) R5r h5) as (_ & Q).
  rewrite R6 in Q. assert (Z : Returned h6 = Threw h5); [|discriminate Z]. apply Q. split; [reflexivity|]. exists l5, t5, v5. split; [exact Q5|]. split.
  - change (Rltb (t + 7 / 8 * dt) t5 = true). apply Rltb_true. change (num A) with Rdefinitions.R in *. lra.
  - change (aeqR 4 (t + 7 / 8 * dt) t5 = false). destruct (aeqR 4 (t + 7 / 8 * dt) t5) eqn:Q6; [|reflexivity]. exfalso. apply Hr in Q6; [|lra]. apply Rabs_def2 in Q6. change (num A) with Rdefinitions.R in *. lra.
Qed.
(** It is then an error, whatever the forces, for the program as for the co-simulation server. *)
Lemma bind_forward m x u t : computable -> memory_at u m -> u <= t -> List.length x = (13 * n_bodies)%nat ->
  exists m' k, memory_at t m' /\ sys m x t = Done m' k.
Proof. intros C M Ht Lx. destruct (system_forward m x u t C M Ht Lx) as (m' & k & E & M'). exists m', k. auto. Qed.
Theorem cash_karp_is_an_error_refuted : forall after n m x t0 dt, (0 < n_bodies)%nat -> 0 < dt -> memory_at t0 m -> computable -> List.length x = (13 * n_bodies)%nat ->
  (forall a b, t0 <= a <= t0 + dt -> aeqR 4 a b = true -> Rabs (a - b) < dt / 16) ->
  solver_of_the_server "rkck" = Ok rkck /\ solver_of_the_program "rkck" = rkck /\
  exists m', steps aeqR forced derivatives n_bodies after rkck (S n) 0 m x t0 dt = Failed m'.
Proof.
  intros after n m x t0 dt Hn Hd M C Lx Hr. split; [reflexivity|]. split; [reflexivity|].
  assert (X : exists h hs, nth_error m 0 = Some (h :: hs) /\ genuine h).
  { destruct M as (Lm & Fm). destruct m as [|b0 ms]; [cbn in Lm; lia|]. inversion Fm as [|? ? (Lb & Fb) Fms]; subst.
    destruct b0 as [|h hs]; [discriminate|]. exists h, hs. split; [reflexivity|]. inversion Fb as [|? ? (g & _) ?]; exact g. }
  destruct X as (h & hs & E0 & G).
  cbn [steps INR]. replace (t0 + 0 * dt) with t0 by ring.
  assert (W : forall r, step rkck m x t0 dt = r -> match r with Failed _ => True | Done _ _ => True | Wild => False end).
  { intros r <-. unfold do_step, rkck. cbn [nodes coefficients weights stages].
    destruct (bind_forward _ (combine_with x dt [] []) t0 (t0 + 0 * dt) C M ltac:(lra) ltac:(rewrite combine_with_length; exact Lx)) as (m1 & k1 & M1 & Eb). rewrite Eb. cbn [bind app]. clear Eb.
    destruct (bind_forward m1 (combine_with x dt [1 / 5] [k1]) (t0 + 0 * dt) (t0 + 1 / 5 * dt) C M1 ltac:(lra) ltac:(rewrite combine_with_length; exact Lx)) as (m2 & k2 & M2 & Eb). rewrite Eb. cbn [bind app]. clear Eb.
    destruct (bind_forward m2 (combine_with x dt [3 / 40; 9 / 40] [k1; k2]) _ (t0 + 3 / 10 * dt) C M2 ltac:(lra) ltac:(rewrite combine_with_length; exact Lx)) as (m3 & k3 & M3 & Eb). rewrite Eb. cbn [bind app]. clear Eb.
    destruct (bind_forward m3 (combine_with x dt [3 / 10; - 9 / 10; 6 / 5] [k1; k2; k3]) _ (t0 + 3 / 5 * dt) C M3 ltac:(lra) ltac:(rewrite combine_with_length; exact Lx)) as (m4 & k4 & M4 & Eb). rewrite Eb. cbn [bind app]. clear Eb.
    destruct (bind_forward m4 (combine_with x dt [-11 / 54; 5 / 2; -70 / 27; 35 / 27] [k1; k2; k3; k4]) _ (t0 + 1 * dt) C M4 ltac:(lra) ltac:(rewrite combine_with_length; exact Lx)) as (m5 & k5 & M5 & Eb). rewrite Eb. cbn [bind app]. clear Eb M M1 M2 M3 M4.
    unfold system.
    assert (Y : forall nn idx (mm : list (memory aeqR)) xx dx t, List.length mm = n_bodies -> Forall (fun hs : memory aeqR => List.length hs = 13%nat /\ Forall genuine hs) mm -> List.length xx = (13 * n_bodies)%nat -> List.length dx = List.length xx -> (idx + nn <= n_bodies)%nat ->
      dx_dt aeqR forced derivatives nn idx mm xx dx t <> Wild).
    { clear - C aeqR_refl. induction nn as [|nn IH]; intros idx mm xx dx t Lm Fm Lxx Ldd I; cbn [dx_dt]; [discriminate|].
      destruct C as (Cf & Cd). unfold update_body_states. destruct (Cf idx xx t ltac:(lia) Lxx) as (y & Ey & Ly). rewrite Ey. cbv beta iota.
      destruct (nth_error mm idx) as [hs|] eqn:E; [|apply nth_error_None in E; lia].
      assert (Q : List.length hs = 13%nat /\ Forall genuine hs) by (rewrite Forall_forall in Fm; apply Fm; eapply nth_error_In; eauto). destruct Q as (Lh & Fh).
      assert (Rs : forall (hs : memory aeqR) xs, List.length hs = List.length xs -> Forall genuine hs -> exists hs' b, record_states aeqR hs t xs = Some (hs', b) /\ List.length hs' = List.length hs /\ Forall genuine hs').
      { clear - aeqR_refl. induction hs as [|h hs IH]; intros [|v xs] Ll F; cbn in Ll; try discriminate; [exists [], true; auto|].
        inversion F as [|? ? G Fr]; subst. destruct (G) as (T & recs & HT & R). destruct (IH xs) as (hs' & b & E' & L' & F'); [lia|exact Fr|]. cbn [record_states].
        destruct (history_latest_is_recorded A laws T h recs t v (T_pos T HT) R) as [(h' & E)|(h' & l & t' & E & _)]; rewrite E.
        - exists (h' :: hs), false. split; [reflexivity|]. split; [reflexivity|]. constructor; [|exact Fr]. exists T, recs. split; [exact HT|]. eapply reach_refused; eauto.
        - rewrite E'. exists (h' :: hs'), b. split; [reflexivity|]. split; [cbn; lia|]. constructor; [|exact F']. eapply record_genuine; eauto. }
      destruct (Rs hs (states_of_body y idx)) as (hs' & b & -> & L' & F'); [rewrite slice_length; lia|exact Fh|]. destruct b; cbn [bind]; [|discriminate].
      destruct (Cd (set_nth mm idx hs') idx xx dx t ltac:(lia) Lxx Ldd) as (d & -> & Ld'). apply IH; [rewrite length_set_nth; exact Lm| |exact Lxx|lia|lia]. apply Forall_set_nth; [exact Fm|]. split; [lia|exact F']. }
    match goal with M : memory_at _ ?mm |- context [dx_dt _ _ _ _ _ ?mm ?xx ?dx ?t] => specialize (Y n_bodies 0%nat mm xx dx t); destruct M as (Lm' & Fm') end.
    match type of Y with _ -> _ -> _ -> _ -> _ -> ?d <> _ => destruct d; cbn [bind]; auto end. apply Y; [exact Lm'| |rewrite combine_with_length; exact Lx|apply repeat_length|lia|reflexivity].
    apply Forall_impl with (2 := Fm'). intros l (Ll & Fl). split; [exact Ll|]. apply Forall_impl with (2 := Fl). intros q (g & _). exact g. }
  pose proof (cash_karp_never_completes_a_step m x t0 dt h hs Hn Hd Hr E0 G) as N.
  destruct (step rkck m x t0 dt) as [m' y|m'|] eqn:Es; cbn [bind]; [exfalso; exact (N m' y eq_refl)|eauto|exfalso; exact (W _ eq_refl)].
Qed.

(** ** C172: the forces are computed with the state at which the derivative is asked for *)
Lemma interp_last (l : list (R * R)) t v y : StronglySorted (fun a b => lt A a b = true) (map fst (l ++ [(t, v)])) -> interp (l ++ [(t, v)]) t y -> y = v.
Proof.
  intros Hs [E|(a & b & (u & w & E) & (Ha & Hb) & Ey)].
  - destruct l as [|p l]; [injection E; auto|]. destruct l; discriminate.
  - assert (Eb : w = [] /\ b = (t, v)).
    { destruct (exists_last (l := b :: w) ltac:(discriminate)) as (w' & p & Ew). assert (Hp : p = (t, v)).
      { assert (Q : l ++ [(t, v)] = (u ++ a :: w') ++ [p]) by (rewrite E, <- app_assoc; cbn; rewrite Ew; reflexivity). apply app_inj_tail in Q as (_ & Q). auto. }
      destruct w as [|c w]; [destruct w' as [|? [|]]; cbn in Ew; [|discriminate|discriminate]; split; [reflexivity|congruence]|exfalso].
      subst p. rewrite E in Hs. clear - Hs Hb Ew. assert (Lb : fst b < t).
      { induction u as [|q u IH]; cbn in Hs; inversion Hs as [|? ? Ss Fa]; subst; [|exact (IH Ss)]. inversion Ss as [|? ? Ss2 Fb]; subst. rewrite Forall_forall in Fb.
        apply Rltb_true. change t with (fst (t, v)). apply Fb. change (In (fst (t, v)) (map fst (c :: w))). apply in_map.
        destruct w' as [|b' w'']; [destruct w; discriminate|]. cbn in Ew. injection Ew as -> Ew. rewrite Ew. apply in_app_iff. right. left. reflexivity. }
      lra. }
    destruct Eb as (-> & ->). cbn [fst snd] in *. assert (Ht : fst a < t).
    { rewrite E in Hs. clear - Hs. induction u as [|q u IH]; cbn in Hs; inversion Hs as [|? ? Ss Fa]; subst; [|exact (IH Ss)]. rewrite Forall_forall in Fa. apply Rltb_true. apply Fa. left. reflexivity. }
    rewrite Ey. field. lra.
Qed.
(** The dates of the history are exactly [t] or at least 1E-12 s before, so is the beginning of its window. *)
Definition spaced (t : R) (h : hist A) : Prop := resolved (L h) t /\ (Tmax h = 0 \/ Reps <= Tmax h).
Lemma current_value h t v h' : genuine h -> record A h t v = Returned h' -> spaced (get_current_time A h') h' -> value_at A h' 0 = Ok v.
Proof.
  intros (T & recs & HT & R) E (Sp & St). destruct (history_latest_is_recorded A laws T h recs t v (T_pos T HT) R) as [(g & Eg)|(g & l & t' & Eg & El & Ec & _)]; rewrite E in Eg; [discriminate|]. injection Eg as <-.
  assert (R' : reachable A T h' (recs ++ [(t, v)])) by (eapply reach_record; eauto).
  destruct (reachable_inv A laws T h' _ (T_pos T HT) R') as (_ & ET). rewrite ET in St.
  pose proof (history_strictly_increasing A laws T h' _ (T_pos T HT) R') as Hs. unfold dates in Hs. rewrite El in Hs.
  assert (Du : 0 <= get_duration A h').
  { unfold get_duration. rewrite El. destruct (l ++ [(t', v)]) as [|f r] eqn:X; [change (0 <= 0); lra|]. rewrite <- X. rewrite last_last. change (0 <= fst (t', v) - fst f).
    rewrite <- X in Hs. assert (If : In f (l ++ [(t', v)])) by (rewrite X; left; reflexivity). pose proof (sorted_last _ _ Hs f If) as Y. cbn [fst] in *. change (num A) with Rdefinitions.R in *. lra. }
  destruct (history_value_interpolates aeqR aeqR_refl T h' _ 0 HT R') as (y & Ey & Iy).
  - rewrite El. destruct l; discriminate.
  - lra.
  - destruct St as [->|St]; [left; reflexivity|right]. rewrite Rabs_left1; lra.
  - replace (get_current_time A h' - 0) with (get_current_time A h') by (change (num A) with Rdefinitions.R in *; lra). exact Sp.
  - rewrite Ey. f_equal. replace (get_current_time A h' - 0) with t' in Iy by (rewrite <- Ec; change (num A) with Rdefinitions.R in *; lra).
    rewrite El in Iy. eapply interp_last; eauto.
Qed.
Lemma record_states_values : forall hs t xs hs', record_states aeqR hs t xs = Some (hs', true) -> Forall genuine hs ->
  List.length xs = List.length hs' /\ forall k h', nth_error hs' k = Some h' -> spaced (get_current_time A h') h' -> exists v, nth_error xs k = Some v /\ value_at A h' 0 = Ok v.
Proof.
  induction hs as [|h hs IH]; intros t [|v xs] hs' H F; cbn [record_states] in H; try discriminate.
  - injection H as <-. split; [reflexivity|]. intros [|k] h'; discriminate.
  - inversion F as [|? ? G Fr]; subst. destruct (record A h t v) as [h1|h1|] eqn:E; try discriminate.
    destruct (record_states aeqR hs t xs) as [(hs1, b)|] eqn:E1; [|discriminate]. injection H as <- ->. destruct (IH _ _ _ E1 Fr) as (Ll & Hv).
    split; [cbn; lia|]. intros [|k] h' N Sp; cbn in N.
    + injection N as <-. exists v. split; [reflexivity|]. eapply current_value; eauto.
    + destruct (Hv k h' N Sp) as (w & Nw & Vw). exists w. auto.
Qed.
(** What the force models read as current value of each state of the body (the latest value of its history), after the update that comes before
    each evaluation of the forces, is the value of this state in the vector given by the solver, or its forced value. *)
Theorem forces_see_the_state_of_the_evaluation : forall idx m x t m' hs, update idx m x t = Done m' tt -> nth_error m idx = Some hs -> Forall genuine hs ->
  exists y hs', forced idx x t = Ok y /\ nth_error m' idx = Some hs' /\ List.length hs' = List.length (states_of_body y idx) /\
  (forall j, j <> idx -> nth_error m' j = nth_error m j) /\
  forall k h, nth_error hs' k = Some h -> spaced (get_current_time A h) h -> exists v, nth_error y (13 * idx + k) = Some v /\ value_at A h 0 = Ok v.
Proof.
  intros idx m x t m' hs U E F. unfold update_body_states in U. destruct (forced idx x t) as [y| |]; try discriminate. rewrite E in U.
  destruct (record_states aeqR hs t (states_of_body y idx)) as [(hs', b)|] eqn:Rs; [|discriminate]. destruct b; [|discriminate]. injection U as <-.
  destruct (record_states_values _ _ _ _ Rs F) as (Ll & Hv). exists y, hs'. split; [reflexivity|]. split.
  { apply nth_set_nth. apply nth_error_Some. congruence. }
  split; [exact (eq_sym Ll)|]. split; [intros j Hj; apply nth_set_other; auto|].
  intros k h N Sp. destruct (Hv k h N Sp) as (v & Nv & Vv). exists v. split; [|exact Vv]. unfold states_of_body in Nv.
  assert (Q : forall (l : list R) n i, nth_error (firstn n l) i = Some v -> nth_error l i = Some v).
  { clear. induction l as [|a l IH]; intros [|n] [|i] H; cbn in *; try discriminate; auto. exact (IH n i H). }
  apply Q in Nv. rewrite skipnth in Nv. exact Nv.
Qed.
End Props.
Print Assumptions forward_solvers_run.
Print Assumptions euler_and_runge_kutta_run.
Print Assumptions cash_karp_never_completes_a_step.
Print Assumptions cash_karp_is_an_error_refuted.
Print Assumptions forces_see_the_state_of_the_evaluation.

(** A body left to itself, without history yet: the hypotheses of the theorems hold. *)
Definition same (n : Z) (a b : R) : bool := if Req_EM_T a b then true else false.
Definition blank : list (memory same) := [repeat (new_history (Rarith same) 0) 13].
Example a_body_left_to_itself : let forced := fun (_ : nat) (x : list R) (_ : R) => Ok x in let derivatives := fun (_ : list (memory same)) (_ : nat) (_ dx : list R) (_ : R) => Ok dx in
  (forall n x, same n x x = true) /\ computable same forced derivatives 1 /\ memory_at same 1 0 blank /\ (forall a b, 0 <= a <= 0 + 1 -> same 4 a b = true -> Rabs (a - b) < 1 / 16) /\
  exists h hs, nth_error blank 0 = Some (h :: hs) /\ genuine same h.
Proof.
  cbv zeta. assert (G : genuine same (new_history (Rarith same) 0)) by (exists 0, []; split; [lra|constructor]).
  split; [intros; unfold same; destruct (Req_EM_T x x); [reflexivity|contradiction]|]. split; [split; eauto|]. split; [|split].
  - split; [reflexivity|]. unfold blank. constructor; [|constructor]. split; [reflexivity|]. apply Forall_forall. intros h I. apply repeat_spec in I. subst h. split; [exact G|intros p []].
  - intros a b _. unfold same. destruct (Req_EM_T a b) as [->|]; [|discriminate]. intros _. rewrite Rminus_diag_eq, Rabs_R0; lra.
  - exists (new_history (Rarith same) 0), (repeat (new_history (Rarith same) 0) 12). split; [reflexivity|exact G].
Qed.

(** The method used for each name is the one of C28 (Main_Model); any other name is an error for the server, and Euler's method for the program. *)
Definition method_of (s : Main_Model.stepper) : method := match s with Main_Model.Euler => euler | Main_Model.RK4 => rk4 | Main_Model.RKCK => rkck end.
Theorem solvers_by_name : forall name, solver_of_the_program name = method_of (Main_Model.xdyn_stepper name) /\
  solver_of_the_server name = (do s <- Main_Model.cs_stepper name; Ok (method_of s)).
Proof.
  intros name. unfold solver_of_the_program, solver_of_the_server, Main_Model.xdyn_stepper, Main_Model.cs_stepper.
  destruct (String.eqb name "euler"); [split; reflexivity|]. destruct (String.eqb name "rk4"); [split; reflexivity|]. destruct (String.eqb name "rkck"); split; reflexivity.
Qed.
Theorem unknown_solver : forall name, ~ In name ["euler"; "rk4"; "rkck"]%string -> solver_of_the_program name = euler /\ solver_of_the_server name = Throw.
Proof.
  intros name H. unfold solver_of_the_program, solver_of_the_server. destruct (String.eqb_spec name "euler") as [->|]; [destruct H; cbn; auto|].
  destruct (String.eqb_spec name "rk4") as [->|]; [destruct H; cbn; auto|]. destruct (String.eqb_spec name "rkck") as [->|]; [destruct H; cbn; auto|]. split; reflexivity.
Qed.
Print Assumptions solvers_by_name.
Print Assumptions unknown_solver.
