(** Runs that follow each other: lemmas for C176. *)
From Coq Require Import ZArith Reals Lra Lia List Bool.
From Verif Require Import Common History_Model History_Real_Proofs Blocked_Model Blocked_Spec Sim_Model Sim_Spec Sim_Proofs Solver_Model Solver_Props Drift_Model Drift_Props Geometry.
Import ListNotations.
Open Scope R_scope.

(** ** The dates kept by a history do not depend on the values *)
Section Dates.
Variable A : arith.
Definition same_dates (h h' : hist A) : Prop := Tmax h = Tmax h' /\ oldest h = oldest h' /\ map fst (L h) = map fst (L h').
Lemma dates_refl h : same_dates h h. Proof. repeat split. Qed.
Definition twins (l l' : list (num A * num A)) : Prop := map fst l = map fst l'.
Lemma twins_length l l' : twins l l' -> List.length l = List.length l'.
Proof. intros H. rewrite <- (map_length fst l), <- (map_length fst l'), H. reflexivity. Qed.
Lemma twins_cons p q l l' : fst p = fst q -> twins l l' -> twins (p :: l) (q :: l').
Proof. unfold twins. cbn. intros -> ->. reflexivity. Qed.
Lemma twins_nth l l' i : twins l l' -> match nth_error l i, nth_error l' i with Some p, Some q => fst p = fst q | None, None => True | _, _ => False end.
Proof.
  intros H. pose proof (nth_error_map fst i l) as E. pose proof (nth_error_map fst i l') as E'. rewrite H, E' in E.
  destruct (nth_error l i), (nth_error l' i); cbn in E; try discriminate; [congruence|exact I].
Qed.
Lemma twins_last l l' p q : twins l l' -> fst p = fst q -> fst (last l p) = fst (last l' q).
Proof.
  revert l'. induction l as [|a l IH]; intros [|b l'] H E; cbn in *; try discriminate; [exact E|]. unfold twins in H. cbn in H. injection H as Hab H.
  destruct l as [|a2 l], l' as [|b2 l']; cbn in H; try discriminate; [exact Hab|]. apply (IH (b2 :: l')); [exact H|exact E].
Qed.
Lemma twins_app a b c d : twins a b -> twins c d -> twins (a ++ c) (b ++ d).
Proof. unfold twins. rewrite !map_app. intros -> ->. reflexivity. Qed.
Lemma twins_skipn n : forall l l', twins l l' -> twins (skipn n l) (skipn n l').
Proof. intros l l' H. unfold twins. rewrite <- !skipn_map, H. reflexivity. Qed.
Lemma twins_firstn n : forall l l', twins l l' -> twins (firstn n l) (firstn n l').
Proof. intros l l' H. unfold twins. rewrite <- !firstn_map, H. reflexivity. Qed.
Lemma twins_at l l' i {X} (f g : num A * num A -> outcome X) : twins l l' -> (forall p q, fst p = fst q -> f p = g q) -> bindO (at_ub l i) f = bindO (at_ub l' i) g.
Proof.
  intros H F. pose proof (twins_nth l l' i H) as N. unfold at_ub. destruct (nth_error l i), (nth_error l' i); try contradiction; cbn [bindO]; auto.
Qed.
Lemma find_loop_twins : forall fuel l l' t lo hi, twins l l' -> find_loop A fuel l t lo hi = find_loop A fuel l' t lo hi.
Proof.
  induction fuel as [|n IH]; intros l l' t lo hi H; [reflexivity|]. cbn [find_loop]. apply twins_at; [exact H|]. intros p q ->. destruct (eqn A t (fst q)); [reflexivity|].
  apply twins_at; [exact H|]. intros p' q' ->. destruct (eqn A t (fst q')); [reflexivity|]. destruct (hi <=? lo + 1)%nat; [reflexivity|].
  apply twins_at; [exact H|]. intros p2 q2 ->. destruct (eqn A t (fst q2)); [reflexivity|]. destruct (lt A t (fst q2)); apply IH; exact H.
Qed.
Lemma find_twins l l' t : twins l l' -> find_braketing_position A l t = find_braketing_position A l' t.
Proof.
  intros H. pose proof (twins_length _ _ H) as Ln. unfold find_braketing_position. destruct l as [|p l], l' as [|q l']; try discriminate; [reflexivity|].
  assert (fst p = fst q) as E by (unfold twins in H; cbn in H; congruence).
  rewrite (twins_last _ _ p q H E), Ln, E. rewrite (find_loop_twins _ _ _ t 0 _ H). reflexivity.
Qed.
Lemma set_nth_twins : forall l l' i p q, twins l l' -> fst p = fst q -> twins (set_nth l i p) (set_nth l' i q).
Proof.
  induction l as [|a l IH]; intros [|b l'] i p q H E; unfold twins in H; cbn in H; try discriminate; [reflexivity|]. injection H as Hab H.
  destruct i; cbn [set_nth]; apply twins_cons; auto.
Qed.
(** Outcomes of the same kind *)
Definition both {X} (P : X -> X -> Prop) (a b : outcome X) : Prop := match a, b with Ok x, Ok y => P x y | Throw, Throw | UB, UB => True | _, _ => False end.
Lemma add_twins h h' t v v' : same_dates h h' -> both same_dates (add_value_to_history A h t v) (add_value_to_history A h' t v').
Proof.
  intros (HT & HO & HL). unfold add_value_to_history. rewrite (find_twins _ _ t HL). destruct (find_braketing_position A (L h') t) as [i| |]; cbn [bindO both]; auto.
  rewrite (twins_length _ _ HL). destruct (i =? List.length (L h'))%nat.
  - cbn [both]. split; [exact HT|]. split; [exact HO|]. cbn [L]. apply twins_app; [apply twins_firstn; exact HL|apply twins_cons; [reflexivity|apply twins_skipn; exact HL]].
  - pose proof (twins_nth _ _ i HL) as N. unfold at_ub. destruct (nth_error (L h) i) as [p|], (nth_error (L h') i) as [q|]; try contradiction; cbn [bindO both]; auto. rewrite N.
    destruct (aeq A 4 (fst q) t); cbn [both]; (split; [exact HT|]; split; [exact HO|]; cbn [L]).
    + apply set_nth_twins; auto.
    + apply twins_app; [apply twins_firstn; exact HL|apply twins_cons; [reflexivity|apply twins_skipn; exact HL]].
Qed.
Lemma current_twins h h' : same_dates h h' -> get_current_time A h = get_current_time A h'.
Proof.
  intros (HT & HO & HL). unfold get_current_time. destruct (L h) as [|p l], (L h') as [|q l']; try discriminate; [exact HO|]. apply twins_last; [exact HL|]. unfold twins in HL. cbn in HL. congruence.
Qed.
Lemma interpolate_twins l l' i t : twins l l' -> both (fun _ _ => True) (interpolate_value_in_interval A l i t) (interpolate_value_in_interval A l' i t).
Proof.
  intros H. unfold interpolate_value_in_interval. rewrite (twins_length _ _ H). destruct ((i =? 0)%nat || (List.length l' <=? i)%nat).
  - pose proof (twins_nth _ _ 0 H) as N. unfold at_ub. destruct (nth_error l 0), (nth_error l' 0); try contradiction; cbn; exact I.
  - pose proof (twins_nth _ _ (i - 1) H) as N. unfold at_ub. destruct (nth_error l (i - 1)) as [[a b]|], (nth_error l' (i - 1)) as [[a' b']|]; try contradiction; cbn [bindO both]; auto. cbn in N. subst a'.
    pose proof (twins_nth _ _ i H) as N. destruct (nth_error l i) as [[c d]|], (nth_error l' i) as [[c' d']|]; try contradiction; cbn [bindO both]; auto. cbn in N. subst c'.
    destruct (lt A (abs A (sub A t a)) (eps A)); [exact I|]. destruct (lt A (abs A (sub A t c)) (eps A)); exact I.
Qed.
Lemma shift_twins h h' : same_dates h h' -> both same_dates (shift_oldest_recorded_instant_if_necessary A h) (shift_oldest_recorded_instant_if_necessary A h').
Proof.
  intros H. unfold shift_oldest_recorded_instant_if_necessary. rewrite (current_twins _ _ H). destruct H as (HT & HO & HL). rewrite HO, HT.
  destruct (ge A (sub A (get_current_time A h') (oldest h')) (Tmax h')); [|cbn [both]; repeat split; assumption]. set (o := sub A (get_current_time A h') (Tmax h')).
  pose proof (interpolate_twins _ _ 1 o HL) as N. destruct (interpolate_value_in_interval A (L h) 1 o) as [v| |], (interpolate_value_in_interval A (L h') 1 o) as [v'| |]; try contradiction; cbn [bindO both]; auto.
  rewrite (find_twins _ _ o HL). destruct (find_braketing_position A (L h') o) as [i| |]; cbn [bindO both]; auto. pose proof (twins_skipn i _ _ HL) as W.
  destruct (skipn i (L h)) as [|p l], (skipn i (L h')) as [|q l']; try discriminate; [exact I|]. assert (fst p = fst q) as E by (unfold twins in W; cbn in W; congruence). rewrite E.
  cbn [both]. split; [reflexivity|]. split; [reflexivity|]. cbn [L]. destruct (aeq A 32 (fst q) o); [exact W|apply twins_cons; [reflexivity|exact W]].
Qed.
Lemma record_twins h h' t v v' : same_dates h h' -> match record A h t v, record A h' t v' with
  | Returned a, Returned b => same_dates a b | Threw a, Threw b => same_dates a b | Undefined, Undefined => True | _, _ => False end.
Proof.
  intros H. unfold record. pose proof H as (HT & HO & HL).
  assert (forall t', match match bindO (add_value_to_history A (update_oldest_recorded_instant A h t') t' v) (shift_oldest_recorded_instant_if_necessary A) with Ok a => Returned a | _ => Undefined end,
     match bindO (add_value_to_history A (update_oldest_recorded_instant A h' t') t' v') (shift_oldest_recorded_instant_if_necessary A) with Ok a => Returned a | _ => Undefined end with
     | Returned a, Returned b => same_dates a b | Threw a, Threw b => same_dates a b | Undefined, Undefined => True | _, _ => False end) as F.
  { intros t'. assert (same_dates (update_oldest_recorded_instant A h t') (update_oldest_recorded_instant A h' t')) as U.
    { unfold update_oldest_recorded_instant. split; [exact HT|]. split; [|exact HL]. cbn [oldest]. rewrite HO. destruct (L h), (L h'); try discriminate; reflexivity. }
    pose proof (add_twins _ _ t' v v' U) as W. destruct (add_value_to_history A (update_oldest_recorded_instant A h t') t' v) as [a| |], (add_value_to_history A (update_oldest_recorded_instant A h' t') t' v') as [b| |]; try contradiction; cbn [bindO]; auto.
    pose proof (shift_twins _ _ W) as S. destruct (shift_oldest_recorded_instant_if_necessary A a), (shift_oldest_recorded_instant_if_necessary A b); try contradiction; auto. }
  cbv zeta. destruct (L h) as [|p l] eqn:E, (L h') as [|q l'] eqn:E'; try discriminate; [apply F|].
  assert (fst p = fst q) as Q by (cbn in HL; congruence). rewrite <- (twins_last _ _ p q HL Q).
  set (b := fst (last (p :: l) p)). destruct (lt A (if aeq A 4 t b then b else t) b); [exact H|apply F].
Qed.
End Dates.

(** ** Two runs with related states *)
Section Follow.
Variable aeqR : Z -> R -> R -> bool.
Variable forced : nat -> list R -> R -> outcome (list R).
Variable derivatives : list (memory aeqR) -> nat -> list R -> list R -> R -> outcome (list R).
Variable n_bodies : nat.
(** Relation between the states of the two runs, between their derivatives *)
Variable rel drel : list R -> list R -> Prop.
(** Histories: those of z, u, v, w, p, q, r (numbers 2 to 8) are the same; the others have the same dates. *)
Definition hrel (k : nat) (h h' : hist (Rarith aeqR)) : Prop := same_dates _ h h' /\ ((2 <= k <= 8)%nat -> h = h').
Fixpoint hsrel (k : nat) (hs hs' : memory aeqR) : Prop :=
  match hs, hs' with [], [] => True | h :: hs, h' :: hs' => hrel k h h' /\ hsrel (S k) hs hs' | _, _ => False end.
Definition mrel (m m' : list (memory aeqR)) : Prop := Forall2 (hsrel 0) m m'.
Definition follows {X} (P : X -> X -> Prop) (a b : result aeqR X) : Prop :=
  match a, b with Done m x, Done m' y => mrel m m' /\ P x y | Failed m, Failed m' => mrel m m' | Wild, Wild => True | _, _ => False end.

Lemma hsrel_refl : forall hs k, hsrel k hs hs.
Proof. induction hs as [|h hs IH]; intros k; cbn; [exact I|]. split; [split; [apply dates_refl|reflexivity]|apply IH]. Qed.
Lemma mrel_refl m : mrel m m.
Proof. induction m as [|hs m IH]; constructor; [apply hsrel_refl|exact IH]. Qed.
Lemma record_states_follow : forall hs hs' k xs xs' t, hsrel k hs hs' -> List.length xs = List.length xs' -> (forall j, (2 <= k + j <= 8)%nat -> nth_error xs j = nth_error xs' j) ->
  match record_states aeqR hs t xs, record_states aeqR hs' t xs' with Some (a, b), Some (a', b') => hsrel k a a' /\ b = b' | None, None => True | _, _ => False end.
Proof.
  induction hs as [|h hs IH]; intros [|h' hs'] k xs xs' t H Lx V; cbn in H; try contradiction; destruct xs as [|v xs], xs' as [|v' xs']; try discriminate; cbn [record_states]; try exact I.
  - split; [exact I|reflexivity].
  - destruct H as ((Hd & He) & H). cbn in Lx.
    assert (forall j, (2 <= S k + j <= 8)%nat -> nth_error xs j = nth_error xs' j) as V' by (intros j Hj; apply (V (S j)); lia).
    pose proof (IH hs' (S k) xs xs' t H ltac:(lia) V') as G.
    pose proof (record_twins (Rarith aeqR) h h' t v v' Hd) as W.
    assert ((2 <= k <= 8)%nat -> record (Rarith aeqR) h t v = record (Rarith aeqR) h' t v') as Q.
    { intros Hk. rewrite (He Hk). assert (v = v') as -> by (specialize (V 0%nat ltac:(lia)); cbn in V; congruence). reflexivity. }
    destruct (record (Rarith aeqR) h t v) as [a|a|], (record (Rarith aeqR) h' t v') as [a'|a'|]; try contradiction; [| |exact I].
    + destruct (record_states aeqR hs t xs) as [(r & b)|], (record_states aeqR hs' t xs') as [(r' & b')|]; try contradiction; [|exact I]. destruct G as (G & ->).
      split; [|reflexivity]. split; [|exact G]. split; [exact W|]. intros Hk. specialize (Q Hk). congruence.
    + split; [|reflexivity]. split; [|exact H]. split; [exact W|]. intros Hk. specialize (Q Hk). congruence.
Qed.
Lemma Forall2_nth_rel {X} (P : X -> X -> Prop) : forall l l' i, Forall2 P l l' -> match nth_error l i, nth_error l' i with Some a, Some b => P a b | None, None => True | _, _ => False end.
Proof. intros l l' i H. revert i. induction H; intros [|i]; cbn; auto. apply IHForall2. Qed.
Lemma Forall2_set_nth {X} (P : X -> X -> Prop) : forall l l' i a b, Forall2 P l l' -> P a b -> Forall2 P (set_nth l i a) (set_nth l' i b).
Proof. intros l l' i a b H. revert i. induction H; intros [|i] Q; cbn [set_nth]; constructor; auto. Qed.

(** Bodies that are not forced, related states: same velocities and same z. *)
Hypothesis not_forced : forall i x t, (i < n_bodies)%nat -> forced i x t = Ok x.
Hypothesis rel_length : forall x x', rel x x' -> List.length x = (13 * n_bodies)%nat /\ List.length x' = (13 * n_bodies)%nat.
Hypothesis rel_seen : forall x x' i k, rel x x' -> (i < n_bodies)%nat -> (2 <= k <= 8)%nat -> state_of x i k = state_of x' i k.
Lemma slice_nth (x : list R) idx k : List.length x = (13 * n_bodies)%nat -> (idx < n_bodies)%nat -> (k < 13)%nat -> nth_error (states_of_body x idx) k = Some (state_of x idx k).
Proof.
  intros Ln I K. unfold states_of_body, state_of. assert (13 * (idx + 1) <= 13 * n_bodies)%nat by (apply Nat.mul_le_mono_l; lia).
  rewrite <- (nth_error_nth_ok x (13 * idx + k) 0) by lia. rewrite <- (firstn_skipn (13 * idx) x) at 2. rewrite nth_error_app2 by (rewrite firstn_length; lia).
  rewrite firstn_length, Nat.min_l by lia. replace (13 * idx + k - 13 * idx)%nat with k by lia. set (l := skipn (13 * idx) x).
  rewrite <- (firstn_skipn 13 l) at 2. destruct (Nat.lt_ge_cases k (List.length (firstn 13 l))) as [C|C]; [rewrite nth_error_app1 by exact C; reflexivity|].
  exfalso. unfold l in C. rewrite firstn_length, skipn_length in C. lia.
Qed.
Lemma update_follow idx m m' x x' t : (idx < n_bodies)%nat -> mrel m m' -> rel x x' ->
  follows (fun _ _ => True) (update_body_states aeqR forced idx m x t) (update_body_states aeqR forced idx m' x' t).
Proof.
  intros Hi M Rx. destruct (rel_length _ _ Rx) as (L1 & L2). unfold update_body_states. rewrite !not_forced by exact Hi.
  pose proof (Forall2_nth_rel _ _ _ idx M) as N. destruct (nth_error m idx) as [hs|], (nth_error m' idx) as [hs'|]; try contradiction; [|exact I].
  pose proof (record_states_follow hs hs' 0 (states_of_body x idx) (states_of_body x' idx) t N) as G.
  assert (List.length (states_of_body x idx) = List.length (states_of_body x' idx)) as Q by (rewrite !(slice_length n_bodies) by auto; reflexivity). specialize (G Q). clear Q.
  assert (forall j, (2 <= 0 + j <= 8)%nat -> nth_error (states_of_body x idx) j = nth_error (states_of_body x' idx) j) as Q.
  { intros j Hj. rewrite !slice_nth by (auto; lia). f_equal. apply rel_seen; auto. }
  specialize (G Q). destruct (record_states aeqR hs t _) as [(a & b)|], (record_states aeqR hs' t _) as [(a' & b')|]; try contradiction; [|exact I].
  destruct G as (G & <-). pose proof (Forall2_set_nth _ _ _ idx a a' M G) as W. destruct b; cbn [follows]; [split; [exact W|exact Logic.I]|exact W].
Qed.
(** The derivatives of related states are related, up to what the previous bodies have written. *)
Variable partial : nat -> list R -> list R -> Prop.
Hypothesis derivatives_follow : forall idx m m' x x' dx dx' t, (idx < n_bodies)%nat -> mrel m m' -> rel x x' -> partial idx dx dx' ->
  both (partial (S idx)) (derivatives m idx x dx t) (derivatives m' idx x' dx' t).
Hypothesis partial_start : forall x x', rel x x' -> partial 0 (repeat 0 (List.length x)) (repeat 0 (List.length x')).
Hypothesis partial_end : forall k k', partial n_bodies k k' -> drel k k'.
Lemma dx_dt_follow : forall n idx m m' x x' dx dx' t, (idx + n = n_bodies)%nat -> mrel m m' -> rel x x' -> partial idx dx dx' ->
  follows (partial n_bodies) (Solver_Model.dx_dt aeqR forced derivatives n idx m x dx t) (Solver_Model.dx_dt aeqR forced derivatives n idx m' x' dx' t).
Proof.
  induction n as [|n IH]; intros idx m m' x x' dx dx' t E M Rx P; cbn [Solver_Model.dx_dt].
  - cbn [follows]. split; [exact M|]. replace n_bodies with idx by lia. exact P.
  - pose proof (update_follow idx m m' x x' t ltac:(lia) M Rx) as U.
    destruct (update_body_states aeqR forced idx m x t) as [m1 []|m1|], (update_body_states aeqR forced idx m' x' t) as [m1' []|m1'|]; try contradiction; cbn [bind]; [|exact U|exact I].
    destruct U as (U & _). pose proof (derivatives_follow idx m1 m1' x x' dx dx' t ltac:(lia) U Rx P) as D.
    destruct (derivatives m1 idx x dx t) as [d| |], (derivatives m1' idx x' dx' t) as [d'| |]; try contradiction; [|exact U|exact I]. apply IH; [lia|exact U|exact Rx|exact D].
Qed.
Lemma system_follow m m' x x' t : mrel m m' -> rel x x' -> follows drel (system aeqR forced derivatives n_bodies m x t) (system aeqR forced derivatives n_bodies m' x' t).
Proof.
  intros M Rx. unfold system. pose proof (dx_dt_follow n_bodies 0 m m' x x' _ _ t (Nat.add_0_l _) M Rx (partial_start _ _ Rx)) as G.
  destruct (Solver_Model.dx_dt aeqR forced derivatives n_bodies 0 m x _ t) as [a k|a|], (Solver_Model.dx_dt aeqR forced derivatives n_bodies 0 m' x' _ t) as [a' k'|a'|]; try contradiction; [|exact G|exact I].
  destruct G as (G1 & G2). split; [exact G1|exact (partial_end _ _ G2)].
Qed.
Hypothesis combine_follow : forall x x' dt a ks ks', rel x x' -> Forall2 drel ks ks' -> rel (combine_with x dt a ks) (combine_with x' dt a ks').
Lemma stages_follow : forall cs table m m' x x' t dt ks ks', mrel m m' -> rel x x' -> Forall2 drel ks ks' ->
  follows (Forall2 drel) (stages aeqR forced derivatives n_bodies cs table m x t dt ks) (stages aeqR forced derivatives n_bodies cs table m' x' t dt ks').
Proof.
  induction cs as [|c cs IH]; intros table m m' x x' t dt ks ks' M Rx K; [split; assumption|]. destruct table as [|row table]; [split; assumption|]. cbn [stages].
  pose proof (system_follow m m' _ _ (t + c * dt) M (combine_follow x x' dt row ks ks' Rx K)) as S.
  destruct (system aeqR forced derivatives n_bodies m _ (t + c * dt)) as [a k|a|], (system aeqR forced derivatives n_bodies m' _ (t + c * dt)) as [a' k'|a'|]; try contradiction; cbn [bind]; [|exact S|exact I].
  destruct S as (S1 & S2). apply IH; [exact S1|exact Rx|]. apply Forall2_app; [exact K|constructor; [exact S2|constructor]].
Qed.
Lemma step_follow s m m' x x' t dt : mrel m m' -> rel x x' -> follows rel (do_step aeqR forced derivatives n_bodies s m x t dt) (do_step aeqR forced derivatives n_bodies s m' x' t dt).
Proof.
  intros M Rx. unfold do_step. pose proof (stages_follow (nodes s) (coefficients s) m m' x x' t dt [] [] M Rx (Forall2_nil _)) as S.
  destruct (stages aeqR forced derivatives n_bodies _ _ m x t dt []) as [a k|a|], (stages aeqR forced derivatives n_bodies _ _ m' x' t dt []) as [a' k'|a'|]; try contradiction; cbn [bind]; [|exact S|exact I].
  destruct S as (S1 & S2). split; [exact S1|]. apply combine_follow; assumption.
Qed.
Lemma steps_follow s : forall n i m m' x x' t0 dt, mrel m m' -> rel x x' ->
  follows rel (steps aeqR forced derivatives n_bodies (fun x _ => x) s n i m x t0 dt) (steps aeqR forced derivatives n_bodies (fun x _ => x) s n i m' x' t0 dt).
Proof.
  induction n as [|n IH]; intros i m m' x x' t0 dt M Rx; cbn [steps]; [split; assumption|]. pose proof (step_follow s m m' x x' (t0 + INR i * dt) dt M Rx) as S.
  destruct (do_step aeqR forced derivatives n_bodies s m x _ dt) as [a k|a|], (do_step aeqR forced derivatives n_bodies s m' x' _ dt) as [a' k'|a'|]; try contradiction; cbn [bind]; [|exact S|exact I].
  destruct S as (S1 & S2). apply IH; assumption.
Qed.
End Follow.
