(** C148: NaN in the states *)
From Coq Require Import List Arith Bool Lia ZArith.
From Verif Require Import Common Blocked_Model Nan_Model.
Import ListNotations.

Section Nan.
Variable D : Type.
Variable isnan : D -> bool.
Variable T : Type.
Variable derivatives : nat -> list D -> list D -> T -> outcome (list D).
Variable n_bodies : nat.
Variable next : list D -> T -> T -> list D -> outcome (list D).
Variable dx0 : list D.
Variable instant : T -> nat -> T -> T.
Variable Sch : Type.
Variable get_time : Sch -> T.
Variable more : Sch -> bool.
Variable append : Sch -> T -> Sch.
Variable force : list D -> T -> list D.
Notation run := (quicksolve D isnan T derivatives n_bodies next dx0 instant Sch get_time more append force).
Notation loop := (quicksolve_loop D isnan T derivatives n_bodies next dx0 instant Sch get_time more append force).

(** The thirteen states of every body are numbers. *)
Definition clean (x : list D) : Prop := forall v, In v (firstn (13 * n_bodies) x) -> isnan v = false.

Lemma check_ok x i u : check D isnan x i = Ok u -> exists v, nth_error x i = Some v /\ isnan v = false.
Proof. unfold check, at_ub. destruct (nth_error x i) as [v|]; [|discriminate]. cbn [bindO]. destruct (isnan v) eqn:E; [discriminate|eauto]. Qed.
Lemma check_body_ok x idx u : check_body D isnan x idx = Ok u -> forall k, k < 13 -> exists v, nth_error x (idx * 13 + k) = Some v /\ isnan v = false.
Proof.
  unfold check_body. intros H k Hk.
  repeat match type of H with bindO (check D isnan x ?i) _ = _ => let E := fresh "E" in destruct (check D isnan x i) eqn:E; cbn [bindO] in H; [apply check_ok in E|discriminate|discriminate] end.
  apply check_ok in H. unfold XIDX, YIDX, ZIDX, UIDX, VIDX, WIDX, PIDX, QIDX, RIDX, QRIDX, QIIDX, QJIDX, QKIDX, NB_OF_STATES_PER_BODY in *.
  rewrite <- (Nat.add_0_r (idx * 13)) in E. do 13 (destruct k as [|k]; [assumption|]). lia.
Qed.
Lemma dx_dt_ok : forall n idx x dx t r, dx_dt D isnan T derivatives idx n x dx t = Ok r -> forall k, k < 13 * n -> exists v, nth_error x (idx * 13 + k) = Some v /\ isnan v = false.
Proof.
  induction n as [|n IH]; intros idx x dx t r H k Hk; [lia|]. cbn [dx_dt] in H. destruct (check_body D isnan x idx) eqn:C; cbn [bindO] in H; [|discriminate|discriminate].
  destruct (derivatives idx x dx t) as [d| |] eqn:Dd; cbn [bindO] in H; [|discriminate|discriminate].
  destruct (Nat.lt_ge_cases k 13) as [L|L]; [eapply check_body_ok; eauto|].
  destruct (IH _ _ _ _ _ H (k - 13)) as (v & E & N); [lia|]. exists v. split; [|exact N]. replace (idx * 13 + k) with (S idx * 13 + (k - 13)) by lia. exact E.
Qed.
Lemma step_clean x t dt y : do_step D isnan T derivatives n_bodies next dx0 x t dt = Ok y -> clean x.
Proof.
  unfold do_step, system. intros H v I. destruct (dx_dt D isnan T derivatives 0 n_bodies x dx0 t) as [k| |] eqn:E; [|discriminate|discriminate].
  apply In_nth_error in I as (i & Ei). assert (L : i < 13 * n_bodies).
  { assert (i < length (firstn (13 * n_bodies) x)) by (apply nth_error_Some; congruence). rewrite firstn_length in H0. lia. }
  destruct (dx_dt_ok _ _ _ _ _ _ E i L) as (w & Ew & Nw). cbn [Nat.mul Nat.add] in Ew.
  assert (nth_error (firstn (13 * n_bodies) x) i = nth_error x i) as Q.
  { clear - L. revert L. generalize (13 * n_bodies). intros m. revert i m. induction x as [|a x IH]; intros [|i] [|m] L; try reflexivity; try lia. cbn. apply IH. lia. }
  rewrite Q in Ei. congruence.
Qed.
Lemma loop_rows : forall n i tstart dt x sch obs e, loop n i tstart dt x sch = (obs, e) ->
  forall k ty, nth_error ((get_time sch, x) :: obs) k = Some ty -> k < length obs -> clean (snd ty).
Proof.
  induction n as [|n IH]; intros i tstart dt x sch obs e H k ty N L; cbn [quicksolve_loop] in H; destruct (more sch) eqn:M; try (injection H as <- <-; cbn in L; lia).
  destruct (do_step D isnan T derivatives n_bodies next dx0 x (get_time sch) dt) as [y| |] eqn:Sx; try (injection H as <- <-; cbn in L; lia).
  cbv zeta in H. destruct (loop n (S i) tstart dt (force y (get_time sch)) (append sch (instant tstart (S i) dt))) as (obs', e') eqn:Lp. injection H as <- <-.
  destruct k as [|k]; [cbn in N; injection N as <-; cbn; eapply step_clean; eauto|].
  cbn [nth_error length] in *. eapply IH; eauto. lia.
Qed.
Lemma loop_threw : forall n i tstart dt x sch obs, loop n i tstart dt x sch = (obs, Some Threw) ->
  do_step D isnan T derivatives n_bodies next dx0 (snd (last ((get_time sch, x) :: obs) (tstart, []))) (fst (last ((get_time sch, x) :: obs) (tstart, []))) dt = Throw.
Proof.
  induction n as [|n IH]; intros i tstart dt x sch obs H; cbn [quicksolve_loop] in H; destruct (more sch) eqn:M; try discriminate.
  destruct (do_step D isnan T derivatives n_bodies next dx0 x (get_time sch) dt) as [y| |] eqn:Sx; [|injection H as <-; exact Sx|discriminate].
  cbv zeta in H. destruct (loop n (S i) tstart dt (force y (get_time sch)) (append sch (instant tstart (S i) dt))) as (obs', e') eqn:Lp. injection H as <- ->.
  apply IH in Lp. exact Lp.
Qed.
Lemma check_throw x i : check D isnan x i = Throw -> exists v, nth_error x i = Some v /\ isnan v = true.
Proof. unfold check, at_ub. destruct (nth_error x i) as [v|]; [|discriminate]. cbn [bindO]. destruct (isnan v) eqn:E; [eauto|discriminate]. Qed.
Lemma check_body_throw x idx : check_body D isnan x idx = Throw -> exists k v, k < 13 /\ nth_error x (idx * 13 + k) = Some v /\ isnan v = true.
Proof.
  unfold check_body. intros H.
  repeat match type of H with bindO (check D isnan x ?i) _ = _ => let E := fresh "E" in destruct (check D isnan x i) eqn:E; cbn [bindO] in H;
    [clear E|apply check_throw in E as (v & Ev & Nv); exists (i - idx * 13), v; split; [|split; [|exact Nv]];
       [unfold XIDX, YIDX, ZIDX, UIDX, VIDX, WIDX, PIDX, QIDX, RIDX, QRIDX, QIIDX, QJIDX, QKIDX, NB_OF_STATES_PER_BODY; lia
       |rewrite <- Ev; f_equal; unfold XIDX, YIDX, ZIDX, UIDX, VIDX, WIDX, PIDX, QIDX, RIDX, QRIDX, QIIDX, QJIDX, QKIDX, NB_OF_STATES_PER_BODY; lia]|discriminate] end.
  apply check_throw in H as (v & Ev & Nv). exists 12, v. split; [lia|]. split; [exact Ev|exact Nv].
Qed.
Lemma dx_dt_throw : forall n idx x dx t, dx_dt D isnan T derivatives idx n x dx t = Throw ->
  (exists k v, k < 13 * n /\ nth_error x (idx * 13 + k) = Some v /\ isnan v = true) \/ exists j d, j < idx + n /\ derivatives j x d t = Throw.
Proof.
  induction n as [|n IH]; intros idx x dx t H; [discriminate|]. cbn [dx_dt] in H. destruct (check_body D isnan x idx) eqn:C; cbn [bindO] in H; [| |discriminate].
  - destruct (derivatives idx x dx t) as [d| |] eqn:Dd; cbn [bindO] in H; [| |discriminate].
    + destruct (IH _ _ _ _ H) as [(k & v & L & E & N)|(j & d' & L & E)]; [left; exists (13 + k), v|right; exists j, d'; split; [lia|exact E]].
      split; [lia|]. split; [|exact N]. rewrite <- E. f_equal. lia.
    + right. exists idx, dx. split; [lia|exact Dd].
  - apply check_body_throw in C as (k & v & L & E & N). left. exists k, v. split; [lia|auto].
Qed.
(** A state with a NaN is followed by no step: whatever the system and the scheduler, all the states observed but the last one are clean. *)
Theorem nan_is_reported_at_the_next_step_partial : forall n dt x sch rows e, run n dt x sch = (rows, e) ->
  forall k ty, nth_error rows k = Some ty -> S k < length rows -> clean (snd ty).
Proof.
  intros n dt x sch rows e H k ty N L. unfold quicksolve in H. destruct (loop n 0 (get_time sch) dt x sch) as (obs, e') eqn:E. injection H as <- <-.
  eapply loop_rows; eauto. cbn [length] in L. lia.
Qed.
(** No false alarm: when a simulation stops with an exception, the last state observed has a NaN, or the computation of the forces or the stepper themselves threw. *)
Theorem nan_alarms_are_justified : forall n dt x sch rows, run n dt x sch = (rows, Some Threw) ->
  exists t y, nth_error rows (length rows - 1) = Some (t, y) /\
    ((exists v, In v (firstn (13 * n_bodies) y) /\ isnan v = true) \/ (exists j d, j < n_bodies /\ derivatives j y d t = Throw) \/ exists k1, next y t dt k1 = Throw).
Proof.
  intros n dt x sch rows H. unfold quicksolve in H. destruct (loop n 0 (get_time sch) dt x sch) as (obs, e') eqn:E. injection H as <- ->.
  apply loop_threw in E. set (l := (get_time sch, x) :: obs) in *. destruct (last l (get_time sch, [])) as (t, y) eqn:La. cbn [fst snd] in E. exists t, y. split.
  - assert (A : forall (l : list (T * list D)) d, l <> [] -> nth_error l (length l - 1) = Some (last l d)).
    { clear. induction l as [|a [|b l] IH]; intros d N; [contradiction|reflexivity|]. cbn [length last Nat.sub nth_error] in *. rewrite Nat.sub_0_r in *. specialize (IH d). cbn [Nat.sub] in IH. rewrite <- IH by discriminate. reflexivity. }
    rewrite (A l (get_time sch, [])) by discriminate. rewrite La. reflexivity.
  - unfold do_step, system in E. destruct (dx_dt D isnan T derivatives 0 n_bodies y dx0 t) as [k1| |] eqn:F; cbn [bindO] in E; [right; right; eauto| |discriminate].
    apply dx_dt_throw in F. destruct F as [(k & v & L & Ek & N)|(j & d & L & F)]; [left|right; left; eauto].
    exists v. split; [|exact N]. cbn [Nat.mul Nat.add] in Ek.
    assert (Q : nth_error (firstn (13 * n_bodies) y) k = nth_error y k).
    { clear - L. revert L. generalize (13 * n_bodies). intros m. revert k m. induction y as [|a x IH]; intros [|i] [|m] L; try reflexivity; try lia. cbn. apply IH. lia. }
    rewrite Ek in Q. eapply nth_error_In, Q.
Qed.
End Nan.
Print Assumptions nan_is_reported_at_the_next_step_partial.
Print Assumptions nan_alarms_are_justified.

(** A body whose forces are not numbers, with an Euler stepper: one row of NaN is always observed, and the simulation finishes normally when it is the last instant. *)
Definition num : Type := option Z.
Definition nan_num (a : num) : bool := match a with None => true | Some _ => false end.
Definition plus (a b : num) : num := match a, b with Some a, Some b => Some (a + b)%Z | _, _ => None end.
Definition times (a b : num) : num := match a, b with Some a, Some b => Some (a * b)%Z | _, _ => None end.
Definition euler (x : list num) (t dt : Z) (k : list num) : outcome (list num) := Ok (map (fun p => plus (fst p) (times (Some dt) (snd p))) (combine x k)).
Definition nan_forces (i : nat) (x dx : list num) (t : Z) : outcome (list num) := Ok (repeat None 13).
Definition simulation (steps : nat) := quicksolve num nan_num Z nan_forces 1 euler (repeat (Some 0%Z) 13) (fun t i dt => t + Z.of_nat i * dt)%Z (Z * nat)
  fst (fun s => Nat.ltb 0 (snd s)) (fun s t => (t, pred (snd s))) (fun x _ => x) 100 1%Z (repeat (Some 0%Z) 13) (0%Z, steps).
Theorem nan_in_the_output_refuted :
  simulation 1 = ([(0%Z, repeat (Some 0%Z) 13); (1%Z, repeat None 13)], Some Finished) /\
  (forall n, simulation (S (S n)) = ([(0%Z, repeat (Some 0%Z) 13); (1%Z, repeat None 13)], Some Threw)).
Proof. split; [reflexivity|intros n; reflexivity]. Qed.
Print Assumptions nan_in_the_output_refuted.
