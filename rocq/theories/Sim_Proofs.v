(** Proofs about the state vector, its derivative and the time loop. *)
From Coq Require Import ZArith List Bool Lia Reals Lra String.
From Verif Require Import Common Blocked_Model Blocked_Spec Blocked_Proofs Sim_Model Sim_Spec.
Import ListNotations.
Open Scope R_scope.

Lemma Rltb_swo : strict_weak_order Rltb.
Proof.
  unfold Rltb. constructor.
  - intros a. destruct (Rlt_dec a a); [lra|reflexivity].
  - intros a b c. destruct (Rlt_dec a b), (Rlt_dec b c), (Rlt_dec a c); try discriminate; try reflexivity. lra.
  - intros a b c. destruct (Rlt_dec a b), (Rlt_dec b c), (Rlt_dec a c); try discriminate; auto. lra.
Qed.
Lemma Rltb_false : forall a b, Rltb a b = false <-> b <= a.
Proof. intros. unfold Rltb. destruct (Rlt_dec a b); split; intros; try discriminate; try reflexivity; lra. Qed.

Lemma at_ub_some : forall {A} (l : list A) i a, at_ub l i = Ok a <-> nth_error l i = Some a.
Proof. intros. unfold at_ub. destruct (nth_error l i); split; congruence. Qed.
Lemma at_throw_some : forall {A} (l : list A) i a, at_throw l i = Ok a <-> nth_error l i = Some a.
Proof. intros. unfold at_throw. destruct (nth_error l i); split; congruence. Qed.

Lemma set_all_spec : forall l x x', NoDup (map fst l) -> set_all x l = Ok x' ->
  List.length x' = List.length x /\ (forall i v, In (i, v) l -> nth_error x' i = Some v) /\
  (forall i, ~ In i (map fst l) -> nth_error x' i = nth_error x i).
Proof.
  induction l as [|[i v] l IH]; intros x x' ND H; simpl in H.
  - injection H as <-. split; [reflexivity|]. split; [intros ? ? []|reflexivity].
  - simpl in ND. inversion ND as [|? ? NI ND']; subst.
    destruct (set_ub x i v) as [y| |] eqn:E; try discriminate. cbn [bindO] in H.
    apply set_ub_spec in E as (L1 & S1 & O1). apply IH in H as (L2 & S2 & O2); [|exact ND'].
    split; [congruence|]. split.
    + intros j w [[= <- <-]|Hj]; [rewrite O2 by exact NI; exact S1|apply S2; exact Hj].
    + intros j Hj. simpl in Hj. rewrite O2 by tauto. apply O1. intros ->. tauto.
Qed.
Lemma set_all_ok : forall l x, (forall i, In i (map fst l) -> (i < List.length x)%nat) -> exists x', set_all x l = Ok x'.
Proof.
  induction l as [|[i v] l IH]; intros x H; simpl; [eauto|].
  destruct (set_ub_ok x i v (H i (or_introl eq_refl))) as (y & E). rewrite E. cbn [bindO]. apply IH.
  apply set_ub_spec in E as (L & _). intros j Hj. rewrite L. apply H. right. exact Hj.
Qed.

Ltac idx := unfold XIDX, YIDX, ZIDX, UIDX, VIDX, WIDX, PIDX, QIDX, RIDX, QRIDX, QIIDX, QJIDX, QKIDX, NB_OF_STATES_PER_BODY in *.

(** Reading a vector that is long enough. *)
Lemma nth_error_nth_ok : forall {A} (l : list A) i d, (i < List.length l)%nat -> nth_error l i = Some (nth i l d).
Proof. induction l as [|a l IH]; intros [|i] d H; simpl in *; try lia; [reflexivity|]. apply IH. lia. Qed.

Section P.
Variable Itp : Type.
Variable itp_f itp_df : Itp -> R -> outcome R.

Lemma force_loop_length : forall eval (b : blocked R Itp) l x t x', force_loop Rltb eval b l x t = Ok x' -> List.length x' = List.length x.
Proof.
  intros eval b. induction l as [|s l IH]; intros x t x' H; simpl in H; [congruence|].
  destruct (b_dof b s); [|eapply IH; eauto]. destruct (state_is_blocked_at_that_date Rltb b s t); [|eapply IH; eauto].
  destruct (eval i t); try discriminate. cbn [bindO] in H. destruct (set_ub x _ a) eqn:E; try discriminate. cbn [bindO] in H.
  apply IH in H. apply set_ub_spec in E as (L & _). congruence.
Qed.
Lemma force_loop_other : forall eval (b : blocked R Itp) l x t x', force_loop Rltb eval b l x t = Ok x' ->
  forall i, (forall s, i <> slot (b_idx b) s) -> nth_error x' i = nth_error x i.
Proof.
  intros eval b. induction l as [|s l IH]; intros x t x' H i Hi; simpl in H; [congruence|].
  destruct (b_dof b s); [|eapply IH; eauto]. destruct (state_is_blocked_at_that_date Rltb b s t); [|eapply IH; eauto].
  destruct (eval i0 t); try discriminate. cbn [bindO] in H. destruct (set_ub x _ a) eqn:E; try discriminate. cbn [bindO] in H.
  rewrite (IH _ _ _ H i Hi). apply set_ub_spec in E as (_ & _ & O). apply O. rewrite slot_state_index. apply Hi.
Qed.

Lemma derivative_idx_NoDup : forall i,
  NoDup [UIDX i; VIDX i; WIDX i; PIDX i; QIDX i; RIDX i; XIDX i; YIDX i; ZIDX i; QRIDX i; QIIDX i; QJIDX i; QKIDX i].
Proof. intros i. idx. repeat constructor; simpl; intuition lia. Qed.

Lemma calc_inv : forall b F rot x dx t dx', calculate_state_derivatives itp_df b F rot x dx t = Ok dx' ->
  exists dx1, force_state_derivatives Rltb itp_df (bd_blocked b) dx1 t = Ok dx' /\ List.length dx1 = List.length dx /\
    (forall k, (k < 13)%nat -> nth_error dx1 (13 * bd_idx b + k) = nth_error (free_derivative b F rot x) k) /\
    (forall j, (j < 13 * bd_idx b \/ 13 * bd_idx b + 13 <= j)%nat -> nth_error dx1 j = nth_error dx j).
Proof.
  intros b F rot x dx t dx' H. unfold calculate_state_derivatives in H.
  set (i := bd_idx b) in *.
  destruct (at_ub x (UIDX i)) as [u| |] eqn:Eu; try discriminate; cbn [bindO] in H.
  destruct (at_ub x (VIDX i)) as [v| |] eqn:Ev; try discriminate; cbn [bindO] in H.
  destruct (at_ub x (WIDX i)) as [w| |] eqn:Ew; try discriminate; cbn [bindO] in H.
  destruct (at_ub x (PIDX i)) as [p| |] eqn:Ep; try discriminate; cbn [bindO] in H.
  destruct (at_ub x (QIDX i)) as [q| |] eqn:Eq; try discriminate; cbn [bindO] in H.
  destruct (at_ub x (RIDX i)) as [r| |] eqn:Er; try discriminate; cbn [bindO] in H.
  destruct (at_ub x (QRIDX i)) as [qr| |] eqn:Eqr; try discriminate; cbn [bindO] in H.
  destruct (at_ub x (QIIDX i)) as [qi| |] eqn:Eqi; try discriminate; cbn [bindO] in H.
  destruct (at_ub x (QJIDX i)) as [qj| |] eqn:Eqj; try discriminate; cbn [bindO] in H.
  destruct (at_ub x (QKIDX i)) as [qk| |] eqn:Eqk; try discriminate; cbn [bindO] in H.
  cbn [qmul] in H.
  match type of H with (do dx1 <- set_all dx ?l ; _) = _ => destruct (set_all dx l) as [dx1| |] eqn:E; try discriminate; set (L := l) in E end.
  cbn [bindO] in H. exists dx1. split; [exact H|].
  destruct (set_all_spec L dx dx1 (derivative_idx_NoDup i) E) as (Len & Val & Oth). split; [exact Len|].
  apply at_ub_some in Eu, Ev, Ew, Ep, Eq, Er, Eqr, Eqi, Eqj, Eqk.
  assert (forall j a, nth_error x j = Some a -> nth j x 0 = a) as N by (intros j a Hj; exact (nth_error_nth x j 0 Hj)).
  apply N in Eu, Ev, Ew, Ep, Eq, Er, Eqr, Eqi, Eqj, Eqk. clear N.
  unfold L in Val, Oth. clear L E. idx. replace (i * 13)%nat with (13 * i)%nat in * by lia. split.
  - intros k Hk. unfold free_derivative, state_of. fold i. rewrite Eu, Ev, Ew, Ep, Eq, Er, Eqr, Eqi, Eqj, Eqk.
    unfold mul6, mul3, sum3, sum6 in Val. cbn [nth] in Val.
    do 13 (destruct k as [|k]; [cbn [nth_error]; rewrite ?Nat.add_0_r;
      match goal with |- nth_error _ ?n = Some ?w =>
        match type of Val with forall i v, In (i, v) ?l -> _ =>
          match l with context [(n, ?v)] => rewrite (Val n v); [f_equal; field | cbn [In]; tauto] end end end |]). lia.
  - intros j Hj. apply Oth. cbn [map fst In]. intuition lia.
Qed.

(** Forcing two vectors of the same size. *)
Lemma force_loop_same : forall eval (b : blocked R Itp) l x y t x', List.length y = List.length x ->
  force_loop Rltb eval b l x t = Ok x' ->
  exists y', force_loop Rltb eval b l y t = Ok y' /\ forall i, nth_error x i = nth_error y i -> nth_error x' i = nth_error y' i.
Proof.
  intros eval b. induction l as [|s l IH]; intros x y t x' L H; simpl in H |- *.
  - injection H as <-. exists y. auto.
  - destruct (b_dof b s); [|apply IH; assumption]. destruct (state_is_blocked_at_that_date Rltb b s t); [|apply IH; assumption].
    destruct (eval i t) as [v| |]; try discriminate. cbn [bindO] in H |- *.
    destruct (set_ub x (state_index (b_idx b) s) v) as [x1| |] eqn:E; try discriminate. cbn [bindO] in H.
    apply set_ub_spec in E as (L1 & S1 & O1).
    assert (state_index (b_idx b) s < List.length y)%nat as B.
    { rewrite L, <- L1. apply nth_error_Some. rewrite S1. discriminate. }
    destruct (set_ub_ok y _ v B) as (y1 & E). rewrite E. cbn [bindO]. apply set_ub_spec in E as (L2 & S2 & O2).
    destruct (IH x1 y1 t x' ltac:(congruence) H) as (y' & E' & A). exists y'. split; [exact E'|].
    intros j Hj. apply A. destruct (Nat.eq_dec j (state_index (b_idx b) s)) as [->|Q]; [congruence|].
    rewrite O1, O2 by exact Q. exact Hj.
Qed.

Lemma calc_other : forall b F rot x dx t dx', b_idx (bd_blocked b) = bd_idx b ->
  calculate_state_derivatives itp_df b F rot x dx t = Ok dx' ->
  List.length dx' = List.length dx /\
  forall j, (j < 13 * bd_idx b \/ 13 * bd_idx b + 13 <= j)%nat -> nth_error dx' j = nth_error dx j.
Proof.
  intros b F rot x dx t dx' I H. apply calc_inv in H as (dx1 & Fd & L & _ & O). split.
  - apply force_loop_length in Fd. congruence.
  - intros j Hj. rewrite <- (O j Hj). apply (force_loop_other _ _ _ _ _ _ Fd). intros s. rewrite I. unfold slot, rank. destruct s; lia.
Qed.
Lemma calc_same : forall b F rot x dx dy t dx', List.length dy = List.length dx ->
  calculate_state_derivatives itp_df b F rot x dx t = Ok dx' ->
  exists dy', calculate_state_derivatives itp_df b F rot x dy t = Ok dy' /\
    forall k, (k < 13)%nat -> nth_error dx' (13 * bd_idx b + k) = nth_error dy' (13 * bd_idx b + k).
Proof.
  intros b F rot x dx dy t dx' L H. pose proof H as H0. unfold calculate_state_derivatives in H |- *. set (i := bd_idx b) in *.
  destruct (at_ub x (UIDX i)) as [u| |]; try discriminate; cbn [bindO] in H |- *.
  destruct (at_ub x (VIDX i)) as [v| |]; try discriminate; cbn [bindO] in H |- *.
  destruct (at_ub x (WIDX i)) as [w| |]; try discriminate; cbn [bindO] in H |- *.
  destruct (at_ub x (PIDX i)) as [p| |]; try discriminate; cbn [bindO] in H |- *.
  destruct (at_ub x (QIDX i)) as [q| |]; try discriminate; cbn [bindO] in H |- *.
  destruct (at_ub x (RIDX i)) as [r| |]; try discriminate; cbn [bindO] in H |- *.
  destruct (at_ub x (QRIDX i)) as [qr| |]; try discriminate; cbn [bindO] in H |- *.
  destruct (at_ub x (QIIDX i)) as [qi| |]; try discriminate; cbn [bindO] in H |- *.
  destruct (at_ub x (QJIDX i)) as [qj| |]; try discriminate; cbn [bindO] in H |- *.
  destruct (at_ub x (QKIDX i)) as [qk| |]; try discriminate; cbn [bindO] in H |- *.
  cbn [qmul] in H |- *.
  match type of H with (do dx1 <- set_all dx ?l ; _) = _ => destruct (set_all dx l) as [dx1| |] eqn:E; try discriminate end.
  cbn [bindO] in H.
  match type of E with set_all dx ?l = _ => destruct (set_all_ok l dy) as (dy1 & E2) end.
  { apply set_all_spec in E as (L1 & V1 & _); [|apply derivative_idx_NoDup]. rewrite L, <- L1. intros j Hj.
    apply nth_error_Some. apply in_map_iff in Hj as ((j', a) & <- & Hin). cbn [fst]. rewrite (V1 _ _ Hin). discriminate. }
  rewrite E2. cbn [bindO].
  apply set_all_spec in E as (L1 & V1 & _); [|apply derivative_idx_NoDup]. apply set_all_spec in E2 as (L2 & V2 & _); [|apply derivative_idx_NoDup].
  destruct (force_loop_same itp_df (bd_blocked b) all_states dx1 dy1 t dx' ltac:(congruence) H) as (dy' & E' & A).
  exists dy'. split; [exact E'|]. intros k Hk. apply A.
  assert (exists a, In ((13 * i + k)%nat, a) [(UIDX i, mul6 (bd_Minv b) F 0%nat); (VIDX i, mul6 (bd_Minv b) F 1%nat); (WIDX i, mul6 (bd_Minv b) F 2%nat);
      (PIDX i, mul6 (bd_Minv b) F 3%nat); (QIDX i, mul6 (bd_Minv b) F 4%nat); (RIDX i, mul6 (bd_Minv b) F 5%nat);
      (XIDX i, mul3 rot (fun k => nth k [u; v; w] 0) 0%nat); (YIDX i, mul3 rot (fun k => nth k [u; v; w] 0) 1%nat); (ZIDX i, mul3 rot (fun k => nth k [u; v; w] 0) 2%nat);
      (QRIDX i, 1 / 2 * (qr * 0 - qi * p - qj * q - qk * r)); (QIIDX i, 1 / 2 * (qr * p + qi * 0 + qj * r - qk * q)); (QJIDX i, 1 / 2 * (qr * q + qj * 0 + qk * p - qi * r));
      (QKIDX i, 1 / 2 * (qr * r + qk * 0 + qi * q - qj * p))]) as (a & Ha).
  { idx. replace (i * 13)%nat with (13 * i)%nat by lia. clear - Hk. cbn [In].
    do 13 (destruct k as [|k]; [rewrite ?Nat.add_0_r; eexists; repeat (first [left; reflexivity | right]) |]). exfalso. lia. }
  rewrite (V1 _ _ Ha), (V2 _ _ Ha). reflexivity.
Qed.

Lemma dx_dt_spec : forall bodies x dx t dx',
  NoDup (map (fun p => bd_idx (fst (fst p))) bodies) -> Forall (fun p => b_idx (bd_blocked (fst (fst p))) = bd_idx (fst (fst p))) bodies ->
  dx_dt itp_df bodies x dx t = Ok dx' ->
  List.length dx' = List.length dx /\
  (forall b F rot, In (b, F, rot) bodies -> exists dx_b, calculate_state_derivatives itp_df b F rot x dx t = Ok dx_b /\
     forall k, (k < 13)%nat -> nth_error dx' (13 * bd_idx b + k) = nth_error dx_b (13 * bd_idx b + k)) /\
  (forall j, (forall b F rot, In (b, F, rot) bodies -> (j < 13 * bd_idx b \/ 13 * bd_idx b + 13 <= j)%nat) -> nth_error dx' j = nth_error dx j).
Proof.
  induction bodies as [|[[b F] rot] r IH]; intros x dx t dx' ND FI H; simpl in H.
  - injection H as <-. split; [reflexivity|]. split; [intros ? ? ? []|reflexivity].
  - destruct (calculate_state_derivatives itp_df b F rot x dx t) as [d1| |] eqn:E; try discriminate. cbn [bindO] in H.
    inversion ND as [|? ? NI ND']; subst. inversion FI as [|? ? I0 FI']; subst. simpl in NI, I0.
    destruct (calc_other _ _ _ _ _ _ _ I0 E) as (L1 & O1).
    destruct (IH _ _ _ _ ND' FI' H) as (L2 & V2 & O2). split; [congruence|]. split.
    + intros b' F' rot' [[= <- <- <-]|Hin].
      * exists d1. split; [exact E|]. intros k Hk. apply O2. intros b2 F2 rot2 Hin2.
        assert (bd_idx b2 <> bd_idx b). { intros Q. apply NI. rewrite <- Q. apply (in_map (fun p => bd_idx (fst (fst p))) r (b2, F2, rot2) Hin2). }
        lia.
      * destruct (V2 _ _ _ Hin) as (db & Eb & Ab). destruct (calc_same _ _ _ _ _ dx _ _ (eq_sym L1) Eb) as (db' & Eb' & Ab').
        exists db'. split; [exact Eb'|]. intros k Hk. rewrite Ab by exact Hk. apply Ab'. exact Hk.
    + intros j Hj. rewrite O2; [apply O1; apply (Hj b F rot); left; reflexivity|]. intros. apply (Hj b0 F0 rot0). right. exact H0.
Qed.
End P.

(** ** Quaternions *)
Lemma hypot_nest : forall a b c d, hypot (hypot (hypot a b) c) d = norm4 a b c d.
Proof.
  intros. unfold hypot, norm4.
  assert (forall u, 0 <= u -> sqrt u * sqrt u = u) as S2 by (intros; apply sqrt_sqrt; assumption).
  rewrite S2; [rewrite S2; [reflexivity|nra]|]. rewrite S2 by nra. nra.
Qed.
Lemma norm4_scale : forall a b c d, norm4 a b c d <> 0 ->
  norm4 (a / norm4 a b c d) (b / norm4 a b c d) (c / norm4 a b c d) (d / norm4 a b c d) = 1.
Proof.
  intros a b c d H. set (n := norm4 a b c d) in *. unfold norm4 at 1.
  replace (a / n * (a / n) + b / n * (b / n) + c / n * (c / n) + d / n * (d / n)) with 1; [apply sqrt_1|].
  assert (n * n = a * a + b * b + c * c + d * d) as E by (unfold n, norm4; apply sqrt_sqrt; nra).
  assert (n * n <> 0) by (apply Rmult_integral_contrapositive; auto).
  replace (a / n * (a / n) + b / n * (b / n) + c / n * (c / n) + d / n * (d / n)) with ((a * a + b * b + c * c + d * d) / (n * n)) by (field; assumption).
  rewrite <- E. field. exact H.
Qed.

Section Q.
Variable aeq : R -> R -> bool.
Definition quaternion_slot (i j : nat) : Prop := (13 * i + 9 <= j < 13 * i + 13)%nat.

Lemma normalize_one_spec : forall i x x', normalize_one aeq i x = Ok x' ->
  List.length x' = List.length x /\ (forall j, ~ quaternion_slot i j -> nth_error x' j = nth_error x j) /\
  ((aeq (quaternion_norm x i) 1 = true /\ x' = x) \/
   (aeq (quaternion_norm x i) 1 = false /\ forall k, (9 <= k < 13)%nat -> state_of x' i k = state_of x i k / quaternion_norm x i)).
Proof.
  intros i x x' H. unfold normalize_one in H.
  destruct (at_ub x (QRIDX i)) as [qr| |] eqn:E0; try discriminate; cbn [bindO] in H.
  destruct (at_ub x (QIIDX i)) as [qi| |] eqn:E1; try discriminate; cbn [bindO] in H.
  destruct (at_ub x (QJIDX i)) as [qj| |] eqn:E2; try discriminate; cbn [bindO] in H.
  destruct (at_ub x (QKIDX i)) as [qk| |] eqn:E3; try discriminate; cbn [bindO] in H.
  rewrite hypot_nest in H. apply at_ub_some in E0, E1, E2, E3.
  assert (forall j a, nth_error x j = Some a -> nth j x 0 = a) as N by (intros j a Hj; exact (nth_error_nth x j 0 Hj)).
  apply N in E0, E1, E2, E3. unfold quaternion_norm, state_of. idx. replace (i * 13)%nat with (13 * i)%nat in * by lia.
  rewrite E0, E1, E2, E3. destruct (aeq (norm4 qr qi qj qk) 1) eqn:A.
  - injection H as <-. split; [reflexivity|]. split; [reflexivity|]. left. auto.
  - apply set_all_spec in H as (L & V & O); [|cbn [map fst]; repeat constructor; cbn [In]; intuition lia].
    split; [exact L|]. split.
    + intros j Hj. apply O. cbn [map fst In]. unfold quaternion_slot in Hj. intuition lia.
    + right. split; [reflexivity|]. intros k Hk.
      assert (forall a v, nth_error x' a = Some v -> nth a x' 0 = v) as N' by (intros a v Hv; exact (nth_error_nth x' a 0 Hv)).
      assert (k = 9 \/ k = 10 \/ k = 11 \/ k = 12)%nat as [->|[->|[->| ->]]] by lia; rewrite ?E0, ?E1, ?E2, ?E3; apply N', V; cbn [In]; tauto.
Qed.

Lemma state_of_ext : forall x y i k, nth_error x (13 * i + k) = nth_error y (13 * i + k) -> state_of x i k = state_of y i k.
Proof.
  intros x y i k H. unfold state_of.
  assert (forall l : list R, nth (13 * i + k) l 0 = match nth_error l (13 * i + k) with Some v => v | None => 0 end) as N.
  { intros l. generalize (13 * i + k)%nat. induction l as [|a l IH]; intros [|n]; cbn [nth nth_error]; auto. }
  rewrite !N, H. reflexivity.
Qed.
Lemma qnorm_ext : forall x y i, (forall j, quaternion_slot i j -> nth_error x j = nth_error y j) -> quaternion_norm x i = quaternion_norm y i.
Proof.
  intros x y i H. unfold quaternion_norm.
  rewrite !(state_of_ext x y) by (apply H; unfold quaternion_slot; lia). reflexivity.
Qed.

Lemma normalize_from_spec : forall n i x x', normalize_from aeq i n x = Ok x' ->
  List.length x' = List.length x /\
  (forall j, (forall m, (i <= m < i + n)%nat -> ~ quaternion_slot m j) -> nth_error x' j = nth_error x j) /\
  (forall m, (i <= m < i + n)%nat ->
     (aeq (quaternion_norm x m) 1 = true /\ forall k, (9 <= k < 13)%nat -> state_of x' m k = state_of x m k) \/
     (aeq (quaternion_norm x m) 1 = false /\ forall k, (9 <= k < 13)%nat -> state_of x' m k = state_of x m k / quaternion_norm x m)).
Proof.
  induction n as [|n IH]; intros i x x' H; simpl in H.
  - injection H as <-. split; [reflexivity|]. split; [reflexivity|]. intros m Hm. lia.
  - destruct (normalize_one aeq i x) as [x1| |] eqn:E; try discriminate. cbn [bindO] in H.
    apply normalize_one_spec in E as (L1 & O1 & C1). apply IH in H as (L2 & O2 & C2). split; [congruence|]. split.
    + intros j Hj. rewrite O2; [apply O1; apply Hj; lia|]. intros m Hm. apply Hj. lia.
    + intros m Hm. destruct (Nat.eq_dec m i) as [->|Q].
      * assert (forall k, (9 <= k < 13)%nat -> state_of x' i k = state_of x1 i k) as E.
        { intros k Hk. apply state_of_ext. apply O2. intros m Hm' Hs. unfold quaternion_slot in Hs. lia. }
        destruct C1 as [(A & ->)|(A & V)]; [left|right]; (split; [exact A|]); intros k Hk; rewrite E by exact Hk; [reflexivity|apply V; exact Hk].
      * assert (forall j, quaternion_slot m j -> nth_error x1 j = nth_error x j) as X.
        { intros j Hj. apply O1. unfold quaternion_slot in *. lia. }
        rewrite <- (qnorm_ext x1 x m X).
        assert (forall k, (9 <= k < 13)%nat -> state_of x m k = state_of x1 m k) as Y.
        { intros k Hk. symmetry. apply state_of_ext. apply X. unfold quaternion_slot. lia. }
        destruct (C2 m ltac:(lia)) as [(A & V)|(A & V)]; [left|right]; (split; [exact A|]); intros k Hk; rewrite (Y k Hk); apply V; exact Hk.
Qed.
End Q.

(** ** The time loop *)
Section Loop.
Variables (Sys T Sch : Type) (instant : T -> nat -> T -> T) (get_time : Sch -> T) (more : Sch -> bool)
  (append : Sch -> T -> Sch) (do_step : Sys -> T -> T -> Sys) (force : Sys -> T -> Sys).
Variable contract : forall s t, get_time (append s t) = t.

Lemma loop_instants : forall n i tstart dt sys sch obs fin,
  quicksolve_loop Sys T instant Sch get_time more append do_step force n i tstart dt sys sch = (obs, fin) ->
  map fst obs = map (fun k => instant tstart k dt) (seq (S i) (List.length obs)).
Proof.
  induction n as [|n IH]; intros i tstart dt sys sch obs fin H; simpl in H; destruct (more sch); try (injection H as <- <-; reflexivity).
  destruct (quicksolve_loop _ _ _ _ _ _ _ _ _ n (S i) tstart dt _ _) as [o f] eqn:E. injection H as <- <-.
  apply IH in E. cbn [map fst List.length seq]. rewrite contract, E. reflexivity.
Qed.
Lemma loop_states : forall n i tstart dt sys sch obs fin,
  quicksolve_loop Sys T instant Sch get_time more append do_step force n i tstart dt sys sch = (obs, fin) ->
  forall k t0 s0 t1 s1, nth_error ((get_time sch, sys) :: obs) k = Some (t0, s0) -> nth_error ((get_time sch, sys) :: obs) (S k) = Some (t1, s1) ->
  s1 = force (do_step s0 t0 dt) t0.
Proof.
  induction n as [|n IH]; intros i tstart dt sys sch obs fin H k t0 s0 t1 s1 H0 H1; simpl in H; destruct (more sch);
    try (injection H as <- <-; destruct k as [|[|]]; discriminate).
  destruct (quicksolve_loop _ _ _ _ _ _ _ _ _ n (S i) tstart dt _ _) as [o f] eqn:E. injection H as <- <-.
  destruct k as [|k].
  - cbn in H0, H1. injection H0 as <- <-. injection H1 as <- <-. reflexivity.
  - cbn [nth_error] in H0, H1. eapply (IH _ _ _ _ _ _ _ E k); [exact H0|exact H1].
Qed.
End Loop.
