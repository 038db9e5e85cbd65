(** Properties C07-C13: the record of past states (class History). *)
From Coq Require Import ZArith List Bool Lia Sorted Reals Lra QArith.
From Coquelicot Require Import Coquelicot.
From Verif Require Import Common History_Model History_Order_Proofs History_Real_Proofs History_Average_Proofs.
Import ListNotations.

(** A computable instance (exact rationals, [almost_equal] is equality) used by the concrete cases. All the numbers used
    below are exactly representable as doubles, and so are all intermediate results. *)
Definition Qltb (a b : Q) : bool := match Qcompare a b with Lt => true | _ => false end.
Definition Qarith : arith :=
  mkArith Q Qltb (fun a b => Qred (a + b)) (fun a b => Qred (a - b)) (fun a b => Qred (a * b)) (fun a b => Qred (a / b))
    Qabs.Qabs 0%Q 2%Q (1 # 1000000000000)%Q (fun _ a b => Qeq_bool a b).
Lemma Qltb_true : forall a b, Qltb a b = true <-> (a < b)%Q.
Proof. intros. unfold Qltb. rewrite Qlt_alt. destruct (Qcompare a b); split; congruence. Qed.
Lemma Qltb_false : forall a b, Qltb a b = false <-> (b <= a)%Q.
Proof.
  intros a b. destruct (Qltb a b) eqn:E; split; intros H; try discriminate.
  - apply Qltb_true in E. exfalso. apply (Qlt_irrefl a). apply Qlt_le_trans with b; assumption.
  - apply Qnot_lt_le. intros G. apply Qltb_true in G. congruence.
  - reflexivity.
Qed.
Lemma Q_laws : order_laws Qarith.
Proof.
  constructor; simpl.
  - intros x. apply Qltb_false. apply Qle_refl.
  - intros x y z. rewrite !Qltb_true. apply Qlt_trans.
  - intros x y z H. rewrite !Qltb_true in *. destruct (Qlt_le_dec x y); [left; assumption|right]. apply Qle_lt_trans with x; assumption.
  - intros n x y H1 H2. rewrite Qltb_false in *. apply Qeq_bool_iff. apply Qle_antisym; assumption.
  - intros x y H. rewrite Qltb_false in *. apply (Qle_trans _ (x - y)%Q); [apply Qle_lteq; right; exact (Qred_correct (x - y))|].
    apply Qle_minus_iff. apply (Qle_trans _ y); [exact H|]. apply Qle_lteq. right. ring.
Qed.
Fixpoint qrun (h : hist Qarith) (recs : list (Q * Q)) : call (hist Qarith) :=
  match recs with
  | [] => Returned h
  | (t, v) :: r => match record Qarith h t v with Returned h' => qrun h' r | c => c end
  end.
(** Conversion by the virtual machine, without reading the normal form back. *)
Ltac vmr := match goal with
  | |- @eq ?T ?a ?b => vm_cast_no_check (@eq_refl T b)
  | |- Qeq ?a ?b => vm_compute; reflexivity
  end.
Ltac wit := repeat (split; [vmr|]); vmr.
Definition qhist (T : Q) (l : list (Q * Q)) (o : Q) : hist Qarith := @mkHist Qarith T l o.
Definition dates {A} (h : hist A) : list (num A) := map fst (L h).

(** ** C07: after any sequence of recordings (some of which may be refused) and resets, the instants are strictly
    increasing, in any arithmetic, whatever its rounding. *)
Theorem history_strictly_increasing : forall A, order_laws A -> forall T h recs,
  lt A T (zero A) = false -> reachable A T h recs ->
  StronglySorted (fun a b => lt A a b = true) (dates h).
Proof.
  intros A OL T h recs HT R. destruct (reachable_inv A OL T h recs HT R) as [(S & _ & _) _].
  unfold dates. induction S as [|a l S IH F]; simpl; constructor; auto.
  rewrite Forall_map. exact F.
Qed.
Print Assumptions history_strictly_increasing.

(** Recording never runs into undefined behaviour, and a successful recording leaves the new value as the latest one, at the
    recorded date (or at the previous latest date when the two are almost equal). *)
Theorem history_latest_is_recorded : forall A, order_laws A -> forall T h recs t v,
  lt A T (zero A) = false -> reachable A T h recs ->
  (exists h', record A h t v = Threw h') \/
  exists h' l t', record A h t v = Returned h' /\ L h' = l ++ [(t', v)] /\ get_current_time A h' = t' /\
    (t' = t \/ aeq A 4 t t' = true /\ exists l0 v0, L h = l0 ++ [(t', v0)]).
Proof.
  intros A OL T h recs t v HT R. destruct (reachable_inv A OL T h recs HT R) as [I _].
  destruct (record_cases A OL h t v I) as [[E _]|(E & G & _)]; [left; eauto|right].
  destruct (finish_effect A OL h (snapped A h t) v I G) as (h1 & h' & l & F1 & _ & _ & _ & _ & _ & _ & _ & _ & _ & _ & (l' & El)).
  exists h', l', (snapped A h t). rewrite E, F1. split; [reflexivity|]. split; [exact El|]. split.
  { unfold get_current_time. rewrite El. destruct (l' ++ _) eqn:X; [destruct l'; discriminate|]. rewrite <- X, last_last. reflexivity. }
  unfold snapped. destruct (L h) as [|p r] eqn:X; [left; reflexivity|].
  destruct (aeq A 4 t (fst (last (p :: r) p))) eqn:Y; [right|left; reflexivity]. split; [exact Y|].
  destruct (exists_last' A (p :: r) p ltac:(discriminate)) as (l0 & El0). exists l0, (snd (last (p :: r) p)).
  rewrite El0 at 1. rewrite <- surjective_pairing. reflexivity.
Qed.
Print Assumptions history_latest_is_recorded.
Example history_increasing_witness : exists h h',
  qrun (new_history Qarith (5 # 2)%Q) [(0, 0); (1, 0); (2, 1); (3, 1)]%Q = Returned h /\
  dates h = [1 # 2; 1; 2; 3]%Q /\ record Qarith h 4%Q 1%Q = Returned h' /\ dates h' = [3 # 2; 2; 3; 4]%Q.
Proof. exists (qhist (5#2) [(1#2,0);(1,0);(2,1);(3,1)] (1#2))%Q, (qhist (5#2) [(3#2,0);(2,1);(3,1);(4,1)] (3#2))%Q. wit. Qed.

(** ** C08: a recording is refused exactly when its date is earlier than the latest one and not almost equal to it; then the
    history is unchanged. *)
Theorem history_refuses_exactly_the_past : forall A, order_laws A -> forall T h recs t v,
  lt A T (zero A) = false -> reachable A T h recs ->
  forall h', record A h t v = Threw h' <->
    (h' = h /\ exists l t0 v0, L h = l ++ [(t0, v0)] /\ lt A t t0 = true /\ aeq A 4 t t0 = false).
Proof.
  intros A OL T h recs t v HT R h'. destruct (reachable_inv A OL T h recs HT R) as [I _].
  destruct (record_cases A OL h t v I) as [[E (l & [t0 v0] & El & E4 & Lt)]|(E & G & H)].
  - rewrite E. split.
    + intros [= <-]. split; [reflexivity|]. exists l, t0, v0. auto.
    + intros [-> _]. reflexivity.
  - destruct (finish_effect A OL h (snapped A h t) v I G) as (h1 & h2 & l & F1 & _). rewrite E, F1. split; [discriminate|].
    intros (_ & l0 & t0 & v0 & El & Lt & E4). destruct (H l0 (t0, v0) El) as [X|X]; simpl in X; congruence.
Qed.
Print Assumptions history_refuses_exactly_the_past.
Example history_refuses_witness : exists h h',
  qrun (new_history Qarith 10%Q) [(0, 0); (1, 5)]%Q = Returned h /\ record Qarith h (1 # 2)%Q 3%Q = Threw h /\
  record Qarith h 1%Q 3%Q = Returned h' /\ L h' = [(0, 0); (1, 3)]%Q.
Proof. exists (qhist 10 [(0,0);(1,5)] 0)%Q, (qhist 10 [(0,0);(1,3)] 0)%Q. wit. Qed.

(** ** C09: the search terminates for any list of points (sorted or not)... *)
Theorem history_search_terminates : forall A l t,
  exists idx, find_braketing_position A l t = Ok idx /\ (idx <= length l)%nat.
Proof. intros. apply find_terminates. Qed.
Print Assumptions history_search_terminates.
(** ...and on sorted points it returns the number of points strictly earlier than the date. *)
Theorem history_search_correct : forall A, order_laws A -> forall l t,
  StronglySorted (fun p q => lt A (fst p) (fst q) = true) l ->
  find_braketing_position A l t = Ok (length (filter (fun p => lt A (fst p) t) l)).
Proof.
  intros A OL l t S. destruct (find_correct A OL l t S) as (idx & E & B). rewrite E. f_equal.
  apply (bracket_unique A l t); [exact B|]. clear E B idx.
  induction S as [|a l S IH F]; [split; [simpl; lia|split; [simpl; intros; lia|intros p; simpl; discriminate]]|].
  destruct IH as (B0 & B1 & B2). simpl. destruct (lt A (fst a) t) eqn:Ea.
  - simpl. split; [simpl; lia|]. split.
    + intros [|i] p Hi Hp; simpl in Hp; [injection Hp as <-; exact Ea|]. apply (B1 i); [lia|exact Hp].
    + intros p Hp. simpl in Hp. apply B2. exact Hp.
  - assert (filter (fun p => lt A (fst p) t) l = []) as ->.
    { clear - F Ea OL. induction F as [|b l Hb Hl IH]; [reflexivity|]. simpl.
      destruct (lt A (fst b) t) eqn:Eb; [|exact IH]. rewrite (lt_trans A OL _ _ _ Hb Eb) in Ea. discriminate. }
    split; [simpl; lia|]. split; [simpl; intros; lia|]. intros p Hp. simpl in Hp. injection Hp as <-. exact Ea.
Qed.
Print Assumptions history_search_correct.
Example history_search_witness :
  find_braketing_position Qarith [(0,1);(1,2);(3,2);(4,0);(7,7)]%Q (7 # 2)%Q = Ok 3%nat /\
  find_braketing_position Qarith [(0,1);(1,2);(3,2);(4,0);(7,7)]%Q 3%Q = Ok 2%nat /\
  find_braketing_position Qarith [(0,1);(1,2);(3,2);(4,0);(7,7)]%Q 8%Q = Ok 5%nat.
Proof. vm_compute. repeat split; reflexivity. Qed.

Open Scope R_scope.
Section Reals.
(** From here on: exact reals; [almost_equal] is any relation that holds between equal numbers. *)
Variable aeqR : Z -> R -> R -> bool.
Hypothesis aeqR_refl : forall n x, aeqR n x x = true.
Notation A := (Rarith aeqR).
Local Ltac norm :=
  cbv zeta; change (lt A) with Rltb; change (sub A) with Rminus; change (abs A) with Rabs; change (eps A) with Reps;
  change (zero A) with 0; change (num A) with Rdefinitions.R in *.

Lemma T_ok : forall T, 0 <= T -> lt A T (zero A) = false.
Proof. intros. apply Rltb_false. assumption. Qed.

(** ** C11: the window. A history never spans more than Tmax... *)
Theorem history_never_exceeds_Tmax : forall T h recs, 0 <= T -> reachable A T h recs -> get_duration A h <= T.
Proof.
  intros T h recs HT R.
  (* now - Tmax <= oldest <= front is an invariant of nonempty histories *)
  assert (forall t v h0 h1 recs0, reachable A T h0 recs0 -> record A h0 t v = Returned h1 -> get_duration A h1 <= T) as Step.
  { clear - aeqR_refl HT. intros t v h0 h1 recs0 R E.
    destruct (reachable_inv A (R_laws aeqR aeqR_refl) T h0 recs0 (T_ok T HT) R) as [I ET].
    destruct (record_cases A (R_laws aeqR aeqR_refl) h0 t v I) as [[F _]|(F & G & _)]; [congruence|].
    destruct (finish_effect A (R_laws aeqR aeqR_refl) h0 (snapped A h0 t) v I G)
      as (h2 & h3 & l & F1 & I3 & T3 & Ad & Sh & I2 & T2 & O2 & L2 & _ & _ & (l' & L3)).
    rewrite F, F1 in E. injection E as <-.
    destruct (shift_effect A (R_laws aeqR aeqR_refl) h2 l (snapped A h0 t, v) I2 L2) as (h4 & S1 & _ & _ & _ & C).
    rewrite Sh in S1. injection S1 as <-.
    assert (snapped A h0 t - T <= oldest h3) as K.
    { destruct C as [[-> C]|(C & _)].
      - simpl in C. apply Rltb_true in C. rewrite T2, ET in C. change (num A) with Rdefinitions.R in *. lra.
      - rewrite C, T2, ET. simpl. lra. }
    unfold get_duration. rewrite L3. destruct (l' ++ [(snapped A h0 t, v)]) as [|p r] eqn:El; [destruct l'; discriminate|].
    rewrite <- El, last_last. simpl.
    destruct I3 as (_ & _ & O3). assert (lt A (fst p) (oldest h3) = false) as O4 by (apply O3; rewrite L3; left; reflexivity).
    simpl in O4. apply Rltb_false in O4. change (num A) with Rdefinitions.R in *. lra. }
  induction R as [|h recs t v h' R IH E|h recs t v h' R IH E|h recs R IH].
  - change (0 <= T). exact HT.
  - eapply Step; eauto.
  - destruct (reachable_inv A (R_laws aeqR aeqR_refl) T h recs (T_ok T HT) R) as [I _].
    pose proof (proj1 (history_refuses_exactly_the_past A (R_laws aeqR aeqR_refl) T h recs t v (T_ok T HT) R h') E) as [-> _]. exact IH.
  - change (0 <= T). exact HT.
Qed.

(** ...and, for recordings at increasing dates, contains exactly the points recorded in the last Tmax seconds, preceded by at
    most one other point, at the very start of the window. *)
Theorem history_window_contents : forall T recs, 0 <= T -> increasing aeqR recs ->
  exists h, run aeqR (new_history A T) recs = Returned h /\
    let in_window := filter (fun p => negb (Rltb (fst p) (now recs - T))) recs in
    L h = in_window \/ exists v, L h = (now recs - T, v) :: in_window.
Proof.
  intros T recs HT Inc. destruct (run_increasing aeqR aeqR_refl T recs HT Inc) as (h & E & [I ET (k & Kl & Kf & Form) Span]).
  exists h. split; [exact E|]. cbv zeta.
  assert (forall p, In p (skipn k recs) -> now recs - T <= fst p) as Ge.
  { intros p Hp. assert (recs <> []) as NE by (intros ->; rewrite skipn_nil in Hp; destruct Hp). specialize (Span NE).
    assert (In p (L h)) as HL.
    { destruct Form as [->|(v & -> & _)]; [exact Hp|right; exact Hp]. }
    destruct I as (_ & _ & IO). specialize (IO p HL). simpl in IO. apply Rltb_false in IO. change (num A) with Rdefinitions.R in *. lra. }
  assert (filter (fun p => negb (Rltb (fst p) (now recs - T))) recs = skipn k recs) as ->.
  { transitivity (filter (fun p => negb (Rltb (fst p) (now recs - T))) (firstn k recs ++ skipn k recs)); [rewrite firstn_skipn; reflexivity|].
    rewrite filter_app.
    assert (filter (fun p => negb (Rltb (fst p) (now recs - T))) (firstn k recs) = []) as ->.
    { clear - Kf. induction (firstn k recs) as [|a l IH]; [reflexivity|]. simpl.
      assert (Rltb (fst a) (now recs - T) = true) as -> by (apply Rltb_true; apply Kf; left; reflexivity).
      simpl. apply IH. intros p Hp. apply Kf. right. exact Hp. }
    simpl. clear - Ge. induction (skipn k recs) as [|a l IH]; [reflexivity|]. simpl.
    assert (Rltb (fst a) (now recs - T) = false) as -> by (apply Rltb_false; apply Ge; left; reflexivity).
    simpl. f_equal. apply IH. intros p Hp. apply Ge. right. exact Hp. }
  destruct Form as [Form|(v & Form & _)]; [left; exact Form|right; exists v; exact Form].
Qed.

(** ** C10: the value returned tau seconds ago is the piecewise-linear interpolation of the points of the history, provided no
    point lies within 1E-12 s of that date without being exactly at it. *)
Theorem history_value_interpolates : forall T h recs tau, 0 <= T -> reachable A T h recs -> L h <> [] ->
  0 <= tau <= get_duration A h -> tau = T \/ Reps <= Rabs (tau - T) ->
  resolved (L h) (get_current_time A h - tau) ->
  exists y, value_at A h tau = Ok y /\ interp (L h) (get_current_time A h - tau) y.
Proof.
  intros T h recs tau HT R NE Htau HTm Hr.
  pose proof (history_never_exceeds_Tmax T h recs HT R) as Hd.
  destruct (reachable_inv A (R_laws aeqR aeqR_refl) T h recs (T_ok T HT) R) as [(S & _ & IO) ET].
  unfold value_at. rewrite ET. unfold gt. norm.
  assert ((if Rltb (Rabs (tau - T)) Reps then T else tau) = tau) as ->.
  { destruct (Rltb (Rabs (tau - T)) Reps) eqn:E; [|reflexivity]. apply Rltb_true in E. destruct HTm; [auto|lra]. }
  replace (Rltb T tau) with false by (symmetry; apply Rltb_false; lra).
  replace (Rltb tau 0) with false by (symmetry; apply Rltb_false; lra).
  destruct (L h) as [|p l] eqn:E; [exfalso; apply NE; first [exact E|reflexivity]|]. rewrite <- E in *. clear NE.
  set (t := get_current_time A h - tau) in *.
  assert (L h <> []) as NE by (rewrite E; discriminate).
  destruct (find_correct A (R_laws aeqR aeqR_refl) (L h) t S) as (idx & Ei & B). rewrite Ei. cbn [bindO].
  assert (get_current_time A h = fst (last (L h) p)) as Ct by (unfold get_current_time; rewrite E; reflexivity).
  assert (get_duration A h = fst (last (L h) p) - fst p) as Du by (unfold get_duration; rewrite E; reflexivity).
  destruct (interpolate_exact aeqR (L h) idx t S NE B) as (y & Ey & Iy); [| |exact Hr|exists y; auto].
  - intros q Hq. rewrite E in Hq. simpl in Hq. injection Hq as <-. unfold t. rewrite Ct. change (num A) with Rdefinitions.R in *. lra.
  - destruct (le_lt_dec (length (L h)) idx) as [G|G]; [exfalso|exact G].
    destruct B as (_ & B1 & _). pose proof (last_nth_error A (L h) p NE) as Ln.
    assert (lt A (fst (last (L h) p)) t = true) as Q.
    { apply (B1 (length (L h) - 1)%nat); [|exact Ln]. assert (length (L h) <> 0)%nat by (rewrite E; discriminate). lia. }
    change (Rltb (fst (last (L h) p)) t = true) in Q. apply Rltb_true in Q. unfold t in Q. rewrite Ct in Q. change (num A) with Rdefinitions.R in *. lra.
Qed.

(** Whatever the date (even between points closer than 1E-12 s, even before the start of the history), the value returned is
    between the smallest and the largest values of the history. *)
Theorem history_value_within_bounds : forall T h recs tau m M, 0 <= T -> reachable A T h recs -> L h <> [] ->
  0 <= tau <= T -> (forall p, In p (L h) -> m <= snd p <= M) ->
  exists y, value_at A h tau = Ok y /\ m <= y <= M.
Proof.
  intros T h recs tau m M HT R NE Htau Hb.
  destruct (reachable_inv A (R_laws aeqR aeqR_refl) T h recs (T_ok T HT) R) as [(S & _ & IO) ET].
  unfold value_at. rewrite ET. unfold gt. norm.
  set (tau' := if Rltb (Rabs (tau - T)) Reps then T else tau).
  assert (0 <= tau' <= T) as Htau' by (unfold tau'; destruct (Rltb _ _); lra).
  replace (Rltb T tau') with false by (symmetry; apply Rltb_false; lra).
  replace (Rltb tau' 0) with false by (symmetry; apply Rltb_false; lra).
  destruct (L h) as [|p l] eqn:E; [exfalso; apply NE; first [exact E|reflexivity]|]. rewrite <- E in *.
  destruct (find_correct A (R_laws aeqR aeqR_refl) (L h) (get_current_time A h - tau') S) as (idx & Ei & B). rewrite Ei. cbn [bindO].
  destruct (interpolate_bounds aeqR (L h) idx _ S NE B) as (y & Ey & D). exists y. split; [exact Ey|].
  destruct D as [(q & Hq & ->)|(a & c & C & _ & Hy)].
  - apply Hb. eapply nth_error_In. exact Hq.
  - destruct C as (u & v & El). assert (m <= snd a <= M) by (apply Hb; rewrite El; apply in_or_app; right; left; reflexivity).
    assert (m <= snd c <= M) by (apply Hb; rewrite El; apply in_or_app; right; right; left; reflexivity).
    pose proof (Rmin_glb (snd a) (snd c) m). pose proof (Rmax_lub (snd a) (snd c) M). lra.
Qed.

(** Outside the window: zero beyond Tmax, an error in the future, zero for an empty history. *)
Theorem history_value_outside : forall T h recs tau, 0 <= T -> reachable A T h recs ->
  Reps <= Rabs (tau - T) ->
  (T < tau -> value_at A h tau = Ok 0) /\
  (tau < 0 -> value_at A h tau = Throw) /\
  (0 <= tau <= T -> L h = [] -> value_at A h tau = Ok 0).
Proof.
  intros T h recs tau HT R Hd.
  destruct (reachable_inv A (R_laws aeqR aeqR_refl) T h recs (T_ok T HT) R) as [_ ET].
  unfold value_at. rewrite ET. unfold gt. norm.
  replace (Rltb (Rabs (tau - T)) Reps) with false by (symmetry; apply Rltb_false; lra).
  split; [|split].
  - intros H. replace (Rltb T tau) with true by (symmetry; apply Rltb_true; lra). reflexivity.
  - intros H. replace (Rltb T tau) with false by (symmetry; apply Rltb_false; lra).
    replace (Rltb tau 0) with true by (symmetry; apply Rltb_true; lra). reflexivity.
  - intros H E. replace (Rltb T tau) with false by (symmetry; apply Rltb_false; lra).
    replace (Rltb tau 0) with false by (symmetry; apply Rltb_false; lra). rewrite E. reflexivity.
Qed.

(** A recorded value can be read back: recordings at dates separated by at least 1E-12 s, and a recorded date in the window
    (exactly at its start, or at least 1E-12 s after it). *)
Theorem history_returns_recorded_values : forall T recs ti vi, 0 <= T -> increasing aeqR recs ->
  (forall a b, In a recs -> In b recs -> fst a <> fst b -> Reps <= Rabs (fst a - fst b)) ->
  In (ti, vi) recs -> (ti = now recs - T \/ now recs - T + Reps <= ti) ->
  exists h, run aeqR (new_history A T) recs = Returned h /\ value_at A h (now recs - ti) = Ok vi.
Proof.
  intros T recs ti vi HT Inc Sep Hin Hw.
  destruct (run_increasing aeqR aeqR_refl T recs HT Inc) as (h & E & RS).
  exists h. split; [exact E|].
  assert (exists r, reachable A T h r) as (rr & R).
  { clear - E. assert (forall recs h0 r0, reachable A T h0 r0 -> run aeqR h0 recs = Returned h -> exists r, reachable A T h r) as G.
    { induction recs0 as [|[t v] l IH]; intros h0 r0 R0 E0; [injection E0 as <-; eauto|].
      simpl in E0. destruct (record A h0 t v) eqn:Er; try discriminate. eapply IH; [|exact E0]. eapply reach_record; eauto. }
    eapply G; [apply reach_new|exact E]. }
  destruct RS as [I ET (k & Kl & Kf & Form) Span].
  assert (recs <> []) as NE by (intros ->; destruct Hin). specialize (Span NE).
  pose proof Reps_pos as EP.
  assert (In (ti, vi) (skipn k recs)) as Hsk.
  { rewrite <- (firstn_skipn k recs) in Hin. apply in_app_or in Hin. destruct Hin as [Hf|Hs]; [|exact Hs].
    specialize (Kf _ Hf). simpl in Kf. lra. }
  assert (In (ti, vi) (L h)) as HL.
  { destruct Form as [->|(v & -> & _)]; [exact Hsk|right; exact Hsk]. }
  assert (L h <> []) as NEL by (intros Z; rewrite Z in HL; destruct HL).
  destruct (exists_last NE) as (l2 & [tl vl] & El2).
  assert (now recs = tl) as Nw by (unfold now; rewrite El2, last_last; reflexivity).
  assert (get_current_time A h = now recs) as Ct.
  { assert (exists l0, L h = l0 ++ [(tl, vl)]) as (l0 & El0).
    { assert (In (tl, vl) (skipn k recs)) as Hl.
      { assert (In (tl, vl) recs) as Hl by (rewrite El2; apply in_or_app; right; left; reflexivity).
        rewrite <- (firstn_skipn k recs) in Hl. apply in_app_or in Hl. destruct Hl as [Hf|Hs]; [|exact Hs].
        specialize (Kf _ Hf). simpl in Kf. lra. }
      assert (k <= length l2)%nat as Kl2.
      { destruct (le_lt_dec k (length l2)); auto. exfalso. rewrite skipn_all2 in Hl; [destruct Hl|]. rewrite El2, app_length. simpl. lia. }
      assert (skipn k recs = skipn k l2 ++ [(tl, vl)]) as Es by (rewrite El2, skipn_app; replace (k - length l2)%nat with 0%nat by lia; reflexivity).
      destruct Form as [->|(v & -> & _)]; [exists (skipn k l2); exact Es|exists ((now recs - T, v) :: skipn k l2); simpl; rewrite Es; reflexivity]. }
    unfold get_current_time. rewrite El0. destruct (l0 ++ [(tl, vl)]) eqn:X; [destruct l0; discriminate|]. rewrite <- X, last_last. simpl. auto. }
  assert (ti <= now recs) as Le.
  { pose proof Inc as Inc2. rewrite El2 in Inc2. destruct (increasing_app aeqR l2 (tl, vl) Inc2) as (_ & Q & _).
    rewrite El2 in Hin. apply in_app_or in Hin. destruct Hin as [Hp|[Hp|[]]].
    - specialize (Q _ Hp). simpl in Q. lra.
    - injection Hp as <- <-. lra. }
  destruct (history_value_interpolates T h rr (now recs - ti) HT R NEL) as (y & Ey & Iy).
  - split; [lra|]. destruct (L h) as [|p l] eqn:EL; [congruence|].
    assert (get_duration A h = now recs - fst p) as ->.
    { rewrite <- Ct. unfold get_duration, get_current_time. rewrite EL. reflexivity. }
    assert (fst p <= ti); [|lra].
    destruct I as (S & _ & _). rewrite EL in S. apply StronglySorted_inv in S. destruct S as [_ F].
    destruct HL as [->|HL]; [simpl; lra|]. rewrite Forall_forall in F. specialize (F _ HL). unfold before in F.
    simpl in F. apply Rltb_true in F. change (num A) with Rdefinitions.R in *. lra.
  - destruct Hw as [->|Hw]; [left; lra|right]. rewrite Rabs_left1; lra.
  - rewrite Ct. replace (now recs - (now recs - ti)) with ti by lra. intros p Hp.
    assert (In p recs \/ p = (now recs - T, snd p) /\ now recs - T < ti) as [Hr|[-> Hlt]].
    { destruct Form as [Fo|(v & Fo & _ & Fk)]; rewrite Fo in Hp.
      - left. rewrite <- (firstn_skipn k recs). apply in_or_app. auto.
      - destruct Hp as [<-|Hp]; [right; split; [reflexivity|]; apply (Fk _ Hsk)|left]. rewrite <- (firstn_skipn k recs). apply in_or_app. auto. }
    + destruct (Req_dec (fst p) ti) as [X|X]; [left; exact X|right]. apply (Sep (ti, vi) p Hin Hr). simpl. auto.
    + simpl. right. rewrite Rabs_right; lra.
  - rewrite Ct in Iy. replace (now recs - (now recs - ti)) with ti in Iy by lra. rewrite Ey. f_equal.
    destruct I as (S & _ & _). apply (interp_at_point aeqR (L h) ti vi y S HL Iy).
Qed.

(** ** C12 (partial): when a recording makes the window start move, the point kept at the start of the window has the
    interpolated value, if the new start is between the two first points of the history (i.e. if at most one point is dropped).
    Missing: recordings that drop more points; they are wrong, see [history_window_start_refuted]. *)
Theorem history_window_start_partial : forall T h recs t v h' p0 p1 r, 0 <= T -> reachable A T h recs ->
  L h = p0 :: p1 :: r -> aeqR 4 t (get_current_time A h) = false -> get_current_time A h < t ->
  record A h t v = Returned h' ->
  t - T = oldest h' -> fst p0 <= t - T <= fst p1 -> resolved (L h) (t - T) ->
  exists q l', L h' = q :: l' /\ (fst q = t - T -> interp (L h ++ [(t, v)]) (t - T) (snd q)).
Proof.
  intros T h recs t v h' p0 p1 r HT R EL Na Lt Er Ho Hw Hr.
  destruct (reachable_inv A (R_laws aeqR aeqR_refl) T h recs (T_ok T HT) R) as [I ET].
  pose proof (R_laws aeqR aeqR_refl) as OL.
  destruct (record_cases A OL h t v I) as [[F _]|(F & G & _)]; [congruence|].
  assert (snapped A h t = t) as Sn.
  { unfold snapped. rewrite EL. unfold get_current_time in Na. rewrite EL in Na. change (aeq A) with aeqR. change (num A) with Rdefinitions.R in *. rewrite Na. reflexivity. }
  rewrite Sn in *.
  destruct (finish_effect A OL h t v I G) as (h2 & h3 & l & F1 & I3 & T3 & Ad & Sh & I2 & T2 & O2 & L2 & Sub & Sup & (l' & L3)).
  rewrite F, F1 in Er. injection Er as <-.
  assert (L h2 = L h ++ [(t, v)]) as L2'.
  { destruct (update_inv A OL h t I) as [Iu _].
    destruct (add_value_effect A OL (update_oldest_recorded_instant A h t) t v Iu G) as (h1' & E1 & _ & _ & C).
    rewrite Ad in E1. injection E1 as <-. destruct C as [[C _]|(l0 & x & C1 & C2 & C3)]; [exact C|].
    exfalso. simpl in C3. apply Rltb_false in C3. simpl in C1.
    assert (get_current_time A h = fst x) as X.
    { apply (current_time_last A h l0 x C1). }
    rewrite X in Lt. change (num A) with Rdefinitions.R in *. lra. }
  assert (l = L h) as -> by (rewrite L2 in L2'; apply app_inj_tail in L2'; tauto).
  destruct (shift_effect A OL h2 (L h) (t, v) I2 L2) as (h4 & S1 & _ & _ & _ & C).
  rewrite Sh in S1. injection S1 as <-.
  destruct (L h3) as [|q l3] eqn:E3; [destruct l'; discriminate|].
  exists q, l3. split; [reflexivity|]. intros Eq.
  assert (p0 :: p1 :: r ++ [(t, v)] = L h ++ [(t, v)]) as EL2 by (rewrite EL; reflexivity).
  assert (StronglySorted (before A) (L h ++ [(t, v)])) as SS by (destruct I2 as (S & _ & _); rewrite L2 in S; exact S).
  assert (consecutive (L h ++ [(t, v)]) p0 p1) as C01 by (exists [], (r ++ [(t, v)]); rewrite EL; reflexivity).
  pose proof (consecutive_sorted aeqR _ _ _ SS C01) as P01.
  destruct C as [[-> C]|(Co & C & idx & v0 & Br & Iv & Cl)].
  - (* no shift: then the first point is p0 *)
    assert (q = p0) as ->.
    { rewrite L2 in E3. rewrite EL in E3. simpl in E3. injection E3 as -> _. reflexivity. }
    right. exists p0, p1. split; [exact C01|]. split; [exact Hw|]. rewrite <- Eq. change (num A) with Rdefinitions.R in *. field. lra.
  - simpl in Co. rewrite T2, ET in Co.
    destruct Cl as [Cl|[Cl Cl2]].
    + (* the first point is a recorded one *)
      assert (In q (L h2)) as Hq.
      { apply (in_skipn A (L h2) idx). rewrite <- Cl. left. reflexivity. }
      rewrite L2 in Hq.
      destruct q as [tq yq]. simpl in *. subst tq.
      apply (interp_of_point aeqR); [exact SS|exact Hq].
    + assert (q = (oldest h3, v0)) as -> by (injection Cl as -> _; reflexivity).
      simpl. rewrite Co in Iv. rewrite L2 in Iv. rewrite EL in Iv. simpl in Iv.
      unfold interpolate_value_in_interval in Iv. simpl in Iv.
      destruct p0 as [tA yA], p1 as [tB yB]. simpl in *.
      pose proof (Hr (tA, yA) ltac:(rewrite EL; left; reflexivity)) as RA.
      pose proof (Hr (tB, yB) ltac:(rewrite EL; right; left; reflexivity)) as RB. simpl in RA, RB.
      right. exists (tA, yA), (tB, yB). split; [exact C01|]. simpl. split; [exact Hw|].
      destruct (Rltb (Rabs (t - T - tA)) Reps) eqn:E1.
      * injection Iv as <-. apply Rltb_true in E1. destruct RA as [RA|RA]; [|lra]. rewrite <- RA. field. lra.
      * destruct (Rltb (Rabs (t - T - tB)) Reps) eqn:E2.
        -- injection Iv as <-. apply Rltb_true in E2. destruct RB as [RB|RB]; [|lra]. rewrite <- RB. field. lra.
        -- injection Iv as <-. ring.
Qed.

(** ** C13: [average(T)] is the mean of the piecewise-linear signal over the last min(T, duration) seconds. *)
Theorem history_average_is_the_mean : forall Tm h recs p0 p1 r T f, 0 <= Tm -> reachable A Tm h recs ->
  L h = p0 :: p1 :: r -> 0 < T ->
  (forall t, fst p0 <= t <= get_current_time A h -> interp (L h) t (f t)) ->
  let D := Rmin T (get_duration A h) in
  let e := get_current_time A h in
  resolved (L h) (e - D) ->
  exists y, average A h T = Ok y /\ 0 < D /\ is_RInt f (e - D) e (y * D).
Proof.
  intros Tm h recs p0 p1 r T f HTm R EL HT Hf D e Hr.
  destruct (reachable_inv A (R_laws aeqR aeqR_refl) Tm h recs (T_ok Tm HTm) R) as [I _].
  assert (e = fst (last (L h) p0)) as Ee by (unfold e, get_current_time; rewrite EL; reflexivity).
  assert (D = Rmin T (duration (L h))) as ED by (unfold D, get_duration, duration; rewrite EL; reflexivity).
  destruct (average_integral_lemma aeqR aeqR_refl h p0 p1 r T f I EL HT) as (y & Ey & Iy & P).
  - intros t Ht. apply Hf. fold e. rewrite Ee. exact Ht.
  - rewrite <- Ee, <- ED. exact Hr.
  - exists y. rewrite <- Ee, <- ED in *. auto.
Qed.

(** It is always between the smallest and the largest value (without any condition on the spacing of the points), equals the
    value of a single point, and refuses negative durations when there are at least two points. *)
Theorem history_average_within_bounds : forall Tm h recs T m M, 0 <= Tm -> reachable A Tm h recs ->
  L h <> [] -> 0 <= T -> (forall p, In p (L h) -> m <= snd p <= M) ->
  exists y, average A h T = Ok y /\ m <= y <= M.
Proof.
  intros Tm h recs T m M HTm R NE HT Hb.
  destruct (reachable_inv A (R_laws aeqR aeqR_refl) Tm h recs (T_ok Tm HTm) R) as [I _].
  apply (average_bounds_lemma aeqR aeqR_refl); assumption.
Qed.

Theorem history_average_degenerate : forall h T,
  (L h = [] -> average A h T = Ok 0) /\
  (forall p, L h = [p] -> average A h T = Ok (snd p)) /\
  (forall p q l, L h = p :: q :: l -> T < 0 -> average A h T = Throw).
Proof.
  intros h T. unfold average. split; [intros ->; reflexivity|]. split; [intros p ->; reflexivity|].
  intros p q l -> H. change (lt A T (zero A)) with (Rltb T 0).
  replace (Rltb T 0) with true by (symmetry; apply Rltb_true; exact H). reflexivity.
Qed.
End Reals.
Print Assumptions history_never_exceeds_Tmax.
Print Assumptions history_window_contents.
Print Assumptions history_value_interpolates.
Print Assumptions history_value_within_bounds.
Print Assumptions history_value_outside.
Print Assumptions history_returns_recorded_values.
Print Assumptions history_window_start_partial.
Print Assumptions history_average_is_the_mean.
Print Assumptions history_average_within_bounds.
Print Assumptions history_average_degenerate.

(** Concrete cases, computed in exact rational arithmetic by the same model. *)
Example history_window_witness : exists h,
  qrun (new_history Qarith 2%Q) [(0, 0); (1, 10); (2, 20); (3, 5); (7 # 2, 6)]%Q = Returned h /\
  L h = [(3 # 2, 15); (2, 20); (3, 5); (7 # 2, 6)]%Q /\ get_duration Qarith h = 2%Q /\
  value_at Qarith h (3 # 2)%Q = Ok 20%Q /\ value_at Qarith h 1%Q = Ok (25 # 2)%Q /\ value_at Qarith h 3%Q = Ok 0%Q /\
  average Qarith h 1%Q = Ok (57 # 8)%Q.
Proof. exists (qhist 2 [(3 # 2, 15); (2, 20); (3, 5); (7 # 2, 6)] (3#2))%Q. wit. Qed.

Open Scope Q_scope.
(** Exact piecewise-linear interpolation of four numbers, for the statement of the refutations. *)
Definition Qline (tA yA tB yB t : Q) : Q := yA + (t - tA) / (tB - tA) * (yB - yA).

(** ** C12 is violated in the ordinary use: a constant time step of 1 s and Tmax = 2.5 s. After the recording at t = 4 the
    start of the window is t = 1.5, between the recorded points (1, 0) and (2, 1); the history returns 0 there instead of
    0.5 (it extrapolates the segment between the previous window start 0.5 and 1). *)
Theorem history_window_start_refuted : exists h,
  qrun (new_history Qarith (5 # 2)%Q) [(0, 0); (1, 0); (2, 1); (3, 1); (4, 1)] = Returned h /\
  get_current_time Qarith h = 4 /\ value_at Qarith h (5 # 2) = Ok 0 /\ 4 - (5 # 2) == 3 # 2 /\
  Qline 1 0 2 1 (3 # 2) == 1 # 2.
Proof. exists (qhist (5#2) [(3#2,0);(2,1);(3,1);(4,1)] (3#2))%Q. wit. Qed.
Print Assumptions history_window_start_refuted.

(** The error is not bounded by the range of the recorded values: here all the recorded values are in [0, 1] and the history
    returns 8.  *)
Theorem history_window_start_out_of_range_refuted : exists h,
  qrun (new_history Qarith 10%Q) [(0, 0); (1, 1); (2, 0); (3, 0); (18, 0)] = Returned h /\
  value_at Qarith h 10 = Ok 8.
Proof. exists (qhist 10 [(8,8);(18,0)] 8)%Q. wit. Qed.
Print Assumptions history_window_start_out_of_range_refuted.

(** ** C10 is violated for points closer than 1E-12 s: the latest value is not the one that was just recorded. *)
Theorem history_value_close_points_refuted : exists h,
  qrun (new_history Qarith 1%Q) [(0, 1); (1 # 10000000000000, 5)] = Returned h /\
  L h = [(0, 1); (1 # 10000000000000, 5)] /\ value_at Qarith h 0 = Ok 1.
Proof. exists (qhist 1 [(0, 1); (1 # 10000000000000, 5)] 0)%Q. wit. Qed.
Print Assumptions history_value_close_points_refuted.
