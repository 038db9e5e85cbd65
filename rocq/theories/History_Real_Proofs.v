(** Value properties of History over the exact reals. *)
From Coq Require Import ZArith List Bool Lia Sorted Reals Lra.
From Coquelicot Require Import Coquelicot.
From Verif Require Import Common History_Model History_Order_Proofs.
Import ListNotations.
Open Scope R_scope.

Definition Rltb (a b : R) : bool := if Rlt_dec a b then true else false.
Definition Reps : R := 1 / 10 ^ 12.
(** Exact arithmetic; [almost_equal] is an arbitrary relation that holds at least between equal numbers. *)
Definition Rarith (aeqR : Z -> R -> R -> bool) : arith :=
  mkArith R Rltb Rplus Rminus Rmult Rdiv Rabs 0 2 Reps aeqR.

Ltac rlra := first [lra | cbn [num Rarith] in *; lra].

Lemma Rltb_true : forall a b, Rltb a b = true <-> a < b.
Proof. intros. unfold Rltb. destruct (Rlt_dec a b); split; auto; discriminate. Qed.
Lemma Rltb_false : forall a b, Rltb a b = false <-> b <= a.
Proof. intros. unfold Rltb. destruct (Rlt_dec a b); split; intros; auto; try discriminate; rlra. Qed.
Lemma Reps_pos : 0 < Reps.
Proof. unfold Reps. apply Rdiv_lt_0_compat; [rlra|]. apply pow_lt. rlra. Qed.

Definition consecutive {X} (l : list X) (a b : X) : Prop := exists u v, l = u ++ a :: b :: v.

(** The value at [t] of the piecewise-linear function through the points of [l]. *)
Definition interp (l : list (R * R)) (t y : R) : Prop :=
  l = [(t, y)] \/
  exists a b, consecutive l a b /\ fst a <= t <= fst b /\
    y = snd a + (t - fst a) / (fst b - fst a) * (snd b - snd a).

Section R.
Variable aeqR : Z -> R -> R -> bool.
Hypothesis aeqR_refl : forall n x, aeqR n x x = true.
Notation A := (Rarith aeqR).

Lemma R_laws : order_laws A.
Proof.
  constructor; simpl.
  - intros x. apply Rltb_false. rlra.
  - intros x y z H1 H2. rewrite Rltb_true in *. rlra.
  - intros x y z H. rewrite !Rltb_true in *. rlra.
  - intros n x y H1 H2. rewrite Rltb_false in *. replace y with x by rlra. apply aeqR_refl.
  - intros x y H. rewrite Rltb_false in *. rlra.
Qed.

Notation sorted := (StronglySorted (before A)).

Lemma consecutive_nth : forall X (l : list X) i a b, nth_error l i = Some a -> nth_error l (S i) = Some b -> consecutive l a b.
Proof.
  intros X l. induction l as [|c l IH]; intros i a b Ha Hb; [destruct i; discriminate|].
  destruct i.
  - simpl in *. injection Ha as <-. destruct l; [discriminate|]. injection Hb as <-. exists [], l. reflexivity.
  - simpl in *. destruct (IH i a b Ha Hb) as (u & v & ->). exists (c :: u), v. reflexivity.
Qed.

Lemma consecutive_sorted : forall (l : list (R * R)) a b, sorted l -> consecutive l a b -> fst a < fst b.
Proof.
  intros l a b S (u & v & ->). apply Rltb_true.
  apply (sorted_nth A (u ++ a :: b :: v) S (length u) (length u + 1) a b); [lia| |].
  - rewrite nth_error_app2, Nat.sub_diag by lia. reflexivity.
  - rewrite nth_error_app2 by lia. replace (length u + 1 - length u)%nat with 1%nat by lia. reflexivity.
Qed.

(** ** Reading a value *)
Lemma lin_between : forall tA yA tB yB t, tA < tB -> tA <= t <= tB ->
  Rmin yA yB <= (t - tA) / (tB - tA) * (yB - yA) + yA <= Rmax yA yB.
Proof.
  intros tA yA tB yB t H1 H2. set (k := (t - tA) / (tB - tA)).
  assert (0 <= k <= 1) as [K1 K2].
  { unfold k. split.
    - apply Rdiv_le_0_compat; rlra.
    - apply Rmult_le_reg_r with (tB - tA); [rlra|]. unfold Rdiv. rewrite Rmult_assoc, Rinv_l by rlra. rlra. }
  unfold Rmin, Rmax. destruct (Rle_dec yA yB); nra.
Qed.

(** every value returned by the interpolation is between two consecutive recorded values *)
Lemma interpolate_bounds : forall (l : list (R * R)) idx (t : R), sorted l -> l <> [] -> is_bracket A l t idx ->
  exists y, interpolate_value_in_interval A l idx t = Ok y /\
    ((exists p, nth_error l 0 = Some p /\ y = snd p) \/
     (exists a b, consecutive l a b /\ fst a < t <= fst b /\ Rmin (snd a) (snd b) <= y <= Rmax (snd a) (snd b))).
Proof.
  intros l idx t SL NE (B0 & B1 & B2). unfold interpolate_value_in_interval. change (num A) with R in *.
  destruct (Nat.eqb_spec idx 0) as [-> |N]; cbn [orb].
  { destruct l as [|p l]; [congruence|]. simpl. eexists. split; [reflexivity|]. left. exists p. auto. }
  destruct (Nat.leb_spec (length l) idx) as [G|G].
  { destruct l as [|p l]; [congruence|]. simpl. eexists. split; [reflexivity|]. left. exists p. auto. }
  destruct idx as [|i]; [congruence|]. replace (S i - 1)%nat with i by lia.
  unfold at_ub. destruct (nth_error l i) as [a|] eqn:Ea; [|apply nth_error_None in Ea; lia].
  destruct (nth_error l (S i)) as [b|] eqn:Eb; [|apply nth_error_None in Eb; lia]. cbn [bindO].
  pose proof (consecutive_nth _ l i a b Ea Eb) as C.
  assert (fst a < t) as At by (apply Rltb_true; apply (B1 i a); [lia|auto]).
  assert (t <= fst b) as Tb by (apply Rltb_false; apply (B2 b); auto).
  destruct a as [tA yA], b as [tB yB]. simpl in At, Tb.
  assert (tA < tB) as AB by rlra.
  assert (forall y, Rmin yA yB <= y <= Rmax yA yB ->
    exists y0, @Ok R y = Ok y0 /\ ((exists p, nth_error l 0 = Some p /\ y0 = snd p) \/
     (exists a b, consecutive l a b /\ fst a < t <= fst b /\ Rmin (snd a) (snd b) <= y0 <= Rmax (snd a) (snd b)))) as K.
  { intros y Hy. exists y. split; [reflexivity|]. right. exists (tA, yA), (tB, yB). simpl. auto. }
  simpl. pose proof (Rmin_l yA yB). pose proof (Rmin_r yA yB). pose proof (Rmax_l yA yB). pose proof (Rmax_r yA yB).
  destruct (Rltb (Rabs (t - tA)) Reps); [apply K; rlra|].
  destruct (Rltb (Rabs (t - tB)) Reps); [apply K; rlra|].
  apply K. apply lin_between; rlra.
Qed.

Definition resolved (l : list (R * R)) (t : R) : Prop := forall p, In p l -> fst p = t \/ Reps <= Rabs (t - fst p).

Lemma interpolate_exact : forall (l : list (R * R)) idx (t : R), sorted l -> l <> [] -> is_bracket A l t idx ->
  (forall p, nth_error l 0 = Some p -> fst p <= t) -> (idx < length l)%nat -> resolved l t ->
  exists y, interpolate_value_in_interval A l idx t = Ok y /\ interp l t y.
Proof.
  intros l idx t SL NE (B0 & B1 & B2) Hf Hi Hr. unfold interpolate_value_in_interval. change (num A) with R in *.
  destruct (Nat.eqb_spec idx 0) as [-> |N]; cbn [orb].
  { destruct l as [|p l]; [congruence|]. simpl. exists (snd p). split; [reflexivity|].
    specialize (Hf p eq_refl). specialize (B2 p eq_refl). simpl in B2. rewrite Rltb_false in B2.
    assert (t = fst p) as -> by rlra. destruct l as [|q l].
    - left. destruct p; reflexivity.
    - right. exists p, q. split; [exists [], l; reflexivity|].
      assert (fst p < fst q) by (apply (consecutive_sorted (p :: q :: l)); auto; exists [], l; reflexivity).
      split; [rlra|]. field. rlra. }
  destruct (Nat.leb_spec (length l) idx) as [G|G]; [lia|].
  destruct idx as [|i]; [congruence|]. replace (S i - 1)%nat with i by lia.
  unfold at_ub. destruct (nth_error l i) as [a|] eqn:Ea; [|apply nth_error_None in Ea; lia].
  destruct (nth_error l (S i)) as [b|] eqn:Eb; [|apply nth_error_None in Eb; lia]. cbn [bindO].
  pose proof (consecutive_nth _ l i a b Ea Eb) as C.
  assert (fst a < t) as At by (apply Rltb_true; apply (B1 i a); [lia|auto]).
  assert (t <= fst b) as Tb by (apply Rltb_false; apply (B2 b); auto).
  pose proof (Hr a (nth_error_In _ _ Ea)) as Ra. pose proof (Hr b (nth_error_In _ _ Eb)) as Rb.
  destruct a as [tA yA], b as [tB yB]. simpl in *.
  destruct (Rltb (Rabs (t - tA)) Reps) eqn:E1; [apply Rltb_true in E1; rlra|].
  destruct (Rltb (Rabs (t - tB)) Reps) eqn:E2.
  - apply Rltb_true in E2. destruct Rb as [-> |Rb]; [|rlra]. exists yB. split; [reflexivity|]. right.
    exists (tA, yA), (t, yB). split; [exact C|]. simpl. split; [rlra|]. field. rlra.
  - eexists. split; [reflexivity|]. right. exists (tA, yA), (tB, yB). split; [exact C|]. simpl. split; [rlra|]. ring.
Qed.

(** ** A run of recordings at increasing dates *)
Fixpoint run (h : hist A) (recs : list (R * R)) : call (hist A) :=
  match recs with
  | [] => Returned h
  | (t, v) :: r => match record A h t v with Returned h' => run h' r | c => c end
  end.

Lemma run_app : forall l1 l2 h, run h (l1 ++ l2) = match run h l1 with Returned h' => run h' l2 | c => c end.
Proof. induction l1 as [|[t v] l1 IH]; intros l2 h; simpl; [reflexivity|]. destruct (record A h t v); auto. Qed.

(** dates are increasing, and consecutive ones are told apart by the ULP comparison *)
Definition increasing (recs : list (R * R)) : Prop :=
  StronglySorted (fun p q => fst p < fst q) recs /\
  forall a b, consecutive recs a b -> aeqR 4 (fst b) (fst a) = false.

Definition now (l : list (R * R)) : R := fst (last l (0, 0)).

Lemma consecutive_app : forall X (l : list X) x a b, consecutive l a b -> consecutive (l ++ [x]) a b.
Proof. intros X l x a b (u & v & ->). exists u, (v ++ [x]). rewrite <- app_assoc. reflexivity. Qed.

Lemma increasing_app : forall l x, increasing (l ++ [x]) -> increasing l /\ (forall p, In p l -> fst p < fst x) /\
  (forall l0 y, l = l0 ++ [y] -> aeqR 4 (fst x) (fst y) = false).
Proof.
  intros l x [S C]. split; [split|split].
  - induction l; [constructor|]. simpl in S. apply StronglySorted_inv in S. destruct S as [S F].
    constructor; [apply IHl; auto|].
    + intros a' b' (u & v & E). apply C. exists (a :: u), v. simpl. rewrite E. reflexivity.
    + apply Forall_app in F. tauto.
  - intros a b H. apply C. apply consecutive_app. exact H.
  - clear C. intros p Hp. induction l; [destruct Hp|]. simpl in S. apply StronglySorted_inv in S. destruct S as [S F].
    destruct Hp as [<-|Hp]; [|apply IHl; auto]. apply Forall_app in F. destruct F as [_ F]. apply Forall_inv in F. exact F.
  - intros l0 y ->. apply C. exists l0, []. rewrite <- app_assoc. reflexivity.
Qed.

Lemma last_snoc : forall X (l : list X) x d, last (l ++ [x]) d = x.
Proof. intros. apply last_last. Qed.

(** The state of the history after such a run. *)
Record run_state (T : R) (recs : list (R * R)) (h : hist A) : Prop := {
  rs_inv : inv A h;
  rs_T : Tmax h = T;
  rs_form : exists k, (k <= length recs)%nat /\ (forall p, In p (firstn k recs) -> fst p < now recs - T) /\
     (L h = skipn k recs \/
      exists v, L h = (now recs - T, v) :: skipn k recs /\ oldest h = now recs - T /\
                (forall p, In p (skipn k recs) -> now recs - T < fst p));
  rs_span : recs <> [] -> now recs - T <= oldest h
}.

Lemma skipn_add : forall X (l : list X) i j, skipn i (skipn j l) = skipn (j + i) l.
Proof. intros X l i j. revert l. induction j; intros l; [reflexivity|]. destruct l; [rewrite !skipn_nil; reflexivity|]. apply IHj. Qed.

Lemma skipnth : forall X (l : list X) n i, nth_error (skipn n l) i = nth_error l (n + i).
Proof. induction l; intros [|n] i; simpl; auto. - destruct i; reflexivity. Qed.

Lemma in_firstn : forall X (l : list X) n p, In p (firstn n l) -> In p l.
Proof. intros X l n p H. rewrite <- (firstn_skipn n l). apply in_or_app. auto. Qed.

Lemma firstn_app_le : forall X (l l' : list X) k, (k <= length l)%nat -> firstn k (l ++ l') = firstn k l.
Proof. intros. rewrite firstn_app. replace (k - length l)%nat with 0%nat by lia. simpl. apply app_nil_r. Qed.
Lemma skipn_app_le : forall X (l l' : list X) k, (k <= length l)%nat -> skipn k (l ++ l') = skipn k l ++ l'.
Proof. intros. rewrite skipn_app. replace (k - length l)%nat with 0%nat by lia. reflexivity. Qed.

Lemma run_increasing : forall T recs, 0 <= T -> increasing recs ->
  exists h, run (new_history A T) recs = Returned h /\ run_state T recs h.
Proof.
  intros T recs HT. induction recs as [|[t v] recs IH] using rev_ind; intros Inc.
  - exists (new_history A T). split; [reflexivity|]. constructor.
    + split; [constructor|]. split; [simpl; apply Rltb_false; exact HT|]. intros p [].
    + reflexivity.
    + exists 0%nat. split; [simpl; lia|]. split; [intros p []|]. left. reflexivity.
    + congruence.
  - destruct (increasing_app recs (t, v) Inc) as (Inc1 & Lt & Naeq).
    destruct (IH Inc1) as (h & Eh & [I ET (k & Kl & Kf & Form) Span]). clear IH.
    rewrite run_app, Eh. cbn [run].
    (* all points of the history are earlier than t *)
    assert (forall p, In p (L h) -> fst p < t) as Lh.
    { intros p Hp. destruct Form as [Form|(v0 & Form & _ & _)]; rewrite Form in Hp.
      - apply (Lt p). rewrite <- (firstn_skipn k recs). apply in_or_app. auto.
      - destruct Hp as [<-|Hp].
        + simpl. destruct recs as [|r0 recs'] eqn:Er; [destruct I as (_ & _ & IO)|].
          * assert (oldest h = 0).
            { simpl in Eh. injection Eh as <-. reflexivity. }
            exfalso. simpl in Eh. injection Eh as <-. simpl in Form. discriminate.
          * rewrite <- Er in *. unfold now. assert (recs <> []) as NE by (rewrite Er; discriminate).
            destruct (exists_last NE) as (l0 & y & El). rewrite El. rewrite last_snoc.
            assert (fst y < t) by (apply (Lt y); rewrite El; apply in_or_app; right; left; reflexivity). rlra.
        + apply (Lt p). rewrite <- (firstn_skipn k recs). apply in_or_app. auto. }
    (* the last point of the history is the last recorded one *)
    assert (forall l0 x0, L h = l0 ++ [x0] -> aeqR 4 t (fst x0) = false) as Nq.
    { intros l0 x0 El.
      assert (exists l1, recs = l1 ++ [x0]) as (l1 & E1).
      { destruct (Nat.eq_dec k (length recs)) as [-> |Nk].
        - rewrite skipn_all in Form. destruct Form as [Form|(v0 & Form & _ & Fk)].
          + rewrite Form in El. destruct l0; discriminate.
          + exfalso. (* the last recorded point is not before the window *)
            rewrite firstn_all in Kf. destruct recs as [|r0 rr] eqn:Er.
            { simpl in Eh. injection Eh as <-. simpl in Form. discriminate. }
            rewrite <- Er in *. assert (recs <> []) as NE by (rewrite Er; discriminate).
            destruct (exists_last NE) as (l2 & y & El2).
            assert (fst y < now recs - T) as Q by (apply Kf; rewrite El2; apply in_or_app; right; left; reflexivity).
            unfold now in Q. rewrite El2, last_snoc in Q. rlra.
        - assert (skipn k recs <> []) as NE.
          { intros E. apply (f_equal (@length _)) in E. rewrite skipn_length in E. simpl in E. lia. }
          destruct (exists_last NE) as (l2 & y & El2).
          assert (y = x0) as ->.
          { destruct Form as [Form|(v0 & Form & _)]; rewrite Form, El2 in El.
            - apply app_inj_tail in El. tauto.
            - rewrite app_comm_cons in El. apply app_inj_tail in El. tauto. }
          exists (firstn k recs ++ l2). rewrite <- (firstn_skipn k recs) at 1. exact (eq_trans (f_equal (app (firstn k recs)) El2) (app_assoc _ _ _)). }
      exact (Naeq l1 x0 E1). }
    pose proof (R_laws) as OL.
    destruct (record_cases A OL h t v I) as [[_ (l & x & El & _ & Lx)]|(Er & Hs & _)].
    { exfalso. simpl in Lx. apply Rltb_true in Lx. assert (fst x < t) by (apply Lh; rewrite El; apply in_or_app; right; left; reflexivity). rlra. }
    assert (snapped A h t = t) as Sn.
    { unfold snapped. destruct (L h) as [|p l] eqn:El; [reflexivity|].
      destruct (exists_last' A (p :: l) p ltac:(discriminate)) as (l' & El'). 
      change (aeq A) with aeqR. rewrite (Nq l' _ El'). reflexivity. }
    rewrite Sn in *.
    destruct (finish_effect A OL h t v I Hs) as (h1 & h' & l & F1 & I' & T' & Ad & Sh & I1 & T1 & O1 & L1 & _ & _ & _).
    rewrite Er, F1. exists h'. split; [reflexivity|].
    (* the list after insertion *)
    assert (L h1 = L h ++ [(t, v)]) as L1'.
    { destruct (update_inv A OL h t I) as [Iu _].
      destruct (add_value_effect A OL (update_oldest_recorded_instant A h t) t v Iu Hs) as (h1' & E1 & _ & _ & C).
      rewrite Ad in E1. injection E1 as <-. destruct C as [[C _]|(l0 & x & C1 & C2 & C3)]; [exact C|].
      exfalso. simpl in C3. apply Rltb_false in C3. simpl in C1.
      assert (fst x < t) by (apply Lh; rewrite C1; apply in_or_app; right; left; reflexivity). rlra. }
    assert (now (recs ++ [(t, v)]) = t) as Nw by (unfold now; rewrite last_snoc; reflexivity).
    assert (l = L h) as -> by (rewrite L1 in L1'; apply app_inj_tail in L1'; tauto).
    (* oldest is unchanged unless this is the first recording *)
    assert (oldest h1 = match recs with [] => t | _ => oldest h end) as Old.
    { rewrite O1. unfold update_oldest_recorded_instant, minn. simpl.
      destruct recs as [|r0 rr] eqn:Er0.
      - simpl in Eh. injection Eh as <-. simpl. destruct (Rltb t t); reflexivity.
      - rewrite <- Er0 in *. destruct (L h) as [|p0 lh] eqn:El.
        + exfalso. destruct Form as [Form|(v0 & Form & _)]; [|discriminate].
          assert (k = length recs) as -> .
          { symmetry in Form. apply (f_equal (@length _)) in Form. rewrite skipn_length in Form. simpl in Form. lia. }
          rewrite firstn_all in Kf. assert (recs <> []) as NE by (rewrite Er0; discriminate).
          destruct (exists_last NE) as (l2 & y & El2).
          assert (fst y < now recs - T) as Q by (apply Kf; rewrite El2; apply in_or_app; right; left; reflexivity).
          unfold now in Q. rewrite El2, last_snoc in Q. rlra.
        + destruct (Rltb t (oldest h)) eqn:Eo; [|reflexivity]. exfalso. apply Rltb_true in Eo.
          destruct I as (_ & _ & IO). specialize (IO p0 ltac:(rewrite El; left; reflexivity)). simpl in IO. apply Rltb_false in IO.
          specialize (Lh p0 (or_introl eq_refl)). rlra. }
    assert (forall p, In p (firstn k (recs ++ [(t, v)])) -> fst p < t - T) as Kf'.
    { intros p Hp. rewrite firstn_app_le in Hp by exact Kl. specialize (Kf p Hp).
      assert (recs <> []) as NE by (intros ->; destruct k; destruct Hp).
      destruct (exists_last NE) as (l2 & y & El2). unfold now in Kf. rewrite El2, last_snoc in Kf.
      assert (fst y < t) by (apply (Lt y); rewrite El2; apply in_or_app; right; left; reflexivity). rlra. }
    destruct (shift_effect A OL h1 (L h) (t, v) I1 L1') as (h'' & S1 & S2 & S3 & _ & C).
    rewrite Sh in S1. injection S1 as <-.
    rewrite T1, ET in *.
    destruct C as [[-> C]|(Co & C & idx & v0 & Br & _ & Cl)].
    + (* no shift *)
      simpl in C. apply Rltb_true in C.
      constructor; [exact I1|exact T1| |intros _; rewrite Nw; rlra].
      exists k. split; [rewrite app_length; lia|]. split; [rewrite Nw; exact Kf'|].
      destruct Form as [Form|(v0 & Form & Fo & _)].
      * left. rewrite L1', Form. rewrite skipn_app_le by exact Kl. reflexivity.
      * exfalso. destruct recs as [|r0 rr] eqn:Er0.
        { simpl in Eh. injection Eh as <-. simpl in Form. discriminate. }
        rewrite Old, Fo in C. rewrite <- Er0 in *. assert (recs <> []) as NE by (rewrite Er0; discriminate).
        destruct (exists_last NE) as (l2 & y & El2). unfold now in C. rewrite El2, last_snoc in C.
        assert (fst y < t) by (apply (Lt y); rewrite El2; apply in_or_app; right; left; reflexivity). rlra.
    + (* shift *)
      simpl in Co. 
      assert (exists k', (k' <= length (recs ++ [(t, v)]))%nat /\ skipn idx (L h1) = skipn k' (recs ++ [(t, v)]) /\
                (forall p, In p (firstn k' (recs ++ [(t, v)])) -> fst p < t - T)) as (k' & K1 & K2 & K3).
      { destruct Br as (Br1 & Br2 & Br3). destruct Form as [Form|(v1 & Form & Fo & _)].
        - assert (L h1 = skipn k (recs ++ [(t, v)])) as El1 by (rewrite L1', Form, skipn_app_le by exact Kl; reflexivity).
          exists (k + idx)%nat. split; [|split].
          + rewrite El1, skipn_length in Br1. rewrite app_length in *. simpl in *. lia.
          + rewrite El1, skipn_add. reflexivity.
          + intros p Hp. apply In_nth_error in Hp. destruct Hp as (i & Hi).
            assert (i < length (firstn (k + idx) (recs ++ [(t, v)])))%nat as Li by (apply nth_error_Some; congruence).
            rewrite firstn_length in Li.
            assert (nth_error (recs ++ [(t, v)]) i = Some p) as Hi'.
            { rewrite <- (firstn_skipn (k + idx) (recs ++ [(t, v)])). rewrite nth_error_app1; [exact Hi|]. rewrite firstn_length. lia. }
            destruct (le_lt_dec k i) as [G|G].
            * rewrite <- Co. apply Rltb_true. apply (Br2 (i - k)%nat p); [lia|]. rewrite El1, skipnth.
              replace (k + (i - k))%nat with i by lia. exact Hi'.
            * apply Kf'. eapply nth_error_In with (n := i). rewrite <- (firstn_skipn k (recs ++ [(t, v)])) in Hi'.
              rewrite nth_error_app1 in Hi'; [exact Hi'|]. rewrite firstn_length, app_length. simpl. lia.
        - assert (L h1 = (now recs - T, v1) :: skipn k (recs ++ [(t, v)])) as El1.
          { rewrite L1', Form. simpl. rewrite skipn_app_le by exact Kl. reflexivity. }
          assert (recs <> []) as NE.
          { intros ->. simpl in Eh. injection Eh as <-. simpl in Form. discriminate. }
          assert (now recs < t) as NwT.
          { destruct (exists_last NE) as (l2 & y & El2). unfold now. rewrite El2, last_snoc.
            apply (Lt y). rewrite El2. apply in_or_app; right; left; reflexivity. }
          destruct idx as [|j].
          { exfalso. specialize (Br3 (now recs - T, v1)). rewrite El1 in Br3. specialize (Br3 eq_refl). simpl in Br3.
            apply Rltb_false in Br3. rlra. }
          exists (k + j)%nat. split; [|split].
          + rewrite El1 in Br1. simpl in Br1. rewrite skipn_length in Br1. rewrite app_length in *. simpl in *. lia.
          + rewrite El1. simpl. rewrite skipn_add. reflexivity.
          + intros p Hp. apply In_nth_error in Hp. destruct Hp as (i & Hi).
            assert (i < length (firstn (k + j) (recs ++ [(t, v)])))%nat as Li by (apply nth_error_Some; congruence).
            rewrite firstn_length in Li.
            assert (nth_error (recs ++ [(t, v)]) i = Some p) as Hi'.
            { rewrite <- (firstn_skipn (k + j) (recs ++ [(t, v)])). rewrite nth_error_app1; [exact Hi|]. rewrite firstn_length. lia. }
            destruct (le_lt_dec k i) as [G|G].
            * rewrite <- Co. apply Rltb_true. apply (Br2 (S (i - k))%nat p); [lia|]. rewrite El1. simpl. rewrite skipnth.
              replace (k + (i - k))%nat with i by lia. exact Hi'.
            * apply Kf'. eapply nth_error_In with (n := i). rewrite <- (firstn_skipn k (recs ++ [(t, v)])) in Hi'.
              rewrite nth_error_app1 in Hi'; [exact Hi'|]. rewrite firstn_length, app_length. simpl. lia. }
      constructor; [exact I'|congruence| |intros _; rewrite Nw, Co; rlra].
      exists k'. split; [exact K1|]. rewrite Nw. split; [exact K3|].
      rewrite K2 in Cl. destruct Cl as [Cl|[Cl1 Cl2]]; [left; exact Cl|].
      right. exists v0. split; [rewrite Cl1, Co; reflexivity|]. split; [exact Co|].
      intros p Hp. rewrite <- K2 in Hp. apply In_nth_error in Hp. destruct Hp as (i & Hi). rewrite skipnth in Hi.
      assert (nth_error (L h1) idx <> None) as NN.
      { intros E. apply nth_error_None in E. assert (idx + i < length (L h1))%nat by (apply nth_error_Some; congruence). lia. }
      destruct (nth_error (L h1) idx) as [q|] eqn:Eq; [|congruence].
      specialize (Cl2 q eq_refl). simpl in Cl2. apply Rltb_true in Cl2. rewrite Co in Cl2.
      destruct i.
      * rewrite Nat.add_0_r, Eq in Hi. injection Hi as <-. exact Cl2.
      * destruct I1 as (SS & _ & _).
        pose proof (sorted_nth A (L h1) SS idx (idx + S i) q p ltac:(lia) Eq Hi) as Q. unfold before in Q. simpl in Q.
        apply Rltb_true in Q. rlra.
Qed.
End R.
