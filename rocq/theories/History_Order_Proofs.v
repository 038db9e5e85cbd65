(** Order properties of History, for every arithmetic with a strict weak order. *)
From Coq Require Import ZArith List Bool Lia Sorted.
From Verif Require Import Common History_Model.
Import ListNotations.

(** What is assumed of [<], [-] and [almost_equal]: true of doubles without NaN, whatever the rounding mode. *)
Record order_laws (A : arith) : Prop := {
  lt_irrefl : forall x, lt A x x = false;
  lt_trans : forall x y z, lt A x y = true -> lt A y z = true -> lt A x z = true;
  lt_split : forall x y z, lt A x z = true -> lt A x y = true \/ lt A y z = true;
  aeq_refl : forall n x y, lt A x y = false -> lt A y x = false -> aeq A n x y = true;
  sub_nonneg : forall x y, lt A y (zero A) = false -> lt A x (sub A x y) = false
}.

Section P.
Variable A : arith.
Hypothesis OL : order_laws A.
Notation num := (num A).
Notation lt := (lt A).

Definition before (p q : num * num) : Prop := lt (fst p) (fst q) = true.
Notation sorted := (StronglySorted before).

Lemma lt_asym : forall x y, lt x y = true -> lt y x = false.
Proof. intros x y H. destruct (lt y x) eqn:E; auto. pose proof (lt_trans A OL _ _ _ H E). rewrite (lt_irrefl A OL) in *. discriminate. Qed.
Lemma lt_le_trans : forall x y z, lt x y = true -> lt z y = false -> lt x z = true.
Proof. intros x y z H1 H2. destruct (lt_split A OL x z y H1) as [H|H]; auto. congruence. Qed.
Lemma le_lt_trans : forall x y z, lt y x = false -> lt y z = true -> lt x z = true.
Proof. intros x y z H1 H2. destruct (lt_split A OL y x z H2) as [H|H]; auto. congruence. Qed.
Lemma le_trans : forall x y z, lt y x = false -> lt z y = false -> lt z x = false.
Proof. intros x y z H1 H2. destruct (lt z x) eqn:E; auto. destruct (lt_split A OL z y x E); congruence. Qed.
Lemma eqn_true : forall x y, eqn A x y = true <-> lt x y = false /\ lt y x = false.
Proof. intros. unfold eqn. rewrite andb_true_iff, !negb_true_iff. tauto. Qed.
Lemma eqn_false : forall x y, eqn A x y = false -> lt x y = true \/ lt y x = true.
Proof. intros x y. unfold eqn. destruct (lt x y), (lt y x); simpl; auto. Qed.

Lemma sorted_nth : forall l, sorted l -> forall i j p q, (i < j)%nat -> nth_error l i = Some p -> nth_error l j = Some q -> before p q.
Proof.
  induction 1 as [|a l Hl IH Ha]; intros i j p q Hij Hi Hj; [destruct i; discriminate|].
  destruct j; [lia|]. simpl in Hj. destruct i; simpl in Hi.
  - injection Hi as <-. rewrite Forall_forall in Ha. apply Ha. eapply nth_error_In; eauto.
  - eapply IH; [|eauto|eauto]. lia.
Qed.

Lemma last_nth_error : forall (l : list (num * num)) d, l <> [] -> nth_error l (length l - 1) = Some (last l d).
Proof.
  induction l as [|a l IH]; intros d H; [congruence|]. destruct l as [|b l]; [reflexivity|].
  replace (length (a :: b :: l) - 1)%nat with (S (length (b :: l) - 1)) by (simpl; lia). simpl nth_error.
  change (last (a :: b :: l) d) with (last (b :: l) d). simpl in IH. simpl. rewrite <- IH by discriminate.
  replace (length l - 0)%nat with (length l) by lia. reflexivity.
Qed.

Definition is_bracket (l : list (num * num)) (t : num) (idx : nat) : Prop :=
  (idx <= length l)%nat /\
  (forall i p, (i < idx)%nat -> nth_error l i = Some p -> lt (fst p) t = true) /\
  (forall p, nth_error l idx = Some p -> lt (fst p) t = false).

Lemma find_loop_terminates : forall fuel l t lo hi, (lo < hi < length l)%nat -> (hi - lo <= fuel)%nat ->
  exists idx, find_loop A fuel l t lo hi = Ok idx /\ (lo <= idx <= hi)%nat.
Proof.
  induction fuel; intros l t lo hi H F; [lia|]. cbn [find_loop]. cbv zeta.
  unfold at_ub. destruct (nth_error l lo) as [plo|] eqn:Elo; [|apply nth_error_None in Elo; lia]. cbn [bindO].
  destruct (eqn A t (fst plo)); [exists lo; split; auto; lia|].
  destruct (nth_error l hi) as [phi|] eqn:Ehi; [|apply nth_error_None in Ehi; lia]. cbn [bindO].
  destruct (eqn A t (fst phi)); [exists hi; split; auto; lia|].
  destruct (Nat.leb_spec hi (lo + 1)); [exists hi; split; auto; lia|].
  assert (lo < (lo + hi) / 2 < hi)%nat as M.
  { assert (2 * ((lo + hi) / 2) <= lo + hi < 2 * ((lo + hi) / 2) + 2)%nat.
    { pose proof (Nat.div_mod (lo + hi) 2 ltac:(lia)). pose proof (Nat.mod_upper_bound (lo + hi) 2 ltac:(lia)). lia. }
    lia. }
  set (mid := ((lo + hi) / 2)%nat) in *.
  destruct (nth_error l mid) as [pm|] eqn:Em; [|apply nth_error_None in Em; lia]. cbn [bindO].
  destruct (eqn A t (fst pm)); [exists mid; split; auto; lia|].
  destruct (lt t (fst pm)).
  - destruct (IHfuel l t lo mid) as (idx & E & B); [lia|lia|]. exists idx. split; auto. lia.
  - destruct (IHfuel l t mid hi) as (idx & E & B); [lia|lia|]. exists idx. split; auto. lia.
Qed.

Lemma find_loop_correct : forall fuel l t lo hi idx, sorted l -> (lo < hi < length l)%nat ->
  (forall p, nth_error l lo = Some p -> lt (fst p) t = true) ->
  (forall p, nth_error l hi = Some p -> lt (fst p) t = false) ->
  find_loop A fuel l t lo hi = Ok idx -> is_bracket l t idx.
Proof.
  induction fuel; intros l t lo hi idx S H Hlo Hhi; [discriminate|]. cbn [find_loop]. cbv zeta. unfold at_ub.
  destruct (nth_error l lo) as [plo|] eqn:Elo; [|discriminate]. cbn [bindO].
  destruct (eqn A t (fst plo)) eqn:E1.
  { apply eqn_true in E1. rewrite (Hlo plo eq_refl) in E1. destruct E1; discriminate. }
  destruct (nth_error l hi) as [phi|] eqn:Ehi; [|discriminate]. cbn [bindO].
  assert (forall m pm, nth_error l m = Some pm -> eqn A t (fst pm) = true -> is_bracket l t m) as Exact.
  { intros m pm Em E2. apply eqn_true in E2. destruct E2 as [Ea Eb]. split; [|split].
    - assert (m < length l)%nat by (apply nth_error_Some; congruence). lia.
    - intros i p Hi Hp. apply lt_le_trans with (fst pm); auto. apply (sorted_nth l S i m); auto.
    - intros p Hp. rewrite Em in Hp. injection Hp as <-. exact Eb. }
  destruct (eqn A t (fst phi)) eqn:E2; [intros [= <-]; apply (Exact hi phi); auto|].
  destruct (Nat.leb_spec hi (lo + 1)).
  { intros [= <-]. split; [lia|]. split.
    - intros i p Hi Hp. destruct (Nat.eq_dec i lo) as [-> |N].
      + rewrite Elo in Hp. injection Hp as <-. apply Hlo; auto.
      + eapply lt_trans; [exact OL| |apply (Hlo plo); auto]. apply (sorted_nth l S i lo); auto. lia.
    - intros p Hp. apply Hhi. congruence. }
  assert (lo < (lo + hi) / 2 < hi)%nat as M.
  { assert (2 * ((lo + hi) / 2) <= lo + hi < 2 * ((lo + hi) / 2) + 2)%nat.
    { pose proof (Nat.div_mod (lo + hi) 2 ltac:(lia)). pose proof (Nat.mod_upper_bound (lo + hi) 2 ltac:(lia)). lia. }
    lia. }
  set (mid := ((lo + hi) / 2)%nat) in *.
  destruct (nth_error l mid) as [pm|] eqn:Em; [|discriminate]. cbn [bindO].
  destruct (eqn A t (fst pm)) eqn:E3; [intros [= <-]; apply (Exact mid pm); auto|].
  destruct (lt t (fst pm)) eqn:E4.
  - apply IHfuel; auto; [lia|intros p Hp; apply Hlo; congruence|].
    intros p Hp. rewrite Em in Hp. injection Hp as <-. apply lt_asym. exact E4.
  - apply IHfuel; auto; [lia| |intros p Hp; apply Hhi; congruence].
    intros p Hp. rewrite Em in Hp. injection Hp as <-. destruct (eqn_false _ _ E3); congruence.
Qed.

Lemma find_terminates : forall l t, exists idx, find_braketing_position A l t = Ok idx /\ (idx <= length l)%nat.
Proof.
  intros l t. destruct l as [|p l]; [exists 0%nat; split; auto|]. unfold find_braketing_position.
  destruct (lt (fst (last (p :: l) p)) t); [eexists; split; [reflexivity|lia]|].
  destruct (ge A (fst p) t) eqn:E; [exists 0%nat; split; [reflexivity|lia]|].
  destruct l as [|q l]; [|].
  - (* a single element is either before t or not *)
    simpl. unfold at_ub. simpl. destruct (eqn A t (fst p)); eexists; (split; [reflexivity|lia]).
  - destruct (find_loop_terminates (length (p :: q :: l)) (p :: q :: l) t 0 (length (p :: q :: l) - 1)) as (idx & E2 & B).
    + simpl; lia.
    + lia.
    + exists idx. split; [exact E2|]. lia.
Qed.

Lemma find_correct : forall l t, sorted l -> exists idx, find_braketing_position A l t = Ok idx /\ is_bracket l t idx.
Proof.
  intros l t S. destruct (find_terminates l t) as (idx & E & B). exists idx. split; [exact E|].
  destruct l as [|p l].
  { injection E as <-. split; [lia|]. split; [intros; lia|intros q; simpl; discriminate]. }
  unfold find_braketing_position in E.
  assert (nth_error (p :: l) (length (p :: l) - 1) = Some (last (p :: l) p)) as Lb by (apply last_nth_error; discriminate).
  destruct (lt (fst (last (p :: l) p)) t) eqn:E1.
  { injection E as <-. split; [lia|]. split.
    - intros i q Hi Hq. destruct (Nat.eq_dec i (length (p :: l) - 1)) as [-> |N].
      + rewrite Lb in Hq. injection Hq as <-. exact E1.
      + eapply lt_trans; [exact OL| |exact E1]. apply (sorted_nth _ S i (length (p :: l) - 1)); auto. lia.
    - intros q Hq. assert (nth_error (p :: l) (length (p :: l)) = None) as Z by (apply nth_error_None; lia). change (nth_error (p :: l) (length (p :: l)) = Some q) in Hq. rewrite Z in Hq. discriminate. }
  unfold ge in E. destruct (lt (fst p) t) eqn:E2; cbn [negb] in E.
  2:{ injection E as <-. split; [lia|]. split; [intros; lia|]. intros q Hq. simpl in Hq. injection Hq as <-. exact E2. }
  destruct l as [|q l]; [simpl in E1; congruence|].
  eapply find_loop_correct; [exact S| | | |exact E].
  - simpl; lia.
  - intros r Hr. simpl in Hr. injection Hr as <-. exact E2.
  - intros r Hr. rewrite Lb in Hr. injection Hr as <-. exact E1.
Qed.

Lemma bracket_unique : forall l t i j, is_bracket l t i -> is_bracket l t j -> i = j.
Proof.
  assert (forall l t i j, is_bracket l t i -> is_bracket l t j -> ~ (i < j)%nat) as G.
  { intros l t i j (Hi1 & Hi2 & Hi3) (Hj1 & Hj2 & Hj3) H.
    destruct (nth_error l i) as [p|] eqn:E; [|apply nth_error_None in E; lia].
    specialize (Hi3 p eq_refl). rewrite (Hj2 i p H E) in Hi3. discriminate. }
  intros l t i j Hi Hj. pose proof (G l t i j Hi Hj). pose proof (G l t j i Hj Hi). lia.
Qed.

(** ** The effect of recording *)

Lemma sorted_app_last : forall l x, sorted l -> (forall p, In p l -> before p x) -> sorted (l ++ [x]).
Proof.
  induction 1 as [|a l Hl IH Ha]; intros H; simpl; [repeat constructor|].
  constructor; [apply IH; intros; apply H; simpl; auto|].
  apply Forall_app. split; [exact Ha|]. constructor; auto. apply H. simpl. auto.
Qed.

Lemma sorted_skipn : forall n l, sorted l -> sorted (skipn n l).
Proof. induction n; intros l S; [exact S|]. destruct S; simpl; [constructor|]. apply IHn. exact S. Qed.

Lemma skipn_nth : forall (l : list (num * num)) n i, nth_error (skipn n l) i = nth_error l (n + i).
Proof. induction l; intros [|n] i; simpl; auto. - destruct i; reflexivity. Qed.

Definition back (l : list (num * num)) (d : num * num) := last l d.

(** state invariant *)
Definition inv (h : hist A) : Prop :=
  sorted (L h) /\ lt (Tmax h) (zero A) = false /\
  (forall p, In p (L h) -> lt (fst p) (oldest h) = false).

Lemma last_default : forall (l : list (num * num)) d d', l <> [] -> last l d = last l d'.
Proof. induction l; intros; [congruence|]. destruct l; [reflexivity|]. change (last (p :: l) d = last (p :: l) d'). apply IHl. discriminate. Qed.

Lemma last_app1 : forall (l : list (num * num)) x d, last (l ++ [x]) d = x.
Proof. induction l; intros; [reflexivity|]. simpl app. destruct (l ++ [x]) eqn:E; [destruct l; discriminate|]. rewrite <- E at 1. simpl. rewrite E. rewrite <- E. apply IHl. Qed.

Lemma exists_last' : forall (l : list (num * num)) d, l <> [] -> exists l', l = l' ++ [last l d].
Proof. intros l d H. destruct (exists_last H) as (l' & x & ->). exists l'. rewrite last_app1. reflexivity. Qed.

Lemma set_nth_last : forall (l : list (num * num)) x y, set_nth (l ++ [x]) (length l) y = l ++ [y].
Proof. induction l; intros; simpl; [reflexivity|]. rewrite IHl. reflexivity. Qed.

(** Adding a value not earlier than the last one. *)
Lemma add_value_effect : forall h t v, inv h ->
  (forall l x, L h = l ++ [x] -> lt t (fst x) = false) ->
  exists h', add_value_to_history A h t v = Ok h' /\ Tmax h' = Tmax h /\ oldest h' = oldest h /\
    ((L h' = L h ++ [(t, v)] /\ (forall p, In p (L h) -> lt (fst p) t = true)) \/
     (exists l x, L h = l ++ [x] /\ L h' = l ++ [(t, v)] /\ lt (fst x) t = false)).
Proof.
  intros h t v (S & T & O) H. unfold add_value_to_history.
  destruct (find_correct (L h) t S) as (idx & E & B). rewrite E. cbn [bindO].
  destruct (Nat.eqb_spec idx (length (L h))) as [-> |N].
  - eexists. split; [reflexivity|]. split; [reflexivity|]. split; [reflexivity|]. left. simpl L.
    rewrite firstn_all, skipn_all. split; [reflexivity|].
    intros p Hp. apply In_nth_error in Hp. destruct Hp as (i & Hi). destruct B as (_ & B & _). eapply B; eauto.
    apply nth_error_Some. congruence.
  - (* idx < size: then idx is the last one and its date is t *)
    assert (idx < length (L h))%nat as Lt by (destruct B; lia).
    assert (L h <> []) as NE by (intros Z; rewrite Z in Lt; simpl in Lt; lia).
    destruct (exists_last NE) as (l & x & El).
    specialize (H l x El).
    assert (idx = length l) as ->.
    { destruct B as (_ & B1 & B2). rewrite El, app_length in Lt. simpl in Lt.
      destruct (Nat.eq_dec idx (length l)) as [|N2]; auto.
      destruct (nth_error (L h) idx) as [p|] eqn:Ep; [|apply nth_error_None in Ep; rewrite El, app_length in Ep; simpl in Ep; lia].
      assert (nth_error (L h) (length l) = Some x) as Ex by (rewrite El, nth_error_app2, Nat.sub_diag by lia; reflexivity).
      assert (before p x) as PX by (eapply sorted_nth with (i := idx) (j := length l); eauto; lia).
      specialize (B2 p eq_refl). unfold before in PX.
      rewrite (lt_le_trans _ _ _ PX H) in B2. discriminate. }
    assert (nth_error (L h) (length l) = Some x) as Ex by (rewrite El, nth_error_app2, Nat.sub_diag by lia; reflexivity).
    unfold at_ub. rewrite Ex. cbn [bindO].
    destruct B as (_ & B1 & B2). specialize (B2 x Ex).
    rewrite (aeq_refl A OL 4%Z (fst x) t B2 H).
    eexists. split; [reflexivity|]. split; [reflexivity|]. split; [reflexivity|]. right.
    exists l, x. split; [exact El|]. split; [|exact B2]. simpl L. rewrite El. apply set_nth_last.
Qed.

(** The instants of the history and the start of the window. *)
Lemma interpolate_1_ok : forall l t, l <> [] -> exists v, interpolate_value_in_interval A l 1 t = Ok v.
Proof.
  intros l t H. unfold interpolate_value_in_interval. simpl Nat.eqb. cbn [orb].
  destruct (Nat.leb_spec (length l) 1).
  - destruct l; [congruence|]. simpl. eexists. reflexivity.
  - destruct l as [|[tA yA] [|[tB yB] l]]; try (simpl in *; lia). simpl.
    destruct (lt _ _); [eexists; reflexivity|]. destruct (lt _ _); eexists; reflexivity.
Qed.

Lemma in_skipn : forall (l : list (num * num)) n p, In p (skipn n l) -> In p l.
Proof. intros l n p H. rewrite <- (firstn_skipn n l). apply in_or_app. auto. Qed.

Lemma shift_effect : forall h l x, inv h -> L h = l ++ [x] ->
  exists h', shift_oldest_recorded_instant_if_necessary A h = Ok h' /\ Tmax h' = Tmax h /\ inv h' /\
    (exists l', L h' = l' ++ [x]) /\
    (h' = h /\ lt (sub A (fst x) (oldest h)) (Tmax h) = true \/
     oldest h' = sub A (fst x) (Tmax h) /\ lt (sub A (fst x) (oldest h)) (Tmax h) = false /\
     exists idx v, is_bracket (L h) (oldest h') idx /\ interpolate_value_in_interval A (L h) 1 (oldest h') = Ok v /\
      (L h' = skipn idx (L h) \/
       L h' = (oldest h', v) :: skipn idx (L h) /\
       (forall p, nth_error (L h) idx = Some p -> lt (oldest h') (fst p) = true))).
Proof.
  intros h l x (S & T & O) El. unfold shift_oldest_recorded_instant_if_necessary.
  assert (get_current_time A h = fst x) as Ct.
  { unfold get_current_time. rewrite El. destruct (l ++ [x]) eqn:E; [destruct l; discriminate|]. rewrite <- E. rewrite last_app1. reflexivity. }
  rewrite Ct. unfold ge. destruct (lt (sub A (fst x) (oldest h)) (Tmax h)) eqn:E1; cbn [negb].
  { exists h. split; [reflexivity|]. split; [reflexivity|]. split; [split; auto|]. split; [exists l; exact El|]. left. auto. }
  set (o := sub A (fst x) (Tmax h)).
  destruct (interpolate_1_ok (L h) o) as (vmin & Ev); [rewrite El; destruct l; discriminate|]. rewrite Ev. cbn [bindO].
  destruct (find_correct (L h) o S) as (idx & Ei & B). rewrite Ei. cbn [bindO].
  assert (lt (fst x) o = false) as Xo by (apply (sub_nonneg A OL); exact T).
  assert (nth_error (L h) (length l) = Some x) as Ex by (rewrite El, nth_error_app2, Nat.sub_diag by lia; reflexivity).
  assert (idx <= length l)%nat as Ib.
  { destruct B as (_ & B & _). destruct (le_lt_dec idx (length l)) as [|G]; auto. rewrite (B _ _ G Ex) in Xo. discriminate. }
  assert (skipn idx (L h) = skipn idx l ++ [x]) as Sk.
  { rewrite El, skipn_app. replace (idx - length l)%nat with 0%nat by lia. reflexivity. }
  assert (forall p, In p (skipn idx (L h)) -> lt (fst p) o = false) as Ge.
  { intros p Hp. apply In_nth_error in Hp. destruct Hp as (i & Hi). rewrite skipn_nth in Hi.
    destruct B as (_ & _ & B). destruct i.
    - rewrite Nat.add_0_r in Hi. auto.
    - destruct (nth_error (L h) idx) as [q|] eqn:Eq.
      + pose proof (sorted_nth (L h) S idx (idx + Datatypes.S i) q p ltac:(lia) Eq Hi) as Q. unfold before in Q.
        specialize (B q eq_refl). apply lt_asym. apply (le_lt_trans o (fst q) (fst p)); [exact B|exact Q].
      + apply nth_error_None in Eq. rewrite El, app_length in Eq. simpl in Eq. lia. }
  assert (sorted (skipn idx (L h))) as Ss by (apply sorted_skipn; exact S).
  destruct (skipn idx (L h)) as [|front rest] eqn:Ef.
  { symmetry in Sk. apply app_eq_nil in Sk. destruct Sk; discriminate. }
  assert (nth_error (L h) idx = Some front) as En.
  { replace idx with (idx + 0)%nat by lia. rewrite <- skipn_nth, Ef. reflexivity. }
  eexists. split; [reflexivity|]. split; [reflexivity|]. simpl.
  assert (lt (fst front) o = false) as Fo by (apply Ge; left; reflexivity).
  destruct (aeq A 32 (fst front) o) eqn:E32.
  - split; [split; [exact Ss|split; [exact T|exact Ge]]|]. split; [eexists; simpl; exact Sk|].
    right. split; [reflexivity|]. split; [first [exact E1|reflexivity]|]. exists idx, vmin. split; [exact B|]. split; [exact Ev|]. left. auto.
  - assert (lt o (fst front) = true) as Of.
    { destruct (lt o (fst front)) eqn:E; auto. rewrite (aeq_refl A OL 32%Z (fst front) o Fo E) in E32. discriminate. }
    split; [split; [|split; [exact T|]]|].
    + simpl. constructor; [exact Ss|]. rewrite Forall_forall. intros p Hp. unfold before. simpl.
      destruct Hp as [<-|Hp]; [exact Of|]. apply (lt_trans A OL) with (fst front); [exact Of|].
      apply StronglySorted_inv in Ss. destruct Ss as [_ Fd]. rewrite Forall_forall in Fd. apply Fd. exact Hp.
    + simpl. intros p [<-|Hp]; [simpl; apply lt_irrefl; exact OL|apply Ge; exact Hp].
    + split; [exists ((o, vmin) :: skipn idx l); simpl; rewrite Sk; reflexivity|].
      right. split; [reflexivity|]. split; [first [exact E1|reflexivity]|]. exists idx, vmin. split; [exact B|]. split; [exact Ev|]. right.
      split; [rewrite Ef; reflexivity|]. intros p Hp. rewrite En in Hp. injection Hp as <-. exact Of.
Qed.

Definition snapped (h : hist A) (t : num) : num :=
  match L h with [] => t | p :: _ => if aeq A 4 t (fst (last (L h) p)) then fst (last (L h) p) else t end.

Lemma in_last : forall (l : list (num * num)) x, In x (l ++ [x]).
Proof. intros. apply in_or_app. right. left. reflexivity. Qed.

Lemma update_inv : forall h t, inv h -> inv (update_oldest_recorded_instant A h t) /\
  lt t (oldest (update_oldest_recorded_instant A h t)) = false.
Proof.
  intros h t (S & T & O). unfold update_oldest_recorded_instant, minn. split.
  - split; [exact S|]. split; [exact T|]. simpl. intros p Hp. destruct (L h) as [|q l] eqn:E; [destruct Hp|].
    destruct (lt t (oldest h)) eqn:E1; [|apply O; exact Hp].
    specialize (O p Hp). apply lt_asym. eapply lt_le_trans; eauto.
  - simpl. destruct (L h) as [|q l].
    + destruct (lt t t); apply lt_irrefl; exact OL.
    + destruct (lt t (oldest h)) eqn:E1; [apply lt_irrefl; exact OL|exact E1].
Qed.

Definition finish (h : hist A) (t v : num) : call (hist A) :=
  match bindO (add_value_to_history A (update_oldest_recorded_instant A h t) t v)
              (shift_oldest_recorded_instant_if_necessary A) with
  | Ok h' => Returned h'
  | _ => Undefined
  end.

Lemma finish_effect : forall h t v, inv h -> (forall l0 x0, L h = l0 ++ [x0] -> lt t (fst x0) = false) ->
  exists h1 h' l, finish h t v = Returned h' /\ inv h' /\ Tmax h' = Tmax h /\
     add_value_to_history A (update_oldest_recorded_instant A h t) t v = Ok h1 /\
     shift_oldest_recorded_instant_if_necessary A h1 = Ok h' /\ inv h1 /\ Tmax h1 = Tmax h /\
     oldest h1 = oldest (update_oldest_recorded_instant A h t) /\
     L h1 = l ++ [(t, v)] /\ (forall p, In p l -> In p (L h)) /\
     (forall p, In p (L h) -> lt (fst p) t = true -> In p l) /\
     (exists l', L h' = l' ++ [(t, v)]).
Proof.
  intros h t v I H. destruct (update_inv h t I) as [I1 Ot]. unfold finish.
  destruct (add_value_effect (update_oldest_recorded_instant A h t) t v I1 H) as (h1 & E & E2 & E3 & C).
  assert (exists l, L h1 = l ++ [(t, v)] /\ sorted (l ++ [(t, v)]) /\ (forall p, In p l -> In p (L h)) /\
     (forall p, In p (L h) -> lt (fst p) t = true -> In p l)) as (l & El & Sl & Sub & Sup).
  { destruct I as (S & _ & _). destruct C as [[C1 C2]|(l & x & C1 & C2 & C3)]; simpl L in *.
    - exists (L h). split; [exact C1|]. split; [|split; auto]. apply sorted_app_last; auto.
    - exists l. split; [exact C2|]. split; [|split].
      + rewrite C1 in S. apply sorted_app_last.
        * clear - S. induction l; [constructor|]. simpl in S. inversion S; subst. constructor; auto.
          rewrite Forall_app in *. tauto.
        * intros p Hp. unfold before. simpl. apply lt_le_trans with (fst x); [|apply (H l x C1)].
          clear - S Hp. induction l; [destruct Hp|]. simpl in S. inversion S as [|a' b' Sb Fb]; subst.
          destruct Hp as [<-|Hp]; [|apply IHl; auto]. rewrite Forall_app in Fb. destruct Fb as [_ Fb].
          apply Forall_inv in Fb. exact Fb.
      + intros p Hp. rewrite C1. apply in_or_app. left. exact Hp.
      + intros p Hp Lt. rewrite C1 in Hp. apply in_app_or in Hp. destruct Hp as [Hp|[<-|[]]]; auto. congruence. }
  assert (inv h1) as I2.
  { destruct I1 as (S & T & O). split; [rewrite El; exact Sl|]. split; [rewrite E2; exact T|].
    rewrite E3. intros p Hp. rewrite El in Hp. apply in_app_or in Hp. destruct Hp as [Hp|[<-|[]]].
    - apply O. simpl. apply Sub. exact Hp.
    - exact Ot. }
  destruct (shift_effect h1 l (t, v) I2 El) as (h' & F1 & F2 & F3 & F4 & _).
  exists h1, h', l. rewrite E. cbn [bindO]. rewrite F1.
  split; [reflexivity|]. split; [exact F3|]. split; [rewrite F2, E2; reflexivity|]. split; [reflexivity|].
  split; [first [exact F1|reflexivity]|]. split; [exact I2|]. split; [exact E2|]. split; [exact E3|]. split; [exact El|].
  split; [exact Sub|]. split; [exact Sup|]. exact F4.
Qed.

Lemma current_time_last : forall h l x, L h = l ++ [x] -> get_current_time A h = fst x.
Proof. intros h l x E. unfold get_current_time. rewrite E. destruct (l ++ [x]) eqn:Y; [destruct l; discriminate|]. rewrite <- Y, last_last. reflexivity. Qed.

Lemma record_unfold : forall h t v,
  record A h t v =
    match L h with
    | [] => finish h t v
    | p :: _ => if lt (snapped h t) (fst (last (L h) p)) then Threw h else finish h (snapped h t) v
    end.
Proof. intros. unfold record, snapped, finish. destruct (L h); reflexivity. Qed.

(** [record] either throws and changes nothing, or returns. *)
Lemma record_cases : forall h t v, inv h ->
  (record A h t v = Threw h /\ exists l x, L h = l ++ [x] /\ aeq A 4 t (fst x) = false /\ lt t (fst x) = true) \/
  (record A h t v = finish h (snapped h t) v /\
   (forall l0 x0, L h = l0 ++ [x0] -> lt (snapped h t) (fst x0) = false) /\
   (forall l0 x0, L h = l0 ++ [x0] -> aeq A 4 t (fst x0) = true \/ lt t (fst x0) = false)).
Proof.
  intros h t v I. rewrite record_unfold. unfold snapped. destruct (L h) as [|p l] eqn:E.
  - right. split; [reflexivity|]. split; intros l0 x0 H; destruct l0; discriminate.
  - destruct (exists_last' (p :: l) p ltac:(discriminate)) as (l' & El). set (x := last (p :: l) p) in *.
    destruct (aeq A 4 t (fst x)) eqn:E4.
    + rewrite (lt_irrefl A OL). right. split; [reflexivity|].
      split; intros l0 x0 H; rewrite El in H; apply app_inj_tail in H; destruct H as [_ <-]; auto using (lt_irrefl A OL).
    + destruct (lt t (fst x)) eqn:E5.
      * left. split; [reflexivity|]. exists l', x. auto.
      * right. split; [reflexivity|].
        split; intros l0 x0 H; rewrite El in H; apply app_inj_tail in H; destruct H as [_ <-]; auto.
Qed.

Lemma record_inv : forall h t v h', inv h -> record A h t v = Returned h' \/ record A h t v = Threw h' -> inv h' /\ Tmax h' = Tmax h.
Proof.
  intros h t v h' I [E|E].
  - destruct (record_cases h t v I) as [[F _]|(F & G & _)]; rewrite E in F; [discriminate|].
    destruct (finish_effect h (snapped h t) v I G) as (h1 & h2 & l & F1 & F2 & F3 & _). rewrite F1 in F. injection F as <-. auto.
  - destruct (record_cases h t v I) as [[F _]|(F & G & _)]; rewrite E in F.
    + injection F as ->. auto.
    + destruct (finish_effect h (snapped h t) v I G) as (h1 & h2 & l & F1 & _). rewrite F1 in F. discriminate.
Qed.

Lemma reachable_inv : forall T h recs, lt T (zero A) = false -> reachable A T h recs -> inv h /\ Tmax h = T.
Proof.
  intros T h recs HT. induction 1 as [|h recs t v h' R [I E] H|h recs t v h' R [I E] H|h recs R [I E]].
  - split; [|reflexivity]. split; [constructor|]. split; [exact HT|]. intros p [].
  - destruct (record_inv h t v h' I) as [I' T']; auto. split; congruence.
  - destruct (record_inv h t v h' I) as [I' T']; auto. split; congruence.
  - split; [|exact E]. split; [constructor|]. split; [simpl; rewrite E; exact HT|]. intros p [].
Qed.
End P.
