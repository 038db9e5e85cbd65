(** Proofs about the servers' requests. *)
From Coq Require Import ZArith List Bool Lia Sorted.
From Verif Require Import Common History_Model History_Order_Proofs Server_Model Server_Spec.
Import ListNotations.

Lemma nth_error_ext_eq : forall {T} (l1 l2 : list T), length l1 = length l2 ->
  (forall i a b, nth_error l1 i = Some a -> nth_error l2 i = Some b -> a = b) -> l1 = l2.
Proof.
  intros T. induction l1 as [|x l1 IH]; intros [|y l2] E H; try discriminate; [reflexivity|].
  f_equal; [apply (H 0%nat); reflexivity|]. apply IH; [injection E; auto|]. intros i a b Ha Hb. apply (H (S i)); assumption.
Qed.

Section P.
Variable A : arith.
Notation num := (num A).

(** ** The dates of a history do not depend on the values. *)
Definition same (h1 h2 : hist A) : Prop :=
  Tmax h1 = Tmax h2 /\ oldest h1 = oldest h2 /\ map fst (L h1) = map fst (L h2).
Lemma same_refl : forall h, same h h. Proof. intros. repeat split. Qed.
Lemma same_trans : forall a b c, same a b -> same b c -> same a c.
Proof. intros a b c (H1 & H2 & H3) (K1 & K2 & K3). repeat split; congruence. Qed.
Lemma same_sym : forall a b, same a b -> same b a.
Proof. intros a b (H1 & H2 & H3). repeat split; congruence. Qed.

Lemma at_fst : forall (l1 l2 : list (num * num)) i, map fst l1 = map fst l2 ->
  (exists p q, at_ub l1 i = Ok p /\ at_ub l2 i = Ok q /\ fst p = fst q) \/ (at_ub l1 i = UB /\ at_ub l2 i = UB).
Proof.
  induction l1 as [|a l1 IH]; intros [|b l2] i E; try discriminate.
  - right. unfold at_ub. destruct i; auto.
  - injection E as E1 E2. destruct i as [|i]; [left; exists a, b; auto|]. exact (IH l2 i E2).
Qed.
Lemma len_fst : forall (l1 l2 : list (num * num)), map fst l1 = map fst l2 -> length l1 = length l2.
Proof. intros l1 l2 E. rewrite <- (map_length fst l1), E, map_length. reflexivity. Qed.
Lemma last_fst : forall (l1 l2 : list (num * num)) d e, map fst l1 = map fst l2 -> fst d = fst e -> fst (last l1 d) = fst (last l2 e).
Proof.
  induction l1 as [|a l1 IH]; intros [|b l2] d e E D; try discriminate; [exact D|].
  injection E as E1 E2. destruct l1 as [|a' l1]; destruct l2 as [|b' l2]; try discriminate; [exact E1|].
  exact (IH (b' :: l2) d e E2 D).
Qed.

Lemma find_loop_fst : forall fuel (l1 l2 : list (num * num)) t lo hi, map fst l1 = map fst l2 ->
  find_loop A fuel l1 t lo hi = find_loop A fuel l2 t lo hi.
Proof.
  induction fuel as [|fuel IH]; intros l1 l2 t lo hi E; [reflexivity|]. cbn [find_loop].
  destruct (at_fst l1 l2 lo E) as [(p & q & -> & -> & F)|[-> ->]]; [|reflexivity]. cbn [bindO]. rewrite F.
  destruct (eqn A t (fst q)); [reflexivity|].
  destruct (at_fst l1 l2 hi E) as [(p' & q' & -> & -> & F')|[-> ->]]; [|reflexivity]. cbn [bindO]. rewrite F'.
  destruct (eqn A t (fst q')); [reflexivity|]. destruct (hi <=? lo + 1)%nat; [reflexivity|].
  destruct (at_fst l1 l2 ((lo + hi) / 2) E) as [(p2 & q2 & -> & -> & F2)|[-> ->]]; [|reflexivity]. cbn [bindO]. rewrite F2.
  destruct (eqn A t (fst q2)); [reflexivity|]. destruct (lt A t (fst q2)); apply IH; exact E.
Qed.
Lemma find_fst : forall (l1 l2 : list (num * num)) t, map fst l1 = map fst l2 ->
  find_braketing_position A l1 t = find_braketing_position A l2 t.
Proof.
  intros l1 l2 t E. unfold find_braketing_position. destruct l1 as [|a l1]; destruct l2 as [|b l2]; try discriminate; [reflexivity|].
  assert (fst a = fst b) as Eab by (injection E; auto).
  rewrite (last_fst (a :: l1) (b :: l2) a b E Eab), (len_fst _ _ E), Eab, (find_loop_fst _ _ _ _ _ _ E). reflexivity.
Qed.
Lemma now_fst : forall h1 h2, same h1 h2 -> get_current_time A h1 = get_current_time A h2.
Proof.
  intros h1 h2 (_ & O & E). unfold get_current_time. destruct (L h1) as [|a l1] eqn:E1; destruct (L h2) as [|b l2] eqn:E2; try discriminate; [exact O|].
  apply last_fst; [exact E|]. injection E; auto.
Qed.
Lemma skipn_map : forall {T U} (f : T -> U) n l, map f (skipn n l) = skipn n (map f l).
Proof. intros T U0 f n l. revert l. induction n; intros [|a l]; simpl; auto. Qed.
Lemma firstn_map : forall {T U} (f : T -> U) n l, map f (firstn n l) = firstn n (map f l).
Proof. intros T U0 f n l. revert l. induction n; intros [|a l]; simpl; auto. f_equal. apply IHn. Qed.
Lemma set_nth_map : forall (l : list (num * num)) i x, map fst (set_nth l i x) = set_nth (map fst l) i (fst x).
Proof. induction l as [|a l IH]; intros [|i] x; simpl; auto. f_equal. apply IH. Qed.

Definition same_call (c1 c2 : call (hist A)) : Prop :=
  match c1, c2 with Returned a, Returned b => same a b | Threw a, Threw b => same a b | Undefined, Undefined => True | _, _ => False end.
Definition same_out (c1 c2 : outcome (hist A)) : Prop :=
  match c1, c2 with Ok a, Ok b => same a b | Throw, Throw => True | UB, UB => True | _, _ => False end.

Lemma interp1_ok : forall (l1 l2 : list (num * num)) t, map fst l1 = map fst l2 ->
  (exists x y, interpolate_value_in_interval A l1 1 t = Ok x /\ interpolate_value_in_interval A l2 1 t = Ok y) \/
  (interpolate_value_in_interval A l1 1 t = UB /\ interpolate_value_in_interval A l2 1 t = UB).
Proof.
  intros l1 l2 t E. destruct l1 as [|a l1]; destruct l2 as [|b l2]; try discriminate; [right; auto|left].
  destruct (interpolate_1_ok A (a :: l1) t ltac:(discriminate)) as (x & ->).
  destruct (interpolate_1_ok A (b :: l2) t ltac:(discriminate)) as (y & ->). exists x, y. auto.
Qed.

Lemma shift_same : forall h1 h2, same h1 h2 ->
  same_out (shift_oldest_recorded_instant_if_necessary A h1) (shift_oldest_recorded_instant_if_necessary A h2).
Proof.
  intros h1 h2 S. pose proof S as (T & O & E). unfold shift_oldest_recorded_instant_if_necessary. cbv zeta.
  rewrite (now_fst h1 h2 S), O, T. destruct (ge A _ (Tmax h2)); [|exact S].
  set (o := sub A _ (Tmax h2)).
  destruct (interp1_ok (L h1) (L h2) o E) as [(x & y & -> & ->)|[-> ->]]; cbn [bindO]; [|exact I].
  rewrite (find_fst _ _ o E). destruct (find_braketing_position A (L h2) o) as [idx| |]; cbn [bindO]; try exact I.
  assert (map fst (skipn idx (L h1)) = map fst (skipn idx (L h2))) as K by (rewrite !skipn_map, E; reflexivity).
  destruct (skipn idx (L h1)) as [|a l1]; destruct (skipn idx (L h2)) as [|b l2]; try discriminate; [exact I|].
  assert (fst a = fst b) as Eab by (injection K; auto). rewrite Eab.
  destruct (aeq A 32 (fst b) o); repeat split; cbn [Tmax L oldest]; auto. cbn [map fst]. f_equal. exact K.
Qed.
Lemma add_same : forall h1 h2 t v1 v2, same h1 h2 -> same_out (add_value_to_history A h1 t v1) (add_value_to_history A h2 t v2).
Proof.
  intros h1 h2 t v1 v2 (T & O & E). unfold add_value_to_history. cbv zeta. rewrite (find_fst _ _ t E).
  destruct (find_braketing_position A (L h2) t) as [idx| |]; cbn [bindO]; try exact I.
  assert (map fst (firstn idx (L h1) ++ (t, v1) :: skipn idx (L h1)) = map fst (firstn idx (L h2) ++ (t, v2) :: skipn idx (L h2))) as K.
  { rewrite !map_app. cbn [map fst]. rewrite !firstn_map, !skipn_map, E. reflexivity. }
  rewrite (len_fst _ _ E). destruct (idx =? length (L h2))%nat; [repeat split; auto|].
  destruct (at_fst (L h1) (L h2) idx E) as [(p & q & -> & -> & F)|[-> ->]]; cbn [bindO]; [|exact I]. rewrite F.
  destruct (aeq A 4 (fst q) t); [|repeat split; auto]. repeat split; auto. cbn [L]. rewrite !set_nth_map, E. reflexivity.
Qed.
Lemma finish_same : forall h1 h2 t v1 v2, same h1 h2 -> same_call (finish A h1 t v1) (finish A h2 t v2).
Proof.
  intros h1 h2 t v1 v2 S. unfold finish.
  assert (same (update_oldest_recorded_instant A h1 t) (update_oldest_recorded_instant A h2 t)) as K.
  { destruct S as (T & O & E). unfold update_oldest_recorded_instant. repeat split; cbn [Tmax L oldest]; auto. rewrite O.
    destruct (L h1); destruct (L h2); try discriminate; reflexivity. }
  pose proof (add_same _ _ t v1 v2 K) as Ad.
  destruct (add_value_to_history A (update_oldest_recorded_instant A h1 t) t v1) as [a1| |];
    destruct (add_value_to_history A (update_oldest_recorded_instant A h2 t) t v2) as [a2| |]; try contradiction; try exact I.
  cbn [bindO]. pose proof (shift_same a1 a2 Ad) as Sh.
  destruct (shift_oldest_recorded_instant_if_necessary A a1); destruct (shift_oldest_recorded_instant_if_necessary A a2); try contradiction; try exact I.
  exact Sh.
Qed.
Lemma record_same : forall h1 h2 t v1 v2, same h1 h2 -> same_call (record A h1 t v1) (record A h2 t v2).
Proof.
  intros h1 h2 t v1 v2 S. pose proof S as (T & O & E).
  assert (forall h v, record A h t v = match L h with [] => finish A h t v | p :: _ =>
    let back := fst (last (L h) p) in let t' := if aeq A 4 t back then back else t in if lt A t' back then Threw h else finish A h t' v end) as U by reflexivity.
  rewrite !U.
  destruct (L h1) as [|a l1] eqn:E1; destruct (L h2) as [|b l2] eqn:E2; try discriminate; [apply finish_same; exact S|].
  cbv zeta. rewrite (last_fst (a :: l1) (b :: l2) a b E ltac:(injection E; auto)).
  destruct (lt A _ (fst (last (b :: l2) b))); [exact S|]. apply finish_same. exact S.
Qed.

(** ** Recording a state records each of its thirteen values. *)
Lemma record_state_ok : forall s y s', record_state A s y = Ok s' <->
  (forall c, record A (get c s) (y_t y) (get c (y_val y)) = Returned (get c s')).
Proof.
  intros s y s'. unfold record_state. split.
  - intros H. repeat match type of H with (do _ <- effect A ?e ; _) = Ok _ => destruct e eqn:?; cbn [effect bindO] in H; try discriminate H end.
    injection H as <-. intros []; assumption.
  - intros H.
    pose proof (H X) as H0.
    pose proof (H Y) as H1.
    pose proof (H Z) as H2.
    pose proof (H U) as H3.
    pose proof (H V) as H4.
    pose proof (H W) as H5.
    pose proof (H P) as H6.
    pose proof (H Q) as H7.
    pose proof (H R) as H8.
    pose proof (H QR) as H9.
    pose proof (H QI) as H10.
    pose proof (H QJ) as H11.
    pose proof (H QK) as H12.
    cbn [get] in *. rewrite H0, H1, H2, H3, H4, H5, H6, H7, H8, H9, H10, H11, H12. cbn [effect bindO].
    destruct s'. reflexivity.
Qed.
(** All thirteen histories of a state have the same dates. *)
Definition synced (s : state A) : Prop := forall c, same (get c s) (s_x s).

Lemma new_synced : forall T c, get c (new_state A T) = new_history A T.
Proof. intros T []; reflexivity. Qed.
Lemma record_state_synced : forall s y s', synced s -> record_state A s y = Ok s' -> synced s'.
Proof.
  intros s y s' S H c. rewrite record_state_ok in H. pose proof (H c) as Hc. pose proof (H X) as Hx.
  pose proof (record_same _ _ (y_t y) (get c (y_val y)) (get X (y_val y)) (S c)) as K.
  change (s_x s) with (get X s) in K. rewrite Hc, Hx in K. exact K.
Qed.
Lemma record_all_synced : forall ys s s', synced s -> record_all A s ys = Ok s' -> synced s'.
Proof.
  induction ys as [|y ys IH]; intros s s' S E; [injection E as <-; exact S|]. cbn [record_all] in E.
  destruct (record_state A s y) eqn:F; try discriminate. cbn [bindO] in E. eapply IH; [|exact E]. eapply record_state_synced; eauto.
Qed.
Lemma get_same : forall (s : state A) c c', synced s -> same (get c s) (get c' s).
Proof. intros s c c' S. eapply same_trans; [apply S|]. apply same_sym. apply S. Qed.

(** Outcome of recording one state, from a synchronised one: that of recording x. *)
Lemma record_state_cases : forall s y, synced s ->
  match record A (s_x s) (y_t y) (s_x (y_val y)) with
  | Returned _ => exists s', record_state A s y = Ok s'
  | Threw _ => record_state A s y = Throw
  | Undefined => record_state A s y = UB
  end.
Proof.
  intros s y S.
  assert (forall c, same_call (record A (get c s) (y_t y) (get c (y_val y))) (record A (s_x s) (y_t y) (s_x (y_val y)))) as K.
  { intros c. apply record_same. apply S. }
  destruct (record A (s_x s) (y_t y) (s_x (y_val y))) eqn:Ex.
  - assert (forall c, exists h, record A (get c s) (y_t y) (get c (y_val y)) = Returned h) as G.
    { intros c. specialize (K c). destruct (record A (get c s) _ _); try contradiction. eauto. }
    destruct (G X) as (h1 & H1), (G Y) as (h2 & H2), (G Z) as (h3 & H3), (G U) as (h4 & H4), (G V) as (h5 & H5), (G W) as (h6 & H6),
      (G P) as (h7 & H7), (G Q) as (h8 & H8), (G R) as (h9 & H9), (G QR) as (h10 & H10), (G QI) as (h11 & H11), (G QJ) as (h12 & H12), (G QK) as (h13 & H13).
    exists (mkStates h1 h2 h3 h4 h5 h6 h7 h8 h9 h10 h11 h12 h13). apply record_state_ok. intros []; assumption.
  - unfold record_state. rewrite Ex. reflexivity.
  - unfold record_state. rewrite Ex. reflexivity.
Qed.

(** Runs of one history. *)
Fixpoint run1 (h : hist A) (recs : list (num * num)) : call (hist A) :=
  match recs with
  | [] => Returned h
  | (t, v) :: r => match record A h t v with Returned h' => run1 h' r | c => c end
  end.
Definition series (c : comp) (ys : list (ystate A)) : list (num * num) := map (fun y => (y_t y, get c (y_val y))) ys.

Lemma record_all_run : forall ys s s', record_all A s ys = Ok s' -> forall c, run1 (get c s) (series c ys) = Returned (get c s').
Proof.
  induction ys as [|y ys IH]; intros s s' E c; [injection E as <-; reflexivity|].
  cbn [record_all] in E. destruct (record_state A s y) as [s1| |] eqn:F; try discriminate. cbn [bindO] in E.
  rewrite record_state_ok in F. cbn [series map run1]. rewrite (F c). apply IH. exact E.
Qed.
Lemma record_all_cases : forall ys s, synced s ->
  match run1 (s_x s) (series X ys) with
  | Returned _ => exists s', record_all A s ys = Ok s'
  | Threw _ => record_all A s ys = Throw
  | Undefined => record_all A s ys = UB
  end.
Proof.
  induction ys as [|y ys IH]; intros s S; [exists s; reflexivity|]. cbn [record_all series map run1].
  change (get X (y_val y)) with (s_x (y_val y)).
  pose proof (record_state_cases s y S) as K. destruct (record A (s_x s) (y_t y) (s_x (y_val y))) eqn:Ex.
  - destruct K as (s1 & E1). rewrite E1. cbn [bindO].
    assert (s_x s1 = s0) as <- by (rewrite record_state_ok in E1; pose proof (E1 X) as E2; cbn [get] in E2; congruence).
    apply IH. eapply record_state_synced; eauto.
  - rewrite K. reflexivity.
  - rewrite K. reflexivity.
Qed.
Lemma record_all_app : forall l1 l2 s, record_all A s (l1 ++ l2) = (do s' <- record_all A s l1 ; record_all A s' l2).
Proof.
  induction l1 as [|y l1 IH]; intros l2 s; [reflexivity|]. cbn [record_all app]. destruct (record_state A s y); cbn [bindO]; auto.
Qed.

(** ** The request. *)
Lemma make_inputs_cases : forall Dt T ys back,
  make_server_inputs A Dt T (ys ++ [back]) =
  (do past <- record_all A (new_state A T) ys ;
   do full <- record_all A (new_state A T) (ys ++ [back]) ;
   Ok (mkInputs (y_t back) Dt (vector (y_val back)) past full)).
Proof.
  intros Dt T ys back. unfold make_server_inputs. destruct (ys ++ [back]) as [|y0 r] eqn:E; [destruct ys; discriminate|]. rewrite <- E.
  cbv zeta. rewrite removelast_last, last_last, record_all_app.
  destruct (record_all A (new_state A T) ys) as [s| |]; cbn [bindO]; try reflexivity.
  cbn [record_all]. destruct (record_state A s back); reflexivity.
Qed.

Lemma synced_new : forall T, synced (new_state A T).
Proof. intros T c. rewrite new_synced. apply same_refl. Qed.

Lemma size_ok : forall s, synced s -> check_state_history_size A s = Ok tt.
Proof.
  intros s S. unfold check_state_history_size. cbv zeta.
  assert (forall c, length (L (get c s)) = length (L (s_x s))) as G.
  { intros c. destruct (S c) as (_ & _ & E). apply len_fst. exact E. }
  pose proof (G Y) as H1. pose proof (G Z) as H2. pose proof (G U) as H3. pose proof (G V) as H4. pose proof (G W) as H5. pose proof (G P) as H6.
  pose proof (G Q) as H7. pose proof (G R) as H8. pose proof (G QR) as H9. pose proof (G QI) as H10. pose proof (G QJ) as H11. pose proof (G QK) as H12.
  cbn [get] in *. rewrite H1, H2, H3, H4, H5, H6, H7, H8, H9, H10, H11, H12, Nat.eqb_refl. reflexivity.
Qed.
Lemma size_iff : forall s, check_state_history_size A s = Ok tt <-> (forall c, length (L (get c s)) = length (L (s_x s))).
Proof.
  intros s. unfold check_state_history_size. cbv zeta. split.
  - intros H. repeat match type of H with (if negb (?a =? ?b)%nat then _ else _) = _ => destruct (Nat.eqb_spec a b); cbn [negb] in H; [|discriminate H] end.
    intros []; cbn [get]; auto.
  - intros G. pose proof (G Y) as H1. pose proof (G Z) as H2. pose proof (G U) as H3. pose proof (G V) as H4. pose proof (G W) as H5. pose proof (G P) as H6.
    pose proof (G Q) as H7. pose proof (G R) as H8. pose proof (G QR) as H9. pose proof (G QI) as H10. pose proof (G QJ) as H11. pose proof (G QK) as H12.
    cbn [get] in *. rewrite H1, H2, H3, H4, H5, H6, H7, H8, H9, H10, H11, H12, Nat.eqb_refl. reflexivity.
Qed.
Lemma size_throw : forall s, check_state_history_size A s = Ok tt \/ check_state_history_size A s = Throw.
Proof.
  intros s. unfold check_state_history_size. cbv zeta.
  repeat match goal with |- (if negb (?a =? ?b)%nat then _ else _) = _ \/ _ => destruct (a =? b)%nat; cbn [negb]; [|right; reflexivity] end.
  left. reflexivity.
Qed.

(** Rebuilding the list of states from the histories. *)
Definition row (s : state A) (i : nat) (y : ystate A) : Prop :=
  (exists vx, nth_error (L (s_x s)) i = Some (y_t y, vx)) /\
  forall c, exists t, nth_error (L (get c s)) i = Some (t, get c (y_val y)).
Lemma rebuild_spec : forall s, (forall c, length (L (get c s)) = length (L (s_x s))) -> exists ys, states_of_history A s = Ok ys /\
  length ys = length (L (s_x s)) /\ forall i y, nth_error ys i = Some y -> row s i y.
Proof.
  intros s S. unfold states_of_history. cbv zeta. rewrite (proj2 (size_iff s) S). cbn [bindO].
  set (step := fun acc i => _).
  assert (forall n, (n <= length (L (s_x s)))%nat -> exists ys, fold_left step (seq 0 n) (Ok []) = Ok ys /\ length ys = n /\
            forall i y, nth_error ys i = Some y -> row s i y) as G.
  { induction n as [|n IH]; intros Hn; [exists []; split; [reflexivity|split; [reflexivity|intros [|i] y; discriminate]]|].
    destruct IH as (ys & E & Ly & Ry); [lia|]. rewrite seq_S, fold_left_app, E. cbn [fold_left plus].
    assert (forall c, exists p, nth_error (L (get c s)) n = Some p) as N.
    { intros c. destruct (nth_error (L (get c s)) n) eqn:E1; [eauto|]. apply nth_error_None in E1. rewrite (S c) in E1. lia. }
    destruct (N X) as ([t0 v0] & H0).
    destruct (N Y) as ([t1 v1] & H1).
    destruct (N Z) as ([t2 v2] & H2).
    destruct (N U) as ([t3 v3] & H3).
    destruct (N V) as ([t4 v4] & H4).
    destruct (N W) as ([t5 v5] & H5).
    destruct (N P) as ([t6 v6] & H6).
    destruct (N Q) as ([t7 v7] & H7).
    destruct (N R) as ([t8 v8] & H8).
    destruct (N QR) as ([t9 v9] & H9).
    destruct (N QI) as ([t10 v10] & H10).
    destruct (N QJ) as ([t11 v11] & H11).
    destruct (N QK) as ([t12 v12] & H12).
    clear N. cbn [get] in *. unfold step at 1. unfold at_throw. cbn [bindO]. rewrite H0, H1, H2, H3, H4, H5, H6, H7, H8, H9, H10, H11, H12. cbn [bindO fst snd].
    eexists. split; [reflexivity|]. split; [rewrite app_length, Ly; simpl; lia|].
    intros i y Hy. destruct (Nat.lt_ge_cases i n) as [Hi|Hi].
    - apply Ry. rewrite nth_error_app1 in Hy by lia. exact Hy.
    - rewrite nth_error_app2 in Hy by lia. rewrite Ly in Hy. destruct (i - n)%nat as [|m] eqn:D; [|destruct m; discriminate].
      injection Hy as <-. assert (i = n) as -> by lia. split; [eexists; exact H0|].
      intros []; cbn; eexists; eassumption. }
  apply G. lia.
Qed.

(** ** Runs. *)
Lemma run1_app : forall l1 l2 h, run1 h (l1 ++ l2) = match run1 h l1 with Returned h' => run1 h' l2 | c => c end.
Proof. induction l1 as [|[t v] l1 IH]; intros l2 h; simpl; [reflexivity|]. destruct (record A h t v); auto. Qed.
Lemma run1_reachable : forall recs T h, run1 (new_history A T) recs = Returned h -> reachable A T h recs.
Proof.
  intros recs T. induction recs as [|[t v] recs IH] using rev_ind; intros h E; [injection E as <-; constructor|].
  rewrite run1_app in E. destruct (run1 (new_history A T) recs) as [h0| |] eqn:E0; try discriminate. cbn [run1] in E.
  destruct (record A h0 t v) eqn:E1; try discriminate. injection E as <-. econstructor; eauto.
Qed.
Lemma series_app : forall c l1 l2, series c (l1 ++ l2) = series c l1 ++ series c l2.
Proof. intros. apply map_app. Qed.

Hypothesis OL : order_laws A.

(** Dates that never go back are accepted. *)
Definition nondecreasing (ds : list num) : Prop := forall u a b v, ds = u ++ a :: b :: v -> lt A b a = false.
Lemma run1_nondecreasing : forall T recs, lt A T (zero A) = false -> nondecreasing (map fst recs) ->
  exists h, run1 (new_history A T) recs = Returned h /\
    forall l x, L h = l ++ [x] -> exists r y, recs = r ++ [y] /\ lt A (fst y) (fst x) = false.
Proof.
  intros T recs HT. induction recs as [|[t v] recs IH] using rev_ind; intros N.
  { eexists. split; [reflexivity|]. intros [|a l] x; discriminate. }
  destruct IH as (h & E & Lb).
  { intros u a b w Ed. apply (N u a b (w ++ [t])). rewrite map_app, Ed. cbn [map fst]. rewrite <- app_assoc. reflexivity. }
  destruct (reachable_inv A OL T h recs HT (run1_reachable _ _ _ E)) as [Iv _].
  rewrite run1_app, E. cbn [run1].
  assert (forall l x, L h = l ++ [x] -> lt A t (fst x) = false) as Le.
  { intros l x El. destruct (Lb l x El) as (r & y & -> & Hy). apply (le_trans A OL _ (fst y)); [exact Hy|].
    apply (N (map fst r) (fst y) t []). rewrite !map_app. cbn [map fst]. rewrite <- app_assoc. reflexivity. }
  destruct (record_cases A OL h t v Iv) as [[Er (l & x & El & E4 & Lt)]|(Er & G & H)].
  { rewrite (Le l x El) in Lt. discriminate. }
  destruct (finish_effect A OL h (snapped A h t) v Iv G) as (h1 & h2 & l & F1 & _ & _ & _ & _ & _ & _ & _ & _ & _ & _ & (l' & El)).
  rewrite Er, F1. exists h2. split; [reflexivity|]. intros l0 x El0. rewrite El in El0. apply app_inj_tail in El0. destruct El0 as [_ <-].
  exists recs, (t, v). split; [reflexivity|]. cbn [fst]. unfold snapped. destruct (L h) as [|p r] eqn:EL; [apply (lt_irrefl A OL)|].
  destruct (aeq A 4 t (fst (last (p :: r) p))); [|apply (lt_irrefl A OL)].
  destruct (exists_last' A (p :: r) p ltac:(discriminate)) as (l1 & El1). apply (Le l1). exact El1.
Qed.
(** When [almost_equal] is no coarser than equality, only those are. *)
Lemma run1_returned : forall T recs h, lt A T (zero A) = false ->
  (forall x y, aeq A 4 x y = true -> lt A x y = false /\ lt A y x = false) ->
  run1 (new_history A T) recs = Returned h -> nondecreasing (map fst recs) /\
    forall r y, recs = r ++ [y] -> exists l x, L h = l ++ [x] /\ lt A (fst y) (fst x) = false /\ lt A (fst x) (fst y) = false.
Proof.
  intros T recs h HT Ex. revert h. induction recs as [|[t v] recs IH] using rev_ind; intros h2 E2.
  { split; [intros [|? ?] a b w; discriminate|intros [|? ?] y; discriminate]. }
  rewrite run1_app in E2. destruct (run1 (new_history A T) recs) as [h| |] eqn:E; try discriminate. cbn [run1] in E2.
  destruct (IH h eq_refl) as [N Lb]. destruct (reachable_inv A OL T h recs HT (run1_reachable _ _ _ E)) as [Iv _].
  destruct (record_cases A OL h t v Iv) as [[Er _]|(Er & G & H)]; [rewrite Er in E2; discriminate|].
  destruct (finish_effect A OL h (snapped A h t) v Iv G) as (h1 & h3 & l & F1 & _ & _ & _ & _ & _ & _ & _ & _ & _ & _ & (l' & El)).
  rewrite Er, F1 in E2. injection E2 as <-.
  assert (lt A t (snapped A h t) = false /\ lt A (snapped A h t) t = false) as Sn.
  { unfold snapped. destruct (L h) as [|p r]; [split; apply (lt_irrefl A OL)|].
    destruct (aeq A 4 t (fst (last (p :: r) p))) eqn:Ea; [|split; apply (lt_irrefl A OL)]. apply Ex. exact Ea. }
  split.
  - intros u a b w Ed. rewrite map_app in Ed. cbn [map fst] in Ed.
    destruct w as [|w0 w] using rev_ind.
    + change (u ++ [a; b]) with (u ++ ([a] ++ [b])) in Ed. rewrite app_assoc in Ed. apply app_inj_tail in Ed. destruct Ed as [Ed <-].
      destruct recs as [|[t0 v0] recs _] using rev_ind; [destruct u; discriminate|].
      rewrite map_app in Ed. cbn [map fst] in Ed. apply app_inj_tail in Ed. destruct Ed as [_ <-].
      destruct (Lb recs (t0, v0) eq_refl) as (l0 & x & El0 & A1 & A2). cbn [fst] in *.
      pose proof (G l0 x El0) as G1. apply (le_trans A OL _ (snapped A h t)); [|apply Sn]. apply (le_trans A OL _ (fst x)); [exact A2|exact G1].
    + rewrite (app_comm_cons w _ b), (app_comm_cons (b :: w) _ a), app_assoc in Ed. apply app_inj_tail in Ed. destruct Ed as [Ed _]. apply (N u a b w). exact Ed.
  - intros r y Er0. apply app_inj_tail in Er0. destruct Er0 as [_ <-]. exists l', (snapped A h t, v). cbn [fst]. tauto.
Qed.

(** Well separated dates spanning less than Tmax: everything is kept. *)
Definition separated (ds : list num) : Prop :=
  StronglySorted (fun a b => lt A a b = true) ds /\ forall u a b v, ds = u ++ a :: b :: v -> aeq A 4 b a = false.
Lemma run1_all : forall T recs, lt A T (zero A) = false -> separated (map fst recs) ->
  (forall a l b, recs = a :: l -> In b recs -> lt A (sub A (fst b) (fst a)) T = true) ->
  exists h, run1 (new_history A T) recs = Returned h /\ L h = recs /\ Tmax h = T /\ forall a l, recs = a :: l -> oldest h = fst a.
Proof.
  intros T recs HT. induction recs as [|[t v] recs IH] using rev_ind; intros [Sd Ne] Sp.
  { eexists. split; [reflexivity|]. repeat split. intros a l. discriminate. }
  destruct IH as (h & E & EL & ET & EO).
  { split.
    - clear - Sd. rewrite map_app in Sd. induction (map fst recs) as [|d ds IH]; [constructor|].
      apply StronglySorted_inv in Sd. destruct Sd as [Sd F]. constructor; [apply IH; exact Sd|]. apply Forall_app in F. apply F.
    - intros u a b w Ed. apply (Ne u a b (w ++ [t])). rewrite map_app, Ed. cbn [map fst]. rewrite <- app_assoc. reflexivity. }
  { intros a l b El Hb. apply (Sp a (l ++ [(t, v)]) b); [rewrite El; reflexivity|]. apply in_or_app. auto. }
  rewrite run1_app, E. cbn [run1].
  assert (forall p, In p recs -> lt A (fst p) t = true) as Lt.
  { intros p Hp. clear - Sd Hp. rewrite map_app in Sd. cbn [map fst] in Sd. apply (in_map fst) in Hp.
    induction (map fst recs) as [|d ds IH]; [destruct Hp|]. apply StronglySorted_inv in Sd. destruct Sd as [Sd F].
    destruct Hp as [<-|Hp]; [|apply IH; auto]. apply Forall_app in F. destruct F as [_ F]. apply Forall_inv in F. exact F. }
  assert (sub_eq : record A h t v = finish A h t v).
  { unfold record. fold (finish A h t v). destruct (L h) as [|p r] eqn:Eh; [reflexivity|].
    destruct (exists_last' A (p :: r) p ltac:(discriminate)) as (l0 & El0). set (x := last (p :: r) p) in *.
    assert (aeq A 4 t (fst x) = false) as ->.
    { apply (Ne (map fst l0) (fst x) t []). rewrite map_app, <- EL, El0, map_app. cbn [map fst]. rewrite <- app_assoc. reflexivity. }
    assert (lt A t (fst x) = false) as ->; [|reflexivity].
    apply (lt_asym A OL). apply Lt. rewrite <- EL, El0. apply in_or_app. right. left. reflexivity. }
  rewrite sub_eq. unfold finish.
  set (o := match recs with [] => t | p :: _ => fst p end).
  assert (update_oldest_recorded_instant A h t = mkHist T recs o) as ->.
  { unfold update_oldest_recorded_instant, minn. rewrite EL, ET. unfold o. destruct recs as [|p r] eqn:Er.
    - rewrite (lt_irrefl A OL). reflexivity.
    - rewrite (EO p r eq_refl). rewrite (lt_asym A OL _ _ (Lt p (or_introl eq_refl))). reflexivity. }
  unfold add_value_to_history. cbn [L Tmax oldest].
  assert (find_braketing_position A recs t = Ok (length recs)) as ->.
  { unfold find_braketing_position. destruct recs as [|p r] eqn:Er; [reflexivity|].
    destruct (exists_last' A (p :: r) p ltac:(discriminate)) as (l0 & El0). set (x := last (p :: r) p) in *.
    rewrite Lt; [reflexivity|]. rewrite El0. apply in_or_app. right. left. reflexivity. }
  cbn [bindO]. cbv zeta. rewrite Nat.eqb_refl, firstn_all, skipn_all. cbn [bindO].
  unfold shift_oldest_recorded_instant_if_necessary. cbv zeta. cbn [L Tmax oldest].
  assert (get_current_time A (mkHist T (recs ++ [(t, v)]) o) = t) as ->.
  { unfold get_current_time. cbn [L]. destruct (recs ++ [(t, v)]) eqn:X; [destruct recs; discriminate|]. rewrite <- X, last_last. reflexivity. }
  assert (lt A (sub A t o) T = true) as Hs.
  { unfold o. destruct recs as [|p r].
    - apply (Sp (t, v) [] (t, v)); [reflexivity|left; reflexivity].
    - apply (Sp p (r ++ [(t, v)]) (t, v)); [reflexivity|]. apply in_or_app. right. left. reflexivity. }
  unfold ge. rewrite Hs. cbn [negb].
  eexists. split; [reflexivity|]. cbn [L Tmax oldest]. repeat split. intros a l El. unfold o. destruct recs as [|p r].
  - injection El as <- <-. reflexivity.
  - injection El as <- <-. reflexivity.
Qed.
End P.
