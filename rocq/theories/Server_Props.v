(** Property C30: what the co-simulation and model-exchange servers do with the states they receive. *)
From Coq Require Import ZArith List Bool Lia Sorted QArith.
From Verif Require Import Common History_Model History_Order_Proofs History_Props Server_Model Server_Spec Server_Proofs.
Import ListNotations.

(** The last received state is the current state, at its date (any arithmetic, any number of states). *)
Theorem server_current_state_is_last_received : forall A Dt T ys back i,
  make_server_inputs A Dt T (ys ++ [back]) = Ok i ->
  in_t i = y_t back /\ in_Dt i = Dt /\ state_at_t i = vector (y_val back).
Proof.
  intros A Dt T ys back i E. rewrite make_inputs_cases in E. destruct (record_all A _ ys); try discriminate. cbn [bindO] in E.
  destruct (record_all A _ (ys ++ [back])); try discriminate. cbn [bindO] in E. injection E as <-. auto.
Qed.
Print Assumptions server_current_state_is_last_received.

(** Each of the thirteen histories is that of the values received (so everything proved about recordings applies): without the
    last state for the force models, with it for the co-simulation. *)
Theorem server_histories_are_the_received_states : forall A Dt T ys back i c,
  make_server_inputs A Dt T (ys ++ [back]) = Ok i ->
  reachable A T (get c (history_except_last i)) (map (fun y => (y_t y, get c (y_val y))) ys) /\
  reachable A T (get c (full_history i)) (map (fun y => (y_t y, get c (y_val y))) (ys ++ [back])).
Proof.
  intros A Dt T ys back i c E. rewrite make_inputs_cases in E. destruct (record_all A _ ys) eqn:E1; try discriminate. cbn [bindO] in E.
  destruct (record_all A _ (ys ++ [back])) eqn:E2; try discriminate. cbn [bindO] in E. injection E as <-.
  cbn [history_except_last full_history].
  pose proof (record_all_run A _ _ _ E1 c) as R1. pose proof (record_all_run A _ _ _ E2 c) as R2. rewrite new_synced in R1, R2.
  split; apply run1_reachable; assumption.
Qed.
Print Assumptions server_histories_are_the_received_states.

(** Requests whose dates never go back are accepted, whatever the number of states and the kept duration... *)
Theorem server_accepts_ordered_requests : forall A, order_laws A -> forall Dt T ys, lt A T (zero A) = false ->
  (forall u a b v, ys = u ++ a :: b :: v -> lt A (y_t b) (y_t a) = false) ->
  exists i, make_server_inputs A Dt T ys = Ok i.
Proof.
  intros A OL Dt T ys HT N. destruct ys as [|back ys] using rev_ind; [eexists; reflexivity|]. clear IHys.
  assert (forall l, (exists r, ys ++ [back] = l ++ r) -> exists s, record_all A (new_state A T) l = Ok s) as G.
  { intros l (r & El). pose proof (record_all_cases A l (new_state A T) (synced_new A T)) as K.
    destruct (run1_nondecreasing A OL T (series A X l) HT) as (h & E & _).
    - intros u a b v Ed. unfold series in Ed. rewrite map_map in Ed.
      change (map (fun y => fst (y_t y, get X (y_val y))) l) with (map (fun y : ystate A => y_t y) l) in Ed.
      apply map_eq_app in Ed. destruct Ed as (l1 & l2 & -> & <- & Ed). apply map_eq_cons in Ed.
      destruct Ed as (a0 & l3 & -> & <- & Ed). apply map_eq_cons in Ed. destruct Ed as (b0 & l4 & -> & <- & Ed).
      apply (N l1 a0 b0 (l4 ++ r)). rewrite El, <- app_assoc. reflexivity.
    - change (s_x (new_state A T)) with (new_history A T) in K. rewrite E in K. exact K. }
  rewrite make_inputs_cases. destruct (G ys) as (s & ->); [eexists; reflexivity|]. cbn [bindO].
  destruct (G (ys ++ [back])) as (s' & ->); [exists []; rewrite app_nil_r; reflexivity|]. cbn [bindO]. eauto.
Qed.
Print Assumptions server_accepts_ordered_requests.
(** ...and, when the comparison up to a few ULPs is no coarser than equality, only those; the others are refused by an exception. *)
Theorem server_refuses_unordered_requests : forall A, order_laws A ->
  (forall x y, aeq A 4 x y = true -> lt A x y = false /\ lt A y x = false) ->
  forall Dt T ys u a b v, lt A T (zero A) = false -> ys = u ++ a :: b :: v -> lt A (y_t b) (y_t a) = true ->
  make_server_inputs A Dt T ys = Throw.
Proof.
  intros A OL Ex Dt T ys u a b v HT E Lt. destruct ys as [|back ys _] using rev_ind; [destruct u; discriminate|].
  assert (forall h, run1 A (new_history A T) (series A X (ys ++ [back])) <> Returned h) as NR.
  { intros h Er. destruct (run1_returned A OL T _ h HT Ex Er) as [N _].
    rewrite (N (map (fun y : ystate A => y_t y) u) (y_t a) (y_t b) (map (fun y : ystate A => y_t y) v)) in Lt; [discriminate|].
    rewrite E. unfold series. rewrite map_map, map_app. reflexivity. }
  (* a run of recordings never runs into undefined behaviour *)
  assert (forall recs, run1 A (new_history A T) recs <> Undefined) as NU.
  { clear - OL HT. induction recs as [|[t w] recs IH] using rev_ind; [discriminate|]. rewrite run1_app.
    destruct (run1 A (new_history A T) recs) as [h|h|] eqn:E; try discriminate; [|congruence]. cbn [run1].
    destruct (history_latest_is_recorded A OL T h recs t w HT (run1_reachable A _ _ _ E)) as [(h' & ->)|(h' & l & t' & -> & _)]; discriminate. }
  pose proof (record_all_cases A ys (new_state A T) (synced_new A T)) as K1.
  pose proof (record_all_cases A (ys ++ [back]) (new_state A T) (synced_new A T)) as K2.
  change (s_x (new_state A T)) with (new_history A T) in *. rewrite make_inputs_cases.
  destruct (run1 A (new_history A T) (series A X ys)) as [h1|h1|] eqn:E1; [|rewrite K1; reflexivity|destruct (NU _ E1)].
  destruct K1 as (s1 & ->). cbn [bindO].
  destruct (run1 A (new_history A T) (series A X (ys ++ [back]))) as [h2|h2|] eqn:E2; [destruct (NR h2 eq_refl)|rewrite K2; reflexivity|destruct (NU _ E2)].
Qed.
Print Assumptions server_refuses_unordered_requests.

(** When the dates are distinct (beyond the ULP comparison) and span less than the kept duration, nothing is lost: writing
    the histories out again gives the received states, in order. Valid for any rounding of the dates' differences. *)
Theorem server_request_round_trip : forall A, order_laws A -> forall Dt T ys back, lt A T (zero A) = false ->
  let ds := map (fun y => y_t y) (ys ++ [back]) in
  StronglySorted (fun a b => lt A a b = true) ds ->
  (forall u a b v, ds = u ++ a :: b :: v -> aeq A 4 b a = false) ->
  (forall d0 l d, ds = d0 :: l -> In d ds -> lt A (sub A d d0) T = true) ->
  exists i, make_server_inputs A Dt T (ys ++ [back]) = Ok i /\
    states_of_history A (history_except_last i) = Ok ys /\ states_of_history A (full_history i) = Ok (ys ++ [back]).
Proof.
  intros A OL Dt T ys back HT ds Sd Ne Sp.
  assert (forall l, (exists r, ys ++ [back] = l ++ r) -> exists s, record_all A (new_state A T) l = Ok s /\ synced A s /\ forall c, L (get c s) = series A c l) as G.
  { intros l (r & El).
    assert (forall c, exists h, run1 A (new_history A T) (series A c l) = Returned h /\ L h = series A c l) as Gc.
    { intros c. assert (map fst (series A c l) = map (fun y : ystate A => y_t y) l) as Em by (unfold series; rewrite map_map; reflexivity).
      assert (ds = map (fun y : ystate A => y_t y) l ++ map (fun y : ystate A => y_t y) r) as Eds by (unfold ds; rewrite El, map_app; reflexivity).
      destruct (run1_all A OL T (series A c l) HT) as (h & E & EL & _).
      - rewrite Em. split.
        + clear - Sd Eds. rewrite Eds in Sd. clear Eds ds. induction (map (fun y : ystate A => y_t y) l) as [|d e IH]; [constructor|].
          apply StronglySorted_inv in Sd. destruct Sd as [Sd F]. constructor; [apply IH; exact Sd|]. apply Forall_app in F. apply F.
        + intros u a b v Ed. apply (Ne u a b (v ++ map (fun y : ystate A => y_t y) r)). rewrite Eds, Ed, <- app_assoc. reflexivity.
      - intros a l0 b El0 Hb. destruct l as [|y0 l']; [discriminate|]. cbn [series map] in El0. injection El0 as Ea _. subst a.
        apply (Sp (y_t y0) (map (fun y : ystate A => y_t y) l' ++ map (fun y : ystate A => y_t y) r)); [exact Eds|].
        rewrite Eds. apply in_or_app. left. rewrite <- Em. apply in_map. exact Hb.
      - eauto. }
    destruct (Gc X) as (hx & Ex & _). pose proof (record_all_cases A l (new_state A T) (synced_new A T)) as K.
    change (s_x (new_state A T)) with (new_history A T) in K. rewrite Ex in K. destruct K as (s & Es). exists s. split; [exact Es|].
    split; [eapply record_all_synced; [apply synced_new|exact Es]|]. intros c. pose proof (record_all_run A _ _ _ Es c) as Rc. rewrite new_synced in Rc.
    destruct (Gc c) as (h & Eh & EL). congruence. }
  assert (forall l s, synced A s -> (forall c, L (get c s) = series A c l) -> states_of_history A s = Ok l) as RB.
  { intros l s Sy Ls.
    assert (forall c, length (L (get c s)) = length (L (s_x s))) as Sz.
    { intros c. change (s_x s) with (get X s). rewrite !Ls. unfold series. rewrite !map_length. reflexivity. }
    destruct (rebuild_spec A s Sz) as (zs & E & Ll & Rw). rewrite E. f_equal.
    change (s_x s) with (get X s) in Ll. rewrite Ls in Ll. unfold series in Ll. rewrite map_length in Ll.
    apply nth_error_ext_eq; [exact Ll|]. intros i z y Hz Hy. destruct (Rw i z Hz) as [(vx & Rt) Rv].
    change (s_x s) with (get X s) in Rt. rewrite Ls in Rt. unfold series in Rt. rewrite nth_error_map, Hy in Rt. cbn in Rt.
    assert (y_t z = y_t y) as Ht by congruence.
    assert (forall c, get c (y_val z) = get c (y_val y)) as Hv.
    { intros c. destruct (Rv c) as (t & Rc). rewrite Ls in Rc. unfold series in Rc. rewrite nth_error_map, Hy in Rc. cbn [option_map] in Rc. congruence. }
    destruct z as [tz vz], y as [ty vy]. cbn [y_t y_val] in *. f_equal; [exact Ht|].
    destruct vz, vy. pose proof (Hv X); pose proof (Hv Y); pose proof (Hv Z); pose proof (Hv U); pose proof (Hv V); pose proof (Hv W);
      pose proof (Hv P); pose proof (Hv Q); pose proof (Hv R); pose proof (Hv QR); pose proof (Hv QI); pose proof (Hv QJ); pose proof (Hv QK).
    cbn in *. subst. reflexivity. }
  rewrite make_inputs_cases. destruct (G ys) as (s1 & -> & Y1 & L1); [eexists; reflexivity|]. cbn [bindO].
  destruct (G (ys ++ [back])) as (s2 & -> & Y2 & L2); [exists []; rewrite app_nil_r; reflexivity|]. cbn [bindO].
  eexists. split; [reflexivity|]. cbn [history_except_last full_history]. split; apply RB; assumption.
Qed.
Print Assumptions server_request_round_trip.

(** Whatever the request, the histories built from it can be written out (they all have the same size), and a state whose
    thirteen histories do not all have the same size is refused. *)
Theorem server_histories_are_consistent : forall A Dt T ys i, make_server_inputs A Dt T ys = Ok i ->
  (exists l, states_of_history A (history_except_last i) = Ok l) /\ (exists l, states_of_history A (full_history i) = Ok l).
Proof.
  intros A Dt T ys i E.
  assert (synced A (history_except_last i) /\ synced A (full_history i)) as [S1 S2].
  { destruct ys as [|back ys _] using rev_ind; [injection E as <-; split; apply synced_new|].
    rewrite make_inputs_cases in E. destruct (record_all A _ ys) eqn:E1; try discriminate. cbn [bindO] in E.
    destruct (record_all A _ (ys ++ [back])) eqn:E2; try discriminate. cbn [bindO] in E. injection E as <-.
    split; eapply record_all_synced; try eassumption; apply synced_new. }
  assert (forall s, synced A s -> exists l, states_of_history A s = Ok l) as G.
  { intros s S. destruct (rebuild_spec A s) as (l & E1 & _); [|eauto]. intros c. destruct (S c) as (_ & _ & Ec). apply len_fst. exact Ec. }
  split; apply G; assumption.
Qed.
Print Assumptions server_histories_are_consistent.
Theorem server_inconsistent_histories_are_refused : forall A s,
  states_of_history A s = Throw <-> exists c, length (L (get c s)) <> length (L (get X s)).
Proof.
  intros A s. split.
  - intros E. destruct (size_throw A s) as [K|K].
    + rewrite size_iff in K. destruct (rebuild_spec A s K) as (l & E1 & _). congruence.
    + assert (In X all_comps) as _ by (left; reflexivity).
      assert ((exists c, length (L (get c s)) <> length (L (s_x s))) \/ forall c, length (L (get c s)) = length (L (s_x s))) as [G|G].
      { assert (forall l, (exists c, length (L (get c s)) <> length (L (s_x s))) \/ forall c, In c l -> length (L (get c s)) = length (L (s_x s))) as F.
        { induction l as [|c l [IH|IH]]; [right; intros c []|left; exact IH|].
          destruct (Nat.eq_dec (length (L (get c s))) (length (L (s_x s)))) as [D|D]; [right; intros c' [<-|Hc]; auto|left; eauto]. }
        destruct (F all_comps) as [F1|F1]; [left; exact F1|right]. intros c. apply F1. destruct c; cbn; tauto. }
      * exact G.
      * rewrite <- size_iff in G. congruence.
  - intros (c & Hc). unfold states_of_history. cbv zeta. destruct (size_throw A s) as [K|K]; [|rewrite K; reflexivity].
    rewrite size_iff in K. destruct (Hc (K c)).
Qed.
Print Assumptions server_inconsistent_histories_are_refused.

(** A co-simulation step starts from the last received state, whatever the previous request left in the simulator; it is refused
    unless Dt > 0; a request without any state starts at date 0 from the state left by the previous request. *)
Theorem cs_step_starts_from_last_received : forall A, order_laws A -> forall Dt T ys back i previous,
  lt A T (zero A) = false -> make_server_inputs A Dt T (ys ++ [back]) = Ok i ->
  cs_start A previous i = if lt A (zero A) Dt then Ok (y_t back, vector (y_val back)) else Throw.
Proof.
  intros A OL Dt T ys back i previous HT E.
  destruct (server_current_state_is_last_received A Dt T ys back i E) as (Et & ED & _).
  assert (forall c, exists l t, L (get c (full_history i)) = l ++ [(t, get c (y_val back))]) as G.
  { intros c. rewrite make_inputs_cases in E. destruct (record_all A _ ys) as [s1| |] eqn:E1; try discriminate. cbn [bindO] in E.
    destruct (record_all A _ (ys ++ [back])) as [s2| |] eqn:E2; try discriminate. cbn [bindO] in E. injection E as <-. cbn [full_history].
    pose proof (record_all_run A _ _ _ E1 c) as R1. pose proof (record_all_run A _ _ _ E2 c) as R2. rewrite new_synced in R1, R2.
    rewrite series_app, run1_app, R1 in R2. cbn [series map run1] in R2.
    destruct (history_latest_is_recorded A OL T (get c s1) (series A c ys) (y_t back) (get c (y_val back)) HT (run1_reachable A _ _ _ R1))
      as [(h' & F)|(h' & l & t' & F & El & _)]; rewrite F in R2; [discriminate|]. injection R2 as <-. eauto. }
  assert (synced A (full_history i)) as Sy.
  { rewrite make_inputs_cases in E. destruct (record_all A _ ys) eqn:E1; try discriminate. cbn [bindO] in E.
    destruct (record_all A _ (ys ++ [back])) eqn:E2; try discriminate. cbn [bindO] in E. injection E as <-.
    eapply record_all_synced; try eassumption; apply synced_new. }
  unfold cs_start. rewrite ED. destruct (lt A (zero A) Dt); cbn [negb]; [|reflexivity].
  assert (forall c, exists t, at_throw (L (get c (full_history i))) (length (L (s_x (full_history i))) - 1) = Ok (t, get c (y_val back))) as N.
  { intros c. destruct (Sy c) as (_ & _ & Ec). rewrite <- (len_fst A _ _ Ec). destruct (G c) as (l & t & ->). exists t.
    unfold at_throw. rewrite app_length. cbn [length]. replace (length l + 1 - 1)%nat with (length l) by lia.
    rewrite nth_error_app2, Nat.sub_diag by lia. reflexivity. }
  assert (get_StateType A (full_history i) (length (L (s_x (full_history i))) - 1) = Ok (vector (y_val back))) as ->.
  { unfold get_StateType.
    destruct (N X) as (t0 & H0), (N Y) as (t1 & H1), (N Z) as (t2 & H2), (N U) as (t3 & H3), (N V) as (t4 & H4), (N W) as (t5 & H5), (N P) as (t6 & H6),
      (N Q) as (t7 & H7), (N R) as (t8 & H8), (N QR) as (t9 & H9), (N QI) as (t10 & H10), (N QJ) as (t11 & H11), (N QK) as (t12 & H12).
    cbn [get] in *. rewrite H0, H1, H2, H3, H4, H5, H6, H7, H8, H9, H10, H11, H12. reflexivity. }
  cbn [bindO]. rewrite Et. destruct (G X) as (l & t & El). cbn [get] in El. rewrite El. destruct l; reflexivity.
Qed.
Print Assumptions cs_step_starts_from_last_received.
Theorem cs_step_without_state_reuses_the_previous_one : forall A Dt T previous, exists i,
  make_server_inputs A Dt T [] = Ok i /\
  cs_start A previous i = if lt A (zero A) Dt then Ok (zero A, previous) else Throw.
Proof. intros. eexists. split; [reflexivity|]. unfold cs_start. cbn [in_Dt]. destruct (lt A (zero A) Dt); reflexivity. Qed.
Print Assumptions cs_step_without_state_reuses_the_previous_one.

(** A concrete request: three states, half a second apart, ten seconds of history. *)
Definition qy (t x : QArith_base.Q) : ystate Qarith := @mkY Qarith t (mkStates x 1 2 3 4 5 6 7 8 9 10 11 12)%Q.
Definition request : list (ystate Qarith) := [qy 0 (1 # 2); qy (1 # 2) (3 # 4); qy 1 (7 # 8)]%Q.
Lemma request_sorted : StronglySorted (fun a b => lt Qarith a b = true) (map (fun y => y_t y) request).
Proof. repeat constructor. Qed.
Example server_request_witness :
  (exists i, make_server_inputs Qarith (1#10)%Q 10%Q request = Ok i /\
    states_of_history Qarith (history_except_last i) = Ok [qy 0 (1 # 2); qy (1 # 2) (3 # 4)]%Q /\
    states_of_history Qarith (full_history i) = Ok request /\
    cs_start Qarith [] i = Ok (1, [7 # 8; 1; 2; 3; 4; 5; 6; 7; 8; 9; 10; 11; 12])%Q) /\
  make_server_inputs Qarith (1#10)%Q 10%Q [qy 1 0; qy 0 0] = Throw.
Proof.
  split; [|vmr]. 
  destruct (server_request_round_trip Qarith Q_laws (1#10)%Q 10%Q [qy 0 (1 # 2); qy (1 # 2) (3 # 4)]%Q (qy 1 (7 # 8))%Q ltac:(vm_compute; reflexivity) request_sorted) as (i & E & E1 & E2).
  - intros u a b v. destruct u as [|u0 [|u1 [|u2 u]]]; intros [= ]; subst; try reflexivity. destruct u; discriminate.
  - intros d0 l d [= <- <-] [<-|[<-|[<-|[]]]]; vm_compute; reflexivity.
  - exists i. repeat split; try assumption.
    exact (cs_step_starts_from_last_received Qarith Q_laws (1#10)%Q 10%Q _ _ i [] ltac:(vm_compute; reflexivity) E).
Qed.
