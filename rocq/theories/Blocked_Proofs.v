(** Proofs about the model of BlockedDOF. *)
From Coq Require Import ZArith List Bool Lia String.
From Verif Require Import Common Blocked_Model Blocked_Spec.
Import ListNotations.

Lemma slot_state_index : forall i s, state_index i s = slot i s.
Proof. intros i s. destruct s; unfold state_index, slot, rank, UIDX, VIDX, WIDX, PIDX, QIDX, RIDX, NB_OF_STATES_PER_BODY; lia. Qed.
Lemma slot_inj : forall i j s s', slot i s = slot j s' -> i = j /\ s = s'.
Proof. intros i j s s'. unfold slot, rank. destruct s, s'; split; try reflexivity; lia. Qed.

Lemma set_ub_spec : forall {A} (x : list A) i v x', set_ub x i v = Ok x' ->
  List.length x' = List.length x /\ nth_error x' i = Some v /\ forall j, j <> i -> nth_error x' j = nth_error x j.
Proof.
  induction x as [|a x IH]; intros [|i] v x' H; simpl in H; try discriminate.
  - injection H as <-. split; [reflexivity|]. split; [reflexivity|]. intros [|j] Hj; [congruence|reflexivity].
  - destruct (set_ub x i v) as [y| |] eqn:E; try discriminate. injection H as <-. apply IH in E as (L & N & O).
    simpl. split; [congruence|]. split; [exact N|]. intros [|j] Hj; [reflexivity|]. apply O. congruence.
Qed.
Lemma set_ub_ok : forall {A} (x : list A) i v, i < List.length x -> exists x', set_ub x i v = Ok x'.
Proof.
  induction x as [|a x IH]; intros [|i] v H; cbn [List.length] in H; try lia; cbn [set_ub].
  - eexists. reflexivity.
  - destruct (IH i v ltac:(lia)) as (y & ->). eexists. reflexivity.
Qed.

Section P.
Variable D : Type.
Variable lt : D -> D -> bool.
Variable SWO : strict_weak_order lt.
Variable Itp : Type.
Variable build : ikind -> list D -> list D -> outcome Itp.
Variable read_csv : string -> outcome (list (string * list D)).

Notation le a b := (negb (lt b a)).

Lemma lt_asym : forall a b, lt a b = true -> lt b a = false.
Proof. intros a b H. destruct (lt b a) eqn:E; [|reflexivity]. pose proof (swo_trans _ SWO a b a H E). rewrite (swo_irrefl _ SWO) in *. discriminate. Qed.
Lemma ge_trans : forall a b c, lt a b = false -> lt b c = false -> lt a c = false.
Proof. intros a b c H1 H2. destruct (lt a c) eqn:E; [|reflexivity]. destruct (swo_cotrans _ SWO a b c E); congruence. Qed.

Lemma fold_min_spec : forall r a, let m := fold_left (fun m x => if lt x m then x else m) r a in
  In m (a :: r) /\ forall x, In x (a :: r) -> lt x m = false.
Proof.
  induction r as [|b r IH]; intros a; simpl.
  - split; [auto|]. intros x [->|[]]. apply (swo_irrefl _ SWO).
  - specialize (IH (if lt b a then b else a)). destruct IH as (I & M). split.
    + destruct (lt b a); simpl in I; tauto.
    + intros x [->|[->|H]].
      * destruct (lt b x) eqn:E; [|apply M; left; reflexivity].
        apply ge_trans with b; [apply lt_asym; exact E|]. apply M. left. reflexivity.
      * destruct (lt x a) eqn:E; [apply M; left; reflexivity|].
        apply ge_trans with a; [exact E|]. apply M. left. reflexivity.
      * apply M. right. exact H.
Qed.
Lemma fold_max_spec : forall r a, let m := fold_left (fun m x => if lt m x then x else m) r a in
  In m (a :: r) /\ forall x, In x (a :: r) -> lt m x = false.
Proof.
  induction r as [|b r IH]; intros a; simpl.
  - split; [auto|]. intros x [->|[]]. apply (swo_irrefl _ SWO).
  - specialize (IH (if lt a b then b else a)). destruct IH as (I & M). split.
    + destruct (lt a b); simpl in I; tauto.
    + intros x [->|[->|H]].
      * destruct (lt x b) eqn:E; [|apply M; left; reflexivity].
        apply ge_trans with b; [apply M; left; reflexivity|]. apply lt_asym. exact E.
      * destruct (lt a x) eqn:E; [apply M; left; reflexivity|].
        apply ge_trans with a; [|exact E]. apply M. left. reflexivity.
      * apply M. right. exact H.
Qed.

(** Between the smallest and the largest date iff covered. *)
Lemma covers_bounds : forall dates mn mx t, min_element lt dates = Ok mn -> max_element lt dates = Ok mx ->
  (le mn t && le t mx = true <-> covers lt dates t).
Proof.
  intros dates mn mx t Hn Hx. destruct dates as [|a r]; [discriminate|].
  injection Hn as Hn. injection Hx as Hx. pose proof (fold_min_spec r a) as [I1 M1]. pose proof (fold_max_spec r a) as [I2 M2].
  rewrite Hn in *. rewrite Hx in *. rewrite andb_true_iff, !negb_true_iff. unfold covers. split.
  - intros [A B]. split; [exists mn|exists mx]; auto.
  - intros [(u & Hu & Hut) (v & Hv & Hvt)]. split.
    + apply ge_trans with u; [exact Hut|]. apply M1. exact Hu.
    + apply ge_trans with v; [|exact Hvt]. apply M2. exact Hv.
Qed.

(** Maps built by folding over tables with distinct states. *)
Lemma mset_same : forall {X} (m : smap X) s v, mset m s v s = Some v.
Proof. intros. unfold mset. destruct (bstate_eq_dec s s); congruence. Qed.
Lemma mset_other : forall {X} (m : smap X) s s' v, s' <> s -> mset m s v s' = m s'.
Proof. intros. unfold mset. destruct (bstate_eq_dec s' s); congruence. Qed.

Lemma forced_states_spec : forall l m m', get_forced_states build l m = Ok m' ->
  (forall s, ~ In s (map t_state l) -> m' s = m s) /\
  (NoDup (map t_state l) -> forall y, In y l -> exists i, build (t_kind y) (t_dates y) (t_values y) = Ok i /\ m' (t_state y) = Some i).
Proof.
  induction l as [|y r IH]; intros m m' H; simpl in H.
  - injection H as <-. split; [reflexivity|]. intros _ y [].
  - destruct (build (t_kind y) (t_dates y) (t_values y)) as [i| |] eqn:B; try discriminate. simpl in H.
    apply IH in H as (O & N). split.
    + intros s Hs. simpl in Hs. rewrite O by tauto. apply mset_other. intros ->. tauto.
    + intros ND z Hz. simpl in ND. inversion ND as [|? ? NI ND']; subst. destruct Hz as [<-|Hz].
      * exists i. split; [exact B|]. rewrite O by exact NI. apply mset_same.
      * apply N; assumption.
Qed.
Lemma bounds_spec : forall (elt : list D -> outcome D) l m m', get_bounds elt l m = Ok m' ->
  (forall s, ~ In s (map t_state l) -> m' s = m s) /\
  (NoDup (map t_state l) -> forall y, In y l -> exists b, elt (t_dates y) = Ok b /\ m' (t_state y) = Some b).
Proof.
  induction l as [|y r IH]; intros m m' H; simpl in H.
  - injection H as <-. split; [reflexivity|]. intros _ y [].
  - destruct (elt (t_dates y)) as [i| |] eqn:B; try discriminate. simpl in H.
    apply IH in H as (O & N). split.
    + intros s Hs. simpl in Hs. rewrite O by tauto. apply mset_other. intros ->. tauto.
    + intros ND z Hz. simpl in ND. inversion ND as [|? ? NI ND']; subst. destruct Hz as [<-|Hz].
      * exists i. split; [exact B|]. rewrite O by exact NI. apply mset_same.
      * apply N; assumption.
Qed.

(** What a set of tables with distinct states does, abstractly. *)
Definition acts (tables : list (table D)) (b : blocked D Itp) : Prop :=
  (forall s, ~ In s (map t_state tables) -> b_dof b s = None) /\
  (forall y, In y tables -> exists i, build (t_kind y) (t_dates y) (t_values y) = Ok i /\ b_dof b (t_state y) = Some i /\
     forall t, state_is_blocked_at_that_date lt b (t_state y) t = true <-> covers lt (t_dates y) t).

Lemma acts_intro : forall tables dof mn mx idx, NoDup (map t_state tables) ->
  get_forced_states build tables mempty = Ok dof ->
  get_bounds (min_element lt) tables mempty = Ok mn ->
  get_bounds (max_element lt) tables mempty = Ok mx ->
  acts tables (mkBlocked dof idx mn mx).
Proof.
  intros tables dof mn mx idx ND F Mn Mx.
  apply forced_states_spec in F as (F1 & F2). apply bounds_spec in Mn as (N1 & N2). apply bounds_spec in Mx as (X1 & X2).
  split; simpl.
  - intros s Hs. rewrite F1 by exact Hs. reflexivity.
  - intros y Hy. destruct (F2 ND y Hy) as (i & B & E). exists i. split; [exact B|]. split; [exact E|].
    intros t. destruct (N2 ND y Hy) as (n & En & Hn). destruct (X2 ND y Hy) as (x & Ex & Hx).
    unfold state_is_blocked_at_that_date. simpl. rewrite Hn, Hx. apply covers_bounds; assumption.
Qed.

Variable eval : Itp -> D -> outcome D.

(** The loop over a duplicate-free list of states. *)
Lemma force_loop_spec : forall b l x t x', NoDup l -> force_loop lt eval b l x t = Ok x' ->
  List.length x' = List.length x /\
  (forall i, (forall s, In s l -> b_dof b s <> None -> state_is_blocked_at_that_date lt b s t = true -> i <> state_index (b_idx b) s) ->
             nth_error x' i = nth_error x i) /\
  (forall s j, In s l -> b_dof b s = Some j -> state_is_blocked_at_that_date lt b s t = true ->
     exists v, eval j t = Ok v /\ nth_error x' (state_index (b_idx b) s) = Some v).
Proof.
  intros b. induction l as [|s l IH]; intros x t x' ND H; simpl in H.
  - injection H as <-. split; [reflexivity|]. split; [reflexivity|]. intros s j [].
  - inversion ND as [|? ? NI ND']; subst. destruct (b_dof b s) as [i|] eqn:E.
    + destruct (state_is_blocked_at_that_date lt b s t) eqn:Bl.
      * destruct (eval i t) as [v| |] eqn:Ev; try discriminate. simpl in H.
        destruct (set_ub x (state_index (b_idx b) s) v) as [y| |] eqn:St; try discriminate. simpl in H.
        apply set_ub_spec in St as (L1 & S1 & O1). apply IH in H as (L2 & O2 & S2); [|exact ND'].
        split; [congruence|]. split.
        -- intros k Hk. rewrite O2; [apply O1; apply Hk; [left; reflexivity|congruence|exact Bl]|].
           intros s' Hs'. apply Hk. right. exact Hs'.
        -- intros s' j [<-|Hs'] Ej Bj; [|apply S2; assumption].
           assert (j = i) by congruence. subst j. exists v. split; [exact Ev|].
           rewrite O2; [exact S1|]. intros s' Hs' _ _ X. rewrite !slot_state_index in X. apply slot_inj in X as (_ & <-). tauto.
      * apply IH in H as (L2 & O2 & S2); [|exact ND']. split; [exact L2|]. split.
        -- intros k Hk. apply O2. intros s' Hs'. apply Hk. right. exact Hs'.
        -- intros s' j [<-|Hs'] Ej Bj; [congruence|apply S2; assumption].
    + apply IH in H as (L2 & O2 & S2); [|exact ND']. split; [exact L2|]. split.
      * intros k Hk. apply O2. intros s' Hs'. apply Hk. right. exact Hs'.
      * intros s' j [<-|Hs'] Ej Bj; [congruence|apply S2; assumption].
Qed.

Lemma force_loop_ok : forall b l x t,
  (forall s j, b_dof b s = Some j -> state_is_blocked_at_that_date lt b s t = true -> exists v, eval j t = Ok v) ->
  (forall s, state_index (b_idx b) s < List.length x) -> exists x', force_loop lt eval b l x t = Ok x'.
Proof.
  intros b. induction l as [|s l IH]; intros x t He Hx; simpl; [eauto|].
  destruct (b_dof b s) as [i|] eqn:E; [|apply IH; assumption].
  destruct (state_is_blocked_at_that_date lt b s t) eqn:Bl; [|apply IH; assumption].
  destruct (He s i E Bl) as (v & ->). simpl.
  destruct (set_ub_ok x (state_index (b_idx b) s) v (Hx s)) as (y & Ey). rewrite Ey. simpl. apply IH; [assumption|].
  apply set_ub_spec in Ey as (L & _). intros s'. rewrite L. apply Hx.
Qed.

Lemma all_states_NoDup : NoDup all_states.
Proof. unfold all_states. repeat constructor; simpl; intuition discriminate. Qed.
Lemma all_states_complete : forall s, In s all_states.
Proof. intros []; unfold all_states; simpl; tauto. Qed.

Lemma acts_force : forall tables b x t x', acts tables b ->
  force_loop lt eval b all_states x t = Ok x' ->
  List.length x' = List.length x /\
  (forall i, (forall y, In y tables -> covers lt (t_dates y) t -> i <> slot (b_idx b) (t_state y)) -> nth_error x' i = nth_error x i) /\
  (forall y, In y tables -> covers lt (t_dates y) t -> exists j v, build (t_kind y) (t_dates y) (t_values y) = Ok j /\
     eval j t = Ok v /\ nth_error x' (slot (b_idx b) (t_state y)) = Some v).
Proof.
  intros tables b x t x' (A1 & A2) H. apply force_loop_spec in H as (L & O & S0); [|apply all_states_NoDup].
  split; [exact L|]. split.
  - intros i Hi. apply O. intros s _ Hd Hb. rewrite slot_state_index.
    destruct (in_dec bstate_eq_dec s (map t_state tables)) as [Hs|Hs]; [|elim Hd; apply A1; exact Hs].
    apply in_map_iff in Hs as (y & <- & Hy). destruct (A2 y Hy) as (j & _ & _ & C). apply Hi; [exact Hy|]. apply C. exact Hb.
  - intros y Hy Hc. destruct (A2 y Hy) as (j & B & E & C). apply C in Hc.
    destruct (S0 (t_state y) j (all_states_complete _) E Hc) as (v & Ev & N). exists j, v. rewrite slot_state_index in N. auto.
Qed.

Lemma NoDup_states_dec : forall l : list bstate, {NoDup l} + {~ NoDup l}.
Proof.
  induction l as [|a l IH]; [left; constructor|].
  destruct IH as [IH|IH]; [|right; intros X; inversion X; auto].
  destruct (in_dec bstate_eq_dec a l); [right; intros X; inversion X; auto|left; constructor; assumption].
Qed.

(** Detection of duplicates. *)
Lemma check_yaml_ok : forall (l : list (table D)) d,
  NoDup (map t_state l) -> (forall y, In y l -> d (t_state y) <> Some true) ->
  exists d', check_yaml l d = Ok d' /\ forall s, d' s = Some true <-> (d s = Some true \/ In s (map t_state l)).
Proof.
  induction l as [|y r IH]; intros d ND Hd; simpl.
  - exists d. split; [reflexivity|]. intros s. tauto.
  - inversion ND as [|? ? NI ND']; subst. unfold throw_if_already_defined.
    destruct (IH (mset d (t_state y) true) ND') as (d' & E & S0).
    { intros z Hz. unfold mset. destruct (bstate_eq_dec (t_state z) (t_state y)) as [Q|Q].
      - exfalso. apply NI. rewrite <- Q. apply in_map. exact Hz.
      - apply Hd. right. exact Hz. }
    exists d'. split.
    + pose proof (Hd y (or_introl eq_refl)). destruct (d (t_state y)) as [[|]|]; try congruence; exact E.
    + intros s. rewrite S0. unfold mset. destruct (bstate_eq_dec s (t_state y)) as [->|Q].
      * split; auto.
      * split; intros [?|?]; auto. destruct H; [congruence|auto].
Qed.
Lemma check_yaml_dup : forall (l : list (table D)) d,
  ~ (NoDup (map t_state l) /\ (forall y, In y l -> d (t_state y) <> Some true)) -> check_yaml l d = Throw.
Proof.
  induction l as [|y r IH]; intros d H; simpl.
  - exfalso. apply H. split; [constructor|]. intros y [].
  - unfold throw_if_already_defined. destruct (d (t_state y)) as [[|]|] eqn:E; [reflexivity| |]; simpl; apply IH; intros (ND & Hd); apply H; split.
    1,3: (simpl; constructor; [|exact ND]; intros X; apply in_map_iff in X as (z & Ez & Hz); apply (Hd z Hz); rewrite Ez; apply mset_same).
    1,2: (intros z [<-|Hz]; [congruence|]; intros X; apply (Hd z Hz); unfold mset; destruct (bstate_eq_dec (t_state z) (t_state y)); [reflexivity|exact X]).
Qed.
Lemma check_csv_ok : forall (l : list csv_dof) d1 d2,
  NoDup (map c_state l) -> (forall y, In y l -> d1 (c_state y) <> Some true) -> (forall y, In y l -> d2 (c_state y) <> Some true) ->
  check_csv l d1 d2 = Ok tt.
Proof.
  induction l as [|y r IH]; intros d1 d2 ND H1 H2; simpl; [reflexivity|].
  inversion ND as [|? ? NI ND']; subst. unfold throw_if_already_defined.
  pose proof (H1 y (or_introl eq_refl)). pose proof (H2 y (or_introl eq_refl)).
  assert (check_csv r (mset d1 (c_state y) true) (mset d2 (c_state y) true) = Ok tt) as IH'.
  { apply IH; [exact ND'| |]; intros z Hz; unfold mset; destruct (bstate_eq_dec (c_state z) (c_state y)) as [Q|Q].
    1,3: exfalso; apply NI; rewrite <- Q; apply in_map; exact Hz.
    - apply H1. right. exact Hz.
    - apply H2. right. exact Hz. }
  destruct (d1 (c_state y)) as [[|]|]; try congruence; simpl; destruct (d2 (c_state y)) as [[|]|]; try congruence; exact IH'.
Qed.
Lemma check_csv_dup : forall (l : list csv_dof) d1 d2,
  ~ (NoDup (map c_state l) /\ (forall y, In y l -> d1 (c_state y) <> Some true)) -> check_csv l d1 d2 = Throw.
Proof.
  induction l as [|y r IH]; intros d1 d2 H; simpl.
  - exfalso. apply H. split; [constructor|]. intros y [].
  - unfold throw_if_already_defined. destruct (d1 (c_state y)) as [[|]|] eqn:E; [reflexivity| |]; simpl;
      (destruct (d2 (c_state y)) as [[|]|]; [reflexivity| |]; simpl; (apply IH; intros (ND & Hd); apply H; split;
        [simpl; constructor; [|exact ND]; intros X; apply in_map_iff in X as (z & Ez & Hz); apply (Hd z Hz); rewrite Ez; apply mset_same
        |intros z [<-|Hz]; [congruence|]; intros X; apply (Hd z Hz); unfold mset; destruct (bstate_eq_dec (c_state z) (c_state y)); [reflexivity|exact X]])).
Qed.

Lemma check_iff : forall input : blocked_input D,
  (NoDup (declared_states input) -> check_states_are_not_defined_twice input = Ok tt) /\
  (~ NoDup (declared_states input) -> check_states_are_not_defined_twice input = Throw).
Proof.
  intros [ys cs]. unfold declared_states, check_states_are_not_defined_twice. simpl. split.
  - intros ND. destruct (check_yaml_ok ys mempty) as (d & E & S0).
    { clear - ND. induction ys as [|y r IH]; simpl in *; [constructor|]. inversion ND; subst. constructor; [|apply IH; assumption].
      intros X. apply H1. apply in_or_app. left. exact X. }
    { intros y _. unfold mempty. discriminate. }
    rewrite E. simpl. apply check_csv_ok.
    + clear - ND. induction ys as [|y r IH]; simpl in *; [exact ND|]. inversion ND; subst. apply IH. assumption.
    + intros y Hy X. apply S0 in X as [X|X]; [discriminate|]. clear - ND X Hy.
      induction ys as [|z r IH]; simpl in *; [exact X|]. inversion ND; subst. destruct X as [X|X].
      * apply H1. apply in_or_app. right. rewrite X. apply in_map. exact Hy.
      * apply IH; assumption.
    + intros y _. unfold mempty. discriminate.
  - intros ND. assert ({NoDup (map t_state ys)} + {~ NoDup (map t_state ys)}) as [NY|NY].
    { apply NoDup_states_dec. }
    2:{ rewrite check_yaml_dup; [reflexivity|]. tauto. }
    destruct (check_yaml_ok ys mempty NY) as (d & E & S0). { intros y _. unfold mempty. discriminate. }
    rewrite E. simpl. apply check_csv_dup. intros (NC & Hd). apply ND. clear E.
    assert (forall s, In s (map t_state ys) -> ~ In s (map c_state cs)) as Disj.
    { intros s Hs Hc. apply in_map_iff in Hc as (y & <- & Hy). apply (Hd y Hy). apply S0. right. exact Hs. }
    clear - NY NC Disj. induction (map t_state ys) as [|a l IH]; simpl; [exact NC|].
    inversion NY; subst. constructor.
    + intros X. apply in_app_or in X as [X|X]; [auto|]. apply (Disj a); [left; reflexivity|exact X].
    + apply IH; [assumption|]. intros s Hs. apply Disj. right. exact Hs.
Qed.

Lemma make_blocked_inv : forall input idx b, make_blocked lt build read_csv input idx = Ok b ->
  exists tables, build_tables read_csv input = Ok tables /\ NoDup (declared_states input) /\ b_idx b = idx /\
    (NoDup (map t_state tables) -> acts tables b).
Proof.
  intros input idx b H. unfold make_blocked in H.
  destruct (build_tables read_csv input) as [tables| |] eqn:T; try discriminate. simpl in H.
  destruct (check_states_are_not_defined_twice input) eqn:C; try discriminate. simpl in H.
  destruct (get_forced_states build tables mempty) as [dof| |] eqn:F; try discriminate. simpl in H.
  destruct (get_bounds (min_element lt) tables mempty) as [mn| |] eqn:N; try discriminate. simpl in H.
  destruct (get_bounds (max_element lt) tables mempty) as [mx| |] eqn:X; try discriminate. simpl in H.
  injection H as <-. exists tables. split; [reflexivity|]. split.
  - assert ({NoDup (declared_states input)} + {~ NoDup (declared_states input)}) as [K|K].
    { apply NoDup_states_dec. }
    + exact K.
    + apply check_iff in K. congruence.
  - split; [reflexivity|]. intros ND. apply acts_intro; assumption.
Qed.

Lemma build_tables_yaml : forall ys, build_tables read_csv (mkInput ys []) = Ok ys.
Proof. intros. unfold build_tables. simpl. rewrite app_nil_r. reflexivity. Qed.
End P.
