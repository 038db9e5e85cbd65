(** C101: contours of any set of edges. *)
From Coq Require Import Reals List Bool Arith Lia Lra Permutation.
From Verif Require Import Common Geometry Sim_Model Force_Model Hull_Model Hull_Spec Hull_Proofs Mesh_Model Mesh_Spec Mesh_Proofs.
From Verif Require Import Closing_Model Closing_Spec Closing_Graph_Proofs Closing_Contour_Proofs Closing_Walk_Proofs Closing_Contour_Props Closing_Shape_Props.
Import ListNotations.
Open Scope R_scope.

Definition fine {A} (x : outcome A) : Prop := x <> UB.
Lemma fine_bind : forall {A B} (x : outcome A) (f : A -> outcome B), fine x -> (forall a, x = Ok a -> fine (f a)) -> fine (bindO x f).
Proof. intros A B [a| |] f F H; cbn; [apply H; reflexivity|discriminate|exfalso; apply F; reflexivity]. Qed.
Lemma fine_bindE : forall {A B} (x : outcome (option A)) (f : A -> outcome (option B)), fine x -> (forall a, x = Ok (Some a) -> fine (f a)) -> fine (bindE x f).
Proof. intros A B x f F H. apply fine_bind; [exact F|]. intros [a|] E; [apply H; exact E|discriminate]. Qed.
Lemma fine_at_throw : forall {A} (l : list A) i, fine (at_throw l i).
Proof. intros A l i. unfold fine, at_throw. destruct (nth_error l i); discriminate. Qed.
Lemma fine_at_ub : forall {A} (l : list A) i, (i < length l)%nat -> fine (at_ub l i).
Proof. intros A l i H. destruct (at_ub_lt' l i H) as (a & -> & _). discriminate. Qed.
Lemma fine_fold : forall {A S} (f : S -> A -> outcome S) l s, (forall s a, In a l -> fine (f s a)) -> fine (foldO f l s).
Proof. intros A S f. induction l as [|a l IH]; intros s H; [discriminate|]. cbn [foldO]. apply fine_bind; [apply H; left; reflexivity|]. intros s' _. apply IH. intros; apply H; right; assumption. Qed.
Lemma fine_map : forall {A B} (f : A -> outcome B) l, (forall a, In a l -> fine (f a)) -> fine (mapO_list f l).
Proof.
  intros A B f. induction l as [|a l IH]; intros H; [discriminate|]. cbn. apply fine_bind; [apply H; left; reflexivity|]. intros b _. apply fine_bind; [apply IH; intros; apply H; right; assumption|]. discriminate.
Qed.
Lemma at_throw_inv : forall {A} (l : list A) i a, at_throw l i = Ok a -> nth_error l i = Some a.
Proof. intros A l i a. unfold at_throw. destruct (nth_error l i); [intros E; injection E as ->; reflexivity|discriminate]. Qed.

Section Computer.
Variables (c : computer) (RD : ready c).
Let es := c_edges c.
Lemma two_edges_inv : forall e f r a b d, two_edges es e f r = Some (a, b, d) -> exists x y u v, nth_error es e = Some (x, y) /\ nth_error es f = Some (u, v) /\ a = x /\ b = y /\ (d = u \/ d = v) /\
  let n := if r then x else y in (n = u \/ n = v) /\ ~ (n = u /\ n = v).
Proof.
  intros e f r a b d H. unfold two_edges in H. destruct (nth_error es e) as [[x y]|]; [|discriminate]. destruct (nth_error es f) as [[u v]|]; [|discriminate]. exists x, y, u, v.
  destruct (Nat.eqb_spec x u), (Nat.eqb_spec x v), (Nat.eqb_spec y u), (Nat.eqb_spec y v); cbn [app] in H; try discriminate;
  destruct r; try (rewrite Nat.eqb_refl in H); try (destruct (Nat.eqb_spec x y); [|discriminate]); try (destruct (Nat.eqb_spec y x); [|discriminate]); subst; try congruence;
  repeat match type of H with context [Nat.eqb ?p ?q] => destruct (Nat.eqb_spec p q); try congruence; try discriminate end; injection H as <- <- <-; repeat split; auto; intros [? ?]; subst; congruence.
Qed.
Lemma angle_fine : forall e f r, fine (angle_between_edges c e f r).
Proof.
  intros e f r. unfold angle_between_edges. destruct (two_edges (c_edges c) e f r) as [[[a b] d]|] eqn:E; [|discriminate].
  destruct (two_edges_inv e f r a b d E) as (x & y & u & v & E1 & E2 & -> & -> & D & _). destruct (rd_bounds c RD _ (nth_error_In _ _ E1)). destruct (rd_bounds c RD _ (nth_error_In _ _ E2)). cbn [fst snd] in *.
  apply fine_bind; [apply fine_at_ub; assumption|]. intros A _. apply fine_bind; [apply fine_at_ub; assumption|]. intros B _. apply fine_bind; [apply fine_at_ub; destruct D; subst; assumption|]. discriminate.
Qed.
Lemma angle_some : forall e f r x, angle_between_edges c e f r = Ok (Some x) -> exists a b d, two_edges es e f r = Some (a, b, d).
Proof. intros e f r x H. unfold angle_between_edges in H. fold es in H. destruct (two_edges es e f r) as [[[a b] d]|]; [eauto|discriminate]. Qed.
Lemma angles_fine : forall e r l, fine (angles_of c e r l).
Proof. intros e r. induction l as [|i l IH]; [discriminate|]. cbn [angles_of]. apply fine_bindE; [apply angle_fine|]. intros a _. apply fine_bindE; [exact IH|]. discriminate. Qed.
Lemma angles_some : forall e r l an, angles_of c e r l = Ok (Some an) -> length an = length l /\ forall i, In i l -> exists a b d, two_edges es e i r = Some (a, b, d).
Proof.
  intros e r. induction l as [|i l IH]; intros an H; [injection H as <-; split; [reflexivity|intros i []]|]. cbn [angles_of] in H. unfold bindE at 1 in H. destruct (angle_between_edges c e i r) as [[x|]| |] eqn:E; try discriminate.
  cbn [bindO] in H. unfold bindE in H. destruct (angles_of c e r l) as [[q|]| |]; try discriminate. cbn [bindO] in H. injection H as <-. destruct (IH q eq_refl) as [L P]. split; [cbn; lia|].
  intros j [<-|J]; [apply (angle_some _ _ _ _ E)|apply P, J].
Qed.
Lemma choose_idx : forall s b l acc n, (fst acc < n)%nat -> (forall x, In x l -> (fst x < n)%nat) -> (fst (fold_left (choose_step s b) l acc) < n)%nat.
Proof.
  intros s b. induction l as [|x l IH]; intros acc n H1 H2; [exact H1|]. cbn [fold_left]. apply IH; [|intros; apply H2; right; assumption]. specialize (H2 x (or_introl eq_refl)). unfold choose_step. destruct acc as [i a], x as [j y].
  cbn [fst] in *. destruct (Rltb _ _ && b), s; cbn [fst]; match goal with |- context [if ?b then _ else _] => destruct b end; cbn [fst]; assumption.
Qed.
Lemma next_edge_fine : forall e r, fine (next_edge c e r).
Proof.
  intros e r. unfold next_edge. destruct (edges_connected_to c r e) as [[|c0 l]|] eqn:EC; try discriminate. apply fine_bind; [apply fine_at_throw|]. intros ab E. apply at_throw_inv in E.
  destruct (rd_bounds c RD _ (nth_error_In _ _ E)) as [B1 B2]. apply fine_bind; [apply fine_at_ub; destruct r; assumption|]. intros p _. apply fine_bindE; [apply angles_fine|]. intros an EA.
  destruct (angles_some _ _ _ _ EA) as [L _]. destruct an as [|a an]; [discriminate L|]. cbn [length seq combine]. match goal with |- context [let (_, _) := ?f in _] => destruct f end.
  apply fine_bind; [apply fine_at_throw|]. discriminate.
Qed.
(** The edge chosen starts or ends (not both) where the current one ends *)
Lemma next_edge_sound : forall e r n, next_edge c e r = Ok (Some n) -> exists x y u v, nth_error es e = Some (x, y) /\ nth_error es n = Some (u, v) /\
  let p := if r : bool then x else y in (p = u \/ p = v) /\ ~ (p = u /\ p = v).
Proof.
  intros e r n H. unfold next_edge in H. destruct (edges_connected_to c r e) as [[|c0 l]|] eqn:EC; try discriminate. destruct (at_throw (c_edges c) e) as [ab| |]; try discriminate. cbn [bindO] in H.
  destruct (at_ub (c_mesh c) _) as [p| |]; try discriminate. cbn [bindO] in H. unfold bindE in H. destruct (angles_of c e r (c0 :: l)) as [[an|]| |] eqn:EA; try discriminate. cbn [bindO] in H.
  destruct (angles_some _ _ _ _ EA) as [L P]. destruct (combine (seq 0 (length an)) an) as [|ia rest]; [discriminate|]. match type of H with context [let (_, _) := ?f in _] => destruct f as [i z] end.
  destruct (at_throw (c0 :: l) i) as [q| |] eqn:EQ; try discriminate. cbn [bindO] in H. injection H as <-. apply at_throw_inv, nth_error_In in EQ. destruct (P q EQ) as (a & b & d & T).
  destruct (two_edges_inv _ _ _ _ _ _ T) as (x & y & u & v & E1 & E2 & _ & _ & _ & Q). exists x, y, u, v. auto.
Qed.
Definition last_end (k : contour) (p : nat) : Prop := exists k' er x, k = k' ++ [er] /\ oriented es er = Some (x, p).
Lemma reverse_ok : forall prev r x y e u v, nth_error es prev = Some (x, y) -> nth_error es e = Some (u, v) -> let p := if r : bool then x else y in (p = u \/ p = v) -> ~ (p = u /\ p = v) ->
  exists r', need_to_reverse c prev e r = Ok r' /\ oriented es (e, r') = Some (p, if Nat.eqb p u then v else u).
Proof.
  intros prev r x y e u v E1 E2 p D N. unfold need_to_reverse, at_throw. fold es. rewrite E1, E2. cbn [bindO fst snd]. eexists. split; [reflexivity|]. unfold oriented. cbn [fst snd]. rewrite E2. subst p.
  destruct r; cbn iota in D |- *; match goal with |- context [Nat.eqb ?a ?b] => destruct (Nat.eqb_spec a b) as [Q|Q] end; cbn [negb fst snd]; f_equal; f_equal; destruct D as [D|D]; unfold swapn; cbn [fst snd]; congruence.
Qed.
(** The loop: [ret] is a path that ends where [previous], run in direction [reverse], ends *)
Definition path_of (k : contour) (l : list (nat * nat)) : Prop := map (oriented es) k = map Some l /\ chained l.
Lemma chained_snoc : forall l e f, chained (l ++ [e]) -> snd e = fst f -> chained ((l ++ [e]) ++ [f]).
Proof. induction l as [|a l IH]; intros e f H E; [cbn; auto|]. cbn [app] in *. destruct l as [|b l]; cbn [app] in *; [cbn in *; tauto|]. destruct H as [H1 H2]. split; [exact H1|]. apply IH; assumption. Qed.
Lemma loop_path : forall fuel front edge prev rv ret l e0, path_of ret (l ++ [e0]) -> oriented es (prev, rv) = Some e0 ->
  (exists u v, nth_error es edge = Some (u, v) /\ (snd e0 = u \/ snd e0 = v) /\ ~ (snd e0 = u /\ snd e0 = v)) ->
  fine (contour_loop fuel c front edge prev rv ret) /\ forall k, contour_loop fuel c front edge prev rv ret = Ok (Some k) -> (length ret <= length k)%nat /\ exists l', path_of k l'.
Proof.
  induction fuel as [|fuel IH]; intros front edge prev rv ret l e0 PA OR (u & v & EE & D & N); cbn [contour_loop].
  - split; [discriminate|]. intros k E. injection E as <-. split; [lia|]. exists (l ++ [e0]). exact PA.
  - destruct (Nat.eqb edge front). { split; [discriminate|]. intros k E. injection E as <-. split; [lia|]. exists (l ++ [e0]). exact PA. }
    unfold oriented in OR. cbn [fst snd] in OR. destruct (nth_error es prev) as [[x y]|] eqn:EP; [|discriminate].
    assert (E0 : e0 = if rv then (y, x) else (x, y)) by (injection OR as <-; destruct rv; reflexivity).
    assert (EN : snd e0 = if rv then x else y) by (rewrite E0; destruct rv; reflexivity). rewrite EN in D, N.
    destruct (reverse_ok prev rv x y edge u v EP EE D N) as (r' & -> & O'). cbn [bindO]. rewrite <- EN in O'.
    set (e1 := (snd e0, if Nat.eqb (snd e0) u then v else u)) in *. assert (PA' : path_of (ret ++ [(edge, r')]) ((l ++ [e0]) ++ [e1])).
    { destruct PA as [P1 P2]. split; [rewrite map_app, P1; cbn [map]; rewrite O', (map_app Some (l ++ [e0]) [e1]); reflexivity|]. apply chained_snoc; [exact P2|reflexivity]. }
    assert (ST : forall nx, next_edge c edge r' = Ok (Some nx) -> exists u v, nth_error es nx = Some (u, v) /\ (snd e1 = u \/ snd e1 = v) /\ ~ (snd e1 = u /\ snd e1 = v)).
    { intros nx E. destruct (next_edge_sound _ _ _ E) as (x' & y' & u' & v' & Q1 & Q2 & Q3). exists u', v'. split; [exact Q2|]. unfold oriented in O'. cbn [fst snd] in O'. rewrite EE in O'. rewrite EE in Q1. injection Q1 as -> ->.
      cbv zeta in Q3. assert (X : snd e1 = if r' then x' else y'). { injection O' as O'. rewrite <- O'. destruct r'; reflexivity. } rewrite X. exact Q3. }
    split.
    + apply fine_bindE; [apply next_edge_fine|]. intros nx E. apply (IH front nx edge r' _ (l ++ [e0]) e1 PA' O' (ST nx E)).
    + intros k H. unfold bindE in H. destruct (next_edge c edge r') as [[nx|]| |] eqn:E; try discriminate. cbn [bindO] in H.
      destruct (IH front nx edge r' _ (l ++ [e0]) e1 PA' O' (ST nx eq_refl)) as [_ K]. destruct (K k H) as [K1 K2]. split; [|exact K2]. rewrite app_length in K1. cbn in K1. lia.
Qed.
Lemma chained_rev : forall l, chained l -> chained (rev (map swapn l)).
Proof.
  induction l as [|e l IH]; intros H; [exact I|]. destruct l as [|f l]; [exact I|]. destruct H as [H1 H2]. specialize (IH H2). cbn [map rev] in *. apply chained_snoc; [exact IH|]. cbn. congruence.
Qed.
Lemma path_flip : forall k l, path_of k l -> path_of (flip_contour k) (rev (map swapn l)).
Proof.
  intros k l [P1 P2]. split; [|apply chained_rev; exact P2]. unfold flip_contour. rewrite !map_rev, !map_map. f_equal.
  revert l P1 P2. induction k as [|er k IH]; intros [|e l] P1 P2; try discriminate; [reflexivity|]. cbn [map] in *. injection P1 as E1 E2. pose proof (oriented_flip es er e E1) as Q. unfold flipb in Q. cbv beta. rewrite Q. f_equal.
  apply IH; [exact E2|]. destruct l; [exact I|apply P2].
Qed.
Lemma turn_fine : forall AB k, fine (first_turn c AB k) /\ forall z, first_turn c AB k = Ok z -> k <> [].
Proof.
  intros AB. assert (EV : forall er, fine (edge_vector c er)).
  { intros er. unfold edge_vector. apply fine_bind; [apply fine_at_throw|]. intros e E. apply at_throw_inv in E. destruct (rd_bounds c RD _ (nth_error_In _ _ E)).
    apply fine_bind; [apply fine_at_ub; destruct (snd er); assumption|]. intros p _. apply fine_bind; [apply fine_at_ub; destruct (snd er); assumption|]. discriminate. }
  induction k as [|er k [IH _]]; [split; discriminate|]. split; [|discriminate]. cbn [first_turn]. apply fine_bind; [apply EV|]. intros CD _. destruct k; [discriminate|]. destruct (Rltb _ _); [exact IH|discriminate].
Qed.
Lemma contour_from_path : forall e, (e < length es)%nat -> fine (contour_from c e) /\ forall k, contour_from c e = Ok k -> exists l, path_of k l.
Proof.
  intros e L. destruct (nth_error es e) as [[x y]|] eqn:EE; [|apply nth_error_None in EE; lia]. unfold contour_from.
  assert (P0 : path_of [(e, false)] ([] ++ [(x, y)])) by (split; [cbn; unfold oriented; cbn; rewrite EE; reflexivity|exact I]).
  assert (O0 : oriented es (e, false) = Some (x, y)) by (unfold oriented; cbn; rewrite EE; reflexivity).
  assert (ST : forall nx, next_edge c e false = Ok (Some nx) -> exists u v, nth_error es nx = Some (u, v) /\ (y = u \/ y = v) /\ ~ (y = u /\ y = v)).
  { intros nx E. destruct (next_edge_sound _ _ _ E) as (x' & y' & u' & v' & Q1 & Q2 & Q3). exists u', v'. rewrite EE in Q1. injection Q1 as -> ->. auto. }
  assert (FD : forall k, k <> [] -> fine (direct_orientation c k)).
  { intros [|er k] H; [congruence|]. unfold direct_orientation. apply fine_bind.
    - unfold edge_vector. cbn [fst snd]. apply fine_bind; [apply fine_at_throw|]. intros e' E. apply at_throw_inv in E. destruct (rd_bounds c RD _ (nth_error_In _ _ E)).
      apply fine_bind; [apply fine_at_ub; assumption|]. intros p _. apply fine_bind; [apply fine_at_ub; assumption|]. discriminate.
    - intros AB _. apply fine_bind; [apply turn_fine|]. discriminate. }
  split.
  - apply fine_bind.
    + apply fine_bindE; [apply next_edge_fine|]. intros nx E. apply (loop_path _ _ _ _ _ _ [] (x, y) P0 O0 (ST nx E)).
    + intros [ret|] E; [|discriminate]. apply fine_bind; [|discriminate]. apply FD. unfold bindE in E. destruct (next_edge c e false) as [[nx|]| |] eqn:EN; try discriminate. cbn [bindO] in E.
      destruct (loop_path (length (c_edges c) - 1) e nx e false _ [] (x, y) P0 O0 (ST nx eq_refl)) as [_ K]. destruct (K _ E) as [K1 _]. intros ->. cbn in K1. lia.
  - intros k H. unfold bindE in H. destruct (next_edge c e false) as [[nx|]| |] eqn:EN; try discriminate; [|injection H as <-; exists []; split; [reflexivity|exact I]]. cbn [bindO] in H.
    destruct (loop_path (length (c_edges c) - 1) e nx e false _ [] (x, y) P0 O0 (ST nx eq_refl)) as [_ K]. destruct (contour_loop _ _ _ _ _ _ _) as [[ret|]| |]; try discriminate; [|injection H as <-; exists []; split; [reflexivity|exact I]].
    cbn [bindO] in H. destruct (K ret eq_refl) as [_ [l PL]]. destruct (direct_orientation c ret) as [d| |]; try discriminate. cbn [bindO] in H. injection H as <-. destruct d; [exists l; exact PL|]. eexists. apply path_flip. exact PL.
Qed.
End Computer.

Lemma path_back : forall es idx k l, (forall i, In i idx -> (i < length es)%nat) -> map (oriented (chosen_edges es idx)) k = map Some l ->
  mapO_list (fun er => do i <- at_ub idx (fst er); Ok (i, snd er)) k = Ok (map (fun er => (nth (fst er) idx O, snd er)) k) /\
  incl (map fst (map (fun er => (nth (fst er) idx O, snd er)) k)) idx /\ directed es (map (fun er : nat * bool => (nth (fst er) idx O, snd er)) k) = map Some l.
Proof.
  intros es idx k l LT H. assert (B : forall er, In er k -> (fst er < length idx)%nat).
  { intros er I. apply (in_map (oriented (chosen_edges es idx))) in I. rewrite H in I. apply in_map_iff in I as (p & Q & _). unfold oriented in Q. destruct (nth_error (chosen_edges es idx) (fst er)) eqn:E; [|discriminate].
    assert (fst er < length (chosen_edges es idx))%nat by (apply nth_error_Some; congruence). unfold chosen_edges in *. rewrite map_length in *. assumption. }
  split; [|split].
  - apply mapO_ok. intros [i r] I. cbn [fst snd]. unfold at_ub. rewrite (nth_error_nth' idx O) by (apply (B _ I)). reflexivity.
  - intros x I. rewrite map_map in I. apply in_map_iff in I as (er & <- & I). cbn [fst]. apply nth_In, (B _ I).
  - unfold directed. rewrite map_map, <- H. apply map_ext_in. intros [p r] I. specialize (B _ I). cbn [fst snd] in *. unfold oriented. cbn [fst snd].
    rewrite (nth_chosen es idx p (nth p idx O)) by (try (apply nth_error_nth'; exact B); apply LT, nth_In, B). destruct (nth_error es (nth p idx O)) as [[a b]|]; [destruct r; reflexivity|reflexivity].
Qed.
(** C101: whatever the edges, the search of a contour reads nothing outside of the tables, ends with a contour or an error, and the edges of a contour follow each other. *)
Theorem contour_is_a_path_partial : forall nodes es idx, in_mesh nodes es -> idx <> [] -> (forall i, In i idx -> (i < length es)%nat) ->
  exists c, make_computer nodes es idx = Ok c /\ find_contour c <> UB /\
    forall k, find_contour c = Ok k -> incl (map fst k) idx /\ exists l, directed es k = map Some l /\ chained l.
Proof.
  intros nodes es idx IM NE LT. destruct (make_computer_ok nodes es idx IM NE LT) as (c & EC & RD & E1 & E2 & E3). exists c. split; [exact EC|].
  assert (NN : c_edges c <> []). { rewrite E1. unfold chosen_edges. destruct idx; [congruence|discriminate]. }
  destruct (extreme_edges_ok c RD NN) as (e1 & e2 & EX & L1 & L2). destruct (contour_from_path c RD e1 L1) as [F1 P1]. destruct (contour_from_path c RD e2 L2) as [F2 P2].
  unfold find_contour. rewrite EX. cbn [bindO]. split.
  - destruct (Nat.eqb _ 1); [discriminate|]. apply fine_bind; [exact F1|]. intros k1 Q1. apply fine_bind; [exact F2|]. intros k2 Q2. destruct (have_same_elements _ _); [|discriminate].
    destruct (P1 k1 Q1) as (l & H & _). rewrite E3. rewrite E1 in H. destruct (path_back es idx k1 l LT H) as (-> & _). discriminate.
  - intros k H. destruct (Nat.eqb _ 1); [injection H as <-; split; [intros x []|exists []; split; [reflexivity|exact I]]|].
    destruct (contour_from c e1) as [k1| |]; try discriminate. cbn [bindO] in H. destruct (contour_from c e2) as [k2| |]; try discriminate. cbn [bindO] in H.
    destruct (have_same_elements _ _); [|discriminate]. destruct (P1 k1 eq_refl) as (l & PL & CH). rewrite E3 in H. rewrite E1 in PL. destruct (path_back es idx k1 l LT PL) as (EM & Q1 & Q2). rewrite EM in H. injection H as <-.
    split; [exact Q1|]. exists l. auto.
Qed.
Print Assumptions contour_is_a_path_partial.

(** A triangle and a segment that ends on it: the contour is not closed *)
Lemma angles_total : forall c e r l, ready c -> (forall i, In i l -> two_edges (c_edges c) e i r <> None) -> exists an, angles_of c e r l = Ok (Some an).
Proof.
  intros c e r l RD. induction l as [|i l IH]; intros H; [exists []; reflexivity|]. cbn [angles_of]. destruct (two_edges (c_edges c) e i r) as [[[a b] d]|] eqn:E; [|exfalso; apply (H i (or_introl eq_refl) E)].
  assert (X : exists x, angle_between_edges c e i r = Ok (Some x)).
  { unfold angle_between_edges. rewrite E. destruct (two_edges_inv c e i r a b d E) as (x & y & u & v & E1 & E2 & -> & -> & D & _). destruct (rd_bounds c RD _ (nth_error_In _ _ E1)) as [B1 B2]. destruct (rd_bounds c RD _ (nth_error_In _ _ E2)) as [B3 B4]. cbn [fst snd] in *.
    destruct (at_ub_lt' _ _ B1) as (A & -> & _). cbn [bindO]. destruct (at_ub_lt' _ _ B2) as (B & -> & _). cbn [bindO]. assert (B5 : (d < length (c_mesh c))%nat) by (destruct D; subst; assumption).
    destruct (at_ub_lt' _ _ B5) as (C & -> & _). eexists. reflexivity. }
  destruct X as (x & ->). cbn [bindE bindO]. destruct IH as (an & ->); [intros; apply H; right; assumption|]. cbn [bindE bindO]. eexists. reflexivity.
Qed.
Lemma next_edge_total : forall c e r l, ready c -> edges_connected_to c r e = Some l -> l <> [] -> (e < length (c_edges c))%nat -> (forall i, In i l -> two_edges (c_edges c) e i r <> None) ->
  exists n, next_edge c e r = Ok (Some n) /\ In n l.
Proof.
  intros c e r l RD EC NE L H. unfold next_edge. rewrite EC. destruct l as [|c0 l]; [congruence|]. destruct (angles_total c e r _ RD H) as (an & EA).
  unfold at_throw at 1. destruct (nth_error (c_edges c) e) as [ab|] eqn:E; [|apply nth_error_None in E; lia]. cbn [bindO]. destruct (rd_bounds c RD _ (nth_error_In _ _ E)) as [B1 B2].
  assert (B : ((if r then fst ab else snd ab) < length (c_mesh c))%nat) by (destruct r; assumption). destruct (at_ub_lt' _ _ B) as (p & -> & _). cbn [bindO]. rewrite EA. cbn [bindE bindO].
  destruct (angles_some c e r _ _ EA) as [LA _]. destruct an as [|a an]; [discriminate LA|]. cbn [length seq combine].
  match goal with |- context [fold_left (choose_step ?s ?b) ?l ?x] => pose proof (choose_idx s b l x) as CH end.
  match goal with |- context [let (_, _) := ?f in _] => destruct f as [i z] eqn:EF end. specialize (CH (length (c0 :: l))). rewrite ?EF in CH. cbn [fst] in CH.
  assert (Hi : (i < length (c0 :: l))%nat).
  { apply CH; [cbn; lia|]. intros x Hx. destruct x as [j y]. apply in_combine_l, in_seq in Hx. cbn [fst]. cbn [length] in *. lia. }
  unfold at_throw. rewrite (nth_error_nth' (c0 :: l) O Hi). cbn [bindO]. eexists. split; [reflexivity|]. apply nth_In. exact Hi.
Qed.
Definition lasso_nodes : list vec3 := [V3 0 0 0; V3 1 0 0; V3 2 0 0; V3 2 (-1) 0].
Definition lasso_edges : list (nat * nat) := [(0, 1); (1, 2); (2, 3); (3, 1)]%nat.
Theorem contour_is_closed_refuted : exists nodes es idx c k l a b, in_mesh nodes es /\ (forall i, In i idx -> (i < length es)%nat) /\ make_computer nodes es idx = Ok c /\ find_contour c = Ok k /\
  directed es k = map Some l /\ hd_error l = Some a /\ hd_error (rev l) = Some b /\ snd b <> fst a.
Proof.
  exists lasso_nodes, lasso_edges, [0; 1; 2; 3]%nat.
  assert (IM : in_mesh lasso_nodes lasso_edges). { intros e H. cbn in H. repeat (destruct H as [<-|H]; [cbn; lia|]). destruct H. }
  assert (LT : forall i, In i [0; 1; 2; 3]%nat -> (i < length lasso_edges)%nat). { intros i H. cbn in H. repeat (destruct H as [<-|H]; [cbn; lia|]). destruct H. }
  destruct (make_computer_ok lasso_nodes lasso_edges [0; 1; 2; 3]%nat IM ltac:(discriminate) LT) as (c & EC & RD & E1 & E2 & E3). change (chosen_edges lasso_edges [0; 1; 2; 3]%nat) with lasso_edges in E1.
  assert (EX : extreme_edges c = Ok (Some (0, 0)%nat)).
  { destruct (extreme_edges_ok c RD) as (e & e' & EX & L1 & L2); [rewrite E1; discriminate|]. rewrite EX. unfold extreme_edges in EX. destruct (find_extreme_nodes c) as [n| |] eqn:EF; try discriminate.
    assert (PT : forall m p, at_ub (c_mesh c) m = Ok p -> 0 <= vx p /\ vy p <= 0).
    { intros m p Hp. rewrite E2 in Hp. assert (IP : In p lasso_nodes). { unfold at_ub in Hp. destruct (nth_error lasso_nodes m) eqn:EM; [|discriminate]. injection Hp as <-. apply (nth_error_In _ _ EM). }
      cbn in IP. repeat (destruct IP as [<-|IP]; [cbn; lra|]). destruct IP. }
    assert (FN : n = (0, 0)%nat).
    { unfold find_extreme_nodes in EF. rewrite (rd_nodes c RD), E1 in EF. change (extract_nodes lasso_edges) with [0; 1; 2; 3]%nat in EF. assert (E0 : at_ub (c_mesh c) 0 = Ok (V3 0 0 0)) by (rewrite E2; reflexivity).
      rewrite E0 in EF. cbn [bindO vx] in EF.
      match type of EF with context [foldO ?f ?l ?a] => assert (FO : forall l' r, foldO f l' (O, 0, O, 0) = Ok r -> r = (O, 0, O, 0)) end.
      { induction l' as [|i l' IH]; intros r E; [injection E as <-; reflexivity|]. cbn [foldO] in E. destruct (at_throw [0; 1; 2; 3]%nat i) as [m| |]; try discriminate. cbn [bindO] in E.
        destruct (at_ub (c_mesh c) m) as [p| |] eqn:EP; try discriminate. cbn [bindO] in E. destruct (PT _ _ EP) as [X Y]. rewrite (Rltb_F (vx p) 0 X), (Rltb_F 0 (vy p) Y) in E. apply IH, E. }
      destruct (foldO _ _ _) as [r| |] eqn:EO; try discriminate. rewrite (FO _ _ EO) in EF. cbn in EF. injection EF as <-. reflexivity. }
    assert (XE : forall x, extreme_edge c 0 = Ok (Some x) -> x = 0%nat).
    { intros x Hx. destruct (extreme_edge_in _ _ _ Hx) as [->|(l & EL & IL)]; [reflexivity|]. rewrite (rd_connected c RD), E1 in EL. change (nm_find 0 (node_to_connected_edges lasso_edges)) with (Some [0]%nat) in EL.
      injection EL as <-. destruct IL as [<-|[]]; reflexivity. }
    subst n. cbn [bindO fst snd] in EX. unfold bindE in EX. destruct (extreme_edge c 0) as [[x|]| |] eqn:EE; try discriminate. cbn [bindO] in EX. injection EX as <- <-. rewrite (XE x eq_refl). reflexivity. }
  assert (NXT : forall e r l, edges_connected_to c r e = Some l -> l <> [] -> (e < 4)%nat -> (forall i, In i l -> two_edges lasso_edges e i r <> None) -> exists n, next_edge c e r = Ok (Some n) /\ In n l).
  { intros e r l H1 H2 H3 H4. apply next_edge_total; [exact RD|exact H1|exact H2|rewrite E1; exact H3|rewrite E1; exact H4]. }
  assert (CO : forall r e, edges_connected_to c r e = match nth_error lasso_edges e with None => None | Some ab => match nm_find (if r : bool then fst ab else snd ab) (node_to_connected_edges lasso_edges) with None => None | Some l => Some (filter (fun i => negb (Nat.eqb i e)) l) end end).
  { intros r e. unfold edges_connected_to. rewrite (rd_connected c RD), E1. reflexivity. }
  assert (NR : forall e1 e2 r, need_to_reverse c e1 e2 r = (do a <- at_throw lasso_edges e1; do b <- at_throw lasso_edges e2; Ok (if r then negb (Nat.eqb (fst a) (fst b)) else negb (Nat.eqb (snd a) (fst b))))).
  { intros. unfold need_to_reverse. rewrite E1. reflexivity. }
  assert (K : exists ret, (ret = [(0, false); (1, false); (2, false); (3, false)]%nat \/ ret = [(0, false); (3, true); (2, true); (1, true)]%nat) /\
    bindE (next_edge c 0 false) (fun next => contour_loop (length (c_edges c) - 1) c 0 next 0 false [(0%nat, false)]) = Ok (Some ret)).
  { rewrite E1. cbn [length lasso_edges Nat.sub]. destruct (NXT 0%nat false [1; 3]%nat) as (n & EN & IN); [rewrite CO; reflexivity|discriminate|lia|intros i [<-|[<-|[]]]; discriminate|].
    assert (N2f : next_edge c 1 false = Ok (Some 2%nat)). { destruct (NXT 1%nat false [2]%nat) as (m & EM & [<-|[]]); [rewrite CO; reflexivity|discriminate|lia|intros i [<-|[]]; discriminate|exact EM]. }
    assert (N3f : next_edge c 2 false = Ok (Some 3%nat)). { destruct (NXT 2%nat false [3]%nat) as (m & EM & [<-|[]]); [rewrite CO; reflexivity|discriminate|lia|intros i [<-|[]]; discriminate|exact EM]. }
    assert (N3t : next_edge c 3 true = Ok (Some 2%nat)). { destruct (NXT 3%nat true [2]%nat) as (m & EM & [<-|[]]); [rewrite CO; reflexivity|discriminate|lia|intros i [<-|[]]; discriminate|exact EM]. }
    assert (N2t : next_edge c 2 true = Ok (Some 1%nat)). { destruct (NXT 2%nat true [1]%nat) as (m & EM & [<-|[]]); [rewrite CO; reflexivity|discriminate|lia|intros i [<-|[]]; discriminate|exact EM]. }
    assert (N4f : exists m, next_edge c 3 false = Ok (Some m)). { destruct (NXT 3%nat false [0; 1]%nat) as (m & EM & _); [rewrite CO; reflexivity|discriminate|lia|intros i [<-|[<-|[]]]; discriminate|exists m; exact EM]. }
    assert (N4t : exists m, next_edge c 1 true = Ok (Some m)). { destruct (NXT 1%nat true [0; 3]%nat) as (m & EM & _); [rewrite CO; reflexivity|discriminate|lia|intros i [<-|[<-|[]]]; discriminate|exists m; exact EM]. }
    destruct N4f as (m1 & N4f). destruct N4t as (m2 & N4t). rewrite EN. unfold bindE at 1. cbn [bindO]. destruct IN as [<-|[<-|[]]].
    - eexists. split; [left; reflexivity|]. cbn [contour_loop Nat.eqb]. rewrite !NR. cbn [at_throw lasso_edges nth_error bindO fst snd Nat.eqb negb]. rewrite N2f. unfold bindE. cbn [bindO Nat.eqb].
      rewrite !NR. cbn [at_throw lasso_edges nth_error bindO fst snd Nat.eqb negb]. rewrite N3f. cbn [bindO Nat.eqb]. rewrite !NR. cbn [at_throw lasso_edges nth_error bindO fst snd Nat.eqb negb]. rewrite N4f. reflexivity.
    - eexists. split; [right; reflexivity|]. cbn [contour_loop Nat.eqb]. rewrite !NR. cbn [at_throw lasso_edges nth_error bindO fst snd Nat.eqb negb]. rewrite N3t. unfold bindE. cbn [bindO Nat.eqb].
      rewrite !NR. cbn [at_throw lasso_edges nth_error bindO fst snd Nat.eqb negb]. rewrite N2t. cbn [bindO Nat.eqb]. rewrite !NR. cbn [at_throw lasso_edges nth_error bindO fst snd Nat.eqb negb]. rewrite N4t. reflexivity. }
  destruct K as (ret & RT & EK).
  assert (D : exists d, direct_orientation c ret = Ok d). { destruct RT as [-> | ->]; (apply orientation_ok; [exact RD| |discriminate]); intros x Hx; cbn in Hx; rewrite E1; repeat (destruct Hx as [<-|Hx]; [eexists; reflexivity|]); destruct Hx. }
  destruct D as (d & ED).
  assert (CF : contour_from c 0 = Ok (if d then ret else flip_contour ret)). { unfold contour_from. rewrite EK. cbn [bindO]. rewrite ED. reflexivity. }
  assert (HS : forall l, have_same_elements l l = true). { intros l. unfold have_same_elements. apply andb_true_iff. split; apply forallb_forall; intros x Hx; apply mem_In, Hx. }
  assert (FC : find_contour c = Ok (if d then ret else flip_contour ret)).
  { unfold find_contour. rewrite EX, E1. cbn [length lasso_edges Nat.eqb bindO]. rewrite CF. cbn [bindO]. rewrite HS, E3. destruct RT as [-> | ->], d; reflexivity. }
  destruct RT as [-> | ->], d.
  - exists c; eexists; exists [(0, 1); (1, 2); (2, 3); (3, 1)]%nat, (0, 1)%nat, (3, 1)%nat. split; [exact IM|]. split; [exact LT|]. split; [exact EC|]. split; [exact FC|]. split; [reflexivity|]. split; [reflexivity|]. split; [reflexivity|]. cbn. discriminate.
  - exists c; eexists; exists [(1, 3); (3, 2); (2, 1); (1, 0)]%nat, (1, 3)%nat, (1, 0)%nat. split; [exact IM|]. split; [exact LT|]. split; [exact EC|]. split; [exact FC|]. split; [reflexivity|]. split; [reflexivity|]. split; [reflexivity|]. cbn. discriminate.
  - exists c; eexists; exists [(0, 1); (1, 3); (3, 2); (2, 1)]%nat, (0, 1)%nat, (2, 1)%nat. split; [exact IM|]. split; [exact LT|]. split; [exact EC|]. split; [exact FC|]. split; [reflexivity|]. split; [reflexivity|]. split; [reflexivity|]. cbn. discriminate.
  - exists c; eexists; exists [(1, 2); (2, 3); (3, 1); (1, 0)]%nat, (1, 2)%nat, (1, 0)%nat. split; [exact IM|]. split; [exact LT|]. split; [exact EC|]. split; [exact FC|]. split; [reflexivity|]. split; [reflexivity|]. split; [reflexivity|]. cbn. discriminate.
Qed.
Print Assumptions contour_is_closed_refuted.
