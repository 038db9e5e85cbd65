(** Proofs about the graph part of the closing facets: tables of nodes and connected components. *)
From Coq Require Import Reals List Bool Arith Lia Permutation Sorted Relations.
From Verif Require Import Common Geometry Mesh_Model Mesh_Spec Closing_Model Closing_Spec.
Import ListNotations.
Open Scope nat_scope.

Lemma mem_In : forall x l, mem x l = true <-> In x l.
Proof. intros x l. unfold mem. rewrite existsb_exists. split; [intros (y & H & E); apply Nat.eqb_eq in E; subst; exact H|intros H; exists x; split; [exact H|apply Nat.eqb_refl]]. Qed.
Lemma mem_not : forall x l, mem x l = false <-> ~ In x l.
Proof. intros x l. rewrite <- mem_In. destruct (mem x l); split; congruence. Qed.
Lemma mapO_ok : forall {A B} (f : A -> outcome B) (g : A -> B) l, (forall a, In a l -> f a = Ok (g a)) -> mapO_list f l = Ok (map g l).
Proof.
  intros A B f g l. induction l as [|a l IH]; intros H; [reflexivity|]. cbn [mapO_list map]. rewrite (H a) by (left; reflexivity). cbn [bindO].
  rewrite IH by (intros; apply H; right; assumption). reflexivity.
Qed.
Lemma mapO_inv : forall {A B} (f : A -> outcome B) l r, mapO_list f l = Ok r -> Forall2 (fun a b => f a = Ok b) l r.
Proof.
  intros A B f l. induction l as [|a l IH]; intros r H; [injection H as <-; constructor|]. cbn [mapO_list] in H.
  destruct (f a) as [b| |] eqn:E; try discriminate H. cbn [bindO] in H. destruct (mapO_list f l) as [r'| |] eqn:E'; try discriminate H. injection H as <-.
  constructor; auto.
Qed.

(** ** Increasing lists *)
Definition increasing (l : list nat) : Prop := StronglySorted lt l.
Lemma increasing_cons : forall x l, increasing (x :: l) <-> increasing l /\ forall y, In y l -> x < y.
Proof.
  intros x l. split.
  - intros H. inversion H as [|? ? S F]; subst. split; [exact S|]. rewrite Forall_forall in F. exact F.
  - intros [S F]. constructor; [exact S|]. apply Forall_forall. exact F.
Qed.
Lemma increasing_ext : forall l l', increasing l -> increasing l' -> (forall x, In x l <-> In x l') -> l = l'.
Proof.
  induction l as [|x l IH]; intros l' S S' H.
  - destruct l' as [|y l']; [reflexivity|]. exfalso. destruct (proj2 (H y) (or_introl eq_refl)).
  - destruct l' as [|y l']; [exfalso; destruct (proj1 (H x) (or_introl eq_refl))|].
    apply increasing_cons in S as [S F]. apply increasing_cons in S' as [S' F'].
    assert (x = y).
    { destruct (proj1 (H x) (or_introl eq_refl)) as [E|E]; [congruence|]. destruct (proj2 (H y) (or_introl eq_refl)) as [E'|E']; [congruence|].
      specialize (F _ E'). specialize (F' _ E). lia. }
    subst y. f_equal. apply IH; [exact S|exact S'|]. intros z. specialize (H z). split; intros Hz.
    + destruct (proj1 H (or_intror Hz)) as [->|]; [|assumption]. specialize (F _ Hz). lia.
    + destruct (proj2 H (or_intror Hz)) as [->|]; [|assumption]. specialize (F' _ Hz). lia.
Qed.
Lemma set_insert_In : forall x y l, In y (set_insert x l) <-> y = x \/ In y l.
Proof.
  intros x y l. induction l as [|z l IH]; cbn [set_insert In]; [intuition congruence|].
  destruct (x <? z) eqn:A; [cbn [In]; intuition congruence|]. destruct (x =? z) eqn:B; [apply Nat.eqb_eq in B; subst; cbn [In]; intuition congruence|].
  cbn [In]. rewrite IH. intuition congruence.
Qed.
Lemma set_insert_increasing : forall x l, increasing l -> increasing (set_insert x l).
Proof.
  intros x l. induction l as [|z l IH]; intros S; cbn [set_insert]; [apply increasing_cons; split; [constructor|intros y []]|].
  destruct (x <? z) eqn:A.
  - apply Nat.ltb_lt in A. apply increasing_cons. split; [exact S|]. apply increasing_cons in S as [S F]. intros y [<-|Hy]; [exact A|]. specialize (F y Hy). lia.
  - apply Nat.ltb_ge in A. destruct (x =? z) eqn:B; [exact S|]. apply Nat.eqb_neq in B. apply increasing_cons in S as [S F]. apply increasing_cons. split; [apply IH; exact S|].
    intros y Hy. apply set_insert_In in Hy as [->|Hy]; [lia|apply F; exact Hy].
Qed.
Lemma fold_insert : forall add s, increasing s -> let r := fold_left (fun s i => set_insert i s) add s in increasing r /\ forall y, In y r <-> In y add \/ In y s.
Proof.
  induction add as [|x add IH]; intros s S; [cbn; intuition|]. cbn [fold_left]. destruct (IH (set_insert x s) (set_insert_increasing x s S)) as [A B].
  split; [exact A|]. intros y. rewrite B. rewrite set_insert_In. cbn [In]. intuition congruence.
Qed.
Lemma increasing_seq : forall n a, increasing (seq a n).
Proof. induction n as [|n IH]; intros a; [constructor|]. cbn [seq]. apply increasing_cons. split; [apply IH|]. intros y H. apply in_seq in H. lia. Qed.
Lemma increasing_filter : forall f l, increasing l -> increasing (filter f l).
Proof.
  intros f l. induction l as [|x l IH]; intros S; [constructor|]. apply increasing_cons in S as [S F]. cbn [filter]. destruct (f x); [|auto].
  apply increasing_cons. split; [auto|]. intros y H. apply filter_In in H. apply F. apply H.
Qed.
Lemma increasing_NoDup : forall l, increasing l -> NoDup l.
Proof. induction l as [|x l IH]; intros S; [constructor|]. apply increasing_cons in S as [S F]. constructor; [|auto]. intros H. specialize (F _ H). lia. Qed.

(** ** node_to_connected_edges *)
Definition edges_of (n : nat) (es : edge_list) : list nat :=
  filter (fun i => match nth_error es i with Some e => (fst e =? n) || (snd e =? n) | None => false end) (seq 0 (length es)).
Definition looked (n : nat) (m : node_map) : list nat := match nm_find n m with Some l => l | None => [] end.
Lemma nm_insert_find : forall n i m k, nm_find k (nm_insert n i m) = if n =? k then Some (set_insert i (looked n m)) else nm_find k m.
Proof.
  intros n i m k. unfold looked. induction m as [|[a s] m IH]; cbn [nm_insert nm_find].
  - destruct (n =? k); reflexivity.
  - destruct (a =? n) eqn:E; cbn [nm_find].
    + apply Nat.eqb_eq in E. subst a. destruct (n =? k); reflexivity.
    + rewrite IH. destruct (a =? k) eqn:F; [|reflexivity]. apply Nat.eqb_eq in F. subst a. rewrite Nat.eqb_sym in E. rewrite E. reflexivity.
Qed.
Lemma connected_from_spec : forall es i m, (forall n l, nm_find n m = Some l -> l <> [] /\ increasing l) ->
  forall n, let r := nm_find n (connected_from i es m) in
  (forall l, r = Some l -> l <> [] /\ increasing l) /\
  (forall j, In j (match r with Some l => l | None => [] end) <-> In j (looked n m) \/ exists k e, j = i + k /\ nth_error es k = Some e /\ (fst e = n \/ snd e = n)).
Proof.
  induction es as [|e es IH]; intros i m M n; cbn [connected_from].
  - cbn. split; [apply M|]. intros j. unfold looked. split; [auto|]. intros [H|(k & e & _ & H & _)]; [exact H|destruct k; discriminate H].
  - assert (SS : forall k, increasing (looked k m)). { intros k. unfold looked. destruct (nm_find k m) as [l|] eqn:E; [apply (M _ _ E)|constructor]. }
    assert (NE : forall x l, set_insert x l <> []). { intros x [|y l]; cbn [set_insert]; [discriminate|]. destruct (x <? y); [discriminate|]. destruct (x =? y); discriminate. }
    assert (M1 : forall k l, nm_find k (nm_insert (fst e) i m) = Some l -> l <> [] /\ increasing l).
    { intros k l. rewrite nm_insert_find. destruct (fst e =? k); [|apply M]. intros H. injection H as <-. split; [apply NE|apply set_insert_increasing; apply SS]. }
    assert (S1 : forall k, increasing (looked k (nm_insert (fst e) i m))). { intros k. unfold looked. destruct (nm_find k _) as [l|] eqn:E; [apply (M1 _ _ E)|constructor]. }
    assert (M2 : forall k l, nm_find k (nm_insert (snd e) i (nm_insert (fst e) i m)) = Some l -> l <> [] /\ increasing l).
    { intros k l. rewrite nm_insert_find. destruct (snd e =? k); [|apply M1]. intros H. injection H as <-. split; [apply NE|apply set_insert_increasing; apply S1]. }
    destruct (IH (S i) _ M2 n) as [A B]. split; [exact A|]. intros j. rewrite B.
    assert (L : forall k j, In j (looked k (nm_insert (snd e) i (nm_insert (fst e) i m))) <-> In j (looked k m) \/ (j = i /\ (fst e = k \/ snd e = k))).
    { clear. intros k j. assert (L1 : forall k j, In j (looked k (nm_insert (fst e) i m)) <-> In j (looked k m) \/ (j = i /\ fst e = k)).
      { clear. intros k j. unfold looked at 1. rewrite nm_insert_find. destruct (fst e =? k) eqn:E; [apply Nat.eqb_eq in E; subst k; rewrite set_insert_In; intuition|].
        apply Nat.eqb_neq in E. fold (looked k m). intuition. }
      unfold looked at 1. rewrite nm_insert_find. destruct (snd e =? k) eqn:E.
      - apply Nat.eqb_eq in E. subst k. rewrite set_insert_In, L1. intuition.
      - apply Nat.eqb_neq in E. fold (looked k (nm_insert (fst e) i m)). rewrite L1. intuition. }
    rewrite L. split.
    + intros [[H|[-> H]]|(k & f & -> & H1 & H2)]; [left; exact H|right; exists 0, e; rewrite Nat.add_0_r; auto|right; exists (S k), f; repeat split; auto; lia].
    + intros [H|([|k] & f & -> & H1 & H2)]; [left; left; exact H| |].
      * injection H1 as <-. left. right. rewrite Nat.add_0_r. auto.
      * right. exists k, f. repeat split; auto. lia.
Qed.
Lemma edges_of_In : forall n es j, In j (edges_of n es) <-> exists e, nth_error es j = Some e /\ (fst e = n \/ snd e = n).
Proof.
  intros n es j. unfold edges_of. rewrite filter_In, in_seq. split.
  - intros [L H]. destruct (nth_error es j) as [e|]; [|discriminate H]. exists e. split; [reflexivity|]. apply orb_true_iff in H as [H|H]; apply Nat.eqb_eq in H; auto.
  - intros (e & H & E). split; [split; [lia|]; cbn; apply nth_error_Some; congruence|]. rewrite H. apply orb_true_iff. destruct E as [E|E]; [left|right]; apply Nat.eqb_eq; exact E.
Qed.
Lemma connected_spec : forall es n, nm_find n (node_to_connected_edges es) = match edges_of n es with [] => None | l => Some l end.
Proof.
  intros es n. unfold node_to_connected_edges. 
  assert (Z : forall n l, nm_find n ([] : node_map) = Some l -> l <> [] /\ increasing l) by (intros k l H; discriminate H).
  destruct (connected_from_spec es 0 [] Z n) as [A B].
  set (r := nm_find n (connected_from 0 es [])) in *. assert (E : match r with Some l => l | None => [] end = edges_of n es).
  { apply increasing_ext.
    - destruct r as [l|]; [apply (A l eq_refl)|constructor].
    - apply increasing_filter, increasing_seq.
    - intros j. rewrite B, edges_of_In. cbn [looked nm_find]. split.
      + intros [[]|(k & e & -> & H)]. exists e. exact H.
      + intros (e & H). right. exists j, e. auto. }
  rewrite <- E. destruct r as [l|]; [|reflexivity]. destruct l; [|reflexivity]. exfalso. destruct (A [] eq_refl). auto.
Qed.
Lemma looked_spec : forall es n, looked n (node_to_connected_edges es) = edges_of n es.
Proof. intros es n. unfold looked. rewrite connected_spec. destruct (edges_of n es); reflexivity. Qed.

(** ** extract_nodes *)
Lemma add_node_spec : forall l n, NoDup l -> NoDup (add_node l n) /\ forall x, In x (add_node l n) <-> In x l \/ x = n.
Proof.
  intros l n D. unfold add_node. destruct (mem n l) eqn:E.
  - apply mem_In in E. split; [exact D|]. intros x. intuition congruence.
  - apply mem_not in E. split.
    + apply NoDup_rev in D. rewrite <- (rev_involutive (l ++ [n])), rev_app_distr. apply NoDup_rev. cbn. constructor; [rewrite <- in_rev; exact E|exact D].
    + intros x. rewrite in_app_iff. cbn [In]. intuition congruence.
Qed.
Lemma extract_nodes_spec : forall es, NoDup (extract_nodes es) /\ forall x, In x (extract_nodes es) <-> exists e, In e es /\ (fst e = x \/ snd e = x).
Proof.
  assert (G : forall es l, NoDup l -> let r := fold_left (fun ret e => add_node (add_node ret (fst e)) (snd e)) es l in NoDup r /\ forall x, In x r <-> In x l \/ exists e : nat * nat, In e es /\ (fst e = x \/ snd e = x)).
  { induction es as [|e es IH]; intros l D; cbn [fold_left].
    - split; [exact D|]. intros x. split; [auto|]. intros [H|(e & [] & _)]. exact H.
    - destruct (add_node_spec l (fst e) D) as [D1 I1]. destruct (add_node_spec _ (snd e) D1) as [D2 I2]. destruct (IH _ D2) as [A B]. split; [exact A|].
      intros x. rewrite B, I2, I1. cbn [In]. split.
      + intros [[[H|H]|H]|(f & H & H')]; [auto|right; exists e; auto|right; exists e; auto|right; exists f; auto].
      + intros [H|(f & [<-|H] & H')]; [auto|destruct H' as [<-|<-]; auto|right; exists f; auto]. }
  intros es. destruct (G es [] (NoDup_nil _)) as [A B]. split; [exact A|]. intros x. unfold extract_nodes. rewrite B. cbn [In]. intuition.
Qed.
Lemma rank_nth : forall x l, In x l -> nth_error l (rank x l) = Some x.
Proof.
  intros x l. induction l as [|y l IH]; intros H; [destruct H|]. cbn [rank]. destruct (x =? y) eqn:E; [apply Nat.eqb_eq in E; subst; reflexivity|].
  apply Nat.eqb_neq in E. destruct H as [<-|H]; [congruence|]. apply IH. exact H.
Qed.
Lemma rank_lt : forall x l, In x l -> rank x l < length l.
Proof. intros x l H. apply nth_error_Some. rewrite rank_nth by exact H. discriminate. Qed.
Lemma rank_inj : forall x y l, In x l -> In y l -> rank x l = rank y l -> x = y.
Proof. intros x y l H H' E. pose proof (rank_nth x l H) as A. rewrite E, rank_nth in A by exact H'. congruence. Qed.
Lemma rank_of_nth : forall l i x, NoDup l -> nth_error l i = Some x -> rank x l = i.
Proof.
  induction l as [|y l IH]; intros i x D H; [destruct i; discriminate H|]. inversion D as [|? ? N D']; subst. cbn [rank]. destruct i as [|i]; [injection H as ->; rewrite Nat.eqb_refl; reflexivity|].
  cbn in H. destruct (x =? y) eqn:E; [apply Nat.eqb_eq in E; subst; exfalso; apply N; eapply nth_error_In; exact H|]. f_equal. apply IH; assumption.
Qed.

(** ** Connected components *)
(** Vertices joined by a path *)
Inductive joined (n : nat) (es : edge_list) : nat -> nat -> Prop :=
| j_refl : forall u, u < n -> joined n es u u
| j_edge : forall u v w, joined n es u v -> In (v, w) es \/ In (w, v) es -> joined n es u w.
Definition within (n : nat) (es : edge_list) : Prop := forall e, In e es -> fst e < n /\ snd e < n.
Lemma joined_lt : forall n es u v, within n es -> joined n es u v -> u < n /\ v < n.
Proof.
  intros n es u v W J. induction J as [u H|u v w J [IH1 IH2] H]; [auto|]. split; [exact IH1|]. destruct H as [H|H]; apply W in H; cbn in H; tauto.
Qed.
Lemma joined_trans : forall n es u v w, joined n es u v -> joined n es v w -> joined n es u w.
Proof. intros n es u v w A B. revert u A. induction B as [v H|v w x B IH H]; intros u A; [exact A|]. apply (j_edge n es u w x); [apply IH; exact A|exact H]. Qed.
Lemma joined_sym : forall n es u v, within n es -> joined n es u v -> joined n es v u.
Proof.
  intros n es u v W J. induction J as [u H|u v w J IH H]; [apply j_refl; exact H|].
  pose proof (joined_lt _ _ _ _ W J) as [_ Lv]. assert (Lw : w < n) by (destruct H as [H|H]; apply W in H; cbn in H; tauto).
  apply (joined_trans n es w v u); [|exact IH]. apply (j_edge n es w w v); [apply j_refl; exact Lw|tauto].
Qed.
Lemma joined_mono : forall n es es' u v, incl es es' -> joined n es u v -> joined n es' u v.
Proof. intros n es es' u v S J. induction J as [u H|u v w J IH H]; [apply j_refl; exact H|]. apply (j_edge n es' u v w); [exact IH|]. destruct H as [H|H]; [left|right]; apply S; exact H. Qed.
Lemma joined_add : forall n es a b u v, within n (es ++ [(a, b)]) -> joined n (es ++ [(a, b)]) u v ->
  joined n es u v \/ (joined n es u a /\ joined n es b v) \/ (joined n es u b /\ joined n es a v).
Proof.
  intros n es a b u v W J. assert (W' : within n es) by (intros e H; apply W; apply in_app_iff; auto).
  destruct (W (a, b)) as [La Lb]; [apply in_app_iff; right; left; reflexivity|]. cbn in La, Lb.
  induction J as [u H|u v w J IH H]; [left; apply j_refl; exact H|].
  assert (H' : (In (v, w) es \/ In (w, v) es) \/ (v = a /\ w = b) \/ (v = b /\ w = a)).
  { destruct H as [H|H]; apply in_app_iff in H as [H|[H|[]]]; try (left; tauto); injection H as <- <-; tauto. }
  destruct H' as [E|[[-> ->]|[-> ->]]].
  - destruct IH as [IH|[[I1 I2]|[I1 I2]]].
    + left. apply (j_edge n es u v w); assumption.
    + right; left. split; [exact I1|apply (j_edge n es b v w); assumption].
    + right; right. split; [exact I1|apply (j_edge n es a v w); assumption].
  - destruct IH as [IH|[[I1 I2]|[I1 I2]]].
    + right; left. split; [exact IH|apply j_refl; exact Lb].
    + right; left. split; [exact I1|apply j_refl; exact Lb].
    + left. exact I1.
  - destruct IH as [IH|[[I1 I2]|[I1 I2]]].
    + right; right. split; [exact IH|apply j_refl; exact La].
    + left. exact I1.
    + right; right. split; [exact I1|apply j_refl; exact La].
Qed.

Record labelled (n : nat) (es : edge_list) (lab : list nat) : Prop := {
  lb_len : length lab = n;
  lb_root : forall u, u < n -> nth u lab 0 < n /\ nth (nth u lab 0) lab 0 = nth u lab 0;
  lb_iff : forall u v, u < n -> v < n -> (nth u lab 0 = nth v lab 0 <-> joined n es u v) }.
Lemma nth_relabel : forall lab e u, u < length lab -> nth u (relabel lab e) 0 =
  (let a := nth (fst e) lab 0 in let b := nth (snd e) lab 0 in if nth u lab 0 =? Nat.max a b then Nat.min a b else nth u lab 0).
Proof.
  intros lab e u H. unfold relabel. cbv zeta. set (f := fun l : nat => if l =? _ then _ else l).
  rewrite (nth_indep _ 0 (f 0)) by (rewrite map_length; exact H). rewrite map_nth. reflexivity.
Qed.
Lemma relabel_labelled : forall n es lab a b, within n (es ++ [(a, b)]) -> labelled n es lab -> labelled n (es ++ [(a, b)]) (relabel lab (a, b)).
Proof.
  intros n es lab a b W [L RT I]. destruct (W (a, b)) as [La Lb]; [apply in_app_iff; right; left; reflexivity|]. cbn [fst snd] in La, Lb.
  assert (W' : within n es) by (intros e H; apply W; apply in_app_iff; auto).
  set (la := nth a lab 0). set (lb := nth b lab 0).
  assert (N : forall u, u < n -> nth u (relabel lab (a, b)) 0 = if nth u lab 0 =? Nat.max la lb then Nat.min la lb else nth u lab 0).
  { intros u H. rewrite nth_relabel by lia. reflexivity. }
  assert (Rm : Nat.min la lb < n /\ nth (Nat.min la lb) lab 0 = Nat.min la lb).
  { destruct (Nat.min_spec la lb) as [[_ ->]|[_ ->]]; apply RT; assumption. }
  constructor.
  - unfold relabel. rewrite map_length. exact L.
  - intros u Hu. rewrite (N u Hu). destruct (RT u Hu) as [B1 B2]. destruct (nth u lab 0 =? Nat.max la lb) eqn:E.
    + destruct Rm as [R1 R2]. split; [exact R1|]. rewrite (N _ R1), R2. destruct (Nat.min la lb =? Nat.max la lb); reflexivity.
    + split; [exact B1|]. rewrite (N _ B1), B2, E. reflexivity.
  - intros u v Hu Hv. rewrite (N u Hu), (N v Hv).
    assert (K : (if nth u lab 0 =? Nat.max la lb then Nat.min la lb else nth u lab 0) = (if nth v lab 0 =? Nat.max la lb then Nat.min la lb else nth v lab 0) <->
      nth u lab 0 = nth v lab 0 \/ (nth u lab 0 = la /\ lb = nth v lab 0) \/ (nth u lab 0 = lb /\ la = nth v lab 0)).
    { clear - u. clearbody la lb. generalize (nth u lab 0) (nth v lab 0). intros x y.
      destruct (Nat.eqb_spec x (Nat.max la lb)); destruct (Nat.eqb_spec y (Nat.max la lb)); lia. }
    rewrite K. unfold la, lb. rewrite (I u v), (I u a), (I b v), (I u b), (I a v) by assumption. split.
    + assert (IN : incl es (es ++ [(a, b)])) by (intros x Hx; apply in_app_iff; auto).
      assert (AB : forall x y z, joined n (es ++ [(a, b)]) x y -> (y, z) = (a, b) \/ (z, y) = (a, b) -> joined n (es ++ [(a, b)]) x z).
      { intros x y z J H. apply (j_edge _ _ x y z J). destruct H as [H|H]; [left|right]; apply in_app_iff; right; left; symmetry; exact H. }
      intros [H|[[H1 H2]|[H1 H2]]]; [apply (joined_mono n es); assumption| |]; (eapply joined_trans; [|eapply joined_mono; [exact IN|exact H2]]).
      * apply (AB u a b); [eapply joined_mono; eassumption|auto].
      * apply (AB u b a); [eapply joined_mono; eassumption|auto].
    + apply joined_add. exact W.
Qed.
Lemma nth_error_app1' : forall {A} (l l' : list A) i, i < length l -> nth_error (l ++ l') i = nth_error l i.
Proof. intros. apply nth_error_app1. assumption. Qed.
Lemma labels_labelled : forall n es, within n es -> labelled n es (labels n es).
Proof.
  intros n es. unfold labels. induction es as [|e es IH] using rev_ind; intros W.
  - cbn. constructor; [apply seq_length| |].
    + intros u H. rewrite !seq_nth by (rewrite ?seq_nth; lia). lia.
    + intros u v Hu Hv. rewrite !seq_nth by assumption. cbn [Nat.add]. split; [intros ->; apply j_refl; exact Hv|]. intros J.
      inversion J as [|? ? ? J' H]; [reflexivity|]. destruct H as [[]|[]].
  - rewrite fold_left_app. cbn [fold_left]. destruct e as [a b]. apply relabel_labelled; [exact W|]. apply IH. intros e H. apply W. apply in_app_iff. auto.
Qed.

Lemma roots_In : forall lab v, In v (roots lab) <-> v < length lab /\ nth v lab 0 = v.
Proof. intros lab v. unfold roots. rewrite filter_In, in_seq, Nat.eqb_eq. cbn. intuition lia. Qed.
Lemma roots_NoDup : forall lab, NoDup (roots lab).
Proof. intros lab. apply increasing_NoDup, increasing_filter, increasing_seq. Qed.
Lemma boost_spec : forall n es, within n es -> let (nb, comp) := boost_components n es in
  length comp = n /\ (forall u, u < n -> nth u comp 0 < nb) /\
  (forall u v, u < n -> v < n -> (nth u comp 0 = nth v comp 0 <-> joined n es u v)) /\
  (forall k, k < nb -> exists u, u < n /\ nth u comp 0 = k).
Proof.
  intros n es W. unfold boost_components. destruct (labels_labelled n es W) as [L RT I]. set (lab := labels n es) in *.
  assert (N : forall u, u < n -> nth u (map (fun l => rank l (roots lab)) lab) 0 = rank (nth u lab 0) (roots lab)).
  { intros u H. rewrite (nth_indep _ 0 ((fun l => rank l (roots lab)) 0)) by (rewrite map_length; lia). rewrite (map_nth (fun l => rank l (roots lab))). reflexivity. }
  assert (RI : forall u, u < n -> In (nth u lab 0) (roots lab)). { intros u H. apply roots_In. destruct (RT u H). rewrite L. auto. }
  repeat split.
  - rewrite map_length. exact L.
  - intros u H. rewrite N by exact H. apply rank_lt, RI, H.
  - rewrite !N by assumption. intros E. apply I; [assumption|assumption|]. eapply rank_inj; [apply RI; assumption|apply RI; assumption|exact E].
  - rewrite !N by assumption. intros E. apply I in E; [congruence|assumption|assumption].
  - intros k H. destruct (nth_error (roots lab) k) as [r|] eqn:E; [|apply nth_error_None in E; lia].
    pose proof (nth_error_In _ _ E) as R'. apply roots_In in R' as [R1 R2]. exists r. rewrite L in R1. split; [exact R1|]. rewrite N, R2 by exact R1.
    apply rank_of_nth; [apply roots_NoDup|exact E].
Qed.
