(** The mesh builder. *)
From Coq Require Import Reals List Bool Arith Lra Lia.
From Verif Require Import Common Geometry Sim_Model Hull_Model Hull_Proofs Blocked_Model Blocked_Proofs Mesh_Model Mesh_Spec.
Import ListNotations.
Open Scope R_scope.

Lemma Rltb_dec : forall a b, (Rltb a b = true /\ a < b) \/ (Rltb a b = false /\ b <= a).
Proof. intros. unfold Rltb. destruct (Rlt_dec a b); [left | right]; split; auto; lra. Qed.
Lemma Reqb_dec : forall a b, (Reqb a b = true /\ a = b) \/ (Reqb a b = false /\ a <> b).
Proof. intros. unfold Reqb. destruct (Req_EM_T a b); auto. Qed.

Lemma vector3d_equiv : forall a b, negb (vector3d_lt a b) && negb (vector3d_lt b a) = true <-> a = b.
Proof.
  intros [a1 a2 a3] [b1 b2 b3]. unfold vector3d_lt. cbn [vx vy vz].
  destruct (Rltb_dec 0 (b1 - a1)) as [[E1 ?]|[E1 ?]]; destruct (Rltb_dec 0 (a1 - b1)) as [[E2 ?]|[E2 ?]];
  destruct (Reqb_dec a1 b1) as [[E3 ?]|[E3 ?]]; try (exfalso; lra);
  destruct (Reqb_dec b1 a1) as [[E4 ?]|[E4 ?]]; try (exfalso; lra);
  destruct (Rltb_dec 0 (b2 - a2)) as [[E5 ?]|[E5 ?]]; destruct (Rltb_dec 0 (a2 - b2)) as [[E6 ?]|[E6 ?]]; try (exfalso; lra);
  destruct (Reqb_dec a2 b2) as [[E7 ?]|[E7 ?]]; try (exfalso; lra); destruct (Reqb_dec b2 a2) as [[E8 ?]|[E8 ?]]; try (exfalso; lra);
  destruct (Rltb_dec 0 (b3 - a3)) as [[E9 ?]|[E9 ?]]; destruct (Rltb_dec 0 (a3 - b3)) as [[E0 ?]|[E0 ?]]; try (exfalso; lra);
  rewrite ?E1, ?E2, ?E3, ?E4, ?E5, ?E6, ?E7, ?E8, ?E9, ?E0;
  cbn; split; intros HH; try discriminate HH; try reflexivity; try (injection HH; intros; exfalso; lra); try (f_equal; lra).
Qed.
Lemma edge_equiv : forall a b, negb (edge_lt a b) && negb (edge_lt b a) = true <-> same_edge a b.
Proof.
  intros [a1 a2] [b1 b2]. unfold edge_lt, same_edge. cbn [fst snd].
  destruct (Nat.ltb_spec (Nat.min a1 a2) (Nat.min b1 b2)); destruct (Nat.ltb_spec (Nat.min b1 b2) (Nat.min a1 a2));
  destruct (Nat.eqb_spec (Nat.min a1 a2) (Nat.min b1 b2)); destruct (Nat.eqb_spec (Nat.min b1 b2) (Nat.min a1 a2));
  destruct (Nat.ltb_spec (Nat.max a1 a2) (Nat.max b1 b2)); destruct (Nat.ltb_spec (Nat.max b1 b2) (Nat.max a1 a2));
  cbn; (split; [intros E; try discriminate E | intros [E|E]; injection E as -> ->]); try reflexivity; try lia.
  all: try (exfalso; lia).
  all: (assert (C : ((a1 = b1 /\ a2 = b2) \/ (a1 = b2 /\ a2 = b1))%nat) by lia; destruct C as [[-> ->]|[-> ->]]; auto).
Qed.

Definition nodes_of (b : builder) : list vec3 := firstn (b_index b) (b_nodes b).
Record binv (b : builder) : Prop := {
  i_cap : (b_index b <= length (b_nodes b))%nat;
  i_nodup : NoDup (nodes_of b);
  i_xyz : forall p i, map_find vector3d_lt p (b_xyz b) = Some i <-> nth_error (nodes_of b) i = Some p;
  i_emap : forall e i, map_find edge_lt e (b_emap b) = Some i <-> exists e', nth_error (b_edges b) i = Some e' /\ same_edge e e';
  i_eindex : b_eindex b = length (b_edges b);
  i_fpe : length (b_fpe b) = length (b_edges b);
  i_once : forall i j a c, nth_error (b_edges b) i = Some a -> nth_error (b_edges b) j = Some c -> same_edge a c -> i = j
}.
(** [b'] extends [b]: nodes and edges are only added at the end. *)
Record bext (b b' : builder) : Prop := {
  x_cap : length (b_nodes b') = length (b_nodes b);
  x_nodes : exists l, nodes_of b' = nodes_of b ++ l;
  x_edges : exists l, b_edges b' = b_edges b ++ l;
  x_facets : b_facets b' = b_facets b;
  x_oef : b_oef b' = b_oef b
}.
Lemma bext_refl : forall b, bext b b.
Proof. intros. constructor; auto; exists []; rewrite app_nil_r; reflexivity. Qed.
Lemma bext_trans : forall a b c, bext a b -> bext b c -> bext a c.
Proof.
  intros a b c [A1 [l1 A2] [k1 A3] A4 A5] [B1 [l2 B2] [k2 B3] B4 B5]. constructor; try congruence.
  - exists (l1 ++ l2). rewrite B2, A2, app_assoc. reflexivity.
  - exists (k1 ++ k2). rewrite B3, A3, app_assoc. reflexivity.
Qed.
Lemma nth_error_mono : forall {A} (l k : list A) i x, nth_error l i = Some x -> nth_error (l ++ k) i = Some x.
Proof. intros. rewrite nth_error_app1; [assumption|]. apply nth_error_Some. congruence. Qed.
Lemma bext_node : forall b b' i p, bext b b' -> nth_error (nodes_of b) i = Some p -> nth_error (nodes_of b') i = Some p.
Proof. intros b b' i p [_ [l E] _ _ _] H. rewrite E. apply nth_error_mono. exact H. Qed.
Lemma bext_edge : forall b b' i p, bext b b' -> nth_error (b_edges b) i = Some p -> nth_error (b_edges b') i = Some p.
Proof. intros b b' i p [_ _ [l E] _ _] H. rewrite E. apply nth_error_mono. exact H. Qed.

Lemma same_edge_refl : forall e, same_edge e e. Proof. left. reflexivity. Qed.
Lemma same_edge_sym : forall a b, same_edge a b -> same_edge b a.
Proof. intros [a1 a2] [b1 b2] [E|E]; injection E as -> ->; [left | right]; reflexivity. Qed.
Lemma same_edge_trans : forall a b c, same_edge a b -> same_edge b c -> same_edge a c.
Proof. intros [a1 a2] [b1 b2] [c1 c2] [E|E] [F|F]; injection E as -> ->; injection F as -> ->; unfold same_edge; cbn; auto. Qed.

Lemma set_ub_ub : forall {A} (x : list A) i v, set_ub x i v = UB -> (length x <= i)%nat.
Proof.
  induction x as [|a x IH]; intros [|i] v H; cbn in *; try discriminate; try lia.
  destruct (set_ub x i v) eqn:E; try discriminate. apply IH in E. lia.
Qed.
Lemma set_ub_throw : forall {A} (x : list A) i v, set_ub x i v <> Throw.
Proof.
  induction x as [|a x IH]; intros [|i] v H; cbn in *; try discriminate.
  destruct (set_ub x i v) eqn:E; try discriminate. exact (IH _ _ E).
Qed.
Lemma set_ub_firstn : forall {A} (x : list A) i v x', set_ub x i v = Ok x' -> firstn (S i) x' = firstn i x ++ [v].
Proof.
  induction x as [|a x IH]; intros [|i] v x' H; cbn in H; try discriminate.
  - injection H as <-. reflexivity.
  - destruct (set_ub x i v) as [y| |] eqn:E; try discriminate. injection H as <-. apply IH in E.
    change (firstn (S (S i)) (a :: y)) with (a :: firstn (S i) y). rewrite E. reflexivity.
Qed.

Lemma build_one_point_spec : forall b p, binv b ->
  match build_one_point b p with
  | Ok (b', v) => binv b' /\ bext b b' /\ nth_error (nodes_of b') v = Some p /\ b_fpe b' = b_fpe b /\ b_edges b' = b_edges b /\
                  (forall q, In q (nodes_of b') <-> In q (nodes_of b) \/ q = p)
  | Throw => False
  | UB => ~ In p (nodes_of b) /\ b_index b = length (b_nodes b)
  end.
Proof.
  intros b p I. unfold build_one_point. destruct (map_find vector3d_lt p (b_xyz b)) as [i|] eqn:E.
  - unfold map_get. rewrite E. pose proof (proj1 (i_xyz _ I p i) E) as N.
    split; [exact I|]. split; [apply bext_refl|]. split; [exact N|]. split; [reflexivity|]. split; [reflexivity|].
    intros q. split; [auto|]. intros [H| ->]; [exact H | apply nth_error_In in N; exact N].
  - assert (NI : ~ In p (nodes_of b)).
    { intros H. apply In_nth_error in H as (i & H). apply (i_xyz _ I) in H. congruence. }
    destruct (set_ub (b_nodes b) (b_index b) p) as [n| |] eqn:Es; cbn [bindO].
    + pose proof (set_ub_firstn _ _ _ _ Es) as F. pose proof (set_ub_spec _ _ _ _ Es) as (L & _ & _).
      assert (Hi : (b_index b < length (b_nodes b))%nat).
      { destruct (Nat.lt_ge_cases (b_index b) (length (b_nodes b))) as [|G]; [assumption|]. exfalso.
        pose proof (f_equal (@length _) F) as FL. rewrite app_length, !firstn_length, L in FL. cbn [length] in FL. lia. }
      set (b' := mkB _ _ _ _ _ _ _ _ _). unfold map_get.
      assert (NO : nodes_of b' = nodes_of b ++ [p]) by (unfold nodes_of; exact F).
      assert (LN : length (nodes_of b) = b_index b) by (unfold nodes_of; rewrite firstn_length; lia).
      assert (FX : forall q i, map_find vector3d_lt q (b_xyz b') = Some i <-> nth_error (nodes_of b') i = Some q).
      { intros q i. unfold b'. cbn [b_xyz map_find]. fold b'. rewrite NO.
        destruct (negb (vector3d_lt q p) && negb (vector3d_lt p q)) eqn:Q.
        - apply vector3d_equiv in Q as ->. split.
          + intros H. injection H as <-. rewrite nth_error_app2 by lia. rewrite LN, Nat.sub_diag. reflexivity.
          + intros H. f_equal. destruct (Nat.lt_ge_cases i (b_index b)) as [G|G].
            * rewrite nth_error_app1 in H by lia. apply nth_error_In in H. contradiction.
            * rewrite nth_error_app2 in H by lia. destruct (i - length (nodes_of b))%nat as [|k] eqn:K; [lia|]. destruct k; discriminate H.
        - rewrite (i_xyz _ I). split; [apply nth_error_mono|].
          intros H. destruct (Nat.lt_ge_cases i (b_index b)) as [G|G].
          + rewrite nth_error_app1 in H by lia. exact H.
          + rewrite nth_error_app2 in H by lia. destruct (i - length (nodes_of b))%nat as [|k]; [|destruct k; discriminate H].
            injection H as ->. assert (T : negb (vector3d_lt q q) && negb (vector3d_lt q q) = true) by (apply vector3d_equiv; reflexivity). congruence. }
      assert (EV : map_find vector3d_lt p (b_xyz b') = Some (b_index b)).
      { apply FX. rewrite NO, nth_error_app2 by lia. rewrite LN, Nat.sub_diag. reflexivity. }
      rewrite EV. split; [|split; [|split; [|split; [|split]]]].
      * destruct I as [I1 I2 I3 I4 I5 I6 I7]. constructor; try assumption.
        { unfold b'. cbn [b_index b_nodes]. lia. }
        { rewrite NO. clear - I2 NI. induction (nodes_of b) as [|a l IH]; cbn in *; [constructor; [intros []|constructor]|].
          inversion I2; subst. constructor; [|apply IH; [assumption|intros H; apply NI; right; exact H]].
          rewrite in_app_iff. intros [H|[<-|[]]]; [contradiction|]. apply NI. left. reflexivity. }
      * constructor; try reflexivity; [unfold b'; cbn; exact L|exists [p]; exact NO|exists []; rewrite app_nil_r; reflexivity].
      * apply FX. exact EV.
      * reflexivity.
      * reflexivity.
      * intros q. rewrite NO, in_app_iff. cbn. split; [intros [H|[<-|[]]]; auto|intros [H| ->]; auto].
    + exact (set_ub_throw _ _ _ Es).
    + split; [exact NI|]. apply set_ub_ub in Es. destruct I. lia.
Qed.

Lemma build_one_edge_spec : forall b e b' i, binv b -> build_one_edge b e = (b', i) ->
  binv b' /\ bext b b' /\ (exists e', nth_error (b_edges b') i = Some e' /\ same_edge e e') /\ nodes_of b' = nodes_of b /\
  (forall k, nth k (b_fpe b') [] = nth k (b_fpe b) []) /\
  (forall k, (length (b_edges b) <= k)%nat -> (k < length (b_edges b'))%nat -> k = i).
Proof.
  intros b e b' i I E. unfold build_one_edge in E. destruct (map_find edge_lt e (b_emap b)) as [j|] eqn:M.
  - unfold map_get in E. rewrite M in E. injection E as <- <-. pose proof (proj1 (i_emap _ I e j) M) as N.
    split; [exact I|]. split; [apply bext_refl|]. split; [exact N|]. split; [reflexivity|]. split; [reflexivity|]. intros; lia.
  - unfold map_get in E. cbn [b_emap map_find] in E.
    assert (T : negb (edge_lt e e) && negb (edge_lt e e) = true) by (apply edge_equiv, same_edge_refl). rewrite T in E.
    assert (NE : forall k e', nth_error (b_edges b) k = Some e' -> ~ same_edge e e').
    { intros k e' N H. assert (X : map_find edge_lt e (b_emap b) = Some k) by (apply (i_emap _ I); eauto). congruence. }
    injection E as <- <-. destruct I as [I1 I2 I3 I4 I5 I6 I7].
    assert (NTH : forall k x, nth_error (b_edges b ++ [e]) k = Some x -> nth_error (b_edges b) k = Some x \/ (k = length (b_edges b) /\ x = e)).
    { intros k x H. destruct (Nat.lt_ge_cases k (length (b_edges b))) as [G|G].
      - rewrite nth_error_app1 in H by lia. auto.
      - rewrite nth_error_app2 in H by lia. destruct (k - length (b_edges b))%nat as [|q] eqn:K; [|destruct q; discriminate H].
        injection H as <-. right. split; [lia|reflexivity]. }
    assert (LAST : nth_error (b_edges b ++ [e]) (length (b_edges b)) = Some e) by (rewrite nth_error_app2, Nat.sub_diag by lia; reflexivity).
    split; [|split; [|split; [|split; [|split]]]].
    + constructor; cbn [b_edges b_fpe b_eindex b_emap b_xyz b_nodes b_index]; try assumption.
      * intros x k. cbn [map_find]. destruct (negb (edge_lt x e) && negb (edge_lt e x)) eqn:Q.
        { apply edge_equiv in Q. split.
          - intros H. injection H as <-. exists e. rewrite I5. split; [exact LAST|exact Q].
          - intros (e' & H & S'). f_equal. apply NTH in H as [H|[-> _]]; [|exact I5].
            exfalso. apply (NE _ _ H). apply (same_edge_trans _ x); [apply same_edge_sym; exact Q|exact S']. }
        { rewrite I4. split.
          - intros (e' & H & S'). exists e'. split; [apply nth_error_mono; exact H|exact S'].
          - intros (e' & H & S'). apply NTH in H as [H|[-> ->]]; [eauto|]. exfalso.
            apply edge_equiv in S'. congruence. }
      * rewrite app_length. cbn. lia.
      * rewrite !app_length. cbn. lia.
      * intros k l x y Hk Hl S'. apply NTH in Hk. apply NTH in Hl. destruct Hk as [Hk|[-> ->]], Hl as [Hl|[-> ->]]; eauto; exfalso.
        { apply (NE _ _ Hk). apply same_edge_sym. exact S'. }
        { apply (NE _ _ Hl). exact S'. }
    + constructor; try reflexivity; [exists []; rewrite app_nil_r; reflexivity|exists [e]; reflexivity].
    + exists e. cbn [b_edges]. rewrite I5. split; [exact LAST|apply same_edge_refl].
    + reflexivity.
    + intros k. cbn [b_fpe]. destruct (Nat.lt_ge_cases k (length (b_fpe b))) as [G|G].
      * rewrite app_nth1 by assumption. reflexivity.
      * rewrite app_nth2 by assumption. rewrite (nth_overflow (b_fpe b)) by assumption. destruct (k - length (b_fpe b))%nat as [|[|]]; reflexivity.
    + cbn [b_edges]. rewrite app_length. cbn. intros. lia.
Qed.

Lemma push_at_spec : forall l i x, (i < length l)%nat -> exists l', push_at l i x = Ok l' /\ length l' = length l /\
  forall k, nth k l' [] = if Nat.eqb k i then nth k l [] ++ [x] else nth k l [].
Proof.
  induction l as [|a l IH]; intros i x H; cbn [length] in H; [lia|]. destruct i as [|i]; cbn [push_at].
  - exists ((a ++ [x]) :: l). split; [reflexivity|]. split; [reflexivity|]. intros [|k]; reflexivity.
  - destruct (IH i x) as (l' & E & L & N); [lia|]. rewrite E. exists (a :: l'). split; [reflexivity|]. split; [cbn; lia|].
    intros [|k]; cbn [nth Nat.eqb]; [reflexivity|apply N].
Qed.

Lemma oriented_div2 : forall e r, Nat.div2 (oriented_id e r) = e.
Proof. intros e []; unfold oriented_id; [rewrite Nat.add_1_r; apply Nat.div2_succ_double|rewrite Nat.add_0_r; apply Nat.div2_double]. Qed.
Lemma oriented_odd : forall e r, Nat.odd (oriented_id e r) = r.
Proof. intros e []; unfold oriented_id; [rewrite Nat.add_1_r, Nat.odd_succ, Nat.even_mul|rewrite Nat.add_0_r, Nat.odd_mul]; reflexivity. Qed.
Lemma ends_mono : forall b b' o p, bext b b' -> ends (b_edges b) o = Some p -> ends (b_edges b') o = Some p.
Proof.
  intros b b' o p X H. unfold ends in *. destruct (nth_error (b_edges b) (Nat.div2 o)) as [[x y]|] eqn:E; [|discriminate].
  rewrite (bext_edge _ _ _ _ X E). exact H.
Qed.
Lemma ends_oriented : forall edges e x y v w, nth_error edges e = Some (x, y) -> same_edge (v, w) (x, y) -> ends edges (oriented_id e (Nat.eqb y v)) = Some (v, w).
Proof.
  intros edges e x y v w N S'. unfold ends. rewrite oriented_div2, oriented_odd, N.
  destruct S' as [S'|S']; injection S' as -> ->; [|rewrite Nat.eqb_refl; reflexivity].
  destruct (Nat.eqb_spec y x) as [->|]; reflexivity.
Qed.

Definition edge_joins (b : builder) (o : nat) (pq : vec3 * vec3) : Prop :=
  exists v w, ends (b_edges b) o = Some (v, w) /\ nth_error (nodes_of b) v = Some (fst pq) /\ nth_error (nodes_of b) w = Some (snd pq).
Lemma edge_joins_mono : forall b b' o pq, bext b b' -> edge_joins b o pq -> edge_joins b' o pq.
Proof.
  intros b b' o pq X (v & w & E & V & W). exists v, w. split; [exact (ends_mono _ _ _ _ X E)|].
  split; [exact (bext_node _ _ _ _ X V)|exact (bext_node _ _ _ _ X W)].
Qed.
Lemma Forall2_mono : forall {A B} (P Q : A -> B -> Prop) l k, (forall a b, P a b -> Q a b) -> Forall2 P l k -> Forall2 Q l k.
Proof. intros A B P Q l k H F. induction F; constructor; auto. Qed.
Lemma uses_cons : forall e o l, uses e (o :: l) = ((if Nat.eqb e (Nat.div2 o) then 1 else 0) + uses e l)%nat.
Proof.
  intros. unfold uses. cbn [map count_occ]. destruct (Nat.eq_dec (Nat.div2 o) e) as [->|N].
  - rewrite Nat.eqb_refl. reflexivity.
  - destruct (Nat.eqb_spec e (Nat.div2 o)); [congruence|reflexivity].
Qed.
Lemma count_occ_snoc : forall l x f, count_occ Nat.eq_dec (l ++ [x]) f = (count_occ Nat.eq_dec l f + (if Nat.eqb f x then 1 else 0))%nat.
Proof.
  intros. rewrite count_occ_app. cbn. destruct (Nat.eq_dec x f) as [->|N]; [rewrite Nat.eqb_refl; reflexivity|].
  destruct (Nat.eqb_spec f x); [congruence|reflexivity].
Qed.

(** The loop over the points of a facet. *)
Lemma build_points_spec : forall first fi l b, binv b ->
  match build_points first fi l b with
  | Ok (b', vs, oes) => binv b' /\ bext b b' /\ has_points (nodes_of b') vs l /\
      Forall2 (edge_joins b') oes (combine l (tl l ++ [first])) /\
      (forall e f, count_occ Nat.eq_dec (nth e (b_fpe b') []) f = count_occ Nat.eq_dec (nth e (b_fpe b) []) f + (if Nat.eqb f fi then uses e oes else 0))%nat /\
      (forall e, (length (b_edges b) <= e < length (b_edges b'))%nat -> (0 < uses e oes)%nat) /\
      (forall q, In q (nodes_of b') <-> In q (nodes_of b) \/ In q l \/ (l <> [] /\ q = first))
  | Throw => False
  | UB => exists N p, NoDup N /\ length N = length (b_nodes b) /\ ~ In p N /\ (forall q, In q (p :: N) -> In q (nodes_of b) \/ In q l \/ q = first)
  end.
Proof.
  intros first fi. induction l as [|p l IH]; intros b I; cbn [build_points].
  { split; [exact I|]. split; [apply bext_refl|]. split; [reflexivity|]. split; [constructor|]. split; [|split].
    - intros. unfold uses. cbn. destruct (Nat.eqb f fi); lia.
    - intros; lia.
    - intros q. split; [auto|]. intros [H|[[]|[H _]]]; [exact H|congruence]. }
  assert (FULL : forall b0, binv b0 -> b_index b0 = length (b_nodes b0) -> length (nodes_of b0) = length (b_nodes b0)).
  { intros b0 I0 H. unfold nodes_of. rewrite H, firstn_all. reflexivity. }
  pose proof (build_one_point_spec b p I) as P1. destruct (build_one_point b p) as [[b1 v]| |] eqn:E1; cbn [bindO]; [|destruct P1|].
  2:{ destruct P1 as [NI H]. exists (nodes_of b), p. split; [apply (i_nodup _ I)|]. split; [apply FULL; assumption|]. split; [exact NI|].
      intros q [<-|H']; [right; left; left; reflexivity|left; exact H']. }
  destruct P1 as (I1 & X1 & V1 & F1 & EE1 & N1).
  pose proof (build_one_point_spec b1 (hd first l) I1) as P2. destruct (build_one_point b1 (hd first l)) as [[b2 w]| |] eqn:E2; cbn [bindO]; [|destruct P2|].
  2:{ destruct P2 as [NI H]. exists (nodes_of b1), (hd first l). split; [apply (i_nodup _ I1)|]. split; [rewrite (FULL _ I1 H); apply (x_cap _ _ X1)|].
      split; [exact NI|]. intros q [<-|H'].
      - destruct l as [|q l]; [right; right; reflexivity|right; left; right; left; reflexivity].
      - apply N1 in H' as [H'| ->]; [left; exact H'|right; left; left; reflexivity]. }
  destruct P2 as (I2 & X2 & W2 & F2 & EE2 & N2).
  destruct (build_one_edge b2 (v, w)) as [b3 e] eqn:E3.
  destruct (build_one_edge_spec b2 (v, w) b3 e I2 E3) as (I3 & X3 & (ed & NE & SE) & NO3 & F3 & LAST3).
  unfold at_throw. rewrite NE. cbn [bindO].
  assert (LE : (e < length (b_fpe b3))%nat) by (rewrite (i_fpe _ I3); apply nth_error_Some; congruence).
  destruct (push_at_spec (b_fpe b3) e fi LE) as (fpe & -> & LF & NF). cbn [bindO].
  set (b4 := mkB _ _ _ _ _ _ _ _ _).
  assert (I4 : binv b4). { destruct I3. constructor; try assumption. unfold b4. cbn. lia. }
  assert (X4 : bext b3 b4) by (constructor; try reflexivity; exists []; rewrite app_nil_r; reflexivity).
  assert (X04 : bext b b4) by (apply (bext_trans _ b1); [exact X1|]; apply (bext_trans _ b2); [exact X2|]; apply (bext_trans _ b3); assumption).
  assert (N4 : forall q, In q (nodes_of b4) <-> In q (nodes_of b) \/ q = p \/ q = hd first l).
  { intros q. change (nodes_of b4) with (nodes_of b3). rewrite NO3, N2, N1. tauto. }
  specialize (IH b4 I4). destruct (build_points first fi l b4) as [[[b5 vs] oes]| |]; cbn [bindO]; [|exact IH|].
  2:{ destruct IH as (N & q & ND & LN & NI & SUB). exists N, q. split; [exact ND|]. split; [rewrite LN; apply (x_cap _ _ X04)|]. split; [exact NI|].
      intros r Hr. apply SUB in Hr as [Hr|[Hr|Hr]]; [|right; left; right; exact Hr|right; right; exact Hr].
      apply N4 in Hr as [Hr|[Hr|Hr]]; [left; exact Hr|right; left; left; auto|].
      subst r. destruct l as [|q' l]; [right; right; reflexivity|right; left; right; left; reflexivity]. }
  destruct IH as (I5 & X5 & HP & EJ & CNT & NEW & IN5).
  assert (X05 : bext b b5) by (apply (bext_trans _ b4); assumption).
  assert (XA : bext b2 b5) by (apply (bext_trans _ b3); [exact X3|]; apply (bext_trans _ b4); assumption).
  split; [exact I5|]. split; [exact X05|]. split; [|split; [|split; [|split]]].
  - unfold has_points in *. cbn [map]. rewrite HP. f_equal. apply (bext_node b1); [apply (bext_trans _ b2); [exact X2|exact XA]|exact V1].
  - cbn [tl]. destruct l as [|q l].
    + cbn [app combine]. constructor; [|exact EJ]. exists v, w. split; [|split].
      * destruct ed as [x y]. apply (ends_mono b4); [exact X5|]. unfold b4. cbn [b_edges snd]. apply (ends_oriented _ _ x y); assumption.
      * apply (bext_node b1); [apply (bext_trans _ b2); [exact X2|exact XA]|exact V1].
      * apply (bext_node b2); [exact XA|exact W2].
    + cbn [app combine]. constructor.
      * exists v, w. split; [|split].
        { destruct ed as [x y]. apply (ends_mono b4); [exact X5|]. unfold b4. cbn [b_edges snd]. apply (ends_oriented _ _ x y); assumption. }
        { apply (bext_node b1); [apply (bext_trans _ b2); [exact X2|exact XA]|exact V1]. }
        { apply (bext_node b2); [exact XA|exact W2]. }
      * exact EJ.
  - intros k f. rewrite CNT, uses_cons, oriented_div2. unfold b4. cbn [b_fpe]. rewrite NF, F3, F2, F1.
    destruct (Nat.eqb_spec k e) as [->|NK].
    + rewrite count_occ_snoc. destruct (Nat.eqb f fi); lia.
    + destruct (Nat.eqb f fi); lia.
  - intros k [K1 K2]. rewrite uses_cons, oriented_div2. destruct (Nat.lt_ge_cases k (length (b_edges b3))) as [G|G].
    + assert (k = e) as -> by (apply LAST3; [rewrite EE2, EE1; exact K1|exact G]). rewrite Nat.eqb_refl. lia.
    + assert (0 < uses k oes)%nat by (apply NEW; unfold b4; cbn [b_edges]; lia). lia.
  - intros q. rewrite IN5, N4. cbn [In]. destruct l as [|q' l].
    + cbn [hd In]. assert (NN : p :: [] <> []) by congruence. split; intros HH; intuition (subst; auto; congruence).
    + cbn [hd In]. assert (NN : p :: q' :: l <> []) by congruence. assert (NM : q' :: l <> []) by congruence.
      split; intros HH; intuition (subst; auto; congruence).
Qed.

Definition nonempty (l : list vec3) : bool := negb (length l =? 0)%nat.
(** What is true once the polygons [v] have been added. *)
Record finv (v : list (list vec3)) (b : builder) : Prop := {
  f_inv : binv b;
  f_facets : Forall2 (fun pts f => has_points (nodes_of b) (mf_vertices f) pts) (filter nonempty v) (b_facets b);
  f_geometry : Forall2 (fun pts f => unit_normal pts = Ok (mf_normal f) /\ mf_area f = area pts /\ mf_centroid f = centre_of_gravity pts)
                       (filter nonempty v) (b_facets b);
  f_nodes_in : forall p, In p (nodes_of b) <-> In p (concat v);
  f_oriented : Forall2 (fun f oes => map (ends (b_edges b)) oes = map Some (cyclic_pairs (mf_vertices f))) (b_facets b) (b_oef b);
  f_fpe : forall e f, count_occ Nat.eq_dec (nth e (b_fpe b) []) f = match nth_error (b_oef b) f with Some oes => uses e oes | None => O end;
  f_used : forall e, (e < length (b_edges b))%nat -> exists f oes, nth_error (b_oef b) f = Some oes /\ (0 < uses e oes)%nat
}.
Lemma NoDup_nth : forall {A} (l : list A) i j x, NoDup l -> nth_error l i = Some x -> nth_error l j = Some x -> i = j.
Proof.
  intros A l i j x H Hi Hj. apply (proj1 (NoDup_nth_error l) H); [apply nth_error_Some; congruence|congruence].
Qed.
Lemma has_points_length : forall N vs l, has_points N vs l -> length vs = length l.
Proof. intros N vs l H. apply (f_equal (@length _)) in H. rewrite !map_length in H. exact H. Qed.
Lemma has_points_mono : forall N k vs l, has_points N vs l -> has_points (N ++ k) vs l.
Proof.
  intros N k vs. unfold has_points. induction vs as [|i vs IH]; intros [|p l] H; try discriminate H; [reflexivity|].
  cbn [map] in *. injection H as H1 H2. rewrite (nth_error_mono _ _ _ _ H1), (IH _ H2). reflexivity.
Qed.
(** Edges that join the points of a polygon run around its vertices. *)
Lemma joins_ends : forall b first fv, NoDup (nodes_of b) -> nth_error (nodes_of b) fv = Some first ->
  forall vs l oes, has_points (nodes_of b) vs l -> Forall2 (edge_joins b) oes (combine l (tl l ++ [first])) ->
  map (ends (b_edges b)) oes = map Some (combine vs (tl vs ++ [fv])).
Proof.
  intros b first fv ND NF. induction vs as [|v vs IH]; intros [|p l] oes H F; try discriminate H.
  - cbn in F. inversion F; subst. reflexivity.
  - injection H as H1 H2. fold (has_points (nodes_of b) vs l) in H2. cbn [tl] in *.
    assert (HD : exists t, l ++ [first] = hd first l :: t /\ t = tl (l ++ [first])) by (destruct l; eexists; split; reflexivity).
    destruct HD as (t & HD & _).
    assert (C : combine (p :: l) (l ++ [first]) = (p, hd first l) :: combine l (tl l ++ [first])) by (destruct l; reflexivity).
    assert (C' : combine (v :: vs) (vs ++ [fv]) = (v, hd fv vs) :: combine vs (tl vs ++ [fv])) by (destruct vs; reflexivity).
    rewrite C in F. rewrite C'. inversion F as [|o pq oes' l' J F']; subst. cbn [map]. f_equal; [|apply (IH l); assumption].
    destruct J as (x & y & E & X & Y). cbn [fst snd] in *. rewrite E. f_equal.
    rewrite (NoDup_nth _ _ _ _ ND X H1). f_equal. apply (NoDup_nth _ _ _ _ ND Y).
    destruct vs as [|v' vs]; destruct l as [|p' l]; try discriminate H2; cbn [hd]; [exact NF|]. injection H2 as H2 _. exact H2.
Qed.
Lemma ends_app : forall l k o p, ends l o = Some p -> ends (l ++ k) o = Some p.
Proof.
  intros l k o p H. unfold ends in *. destruct (nth_error l (Nat.div2 o)) as [[x y]|] eqn:E; [|discriminate]. rewrite (nth_error_mono _ _ _ _ E). exact H.
Qed.
Lemma map_ends_app : forall l k oes ps, map (ends l) oes = map Some ps -> map (ends (l ++ k)) oes = map Some ps.
Proof.
  intros l k. induction oes as [|o oes IH]; intros [|p ps] H; try discriminate H; [reflexivity|]. cbn [map] in *. injection H as H1 H2.
  rewrite (ends_app _ _ _ _ H1), (IH _ H2). reflexivity.
Qed.

Lemma build_facet_spec : forall v b l, finv v b -> (length l = 0 \/ 3 <= length l)%nat ->
  match build_facet_of b l with
  | Ok b' => finv (v ++ [l]) b' /\ length (b_nodes b') = length (b_nodes b)
  | Throw => False
  | UB => exists N p, NoDup N /\ length N = length (b_nodes b) /\ ~ In p N /\ (forall q, In q (p :: N) -> In q (concat (v ++ [l])))
  end.
Proof.
  intros v b l [I FF FG FN FO FC FU] HL. destruct l as [|p l]; cbn [build_facet_of].
  { split; [|reflexivity]. constructor; try assumption.
    - rewrite filter_app. cbn. rewrite app_nil_r. exact FF.
    - rewrite filter_app. cbn. rewrite app_nil_r. exact FG.
    - intros q. rewrite concat_app. cbn. rewrite app_nil_r. apply FN. }
  destruct l as [|p1 [|p2 l]]; cbn [length] in HL; try lia.
  set (L := p :: p1 :: p2 :: l) in *.
  assert (EN : exists n, unit_normal L = Ok n) by (unfold L, unit_normal; destruct (Rltb _ _); eexists; reflexivity). destruct EN as (n & EN).
  rewrite EN. cbn [bindO].
  pose proof (build_points_spec p (length (b_facets b)) L b I) as P.
  destruct (build_points p (length (b_facets b)) L b) as [[[b' vs] oes]| |]; cbn [bindO]; [|exact P|].
  2:{ destruct P as (N & q & ND & LN & NI & SUB). exists N, q. repeat split; try assumption. intros r Hr. rewrite concat_app. cbn [concat]. rewrite app_nil_r, in_app_iff.
      apply SUB in Hr as [Hr|[Hr| ->]]; [left; apply FN; exact Hr|right; exact Hr|right; left; reflexivity]. }
  destruct P as (I' & X & HP & EJ & CNT & NEW & IN').
  pose proof (x_facets _ _ X) as XF. pose proof (x_oef _ _ X) as XO. destruct (x_nodes _ _ X) as (ln & XN). destruct (x_edges _ _ X) as (le & XE).
  assert (LFO : length (b_oef b) = length (b_facets b)) by (clear - FO; induction FO; cbn; congruence).
  assert (FIL : filter nonempty (v ++ [L]) = filter nonempty v ++ [L]) by (rewrite filter_app; reflexivity).
  split; [|exact (x_cap _ _ X)]. constructor; cbn [b_facets b_oef b_edges b_fpe].
  - destruct I'. constructor; assumption.
  - rewrite FIL. apply Forall2_app.
    + rewrite XF. eapply Forall2_mono; [|exact FF]. cbv beta. intros pts f H. change (nodes_of _) with (nodes_of b'). rewrite XN. apply has_points_mono. exact H.
    + constructor; [|constructor]. exact HP.
  - rewrite FIL. apply Forall2_app.
    + rewrite XF. exact FG.
    + constructor; [|constructor]. cbn. auto.
  - intros q. change (nodes_of _) with (nodes_of b'). rewrite IN', FN, concat_app. cbn [concat]. rewrite app_nil_r, in_app_iff.
    split; [intros [H|[H|[_ ->]]]; auto; right; left; reflexivity|tauto].
  - rewrite XF, XO. apply Forall2_app.
    + eapply Forall2_mono; [|exact FO]. cbv beta. intros f os H. rewrite XE. apply map_ends_app. exact H.
    + constructor; [|constructor]. cbn [mf_vertices].
      destruct vs as [|fv vs]; [discriminate HP|]. apply (joins_ends b' p fv (i_nodup _ I')) with (l := L); [|exact HP|exact EJ].
      injection HP as HP _. exact HP.
  - intros e f. rewrite CNT, FC, XO. destruct (Nat.lt_ge_cases f (length (b_oef b))) as [G|G].
    + rewrite nth_error_app1 by assumption. destruct (Nat.eqb_spec f (length (b_facets b))); [lia|]. lia.
    + rewrite nth_error_app2 by assumption. rewrite (proj2 (nth_error_None (b_oef b) f) G). destruct (f - length (b_oef b))%nat as [|k] eqn:K.
      * destruct (Nat.eqb_spec f (length (b_facets b))); [cbn; lia|lia].
      * destruct (Nat.eqb_spec f (length (b_facets b))); [lia|]. destruct k; cbn; lia.
  - intros e He. destruct (Nat.lt_ge_cases e (length (b_edges b))) as [G|G].
    + destruct (FU e G) as (f & os & H1 & H2). exists f, os. split; [rewrite XO; apply nth_error_mono; exact H1|exact H2].
    + exists (length (b_oef b)), oes. split; [rewrite XO, nth_error_app2, Nat.sub_diag by lia; reflexivity|]. apply NEW. lia.
Qed.

Lemma finv_init : forall v, finv [] (builder_init v).
Proof.
  intros v. constructor.
  - constructor; cbn; try lia.
    + constructor.
    + intros p i. unfold nodes_of. cbn. split; [discriminate|]. destruct i; discriminate.
    + intros e i. split; [discriminate|]. intros (e' & H & _). destruct i; discriminate H.
    + intros i j a c H. destruct i; discriminate H.
  - constructor.
  - constructor.
  - intros p. cbn. tauto.
  - constructor.
  - intros e f. cbn. destruct e, f; reflexivity.
  - cbn. intros; lia.
Qed.
Lemma build_facets_spec : forall v u b, finv u b -> (forall l, In l v -> length l = 0 \/ 3 <= length l)%nat ->
  match foldO build_facet_of v b with
  | Ok b' => finv (u ++ v) b' /\ length (b_nodes b') = length (b_nodes b)
  | Throw => False
  | UB => exists N p, NoDup N /\ length N = length (b_nodes b) /\ ~ In p N /\ (forall q, In q (p :: N) -> In q (concat (u ++ v)))
  end.
Proof.
  induction v as [|l v IH]; intros u b F H; cbn [foldO].
  { rewrite app_nil_r. auto. }
  pose proof (build_facet_spec u b l F (H l (or_introl eq_refl))) as P. destruct (build_facet_of b l) as [b1| |]; cbn [bindO]; [|exact P|].
  - destruct P as [P1 P2]. specialize (IH (u ++ [l]) b1 P1 (fun k Hk => H k (or_intror Hk))). rewrite <- app_assoc in IH. cbn [app] in IH.
    destruct (foldO build_facet_of v b1) as [b'| |]; [|exact IH|]; rewrite <- P2; exact IH.
  - destruct P as (N & p & A & B & C & D). exists N, p. repeat split; try assumption. intros q Hq. apply D in Hq. rewrite concat_app in *. cbn [concat] in *.
    rewrite !in_app_iff in *. cbn in Hq. tauto.
Qed.
(** A polygon with one or two points makes the builder throw (if it is reached). *)
Lemma resize_spec : forall b, (b_index b <= length (b_nodes b))%nat -> resize_nodes b = Ok (nodes_of b).
Proof.
  intros b. unfold resize_nodes, nodes_of. generalize (b_nodes b) (b_index b). clear.
  assert (G : forall (l pre : list vec3) n, (n <= length l)%nat -> mapO_list (at_ub (pre ++ l)) (seq (length pre) n) = Ok (firstn n l)).
  { induction l as [|a l IH]; intros pre n H; cbn [length] in H.
    - destruct n; [reflexivity|lia].
    - destruct n as [|n]; [reflexivity|]. cbn [seq mapO_list]. unfold at_ub at 1. rewrite nth_error_app2, Nat.sub_diag by lia. cbn [nth_error bindO].
      specialize (IH (pre ++ [a]) n). rewrite <- app_assoc in IH. cbn [app] in IH. rewrite app_length in IH. cbn [length] in IH. rewrite Nat.add_1_r in IH.
      rewrite IH by lia. reflexivity. }
  intros l n H. apply (G l [] n H).
Qed.
