(** C99, C100, C101: contours of the groups of edges lying on the free surface. *)
From Coq Require Import Reals List Bool Arith Lia Lra Permutation.
From Verif Require Import Common Geometry Sim_Model Force_Model Hull_Model Hull_Spec Hull_Proofs Mesh_Model Mesh_Spec Mesh_Proofs.
From Verif Require Import Closing_Model Closing_Spec Closing_Graph_Proofs Closing_Contour_Proofs Closing_Walk_Proofs.
Import ListNotations.
Open Scope R_scope.

(** The edges of numbers [idx] *)
Definition chosen_edges (es : list (nat * nat)) (idx : list nat) : list (nat * nat) := map (fun i => nth i es (0, 0)%nat) idx.
Definition in_mesh (nodes : list vec3) (es : list (nat * nat)) : Prop := forall e, In e es -> (fst e < length nodes /\ snd e < length nodes)%nat.

Lemma make_computer_ok : forall nodes es idx, in_mesh nodes es -> idx <> [] -> (forall i, In i idx -> (i < length es)%nat) ->
  exists c, make_computer nodes es idx = Ok c /\ ready c /\ c_edges c = chosen_edges es idx /\ c_mesh c = nodes /\ c_original c = idx.
Proof.
  intros nodes es idx IM NE LT. unfold make_computer. assert (ER : relevant es idx = idx) by (destruct idx; [congruence|reflexivity]). rewrite ER.
  assert (LE : (0 < length es)%nat). { destruct idx as [|i idx]; [congruence|]. specialize (LT i (or_introl eq_refl)). lia. }
  destruct es as [|e0 es0] eqn:EE; [cbn in LE; lia|]. rewrite <- EE in *. clear LE. assert (E0 : at_throw es 0 = Ok e0) by (rewrite EE; reflexivity). rewrite E0. cbn [bindO].
  destruct (IM e0) as [B1 B2]; [rewrite EE; left; reflexivity|]. destruct (at_ub_lt' nodes _ B1) as (p0 & -> & _). cbn [bindO].
  assert (EM : mapO_list (at_throw es) idx = Ok (chosen_edges es idx)). { apply mapO_ok. intros i H. unfold at_throw. rewrite (nth_error_nth' es (0, 0)%nat (LT i H)). reflexivity. }
  rewrite EM. cbn [bindO]. assert (CM : in_mesh nodes (chosen_edges es idx)). { intros e H. apply in_map_iff in H as (i & <- & H). apply IM, nth_In, LT, H. }
  assert (BO : forall l b, in_mesh nodes l -> exists b', foldO (bounds_step nodes) l b = Ok b').
  { induction l as [|e l IH]; intros b H; [eexists; reflexivity|]. cbn [foldO]. destruct b as [[[x1 x2] y1] y2]. unfold bounds_step at 1. destruct (H e (or_introl eq_refl)) as [H1 H2].
    destruct (at_ub_lt' nodes _ H1) as (p & -> & _). cbn [bindO]. destruct (at_ub_lt' nodes _ H2) as (q & -> & _). cbn [bindO]. apply IH. intros x Hx. apply H. right. exact Hx. }
  destruct (BO (chosen_edges es idx) (vx p0, vx p0, vy p0, 0) CM) as ([[[x1 x2] y1] y2] & EB). rewrite EB. cbn [bindO].
  eexists. split; [reflexivity|]. cbn. repeat split; try reflexivity; apply CM; assumption.
Qed.

(** [oriented] and [runs_around] *)
Lemma nth_chosen : forall es idx p i, nth_error idx p = Some i -> (i < length es)%nat -> nth_error (chosen_edges es idx) p = nth_error es i.
Proof. intros es idx p i H L. unfold chosen_edges. rewrite nth_error_map, H. cbn. symmetry. apply nth_error_nth'. exact L. Qed.
Lemma closed_line_find : forall c ns, ready c -> closed_line (c_edges c) ns -> length (c_original c) = length (c_edges c) ->
  exists e e' k ns' d, extreme_edges c = Ok (Some (e, e')) /\ same_polygon ns ns' /\ ring (c_edges c) ((e, false) :: k) ns' /\ direct_orientation c ((e, false) :: k) = Ok d /\
    let k' := if d : bool then (e, false) :: k else flip_contour ((e, false) :: k) in
    find_contour c = Ok (map (fun er => (nth (fst er) (c_original c) O, snd er)) k').
Proof.
  intros c ns RD CL LO. assert (L3 : (3 <= length (c_edges c))%nat). { destruct (closed_line_ring _ _ CL) as [k R]. destruct (ring_length _ _ _ R). pose proof (rg_three _ _ _ R). lia. }
  destruct (extreme_edges_ok c RD) as (e1 & e2 & EX & L1 & L2); [intros E; rewrite E in L3; cbn in L3; lia|].
  destruct (ring_from _ _ e1 CL L1) as (k1 & n1 & S1 & R1). destruct (ring_from _ _ e2 CL L2) as (k2 & n2 & S2 & R2).
  destruct (contour_from_ring c e1 k1 n1 RD R1) as (d1 & D1 & C1). destruct (contour_from_ring c e2 k2 n2 RD R2) as (d2 & D2 & C2).
  exists e1, e2, k1, n1, d1. split; [exact EX|]. split; [exact S1|]. split; [exact R1|]. split; [exact D1|]. cbv zeta. unfold find_contour.
  destruct (Nat.eqb_spec (length (c_edges c)) 1); [lia|]. rewrite EX. cbn [bindO]. rewrite C1. cbn [bindO]. rewrite C2. cbn [bindO].
  set (q1 := if d1 then _ else _). set (q2 := if d2 then _ else _).
  assert (M : forall (d : bool) k, Permutation (map fst (if d then k else flip_contour k)) (map fst k)).
  { intros d k. destruct d; [apply Permutation_refl|]. unfold flip_contour. rewrite map_rev, map_map. cbn [fst]. apply Permutation_sym, Permutation_rev. }
  assert (P1 : Permutation (map fst q1) (seq 0 (length (c_edges c)))) by (eapply Permutation_trans; [apply M|apply R1]).
  assert (P2 : Permutation (map fst q2) (seq 0 (length (c_edges c)))) by (eapply Permutation_trans; [apply M|apply R2]).
  assert (HS : have_same_elements (map fst q1) (map fst q2) = true).
  { unfold have_same_elements. apply andb_true_iff. split; apply forallb_forall; intros x H; apply mem_In.
    - apply (Permutation_in x (Permutation_sym P2)), (Permutation_in x P1), H.
    - apply (Permutation_in x (Permutation_sym P1)), (Permutation_in x P2), H. }
  rewrite HS. apply mapO_ok. intros [i r] H. cbn [fst snd]. apply (in_map fst) in H. cbn in H. apply (Permutation_in i P1), in_seq in H.
  unfold at_ub. rewrite (nth_error_nth' (c_original c) O) by lia. reflexivity.
Qed.
Lemma ring_runs : forall es idx k ns, (forall i, In i idx -> (i < length es)%nat) -> ring (chosen_edges es idx) k ns ->
  runs_around es (map (fun er => (nth (fst er) idx O, snd er)) k) ns /\ Permutation (map fst (map (fun er => (nth (fst er) idx O, snd er)) k)) idx.
Proof.
  intros es idx k ns LT R. assert (IL : forall er, In er k -> (fst er < length idx)%nat).
  { intros er H. apply (in_map fst) in H. apply (Permutation_in _ (rg_perm _ _ _ R)), in_seq in H. unfold chosen_edges in H. rewrite map_length in H. lia. }
  split.
  - unfold runs_around. rewrite <- (rg_ends _ _ _ R), map_map. apply map_ext_in. intros [p r] H. specialize (IL _ H). cbn [fst snd] in *.
    unfold oriented. cbn [fst snd]. rewrite (nth_chosen es idx p (nth p idx O)) by (try (apply nth_error_nth'; exact IL); apply LT, nth_In, IL).
    destruct (nth_error es (nth p idx O)) as [[a b]|]; [destruct r; reflexivity|reflexivity].
  - rewrite map_map. cbn [fst]. rewrite <- (map_map fst (fun p => nth p idx O)). apply (Permutation_trans (Permutation_map (fun p => nth p idx O) (rg_perm _ _ _ R))).
    unfold chosen_edges. rewrite map_length. replace (map (fun p => nth p idx O) (seq 0 (length idx))) with idx; [apply Permutation_refl|].
    symmetry. apply (nth_ext _ _ O O); [rewrite map_length, seq_length; reflexivity|]. intros i Hi. rewrite map_length, seq_length in Hi.
    rewrite (nth_indep _ O ((fun p => nth p idx O) O)) by (rewrite map_length, seq_length; exact Hi). rewrite (map_nth (fun p => nth p idx O)), seq_nth by exact Hi. reflexivity.
Qed.

(** C99: whatever the order, the numbers and the directions of the edges and wherever the points are, the contour of a closed line consists of all its edges, each of them once, and
    goes once around the nodes in their order (or in the opposite order). *)
Theorem contour_of_closed_line : forall nodes es idx ns, in_mesh nodes es -> (forall i, In i idx -> (i < length es)%nat) -> closed_line (chosen_edges es idx) ns ->
  exists c k ns', make_computer nodes es idx = Ok c /\ find_contour c = Ok k /\ Permutation (map fst k) idx /\ runs_around es k ns' /\ same_polygon ns ns'.
Proof.
  intros nodes es idx ns IM LT CL. assert (NE : idx <> []). { intros ->. destruct CL as (L & _ & es' & P & F). apply Permutation_nil in P. subst es'. pose proof (cyclic_length ns) as Q. destruct (cyclic_pairs ns); [cbn in Q; lia|inversion F]. }
  destruct (make_computer_ok nodes es idx IM NE LT) as (c & EC & RD & E1 & E2 & E3). rewrite <- E1 in CL.
  destruct (closed_line_find c ns RD CL) as (e & e' & k & ns' & d & _ & SP & R & D & F); [rewrite E3, E1; unfold chosen_edges; rewrite map_length; reflexivity|].
  cbv zeta in F. rewrite E3 in F. rewrite E1 in R. destruct ns' as [|n0 t]; [pose proof (rg_three _ _ _ R) as Q; cbn in Q; lia|].
  assert (X : exists ns2, ring (chosen_edges es idx) (if d then (e, false) :: k else flip_contour ((e, false) :: k)) ns2 /\ same_polygon ns ns2).
  { destruct d; [exists (n0 :: t); auto|]. exists (n0 :: rev t). split; [apply ring_flip; exact R|]. apply (same_polygon_rotated _ (rev (n0 :: t))); [apply same_polygon_rev; exact SP|apply rotated_rev_cons]. }
  destruct X as (ns2 & R2 & SP2). destruct (ring_runs es idx _ _ LT R2) as [Q1 Q2]. exists c. eexists. exists ns2. split; [exact EC|]. split; [exact F|]. auto.
Qed.
Print Assumptions contour_of_closed_line.

(** Four edges of a list of six, in disorder and with mixed directions *)
Definition scrambled : list (nat * nat) := [(2, 5); (0, 3); (1, 2); (4, 3); (1, 0); (3, 2)]%nat.
Example closed_line_witness : closed_line (chosen_edges scrambled [1; 2; 4; 5]%nat) [0; 1; 2; 3]%nat.
Proof.
  split; [cbn; lia|]. split; [repeat constructor; cbn; intuition discriminate|]. exists [(1, 0); (1, 2); (3, 2); (0, 3)]%nat. split.
  - cbn. apply (Permutation_trans (perm_swap _ _ _)). apply (Permutation_trans (perm_skip _ (perm_swap _ _ _))). apply (Permutation_trans (perm_swap _ _ _)).
    apply perm_skip, perm_skip, perm_swap.
  - cbn. repeat apply Forall2_cons; try apply Forall2_nil; unfold same_edge; cbn; auto.
Qed.

(** ** Orientation *)
Definition turn (e f : vec3 * vec3) : R := vz (cross (vsub (snd e) (fst e)) (vsub (snd f) (fst f))).
(** No edge is reduced to a point, the points are not all aligned, and edges that are not exactly parallel are not parallel up to 1e-10. *)
Definition resolved (l : list vec3) : Prop :=
  (forall e f, In e (cyclic_pairs l) -> In f (cyclic_pairs l) -> turn e f = 0 \/ / 10000000000 <= Rabs (turn e f)) /\
  (forall e, In e (cyclic_pairs l) -> exists f, In f (cyclic_pairs l) /\ turn e f <> 0).
Definition points (nodes : list vec3) (ns : list nat) : list vec3 := map (fun n => nth n nodes v0) ns.
Lemma cyclic_map : forall {A B} (f : A -> B) l, cyclic_pairs (map f l) = map (fun e => (f (fst e), f (snd e))) (cyclic_pairs l).
Proof.
  intros A B f [|a t]; [reflexivity|]. unfold cyclic_pairs. cbn [map]. change (f a :: map f t) with (map f (a :: t)). rewrite <- (map_app f t [a]) || idtac.
  replace (map f t ++ [f a]) with (map f (t ++ [a])) by (rewrite map_app; reflexivity). generalize (a :: t), (t ++ [a]). induction l as [|x l IH]; intros [|y m]; try reflexivity. cbn. rewrite IH. reflexivity.
Qed.
Lemma cyclic_in_iff : forall {A} (l l' : list A), rotated l l' -> forall e, In e (cyclic_pairs l) <-> In e (cyclic_pairs l').
Proof. intros A l l' (a & b & -> & ->) e. rewrite (cyclic_rotate a b), in_app_iff. rewrite <- (firstn_skipn (length a) (cyclic_pairs (a ++ b))) at 1. rewrite in_app_iff. tauto. Qed.
Lemma cyclic_in_rev : forall {A} (l : list A) e, In e (cyclic_pairs (rev l)) <-> In (snd e, fst e) (cyclic_pairs l).
Proof.
  intros A [|a t] e; [cbn; tauto|]. rewrite (cyclic_in_iff _ _ (rotated_rev_cons a t)), cyclic_rev, <- in_rev, in_map_iff. split.
  - intros (x & <- & H). destruct x. exact H.
  - intros H. exists (snd e, fst e). destruct e. auto.
Qed.
Lemma turn_swap : forall a b f, turn (a, b) f = - turn (b, a) f /\ turn f (a, b) = - turn f (b, a).
Proof. intros a b [c d]. unfold turn. cbn [fst snd]. split; destruct a, b, c, d; cbn; ring. Qed.
Lemma resolved_same : forall l l', same_polygon l l' -> resolved l -> resolved l'.
Proof.
  assert (RO : forall l l', rotated l l' -> resolved l -> resolved l').
  { intros l l' R [H1 H2]. pose proof (cyclic_in_iff _ _ R) as I. split.
    - intros e f He Hf. apply H1; apply I; assumption.
    - intros e He. destruct (H2 e) as (f & Hf & T); [apply I; exact He|]. exists f. split; [apply I; exact Hf|exact T]. }
  intros l l' [R|R] H; [apply (RO _ _ R H)|]. apply (RO _ _ R). destruct H as [H1 H2].
  split.
  - intros [a b] [c d] He Hf. apply cyclic_in_rev in He. apply cyclic_in_rev in Hf. cbn [fst snd] in He, Hf. specialize (H1 _ _ He Hf).
    destruct (turn_swap a b (c, d)) as [-> _]. destruct (turn_swap c d (b, a)) as [_ ->]. rewrite Ropp_involutive. exact H1.
  - intros [a b] He. apply cyclic_in_rev in He. cbn [fst snd] in He. destruct (H2 _ He) as ([c d] & Hf & T). exists (d, c). split; [apply cyclic_in_rev; exact Hf|].
    destruct (turn_swap a b (d, c)) as [-> _]. destruct (turn_swap d c (b, a)) as [_ ->]. rewrite Ropp_involutive. exact T.
Qed.
Lemma convex_rotated : forall n l l', rotated l l' -> convex n l -> convex n l'.
Proof.
  intros n l l' (a & b & -> & ->). revert b. induction a as [|x a IH]; intros b C; [rewrite app_nil_r; exact C|].
  apply convex_rotate1 in C. unfold rotate1 in C. cbn [app] in C. rewrite <- app_assoc in C. specialize (IH _ C). rewrite <- app_assoc in IH. exact IH.
Qed.
Lemma rotated_map : forall {A B} (f : A -> B) l l', rotated l l' -> rotated (map f l) (map f l').
Proof. intros A B f l l' (a & b & -> & ->). exists (map f a), (map f b). rewrite !map_app. auto. Qed.
Lemma same_polygon_map : forall {A B} (f : A -> B) l l', same_polygon l l' -> same_polygon (map f l) (map f l').
Proof. intros A B f l l' [H|H]; [left|right]; [|rewrite <- map_rev]; apply rotated_map; exact H. Qed.

Definition up (s : R) : vec3 := V3 0 0 s.
Lemma convex_same_polygon : forall s l l', same_polygon l l' -> convex (up s) l -> exists s', (s' = s \/ s' = - s) /\ convex (up s') l'.
Proof.
  intros s l l' [H|H] C; [exists s; split; [auto|]; eapply convex_rotated; eassumption|]. exists (- s). split; [auto|]. apply (convex_rotated _ (rev l)); [exact H|].
  replace (up (- s)) with (vopp (up s)) by (unfold up, vopp; cbn; f_equal; ring). apply convex_rev. exact C.
Qed.

Section Turn.
Variables (c : computer) (RD : ready c) (s : R) (p0 p1 : nat).
Let pt (n : nat) : vec3 := nth n (c_mesh c) v0.
Let AB : vec3 := vsub (pt p1) (pt p0).
Let cr (n : nat) : R := vz (cross AB (vsub (pt n) (pt p0))).
Lemma edge_vector_oriented : forall er x y, oriented (c_edges c) er = Some (x, y) -> edge_vector c er = Ok (vsub (pt y) (pt x)).
Proof.
  intros er x y O. pose proof (oriented_inv _ _ _ _ O) as E. destruct (rd_bounds c RD _ (nth_error_In _ _ E)) as [B1 B2]. unfold edge_vector, at_throw. rewrite E. cbn [bindO].
  assert (AT : forall n, (n < length (c_mesh c))%nat -> at_ub (c_mesh c) n = Ok (pt n)). { intros n H. unfold at_ub. rewrite (nth_error_nth' (c_mesh c) v0 H). reflexivity. }
  destruct (snd er); cbn [fst snd] in *; rewrite !AT by assumption; reflexivity.
Qed.
Lemma first_turn_sign : forall t n k, map (oriented (c_edges c)) k = map Some (combine (n :: t) (t ++ [p0])) -> cr n = 0 -> (forall q, In q t -> 0 <= s * cr q) ->
  (forall x y, In (x, y) (combine (n :: t) (t ++ [p0])) -> cr y - cr x = 0 \/ / 10000000000 <= Rabs (cr y - cr x)) ->
  (exists x y, In (x, y) (combine (n :: t) (t ++ [p0])) /\ cr y - cr x <> 0) -> s <> 0 -> exists z, first_turn c AB k = Ok z /\ 0 < s * z.
Proof.
  induction t as [|q t IH]; intros n k E Z PQ RS EX NS.
  - exfalso. destruct EX as (x & y & [H|[]] & T). injection H as <- <-. apply T. rewrite Z. unfold cr. clear. unfold AB. generalize (pt p1), (pt p0). intros [a b d] [a' b' d']. cbn. ring.
  - cbn [app combine] in *. destruct k as [|er k]; [discriminate E|]. cbn [map] in E. injection E as E1 E2. cbn [first_turn]. rewrite (edge_vector_oriented er n q E1). cbn [bindO].
    assert (ZC : vz (cross AB (vsub (pt q) (pt n))) = cr q - cr n). { unfold cr. generalize AB, (pt q), (pt n), (pt p0). intros [a b d] [a1 b1 d1] [a2 b2 d2] [a3 b3 d3]. cbn. ring. }
    rewrite ZC, Z, Rminus_0_r. destruct k as [|er' k]; [exfalso; apply (f_equal (@length _)) in E2; rewrite !map_length in E2; destruct t; cbn in E2; lia|].
    specialize (PQ q (or_introl eq_refl)) as Pq. destruct (RS n q (or_introl eq_refl)) as [R0|R0]; rewrite Z, Rminus_0_r in R0.
    + rewrite R0, Rabs_R0. assert (Rltb 0 (/ 10000000000) = true) as ->.
      { unfold Rltb. destruct (Rlt_dec _ _); [reflexivity|]. exfalso. apply n0. apply Rinv_0_lt_compat. lra. }
      apply (IH q); [exact E2|exact R0|intros; apply PQ; right; assumption|intros; apply RS; right; assumption| |exact NS].
      destruct EX as (x & y & [H|H] & T); [injection H as <- <-; exfalso; apply T; lra|]. exists x, y. auto.
    + assert (Rltb (Rabs (cr q)) (/ 10000000000) = false) as ->. { unfold Rltb. destruct (Rlt_dec _ _); [exfalso; lra|reflexivity]. }
      exists (cr q). split; [reflexivity|]. assert (cr q <> 0). { intros Q. rewrite Q, Rabs_R0 in R0. assert (0 < / 10000000000) by (apply Rinv_0_lt_compat; lra). lra. }
      destruct Pq as [Pq|Pq]; [exact Pq|]. exfalso. symmetry in Pq. apply Rmult_integral in Pq. tauto.
Qed.
End Turn.

Lemma orientation_of_ring : forall c e k ns s, ready c -> ring (c_edges c) ((e, false) :: k) ns -> s = 1 \/ s = -1 ->
  convex (up s) (map flat (points (c_mesh c) ns)) -> resolved (points (c_mesh c) ns) -> direct_orientation c ((e, false) :: k) = Ok (Rltb s 0).
Proof.
  intros c e k ns s RD R S1 (_ & _ & CV) [RS EX]. pose proof (rg_three _ _ _ R) as L. pose proof (rg_ends _ _ _ R) as EN. destruct ns as [|p0 [|p1 t]]; cbn [length] in L; try lia.
  cbn [cyclic_pairs app combine map] in EN. injection EN as E0 EK. set (pt := fun n => nth n (c_mesh c) v0) in *.
  assert (PR : forall x y, In (x, y) (cyclic_pairs (p0 :: p1 :: t)) -> In (pt x, pt y) (cyclic_pairs (points (c_mesh c) (p0 :: p1 :: t)))).
  { intros x y H. unfold points. rewrite cyclic_map. apply in_map_iff. exists (x, y). auto. }
  assert (I0 : In (p0, p1) (cyclic_pairs (p0 :: p1 :: t))) by (left; reflexivity).
  assert (CRT : forall x y, turn (pt p0, pt p1) (pt x, pt y) = vz (cross (vsub (pt p1) (pt p0)) (vsub (pt y) (pt p0))) - vz (cross (vsub (pt p1) (pt p0)) (vsub (pt x) (pt p0)))).
  { intros x y. unfold turn. cbn [fst snd]. generalize (pt p0), (pt p1), (pt x), (pt y). intros [a b d] [a1 b1 d1] [a2 b2 d2] [a3 b3 d3]. cbn. ring. }
  assert (Z1 : vz (cross (vsub (pt p1) (pt p0)) (vsub (pt p1) (pt p0))) = 0). { generalize (pt p0), (pt p1). intros [a b d] [a1 b1 d1]. cbn. ring. }
  assert (Z0 : vz (cross (vsub (pt p1) (pt p0)) (vsub (pt p0) (pt p0))) = 0). { generalize (pt p0), (pt p1). intros [a b d] [a1 b1 d1]. cbn. ring. }
  unfold direct_orientation. cbn [fst]. rewrite (edge_vector_oriented c RD (e, false) p0 p1 E0). fold (pt p1) (pt p0). cbn [bindO].
  destruct (first_turn_sign c RD s p0 p1 t p1 k EK Z1) as (z & Hz & Pz).
  - intros q H. destruct (In_nth _ _ O H) as (i & Hi & Nq). specialize (CV 0%nat 1%nat (S (S i))). cbn [points map nth length] in CV.
    unfold points in CV. rewrite !map_length in CV. specialize (CV ltac:(lia) ltac:(lia) ltac:(lia)).
    assert (NN : nth i (map flat (map (fun n => nth n (c_mesh c) v0) t)) v0 = flat (pt q)).
    { change v0 with (flat v0) at 2. rewrite map_nth. f_equal. rewrite (nth_indep _ v0 ((fun n => nth n (c_mesh c) v0) O)) by (rewrite map_length; exact Hi).
      rewrite (map_nth (fun n => nth n (c_mesh c) v0)). unfold pt. rewrite Nq. reflexivity. }
    rewrite NN in CV. fold (pt p0) (pt p1) in CV. fold (pt p0) (pt p1) (pt q). revert CV. generalize (pt p0), (pt p1), (pt q). intros [a b d] [a1 b1 d1] [a2 b2 d2]. unfold flat, up, dot, cross, vsub. cbn. intros; lra.
  - intros x y H. fold (pt p0) (pt p1) (pt x) (pt y). rewrite <- CRT. apply RS; [apply PR; exact I0|apply PR; right; exact H].
  - destruct (EX (pt p0, pt p1)) as (f & Hf & T); [apply PR; exact I0|]. unfold points in Hf. rewrite cyclic_map in Hf. apply in_map_iff in Hf as ([x y] & <- & Hf). cbn [fst snd] in T.
    change (turn (pt p0, pt p1) (pt x, pt y) <> 0) in T. destruct Hf as [Hf|Hf].
    + injection Hf as <- <-. exfalso. apply T. rewrite CRT, Z1, Z0. ring.
    + exists x, y. split; [exact Hf|]. fold (pt p0) (pt p1) (pt x) (pt y). rewrite <- CRT. exact T.
  - destruct S1; lra.
  - fold (pt p0) (pt p1) in Hz. rewrite Hz. cbn [bindO]. f_equal. unfold Rltb. destruct (Rlt_dec z 0), (Rlt_dec s 0); try reflexivity; exfalso; destruct S1; subst; lra.
Qed.

(** C100: when the closed line is convex seen from above, its contour is run clockwise around the upward axis (x, y being the horizontal axes of the mesh): the closing facet is oriented
    downwards, whatever the order and the directions in which the edges are given. *)
Theorem contour_of_convex_line_oriented_partial : forall nodes es idx ns s, in_mesh nodes es -> (forall i, In i idx -> (i < length es)%nat) -> closed_line (chosen_edges es idx) ns ->
  s = 1 \/ s = -1 -> convex (V3 0 0 s) (map flat (points nodes ns)) -> resolved (points nodes ns) ->
  exists c k ns', make_computer nodes es idx = Ok c /\ find_contour c = Ok k /\ Permutation (map fst k) idx /\ runs_around es k ns' /\ same_polygon ns ns' /\
    convex (V3 0 0 (-1)) (map flat (points nodes ns')).
Proof.
  intros nodes es idx ns s IM LT CL S1 CV RS. assert (NE : idx <> []). { intros ->. destruct CL as (L & _ & es' & P & F). apply Permutation_nil in P. subst es'. pose proof (cyclic_length ns) as Q. destruct (cyclic_pairs ns); [cbn in Q; lia|inversion F]. }
  destruct (make_computer_ok nodes es idx IM NE LT) as (c & EC & RD & E1 & E2 & E3). rewrite <- E1 in CL.
  destruct (closed_line_find c ns RD CL) as (e & e' & k & ns' & d & _ & SP & R & D & F); [rewrite E3, E1; unfold chosen_edges; rewrite map_length; reflexivity|].
  cbv zeta in F. rewrite E3 in F. pose proof (same_polygon_map (fun n => nth n nodes v0) _ _ SP) as SP'. pose proof (resolved_same _ _ SP' RS) as RS'.
  destruct (convex_same_polygon s _ _ (same_polygon_map flat _ _ SP') CV) as (s' & Ss & CV'). assert (S2 : s' = 1 \/ s' = -1) by lra.
  rewrite <- E2 in RS', CV'. rewrite (orientation_of_ring c e k ns' s' RD R S2 CV' RS') in D. injection D as <-. rewrite E1 in R.
  destruct ns' as [|n0 t]; [pose proof (rg_three _ _ _ R) as Q; cbn in Q; lia|].
  assert (X : exists ns2, ring (chosen_edges es idx) (if Rltb s' 0 then (e, false) :: k else flip_contour ((e, false) :: k)) ns2 /\ same_polygon ns ns2 /\ convex (V3 0 0 (-1)) (map flat (points nodes ns2))).
  { destruct S2 as [-> | ->].
    - assert (Rltb 1 0 = false) as -> by (unfold Rltb; destruct (Rlt_dec 1 0); [lra|reflexivity]). exists (n0 :: rev t). split; [apply ring_flip; exact R|].
      split; [apply (same_polygon_rotated _ (rev (n0 :: t))); [apply same_polygon_rev; exact SP|apply rotated_rev_cons]|].
      rewrite E2 in CV'. apply convex_rev in CV'. apply (convex_rotated _ (map flat (points nodes (rev (n0 :: t))))).
      + unfold points. apply rotated_map, rotated_map, rotated_rev_cons.
      + unfold points in *. rewrite !map_rev. replace (V3 0 0 (-1)) with (vopp (up 1)) by (unfold up, vopp; cbn; f_equal; ring). exact CV'.
    - assert (Rltb (-1) 0 = true) as -> by (unfold Rltb; destruct (Rlt_dec (-1) 0); [reflexivity|lra]). exists (n0 :: t). split; [exact R|]. split; [exact SP|]. rewrite E2 in CV'. exact CV'. }
  destruct X as (ns2 & R2 & SP2 & CV2). destruct (ring_runs es idx _ _ LT R2) as [Q1 Q2]. exists c. eexists. exists ns2. split; [exact EC|]. split; [exact F|]. auto.
Qed.
Print Assumptions contour_of_convex_line_oriented_partial.

(** A square, with the edges of [scrambled] *)
Definition square_nodes : list vec3 := [V3 0 0 1; V3 1 0 1; V3 1 1 2; V3 0 1 2; V3 7 7 7; V3 8 8 8].
Example convex_line_witness : in_mesh square_nodes scrambled /\ convex (V3 0 0 1) (map flat (points square_nodes [0; 1; 2; 3]%nat)) /\ resolved (points square_nodes [0; 1; 2; 3]%nat).
Proof.
  split; [|split].
  - intros e H. cbn in H. repeat (destruct H as [<-|H]; [cbn; lia|]). destruct H.
  - split; [unfold norm, dot; cbn; replace (0 * 0 + 0 * 0 + 1 * 1) with 1 by ring; apply sqrt_1|]. split.
    + intros p q Hp Hq. cbn in Hp, Hq. repeat (destruct Hp as [<-|Hp]); try destruct Hp; repeat (destruct Hq as [<-|Hq]); try destruct Hq; unfold dot; cbn; ring.
    + intros i j k H1 H2 H3. cbn in H3. destruct i as [|[|[|[|]]]]; try lia; destruct j as [|[|[|[|]]]]; try lia; destruct k as [|[|[|[|]]]]; try lia; unfold dot; cbn; lra.
  - split.
    + intros e f He Hf. cbn in He, Hf. repeat (destruct He as [<-|He]); try destruct He; repeat (destruct Hf as [<-|Hf]); try destruct Hf; unfold turn; cbn;
        ((left; ring) || (right; unfold Rabs; destruct (Rcase_abs _); lra)).
    + intros e He. cbn in He.
      repeat (destruct He as [<-|He]); try destruct He.
      * exists (V3 1 0 1, V3 1 1 2). split; [cbn; auto|]. unfold turn; cbn; lra.
      * exists (V3 0 0 1, V3 1 0 1). split; [cbn; auto|]. unfold turn; cbn; lra.
      * exists (V3 1 0 1, V3 1 1 2). split; [cbn; auto|]. unfold turn; cbn; lra.
      * exists (V3 0 0 1, V3 1 0 1). split; [cbn; auto|]. unfold turn; cbn; lra.
Qed.
