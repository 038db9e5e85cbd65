(** C100 (refutation for lines that are not convex), C101: contours of any set of edges. *)
From Coq Require Import Reals List Bool Arith Lia Lra Permutation.
From Verif Require Import Common Geometry Sim_Model Force_Model Hull_Model Hull_Spec Hull_Proofs Mesh_Model Mesh_Spec Mesh_Proofs.
From Verif Require Import Closing_Model Closing_Spec Closing_Graph_Proofs Closing_Contour_Proofs Closing_Walk_Proofs Closing_Contour_Props.
Import ListNotations.
Open Scope R_scope.

Lemma flip_perm : forall (d : bool) k, Permutation (map fst (if d then k else flip_contour k)) (map fst k).
Proof. intros d k. destruct d; [apply Permutation_refl|]. unfold flip_contour. rewrite map_rev, map_map. cbn [fst]. apply Permutation_sym, Permutation_rev. Qed.
(** The contour of a closed line is the one found from the first extreme edge *)
Lemma find_from : forall c ns e e' k ns' d, ready c -> closed_line (c_edges c) ns -> length (c_original c) = length (c_edges c) -> extreme_edges c = Ok (Some (e, e')) ->
  ring (c_edges c) ((e, false) :: k) ns' -> direct_orientation c ((e, false) :: k) = Ok d ->
  find_contour c = Ok (map (fun er => (nth (fst er) (c_original c) O, snd er)) (if d : bool then (e, false) :: k else flip_contour ((e, false) :: k))).
Proof.
  intros c ns e1 e2 k1 n1 d1 RD CL LO EX R1 D1. assert (L3 : (3 <= length (c_edges c))%nat). { destruct (ring_length _ _ _ R1). pose proof (rg_three _ _ _ R1). lia. }
  destruct (extreme_edges_ok c RD) as (x1 & x2 & EX' & L1 & L2); [intros E; rewrite E in L3; cbn in L3; lia|]. rewrite EX in EX'. injection EX' as <- <-.
  destruct (ring_from _ _ e2 CL L2) as (k2 & n2 & S2 & R2).
  destruct (contour_from_ring c e1 k1 n1 RD R1) as (d1' & D1' & C1). rewrite D1 in D1'. injection D1' as <-. destruct (contour_from_ring c e2 k2 n2 RD R2) as (d2 & D2 & C2).
  unfold find_contour. destruct (Nat.eqb_spec (length (c_edges c)) 1); [lia|]. rewrite EX. cbn [bindO]. rewrite C1. cbn [bindO]. rewrite C2. cbn [bindO].
  set (q1 := if d1 then _ else _). set (q2 := if d2 then _ else _).
  assert (P1 : Permutation (map fst q1) (seq 0 (length (c_edges c)))) by (eapply Permutation_trans; [apply flip_perm|apply R1]).
  assert (P2 : Permutation (map fst q2) (seq 0 (length (c_edges c)))) by (eapply Permutation_trans; [apply flip_perm|apply R2]).
  assert (HS : have_same_elements (map fst q1) (map fst q2) = true).
  { unfold have_same_elements. apply andb_true_iff. split; apply forallb_forall; intros x H; apply mem_In.
    - apply (Permutation_in x (Permutation_sym P2)), (Permutation_in x P1), H.
    - apply (Permutation_in x (Permutation_sym P1)), (Permutation_in x P2), H. }
  rewrite HS. apply mapO_ok. intros [i r] H. cbn [fst snd]. apply (in_map fst) in H. cbn in H. apply (Permutation_in i P1), in_seq in H.
  unfold at_ub. rewrite (nth_error_nth' (c_original c) O) by lia. reflexivity.
Qed.
(** The extreme edge is edge 0 or an edge that has the node *)
Lemma extreme_edge_in : forall c n e, extreme_edge c n = Ok (Some e) -> e = 0%nat \/ exists l, nm_find n (c_connected c) = Some l /\ In e l.
Proof.
  intros c n e. unfold extreme_edge. destruct (nm_find n (c_connected c)) as [l|]; [|discriminate]. destruct (at_ub (c_mesh c) n) as [A| |]; try discriminate. cbn [bindO].
  destruct (extreme_angle c n 0) as [a0| |]; try discriminate. cbn [bindO]. generalize (keep_lowest_angle c (vx A) (vy A) true). intros b.
  match goal with |- context [foldO ?f l] => assert (FO : forall l' ret a r, foldO f l' (ret, a) = Ok r -> fst r = ret \/ In (fst r) l') end.
  { induction l' as [|i l' IH]; intros ret a r H; [injection H as <-; left; reflexivity|]. cbn [foldO] in H. destruct (extreme_angle c n i) as [x| |]; try discriminate. cbn [bindO] in H.
    destruct (if b then Rltb x a else Rltb a x); destruct (IH _ _ _ H); auto; right; [left; auto|right; auto|right; auto]. }
  destruct (foldO _ l (O, a0)) as [r| |] eqn:EF; try discriminate. cbn [bindO]. intros H. injection H as <-. destruct (FO _ _ _ _ EF); [left; assumption|right; exists l; auto].
Qed.

(** The first node stays the extreme one when no node is to the left of node 0 of the mesh *)
Lemma lowest_stays : forall c n p0, find_extreme_nodes c = Ok n -> at_ub (c_mesh c) 0 = Ok p0 -> (forall m p, at_ub (c_mesh c) m = Ok p -> vx p0 <= vx p) -> exists l, c_nodes c = fst n :: l.
Proof.
  intros c n p0 H E0 LE. unfold find_extreme_nodes in H. rewrite E0 in H. cbn [bindO] in H.
  match type of H with context [foldO ?f ?l ?a] => assert (FO : forall l' iy y r, foldO f l' (O, vx p0, iy, y) = Ok r -> fst (fst (fst r)) = O) end.
  { induction l' as [|i l' IH]; intros iy y r E; [injection E as <-; reflexivity|]. cbn [foldO] in E. destruct (at_throw (c_nodes c) i) as [m| |]; try discriminate. cbn [bindO] in E.
    destruct (at_ub (c_mesh c) m) as [p| |] eqn:EP; try discriminate. cbn [bindO] in E. assert (X : Rltb (vx p) (vx p0) = false). { unfold Rltb. destruct (Rlt_dec _ _); [|reflexivity]. specialize (LE _ _ EP). lra. }
    rewrite X in E. destruct (Rltb y (vy p)); apply (IH _ _ _ E). }
  destruct (foldO _ _ _) as [[[[i x] j] y]| |] eqn:EF; try discriminate. cbn [bindO] in H. pose proof (FO _ _ _ _ EF) as FO'. cbn in FO'. subst i.
  destruct (c_nodes c) as [|a l]; [discriminate|]. cbn [at_throw nth_error bindO] in H. destruct (at_throw (a :: l) j) as [b| |]; try discriminate. cbn [bindO] in H. injection H as <-. exists l. reflexivity.
Qed.

(** *** A waterline that is not convex: the letter U *)
Definition u_nodes : list vec3 := [V3 0 0 0; V3 3 0 0; V3 3 2 0; V3 2 2 0; V3 2 1 0; V3 1 1 0; V3 1 2 0; V3 0 2 0].
Definition u_edges : list (nat * nat) := [(4, 5); (3, 4); (5, 6); (6, 7); (7, 0); (0, 1); (1, 2); (2, 3)]%nat.
Definition u_idx : list nat := [0; 1; 2; 3; 4; 5; 6; 7]%nat.
(** Twice the algebraic area of a polygon of the plane (x, y): positive when it is run anticlockwise *)
Definition double_area (l : list vec3) : R := vz (vsum (map vector_area (triangles l))).
Lemma Rltb_T : forall x y, x < y -> Rltb x y = true.
Proof. intros. unfold Rltb. destruct (Rlt_dec x y); [reflexivity|lra]. Qed.
Lemma Rltb_F : forall x y, y <= x -> Rltb x y = false.
Proof. intros. unfold Rltb. destruct (Rlt_dec x y); [lra|reflexivity]. Qed.
Lemma u_closed : closed_line u_edges [4; 5; 6; 7; 0; 1; 2; 3]%nat.
Proof.
  split; [cbn; lia|]. split; [repeat constructor; cbn; intuition discriminate|]. exists [(4, 5); (5, 6); (6, 7); (7, 0); (0, 1); (1, 2); (2, 3); (3, 4)]%nat. split.
  - unfold u_edges. apply perm_skip. change ([(5, 6); (6, 7); (7, 0); (0, 1); (1, 2); (2, 3); (3, 4)]%nat) with ([(5, 6); (6, 7); (7, 0); (0, 1); (1, 2); (2, 3)]%nat ++ [(3, 4)]%nat).
    apply Permutation_cons_append.
  - cbn. repeat apply Forall2_cons; try apply Forall2_nil; unfold same_edge; cbn; auto.
Qed.
Theorem contour_orientation_refuted : exists nodes es idx ns, in_mesh nodes es /\ (forall i, In i idx -> (i < length es)%nat) /\ closed_line (chosen_edges es idx) ns /\
  resolved (points nodes ns) /\ (forall p, In p nodes -> vz p = 0) /\
  exists c k ns', make_computer nodes es idx = Ok c /\ find_contour c = Ok k /\ runs_around es k ns' /\ same_polygon ns ns' /\ double_area (points nodes ns') = 10.
Proof.
  exists u_nodes, u_edges, u_idx, [4; 5; 6; 7; 0; 1; 2; 3]%nat.
  assert (IM : in_mesh u_nodes u_edges). { intros e H. cbn in H. repeat (destruct H as [<-|H]; [cbn; lia|]). destruct H. }
  assert (LT : forall i, In i u_idx -> (i < length u_edges)%nat). { intros i H. cbn in H. repeat (destruct H as [<-|H]; [cbn; lia|]). destruct H. }
  assert (CE : chosen_edges u_edges u_idx = u_edges) by reflexivity.
  split; [exact IM|]. split; [exact LT|]. split; [exact u_closed|]. split; [|split].
  { split.
    - intros e f He Hf. cbn in He, Hf. repeat (destruct He as [<-|He]); try destruct He; repeat (destruct Hf as [<-|Hf]); try destruct Hf; unfold turn; cbn;
        ((left; ring) || (right; unfold Rabs; destruct (Rcase_abs _); lra)).
    - intros e He. cbn in He. repeat (destruct He as [<-|He]); try destruct He;
      ((exists (V3 2 1 0, V3 1 1 0); split; [cbn; tauto|unfold turn; cbn; lra]) || (exists (V3 1 1 0, V3 1 2 0); split; [cbn; tauto|unfold turn; cbn; lra])). }
  { intros p H. cbn in H. repeat (destruct H as [<-|H]; [reflexivity|]). destruct H. }
  destruct (make_computer_ok u_nodes u_edges u_idx IM ltac:(discriminate) LT) as (c & EC & RD & E1 & E2 & E3). rewrite CE in E1.
  destruct (extreme_edges_ok c RD) as (e & e' & EX & L1 & L2); [rewrite E1; discriminate|].
  assert (EN : e = 0%nat \/ e = 1%nat).
  { unfold extreme_edges in EX. destruct (find_extreme_nodes c) as [n| |] eqn:EF; try discriminate. cbn [bindO] in EX. unfold bindE at 1 in EX. destruct (extreme_edge c (fst n)) as [[a|]| |] eqn:EE; try discriminate.
    cbn [bindO] in EX. unfold bindE in EX. destruct (extreme_edge c (snd n)) as [[b|]| |]; try discriminate. cbn [bindO] in EX. injection EX as <- <-.
    assert (FN : fst n = 4%nat).
    { destruct (lowest_stays c n (V3 0 0 0) EF) as (l & EL).
      - rewrite E2. reflexivity.
      - intros m p Hp. rewrite E2 in Hp. cbn [vx]. assert (IP : In p u_nodes). { unfold at_ub in Hp. destruct (nth_error u_nodes m) eqn:EM; [|discriminate]. injection Hp as <-. apply (nth_error_In _ _ EM). }
        cbn in IP. repeat (destruct IP as [<-|IP]; [cbn; lra|]). destruct IP.
      - rewrite (rd_nodes c RD), E1 in EL. change (extract_nodes u_edges) with [4; 5; 3; 6; 7; 0; 1; 2]%nat in EL. injection EL. auto. }
    destruct (extreme_edge_in _ _ _ EE) as [->|(l & EL & IL)]; [auto|]. rewrite (rd_connected c RD), FN, E1 in EL.
    change (nm_find 4 (node_to_connected_edges u_edges)) with (Some [0; 1]%nat) in EL. injection EL as <-. destruct IL as [<-|[<-|[]]]; auto. }
  assert (CL : closed_line (c_edges c) [4; 5; 6; 7; 0; 1; 2; 3]%nat) by (rewrite E1; exact u_closed).
  assert (LO : length (c_original c) = length (c_edges c)) by (rewrite E1, E3; reflexivity).
  destruct EN as [-> | ->].
  - assert (R1 : ring (c_edges c) [(0, false); (2, false); (3, false); (4, false); (5, false); (6, false); (7, false); (1, false)]%nat [4; 5; 6; 7; 0; 1; 2; 3]%nat).
    { rewrite E1. split; [cbn; lia|repeat constructor; cbn; intuition discriminate| |reflexivity].
      cbn. apply perm_skip. change [1; 2; 3; 4; 5; 6; 7]%nat with (1 :: [2; 3; 4; 5; 6; 7])%nat. change [2; 3; 4; 5; 6; 7; 1]%nat with ([2; 3; 4; 5; 6; 7] ++ [1])%nat. apply Permutation_sym, Permutation_cons_append. }
    assert (D1 : direct_orientation c [(0, false); (2, false); (3, false); (4, false); (5, false); (6, false); (7, false); (1, false)]%nat = Ok true).
    { unfold direct_orientation. cbn [first_turn]. unfold edge_vector. rewrite E1, E2. cbn [at_throw at_ub nth_error u_edges u_nodes bindO fst snd].
      rewrite Rltb_F; [cbn [bindO]; rewrite Rltb_T; [reflexivity|cbn; lra]|]. unfold Rabs. destruct (Rcase_abs _) as [r|r]; cbn in r |- *; lra. }
    pose proof (find_from c _ _ _ _ _ _ RD CL LO EX R1 D1) as F. rewrite E3 in F. exists c. eexists. exists [4; 5; 6; 7; 0; 1; 2; 3]%nat. split; [exact EC|]. split; [exact F|].
    split; [reflexivity|]. split; [left; apply rotated_refl|]. unfold double_area. cbn. ring.
  - assert (R1 : ring (c_edges c) [(1, false); (0, false); (2, false); (3, false); (4, false); (5, false); (6, false); (7, false)]%nat [3; 4; 5; 6; 7; 0; 1; 2]%nat).
    { rewrite E1. split; [cbn; lia|repeat constructor; cbn; intuition discriminate| |reflexivity]. cbn. apply perm_swap. }
    assert (D1 : direct_orientation c [(1, false); (0, false); (2, false); (3, false); (4, false); (5, false); (6, false); (7, false)]%nat = Ok true).
    { unfold direct_orientation. cbn [first_turn]. unfold edge_vector. rewrite E1, E2. cbn [at_throw at_ub nth_error u_edges u_nodes bindO fst snd].
      rewrite Rltb_F; [cbn [bindO]; rewrite Rltb_T; [reflexivity|cbn; lra]|]. unfold Rabs. destruct (Rcase_abs _) as [r|r]; cbn in r |- *; lra. }
    pose proof (find_from c _ _ _ _ _ _ RD CL LO EX R1 D1) as F. rewrite E3 in F. exists c. eexists. exists [3; 4; 5; 6; 7; 0; 1; 2]%nat. split; [exact EC|]. split; [exact F|].
    split; [reflexivity|]. split; [left; exists [4; 5; 6; 7; 0; 1; 2]%nat, [3]%nat; auto|]. unfold double_area. cbn. ring.
Qed.
Print Assumptions contour_orientation_refuted.
