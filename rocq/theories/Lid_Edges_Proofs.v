(** The edges that the cut of a mesh of triangles adds on the free surface, when no node is exactly on it. *)
From Coq Require Import Reals List Bool Arith ZArith Lra Lia.
From Verif Require Import Common Geometry Sim_Model Hull_Model Hull_Proofs Blocked_Model Blocked_Proofs Mesh_Model Mesh_Spec Mesh_Proofs Mesh_Props Cut_Proofs Triangle_Proofs Cut_Loop_Proofs.
Import ListNotations.
Open Scope R_scope.

Lemma create_edges : forall m os n m' i, create_facet_from_edges m os n = Ok (m', i) -> m_edges m' = m_edges m.
Proof.
  intros m os n m' i H. unfold create_facet_from_edges in H. destruct (vertex_list (m_edges m) os []) as [[vs k]| |]; try discriminate H. cbn [bindO] in H.
  destruct (firstn k vs) as [|v0 vs']; [discriminate H|]. destruct (mapO_list (at_ub (m_all m)) (v0 :: vs')) as [pts| |]; try discriminate H. cbn [bindO] in H. injection H as <- _. reflexivity.
Qed.
Lemma set_insert_end : forall l x, (forall y, In y l -> (y < x)%nat) -> set_insert x l = l ++ [x].
Proof.
  induction l as [|y l IH]; intros x H; [reflexivity|]. cbn [set_insert]. pose proof (H y (or_introl eq_refl)).
  rewrite (proj2 (Nat.ltb_ge x y)) by lia. rewrite (proj2 (Nat.eqb_neq x y)) by lia. cbn [app]. f_equal. apply IH. intros z Hz. apply H. right. exact Hz.
Qed.

(** The end of the handling of a facet that is cut: only the closing edge is added. *)
Lemma split_branch_edges : forall status split I f oes w oi oe p q p' q' I',
  nth_error (m_oef (i_mesh I)) f = Some oes -> foldO (walk_step status split) oes (mkW [] [] 0 0 (-1)%Z (i_on I)) = Ok w ->
  (length (w_em w) <=? 1)%nat = false -> (length (w_im w) <=? 1)%nat = false ->
  nth_error (w_im w) (w_fi w) = Some oi -> nth_error (w_em w) (w_fe w) = Some oe ->
  ends (m_edges (i_mesh I)) oi = Some (p, p') -> ends (m_edges (i_mesh I)) oe = Some (q, q') -> p <> q ->
  split_facet status split I f = Ok I' -> m_edges (i_mesh I') = m_edges (i_mesh I) ++ [(p, q)] /\ i_on I' = set_insert (length (m_edges (i_mesh I))) (w_on w).
Proof.
  intros status split I f oes w oi oe p q p' q' I' H1 H2 H3 H4 H5 H6 H7 H8 N H.
  unfold split_facet in H. rewrite (at_ub_nth _ _ _ H1) in H. cbn [bindO] in H. rewrite H2 in H. cbn [bindO] in H. rewrite H3, H4 in H.
  rewrite (at_ub_nth _ _ _ H5) in H. cbn [bindO] in H. rewrite (ends_first _ _ _ _ H7) in H. cbn [bindO] in H. rewrite (at_ub_nth _ _ _ H6) in H. cbn [bindO] in H.
  rewrite (ends_first _ _ _ _ H8) in H. cbn [bindO add_edge] in H. rewrite (proj2 (Nat.eqb_neq p q) N) in H.
  destruct (insert_ub (w_im w) _ _) as [im| |]; try discriminate H. cbn [bindO] in H. destruct (insert_ub (w_em w) _ _) as [em| |]; try discriminate H. cbn [bindO] in H.
  destruct (at_ub _ f) as [fct| |]; try discriminate H. cbn [bindO] in H.
  destruct (create_facet_from_edges _ em _) as [[m2 fe]| |] eqn:C1; try discriminate H. cbn [bindO] in H. destruct (create_facet_from_edges _ im _) as [[m3 fi]| |] eqn:C2; try discriminate H.
  cbn [bindO] in H. injection H as <-. cbn [i_mesh i_on]. rewrite (create_edges _ _ _ _ _ C2), (create_edges _ _ _ _ _ C1). split; reflexivity.
Qed.

(** Where a triangle of immersions [x], [y], [z] comes under the surface ([p]) and leaves it ([q]). *)
Definition passes (x y z : R) (m0 m1 m2 : nat) (p q : nat) : Prop :=
  ((x < 0 /\ 0 < y /\ p = m0) \/ (y < 0 /\ 0 < z /\ p = m1) \/ (z < 0 /\ 0 < x /\ p = m2)) /\
  ((0 < x /\ y < 0 /\ q = m0) \/ (0 < y /\ z < 0 /\ q = m1) \/ (0 < z /\ x < 0 /\ q = m2)).
Definition same_side (x y z : R) : Prop := (0 < x /\ 0 < y /\ 0 < z) \/ (x < 0 /\ y < 0 /\ z < 0).
Lemma split_edges : forall status split I f o0 o1 o2 a b c A B C x y z s0 t0 m0 s1 t1 m1 s2 t2 m2 nn I',
  nth_error (m_oef (i_mesh I)) f = Some [o0; o1; o2] ->
  edge_facts status split (m_edges (i_mesh I)) (m_all (i_mesh I)) (i_rel I) nn o0 a b A x B y s0 t0 m0 ->
  edge_facts status split (m_edges (i_mesh I)) (m_all (i_mesh I)) (i_rel I) nn o1 b c B y C z s1 t1 m1 ->
  edge_facts status split (m_edges (i_mesh I)) (m_all (i_mesh I)) (i_rel I) nn o2 c a C z A x s2 t2 m2 ->
  (x * y < 0 -> y * z < 0 -> m0 <> m1) -> (y * z < 0 -> z * x < 0 -> m1 <> m2) -> (z * x < 0 -> x * y < 0 -> m2 <> m0) ->
  x <> 0 -> y <> 0 -> z <> 0 -> split_facet status split I f = Ok I' ->
  (same_side x y z /\ m_edges (i_mesh I') = m_edges (i_mesh I) /\ i_on I' = i_on I) \/
  (exists p q, passes x y z m0 m1 m2 p q /\ m_edges (i_mesh I') = m_edges (i_mesh I) ++ [(p, q)] /\ i_on I' = set_insert (length (m_edges (i_mesh I))) (i_on I)).
Proof.
  intros status split I f o0 o1 o2 a b c A B C x y z s0 t0 m0 s1 t1 m1 s2 t2 m2 nn I' HO F0 F1 F2 D01 D12 D20 NX NY NZ H.
  assert (FOLD : forall w w1 w2 w3, walk_step status split w o0 = Ok w1 -> walk_step status split w1 o1 = Ok w2 -> walk_step status split w2 o2 = Ok w3 ->
     foldO (walk_step status split) [o0; o1; o2] w = Ok w3).
  { intros w w1 w2 w3 A1 A2 A3. cbn [foldO]. rewrite A1. cbn [bindO]. rewrite A2. cbn [bindO]. rewrite A3. reflexivity. }
  assert (WHOLE : forall w, foldO (walk_step status split) [o0; o1; o2] (mkW [] [] 0 0 (-1)%Z (i_on I)) = Ok w -> w_on w = i_on I -> ((length (w_em w) <=? 1)%nat || (length (w_im w) <=? 1)%nat = true) -> same_side x y z ->
     (same_side x y z /\ m_edges (i_mesh I') = m_edges (i_mesh I) /\ i_on I' = i_on I) \/
     (exists p q, passes x y z m0 m1 m2 p q /\ m_edges (i_mesh I') = m_edges (i_mesh I) ++ [(p, q)] /\ i_on I' = set_insert (length (m_edges (i_mesh I))) (i_on I))).
  { intros w HW HON HL SS. left. split; [exact SS|]. unfold split_facet in H. rewrite (at_ub_nth _ _ _ HO) in H. cbn [bindO] in H. rewrite HW in H. cbn [bindO] in H.
    destruct (length (w_em w) <=? 1)%nat; [injection H as <-; auto|]. cbn [orb] in HL. rewrite HL in H. injection H as <-. auto. }
  assert (CUT : forall w oi oe p q p' q',
     foldO (walk_step status split) [o0; o1; o2] (mkW [] [] 0 0 (-1)%Z (i_on I)) = Ok w -> w_on w = i_on I ->
     (length (w_em w) <=? 1)%nat = false -> (length (w_im w) <=? 1)%nat = false ->
     nth_error (w_im w) (w_fi w) = Some oi -> nth_error (w_em w) (w_fe w) = Some oe ->
     ends (m_edges (i_mesh I)) oi = Some (p, p') -> ends (m_edges (i_mesh I)) oe = Some (q, q') -> p <> q -> passes x y z m0 m1 m2 p q ->
     (same_side x y z /\ m_edges (i_mesh I') = m_edges (i_mesh I) /\ i_on I' = i_on I) \/
     (exists p q, passes x y z m0 m1 m2 p q /\ m_edges (i_mesh I') = m_edges (i_mesh I) ++ [(p, q)] /\ i_on I' = set_insert (length (m_edges (i_mesh I))) (i_on I))).
  { intros w oi oe p q p' q' HW HON A1 A2 A3 A4 A5 A6 N P. right. exists p, q. split; [exact P|]. rewrite <- HON.
    apply (split_branch_edges status split I f [o0; o1; o2] w oi oe p q p' q'); assumption. }
  pose proof (ef_cut _ _ _ _ _ _ _ _ _ _ _ _ _ _ _ _ F0) as C0. pose proof (ef_cut _ _ _ _ _ _ _ _ _ _ _ _ _ _ _ _ F1) as C1. pose proof (ef_cut _ _ _ _ _ _ _ _ _ _ _ _ _ _ _ _ F2) as C2.
  Local Ltac fwalk F0 F1 F2 FOLD := eapply FOLD; [walks F0; reflexivity|walks F1; reflexivity|walks F2; reflexivity].
  destruct (Rtotal_order x 0) as [X|[X|X]]; [|contradiction|]; (destruct (Rtotal_order y 0) as [Y|[Y|Y]]; [|contradiction|]); (destruct (Rtotal_order z 0) as [Z|[Z|Z]]; [|contradiction|]).
  all: try (assert (XY : x * y < 0) by nra; destruct (C0 XY) as (C01 & C02 & C03 & C04 & C05)).
  all: try (assert (YZ : y * z < 0) by nra; destruct (C1 YZ) as (C11 & C12 & C13 & C14 & C15)).
  all: try (assert (ZX : z * x < 0) by nra; destruct (C2 ZX) as (C21 & C22 & C23 & C24 & C25)).
  all: try (specialize (D01 XY YZ)). all: try (specialize (D12 YZ ZX)). all: try (specialize (D20 ZX XY)).
  all: try (eapply WHOLE; [fwalk F0 F1 F2 FOLD|reflexivity|reflexivity|unfold same_side; lra]; fail).
  all: eapply CUT; [ fwalk F0 F1 F2 FOLD | reflexivity | reflexivity | reflexivity | reflexivity | reflexivity | eassumption | eassumption | congruence | unfold passes; split; auto 7 ].
Qed.

Section Closings.
  Variables (m0 : mesh) (rel0 waves0 : list R) (s : scan).
  Let nn := m_nnodes m0.
  Let ne := m_nedges m0.
  Hypothesis WF : well_formed m0.
  Hypothesis HR : length rel0 = nn.
  Hypothesis HW : length waves0 = nn.
  Hypothesis SI : sinv m0 rel0 waves0 ne s.
  Let z (i : nat) : R := nth i rel0 0.
  (** The surface goes through no node. *)
  Hypothesis OFF : forall i, (i < nn)%nat -> z i <> 0.

  (** The oriented edge goes under the surface / above it *)
  Definition enters (o : nat) : bool := match ends (static_edges m0) o with Some (a, b) => if Rlt_dec (nth a rel0 0) 0 then if Rlt_dec 0 (nth b rel0 0) then true else false else false | None => false end.
  Definition leaves (o : nat) : bool := match ends (static_edges m0) o with Some (a, b) => if Rlt_dec 0 (nth a rel0 0) then if Rlt_dec (nth b rel0 0) 0 then true else false else false | None => false end.
  (** The edges added on the surface for a facet of oriented edges [oes], and for the mesh *)
  Definition closing (oes : list nat) : list (nat * nat) := combine (map (omid m0 rel0) (filter enters oes)) (map (omid m0 rel0) (filter leaves oes)).
  Definition closings : list (nat * nat) := flat_map closing (m_oef m0).

  Lemma enters_eq : forall o a b, ends (static_edges m0) o = Some (a, b) -> enters o = if Rlt_dec (nth a rel0 0) 0 then if Rlt_dec 0 (nth b rel0 0) then true else false else false.
  Proof. intros o a b H. unfold enters. rewrite H. reflexivity. Qed.
  Lemma leaves_eq : forall o a b, ends (static_edges m0) o = Some (a, b) -> leaves o = if Rlt_dec 0 (nth a rel0 0) then if Rlt_dec (nth b rel0 0) 0 then true else false else false.
  Proof. intros o a b H. unfold leaves. rewrite H. reflexivity. Qed.

  Lemma closing_step : forall I I' f, grown (s_inter s) I -> (f < m_nfacets m0)%nat -> (forall e, In e (i_on I) -> (e < length (m_edges (i_mesh I)))%nat) ->
    (do c <- at_ub (s_flags s) f; if c : bool then split_facet (s_status s) (s_split s) I f else classify_facet (s_status s) I f) = Ok I' ->
    exists oes, nth_error (m_oef m0) f = Some oes /\ m_edges (i_mesh I') = m_edges (i_mesh I) ++ closing oes /\
      i_on I' = i_on I ++ seq (length (m_edges (i_mesh I))) (length (closing oes)).
  Proof.
    intros I I' f G Hf LT H. destruct (g_mesh _ _ G) as (_ & GO & _ & _ & _ & GA & _). destruct (g_inter _ _ G) as (GR & _).
    rewrite (v_oef _ _ _ _ _ SI) in GO.
    destruct (nth_error (m_oef m0) f) as [oes|] eqn:EO. 2:{ apply nth_error_None in EO. rewrite (wf_oef _ WF) in EO. lia. }
    destruct (nth_error (m_facets m0) f) as [fc|] eqn:EF. 2:{ apply nth_error_None in EF. pose proof (wf_facets _ WF). lia. }
    destruct (wf_tri _ WF f oes fc EO EF) as (a & b & c & EV & Nab & Nbc & Nca & EE).
    destruct oes as [|o0 [|o1 [|o2 [|]]]]; try discriminate EE. injection EE as E0 E1' E2. exists [o0; o1; o2]. split; [reflexivity|].
    assert (LB : (a < nn /\ b < nn /\ c < nn)%nat).
    { assert (Z0 : forall o u v, ends (static_edges m0) o = Some (u, v) -> (u < nn /\ v < nn)%nat).
      { intros o u v H'. unfold ends in H'. destruct (nth_error (static_edges m0) (Nat.div2 o)) as [[u' v']|] eqn:Q; [|discriminate].
        apply (wf_ends _ WF) in Q. destruct (Nat.odd o); injection H' as <- <-; unfold nn; tauto. }
      apply Z0 in E0. apply Z0 in E1'. tauto. }
    destruct LB as (La & Lb & Lc). pose proof (OFF a La) as NA. pose proof (OFF b Lb) as NB. pose proof (OFF c Lc) as NC. unfold z in NA, NB, NC.
    destruct (nth_error (s_flags s) f) as [flag|] eqn:FL. 2:{ apply nth_error_None in FL. rewrite (v_flags _ _ _ _ _ SI) in FL. lia. }
    rewrite (at_ub_nth _ _ _ FL) in H. cbn [bindO] in H.
    assert (NONE : same_side (nth a rel0 0) (nth b rel0 0) (nth c rel0 0) -> closing [o0; o1; o2] = []).
    { intros SS. unfold closing. cbn [filter]. rewrite (enters_eq _ _ _ E0), (enters_eq _ _ _ E1'), (enters_eq _ _ _ E2).
      repeat match goal with |- context [Rlt_dec ?u ?v] => destruct (Rlt_dec u v) end; try reflexivity; exfalso; destruct SS as [SS|SS]; lra. }
    destruct flag.
    - destruct (split_edges (s_status s) (s_split s) I f o0 o1 o2 a b c (pa m0 a) (pa m0 b) (pa m0 c) (z a) (z b) (z c)
        (sub_first m0 rel0 o0) (sub_second m0 rel0 o0) (omid m0 rel0 o0) (sub_first m0 rel0 o1) (sub_second m0 rel0 o1) (omid m0 rel0 o1)
        (sub_first m0 rel0 o2) (sub_second m0 rel0 o2) (omid m0 rel0 o2) nn I') as [(SS & R1 & R2)|(p & q & P & R1 & R2)]; try assumption.
      + rewrite GO. exact EO.
      + apply (facts m0 rel0 waves0 s WF HR HW SI); assumption.
      + apply (facts m0 rel0 waves0 s WF HR HW SI); assumption.
      + apply (facts m0 rel0 waves0 s WF HR HW SI); assumption.
      + intros. apply (omid_distinct m0 rel0 waves0 WF HR HW o0 o1 a b c); auto.
      + intros. apply (omid_distinct m0 rel0 waves0 WF HR HW o1 o2 b c a); auto.
      + intros. apply (omid_distinct m0 rel0 waves0 WF HR HW o2 o0 c a b); auto.
      + rewrite (NONE SS). cbn. rewrite !app_nil_r. auto.
      + assert (CE : closing [o0; o1; o2] = [(p, q)]).
        { unfold closing. cbn [filter]. rewrite (enters_eq _ _ _ E0), (enters_eq _ _ _ E1'), (enters_eq _ _ _ E2), (leaves_eq _ _ _ E0), (leaves_eq _ _ _ E1'), (leaves_eq _ _ _ E2).
          unfold passes, z in P. destruct P as [[P|[P|P]] [Q|[Q|Q]]]; destruct P as (P1 & P2 & ->), Q as (Q1 & Q2 & ->); try (exfalso; lra).
          all: repeat match goal with |- context [Rlt_dec ?u ?v] => destruct (Rlt_dec u v) end; try (exfalso; lra); reflexivity. }
        rewrite CE. cbn [length seq]. split; [exact R1|]. rewrite R2. apply set_insert_end. exact LT.
    - assert (NT : forall o u v, In o [o0; o1; o2] -> ends (static_edges m0) o = Some (u, v) -> (0 < z u /\ 0 < z v) \/ (z u < 0 /\ z v < 0)).
      { intros o u v Ho H'. destruct (wf_fpe_has _ WF f _ o EO Ho) as (l & El & Hl). destruct (oriented_edge0 m0 rel0 waves0 WF HR HW o u v H') as [L _].
        destruct (touching m0 rel0 (Nat.div2 o)) eqn:T.
        - pose proof (v_flagged _ _ _ _ _ SI (Nat.div2 o) l f L T El Hl). congruence.
        - unfold touching in T. rewrite (oriented_status m0 rel0 waves0 WF HR HW o u v H') in T. unfold z.
          fold (za rel0 u) (za rel0 v).
          destruct (Nat.odd o); [destruct (status_cases (za rel0 v) (za rel0 u)) as [D|[D|[D|[D|[D|[D|[D|[D|D]]]]]]]]|destruct (status_cases (za rel0 u) (za rel0 v)) as [D|[D|[D|[D|[D|[D|[D|[D|D]]]]]]]]];
          destruct D as (A & B & Q); rewrite Q in T; try discriminate T; tauto. }
      pose proof (NT o0 a b (or_introl eq_refl) E0) as T0. pose proof (NT o1 b c (or_intror (or_introl eq_refl)) E1') as T1.
      rewrite NONE by (unfold same_side, z in *; lra). cbn. rewrite !app_nil_r.
      unfold classify_facet in H. destruct (at_ub (m_oef (i_mesh I)) f) as [oes| |]; try discriminate H. cbn [bindO] in H. destruct (at_ub oes 0) as [o| |]; try discriminate H. cbn [bindO] in H.
      destruct (at_ub (s_status s) (edge_index o)) as [st| |]; try discriminate H. cbn [bindO] in H. destruct (is_emerged st); injection H as <-; auto.
  Qed.

  Lemma closing_loop : forall j k I I', grown (s_inter s) I -> on_ok I -> (k + j = m_nfacets m0)%nat ->
    foldO (fun I f => do c <- at_ub (s_flags s) f; if c : bool then split_facet (s_status s) (s_split s) I f else classify_facet (s_status s) I f) (seq k j) I = Ok I' ->
    m_edges (i_mesh I) = E1 m0 rel0 ne ++ flat_map closing (firstn k (m_oef m0)) -> i_on I = seq (length (E1 m0 rel0 ne)) (length (flat_map closing (firstn k (m_oef m0)))) ->
    m_edges (i_mesh I') = E1 m0 rel0 ne ++ closings /\ i_on I' = seq (length (E1 m0 rel0 ne)) (length closings).
  Proof.
    induction j as [|j IH]; intros k I I' G OK K H HE HO; cbn [seq foldO] in H.
    - injection H as <-. rewrite firstn_all2 in HE, HO by (rewrite (wf_oef _ WF); lia). auto.
    - destruct (facet_step m0 rel0 waves0 s WF HR HW SI I k G OK) as (J & im & em & E & G' & OK' & _); [lia|]. rewrite E in H. cbn [bindO] in H.
      destruct (closing_step I J k G) as (oes & EO & JE & JO); [lia| |exact E|].
      { intros e He. rewrite HO in He. apply in_seq in He. rewrite HE, app_length. lia. }
      assert (FN : firstn (S k) (m_oef m0) = firstn k (m_oef m0) ++ [oes]).
      { clear - EO. revert EO. generalize (m_oef m0). intros l. revert k. induction l as [|x l IH]; intros [|k] H; try discriminate H; cbn in *; [congruence|]. f_equal. apply IH. exact H. }
      apply (IH (S k) J I' G' OK'); [lia|exact H| |].
      + rewrite JE, HE, FN, flat_map_app. cbn [flat_map]. rewrite app_nil_r, app_assoc. reflexivity.
      + rewrite JO, HO, HE, FN, flat_map_app. cbn [flat_map]. rewrite app_nil_r, !app_length, seq_app. reflexivity.
  Qed.
End Closings.

(** The edges on the surface after an update. *)
Lemma update_closings : forall I rel waves I', well_formed (i_mesh I) -> length rel = m_nnodes (i_mesh I) -> length waves = m_nnodes (i_mesh I) ->
  (forall i, (i < m_nnodes (i_mesh I))%nat -> nth i rel 0 <> 0) -> update_intersection I rel waves = Ok I' ->
  let m := i_mesh I in let E := E1 m rel (m_nedges m) in
  m_edges (i_mesh I') = E ++ closings m rel /\ i_on I' = seq (length E) (length (closings m rel)) /\ i_closing I' = true.
Proof.
  intros I rel waves I' WF HR HW OFF H m E. unfold update_intersection in H. fold m in H. fold m in WF, HR, HW, OFF.
  set (I0 := reset_dynamic_members _) in H. change (m_nedges (i_mesh I0)) with (m_nedges m) in H. change (m_nfacets (i_mesh I0)) with (m_nfacets m) in H.
  set (s0 := mkS I0 (repeat O (m_nedges m)) (repeat O (m_nedges m)) (repeat false (m_nfacets m))) in H.
  assert (S0 : sinv m rel waves 0 s0).
  { constructor; cbn; try reflexivity; try (repeat split; reflexivity).
    - unfold E1. cbn. rewrite app_nil_r. reflexivity.
    - rewrite Nat.add_0_r, app_nil_r. split; [exact (wf_all _ WF)|reflexivity].
    - rewrite Nat.add_0_r. reflexivity.
    - rewrite app_nil_r. reflexivity.
    - rewrite app_nil_r. reflexivity.
    - unfold status1. cbn. rewrite Nat.sub_0_r, app_nil_r. reflexivity.
    - unfold split1. cbn. rewrite Nat.sub_0_r. reflexivity.
    - apply repeat_length.
    - intros; lia. }
  unfold find_intersection in H. change (m_nedges (i_mesh (s_inter s0))) with (m_nedges m) in H.
  destruct (scan_all m rel waves WF HR HW (m_nedges m) 0 s0 S0 eq_refl) as (s & ES & SI). rewrite ES in H. cbn [bindO] in H.
  unfold classify_or_split in H. destruct (v_counts _ _ _ _ _ SI) as (VC1 & VC2 & VC3). rewrite VC3 in H.
  destruct (v_lists _ _ _ _ _ SI) as (VL1 & VL2 & VL3 & VL4).
  destruct (foldO _ (seq 0 (m_nfacets m)) (s_inter s)) as [I2| |] eqn:E2; try discriminate H. cbn [bindO] in H.
  destruct (closing_loop m rel waves s WF HR HW SI OFF (m_nfacets m) 0 (s_inter s) I2) as (Q1 & Q2).
  - apply grown_refl.
  - intros e He. rewrite VL3 in He. destruct He.
  - reflexivity.
  - exact E2.
  - cbn. rewrite app_nil_r. exact (v_edges _ _ _ _ _ SI).
  - cbn. exact VL3.
  - destruct (mapO_list _ _) as [abs| |]; try discriminate H. cbn [bindO] in H. injection H as <-. cbn. auto.
Qed.
