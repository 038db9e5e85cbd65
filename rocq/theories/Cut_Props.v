(** C42, C43, C44: cutting a mesh of triangles by the free surface. *)
From Coq Require Import Reals List Bool Arith ZArith Lra Lia.
From Verif Require Import Common Geometry Sim_Model Hull_Model Hull_Proofs Blocked_Model Blocked_Proofs Mesh_Model Mesh_Spec Mesh_Proofs Mesh_Props Cut_Proofs Triangle_Proofs Cut_Loop_Proofs.
Import ListNotations.
Open Scope R_scope.

(** A list of triangles with distinct corners: what is read from an STL file without degenerate triangles. *)
Definition triangle_mesh (v : list (list vec3)) : Prop := forall l, In l v -> exists A B C, l = [A; B; C] /\ A <> B /\ B <> C /\ C <> A.

Lemma uses_in : forall e oes, (0 < uses e oes)%nat <-> exists o, In o oes /\ Nat.div2 o = e.
Proof.
  intros e oes. unfold uses. split.
  - intros H. apply count_occ_In in H. apply in_map_iff in H as (o & A & B). exists o. auto.
  - intros (o & A & <-). apply count_occ_In. apply in_map. exact A.
Qed.
Lemma Forall2_nth_l : forall {A B} (P : A -> B -> Prop) l k i a b, Forall2 P l k -> nth_error l i = Some a -> nth_error k i = Some b -> P a b.
Proof. intros A B P l k i a b F. revert i. induction F as [|x y l k H F IH]; intros [|i] H1 H2; try discriminate; [injection H1 as <-; injection H2 as <-; exact H|exact (IH i H1 H2)]. Qed.
Lemma Forall2_length' : forall {A B} (P : A -> B -> Prop) l k, Forall2 P l k -> length l = length k.
Proof. intros A B P l k F. induction F; cbn; congruence. Qed.
Lemma build_mesh_shape : forall check v m, build_mesh check v = Ok m -> m_nedges m = length (m_edges m) /\ m_nfacets m = length (m_facets m) /\
  length (m_all m) = (m_nnodes m + m_nedges m)%nat /\ m_total m = m_nnodes m.
Proof.
  intros check v m H. unfold build_mesh in H. destruct (if check then _ else _) as [cw| |]; try discriminate H. cbn [bindO] in H.
  destruct (foldO build_facet_of v (builder_init v)) as [b| |]; try discriminate H. cbn [bindO] in H. destruct (resize_nodes b) as [n| |]; try discriminate H.
  cbn [bindO] in H. injection H as <-. unfold make_mesh. cbn. rewrite app_length, repeat_length. auto.
Qed.
Lemma in_combine_l' : forall {A B} (l : list A) (k : list B) a b, In (a, b) (combine l k) -> In a l /\ In b k.
Proof. intros. split; [eapply in_combine_l|eapply in_combine_r]; eassumption. Qed.
Lemma cyclic_in : forall {A} (l : list A) a b, In (a, b) (cyclic_pairs l) -> In a l /\ In b l.
Proof.
  intros A [|x l] a b H; [destruct H|]. unfold cyclic_pairs in H. apply in_combine_l' in H as [H1 H2]. split; [exact H1|].
  apply in_app_iff in H2 as [H2|[<-|[]]]; [right; exact H2|left; reflexivity].
Qed.

Lemma built_well_formed : forall check v m, triangle_mesh v -> build_mesh check v = Ok m -> well_formed m.
Proof.
  intros check v m T B. pose proof (mesh_tables_are_faithful check v m B) as [TF TG TN TI TE TO TL TC TU].
  destruct (build_mesh_shape _ _ _ B) as (S1 & S2 & S3 & S4).
  assert (SE : static_edges m = m_edges m) by (unfold static_edges; rewrite S1; apply firstn_all).
  assert (LO : length (m_oef m) = length (m_facets m)) by (symmetry; exact (Forall2_length' _ _ _ TO)).
  assert (TRI : forall f fc, nth_error (m_facets m) f = Some fc -> exists a b c, mf_vertices fc = [a; b; c] /\ a <> b /\ b <> c /\ c <> a /\
     (a < m_nnodes m /\ b < m_nnodes m /\ c < m_nnodes m)%nat).
  { intros f fc Hf. destruct (nth_error (filter (fun l => negb (length l =? 0)%nat) v) f) as [pts|] eqn:Ep.
    2:{ apply nth_error_None in Ep. rewrite (Forall2_length' _ _ _ TF) in Ep. assert (f < length (m_facets m))%nat by (apply nth_error_Some; congruence). lia. }
    pose proof (Forall2_nth_l _ _ _ _ _ _ TF Ep Hf) as HP. cbv beta in HP.
    apply nth_error_In, filter_In in Ep as [Ep _]. destruct (T _ Ep) as (A & B' & C & -> & N1 & N2 & N3).
    unfold has_points in HP. destruct (mf_vertices fc) as [|a [|b [|c [|]]]]; try discriminate HP. injection HP as P1 P2 P3.
    exists a, b, c. split; [reflexivity|]. assert (BD : forall i p, nth_error (static_nodes m) i = Some p -> (i < m_nnodes m)%nat).
    { intros i p H. assert (i < length (static_nodes m))%nat by (apply nth_error_Some; congruence). unfold static_nodes in *. rewrite firstn_length in *. lia. }
    repeat split; try (intros ->; congruence); eapply BD; eassumption. }
  constructor; rewrite ?SE.
  - lia.
  - exact S3.
  - lia.
  - congruence.
  - congruence.
  - intros e a b H. assert (He : (e < length (m_edges m))%nat) by (apply nth_error_Some; congruence).
    destruct (TU e He) as (f & oes & Ho & Hu). apply uses_in in Hu as (o & Oin & <-).
    assert (Hf : (f < length (m_facets m))%nat) by (rewrite <- LO; apply nth_error_Some; congruence).
    destruct (nth_error (m_facets m) f) as [fc|] eqn:Ef; [|apply nth_error_None in Ef; lia].
    destruct (TRI f fc Ef) as (x & y & w & EV & _ & _ & _ & X1 & X2 & X3).
    pose proof (Forall2_nth_l _ _ _ _ _ _ TO Ef Ho) as M. cbv beta in M.
    assert (EI : In (ends (m_edges m) o) (map Some (cyclic_pairs (mf_vertices fc)))) by (rewrite <- M; apply in_map; exact Oin).
    unfold ends in EI. rewrite H in EI. apply in_map_iff in EI as ([p q] & Epq & Ipq). apply cyclic_in in Ipq. rewrite EV in Ipq. cbn [In] in Ipq.
    destruct (Nat.odd o); injection Epq as -> ->; destruct Ipq as [[<-|[<-|[<-|[]]]] [<-|[<-|[<-|[]]]]]; auto.
  - intros e l f Hl Hin. apply (count_occ_In Nat.eq_dec) in Hin. rewrite (TC e f l Hl) in Hin.
    destruct (nth_error (m_oef m) f) eqn:E; [|lia]. rewrite S2, <- LO. apply nth_error_Some. congruence.
  - intros f oes o Ho Hin.
    destruct (nth_error (m_fpe m) (Nat.div2 o)) as [l|] eqn:El.
    + exists l. split; [reflexivity|]. apply (count_occ_In Nat.eq_dec). rewrite (TC _ f l El), Ho. apply uses_in. exists o. auto.
    + exfalso. apply nth_error_None in El.
      assert (Hf : (f < length (m_facets m))%nat) by (rewrite <- LO; apply nth_error_Some; congruence).
      destruct (nth_error (m_facets m) f) as [fc|] eqn:Ef; [|apply nth_error_None in Ef; lia].
      pose proof (Forall2_nth_l _ _ _ _ _ _ TO Ef Ho) as M. cbv beta in M.
      assert (EI : In (ends (m_edges m) o) (map Some (cyclic_pairs (mf_vertices fc)))) by (rewrite <- M; apply in_map; exact Hin).
      unfold ends in EI. rewrite TL in El. rewrite (proj2 (nth_error_None _ _) El) in EI. apply in_map_iff in EI as (? & ? & ?). discriminate.
  - intros f oes fc Ho Hf. destruct (TRI f fc Hf) as (a & b & c & EV & N1 & N2 & N3 & _). exists a, b, c. repeat (split; [assumption|]).
    pose proof (Forall2_nth_l _ _ _ _ _ _ TO Hf Ho) as M. cbv beta in M. rewrite EV in M. exact M.
Qed.

(** Nodes added by a cut: one per edge with its ends strictly on both sides of the surface, in the order of the edges. *)
Definition cut_edges (rel : list R) (edges : list (nat * nat)) : list (nat * nat) :=
  filter (fun e => if Rlt_dec (nth (fst e) rel 0 * nth (snd e) rel 0) 0 then true else false) edges.
Definition cut_points (nodes : list vec3) (rel : list R) (edges : list (nat * nat)) : list vec3 :=
  map (fun e => cut (nth (fst e) nodes v0, nth (fst e) rel 0) (nth (snd e) nodes v0, nth (snd e) rel 0)) (cut_edges rel edges).

Definition cut_waves (rel waves : list R) (edges : list (nat * nat)) : list R :=
  map (fun e => nth (fst e) waves 0 + nth (fst e) rel 0 / (nth (fst e) rel 0 - nth (snd e) rel 0) * (nth (snd e) waves 0 - nth (fst e) waves 0)) (cut_edges rel edges).

(** The result of cutting the mesh [m] with immersions [rel] and elevations [waves]. *)
Record surface_cut (m : mesh) (rel waves : list R) (I : inter) : Prop := {
  sc_static : same_static m (i_mesh I);
  sc_nodes : firstn (m_total (i_mesh I)) (m_all (i_mesh I)) = static_nodes m ++ cut_points (static_nodes m) rel (static_edges m) /\
             m_total (i_mesh I) = (m_nnodes m + length (cut_edges rel (static_edges m)))%nat;
  sc_rel : i_rel I = rel ++ map (fun _ => 0) (cut_edges rel (static_edges m));
  sc_waves : i_waves I = waves ++ cut_waves rel waves (static_edges m);
  sc_halves : forall e a b, nth_error (static_edges m) e = Some (a, b) -> nth a rel 0 * nth b rel 0 < 0 ->
    let t := nth a rel 0 / (nth a rel 0 - nth b rel 0) in
    exists c h, (m_nnodes m <= c < m_total (i_mesh I))%nat /\ nth_error (m_edges (i_mesh I)) h = Some (a, c) /\ nth_error (m_edges (i_mesh I)) (S h) = Some (c, b) /\ nth_error (m_all (i_mesh I)) c = Some (cut (nth a (static_nodes m) v0, nth a rel 0) (nth b (static_nodes m) v0, nth b rel 0)) /\
      nth_error (i_rel I) c = Some 0 /\ nth_error (i_waves I) c = Some (nth a waves 0 + t * (nth b waves 0 - nth a waves 0));
  sc_abs : forall i r w, nth_error (i_rel I) i = Some r -> nth_error (i_waves I) i = Some w -> nth_error (i_abs I) i = Some (r + w);
  sc_facets : exists ims ems, length ims = m_nfacets m /\ length ems = m_nfacets m /\ i_immersed I = concat ims /\ i_emerged I = concat ems /\
              forall f im em, nth_error ims f = Some im -> nth_error ems f = Some em -> cut_as (m_all (i_mesh I)) (m_facets (i_mesh I)) (fun i => nth i rel 0) f im em;
  sc_on : on_ok I;
  sc_surface : i_surface I = [] /\ i_closing I = true
}.

Lemma filter_map_comm : forall {A B} (f : A -> B) (p : B -> bool) l, filter p (map f l) = map f (filter (fun x => p (f x)) l).
Proof. intros. induction l as [|a l IH]; [reflexivity|]. cbn. destruct (p (f a)); cbn; congruence. Qed.
Lemma cut_edges_cl : forall m rel, well_formed m -> cut_edges rel (static_edges m) = map (edge0 m) (cl m rel (m_nedges m)).
Proof.
  intros m rel WF. assert (L : length (static_edges m) = m_nedges m) by (unfold static_edges; rewrite firstn_length; pose proof (wf_edges _ WF); lia).
  assert (E : static_edges m = map (edge0 m) (seq 0 (m_nedges m))).
  { rewrite <- L. unfold edge0. generalize (static_edges m) (0%nat, 0%nat). clear. intros l d.
    assert (G : forall pre, map (fun e => nth e (pre ++ l) d) (seq (length pre) (length l)) = l).
    { induction l as [|a l IH]; intros pre; [reflexivity|]. cbn [length seq map]. f_equal; [rewrite app_nth2, Nat.sub_diag by lia; reflexivity|].
      specialize (IH (pre ++ [a])). rewrite <- app_assoc, app_length in IH. cbn [app length] in IH. rewrite Nat.add_1_r in IH. exact IH. }
    symmetry. exact (G []). }
  rewrite E. unfold cut_edges. rewrite filter_map_comm. f_equal. unfold cl. apply filter_ext. intros e. unfold crossing, est.
  destruct (Rlt_dec _ 0) as [H|H].
  - symmetry. apply crosses_iff. exact H.
  - destruct (crosses _) eqn:C; [|reflexivity]. apply crosses_iff in C. contradiction.
Qed.

Lemma firstn_pre : forall {A} (l k : list A) n, length l = n -> firstn n (l ++ k) = l.
Proof. intros A l k n <-. rewrite firstn_app, firstn_all, Nat.sub_diag. cbn. apply app_nil_r. Qed.
Lemma sums : forall (rel waves : list R), length rel = length waves -> exists l,
  mapO_list (fun i => do r <- at_ub rel i; do w <- at_ub waves i; Ok (r + w)) (seq 0 (length waves)) = Ok l /\
  forall i r w, nth_error rel i = Some r -> nth_error waves i = Some w -> nth_error l i = Some (r + w).
Proof.
  assert (G : forall (waves rel pw pr : list R), length rel = length waves -> length pr = length pw -> exists l,
    mapO_list (fun i => do r <- at_ub (pr ++ rel) i; do w <- at_ub (pw ++ waves) i; Ok (r + w)) (seq (length pw) (length waves)) = Ok l /\
    forall i r w, nth_error rel i = Some r -> nth_error waves i = Some w -> nth_error l i = Some (r + w)).
  { induction waves as [|w waves IH]; intros [|r rel] pw pr H H'; try discriminate H.
    - exists []. split; [reflexivity|]. intros [|]; discriminate.
    - cbn [length seq mapO_list].
      assert (A1 : at_ub (pr ++ r :: rel) (length pw) = Ok r) by (unfold at_ub; rewrite nth_error_app2 by lia; rewrite H', Nat.sub_diag; reflexivity).
      assert (A2 : at_ub (pw ++ w :: waves) (length pw) = Ok w) by (unfold at_ub; rewrite nth_error_app2 by lia; rewrite Nat.sub_diag; reflexivity).
      rewrite A1. cbn [bindO]. rewrite A2. cbn [bindO].
      destruct (IH rel (pw ++ [w]) (pr ++ [r])) as (l & E & N); [cbn in H; lia|rewrite !app_length; cbn; lia|].
      rewrite <- !app_assoc in E. cbn [app] in E. rewrite app_length in E. cbn [length] in E. rewrite Nat.add_1_r in E. rewrite E. cbn [bindO].
      exists (r + w :: l). split; [reflexivity|]. intros [|i] r' w' H1 H2; [injection H1 as <-; injection H2 as <-; reflexivity|apply N; assumption]. }
  intros rel waves H. exact (G waves rel [] [] H eq_refl).
Qed.

Lemma update_spec : forall I rel waves, well_formed (i_mesh I) -> length rel = m_nnodes (i_mesh I) -> length waves = m_nnodes (i_mesh I) ->
  exists I', update_intersection I rel waves = Ok I' /\ surface_cut (i_mesh I) rel waves I'.
Proof.
  intros I rel waves WF HR HW. set (m := i_mesh I) in *. unfold update_intersection. fold m.
  assert (L : length (static_edges m) = m_nedges m) by (unfold static_edges; rewrite firstn_length; pose proof (wf_edges _ WF); lia).
  set (I0 := reset_dynamic_members _). change (m_nedges (i_mesh I0)) with (m_nedges m). change (m_nfacets (i_mesh I0)) with (m_nfacets m).
  set (s0 := mkS I0 (repeat O (m_nedges m)) (repeat O (m_nedges m)) (repeat false (m_nfacets m))).
  assert (S0 : sinv m rel waves 0 s0).
  { constructor; cbn; try reflexivity; try (repeat split; reflexivity).
    - unfold E1. cbn. rewrite app_nil_r. reflexivity.
    - rewrite Nat.add_0_r, app_nil_r. split; [exact (wf_all _ WF)|reflexivity].
    - rewrite Nat.add_0_r. reflexivity.
    - rewrite app_nil_r. reflexivity.
    - rewrite app_nil_r. reflexivity.
    - unfold status1. cbn. rewrite Nat.sub_0_r, app_nil_r. reflexivity.
    - unfold split1. cbn. rewrite Nat.sub_0_r. reflexivity.
    - apply repeat_length.
    - intros; lia. }
  unfold find_intersection. change (m_nedges (i_mesh (s_inter s0))) with (m_nedges m).
  destruct (scan_all m rel waves WF HR HW (m_nedges m) 0 s0 S0 eq_refl) as (s & ES & SI). rewrite ES. cbn [bindO].
  unfold classify_or_split. destruct (v_counts _ _ _ _ _ SI) as (VC1 & VC2 & VC3). rewrite VC3.
  destruct (v_lists _ _ _ _ _ SI) as (VL1 & VL2 & VL3 & VL4).
  destruct (facet_loop m rel waves s WF HR HW SI (m_nfacets m) 0 (s_inter s) [] []) as (I2 & ims & ems & E2 & G & OK & N1 & N2 & C1 & C2 & H).
  - apply grown_refl.
  - intros e He. rewrite VL3 in He. destruct He.
  - reflexivity.
  - reflexivity.
  - reflexivity.
  - rewrite VL2. reflexivity.
  - rewrite VL1. reflexivity.
  - intros f im em Hf. destruct f; discriminate Hf.
  - rewrite E2. cbn [bindO].
    destruct (g_inter _ _ G) as (G1 & G2 & G3 & G4 & G5). destruct (g_mesh _ _ G) as (M1 & M2 & M3 & M4 & M5 & M6 & M7 & M8).
    pose proof (v_rel _ _ _ _ _ SI) as VR. pose proof (v_waves _ _ _ _ _ SI) as VW.
    destruct (sums (i_rel I2) (i_waves I2)) as (abs & EA & HA). { rewrite G1, G2, VR, VW, !app_length, !map_length. lia. }
    rewrite EA. cbn [bindO]. eexists. split; [reflexivity|].
    destruct (v_all _ _ _ _ _ SI) as [VA1 VA2]. pose proof (cut_edges_cl m rel WF) as CE.
    assert (LN : length (static_nodes m) = m_nnodes m) by (unfold static_nodes; rewrite firstn_length; pose proof (wf_all _ WF); lia).
    destruct (g_edges _ _ G) as (X & GX). destruct (g_facets _ _ G) as (Y & GY). rewrite (v_edges _ _ _ _ _ SI) in GX. rewrite (v_facets _ _ _ _ _ SI) in GY.
    assert (LF : length (firstn (m_nfacets m) (m_facets m)) = m_nfacets m) by (rewrite firstn_length; pose proof (wf_facets _ WF); lia).
    constructor; cbn [i_mesh i_rel i_waves i_abs i_immersed i_emerged i_surface i_closing].
    + constructor.
      * rewrite M3, M4, M5. auto.
      * rewrite M1, M2, M8, (v_fpe _ _ _ _ _ SI), (v_oef _ _ _ _ _ SI), (v_orientation _ _ _ _ _ SI). auto.
      * unfold static_nodes at 1. rewrite M3, M6, VC1. rewrite <- (firstn_skipn (m_nnodes m + rank m rel (m_nedges m)) (m_all (i_mesh (s_inter s)))), VA2, <- app_assoc.
        apply firstn_pre. exact LN.
      * unfold static_edges at 1. rewrite M4, VC2, GX. unfold E1. rewrite <- app_assoc. apply firstn_pre. exact L.
      * rewrite GY. apply firstn_pre. exact LF.
      * rewrite M6, VA1, GX, GY, (wf_all _ WF). unfold E1. rewrite !app_length, L, LF. lia.
    + split.
      * rewrite M7, M6, (v_total _ _ _ _ _ SI), VA2. f_equal. unfold cut_points. rewrite CE, map_map. apply map_ext_in. intros e He.
        unfold cl in He. apply filter_In in He as [_ C]. unfold midpt, cut, edge_intersection. cbn [fst snd]. fold (pa m (fst (edge0 m e))) (pa m (snd (edge0 m e))).
        fold (za rel (fst (edge0 m e))) (za rel (snd (edge0 m e))).
        destruct (pa m (fst (edge0 m e))) as [a1 a2 a3], (pa m (snd (edge0 m e))) as [b1 b2 b3]. unfold vadd, vscale, vsub. cbn [vx vy vz]. reflexivity.
      * rewrite M7, (v_total _ _ _ _ _ SI), CE, map_length. reflexivity.
    + rewrite G1, VR, CE, map_map. reflexivity.
    + rewrite G2, VW. unfold cut_waves. rewrite CE, map_map. reflexivity.
    + intros e a b He X0.
      assert (Le : (e < m_nedges m)%nat) by (rewrite <- L; apply nth_error_Some; congruence).
      assert (Ee : edge0 m e = (a, b)) by (unfold edge0; exact (nth_error_nth _ _ _ He)).
      assert (CR : crossing m rel e = true) by (unfold crossing, est; rewrite Ee; cbn [fst snd]; apply crosses_iff; exact X0).
      pose proof (nth_cl m rel _ e Le CR) as NC. pose proof (rank_lt m rel e _ Le CR) as RL.
      assert (LC : length (cl m rel (m_nedges m)) = rank m rel (m_nedges m)) by reflexivity.
      exists (mid m rel e), (m_nedges m + 2 * rank m rel e)%nat. split; [|split; [|split; [|split; [|split]]]].
      * rewrite M7, (v_total _ _ _ _ _ SI). unfold mid. lia.
      * rewrite GX. apply nth_error_mono. unfold E1. rewrite nth_error_app2 by lia. rewrite L. replace (_ + _ - _)%nat with (2 * rank m rel e)%nat by lia.
        rewrite (flat_pairs_first (fun e => (fst (edge0 m e), mid m rel e)) (fun e => (mid m rel e, snd (edge0 m e))) _ _ _ NC). rewrite Ee. reflexivity.
      * rewrite GX. apply nth_error_mono. unfold E1. rewrite nth_error_app2 by lia. rewrite L. replace (S (_ + _) - _)%nat with (S (2 * rank m rel e))%nat by lia.
        rewrite (flat_pairs_second (fun e => (fst (edge0 m e), mid m rel e)) (fun e => (mid m rel e, snd (edge0 m e))) _ _ _ NC). rewrite Ee. reflexivity.
      * rewrite M6, <- (firstn_skipn (m_nnodes m + rank m rel (m_nedges m)) (m_all (i_mesh (s_inter s)))), VA2. apply nth_error_mono.
        unfold mid. rewrite nth_error_app2 by lia. rewrite LN. replace (_ + _ - _)%nat with (rank m rel e) by lia. rewrite (map_nth_error _ _ _ NC).
        unfold midpt, cut, edge_intersection. rewrite Ee. cbn [fst snd]. fold (pa m a) (pa m b) (za rel a) (za rel b).
        destruct (pa m a) as [a1 a2 a3], (pa m b) as [b1 b2 b3]. unfold vadd, vscale, vsub. cbn [vx vy vz]. reflexivity.
      * rewrite G1, VR. unfold mid. rewrite nth_error_app2 by lia. rewrite HR. replace (_ + _ - _)%nat with (rank m rel e) by lia. exact (map_nth_error (fun _ => 0) _ _ NC).
      * rewrite G2, VW. unfold mid. rewrite nth_error_app2 by lia. rewrite HW. replace (_ + _ - _)%nat with (rank m rel e) by lia. rewrite (map_nth_error _ _ _ NC).
        unfold midw. rewrite Ee. reflexivity.
    + exact HA.
    + exists ims, ems. repeat (split; [assumption|]). intros f im em Hi He. rewrite M6. exact (H f im em Hi He).
    + exact OK.
    + rewrite G4, VL4. auto.
Qed.

(** States of an intersector: built, then updated any number of times with any immersions. *)
Inductive reachable (m : mesh) : inter -> Prop :=
| reach_new : reachable m (intersector m)
| reach_update : forall I rel waves I', reachable m I -> length rel = m_nnodes m -> length waves = m_nnodes m ->
    update_intersection I rel waves = Ok I' -> reachable m I'.
Lemma same_static_refl : forall m, well_formed m -> same_static m m.
Proof. intros m WF. constructor; auto. pose proof (wf_edges _ WF). pose proof (wf_facets _ WF). auto. Qed.
Lemma same_static_trans : forall a b c, same_static a b -> same_static b c -> same_static a c.
Proof.
  intros a b c [(A1 & A2 & A3) (B1 & B2 & B3) C D E (F1 & F2 & F3)] [(A1' & A2' & A3') (B1' & B2' & B3') C' D' E' (F1' & F2' & F3')].
  constructor; try congruence; repeat split; try congruence; try lia.
Qed.
Lemma reachable_static : forall m I, well_formed m -> reachable m I -> same_static m (i_mesh I).
Proof.
  intros m I WF R'. induction R' as [|I rel waves I' R' IH H1 H2 H3]; [apply same_static_refl; exact WF|].
  destruct (update_spec I rel waves) as (J & E & SC).
  - apply (same_static_well_formed m); assumption.
  - rewrite (proj1 (ss_counts _ _ IH)). exact H1.
  - rewrite (proj1 (ss_counts _ _ IH)). exact H2.
  - rewrite E in H3. injection H3 as <-. apply (same_static_trans _ (i_mesh I)); [exact IH|exact (sc_static _ _ _ _ SC)].
Qed.

(** C42, C43: for every mesh of triangles, whatever the previous updates and for every field of immersions, the cut succeeds (no access outside the arrays) and
    each facet becomes immersed, emerged, or is replaced by its parts under and above the surface; the new nodes are the points where the edges
    cross the surface. *)
Theorem free_surface_cut_partial : forall check v m I rel waves, triangle_mesh v -> build_mesh check v = Ok m -> reachable m I ->
  length rel = m_nnodes m -> length waves = m_nnodes m ->
  exists I', update_intersection I rel waves = Ok I' /\ surface_cut m rel waves I'.
Proof.
  intros check v m I rel waves T B R' HR HW. pose proof (built_well_formed check v m T B) as WF. pose proof (reachable_static m I WF R') as SS.
  pose proof (same_static_well_formed _ _ SS WF) as WFI. destruct (ss_counts _ _ SS) as (A1 & A2 & A3).
  destruct (update_spec I rel waves WFI) as (I' & E & SC); [congruence|congruence|]. exists I'. split; [exact E|].
  destruct SC as [S1 S2 S3 S3' S3'' S4 S5 S6 S7]. rewrite (ss_nodes _ _ SS), (ss_edges _ _ SS), A1 in S2. rewrite (ss_edges _ _ SS) in S3, S3'.
  rewrite (ss_edges _ _ SS), (ss_nodes _ _ SS), A1 in S3''. rewrite A3 in S5.
  constructor; try assumption. apply (same_static_trans _ (i_mesh I)); assumption.
Qed.
Print Assumptions free_surface_cut_partial.
