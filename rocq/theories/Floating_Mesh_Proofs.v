(** The edges added on the surface by a cut of a watertight mesh of triangles, as segments between points. *)
From Coq Require Import Reals List Bool Arith Lra Lia Permutation.
From Verif Require Import Common Geometry Sim_Model Hull_Model Hull_Spec Hull_Proofs Mesh_Model Mesh_Spec Mesh_Proofs Mesh_Props Cut_Proofs Triangle_Proofs Cut_Loop_Proofs Cut_Props
  Closing_Model Closing_Spec Closing_Contour_Props Lid_Edges_Proofs Lid_Groups_Proofs Lid_Build_Proofs Floating_Spec Floating_Geometry_Proofs.
Import ListNotations.
Open Scope R_scope.

Lemma filter_all : forall {A} (p : A -> bool) l, (forall x, In x l -> p x = true) -> filter p l = l.
Proof. intros A p l. induction l as [|a l IH]; intros H; [reflexivity|]. cbn. rewrite (H a (or_introl eq_refl)), IH; [reflexivity|intros x Hx; apply H; right; exact Hx]. Qed.

(** Triangle number [f] of a mesh built from a list of triangles *)
Record triangle_at (m : mesh) (im : vec3 -> R) (f : nat) (l : list vec3) (fc : mfacet) (oes : list nat) : Prop := {
  ta_facet : nth_error (m_facets m) f = Some fc;
  ta_oef : nth_error (m_oef m) f = Some oes;
  ta_all : exists a b c o0 o1 o2, l = [pa m a; pa m b; pa m c] /\ mf_vertices fc = [a; b; c] /\ oes = [o0; o1; o2] /\ (a < m_nnodes m /\ b < m_nnodes m /\ c < m_nnodes m)%nat /\
    ends (static_edges m) o0 = Some (a, b) /\ ends (static_edges m) o1 = Some (b, c) /\ ends (static_edges m) o2 = Some (c, a);
  ta_points : has_points (static_nodes m) (mf_vertices fc) l;
  ta_normal : unit_normal l = Ok (mf_normal fc) /\ mf_area fc = area l /\ mf_centroid fc = centre_of_gravity l
}.

Section Mesh.
  Variables (check : bool) (v : list (list vec3)) (m : mesh) (im : vec3 -> R).
  Hypothesis T : triangle_mesh v.
  Hypothesis B : build_mesh check v = Ok m.
  Hypothesis OFF : forall p, In p (concat v) -> im p <> 0.
  Let rel := map im (static_nodes m).
  Let WF : well_formed m := built_well_formed check v m T B.
  Let TAB : table_of v m := mesh_tables_are_faithful check v m B.

  Lemma no_empty : filter (fun l : list vec3 => negb (length l =? 0)%nat) v = v.
  Proof. apply filter_all. intros l Hl. destruct (T l Hl) as (a & b & c & -> & _). reflexivity. Qed.
  Lemma static_length : length (static_nodes m) = m_nnodes m.
  Proof. unfold static_nodes. rewrite firstn_length. pose proof (wf_all _ WF). lia. Qed.
  Lemma rel_length : length rel = m_nnodes m.
  Proof. unfold rel. rewrite map_length. apply static_length. Qed.
  Lemma rel_at : forall i, (i < m_nnodes m)%nat -> nth i rel 0 = im (pa m i).
  Proof. intros i H. unfold rel, pa. rewrite (nth_indep _ 0 (im v0)) by (rewrite map_length, static_length; exact H). apply map_nth. Qed.
  Lemma node_off : forall i, (i < m_nnodes m)%nat -> im (pa m i) <> 0.
  Proof. intros i H. apply OFF. apply (t_nodes_in _ _ TAB). unfold pa. apply nth_In. rewrite static_length. exact H. Qed.
  Lemma rel_off : forall i, (i < m_nnodes m)%nat -> nth i rel 0 <> 0.
  Proof. intros i H. rewrite rel_at by exact H. apply node_off. exact H. Qed.
  Lemma pa_inj : forall i j, (i < m_nnodes m)%nat -> (j < m_nnodes m)%nat -> pa m i = pa m j -> i = j.
  Proof. intros i j Hi Hj E. apply (proj1 (List.NoDup_nth (static_nodes m) v0) (t_nodes _ _ TAB)); rewrite ?static_length; assumption. Qed.

  Lemma at_triangle : forall f l, nth_error v f = Some l -> exists fc oes, triangle_at m im f l fc oes.
  Proof.
    intros f l Hl. pose proof (t_facets _ _ TAB) as TF. pose proof (t_geometry _ _ TAB) as TG. pose proof (t_oriented _ _ TAB) as TO. rewrite no_empty in TF, TG.
    assert (Lf : (f < length v)%nat) by (apply nth_error_Some; congruence). pose proof (Forall2_length' _ _ _ TF) as L1. pose proof (Forall2_length' _ _ _ TO) as L2.
    destruct (nth_error (m_facets m) f) as [fc|] eqn:EF; [|apply nth_error_None in EF; lia]. destruct (nth_error (m_oef m) f) as [oes|] eqn:EO; [|apply nth_error_None in EO; lia].
    exists fc, oes. pose proof (Forall2_nth_l _ _ _ _ _ _ TF Hl EF) as HP. cbv beta in HP. pose proof (Forall2_nth_l _ _ _ _ _ _ TG Hl EF) as HG. cbv beta in HG.
    destruct (wf_tri _ WF f oes fc EO EF) as (a & b & c & EV & N1 & N2 & N3 & EE). constructor; try assumption.
    destruct (T l (nth_error_In _ _ Hl)) as (PA & PB & PC & -> & _). unfold has_points in HP. rewrite EV in HP. injection HP as P1 P2 P3.
    assert (BD : forall i p, nth_error (static_nodes m) i = Some p -> (i < m_nnodes m)%nat /\ pa m i = p).
    { intros i p H. split; [rewrite <- static_length; apply nth_error_Some; congruence|exact (nth_error_nth _ _ _ H)]. }
    apply BD in P1 as [A1 <-]. apply BD in P2 as [A2 <-]. apply BD in P3 as [A3 <-].
    destruct oes as [|o0 [|o1 [|o2 [|]]]]; try discriminate EE. injection EE as E0 E1' E2. exists a, b, c, o0, o1, o2. auto 10.
  Qed.

  Section Points.
    Variable pt : nat -> vec3.
    Hypothesis PT : forall e, (e < m_nedges m)%nat -> crossing m rel e = true -> pt (mid m rel e) = midpt m rel e.
    Definition pt2 (e : nat * nat) : vec3 * vec3 := (pt (fst e), pt (snd e)).

    Lemma omid_point : forall o a b, ends (static_edges m) o = Some (a, b) -> (a < m_nnodes m)%nat -> (b < m_nnodes m)%nat -> im (pa m a) * im (pa m b) < 0 ->
      pt (omid m rel o) = crossing_point im (pa m a) (pa m b).
    Proof.
      intros o a b H LA LB X. assert (X' : za rel a * za rel b < 0) by (unfold za; rewrite !rel_at by assumption; exact X).
      pose proof rel_length as LR. assert (LW : length rel = m_nnodes m) by exact LR.
      unfold omid. rewrite PT; [|apply (oriented_edge0 m rel rel WF LR LR o a b H)|apply (oriented_crossing m rel rel WF LR LR o a b H X')].
      rewrite (omid_cut m rel rel WF LR LR o a b H X'). unfold crossing_point, za. rewrite !rel_at by assumption. reflexivity.
    Qed.
    Lemma closing_points : forall f l fc oes, triangle_at m im f l fc oes -> map pt2 (closing m rel oes) = segments im l.
    Proof.
      intros f l fc oes [_ _ (a & b & c & o0 & o1 & o2 & -> & _ & -> & (La & Lb & Lc) & E0 & E1' & E2) _ _].
      unfold closing, segments. rewrite entry3, exit3. cbn [filter].
      rewrite (enters_eq m rel _ _ _ E0), (enters_eq m rel _ _ _ E1'), (enters_eq m rel _ _ _ E2), (leaves_eq m rel _ _ _ E0), (leaves_eq m rel _ _ _ E1'), (leaves_eq m rel _ _ _ E2).
      rewrite !rel_at by assumption. pose proof (node_off a La) as NA. pose proof (node_off b Lb) as NB. pose proof (node_off c Lc) as NC.
      pose proof (omid_point o0 a b E0 La Lb) as Q0. pose proof (omid_point o1 b c E1' Lb Lc) as Q1. pose proof (omid_point o2 c a E2 Lc La) as Q2.
      assert (SA : im (pa m a) < 0 \/ 0 < im (pa m a)) by lra. assert (SB : im (pa m b) < 0 \/ 0 < im (pa m b)) by lra. assert (SC : im (pa m c) < 0 \/ 0 < im (pa m c)) by lra.
      destruct SA, SB, SC; repeat match goal with |- context [Rlt_dec ?u ?w] => destruct (Rlt_dec u w); try (exfalso; lra) end; cbn [app combine map pt2 fst snd]; try reflexivity;
        unfold pt2; cbn [fst snd]; f_equal; f_equal; first [apply Q0|apply Q1|apply Q2]; nra.
    Qed.
    Lemma closings_points : map pt2 (closings m rel) = waterline im v.
    Proof.
      unfold closings, waterline. assert (L : length (m_oef m) = length v).
      { pose proof (t_facets _ _ TAB) as TF. rewrite no_empty in TF. pose proof (Forall2_length' _ _ _ TF). pose proof (Forall2_length' _ _ _ (t_oriented _ _ TAB)). congruence. }
      assert (H : forall f l oes, nth_error v f = Some l -> nth_error (m_oef m) f = Some oes -> map pt2 (closing m rel oes) = segments im l).
      { intros f l oes Hl Ho. destruct (at_triangle f l Hl) as (fc & oes' & TA). pose proof (ta_oef _ _ _ _ _ _ TA) as Q. rewrite Ho in Q. injection Q as <-. exact (closing_points f l fc oes TA). }
      revert L H. generalize (m_oef m). clear - v. induction v as [|l k IH]; intros [|oes k'] L H; try discriminate L; [reflexivity|]. cbn [flat_map]. rewrite map_app. f_equal; [exact (H O l oes eq_refl eq_refl)|].
      apply IH; [cbn in L; lia|]. intros f l' oes' H1 H2. exact (H (S f) l' oes' H1 H2).
    Qed.
  End Points.

  (** Both ends of the edges on the surface are nodes added by the cut, and each such line continues. *)
  Lemma closing_in : forall c, In c (closings m rel) -> exists f l fc oes o o', nth_error v f = Some l /\ triangle_at m im f l fc oes /\
    In o oes /\ enters m rel o = true /\ fst c = omid m rel o /\ In o' oes /\ leaves m rel o' = true /\ snd c = omid m rel o'.
  Proof.
    intros c Hc. unfold closings in Hc. apply in_flat_map in Hc as (oes & Ho & Hc). apply In_nth_error in Ho as (f & Hf).
    assert (Lf : (f < length v)%nat).
    { pose proof (t_facets _ _ TAB) as TF. rewrite no_empty in TF. pose proof (Forall2_length' _ _ _ TF). pose proof (Forall2_length' _ _ _ (t_oriented _ _ TAB)).
      assert (f < length (m_oef m))%nat by (apply nth_error_Some; congruence). lia. }
    destruct (nth_error v f) as [l|] eqn:El; [|apply nth_error_None in El; lia]. destruct (at_triangle f l El) as (fc & oes' & TA).
    pose proof (ta_oef _ _ _ _ _ _ TA) as Q. rewrite Hf in Q. injection Q as <-. unfold closing in Hc. destruct c as [p q]. apply in_combine_l' in Hc as [H1 H2].
    apply in_map_iff in H1 as (o & <- & H1). apply in_map_iff in H2 as (o' & <- & H2). apply filter_In in H1 as [I1 G1]. apply filter_In in H2 as [I2 G2].
    exists f, l, fc, oes, o, o'. auto 10.
  Qed.
  Lemma oriented_in : forall f l fc oes o, triangle_at m im f l fc oes -> In o oes -> exists a b, ends (static_edges m) o = Some (a, b) /\ (a < m_nnodes m)%nat /\ (b < m_nnodes m)%nat /\ In (pa m a, pa m b) (cycle l).
  Proof.
    intros f l fc oes o [_ _ (a & b & c & o0 & o1 & o2 & -> & _ & -> & (La & Lb & Lc) & E0 & E1' & E2) _ _] Ho.
    destruct Ho as [<-|[<-|[<-|[]]]]; [exists a, b|exists b, c|exists c, a]; cbn; auto 10.
  Qed.
  Lemma omid_range : forall o a b, ends (static_edges m) o = Some (a, b) -> za rel a * za rel b < 0 -> (m_nnodes m <= omid m rel o < m_nnodes m + m_nedges m)%nat.
  Proof.
    intros o a b H X. pose proof rel_length as LR. destruct (oriented_edge0 m rel rel WF LR LR o a b H) as [L _]. pose proof (oriented_crossing m rel rel WF LR LR o a b H X) as C.
    unfold omid, mid. pose proof (rank_lt m rel _ _ L C). pose proof (rank_le m rel (m_nedges m)). lia.
  Qed.
  Lemma leaves_inv : forall o, leaves m rel o = true -> exists a b, ends (static_edges m) o = Some (a, b) /\ 0 < za rel a /\ za rel b < 0.
  Proof.
    intros o H. unfold leaves in H. destruct (ends (static_edges m) o) as [[a b]|]; [|discriminate]. exists a, b. split; [reflexivity|].
    unfold za. destruct (Rlt_dec 0 (nth a rel 0)); [|discriminate]. destruct (Rlt_dec (nth b rel 0) 0); [|discriminate]. auto.
  Qed.
  Lemma enters_inv : forall o, enters m rel o = true -> exists a b, ends (static_edges m) o = Some (a, b) /\ za rel a < 0 /\ 0 < za rel b.
  Proof.
    intros o H. unfold enters in H. destruct (ends (static_edges m) o) as [[a b]|]; [|discriminate]. exists a, b. split; [reflexivity|].
    unfold za. destruct (Rlt_dec (nth a rel 0) 0); [|discriminate]. destruct (Rlt_dec 0 (nth b rel 0)); [|discriminate]. auto.
  Qed.
  Lemma closing_range : forall c, In c (closings m rel) -> (m_nnodes m <= fst c < m_nnodes m + m_nedges m /\ m_nnodes m <= snd c < m_nnodes m + m_nedges m)%nat.
  Proof.
    intros c Hc. destruct (closing_in c Hc) as (f & l & fc & oes & o & o' & _ & _ & _ & G1 & -> & _ & G2 & ->).
    apply enters_inv in G1 as (a & b & E & A1 & A2). apply leaves_inv in G2 as (a' & b' & E' & A1' & A2').
    split; [apply (omid_range o a b E)|apply (omid_range o' a' b' E')]; nra.
  Qed.
  Lemma starts : forall f l fc oes o, triangle_at m im f l fc oes -> In o oes -> enters m rel o = true -> In (omid m rel o) (map fst (closings m rel)).
  Proof.
    intros f l fc oes o TA Ho G. assert (IN : In oes (m_oef m)) by exact (nth_error_In _ _ (ta_oef _ _ _ _ _ _ TA)).
    assert (L : length (filter (enters m rel) oes) = length (filter (leaves m rel) oes)).
    { destruct TA as [_ _ (a & b & c & o0 & o1 & o2 & -> & _ & -> & (La & Lb & Lc) & E0 & E1' & E2) _ _]. cbn [filter].
      rewrite (enters_eq m rel _ _ _ E0), (enters_eq m rel _ _ _ E1'), (enters_eq m rel _ _ _ E2), (leaves_eq m rel _ _ _ E0), (leaves_eq m rel _ _ _ E1'), (leaves_eq m rel _ _ _ E2).
      pose proof (rel_off a La) as NA. pose proof (rel_off b Lb) as NB. pose proof (rel_off c Lc) as NC. clear - NA NB NC.
      assert (SA : nth a rel 0 < 0 \/ 0 < nth a rel 0) by lra. assert (SB : nth b rel 0 < 0 \/ 0 < nth b rel 0) by lra. assert (SC : nth c rel 0 < 0 \/ 0 < nth c rel 0) by lra.
      destruct SA, SB, SC; repeat match goal with |- context [Rlt_dec ?u ?w] => destruct (Rlt_dec u w); try (exfalso; lra) end; reflexivity. }
    apply in_map_iff. assert (H : In (omid m rel o) (map fst (closing m rel oes))).
    { unfold closing. rewrite combine_fst by (rewrite !map_length; exact L). apply in_map. apply filter_In. auto. }
    apply in_map_iff in H as (c & E & Hc). exists c. split; [exact E|]. unfold closings. apply in_flat_map. exists oes. auto.
  Qed.
  Lemma continues : closed v -> incl (map snd (closings m rel)) (map fst (closings m rel)).
  Proof.
    intros CV n Hn. apply in_map_iff in Hn as (c & <- & Hc). destruct (closing_in c Hc) as (f & l & fc & oes & o & o' & Hl & TA & _ & _ & _ & Ho & G & ->).
    destruct (leaves_inv _ G) as (a & b & E & A1 & A2). destruct (oriented_in _ _ _ _ _ TA Ho) as (a' & b' & E' & La & Lb & IC). rewrite E in E'. injection E' as <- <-.
    assert (IO : In (pa m b, pa m a) (edges v)).
    { assert (I1 : In (pa m a, pa m b) (edges v)) by (unfold edges; apply in_concat; exists (cycle l); split; [apply in_map; exact (nth_error_In _ _ Hl)|exact IC]).
      apply (Permutation_in _ CV) in I1. apply in_map_iff in I1 as ([x y] & Q & I1). unfold swap in Q. cbn in Q. injection Q as <- <-. exact I1. }
    unfold edges in IO. apply in_concat in IO as (k & Hk & IO). apply in_map_iff in Hk as (l' & <- & Hl'). apply In_nth_error in Hl' as (f' & Hl').
    destruct (at_triangle f' l' Hl') as (fc' & oes' & TA').
    assert (X : exists o2, In o2 oes' /\ ends (static_edges m) o2 = Some (b, a)).
    { destruct TA' as [_ _ (a1 & b1 & c1 & o0 & o1 & o2 & -> & _ & -> & (L1 & L2 & L3) & E0 & E1' & E2) _ _]. cbn in IO.
      destruct IO as [Q|[Q|[Q|[]]]]; pose proof (f_equal fst Q) as Q1; pose proof (f_equal snd Q) as Q2; cbn in Q1, Q2; apply pa_inj in Q1; try assumption; apply pa_inj in Q2; try assumption; subst.
      - exists o0. split; [left; reflexivity|exact E0].
      - exists o1. split; [right; left; reflexivity|exact E1'].
      - exists o2. split; [right; right; left; reflexivity|exact E2]. }
    destruct X as (o2 & Ho2 & E2). assert (ED : Nat.div2 o2 = Nat.div2 o').
    { destruct (build_mesh_shape _ _ _ B) as (S1 & _). assert (SE : static_edges m = m_edges m) by (unfold static_edges; rewrite S1; apply firstn_all).
      rewrite SE in E, E2. unfold ends in E, E2. destruct (nth_error (m_edges m) (Nat.div2 o')) as [[x y]|] eqn:N1; [|discriminate]. destruct (nth_error (m_edges m) (Nat.div2 o2)) as [[x' y']|] eqn:N2; [|discriminate].
      apply (t_edges _ _ TAB _ _ _ _ N2 N1). unfold same_edge. cbn. destruct (Nat.odd o'), (Nat.odd o2); injection E as <- <-; injection E2 as <- <-; auto. }
    replace (omid m rel o') with (omid m rel o2) by (unfold omid; rewrite ED; reflexivity). apply (starts f' l' fc' oes' o2 TA' Ho2).
    rewrite (enters_eq m rel _ _ _ E2). unfold za in A1, A2. destruct (Rlt_dec (nth b rel 0) 0); [|lra]. destruct (Rlt_dec 0 (nth a rel 0)); [reflexivity|lra].
  Qed.
End Mesh.

(** The edges on the surface only depend on the static part of the mesh. *)
Lemma edge0_static : forall m m', same_static m m' -> forall e, edge0 m' e = edge0 m e.
Proof. intros m m' S e. unfold edge0. rewrite (ss_edges _ _ S). reflexivity. Qed.
Lemma crossing_static : forall m m' rel, same_static m m' -> forall e, crossing m' rel e = crossing m rel e.
Proof. intros m m' rel S e. unfold crossing, est. rewrite (edge0_static _ _ S). reflexivity. Qed.
Lemma cl_static : forall m m' rel, same_static m m' -> forall k, cl m' rel k = cl m rel k.
Proof. intros m m' rel S k. unfold cl. apply filter_ext. apply crossing_static. exact S. Qed.
Lemma mid_static : forall m m' rel, same_static m m' -> forall e, mid m' rel e = mid m rel e.
Proof. intros m m' rel S e. unfold mid. assert (E : Cut_Proofs.rank m' rel e = Cut_Proofs.rank m rel e) by (unfold Cut_Proofs.rank; f_equal; apply cl_static; exact S). rewrite E, (proj1 (ss_counts _ _ S)). reflexivity. Qed.
Lemma closings_static : forall m m' rel, same_static m m' -> closings m' rel = closings m rel.
Proof.
  intros m m' rel S. unfold closings. rewrite (proj1 (proj2 (ss_tables _ _ S))). apply flat_map_ext. intros oes. unfold closing, omid, enters, leaves. rewrite (ss_edges _ _ S).
  f_equal; (apply map_ext; intros o; apply mid_static; exact S).
Qed.
Lemma E1_static : forall m m' rel k, same_static m m' -> E1 m' rel k = E1 m rel k.
Proof. intros m m' rel k S. unfold E1. rewrite (ss_edges _ _ S), (cl_static _ _ rel S k). f_equal. apply flat_map_ext. intros e. rewrite (edge0_static _ _ S), (mid_static _ _ _ S). reflexivity. Qed.
