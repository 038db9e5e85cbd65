(** Cutting a mesh of triangles by the free surface: the loop over the facets. *)
From Coq Require Import Reals List Bool Arith ZArith Lra Lia.
From Verif Require Import Common Geometry Sim_Model Hull_Model Hull_Proofs Blocked_Model Blocked_Proofs Mesh_Model Mesh_Spec Mesh_Proofs Mesh_Props Cut_Proofs Triangle_Proofs.
Import ListNotations.
Open Scope R_scope.

(** [m'] has the static part of [m]. *)
Record same_static (m m' : mesh) : Prop := {
  ss_counts : m_nnodes m' = m_nnodes m /\ m_nedges m' = m_nedges m /\ m_nfacets m' = m_nfacets m;
  ss_tables : m_fpe m' = m_fpe m /\ m_oef m' = m_oef m /\ m_orientation m' = m_orientation m;
  ss_nodes : static_nodes m' = static_nodes m;
  ss_edges : static_edges m' = static_edges m;
  ss_facets : firstn (m_nfacets m) (m_facets m') = firstn (m_nfacets m) (m_facets m);
  ss_lengths : length (m_all m') = length (m_all m) /\ (m_nedges m <= length (m_edges m'))%nat /\ (m_nfacets m <= length (m_facets m'))%nat
}.
Lemma nth_error_firstn : forall {A} (l : list A) n i, (i < n)%nat -> nth_error (firstn n l) i = nth_error l i.
Proof. induction l as [|a l IH]; intros [|n] [|i] H; try lia; try reflexivity. cbn. apply IH. lia. Qed.
Lemma same_static_well_formed : forall m m', same_static m m' -> well_formed m -> well_formed m'.
Proof.
  intros m m' [(A1 & A2 & A3) (B1 & B2 & B3) C D E (F1 & F2 & F3)] [W1 W2 W3 W4 W5 W6 W7 W8 W9].
  constructor; rewrite ?A1, ?A2, ?A3, ?B1, ?B2, ?D; try assumption; try congruence.
  intros f oes fc Hf Hc. assert (L : (f < m_nfacets m)%nat) by (rewrite <- W4; apply nth_error_Some; congruence).
  apply (W9 f oes fc Hf). rewrite <- (nth_error_firstn _ _ _ L), <- E, (nth_error_firstn _ _ _ L). exact Hc.
Qed.

Lemma cut_as_mono : forall nodes facets more z f im em, cut_as nodes facets z f im em -> cut_as nodes (facets ++ more) z f im em.
Proof.
  intros nodes facets more z f im em (fc & pts & A & B & C). exists fc, pts. split; [apply nth_error_mono; exact A|]. split; [exact B|].
  destruct C as [C|[C|(C & i & e & fi & fe & pi & pe & H1 & H2 & H3 & H4 & H5)]]; [left; exact C|right; left; exact C|]. right. right. split; [exact C|].
  exists i, e, fi, fe, pi, pe. split; [exact H1|]. split; [exact H2|]. split; [apply nth_error_mono; exact H3|]. split; [apply nth_error_mono; exact H4|exact H5].
Qed.
Lemma tri_cut_as : forall nodes facets z f fc a b c A B C im em, nth_error facets f = Some fc -> mf_vertices fc = [a; b; c] -> has_points nodes [a; b; c] [A; B; C] ->
  tri_cut nodes facets (mf_normal fc) f A B C (z a) (z b) (z c) im em -> cut_as nodes facets z f im em.
Proof.
  intros nodes facets z f fc a b c A B C im em HF HV HP T. exists fc, [A; B; C]. split; [exact HF|]. rewrite HV. split; [exact HP|]. cbn [map combine].
  assert (BE : (exists i, In i [a; b; c] /\ 0 < z i) <-> (0 < z a \/ 0 < z b \/ 0 < z c)).
  { cbn [In]. split; [intros (i & [<-|[<-|[<-|[]]]] & H); auto|intros [H|[H|H]]; [exists a|exists b|exists c]; auto]. }
  assert (AB : (exists i, In i [a; b; c] /\ z i < 0) <-> (z a < 0 \/ z b < 0 \/ z c < 0)).
  { cbn [In]. split; [intros (i & [<-|[<-|[<-|[]]]] & H); auto|intros [H|[H|H]]; [exists a|exists b|exists c]; auto]. }
  destruct T as [(T1 & T2 & T3 & T4)|[(T1 & T2 & T3 & T4)|(T1 & T2)]].
  - left. rewrite BE, AB. repeat split; auto. lra.
  - right. left. rewrite BE, AB. repeat split; auto. lra.
  - right. right. rewrite BE, AB. split; [exact T1|exact T2].
Qed.

Section Loop.
  Variables (m0 : mesh) (rel0 waves0 : list R) (s : scan).
  Let nn := m_nnodes m0.
  Let ne := m_nedges m0.
  Hypothesis WF : well_formed m0.
  Hypothesis HR : length rel0 = nn.
  Hypothesis HW : length waves0 = nn.
  Hypothesis SI : sinv m0 rel0 waves0 ne s.
  Let z (i : nat) : R := nth i rel0 0.

  Lemma all_static : forall i, (i < nn)%nat -> nth_error (m_all (i_mesh (s_inter s))) i = Some (pa m0 i).
  Proof.
    intros i Hi. destruct (v_all _ _ _ _ _ SI) as [_ V]. rewrite <- (firstn_skipn (m_nnodes m0 + rank m0 rel0 ne) (m_all (i_mesh (s_inter s)))), V, <- app_assoc.
    apply nth_error_mono. apply nth_error_some. unfold static_nodes. rewrite firstn_length, (wf_all _ WF). unfold nn in Hi. lia.
  Qed.
  Lemma all_mid : forall e, (e < ne)%nat -> crossing m0 rel0 e = true -> nth_error (m_all (i_mesh (s_inter s))) (mid m0 rel0 e) = Some (midpt m0 rel0 e).
  Proof.
    intros e He C. destruct (v_all _ _ _ _ _ SI) as [_ V]. rewrite <- (firstn_skipn (m_nnodes m0 + rank m0 rel0 ne) (m_all (i_mesh (s_inter s)))), V, <- app_assoc.
    assert (L : length (static_nodes m0) = nn) by (unfold static_nodes; rewrite firstn_length, (wf_all _ WF); unfold nn; lia).
    unfold mid. rewrite nth_error_app2 by (rewrite L; unfold nn; lia). rewrite L. replace (m_nnodes m0 + rank m0 rel0 e - nn)%nat with (rank m0 rel0 e) by (unfold nn; lia).
    apply nth_error_mono. apply map_nth_error. apply nth_cl; assumption.
  Qed.
  Lemma rel_static : forall i, (i < nn)%nat -> nth_error (i_rel (s_inter s)) i = Some (z i).
  Proof. intros i Hi. rewrite (v_rel _ _ _ _ _ SI). apply nth_error_mono. apply nth_error_some. lia. Qed.
  Lemma rel_mid : forall e, (e < ne)%nat -> crossing m0 rel0 e = true -> nth_error (i_rel (s_inter s)) (mid m0 rel0 e) = Some 0.
  Proof.
    intros e He C. rewrite (v_rel _ _ _ _ _ SI). unfold mid. rewrite nth_error_app2 by (rewrite HR; unfold nn; lia). rewrite HR.
    replace (m_nnodes m0 + rank m0 rel0 e - nn)%nat with (rank m0 rel0 e) by (unfold nn; lia). rewrite (map_nth_error (fun _ => 0) _ _ (d := e)); [reflexivity|]. apply nth_cl; assumption.
  Qed.

  Lemma facts : forall I o a b, grown (s_inter s) I -> ends (static_edges m0) o = Some (a, b) ->
    edge_facts (s_status s) (s_split s) (m_edges (i_mesh I)) (m_all (i_mesh I)) (i_rel I) nn o a b (pa m0 a) (z a) (pa m0 b) (z b)
               (sub_first m0 rel0 o) (sub_second m0 rel0 o) (omid m0 rel0 o).
  Proof.
    intros I o a b G H. destruct (g_edges _ _ G) as (X & GE). destruct (g_mesh _ _ G) as (_ & _ & _ & _ & _ & GA & _). destruct (g_inter _ _ G) as (GR & _).
    rewrite GE, GA, GR, (v_edges _ _ _ _ _ SI), (v_status _ _ _ _ _ SI), (v_split _ _ _ _ _ SI).
    destruct (oriented_edge0 m0 rel0 waves0 WF HR HW o a b H) as [L _].
    constructor.
    - apply ends_app. unfold E1. apply ends_app. exact H.
    - intros. apply (walk_zero m0 rel0 waves0 WF HR HW o a b); [exact H|split; assumption].
    - intros. apply (walk_em m0 rel0 waves0 WF HR HW o a b); [exact H|repeat split; assumption].
    - intros. apply (walk_im m0 rel0 waves0 WF HR HW o a b); [exact H|repeat split; assumption].
    - intros. apply (walk_down m0 rel0 waves0 WF HR HW o a b); [exact H|split; assumption].
    - intros. apply (walk_up m0 rel0 waves0 WF HR HW o a b); [exact H|split; assumption].
    - intros X0. assert (C : crossing m0 rel0 (Nat.div2 o) = true) by (apply (oriented_crossing m0 rel0 waves0 WF HR HW o a b H); exact X0).
      destruct (ends_sub m0 rel0 waves0 WF HR HW o a b H C) as [S1 S2].
      split; [apply ends_app; exact S1|]. split; [apply ends_app; exact S2|]. split.
      + unfold omid. rewrite (all_mid _ L C). f_equal. apply (omid_cut m0 rel0 waves0 WF HR HW o a b H X0).
      + split; [apply (rel_mid _ L C)|]. unfold omid, mid, nn. lia.
  Qed.

  Lemma omid_distinct : forall o o' a b c, ends (static_edges m0) o = Some (a, b) -> ends (static_edges m0) o' = Some (b, c) -> a <> b -> c <> a -> b <> c ->
    z a * z b < 0 -> z b * z c < 0 -> omid m0 rel0 o <> omid m0 rel0 o'.
  Proof.
    intros o o' a b c H H' N1 N2 N3 X X' E. destruct (oriented_edge0 m0 rel0 waves0 WF HR HW _ _ _ H) as [L Ee]. destruct (oriented_edge0 m0 rel0 waves0 WF HR HW _ _ _ H') as [L' Ee'].
    apply (mid_inj m0 rel0) in E; try assumption; [|apply (oriented_crossing m0 rel0 waves0 WF HR HW _ _ _ H X)|apply (oriented_crossing m0 rel0 waves0 WF HR HW _ _ _ H' X')].
    rewrite E in Ee. rewrite Ee in Ee'. destruct (Nat.odd o), (Nat.odd o'); injection Ee'; intros; congruence.
  Qed.

  (** One facet. *)
  Lemma facet_step : forall I f, grown (s_inter s) I -> on_ok I -> (f < m_nfacets m0)%nat ->
    exists I' im em, (do c <- at_ub (s_flags s) f; if c : bool then split_facet (s_status s) (s_split s) I f else classify_facet (s_status s) I f) = Ok I' /\
      grown (s_inter s) I' /\ on_ok I' /\ (exists Y, m_facets (i_mesh I') = m_facets (i_mesh I) ++ Y) /\
      i_immersed I' = i_immersed I ++ im /\ i_emerged I' = i_emerged I ++ em /\ cut_as (m_all (i_mesh (s_inter s))) (m_facets (i_mesh I')) z f im em.
  Proof.
    intros I f G OK Hf. destruct (g_mesh _ _ G) as (_ & GO & _ & _ & _ & GA & _). destruct (g_inter _ _ G) as (GR & _).
    rewrite (v_oef _ _ _ _ _ SI) in GO. destruct (g_facets _ _ G) as (Y & GF). rewrite (v_facets _ _ _ _ _ SI) in GF.
    destruct (nth_error (m_oef m0) f) as [oes|] eqn:EO. 2:{ apply nth_error_None in EO. rewrite (wf_oef _ WF) in EO. lia. }
    destruct (nth_error (m_facets m0) f) as [fc|] eqn:EF. 2:{ apply nth_error_None in EF. pose proof (wf_facets _ WF). lia. }
    destruct (wf_tri _ WF f oes fc EO EF) as (a & b & c & EV & Nab & Nbc & Nca & EE).
    destruct oes as [|o0 [|o1 [|o2 [|]]]]; try discriminate EE. injection EE as E0 E1' E2.
    assert (EFI : nth_error (m_facets (i_mesh I)) f = Some fc).
    { rewrite GF. apply nth_error_mono. rewrite nth_error_firstn by assumption. exact EF. }
    assert (LB : (a < nn /\ b < nn /\ c < nn)%nat).
    { assert (Z0 : forall o u v, ends (static_edges m0) o = Some (u, v) -> (u < nn /\ v < nn)%nat).
      { intros o u v H. unfold ends in H. destruct (nth_error (static_edges m0) (Nat.div2 o)) as [[u' v']|] eqn:Q; [|discriminate].
        apply (wf_ends _ WF) in Q. destruct (Nat.odd o); injection H as <- <-; unfold nn; tauto. }
      apply Z0 in E0. apply Z0 in E1'. tauto. }
    destruct LB as (La & Lb & Lc).
    destruct (nth_error (s_flags s) f) as [flag|] eqn:FL. 2:{ apply nth_error_None in FL. rewrite (v_flags _ _ _ _ _ SI) in FL. lia. }
    rewrite (at_ub_nth _ _ _ FL). cbn [bindO].
    assert (PTS : has_points (m_all (i_mesh (s_inter s))) [a; b; c] [pa m0 a; pa m0 b; pa m0 c]).
    { unfold has_points. cbn [map]. rewrite !all_static by assumption. reflexivity. }
    destruct flag.
    - destruct (split_triangle (s_status s) (s_split s) I f o0 o1 o2 a b c (pa m0 a) (pa m0 b) (pa m0 c) (z a) (z b) (z c) fc
        (sub_first m0 rel0 o0) (sub_second m0 rel0 o0) (omid m0 rel0 o0) (sub_first m0 rel0 o1) (sub_second m0 rel0 o1) (omid m0 rel0 o1)
        (sub_first m0 rel0 o2) (sub_second m0 rel0 o2) (omid m0 rel0 o2) nn) as (I' & im & em & R1 & R2 & R3 & R4 & R5 & R6); try assumption.
      + rewrite GO. exact EO.
      + apply facts; assumption.
      + apply facts; assumption.
      + apply facts; assumption.
      + intros. apply (omid_distinct o0 o1 a b c); auto.
      + intros. apply (omid_distinct o1 o2 b c a); auto.
      + intros. apply (omid_distinct o2 o0 c a b); auto.
      + rewrite GA. apply all_static. exact La.
      + rewrite GA. apply all_static. exact Lb.
      + rewrite GA. apply all_static. exact Lc.
      + rewrite GR. apply rel_static. exact La.
      + rewrite GR. apply rel_static. exact Lb.
      + rewrite GR. apply rel_static. exact Lc.
      + exists I', im, em. split; [exact R1|]. split; [apply (grown_trans _ I); assumption|]. split; [exact R3|].
        split; [exact (g_facets _ _ R2)|]. split; [exact R4|]. split; [exact R5|].
        destruct (g_facets _ _ R2) as (Y2 & RF). rewrite GA in R6.
        apply (tri_cut_as _ _ z f fc a b c (pa m0 a) (pa m0 b) (pa m0 c)); [rewrite RF; apply nth_error_mono; exact EFI|exact EV|exact PTS|exact R6].
    - (* no edge touches the surface *)
      assert (NT : forall o u v, In o [o0; o1; o2] -> ends (static_edges m0) o = Some (u, v) -> (0 < z u /\ 0 < z v) \/ (z u < 0 /\ z v < 0)).
      { intros o u v Ho H. destruct (wf_fpe_has _ WF f _ o EO Ho) as (l & El & Hl). destruct (oriented_edge0 m0 rel0 waves0 WF HR HW o u v H) as [L _].
        destruct (touching m0 rel0 (Nat.div2 o)) eqn:T.
        - pose proof (v_flagged _ _ _ _ _ SI (Nat.div2 o) l f L T El Hl). congruence.
        - unfold touching in T. rewrite (oriented_status m0 rel0 waves0 WF HR HW o u v H) in T. unfold z.
          fold (za rel0 u) (za rel0 v).
          destruct (Nat.odd o); [destruct (status_cases (za rel0 v) (za rel0 u)) as [D|[D|[D|[D|[D|[D|[D|[D|D]]]]]]]]|destruct (status_cases (za rel0 u) (za rel0 v)) as [D|[D|[D|[D|[D|[D|[D|[D|D]]]]]]]]];
          destruct D as (A & B & Q); rewrite Q in T; try discriminate T; tauto. }
      pose proof (NT o0 a b (or_introl eq_refl) E0) as T0. pose proof (NT o1 b c (or_intror (or_introl eq_refl)) E1') as T1.
      destruct (oriented_edge0 m0 rel0 waves0 WF HR HW o0 a b E0) as [L _].
      unfold classify_facet. rewrite GO, (at_ub_nth _ _ _ EO). cbn [bindO at_ub nth_error]. unfold edge_index.
      rewrite (v_status _ _ _ _ _ SI). unfold ne. rewrite (status_at m0 rel0 _ L). cbn [bindO]. rewrite (oriented_status m0 rel0 waves0 WF HR HW o0 a b E0).
      assert (Q : is_emerged (if Nat.odd o0 then immersion_status (za rel0 b) (za rel0 a) else immersion_status (za rel0 a) (za rel0 b)) = if Rlt_dec (z a) 0 then true else false).
      { unfold z in T0 |- *. fold (za rel0 a) (za rel0 b) in T0 |- *. destruct (Nat.odd o0); [destruct (status_cases (za rel0 b) (za rel0 a)) as [D|[D|[D|[D|[D|[D|[D|[D|D]]]]]]]]|destruct (status_cases (za rel0 a) (za rel0 b)) as [D|[D|[D|[D|[D|[D|[D|[D|D]]]]]]]]];
        destruct D as (A & B & ->); destruct (Rlt_dec (za rel0 a) 0); try reflexivity; exfalso; lra. }
      rewrite Q. destruct (Rlt_dec (z a) 0) as [NA|NA].
      + eexists _, [], [f]. split; [reflexivity|]. split; [apply (grown_trans _ I); [exact G|destruct (grown_refl I); constructor; assumption]|].
        split; [exact OK|]. split; [exists []; rewrite app_nil_r; reflexivity|]. split; [cbn; rewrite app_nil_r; reflexivity|]. split; [reflexivity|].
        apply (tri_cut_as _ _ z f fc a b c (pa m0 a) (pa m0 b) (pa m0 c)); [exact EFI|exact EV|exact PTS|]. right. left. repeat split; auto; lra.
      + eexists _, [f], []. split; [reflexivity|]. split; [apply (grown_trans _ I); [exact G|destruct (grown_refl I); constructor; assumption]|].
        split; [exact OK|]. split; [exists []; rewrite app_nil_r; reflexivity|]. split; [reflexivity|]. split; [cbn; rewrite app_nil_r; reflexivity|].
        apply (tri_cut_as _ _ z f fc a b c (pa m0 a) (pa m0 b) (pa m0 c)); [exact EFI|exact EV|exact PTS|]. left. repeat split; auto; lra.
  Qed.

  Lemma facet_loop : forall j k I ims ems, grown (s_inter s) I -> on_ok I -> (k + j = m_nfacets m0)%nat ->
    length ims = k -> length ems = k -> i_immersed I = concat ims -> i_emerged I = concat ems ->
    (forall f im em, nth_error ims f = Some im -> nth_error ems f = Some em -> cut_as (m_all (i_mesh (s_inter s))) (m_facets (i_mesh I)) z f im em) ->
    exists I' ims' ems', foldO (fun I f => do c <- at_ub (s_flags s) f; if c : bool then split_facet (s_status s) (s_split s) I f else classify_facet (s_status s) I f) (seq k j) I = Ok I' /\
      grown (s_inter s) I' /\ on_ok I' /\ length ims' = m_nfacets m0 /\ length ems' = m_nfacets m0 /\ i_immersed I' = concat ims' /\ i_emerged I' = concat ems' /\
      (forall f im em, nth_error ims' f = Some im -> nth_error ems' f = Some em -> cut_as (m_all (i_mesh (s_inter s))) (m_facets (i_mesh I')) z f im em).
  Proof.
    induction j as [|j IH]; intros k I ims ems G OK K L1 L2 C1 C2 H; cbn [seq foldO].
    - exists I, ims, ems. repeat (split; [assumption || reflexivity || lia|]). exact H.
    - destruct (facet_step I k G OK) as (I' & im & em & E & G' & OK' & (Y & F') & A1 & A2 & CA); [lia|]. rewrite E. cbn [bindO].
      apply (IH (S k) I' (ims ++ [im]) (ems ++ [em]) G' OK'); try lia.
      + rewrite app_length. cbn. lia.
      + rewrite app_length. cbn. lia.
      + rewrite A1, C1, concat_app. cbn. rewrite app_nil_r. reflexivity.
      + rewrite A2, C2, concat_app. cbn. rewrite app_nil_r. reflexivity.
      + intros f im' em' H1 H2. destruct (Nat.lt_ge_cases f k) as [Q|Q].
        * rewrite nth_error_app1 in H1 by lia. rewrite nth_error_app1 in H2 by lia. rewrite F'. apply cut_as_mono. apply H; assumption.
        * rewrite nth_error_app2 in H1 by lia. rewrite nth_error_app2 in H2 by lia. rewrite L1 in H1. rewrite L2 in H2.
          destruct (f - k)%nat as [|d] eqn:Df; [|destruct d; discriminate H1]. injection H1 as <-. injection H2 as <-. replace f with k by lia. exact CA.
  Qed.
End Loop.
