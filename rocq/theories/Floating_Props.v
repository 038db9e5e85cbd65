(** C102: the immersed part of a watertight mesh of triangles, closed by the polygons inside its waterlines, is watertight, whatever was done before with the mesh. *)
From Coq Require Import Reals List Bool Arith Lra Lia Permutation.
From Verif Require Import Common Geometry Sim_Model Hull_Model Hull_Spec Hull_Proofs Mesh_Model Mesh_Spec Mesh_Proofs Mesh_Props Cut_Proofs Triangle_Proofs Cut_Loop_Proofs Cut_Props
  Closing_Model Closing_Spec Closing_Contour_Proofs Closing_Contour_Props Lid_Edges_Proofs Lid_Groups_Proofs Lid_Build_Proofs Floating_Spec Floating_Geometry_Proofs Floating_Mesh_Proofs Floating_Proofs Floating_Facets_Proofs.
Import ListNotations.
Open Scope R_scope.

(** Nodes after a cut *)
Lemma cut_nodes : forall m rel waves I', well_formed m -> length rel = m_nnodes m -> surface_cut m rel waves I' ->
  (forall i, (i < m_nnodes m)%nat -> nth_error (m_all (i_mesh I')) i = Some (pa m i)) /\
  (forall e, (e < m_nedges m)%nat -> crossing m rel e = true -> nth_error (m_all (i_mesh I')) (mid m rel e) = Some (midpt m rel e)).
Proof.
  intros m rel waves I' WF HR SC. destruct (sc_nodes _ _ _ _ SC) as (NF & NT).
  assert (LN : length (static_nodes m) = m_nnodes m) by (unfold static_nodes; rewrite firstn_length; pose proof (wf_all _ WF); lia).
  assert (EQ : forall i p, nth_error (static_nodes m ++ cut_points (static_nodes m) rel (static_edges m)) i = Some p -> nth_error (m_all (i_mesh I')) i = Some p).
  { intros i p H. rewrite <- NF in H. assert (L : (i < m_total (i_mesh I'))%nat). { assert (i < length (firstn (m_total (i_mesh I')) (m_all (i_mesh I'))))%nat by (apply nth_error_Some; congruence). rewrite firstn_length in *. lia. }
    rewrite nth_error_firstn in H by exact L. exact H. }
  split.
  - intros i Hi. apply EQ. apply nth_error_mono. apply nth_error_some. lia.
  - intros e He C. apply EQ. unfold mid. rewrite nth_error_app2 by lia. rewrite LN. replace (m_nnodes m + Cut_Proofs.rank m rel e - m_nnodes m)%nat with (Cut_Proofs.rank m rel e) by lia.
    unfold cut_points. rewrite (cut_edges_cl m rel WF), map_map. rewrite (map_nth_error _ _ _ (nth_cl m rel _ e He C)). f_equal.
Qed.

(** The lids are the lines, in another order and from another vertex. *)
Lemma lids_are_lines : forall {A} (lines vss : list (list A)), NoDup (concat lines) -> (forall l, In l lines -> l <> []) ->
  Permutation (flat_map cyclic_pairs vss) (flat_map cyclic_pairs lines) -> Forall (fun vs => exists ns, In ns lines /\ rotated ns vs) vss ->
  exists lines', Permutation lines lines' /\ Forall2 rotated lines' vss.
Proof.
  intros A lines vss ND NE P F. assert (X : exists lines', Forall2 rotated lines' vss /\ incl lines' lines).
  { clear - F. induction F as [|vs vss (ns & Hn & R1) _ (ls & F2 & IN)]; [exists []; split; [apply Forall2_nil|intros x []]|]. exists (ns :: ls). split; [apply Forall2_cons; assumption|]. intros x [<-|Hx]; auto. }
  destruct X as (ls & F2 & IN). exists ls. split; [|exact F2].
  assert (PC : Permutation (concat ls) (concat lines)).
  { rewrite <- !flat_cyclic_fst. apply Permutation_map. apply (Permutation_trans (l' := flat_map cyclic_pairs vss)); [|exact P].
    clear - F2. induction F2 as [|l vs ls vss R1 _ IH]; [apply Permutation_refl|]. cbn [flat_map]. apply Permutation_app; [apply cyclic_perm; exact R1|exact IH]. }
  assert (NDC : NoDup (concat ls)) by (apply (Permutation_NoDup (Permutation_sym PC)); exact ND).
  assert (NDL : forall g : list (list A), (forall l, In l g -> l <> []) -> NoDup (concat g) -> NoDup g).
  { clear. induction g as [|l g IH]; intros NE ND; [constructor|]. cbn in ND. constructor.
    - intros Hl. destruct l as [|x l]; [apply (NE [] (or_introl eq_refl)); reflexivity|]. cbn in ND. inversion ND as [|? ? NI _]; subst. apply NI. apply in_or_app. right. apply in_concat. exists (x :: l). split; [exact Hl|left; reflexivity].
    - apply IH; [intros l' Hl'; apply NE; right; exact Hl'|]. clear - ND. induction l as [|x l IH']; [exact ND|]. inversion ND; auto. }
  apply NoDup_Permutation; [apply NDL; assumption|apply NDL; [intros l Hl; apply NE, IN, Hl|exact NDC]|]. intros l. split; [|apply IN]. intros Hl.
  destruct l as [|x t] eqn:E; [exfalso; apply (NE [] Hl); reflexivity|]. rewrite <- E in *. assert (Hx : In x (concat ls)) by (apply (Permutation_in _ (Permutation_sym PC)); apply in_concat; exists l; split; [exact Hl|rewrite E; left; reflexivity]).
  apply in_concat in Hx as (l' & Hl' & Hx). replace l with l'; [exact Hl'|]. apply (nodup_concat_same lines l' l x ND); [apply IN; exact Hl'|exact Hl|exact Hx|rewrite E; left; reflexivity].
Qed.

(** The hypotheses on the waterlines: closed lines of at least three points, convex seen from above (anticlockwise around the upwards normal (0, 0, -1) used by the code for
    the lids), whose edges are not parallel up to 1e-10 unless they are exactly parallel. *)
Definition closable (line : list vec3) : Prop := (3 <= length line)%nat /\ convex lid_normal (map flat line) /\ resolved line.

Theorem floating_hull_is_closed_partial : forall check v m I im waves lines, triangle_mesh v -> closed v -> build_mesh check v = Ok m -> used m I ->
  length waves = m_nnodes m -> (forall p, In p (concat v) -> im p <> 0) -> waterlines im v lines -> (forall l, In l lines -> closable l) ->
  (forall l n, In l v -> segments im l <> [] -> unit_normal l = Ok n -> / 100000000 < norm (vsub lid_normal n)) ->
  exists I' I'' fs lids, update_intersection I (map im (static_nodes m)) waves = Ok I' /\ center_of_mass_immersed I' = Ok (I'', center_of_mass fs lids) /\
    Forall2 (wet_facet im) (filter (is_wet im) v) fs /\ (exists lines', Permutation lines lines' /\ Forall2 rotated lines' lids) /\ closed (map f_points fs ++ lids).
Proof.
  intros check v m I im waves lines T CV B U HW OFF (PW & ND) CL FAR. pose proof (built_well_formed check v m T B) as WF. pose proof (used_static m I WF U) as SS.
  set (rel := map im (static_nodes m)). pose proof (rel_length check v m im T B) as HR. fold rel in HR.
  destruct (cut_used m I rel waves WF SS HR HW) as (I' & EU & SC). destruct (cut_nodes m rel waves I' WF HR SC) as (N1 & N2).
  pose proof (same_static_well_formed _ _ SS WF) as WFI. destruct (ss_counts _ _ SS) as (A1 & A2 & A3).
  destruct (update_closings I rel waves I' WFI) as (CE & CO & CC); try congruence. { intros i Hi. apply (rel_off check v m im T B OFF). congruence. }
  rewrite (closings_static _ _ rel SS) in CE, CO. rewrite A2 in CE, CO. rewrite (E1_static _ _ rel _ SS) in CE, CO.
  set (E := E1 m rel (m_nedges m)) in *. set (C := closings m rel) in *.
  set (pt := fun n => nth n (m_all (i_mesh I')) v0).
  assert (PT : forall e, (e < m_nedges m)%nat -> crossing m rel e = true -> pt (mid m rel e) = midpt m rel e) by (intros e He X; exact (nth_error_nth _ _ _ (N2 e He X))).
  assert (PC : map (pt2 pt) C = waterline im v) by exact (closings_points check v m im T B OFF pt PT).
  rewrite <- PC in PW. destruct (node_lines pt C lines PW ND (continues check v m im T B OFF CV)) as (nlines & EL & PN & NDN).
  assert (LA : length (m_all (i_mesh I')) = (m_nnodes m + m_nedges m)%nat) by (rewrite (proj1 (ss_lengths _ _ (sc_static _ _ _ _ SC))); exact (wf_all _ WF)).
  assert (IM : in_mesh (m_all (i_mesh I')) (E ++ C)).
  { intros e He. rewrite LA. apply in_app_or in He as [He|He].
    - unfold E, E1 in He. apply in_app_or in He as [He|He].
      + apply In_nth_error in He as (k & Hk). destruct e as [a b]. destruct (wf_ends _ WF _ _ _ Hk). cbn. lia.
      + apply in_flat_map in He as (k & Hk & He). unfold cl in Hk. apply filter_In in Hk as [Hk X]. apply in_seq in Hk.
        assert (M : (mid m rel k < m_nnodes m + m_nedges m)%nat) by (unfold mid; pose proof (rank_lt m rel k (m_nedges m) (proj2 Hk) X); pose proof (rank_le m rel (m_nedges m)); lia).
        assert (Q : nth_error (static_edges m) k = Some (edge0 m k)). { unfold edge0. apply nth_error_some. unfold static_edges. rewrite firstn_length. pose proof (wf_edges _ WF). lia. }
        destruct (edge0 m k) as [a b] eqn:EE. destruct (wf_ends _ WF _ _ _ Q) as [Qa Qb]. cbn [fst snd] in He. destruct He as [<-|[<-|[]]]; cbn [fst snd]; lia.
    - pose proof (closing_range check v m im T B e He). lia. }
  assert (HL : forall ns, In ns nlines -> (3 <= length ns)%nat /\ convex (V3 0 0 (-1)) (map flat (points (m_all (i_mesh I')) ns)) /\ resolved (points (m_all (i_mesh I')) ns)).
  { intros ns Hn. assert (Hl : In (map pt ns) lines) by (rewrite <- EL; apply in_map; exact Hn). destruct (CL _ Hl) as (H1 & H2 & H3). rewrite map_length in H1. auto. }
  destruct (build_lids I' E C nlines IM CE CO CC PN NDN HL) as (I'' & vss & EC & LD & PV & FV). destruct LD as [D1 D2 D3 D4 (D5 & _) D6].
  (* the immersed facets *)
  destruct (sc_facets _ _ _ _ SC) as (ims & ems & LI & LE & EI & _ & CUT).
  assert (LV : length v = m_nfacets m). { pose proof (t_facets _ _ (mesh_tables_are_faithful check v m B)) as TF. rewrite (no_empty v T) in TF. pose proof (Forall2_length' _ _ _ TF). destruct (build_mesh_shape _ _ _ B) as (_ & S2 & _). congruence. }
  set (facets := m_facets (i_mesh I'')). set (all := m_all (i_mesh I'')).
  destruct (wet_of_cuts m im all facets v ims (fun l g => (forall i, In i (mf_vertices g) -> (i < m_nnodes m)%nat) \/ (segments im l <> [] /\ unit_normal l = Ok (mf_normal g)))) as (ms & fs & M1 & M2 & M3 & M4); [congruence| |].
  { intros f l imf Hl Hi. destruct (at_triangle check v m im T B f l Hl) as (fc & oes & TA). destruct (nth_error ems f) as [emf|] eqn:He.
    2:{ apply nth_error_None in He. assert (f < length ims)%nat by (apply nth_error_Some; congruence). lia. }
    assert (Lf : (f < m_nfacets m)%nat) by (rewrite <- LV; apply nth_error_Some; congruence).
    apply (wet_of_cut m im all facets f l fc oes imf emf TA).
    - intros i Hi'. apply (rel_at check v m im T B i Hi').
    - intros i Hi'. apply (node_off check v m im T B OFF i Hi').
    - intros i Hi'. unfold all. rewrite D2. apply N1. exact Hi'.
    - unfold facets. rewrite D3. apply nth_error_mono. rewrite <- (nth_error_firstn _ _ _ Lf), (ss_facets _ _ (sc_static _ _ _ _ SC)), (nth_error_firstn _ _ _ Lf). exact (ta_facet _ _ _ _ _ _ TA).
    - unfold facets, all. rewrite D2, D3. apply cut_as_mono. exact (CUT f imf emf Hi He). }
  (* the lids *)
  assert (VR : forall vs, In vs vss -> (3 <= length vs)%nat /\ (forall n, In n vs -> (m_nnodes m <= n < m_nnodes m + m_nedges m)%nat)).
  { intros vs Hv. rewrite Forall_forall in FV. destruct (FV vs Hv) as (ns & Hn & R1). destruct (HL ns Hn) as (H3 & _). destruct R1 as (x & y & -> & ->). split; [rewrite app_length in *; lia|].
    intros n Hi. assert (Hc : In n (concat nlines)) by (apply in_concat; exists (x ++ y); split; [exact Hn|apply in_app_or in Hi; apply in_or_app; tauto]).
    rewrite <- flat_cyclic_fst in Hc. apply in_map_iff in Hc as (c & <- & Hc). apply (Permutation_in _ (Permutation_sym PN)) in Hc. apply (closing_range check v m im T B c Hc). }
  assert (LIDS : mapO_list (at_throw facets) (i_surface I'') = Ok (map (lid_facet all) vss)).
  { rewrite D4, (proj1 (sc_surface _ _ _ _ SC)). cbn [app]. unfold facets. rewrite D3. unfold all. rewrite D2. generalize (m_facets (i_mesh I')) (lid_facet (m_all (i_mesh I'))). clear. intros F lf.
    revert F. induction vss as [|vs vss IH]; intros F; [reflexivity|]. cbn [length seq mapO_list map]. unfold at_throw at 1. rewrite nth_error_app2, Nat.sub_diag by lia. cbn [nth_error bindO].
    specialize (IH (F ++ [lf vs])). rewrite <- app_assoc, app_length in IH. cbn [app length] in IH. rewrite Nat.add_1_r in IH. rewrite IH. reflexivity. }
  assert (KEEP : filter (fun f => negb (has_facet f ms)) (map (fun f => f) (map (lid_facet all) vss)) = map (lid_facet all) vss).
  { rewrite map_id. apply filter_all. intros lf Hlf. apply in_map_iff in Hlf as (vs & <- & Hv). destruct (VR vs Hv) as (H3 & HN). apply negb_true_iff.
    unfold has_facet. cbn [mf_vertices mf_normal lid_facet]. destruct vs as [|n vs]; [cbn in H3; lia|]. apply not_true_iff_false. intros HA. rewrite forallb_forall in HA.
    specialize (HA n (or_introl eq_refl)). apply existsb_exists in HA as (g & Hg & K). unfold contains_vertex in K. apply andb_true_iff in K as [K1 K2].
    destruct (M4 g Hg) as (l & Hl & [Q|(Q1 & Q2)]).
    - apply Closing_Graph_Proofs.mem_In in K2. apply Q in K2. pose proof (HN n (or_introl eq_refl)). lia.
    - apply negb_true_iff in K1. pose proof (FAR l _ Hl Q1 Q2) as Q. rewrite Rltb_t in K1 by exact Q. discriminate. }
  assert (PTS : mapO_list (with_points I'') (map (lid_facet all) vss) = Ok (map (fun vs => mkFacet (points all vs) lid_normal (area (points all vs)) (centre_of_gravity (points all vs))) vss)).
  { clear - VR LA D2. induction vss as [|vs vss IH]; [reflexivity|]. cbn [map mapO_list]. unfold with_points at 1. cbn [lid_facet mf_vertices mf_normal mf_area mf_centroid]. fold all.
    rewrite (points_ok all vs (points all vs)). 2:{ apply has_points_points. intros n Hn. unfold all. rewrite D2, LA. apply (proj2 (VR vs (or_introl eq_refl)) n Hn). }
    cbn [bindO]. rewrite IH; [reflexivity|]. intros w Hw. apply VR. right. exact Hw. }
  exists I', I'', fs, (map (points all) vss). split; [exact EU|]. split; [|split; [exact M3|]].
  - unfold center_of_mass_immersed, center_of_mass_of. rewrite EC. cbn [bindO]. unfold facets_at. fold facets. rewrite D5, EI, M1. cbn [bindO].
    change (mapO_list (with_points I'') ms) with (mapO_list (fun g => do pts <- mapO_list (at_ub all) (mf_vertices g); Ok (mkFacet pts (mf_normal g) (mf_area g) (mf_centroid g))) ms). rewrite M2. cbn [bindO].
    rewrite LIDS. cbn [bindO]. rewrite KEEP, PTS. cbn [bindO]. rewrite map_map. cbn [f_points]. reflexivity.
  - assert (EP : forall ns, points all ns = map pt ns) by (intros ns; unfold points, pt, all; rewrite D2; reflexivity).
    destruct (lids_are_lines nlines vss NDN) as (nl' & Q1 & Q2).
    { intros l Hl E0. destruct (HL l Hl) as (H3 & _). rewrite E0 in H3. cbn in H3. lia. }
    { exact (Permutation_trans PV PN). }
    { exact FV. }
    assert (LP : exists lines', Permutation lines lines' /\ Forall2 rotated lines' (map (points all) vss)).
    { exists (map (map pt) nl'). split; [rewrite <- EL; apply Permutation_map; exact Q1|]. clear - Q2 EP. induction Q2 as [|l vs nl vss R1 _ IH]; [apply Forall2_nil|]. cbn [map]. apply Forall2_cons; [rewrite EP; apply rotated_map; exact R1|exact IH]. }
    split; [exact LP|]. apply (wet_closed im v).
    + intros l Hl. destruct (T l Hl) as (a & b & c & -> & _). exists a, b, c. split; [reflexivity|].
      split; [|split]; apply OFF; apply in_concat; eexists; (split; [exact Hl|cbn; auto]).
    + exact CV.
    + apply wet_facets_edges. exact M3.
    + rewrite <- PC. apply (Permutation_trans (l' := map (pt2 pt) (flat_map cyclic_pairs vss))); [|apply Permutation_map; exact PV].
      rewrite edges_flat. rewrite (map_ext _ _ EP). rewrite flat_cyclic_map. apply Permutation_refl.
Qed.
Print Assumptions floating_hull_is_closed_partial.
