(** The immersed facets after a cut, as polygons. *)
From Coq Require Import Reals List Bool Arith Lra Lia Permutation.
From Verif Require Import Common Geometry Sim_Model Hull_Model Hull_Spec Hull_Proofs Mesh_Model Mesh_Spec Mesh_Proofs Mesh_Props Cut_Proofs Triangle_Proofs Cut_Loop_Proofs Cut_Props
  Closing_Model Closing_Spec Closing_Contour_Proofs Closing_Contour_Props Lid_Edges_Proofs Lid_Groups_Proofs Lid_Build_Proofs Floating_Spec Floating_Geometry_Proofs Floating_Mesh_Proofs Floating_Proofs.
Import ListNotations.
Open Scope R_scope.

(** The facet [f] is the wet part of the triangle [l], from any of its vertices, with the unit normal of [l] and its own area and centre. *)
Definition wet_facet (im : vec3 -> R) (l : list vec3) (f : facet) : Prop :=
  rotated (wet im l) (f_points f) /\ unit_normal l = Ok (f_normal f) /\ f_area f = area (f_points f) /\ f_centroid f = centre_of_gravity (f_points f).
Definition is_wet (im : vec3 -> R) (l : list vec3) : bool := match wet im l with [] => false | _ => true end.

Lemma points_ok : forall nodes vs pts, has_points nodes vs pts -> mapO_list (at_ub nodes) vs = Ok pts.
Proof.
  intros nodes vs. induction vs as [|i vs IH]; intros [|p pts] H; try discriminate H; [reflexivity|]. unfold has_points in H. cbn [map] in H. injection H as H1 H2.
  cbn [mapO_list]. rewrite (at_ub_nth _ _ _ H1). cbn [bindO]. rewrite (IH pts H2). reflexivity.
Qed.
Lemma mapO_app : forall {A B} (f : A -> outcome B) l k l' k', mapO_list f l = Ok l' -> mapO_list f k = Ok k' -> mapO_list f (l ++ k) = Ok (l' ++ k').
Proof.
  intros A B f l. induction l as [|a l IH]; intros k l' k' H1 H2; cbn [mapO_list app] in *; [injection H1 as <-; exact H2|].
  destruct (f a) as [b| |]; try discriminate H1. cbn [bindO] in *. destruct (mapO_list f l) as [t| |] eqn:E; try discriminate H1. cbn [bindO] in H1. injection H1 as <-.
  rewrite (IH k t k' eq_refl H2). reflexivity.
Qed.
Lemma points_det : forall nodes vs p q, has_points nodes vs p -> has_points nodes vs q -> p = q.
Proof.
  intros nodes vs p q H1 H2. unfold has_points in *. rewrite H1 in H2. clear H1. revert q H2. induction p as [|a p IH]; intros [|b q] H; try discriminate H; [reflexivity|]. injection H as -> H. f_equal. apply IH. exact H.
Qed.

(** One facet. [all], [facets]: tables after the cut *)
Lemma wet_of_cut : forall (m : mesh) imm all facets f l fc oes im em, triangle_at m imm f l fc oes ->
  (forall i, (i < m_nnodes m)%nat -> nth i (map imm (static_nodes m)) 0 = imm (pa m i)) -> (forall i, (i < m_nnodes m)%nat -> imm (pa m i) <> 0) ->
  (forall i, (i < m_nnodes m)%nat -> nth_error all i = Some (pa m i)) -> nth_error facets f = Some fc ->
  cut_as all facets (fun i => nth i (map imm (static_nodes m)) 0) f im em ->
  exists ms fs, mapO_list (at_throw facets) im = Ok ms /\ mapO_list (fun g => do pts <- mapO_list (at_ub all) (mf_vertices g); Ok (mkFacet pts (mf_normal g) (mf_area g) (mf_centroid g))) ms = Ok fs /\
    Forall2 (wet_facet imm) (filter (is_wet imm) [l]) fs /\
    (forall g, In g ms -> (forall i, In i (mf_vertices g) -> (i < m_nnodes m)%nat) \/ (segments imm l <> [] /\ unit_normal l = Ok (mf_normal g))).
Proof.
  intros m imm all facets f l fc oes im em [_ _ TA TP (TN & TAr & TC)] RA OFF ALL HF (fc' & pts & HF' & HP & CASES). rewrite HF in HF'. injection HF' as <-.
  destruct TA as (a & b & c & o0 & o1 & o2 & EL & EV & _ & (La & Lb & Lc) & _). rewrite EV in *. cbv zeta in CASES.
  assert (HPL : has_points all [a; b; c] l) by (rewrite EL; unfold has_points; cbn [map]; rewrite !ALL by assumption; reflexivity).
  rewrite (points_det _ _ _ _ HP HPL) in CASES. clear HP pts. set (rel := map imm (static_nodes m)) in *.
  assert (PO : combine l (map (fun i => nth i rel 0) [a; b; c]) = map (fun p => (p, imm p)) l) by (rewrite EL; cbn [map combine]; rewrite !RA by assumption; reflexivity).
  rewrite PO in CASES. clear PO. fold (wet imm l) in CASES.
  assert (BE : (exists i, In i [a; b; c] /\ 0 < nth i rel 0) <-> (0 < imm (pa m a) \/ 0 < imm (pa m b) \/ 0 < imm (pa m c))).
  { cbn [In]. rewrite <- !RA by assumption. split; [intros (i & [<-|[<-|[<-|[]]]] & H); auto|intros [H|[H|H]]; [exists a|exists b|exists c]; auto]. }
  assert (AB : (exists i, In i [a; b; c] /\ nth i rel 0 < 0) <-> (imm (pa m a) < 0 \/ imm (pa m b) < 0 \/ imm (pa m c) < 0)).
  { cbn [In]. rewrite <- !RA by assumption. split; [intros (i & [<-|[<-|[<-|[]]]] & H); auto|intros [H|[H|H]]; [exists a|exists b|exists c]; auto]. }
  rewrite BE, AB in CASES. pose proof (OFF a La) as NA. pose proof (OFF b Lb) as NB. pose proof (OFF c Lc) as NC.
  destruct CASES as [(C1 & C2 & -> & _)|[(C1 & C2 & -> & _)|(C1 & i & e & fi & fe & pi & pe & -> & _ & Hi & _ & Pi & _ & Ri & _ & Ni & _ & Ai & _ & Gi & _)]].
  - assert (EW : wet imm l = l). { rewrite EL, wet3. rewrite !keep_im, !xing_no by lra. reflexivity. }
    exists [fc], [mkFacet l (mf_normal fc) (mf_area fc) (mf_centroid fc)]. split; [cbn; unfold at_throw; rewrite HF; reflexivity|]. split; [cbn [mapO_list]; rewrite EV, (points_ok _ _ _ HPL); reflexivity|]. split.
    + cbn [filter]. unfold is_wet. rewrite EW. rewrite EL at 1. apply Forall2_cons; [|apply Forall2_nil]. unfold wet_facet. cbn. rewrite EW. split; [exists [], l; rewrite app_nil_r; auto|auto].
    + intros g [<-|[]]. left. intros i Hi. rewrite EV in Hi. cbn in Hi. destruct Hi as [<-|[<-|[<-|[]]]]; assumption.
  - assert (EW : wet imm l = []). { rewrite EL, wet3. rewrite !drop_im, !xing_no by lra. reflexivity. }
    exists [], []. split; [reflexivity|]. split; [reflexivity|]. split; [|intros g []]. cbn [filter]. unfold is_wet. rewrite EW. apply Forall2_nil.
  - assert (NE : wet imm l <> [] /\ segments imm l <> []).
    { rewrite EL, wet3. unfold segments. rewrite entry3, exit3.
      assert (SA : imm (pa m a) < 0 \/ 0 < imm (pa m a)) by lra. assert (SB : imm (pa m b) < 0 \/ 0 < imm (pa m b)) by lra. assert (SC : imm (pa m c) < 0 \/ 0 < imm (pa m c)) by lra.
      destruct SA, SB, SC; try (exfalso; lra); repeat first [rewrite keep_im by lra|rewrite drop_im by lra|rewrite xing_no by lra|rewrite xing_yes by lra];
        repeat match goal with |- context [Rlt_dec ?u ?w] => destruct (Rlt_dec u w); try (exfalso; lra) end; split; discriminate. }
    destruct NE as (NW & NS).
    exists [fi], [mkFacet pi (mf_normal fi) (mf_area fi) (mf_centroid fi)]. split; [cbn; unfold at_throw; rewrite Hi; reflexivity|]. split; [cbn [mapO_list]; rewrite (points_ok _ _ _ Pi); reflexivity|]. split.
    + cbn [filter]. unfold is_wet. destruct (wet imm l) eqn:EW; [congruence|]. rewrite <- EW in *. apply Forall2_cons; [|apply Forall2_nil]. unfold wet_facet. cbn. rewrite Ni, TN. auto.
    + intros g [<-|[]]. right. split; [exact NS|]. rewrite Ni. exact TN.
Qed.

Lemma wet_of_cuts : forall (m : mesh) imm all facets v ims (P : list vec3 -> mfacet -> Prop),
  length ims = length v ->
  (forall f l im, nth_error v f = Some l -> nth_error ims f = Some im -> exists ms fs, mapO_list (at_throw facets) im = Ok ms /\
    mapO_list (fun g => do pts <- mapO_list (at_ub all) (mf_vertices g); Ok (mkFacet pts (mf_normal g) (mf_area g) (mf_centroid g))) ms = Ok fs /\
    Forall2 (wet_facet imm) (filter (is_wet imm) [l]) fs /\ (forall g, In g ms -> P l g)) ->
  exists ms fs, mapO_list (at_throw facets) (concat ims) = Ok ms /\
    mapO_list (fun g => do pts <- mapO_list (at_ub all) (mf_vertices g); Ok (mkFacet pts (mf_normal g) (mf_area g) (mf_centroid g))) ms = Ok fs /\
    Forall2 (wet_facet imm) (filter (is_wet imm) v) fs /\ (forall g, In g ms -> exists l, In l v /\ P l g).
Proof.
  intros m imm all facets v. induction v as [|l v IH]; intros [|im ims] P L H; try discriminate L.
  - exists [], []. split; [reflexivity|]. split; [reflexivity|]. split; [apply Forall2_nil|intros g []].
  - destruct (H O l im eq_refl eq_refl) as (ms1 & fs1 & A1 & A2 & A3 & A4). destruct (IH ims P) as (ms2 & fs2 & B1 & B2 & B3 & B4); [cbn in L; lia|intros f l' im' H1 H2; exact (H (S f) l' im' H1 H2)|].
    exists (ms1 ++ ms2), (fs1 ++ fs2). cbn [concat]. split; [apply mapO_app; assumption|]. split; [apply mapO_app; assumption|]. split.
    + replace (filter (is_wet imm) (l :: v)) with (filter (is_wet imm) [l] ++ filter (is_wet imm) v) by (rewrite <- filter_app; reflexivity). apply Forall2_app; assumption.
    + intros g Hg. apply in_app_or in Hg as [Hg|Hg]; [exists l; split; [left; reflexivity|apply A4; exact Hg]|]. destruct (B4 g Hg) as (l' & Hl' & Q). exists l'. split; [right; exact Hl'|exact Q].
Qed.

(** The edges of the wet facets *)
Lemma wet_facets_edges : forall imm v fs, Forall2 (wet_facet imm) (filter (is_wet imm) v) fs -> Permutation (edges (map f_points fs)) (edges (map (wet imm) v)).
Proof.
  intros imm v. induction v as [|l v IH]; intros fs F; cbn [filter map] in *; [inversion F; apply Permutation_refl|].
  change (edges (wet imm l :: map (wet imm) v)) with (cycle (wet imm l) ++ edges (map (wet imm) v)). destruct (is_wet imm l) eqn:W.
  - inversion F as [|? f ? fs' (R1 & _) F']; subst. cbn [map]. change (edges (f_points f :: map f_points fs')) with (cycle (f_points f) ++ edges (map f_points fs')).
    apply Permutation_app; [|apply IH; exact F']. rewrite !cycle_pairs. apply Permutation_sym, cyclic_perm. exact R1.
  - unfold is_wet in W. destruct (wet imm l); [|discriminate]. apply IH. exact F.
Qed.
