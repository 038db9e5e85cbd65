(** The closing facets built for disjoint directed closed lines that are convex seen from above. *)
From Coq Require Import Reals List Bool Arith Lra Lia Permutation.
From Verif Require Import Common Geometry Sim_Model Hull_Model Hull_Spec Hull_Proofs Mesh_Model Mesh_Spec Mesh_Proofs Cut_Proofs Closing_Model Closing_Spec Closing_Graph_Proofs
  Closing_Group_Props Closing_Contour_Proofs Closing_Contour_Props Lid_Groups_Proofs.
Import ListNotations.
Open Scope R_scope.

Lemma dedup_nodup : forall vs seen, NoDup vs -> (forall v, In v vs -> ~ In v seen) -> dedup vs seen = (vs, length vs).
Proof.
  induction vs as [|v vs IH]; intros seen ND H; [reflexivity|]. inversion ND as [|? ? NI ND']; subst. cbn [dedup].
  destruct (existsb (Nat.eqb v) seen) eqn:E.
  - exfalso. apply existsb_exists in E as (x & Hx & EQ). apply Nat.eqb_eq in EQ. subst x. exact (H v (or_introl eq_refl) Hx).
  - rewrite IH; [reflexivity|exact ND'|]. intros w Hw [<-|Hs]; [contradiction|]. exact (H w (or_intror Hw) Hs).
Qed.
Definition area2 (a b c : vec3) : R := vz (cross (vsub b a) (vsub c a)).
Lemma convex_det : forall s l, s <> 0 -> convex (V3 0 0 s) (map flat l) -> convex (V3 0 0 (- s)) (map flat l) -> forall i j k, (i < j)%nat -> (j < k)%nat -> (k < length l)%nat ->
  area2 (nth i l v0) (nth j l v0) (nth k l v0) = 0.
Proof.
  intros s l NS (_ & _ & C1) (_ & _ & C2) i j k A B D. specialize (C1 i j k A B). specialize (C2 i j k A B). rewrite map_length in C1, C2. specialize (C1 D). specialize (C2 D).
  change v0 with (flat v0) in C1, C2. rewrite !map_nth in C1, C2. revert C1 C2. generalize (nth i l v0), (nth j l v0), (nth k l v0). intros [a1 a2 a3] [b1 b2 b3] [c1 c2 c3].
  unfold area2, flat, dot, cross, vsub. cbn. intros. assert (s * ((b1 - a1) * (c2 - a2) - (b2 - a2) * (c1 - a1)) = 0) by lra. apply Rmult_integral in H as [H|H]; [lra|exact H].
Qed.
Lemma all_aligned : forall l, (forall i j k, (i < j)%nat -> (j < k)%nat -> (k < length l)%nat -> area2 (nth i l v0) (nth j l v0) (nth k l v0) = 0) ->
  forall a b c, In a l -> In b l -> In c l -> area2 a b c = 0.
Proof.
  intros l H a b c Ha Hb Hc. apply (In_nth _ _ v0) in Ha as (i & Li & <-). apply (In_nth _ _ v0) in Hb as (j & Lj & <-). apply (In_nth _ _ v0) in Hc as (k & Lk & <-).
  assert (P1 : forall a b c, area2 a b c = area2 b c a) by (intros [? ? ?] [? ? ?] [? ? ?]; unfold area2, cross, vsub; cbn; ring).
  assert (P2 : forall a b c, area2 a b c = - area2 b a c) by (intros [? ? ?] [? ? ?] [? ? ?]; unfold area2, cross, vsub; cbn; ring).
  assert (P3 : forall a b c, area2 a b c = - area2 a c b) by (intros [? ? ?] [? ? ?] [? ? ?]; unfold area2, cross, vsub; cbn; ring).
  assert (P4 : forall a b c, area2 a b c = - area2 c b a) by (intros [? ? ?] [? ? ?] [? ? ?]; unfold area2, cross, vsub; cbn; ring).
  assert (Z1 : forall a c, area2 a a c = 0) by (intros [? ? ?] [? ? ?]; unfold area2, cross, vsub; cbn; ring).
  destruct (Nat.lt_trichotomy i j) as [A|[A|A]]; destruct (Nat.lt_trichotomy j k) as [B|[B|B]]; destruct (Nat.lt_trichotomy i k) as [D|[D|D]]; subst; try lia;
    try (apply Z1); try (rewrite P1; apply Z1); try (rewrite P1, P1; apply Z1).
  - apply H; assumption.
  - rewrite P3, H by assumption. ring.
  - rewrite P1, P1. apply H; assumption.
  - rewrite P2, H by assumption. ring.
  - rewrite P1. apply H; assumption.
  - rewrite P4, H by assumption. ring.
Qed.
(** A line that is convex in one direction is not in the other. *)
Lemma one_direction : forall l l', l <> [] -> convex (V3 0 0 (-1)) (map flat l) -> resolved l -> rotated (rev l) l' -> convex (V3 0 0 (-1)) (map flat l') -> False.
Proof.
  intros l l' NE CV RS RT CV'. assert (CR : convex (V3 0 0 (-1)) (map flat (rev l))).
  { apply (convex_rotated _ (map flat l')); [|exact CV']. apply rotated_map. destruct RT as (a & b & E1 & ->). rewrite E1. exists b, a. auto. }
  apply convex_rev in CR. rewrite <- map_rev, rev_involutive in CR. replace (vopp (V3 0 0 (-1))) with (V3 0 0 (- -1)) in CR by (unfold vopp; cbn; f_equal; ring).
  pose proof (all_aligned l (convex_det (-1) l ltac:(lra) CV CR)) as AL. destruct RS as (_ & R2).
  destruct l as [|p t]; [congruence|]. assert (HC : exists e, In e (cyclic_pairs (p :: t))).
  { pose proof (cyclic_length (p :: t)) as L. destruct (cyclic_pairs (p :: t)) as [|e ?]; [discriminate L|]. exists e. left. reflexivity. }
  destruct HC as (e & He). destruct (R2 e He) as (f & Hf & T). apply T.
  assert (N : forall e, In e (cyclic_pairs (p :: t)) -> In (fst e) (p :: t) /\ In (snd e) (p :: t)).
  { intros g Hg. split; [rewrite <- (cyclic_fst' (p :: t)); apply in_map; exact Hg|]. apply (in_map snd) in Hg. rewrite cyclic_snd' in Hg. apply in_app_or in Hg as [Hg|[Hg|[]]]; [right|left]; exact Hg. }
  destruct (N e He) as [A1 A2]. destruct (N f Hf) as [B1 B2]. pose proof (AL _ _ _ A1 A2 B1) as X1. pose proof (AL _ _ _ A1 A2 B2) as X2. revert X1 X2.
  unfold area2, turn. destruct e as [[? ? ?] [? ? ?]], f as [[? ? ?] [? ? ?]]. cbn. intros. lra.
Qed.

(** The intersector with one more lid *)
Definition lid_facet (nodes : list vec3) (vs : list nat) : mfacet := mkMF vs lid_normal (centre_of_gravity (points nodes vs)) (area (points nodes vs)).
Definition with_lid (I : inter) (vs : list nat) : inter :=
  mkI (with_facet (i_mesh I) (lid_facet (m_all (i_mesh I)) vs)) (i_rel I) (i_waves I) (i_abs I) (i_emerged I) (i_immersed I) (i_surface I ++ [length (m_facets (i_mesh I))]) (i_on I) (i_closing I).
Lemma has_points_points : forall nodes ns, (forall n, In n ns -> (n < length nodes)%nat) -> has_points nodes ns (points nodes ns).
Proof. intros nodes ns H. unfold has_points, points. rewrite map_map. apply map_ext_in. intros n Hn. apply nth_error_nth'. apply H. exact Hn. Qed.

Lemma lid_of_group : forall es I group ns, in_mesh (m_all (i_mesh I)) es -> m_edges (i_mesh I) = es -> (forall i, In i group -> (i < length es)%nat) ->
  (3 <= length ns)%nat -> NoDup ns -> Permutation (chosen_edges es group) (cyclic_pairs ns) ->
  convex (V3 0 0 (-1)) (map flat (points (m_all (i_mesh I)) ns)) -> resolved (points (m_all (i_mesh I)) ns) ->
  exists vs, add_lid es I group = Ok (with_lid I vs) /\ rotated ns vs.
Proof.
  intros es I group ns IM EE LT L3 ND P CV RS.
  assert (CL : closed_line (chosen_edges es group) ns).
  { split; [exact L3|]. split; [exact ND|]. exists (cyclic_pairs ns). split; [exact P|]. generalize (cyclic_pairs ns). induction l as [|e l IH]; [apply Forall2_nil|]. apply Forall2_cons; [left; reflexivity|exact IH]. }
  destruct (contour_of_convex_line_oriented_partial (m_all (i_mesh I)) es group ns (-1) IM LT CL (or_intror eq_refl) CV RS) as (c & k & ns' & EC & EK & PK & RA & SP & CV').
  assert (NP : points (m_all (i_mesh I)) ns <> []) by (destruct ns; [cbn in L3; lia|discriminate]).
  assert (RT : rotated ns ns').
  { destruct SP as [SP|SP]; [exact SP|]. exfalso. apply (one_direction (points (m_all (i_mesh I)) ns) (points (m_all (i_mesh I)) ns') NP CV RS); [|exact CV'].
    unfold points. rewrite <- map_rev. apply rotated_map. exact SP. }
  unfold add_lid. rewrite EC. cbn [bindO]. rewrite EK. cbn [bindO].
  assert (LN : length ns' = length ns) by (destruct RT as (a & b & -> & ->); rewrite !app_length; lia).
  assert (ND' : NoDup ns') by (destruct RT as (a & b & -> & ->); apply (Permutation_NoDup (Permutation_app_comm a b)); exact ND).
  destruct ns' as [|n0 t]; [cbn in LN; lia|].
  destruct k as [|er k]. { unfold runs_around in RA. pose proof (f_equal (@length _) RA) as Q. rewrite map_length, map_length, cyclic_length in Q. cbn in Q. lia. }
  assert (NDR : NoDup (t ++ [n0])) by (apply (Permutation_NoDup (Permutation_cons_append t n0)); exact ND').
  rewrite (create_facet (i_mesh I) _ (cyclic_pairs (n0 :: t)) lid_normal (t ++ [n0]) (t ++ [n0]) (length (t ++ [n0])) (points (m_all (i_mesh I)) (t ++ [n0]))).
  - cbn [bindO]. exists (t ++ [n0]). split; [reflexivity|]. apply (rotated_trans _ (n0 :: t)); [exact RT|]. exists [n0], t. auto.
  - rewrite map_map. rewrite <- RA. apply map_ext. intros [e r]. cbn [fst snd]. unfold ends. rewrite oriented_div2, oriented_odd, EE. reflexivity.
  - rewrite cyclic_snd'. apply dedup_nodup; [exact NDR|]. intros v _ [].
  - apply firstn_all.
  - destruct t; discriminate.
  - apply has_points_points. intros n Hn. assert (Hn' : In n ns). { apply in_app_or in Hn. destruct RT as (a & b & -> & E). assert (In n (b ++ a)) by (rewrite <- E; destruct Hn as [Hn|[<-|[]]]; [right|left]; auto). apply in_app_or in H. apply in_or_app. tauto. }
    assert (HE : exists e, In e (cyclic_pairs ns) /\ fst e = n). { rewrite <- (cyclic_fst' ns) in Hn'. apply in_map_iff in Hn' as (e & A & B). exists e. auto. }
    destruct HE as (e & He & <-). apply (Permutation_in _ (Permutation_sym P)) in He. unfold chosen_edges in He. apply in_map_iff in He as (i & <- & Hi). apply IM. apply nth_In. apply LT. exact Hi.
Qed.

(** All the lids *)
Record lids_added (I : inter) (vss : list (list nat)) (I' : inter) : Prop := {
  la_edges : m_edges (i_mesh I') = m_edges (i_mesh I);
  la_all : m_all (i_mesh I') = m_all (i_mesh I);
  la_facets : m_facets (i_mesh I') = m_facets (i_mesh I) ++ map (lid_facet (m_all (i_mesh I))) vss;
  la_surface : i_surface I' = i_surface I ++ seq (length (m_facets (i_mesh I))) (length vss);
  la_inter : i_immersed I' = i_immersed I /\ i_emerged I' = i_emerged I /\ i_on I' = i_on I /\ i_rel I' = i_rel I /\ i_waves I' = i_waves I /\ i_abs I' = i_abs I;
  la_mesh : m_fpe (i_mesh I') = m_fpe (i_mesh I) /\ m_oef (i_mesh I') = m_oef (i_mesh I) /\ m_nnodes (i_mesh I') = m_nnodes (i_mesh I) /\
           m_nedges (i_mesh I') = m_nedges (i_mesh I) /\ m_nfacets (i_mesh I') = m_nfacets (i_mesh I) /\ m_total (i_mesh I') = m_total (i_mesh I) /\ m_orientation (i_mesh I') = m_orientation (i_mesh I)
}.
Lemma lids_of_groups : forall es lines groups I, in_mesh (m_all (i_mesh I)) es -> m_edges (i_mesh I) = es ->
  (forall l, In l groups -> (forall i, In i l -> (i < length es)%nat) /\ exists ns, In ns lines /\ Permutation (chosen_edges es l) (cyclic_pairs ns)) ->
  (forall ns, In ns lines -> (3 <= length ns)%nat /\ NoDup ns /\ convex (V3 0 0 (-1)) (map flat (points (m_all (i_mesh I)) ns)) /\ resolved (points (m_all (i_mesh I)) ns)) ->
  exists I' vss, foldO (add_lid es) groups I = Ok I' /\ lids_added I vss I' /\
    Forall2 (fun l vs => exists ns, In ns lines /\ rotated ns vs /\ Permutation (chosen_edges es l) (cyclic_pairs vs)) groups vss.
Proof.
  intros es lines groups. induction groups as [|g groups IH]; intros I IM EE HG HL; cbn [foldO].
  - exists I, []. split; [reflexivity|]. split; [|apply Forall2_nil]. constructor; cbn; rewrite ?app_nil_r; auto 10.
  - destruct (HG g (or_introl eq_refl)) as (LT & ns & Hn & P). destruct (HL ns Hn) as (L3 & ND & CV & RS).
    destruct (lid_of_group es I g ns IM EE LT L3 ND P CV RS) as (vs & E & RT). rewrite E. cbn [bindO].
    destruct (IH (with_lid I vs)) as (I' & vss & E' & A & F); [exact IM|exact EE|intros l Hl; apply HG; right; exact Hl|exact HL|].
    exists I', (vs :: vss). split; [exact E'|]. split.
    + destruct A as [A1 A2 A3 A4 A5 A6]. unfold with_lid, with_facet in A1, A2, A3, A4, A5, A6. cbn in A1, A2, A3, A4, A5, A6. rewrite app_length in A4. cbn in A4. rewrite Nat.add_1_r in A4.
      constructor; try assumption.
      * rewrite A3, <- app_assoc. reflexivity.
      * rewrite A4, <- app_assoc. reflexivity.
    + apply Forall2_cons; [|exact F]. exists ns. split; [exact Hn|]. split; [exact RT|]. apply (Permutation_trans P). apply cyclic_perm. exact RT.
Qed.
(** The edges of the lids are the edges on the surface. *)
Lemma lids_edges : forall es groups vss, Forall2 (fun l vs => Permutation (chosen_edges es l) (cyclic_pairs vs)) groups vss -> Permutation (chosen_edges es (concat groups)) (flat_map cyclic_pairs vss).
Proof.
  intros es groups vss F. induction F as [|g vs groups vss H _ IH]; [apply Permutation_refl|]. cbn [concat flat_map]. unfold chosen_edges in *. rewrite map_app. apply Permutation_app; assumption.
Qed.
Lemma build_lids : forall I E C lines, in_mesh (m_all (i_mesh I)) (E ++ C) -> m_edges (i_mesh I) = E ++ C -> i_on I = seq (length E) (length C) -> i_closing I = true ->
  Permutation C (flat_map cyclic_pairs lines) -> NoDup (concat lines) ->
  (forall ns, In ns lines -> (3 <= length ns)%nat /\ convex (V3 0 0 (-1)) (map flat (points (m_all (i_mesh I)) ns)) /\ resolved (points (m_all (i_mesh I)) ns)) ->
  exists I' vss, update_closing I = Ok I' /\ lids_added I vss I' /\ Permutation (flat_map cyclic_pairs vss) C /\ Forall (fun vs => exists ns, In ns lines /\ rotated ns vs) vss.
Proof.
  intros I E C lines IM EE EO EC PC ND HL. unfold update_closing. rewrite EC. unfold build_closing_edge. rewrite EO.
  destruct C as [|c0 C0] eqn:QC.
  - exists I, []. split; [reflexivity|]. split; [constructor; cbn; rewrite ?app_nil_r; auto 10|]. split; [apply Permutation_refl|constructor].
  - rewrite <- QC in *. assert (NC : C <> []) by (rewrite QC; discriminate). clear QC.
    destruct (groups_lines E C lines PC ND NC) as (g & EG & PG & HG).
    assert (NI : seq (length E) (length C) <> []) by (destruct C; [congruence|discriminate]).
    destruct (seq (length E) (length C)) as [|i0 is] eqn:ES; [congruence|]. rewrite <- ES in *. rewrite EE, EG. cbn [bindO].
    destruct (lids_of_groups (E ++ C) lines g I IM EE) as (I' & vss & EF & A & F).
    + intros l Hl. destruct (HG l Hl) as (A1 & A2). split; [|exact A2]. intros i Hi. apply A1 in Hi. rewrite ?ES in Hi. rewrite <- ?ES in Hi. apply in_seq in Hi. rewrite app_length. lia.
    + intros ns Hn. destruct (HL ns Hn) as (A1 & A2 & A3). repeat (split; [assumption|]). split; [apply (nodup_concat_each lines); assumption|auto].
    + rewrite EF. cbn [bindO]. eexists _, vss. split; [reflexivity|]. split; [destruct A; constructor; assumption|]. split.
      * apply (Permutation_trans (l' := chosen_edges (E ++ C) (concat g))).
        -- apply Permutation_sym, lids_edges. clear - F. induction F as [|l vs g vss (ns & _ & _ & P) _ IH]; [apply Forall2_nil|apply Forall2_cons; assumption].
        -- apply (Permutation_trans (l' := chosen_edges (E ++ C) (seq (length E) (length C)))); [apply Permutation_map; exact PG|].
           unfold chosen_edges. replace (map (fun i => nth i (E ++ C) (0, 0)%nat) (seq (length E) (length C))) with C; [apply Permutation_refl|].
           clear. revert E. induction C as [|c C IH]; intros E; [reflexivity|]. cbn [length seq map]. f_equal; [rewrite app_nth2, Nat.sub_diag by lia; reflexivity|].
           specialize (IH (E ++ [c])). rewrite app_length, <- app_assoc in IH. cbn [length app] in IH. rewrite Nat.add_1_r in IH. exact IH.
      * clear - F. induction F as [|l vs g vss (ns & A & B & _) _ IH]; constructor; [exists ns; auto|exact IH].
Qed.
