(** Cutting one triangle. *)
From Coq Require Import Reals List Bool Arith ZArith Lra Lia.
From Verif Require Import Common Geometry Sim_Model Hull_Model Hull_Proofs Blocked_Model Blocked_Proofs Mesh_Model Mesh_Spec Mesh_Proofs Mesh_Props Cut_Proofs.
Import ListNotations.
Open Scope R_scope.

Lemma vertex_list_dedup2 : forall edges os vs seen, Forall2 (fun o v => second_vertex edges o = Ok v) os vs -> vertex_list edges os seen = Ok (dedup vs seen).
Proof.
  intros edges os vs seen F. revert seen. induction F as [|o v os vs H F IH]; intros seen; [reflexivity|].
  cbn [vertex_list dedup]. rewrite H. cbn [bindO]. destruct (existsb (Nat.eqb v) seen).
  - rewrite IH. cbn [bindO]. destruct (dedup vs seen). reflexivity.
  - rewrite IH. cbn [bindO]. destruct (dedup vs (v :: seen)). reflexivity.
Qed.
Lemma create_facet2 : forall m os us n v vs k pts, Forall2 (fun o u => second_vertex (m_edges m) o = Ok u) os us -> dedup us [] = (vs, k) -> firstn k vs = v ->
  v <> [] -> has_points (m_all m) v pts ->
  create_facet_from_edges m os n = Ok (with_facet m (mkMF v n (centre_of_gravity pts) (area pts)), length (m_facets m)).
Proof.
  intros m os us n v vs k pts H D F NE P. unfold create_facet_from_edges. rewrite (vertex_list_dedup2 _ _ us [] H). cbn [bindO]. rewrite D, F.
  destruct v as [|x v]; [congruence|]. rewrite (map_nodes _ _ _ P). reflexivity.
Qed.

(** ** Clipping a triangle, piece by piece *)
Definition keep (s : R) (A : vec3) (x : R) : list vec3 := if Rle_dec 0 (s * x) then [A] else [].
Definition xing (A : vec3) (x : R) (B : vec3) (y : R) : list vec3 := if Rlt_dec (x * y) 0 then [cut (A, x) (B, y)] else [].
Lemma clip3 : forall s A x B y C z, clip s [(A, x); (B, y); (C, z)] =
  keep s A x ++ xing A x B y ++ keep s B y ++ xing B y C z ++ keep s C z ++ xing C z A x.
Proof. intros. unfold clip, cyclic_pairs. cbn [app combine flat_map fst snd]. rewrite app_nil_r, <- !app_assoc. reflexivity. Qed.
Lemma keep_im : forall A x, 0 <= x -> keep 1 A x = [A]. Proof. intros. unfold keep. destruct (Rle_dec 0 (1 * x)); [reflexivity|lra]. Qed.
Lemma drop_im : forall A x, x < 0 -> keep 1 A x = []. Proof. intros. unfold keep. destruct (Rle_dec 0 (1 * x)); [lra|reflexivity]. Qed.
Lemma keep_em : forall A x, x <= 0 -> keep (-1) A x = [A]. Proof. intros. unfold keep. destruct (Rle_dec 0 (-1 * x)); [reflexivity|lra]. Qed.
Lemma drop_em : forall A x, 0 < x -> keep (-1) A x = []. Proof. intros. unfold keep. destruct (Rle_dec 0 (-1 * x)); [lra|reflexivity]. Qed.
Lemma xing_yes : forall A x B y, (0 < x /\ y < 0) \/ (x < 0 /\ 0 < y) -> xing A x B y = [cut (A, x) (B, y)].
Proof. intros A x B y H. unfold xing. destruct (Rlt_dec (x * y) 0); [reflexivity|]. exfalso. destruct H; nra. Qed.
Lemma xing_no : forall A x B y, (0 <= x /\ 0 <= y) \/ (x <= 0 /\ y <= 0) -> xing A x B y = [].
Proof. intros A x B y H. unfold xing. destruct (Rlt_dec (x * y) 0); [|reflexivity]. exfalso. destruct H; nra. Qed.

(** What is known of an oriented edge [o] from node [a] (point [A], immersion [x]) to node [b]: how the walk around the facet treats it, the two
    halves [s1], [s2] and the new node [m] when it is cut. *)
Record edge_facts (status split : list nat) (E : list (nat * nat)) (all : list vec3) (rel : list R) (nn : nat) (o a b : nat) (A : vec3) (x : R) (B : vec3) (y : R) (s1 s2 m : nat) : Prop := {
  ef_ends : ends E o = Some (a, b);
  ef_zero : x = 0 -> y = 0 -> forall w, walk_step status split w o =
    Ok (mkW (w_em w ++ [o]) (w_im w ++ [o]) (if (w_st w =? 3)%Z then length (w_em w ++ [o]) else w_fe w)
            (if (w_st w =? 0)%Z then length (w_im w ++ [o]) else w_fi w) (w_st w) (set_insert (Nat.div2 o) (w_on w)));
  ef_em : x <= 0 -> y <= 0 -> (x < 0 \/ y < 0) -> forall w, walk_step status split w o =
    Ok (mkW (w_em w ++ [o]) (w_im w) (if (w_st w =? 3)%Z then length (w_em w) else w_fe w) (w_fi w) 0%Z (w_on w));
  ef_im : 0 <= x -> 0 <= y -> (0 < x \/ 0 < y) -> forall w, walk_step status split w o =
    Ok (mkW (w_em w) (w_im w ++ [o]) (w_fe w) (if (w_st w =? 0)%Z then length (w_im w) else w_fi w) 3%Z (w_on w));
  ef_down : 0 < x -> y < 0 -> forall w, walk_step status split w o =
    Ok (mkW (w_em w ++ [s2]) (w_im w ++ [s1]) (length (w_em w)) (w_fi w) 0%Z (w_on w));
  ef_up : x < 0 -> 0 < y -> forall w, walk_step status split w o =
    Ok (mkW (w_em w ++ [s1]) (w_im w ++ [s2]) (w_fe w) (length (w_im w)) 3%Z (w_on w));
  ef_cut : x * y < 0 -> ends E s1 = Some (a, m) /\ ends E s2 = Some (m, b) /\ nth_error all m = Some (cut (A, x) (B, y)) /\ nth_error rel m = Some 0 /\ (nn <= m)%nat
}.

(** The state after a facet has been handled, apart from the lists of facets. *)
Record grown (I I' : inter) : Prop := {
  g_edges : exists X, m_edges (i_mesh I') = m_edges (i_mesh I) ++ X;
  g_facets : exists Y, m_facets (i_mesh I') = m_facets (i_mesh I) ++ Y;
  g_mesh : m_fpe (i_mesh I') = m_fpe (i_mesh I) /\ m_oef (i_mesh I') = m_oef (i_mesh I) /\ m_nnodes (i_mesh I') = m_nnodes (i_mesh I) /\
           m_nedges (i_mesh I') = m_nedges (i_mesh I) /\ m_nfacets (i_mesh I') = m_nfacets (i_mesh I) /\ m_all (i_mesh I') = m_all (i_mesh I) /\
           m_total (i_mesh I') = m_total (i_mesh I) /\ m_orientation (i_mesh I') = m_orientation (i_mesh I);
  g_inter : i_rel I' = i_rel I /\ i_waves I' = i_waves I /\ i_abs I' = i_abs I /\ i_surface I' = i_surface I /\ i_closing I' = i_closing I
}.
Lemma grown_refl : forall I, grown I I.
Proof. intros. constructor; repeat split; exists []; rewrite app_nil_r; reflexivity. Qed.
Lemma grown_trans : forall I J K, grown I J -> grown J K -> grown I K.
Proof.
  intros I J K [[X1 A1] [Y1 B1] C1 D1] [[X2 A2] [Y2 B2] C2 D2]. constructor.
  - exists (X1 ++ X2). rewrite A2, A1, app_assoc. reflexivity.
  - exists (Y1 ++ Y2). rewrite B2, B1, app_assoc. reflexivity.
  - repeat match goal with H : _ /\ _ |- _ => destruct H end. repeat split; congruence.
  - repeat match goal with H : _ /\ _ |- _ => destruct H end. repeat split; congruence.
Qed.

(** Edges recorded as lying on the surface join two distinct nodes with no immersion. *)
Definition on_surface (I : inter) (e : nat) : Prop :=
  exists u v, nth_error (m_edges (i_mesh I)) e = Some (u, v) /\ u <> v /\ nth_error (i_rel I) u = Some 0 /\ nth_error (i_rel I) v = Some 0.
Definition on_ok (I : inter) : Prop := forall e, In e (i_on I) -> on_surface I e.
Lemma in_set_insert : forall x l y, In y (set_insert x l) -> y = x \/ In y l.
Proof.
  induction l as [|z l IH]; cbn [set_insert]; intros y H.
  - destruct H as [<-|[]]; auto.
  - destruct (x <? z)%nat; [destruct H as [<-|H]; auto|]. destruct (x =? z)%nat; [auto|]. destruct H as [<-|H]; [right; left; reflexivity|].
    destruct (IH y H) as [->|H']; [auto|right; right; exact H'].
Qed.

Lemma ends_first : forall E o a b, ends E o = Some (a, b) -> first_vertex E o = Ok a. Proof. intros. apply (vertices_of_ends E o a b H). Qed.
Lemma ends_second : forall E o a b, ends E o = Some (a, b) -> second_vertex E o = Ok b. Proof. intros. apply (vertices_of_ends E o a b H). Qed.
Lemma ends_closing : forall E u v r, ends (E ++ [(u, v)]) (oriented_id (length E) r) = Some (if r then (v, u) else (u, v)).
Proof. intros. unfold ends. rewrite oriented_div2, oriented_odd, nth_error_app2, Nat.sub_diag by lia. reflexivity. Qed.

Definition split_result (all : list vec3) (facets : list mfacet) (n : vec3) (poly : list (vec3 * R)) (im em : list nat) : Prop :=
  exists i e fi fe pi pe, im = [i] /\ em = [e] /\ nth_error facets i = Some fi /\ nth_error facets e = Some fe /\
      has_points all (mf_vertices fi) pi /\ has_points all (mf_vertices fe) pe /\ rotated (clip 1 poly) pi /\ rotated (clip (-1) poly) pe /\
      mf_normal fi = n /\ mf_normal fe = n /\
      mf_area fi = area pi /\ mf_area fe = area pe /\ mf_centroid fi = centre_of_gravity pi /\ mf_centroid fe = centre_of_gravity pe.
Definition tri_cut (all : list vec3) (facets : list mfacet) (n : vec3) (f : nat) (A B C : vec3) (x y z : R) (im em : list nat) : Prop :=
  ((0 < x \/ 0 < y \/ 0 < z) /\ (0 <= x /\ 0 <= y /\ 0 <= z) /\ im = [f] /\ em = []) \/
  ((x < 0 \/ y < 0 \/ z < 0) /\ (x <= 0 /\ y <= 0 /\ z <= 0) /\ im = [] /\ em = [f]) \/
  (((x < 0 \/ y < 0 \/ z < 0) <-> (0 < x \/ 0 < y \/ 0 < z)) /\ split_result all facets n [(A, x); (B, y); (C, z)] im em).

Ltac walks F := first
  [ rewrite (ef_zero _ _ _ _ _ _ _ _ _ _ _ _ _ _ _ _ F) by lra | rewrite (ef_em _ _ _ _ _ _ _ _ _ _ _ _ _ _ _ _ F) by lra
  | rewrite (ef_im _ _ _ _ _ _ _ _ _ _ _ _ _ _ _ _ F) by lra | rewrite (ef_down _ _ _ _ _ _ _ _ _ _ _ _ _ _ _ _ F) by lra
  | rewrite (ef_up _ _ _ _ _ _ _ _ _ _ _ _ _ _ _ _ F) by lra ];
  cbn [bindO w_em w_im w_fe w_fi w_st w_on app length Z.eqb Pos.eqb].
Ltac eqbs := repeat match goal with
  | |- context [Nat.eqb ?u ?u] => rewrite Nat.eqb_refl
  | |- context [Nat.eqb ?u ?v] => rewrite (proj2 (Nat.eqb_neq u v)) by lia end; cbn [orb].
Ltac rot := first [ exists [], (@nil vec3); split; reflexivity
  | match goal with |- rotated ?l _ => first [exists (firstn 0 l), (skipn 0 l); split; reflexivity | exists (firstn 1 l), (skipn 1 l); split; reflexivity
     | exists (firstn 2 l), (skipn 2 l); split; reflexivity | exists (firstn 3 l), (skipn 3 l); split; reflexivity ] end ].
Ltac clips := rewrite clip3; repeat first
  [ rewrite keep_im by lra | rewrite drop_im by lra | rewrite keep_em by lra | rewrite drop_em by lra | rewrite xing_yes by lra | rewrite xing_no by lra ]; cbn [app].

(** The end of the handling of a facet that is cut. *)
Lemma split_branch : forall status split I f oes w oi oe p q p' q' fct ims ems usi use vsi ki vse ke vi ve pi pe,
  nth_error (m_oef (i_mesh I)) f = Some oes -> foldO (walk_step status split) oes (mkW [] [] 0 0 (-1)%Z (i_on I)) = Ok w ->
  (length (w_em w) <=? 1)%nat = false -> (length (w_im w) <=? 1)%nat = false ->
  nth_error (w_im w) (w_fi w) = Some oi -> nth_error (w_em w) (w_fe w) = Some oe ->
  ends (m_edges (i_mesh I)) oi = Some (p, p') -> ends (m_edges (i_mesh I)) oe = Some (q, q') ->
  let E' := m_edges (i_mesh I) ++ [(p, q)] in
  let c := length (m_edges (i_mesh I)) in
  firstn (w_fi w) (w_im w) ++ oriented_id c true :: skipn (w_fi w) (w_im w) = ims ->
  firstn (w_fe w) (w_em w) ++ oriented_id c false :: skipn (w_fe w) (w_em w) = ems ->
  nth_error (m_facets (i_mesh I)) f = Some fct ->
  Forall2 (fun o u => second_vertex E' o = Ok u) ims usi -> Forall2 (fun o u => second_vertex E' o = Ok u) ems use ->
  dedup usi [] = (vsi, ki) -> dedup use [] = (vse, ke) -> firstn ki vsi = vi -> firstn ke vse = ve -> vi <> [] -> ve <> [] ->
  has_points (m_all (i_mesh I)) vi pi -> has_points (m_all (i_mesh I)) ve pe ->
  (forall e, In e (w_on w) -> In e (i_on I) \/ on_surface I e) -> on_ok I ->
  (p <> q -> nth_error (i_rel I) p = Some 0 /\ nth_error (i_rel I) q = Some 0) ->
  exists I', split_facet status split I f = Ok I' /\ grown I I' /\ on_ok I' /\
    i_immersed I' = i_immersed I ++ [S (length (m_facets (i_mesh I)))] /\ i_emerged I' = i_emerged I ++ [length (m_facets (i_mesh I))] /\
    m_facets (i_mesh I') = m_facets (i_mesh I) ++ [mkMF ve (mf_normal fct) (centre_of_gravity pe) (area pe); mkMF vi (mf_normal fct) (centre_of_gravity pi) (area pi)].
Proof.
  intros status split I f oes w oi oe p q p' q' fct ims ems usi use vsi ki vse ke vi ve pi pe H1 H2 H3 H4 H5 H6 H7 H8 E' c HI HE HF FI FE DI DE VI VE NI NE PI PE HON OK HZ.
  unfold split_facet. rewrite (at_ub_nth _ _ _ H1). cbn [bindO]. rewrite H2. cbn [bindO]. rewrite H3, H4.
  rewrite (at_ub_nth _ _ _ H5). cbn [bindO]. rewrite (ends_first _ _ _ _ H7). cbn [bindO]. rewrite (at_ub_nth _ _ _ H6). cbn [bindO].
  rewrite (ends_first _ _ _ _ H8). cbn [bindO add_edge]. unfold insert_ub.
  assert (L1 : (w_fi w <=? length (w_im w))%nat = true) by (apply Nat.leb_le; assert (w_fi w < length (w_im w))%nat by (apply nth_error_Some; congruence); lia).
  assert (L2 : (w_fe w <=? length (w_em w))%nat = true) by (apply Nat.leb_le; assert (w_fe w < length (w_em w))%nat by (apply nth_error_Some; congruence); lia).
  rewrite L1. cbn [bindO]. rewrite L2. cbn [bindO m_facets]. rewrite (at_ub_nth _ _ _ HF). cbn [bindO].
  fold c. rewrite HI, HE.
  rewrite (create_facet2 _ ems use (mf_normal fct) ve vse ke pe); [|exact FE|exact DE|exact VE|exact NE|exact PE]. cbn [bindO].
  rewrite (create_facet2 _ ims usi (mf_normal fct) vi vsi ki pi); [|exact FI|exact DI|exact VI|exact NI|exact PI]. cbn [bindO with_facet m_facets].
  eexists. split; [reflexivity|]. split; [|split; [|split; [|split]]].
  - constructor; cbn; repeat split; [exists [(p, q)]; reflexivity|eexists; rewrite <- app_assoc; reflexivity].
  - assert (MONO : forall e, on_surface I e -> exists u v, nth_error (m_edges (i_mesh I) ++ [(p, q)]) e = Some (u, v) /\ u <> v /\ nth_error (i_rel I) u = Some 0 /\ nth_error (i_rel I) v = Some 0).
    { intros e (u & v & A & B). exists u, v. split; [apply nth_error_mono; exact A|exact B]. }
    intros e He. unfold on_surface. cbn in He |- *.
    destruct (Nat.eqb_spec p q) as [_|N].
    + apply HON in He as [He|He]; apply MONO; [apply OK; exact He|exact He].
    + apply in_set_insert in He as [->|He].
      * exists p, q. split; [unfold c; rewrite nth_error_app2, Nat.sub_diag by lia; reflexivity|]. split; [exact N|]. apply HZ. exact N.
      * apply HON in He as [He|He]; apply MONO; [apply OK; exact He|exact He].
  - cbn. rewrite app_length. cbn. rewrite Nat.add_1_r. reflexivity.
  - reflexivity.
  - cbn. rewrite <- app_assoc. reflexivity.
Qed.

Lemma has_points_nil : forall all, has_points all [] []. Proof. reflexivity. Qed.
Lemma has_points_cons : forall all v p vs ps, nth_error all v = Some p -> has_points all vs ps -> has_points all (v :: vs) (p :: ps).
Proof. intros all v p vs ps H P. unfold has_points in *. cbn [map]. rewrite H, P. reflexivity. Qed.
Ltac dd := repeat (cbn [dedup existsb orb]; match goal with
  | |- context [Nat.eqb ?u ?u] => rewrite Nat.eqb_refl
  | |- context [Nat.eqb ?u ?v] => rewrite (proj2 (Nat.eqb_neq u v)) by lia end); cbn [dedup existsb orb]; reflexivity.
Lemma split_triangle : forall status split I f o0 o1 o2 a b c A B C x y z fct s0 t0 m0 s1 t1 m1 s2 t2 m2 nn,
  nth_error (m_oef (i_mesh I)) f = Some [o0; o1; o2] -> nth_error (m_facets (i_mesh I)) f = Some fct ->
  edge_facts status split (m_edges (i_mesh I)) (m_all (i_mesh I)) (i_rel I) nn o0 a b A x B y s0 t0 m0 ->
  edge_facts status split (m_edges (i_mesh I)) (m_all (i_mesh I)) (i_rel I) nn o1 b c B y C z s1 t1 m1 ->
  edge_facts status split (m_edges (i_mesh I)) (m_all (i_mesh I)) (i_rel I) nn o2 c a C z A x s2 t2 m2 ->
  a <> b -> b <> c -> c <> a -> (a < nn)%nat -> (b < nn)%nat -> (c < nn)%nat ->
  (x * y < 0 -> y * z < 0 -> m0 <> m1) -> (y * z < 0 -> z * x < 0 -> m1 <> m2) -> (z * x < 0 -> x * y < 0 -> m2 <> m0) ->
  nth_error (m_all (i_mesh I)) a = Some A -> nth_error (m_all (i_mesh I)) b = Some B -> nth_error (m_all (i_mesh I)) c = Some C ->
  nth_error (i_rel I) a = Some x -> nth_error (i_rel I) b = Some y -> nth_error (i_rel I) c = Some z ->
  on_ok I ->
  exists I' im em, split_facet status split I f = Ok I' /\ grown I I' /\ on_ok I' /\
    i_immersed I' = i_immersed I ++ im /\ i_emerged I' = i_emerged I ++ em /\
    tri_cut (m_all (i_mesh I)) (m_facets (i_mesh I')) (mf_normal fct) f A B C x y z im em.
Proof.
  intros status split I f o0 o1 o2 a b c A B C x y z fct s0 t0 m0 s1 t1 m1 s2 t2 m2 nn HO HF F0 F1 F2 Nab Nbc Nca La Lb Lc D01 D12 D20 PA PB PC RA RB RC OK.
  pose proof (ef_ends _ _ _ _ _ _ _ _ _ _ _ _ _ _ _ _ F0) as K0. pose proof (ef_ends _ _ _ _ _ _ _ _ _ _ _ _ _ _ _ _ F1) as K1. pose proof (ef_ends _ _ _ _ _ _ _ _ _ _ _ _ _ _ _ _ F2) as K2.
  assert (ON : forall o u v, ends (m_edges (i_mesh I)) o = Some (u, v) -> u <> v -> nth_error (i_rel I) u = Some 0 -> nth_error (i_rel I) v = Some 0 -> on_surface I (Nat.div2 o)).
  { intros o u v H N U V. unfold ends in H. destruct (nth_error (m_edges (i_mesh I)) (Nat.div2 o)) as [[u' v']|] eqn:E; [|discriminate].
    exists u', v'. destruct (Nat.odd o); injection H as -> ->; auto. }
  pose proof (ef_cut _ _ _ _ _ _ _ _ _ _ _ _ _ _ _ _ F0) as C0. pose proof (ef_cut _ _ _ _ _ _ _ _ _ _ _ _ _ _ _ _ F1) as C1. pose proof (ef_cut _ _ _ _ _ _ _ _ _ _ _ _ _ _ _ _ F2) as C2.
  assert (WHOLE : forall w, foldO (walk_step status split) [o0; o1; o2] (mkW [] [] 0 0 (-1)%Z (i_on I)) = Ok w -> (forall e, In e (w_on w) -> In e (i_on I) \/ on_surface I e) ->
     ((length (w_em w) <= 1)%nat /\ (0 < x \/ 0 < y \/ 0 < z) /\ (0 <= x /\ 0 <= y /\ 0 <= z)) \/
     ((1 < length (w_em w))%nat /\ (length (w_im w) <= 1)%nat /\ (x < 0 \/ y < 0 \/ z < 0) /\ (x <= 0 /\ y <= 0 /\ z <= 0)) ->
     exists I' im em, split_facet status split I f = Ok I' /\ grown I I' /\ on_ok I' /\
       i_immersed I' = i_immersed I ++ im /\ i_emerged I' = i_emerged I ++ em /\
       tri_cut (m_all (i_mesh I)) (m_facets (i_mesh I')) (mf_normal fct) f A B C x y z im em).
  { intros w HW HON [(L & P & Q)|(L & L' & P & Q)]; unfold split_facet; rewrite (at_ub_nth _ _ _ HO); cbn [bindO]; rewrite HW; cbn [bindO].
    - rewrite (proj2 (Nat.leb_le _ _) L). eexists _, [f], []. split; [reflexivity|].
      split; [destruct (grown_refl I); constructor; assumption|]. split; [intros e He; apply HON in He as [He|He]; [apply OK|]; exact He|].
      split; [reflexivity|]. split; [cbn; rewrite app_nil_r; reflexivity|]. left. auto.
    - rewrite (proj2 (Nat.leb_gt _ _) L), (proj2 (Nat.leb_le _ _) L'). eexists _, [], [f]. split; [reflexivity|].
      split; [destruct (grown_refl I); constructor; assumption|]. split; [intros e He; apply HON in He as [He|He]; [apply OK|]; exact He|].
      split; [cbn; rewrite app_nil_r; reflexivity|]. split; [reflexivity|]. right. left. auto. }
  assert (FOLD : forall w w1 w2 w3, walk_step status split w o0 = Ok w1 -> walk_step status split w1 o1 = Ok w2 -> walk_step status split w2 o2 = Ok w3 ->
     foldO (walk_step status split) [o0; o1; o2] w = Ok w3).
  { intros w w1 w2 w3 A1 A2 A3. cbn [foldO]. rewrite A1. cbn [bindO]. rewrite A2. cbn [bindO]. rewrite A3. reflexivity. }
  assert (SPLIT : forall w oi oe p q p' q' ims ems usi use vsi ki vse ke vi ve pi pe,
     foldO (walk_step status split) [o0; o1; o2] (mkW [] [] 0 0 (-1)%Z (i_on I)) = Ok w -> (forall e, In e (w_on w) -> In e (i_on I) \/ on_surface I e) ->
     (length (w_em w) <=? 1)%nat = false -> (length (w_im w) <=? 1)%nat = false ->
     nth_error (w_im w) (w_fi w) = Some oi -> nth_error (w_em w) (w_fe w) = Some oe ->
     ends (m_edges (i_mesh I)) oi = Some (p, p') -> ends (m_edges (i_mesh I)) oe = Some (q, q') ->
     firstn (w_fi w) (w_im w) ++ oriented_id (length (m_edges (i_mesh I))) true :: skipn (w_fi w) (w_im w) = ims ->
     firstn (w_fe w) (w_em w) ++ oriented_id (length (m_edges (i_mesh I))) false :: skipn (w_fe w) (w_em w) = ems ->
     Forall2 (fun o u => second_vertex (m_edges (i_mesh I) ++ [(p, q)]) o = Ok u) ims usi -> Forall2 (fun o u => second_vertex (m_edges (i_mesh I) ++ [(p, q)]) o = Ok u) ems use ->
     dedup usi [] = (vsi, ki) -> dedup use [] = (vse, ke) -> firstn ki vsi = vi -> firstn ke vse = ve -> vi <> [] -> ve <> [] ->
     has_points (m_all (i_mesh I)) vi pi -> has_points (m_all (i_mesh I)) ve pe ->
     (p <> q -> nth_error (i_rel I) p = Some 0 /\ nth_error (i_rel I) q = Some 0) ->
     rotated (clip 1 [(A, x); (B, y); (C, z)]) pi -> rotated (clip (-1) [(A, x); (B, y); (C, z)]) pe ->
     ((x < 0 \/ y < 0 \/ z < 0) <-> (0 < x \/ 0 < y \/ 0 < z)) ->
     exists I' im em, split_facet status split I f = Ok I' /\ grown I I' /\ on_ok I' /\
       i_immersed I' = i_immersed I ++ im /\ i_emerged I' = i_emerged I ++ em /\
       tri_cut (m_all (i_mesh I)) (m_facets (i_mesh I')) (mf_normal fct) f A B C x y z im em).
  { intros w oi oe p q p' q' ims ems usi use vsi ki vse ke vi ve pi pe HW HON A1 A2 A3 A4 A5 A6 A7 A8 A9 A10 A11 A12 A13 A14 A15 A16 A17 A18 HZ R1 R2 IFF.
    destruct (split_branch status split I f [o0; o1; o2] w oi oe p q p' q' fct ims ems usi use vsi ki vse ke vi ve pi pe) as (I' & G1 & G2 & G3 & G4 & G5 & G6); try assumption.
    exists I', [S (length (m_facets (i_mesh I)))], [length (m_facets (i_mesh I))]. repeat (split; [assumption|]). right. right. split; [exact IFF|].
    eexists _, _, _, _, pi, pe. split; [reflexivity|]. split; [reflexivity|]. rewrite G6.
    split; [rewrite nth_error_app2 by lia; replace (S (length (m_facets (i_mesh I))) - length (m_facets (i_mesh I)))%nat with 1%nat by lia; reflexivity|].
    split; [rewrite nth_error_app2, Nat.sub_diag by lia; reflexivity|]. cbn [mf_vertices mf_normal mf_area mf_centroid]. repeat split; assumption. }
  assert (EA : forall o u v pq, ends (m_edges (i_mesh I)) o = Some (u, v) -> second_vertex (m_edges (i_mesh I) ++ [pq]) o = Ok v).
  { intros o u v pq H. apply (ends_second _ _ u). apply ends_app. exact H. }
  assert (EC1 : forall u v, second_vertex (m_edges (i_mesh I) ++ [(u, v)]) (oriented_id (length (m_edges (i_mesh I))) true) = Ok u).
  { intros. apply (ends_second _ _ v). apply (ends_closing _ u v true). }
  assert (EC2 : forall u v, second_vertex (m_edges (i_mesh I) ++ [(u, v)]) (oriented_id (length (m_edges (i_mesh I))) false) = Ok v).
  { intros. apply (ends_second _ _ u). apply (ends_closing _ u v false). }
  Local Ltac fwalk F0 F1 F2 FOLD := eapply FOLD; [walks F0; reflexivity|walks F1; reflexivity|walks F2; reflexivity].
  Local Ltac onset ON K0 K1 K2 := cbn [w_on]; let e := fresh "e" in let He := fresh "He" in intros e He;
     repeat (apply in_set_insert in He as [->|He]); [..|left; exact He]; right; first [eapply ON; [exact K0|auto|..] | eapply ON; [exact K1|auto|..] | eapply ON; [exact K2|auto|..]];
     match goal with |- nth_error _ _ = Some 0 => idtac | _ => idtac end; (congruence || (subst; assumption)).
  destruct (Rtotal_order x 0) as [X|[X|X]]; destruct (Rtotal_order y 0) as [Y|[Y|Y]]; destruct (Rtotal_order z 0) as [Z|[Z|Z]].
  all: try (assert (XY : x * y < 0) by nra; destruct (C0 XY) as (C01 & C02 & C03 & C04 & C05)).
  all: try (assert (YZ : y * z < 0) by nra; destruct (C1 YZ) as (C11 & C12 & C13 & C14 & C15)).
  all: try (assert (ZX : z * x < 0) by nra; destruct (C2 ZX) as (C21 & C22 & C23 & C24 & C25)).
  all: try (specialize (D01 XY YZ)). all: try (specialize (D12 YZ ZX)). all: try (specialize (D20 ZX XY)).
  all: try (eapply WHOLE; [fwalk F0 F1 F2 FOLD|onset ON K0 K1 K2|cbn [w_em w_im app length]; first [left; repeat split; (lia || lra) | right; repeat split; (lia || lra)]]; fail).
  all: eapply SPLIT;
    [ fwalk F0 F1 F2 FOLD | onset ON K0 K1 K2 | reflexivity | reflexivity | reflexivity | reflexivity | eassumption | eassumption
    | cbn [w_fi w_im firstn skipn app]; reflexivity | cbn [w_fe w_em firstn skipn app]; reflexivity
    | repeat (eapply Forall2_cons; [first [apply EC1 | apply EC2 | eapply EA; eassumption]|]); apply Forall2_nil
    | repeat (eapply Forall2_cons; [first [apply EC1 | apply EC2 | eapply EA; eassumption]|]); apply Forall2_nil
    | dd | dd | cbn [firstn]; reflexivity | cbn [firstn]; reflexivity | discriminate | discriminate
    | repeat (eapply has_points_cons; [eassumption|]); apply has_points_nil | repeat (eapply has_points_cons; [eassumption|]); apply has_points_nil
    | intros NE; split; first [assumption | congruence] | clips; rot | clips; rot | split; intros; lra ].
Qed.
