(** C125: the mesh of a body is the mesh of the file seen from the frame of the body. *)
From Coq Require Import Reals List Bool Arith Lra Lia.
From Verif Require Import Common Geometry Hull_Model Hull_Proofs Blocked_Model Mesh_Model Mesh_Spec Mesh_Proofs Mesh_Props Cut_Proofs Cut_Loop_Proofs Cut_Props Closing_Model Floating_Proofs Memory_Proofs Frame_Model.
Import ListNotations.
Open Scope R_scope.

(** Two tables that say the same thing: only the columns of the table of nodes that are not in use may differ. *)
Definition same_table (a b : mesh) : Prop :=
  m_edges b = m_edges a /\ m_facets b = m_facets a /\ m_fpe b = m_fpe a /\ m_oef b = m_oef a /\ m_nnodes b = m_nnodes a /\ m_nedges b = m_nedges a /\ m_nfacets b = m_nfacets a /\
  m_total b = m_total a /\ m_orientation b = m_orientation a /\ length (m_all b) = length (m_all a) /\ static_nodes b = static_nodes a.

Section Rigid.
  Variable rot : mat3.
  Variable p : vec3.
  Hypothesis HR : rotation rot.
  Notation tau := (to_body rot p).
  Notation q := (mapply (transpose rot)).
  Let HQ : rotation (transpose rot) := rotation_columns rot HR.

  Lemma tau_sub a b : vsub (tau a) (tau b) = q (vsub a b).
  Proof. unfold to_body. rewrite <- mapply_sub. f_equal. apply vec_eq; vec; ring. Qed.
  Lemma tau_inj a b : tau a = tau b -> a = b.
  Proof.
    intros H. assert (E : q (vsub a b) = v0) by (rewrite <- tau_sub, H; apply vec_eq; vec; ring).
    assert (E' : vsub a b = v0) by (rewrite <- (rotation_inverse' rot (vsub a b) HR), E; vec; apply vec_eq; vec; ring).
    replace a with (vadd b (vsub a b)) by (apply vec_eq; vec; ring). rewrite E'. apply vec_eq; vec; ring.
  Qed.
  Lemma area3_tau a b c : area3 (tau a) (tau b) (tau c) = area3 a b c.
  Proof. rewrite !area3_norm, !tau_sub, <- (rotation_cross _ _ _ HQ), (rotation_norm _ _ HQ). reflexivity. Qed.
  Lemma fan_tau l : fan (map tau l) = map (fun '(a, b, c) => (tau a, tau b, tau c)) (fan l).
  Proof.
    assert (G : forall l a b, fan_from (tau a) (tau b) (map tau l) = map (fun '(a, b, c) => (tau a, tau b, tau c)) (fan_from a b l)).
    { clear. induction l as [|c l IH]; intros a b; [reflexivity|]. cbn [map fan_from]. rewrite IH. reflexivity. }
    unfold fan. destruct l as [|a [|b l]]; try reflexivity. cbn [map]. apply G.
  Qed.
  Lemma area_tau l : area (map tau l) = area l.
  Proof.
    unfold area. rewrite fan_tau. generalize 0 as z. generalize (fan l) as k. induction k as [|[[a b] c] k IH]; intros z; [reflexivity|]. cbn [map fold_left]. rewrite area3_tau. apply IH.
  Qed.
  Lemma unit_normal_tau l : unit_normal (map tau l) = mapO q (unit_normal l).
  Proof.
    destruct l as [|a [|b [|c l]]]; try reflexivity. unfold unit_normal. cbn [map]. cbv zeta. rewrite !tau_sub, <- (rotation_cross _ _ _ HQ), (rotation_norm _ _ HQ).
    generalize (cross (vsub b a) (vsub c a)) as n. intros n. match goal with |- context [if ?b then _ else _] => destruct b end.
    - unfold mapO. cbn [bindO]. f_equal. apply vec_eq; vec; ring.
    - unfold mapO. cbn [bindO]. f_equal. generalize (norm n). intros d. unfold Rdiv. apply vec_eq; vec; ring.
  Qed.
  Notation w := (q p).
  Lemma tau_eq a : tau a = vsub (q a) w.
  Proof. unfold to_body. apply mapply_sub. Qed.
  Lemma centre_tau l : centre_of_gravity (map tau l) = option_map tau (centre_of_gravity l).
  Proof.
    unfold centre_of_gravity. cbv zeta. rewrite area_tau.
    assert (G : forall k m z, fold_left (fun m '(a, b, c) => vadd m (vscale (area3 a b c / 3) (vadd (vadd a b) c))) (map (fun '(a, b, c) => (tau a, tau b, tau c)) k) (vsub (q m) (vscale z w)) =
      vsub (q (fold_left (fun m '(a, b, c) => vadd m (vscale (area3 a b c / 3) (vadd (vadd a b) c))) k m)) (vscale (fold_left (fun a '(p, q, r) => a + area3 p q r) k z) w)).
    { induction k as [|[[a b] c] k IH]; intros m z; [reflexivity|]. cbn [map fold_left]. rewrite area3_tau, <- IH. f_equal. rewrite !tau_eq, mapply_add, mapply_scale, !mapply_add.
      generalize (q a) (q b) (q c) (q m) w (area3 a b c). clear. intros. apply vec_eq; vec; field. }
    specialize (G (fan l) v0 0). rewrite fan_tau. replace (vsub (q v0) (vscale 0 w)) with v0 in G by (apply vec_eq; vec; ring). rewrite G. fold (area l).
    destruct (Mesh_Proofs.Rltb_dec 0 (area l)) as [[-> P]|[-> P]]; [|reflexivity]. cbn [option_map]. f_equal. rewrite tau_eq, mapply_scale.
    generalize (q (fold_left (fun m '(a, b, c) => vadd m (vscale (area3 a b c / 3) (vadd (vadd a b) c))) (fan l) v0)) w. intros x y. clear - P. apply vec_eq; vec; field; lra.
  Qed.
  Lemma barycenter_tau l : barycenter (map tau l) = option_map tau (barycenter l).
  Proof.
    unfold barycenter. destruct l as [|a0 l0]; [reflexivity|]. cbn [map]. change (tau a0 :: map tau l0) with (map tau (a0 :: l0)). set (l := a0 :: l0). cbn [option_map]. f_equal.
    assert (G : forall k m z, fold_left vadd (map tau k) (vsub (q m) (vscale z w)) = vsub (q (fold_left vadd k m)) (vscale (z + INR (length k)) w)).
    { induction k as [|a k IH]; intros m z; [cbn; rewrite Rplus_0_r; reflexivity|]. cbn [map fold_left]. replace (z + INR (length (a :: k))) with ((z + 1) + INR (length k)) by (cbn [length]; rewrite S_INR; ring).
      rewrite <- IH. f_equal. rewrite tau_eq, mapply_add. generalize (q a) (q m) w. clear. intros. apply vec_eq; vec; ring. }
    specialize (G l v0 0). replace (vsub (q v0) (vscale 0 w)) with v0 in G by (apply vec_eq; vec; ring). rewrite G, map_length, tau_eq, mapply_scale.
    assert (P : 0 < INR (length l)) by (apply lt_0_INR; cbn; lia). generalize (q (fold_left vadd l v0)) w. clearbody l. intros x y. clear - P. apply vec_eq; vec; field; lra.
  Qed.
  Lemma clockwise_tau l G : oriented_clockwise_facet (map tau l) (option_map tau G) = oriented_clockwise_facet l G.
  Proof.
    unfold oriented_clockwise_facet. rewrite map_length, unit_normal_tau, barycenter_tau. destruct (length l <? 3)%nat; [reflexivity|]. destruct (unit_normal l) as [n| |]; [|reflexivity..].
    unfold mapO. cbn [bindO]. destruct (barycenter l) as [C|], G as [G|]; try reflexivity. cbn [option_map]. rewrite tau_sub, (rotation_dot _ _ _ HQ). reflexivity.
  Qed.
  Lemma mesh_clockwise_tau v : oriented_clockwise (map (map tau) v) (mesh_barycenter (map (map tau) v)) = oriented_clockwise v (mesh_barycenter v).
  Proof.
    unfold mesh_barycenter. rewrite <- concat_map, barycenter_tau. unfold oriented_clockwise. rewrite map_length. destruct (length v <? 2)%nat; [reflexivity|].
    assert (E : count_clockwise (map (map tau) v) (option_map tau (barycenter (concat v))) = count_clockwise v (barycenter (concat v))).
    { generalize (barycenter (concat v)) as G. intros G. induction v as [|l v IH]; [reflexivity|]. cbn [map count_clockwise]. rewrite clockwise_tau, IH. reflexivity. }
    rewrite E. reflexivity.
  Qed.

  (** *** Construction of the tables *)
  Definition moved_point (e : vec3 * nat) : vec3 * nat := (tau (fst e), snd e).
  Record follows (a b : builder) : Prop := {
    fo_xyz : b_xyz b = map moved_point (b_xyz a); fo_emap : b_emap b = b_emap a; fo_index : b_index b = b_index a; fo_eindex : b_eindex b = b_eindex a;
    fo_length : length (b_nodes b) = length (b_nodes a); fo_nodes : firstn (b_index a) (b_nodes b) = map tau (firstn (b_index a) (b_nodes a));
    fo_edges : b_edges b = b_edges a; fo_facets : b_facets b = map (move_facet rot p) (b_facets a); fo_fpe : b_fpe b = b_fpe a; fo_oef : b_oef b = b_oef a }.
  Lemma equiv_tau a b : negb (vector3d_lt (tau a) (tau b)) && negb (vector3d_lt (tau b) (tau a)) = negb (vector3d_lt a b) && negb (vector3d_lt b a).
  Proof. apply eq_true_iff_eq. rewrite !vector3d_equiv. split; [apply tau_inj|congruence]. Qed.
  Lemma find_tau x m : map_find vector3d_lt (tau x) (map moved_point m) = map_find vector3d_lt x m.
  Proof. induction m as [|[y i] m IH]; [reflexivity|]. cbn [map]. change (moved_point (y, i)) with (tau y, i). cbn [map_find]. rewrite equiv_tau, IH. reflexivity. Qed.
  Lemma get_tau x m : map_get vector3d_lt (tau x) (map moved_point m) = map_get vector3d_lt x m.
  Proof. unfold map_get. rewrite find_tau. reflexivity. Qed.
  Lemma follows_point a b x : follows a b -> lift (fun y z => follows (fst y) (fst z) /\ snd y = snd z) (build_one_point a x) (build_one_point b (tau x)).
  Proof.
    intros [X E N F L Q G H P O]. unfold build_one_point. rewrite X, find_tau. destruct (map_find vector3d_lt x (b_xyz a)) as [i|].
    - cbn [lift fst snd]. split; [constructor; auto|symmetry; apply get_tau].
    - rewrite !set_ub_eq, N, L. destruct (Nat.ltb_spec (b_index a) (length (b_nodes a))) as [B|B]; [|exact I]. cbn [bindO lift fst snd b_xyz]. split.
      + constructor; cbn [b_xyz b_emap b_index b_eindex b_nodes b_edges b_facets b_fpe b_oef]; auto.
        * rewrite !app_length. cbn [length]. rewrite !firstn_length, !skipn_length. lia.
        * assert (K : forall (l k : list vec3) y, (b_index a < length l)%nat -> firstn (S (b_index a)) (firstn (b_index a) l ++ y :: k) = firstn (b_index a) l ++ [y]).
          { intros l k y Hl. replace (S (b_index a)) with (length (firstn (b_index a) l) + 1)%nat at 1 by (rewrite firstn_length; lia). rewrite firstn_app_2. reflexivity. }
          rewrite !K by lia. rewrite map_app, Q. reflexivity.
      + change ((tau x, b_index a) :: map moved_point (b_xyz a)) with (map moved_point ((x, b_index a) :: b_xyz a)). symmetry. apply get_tau.
  Qed.
  Lemma follows_edge a b e : follows a b -> follows (fst (build_one_edge a e)) (fst (build_one_edge b e)) /\ snd (build_one_edge a e) = snd (build_one_edge b e).
  Proof.
    intros [X E N F L Q G H P O]. unfold build_one_edge. rewrite E, F, G, P. destruct (map_find edge_lt e (b_emap a)); cbn [fst snd]; (split; [|reflexivity]); constructor; auto.
  Qed.
  Lemma follows_points first f l : forall a b, follows a b ->
    lift (fun y z => follows (fst (fst y)) (fst (fst z)) /\ snd (fst y) = snd (fst z) /\ snd y = snd z) (build_points first f l a) (build_points (tau first) f (map tau l) b).
  Proof.
    induction l as [|x l IH]; intros a b FO; [cbn; auto|]. cbn [map build_points].
    eapply lift_bind; [apply (follows_point _ _ x FO)|]. intros [a1 v1] [b1 w1] [F1 V1]. cbn [fst snd] in F1, V1. subst w1.
    replace (hd (tau first) (map tau l)) with (tau (hd first l)) by (destruct l; reflexivity).
    eapply lift_bind; [apply (follows_point _ _ (hd first l) F1)|]. intros [a2 v2] [b2 w2] [F2 V2]. cbn [fst snd] in F2, V2. subst w2.
    destruct (follows_edge a2 b2 (v1, v2) F2) as [F3 S3]. destruct (build_one_edge a2 (v1, v2)) as [a3 e]. destruct (build_one_edge b2 (v1, v2)) as [b3 e']. cbn [fst snd] in F3, S3. subst e'.
    rewrite (fo_edges _ _ F3). eapply lift_bind; [apply lift_refl|]. intros ed ? <-. rewrite (fo_fpe _ _ F3). eapply lift_bind; [apply lift_refl|]. intros fpe ? <-.
    eapply lift_bind; [apply IH|].
    - destruct F3. constructor; auto.
    - intros [[a5 vs] oes] [[b5 vs'] oes'] (A1 & A2 & A3). cbn [fst snd] in A1, A2, A3. subst vs' oes'. cbn. auto.
  Qed.
  Lemma follows_facet a b l : follows a b -> lift follows (build_facet_of a l) (build_facet_of b (map tau l)).
  Proof.
    intros FO. unfold build_facet_of. destruct l as [|x l]; [exact FO|]. cbn [map]. change (tau x :: map tau l) with (map tau (x :: l)). rewrite unit_normal_tau, centre_tau, area_tau.
    destruct (unit_normal (x :: l)) as [n| |]; [|exact I..]. unfold mapO. cbn [bindO]. rewrite (fo_facets _ _ FO), map_length.
    eapply lift_bind; [apply (follows_points x _ (x :: l) a b FO)|]. intros [[a' vs] oes] [[b' vs'] oes'] (A1 & A2 & A3). cbn [fst snd] in A1, A2, A3. subst vs' oes'.
    cbn [lift]. destruct A1 as [X E N F L Q G H P O]. constructor; cbn [b_xyz b_emap b_index b_eindex b_nodes b_edges b_facets b_fpe b_oef]; auto; [|rewrite O; reflexivity].
    rewrite H, map_app. f_equal.
  Qed.
  Lemma resize_firstn b : (b_index b <= length (b_nodes b))%nat -> resize_nodes b = Ok (firstn (b_index b) (b_nodes b)).
  Proof.
    unfold resize_nodes. generalize (b_index b) (b_nodes b). intros n l.
    assert (G : forall n pre (l : list vec3), (n <= length l)%nat -> mapO_list (at_ub (pre ++ l)) (seq (length pre) n) = Ok (firstn n l)).
    { clear. induction n as [|n IH]; intros pre [|x l] H; cbn in H; try lia; try reflexivity. cbn [seq mapO_list firstn].
      unfold at_ub at 1. rewrite nth_error_app2, Nat.sub_diag by lia. cbn [nth_error bindO]. specialize (IH (pre ++ [x]) l ltac:(lia)). rewrite <- app_assoc, app_length, Nat.add_1_r in IH. cbn [app] in IH.
      rewrite IH. reflexivity. }
    exact (G n [] l).
  Qed.
  Lemma follows_resize a b : follows a b -> lift (fun y z => z = map tau y /\ length y = b_index a) (resize_nodes a) (resize_nodes b).
  Proof.
    intros FO. destruct (Nat.le_gt_cases (b_index a) (length (b_nodes a))) as [H|H].
    - rewrite !resize_firstn by (rewrite ?(fo_index _ _ FO), ?(fo_length _ _ FO); exact H). cbn [lift]. rewrite (fo_index _ _ FO). split; [exact (fo_nodes _ _ FO)|]. rewrite firstn_length. lia.
    - assert (G : forall b, (length (b_nodes b) < b_index b)%nat -> resize_nodes b = UB).
      { clear. intros b H. unfold resize_nodes. assert (K : forall n s, (s <= length (b_nodes b) < s + n)%nat -> mapO_list (at_ub (b_nodes b)) (seq s n) = UB).
        { induction n as [|n IH]; intros s Hs; [lia|]. cbn [seq mapO_list]. unfold at_ub at 1. destruct (nth_error (b_nodes b) s) eqn:E; [|reflexivity]. cbn [bindO].
          assert (s < length (b_nodes b))%nat by (apply nth_error_Some; congruence). rewrite (IH (S s)) by lia. reflexivity. }
        apply K. lia. }
      rewrite !G by (rewrite ?(fo_index _ _ FO), ?(fo_length _ _ FO); exact H). exact I.
  Qed.
  (** The table of the moved polygons is the moved table, except for the columns that are not in use. *)
  Lemma build_moved check v : lift (fun m m' => same_table m' (move_mesh rot p m)) (build_mesh check v) (build_mesh check (map (map tau) v)).
  Proof.
    unfold build_mesh. eapply (lift_bind eq).
    - destruct check; [rewrite mesh_clockwise_tau|]; apply lift_refl.
    - intros c ? <-. eapply (lift_bind follows).
      + assert (FI : follows (builder_init v) (builder_init (map (map tau) v))).
        { unfold builder_init. constructor; cbn [b_xyz b_emap b_index b_eindex b_nodes b_edges b_facets b_fpe b_oef]; auto.
          destruct v as [|l v]; [reflexivity|]. cbn [map]. rewrite !repeat_length. cbn [length]. rewrite !map_length. reflexivity. }
        revert FI. generalize (builder_init v) (builder_init (map (map tau) v)). induction v as [|l v IH]; intros a b FI; [exact FI|]. cbn [map foldO].
        eapply lift_bind; [apply (follows_facet _ _ l FI)|]. intros a' b' F'. apply IH. exact F'.
      + intros a b FO. eapply lift_bind; [apply (follows_resize _ _ FO)|]. intros n ? [-> LN]. cbn [lift]. destruct FO as [X E N F L Q G H P O].
        unfold same_table, make_mesh, move_mesh. cbn [m_edges m_facets m_fpe m_oef m_nnodes m_nedges m_nfacets m_total m_orientation m_all]. rewrite !map_length, G.
        assert (ST : static_nodes (mkMesh (b_edges a) (map (move_facet rot p) (b_facets a)) (b_fpe a) (b_oef a) (length n) (length (b_edges a)) (length (b_facets a))
            (map tau (n ++ repeat v0 (length (b_edges a)))) (length n) (if c then -1 else 1)) = map tau n).
        { unfold static_nodes. cbn [m_nnodes m_all]. rewrite map_app, <- (map_length tau n). rewrite firstn_app, firstn_all, Nat.sub_diag. cbn. apply app_nil_r. }
        rewrite H, map_length. repeat match goal with |- _ /\ _ => split end; try assumption; try reflexivity; try congruence.
        * rewrite !app_length, map_length. reflexivity.
        * transitivity (map tau n); [exact ST|]. unfold static_nodes. cbn [m_nnodes m_all]. rewrite <- (map_length tau n), firstn_app, firstn_all, Nat.sub_diag. cbn. symmetry. apply app_nil_r.
  Qed.
End Rigid.

(** ** C125 *)
(** [to_body] gives the coordinates in the frame of the body: the point is at the position of the body frame plus these coordinates along its axes. *)
Theorem body_frame : forall rot p x, rotation rot -> x = vadd p (mapply rot (to_body rot p x)).
Proof. intros rot p x HR. unfold to_body. rewrite (rotation_inverse' rot _ HR). apply vec_eq; vec; ring. Qed.
Print Assumptions body_frame.
(** The mesh of a body is the mesh that would be built from the polygons of the file written in the frame of the body (same points, normals, areas, centres,
    edges and orientation), and it is refused exactly when that mesh is. *)
Theorem body_mesh_is_the_moved_mesh : forall rot p v, rotation rot ->
  (forall m, change_mesh_ref_frame rot p v = Ok m -> exists m', build_mesh true (map (map (to_body rot p)) v) = Ok m' /\ same_table m' m /\ table_of (map (map (to_body rot p)) v) m) /\
  (change_mesh_ref_frame rot p v = Throw <-> build_mesh true (map (map (to_body rot p)) v) = Throw) /\
  (change_mesh_ref_frame rot p v = UB <-> build_mesh true (map (map (to_body rot p)) v) = UB).
Proof.
  intros rot p v HR. pose proof (build_moved rot p HR true v) as L. unfold change_mesh_ref_frame.
  destruct (build_mesh true v) as [m0| |] eqn:E0, (build_mesh true (map (map (to_body rot p)) v)) as [m'| |] eqn:E1; cbn [lift] in L; try contradiction; cbn [bindO].
  - split; [|split; split; discriminate]. intros m [= <-]. exists m'. split; [reflexivity|]. split; [exact L|].
    destruct (mesh_tables_are_faithful true _ m' E1) as [T1 T2 T3 T4 T5 T6 T7 T8 T9]. destruct L as (L1 & L2 & L3 & L4 & L5 & L6 & L7 & L8 & L9 & L10 & L11).
    constructor; rewrite ?L11, ?L1, ?L2, ?L3, ?L4; assumption.
  - split; [discriminate|]. split; split; auto; discriminate.
  - split; [discriminate|]. split; split; auto; discriminate.
Qed.
Print Assumptions body_mesh_is_the_moved_mesh.

(** ** C126 *)
Lemma same_table_static : forall a b, well_formed a -> same_table a b -> same_static a b.
Proof.
  intros a b WF (L1 & L2 & L3 & L4 & L5 & L6 & L7 & L8 & L9 & L10 & L11). constructor; auto.
  - unfold static_edges. rewrite L1, L6. reflexivity.
  - rewrite L2. reflexivity.
  - rewrite L1, L2, L10. pose proof (wf_edges _ WF). pose proof (wf_facets _ WF). auto.
Qed.
Lemma static_vertices : forall m, well_formed m -> forall f v, In f (firstn (m_nfacets m) (m_facets m)) -> In v (mf_vertices f) -> (v < m_nnodes m)%nat.
Proof.
  intros m WF f v Hf Hv. apply In_nth_error in Hf as (i & Hi). assert (Li : (i < m_nfacets m)%nat).
  { assert (i < length (firstn (m_nfacets m) (m_facets m)))%nat by (apply nth_error_Some; congruence). rewrite firstn_length in H. lia. }
  rewrite (nth_error_firstn _ _ _ Li) in Hi. destruct (nth_error (m_oef m) i) as [oes|] eqn:Eo; [|apply nth_error_None in Eo; pose proof (wf_oef _ WF); lia].
  destruct (wf_tri _ WF i oes f Eo Hi) as (a & b & c & EV & _ & _ & _ & EE). rewrite EV in Hv.
  assert (EB : forall x y, In (Some (x, y)) (map (ends (static_edges m)) oes) -> (x < m_nnodes m /\ y < m_nnodes m)%nat).
  { intros x y H. apply in_map_iff in H as (o & Ho & _). unfold ends in Ho. destruct (nth_error (static_edges m) (Nat.div2 o)) as [[s t]|] eqn:Es; [|discriminate].
    pose proof (wf_ends _ WF _ _ _ Es). destruct (Nat.odd o); injection Ho as <- <-; lia. }
  rewrite EE in EB. destruct (EB a b ltac:(cbn; auto)). destruct (EB b c ltac:(cbn; auto)). cbn [In] in Hv. destruct Hv as [<-|[<-|[<-|[]]]]; assumption.
Qed.
(** What the force models see of an intersection: its facets (with their points, normals, areas and centres), those that are immersed and emerged, the edges on
    the surface, the immersions and elevations of the nodes. *)
Record same_cut (a b : inter) : Prop := {
  sm_facets : m_facets (i_mesh b) = m_facets (i_mesh a);
  sm_edges : m_edges (i_mesh b) = m_edges (i_mesh a);
  sm_nodes : m_total (i_mesh b) = m_total (i_mesh a) /\ firstn (m_total (i_mesh a)) (m_all (i_mesh b)) = firstn (m_total (i_mesh a)) (m_all (i_mesh a));
  sm_vertices : forall f v, In f (m_facets (i_mesh a)) -> In v (mf_vertices f) -> (v < m_total (i_mesh a))%nat;
  sm_ends : forall e, In e (m_edges (i_mesh a)) -> (fst e < m_total (i_mesh a) /\ snd e < m_total (i_mesh a))%nat;
  sm_parts : i_immersed b = i_immersed a /\ i_emerged b = i_emerged a /\ i_surface b = i_surface a /\ i_on b = i_on a;
  sm_heights : i_rel b = i_rel a /\ i_waves b = i_waves a /\ i_abs b = i_abs a /\ length (i_rel a) = m_total (i_mesh a) /\ length (i_waves a) = m_total (i_mesh a);
  sm_orientation : m_orientation (i_mesh b) = m_orientation (i_mesh a) }.
Lemma cut_is_memoryless_general : forall ma mb I J rel waves, well_formed ma -> same_static ma mb -> used ma I -> used mb J -> length rel = m_nnodes ma -> length waves = m_nnodes ma ->
  exists I' J', update_intersection I rel waves = Ok I' /\ update_intersection J rel waves = Ok J' /\ same_cut I' J'.
Proof.
  intros ma mb I J rel waves WF SS UI UJ HR HW. pose proof (used_static _ _ WF UI) as SI. pose proof (used_static _ _ (same_static_well_formed _ _ SS WF) UJ) as SJ.
  assert (WI : well_formed (i_mesh I)) by (apply (same_static_well_formed ma); assumption).
  assert (SIJ : same_static (i_mesh I) (i_mesh J)).
  { destruct SI as [(A1 & A2 & A3) (B1 & B2 & B3) C D E (F1 & F2 & F3)], (same_static_trans _ _ _ SS SJ) as [(A1' & A2' & A3') (B1' & B2' & B3') C' D' E' (F1' & F2' & F3')].
    constructor; repeat split; try congruence; try lia. }
  destruct (ss_counts _ _ SI) as (N1 & N2 & N3).
  destruct (update_spec I rel waves WI) as (I' & EI & _); [congruence..|].
  pose proof (update_alike I J rel waves WI (static_vertices _ WI) SIJ ltac:(congruence) ltac:(congruence)) as L. rewrite EI in L.
  destruct (update_intersection J rel waves) as [J'| |]; cbn [lift] in L; try contradiction. exists I', J'. split; [exact EI|]. split; [reflexivity|].
  destruct L as ([T (L1 & L2 & L3 & L4 & L5 & L6) LR LW] & LA & _). destruct T. constructor; auto 10.
Qed.
(** The intersection of a hull with the free surface depends on its mesh and on the present immersions only, not on the previous updates and queries. *)
Theorem cut_is_memoryless : forall check v m I J rel waves, triangle_mesh v -> build_mesh check v = Ok m -> used m I -> used m J ->
  length rel = m_nnodes m -> length waves = m_nnodes m ->
  exists I' J', update_intersection I rel waves = Ok I' /\ update_intersection J rel waves = Ok J' /\ same_cut I' J'.
Proof.
  intros check v m I J rel waves T B UI UJ HR HW. pose proof (built_well_formed check v m T B) as WF. apply (cut_is_memoryless_general m m); auto. apply same_static_refl. exact WF.
Qed.
Print Assumptions cut_is_memoryless.
(** It is the same for the mesh moved to the frame of the body as for a mesh built in that frame. *)
Theorem body_cut_is_the_cut_of_the_moved_mesh : forall rot p v m m' I J rel waves, rotation rot -> triangle_mesh v -> change_mesh_ref_frame rot p v = Ok m ->
  build_mesh true (map (map (to_body rot p)) v) = Ok m' -> used m I -> used m' J -> length rel = m_nnodes m -> length waves = m_nnodes m ->
  exists I' J', update_intersection I rel waves = Ok I' /\ update_intersection J rel waves = Ok J' /\ same_cut I' J'.
Proof.
  intros rot p v m m' I J rel waves HR T C B UI UJ LR LW. destruct (body_mesh_is_the_moved_mesh rot p v HR) as (K & _). destruct (K m C) as (m2 & B' & ST & _). rewrite B in B'. injection B' as <-.
  assert (T' : triangle_mesh (map (map (to_body rot p)) v)).
  { intros l Hl. apply in_map_iff in Hl as (k & <- & Hk). destruct (T k Hk) as (a & b & c & -> & N1 & N2 & N3). exists (to_body rot p a), (to_body rot p b), (to_body rot p c).
    split; [reflexivity|]. repeat split; intros E; apply (tau_inj rot p HR) in E; contradiction. }
  pose proof (built_well_formed true _ m' T' B) as WF. pose proof (same_table_static _ _ WF ST) as SS. destruct (ss_counts _ _ SS) as (N1 & N2 & N3).
  assert (WM : well_formed m) by (apply (same_static_well_formed m'); assumption).
  apply (cut_is_memoryless_general m m'); auto. destruct SS as [(A1 & A2 & A3) (B1 & B2 & B3) C' D E (F1 & F2 & F3)]. pose proof (wf_edges _ WF). pose proof (wf_facets _ WF).
  constructor; repeat split; try congruence; try lia.
Qed.
Print Assumptions body_cut_is_the_cut_of_the_moved_mesh.

(** Example: a triangle of the file, moved to a frame that has made a quarter turn about z at another place. *)
Definition plate : list (list vec3) := [[V3 0 0 0; V3 1 0 0; V3 0 1 0]].
Definition quarter : mat3 := M3 (V3 0 (-1) 0) (V3 1 0 0) (V3 0 0 1).
Lemma quarter_rotation : rotation quarter.
Proof. unfold rotation, quarter. cbn [r1 r2 r3]. repeat split; try (apply vec_eq); vec; ring. Qed.
Lemma plate_triangles : triangle_mesh plate.
Proof. intros l [<-|[]]. exists (V3 0 0 0), (V3 1 0 0), (V3 0 1 0). split; [reflexivity|]. repeat split; intros E; injection E; intros; lra. Qed.
Lemma single_triangle_builds : forall check l, length l = 3%nat -> exists m, build_mesh check [l] = Ok m.
Proof.
  intros check l H. assert (B : (forall k, In k [l] -> (length k = 0 \/ 3 <= length k) /\ length k <= length (hd [] [l]))%nat) by (intros k [<-|[]]; cbn; lia).
  pose proof (mesh_builder_within_buffer_partial false _ B) as NU. destruct (mesh_builder_overflows_iff [l] (fun k Hk => proj1 (B k Hk))) as [_ NT].
  assert (E : build_mesh check [l] = build_mesh false [l]) by (destruct check; reflexivity). rewrite E. destruct (build_mesh false [l]) as [m| |]; [eauto|congruence|congruence].
Qed.
Example plate_moves : exists m m', rotation quarter /\ triangle_mesh plate /\ change_mesh_ref_frame quarter (V3 1 2 3) plate = Ok m /\
  build_mesh true (map (map (to_body quarter (V3 1 2 3))) plate) = Ok m' /\ used m (intersector m) /\ used m' (intersector m') /\ to_body quarter (V3 1 2 3) (V3 1 0 0) = V3 (-2) 0 (-3).
Proof.
  destruct (single_triangle_builds true (map (to_body quarter (V3 1 2 3)) [V3 0 0 0; V3 1 0 0; V3 0 1 0]) eq_refl) as (m' & E').
  destruct (single_triangle_builds true [V3 0 0 0; V3 1 0 0; V3 0 1 0] eq_refl) as (m & E).
  exists (move_mesh quarter (V3 1 2 3) m), m'. split; [exact quarter_rotation|]. split; [exact plate_triangles|]. split; [unfold change_mesh_ref_frame; change plate with [[V3 0 0 0; V3 1 0 0; V3 0 1 0]]; rewrite E; reflexivity|].
  split; [exact E'|]. split; [apply used_new|]. split; [apply used_new|]. unfold to_body, quarter. apply vec_eq; vec; ring.
Qed.
