(** Properties of facets, of the orientation of meshes and of the forces integrated on hulls (C45, C58, C73-C75). *)
From Coq Require Import Reals Lra List Permutation Lia.
From Coquelicot Require Import Coquelicot.
From Verif Require Import Common Geometry Sim_Model Force_Model Hull_Model Hull_Spec Hull_Proofs Hull_Archimedes_Proofs.
Import ListNotations.
Open Scope R_scope.

Ltac perm :=
  lazymatch goal with
  | |- Permutation [] [] => constructor
  | |- Permutation (?x :: ?l) ?m =>
      let rec go pre m := lazymatch m with
        | x :: ?s => let m' := constr:(List.app (rev pre) (x :: s)) in let m'' := eval cbn in m' in
                     change (Permutation (x :: l) (List.app (rev pre) (x :: s))); apply Permutation_cons_app; cbn [rev List.app]; perm
        | ?y :: ?s => go (y :: pre) s end
      in go (@nil (vec3 * vec3)) m
  end.

(** ** C45: area *)
(** The area does not depend on the vertex the facet starts from. *)
Theorem facet_area_rotation : forall n x y, convex n (x ++ y) -> area (y ++ x) = area (x ++ y).
Proof.
  intros n x. induction x as [|p x IH]; intros y C; [rewrite app_nil_r; reflexivity|].
  change ((p :: x) ++ y) with (p :: (x ++ y)) in *. pose proof (convex_rotate1 _ _ C) as C'. cbn [rotate1] in C'.
  replace (y ++ p :: x) with ((y ++ [p]) ++ x) by (rewrite <- app_assoc; reflexivity).
  rewrite <- app_assoc in C'. rewrite IH by exact C'. rewrite app_assoc.
  rewrite (convex_area n (p :: x ++ y)) by exact C. rewrite (convex_area n ((x ++ y) ++ [p])).
  - apply Rsum_perm, Permutation_map. symmetry. apply (cycle_rotate1 (p :: x ++ y)).
  - rewrite <- app_assoc. exact C'.
Qed.
(** nor on the direction in which the facet is described. *)
Theorem facet_area_reversal : forall n l, convex n l -> area (rev l) = area l.
Proof.
  intros n l C. rewrite (convex_area _ _ C), (convex_area _ _ (convex_rev _ _ C)).
  rewrite <- (Rsum_perm _ _ (Permutation_map (on_edge (cross_edge (vopp n))) (cycle_rev l))).
  rewrite boundary_swap by apply cross_edge_anti.
  rewrite (Rsum_map_ext (on_edge (cross_edge (vopp n))) (fun e => - 1 * on_edge (cross_edge n) e)).
  - rewrite Rsum_scale. ring.
  - intros [a b] _. unfold on_edge, cross_edge; cbn [fst snd]. vring.
Qed.
(** It is the integral of the constant 1 over the facet. *)
Theorem facet_area_is_integral : forall l, area l = Rsum (map (fun t => integral (fun _ => 1) t * norm (vector_area t)) (triangles l)).
Proof.
  intros l. rewrite area_sum. apply Rsum_map_ext. intros [[a b] c] _. rewrite area3_norm. unfold vector_area. f_equal.
  rewrite (integral_quadratic _ a b c 1 0 0 0 0 0) by (intros; ring). lra.
Qed.
(** For a facet that is not convex, both claims are false: the triangles of the fan overlap and their areas are added.
    Dart (0,2) (-2,-2) (0,0) (2,-2) of area 4: 4 if the facet starts at its first vertex, 12 from the second one. *)
Definition dart : list vec3 := [V3 0 2 0; V3 (-2) (-2) 0; V3 0 0 0; V3 2 (-2) 0].
Lemma sqrt_sq : forall x y, 0 <= y -> x = y * y -> sqrt x = y.
Proof. intros x y H ->. apply sqrt_square, H. Qed.
Ltac area_num := unfold area, fan, fan_from, fold_left, area3; cbn [vx vy vz app].
Theorem facet_area_rotation_concave_refuted : area dart = 4 /\ area (skipn 1 dart ++ firstn 1 dart) = 12.
Proof.
  unfold dart; cbn [skipn firstn]. split; area_num.
  - rewrite !(sqrt_sq _ 4) by lra. lra.
  - rewrite (sqrt_sq _ 8) by lra. rewrite (sqrt_sq _ 16) by lra. lra.
Qed.

(** ** C45: normal *)
(** When the first three vertices span an area above the tolerance, the normal is a unit vector orthogonal to their plane and oriented by the right-hand rule. *)
Theorem facet_normal_unit_orthogonal : forall a b c l n,
  1000 * epsilon <= norm (cross (vsub b a) (vsub c a)) -> unit_normal (a :: b :: c :: l) = Ok n ->
  norm n = 1 /\ dot n (vsub b a) = 0 /\ dot n (vsub c a) = 0 /\ 0 < det3 n (vsub b a) (vsub c a).
Proof.
  intros a b c l n H E. rewrite unit_normal_eq in E by exact H. injection E as <-. pose proof epsilon_pos.
  set (u := vsub b a) in *. set (v := vsub c a) in *. set (x := cross u v) in *.
  assert (P : 0 < norm x) by lra. assert (I : 0 < / norm x) by (apply Rinv_0_lt_compat; exact P). repeat split.
  - rewrite norm_scale, Rabs_pos_eq by lra. field. lra.
  - replace (dot (vscale (/ norm x) x) u) with (/ norm x * dot x u) by (generalize (/ norm x); clear; intros; vring). replace (dot x u) with 0 by (unfold x; clear; vring). ring.
  - replace (dot (vscale (/ norm x) x) v) with (/ norm x * dot x v) by (generalize (/ norm x); clear; intros; vring). replace (dot x v) with 0 by (unfold x; clear; vring). ring.
  - unfold det3. fold x. replace (dot (vscale (/ norm x) x) x) with (/ norm x * dot x x) by (generalize (/ norm x); clear; intros; vring).
    rewrite <- norm_sqr. apply Rmult_lt_0_compat; [exact I|]. apply Rmult_lt_0_compat; exact P.
Qed.
(** For a convex facet whose first three vertices are not aligned it is the normal of the plane of the facet, and it flips when the facet is reversed. *)
Theorem facet_normal_convex : forall n l, well_shaped (1000 * epsilon) n l -> unit_normal l = Ok n.
Proof. exact well_shaped_normal. Qed.
Theorem facet_normal_reversal : forall n n' l, well_shaped (1000 * epsilon) n l -> well_shaped (1000 * epsilon) n' (rev l) -> unit_normal (rev l) = Ok (vopp n).
Proof.
  intros n n' l W W'. apply well_shaped_normal. split; [apply convex_rev, W | apply W'].
Qed.
Theorem facet_normal_reversal_triangle : forall a b c n, 1000 * epsilon <= norm (cross (vsub b a) (vsub c a)) ->
  unit_normal [a; b; c] = Ok n -> unit_normal [c; b; a] = Ok (vopp n).
Proof.
  intros a b c n H E. rewrite unit_normal_eq in E by exact H. injection E as <-.
  assert (X : cross (vsub b c) (vsub a c) = vopp (cross (vsub b a) (vsub c a))) by vring.
  rewrite unit_normal_eq; rewrite X, norm_opp; [|exact H]. f_equal. generalize (/ norm (cross (vsub b a) (vsub c a))). intros. vring.
Qed.
(** Fewer than three vertices: error. *)
Theorem facet_normal_needs_three_points : forall l, (length l < 3)%nat -> unit_normal l = Throw.
Proof. intros [|a [|b [|c l]]] H; cbn in *; try reflexivity; lia. Qed.
(** When the first three vertices are aligned the normal is null although the facet has an area: such a facet has no effect on the forces. *)
Definition aligned_start : list vec3 := [V3 0 0 0; V3 1 0 0; V3 2 0 0; V3 0 1 0].
Theorem facet_normal_aligned_refuted : convex (V3 0 0 1) aligned_start /\ area aligned_start = 1 /\ unit_normal aligned_start = Ok v0.
Proof.
  repeat split.
  - unfold norm, dot; cbn. apply sqrt_sq; lra.
  - intros p q Hp Hq. unfold aligned_start in *. cbn [In] in *.
    repeat match goal with H : _ \/ _ |- _ => destruct H as [<-|H] | H : False |- _ => destruct H end; vec; ring.
  - intros i j k Hij Hjk Hk. cbn [length aligned_start] in Hk.
    assert (K : (k = 2 \/ k = 3)%nat) by lia.
    destruct K as [-> | ->]; [assert (j = 1)%nat as -> by lia; assert (i = 0)%nat as -> by lia; cbn [nth aligned_start]; vec; lra|].
    assert (K : (j = 1 \/ j = 2)%nat) by lia.
    destruct K as [-> | ->]; [assert (i = 0)%nat as -> by lia; cbn [nth aligned_start]; vec; lra|].
    assert (K : (i = 0 \/ i = 1)%nat) by lia. destruct K as [-> | ->]; cbn [nth aligned_start]; vec; lra.
  - area_num. cbn [aligned_start vx vy vz]. rewrite (sqrt_sq _ 0) by lra. rewrite (sqrt_sq _ 2) by lra. lra.
  - unfold unit_normal, aligned_start. replace (cross (vsub (V3 1 0 0) (V3 0 0 0)) (vsub (V3 2 0 0) (V3 0 0 0))) with v0 by vring.
    rewrite norm_v0. pose proof epsilon_pos. rewrite Rltb_t by lra. reflexivity.
Qed.

(** ** C45: centroid *)
(** The centroid lies in every half-space that contains the vertices, i.e. in their convex hull. *)
Theorem facet_centroid_in_hull : forall l c r k, centre_of_gravity l = Some c -> (forall p, In p l -> dot r p <= k) -> dot r c <= k.
Proof.
  intros l c r k E H. rewrite centre_of_gravity_eq in E. unfold Rltb in E. destruct (Rlt_dec 0 (area l)) as [P|]; [|discriminate]. injection E as <-.
  rewrite dot_scale_r. apply (Rmult_le_reg_l (area l)); [exact P|]. replace (area l * (/ area l * dot r (first_moment l))) with (dot r (first_moment l)) by (field; lra).
  unfold first_moment. rewrite dot_vsum, map_map, area_sum.
  assert (T : forall t, In t (triangles l) -> dot r (let '(p, q, s) := t in vscale (area3 p q s / 3) (vadd (vadd p q) s)) <= k * (let '(p, q, s) := t in area3 p q s)).
  { intros [[a b] d] I. apply triangles_In in I. destruct I as (Ia & Ib & Id). pose proof (H a Ia). pose proof (H b Ib). pose proof (H d Id).
    rewrite dot_scale_r. pose proof (area3_pos a b d). replace (dot r (vadd (vadd a b) d)) with (dot r a + dot r b + dot r d) by (clear; vring).
    apply Rle_trans with (area3 a b d / 3 * (3 * k)); [|lra]. apply Rmult_le_compat_l; lra. }
  revert T. generalize (triangles l). intros ts T. unfold Rsum. induction ts as [|t ts IH]; cbn [map fold_right]; [lra|].
  specialize (IH (fun t I => T t (or_intror I))). specialize (T t (or_introl eq_refl)). destruct t as [[a b] d]. lra.
Qed.
(** It exists as soon as the facet has an area, and it is the barycentre of the surface: area * centroid = integral of the position. *)
Theorem facet_centroid_is_integral : forall l, 0 < area l -> exists c, centre_of_gravity l = Some c /\
  forall r, area l * dot r c = Rsum (map (fun t => integral (dot r) t * norm (vector_area t)) (triangles l)).
Proof.
  intros l P. rewrite centre_of_gravity_eq, (Rltb_t _ _ P). eexists. split; [reflexivity|]. intros r.
  rewrite dot_scale_r. replace (area l * (/ area l * dot r (first_moment l))) with (dot r (first_moment l)) by (field; lra).
  unfold first_moment. rewrite dot_vsum, map_map. apply Rsum_map_ext. intros [[a b] c] _. rewrite area3_norm, dot_scale_r. unfold vector_area.
  rewrite (integral_ext (dot r) (fun x => 0 + dot r x)) by (intros; ring). rewrite integral_affine. field.
Qed.
(** For convex facets it depends neither on the first vertex nor on the direction. *)
Lemma convex_plane : forall n l, convex n l -> exists d, forall p, In p l -> dot n p = d.
Proof.
  intros n [|p l] (U & P & _); [exists 0; intros p []|]. exists (dot n p). intros q Hq. specialize (P p q (or_introl eq_refl) Hq).
  replace (dot n q) with (dot n (vsub q p) + dot n p) by (clear; vring). lra.
Qed.
Theorem facet_centroid_rotation : forall n x y, convex n (x ++ y) -> centre_of_gravity (y ++ x) = centre_of_gravity (x ++ y).
Proof.
  intros n x y C. pose proof (facet_area_rotation _ _ _ C) as A. rewrite !centre_of_gravity_eq, A.
  destruct (Rltb 0 (area (x ++ y))); [|reflexivity]. do 2 f_equal. clear A.
  assert (H : forall y, convex n (x ++ y) -> first_moment (y ++ x) = first_moment (x ++ y)); [|apply H, C]. clear y C.
  induction x as [|p x IH]; intros y C; [rewrite app_nil_r; reflexivity|].
  change ((p :: x) ++ y) with (p :: (x ++ y)) in *. pose proof (convex_rotate1 _ _ C) as C'. cbn [rotate1] in C'.
  replace (y ++ p :: x) with ((y ++ [p]) ++ x) by (rewrite <- app_assoc; reflexivity).
  rewrite <- app_assoc in C'. rewrite IH by exact C'. rewrite app_assoc. rewrite app_assoc in C'.
  destruct (convex_plane _ _ C) as (d & D). apply vec_dot_eq. intros r.
  rewrite (convex_first_moment n (p :: x ++ y) d r C D). rewrite (convex_first_moment n ((x ++ y) ++ [p]) d r C').
  - apply Rsum_perm, Permutation_map. symmetry. apply (cycle_rotate1 (p :: x ++ y)).
  - intros q Hq. apply D. apply in_app_or in Hq. cbn in *. tauto.
Qed.
Theorem facet_centroid_reversal : forall n l, convex n l -> centre_of_gravity (rev l) = centre_of_gravity l.
Proof.
  intros n l C. rewrite !centre_of_gravity_eq, (facet_area_reversal _ _ C). destruct (Rltb 0 (area l)); [|reflexivity]. do 2 f_equal.
  destruct (convex_plane _ _ C) as (d & D). apply vec_dot_eq. intros r.
  rewrite (convex_first_moment n l d r C D). rewrite (convex_first_moment (vopp n) (rev l) (- d) r (convex_rev _ _ C)).
  2: { intros q Hq. apply in_rev in Hq. specialize (D q Hq). rewrite <- D. clear. vring. }
  rewrite <- (Rsum_perm _ _ (Permutation_map (on_edge (moment_edge (vopp n) r (- d))) (cycle_rev l))).
  rewrite boundary_swap by apply moment_edge_anti.
  rewrite (Rsum_map_ext (on_edge (moment_edge (vopp n) r (- d))) (fun e => - 1 * on_edge (moment_edge n r d) e)).
  - rewrite Rsum_scale. ring.
  - intros [a b] _. unfold on_edge, moment_edge; cbn [fst snd]. clear. vfield.
Qed.
(** The hypotheses hold for any non degenerate triangle, and for the unit square. *)
Lemma triangle_convex : forall a b c, 0 < norm (cross (vsub b a) (vsub c a)) ->
  convex (vscale (/ norm (cross (vsub b a) (vsub c a))) (cross (vsub b a) (vsub c a))) [a; b; c].
Proof.
  intros a b c P. set (x := cross (vsub b a) (vsub c a)) in *. assert (I : 0 < / norm x) by (apply Rinv_0_lt_compat; exact P). repeat split.
  - rewrite norm_scale, Rabs_pos_eq by lra. field. lra.
  - assert (Hb : dot x (vsub b a) = 0) by (unfold x; clear; vring). assert (Hc : dot x (vsub c a) = 0) by (unfold x; clear; vring).
    assert (K : forall p q, (p = a \/ p = b \/ p = c) -> (q = a \/ q = b \/ q = c) -> dot x (vsub q p) = 0).
    { intros p q Hp Hq.
      assert (K : forall p, (p = a \/ p = b \/ p = c) -> dot x (vsub p a) = 0).
      { intros s [->|[->| ->]]; auto. clear. vring. }
      replace (dot x (vsub q p)) with (dot x (vsub q a) - dot x (vsub p a)) by (clear; vring). rewrite !K by assumption. ring. }
    intros p q Hp Hq. replace (dot (vscale (/ norm x) x) (vsub q p)) with (/ norm x * dot x (vsub q p)) by (generalize (/ norm x); clear; intros; vring).
    rewrite K; [ring| |]; cbn in Hp, Hq; intuition congruence.
  - intros i j k Hij Hjk Hk. cbn in Hk. assert (i = 0)%nat as -> by lia. assert (j = 1)%nat as -> by lia. assert (k = 2)%nat as -> by lia. cbn [nth]. fold x.
    replace (dot (vscale (/ norm x) x) x) with (/ norm x * dot x x) by (generalize (/ norm x); clear; intros; vring).
    pose proof (dot_pos x). apply Rmult_le_pos; lra.
Qed.
Example unit_square_well_shaped : well_shaped (1000 * epsilon) (V3 0 0 1) [V3 0 0 0; V3 1 0 0; V3 1 1 0; V3 0 1 0].
Proof.
  split.
  - repeat split.
    + unfold norm, dot; cbn. apply sqrt_sq; lra.
    + intros p q Hp Hq. cbn [In] in *.
      repeat match goal with H : _ \/ _ |- _ => destruct H as [<-|H] | H : False |- _ => destruct H end; vec; ring.
    + intros i j k Hij Hjk Hk. cbn [length] in Hk. assert (K : (k = 2 \/ k = 3)%nat) by lia.
      destruct K as [-> | ->]; [assert (j = 1)%nat as -> by lia; assert (i = 0)%nat as -> by lia; cbn [nth]; vec; lra|].
      assert (K : (j = 1 \/ j = 2)%nat) by lia.
      destruct K as [-> | ->]; [assert (i = 0)%nat as -> by lia; cbn [nth]; vec; lra|].
      assert (K : (i = 0 \/ i = 1)%nat) by lia. destruct K as [-> | ->]; cbn [nth]; vec; lra.
  - replace (norm (cross (vsub (V3 1 0 0) (V3 0 0 0)) (vsub (V3 1 1 0) (V3 0 0 0)))) with 1; [unfold epsilon; lra|].
    unfold norm. symmetry. apply sqrt_sq; [lra|]. vec. ring.
Qed.
Example unit_square_measured : area [V3 0 0 0; V3 1 0 0; V3 1 1 0; V3 0 1 0] = 1 /\
  centre_of_gravity [V3 0 0 0; V3 1 0 0; V3 1 1 0; V3 0 1 0] = Some (V3 (1/2) (1/2) 0).
Proof.
  assert (A : area [V3 0 0 0; V3 1 0 0; V3 1 1 0; V3 0 1 0] = 1) by (area_num; rewrite !(sqrt_sq _ 1) by lra; lra). split; [exact A|].
  rewrite centre_of_gravity_eq, A, Rltb_t by lra. f_equal. unfold first_moment. cbn [triangles triangles_from map vsum fold_right]. unfold area3; cbn [vx vy vz].
  rewrite !(sqrt_sq _ 1) by lra. vec. apply vec_eq; cbn [vx vy vz]; field.
Qed.
Print Assumptions facet_area_rotation.
Print Assumptions facet_centroid_rotation.
