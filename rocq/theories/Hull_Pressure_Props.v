(** Centre of pressure of a facet in the model "non-linear hydrostatic (exact)" (C75). *)
From Coq Require Import Reals Lra List Lia.
From Coquelicot Require Import Coquelicot.
From Verif Require Import Common Geometry Sim_Model Force_Model Hull_Model Hull_Spec Hull_Proofs Hull_Archimedes_Proofs Hull_Props Hull_Examples.
Import ListNotations.
Open Scope R_scope.

(** Specification: the pressure forces on a triangle are equivalent to their resultant applied at [P], for the component of the position along [i]:
    (int h) P.i = int h x.i, with h the immersion. *)
Definition centre_of_pressure_along (h : vec3 -> R) (t : vec3 * vec3 * vec3) (i P : vec3) : Prop := integral h t * dot i P = integral (fun x => h x * dot i x) t.
Definition centre_of_pressure (h : vec3 -> R) (t : vec3 * vec3 * vec3) (P : vec3) : Prop := forall i, centre_of_pressure_along h t i P.
(** Immersion under a plane free surface, [down] unit vector *)
Definition plane_immersion (z0 : R) (down x : vec3) : R := z0 + dot down x.
Definition with_immersion (h : vec3 -> R) (a b c : vec3) : list (vec3 * R) := [(a, h a); (b, h b); (c, h c)].
Definition centroid3 (a b c : vec3) : vec3 := vscale (/ 3) (vadd (vadd a b) c).

(** ** The simulator's down direction is not a unit vector *)
Theorem down_direction_not_unit_refuted : forall rot g, rotation rot -> 0 < g -> norm (down_direction rot g) = g.
Proof.
  intros rot g Hr Hg. unfold down_direction. rewrite (rotation_norm _ _ Hr). unfold norm, dot; cbn [vx vy vz].
  replace (0 * 0 + 0 * 0 + g * g) with (g * g) by ring. apply sqrt_square. lra.
Qed.

(** ** A vertical triangle under a horizontal free surface *)
Definition wa := V3 0 0 1. Definition wb := V3 6 0 1. Definition wc := V3 0 0 4.
Definition wall_normal := V3 0 (-1) 0.
Lemma wall_normal_ok : unit_normal [wa; wb; wc] = Ok wall_normal.
Proof.
  assert (N : norm (cross (vsub wb wa) (vsub wc wa)) = 18) by (unfold wa, wb, wc; norm_is 18).
  rewrite unit_normal_eq; rewrite N; [|unfold epsilon; lra]. f_equal. unfold wall_normal, wa, wb, wc. vec. apply vec_eq; cbn [vx vy vz]; field.
Qed.
Lemma wall_centroid : centre_of_gravity [wa; wb; wc] = Some (V3 2 0 2).
Proof.
  assert (A : area [wa; wb; wc] = 9) by (unfold wa, wb, wc; area_num; rewrite (sqrt_sq _ 18) by lra; lra).
  rewrite centre_of_gravity_eq, A, Rltb_t by lra. f_equal. unfold first_moment. cbn [triangles triangles_from map vsum fold_right].
  rewrite area3_norm. replace (norm (cross (vsub wb wa) (vsub wc wa))) with 18 by (symmetry; unfold wa, wb, wc; norm_is 18).
  unfold wa, wb, wc. vec. apply vec_eq; cbn [vx vy vz]; field.
Qed.
(** The true centre of pressure, for a depth equal to z *)
Lemma wall_pressure : centre_of_pressure (plane_immersion 0 (V3 0 0 1)) (wa, wb, wc) (V3 (7 / 4) 0 (9 / 4)).
Proof.
  intros i. unfold centre_of_pressure_along, plane_immersion. rewrite integral_affine.
  rewrite (integral_ext _ (fun x => (0 + dot (V3 0 0 1) x) * (0 + dot i x))) by (intros; ring). rewrite integral_product. unfold wa, wb, wc. destruct i. vec. field.
Qed.
Lemma centre_of_pressure_unique : forall h t P Q, integral h t <> 0 -> centre_of_pressure h t P -> centre_of_pressure h t Q -> P = Q.
Proof.
  intros h t P Q H HP HQ. apply vec_dot_eq. intros r. specialize (HP r). specialize (HQ r). unfold centre_of_pressure_along in *.
  apply (Rmult_eq_reg_l (integral h t)); [congruence|exact H].
Qed.
(** With a unit down direction the point is too low: (7/4, 0, 3) instead of (7/4, 0, 9/4): the inertia J(0,0) is used where J(1,1) is needed. *)
Theorem exact_application_point_refuted :
  exact_application_point wall_normal (V3 2 0 2) (with_immersion (plane_immersion 0 (V3 0 0 1)) wa wb wc) (V3 0 0 1) 2 = Ok (Some (V3 (7 / 4) 0 3)) /\
  ~ centre_of_pressure (plane_immersion 0 (V3 0 0 1)) (wa, wb, wc) (V3 (7 / 4) 0 3).
Proof.
  split.
  - unfold exact_application_point, normal_to_free_surface, project_on_free_surface, with_immersion, plane_immersion, wa, wb, wc. cbn [map].
    unfold unit_normal.
    match goal with |- context [norm (cross (vsub ?p ?q) (vsub ?r ?q))] => assert (E : cross (vsub p q) (vsub r q) = v0) by (vec; apply vec_eq; cbn [vx vy vz]; ring) end.
    rewrite E, norm_v0. pose proof epsilon_pos. rewrite (Rltb_t 0 (1000 * epsilon)) by lra. cbn [bindO]. rewrite norm_v0, (Rltb_t 0 (5 / 10)) by lra. cbn [bindO].
    assert (N : norm (cross wall_normal (V3 0 0 1)) = 1) by (unfold wall_normal; norm_is 1). rewrite N.
    assert (L : Rltb 1 (1000 * epsilon) = false) by (apply Rltb_f; unfold epsilon; lra). rewrite L.
    unfold facet_trihedron. replace (cross (V3 0 0 1) wall_normal) with (V3 1 0 0) by (unfold wall_normal; vec; apply vec_eq; cbn [vx vy vz]; ring).
    assert (N1 : norm (V3 1 0 0) = 1) by norm_is 1. rewrite N1, L.
    replace (cross wall_normal (vscale (/ 1) (V3 1 0 0))) with (V3 0 0 1) by (unfold wall_normal; vec; apply vec_eq; cbn [vx vy vz]; field).
    rewrite Rltb_f by (vec; lra). cbn [bindO]. unfold inertia_of_polygon. cbn [map fan fan_from fold_left]. rewrite area3_norm.
    match goal with |- context [norm ?x] => assert (N2 : norm x = 18) by (unfold wall_normal, norm; apply sqrt_sq; [lra|]; vec; field) end. rewrite N2.
    unfold inertia_of_triangle. rewrite Rltb_t by lra. cbn [r2].
    rewrite Reqb_f by (vec; lra). do 2 f_equal. unfold wall_normal. vec. apply vec_eq; cbn [vx vy vz]; field.
  - intros H. pose proof (centre_of_pressure_unique (plane_immersion 0 (V3 0 0 1)) (wa, wb, wc) _ _ ltac:(unfold plane_immersion; rewrite integral_affine; unfold wa, wb, wc; vec; lra) wall_pressure H) as E.
    injection E as E. lra.
Qed.
(** With the down direction the simulator passes (identity attitude, g = 9.81) the point is the centroid, as in the fast model. *)
Theorem exact_application_point_simulator_refuted :
  exact_application_point wall_normal (V3 2 0 2) (with_immersion (plane_immersion 0 (V3 0 0 1)) wa wb wc) (down_direction id3 (981 / 100)) 2 = Ok (Some (V3 2 0 2)) /\
  ~ centre_of_pressure (plane_immersion 0 (V3 0 0 1)) (wa, wb, wc) (V3 2 0 2).
Proof.
  split.
  - unfold exact_application_point, normal_to_free_surface. replace (down_direction id3 (981 / 100)) with (V3 0 0 (981 / 100)) by (unfold down_direction; vec; apply vec_eq; cbn [vx vy vz]; ring).
    unfold project_on_free_surface, with_immersion, plane_immersion. cbn [map]. unfold unit_normal.
    match goal with |- context [norm (cross (vsub ?p ?q) (vsub ?r ?q))] =>
      assert (E : cross (vsub p q) (vsub r q) = V3 0 (15858 / 100) 0) by (unfold wa, wb, wc; vec; apply vec_eq; cbn [vx vy vz]; field) end.
    rewrite E. assert (N : norm (V3 0 (15858 / 100) 0) = 15858 / 100) by norm_is 1. rewrite N. rewrite Rltb_f by (unfold epsilon; lra). cbn [bindO vx vy vz].
    assert (N1 : norm (V3 (0 / (15858 / 100)) (15858 / 100 / (15858 / 100)) (0 / (15858 / 100))) = 1) by norm_is 1. rewrite N1. rewrite Rltb_f by lra.
    rewrite Rltb_f by (vec; lra). cbn [bindO].
    replace (cross wall_normal (V3 (0 / (15858 / 100)) (15858 / 100 / (15858 / 100)) (0 / (15858 / 100)))) with v0 by (unfold wall_normal; vec; apply vec_eq; cbn [vx vy vz]; field).
    rewrite norm_v0. pose proof epsilon_pos. rewrite Rltb_t by lra. reflexivity.
  - intros H. pose proof (centre_of_pressure_unique (plane_immersion 0 (V3 0 0 1)) (wa, wb, wc) _ _ ltac:(unfold plane_immersion; rewrite integral_affine; unfold wa, wb, wc; vec; lra) wall_pressure H) as E.
    injection E as E. lra.
Qed.

(** ** What remains true with a unit down direction: the position along the horizontal of the facet is exact. *)
Lemma parallel_return : forall n c l down zG, normal_to_free_surface down l = Ok down -> norm (cross n down) < 1000 * epsilon ->
  exact_application_point n c l down zG = Ok (Some c).
Proof. intros n c l down zG E H. unfold exact_application_point. rewrite E. cbn [bindO]. rewrite Rltb_t by exact H. reflexivity. Qed.
Theorem exact_application_point_horizontal_partial : forall a b c n down z0 P,
  let h := plane_immersion z0 down in let G := centroid3 a b c in
  norm down = 1 -> convex n [a; b; c] -> 0 < area [a; b; c] -> normal_to_free_surface down (with_immersion h a b c) = Ok down ->
  1000 * epsilon <= norm (cross n down) ->
  exact_application_point n G (with_immersion h a b c) down (h G) = Ok (Some P) ->
  centre_of_pressure_along h (a, b, c) (cross down n) P.
Proof.
  intros a b c n down z0 P h G Ud C A E T X. pose proof epsilon_pos as Pe.
  pose proof (convex_unit _ _ C) as Un. assert (Dd : dot down down = 1) by (rewrite <- norm_sqr, Ud; ring).
  unfold exact_application_point in X. rewrite E in X. cbn [bindO] in X. rewrite Rltb_f in X by exact T.
  assert (EC : cross down n = vopp (cross n down)) by (clear; vring). unfold facet_trihedron in X. rewrite EC, norm_opp in X. rewrite Rltb_f in X by exact T.
  rewrite <- EC in X. set (s := norm (cross n down)) in *. assert (Ps : 0 < s) by lra.
  assert (Ss : dot (cross down n) (cross down n) = s * s) by (rewrite EC; unfold s; rewrite norm_sqr; clear; vring).
  (* the two possible trihedra differ by a sign e *)
  assert (S : exists e, e * e = 1 /\ (if Rltb (dot down (cross n (vscale (/ s) (cross down n)))) 0
     then Ok (M3 (vopp (vscale (/ s) (cross down n))) (vopp (cross n (vscale (/ s) (cross down n)))) n) else Ok (M3 (vscale (/ s) (cross down n)) (cross n (vscale (/ s) (cross down n))) n)) =
     Ok (M3 (vscale (e * / s) (cross down n)) (cross n (vscale (e * / s) (cross down n))) n)).
  { destruct (Rltb (dot down (cross n (vscale (/ s) (cross down n)))) 0); [exists (-1)|exists 1]; (split; [ring|]); f_equal; f_equal; generalize (/ s); clear; intros; vring. }
  destruct S as (e & Ee & Es). rewrite Es in X. clear Es. cbn [bindO] in X.
  set (k := e * / s) in *. set (R20 := M3 (vscale k (cross down n)) (cross n (vscale k (cross down n))) n) in *.
  unfold inertia_of_polygon in X. cbn [with_immersion map fan fan_from fold_left] in X.
  assert (Ka : k * k * (s * s) = 1) by (unfold k; replace (e * / s * (e * / s) * (s * s)) with (e * e) by (field; lra); exact Ee).
  set (A3 := area3 (mapply R20 (vsub a G)) (mapply R20 (vsub b G)) (mapply R20 (vsub c G))) in X.
  set (J := inertia_of_triangle (mapply R20 (vsub a G)) (mapply R20 (vsub b G)) (mapply R20 (vsub c G))) in X.
  destruct J as [[jxx jxy] jyy] eqn:EJ. unfold J in EJ.
  destruct (Rltb 0 (0 + A3)) eqn:EA; [|discriminate]. assert (PA : 0 < A3). { unfold Rltb in EA. destruct (Rlt_dec 0 (0 + A3)); [lra|discriminate]. }
  destruct (Reqb (h G * dot down down / dot down (r2 R20)) 0) eqn:EY; [discriminate|]. injection X as X.
  (* the depth along j *)
  set (q := dot down (r2 R20)) in *.
  assert (Eq : q = k * (s * s)). { unfold q, R20. cbn [r2]. rewrite <- Ss. clear. vring. }
  assert (Kz : k <> 0). { intros Z. rewrite Z in Ka. lra. } assert (Qz : q <> 0). { rewrite Eq. apply Rmult_integral_contrapositive. split; [exact Kz|]. nra. }
  assert (Hg : h G <> 0). { intros Z. unfold Reqb in EY. rewrite Z in EY. destruct (Req_EM_T (0 * dot down down / q) 0) as [|NE]; [discriminate|]. apply NE. field. exact Qz. }
  rewrite Dd in X.
  unfold centre_of_pressure_along. set (i := cross down n) in *.
  assert (EP : dot i P = dot i G + k * (s * s) * (jxy * q / h G)).
  { assert (X2 : P = vadd G (mapply (transpose R20) (V3 (jxy * q / h G) (jxx * q / h G) 0))).
    { rewrite <- X. f_equal. f_equal. change (dot down (cross n (vscale k i))) with q. apply vec_eq; cbn [vx vy vz]; field; repeat split; try exact Qz; try exact Hg; lra. }
    rewrite X2. clear X X2.
    generalize (jxy * q / h G), (jxx * q / h G). intros u v.
    replace (dot i (vadd G (mapply (transpose R20) (V3 u v 0)))) with (dot i G + u * dot i (r1 R20) + v * dot i (r2 R20)) by (generalize R20; clear; intros; vring).
    unfold R20; cbn [r1 r2]. rewrite dot_scale_r, Ss. replace (dot i (cross n (vscale k i))) with 0 by (generalize i; clear; intros; vring). ring. }
  (* the inertia *)
  assert (EJ' : jxy = / 12 * (dot (r1 R20) (vsub a G) * dot (r2 R20) (vsub a G) + dot (r1 R20) (vsub b G) * dot (r2 R20) (vsub b G) + dot (r1 R20) (vsub c G) * dot (r2 R20) (vsub c G))).
  { unfold inertia_of_triangle, mapply in EJ. cbn [vx vy vz] in EJ. injection EJ as _ EJ _. rewrite <- EJ. unfold G, centroid3. change (r1 R20) with (vscale k i). change (r2 R20) with (cross n (vscale k i)). generalize (cross n (vscale k i)), (vscale k i). clear. intros x y. vfield. }
  (* along j the depth varies as q, and not along n or i *)
  assert (Dj : forall p, In p [a; b; c] -> q * dot (r2 R20) (vsub p G) = h p - h G).
  { intros p Ip. assert (Dn : dot n (vsub p G) = 0).
    { destruct C as (_ & Pl & _). pose proof (Pl a p ltac:(cbn; auto) Ip) as H1. pose proof (Pl a b ltac:(cbn; auto) ltac:(cbn; auto)) as H2. pose proof (Pl a c ltac:(cbn; auto) ltac:(cbn; auto)) as H3.
      replace (dot n (vsub p G)) with (dot n (vsub p a) - / 3 * (dot n (vsub b a) + dot n (vsub c a))) by (unfold G, centroid3; clear; vfield). rewrite H1, H2, H3. ring. }
    replace (h p - h G) with (dot down (vsub p G)) by (unfold h, plane_immersion; clear; vring).
    (* r2 = k * cross n (cross down n) = k * (down - (n.down) n) *)
    assert (R2 : r2 R20 = vscale k (vsub down (vscale (dot n down) n))).
    { unfold R20, i; cbn [r2]. replace (cross n (vscale k (cross down n))) with (vscale k (vsub (vscale (dot n n) down) (vscale (dot n down) n))) by (clear; vring). rewrite Un. clear. vring. }
    rewrite R2. replace (dot (vscale k (vsub down (vscale (dot n down) n))) (vsub p G)) with (k * (dot down (vsub p G) - dot n down * dot n (vsub p G))) by (generalize (vsub p G); clear; intros; vring).
    rewrite Dn, Eq. replace (k * (s * s) * (k * (dot down (vsub p G) - dot n down * 0))) with (k * k * (s * s) * dot down (vsub p G)) by ring. rewrite Ka. ring. }
  assert (Ei : forall p, dot (r1 R20) (vsub p G) = k * (dot i p - dot i G)) by (intros p; unfold R20; cbn [r1]; fold i; generalize i; clear; intros; vring).
  rewrite EP. replace (k * (s * s) * (jxy * q / h G)) with (k * (s * s) * (q * jxy) / h G) by (field; exact Hg).
  replace (q * jxy) with (/ 12 * (k * (dot i a - dot i G) * (h a - h G) + k * (dot i b - dot i G) * (h b - h G) + k * (dot i c - dot i G) * (h c - h G))).
  2: { rewrite EJ', !Ei. rewrite <- !Dj by (cbn; auto). ring. }
  replace (k * (s * s) * (/ 12 * (k * (dot i a - dot i G) * (h a - h G) + k * (dot i b - dot i G) * (h b - h G) + k * (dot i c - dot i G) * (h c - h G))) / h G)
    with (k * k * (s * s) * (/ 12 * ((dot i a - dot i G) * (h a - h G) + (dot i b - dot i G) * (h b - h G) + (dot i c - dot i G) * (h c - h G))) / h G) by (field; exact Hg).
  rewrite Ka.
  rewrite (integral_ext (fun x => h x * dot i x) (fun x => (z0 + dot down x) * (0 + dot i x))) by (intros; unfold h, plane_immersion; ring). rewrite integral_product.
  rewrite (integral_ext h (fun x => z0 + dot down x)) by reflexivity. rewrite integral_affine.
  assert (Hh : h G = z0 + dot down (vadd (vadd a b) c) / 3) by (unfold h, plane_immersion, G, centroid3; clear; vfield). rewrite <- Hh.
  assert (Hi : dot i G = dot i (vadd (vadd a b) c) / 3) by (unfold G, centroid3; generalize i; clear; intros; vfield).
  transitivity (/ 2 * (h G * dot i G + / 12 * ((dot i a - dot i G) * (h a - h G) + (dot i b - dot i G) * (h b - h G) + (dot i c - dot i G) * (h c - h G)))); [field; exact Hg|].
  rewrite Hi, Hh. unfold h, plane_immersion. generalize i. clear. intros. vfield.
Qed.
(** The triangle of the refutation meets these hypotheses. *)
Example wall_meets_hypotheses : norm (V3 0 0 1) = 1 /\ convex wall_normal [wa; wb; wc] /\ 0 < area [wa; wb; wc] /\
  normal_to_free_surface (V3 0 0 1) (with_immersion (plane_immersion 0 (V3 0 0 1)) wa wb wc) = Ok (V3 0 0 1) /\ 1000 * epsilon <= norm (cross wall_normal (V3 0 0 1)) /\
  centroid3 wa wb wc = V3 2 0 2 /\ plane_immersion 0 (V3 0 0 1) (centroid3 wa wb wc) = 2.
Proof.
  repeat split.
  - norm_is 1.
  - unfold wall_normal. norm_is 1.
  - intros p q Hp Hq. cbn [In] in *. repeat match goal with H : _ \/ _ |- _ => destruct H as [<-|H] | H : False |- _ => destruct H end; unfold wall_normal, wa, wb, wc; vec; ring.
  - intros i j k Hij Hjk Hk. cbn in Hk. assert (i = 0)%nat as -> by lia. assert (j = 1)%nat as -> by lia. assert (k = 2)%nat as -> by lia. cbn [nth]. unfold wall_normal, wa, wb, wc. vec. lra.
  - unfold wa, wb, wc; area_num; rewrite (sqrt_sq _ 18) by lra; lra.
  - unfold normal_to_free_surface, project_on_free_surface, with_immersion, plane_immersion, wa, wb, wc. cbn [map]. unfold unit_normal.
    match goal with |- context [norm (cross (vsub ?p ?q) (vsub ?r ?q))] => assert (E : cross (vsub p q) (vsub r q) = v0) by (vec; apply vec_eq; cbn [vx vy vz]; ring) end.
    rewrite E, norm_v0. pose proof epsilon_pos. rewrite (Rltb_t 0 (1000 * epsilon)) by lra. cbn [bindO]. rewrite norm_v0, (Rltb_t 0 (5 / 10)) by lra. reflexivity.
  - replace (norm (cross wall_normal (V3 0 0 1))) with 1 by (symmetry; unfold wall_normal; norm_is 1). unfold epsilon. lra.
  - unfold centroid3, wa, wb, wc. vec. apply vec_eq; cbn [vx vy vz]; field.
  - unfold plane_immersion, centroid3, wa, wb, wc. vec. field.
Qed.
Print Assumptions exact_application_point_refuted.
Print Assumptions exact_application_point_horizontal_partial.
