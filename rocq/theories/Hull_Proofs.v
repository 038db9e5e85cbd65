(** Lemmas about polygons, closed surfaces and pressure integrals. *)
From Coq Require Import Reals Lra List Permutation Lia.
From Coquelicot Require Import Coquelicot.
From Verif Require Import Common Geometry Sim_Model Force_Model Hull_Model Hull_Spec.
Import ListNotations.
Open Scope R_scope.

Ltac vfield := repeat match goal with v : vec3 |- _ => destruct v | m : mat3 |- _ => destruct m end; vec; try (apply vec_eq; cbn [vx vy vz]); field.
(** ** Sums *)
Lemma Rsum_app : forall l m, Rsum (l ++ m) = Rsum l + Rsum m.
Proof. unfold Rsum. induction l as [|x l IH]; intros m; cbn; [|rewrite IH]; lra. Qed.
Lemma Rsum_map_ext : forall {A} (f g : A -> R) l, (forall x, In x l -> f x = g x) -> Rsum (map f l) = Rsum (map g l).
Proof. intros A f g l H. rewrite (map_ext_in f g l H). reflexivity. Qed.
Lemma Rsum_scale : forall {A} k (f : A -> R) l, Rsum (map (fun x => k * f x) l) = k * Rsum (map f l).
Proof. unfold Rsum. induction l as [|x l IH]; cbn in *; [|rewrite IH]; lra. Qed.
Lemma Rsum_plus : forall {A} (f g : A -> R) l, Rsum (map (fun x => f x + g x) l) = Rsum (map f l) + Rsum (map g l).
Proof. unfold Rsum. induction l as [|x l IH]; cbn in *; [|rewrite IH]; lra. Qed.
Lemma Rsum_perm : forall l m, Permutation l m -> Rsum l = Rsum m.
Proof. unfold Rsum. induction 1; cbn in *; lra. Qed.
Lemma fold_left_Rsum : forall {A} (f : A -> R) l a, fold_left (fun a x => a + f x) l a = a + Rsum (map f l).
Proof. unfold Rsum. induction l as [|x l IH]; intros a; cbn in *; [|rewrite IH]; lra. Qed.
Lemma fold_left_vsum : forall {A} (f : A -> vec3) l a, fold_left (fun a x => vadd a (f x)) l a = vadd a (vsum (map f l)).
Proof.
  induction l as [|x l IH]; intros a; cbn [fold_left map vsum fold_right]; [symmetry; apply vadd_0_r|].
  rewrite IH. symmetry. apply vadd_assoc.
Qed.
Lemma vsum_perm : forall l m, Permutation l m -> vsum l = vsum m.
Proof.
  unfold vsum. induction 1; cbn [fold_right].
  - reflexivity.
  - rewrite IHPermutation. reflexivity.
  - rewrite !vadd_assoc. f_equal. apply vadd_comm.
  - congruence.
Qed.
Lemma dot_vsum : forall r l, dot r (vsum l) = Rsum (map (dot r) l).
Proof. unfold vsum, Rsum. induction l as [|x l IH]; cbn [fold_right map]; [vring|]. rewrite <- IH. vring. Qed.
Lemma vec_dot_eq : forall a b, (forall r, dot r a = dot r b) -> a = b.
Proof.
  intros a b H. apply vec_eq; [specialize (H (V3 1 0 0)) | specialize (H (V3 0 1 0)) | specialize (H (V3 0 0 1))];
    unfold dot in H; cbn in H; lra.
Qed.
Lemma vsum_scale : forall {A} k (f : A -> vec3) l, vsum (map (fun x => vscale k (f x)) l) = vscale k (vsum (map f l)).
Proof. unfold vsum. induction l as [|x l IH]; cbn [fold_right map]; [vring|]. rewrite IH. vring. Qed.
Lemma vsum_plus : forall {A} (f g : A -> vec3) l, vsum (map (fun x => vadd (f x) (g x)) l) = vadd (vsum (map f l)) (vsum (map g l)).
Proof.
  unfold vsum. induction l as [|x l IH]; cbn [fold_right map]; [vring|]. rewrite IH. vring.
Qed.
Lemma vsum_map_ext : forall {A} (f g : A -> vec3) l, (forall x, In x l -> f x = g x) -> vsum (map f l) = vsum (map g l).
Proof. intros A f g l H. rewrite (map_ext_in f g l H). reflexivity. Qed.

(** ** Telescoping over the triangles of a polygon *)
Lemma fan_triangles : forall l, fan l = triangles l.
Proof.
  assert (H : forall l p0 p, fan_from p0 p l = triangles_from p0 p l) by (induction l; intros; cbn; congruence).
  intros [|p0 [|p l]]; cbn; auto.
Qed.
Definition boundary3 (E : vec3 -> vec3 -> R) (t : vec3 * vec3 * vec3) : R := let '(a, b, c) := t in E a b + E b c + E c a.
Definition on_edge (E : vec3 -> vec3 -> R) (e : vec3 * vec3) : R := E (fst e) (snd e).
Lemma telescope : forall E, (forall a b, E a b = - E b a) -> forall l, Rsum (map (boundary3 E) (triangles l)) = Rsum (map (on_edge E) (cycle l)).
Proof.
  intros E HE.
  assert (H : forall l p0 p, E p0 p + Rsum (map (on_edge E) (path p l p0)) = Rsum (map (boundary3 E) (triangles_from p0 p l))).
  { unfold Rsum. induction l as [|q l IH]; intros p0 p; cbn [path map fold_right triangles_from].
    - unfold on_edge; cbn [fst snd]. rewrite (HE p0 p). lra.
    - rewrite <- IH. unfold boundary3, on_edge at 1; cbn [fst snd]. rewrite (HE q p0). lra. }
  intros [|p0 [|p l]]; cbn [cycle triangles map Rsum fold_right path]; auto.
  - unfold on_edge; cbn. pose proof (HE p0 p0). lra.
  - rewrite <- H. reflexivity.
Qed.
Lemma boundary_swap : forall E es, (forall a b, E a b = - E b a) -> Rsum (map (on_edge E) (map swap es)) = - Rsum (map (on_edge E) es).
Proof.
  intros E es HE. unfold Rsum. induction es as [|e es IH]; cbn [map fold_right]; [lra|].
  rewrite IH. assert (H : on_edge E (swap e) = - on_edge E e) by (unfold on_edge, swap; cbn [fst snd]; apply HE). rewrite H. lra.
Qed.
Lemma closed_zero : forall E, (forall a b, E a b = - E b a) -> forall m, closed m -> Rsum (map (boundary3 E) (concat (map triangles m))) = 0.
Proof.
  intros E HE m C.
  assert (H : Rsum (map (boundary3 E) (concat (map triangles m))) = Rsum (map (on_edge E) (edges m))).
  { unfold edges. clear C. induction m as [|l m IH]; cbn [map concat]; [reflexivity|].
    rewrite !map_app, !Rsum_app, IH, telescope by exact HE. reflexivity. }
  rewrite H. assert (S2 : Rsum (map (on_edge E) (edges m)) = - Rsum (map (on_edge E) (edges m))); [|lra].
  rewrite <- boundary_swap by exact HE. apply Rsum_perm, Permutation_map, C.
Qed.

(** ** Cycles of rotated and reversed polygons *)
Definition rotate1 (l : list vec3) : list vec3 := match l with [] => [] | p :: l => l ++ [p] end.
Lemma path_app : forall l p q last, path p (l ++ [q]) last = path p l q ++ [(q, last)].
Proof. induction l as [|x l IH]; intros; cbn; [|rewrite IH]; reflexivity. Qed.
Lemma cycle_rotate1 : forall l, Permutation (cycle l) (cycle (rotate1 l)).
Proof.
  intros [|p [|q l]]; cbn; auto. rewrite path_app. apply Permutation_cons_append.
Qed.
Lemma path_rev : forall l p last, map swap (rev (path p l last)) = path last (rev l) p.
Proof.
  induction l as [|q l IH]; intros p last; cbn [path rev map]; [reflexivity|].
  rewrite map_app, IH. cbn [map swap fst snd]. rewrite path_app. reflexivity.
Qed.
Lemma cycle_rev : forall l, Permutation (map swap (cycle l)) (cycle (rev l)).
Proof.
  intros [|p l]; cbn [cycle rev]; auto.
  transitivity (map swap (rev (path p l p))); [apply Permutation_map, Permutation_rev|]. rewrite path_rev.
  change (path p (rev l) p) with (cycle (p :: rev l)). rewrite cycle_rotate1. reflexivity.
Qed.

(** ** Convex polygons *)
Lemma normal_parallel : forall n u v, dot n n = 1 -> dot n u = 0 -> dot n v = 0 -> cross u v = vscale (dot n (cross u v)) n.
Proof.
  intros n u v Hn Hu Hv.
  assert (H : vscale (dot n n) (cross u v) = vadd (vscale (dot n (cross u v)) n) (cross n (vsub (vscale (dot n u) v) (vscale (dot n v) u)))) by vring.
  rewrite Hn, Hu, Hv in H. replace (vsub (vscale 0 v) (vscale 0 u)) with v0 in H by vring.
  replace (vscale 1 (cross u v)) with (cross u v) in H by vring. rewrite H at 1. vring.
Qed.
Lemma convex_unit : forall n l, convex n l -> dot n n = 1.
Proof. intros n l (H & _). rewrite <- norm_sqr, H. ring. Qed.
Lemma triangles_spec : forall l t, In t (triangles l) -> exists i, (S i < length l)%nat /\ (0 < i)%nat /\ t = (nth 0 l v0, nth i l v0, nth (S i) l v0).
Proof.
  assert (H : forall l p0 p t, In t (triangles_from p0 p l) -> exists i, (i < length l)%nat /\ t = (p0, nth i (p :: l) v0, nth (S i) (p :: l) v0)).
  { induction l as [|q l IH]; intros p0 p t H; cbn [triangles_from In] in H; [destruct H|]. destruct H as [<-|H].
    - exists 0%nat. cbn. split; [lia|reflexivity].
    - destruct (IH _ _ _ H) as (i & Hi & ->). exists (S i). cbn [length nth]. split; [lia|reflexivity]. }
  intros [|p0 [|p l]] t Ht; cbn [triangles] in Ht; try destruct Ht. destruct (H _ _ _ _ Ht) as (i & Hi & ->).
  exists (S i). cbn [length nth]. repeat split; try lia.
Qed.
Definition tarea (n : vec3) (t : vec3 * vec3 * vec3) : R := let '(a, b, c) := t in / 2 * dot n (cross (vsub b a) (vsub c a)).
Lemma convex_triangle : forall n l a b c, convex n l -> In (a, b, c) (triangles l) ->
  0 <= dot n (cross (vsub b a) (vsub c a)) /\ cross (vsub b a) (vsub c a) = vscale (dot n (cross (vsub b a) (vsub c a))) n.
Proof.
  intros n l a b c C H. destruct (triangles_spec _ _ H) as (i & Hi & Hi0 & E). injection E as -> -> ->.
  pose proof (convex_unit _ _ C) as Hn. destruct C as (_ & P & O). split; [apply O; lia|].
  apply normal_parallel; [exact Hn| apply P; apply nth_In; lia ..].
Qed.
Lemma area3_norm : forall a b c, area3 a b c = / 2 * norm (cross (vsub b a) (vsub c a)).
Proof. intros. unfold area3, norm, dot, cross, vsub; cbn [vx vy vz]. replace (5 / 10) with (/ 2) by lra. reflexivity. Qed.
Lemma convex_area3 : forall n l a b c, convex n l -> In (a, b, c) (triangles l) -> area3 a b c = tarea n (a, b, c).
Proof.
  intros n l a b c C H. destruct (convex_triangle _ _ _ _ _ C H) as (P & E). rewrite area3_norm. unfold tarea.
  apply (f_equal norm) in E. rewrite norm_scale, (Rabs_pos_eq _ P) in E. destruct C as (U & _). rewrite U in E. rewrite E. ring.
Qed.
Lemma area_sum : forall l, area l = Rsum (map (fun '(p, q, r) => area3 p q r) (triangles l)).
Proof.
  intros l. unfold area. rewrite fan_triangles.
  assert (H : forall ts a, fold_left (fun a '(p, q, r) => a + area3 p q r) ts a = a + Rsum (map (fun '(p, q, r) => area3 p q r) ts)).
  { unfold Rsum. induction ts as [|[[p q] r] ts IH]; intros a; cbn in *; [|rewrite IH]; lra. }
  rewrite H. lra.
Qed.
Definition cross_edge (n : vec3) (a b : vec3) : R := / 2 * dot n (cross a b).
Lemma cross_edge_anti : forall n a b, cross_edge n a b = - cross_edge n b a.
Proof. intros. unfold cross_edge. vring. Qed.
Lemma tarea_boundary : forall n t, tarea n t = boundary3 (cross_edge n) t.
Proof. intros n [[a b] c]. unfold tarea, boundary3, cross_edge. vring. Qed.
Lemma convex_area : forall n l, convex n l -> area l = Rsum (map (on_edge (cross_edge n)) (cycle l)).
Proof.
  intros n l C. rewrite area_sum. rewrite <- telescope by apply cross_edge_anti.
  apply Rsum_map_ext. intros [[a b] c] H. rewrite (convex_area3 _ _ _ _ _ C H). apply tarea_boundary.
Qed.
Lemma nth_rotate1 : forall (p : vec3) l i, (i < length (l ++ [p]))%nat -> nth i (l ++ [p]) v0 = (if (i <? length l)%nat then nth (S i) (p :: l) v0 else p).
Proof.
  intros p l i Hi. rewrite app_length in Hi; cbn [length] in Hi. destruct (Nat.ltb_spec i (length l)).
  - cbn [nth]. apply app_nth1, H.
  - rewrite app_nth2 by exact H. replace (i - length l)%nat with 0%nat by lia. reflexivity.
Qed.
Lemma convex_rotate1 : forall n l, convex n l -> convex n (rotate1 l).
Proof.
  intros n [|p l] C; [exact C|]. destruct C as (U & P & O). unfold rotate1. split; [exact U|]. split.
  - intros a b Ha Hb. apply P; [apply in_app_or in Ha | apply in_app_or in Hb]; cbn; cbn in Ha, Hb; tauto.
  - intros i j k Hij Hjk Hk. rewrite !nth_rotate1 by lia. rewrite app_length in Hk; cbn [length] in Hk.
    assert (Ei : (i <? length l)%nat = true) by (apply Nat.ltb_lt; lia). assert (Ej : (j <? length l)%nat = true) by (apply Nat.ltb_lt; lia).
    rewrite Ei, Ej. destruct (k <? length l)%nat eqn:Ek.
    + apply Nat.ltb_lt in Ek. apply O; cbn [length]; lia.
    + specialize (O 0%nat (S i) (S j)). cbn [length] in O. specialize (O ltac:(lia) ltac:(lia) ltac:(lia)).
      replace (dot n (cross (vsub (nth (S j) (p :: l) v0) (nth (S i) (p :: l) v0)) (vsub p (nth (S i) (p :: l) v0))))
        with (dot n (cross (vsub (nth (S i) (p :: l) v0) (nth 0 (p :: l) v0)) (vsub (nth (S j) (p :: l) v0) (nth 0 (p :: l) v0)))); [exact O|].
      cbn [nth]. vring.
Qed.
Lemma convex_rev : forall n l, convex n l -> convex (vopp n) (rev l).
Proof.
  intros n l (U & P & O). split; [rewrite norm_opp; exact U|]. split.
  - intros p q Hp Hq. apply in_rev in Hp, Hq. specialize (P p q Hp Hq). clear O. revert P. vec. intros. lra.
  - intros i j k Hij Hjk Hk. rewrite rev_length in Hk. rewrite !rev_nth by lia.
    specialize (O (length l - S k)%nat (length l - S j)%nat (length l - S i)%nat ltac:(lia) ltac:(lia) ltac:(lia)).
    match type of O with 0 <= ?x => match goal with |- 0 <= ?y => replace y with x; [exact O|] end end. vring.
Qed.

(** ** Centroid of a convex polygon *)
Definition first_moment (l : list vec3) : vec3 := vsum (map (fun '(p, q, r) => vscale (area3 p q r / 3) (vadd (vadd p q) r)) (triangles l)).
Lemma centre_of_gravity_eq : forall l, centre_of_gravity l = if Rltb 0 (area l) then Some (vscale (/ area l) (first_moment l)) else None.
Proof.
  intros l. unfold centre_of_gravity. rewrite fan_triangles.
  assert (H : forall ts a, fold_left (fun m '(p, q, r) => vadd m (vscale (area3 p q r / 3) (vadd (vadd p q) r))) ts a =
     vadd a (vsum (map (fun '(p, q, r) => vscale (area3 p q r / 3) (vadd (vadd p q) r)) ts))).
  { induction ts as [|[[p q] r] ts IH]; intros a; cbn [fold_left map vsum fold_right]; [symmetry; apply vadd_0_r|].
    rewrite IH. symmetry. apply vadd_assoc. }
  rewrite H, vadd_0_l. reflexivity.
Qed.
(** The component along [r] of the first moment is a sum over the edges. *)
Definition moment_edge (n r : vec3) (d : R) (a b : vec3) : R := / 6 * dot r (vadd a b) * dot n (cross a b) + d / 6 * dot n r * dot n (cross a b).
Lemma moment_edge_anti : forall n r d a b, moment_edge n r d a b = - moment_edge n r d b a.
Proof. intros. unfold moment_edge. vring. Qed.
(** The identity behind Archimedes' principle. *)
Lemma archimedes_triangle : forall r a b c,
  vscale (dot r (vadd (vadd a b) c) / 3) (vscale (/ 2) (cross (vsub b a) (vsub c a))) =
  vadd (vscale (/ 6) (vadd (vscale (dot r (vadd a b)) (cross a b)) (vadd (vscale (dot r (vadd b c)) (cross b c)) (vscale (dot r (vadd c a)) (cross c a)))))
       (vscale (det3 a b c / 6) r).
Proof. intros; vfield. Qed.
Lemma cross_triangle : forall n a b c, dot n (cross (vsub b a) (vsub c a)) = dot n (cross a b) + dot n (cross b c) + dot n (cross c a).
Proof. intros; vring. Qed.
Lemma det3_triangle : forall a b c, det3 a b c = dot a (cross (vsub b a) (vsub c a)).
Proof. intros; vring. Qed.
Lemma dot_scale_r : forall a k b, dot a (vscale k b) = k * dot a b. Proof. intros; vring. Qed.
Lemma first_moment_shape : forall n r a b c,
  dot n (vscale (dot r (vadd (vadd a b) c) / 3) (vscale (/ 2) (cross (vsub b a) (vsub c a)))) =
  dot r (vscale (/ 2 * dot n (cross (vsub b a) (vsub c a)) / 3) (vadd (vadd a b) c)).
Proof. intros; vfield. Qed.
Lemma first_moment_expand : forall n r a b c k,
  dot n (vadd (vscale (/ 6) (vadd (vscale (dot r (vadd a b)) (cross a b)) (vadd (vscale (dot r (vadd b c)) (cross b c)) (vscale (dot r (vadd c a)) (cross c a)))))
       (vscale (k / 6) r)) =
  / 6 * dot r (vadd a b) * dot n (cross a b) + / 6 * dot r (vadd b c) * dot n (cross b c) + / 6 * dot r (vadd c a) * dot n (cross c a) + k / 6 * dot n r.
Proof. intros; vfield. Qed.
Lemma convex_first_moment : forall n l d r, convex n l -> (forall p, In p l -> dot n p = d) ->
  dot r (first_moment l) = Rsum (map (on_edge (moment_edge n r d)) (cycle l)).
Proof.
  intros n l d r C D. unfold first_moment. rewrite dot_vsum, map_map, <- telescope by apply moment_edge_anti.
  apply Rsum_map_ext. intros [[a b] c] H. rewrite (convex_area3 _ _ _ _ _ C H).
  destruct (convex_triangle _ _ _ _ _ C H) as (_ & E). pose proof (convex_unit _ _ C) as Hn.
  destruct (triangles_spec _ _ H) as (i & Hi & Hi0 & E'). injection E' as Ea Eb Ec.
  assert (Da : dot n a = d) by (subst; apply D, nth_In; lia).
  pose proof (archimedes_triangle r a b c) as A.
  apply (f_equal (dot n)) in A.
  assert (V : det3 a b c = d * dot n (cross (vsub b a) (vsub c a))).
  { rewrite det3_triangle. apply (f_equal (dot a)) in E. rewrite dot_scale_r in E. rewrite E, (dot_comm a n), Da. ring. }
  unfold tarea, boundary3, moment_edge.
  rewrite first_moment_shape, first_moment_expand in A. rewrite A.
  rewrite cross_triangle in V. rewrite V. field.
Qed.

(** ** Facets built from well-shaped polygons *)
Lemma Rltb_t : forall a b, a < b -> Rltb a b = true.
Proof. intros a b H. unfold Rltb. destruct (Rlt_dec a b); [reflexivity|contradiction]. Qed.
Lemma Rltb_f : forall a b, b <= a -> Rltb a b = false.
Proof. intros a b H. unfold Rltb. destruct (Rlt_dec a b); [lra|reflexivity]. Qed.
Lemma Reqb_t : forall a b, a = b -> Reqb a b = true.
Proof. intros a b H. unfold Reqb. destruct (Req_EM_T a b); [reflexivity|contradiction]. Qed.
Lemma Reqb_f : forall a b, a <> b -> Reqb a b = false.
Proof. intros a b H. unfold Reqb. destruct (Req_EM_T a b); [contradiction|reflexivity]. Qed.
Lemma epsilon_pos : 0 < epsilon. Proof. unfold epsilon. lra. Qed.

Lemma unit_normal_eq : forall l a b c, 1000 * epsilon <= norm (cross (vsub b a) (vsub c a)) ->
  unit_normal (a :: b :: c :: l) = Ok (vscale (/ norm (cross (vsub b a) (vsub c a))) (cross (vsub b a) (vsub c a))).
Proof.
  intros l a b c H. unfold unit_normal. rewrite (Rltb_f _ _ H). f_equal. apply vec_eq; cbn [vx vy vz vscale]; unfold Rdiv; ring.
Qed.
Lemma well_shaped_normal : forall n l, well_shaped (1000 * epsilon) n l -> unit_normal l = Ok n.
Proof.
  intros n l (C & H). destruct l as [|a [|b [|c l]]]; try contradiction. rewrite unit_normal_eq by exact H. f_equal.
  pose proof epsilon_pos. assert (I : In (a, b, c) (triangles (a :: b :: c :: l))) by (cbn; left; reflexivity).
  destruct (convex_triangle _ _ _ _ _ C I) as (P & E). destruct C as (U & _). set (x := cross (vsub b a) (vsub c a)) in *.
  assert (N : norm x = dot n x). { apply (f_equal norm) in E. rewrite norm_scale, (Rabs_pos_eq _ P), U in E. lra. }
  rewrite N in *. rewrite E at 2. destruct n. vec. apply vec_eq; cbn [Geometry.vx Geometry.vy Geometry.vz]; field; lra.
Qed.
Lemma area3_pos : forall a b c, 0 <= area3 a b c.
Proof. intros. rewrite area3_norm. pose proof (norm_pos (cross (vsub b a) (vsub c a))). lra. Qed.
Lemma area_nonneg : forall l, 0 <= area l.
Proof.
  intros l. rewrite area_sum. induction (triangles l) as [|[[a b] c] ts IH]; unfold Rsum in *; cbn; [lra|]. pose proof (area3_pos a b c). lra.
Qed.
Lemma well_shaped_area : forall n l tol, 0 < tol -> well_shaped tol n l -> 0 < area l.
Proof.
  intros n l tol Ht (C & H). destruct l as [|a [|b [|c l]]]; try contradiction. rewrite area_sum. cbn [triangles triangles_from map].
  unfold Rsum; cbn [fold_right]. fold (Rsum (map (fun '(p, q, r) => area3 p q r) (triangles_from a c l))).
  assert (0 <= Rsum (map (fun '(p, q, r) => area3 p q r) (triangles_from a c l))).
  { induction (triangles_from a c l) as [|[[x y] z] ts IH]; unfold Rsum in *; cbn; [lra|]. pose proof (area3_pos x y z). lra. }
  rewrite area3_norm. lra.
Qed.
Lemma build_well_shaped : forall n l f, well_shaped (1000 * epsilon) n l -> build_facet l = Ok f ->
  f_points f = l /\ f_normal f = n /\ f_area f = area l /\ 0 < area l /\ f_centroid f = Some (vscale (/ area l) (first_moment l)).
Proof.
  intros n l f W B. unfold build_facet in B. rewrite (well_shaped_normal _ _ W) in B. injection B as <-. cbn.
  pose proof epsilon_pos. assert (P : 0 < area l) by (eapply well_shaped_area; [|exact W]; lra).
  rewrite centre_of_gravity_eq, (Rltb_t _ _ P). auto.
Qed.

(** ** Integrals over triangles *)
Lemma RInt_cubic : forall f c0 c1 c2 c3 w, (forall v, f v = c0 + c1 * v + c2 * (v * v) + c3 * (v * v * v)) ->
  RInt f 0 w = c0 * w + c1 * (w * w) / 2 + c2 * (w * w * w) / 3 + c3 * (w * w * w * w) / 4.
Proof.
  intros f c0 c1 c2 c3 w Hf.
  rewrite (RInt_ext f (fun v => c0 + c1 * v + c2 * (v * v) + c3 * (v * v * v))) by (intros; apply Hf).
  apply is_RInt_unique.
  replace (c0 * w + c1 * (w * w) / 2 + c2 * (w * w * w) / 3 + c3 * (w * w * w * w) / 4)
    with (minus (c0 * w + c1 * (w * w) / 2 + c2 * (w * w * w) / 3 + c3 * (w * w * w * w) / 4)
                (c0 * 0 + c1 * (0 * 0) / 2 + c2 * (0 * 0 * 0) / 3 + c3 * (0 * 0 * 0 * 0) / 4))
    by (unfold minus, plus, opp; cbn; lra).
  apply (is_RInt_derive (fun w => c0 * w + c1 * (w * w) / 2 + c2 * (w * w * w) / 3 + c3 * (w * w * w * w) / 4)).
  - intros x _. auto_derive; [trivial|]. field.
  - intros x _. apply (ex_derive_continuous (K := R_AbsRing) (V := R_NormedModule)). auto_derive. trivial.
Qed.
Lemma integral_quadratic : forall f a b c A B C D E F,
  (forall u v, f (at_uv a b c u v) = A + B * u + C * v + D * (u * u) + E * (u * v) + F * (v * v)) ->
  integral f (a, b, c) = A / 2 + B / 6 + C / 6 + D / 12 + E / 24 + F / 12.
Proof.
  intros f a b c A B C D E F H. unfold integral.
  rewrite (RInt_cubic _ (A + C / 2 + F / 3) (B - A + E / 2 - C - F) (D - B + C / 2 - E + F) (- D + E / 2 - F / 3) 1).
  - field.
  - intros u. rewrite (RInt_cubic _ (A + B * u + D * (u * u)) (C + E * u) F 0).
    + field.
    + intros v. rewrite H. ring.
Qed.
(** Integral of an affine pressure, and of an affine pressure times a coordinate *)
Lemma integral_affine : forall r z a b c, integral (fun x => z + dot r x) (a, b, c) = / 2 * (z + dot r (vadd (vadd a b) c) / 3).
Proof.
  intros r z a b c.
  rewrite (integral_quadratic _ a b c (z + dot r a) (dot r (vsub b a)) (dot r (vsub c a)) 0 0 0).
  - vfield.
  - intros u v. unfold at_uv. vring.
Qed.
Lemma integral_product : forall r z s w a b c,
  integral (fun x => (z + dot r x) * (w + dot s x)) (a, b, c) =
  / 24 * ((3 * z + dot r (vadd (vadd a b) c)) * (3 * w + dot s (vadd (vadd a b) c))
          + (z + dot r a) * (w + dot s a) + (z + dot r b) * (w + dot s b) + (z + dot r c) * (w + dot s c)).
Proof.
  intros r z s w a b c.
  rewrite (integral_quadratic _ a b c ((z + dot r a) * (w + dot s a))
     ((z + dot r a) * dot s (vsub b a) + dot r (vsub b a) * (w + dot s a))
     ((z + dot r a) * dot s (vsub c a) + dot r (vsub c a) * (w + dot s a))
     (dot r (vsub b a) * dot s (vsub b a))
     (dot r (vsub b a) * dot s (vsub c a) + dot r (vsub c a) * dot s (vsub b a))
     (dot r (vsub c a) * dot s (vsub c a))).
  - vfield.
  - intros u v. unfold at_uv. vring.
Qed.
