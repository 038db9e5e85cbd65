(** A concrete immersed hull that meets the hypotheses of the theorems of Hull_Force_Props (C58), and the flat hull (refutation). *)
From Coq Require Import Reals Lra List Permutation Lia.
From Coquelicot Require Import Coquelicot.
From Verif Require Import Common Geometry Sim_Model Force_Model Hull_Model Hull_Spec Hull_Proofs Hull_Archimedes_Proofs Hull_Props Hull_Force_Props.
Import ListNotations.
Open Scope R_scope.

Lemma triangle_well_shaped : forall a b c tol, 0 < tol -> tol <= norm (cross (vsub b a) (vsub c a)) ->
  well_shaped tol (vscale (/ norm (cross (vsub b a) (vsub c a))) (cross (vsub b a) (vsub c a))) [a; b; c].
Proof. intros a b c tol H0 H. split; [apply triangle_convex; lra | exact H]. Qed.
(** Any tetrahedron is a closed surface. *)
Lemma tetrahedron_closed : forall a b c d, closed ([[a; b; d]; [a; d; c]; [b; c; d]] ++ [[a; c; b]]).
Proof. intros. unfold closed, edges, swap. cbn [map concat cycle path List.app fst snd]. perm. Qed.

Definition idT : transform := mkT id3 v0.
Definition pA := V3 0 0 0. Definition pB := V3 1 0 0. Definition pC := V3 0 1 0. Definition pD := V3 0 0 1.
Definition keel : list (list vec3) := [[pA; pB; pD]; [pA; pD; pC]; [pB; pC; pD]].
Definition waterplane : list (list vec3) := [[pA; pC; pB]].
Ltac norm_is x := unfold norm; apply sqrt_sq; [lra|]; vec; lra.
Lemma norm_ge_1 : forall v, 1 <= dot v v -> 1 <= norm v.
Proof. intros v H. unfold norm. rewrite <- sqrt_1. apply sqrt_le_1_alt, H. Qed.
Lemma keel_norms : norm (cross (vsub pB pA) (vsub pD pA)) = 1 /\ norm (cross (vsub pD pA) (vsub pC pA)) = 1 /\ 1 <= norm (cross (vsub pC pB) (vsub pD pB)).
Proof.
  unfold pA, pB, pC, pD. split; [norm_is 1|]. split; [norm_is 1|]. apply norm_ge_1. vec. lra.
Qed.
Example keel_usable : usable keel.
Proof.
  destruct keel_norms as (N1 & N2 & N3). pose proof epsilon_pos. assert (E : 1000 * epsilon <= 1) by (unfold epsilon; lra).
  intros l [<-|[<-|[<-|[]]]]; eexists; apply triangle_well_shaped; lra.
Qed.
Example keel_built : exists fs, built keel fs.
Proof.
  pose proof keel_usable as U. assert (H : forall l, In l keel -> exists f, build_facet l = Ok f).
  { intros l I. destruct (U l I) as (n & W). unfold build_facet. rewrite (well_shaped_normal _ _ W). eexists. reflexivity. }
  clear U. unfold built. induction keel as [|l m IH]; [exists []; constructor|]. destruct (H l (or_introl eq_refl)) as (f & Hf).
  destruct IH as (fs & Hfs); [intros l' I; apply H; right; exact I|]. exists (f :: fs). constructor; assumption.
Qed.
Example keel_not_flat : not_flat keel.
Proof.
  destruct keel_norms as (N1 & N2 & N3). pose proof epsilon_pos. assert (E : 1000 * epsilon <= 1) by (unfold epsilon; lra).
  exists [pA; pB; pD], [[pA; pD; pC]; [pB; pC; pD]], [pA; pD; pC]. do 2 eexists.
  split; [reflexivity|]. split; [left; reflexivity|]. split; [apply triangle_well_shaped; lra|]. split; [apply triangle_well_shaped; lra|].
  rewrite N1, N2. unfold pA, pB, pC, pD. vec. lra.
Qed.
Example keel_lid : (forall lid p, In lid waterplane -> In p lid -> depth idT p = 0) /\ (forall lid, In lid waterplane -> vsum (map vector_area (triangles lid)) <> v0).
Proof.
  split.
  - intros lid p [<-|[]] Hp. unfold depth, tapply, idT; cbn [t_rot t_point]. cbn [In] in Hp.
    repeat match goal with H : _ \/ _ |- _ => destruct H as [<-|H] | H : False |- _ => destruct H end; unfold pA, pB, pC; vec; ring.
  - intros lid [<-|[]] H. cbn [triangles triangles_from map vsum fold_right vector_area] in H. apply (f_equal vz) in H. unfold pA, pB, pC in H. vec. lra.
Qed.
Example keel_volume : enclosed_volume (keel ++ waterplane) = / 6.
Proof. unfold enclosed_volume, keel, waterplane, Rsum. cbn [List.app map triangles triangles_from concat fold_right tetrahedron]. unfold pA, pB, pC, pD. vec. lra. Qed.
(** All the hypotheses of hydrostatic_is_pressure_integral and archimedes_force hold, and the conclusion gives the weight of 1/6 m3 of water. *)
Example keel_force : forall fs, built keel fs -> fst (fast_hydrostatic 1000 10 idT 1 v0 fs) = V3 0 0 (- (10000 / 6)).
Proof.
  intros fs B. rewrite (archimedes_force 1000 10 idT 1 v0 keel waterplane fs keel_usable B (proj1 keel_lid)); [|apply tetrahedron_closed].
  rewrite keel_volume. cbn [idT t_rot]. vec. apply vec_eq; cbn [vx vy vz]; field.
Qed.
Example keel_hydrostatic : forall fs, built keel fs ->
  fst (hydrostatic 1000 10 idT v0 (center_of_mass fs waterplane)) = V3 0 0 (- (10000 / 6)).
Proof.
  intros fs B. rewrite (hydrostatic_models_agree 1000 10 idT idT v0 keel waterplane fs keel_usable B keel_not_flat).
  - apply keel_force, B.
  - apply rotation_id.
  - cbn [idT t_rot]. vec. reflexivity.
  - apply keel_lid.
  - apply keel_lid.
  - apply tetrahedron_closed.
  - rewrite keel_volume. lra.
Qed.

(** ** A hull whose immersed facets are nearly parallel displaces nothing for the hydrostatic model (flag all_facets_are_in_same_plane), although the fast model
    and Archimedes give the weight of its volume. Apex D' at a depth of 1e-4 under a triangle of side about 3. *)
Definition qA := V3 2 0 0. Definition qB := V3 (-1) 1 0. Definition qC := V3 (-1) (-1) 0. Definition qD := V3 0 0 (/ 10000).
(** outward (downward) normals *)
Definition flat_hull : list (list vec3) := [[qA; qB; qD]; [qB; qC; qD]; [qC; qA; qD]].
Definition flat_lid : list (list vec3) := [[qA; qC; qB]].
Lemma flat_closed : closed (flat_hull ++ flat_lid).
Proof. unfold closed, edges, swap, flat_hull, flat_lid. cbn [map concat cycle path List.app fst snd]. generalize qA, qB, qC, qD. intros. perm. Qed.
Lemma flat_norms : 1 <= norm (cross (vsub qB qA) (vsub qD qA)) /\ 1 <= norm (cross (vsub qC qB) (vsub qD qB)) /\ 1 <= norm (cross (vsub qA qC) (vsub qD qC)).
Proof.
  unfold qA, qB, qC, qD. repeat split; apply norm_ge_1; vec; lra.
Qed.
Lemma flat_usable : usable flat_hull.
Proof.
  destruct flat_norms as (N1 & N2 & N3). pose proof epsilon_pos. assert (E : 1000 * epsilon <= 1) by (unfold epsilon; lra).
  intros l [<-|[<-|[<-|[]]]]; eexists; apply triangle_well_shaped; lra.
Qed.
Lemma normals_close : forall x y, 0 < norm x -> 0 < norm y -> (1 - / 1000000) * (norm x * norm y) < dot x y -> 1 - / 1000000 < dot (vscale (/ norm x) x) (vscale (/ norm y) y).
Proof.
  intros x y Hx Hy H. replace (dot (vscale (/ norm x) x) (vscale (/ norm y) y)) with (dot x y / (norm x * norm y)).
  - apply (Rmult_lt_reg_r (norm x * norm y)); [apply Rmult_lt_0_compat; assumption|]. replace (dot x y / (norm x * norm y) * (norm x * norm y)) with (dot x y) by (field; lra). exact H.
  - generalize dependent (norm x); generalize dependent (norm y). intros. vfield. lra.
Qed.
Lemma normals_close' : forall x y, 0 < norm x -> 0 < norm y -> (1 - / 1000000) * (dot x x + dot y y) < 2 * dot x y -> 1 - / 1000000 < dot (vscale (/ norm x) x) (vscale (/ norm y) y).
Proof.
  intros x y Hx Hy H. apply normals_close; try assumption. pose proof (norm_sqr x). pose proof (norm_sqr y).
  assert (norm x * norm y * 2 <= norm x * norm x + norm y * norm y) by (pose proof (Rle_0_sqr (norm x - norm y)) as S2; unfold Rsqr in S2; lra). lra.
Qed.
Theorem hydrostatic_flat_hull_refuted : exists fs, built flat_hull fs /\ usable flat_hull /\ closed (flat_hull ++ flat_lid) /\
  (forall lid p, In lid flat_lid -> In p lid -> depth idT p = 0) /\ 0 < enclosed_volume (flat_hull ++ flat_lid) /\
  fst (hydrostatic 1000 10 idT v0 (center_of_mass fs flat_lid)) = v0 /\ fst (fast_hydrostatic 1000 10 idT 1 v0 fs) <> v0.
Proof.
  destruct flat_norms as (N1 & N2 & N3). pose proof epsilon_pos. assert (E : 1000 * epsilon <= 1) by (unfold epsilon; lra).
  assert (W1 := triangle_well_shaped qA qB qD (1000 * epsilon) ltac:(lra) ltac:(lra)).
  assert (W2 := triangle_well_shaped qB qC qD (1000 * epsilon) ltac:(lra) ltac:(lra)).
  assert (W3 := triangle_well_shaped qC qA qD (1000 * epsilon) ltac:(lra) ltac:(lra)).
  assert (B1 : exists f, build_facet [qA; qB; qD] = Ok f) by (unfold build_facet; rewrite (well_shaped_normal _ _ W1); eexists; reflexivity).
  assert (B2 : exists f, build_facet [qB; qC; qD] = Ok f) by (unfold build_facet; rewrite (well_shaped_normal _ _ W2); eexists; reflexivity).
  assert (B3 : exists f, build_facet [qC; qA; qD] = Ok f) by (unfold build_facet; rewrite (well_shaped_normal _ _ W3); eexists; reflexivity).
  destruct B1 as (f1 & B1), B2 as (f2 & B2), B3 as (f3 & B3). exists [f1; f2; f3].
  assert (B : built flat_hull [f1; f2; f3]) by (repeat constructor; assumption).
  assert (L : forall lid p, In lid flat_lid -> In p lid -> depth idT p = 0).
  { intros lid p [<-|[]] Hp. unfold depth, tapply, idT; cbn [t_rot t_point]. cbn [In] in Hp.
    repeat match goal with H : _ \/ _ |- _ => destruct H as [<-|H] | H : False |- _ => destruct H end; unfold qA, qB, qC; vec; ring. }
  assert (V : enclosed_volume (flat_hull ++ flat_lid) = / 10000).
  { unfold enclosed_volume, flat_hull, flat_lid, Rsum. cbn [List.app map triangles triangles_from concat fold_right tetrahedron]. unfold qA, qB, qC, qD. vec. lra. }
  split; [exact B|]. split; [exact flat_usable|]. split; [exact flat_closed|]. split; [exact L|]. split; [rewrite V; lra|]. split.
  - unfold center_of_mass. replace (same_plane [f1; f2; f3]) with true; [unfold hydrostatic; cbn [fst]; vec; apply vec_eq; cbn [vx vy vz]; ring|].
    symmetry. unfold same_plane. apply forallb_forall. destruct (build_well_shaped _ _ _ W1 B1) as (_ & M1 & _). destruct (build_well_shaped _ _ _ W2 B2) as (_ & M2 & _).
    destruct (build_well_shaped _ _ _ W3 B3) as (_ & M3 & _). rewrite M1.
    intros f [<-|[<-|[<-|[]]]]; apply Rltb_t; rewrite ?M1, ?M2, ?M3; apply normals_close'; try lra; unfold qA, qB, qC, qD; vec; lra.
  - rewrite (archimedes_force 1000 10 idT 1 v0 flat_hull flat_lid _ flat_usable B L flat_closed), V. intros Z. apply (f_equal vz) in Z. unfold idT in Z; cbn [t_rot] in Z. vec. lra.
Qed.
Print Assumptions keel_hydrostatic.
Print Assumptions hydrostatic_flat_hull_refuted.
