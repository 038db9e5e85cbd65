(** Properties of the orientation of meshes (C73) and of the potential energy of the hydrostatic force (C74). *)
From Coq Require Import Reals Lra List Permutation Lia.
From Coquelicot Require Import Coquelicot.
From Verif Require Import Common Geometry Sim_Model Force_Model Hull_Model Hull_Spec Hull_Proofs Hull_Archimedes_Proofs Hull_Props Hull_Force_Props Hull_Examples.
Import ListNotations.
Open Scope R_scope.

(** ** C73 *)
(** Specification: mean of the vertices of a list of points; a facet is outward (inward) with respect to a point G when its normal points away from (towards) G. *)
Definition mean (l : list vec3) : vec3 := vscale (/ INR (length l)) (vsum l).
Definition outward (G : vec3) (l : list vec3) : Prop := exists n, well_shaped (1000 * epsilon) n l /\ 0 < dot n (vsub (mean l) G).
Definition inward (G : vec3) (l : list vec3) : Prop := exists n, well_shaped (1000 * epsilon) n l /\ dot n (vsub (mean l) G) < 0.

Lemma barycenter_eq : forall l, l <> [] -> barycenter l = Some (mean l).
Proof.
  intros l H. destruct l as [|p l]; [congruence|]. unfold barycenter, mean. do 2 f_equal.
  pose proof (fold_left_vsum (fun x : vec3 => x) (p :: l) v0) as F. rewrite map_id, vadd_0_l in F. exact F.
Qed.
Lemma mean_perm : forall l l', Permutation l l' -> mean l = mean l'.
Proof. intros l l' P. unfold mean. rewrite (Permutation_length P), (vsum_perm _ _ P). reflexivity. Qed.
Lemma well_shaped_length : forall tol n l, well_shaped tol n l -> (3 <= length l)%nat.
Proof. intros tol n [|a [|b [|c l]]] (_ & H); try contradiction. cbn. lia. Qed.
Lemma facet_outward : forall G l, outward G l -> oriented_clockwise_facet l (Some G) = Ok false.
Proof.
  intros G l (n & W & P). pose proof (well_shaped_length _ _ _ W) as L. unfold oriented_clockwise_facet.
  destruct (Nat.ltb_spec (length l) 3); [lia|]. rewrite (well_shaped_normal _ _ W). cbn [bindO]. rewrite barycenter_eq by (destruct l; cbn in L; [lia|discriminate]).
  rewrite Rltb_t by exact P. reflexivity.
Qed.
Lemma facet_inward : forall G l, inward G l -> oriented_clockwise_facet l (Some G) = Ok true.
Proof.
  intros G l (n & W & P). pose proof (well_shaped_length _ _ _ W) as L. unfold oriented_clockwise_facet.
  destruct (Nat.ltb_spec (length l) 3); [lia|]. rewrite (well_shaped_normal _ _ W). cbn [bindO]. rewrite barycenter_eq by (destruct l; cbn in L; [lia|discriminate]).
  rewrite Rltb_f by lra. reflexivity.
Qed.
Lemma count_ok : forall G m, (forall l, In l m -> outward G l \/ inward G l) ->
  exists out inw, count_clockwise m (Some G) = Ok (length inw, length out) /\ Permutation m (out ++ inw) /\ List.Forall (outward G) out /\ List.Forall (inward G) inw.
Proof.
  intros G m. induction m as [|l m IH]; intros H.
  - exists [], []. repeat split; constructor.
  - destruct IH as (out & inw & E & P & Fo & Fi); [intros l' I; apply H; right; exact I|]. cbn [count_clockwise].
    destruct (H l (or_introl eq_refl)) as [O|O].
    + rewrite (facet_outward _ _ O), E. exists (l :: out), inw. repeat split; [constructor; exact P|constructor; assumption|exact Fi].
    + rewrite (facet_inward _ _ O), E. exists out, (l :: inw). repeat split; [apply Permutation_cons_app, P|exact Fo|constructor; assumption].
Qed.
Lemma usable_nonempty : forall G m, (2 <= length m)%nat -> (forall l, In l m -> outward G l \/ inward G l) -> concat m <> [].
Proof.
  intros G [|l m] L H E; [cbn in L; lia|]. cbn [concat] in E. apply app_eq_nil in E. destruct E as (-> & _).
  destruct (H [] (or_introl eq_refl)) as [(n & W & _)|(n & W & _)]; apply well_shaped_length in W; cbn in W; lia.
Qed.
(** When all the facets are outward with respect to the mean of the vertices (in particular for a convex hull described anticlockwise), the orientation
    factor is 1: Hull_Force_Props.archimedes_force applies with the enclosed volume; when they are all inward it is -1. *)
Theorem orientation_outward : forall m, (2 <= length m)%nat -> (forall l, In l m -> outward (mean (concat m)) l) -> orientation_factor m = Ok 1.
Proof.
  intros m L H. assert (H' : forall l, In l m -> outward (mean (concat m)) l \/ inward (mean (concat m)) l) by auto.
  unfold orientation_factor, mesh_barycenter. rewrite barycenter_eq by (eapply usable_nonempty; eassumption). unfold oriented_clockwise.
  destruct (Nat.ltb_spec (length m) 2); [lia|]. replace (count_clockwise m (Some (mean (concat m)))) with (Ok (0%nat, length m)).
  - cbn [bindO]. destruct (Nat.ltb_spec (10 * length m) 0); [lia|]. destruct (Nat.ltb_spec (10 * 0) (length m)); [|lia]. reflexivity.
  - generalize (mean (concat m)) H. clear. intros G. induction m as [|l m IH]; intros H; [reflexivity|]. cbn [count_clockwise].
    rewrite (facet_outward _ _ (H l (or_introl eq_refl))), <- IH by (intros l' I; apply H; right; exact I). reflexivity.
Qed.
Theorem orientation_inward : forall m, (2 <= length m)%nat -> (forall l, In l m -> inward (mean (concat m)) l) -> orientation_factor m = Ok (-1).
Proof.
  intros m L H. assert (H' : forall l, In l m -> outward (mean (concat m)) l \/ inward (mean (concat m)) l) by auto.
  unfold orientation_factor, mesh_barycenter. rewrite barycenter_eq by (eapply usable_nonempty; eassumption). unfold oriented_clockwise.
  destruct (Nat.ltb_spec (length m) 2); [lia|]. replace (count_clockwise m (Some (mean (concat m)))) with (Ok (length m, 0%nat)).
  - cbn [bindO]. destruct (Nat.ltb_spec (10 * 0) (length m)); [|lia]. reflexivity.
  - generalize (mean (concat m)) H. clear. intros G. induction m as [|l m IH]; intros H; [reflexivity|]. cbn [count_clockwise].
    rewrite (facet_inward _ _ (H l (or_introl eq_refl))), <- IH by (intros l' I; apply H; right; exact I). reflexivity.
Qed.
(** The factor follows the majority, which must be of more than ten to one; otherwise the mesh is rejected. *)
Theorem orientation_majority : forall m, (2 <= length m)%nat -> (forall l, In l m -> outward (mean (concat m)) l \/ inward (mean (concat m)) l) ->
  exists out inw, Permutation m (out ++ inw) /\ List.Forall (outward (mean (concat m))) out /\ List.Forall (inward (mean (concat m))) inw /\
  ((10 * length inw < length out)%nat /\ orientation_factor m = Ok 1 \/
   (10 * length out < length inw)%nat /\ orientation_factor m = Ok (-1) \/
   (length out <= 10 * length inw)%nat /\ (length inw <= 10 * length out)%nat /\ orientation_factor m = Throw).
Proof.
  intros m L H. destruct (count_ok _ _ H) as (out & inw & E & P & Fo & Fi). exists out, inw. split; [exact P|]. split; [exact Fo|]. split; [exact Fi|].
  unfold orientation_factor, mesh_barycenter. rewrite barycenter_eq by (eapply usable_nonempty; eassumption). unfold oriented_clockwise.
  destruct (Nat.ltb_spec (length m) 2); [lia|]. rewrite E. cbn [bindO].
  destruct (Nat.ltb_spec (10 * length out) (length inw)).
  - right; left. split; [assumption|reflexivity].
  - destruct (Nat.ltb_spec (10 * length inw) (length out)); [left|right; right]; repeat split; try assumption; reflexivity.
Qed.
(** Describing every facet in the other direction changes the sign of the factor, and the force of a surface force model is unchanged. *)
Definition reversible (G : vec3) (l : list vec3) : Prop :=
  exists n, well_shaped (1000 * epsilon) n l /\ well_shaped (1000 * epsilon) (vopp n) (rev l) /\ dot n (vsub (mean l) G) <> 0.
Lemma reversible_cases : forall G l, reversible G l -> outward G l /\ inward G (rev l) \/ inward G l /\ outward G (rev l).
Proof.
  intros G l (n & W & W' & D). pose proof (mean_perm _ _ (Permutation_rev l)) as M.
  assert (E : dot (vopp n) (vsub (mean (rev l)) G) = - dot n (vsub (mean l) G)) by (rewrite <- M; generalize (mean l); clear; intros; vring).
  destruct (Rtotal_order (dot n (vsub (mean l) G)) 0) as [H|[H|H]]; [right|contradiction|left]; split.
  - exists n; auto.
  - exists (vopp n). split; [exact W'|lra].
  - exists n; auto.
  - exists (vopp n). split; [exact W'|lra].
Qed.
Lemma count_rev : forall G m, (forall l, In l m -> reversible G l) -> exists c a, count_clockwise m (Some G) = Ok (c, a) /\ count_clockwise (map (@rev vec3) m) (Some G) = Ok (a, c).
Proof.
  intros G m. induction m as [|l m IH]; intros H; [exists 0%nat, 0%nat; split; reflexivity|].
  destruct IH as (c & a & E & E'); [intros l' I; apply H; right; exact I|]. cbn [map count_clockwise].
  destruct (reversible_cases _ _ (H l (or_introl eq_refl))) as [(O & I)|(I & O)]; rewrite (facet_outward _ _ O), (facet_inward _ _ I), E, E'; cbn [bindO]; eauto.
Qed.
Lemma concat_rev_perm : forall (m : list (list vec3)), Permutation (concat (map (@rev vec3) m)) (concat m).
Proof. induction m as [|l m IH]; cbn [map concat]; [constructor|]. apply Permutation_app; [symmetry; apply Permutation_rev|exact IH]. Qed.
Theorem orientation_reversed : forall m o, (2 <= length m)%nat -> (forall l, In l m -> reversible (mean (concat m)) l) ->
  orientation_factor m = Ok o -> orientation_factor (map (@rev vec3) m) = Ok (- o).
Proof.
  intros m o L H E. unfold orientation_factor, mesh_barycenter in *.
  assert (NE : concat m <> []).
  { destruct m as [|l m]; [cbn in L; lia|]. cbn [concat]. intros Z. apply app_eq_nil in Z. destruct Z as (-> & _). destruct (H [] (or_introl eq_refl)) as (n & W & _).
    apply well_shaped_length in W. cbn in W. lia. }
  assert (NE' : concat (map (@rev vec3) m) <> []).
  { intros Z. apply NE. apply Permutation_nil. rewrite <- Z. apply concat_rev_perm. }
  rewrite barycenter_eq in E by exact NE. rewrite barycenter_eq by exact NE'. rewrite (mean_perm _ _ (concat_rev_perm m)).
  unfold oriented_clockwise in *. rewrite map_length. destruct (Nat.ltb_spec (length m) 2); [lia|].
  destruct (count_rev _ _ H) as (c & a & E1 & E2). rewrite E1 in E. rewrite E2. cbn [bindO] in *.
  destruct (Nat.ltb_spec (10 * a) c) as [A|A]; destruct (Nat.ltb_spec (10 * c) a) as [B|B]; try lia; cbn [bindO] in *; try discriminate; injection E as <-; f_equal; lra.
Qed.
Theorem force_independent_of_winding : forall rho g T G m o fs fs', (2 <= length m)%nat -> (forall l, In l m -> reversible (mean (concat m)) l) ->
  built m fs -> built (map (@rev vec3) m) fs' -> orientation_factor m = Ok o ->
  exists o', orientation_factor (map (@rev vec3) m) = Ok o' /\ fast_hydrostatic rho g T o G fs = fast_hydrostatic rho g T o' G fs'.
Proof.
  intros rho g T G m o fs fs' L H B B' E. exists (- o). split; [apply orientation_reversed; assumption|].
  unfold fast_hydrostatic. rewrite !surface_force_eq, !map_map.
  assert (K : map (hydrostatic_dF (fun _ c _ => c) rho g T) fs' = map (fun d => (vopp (fst d), snd d)) (map (hydrostatic_dF (fun _ c _ => c) rho g T) fs)).
  { revert H. generalize (mean (concat m)). clear E L. intros G0 H. unfold built in *. revert fs' B'. induction B as [|l f m fs Hb _ IH]; intros fs' B'; inversion B' as [|? f' ? fs2 Hb' B2]; subst; [reflexivity|].
    cbn [map]. f_equal; [|apply IH; [intros l' I; apply H; right; exact I|exact B2]].
    destruct (H l (or_introl eq_refl)) as (n & W & W' & _). destruct (build_well_shaped _ _ _ W Hb) as (_ & En & Ea & Pa & Ec).
    destruct (build_well_shaped _ _ _ W' Hb') as (_ & En' & Ea' & Pa' & Ec'). unfold hydrostatic_dF. rewrite Ea, Ea', Ec, Ec', !Reqb_f by lra. rewrite En, En'.
    pose proof (facet_centroid_reversal _ _ (proj1 W)) as C. rewrite !centre_of_gravity_eq, !Rltb_t in C by assumption. injection C as C. cbn [fst snd].
    replace (vscale (/ area (rev l)) (first_moment (rev l))) with (vscale (/ area l) (first_moment l)).
    2: { symmetry. apply vec_eq; cbn [vx vy vz vscale]; assumption. }
    rewrite (facet_area_reversal _ _ (proj1 W)). f_equal. generalize (- rho * g * zG_in_NED T (vscale (/ area l) (first_moment l))), (area l). clear. intros. vring. }
  assert (K1 := f_equal (map fst) K). rewrite !map_map in K1.
  assert (K2 := f_equal (map (fun d => cross (vsub (snd d) G) (fst d))) K). rewrite !map_map in K2. cbn [fst snd] in K1, K2.
  rewrite K1, K2. f_equal.
  - rewrite (vsum_map_ext (fun x => vopp (fst (hydrostatic_dF (fun _ c _ => c) rho g T x))) (fun x => vscale (-1) (fst (hydrostatic_dF (fun _ c _ => c) rho g T x)))) by (intros x _; generalize (fst (hydrostatic_dF (fun _ c _ => c) rho g T x)); clear; intros; vring).
    rewrite vsum_scale. match goal with |- vscale o ?x = _ => generalize x end. clear. intros; vring.
  - rewrite (vsum_map_ext (fun x => cross (vsub (snd (hydrostatic_dF (fun _ c _ => c) rho g T x)) G) (vopp (fst (hydrostatic_dF (fun _ c _ => c) rho g T x))))
        (fun x => vscale (-1) (cross (vsub (snd (hydrostatic_dF (fun _ c _ => c) rho g T x)) G) (fst (hydrostatic_dF (fun _ c _ => c) rho g T x)))))
      by (intros x _; generalize (hydrostatic_dF (fun _ c _ => c) rho g T x); clear; intros [u w]; cbn [fst snd]; vring).
    rewrite vsum_scale. match goal with |- vscale o ?x = _ => generalize x end. clear. intros; vring.
Qed.
(** A mesh of one facet is always considered as clockwise: its force depends on the direction in which it is described. *)
Theorem orientation_single_facet_refuted : forall l, orientation_factor [l] = Ok (-1) /\ orientation_factor [rev l] = Ok (-1).
Proof. intros l. split; reflexivity. Qed.

(** The closed tetrahedron of Hull_Examples is oriented outwards. *)
Example tetrahedron_oriented : orientation_factor (keel ++ waterplane) = Ok 1.
Proof.
  apply orientation_outward; [cbn; lia|]. destruct keel_norms as (N1 & N2 & N3). pose proof epsilon_pos. assert (E : 1000 * epsilon <= 1) by (unfold epsilon; lra).
  assert (M : mean (concat (keel ++ waterplane)) = V3 (/ 4) (/ 4) (/ 4)).
  { unfold mean, keel, waterplane. cbn [List.app concat length vsum fold_right]. unfold pA, pB, pC, pD. unfold v0.
    assert (K : forall a b c d e f, vadd (V3 a b c) (V3 d e f) = V3 (a + d) (b + e) (c + f)) by reflexivity. rewrite !K. unfold vscale. cbn [INR vx vy vz]. f_equal; field. }
  rewrite M. intros l [<-|[<-|[<-|[<-|[]]]]]; eexists; (split; [apply triangle_well_shaped; try lra|]).
  1,2: unfold mean; cbn [length vsum fold_right INR]; unfold pA, pB, pC, pD in *; rewrite ?N1, ?N2; vec; lra.
  - unfold mean; cbn [length vsum fold_right INR]. set (k := norm (cross (vsub pC pB) (vsub pD pB))) in *. assert (0 < / k) by (apply Rinv_0_lt_compat; lra).
    unfold pA, pB, pC, pD. vec. lra.
  - replace (norm (cross (vsub pC pA) (vsub pB pA))) with 1; [lra|]. symmetry. unfold pA, pB, pC. norm_is 1.
  - replace (norm (cross (vsub pC pA) (vsub pB pA))) with 1 by (symmetry; unfold pA, pB, pC; norm_is 1). unfold mean; cbn [length vsum fold_right INR]; unfold pA, pB, pC, pD; vec; lra.
Qed.

(** ** C74: potential energy. Specification: over a displacement, the energy changes by the opposite of the work of the force. The energy computed by the code
    only depends on the immersed part in the body frame: sinking a fully immersed body by one metre does not change it, although the force works. *)
Lemma built_exists : forall m, usable m -> exists fs, built m fs.
Proof.
  intros m U. assert (H : forall l, In l m -> exists f, build_facet l = Ok f).
  { intros l I. destruct (U l I) as (n & W). unfold build_facet. rewrite (well_shaped_normal _ _ W). eexists. reflexivity. }
  clear U. unfold built. induction m as [|l m IH]; [exists []; constructor|]. destruct (H l (or_introl eq_refl)) as (f & Hf).
  destruct IH as (fs & Hfs); [intros l' I; apply H; right; exact I|]. exists (f :: fs). constructor; assumption.
Qed.
Lemma tetrahedron_usable : usable (keel ++ waterplane).
Proof.
  intros l I. apply in_app_or in I. destruct I as [I|[<-|[]]]; [apply keel_usable, I|]. pose proof epsilon_pos. eexists. apply triangle_well_shaped; [lra|].
  replace (norm (cross (vsub pC pA) (vsub pB pA))) with 1; [unfold epsilon; lra|]. symmetry. unfold pA, pB, pC. norm_is 1.
Qed.
Definition at_depth (d : R) : transform := mkT id3 (V3 0 0 d).
Theorem hydrostatic_energy_is_not_a_potential_refuted : exists fs, built (keel ++ waterplane) fs /\
  (forall d p, 0 <= d -> In p (concat (keel ++ waterplane)) -> 0 <= depth (at_depth d) p) /\
  (forall d, fst (fast_hydrostatic 1000 10 (at_depth d) 1 v0 fs) = V3 0 0 (- (10000 / 6))) /\
  hydrostatic_potential_energy 1000 10 (at_depth 2) (center_of_mass fs []) - hydrostatic_potential_energy 1000 10 (at_depth 1) (center_of_mass fs []) = 0.
Proof.
  destruct (built_exists _ tetrahedron_usable) as (fs & B). exists fs. split; [exact B|]. split; [|split].
  - intros d p Hd I. unfold depth, tapply, at_depth; cbn [t_rot t_point]. cbn [keel waterplane List.app concat In] in I.
    repeat match goal with H : _ \/ _ |- _ => destruct H as [<-|H] | H : False |- _ => destruct H end; unfold pA, pB, pC, pD; vec; lra.
  - intros d. pose proof (tetrahedron_closed pA pB pC pD) as C. change (closed (keel ++ waterplane)) in C. rewrite <- (app_nil_r (keel ++ waterplane)) in C.
    rewrite (archimedes_force _ _ _ _ _ _ [] _ tetrahedron_usable B) by (try exact C; intros lid p []). rewrite app_nil_r, keel_volume. unfold at_depth; cbn [t_rot].
    vec. apply vec_eq; cbn [vx vy vz]; field.
  - unfold hydrostatic_potential_energy. destruct (center_of_mass fs []) as [[G V] b]. ring.
Qed.
Print Assumptions force_independent_of_winding.
Print Assumptions hydrostatic_energy_is_not_a_potential_refuted.
