(** Properties of the forces integrated on hulls (C58) and of the orientation of meshes (C73). *)
From Coq Require Import Reals Lra List Permutation Lia.
From Coquelicot Require Import Coquelicot.
From Verif Require Import Common Geometry Sim_Model Force_Model Hull_Model Hull_Spec Hull_Proofs Hull_Archimedes_Proofs Hull_Props.
Import ListNotations.
Open Scope R_scope.

(** ** C58: the sum over the facets *)
(** Force and moment are the sums of the forces and of the moments about G of the facets (times the orientation of the mesh). *)
Theorem surface_force_is_resultant : forall o G dF, surface_force o G dF =
  (vscale o (vsum (map fst dF)), vscale o (vsum (map (fun d => cross (vsub (snd d) G) (fst d)) dF))).
Proof. exact surface_force_eq. Qed.
Theorem surface_force_order_independent : forall o G dF dF', Permutation dF dF' -> surface_force o G dF = surface_force o G dF'.
Proof.
  intros o G dF dF' P. rewrite !surface_force_eq. f_equal; f_equal; apply vsum_perm, Permutation_map, P.
Qed.
(** Linear in the elementary forces: [forces] gives for each facet a force and another force, both applied at the same point. *)
Theorem surface_force_linear : forall o G k (forces : list (vec3 * vec3 * vec3)),
  let at_point (f : vec3 * vec3 * vec3 -> vec3) := surface_force o G (map (fun d => (f d, snd d)) forces) in
  at_point (fun '(f, h, _) => vadd f (vscale k h)) =
  (vadd (fst (at_point (fun '(f, _, _) => f))) (vscale k (fst (at_point (fun '(_, h, _) => h)))),
   vadd (snd (at_point (fun '(f, _, _) => f))) (vscale k (snd (at_point (fun '(_, h, _) => h))))).
Proof.
  intros o G k forces at_point. unfold at_point. rewrite !surface_force_eq, !map_map. cbn [fst snd]. unfold vsum.
  induction forces as [|[[f h] C] l IH]; cbn [map fold_right fst snd]; [f_equal; vring|].
  pose proof (f_equal fst IH) as I1. pose proof (f_equal snd IH) as I2. cbn [fst snd] in I1, I2. clear IH. f_equal.
  - match type of I1 with vscale _ ?a = vadd (vscale _ ?b) (vscale _ (vscale _ ?c)) => generalize dependent a; generalize dependent b; generalize dependent c end.
    intros c b a E. clear - E. replace (vscale o (vadd (vadd f (vscale k h)) a)) with (vadd (vscale o a) (vscale o (vadd f (vscale k h)))) by vring. rewrite E. vring.
  - match type of I2 with vscale _ ?a = vadd (vscale _ ?b) (vscale _ (vscale _ ?c)) => generalize dependent a; generalize dependent b; generalize dependent c end.
    intros c b a E. clear - E. replace (vscale o (vadd (cross (vsub C G) (vadd f (vscale k h))) a)) with (vadd (vscale o a) (vscale o (cross (vsub C G) (vadd f (vscale k h))))) by vring. rewrite E. vring.
Qed.

(** ** C58: Archimedes *)
Definition usable (hull : list (list vec3)) : Prop := forall l, In l hull -> exists n, well_shaped (1000 * epsilon) n l.
Definition built (hull : list (list vec3)) (fs : list facet) : Prop := Forall2 (fun l f => build_facet l = Ok f) hull fs.
Lemma hull_force : forall rho g T o G point hull fs, usable hull -> built hull fs ->
  fst (surface_force o G (map (hydrostatic_dF point rho g T) fs)) =
  vscale o (vsum (map (pressure_force (affine_pressure (rho * g) (vz (t_point T)) (r3 (t_rot T)))) (concat (map triangles hull)))).
Proof.
  intros rho g T o G point hull fs U B. rewrite surface_force_eq; cbn [fst]. f_equal. rewrite map_map.
  unfold usable in U. induction B as [|l f hull fs Hb _ IH]; [reflexivity|].
  cbn [map concat]. rewrite map_app, vsum_app. cbn [vsum fold_right]. destruct (U l (or_introl eq_refl)) as (n & W).
  rewrite (facet_force _ _ _ _ _ _ _ W Hb). f_equal. apply IH. intros l' I. apply U. right. exact I.
Qed.
(** The force of the fast hydrostatic model is the exact integral over the immersed facets of the pressure rho g z. *)
Theorem fast_hydrostatic_force_is_pressure_integral : forall rho g T G hull fs, usable hull -> built hull fs ->
  fst (fast_hydrostatic rho g T 1 G fs) = vsum (map (pressure_force (fun x => rho * g * depth T x)) (concat (map triangles hull))).
Proof.
  intros rho g T G hull fs U B. unfold fast_hydrostatic. rewrite (hull_force _ _ _ _ _ _ _ _ U B).
  replace (pressure_force (fun x : vec3 => rho * g * depth T x)) with (pressure_force (affine_pressure (rho * g) (vz (t_point T)) (r3 (t_rot T)))) by reflexivity.
  match goal with |- vscale 1 ?x = _ => generalize x end. intros. vring.
Qed.
(** Archimedes: if the immersed facets and lids on the plane z = 0 form a closed surface, the force is vertical, upwards, and equal to the weight of the
    enclosed volume of water; [o] is the orientation factor (-1 when the normals are inward, and then the signed volume is negative too). *)
Theorem archimedes_force : forall rho g T o G hull lids fs, usable hull -> built hull fs ->
  (forall lid p, In lid lids -> In p lid -> depth T p = 0) -> closed (hull ++ lids) ->
  fst (fast_hydrostatic rho g T o G fs) = mapply (transpose (t_rot T)) (V3 0 0 (- (rho * g * (o * enclosed_volume (hull ++ lids))))).
Proof.
  intros rho g T o G hull lids fs U B L C. unfold fast_hydrostatic. rewrite (hull_force _ _ _ _ _ _ _ _ U B).
  pose proof (closed_force (rho * g) (vz (t_point T)) (r3 (t_rot T)) _ C) as F. rewrite map_app, concat_app, map_app, vsum_app in F.
  rewrite (lids_zero _ (on_plane (vz (t_point T)) (r3 (t_rot T))) lids) in F.
  - rewrite vadd_0_r in F. rewrite F. generalize (enclosed_volume (hull ++ lids)). generalize (t_rot T). clear. intros m v. vring.
  - intros l Hl. apply lid_force, Hl.
  - apply List.Forall_forall. intros l Hl p Hp. rewrite <- depth_affine. eapply L; eassumption.
Qed.
(** Without free surface crossing (no lid), the force only depends on the volume: moving the body does not change it. *)
Theorem archimedes_fully_immersed : forall rho g T T' G G' hull fs, usable hull -> built hull fs -> closed hull -> t_rot T = t_rot T' ->
  fst (fast_hydrostatic rho g T 1 G fs) = fst (fast_hydrostatic rho g T' 1 G' fs).
Proof.
  intros rho g T T' G G' hull fs U B C E. rewrite <- (app_nil_r hull) in C.
  rewrite (archimedes_force _ _ _ _ _ _ [] _ U B) by (try exact C; intros lid p []).
  rewrite (archimedes_force _ _ _ _ _ _ [] _ U B) by (try exact C; intros lid p []). rewrite E. reflexivity.
Qed.
(** The enclosed volume does not depend on the origin of the frame. *)
Lemma triangles_translate : forall v l, triangles (map (vadd v) l) = map (fun '(a, b, c) => (vadd v a, vadd v b, vadd v c)) (triangles l).
Proof.
  intros v. assert (H : forall l p0 p, triangles_from (vadd v p0) (vadd v p) (map (vadd v) l) = map (fun '(a, b, c) => (vadd v a, vadd v b, vadd v c)) (triangles_from p0 p l)).
  { induction l as [|q l IH]; intros; cbn; [|rewrite IH]; reflexivity. }
  intros [|p0 [|p l]]; cbn; auto.
Qed.
Definition shift_edge (v a b : vec3) : R := / 6 * det3 v a b.
Theorem enclosed_volume_translation : forall v m, closed m -> enclosed_volume (map (map (vadd v)) m) = enclosed_volume m.
Proof.
  intros v m C. unfold enclosed_volume. rewrite map_map.
  replace (concat (map (fun x => triangles (map (vadd v) x)) m)) with (map (fun '(a, b, c) => (vadd v a, vadd v b, vadd v c)) (concat (map triangles m))).
  2: { clear C. induction m as [|l m IH]; cbn [map concat]; [reflexivity|]. rewrite map_app, IH, triangles_translate. reflexivity. }
  rewrite map_map. rewrite (Rsum_map_ext _ (fun t => boundary3 (shift_edge v) t + tetrahedron t)).
  - rewrite Rsum_plus, closed_zero; [ring| |exact C]. intros a b. unfold shift_edge. vring.
  - intros [[a b] c] _. unfold boundary3, shift_edge, tetrahedron. clear. vfield.
Qed.

(** ** C58: the wrench of the hydrostatic model is the exact integral of the pressure (force and torque). *)
Lemma tetra_volume_eq : forall a b c, tetra_volume a b c = tetrahedron (a, b, c).
Proof. intros. unfold tetra_volume, tetrahedron. vfield. Qed.
Lemma facet_com_sums_eq : forall l, facet_com_sums l = (Rsum (map tetrahedron (triangles l)), vsum (map tetrahedron_moment (triangles l))).
Proof.
  intros l. unfold facet_com_sums. rewrite fan_triangles.
  match goal with |- fold_left ?f _ _ = _ => set (F := f) end.
  assert (H : forall ts v m, fold_left F ts (v, m) = (v + Rsum (map tetrahedron ts), vadd m (vsum (map tetrahedron_moment ts)))).
  { unfold Rsum, vsum. induction ts as [|[[a b] c] ts IH]; intros v m; cbn [fold_left map fold_right].
    - f_equal; [ring|vring].
    - unfold F at 2. rewrite IH, tetra_volume_eq. f_equal; [ring|].
      set (k := fold_right vadd v0 (map tetrahedron_moment ts)). clearbody k. unfold tetrahedron_moment, tetrahedron. clear. vfield. }
  rewrite H. f_equal; [ring|]. apply vadd_0_l.
Qed.
(** Planar polygons with a non-null vector area: if their cone has no volume, it has no moment either. *)
Definition proper (l : list vec3) : Prop :=
  exists n d, dot n n = 1 /\ (forall p, In p l -> dot n p = d) /\ Rsum (map (fun t => dot n (vector_area t)) (triangles l)) <> 0.
Lemma proper_moment : forall l, proper l -> Rsum (map tetrahedron (triangles l)) = 0 -> vsum (map tetrahedron_moment (triangles l)) = v0.
Proof.
  intros l (n & d & Hn & D & A) Z.
  assert (T : forall t, In t (triangles l) -> tetrahedron t = d / 6 * dot n (vector_area t)).
  { intros [[a b] c] I. apply triangles_In in I. destruct I as (Ia & Ib & Ic). unfold tetrahedron, vector_area. rewrite det3_triangle.
    assert (Hb : dot n (vsub b a) = 0) by (replace (dot n (vsub b a)) with (dot n b - dot n a) by (clear; vring); rewrite !D by assumption; ring).
    assert (Hc : dot n (vsub c a) = 0) by (replace (dot n (vsub c a)) with (dot n c - dot n a) by (clear; vring); rewrite !D by assumption; ring).
    pose proof (normal_parallel _ _ _ Hn Hb Hc) as E. apply (f_equal (dot a)) in E. rewrite dot_scale_r, (dot_comm a n), (D a Ia) in E. rewrite E. field. }
  rewrite (Rsum_map_ext _ _ _ T), Rsum_scale in Z. assert (d = 0) as ->. { apply Rmult_integral in Z. destruct Z as [Z|Z]; [lra|contradiction]. }
  rewrite (vsum_map_ext _ (fun _ => vscale 0 v0)); [rewrite vsum_scale; vring|].
  intros [[a b] c] I. specialize (T _ I). unfold tetrahedron in T. unfold tetrahedron_moment. rewrite T. generalize (dot n (vector_area (a, b, c))). clear. intros. vfield.
Qed.
Lemma facet_com_eq : forall l, proper l ->
  snd (facet_center_of_mass l) = Rsum (map tetrahedron (triangles l)) /\
  vscale (snd (facet_center_of_mass l)) (fst (facet_center_of_mass l)) = vsum (map tetrahedron_moment (triangles l)).
Proof.
  intros l P. unfold facet_center_of_mass. rewrite facet_com_sums_eq. unfold Reqb.
  destruct (Req_EM_T (Rsum (map tetrahedron (triangles l))) 0) as [Z|Z]; cbn [fst snd].
  - split; [auto|]. rewrite (proper_moment _ P Z). vring.
  - split; [reflexivity|]. revert Z. generalize (Rsum (map tetrahedron (triangles l))), (vsum (map tetrahedron_moment (triangles l))). clear.
    intros x v Z. vfield; exact Z.
Qed.
Lemma com_sum : forall m, List.Forall proper m ->
  fold_left com_add (map facet_center_of_mass m) (v0, 0) = (volume_moment m, enclosed_volume m).
Proof.
  intros m P. unfold volume_moment, enclosed_volume.
  assert (H : forall a, fold_left com_add (map facet_center_of_mass m) a =
    (vadd (fst a) (vsum (map tetrahedron_moment (concat (map triangles m)))), snd a + Rsum (map tetrahedron (concat (map triangles m))))).
  { induction P as [|l m Hl _ IH]; intros [G V]; cbn [map concat fold_left fst snd].
    - cbn. f_equal; [symmetry; apply vadd_0_r|ring].
    - rewrite IH. unfold com_add; cbn [fst snd]. destruct (facet_com_eq _ Hl) as (E1 & E2). rewrite E2, E1, !map_app, vsum_app, Rsum_app. f_equal; [|ring].
      symmetry. apply vadd_assoc. }
  rewrite H; cbn [fst snd]. f_equal; [apply vadd_0_l|ring].
Qed.
Lemma well_shaped_proper : forall n l tol, 0 < tol -> well_shaped tol n l -> proper l.
Proof.
  intros n l tol Ht W. pose proof (well_shaped_area _ _ _ Ht W) as A. destruct W as (C & _). destruct (convex_plane _ _ C) as (d & D).
  exists n, d. split; [eapply convex_unit, C|]. split; [exact D|]. rewrite area_sum in A.
  rewrite (Rsum_map_ext _ (fun t => / 2 * dot n (vector_area t))) in A.
  - rewrite Rsum_scale in A. lra.
  - intros [[a b] c] I. rewrite (convex_area3 _ _ _ _ _ C I). reflexivity.
Qed.
(** Two facets whose normals differ by more than about 1.4e-3 rad: otherwise the code considers that the hull is flat and that it displaces nothing. *)
Definition not_flat (hull : list (list vec3)) : Prop :=
  exists l0 hull' l n0 n, hull = l0 :: hull' /\ In l hull' /\ well_shaped (1000 * epsilon) n0 l0 /\ well_shaped (1000 * epsilon) n l /\ dot n0 n <= 1 - / 1000000.
Lemma not_flat_flag : forall hull fs, built hull fs -> not_flat hull -> same_plane fs = false.
Proof.
  intros hull fs B (l0 & hull' & l & n0 & n & -> & I & W0 & W & D). inversion B as [|? f0 ? fs' Hb0 Hb]; subst.
  unfold same_plane. destruct (build_well_shaped _ _ _ W0 Hb0) as (_ & N0 & _). rewrite N0. apply Bool.not_true_iff_false. intros Hall.
  rewrite forallb_forall in Hall. unfold built in *.
  assert (X : exists f, In f fs' /\ build_facet l = Ok f).
  { clear - Hb I. induction Hb as [|x f hull' fs' Hx _ IH]; [destruct I|]. destruct I as [->|I]; [exists f; cbn; auto|]. destruct (IH I) as (f' & I' & E). exists f'. cbn; auto. }
  destruct X as (f & If & Ef). specialize (Hall f (or_intror If)). destruct (build_well_shaped _ _ _ W Ef) as (_ & N & _). rewrite N, Rltb_f in Hall by lra. discriminate.
Qed.
Theorem hydrostatic_is_pressure_integral : forall rho g T Tbn G hull lids fs, usable hull -> built hull fs -> not_flat hull ->
  rotation (t_rot T) -> t_rot Tbn = transpose (t_rot T) ->
  (forall lid p, In lid lids -> In p lid -> depth T p = 0) -> (forall lid, In lid lids -> vsum (map vector_area (triangles lid)) <> v0) ->
  closed (hull ++ lids) -> 0 < enclosed_volume (hull ++ lids) ->
  hydrostatic rho g Tbn G (center_of_mass fs lids) =
  (vsum (map (pressure_force (fun x => rho * g * depth T x)) (concat (map triangles hull))),
   vsum (map (pressure_torque (fun x => rho * g * depth T x) G) (concat (map triangles hull)))).
Proof.
  intros rho g T Tbn G hull lids fs U B NF Rot ETbn L LA C V.
  set (k := rho * g). set (z := vz (t_point T)). set (r := r3 (t_rot T)).
  assert (Hr : dot r r = 1) by (destruct Rot as (_ & _ & H & _); exact H).
  assert (Lp : List.Forall (on_plane z r) lids). { apply List.Forall_forall. intros l Hl p Hp. unfold z, r. rewrite <- depth_affine. eapply L; eassumption. }
  pose proof (closed_force k z r _ C) as F. rewrite map_app, concat_app, map_app, vsum_app in F.
  rewrite (lids_zero _ _ lids (fun l H => lid_force k z r l H) Lp), vadd_0_r in F.
  pose proof (closed_torque k z r G _ C) as Q. rewrite map_app, concat_app, map_app, vsum_app in Q.
  rewrite (lids_zero _ _ lids (fun l H => lid_torque k z r G l H) Lp), vadd_0_r in Q.
  assert (Pr : List.Forall proper (hull ++ lids)).
  { apply List.Forall_forall. intros l Hl. apply in_app_or in Hl. destruct Hl as [Hl|Hl].
    - destruct (U l Hl) as (n & W). pose proof epsilon_pos. eapply well_shaped_proper; [|exact W]. lra.
    - exists r, (- z). split; [exact Hr|]. pose proof (proj1 (List.Forall_forall _ _) Lp l Hl) as H. split.
      + intros p Hp. specialize (H p Hp). lra.
      + intros Z. apply (LA l Hl). assert (E : forall t, In t (triangles l) -> vector_area t = vscale (dot r (vector_area t)) r).
        { intros [[a b] c] I. apply triangles_In in I. destruct I as (Ia & Ib & Ic). unfold vector_area. pose proof (H a Ia). pose proof (H b Ib). pose proof (H c Ic).
          apply normal_parallel; [exact Hr| |].
          - replace (dot r (vsub b a)) with ((z + dot r b) - (z + dot r a)) by (clear; vring). lra.
          - replace (dot r (vsub c a)) with ((z + dot r c) - (z + dot r a)) by (clear; vring). lra. }
        rewrite (vsum_map_ext _ _ _ E). apply vec_dot_eq. intros s. rewrite dot_vsum, map_map.
        rewrite (Rsum_map_ext _ (fun t => dot s r * dot r (vector_area t))) by (intros; rewrite dot_scale_r; ring). rewrite Rsum_scale, Z. clear. vring. }
  change (hydrostatic rho g Tbn G (center_of_mass fs lids) =
    (vsum (map (pressure_force (affine_pressure k z r)) (concat (map triangles hull))), vsum (map (pressure_torque (affine_pressure k z r) G) (concat (map triangles hull))))).
  rewrite F, Q. unfold center_of_mass. pose proof NF as (l0 & hull' & _ & _ & _ & Eh & _).
  destruct fs as [|f fs]; [inversion B; subst; discriminate|]. rewrite (not_flat_flag _ _ B NF).
  replace (map f_points (f :: fs)) with hull.
  2: { clear - B U. unfold built in B. revert U. generalize dependent (f :: fs). clear. intros fs B U. induction B as [|l f hull fs Hb _ IH]; cbn [map]; [reflexivity|].
       destruct (U l (or_introl eq_refl)) as (n & W). destruct (build_well_shaped _ _ _ W Hb) as (-> & _). f_equal. apply IH. intros l' I. apply U. right; exact I. }
  rewrite (com_sum _ Pr); cbn [fst snd]. rewrite Reqb_f by lra. unfold hydrostatic. rewrite Rabs_pos_eq by lra. rewrite ETbn.
  unfold k, r. revert V. generalize (enclosed_volume (hull ++ lids)), (volume_moment (hull ++ lids)), (t_rot T). clear. intros V M m P.
  f_equal; [vring|]. vfield; lra.
Qed.
(** The fast and the complete models give the same force. *)
Theorem hydrostatic_models_agree : forall rho g T Tbn G hull lids fs, usable hull -> built hull fs -> not_flat hull ->
  rotation (t_rot T) -> t_rot Tbn = transpose (t_rot T) ->
  (forall lid p, In lid lids -> In p lid -> depth T p = 0) -> (forall lid, In lid lids -> vsum (map vector_area (triangles lid)) <> v0) ->
  closed (hull ++ lids) -> 0 < enclosed_volume (hull ++ lids) ->
  fst (hydrostatic rho g Tbn G (center_of_mass fs lids)) = fst (fast_hydrostatic rho g T 1 G fs).
Proof.
  intros. rewrite (hydrostatic_is_pressure_integral rho g T Tbn G hull lids fs) by assumption. cbn [fst].
  symmetry. apply fast_hydrostatic_force_is_pressure_integral; assumption.
Qed.
Print Assumptions hydrostatic_is_pressure_integral.
