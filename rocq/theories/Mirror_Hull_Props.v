(** C189: hulls have no favourite side. The pressure efforts on a hull seen in a mirror are the mirrored efforts, and a symmetrical hull which sails upright gets no side force, no
    heeling moment and no turning moment from the hydrostatic pressure. The model is Hull_Model.v (mesh_manipulations.cpp, SurfaceForceModel.cpp, FastHydrostaticForceModel.cpp,
    HydrostaticForceModel.cpp, MeshIntersector.cpp). *)
From Coq Require Import ZArith Reals Lra Lia Psatz List Permutation.
From Verif Require Import Common Sim_Model Sim_Spec Drift_Model Force_Model Force_Spec Hull_Model Calm_Model Mirror_Props Geometry.
Import ListNotations.
Open Scope R_scope.

(** ** Specification *)
(** A polygon seen in the mirror: its vertices, which now turn the other way, are taken in the reverse order so that the normal still points to the same face. *)
Definition seen_polygon (l : list vec3) : list vec3 := rev (map mirror_force l).
(** A built facet seen in the mirror *)
Definition seen_facet (f : facet) : facet := mkFacet (seen_polygon (f_points f)) (mirror_force (f_normal f)) (f_area f) (option_map mirror_force (f_centroid f)).
(** The same triangle, whichever vertex comes first *)
Definition same_triangle (s t : list vec3) : Prop := exists a b c, s = [a; b; c] /\ (t = [a; b; c] \/ t = [b; c; a] \/ t = [c; a; b]).
(** A hull is symmetrical when each of its triangles has its image in the hull, in any order. *)
Definition symmetrical (hull : list (list vec3)) : Prop := exists images, Permutation images (map seen_polygon hull) /\ List.Forall2 same_triangle hull images.

(** ** Proofs *)
Lemma mirror_mirror v : mirror_force (mirror_force v) = v.
Proof. destruct v as [a b c]. unfold mirror_force. cbn [vx vy vz]. rewrite Ropp_involutive. reflexivity. Qed.
Lemma norm_mirror v : norm (mirror_force v) = norm v.
Proof. unfold norm, dot, mirror_force. cbn [vx vy vz]. f_equal. ring. Qed.
Lemma cross_rotated a b c : cross (vsub c b) (vsub a b) = cross (vsub b a) (vsub c a).
Proof. destruct a as [a1 a2 a3], b as [b1 b2 b3], c as [c1 c2 c3]. unfold cross, vsub. apply vec_eq; cbn [vx vy vz]; ring. Qed.
Lemma cross_seen a b c : cross (vsub (mirror_force b) (mirror_force c)) (vsub (mirror_force a) (mirror_force c)) = mirror_force (cross (vsub b a) (vsub c a)).
Proof. destruct a as [a1 a2 a3], b as [b1 b2 b3], c as [c1 c2 c3]. unfold cross, vsub, mirror_force. apply vec_eq; cbn [vx vy vz]; ring. Qed.
Lemma area3_cross a b c : area3 a b c = 5 / 10 * norm (cross (vsub b a) (vsub c a)).
Proof. unfold area3, norm, cross, vsub, dot. cbn [vx vy vz]. reflexivity. Qed.
Lemma area3_rotated a b c : area3 b c a = area3 a b c. Proof. rewrite !area3_cross, cross_rotated. reflexivity. Qed.
Lemma area3_seen a b c : area3 (mirror_force c) (mirror_force b) (mirror_force a) = area3 a b c.
Proof. rewrite !area3_cross, cross_seen, norm_mirror. reflexivity. Qed.
Lemma unit_normal_triangle a b c : unit_normal [a; b; c] = let v := cross (vsub b a) (vsub c a) in let n := norm v in if Rltb n (1000 * epsilon) then Ok v0 else Ok (V3 (vx v / n) (vy v / n) (vz v / n)).
Proof. reflexivity. Qed.
Lemma area_triangle a b c : area [a; b; c] = 0 + area3 a b c. Proof. reflexivity. Qed.
Lemma centroid_triangle a b c : centre_of_gravity [a; b; c] = if Rltb 0 (0 + area3 a b c) then Some (vscale (/ (0 + area3 a b c)) (vadd v0 (vscale (area3 a b c / 3) (vadd (vadd a b) c)))) else None.
Proof. reflexivity. Qed.
(** What the force models read of a facet *)
Definition alike (f f' : facet) : Prop := f_normal f' = f_normal f /\ f_area f' = f_area f /\ f_centroid f' = f_centroid f.
Lemma unit_rotated a b c : unit_normal [b; c; a] = unit_normal [a; b; c].
Proof. rewrite !unit_normal_triangle, (cross_rotated a b c). reflexivity. Qed.
Lemma centroid_rotated a b c : centre_of_gravity [b; c; a] = centre_of_gravity [a; b; c].
Proof.
  rewrite !centroid_triangle, area3_rotated. generalize (area3 a b c). intros S0. assert (vadd (vadd b c) a = vadd (vadd a b) c) as ->; [|reflexivity].
  destruct a as [a1 a2 a3], b as [b1 b2 b3], c as [c1 c2 c3]. unfold vadd. apply vec_eq; cbn [vx vy vz]; ring.
Qed.
Lemma build_rotated a b c f : build_facet [a; b; c] = Ok f -> exists f', build_facet [b; c; a] = Ok f' /\ alike f f'.
Proof.
  intros H. unfold build_facet in *. rewrite unit_rotated. destruct (unit_normal [a; b; c]) as [n| |] eqn:E; cbn [bindO] in *; try discriminate. injection H as <-.
  eexists. split; [reflexivity|]. unfold alike. cbn [f_normal f_area f_centroid]. rewrite centroid_rotated, !area_triangle, area3_rotated. repeat split.
Qed.
Lemma unit_seen a b c n : unit_normal [a; b; c] = Ok n -> unit_normal [mirror_force c; mirror_force b; mirror_force a] = Ok (mirror_force n).
Proof.
  rewrite !unit_normal_triangle. cbv zeta. rewrite (cross_seen a b c), norm_mirror. generalize (cross (vsub b a) (vsub c a)). intros w. generalize (norm w). intros m. generalize (Rltb m (1000 * epsilon)).
  intros [|] H; apply (f_equal (fun o : outcome vec3 => match o with Ok v => v | _ => v0 end)) in H; subst n; apply f_equal; unfold mirror_force, v0; cbn [vx vy vz]; apply vec_eq; cbn [vx vy vz]; unfold Rdiv; ring.
Qed.
Lemma centroid_seen a b c : centre_of_gravity [mirror_force c; mirror_force b; mirror_force a] = option_map mirror_force (centre_of_gravity [a; b; c]).
Proof.
  rewrite !centroid_triangle, area3_seen. generalize (area3 a b c). intros S0. destruct (Rltb 0 (0 + S0)); cbn [option_map]; [|reflexivity]. apply f_equal.
  destruct a as [a1 a2 a3], b as [b1 b2 b3], c as [c1 c2 c3]. unfold mirror_force, vscale, vadd, v0. cbn [vx vy vz]. apply vec_eq; cbn [vx vy vz]; unfold Rdiv; ring.
Qed.
Lemma build_seen a b c f : build_facet [a; b; c] = Ok f -> build_facet (seen_polygon [a; b; c]) = Ok (seen_facet f).
Proof.
  intros H. change (seen_polygon [a; b; c]) with [mirror_force c; mirror_force b; mirror_force a]. unfold build_facet in *.
  destruct (unit_normal [a; b; c]) as [n| |] eqn:E; cbn [bindO] in H; try discriminate. rewrite (unit_seen a b c n E). cbn [bindO]. injection H as <-. unfold seen_facet. cbn [f_points f_normal f_area f_centroid].
  rewrite centroid_seen, !area_triangle, area3_seen. reflexivity.
Qed.
Theorem facets_in_the_mirror : forall a b c f, build_facet [a; b; c] = Ok f -> build_facet (seen_polygon [a; b; c]) = Ok (seen_facet f).
Proof. exact build_seen. Qed.
Print Assumptions facets_in_the_mirror.
(** *** Elementary forces: any pressures *)
Definition push (o : R) (G : vec3) (F : torsor) (fc : vec3 * vec3) : torsor := let '(f, C) := fc in
    let x := vx C - vx G in let y := vy C - vy G in let z := vz C - vz G in
    (V3 (vx (fst F) + o * vx f) (vy (fst F) + o * vy f) (vz (fst F) + o * vz f),
     V3 (vx (snd F) + o * (y * vz f - z * vy f)) (vy (snd F) + o * (z * vx f - x * vz f)) (vz (snd F) + o * (x * vy f - y * vx f))).
Definition elementary (o : R) (G : vec3) (fc : vec3 * vec3) : torsor := (vscale o (fst fc), vscale o (cross (vsub (snd fc) G) (fst fc))).
Definition plus (a b : torsor) : torsor := (vadd (fst a) (fst b), vadd (snd a) (snd b)).
Lemma surface_push o G l : surface_force o G l = fold_left (push o G) l (v0, v0).
Proof. reflexivity. Qed.
Lemma push_plus o G F fc : push o G F fc = plus F (elementary o G fc).
Proof. destruct fc as [f C]. unfold push, plus, elementary, vadd, vscale, cross, vsub. cbn [fst snd vx vy vz]. reflexivity. Qed.
Lemma plus_assoc a b c : plus a (plus b c) = plus (plus a b) c.
Proof. unfold plus, vadd. cbn [fst snd vx vy vz]. apply f_equal2; apply vec_eq; cbn [vx vy vz]; ring. Qed.
Lemma plus_comm a b : plus a b = plus b a.
Proof. unfold plus, vadd. cbn [fst snd vx vy vz]. apply f_equal2; apply vec_eq; cbn [vx vy vz]; ring. Qed.
Lemma fold_push o G : forall l F, fold_left (push o G) l F = plus F (fold_left (push o G) l (v0, v0)).
Proof.
  assert (Z : forall F, plus F (v0, v0) = F). { intros [[a b c] [d e h]]. unfold plus, vadd, v0. cbn [fst snd vx vy vz]. apply f_equal2; apply vec_eq; cbn [vx vy vz]; ring. }
  induction l as [|fc l IH]; intros F; cbn [fold_left]; [symmetry; apply Z|].
  rewrite (IH (push o G F fc)), (IH (push o G (v0, v0) fc)), !push_plus, (plus_comm (v0, v0)), Z, plus_assoc. reflexivity.
Qed.
Lemma surface_cons o G fc l : surface_force o G (fc :: l) = plus (elementary o G fc) (surface_force o G l).
Proof.
  rewrite !surface_push. cbn [fold_left]. rewrite fold_push, push_plus. f_equal. unfold plus, vadd, v0. cbn [fst snd vx vy vz]. unfold elementary, vscale. cbn [fst snd vx vy vz]. apply f_equal2; apply vec_eq; cbn [vx vy vz]; ring.
Qed.
Theorem pressures_in_the_mirror : forall o G dF,
  surface_force o (mirror_force G) (map (fun fc => (mirror_force (fst fc), mirror_force (snd fc))) dF) = seen_torsor (surface_force o G dF).
Proof.
  intros o G. induction dF as [|fc l IH]; cbn [map].
  - rewrite !surface_push. cbn [fold_left]. unfold seen_torsor, mirror_force, mirror_torque, v0. cbn [fst snd vx vy vz]. apply f_equal2; apply vec_eq; cbn [vx vy vz]; ring.
  - rewrite !surface_cons, IH. generalize (surface_force o G l). intros F. unfold seen_torsor, plus, elementary, mirror_force, mirror_torque, vscale, vadd, cross, vsub. cbn [fst snd vx vy vz]. apply f_equal2; apply vec_eq; cbn [vx vy vz]; ring.
Qed.
Print Assumptions pressures_in_the_mirror.
Lemma surface_permuted o G l l' : Permutation l l' -> surface_force o G l = surface_force o G l'.
Proof.
  induction 1 as [| fc l l' _ IH | fc fc' l | l1 l2 l3 _ IH1 _ IH2]; [reflexivity|rewrite !surface_cons, IH; reflexivity| |congruence].
  rewrite !surface_cons, !plus_assoc. rewrite (plus_comm (elementary o G fc')). reflexivity.
Qed.
(** *** Hydrostatic efforts *)
Lemma height_seen T p : zG_in_NED (seen_transform T) (mirror_force p) = zG_in_NED T p.
Proof. destruct T as [[[a b c] [d e f] [g h i]] [p1 q1 r1']], p as [u1 u2 u3]. unfold zG_in_NED, seen_transform, seen_matrix, mirror_force, vopp. cbn [t_rot t_point r1 r2 r3 vx vy vz]. ring. Qed.
Lemma dF_seen rho g T f : hydrostatic_dF (fun _ c _ => c) rho g (seen_transform T) (seen_facet f) =
  (fun fc => (mirror_force (fst fc), mirror_force (snd fc))) (hydrostatic_dF (fun _ c _ => c) rho g T f).
Proof.
  assert (Z : mirror_force v0 = v0) by (unfold mirror_force, v0; cbn [vx vy vz]; rewrite Ropp_0; reflexivity).
  unfold hydrostatic_dF, seen_facet. cbn [f_area f_normal f_centroid]. destruct (Reqb (f_area f) 0); [cbn [fst snd]; rewrite Z; reflexivity|]. destruct (f_centroid f) as [c|]; cbn [option_map fst snd]; [|rewrite Z; reflexivity].
  cbv zeta. rewrite height_seen. cbn [fst snd]. f_equal. unfold mirror_force, vscale. cbn [vx vy vz]. apply vec_eq; cbn [vx vy vz]; ring.
Qed.
Lemma dF_alike rho g T f f' : alike f f' -> hydrostatic_dF (fun _ c _ => c) rho g T f' = hydrostatic_dF (fun _ c _ => c) rho g T f.
Proof. intros (N & A & C). unfold hydrostatic_dF. rewrite N, A, C. reflexivity. Qed.
(** Fast hydrostatic model, any immersed facets, any position *)
Theorem hydrostatics_in_the_mirror : forall rho g T o G fs,
  fast_hydrostatic rho g (seen_transform T) o (mirror_force G) (map seen_facet fs) = seen_torsor (fast_hydrostatic rho g T o G fs).
Proof.
  intros rho g T o G fs. unfold fast_hydrostatic. rewrite <- pressures_in_the_mirror, !map_map. f_equal. apply map_ext. intros f. apply dF_seen.
Qed.
Print Assumptions hydrostatics_in_the_mirror.
(** Hydrostatic model based on the volume and the centre of buoyancy *)
Theorem buoyancy_in_the_mirror : forall rho g Tbn G B V flat,
  hydrostatic rho g (seen_transform Tbn) (mirror_force G) (mirror_force B, V, flat) = seen_torsor (hydrostatic rho g Tbn G (B, V, flat)).
Proof.
  intros rho g [[[a b c] [d e f] [g' h i]] p] [x y z] [k l m] V flat. unfold hydrostatic, seen_torsor, seen_transform, seen_matrix, mirror_force, mirror_torque, mapply, vopp, vsub, cross, dot.
  destruct flat; cbn [t_rot t_point fst snd r1 r2 r3 vx vy vz]; f_equal; apply vec_eq; cbn [vx vy vz]; ring.
Qed.
Print Assumptions buoyancy_in_the_mirror.
(** Volume and centre of buoyancy of a closed set of triangles *)
Definition triangle (l : list vec3) : Prop := exists a b c, l = [a; b; c].
Lemma tetra_seen a b c : tetra_volume (mirror_force c) (mirror_force b) (mirror_force a) = tetra_volume a b c.
Proof. unfold tetra_volume, mirror_force. cbn [vx vy vz]. field. Qed.
Lemma facet_com_seen l : triangle l -> facet_center_of_mass (seen_polygon l) = (fun gv => (mirror_force (fst gv), snd gv)) (facet_center_of_mass l).
Proof.
  intros (a & b & c & ->). unfold facet_center_of_mass, facet_com_sums, seen_polygon. cbn [map rev app fan fan_from fold_left]. rewrite tetra_seen.
  set (v := tetra_volume a b c). unfold Reqb. destruct (Req_EM_T (0 + v) 0) as [E|E]; cbn [fst snd].
  - f_equal. unfold mirror_force, v0. cbn [vx vy vz]. rewrite Ropp_0. reflexivity.
  - f_equal. destruct a as [a1 a2 a3], b as [b1 b2 b3], c as [c1 c2 c3]. unfold mirror_force, vscale, vadd, v0. apply vec_eq; cbn [vx vy vz]; ring.
Qed.
Theorem volumes_in_the_mirror : forall fs lids, List.Forall (fun f => triangle (f_points f)) fs -> List.Forall triangle lids ->
  center_of_mass (map seen_facet fs) (map seen_polygon lids) = let '(B, V, flat) := center_of_mass fs lids in (mirror_force B, V, flat).
Proof.
  intros fs lids Hf Hl. unfold center_of_mass. destruct fs as [|f0 fs]; [cbn [map]; f_equal; f_equal; unfold mirror_force, v0; cbn [vx vy vz]; rewrite Ropp_0; reflexivity|].
  cbn [map]. set (L := f0 :: fs) in *. change (seen_facet f0 :: map seen_facet fs) with (map seen_facet L). change (f_points (seen_facet f0) :: map f_points (map seen_facet fs)) with (map f_points (map seen_facet L)). change (f_points f0 :: map f_points fs) with (map f_points L).
  assert (E : map facet_center_of_mass (map f_points (map seen_facet L) ++ map seen_polygon lids) = map (fun gv => (mirror_force (fst gv), snd gv)) (map facet_center_of_mass (map f_points L ++ lids))).
  { rewrite !map_app, !map_map. f_equal.
    - apply map_ext_in. intros f If. rewrite List.Forall_forall in Hf. cbn [seen_facet f_points]. exact (facet_com_seen _ (Hf f If)).
    - apply map_ext_in. intros l Il. rewrite List.Forall_forall in Hl. exact (facet_com_seen _ (Hl l Il)). }
  rewrite E. generalize (map facet_center_of_mass (map f_points L ++ lids)). intros l.
  assert (F : forall l gv, fold_left com_add (map (fun gv => (mirror_force (fst gv), snd gv)) l) (mirror_force (fst gv), snd gv) = (fun gv => (mirror_force (fst gv), snd gv)) (fold_left com_add l gv)).
  { induction l0 as [|[h w] l0 IH]; intros [q u]; [reflexivity|]. cbn [map fold_left]. rewrite <- IH. f_equal. unfold com_add, mirror_force, vadd, vscale. cbn [fst snd vx vy vz]. f_equal. apply vec_eq; cbn [vx vy vz]; ring. }
  assert (Z : (v0, 0) = (mirror_force (fst (v0, 0)), snd (v0, 0))) by (cbn [fst snd]; unfold mirror_force, v0; cbn [vx vy vz]; rewrite Ropp_0; reflexivity).
  assert (F0 : fold_left com_add (map (fun gv => (mirror_force (fst gv), snd gv)) l) (v0, 0) = (fun gv => (mirror_force (fst gv), snd gv)) (fold_left com_add l (v0, 0))) by (rewrite <- F, <- Z; reflexivity).
  rewrite F0. cbv beta zeta. cbn [fst snd]. generalize (fold_left com_add l (v0, 0)). intros [q u]. cbn [fst snd]. f_equal; [f_equal|].
  - unfold Reqb. destruct (Req_EM_T _ 0); [reflexivity|]. unfold mirror_force, vscale. cbn [vx vy vz]. apply vec_eq; cbn [vx vy vz]; ring.
  - unfold same_plane, L. cbn [map forallb].
    assert (D : forall u v, dot (mirror_force u) (mirror_force v) = dot u v) by (intros; unfold dot, mirror_force; cbn [vx vy vz]; ring).
    cbn [seen_facet f_normal]. rewrite D. f_equal. clear -D. induction fs as [|f fs IH]; [reflexivity|]. cbn [map forallb seen_facet f_normal]. rewrite D, IH. reflexivity.
Qed.
Print Assumptions volumes_in_the_mirror.
(** *** Symmetrical hulls *)
Definition upright_axes (T : transform) : Prop := seen_transform T = T.
Lemma upright_placement n_bodies x i : List.length x = (13 * n_bodies)%nat -> (i < n_bodies)%nat -> no_side n_bodies x -> upright_axes (placement x i).
Proof.
  intros L Hi H. destruct (H i Hi) as (A & B & C & D & F & G). unfold upright_axes, placement, seen_transform, seen_matrix, get_rot_from_ned_to, mirror_force, vopp, qmat. cbn [t_rot t_point r1 r2 r3 vx vy vz].
  rewrite A, F, G. f_equal; [f_equal|]; apply vec_eq; cbn [vx vy vz]; ring.
Qed.
Lemma built_list : forall hull fs, Mesh_Model.mapO_list build_facet hull = Ok fs -> List.Forall2 (fun l f => build_facet l = Ok f) hull fs.
Proof.
  induction hull as [|l hull IH]; intros fs H; cbn [Mesh_Model.mapO_list] in H; [injection H as <-; constructor|].
  destruct (build_facet l) as [f| |] eqn:E; cbn [bindO] in H; try discriminate. destruct (Mesh_Model.mapO_list build_facet hull) as [fs'| |] eqn:E'; cbn [bindO] in H; try discriminate. injection H as <-. constructor; [exact E|]. apply IH. reflexivity.
Qed.
Lemma own_image_pushes_alike rho g T : forall hull fs images, List.Forall2 (fun l f => build_facet l = Ok f) hull fs -> List.Forall2 same_triangle hull images ->
  exists fs', List.Forall2 (fun l f => build_facet l = Ok f) images fs' /\ map (hydrostatic_dF (fun _ c _ => c) rho g T) fs' = map (hydrostatic_dF (fun _ c _ => c) rho g T) fs.
Proof.
  intros hull fs images H. revert images. induction H as [|l f hull fs E _ IH]; intros images I; inversion I as [|l' im hull' images' (a & b & c & -> & S) I']; subst; [exists []; split; [constructor|reflexivity]|].
  destruct (IH _ I') as (fs' & B & M). assert (exists f', build_facet im = Ok f' /\ alike f f') as (f' & Bf & Al).
  { destruct S as [-> | [-> | ->]].
    - exists f. split; [exact E|]. repeat split.
    - exact (build_rotated _ _ _ _ E).
    - destruct (build_rotated _ _ _ _ E) as (f1 & E1 & N1 & A1 & C1). destruct (build_rotated _ _ _ _ E1) as (f2 & E2 & N2 & A2 & C2). exists f2. split; [exact E2|]. split; [congruence|]. split; congruence. }
  exists (f' :: fs'). split; [constructor; assumption|]. cbn [map]. rewrite M, (dF_alike rho g T f f' Al). reflexivity.
Qed.
Lemma seen_hull : forall hull fs, List.Forall triangle hull -> List.Forall2 (fun l f => build_facet l = Ok f) hull fs -> List.Forall2 (fun l f => build_facet l = Ok f) (map seen_polygon hull) (map seen_facet fs).
Proof. intros hull fs T H. induction H as [|l f hull fs E _ IH]; [constructor|]. inversion T as [|l' hull' (a & b & c & ->) T']; subst. cbn [map]. constructor; [exact (build_seen _ _ _ _ E)|exact (IH T')]. Qed.
Lemma built_permuted : forall l l' fs, Permutation l l' -> List.Forall2 (fun l f => build_facet l = Ok f) l fs -> exists fs', Permutation fs fs' /\ List.Forall2 (fun l f => build_facet l = Ok f) l' fs'.
Proof.
  intros l l' fs P H. apply Permutation_Forall2 with (1 := P) in H. destruct H as (fs' & P' & H'). exists fs'. split; [exact P'|exact H'].
Qed.
Lemma built_once : forall l fs fs', List.Forall2 (fun l f => build_facet l = Ok f) l fs -> List.Forall2 (fun l f => build_facet l = Ok f) l fs' -> fs = fs'.
Proof. intros l fs fs' H. revert fs'. induction H as [|l f hull fs E _ IH]; intros fs' I; inversion I; subst; [reflexivity|]. f_equal; [congruence|auto]. Qed.
(** The efforts of the water on the triangles of a symmetrical hull: they act in the plane of symmetry. *)
Theorem symmetrical_hulls_are_not_pushed_sideways : forall rho g n_bodies x i o G hull fs,
  List.length x = (13 * n_bodies)%nat -> (i < n_bodies)%nat -> no_side n_bodies x -> vy G = 0 -> symmetrical hull -> Mesh_Model.mapO_list build_facet hull = Ok fs ->
  let F := fast_hydrostatic rho g (placement x i) o G fs in vy (fst F) = 0 /\ vx (snd F) = 0 /\ vz (snd F) = 0.
Proof.
  intros rho g n_bodies x i o G hull fs L Hi N Gy (images & P & S) B F. apply built_list in B. pose proof (upright_placement n_bodies x i L Hi N) as U. unfold upright_axes in U.
  assert (T : List.Forall triangle hull). { clear -S. induction S as [|l im hull images (a & b & c & -> & _) _ IH]; constructor; [exists a, b, c; reflexivity|exact IH]. }
  assert (G' : mirror_force G = G) by (destruct G as [gx gy gz]; cbn [vy] in Gy; subst gy; unfold mirror_force; cbn [vx vy vz]; rewrite Ropp_0; reflexivity).
  destruct (own_image_pushes_alike rho g (placement x i) hull fs images B S) as (fs1 & B1 & M1).
  destruct (built_permuted _ _ _ P B1) as (fs2 & P2 & B2). pose proof (built_once _ _ _ B2 (seen_hull hull fs T B)) as ->.
  pose proof (hydrostatics_in_the_mirror rho g (placement x i) o G fs) as H. rewrite U, G' in H.
  assert (Q : fast_hydrostatic rho g (placement x i) o G (map seen_facet fs) = F).
  { unfold F, fast_hydrostatic. rewrite <- M1. apply surface_permuted. apply Permutation_map. apply Permutation_sym. exact P2. }
  rewrite Q in H. change (F = seen_torsor F) in H. clear -H. revert H. generalize F. clear F. intros [[a b c] [d e f]] H.
  pose proof (f_equal (fun t : torsor => vy (fst t)) H) as H1. pose proof (f_equal (fun t : torsor => vx (snd t)) H) as H2. pose proof (f_equal (fun t : torsor => vz (snd t)) H) as H3. clear H.
  unfold seen_torsor, mirror_force, mirror_torque in H1, H2, H3. cbn [fst snd vx vy vz] in *. split; [|split]; lra.
Qed.
Print Assumptions symmetrical_hulls_are_not_pushed_sideways.

(** ** The hypotheses are met, and the conclusion says something *)
(** Two plates, one on each side *)
Definition plate : list vec3 := [V3 0 1 0; V3 1 1 0; V3 0 1 1].
Definition other_plate : list vec3 := [V3 1 (-1) 0; V3 0 (-1) 0; V3 0 (-1) 1].
Lemma build_triangle a b c : exists f, build_facet [a; b; c] = Ok f.
Proof.
  unfold build_facet. rewrite unit_normal_triangle. cbv zeta. generalize (norm (cross (vsub b a) (vsub c a))). intros m. generalize (Rltb m (1000 * epsilon)). intros [|]; cbn [bindO]; eexists; reflexivity.
Qed.
Example two_plates_are_symmetrical : symmetrical [plate; other_plate].
Proof.
  exists [[V3 0 1 1; V3 0 1 0; V3 1 1 0]; [V3 0 (-1) 1; V3 1 (-1) 0; V3 0 (-1) 0]]. split.
  - unfold seen_polygon, plate, other_plate, mirror_force. cbn [map rev app vx vy vz]. replace (- -1) with 1 by ring. replace (Ropp 1) with (-1) by ring. apply perm_swap.
  - constructor; [|constructor; [|constructor]].
    + exists (V3 0 1 0), (V3 1 1 0), (V3 0 1 1). split; [reflexivity|]. right. right. reflexivity.
    + exists (V3 1 (-1) 0), (V3 0 (-1) 0), (V3 0 (-1) 1). split; [reflexivity|]. right. right. reflexivity.
Qed.
Example two_plates_are_built : exists fs, Mesh_Model.mapO_list build_facet [plate; other_plate] = Ok fs.
Proof.
  destruct (build_triangle (V3 0 1 0) (V3 1 1 0) (V3 0 1 1)) as (f & E). destruct (build_triangle (V3 1 (-1) 0) (V3 0 (-1) 0) (V3 0 (-1) 1)) as (f' & E').
  exists [f; f']. unfold plate, other_plate. cbn [Mesh_Model.mapO_list]. rewrite E. cbn [bindO]. rewrite E'. reflexivity.
Qed.
(** One of the plates alone is pushed sideways: the symmetry is needed. *)
Example one_plate_is_pushed : vy (fst (fast_hydrostatic 1000 10 (mkT id3 v0) 1 v0 [mkFacet plate (V3 0 (-1) 0) (1 / 2) (Some (V3 (1 / 3) 1 (1 / 3)))])) <> 0.
Proof.
  unfold fast_hydrostatic. cbn [map]. unfold hydrostatic_dF. cbn [f_area f_centroid f_normal]. unfold Reqb. destruct (Req_EM_T (1 / 2) 0) as [E|E]; [lra|]. cbv zeta. rewrite surface_push. cbn [fold_left]. rewrite push_plus.
  unfold plus, elementary, zG_in_NED, id3, vscale, vadd, v0. cbn [fst snd t_rot t_point r1 r2 r3 vx vy vz]. lra.
Qed.
