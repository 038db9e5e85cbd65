(** Archimedes' principle: lemmas. *)
From Coq Require Import Reals Lra List Permutation Lia.
From Coquelicot Require Import Coquelicot.
From Verif Require Import Common Geometry Sim_Model Force_Model Hull_Model Hull_Spec Hull_Proofs.
Import ListNotations.
Open Scope R_scope.

(** Pressure [k (z + r.x)] *)
Definition affine_pressure (k z : R) (r x : vec3) : R := k * (z + dot r x).
Lemma integral_ext : forall f g t, (forall x, f x = g x) -> integral f t = integral g t.
Proof. intros f g [[a b] c] H. unfold integral. apply RInt_ext; intros u _. apply RInt_ext; intros v _. apply H. Qed.
Lemma pressure_force_affine : forall k z r a b c,
  pressure_force (affine_pressure k z r) (a, b, c) = vscale (- (k * (/ 2 * (z + dot r (vadd (vadd a b) c) / 3)))) (cross (vsub b a) (vsub c a)).
Proof.
  intros. unfold pressure_force, vector_area. do 2 f_equal.
  replace (integral (affine_pressure k z r) (a, b, c)) with (integral (fun x => k * z + dot (vscale k r) x) (a, b, c)).
  - rewrite integral_affine. vfield.
  - apply integral_ext. intros. unfold affine_pressure. vring.
Qed.
Definition zmoment (z : R) (r a b c : vec3) : vec3 :=
  vadd (vscale (3 * z + dot r (vadd (vadd a b) c)) (vadd (vadd a b) c)) (vadd (vscale (z + dot r a) a) (vadd (vscale (z + dot r b) b) (vscale (z + dot r c) c))).
Lemma pressure_torque_affine : forall k z r G a b c,
  pressure_torque (affine_pressure k z r) G (a, b, c) =
  vsub (vscale (- (k / 24)) (cross (zmoment z r a b c) (cross (vsub b a) (vsub c a)))) (cross G (pressure_force (affine_pressure k z r) (a, b, c))).
Proof.
  intros. rewrite pressure_force_affine. unfold pressure_torque, vector_area.
  rewrite (integral_ext _ (fun x => (k * z + dot (vscale k r) x) * (- vx G + dot (V3 1 0 0) x))) by (intros; unfold affine_pressure; vring).
  rewrite (integral_ext (fun x => affine_pressure k z r x * (vy x - vy G)) (fun x => (k * z + dot (vscale k r) x) * (- vy G + dot (V3 0 1 0) x)))
    by (intros; unfold affine_pressure; vring).
  rewrite (integral_ext (fun x => affine_pressure k z r x * (vz x - vz G)) (fun x => (k * z + dot (vscale k r) x) * (- vz G + dot (V3 0 0 1) x)))
    by (intros; unfold affine_pressure; vring).
  rewrite !integral_product. unfold zmoment. vfield.
Qed.

(** Edge terms *)
Definition force_edge (z : R) (r s a b : vec3) : R := / 6 * dot r (vadd a b) * dot s (cross a b) + z / 2 * dot s (cross a b).
Lemma force_edge_anti : forall z r s a b, force_edge z r s a b = - force_edge z r s b a.
Proof. intros. unfold force_edge. vfield. Qed.
Definition torque_edge (z : R) (r s a b : vec3) : R :=
  / 24 * dot s (cross (vadd (vscale (3 * z + dot r (vadd a b)) (vadd a b)) (vadd (vscale (z + dot r a) a) (vscale (z + dot r b) b))) (cross a b)).
Lemma torque_edge_anti : forall z r s a b, torque_edge z r s a b = - torque_edge z r s b a.
Proof. intros. unfold torque_edge. vfield. Qed.
Lemma force_decomposition : forall k z r s t,
  dot s (pressure_force (affine_pressure k z r) t) = - k * boundary3 (force_edge z r s) t + - k * dot s r * tetrahedron t.
Proof. intros k z r s [[a b] c]. rewrite pressure_force_affine. unfold boundary3, force_edge, tetrahedron. vfield. Qed.
Lemma torque_decomposition : forall k z r s t,
  dot s (pressure_torque (affine_pressure k z r) v0 t) = - k * boundary3 (torque_edge z r s) t + dot s (cross (tetrahedron_moment t) (vscale (- k) r)).
Proof.
  intros k z r s [[a b] c]. rewrite pressure_torque_affine. unfold boundary3, torque_edge, tetrahedron_moment, zmoment.
  replace (cross v0 (pressure_force (affine_pressure k z r) (a, b, c))) with v0 by (generalize (pressure_force (affine_pressure k z r) (a, b, c)); intros; vring).
  vfield.
Qed.
Lemma closed_force : forall k z r m, closed m ->
  vsum (map (pressure_force (affine_pressure k z r)) (concat (map triangles m))) = vscale (- k * enclosed_volume m) r.
Proof.
  intros k z r m C. apply vec_dot_eq. intros s. rewrite dot_vsum, map_map.
  rewrite (Rsum_map_ext _ (fun t => - k * boundary3 (force_edge z r s) t + - k * dot s r * tetrahedron t)) by (intros; apply force_decomposition).
  rewrite Rsum_plus, !Rsum_scale, closed_zero by (try exact C; apply force_edge_anti). unfold enclosed_volume. rewrite dot_scale_r. ring.
Qed.
Lemma cross_vsum_l : forall l v, cross (vsum l) v = vsum (map (fun x => cross x v) l).
Proof. unfold vsum. induction l as [|x l IH]; intros v; cbn [fold_right map]; [vring|]. rewrite <- IH. vring. Qed.
Lemma cross_vsum_r : forall l v, cross v (vsum l) = vsum (map (cross v) l).
Proof. unfold vsum. induction l as [|x l IH]; intros v; cbn [fold_right map]; [vring|]. rewrite <- IH. vring. Qed.
Lemma closed_torque0 : forall k z r m, closed m ->
  vsum (map (pressure_torque (affine_pressure k z r) v0) (concat (map triangles m))) = cross (volume_moment m) (vscale (- k) r).
Proof.
  intros k z r m C. apply vec_dot_eq. intros s. rewrite dot_vsum, map_map.
  rewrite (Rsum_map_ext _ (fun t => - k * boundary3 (torque_edge z r s) t + dot s (cross (tetrahedron_moment t) (vscale (- k) r)))) by (intros; apply torque_decomposition).
  rewrite Rsum_plus, Rsum_scale, closed_zero by (try exact C; apply torque_edge_anti). unfold volume_moment. rewrite cross_vsum_l, map_map, dot_vsum, map_map. ring.
Qed.
Lemma torque_point : forall k z r G t,
  pressure_torque (affine_pressure k z r) G t = vadd (pressure_torque (affine_pressure k z r) v0 t) (vscale (-1) (cross G (pressure_force (affine_pressure k z r) t))).
Proof.
  intros k z r G [[a b] c]. rewrite !pressure_torque_affine. generalize (pressure_force (affine_pressure k z r) (a, b, c)). intros F.
  generalize (vscale (- (k / 24)) (cross (zmoment z r a b c) (cross (vsub b a) (vsub c a)))). intros X. vring.
Qed.
Lemma closed_torque : forall k z r G m, closed m ->
  vsum (map (pressure_torque (affine_pressure k z r) G) (concat (map triangles m))) =
  cross (vsub (volume_moment m) (vscale (enclosed_volume m) G)) (vscale (- k) r).
Proof.
  intros k z r G m C.
  rewrite (vsum_map_ext _ (fun t => vadd (pressure_torque (affine_pressure k z r) v0 t) (vscale (-1) (cross G (pressure_force (affine_pressure k z r) t)))))
    by (intros; apply torque_point).
  rewrite vsum_plus, vsum_scale, closed_torque0 by exact C.
  replace (vsum (map (fun x => cross G (pressure_force (affine_pressure k z r) x)) (concat (map triangles m))))
    with (cross G (vsum (map (pressure_force (affine_pressure k z r)) (concat (map triangles m))))) by (rewrite cross_vsum_r, map_map; reflexivity).
  rewrite closed_force by exact C. vring.
Qed.

(** Lids on the free surface carry no pressure *)
Definition on_plane (z : R) (r : vec3) (l : list vec3) : Prop := forall p, In p l -> z + dot r p = 0.
Lemma triangles_In : forall l a b c, In (a, b, c) (triangles l) -> In a l /\ In b l /\ In c l.
Proof.
  intros l a b c H. destruct (triangles_spec _ _ H) as (i & Hi & Hi0 & E). injection E as -> -> ->. repeat split; apply nth_In; lia.
Qed.
Lemma lid_force : forall k z r l, on_plane z r l -> vsum (map (pressure_force (affine_pressure k z r)) (triangles l)) = v0.
Proof.
  intros k z r l H. rewrite (vsum_map_ext _ (fun _ => vscale 0 v0)).
  - rewrite vsum_scale. vring.
  - intros [[a b] c] I. apply triangles_In in I. destruct I as (Ia & Ib & Ic). rewrite pressure_force_affine.
    pose proof (H a Ia). pose proof (H b Ib). pose proof (H c Ic).
    replace (z + dot r (vadd (vadd a b) c) / 3) with ((z + dot r a) / 3 + (z + dot r b) / 3 + (z + dot r c) / 3) by (clear; vfield).
    rewrite H0, H1, H2. clear. vfield.
Qed.
Lemma lid_torque : forall k z r G l, on_plane z r l -> vsum (map (pressure_torque (affine_pressure k z r) G) (triangles l)) = v0.
Proof.
  intros k z r G l H. rewrite (vsum_map_ext _ (fun _ => vscale 0 v0)).
  - rewrite vsum_scale. vring.
  - intros [[a b] c] I. apply triangles_In in I. destruct I as (Ia & Ib & Ic). rewrite pressure_torque_affine, pressure_force_affine.
    pose proof (H a Ia) as Ha. pose proof (H b Ib) as Hb. pose proof (H c Ic) as Hc. unfold zmoment.
    replace (3 * z + dot r (vadd (vadd a b) c)) with ((z + dot r a) + (z + dot r b) + (z + dot r c)) by (clear; vring).
    replace (z + dot r (vadd (vadd a b) c) / 3) with ((z + dot r a) / 3 + (z + dot r b) / 3 + (z + dot r c) / 3) by (clear; vfield).
    rewrite Ha, Hb, Hc. clear. vfield.
Qed.
Lemma lids_zero : forall (f : vec3 * vec3 * vec3 -> vec3) (P : list vec3 -> Prop) lids,
  (forall l, P l -> vsum (map f (triangles l)) = v0) -> List.Forall P lids -> vsum (map f (concat (map triangles lids))) = v0.
Proof.
  intros f P lids Hf H. induction H as [|l lids Hl _ IH]; cbn [map concat]; [reflexivity|].
  rewrite map_app, vsum_app, IH, (Hf _ Hl). vring.
Qed.

(** ** The elementary force of the model *)
Lemma zG_affine : forall T p, zG_in_NED T p = vz (t_point T) + dot (r3 (t_rot T)) p.
Proof. intros. unfold zG_in_NED. vring. Qed.
Lemma depth_affine : forall T p, depth T p = vz (t_point T) + dot (r3 (t_rot T)) p.
Proof. intros. reflexivity. Qed.
Lemma facet_force : forall rho g T point n l f, well_shaped (1000 * epsilon) n l -> build_facet l = Ok f ->
  fst (hydrostatic_dF point rho g T f) = vsum (map (pressure_force (affine_pressure (rho * g) (vz (t_point T)) (r3 (t_rot T)))) (triangles l)).
Proof.
  intros rho g T point n l f W B. destruct (build_well_shaped _ _ _ W B) as (Ep & En & Ea & Pa & Ec).
  unfold hydrostatic_dF. rewrite Ea, Ec, En, Reqb_f by lra. cbn [fst]. rewrite zG_affine, dot_scale_r.
  set (z := vz (t_point T)). set (r := r3 (t_rot T)).
  transitivity (vscale (- rho * g * (z * area l + dot r (first_moment l))) n); [generalize (dot r (first_moment l)); intros x; vfield; lra|].
  unfold first_moment. rewrite dot_vsum, map_map, area_sum, <- Rsum_scale, <- Rsum_plus, <- Rsum_scale.
  assert (H : forall (h : vec3 * vec3 * vec3 -> R) ts, vscale (Rsum (map h ts)) n = vsum (map (fun t => vscale (h t) n) ts)).
  { intros h ts. unfold Rsum, vsum. induction ts as [|t ts IH]; cbn [map fold_right]; [vring|]. rewrite <- IH. vring. }
  rewrite H. apply vsum_map_ext. intros [[a b] c] I. destruct W as (C & _). rewrite (convex_area3 _ _ _ _ _ C I).
  destruct (convex_triangle _ _ _ _ _ C I) as (_ & E). rewrite pressure_force_affine. unfold tarea.
  transitivity (vscale (- (rho * g * (/ 2 * (z + dot r (vadd (vadd a b) c) / 3)))) (vscale (dot n (cross (vsub b a) (vsub c a))) n)); [|rewrite <- E; reflexivity].
  generalize (dot n (cross (vsub b a) (vsub c a))). intros x. clear. vfield.
Qed.
Lemma surface_force_eq : forall o G dF, surface_force o G dF =
  (vscale o (vsum (map fst dF)), vscale o (vsum (map (fun d => cross (vsub (snd d) G) (fst d)) dF))).
Proof.
  intros o G dF. unfold surface_force.
  match goal with |- fold_left ?f _ _ = _ => set (F := f) end.
  assert (H : forall dF X Y, fold_left F dF (X, Y) = (vadd X (vscale o (vsum (map fst dF))), vadd Y (vscale o (vsum (map (fun d => cross (vsub (snd d) G) (fst d)) dF))))).
  { clear dF. unfold vsum. induction dF as [|[f C] dF IH]; intros X Y; cbn [fold_left map fold_right].
    - f_equal; vring.
    - unfold F at 2. cbn [fst snd]. rewrite IH. f_equal; vring. }
  rewrite H. f_equal; vring.
Qed.
