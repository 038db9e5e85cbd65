(** What the righting-lever tool works on: the simulation it builds, the resultant of the efforts, the volumes. *)
From Coq Require Import Reals List Bool Arith Lia Lra String Ascii Permutation.
From Verif Require Import Common Sim_Model Force_Model Force_Props Hull_Model Hull_Spec Hull_Proofs Hull_Archimedes_Proofs Hull_Props Hull_Force_Props Hull_Examples Mesh_Model Closing_Model.
From Verif Require Import Grpc_Spec Inertia_Model Inertia_Props Builder_Model Builder_Spec Builder_Attitude_Proofs Builder_Proofs Builder_Props Gz_Model Gz_Props Gm_Props Righting_Model.
From Verif Require Import Geometry.
Import ListNotations.
Open Scope list_scope.
Open Scope R_scope.

(** ** C170. Volumes. *)
(** The area and the normal of a facet are those of its polygon, which is planar. *)
Definition consistent (f : facet) : Prop :=
  dot (f_normal f) (f_normal f) = 1 /\ (exists d, forall p, In p (f_points f) -> dot (f_normal f) p = d) /\
  2 * f_area f = Rsum (map (fun t => dot (f_normal f) (vector_area t)) (triangles (f_points f))).
(** A facet built by the program from a polygon of some thickness is. *)
Lemma built_consistent : forall n l f, well_shaped (1000 * epsilon) n l -> build_facet l = Ok f -> consistent f.
Proof.
  intros n l f W B. destruct (build_well_shaped _ _ _ W B) as (Ep & En & Ea & Pa & _). destruct W as (C & _).
  unfold consistent. rewrite Ep, En, Ea. split; [apply (convex_unit _ _ C)|]. split; [destruct (convex_plane _ _ C) as (d & D); exists d; exact D|].
  rewrite area_sum, <- Rsum_scale. apply Rsum_map_ext. intros [[a b] c] I. rewrite (convex_area3 _ _ _ _ _ C I). unfold tarea, vector_area. lra.
Qed.
Lemma facet_volume_eq : forall f, consistent f -> facet_volume f = enclosed_volume [f_points f].
Proof.
  intros f (Hn & (d & D) & A). unfold facet_volume, enclosed_volume. cbn [map List.concat]. rewrite app_nil_r.
  assert (T : forall t, In t (triangles (f_points f)) -> tetrahedron t = d / 6 * dot (f_normal f) (vector_area t)).
  { set (n := f_normal f) in *. intros [[a b] c] I. apply triangles_In in I. destruct I as (Ia & Ib & Ic). unfold tetrahedron, vector_area. rewrite det3_triangle.
    assert (Hb : dot n (vsub b a) = 0) by (replace (dot n (vsub b a)) with (dot n b - dot n a) by (clear; vring); rewrite !D by assumption; ring).
    assert (Hc : dot n (vsub c a) = 0) by (replace (dot n (vsub c a)) with (dot n c - dot n a) by (clear; vring); rewrite !D by assumption; ring).
    pose proof (normal_parallel _ _ _ Hn Hb Hc) as E. apply (f_equal (dot a)) in E. rewrite dot_scale_r, (dot_comm a n), (D a Ia) in E. rewrite E. field. }
  rewrite (Rsum_map_ext _ _ _ T), Rsum_scale, <- A. destruct (f_points f) as [|p l] eqn:E.
  - cbn in A. assert (f_area f = 0) as -> by lra. lra.
  - rewrite (D p) by (left; reflexivity). field.
Qed.
Lemma volumes_eq : forall fs v, Forall consistent fs -> fold_left (fun v f => v + facet_volume f) fs v = v + enclosed_volume (map f_points fs).
Proof.
  induction fs as [|f fs IH]; intros v H; cbn [fold_left map]; [unfold enclosed_volume; cbn; ring|]. inversion H; subst.
  rewrite IH, facet_volume_eq by assumption. change (f_points f :: map f_points fs) with ([f_points f] ++ map f_points fs).
  assert (forall a b, enclosed_volume (a ++ b) = enclosed_volume a + enclosed_volume b) as -> by (intros; unfold enclosed_volume; rewrite map_app, concat_app, map_app; apply Rsum_app). ring.
Qed.
Lemma volumes_sum : forall fs v, fold_left (fun v f => v + facet_volume f) fs v = v + Rsum (map facet_volume fs).
Proof. induction fs as [|f fs IH]; intros v; cbn [fold_left map]; [unfold Rsum; cbn; ring|]. rewrite IH. unfold Rsum. cbn [fold_right]. ring. Qed.
Lemma volume_eq : forall fs, Forall consistent fs -> volume fs = if (List.length fs <? 3)%nat then 0 else enclosed_volume (map f_points fs).
Proof. intros fs H. unfold volume. rewrite volumes_eq by exact H. rewrite Rplus_0_l. reflexivity. Qed.

(** The facets of an intersector with the given indices, with the coordinates of their vertices. *)
Definition facets_are (I : inter) (l : list nat) (hull : list facet) : Prop :=
  exists fs, facets_at I l = Ok fs /\ mapO_list (with_points I) fs = Ok hull.
(** The lids: the facets that close the part of the hull at the surface, but those that already belong to it. *)
Definition lids_are (I : inter) (part : list nat) (lid : mfacet -> mfacet) (lids : list facet) : Prop :=
  exists fs surface, facets_at I part = Ok fs /\ facets_at I (i_surface I) = Ok surface /\
    mapO_list (with_points I) (filter (fun f => negb (has_facet f fs)) (map lid surface)) = Ok lids.

(** The volume the program gives for the immersed or the emerged part, in every case. It is the volume enclosed by the facets and
    the lids when the recorded normals and areas are consistent, except when there are fewer than three facets or when the cone
    from the origin to the facets, without the lids, has no volume. *)
Theorem volume_of_a_part_partial : forall part lid I I' V, closed_volume part lid I = Ok (I', V) ->
  update_closing I = Ok I' /\ exists hull, facets_are I' (part I') hull /\
  (Forall consistent hull ->
    ((List.length hull < 3)%nat -> V = 0) /\
    (enclosed_volume (map f_points hull) = 0 -> V = 0) /\
    ((3 <= List.length hull)%nat -> enclosed_volume (map f_points hull) <> 0 -> exists lids, lids_are I' (part I') lid lids /\
      V = Rabs (enclosed_volume (map f_points hull) + Rsum (map facet_volume lids)) /\
      (Forall consistent lids -> V = Rabs (enclosed_volume (map f_points (hull ++ lids)))))).
Proof.
  intros part lid I I' V H. unfold closed_volume in H. destruct (update_closing I) as [J| |]; cbn [bindO] in H; try discriminate.
  destruct (facets_at J (part J)) as [fs| |] eqn:EF; cbn [bindO] in H; try discriminate.
  destruct (mapO_list (with_points J) fs) as [hull| |] eqn:EH; cbn [bindO] in H; try discriminate.
  assert (J = I') as ->.
  { destruct (Reqb (volume hull) 0); [injection H; auto|]. destruct (facets_at J (i_surface J)); cbn [bindO] in H; try discriminate.
    destruct (mapO_list (with_points J) (filter _ _)); cbn [bindO] in H; try discriminate. injection H; auto. }
  split; [reflexivity|]. exists hull. split; [exists fs; auto|]. intros C. pose proof (volume_eq hull C) as EV. split; [|split].
  - intros L. apply Nat.ltb_lt in L. rewrite L in EV. rewrite EV, Reqb_t in H by reflexivity. injection H as <-. reflexivity.
  - intros E. assert (volume hull = 0) as E0 by (rewrite EV; destruct (_ <? _)%nat; auto). rewrite E0, Reqb_t in H by reflexivity. injection H as <-. reflexivity.
  - intros L N. apply Nat.ltb_ge in L. rewrite L in EV. rewrite EV, Reqb_f in H by exact N.
    destruct (facets_at I' (i_surface I')) as [surface| |] eqn:ES; cbn [bindO] in H; try discriminate.
    destruct (mapO_list (with_points I') (filter _ (map lid surface))) as [lids| |] eqn:EL; cbn [bindO] in H; try discriminate. injection H as <-.
    exists lids. split; [exists fs, surface; auto|]. split; [rewrite volumes_sum; reflexivity|]. intros CL. rewrite volumes_eq by exact CL. f_equal.
    rewrite map_app. unfold enclosed_volume. rewrite map_app, concat_app, map_app, Rsum_app. reflexivity.
Qed.
Print Assumptions volume_of_a_part_partial.

(** The lids are always recorded with the normal (0, 0, -1) in the frame of the body, whatever the attitude. A heeled wedge
    P, Q, R, D immersed up to P, Q, R: the lid is inclined, and the volume given is not that of the wedge. *)
Definition wP := V3 0 0 1.
Definition wQ := V3 4 0 1.
Definition wR := V3 0 4 (-2).
Definition wD := V3 0 0 5.
Definition wedge_facets : list mfacet :=
  [mkMF [0; 1; 3]%nat (V3 0 (-1) 0) None 8; mkMF [1; 2; 3]%nat (V3 (4 / 9) (7 / 9) (4 / 9)) None 18; mkMF [2; 0; 3]%nat (V3 (-1) 0 0) None 8;
   mkMF [0; 2; 1]%nat lid_normal None 10].
Definition wedge : inter := mkI (mkMesh [] wedge_facets [] [] 4 0 4 [wP; wQ; wR; wD] 4 1) [] [] [] [] [0; 1; 2]%nat [3]%nat [] false.
Lemma far_normals : forall a b c, 1 <= a * a + b * b + c * c -> / 100000000 < norm (V3 a b c).
Proof.
  intros a b c H. apply Rlt_le_trans with 1; [lra|]. unfold norm, dot. cbn [vx vy vz]. rewrite <- sqrt_1 at 1. apply sqrt_le_1; lra.
Qed.
Theorem volume_of_a_heeled_hull_refuted : exists hull lid, facets_are wedge (i_immersed wedge) hull /\ Forall consistent hull /\
  map f_points hull = [[wP; wQ; wD]; [wQ; wR; wD]; [wR; wP; wD]] /\ lid = [wP; wR; wQ] /\
  closed (map f_points hull ++ [lid]) /\ enclosed_volume (map f_points hull ++ [lid]) = 32 / 3 /\
  immersed_volume wedge = Ok (wedge, 10).
Proof.
  eexists. exists [wP; wR; wQ]. split; [eexists; split; reflexivity|].
  match goal with |- Forall consistent ?l /\ _ => set (hull := l) end.
  assert (C : Forall consistent hull).
  { unfold hull. cbn. repeat apply List.Forall_cons; try apply List.Forall_nil; unfold consistent; cbn [f_normal f_points f_area];
      (split; [vec; lra|]); (split; [|cbn [triangles triangles_from map]; unfold Rsum, vector_area, wP, wQ, wR, wD; cbn [fold_right]; vec; lra]).
    - exists 0. intros p Hp. cbn in Hp. unfold wP, wQ, wR, wD in Hp. destruct Hp as [<-|[<-|[<-|[]]]]; vec; lra.
    - exists (20 / 9). intros p Hp. cbn in Hp. unfold wP, wQ, wR, wD in Hp. destruct Hp as [<-|[<-|[<-|[]]]]; vec; lra.
    - exists 0. intros p Hp. cbn in Hp. unfold wP, wQ, wR, wD in Hp. destruct Hp as [<-|[<-|[<-|[]]]]; vec; lra. }
  split; [exact C|]. split; [reflexivity|]. split; [reflexivity|]. split; [|split].
  - unfold closed, edges, swap, hull. cbn [map f_points List.concat cycle path List.app fst snd]. generalize wP, wQ, wR, wD. intros. perm.
  - unfold hull. cbn [map f_points List.app]. unfold enclosed_volume. cbn [map List.concat triangles triangles_from List.app tetrahedron]. unfold Rsum, wP, wQ, wR, wD. cbn [fold_right]. vec. lra.
  - assert (EV : enclosed_volume (map f_points hull) = 40 / 3).
    { unfold hull. cbn [map f_points]. unfold enclosed_volume. cbn [map List.concat triangles triangles_from List.app tetrahedron]. unfold Rsum, wP, wQ, wR, wD. cbn [fold_right]. vec. lra. }
    unfold immersed_volume, closed_volume, update_closing. cbn [wedge i_closing bindO i_immersed].
    assert (facets_at wedge [0; 1; 2]%nat = Ok (firstn 3 wedge_facets)) as -> by reflexivity. cbn [bindO].
    assert (mapO_list (with_points wedge) (firstn 3 wedge_facets) = Ok hull) as -> by reflexivity. cbn [bindO].
    rewrite (volume_eq hull C), EV. cbn [hull List.length Nat.ltb Nat.leb]. rewrite Reqb_f by lra.
    assert (facets_at wedge (i_surface wedge) = Ok [mkMF [0; 2; 1]%nat lid_normal None 10]) as -> by reflexivity. cbn [bindO map filter].
    assert (has_facet (mkMF [0; 2; 1]%nat lid_normal None 10) (firstn 3 wedge_facets) = false) as ->.
    { unfold has_facet. cbn [mf_vertices forallb mf_normal]. apply andb_false_intro1. unfold wedge_facets, contains_vertex. cbn [firstn existsb mf_normal].
      rewrite !Rltb_t; [reflexivity| | |]; unfold lid_normal, vsub; cbn [vx vy vz]; apply far_normals; lra. }
    cbn [negb]. assert (mapO_list (with_points wedge) [mkMF [0; 2; 1]%nat lid_normal None 10] = Ok [mkFacet [wP; wR; wQ] lid_normal 10 None]) as -> by reflexivity.
    cbn [bindO fold_left]. unfold facet_volume. cbn [f_points f_area f_normal]. unfold lid_normal, wP. f_equal. f_equal. vec. rewrite Rabs_pos_eq; lra.
Qed.
Print Assumptions volume_of_a_heeled_hull_refuted.

(** ** C168. The simulation the tool works on. *)
Section Made.
Context {Env Wave Mesh Dof Blocked : Type}.
Variable blocked_dof : Dof -> nat -> outcome Blocked.
Variable make_env : option Wave -> Env.
Variables (waves : list (@wave_parser Wave)) (external controllable : list (@parser Env)).
Notation make_sim := (make_sim blocked_dof make_env waves external controllable).

Lemma build_with_inv : forall (input : @yaml_input Mesh Dof) meshes s, build_with blocked_dof make_env waves external controllable input meshes = Ok s ->
  exists forces controlled,
  get_wave waves (y_environment input) = Ok (s_wave s) /\
  get_forces external y_external (y_bodies input) (make_env (s_wave s)) = Ok forces /\
  get_forces controllable y_controlled (y_bodies input) (make_env (s_wave s)) = Ok controlled /\
  get_bodies blocked_dof (y_rotations input) (y_bodies input) meshes (are_there_surface_forces_acting_on_body forces) (get_max_history_length forces controlled) 0 = Ok (s_bodies s) /\
  s_forces s = indexed (map y_name (y_bodies input)) forces [] /\ s_controlled s = indexed (map y_name (y_bodies input)) controlled [].
Proof.
  intros input meshes s H. unfold build_with in H. destruct (get_wave waves (y_environment input)) as [w| |] eqn:W; cbn in H; try discriminate.
  destruct (get_forces external y_external (y_bodies input) (make_env w)) as [forces| |] eqn:F; cbn in H; try discriminate.
  destruct (get_forces controllable y_controlled (y_bodies input) (make_env w)) as [controlled| |] eqn:C; cbn in H; try discriminate.
  destruct (get_bodies _ _ _ _ _ _ _) as [bodies| |] eqn:B in H; cbn in H; try discriminate.
  destruct (get_initial_states (y_rotations input) (y_bodies input)) as [x| |] eqn:X; cbn in H; try discriminate.
  destruct (index_forces bodies forces controlled 0 ([], [])) as [fs| |] eqn:I1; cbn in H; try discriminate. injection H as <-. cbn [s_wave s_bodies s_forces s_controlled s_state].
  exists forces, controlled. apply index_forces_spec in I1 as E; [|eapply index_forces_lengths; exact I1].
  rewrite (get_bodies_names _ _ _ _ _ _ _ _ B) in E. rewrite E. cbn. repeat split; assumption.
Qed.

(** With one body in the file: it is that body, with the mesh read from the STL file, on calm water; gravity and the fast
    hydrostatic force act on it, and no other; the resultant is computed from these two. *)
Theorem tool_works_on_the_body_of_the_file : forall (input : @yaml_input Mesh Dof) b stl s, NoDup (map p_name external) -> y_bodies input = [b] ->
  make_sim input stl = Ok s -> exists mesh x gravity hydrostatic,
  stl = Ok mesh /\ s_bodies s = [x] /\ b_name x = y_name b /\ b_mesh x = mesh /\ add_inertia (y_inertia b) (y_added b) = Ok (b_inertia x) /\
  get_wave waves [mkYaml "no waves" "constant sea elevation in NED frame: {value: 0, unit: m}"] = Ok (s_wave s) /\
  made_from external (make_env (s_wave s)) (y_name b) (mkYaml "gravity" "") gravity /\
  made_from external (make_env (s_wave s)) (y_name b) (mkYaml "non-linear hydrostatic (fast)" "") hydrostatic /\
  forces_on (s_forces s) (y_name b) = [gravity; hydrostatic] /\ forces_on (s_controlled s) (y_name b) = [] /\
  make_computer s = Ok (mkComputer x gravity hydrostatic).
Proof.
  intros [rot bodies envs] b stl s D EB0 H. cbn [y_bodies] in EB0. subst bodies. unfold Righting_Model.make_sim, gz_input in H. cbn [y_bodies y_rotations bindO] in H.
  destruct (check_rotations rot) as [[]| |]; cbn [bindO] in H; try discriminate. destruct stl as [mesh| |]; cbn [bindO y_name] in H; try discriminate.
  destruct (build_with_inv _ _ _ H) as (forces & controlled & W & F & C & B & Fs & Cs). cbn [y_bodies y_rotations y_environment map y_name] in *.
  apply get_forces_inv in F, C. inversion F as [|? l ? ? F1 F2]; subst. inversion F2; subst. inversion C as [|? c ? ? C1 C2]; subst. inversion C2; subst.
  cbn [y_external y_controlled y_name] in F1, C1. destruct (forces_from_inv _ _ _ D _ _ _ F1) as (l' & -> & P). cbn in C1. injection C1 as <-.
  unfold gz_external in P. inversion P as [|? f ? ? P1 P2]; subst. inversion P2 as [|? h ? ? P3 P4]; subst. inversion P4; subst.
  destruct (get_bodies_inv _ _ _ _ _ _ _ _ B) as [Len Nth]. destruct (Nth 0%nat _ eq_refl) as (m1 & s1 & x1 & M1 & S1 & X1 & B1).
  destruct (s_bodies s) as [|y [|? ?]] eqn:EB; try discriminate Len. cbn in X1. injection X1 as ->. cbn [y_name map_get] in M1. 
  destruct (string_dec (y_name b) (y_name b)) as [_|N]; [|destruct (N eq_refl)]. injection M1 as <-.
  apply build_body_inv in B1. destruct B1 as (? & i & ? & _ & I1 & _ & ->). cbn [y_inertia y_added] in I1.
  eexists mesh, _, f, h. split; [reflexivity|]. split; [reflexivity|]. split; [reflexivity|]. split; [reflexivity|]. split; [exact I1|]. split; [exact W|]. split; [exact P1|]. split; [exact P3|].
  assert (M : forall l : list force, map_get (map_set [] (y_name b) l) (y_name b) = Some l) by (intros; rewrite map_get_set; destruct (string_dec (y_name b) (y_name b)) as [_|N]; [reflexivity|destruct (N eq_refl)]).
  rewrite Cs, Fs. cbn [indexed List.app]. unfold forces_on. rewrite !M. split; [reflexivity|]. split; [reflexivity|].
  unfold make_computer. rewrite EB, Fs. unfold at_ub at 1. cbn [nth_error bindO indexed List.app]. unfold forces_begin. cbn [map_set smallest].
  change [(y_name b, [f; h])] with (map_set [] (y_name b) [f; h]). rewrite M. reflexivity.
Qed.

(** What the file says of the sea, and the efforts, controllers and mesh it gives to the body, have no effect. *)
Theorem tool_ignores_the_rest_of_the_file : forall (input input' : @yaml_input Mesh Dof) b b' r stl, y_bodies input = b :: r -> y_bodies input' = b' :: r ->
  y_rotations input = y_rotations input' -> y_name b = y_name b' -> y_mesh_position b = y_mesh_position b' -> y_mesh_angle b = y_mesh_angle b' ->
  y_position b = y_position b' -> y_angle b = y_angle b' -> y_velocity b = y_velocity b' -> y_inertia b = y_inertia b' -> y_added b = y_added b' ->
  y_blocked b = y_blocked b' -> make_sim input stl = make_sim input' stl.
Proof.
  intros [rot bodies envs] [rot' bodies' envs'] b b' r stl EB EB' ER. cbn [y_rotations y_bodies] in EB, EB', ER. subst. intros H1 H2 H3 H4 H5 H6 H7 H8 H9. unfold Righting_Model.make_sim, gz_input. cbn [y_bodies y_rotations bindO].
  rewrite H1, H2, H3, H4, H5, H6, H7, H8, H9. reflexivity.
Qed.

(** A file with a body of another name than the first is refused: only the first has a mesh. A file without bodies: undefined. *)
Theorem tool_refuses_another_body : forall (input : @yaml_input Mesh Dof) b r b' stl s, y_bodies input = b :: r -> In b' r -> y_name b' <> y_name b ->
  make_sim input stl <> Ok s.
Proof.
  intros [rot bodies envs] b r b' stl s EB I N H. cbn [y_bodies] in EB. subst bodies. unfold Righting_Model.make_sim, gz_input in H. cbn [y_bodies y_rotations bindO] in H.
  destruct (check_rotations rot) as [[]| |]; cbn [bindO] in H; try discriminate. destruct stl as [mesh| |]; cbn [bindO y_name] in H; try discriminate.
  destruct (build_with_inv _ _ _ H) as (forces & controlled & _ & _ & _ & B & _). cbn [y_bodies y_rotations] in B.
  apply get_bodies_inv in B. destruct B as [_ B]. apply In_nth_error in I. destruct I as [k K]. destruct (B (S k) b' K) as (m & _ & _ & M & _). cbn [map_get] in M.
  destruct (string_dec (y_name b) (y_name b')); [congruence|discriminate].
Qed.
(** A file whose bodies all have the name of the first is accepted when the simulator accepts its bodies. *)
Theorem tool_accepts : forall (input : @yaml_input Mesh Dof) b r mesh w,
  NoDup (map p_name external) -> NoDup (map p_name controllable) -> y_bodies input = b :: r -> (forall b', In b' r -> y_name b' = y_name b) ->
  get_wave waves [mkYaml "no waves" "constant sea elevation in NED frame: {value: 0, unit: m}"] = Ok w ->
  documented (y_rotations input) -> check_rotations (y_rotations input) = Ok tt ->
  (forall k b', nth_error (b :: r) k = Some b' -> (exists i, add_inertia (y_inertia b') (y_added b') = Ok i) /\ (exists x, blocked_dof (y_blocked b') k = Ok x)) ->
  acceptable external (make_env w) (y_name b) (mkYaml "gravity" "") -> acceptable external (make_env w) (y_name b) (mkYaml "non-linear hydrostatic (fast)" "") ->
  (forall b', In b' r -> (forall m, In m (y_external b') -> acceptable external (make_env w) (y_name b') m) /\
     (forall m, In m (y_controlled b') -> acceptable controllable (make_env w) (y_name b') m)) ->
  exists s, make_sim input (Ok mesh) = Ok s.
Proof.
  intros [rot bodies envs] b r mesh w D1 D2 EB SN W R0 CR H Hg Hh HF. cbn [y_bodies y_rotations] in EB, R0, CR. subst bodies.
  unfold Righting_Model.make_sim, gz_input. cbn [y_bodies y_rotations bindO]. rewrite CR. cbn [bindO y_name].
  set (b1 := mkBody0 _ _ _ _ _ _ _ _ _ _ _ _). unfold build_with. cbn [y_environment y_bodies y_rotations]. unfold gz_environment. rewrite W. cbn [bindO].
  destruct (get_forces_ok external y_external (make_env w) D1 (b1 :: r)) as [fs F].
  { intros b' m [<-|Hb] Hm; [|apply (HF b' Hb); exact Hm]. cbn in Hm. destruct Hm as [<-|[<-|[]]]; assumption. }
  destruct (get_forces_ok controllable y_controlled (make_env w) D2 (b1 :: r)) as [cs C].
  { intros b' m [<-|Hb] Hm; [destruct Hm|apply (HF b' Hb); exact Hm]. }
  rewrite F, C. cbn [bindO].
  pose proof (Forall2_len _ _ _ (get_forces_inv _ _ _ _ _ F)) as LF. pose proof (Forall2_len _ _ _ (get_forces_inv _ _ _ _ _ C)) as LC.
  destruct (get_bodies_ok blocked_dof rot (b1 :: r) [(y_name b, mesh)] (are_there_surface_forces_acting_on_body fs) (get_max_history_length fs cs) 0) as [bs B].
  { intros k b' Hk. assert (y_name b' = y_name b) as En by (destruct k; cbn in Hk; [injection Hk as <-; reflexivity|apply SN; eapply nth_error_In; exact Hk]).
    assert (k < List.length fs)%nat as Lk by (rewrite <- LF; apply nth_error_Some; congruence).
    destruct (nth_error (are_there_surface_forces_acting_on_body fs) (0 + k)) as [su|] eqn:Su.
    2:{ exfalso. apply nth_error_None in Su. unfold are_there_surface_forces_acting_on_body in Su. rewrite map_length in Su. cbn in Su. lia. }
    exists mesh, su. split; [rewrite En; cbn [map_get]; destruct (string_dec (y_name b) (y_name b)); [reflexivity|congruence]|]. split; [first [exact Su|reflexivity]|].
    assert ((exists i, add_inertia (y_inertia b') (y_added b') = Ok i) /\ (exists x, blocked_dof (y_blocked b') k = Ok x)) as [[i Hi] [x Hx]].
    { destruct k; cbn in Hk; [injection Hk as <-; apply (H 0%nat b eq_refl)|apply (H (S k) b' Hk)]. }
    unfold build_body. rewrite angle2matrix_documented by exact R0. cbn [bindO]. rewrite Hi. cbn [bindO]. cbn [Nat.add]. rewrite Hx. cbn. eexists. reflexivity. }
  rewrite B. cbn [bindO]. destruct (initial_states_are_those_of_the_file _ _ rot (b1 :: r) R0) as (x & X & _). rewrite X. cbn [bindO].
  destruct (get_bodies_inv _ _ _ _ _ _ _ _ B) as [LB _].
  destruct (index_forces_ok bs fs cs 0 ([], [])) as [q Hr]; [lia|lia|]. rewrite Hr. cbn. eexists. reflexivity.
Qed.
Theorem tool_without_bodies_refuted : forall (input : @yaml_input Mesh Dof) stl, y_bodies input = [] -> make_sim input stl = UB.
Proof. intros input stl E. unfold Righting_Model.make_sim, gz_input. rewrite E. reflexivity. Qed.
End Made.
Print Assumptions tool_works_on_the_body_of_the_file.
Print Assumptions tool_ignores_the_rest_of_the_file.
Print Assumptions tool_refuses_another_body.
Print Assumptions tool_accepts.
Print Assumptions tool_without_bodies_refuted.

Notation toy_make := (make_sim no_blocked (fun _ : option unit => tt) no_waves (known external_names 10) (known controllable_names 20)).
Lemma toy_accepts : forall m e c r, (forall b, In b r -> exists m e c, b = ship "tug" m e c /\
    (forall x, In x e -> In (ym_model x) external_names) /\ (forall x, In x c -> In (ym_model x) controllable_names)) ->
  exists s, toy_make (mkInput0 zyx (ship "tug" m e c :: r) [mkYaml "waves" "jonswap"]) (Ok 7%nat) = Ok s.
Proof.
  intros m e c r Hr. destruct known_models_are_told_apart as (N1 & N2 & _).
  assert (K : forall names T body x, In (ym_model x) names -> acceptable (known names T) tt body x).
  { intros names T body x Hx. exists (mkParser (ym_model x) (fun _ _ _ => Ok (T, String.eqb (ym_model x) "hydrostatic"))), T, (String.eqb (ym_model x) "hydrostatic"). split; [|split; reflexivity].
    unfold known. apply in_map_iff. exists (ym_model x). split; [reflexivity|exact Hx]. }
  apply (tool_accepts no_blocked (fun _ : option unit => tt) no_waves _ _ _ (ship "tug" m e c) r 7%nat (Some tt)); try (rewrite known_names; assumption); try reflexivity.
  - intros b Hb. destruct (Hr b Hb) as (? & ? & ? & -> & _). reflexivity.
  - split; reflexivity.
  - intros k b Hk. assert (exists m e c, b = ship "tug" m e c) as (m' & e' & c' & ->).
    { destruct k; cbn in Hk; [injection Hk as <-; eauto|apply nth_error_In in Hk; destruct (Hr b Hk) as (? & ? & ? & -> & _); eauto]. }
    split; [destruct boat_accepted as (i & Ei & _); exists i; exact Ei|eexists; reflexivity].
  - apply K. cbn. tauto.
  - apply K. cbn. tauto.
  - intros b Hb. destruct (Hr b Hb) as (m' & e' & c' & -> & He & Hc). split; intros x Hx; apply K; [apply He|apply Hc]; exact Hx.
Qed.
(** A file with one ship, its own forces, its own mesh (1) and waves. *)
Example toy_tool : exists s x f h, toy_make (mkInput0 zyx [ship "tug" 1 [mkYaml "GM" ""] [mkYaml "maneuvering" "text"]] [mkYaml "waves" "jonswap"]) (Ok 7%nat) = Ok s /\
  b_mesh x = 7%nat /\ f_model f = "gravity"%string /\ f_model h = "non-linear hydrostatic (fast)"%string /\ make_computer s = Ok (mkComputer x f h).
Proof.
  destruct (toy_accepts 1 [mkYaml "GM" ""] [mkYaml "maneuvering" "text"] []) as [s E]; [intros b []|].
  pose proof (fun D b H => tool_works_on_the_body_of_the_file _ _ _ _ _ _ b _ _ D H E) as X.
  destruct (X ltac:(rewrite known_names; apply known_models_are_told_apart) _ eq_refl) as (mesh & x & f & h & Em & _ & _ & Ex & _ & _ & (Ef & _) & (Eh & _) & _ & _ & Ec).
  injection Em as <-. exists s, x, f, h. auto.
Qed.
(** Two bodies with the same name: the file is accepted, and the resultant is computed from the forces of the last body, which are
    those of the file, taken for gravity and the hydrostatic force; without such forces, the behaviour is undefined. *)
Theorem tool_with_two_bodies_refuted :
  (exists s x f h, toy_make (mkInput0 zyx [ship "tug" 1 [] []; ship "tug" 2 [mkYaml "GM" ""; mkYaml "linear damping" ""] []] []) (Ok 7%nat) = Ok s /\
     make_computer s = Ok (mkComputer x f h) /\ f_model f = "GM"%string /\ f_model h = "linear damping"%string) /\
  (exists s, toy_make (mkInput0 zyx [ship "tug" 1 [] []; ship "tug" 2 [] []] []) (Ok 7%nat) = Ok s /\ make_computer s = UB).
Proof.
  assert (Z : forall r e, toy_make (mkInput0 zyx r e) (Ok 7%nat) = toy_make (mkInput0 zyx r [mkYaml "waves" "jonswap"]) (Ok 7%nat)) by (intros [|b r] e; reflexivity).
  split.
  - destruct (toy_accepts 1 [] [] [ship "tug" 2 [mkYaml "GM" ""; mkYaml "linear damping" ""] []]) as [s E].
    { intros b [<-|[]]. do 3 eexists. split; [reflexivity|]. split; intros x Hx; cbn in Hx; repeat (destruct Hx as [<-|Hx]); try contradiction; cbn; tauto. }
    pose proof E as E1. unfold make_sim, gz_input in E1. cbn [y_bodies y_rotations bindO] in E1. change (check_rotations zyx) with (Ok tt) in E1. cbn [bindO y_name ship] in E1.
    destruct (build_with_inv _ _ _ _ _ _ _ _ E1) as (fs & cs & _ & F & C & B & Fs & _). cbn in F, C. injection F as <-. injection C as <-.
    pose proof (get_bodies_names _ _ _ _ _ _ _ _ B) as NB. destruct (s_bodies s) as [|x l] eqn:EB; [discriminate NB|].
    exists s. do 3 eexists. rewrite Z. split; [exact E|]. split; [unfold make_computer; rewrite EB, Fs; cbn; reflexivity|]. split; reflexivity.
  - destruct (toy_accepts 1 [] [] [ship "tug" 2 [] []]) as [s E].
    { intros b [<-|[]]. do 3 eexists. split; [reflexivity|]. split; intros x Hx; destruct Hx. }
    pose proof E as E1. unfold make_sim, gz_input in E1. cbn [y_bodies y_rotations bindO] in E1. change (check_rotations zyx) with (Ok tt) in E1. cbn [bindO y_name ship] in E1.
    destruct (build_with_inv _ _ _ _ _ _ _ _ E1) as (fs & cs & _ & F & C & B & Fs & _). cbn in F, C. injection F as <-. injection C as <-.
    pose proof (get_bodies_names _ _ _ _ _ _ _ _ B) as NB. destruct (s_bodies s) as [|x l] eqn:EB; [discriminate NB|].
    exists s. rewrite Z. split; [exact E|]. unfold make_computer; rewrite EB, Fs; cbn; reflexivity.
Qed.
Print Assumptions tool_with_two_bodies_refuted.

(** ** C169. The resultant of efforts. *)
Lemma position_eq : forall z phi theta, position z phi theta = mkT (euler_matrix phi theta 0) (V3 0 0 z).
Proof.
  intros. unfold position. pose proof (quaternion_of_rotation _ (eq_ind_r (fun m => rotation m) (euler_rotation phi theta 0) (rotation_321 phi theta 0))) as Q.
  unfold represents in Q. destruct (quaternion_of _) as [[[a b] c] d]. destruct Q as [-> _]. rewrite rotation_321. reflexivity.
Qed.
(** The body is put at depth [z], heel [phi] and trim [theta]. When the immersed facets and lids on the plane of the surface form a
    closed surface, the vertical resultant is the weight minus the weight of the water displaced ([o] is -1 when the facets are
    oriented inwards, and then the signed volume is negative too). *)
Theorem resultant_is_weight_minus_displacement : forall rho g m G o immersed undefined z phi theta hull lids,
  usable hull -> built hull (immersed (mkT (euler_matrix phi theta 0) (V3 0 0 z))) ->
  (forall lid p, In lid lids -> In p lid -> depth (mkT (euler_matrix phi theta 0) (V3 0 0 z)) p = 0) -> closed (hull ++ lids) ->
  r_Z (resultant_at rho g m G o immersed undefined z phi theta) = g * (m - rho * (o * enclosed_volume (hull ++ lids))).
Proof.
  intros rho g m G o immersed undefined z phi theta hull lids U B L C. unfold resultant_at. rewrite position_eq. cbn [r_Z t_rot t_point].
  unfold project_into_ned_frame, gravity. cbn [fst t_rot]. rewrite (archimedes_force _ _ _ _ _ _ _ _ U B L C). cbn [t_rot].
  rewrite !(rotation_inverse' _ _ (euler_rotation phi theta 0)). cbn [vz]. ring.
Qed.
Print Assumptions resultant_is_weight_minus_displacement.
Lemma first_axis : forall phi theta, mapply (euler_matrix phi theta 0) (V3 1 0 0) = V3 (cos theta) 0 (- sin theta).
Proof. intros. unfold euler_matrix. rewrite !mapply_mmul. unfold rotz, roty, rotx, mapply, dot. cbn [r1 r2 r3 vx vy vz]. rewrite sin_0, cos_0. apply vec_eq; cbn [vx vy vz]; ring. Qed.
Lemma mapply_zero : forall m, mapply m v0 = v0.
Proof. intros. unfold mapply, dot, v0. cbn [vx vy vz]. apply vec_eq; cbn [vx vy vz]; ring. Qed.
Lemma axis_x : forall v, vx v = dot v (V3 1 0 0). Proof. intros. unfold dot. cbn [vx vy vz]. ring. Qed.
Lemma axis_y : forall v, vy v = dot v (V3 0 1 0). Proof. intros. unfold dot. cbn [vx vy vz]. ring. Qed.
Lemma axis_z : forall v, vz v = dot v (V3 0 0 1). Proof. intros. unfold dot. cbn [vx vy vz]. ring. Qed.
(** The two moments are those of the hydrostatic torque about the centre of gravity, on the axes of the NED frame: gravity has
    none. The lever is that of this torque about the horizontal direction of the ship, divided by the hydrostatic force, and is the
    result of a division by zero when nothing is immersed. *)
Theorem resultant_moments : forall rho g m G o immersed undefined z phi theta,
  let T := mkT (euler_matrix phi theta 0) (V3 0 0 z) in
  let effort := fast_hydrostatic rho g T o G (immersed T) in
  let r := resultant_at rho g m G o immersed undefined z phi theta in
  r_K r = dot (mapply (t_rot T) (snd effort)) (V3 1 0 0) /\ r_M r = dot (mapply (t_rot T) (snd effort)) (V3 0 1 0) /\
  r_Z r = m * g + dot (mapply (t_rot T) (fst effort)) (V3 0 0 1) /\
  (r_Z r <> m * g -> r_gz r = cos theta * r_K r / (r_Z r - m * g)) /\
  (r_Z r = m * g -> r_gz r = undefined).
Proof.
  intros rho g m G o immersed undefined z phi theta T effort r.
  assert (Er : r = resultant_at rho g m G o immersed undefined z phi theta) by reflexivity. unfold resultant_at in Er. rewrite position_eq in Er. fold T in Er.
  cbn [t_rot t_point] in Er. change (t_rot T) with (euler_matrix phi theta 0) in *. fold effort in Er. unfold project_into_ned_frame, gravity in Er. cbn [fst snd t_rot] in Er.
  rewrite (rotation_inverse' _ (V3 0 0 (m * g)) (euler_rotation phi theta 0)) in Er.
  set (F := mapply (euler_matrix phi theta 0) (fst effort)) in *. set (K := mapply (euler_matrix phi theta 0) (snd effort)) in *.
  rewrite mapply_zero in Er. cbn [vx vy vz v0] in Er.
  rewrite Er. cbn [r_K r_M r_Z r_gz]. pose proof (axis_x K) as R1. pose proof (axis_y K) as R2. pose proof (axis_z F) as R3.
  split; [rewrite <- R1; ring|]. split; [rewrite <- R2; ring|]. split; [rewrite <- R3; ring|].
  unfold calculate_gz. rewrite first_axis. cbn [vx vy]. assert (N : norm (V3 (cos theta) 0 (- sin theta)) = 1).
  { unfold norm, dot. cbn [vx vy vz]. rewrite <- sqrt_1. f_equal. pose proof (sin2_cos2 theta) as P. unfold Rsqr in P. lra. }
  rewrite N. destruct (Req_EM_T (vz F) 0) as [E|E]; split; intros H; try reflexivity; [exfalso; apply H; rewrite E; ring| |exfalso; apply E; lra].
  field. replace (m * g + vz F - m * g) with (vz F) by ring. exact E.
Qed.
Print Assumptions resultant_moments.
(** With nothing in the water, only the weight is left. *)
Theorem resultant_out_of_the_water : forall rho g m G o immersed undefined z phi theta, immersed (mkT (euler_matrix phi theta 0) (V3 0 0 z)) = [] ->
  resultant_at rho g m G o immersed undefined z phi theta = mkRes (m * g) 0 0 undefined.
Proof.
  intros rho g m G o immersed undefined z phi theta E.
  destruct (resultant_moments rho g m G o immersed undefined z phi theta) as (HK & HM & HZ & _ & HG). rewrite E in HK, HM, HZ.
  assert (Z : fast_hydrostatic rho g (mkT (euler_matrix phi theta 0) (V3 0 0 z)) o G [] = (v0, v0)) by (unfold fast_hydrostatic, surface_force; cbn; f_equal; apply vec_eq; vec; ring).
  rewrite Z in HK, HM, HZ. cbn [fst snd t_rot] in HK, HM, HZ. rewrite mapply_zero in HK, HM, HZ. unfold dot, v0 in HK, HM, HZ. cbn [vx vy vz] in HK, HM, HZ.
  destruct (resultant_at _ _ _ _ _ _ _ _ _ _) as [a b c d]. cbn [r_Z r_K r_M r_gz] in *. assert (H : a = m * g) by (rewrite HZ; ring). rewrite (HG H), H, HK, HM. f_equal; ring.
Qed.
Print Assumptions resultant_out_of_the_water.
(** The search of the draught (C59), with this resultant: the position found is within 1E-10 of one where the volume of water
    displaced weighs as much as the body, in the sense that the body is too heavy just above and too light just below. *)
Theorem draught_balances_weight_and_displacement : forall rho g m G o immersed undefined phi theta zmin zmax (V : R -> R), 0 < g -> zmin <= zmax ->
  (forall z, exists hull lids, usable hull /\ built hull (immersed (mkT (euler_matrix phi theta 0) (V3 0 0 z))) /\
     (forall lid p, In lid lids -> In p lid -> depth (mkT (euler_matrix phi theta 0) (V3 0 0 z)) p = 0) /\ closed (hull ++ lids) /\
     V z = o * enclosed_volume (hull ++ lids)) ->
  rho * V zmin <= m -> m <= rho * V zmax ->
  exists n z lo hi, (forall fuel, (n <= fuel)%nat ->
      zeq_in fuel (fun z => Ok (r_Z (resultant_at rho g m G o immersed undefined z phi theta))) (zmin, zmax) = Ok z) /\
    zmin <= lo <= z /\ z <= hi <= zmax /\ hi - lo <= 1 / 10 ^ 10 /\ rho * V lo <= m /\ m <= rho * V hi.
Proof.
  intros rho g m G o immersed undefined phi theta zmin zmax V Hg Hz HV H1 H2.
  assert (E : forall z, r_Z (resultant_at rho g m G o immersed undefined z phi theta) = g * (m - rho * V z)).
  { intros z. destruct (HV z) as (hull & lids & U & B & L & C & ->). apply resultant_is_weight_minus_displacement; assumption. }
  destruct (equilibrium_bisection_terminates zmin zmax) as (n & Hn).
  destruct (equilibrium_bisection (fun z => r_Z (resultant_at rho g m G o immersed undefined z phi theta)) zmin zmax n Hz Hn) as (z & lo & hi & Eq & A1 & A2 & A3 & A4 & A5 & A6).
  { rewrite E. assert (0 <= g * (rho * V zmax - m)) by (apply Rmult_le_pos; lra). lra. }
  { rewrite E. apply Rmult_le_pos; lra. }
  exists n, z, lo, hi. split; [exact Eq|]. split; [exact A1|]. split; [exact A2|]. split; [exact A3|]. rewrite E in A5, A6. split.
  - destruct (Rle_lt_dec (rho * V lo) m) as [P|P]; [exact P|]. assert (0 < g * (rho * V lo - m)) by (apply Rmult_lt_0_compat; lra). lra.
  - destruct (Rle_lt_dec m (rho * V hi)) as [P|P]; [exact P|]. assert (0 < g * (m - rho * V hi)) by (apply Rmult_lt_0_compat; lra). lra.
Qed.
Print Assumptions draught_balances_weight_and_displacement.

(** A keel floating upright, its waterplane at the surface; and a diver: nothing in the water above z = 0, wholly immersed below. *)
Lemma upright : euler_matrix 0 0 0 = id3.
Proof. unfold euler_matrix, mmul, rotz, roty, rotx, transpose, mapply, dot, id3. cbn [r1 r2 r3 vx vy vz]. rewrite sin_0, cos_0. apply mat_eq; apply vec_eq; cbn [r1 r2 r3 vx vy vz]; ring. Qed.
Example keel_resultant : forall fs, built keel fs -> r_Z (resultant_at 1000 10 100 v0 1 (fun _ => fs) 0 0 0 0) = 10 * (100 - 1000 / 6).
Proof.
  intros fs B. rewrite (resultant_is_weight_minus_displacement _ _ _ _ _ _ _ _ _ _ keel waterplane keel_usable B), keel_volume.
  - lra.
  - rewrite upright. intros lid p Hl Hp. exact (proj1 keel_lid lid p Hl Hp).
  - apply tetrahedron_closed.
Qed.
Example diver : forall fs, built (keel ++ waterplane) fs -> usable (keel ++ waterplane) ->
  let immersed T := if Rltb (vz (t_point T)) 0 then [] else fs in
  exists n z lo hi, (forall fuel, (n <= fuel)%nat -> zeq_in fuel (fun z => Ok (r_Z (resultant_at 1000 10 100 v0 1 immersed 0 z 0 0))) (-5, 5) = Ok z) /\
    -5 <= lo <= z /\ z <= hi <= 5 /\ hi - lo <= 1 / 10 ^ 10 /\ lo < 0 <= hi.
Proof.
  intros fs B U immersed. set (V := fun z => if Rltb z 0 then 0 else / 6).
  destruct (draught_balances_weight_and_displacement 1000 10 100 v0 1 immersed 0 0 0 (-5) 5 V) as (n & z & lo & hi & E & A & A' & C & D & D'); try lra.
  - intros z. unfold immersed, V. cbn [t_point vz]. destruct (Rltb z 0).
    + exists [], []. split; [intros l []|]. split; [constructor|]. split; [intros l p []|]. split; [constructor|]. unfold enclosed_volume, Rsum. cbn. ring.
    + exists (keel ++ waterplane), []. split; [exact U|]. split; [exact B|]. split; [intros l p []|]. rewrite app_nil_r. split; [apply tetrahedron_closed|]. rewrite keel_volume. ring.
  - unfold V. rewrite Rltb_t by lra. lra.
  - unfold V. rewrite Rltb_f by lra. lra.
  - exists n, z, lo, hi. split; [exact E|]. split; [exact A|]. split; [exact A'|]. split; [exact C|]. unfold V in D, D'.
    destruct (Rltb_dec lo 0) as [[E1 G1]|[E1 G1]]; rewrite E1 in D; [|lra]. destruct (Rltb_dec hi 0) as [[E2 G2]|[E2 G2]]; rewrite E2 in D'; lra.
Qed.

(** ** C170, continued: the check made before a curve is computed. *)
Lemma closing_done : forall I I', update_closing I = Ok I' -> update_closing I' = Ok I'.
Proof.
  intros I I' H. unfold update_closing in *. destruct (i_closing I) eqn:E; [|injection H as <-; rewrite E; reflexivity].
  unfold build_closing_edge in H. destruct (i_on I) eqn:O; [injection H as <-; rewrite E; unfold build_closing_edge; rewrite O; reflexivity|].
  destruct (group_connected_edges _ _); cbn [bindO] in H; try discriminate. destruct (foldO _ _ _); cbn [bindO] in H; try discriminate. injection H as <-. reflexivity.
Qed.
(** The order in which the two volumes are computed does not matter. *)
Theorem volumes_in_any_order : forall I J a b, (exists K, emerged_volume I = Ok (K, a) /\ immersed_volume K = Ok (J, b)) <-> (exists K, immersed_volume I = Ok (K, b) /\ emerged_volume K = Ok (J, a)).
Proof.
  assert (S : forall part lid I I' x, update_closing I = Ok I' -> closed_volume part lid I = Ok (I', x) <-> closed_volume part lid I' = Ok (I', x)).
  { intros part lid I I' x H. unfold closed_volume. rewrite H, (closing_done _ _ H). tauto. }
  assert (P : forall p l p' l' I J a b, (exists K, closed_volume p l I = Ok (K, a) /\ closed_volume p' l' K = Ok (J, b)) -> exists K, closed_volume p' l' I = Ok (K, b) /\ closed_volume p l K = Ok (J, a)).
  { intros p l p' l' I J a b (K & H1 & H2). destruct (volume_of_a_part_partial _ _ _ _ _ H1) as (U & _). destruct (volume_of_a_part_partial _ _ _ _ _ H2) as (U2 & _).
    rewrite (closing_done _ _ U) in U2. injection U2 as ->. exists J. split; [apply (S _ _ _ _ _ U); exact H2|apply (S _ _ _ _ _ U); exact H1]. }
  intros. split; apply P.
Qed.
Print Assumptions volumes_in_any_order.

(** At the origin the surface goes through the origin of the body frame, so the lids do not count: [touches] says so. The body is
    refused exactly when it is heavier than the water displaced by the whole hull. *)
Definition touches (lids : list facet) : Prop := forall f, In f lids -> exists p r, f_points f = p :: r /\ dot (f_normal f) p = 0.
Definition counted (I : inter) (part : list nat) (hull : list facet) : Prop :=
  facets_are I part hull /\ Forall consistent hull /\ (hull = [] \/ (3 <= List.length hull)%nat).
Theorem body_that_would_sink_is_refused_partial : forall rho m I I' hull hull',
  update_closing I = Ok I' -> counted I' (i_emerged I') hull -> counted I' (i_immersed I') hull' ->
  (exists lids, lids_are I' (i_emerged I') flip_facet lids /\ touches lids) -> (exists lids, lids_are I' (i_immersed I') (fun f => f) lids /\ touches lids) ->
  0 <= enclosed_volume (map f_points hull) * enclosed_volume (map f_points hull') ->
  check_floats rho m I = if Rlt_dec (rho * Rabs (enclosed_volume (map f_points (hull ++ hull')))) m then Throw else Ok I'.
Proof.
  intros rho m I I' hull hull' U (Fe & Ce & Le) (Fi & Ci & Li) (le & Re) (li & Ri) S.
  assert (Tz : forall lids v, touches lids -> fold_left (fun v f => v + facet_volume f) lids v = v).
  { clear. induction lids as [|f r IH]; intros v H; cbn [fold_left]; [reflexivity|]. rewrite IH by (intros x Hx; apply H; right; exact Hx).
    destruct (H f (or_introl eq_refl)) as (p & q & Ep & E). unfold facet_volume. rewrite Ep, E. lra. }
  assert (V : forall part lid K h, update_closing K = Ok I' -> facets_are I' (part I') h -> Forall consistent h -> h = [] \/ (3 <= List.length h)%nat -> (exists lids, lids_are I' (part I') lid lids /\ touches lids) ->
    closed_volume part lid K = Ok (I', Rabs (enclosed_volume (map f_points h)))).
  { intros part lid K h UK (fs & E1 & E2) C L (lids & (fs' & surface & E3 & E4 & E5) & T). rewrite E1 in E3. injection E3 as <-. unfold closed_volume. rewrite UK. cbn [bindO]. rewrite E1. cbn [bindO]. rewrite E2. cbn [bindO].
    rewrite E4. cbn [bindO]. rewrite E5. cbn [bindO]. rewrite Tz by exact T. rewrite (volume_eq _ C).
    assert (X : (if (List.length h <? 3)%nat then 0 else enclosed_volume (map f_points h)) = enclosed_volume (map f_points h)).
    { destruct L as [-> |L]; [unfold enclosed_volume, Rsum; cbn; reflexivity|]. apply Nat.ltb_ge in L. rewrite L. reflexivity. }
    rewrite X. destruct (Req_dec (enclosed_volume (map f_points h)) 0) as [Z|Z]; [rewrite Reqb_t by exact Z; rewrite Z, Rabs_R0; reflexivity|rewrite Reqb_f by exact Z; reflexivity]. }
  unfold check_floats, emerged_volume, immersed_volume. rewrite (V i_emerged flip_facet I hull U Fe Ce Le) by eauto. cbn [bindO fst].
  rewrite (V i_immersed (fun f => f) I' hull' (closing_done _ _ U) Fi Ci Li) by eauto. cbn [bindO fst snd].
  rewrite map_app. assert (enclosed_volume (map f_points hull ++ map f_points hull') = enclosed_volume (map f_points hull) + enclosed_volume (map f_points hull')) as -> by (unfold enclosed_volume; rewrite map_app, concat_app, map_app; apply Rsum_app).
  set (a := enclosed_volume (map f_points hull)) in *. set (b := enclosed_volume (map f_points hull')) in *.
  assert (Rabs (a + b) = Rabs a + Rabs b) as ->.
  { destruct (Rle_lt_dec a 0) as [A|A], (Rle_lt_dec b 0) as [B|B].
    - rewrite !Rabs_left1 by lra. ring.
    - assert (a = 0) as -> by (destruct (Rle_lt_or_eq_dec a 0 A) as [A'|A']; [exfalso; nra|exact A']). rewrite Rabs_R0, !Rplus_0_l. reflexivity.
    - assert (b = 0) as -> by (destruct (Rle_lt_or_eq_dec b 0 B) as [B'|B']; [exfalso; nra|exact B']). rewrite Rabs_R0, !Rplus_0_r. reflexivity.
    - rewrite !Rabs_pos_eq by lra. reflexivity. }
  unfold Rltb. destruct (Rlt_dec _ _); reflexivity.
Qed.
Print Assumptions body_that_would_sink_is_refused_partial.
(** A hull wholly under the surface but for its lid: it is refused when it weighs more than a third of a cubic metre of water. *)
Definition hP := V3 0 0 0.
Definition hQ := V3 2 0 0.
Definition hR := V3 0 1 0.
Definition hD := V3 0 0 1.
Definition half : inter := mkI (mkMesh [] [mkMF [0; 1; 3]%nat (V3 0 (-1) 0) None 1; mkMF [1; 2; 3]%nat (V3 (1 / 3) (2 / 3) (2 / 3)) None (3 / 2);
   mkMF [2; 0; 3]%nat (V3 (-1) 0 0) None (1 / 2); mkMF [0; 2; 1]%nat lid_normal None 1] [] [] 4 0 4 [hP; hQ; hR; hD] 4 1) [] [] [] [] [0; 1; 2]%nat [3]%nat [] false.
Example half_sinks : forall m, check_floats 1000 m half = if Rlt_dec (1000 * (1 / 3)) m then Throw else Ok half.
Proof.
  intros m. set (hull := [mkFacet [hP; hQ; hD] (V3 0 (-1) 0) 1 None; mkFacet [hQ; hR; hD] (V3 (1 / 3) (2 / 3) (2 / 3)) (3 / 2) None; mkFacet [hR; hP; hD] (V3 (-1) 0 0) (1 / 2) None]).
  assert (EV : enclosed_volume (map f_points ([] ++ hull)) = 1 / 3).
  { unfold hull. cbn [List.app map f_points]. unfold enclosed_volume. cbn [map List.concat triangles triangles_from List.app tetrahedron]. unfold Rsum, hP, hQ, hR, hD. cbn [fold_right]. vec. lra. }
  rewrite (body_that_would_sink_is_refused_partial 1000 m half half [] hull).
  - rewrite EV, Rabs_pos_eq by lra. reflexivity.
  - reflexivity.
  - split; [exists []; split; reflexivity|]. split; [apply List.Forall_nil|left; reflexivity].
  - split; [eexists; split; reflexivity|]. split; [|right; cbn; lia].
    unfold hull. repeat apply List.Forall_cons; try apply List.Forall_nil; unfold consistent; cbn [f_normal f_points f_area];
      (split; [vec; lra|]); (split; [|cbn [triangles triangles_from map]; unfold Rsum, vector_area, hP, hQ, hR, hD; cbn [fold_right]; vec; lra]).
    + exists 0. intros p Hp. cbn in Hp. unfold hP, hQ, hR, hD in Hp. destruct Hp as [<-|[<-|[<-|[]]]]; vec; lra.
    + exists (2 / 3). intros p Hp. cbn in Hp. unfold hP, hQ, hR, hD in Hp. destruct Hp as [<-|[<-|[<-|[]]]]; vec; lra.
    + exists 0. intros p Hp. cbn in Hp. unfold hP, hQ, hR, hD in Hp. destruct Hp as [<-|[<-|[<-|[]]]]; vec; lra.
  - exists [mkFacet [hQ; hR; hP] (vopp lid_normal) 1 None]. split.
    + exists [], [mkMF [0; 2; 1]%nat lid_normal None 1]. split; [reflexivity|]. split; [reflexivity|]. reflexivity.
    + intros f [<-|[]]. do 2 eexists. split; [reflexivity|]. unfold lid_normal, hQ. cbn [f_normal]. vec. ring.
  - exists [mkFacet [hP; hR; hQ] lid_normal 1 None]. split; [|intros f [<-|[]]; do 2 eexists; (split; [reflexivity|]); unfold lid_normal, hP; cbn [f_normal]; vec; ring].
    eexists _, [mkMF [0; 2; 1]%nat lid_normal None 1]. split; [reflexivity|]. split; [reflexivity|]. cbn [map filter].
    assert (has_facet (mkMF [0; 2; 1]%nat lid_normal None 1) [mkMF [0; 1; 3]%nat (V3 0 (-1) 0) None 1; mkMF [1; 2; 3]%nat (V3 (1 / 3) (2 / 3) (2 / 3)) None (3 / 2); mkMF [2; 0; 3]%nat (V3 (-1) 0 0) None (1 / 2)] = false) as F.
    { unfold has_facet. cbn [mf_vertices forallb mf_normal]. apply andb_false_intro1. unfold contains_vertex. cbn [existsb mf_normal].
      rewrite !Rltb_t; [reflexivity| | |]; unfold lid_normal, vsub; cbn [vx vy vz]; apply far_normals; lra. }
    rewrite F. reflexivity.
  - replace (enclosed_volume (map f_points [])) with 0 by (unfold enclosed_volume, Rsum; cbn; reflexivity). rewrite Rmult_0_l. lra.
Qed.
