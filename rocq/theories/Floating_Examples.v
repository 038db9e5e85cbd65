(** A tetrahedron floating in still water meets the hypotheses of the theorems of C102 and C103: it displaces 4 m3. *)
From Coq Require Import Reals List Bool Arith Lra Lia Permutation.
From Verif Require Import Common Geometry Force_Model Hull_Model Hull_Spec Hull_Proofs Hull_Props Hull_Force_Props Hull_Examples Mesh_Model Mesh_Spec Mesh_Props Triangle_Proofs Cut_Props
  Closing_Model Closing_Spec Closing_Contour_Proofs Closing_Contour_Props Lid_Groups_Proofs Lid_Build_Proofs Floating_Spec Floating_Geometry_Proofs Floating_Proofs Floating_Facets_Proofs Floating_Props Floating_Force_Props.
Import ListNotations.
Open Scope R_scope.

(** Any mesh of triangles is built. *)
Lemma triangle_mesh_builds : forall v, triangle_mesh v -> exists m, build_mesh false v = Ok m.
Proof.
  intros v TM. assert (L : forall l, In l v -> length l = 3%nat) by (intros l Hl; destruct (TM l Hl) as (a & b & c & -> & _); reflexivity).
  assert (B : (forall l, In l v -> (length l = 0 \/ 3 <= length l) /\ length l <= length (hd [] v))%nat).
  { intros l Hl. rewrite (L l Hl). destruct v as [|k v]; [destruct Hl|]. cbn [hd]. rewrite (L k (or_introl eq_refl)). lia. }
  pose proof (mesh_builder_within_buffer_partial false _ B) as NU. destruct (mesh_builder_overflows_iff v (fun l Hl => proj1 (B l Hl))) as [_ NT].
  destruct (build_mesh false v) as [m| |]; [eauto|congruence|congruence].
Qed.

Definition tA := V3 3 0 (-1). Definition tB := V3 0 3 (-1). Definition tC := V3 (-3) (-3) (-1). Definition tD := V3 0 0 2.
Definition buoy : list (list vec3) := [[tA; tC; tB]; [tA; tB; tD]; [tB; tC; tD]; [tC; tA; tD]].
Definition wA := V3 2 0 0. Definition wB := V3 0 2 0. Definition wC := V3 (-2) (-2) 0.
Notation im := (depth idT).
Ltac apart := intros HH; injection HH; intros; lra.
Ltac literal := unfold tA, tB, tC, tD, wA, wB, wC.
Lemma im_vz : forall p, im p = vz p.
Proof. intros [x y z]. unfold depth, tapply, idT. cbn [t_rot t_point]. vec. ring. Qed.
Lemma im_A : im tA = -1. Proof. apply im_vz. Qed.
Lemma im_B : im tB = -1. Proof. apply im_vz. Qed.
Lemma im_C : im tC = -1. Proof. apply im_vz. Qed.
Lemma im_D : im tD = 2. Proof. apply im_vz. Qed.
Ltac ims := rewrite ?im_A, ?im_B, ?im_C, ?im_D.
Lemma cross_at : cut (tA, -1) (tD, 2) = wA /\ cut (tB, -1) (tD, 2) = wB /\ cut (tC, -1) (tD, 2) = wC /\ cut (tD, 2) (tA, -1) = wA /\ cut (tD, 2) (tB, -1) = wB /\ cut (tD, 2) (tC, -1) = wC.
Proof. unfold cut. cbn [fst snd]. literal. unfold vadd, vscale, vsub. cbn [vx vy vz]. repeat split; f_equal; field. Qed.
Lemma buoy_mesh : triangle_mesh buoy.
Proof. intros l [<-|[<-|[<-|[<-|[]]]]]; do 3 eexists; (split; [reflexivity|]); literal; repeat split; apart. Qed.
Lemma buoy_closed : closed buoy.
Proof. unfold closed, edges, buoy. cbn [map concat cycle path List.app]. unfold swap. cbn [fst snd]. perm. Qed.
Lemma buoy_off : forall p, In p (concat buoy) -> im p <> 0.
Proof. intros p Hp. cbn [buoy concat List.app In] in Hp. repeat match goal with H : _ \/ _ |- _ => destruct H as [<-|H] | H : False |- _ => destruct H end; ims; lra. Qed.
Ltac signs := repeat match goal with |- context [Rlt_dec ?u ?v] => destruct (Rlt_dec u v); try (exfalso; lra) | |- context [Rle_dec ?u ?v] => destruct (Rle_dec u v); try (exfalso; lra) end.
Lemma buoy_segments : segments im [tA; tC; tB] = [] /\ segments im [tA; tB; tD] = [(wB, wA)] /\ segments im [tB; tC; tD] = [(wC, wB)] /\ segments im [tC; tA; tD] = [(wA, wC)].
Proof.
  destruct cross_at as (C1 & C2 & C3 & C4 & C5 & C6). unfold segments. rewrite !entry3, !exit3. unfold crossing_point. ims. signs. cbn [List.app combine]. rewrite C1, C2, C3, C4, C5, C6. auto.
Qed.
Ltac wets := repeat first [rewrite keep_im by lra|rewrite drop_im by lra|rewrite xing_no by lra|rewrite xing_yes by lra].
Lemma buoy_wet : wet im [tA; tC; tB] = [] /\ wet im [tA; tB; tD] = [wB; tD; wA] /\ wet im [tB; tC; tD] = [wC; tD; wB] /\ wet im [tC; tA; tD] = [wA; tD; wC].
Proof.
  destruct cross_at as (C1 & C2 & C3 & C4 & C5 & C6). rewrite !wet3. ims. wets. cbn [List.app]. rewrite C1, C2, C3, C4, C5, C6. auto.
Qed.
Definition buoy_lines : list (list vec3) := [[wB; wA; wC]].
Lemma buoy_waterlines : waterlines im buoy buoy_lines.
Proof.
  destruct buoy_segments as (S1 & S2 & S3 & S4). split.
  - unfold waterline, buoy. cbn [flat_map]. rewrite S1, S2, S3, S4. cbn [List.app]. unfold edges, buoy_lines. cbn [map concat cycle path List.app]. perm.
  - unfold buoy_lines. cbn [concat List.app]. repeat (constructor; [cbn [In]; literal; intros HH; repeat (destruct HH as [HH|HH]; [injection HH; intros; lra|]); exact HH|]). constructor.
Qed.
Lemma buoy_closable : forall l, In l buoy_lines -> closable l.
Proof.
  intros l [<-|[]]. unfold closable. split; [cbn; lia|]. split.
  - split; [unfold lid_normal; norm_is 1|]. split.
    + intros p q Hp Hq. cbn [map In] in Hp, Hq. repeat match goal with H : _ \/ _ |- _ => destruct H as [<-|H] | H : False |- _ => destruct H end; unfold flat, lid_normal; literal; vec; ring.
    + intros i j k Hij Hjk Hk. cbn [map length] in Hk. assert (i = 0 /\ j = 1 /\ k = 2)%nat as (-> & -> & ->) by lia. cbn [map nth]. unfold flat, lid_normal. literal. vec. lra.
  - split.
    + intros e f He Hf. cbn [cyclic_pairs List.app combine In] in He, Hf.
      repeat match goal with H : _ \/ _ |- _ => destruct H as [<-|H] | H : False |- _ => destruct H end; unfold turn; cbn [fst snd]; literal; unfold cross, vsub; cbn [vx vy vz];
        (left; lra) || (right; unfold Rabs; destruct (Rcase_abs _); lra).
    + intros e He. cbn [cyclic_pairs List.app combine In] in *. destruct He as [<-|[<-|[<-|[]]]];
        [exists (wA, wC)|exists (wC, wB)|exists (wB, wA)]; (split; [tauto|]); unfold turn; cbn [fst snd]; literal; unfold cross, vsub; cbn [vx vy vz]; lra.
Qed.
Lemma buoy_norms : norm (cross (vsub tC tA) (vsub tB tA)) = 27 /\ 1 <= norm (cross (vsub tB tA) (vsub tD tA)) /\ 1 <= norm (cross (vsub tC tB) (vsub tD tB)) /\ 1 <= norm (cross (vsub tA tC) (vsub tD tC)).
Proof. split; [literal; norm_is 27|]. repeat split; apply norm_ge_1; literal; vec; lra. Qed.
Lemma buoy_shaped : forall l, In l buoy -> exists n, well_shaped (1000 * epsilon) n l.
Proof.
  destruct buoy_norms as (N1 & N2 & N3 & N4). pose proof epsilon_pos. assert (E : 1000 * epsilon <= 1) by (unfold epsilon; lra).
  intros l [<-|[<-|[<-|[<-|[]]]]]; eexists; apply triangle_well_shaped; lra.
Qed.
(** The three wet faces lean downwards: their normal is far from the one of the lids. *)
Lemma leaning : forall a b c n, 1 <= norm (cross (vsub b a) (vsub c a)) -> 0 < vz (cross (vsub b a) (vsub c a)) -> unit_normal [a; b; c] = Ok n -> / 100000000 < norm (vsub lid_normal n).
Proof.
  intros a b c n N1 Z E. pose proof epsilon_pos. assert (E1 : 1000 * epsilon <= 1) by (unfold epsilon; lra).
  rewrite (well_shaped_normal _ _ (triangle_well_shaped a b c (1000 * epsilon) ltac:(lra) ltac:(lra))) in E. injection E as <-.
  set (u := cross (vsub b a) (vsub c a)) in *. assert (P : 0 < vz u * / norm u) by (apply Rmult_lt_0_compat; [exact Z|apply Rinv_0_lt_compat; lra]).
  apply Rlt_le_trans with 1; [lra|]. apply norm_ge_1. revert P. generalize (/ norm u). destruct u as [x y z]. clear. unfold vsub, vscale, lid_normal, dot. cbn [vx vy vz]. intros k P. nra.
Qed.
Lemma buoy_far : forall l n, In l buoy -> segments im l <> [] -> unit_normal l = Ok n -> / 100000000 < norm (vsub lid_normal n).
Proof.
  destruct buoy_segments as (S1 & _). destruct buoy_norms as (_ & N2 & N3 & N4).
  intros l n [<-|[<-|[<-|[<-|[]]]]] S E; [congruence| | |]; refine (leaning _ _ _ _ _ _ E); try assumption; literal; vec; lra.
Qed.
Lemma buoy_directions : two_directions im buoy.
Proof.
  destruct buoy_norms as (_ & N2 & N3 & N4). destruct buoy_wet as (_ & W2 & W3 & _). pose proof epsilon_pos. assert (E1 : 1000 * epsilon <= 1) by (unfold epsilon; lra).
  exists [tA; tB; tD], [tB; tC; tD]. do 2 eexists. split; [right; left; reflexivity|]. split; [right; right; left; reflexivity|]. unfold is_wet. rewrite W2, W3. split; [reflexivity|]. split; [reflexivity|].
  split; [apply triangle_well_shaped; lra|]. split; [apply triangle_well_shaped; lra|].
  assert (Q : forall x y, 0 < norm x -> 0 < norm y -> dot x y <= 0 -> dot (vscale (/ norm x) x) (vscale (/ norm y) y) <= 1 - 4 / 1000000).
  { intros x y Hx Hy D. apply Rinv_0_lt_compat in Hx, Hy. revert Hx Hy. generalize (/ norm x) (/ norm y). intros p q Hp Hq.
    replace (dot (vscale p x) (vscale q y)) with (p * q * dot x y) by (clear; vring). pose proof (Rmult_lt_0_compat _ _ Hp Hq). nra. }
  apply Q; [lra|lra|]. literal. vec. lra.
Qed.
Lemma buoy_volume : enclosed_volume (map (wet im) buoy ++ buoy_lines) = 4.
Proof.
  destruct buoy_wet as (W1 & W2 & W3 & W4). unfold buoy. cbn [map]. rewrite W1, W2, W3, W4. unfold enclosed_volume, buoy_lines, Rsum. cbn [List.app map triangles triangles_from concat fold_right tetrahedron]. literal. vec. lra.
Qed.

(** The buoy, just built: in sea water it is pushed upwards with the weight of 4 m3. *)
Example buoy_floats : exists m I' I'' B, build_mesh false buoy = Ok m /\
  update_intersection (intersector m) (map im (static_nodes m)) (repeat 0 (m_nnodes m)) = Ok I' /\ center_of_mass_immersed I' = Ok (I'', (B, 4, false)) /\
  fst (hydrostatic 1025 10 idT (V3 0 0 0) (B, 4, false)) = V3 0 0 (- 41000).
Proof.
  destruct (triangle_mesh_builds buoy buoy_mesh) as (m & BM). exists m.
  destruct (floating_hull_archimedes_partial false buoy m (intersector m) idT idT 1025 10 (V3 0 0 0) (repeat 0 (m_nnodes m)) buoy_lines) as (I' & I'' & com & H1 & H2 & -> & H4 & _).
  - exact buoy_mesh.
  - exact buoy_closed.
  - exact BM.
  - apply used_new.
  - apply repeat_length.
  - apply rotation_id.
  - reflexivity.
  - exact buoy_off.
  - exact buoy_waterlines.
  - exact buoy_closable.
  - exact buoy_shaped.
  - exact buoy_far.
  - exact buoy_directions.
  - rewrite buoy_volume. lra.
  - rewrite buoy_volume in *. exists I', I''. eexists. split; [exact BM|]. split; [exact H1|]. split; [exact H2|]. rewrite H4. cbn [fst]. unfold idT, id3. cbn [t_rot r3]. apply vec_eq; vec; lra.
Qed.
