(** C41, C42: the mesh builder. *)
From Coq Require Import Reals List Bool Arith Lra Lia.
From Verif Require Import Common Geometry Sim_Model Hull_Model Hull_Proofs Blocked_Model Blocked_Proofs Mesh_Model Mesh_Spec Mesh_Proofs.
Import ListNotations.
Open Scope R_scope.

Definition vec3_dec (a b : vec3) : {a = b} + {a <> b}.
Proof.
  destruct a as [a1 a2 a3], b as [b1 b2 b3]. destruct (Req_EM_T a1 b1) as [->|N1]; [|right; congruence].
  destruct (Req_EM_T a2 b2) as [->|N2]; [|right; congruence]. destruct (Req_EM_T a3 b3) as [->|N3]; [left; reflexivity|right; congruence].
Defined.
(** Number of distinct points of a list of polygons. *)
Definition distinct_points (v : list (list vec3)) : nat := length (nodup vec3_dec (concat v)).

Lemma built_facet_size : forall b l b', build_facet_of b l = Ok b' -> (length l = 0 \/ 3 <= length l)%nat.
Proof. intros b [|p0 [|p1 [|p2 l]]] b' H; cbn in H; try discriminate H; cbn [length]; lia. Qed.
Lemma built_facets_size : forall v b b', foldO build_facet_of v b = Ok b' -> forall l, In l v -> (length l = 0 \/ 3 <= length l)%nat.
Proof.
  induction v as [|l v IH]; intros b b' H k Hk; [destruct Hk|]. cbn [foldO] in H. destruct (build_facet_of b l) as [b1| |] eqn:E; try discriminate H.
  destruct Hk as [<-|Hk]; [exact (built_facet_size _ _ _ E)|exact (IH _ _ H _ Hk)].
Qed.

(** C41: the tables of a mesh are faithful to the polygons it was built from. *)
Theorem mesh_tables_are_faithful : forall check v m, build_mesh check v = Ok m -> table_of v m.
Proof.
  intros check v m H. unfold build_mesh in H. destruct (if check then _ else _) as [cw| |]; try discriminate H. cbn [bindO] in H.
  destruct (foldO build_facet_of v (builder_init v)) as [b| |] eqn:E; try discriminate H. cbn [bindO] in H.
  pose proof (build_facets_spec v [] (builder_init v) (finv_init v) (built_facets_size _ _ _ E)) as P. rewrite E in P. cbn [app] in P. destruct P as [[I FF FG FN FO FC FU] _].
  rewrite (resize_spec b (i_cap _ I)) in H. cbn [bindO] in H. injection H as <-.
  assert (SN : static_nodes (make_mesh (nodes_of b) b cw) = nodes_of b).
  { unfold static_nodes, make_mesh. cbn [m_nnodes m_all]. rewrite firstn_app, firstn_all, Nat.sub_diag. cbn. apply app_nil_r. }
  constructor; rewrite ?SN; unfold make_mesh; cbn [m_facets m_edges m_fpe m_oef].
  - exact FF.
  - exact FG.
  - exact (i_nodup _ I).
  - exact FN.
  - exact (i_once _ I).
  - exact FO.
  - exact (i_fpe _ I).
  - intros e f l Hl. rewrite <- FC. rewrite (nth_error_nth _ _ [] Hl). reflexivity.
  - exact FU.
Qed.
Print Assumptions mesh_tables_are_faithful.

(** C42: exactly when the builder writes outside its buffer of nodes: polygons of at least three points (or none), and more distinct points than
    the number of polygons times the size of the first one. *)
Theorem mesh_builder_overflows_iff : forall v, (forall l, In l v -> length l = 0 \/ 3 <= length l)%nat ->
  (build_mesh false v = UB <-> (length v * length (hd [] v) < distinct_points v)%nat) /\ build_mesh false v <> Throw.
Proof.
  intros v H. unfold build_mesh. cbn [bindO].
  assert (CAP : length (b_nodes (builder_init v)) = (length v * length (hd [] v))%nat).
  { destruct v as [|f v]; [reflexivity|]. unfold builder_init. cbn [b_nodes hd]. apply repeat_length. }
  pose proof (build_facets_spec v [] (builder_init v) (finv_init v) H) as P. cbn [app] in P.
  destruct (foldO build_facet_of v (builder_init v)) as [b| |]; cbn [bindO]; [|destruct P|].
  - destruct P as [[I _ _ FN _ _ _] L]. rewrite (resize_spec b (i_cap _ I)). cbn [bindO]. split; [|discriminate]. split; [discriminate|]. intros G. exfalso.
    assert (distinct_points v <= length (nodes_of b))%nat.
    { apply NoDup_incl_length; [apply NoDup_nodup|]. intros q Hq. apply nodup_In in Hq. apply FN. exact Hq. }
    pose proof (i_cap _ I) as C. unfold nodes_of in *. rewrite firstn_length in *. lia.
  - split; [|discriminate]. split; [|reflexivity]. intros _. destruct P as (N & p & ND & LN & NI & SUB).
    assert (length (p :: N) <= distinct_points v)%nat.
    { apply NoDup_incl_length; [constructor; assumption|]. intros q Hq. apply nodup_In, SUB. exact Hq. }
    cbn [length] in *. lia.
Qed.
Print Assumptions mesh_builder_overflows_iff.

(** C42, partial: without overflow when no polygon has more points than the first (triangles for instance). *)
Theorem mesh_builder_within_buffer_partial : forall check v,
  (forall l, In l v -> (length l = 0 \/ 3 <= length l) /\ length l <= length (hd [] v))%nat -> build_mesh check v <> UB.
Proof.
  intros check v H. assert (H' : forall l, In l v -> (length l = 0 \/ 3 <= length l)%nat) by (intros l Hl; apply (H l Hl)).
  destruct (mesh_builder_overflows_iff v H') as [X _]. unfold build_mesh in *. cbn [bindO] in X.
  assert (NU : (do b <- foldO build_facet_of v (builder_init v); do nodes <- resize_nodes b; Ok (make_mesh nodes b true)) <> UB).
  { intros E. apply X in E. unfold distinct_points in E.
    assert (length (nodup vec3_dec (concat v)) <= length (concat v))%nat.
    { apply NoDup_incl_length; [apply NoDup_nodup|]. intros q Hq. apply nodup_In in Hq. exact Hq. }
    assert (length (concat v) <= length v * length (hd [] v))%nat.
    { clear - H. assert (G : forall n (w : list (list vec3)), (forall l, In l w -> length l <= n)%nat -> (length (concat w) <= length w * n)%nat).
      { intros n. induction w as [|l w IH]; intros F; cbn [concat length]; [lia|]. rewrite app_length.
        pose proof (F l (or_introl eq_refl)). specialize (IH (fun k Hk => F k (or_intror Hk))). lia. }
      apply G. intros l Hl. apply (H l Hl). }
    lia. }
  destruct check; cbn [bindO].
  - destruct (oriented_clockwise v (mesh_barycenter v)) as [cw| |] eqn:E; cbn [bindO]; [|discriminate|].
    + intros U. apply NU. destruct (foldO build_facet_of v (builder_init v)) as [b| |]; cbn [bindO] in *; try congruence.
      destruct (resize_nodes b); cbn [bindO] in *; congruence.
    + exfalso. clear - E. unfold oriented_clockwise in E. destruct (length v <? 2)%nat; [discriminate|].
      assert (C : forall G w, count_clockwise w G <> UB).
      { intros G. induction w as [|f w IH]; cbn [count_clockwise]; [discriminate|]. unfold oriented_clockwise_facet.
        destruct (length f <? 3)%nat eqn:L; cbn [bindO].
        - destruct (count_clockwise w G) as [[c a]| |]; cbn [bindO]; congruence.
        - destruct f as [|p0 [|p1 [|p2 f]]]; cbn in L; try discriminate L. unfold unit_normal.
          destruct (Rltb _ _); cbn [bindO]; destruct (barycenter _); destruct G; cbn [bindO];
          destruct (count_clockwise w _) as [[c a]| |]; cbn [bindO]; try congruence; destruct (negb _); congruence. }
      destruct (count_clockwise v (mesh_barycenter v)) as [[c a]| |] eqn:F; cbn [bindO] in E; try discriminate E; [|exact (C _ _ F)].
      destruct (10 * a <? c)%nat; [discriminate|]. destruct (10 * c <? a)%nat; discriminate.
  - exact NU.
Qed.
Print Assumptions mesh_builder_within_buffer_partial.

(** The general property is false: a triangle followed by a larger polygon. *)
Definition small_then_large : list (list vec3) :=
  [[V3 0 0 0; V3 1 0 0; V3 0 1 0]; [V3 0 0 1; V3 1 0 1; V3 1 1 1; V3 0 1 1]].
Theorem mesh_builder_within_buffer_refuted : exists v, (forall l, In l v -> (3 <= length l)%nat) /\ build_mesh false v = UB.
Proof.
  exists small_then_large. assert (B : forall l, In l small_then_large -> (3 <= length l)%nat) by (intros l [<-|[<-|[]]]; cbn; lia).
  split; [exact B|]. apply mesh_builder_overflows_iff; [intros l Hl; right; exact (B l Hl)|].
  apply Nat.lt_le_trans with (m := length (concat small_then_large)); [cbn; lia|].
  apply NoDup_incl_length; [|intros q Hq; apply nodup_In; exact Hq].
  unfold small_then_large. cbn [concat app].
  repeat (constructor; [cbn [In]; intros HH; repeat (destruct HH as [HH|HH]; [injection HH; intros; lra|]); exact HH|]). constructor.
Qed.
Print Assumptions mesh_builder_within_buffer_refuted.

(** Example: two triangles sharing an edge are built, with 4 nodes and 5 edges. *)
Definition two_triangles : list (list vec3) := [[V3 0 0 0; V3 1 0 0; V3 0 1 0]; [V3 1 0 0; V3 1 1 0; V3 0 1 0]].
Example two_triangles_build : exists m, build_mesh false two_triangles = Ok m.
Proof.
  assert (B : (forall l, In l two_triangles -> (length l = 0 \/ 3 <= length l) /\ length l <= length (hd [] two_triangles))%nat) by (intros l [<-|[<-|[]]]; cbn; lia).
  pose proof (mesh_builder_within_buffer_partial false _ B) as NU.
  destruct (mesh_builder_overflows_iff two_triangles (fun l Hl => proj1 (B l Hl))) as [_ NT].
  destruct (build_mesh false two_triangles) as [m| |]; [eauto|congruence|congruence].
Qed.
