(** C43: what goes wrong with polygons that are not triangles. *)
From Coq Require Import Reals List Bool Arith ZArith Lra Lia.
From Verif Require Import Common Geometry Sim_Model Hull_Model Hull_Spec Hull_Proofs Blocked_Model Blocked_Proofs Mesh_Model Mesh_Spec Mesh_Proofs Mesh_Props Cut_Proofs Triangle_Proofs Cut_Loop_Proofs Cut_Props Cut_Area_Props.
Import ListNotations.
Open Scope R_scope.

Ltac reals := repeat match goal with
  | |- context [Rltb ?a ?b] => first [rewrite (Rltb_t a b) by lra | rewrite (Rltb_f a b) by lra]
  | |- context [Reqb ?a ?b] => first [rewrite (Reqb_t a b) by lra | rewrite (Reqb_f a b) by lra] end.
Ltac simp := cbn -[Rltb Reqb norm cross unit_normal area centre_of_gravity build_one_point build_points build_one_edge].
Ltac point := match goal with |- context [build_one_point ?b ?p] => let E := fresh in
  eassert (E : build_one_point b p = Ok (_, _)) by (unfold build_one_point, map_get; simp; unfold vector3d_lt; cbn [vx vy vz]; reals; simp; reals; simp; reflexivity);
  rewrite E; clear E; cbn [bindO] end.
Ltac points := repeat (cbn [build_points]; point; point; unfold build_one_edge at 1; simp).

Definition square : list vec3 := [V3 0 0 0; V3 1 0 0; V3 1 1 0; V3 0 1 0].
Lemma square_built : exists n, build_mesh false [square] = Ok (mkMesh [(0, 1); (1, 2); (2, 3); (3, 0)]%nat [mkMF [0; 1; 2; 3]%nat n (centre_of_gravity square) (area square)]
  [[0%nat]; [0%nat]; [0%nat]; [0%nat]] [[0; 2; 4; 6]%nat] 4 4 1 (square ++ repeat v0 4) 4 (-1)).
Proof.
  unfold build_mesh. cbn [bindO foldO]. unfold build_facet_of, square at 1. fold square.
  assert (U : exists n, unit_normal square = Ok n) by (unfold unit_normal, square; destruct (Rltb _ _); eexists; reflexivity). destruct U as [n U]. rewrite U. cbn [bindO].
  exists n. unfold square at 1 2 3 4 5. points. reflexivity.
Qed.

Ltac statuses := repeat match goal with
  | |- context [immersion_status ?a ?b] => let E := fresh in first
    [ assert (E : immersion_status a b = 0%nat) by (unfold immersion_status; reals; reflexivity) | assert (E : immersion_status a b = 4%nat) by (unfold immersion_status; reals; reflexivity)
    | assert (E : immersion_status a b = 8%nat) by (unfold immersion_status; reals; reflexivity) | assert (E : immersion_status a b = 6%nat) by (unfold immersion_status; reals; reflexivity)
    | assert (E : immersion_status a b = 9%nat) by (unfold immersion_status; reals; reflexivity) ]; rewrite E; clear E end.
Ltac go := cbn -[scan_edge immersion_status area centre_of_gravity edge_intersection].
Ltac scans := repeat (unfold scan_edge at 1; go; statuses; go).

(** C43 is false of polygons with four vertices: a square with one corner above the surface and three exactly on it makes the code read past the
    end of a vector. *)
Theorem free_surface_cut_refuted : exists v m rel waves, build_mesh false v = Ok m /\ length rel = m_nnodes m /\ length waves = m_nnodes m /\
  update_intersection (intersector m) rel waves = UB.
Proof.
  destruct square_built as [n E]. exists [square]. eexists. exists [-1; 0; 0; 0], [0; 0; 0; 0]. split; [exact E|]. split; [reflexivity|]. split; [reflexivity|].
  unfold update_intersection, find_intersection. cbn [intersector reset_dynamic_members reset_dynamic_data i_mesh m_nedges m_nfacets repeat seq foldO s_inter].
  scans. reflexivity.
Qed.
Print Assumptions free_surface_cut_refuted.

(** Nor do the parts of a square add up when its corners are alternately under and above the surface: the four edges are cut, but a single edge
    closes the two parts, that overlap. *)
Theorem saddle_areas_refuted : exists m I', build_mesh false [square] = Ok m /\ update_intersection (intersector m) [1; -1; 1; -1] [0; 0; 0; 0] = Ok I' /\
  area square = 1 /\ total_area (m_facets (i_mesh I')) (i_immersed I') + total_area (m_facets (i_mesh I')) (i_emerged I') = 5 / 4.
Proof.
  destruct square_built as [n E]. eexists. eexists. split; [exact E|]. split.
  { unfold update_intersection, find_intersection. cbn [intersector reset_dynamic_members reset_dynamic_data i_mesh m_nedges m_nfacets repeat seq foldO s_inter].
    scans. reflexivity. }
  unfold total_area, area_of, Rsum. cbn -[area edge_intersection]. unfold edge_intersection. cbn [vx vy vz].
  repeat match goal with |- context [?a / (?a - ?b)] => replace (a / (a - b)) with (1 / 2) by field end.
  assert (T : forall a b c d e f, area3 (V3 a b 0) (V3 c d 0) (V3 e f 0) = Rabs ((c - a) * (f - b) - (d - b) * (e - a)) / 2).
  { intros. rewrite area3_norm. unfold norm. match goal with |- _ * sqrt ?x = _ => replace x with (Rsqr ((c - a) * (f - b) - (d - b) * (e - a))) by (unfold Rsqr; vec; ring) end.
    rewrite sqrt_Rsqr_abs. field. }
  unfold area. cbn [fan fan_from fold_left square].
  repeat match goal with |- context [V3 ?a ?b (0 + ?k * (0 - 0))] => replace (V3 a b (0 + k * (0 - 0))) with (V3 a b 0) by (f_equal; ring) end.
  rewrite !T. split.
  - rewrite !Rabs_right by lra. field.
  - rewrite !Rabs_right by lra. field.
Qed.
Print Assumptions saddle_areas_refuted.

(** Facets that are entirely on the surface are counted twice, as immersed and as emerged. *)
Definition flat_triangle : list vec3 := [V3 0 0 0; V3 1 0 0; V3 0 1 0].
Lemma flat_triangle_mesh : triangle_mesh [flat_triangle].
Proof. intros l [<-|[]]. do 3 eexists. split; [reflexivity|]. repeat split; intros H; injection H; intros; lra. Qed.
Theorem surface_facets_counted_twice_refuted : exists v m rel waves I', triangle_mesh v /\ build_mesh false v = Ok m /\ length rel = m_nnodes m /\ length waves = m_nnodes m /\
  update_intersection (intersector m) rel waves = Ok I' /\ 0 < Rsum (map area v) /\
  total_area (m_facets (i_mesh I')) (i_immersed I') + total_area (m_facets (i_mesh I')) (i_emerged I') = 2 * Rsum (map area v).
Proof.
  assert (B : exists m, build_mesh false [flat_triangle] = Ok m).
  { assert (S3 : (forall l, In l [flat_triangle] -> (length l = 0 \/ 3 <= length l) /\ length l <= length (hd [] [flat_triangle]))%nat) by (intros l [<-|[]]; cbn; lia).
    pose proof (mesh_builder_within_buffer_partial false _ S3) as NU. destruct (mesh_builder_overflows_iff [flat_triangle] (fun l Hl => proj1 (S3 l Hl))) as [_ NT].
    destruct (build_mesh false [flat_triangle]) as [m| |]; [eauto|congruence|congruence]. }
  destruct B as [m B]. exists [flat_triangle], m, (repeat 0 (m_nnodes m)), (repeat 0 (m_nnodes m)).
  destruct (free_surface_cut_partial false [flat_triangle] m (intersector m) (repeat 0 (m_nnodes m)) (repeat 0 (m_nnodes m)) flat_triangle_mesh B (reach_new m) (repeat_length _ _) (repeat_length _ _)) as (I' & U & SC).
  exists I'. split; [exact flat_triangle_mesh|]. split; [exact B|]. split; [apply repeat_length|]. split; [apply repeat_length|]. split; [exact U|].
  assert (AR : area flat_triangle = 1 / 2).
  { unfold flat_triangle. rewrite area_3, area3_norm. unfold norm. replace (dot _ _) with (Rsqr 1) by (unfold Rsqr; vec; ring). rewrite sqrt_Rsqr by lra. field. }
  unfold Rsum at 1 2. cbn [map fold_right]. rewrite AR. split; [lra|].
  pose proof (mesh_tables_are_faithful _ _ _ B) as [TF TG _ _ _ _ _ _ _]. destruct (build_mesh_shape _ _ _ B) as (S1 & S2 & S3 & S4).
  cbn [filter length Nat.eqb negb flat_triangle] in TF, TG. fold flat_triangle in TF, TG.
  destruct (m_facets m) as [|fc [|]] eqn:EF; [inversion TF| |inversion TF as [|? ? ? ? ? X]; inversion X].
  inversion TF as [|? ? ? ? HP _]; subst. clear TF TG.
  destruct (sc_static _ _ _ _ SC) as [(A1 & A2 & A3) _ SN _ SF _]. destruct (sc_facets _ _ _ _ SC) as (ims & ems & N1 & N2 & -> & -> & CA).
  rewrite S2 in *. cbn [length] in *. destruct ims as [|im [|]]; try discriminate N1. destruct ems as [|em [|]]; try discriminate N2. cbn [concat]. rewrite !app_nil_r.
  destruct (CA 0%nat im em eq_refl eq_refl) as (fc' & pts & F & HP' & H).
  assert (F' : nth_error (m_facets (i_mesh I')) 0 = Some fc).
  { rewrite <- (nth_error_firstn _ 1 0) by lia. rewrite SF, EF. reflexivity. }
  rewrite F' in F. injection F as <-.
  assert (ALL : m_all (i_mesh I') = static_nodes m ++ skipn (m_nnodes m) (m_all (i_mesh I'))) by (rewrite <- SN; unfold static_nodes; rewrite A1; symmetry; apply firstn_skipn).
  pose proof (has_points_fun _ _ _ _ HP' (eq_ind_r (fun l => has_points l (mf_vertices fc) flat_triangle) (has_points_mono _ _ _ _ HP) ALL)) as ->.
  assert (Z : forall i, nth i (repeat 0 (m_nnodes m)) 0 = 0) by (intros i; apply (repeat_spec (S (m_nnodes m)) 0); destruct (nth_in_or_default i (repeat 0 (m_nnodes m)) 0) as [G| ->]; [right; exact G|left; reflexivity]).
  cbv zeta in H. destruct H as [((i & _ & P) & _)|[((i & _ & P) & _)|(_ & i & e & fi & fe & pi & pe & -> & -> & Fi & Fe & Pi & Pe & Ri & Re & _ & _ & Ai & Ae & _)]];
    [rewrite Z in P; lra|rewrite Z in P; lra|].
  unfold has_points in HP. unfold flat_triangle in *. destruct (mf_vertices fc) as [|a [|b [|c [|]]]]; try discriminate HP. cbn [map combine] in Ri, Re. rewrite !Z in Ri, Re.
  rewrite clip3 in Ri, Re. repeat rewrite keep_im in Ri by lra. repeat rewrite keep_em in Re by lra. repeat rewrite xing_no in Ri by lra. repeat rewrite xing_no in Re by lra.
  cbn [app] in Ri, Re. unfold total_area, area_of, Rsum. cbn [map fold_right]. rewrite Fi, Fe, Ai, Ae.
  assert (TP : 0 <= turn (0, 0) (1, 0) (0, 1)) by (unfold turn; cbn; lra).
  destruct (three' (V3 0 0 0) (V3 1 0 0) (V3 0 1 0) _ _ _ _ (0, 0) (1, 0) (0, 1) Ri (bary_A _ _ _) (bary_B _ _ _) (bary_C _ _ _) TP) as [-> _].
  destruct (three' (V3 0 0 0) (V3 1 0 0) (V3 0 1 0) _ _ _ _ (0, 0) (1, 0) (0, 1) Re (bary_A _ _ _) (bary_B _ _ _) (bary_C _ _ _) TP) as [-> _].
  rewrite area_3 in AR. rewrite AR. unfold turn. cbn [fst snd]. field.
Qed.
Print Assumptions surface_facets_counted_twice_refuted.

(** Example: the hypotheses of the theorems on cuts are met by two triangles with corners on both sides of the surface. *)
Example two_triangles_cut : exists m rel waves, triangle_mesh two_triangles /\ build_mesh false two_triangles = Ok m /\ reachable m (intersector m) /\
  length rel = m_nnodes m /\ length waves = m_nnodes m /\ (forall fc, In fc (m_facets m) -> exists i, In i (mf_vertices fc) /\ nth i rel 0 <> 0) /\
  (exists e a b, nth_error (static_edges m) e = Some (a, b) /\ nth a rel 0 * nth b rel 0 < 0) /\
  (exists I', update_intersection (intersector m) rel waves = Ok I' /\ total_area (m_facets (i_mesh I')) (i_immersed I') + total_area (m_facets (i_mesh I')) (i_emerged I') = Rsum (map area two_triangles)).
Proof.
  destruct two_triangles_build as [m B]. exists m, (map (fun p => vx p - 1 / 2) (static_nodes m)), (repeat 0 (m_nnodes m)).
  assert (T : triangle_mesh two_triangles).
  { intros l [<-|[<-|[]]]; do 3 eexists; (split; [reflexivity|]); repeat split; intros H; injection H; intros; lra. }
  pose proof (built_well_formed false _ m T B) as WF. pose proof (mesh_tables_are_faithful _ _ _ B) as [TF TG TN TI TE TO TL TC TU]. destruct (build_mesh_shape _ _ _ B) as (S1 & S2 & S3 & S4).
  assert (LN : length (static_nodes m) = m_nnodes m) by (unfold static_nodes; rewrite firstn_length; pose proof (wf_all _ WF); lia).
  assert (LR : length (map (fun p => vx p - 1 / 2) (static_nodes m)) = m_nnodes m) by (rewrite map_length; exact LN).
  assert (RZ : forall i p, nth_error (static_nodes m) i = Some p -> nth i (map (fun p => vx p - 1 / 2) (static_nodes m)) 0 = vx p - 1 / 2).
  { intros i p Hi. apply nth_error_nth. apply map_nth_error with (f := fun p => vx p - 1 / 2). exact Hi. }
  assert (SH : exists fc1 fc2, m_facets m = [fc1; fc2] /\ has_points (static_nodes m) (mf_vertices fc1) [V3 0 0 0; V3 1 0 0; V3 0 1 0] /\
    has_points (static_nodes m) (mf_vertices fc2) [V3 1 0 0; V3 1 1 0; V3 0 1 0]).
  { cbn [filter length Nat.eqb negb two_triangles] in TF. destruct (m_facets m) as [|fc1 [|fc2 [|]]]; inversion TF as [|? ? ? ? P1 TF1]; inversion TF1 as [|? ? ? ? P2 TF2]; [|inversion TF2].
    exists fc1, fc2. auto. }
  assert (NZ : forall fc, In fc (m_facets m) -> exists i, In i (mf_vertices fc) /\ nth i (map (fun p => vx p - 1 / 2) (static_nodes m)) 0 <> 0).
  { intros fc Hfc. apply In_nth_error in Hfc as [f Hf].
    assert (HP : exists a b c l, has_points (static_nodes m) (mf_vertices fc) (V3 a b c :: l) /\ (a = 0 \/ a = 1)).
    { destruct SH as (fc1 & fc2 & SH & P1 & P2). rewrite SH in Hf.
      destruct f as [|[|f]]; [injection Hf as <-; do 4 eexists; split; [exact P1|auto]|injection Hf as <-; do 4 eexists; split; [exact P2|auto]|destruct f; discriminate Hf]. }
    destruct HP as (a & b & c & l & HP & HA). unfold has_points in HP. destruct (mf_vertices fc) as [|i vs]; [discriminate HP|]. exists i. split; [left; reflexivity|].
    injection HP as H0 _. rewrite (RZ _ _ H0). cbn. lra. }
  split; [exact T|]. split; [exact B|]. split; [apply reach_new|]. split; [exact LR|]. split; [apply repeat_length|]. split; [exact NZ|]. split.
  - destruct SH as (fc1 & fc2 & SH & P1 & P2'). rewrite SH in TO. destruct (m_oef m) as [|oes os]; inversion TO as [|? ? ? ? Q1 TO1 X1 X2]. clear X1 X2.
    unfold has_points in P1. destruct (mf_vertices fc1) as [|i [|j [|k [|]]]]; try discriminate P1. injection P1 as P1 P2 P3. cbn in Q1.
    destruct oes as [|o oes]; [discriminate Q1|]. injection Q1 as Q1 _. unfold ends in Q1. destruct (nth_error (m_edges m) (Nat.div2 o)) as [[x1 y1]|] eqn:Ee; [|discriminate Q1].
    assert (SE : static_edges m = m_edges m) by (unfold static_edges; rewrite S1; apply firstn_all). rewrite SE.
    exists (Nat.div2 o), x1, y1. split; [exact Ee|]. injection Q1 as Q1. destruct (Nat.odd o); injection Q1 as -> ->; rewrite (RZ _ _ P1), (RZ _ _ P2); cbn; lra.
  - destruct (free_surface_cut_partial false _ m (intersector m) _ _ T B (reach_new m) LR (repeat_length 0 _)) as (I' & U & SC). exists I'. split; [exact U|].
    exact (proj1 (immersed_and_emerged_add_up_partial false _ m _ _ _ I' T B (reach_new m) LR (repeat_length _ _) NZ U)).
Qed.
