(** Cutting a watertight mesh of triangles and asking for its immersed part: from the tables to points. *)
From Coq Require Import Reals List Bool Arith Lra Lia Permutation.
From Verif Require Import Common Geometry Sim_Model Hull_Model Hull_Spec Hull_Proofs Mesh_Model Mesh_Spec Mesh_Proofs Mesh_Props Cut_Proofs Triangle_Proofs Cut_Loop_Proofs Cut_Props
  Closing_Model Closing_Spec Closing_Contour_Proofs Closing_Contour_Props Lid_Edges_Proofs Lid_Groups_Proofs Lid_Build_Proofs Floating_Spec Floating_Geometry_Proofs Floating_Mesh_Proofs.
Import ListNotations.
Open Scope R_scope.

(** ** Histories *)
(** States of an intersector: built, then updated with any immersions and asked for volumes or centres, any number of times and in any order. *)
Inductive used (m : mesh) : inter -> Prop :=
| used_new : used m (intersector m)
| used_update : forall I rel waves I', used m I -> length rel = m_nnodes m -> length waves = m_nnodes m -> update_intersection I rel waves = Ok I' -> used m I'
| used_volume : forall part lid I I' V, used m I -> closed_volume part lid I = Ok (I', V) -> used m I'
| used_center : forall part lid I I' r, used m I -> center_of_mass_of part lid I = Ok (I', r) -> used m I'.

Lemma closed_volume_state : forall part lid I I' V, closed_volume part lid I = Ok (I', V) -> update_closing I = Ok I'.
Proof.
  intros part lid I I' V H. unfold closed_volume in H. destruct (update_closing I) as [J| |]; try discriminate H. cbn [bindO] in H.
  destruct (facets_at J (part J)) as [fs| |]; try discriminate H. cbn [bindO] in H. destruct (mapO_list (with_points J) fs) as [ps| |]; try discriminate H. cbn [bindO] in H.
  destruct (Reqb (volume ps) 0); [injection H as <- _; reflexivity|]. destruct (facets_at J (i_surface J)) as [l| |]; try discriminate H. cbn [bindO] in H.
  destruct (mapO_list (with_points J) _) as [cs| |]; try discriminate H. cbn [bindO] in H. injection H as <- _. reflexivity.
Qed.
Lemma center_state : forall part lid I I' r, center_of_mass_of part lid I = Ok (I', r) -> update_closing I = Ok I'.
Proof.
  intros part lid I I' V H. unfold center_of_mass_of in H. destruct (update_closing I) as [J| |]; try discriminate H. cbn [bindO] in H.
  destruct (facets_at J (part J)) as [fs| |]; try discriminate H. cbn [bindO] in H. destruct (mapO_list (with_points J) fs) as [ps| |]; try discriminate H. cbn [bindO] in H.
  destruct (facets_at J (i_surface J)) as [l| |]; try discriminate H. cbn [bindO] in H.
  destruct (mapO_list (with_points J) _) as [cs| |]; try discriminate H. cbn [bindO] in H. injection H as <- _. reflexivity.
Qed.
Lemma with_facet_static : forall m fc, well_formed m -> same_static m (with_facet m fc).
Proof.
  intros m fc WF. constructor; unfold with_facet, static_nodes, static_edges; cbn; auto.
  - rewrite firstn_app. replace (m_nfacets m - length (m_facets m))%nat with O by (pose proof (wf_facets _ WF); lia). cbn. apply app_nil_r.
  - rewrite app_length. pose proof (wf_facets _ WF). pose proof (wf_edges _ WF). lia.
Qed.
Lemma add_lid_static : forall es I g I', well_formed (i_mesh I) -> add_lid es I g = Ok I' -> same_static (i_mesh I) (i_mesh I').
Proof.
  intros es I g I' WF H. unfold add_lid in H. destruct (make_computer _ es g) as [c| |]; try discriminate H. cbn [bindO] in H. destruct (find_contour c) as [k| |]; try discriminate H. cbn [bindO] in H.
  destruct k as [|er k]; [injection H as <-; apply same_static_refl; exact WF|]. set (os := map _ (er :: k)) in H. clearbody os.
  unfold create_facet_from_edges in H. destruct (vertex_list _ os []) as [[vs n]| |]; try discriminate H. cbn [bindO] in H. destruct (firstn n vs) as [|u us]; [discriminate H|].
  destruct (mapO_list (at_ub (m_all (i_mesh I))) (u :: us)) as [pts| |]; try discriminate H. cbn [bindO] in H. injection H as <-. cbn [i_mesh].
  exact (with_facet_static (i_mesh I) _ WF).
Qed.
Lemma update_closing_static : forall I I', well_formed (i_mesh I) -> update_closing I = Ok I' -> same_static (i_mesh I) (i_mesh I').
Proof.
  intros I I' WF H. unfold update_closing in H. destruct (i_closing I); [|injection H as <-; apply same_static_refl; exact WF].
  unfold build_closing_edge in H. destruct (i_on I) as [|i0 is]; [injection H as <-; apply same_static_refl; exact WF|].
  destruct (group_connected_edges _ _) as [gs| |]; try discriminate H. cbn [bindO] in H. destruct (foldO _ gs I) as [J| |] eqn:E; try discriminate H. cbn [bindO] in H. injection H as <-. cbn [i_mesh].
  set (es := m_edges (i_mesh I)) in E. clearbody es. revert I WF E. induction gs as [|g gs IH]; intros I WF E; cbn [foldO] in E; [injection E as <-; apply same_static_refl; exact WF|].
  destruct (add_lid es I g) as [K| |] eqn:EK; try discriminate E. cbn [bindO] in E. pose proof (add_lid_static _ _ _ _ WF EK) as S1.
  apply (same_static_trans _ (i_mesh K)); [exact S1|]. apply IH; [apply (same_static_well_formed _ _ S1 WF)|exact E].
Qed.
Lemma used_static : forall m I, well_formed m -> used m I -> same_static m (i_mesh I).
Proof.
  intros m I WF U. induction U as [|I rel waves I' U IH H1 H2 H3|part lid I I' V U IH H|part lid I I' r U IH H].
  - apply same_static_refl. exact WF.
  - destruct (update_spec I rel waves) as (J & E & SC).
    + apply (same_static_well_formed m); assumption.
    + rewrite (proj1 (ss_counts _ _ IH)). exact H1.
    + rewrite (proj1 (ss_counts _ _ IH)). exact H2.
    + rewrite E in H3. injection H3 as <-. apply (same_static_trans _ (i_mesh I)); [exact IH|exact (sc_static _ _ _ _ SC)].
  - apply closed_volume_state in H. apply (same_static_trans _ (i_mesh I)); [exact IH|]. apply update_closing_static; [apply (same_static_well_formed m); assumption|exact H].
  - apply center_state in H. apply (same_static_trans _ (i_mesh I)); [exact IH|]. apply update_closing_static; [apply (same_static_well_formed m); assumption|exact H].
Qed.
Lemma cut_used : forall m I rel waves, well_formed m -> same_static m (i_mesh I) -> length rel = m_nnodes m -> length waves = m_nnodes m ->
  exists I', update_intersection I rel waves = Ok I' /\ surface_cut m rel waves I'.
Proof.
  intros m I rel waves WF SS HR HW. pose proof (same_static_well_formed _ _ SS WF) as WFI. destruct (ss_counts _ _ SS) as (A1 & A2 & A3).
  destruct (update_spec I rel waves WFI) as (I' & E & SC); [congruence|congruence|]. exists I'. split; [exact E|].
  destruct SC as [S1 S2 S3 S3' S3'' S4 S5 S6 S7]. rewrite (ss_nodes _ _ SS), (ss_edges _ _ SS), A1 in S2. rewrite (ss_edges _ _ SS) in S3, S3'.
  rewrite (ss_edges _ _ SS), (ss_nodes _ _ SS), A1 in S3''. rewrite A3 in S5.
  constructor; try assumption. apply (same_static_trans _ (i_mesh I)); assumption.
Qed.

(** ** From lines of points to lines of nodes *)
Definition vec_dec : forall a b : vec3, {a = b} + {a <> b}.
Proof.
  intros [a1 a2 a3] [b1 b2 b3]. destruct (Req_EM_T a1 b1) as [->|N]; [|right; congruence]. destruct (Req_EM_T a2 b2) as [->|N]; [|right; congruence].
  destruct (Req_EM_T a3 b3) as [->|N]; [|right; congruence]. left. reflexivity.
Defined.
Lemma map_id_in : forall {A} (f : A -> A) l, (forall x, In x l -> f x = x) -> map f l = l.
Proof. intros A f l. induction l as [|a l IH]; intros H; [reflexivity|]. cbn. rewrite (H a (or_introl eq_refl)), IH; [reflexivity|intros x Hx; apply H; right; exact Hx]. Qed.
Lemma flat_cyclic_map : forall {A B} (f : A -> B) lines, flat_map cyclic_pairs (map (map f) lines) = map (fun e => (f (fst e), f (snd e))) (flat_map cyclic_pairs lines).
Proof. intros A B f lines. induction lines as [|l lines IH]; [reflexivity|]. cbn [map flat_map]. rewrite map_app, IH, cyclic_map. reflexivity. Qed.
Lemma map_nodup_inj : forall {A B} (f : A -> B) l, NoDup (map f l) -> forall x y, In x l -> In y l -> f x = f y -> x = y.
Proof.
  intros A B f l. induction l as [|a l IH]; intros ND x y Hx Hy E; [destruct Hx|]. cbn in ND. inversion ND as [|? ? NI ND']; subst.
  destruct Hx as [<-|Hx], Hy as [<-|Hy]; [reflexivity| | |apply IH; assumption].
  - exfalso. apply NI. rewrite E. apply in_map. exact Hy.
  - exfalso. apply NI. rewrite <- E. apply in_map. exact Hx.
Qed.
Lemma node_lines : forall (pt : nat -> vec3) C lines, Permutation (map (pt2 pt) C) (edges lines) -> NoDup (concat lines) -> incl (map snd C) (map fst C) ->
  exists nlines, map (map pt) nlines = lines /\ Permutation C (flat_map cyclic_pairs nlines) /\ NoDup (concat nlines).
Proof.
  intros pt C lines P ND IN. rewrite edges_flat in P.
  set (g := fun p => match find (fun n => if vec_dec (pt n) p then true else false) (map fst C) with Some n => n | None => O end).
  assert (PF : Permutation (map pt (map fst C)) (concat lines)).
  { pose proof (Permutation_map fst P) as Q. rewrite flat_cyclic_fst, map_map in Q. rewrite map_map. exact Q. }
  assert (NF : NoDup (map pt (map fst C))) by (apply (Permutation_NoDup (Permutation_sym PF)); exact ND).
  assert (INJ : forall x y, In x (map fst C) -> In y (map fst C) -> pt x = pt y -> x = y) by (apply map_nodup_inj; exact NF).
  assert (G1 : forall n, In n (map fst C) -> g (pt n) = n).
  { intros n Hn. unfold g. destruct (find _ (map fst C)) as [k|] eqn:E.
    - apply find_some in E as [Hk E]. destruct (vec_dec (pt k) (pt n)) as [E'|]; [|discriminate]. apply INJ; assumption.
    - exfalso. pose proof (find_none _ _ E n Hn) as Q. cbv beta in Q. destruct (vec_dec (pt n) (pt n)); [discriminate|congruence]. }
  assert (G2 : forall p, In p (concat lines) -> pt (g p) = p).
  { intros p Hp. apply (Permutation_in _ (Permutation_sym PF)) in Hp. apply in_map_iff in Hp as (n & <- & Hn). rewrite (G1 n Hn). reflexivity. }
  exists (map (map g) lines). split; [|split].
  - rewrite map_map. apply map_id_in. intros l Hl. rewrite map_map. apply map_id_in. intros p Hp. apply G2. apply in_concat. exists l. auto.
  - rewrite flat_cyclic_map. apply (Permutation_map (fun e => (g (fst e), g (snd e)))) in P. rewrite map_map in P. apply (Permutation_trans (l' := map (fun e => (g (fst (pt2 pt e)), g (snd (pt2 pt e)))) C)); [|exact P].
    replace (map (fun e => (g (fst (pt2 pt e)), g (snd (pt2 pt e)))) C) with C; [apply Permutation_refl|]. symmetry. apply map_id_in. intros [x y] Hc. cbn [pt2 fst snd].
    f_equal; apply G1; [apply (in_map fst) in Hc; exact Hc|apply IN; apply (in_map snd) in Hc; exact Hc].
  - rewrite <- concat_map. apply (Permutation_NoDup (l := map fst C)); [|apply (NoDup_map_inv pt); exact NF].
    apply (Permutation_map g) in PF. rewrite map_map in PF. apply (Permutation_trans (l' := map (fun x => g (pt x)) (map fst C))); [|exact PF].
    replace (map (fun x => g (pt x)) (map fst C)) with (map fst C); [apply Permutation_refl|]. symmetry. apply map_id_in. exact G1.
Qed.
