(** C103: in still water, the hydrostatic force computed for a floating watertight mesh is the weight of the displaced water and the integral of the pressure on the wet part of the hull. *)
From Coq Require Import Reals List Bool Arith Lra Lia Permutation.
From Verif Require Import Common Geometry Force_Model Hull_Model Hull_Spec Hull_Proofs Hull_Archimedes_Proofs Hull_Props Hull_Force_Props Mesh_Model Mesh_Spec Cut_Props
  Closing_Model Closing_Spec Closing_Contour_Proofs Closing_Contour_Props Lid_Groups_Proofs Lid_Build_Proofs Floating_Spec Floating_Geometry_Proofs Floating_Proofs Floating_Facets_Proofs Floating_Props Floating_Planar_Proofs.
Import ListNotations.
Open Scope R_scope.

Lemma enclosed_app : forall a b, enclosed_volume (a ++ b) = enclosed_volume a + enclosed_volume b.
Proof. intros. unfold enclosed_volume. rewrite map_app, concat_app, map_app, Rsum_app. reflexivity. Qed.
Lemma moment_app : forall a b, volume_moment (a ++ b) = vadd (volume_moment a) (volume_moment b).
Proof. intros. unfold volume_moment. rewrite map_app, concat_app, map_app, vsum_app. reflexivity. Qed.
Lemma concat_perm : forall {A} (a b : list (list A)), Permutation a b -> Permutation (concat a) (concat b).
Proof.
  intros A a b P. induction P as [|x a b _ IH|x y a|a b c _ IH1 _ IH2]; cbn [concat]; [apply Permutation_refl|apply Permutation_app_head; exact IH| |exact (Permutation_trans IH1 IH2)].
  rewrite !app_assoc. apply Permutation_app_tail, Permutation_app_comm.
Qed.
Lemma enclosed_perm : forall a b, Permutation a b -> enclosed_volume a = enclosed_volume b /\ volume_moment a = volume_moment b.
Proof.
  intros a b P. pose proof (concat_perm _ _ (Permutation_map triangles P)) as Q. unfold enclosed_volume, volume_moment. split; [apply Rsum_perm, Permutation_map, Q|apply vsum_perm, Permutation_map, Q].
Qed.
Lemma enclosed_rotated : forall a b, Forall2 (fun l l' => rotated l l' /\ exists n d, planar n d l) a b -> enclosed_volume b = enclosed_volume a /\ volume_moment b = volume_moment a.
Proof.
  intros a b F. induction F as [|l l' a b (R1 & n & d & P) _ (IH1 & IH2)]; [split; reflexivity|].
  change (l :: a) with ([l] ++ a). change (l' :: b) with ([l'] ++ b). rewrite !enclosed_app, !moment_app, IH1, IH2. destruct (rotated_volume n d l l' P R1) as (Q1 & Q2).
  unfold enclosed_volume at 1 3, volume_moment at 1 3. cbn [map concat]. rewrite !app_nil_r, Q1, Q2. auto.
Qed.
Lemma enclosed_wet : forall im v, enclosed_volume (map (wet im) v) = enclosed_volume (map (wet im) (filter (is_wet im) v)) /\ volume_moment (map (wet im) v) = volume_moment (map (wet im) (filter (is_wet im) v)).
Proof.
  intros im v. induction v as [|l v (IH1 & IH2)]; [split; reflexivity|]. cbn [map filter]. change (wet im l :: map (wet im) v) with ([wet im l] ++ map (wet im) v).
  assert (W : is_wet im l = match wet im l with [] => false | _ => true end) by (unfold is_wet; destruct (wet im l); reflexivity). rewrite W. clear W.
  rewrite enclosed_app, moment_app, IH1, IH2. destruct (wet im l) as [|p t] eqn:E.
  - split; [change (enclosed_volume [[]]) with 0; ring|change (volume_moment [[]]) with Geometry.v0; apply vadd_0_l].
  - cbn [map]. rewrite E. change ((p :: t) :: map (wet im) (filter (is_wet im) v)) with ([p :: t] ++ map (wet im) (filter (is_wet im) v)). rewrite !enclosed_app, !moment_app. auto.
Qed.

(** Two wet triangles whose normals are at least about 2.8e-3 rad apart: otherwise the code may consider that the wet hull is flat and that it displaces nothing. *)
Definition two_directions (im : vec3 -> R) (v : list (list vec3)) : Prop :=
  exists l l' n n', In l v /\ In l' v /\ is_wet im l = true /\ is_wet im l' = true /\ well_shaped (1000 * epsilon) n l /\ well_shaped (1000 * epsilon) n' l' /\ dot n n' <= 1 - 4 / 1000000.
Lemma triangle_ineq : forall a n n', dot a a = 1 -> dot n n = 1 -> dot n' n' = 1 -> 1 - / 1000000 < dot a n -> 1 - / 1000000 < dot a n' -> 1 - 4 / 1000000 < dot n n'.
Proof.
  intros a n n' A N N' H H'. assert (Q : 0 <= dot (vsub (vadd n n') (vscale 2 a)) (vsub (vadd n n') (vscale 2 a))) by apply dot_pos.
  replace (dot (vsub (vadd n n') (vscale 2 a)) (vsub (vadd n n') (vscale 2 a))) with (dot n n + dot n' n' + 2 * dot n n' + 4 * dot a a - 4 * dot a n - 4 * dot a n') in Q by (clear; vring).
  rewrite A, N, N' in Q. lra.
Qed.
Lemma not_same_plane : forall im v fs, (forall l, In l v -> exists n, well_shaped (1000 * epsilon) n l) -> Forall2 (wet_facet im) (filter (is_wet im) v) fs -> two_directions im v -> fs <> [] /\ same_plane fs = false.
Proof.
  intros im v fs U F (l & l' & n & n' & Hl & Hl' & W & W' & WS & WS' & D).
  assert (FIND : forall l n, In l v -> is_wet im l = true -> well_shaped (1000 * epsilon) n l -> exists f, In f fs /\ f_normal f = n).
  { clear - F. intros l n Hl W WS. assert (I : In l (filter (is_wet im) v)) by (apply filter_In; auto). revert I. induction F as [|k f ks fs (_ & N & _) _ IH]; intros I; [destruct I|].
    destruct I as [->|I]; [|destruct (IH I) as (g & Hg & E); exists g; split; [right; exact Hg|exact E]]. exists f. split; [left; reflexivity|]. rewrite (well_shaped_normal n l WS) in N. congruence. }
  destruct (FIND l n Hl W WS) as (f & Hf & Ef). destruct (FIND l' n' Hl' W' WS') as (f' & Hf' & Ef').
  destruct fs as [|f0 fs]; [destruct Hf|]. split; [discriminate|]. unfold same_plane. apply not_true_iff_false. intros HA. rewrite forallb_forall in HA.
  pose proof (HA f Hf) as K. pose proof (HA f' Hf') as K'. assert (U0 : dot (f_normal f0) (f_normal f0) = 1).
  { inversion F as [|l0 ? ls ? (_ & N & _) _ E]; subst. assert (I0 : In l0 v) by (apply (filter_In (is_wet im)); rewrite <- E; left; reflexivity). destruct (U l0 I0) as (n0 & W0).
    rewrite (well_shaped_normal n0 l0 W0) in N. injection N as <-. exact (convex_unit _ _ (proj1 W0)). }
  assert (RT : forall a b, Sim_Model.Rltb a b = true -> a < b) by (intros a b H; destruct (Rlt_le_dec a b) as [L|L]; [exact L|rewrite Rltb_f in H by exact L; discriminate]).
  apply RT in K, K'. rewrite Ef in K. rewrite Ef' in K'.
  pose proof (triangle_ineq (f_normal f0) n n' U0 (convex_unit _ _ (proj1 WS)) (convex_unit _ _ (proj1 WS')) K K'). lra.
Qed.

Lemma crossing_depth : forall T a b, depth T a * depth T b < 0 -> depth T (crossing_point (depth T) a b) = 0.
Proof.
  intros T a b X. unfold crossing_point, cut. cbn [fst snd]. rewrite !depth_affine in *. set (z := vz (t_point T)) in *. set (r := r3 (t_rot T)) in *. clearbody z r.
  set (x := z + dot r a) in *. set (y := z + dot r b) in *. assert (x - y <> 0) by nra.
  replace (z + dot r (vadd a (vscale (x / (x - y)) (vsub b a)))) with (x + x / (x - y) * (y - x)).
  - field. assumption.
  - unfold x, y. generalize ((z + dot r a) / (z + dot r a - (z + dot r b))). clear. intros. vring.
Qed.

Theorem floating_hull_archimedes_partial : forall check v m I T Tbn rho g G waves lines, triangle_mesh v -> closed v -> build_mesh check v = Ok m -> used m I ->
  length waves = m_nnodes m -> rotation (t_rot T) -> t_rot Tbn = transpose (t_rot T) ->
  (forall p, In p (concat v) -> depth T p <> 0) -> waterlines (depth T) v lines -> (forall l, In l lines -> closable l) ->
  (forall l, In l v -> exists n, well_shaped (1000 * epsilon) n l) ->
  (forall l n, In l v -> segments (depth T) l <> [] -> unit_normal l = Ok n -> / 100000000 < norm (vsub lid_normal n)) ->
  two_directions (depth T) v -> 0 < enclosed_volume (map (wet (depth T)) v ++ lines) ->
  let hull := map (wet (depth T)) v in let V := enclosed_volume (hull ++ lines) in let B := vscale (/ V) (volume_moment (hull ++ lines)) in
  exists I' I'' com, update_intersection I (map (depth T) (static_nodes m)) waves = Ok I' /\ center_of_mass_immersed I' = Ok (I'', com) /\
    com = (B, V, false) /\
    hydrostatic rho g Tbn G com = (vscale (- (rho * g * V)) (r3 (t_rot T)), cross (vsub B G) (vscale (- (rho * g * V)) (r3 (t_rot T)))) /\
    hydrostatic rho g Tbn G com =
      (vsum (map (pressure_force (fun x => rho * g * depth T x)) (concat (map triangles hull))),
       vsum (map (pressure_torque (fun x => rho * g * depth T x) G) (concat (map triangles hull)))).
Proof.
  intros check v m I T Tbn rho g G waves lines TM CV BM U HW ROT ETbn OFF WL CL WS FAR TD VP hull V B. set (im := depth T) in *.
  destruct (floating_hull_is_closed_partial check v m I im waves lines TM CV BM U HW OFF WL CL FAR) as (I' & I'' & fs & lids & EU & EC & FW & (lines' & PL & FR) & CC).
  exists I', I'', (center_of_mass fs lids). split; [exact EU|]. split; [exact EC|].
  set (z := vz (t_point T)). set (r := r3 (t_rot T)). assert (Hr : dot r r = 1) by (destruct ROT as (_ & _ & H & _); exact H).
  destruct (not_same_plane im v fs WS FW TD) as (NE & SP).
  (* planes *)
  assert (PT : forall l, In l v -> exists n d A1 B1 C1, l = [A1; B1; C1] /\ planar n d l /\ dot n (cross (vsub B1 A1) (vsub C1 A1)) <> 0).
  { intros l Hl. destruct (WS l Hl) as (n & CX & HN). destruct (TM l Hl) as (A1 & B1 & C1 & E & _). rewrite E in *. destruct (convex_plane _ _ CX) as (d & D). exists n, d, A1, B1, C1.
    split; [reflexivity|]. split; [split; [exact (convex_unit _ _ CX)|exact D]|]. intros Z. pose proof (normal_parallel n (vsub B1 A1) (vsub C1 A1) (convex_unit _ _ CX)) as Q.
    rewrite Z in Q. rewrite Q in HN.
    - replace (vscale 0 n) with v0 in HN by (clear; vring). replace (norm v0) with 0 in HN; [pose proof epsilon_pos; lra|]. unfold norm, dot, v0. cbn. symmetry. replace (0 * 0 + 0 * 0 + 0 * 0) with 0 by ring. apply sqrt_0.
    - destruct CX as (_ & PL' & _). apply PL'; cbn; auto.
    - destruct CX as (_ & PL' & _). apply PL'; cbn; auto. }
  assert (OFFT : forall l A1 B1 C1, In l v -> l = [A1; B1; C1] -> im A1 <> 0 /\ im B1 <> 0 /\ im C1 <> 0).
  { intros l A1 B1 C1 Hl E. split; [|split]; apply OFF; apply in_concat; exists l; (split; [exact Hl|rewrite E; cbn; auto]). }
  assert (WP : forall l, In l v -> exists n d, planar n d (wet im l)).
  { intros l Hl. destruct (PT l Hl) as (n & d & A1 & B1 & C1 & -> & P & _). exists n, d. apply wet_in_plane. exact P. }
  assert (LP : forall l, In l lines -> planar r (- z) l).
  { intros l Hl. split; [exact Hr|]. intros p Hp. assert (Ip : In p (concat lines)) by (apply in_concat; exists l; auto). destruct WL as (PW & _). rewrite edges_flat in PW.
    rewrite <- flat_cyclic_fst in Ip. apply in_map_iff in Ip as (e & <- & He). apply (Permutation_in _ (Permutation_sym PW)) in He. unfold waterline in He. apply in_flat_map in He as (t & Ht & He).
    assert (Q : im (fst e) = 0).
    { destruct e as [x y]. unfold segments in He. apply in_combine_l in He. cbn [fst]. unfold entry_points in He. apply in_flat_map in He as ([a b] & _ & He).
      destruct (Rlt_dec (im a) 0) as [L1|]; [|destruct He]. destruct (Rlt_dec 0 (im b)) as [L2|]; [|destruct He]. destruct He as [<-|[]]. apply crossing_depth. fold im. nra. }
    unfold im in Q. rewrite depth_affine in Q. fold z r in Q. lra. }
  (* sums *)
  assert (SV : enclosed_volume (map f_points fs ++ lids) = V /\ volume_moment (map f_points fs ++ lids) = volume_moment (hull ++ lines)).
  { unfold V, hull. rewrite !enclosed_app, !moment_app. destruct (enclosed_wet im v) as (-> & ->).
    destruct (enclosed_rotated (map (wet im) (filter (is_wet im) v)) (map f_points fs)) as (-> & ->).
    { assert (W2 : forall l, In l (filter (is_wet im) v) -> exists n d, planar n d (wet im l)) by (intros l Hl; apply filter_In in Hl as [Hl _]; apply WP; exact Hl).
      clear - FW W2. induction FW as [|l f ls fs (R1 & _) _ IH]; [apply Forall2_nil|]. cbn [map]. apply Forall2_cons; [split; [exact R1|apply W2; left; reflexivity]|]. apply IH. intros k Hk. apply W2. right. exact Hk. }
    destruct (enclosed_rotated lines' lids) as (-> & ->).
    { assert (W2 : forall l, In l lines' -> planar r (- z) l) by (intros l Hl; apply LP; apply (Permutation_in _ (Permutation_sym PL)); exact Hl).
      clear - FR W2. induction FR as [|l f ls fs R1 _ IH]; [apply Forall2_nil|]. apply Forall2_cons; [split; [exact R1|exists r, (- z); apply W2; left; reflexivity]|]. apply IH. intros k Hk. apply W2. right. exact Hk. }
    destruct (enclosed_perm _ _ PL) as (-> & ->). auto. }
  destruct SV as (SV & SM).
  (* proper facets *)
  assert (PP : List.Forall proper (map f_points fs ++ lids)).
  { apply List.Forall_forall. intros l Hl. apply in_app_or in Hl as [Hl|Hl].
    - apply in_map_iff in Hl as (f & <- & Hf). assert (X : exists l0, In l0 v /\ is_wet im l0 = true /\ rotated (wet im l0) (f_points f)).
      { assert (FW' : Forall2 (fun l f => (In l v /\ is_wet im l = true) /\ rotated (wet im l) (f_points f)) (filter (is_wet im) v) fs).
        { assert (Q : forall l, In l (filter (is_wet im) v) -> In l v /\ is_wet im l = true) by (intros l Hl; apply filter_In; exact Hl). revert Q. clear - FW. induction FW as [|l f0 ls fs0 (R1 & _) _ IH]; intros Q; [apply Forall2_nil|]. apply Forall2_cons; [split; [apply Q; left; reflexivity|exact R1]|]. apply IH. intros k Hk. apply Q. right. exact Hk. }
        clear - FW' Hf. induction FW' as [|l f0 ls fs0 ((Q1 & Q2) & R1) _ IH]; [destruct Hf|]. destruct Hf as [<-|Hf]; [exists l; auto|apply IH; exact Hf]. }
      destruct X as (l0 & H1 & H2 & R1). destruct (PT l0 H1) as (n & d & A1 & B1 & C1 & E & P & NZ). destruct (OFFT _ _ _ _ H1 E) as (O1 & O2 & O3). rewrite E in *.
      pose proof (planar_rotated n d _ _ (wet_in_plane im n d A1 B1 C1 P) R1) as (Q1 & Q2). exists n, d. split; [exact Q1|]. split; [exact Q2|].
      change (twice_area n (f_points f) <> 0). rewrite (twice_area_rotated n _ _ R1).
      destruct (wet_area im n A1 B1 C1 O1 O2 O3) as (k & KP & ->); [unfold is_wet in H2; destruct (wet im [A1; B1; C1]); [discriminate|discriminate]|]. intros Z. apply Rmult_integral in Z as [Z|Z]; [lra|contradiction].
    - assert (X : exists l0, In l0 lines' /\ rotated l0 l). { clear - FR Hl. induction FR as [|a b la lb R1 _ IH]; [destruct Hl|]. destruct Hl as [<-|Hl]; [exists a; cbn; auto|]. destruct (IH Hl) as (l0 & H1 & H2). exists l0. cbn. auto. }
      destruct X as (l0 & H1 & R1). assert (Hl0 : In l0 lines) by (apply (Permutation_in _ (Permutation_sym PL)); exact H1). destruct (CL l0 Hl0) as (L3 & CX & RS).
      pose proof (planar_rotated r (- z) _ _ (LP l0 Hl0) R1) as (Q1 & Q2). exists r, (- z). split; [exact Q1|]. split; [exact Q2|].
      change (twice_area r l <> 0). rewrite (twice_area_rotated r _ _ R1). apply (lid_area r (- z) l0 (LP l0 Hl0) L3 CX RS). }
  assert (COM : center_of_mass fs lids = (B, V, false)).
  { unfold center_of_mass. destruct fs as [|f0 fs0] eqn:EF; [congruence|]. rewrite <- EF in *. clear EF. rewrite (com_sum _ PP), SP. cbn [fst snd]. rewrite SV, SM. rewrite (Reqb_f V 0) by (apply Rgt_not_eq; exact VP). rewrite (Rabs_pos_eq V) by (apply Rlt_le; exact VP). reflexivity. }
  assert (FORCE : hydrostatic rho g Tbn G (B, V, false) = (vscale (- (rho * g * V)) r, cross (vsub B G) (vscale (- (rho * g * V)) r))).
  { unfold hydrostatic. rewrite ETbn. unfold r. clear. generalize V B (t_rot T). intros. destruct m as [[? ? ?] [? ? ?] [? ? ?]]. f_equal; [vring|f_equal; vring]. }
  split; [exact COM|]. rewrite COM. split; [exact FORCE|]. rewrite FORCE.
  (* pressure *)
  assert (CH : closed (hull ++ lines)).
  { apply (wet_closed im v); [|exact CV|apply Permutation_refl|apply Permutation_sym; exact (proj1 WL)].
    intros l Hl. destruct (TM l Hl) as (A1 & B1 & C1 & E & _). exists A1, B1, C1. split; [exact E|]. exact (OFFT l A1 B1 C1 Hl E). }
  assert (OP : List.Forall (on_plane z r) lines) by (apply List.Forall_forall; intros l Hl p Hp; destruct (LP l Hl) as (_ & D); rewrite (D p Hp); ring).
  pose proof (closed_force (rho * g) z r _ CH) as F1. rewrite map_app, concat_app, map_app, vsum_app in F1. rewrite (lids_zero _ _ lines (fun l H => lid_force (rho * g) z r l H) OP), vadd_0_r in F1.
  pose proof (closed_torque (rho * g) z r G _ CH) as F2. rewrite map_app, concat_app, map_app, vsum_app in F2. rewrite (lids_zero _ _ lines (fun l H => lid_torque (rho * g) z r G l H) OP), vadd_0_r in F2.
  change (fun x => rho * g * im x) with (affine_pressure (rho * g) z r). rewrite F1, F2. fold V. unfold B. assert (VN : V <> 0) by (apply Rgt_not_eq; exact VP). clear - VN. revert VN. generalize V (volume_moment (hull ++ lines)). clear. intros V M VN.
  f_equal; [vring|]. vfield; exact VN.
Qed.
Print Assumptions floating_hull_archimedes_partial.
