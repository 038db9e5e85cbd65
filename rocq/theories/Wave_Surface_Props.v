(** Properties C37, C38, C40: pressure out of the water, elevation, output mesh. *)
From Coq Require Import Reals List Bool ZArith Lra Lia.
From Verif Require Import Common Wave_Model Wave_Spec Wave_Proofs Wave_Flat_Proofs Wave_Airy_Proofs.
Import ListNotations.
Open Scope R_scope.

(** A wave model: what one of the two constructors of Airy returned. *)
Definition airy (f : flat R) : Prop := exists sp, airy_of sp f.
Lemma airy_flat : forall f, airy f -> exists cs pd ps, f = flat_of cs pd ps /\ cs <> [].
Proof. intros f (sp & H). apply airy_of_inv in H. destruct H as (cs & -> & N & _). exists cs, (d_pdyn sp), (d_pdyn_sh sp). auto. Qed.

(** A model to instantiate the theorems with: one wave of amplitude 1, omega = 1, k = 1, psi = 0, phase = ph. *)
Definition one_wave (pd ps : R -> R -> R -> R) (ph : R) : flat R := mkFlat [1] [1] [0] [cos 0] [sin 0] [1] [ph] pd ps.
Lemma one_wave_airy : forall pd ps ph, airy (one_wave pd ps ph).
Proof.
  intros pd ps ph. exists (mkDiscrete [1/2] [Some 1] [1] [0] [1] [] pd ps). left. exists ph.
  unfold airy_constant, add_constant_phases, flatten, flatten_component, width. cbn -[sqrt]. rewrite Rltb_f by lra. cbn -[sqrt].
  unfold one_wave. do 2 f_equal. replace (2 * (1 / 2 * 1) * 1 * 1) with 1 by lra. rewrite sqrt_1. reflexivity.
Qed.

(** ** Elevation of a list of models *)
Definition elv (f : flat R) (x y t : R) : R := match elevation1 f t x y with Ok e => e | _ => 0 end.
Lemma elv_ok : forall f x y t, airy f -> elevation1 f t x y = Ok (elv f x y t).
Proof. intros f x y t H. destruct (airy_flat f H) as (cs & pd & ps & -> & _). unfold elv. rewrite elevation1_ok. reflexivity. Qed.
Lemma elv_get : forall f x y t, airy f -> List.length x = List.length y -> get_elevation f x y t = Ok (map (fun p => elv f (fst p) (snd p) t) (combine x y)).
Proof. intros f x y t H L. unfold get_elevation. rewrite L, Nat.eqb_refl. cbn [negb]. apply mapM_ok. intros [a b] _. apply elv_ok. exact H. Qed.
Lemma add_into_map : forall (A : Type) (f g : A -> R) l, add_into (map f l) (map g l) = Ok (map (fun a => f a + g a) l).
Proof. induction l as [|a l IH]; [reflexivity|]. cbn. rewrite IH. reflexivity. Qed.
Lemma repeat_map : forall (A B : Type) (b : B) (l : list A), repeat b (List.length l) = map (fun _ => b) l.
Proof. induction l; cbn; congruence. Qed.
Lemma combine_len : forall (A B : Type) (x : list A) (y : list B), List.length x = List.length y -> List.length (combine x y) = List.length x.
Proof. intros. rewrite combine_length. lia. Qed.
Lemma wave_height_ok : forall fs x y t, Forall airy fs -> List.length x = List.length y ->
  get_and_check_wave_height fs x y t = Ok (map (fun p => Rsum (map (fun f => elv f (fst p) (snd p) t) fs)) (combine x y)).
Proof.
  intros fs x y t H L. unfold get_and_check_wave_height. rewrite L, Nat.eqb_refl. cbn [negb]. unfold wave_height.
  rewrite <- (combine_len _ _ x y L), repeat_map.
  assert (forall A : R * R -> R, wave_height_loop fs x y t (map A (combine x y)) = Ok (map (fun p => A p + Rsum (map (fun f => elv f (fst p) (snd p) t) fs)) (combine x y))) as G.
  { induction H as [|f fs Hf Hfs IH]; intros A; cbn [wave_height_loop].
    - f_equal. apply map_ext. intros p. cbn. lra.
    - rewrite elv_get by assumption. cbn [bindO]. rewrite add_into_map. cbn [bindO]. rewrite IH. f_equal. apply map_ext. intros p. unfold Rsum. cbn [map fold_right]. lra. }
  rewrite G. f_equal. apply map_ext. intros p. lra.
Qed.
Lemma combine_nth_error : forall (A B : Type) (x : list A) (y : list B) j a b, nth_error x j = Some a -> nth_error y j = Some b -> nth_error (combine x y) j = Some (a, b).
Proof.
  induction x as [|a0 x IH]; intros [|b0 y] [|j] a b Ha Hb; cbn in *; try discriminate; [congruence|]. apply IH; assumption.
Qed.

(** ** C38 *)
(** Every elevation returned is within plus or minus the sum of the amplitudes of the components of all the models. *)
Theorem elevation_bounded : forall fs x y t, Forall airy fs -> List.length x = List.length y ->
  exists zs, get_and_check_wave_height fs x y t = Ok zs /\ List.length zs = List.length x /\
    forall z, In z zs -> Rabs z <= Rsum (map (fun f => Rsum (map Rabs (f_a f))) fs).
Proof.
  intros fs x y t H L. eexists. split; [apply wave_height_ok; assumption|]. split; [rewrite map_length; apply combine_len; exact L|].
  intros z Hz. apply in_map_iff in Hz. destruct Hz as ((a & b) & <- & _). apply Rsum_abs. intros f Hf. rewrite Forall_forall in H. specialize (H f Hf).
  destruct (airy_flat f H) as (cs & pd & ps & -> & _). unfold elv. rewrite elevation1_ok. unfold flat_of. cbn [f_a]. rewrite map_map. apply Rsum_abs.
  intros c _. unfold weta, wave_of. cbn [wa fst snd]. rewrite Rabs_Ropp, Rabs_mult.
  assert (Rabs (sin (wangle (mkWave (c_a c) (c_omega c) (c_k c) (c_psi c) (c_phase c)) a b t)) <= 1) by (apply Rabs_le; apply SIN_bound).
  pose proof (Rabs_pos (c_a c)). nra.
Qed.
Print Assumptions elevation_bounded.
(** At each point the elevation is the sum of those of the models taken alone. *)
Theorem elevation_additive : forall fs x y t zs j xj yj z, Forall airy fs -> get_and_check_wave_height fs x y t = Ok zs ->
  nth_error x j = Some xj -> nth_error y j = Some yj -> nth_error zs j = Some z ->
  exists es, Forall2 (fun f e => get_elevation f [xj] [yj] t = Ok [e]) fs es /\ z = Rsum es.
Proof.
  intros fs x y t zs j xj yj z H E Hx Hy Hz.
  assert (List.length x = List.length y) as L. { unfold get_and_check_wave_height in E. destruct (Nat.eqb_spec (List.length x) (List.length y)); [assumption|discriminate]. }
  rewrite wave_height_ok in E by assumption. injection E as <-. rewrite nth_error_map, (combine_nth_error _ _ x y j xj yj Hx Hy) in Hz. cbn in Hz. injection Hz as <-.
  exists (map (fun f => elv f xj yj t) fs). split; [|reflexivity]. induction H as [|f fs Hf Hfs IH]; constructor; auto.
  rewrite elv_get by auto. reflexivity.
Qed.
Print Assumptions elevation_additive.
(** Waves of a single frequency are periodic in time. *)
Theorem elevation_periodic : forall f w x y t, airy f -> w <> 0 -> (forall w', In w' (f_omega f) -> w' = w) ->
  get_elevation f x y (t + 2 * PI / w) = get_elevation f x y t.
Proof.
  intros f w x y t H Hw Hall. destruct (airy_flat f H) as (cs & pd & ps & -> & _).
  destruct (Nat.eq_dec (List.length x) (List.length y)) as [L|L]; [|rewrite !get_elevation_throws by exact L; reflexivity].
  rewrite !get_elevation_ok by exact L. f_equal. apply map_ext. intros [a b]. apply Rsum_ext. intros c Hc. unfold weta. f_equal. f_equal.
  assert (c_omega c = w) as E. { apply Hall. unfold flat_of. cbn [f_omega]. apply in_map. exact Hc. }
  unfold wangle, wave_of. cbn [ww wk wpsi wph fst snd]. rewrite E.
  replace (- (w * (t + 2 * PI / w)) + c_k c * (a * cos (c_psi c) + b * sin (c_psi c)) + c_phase c)
    with (- (w * t) + c_k c * (a * cos (c_psi c) + b * sin (c_psi c)) + c_phase c - 2 * PI) by (field; exact Hw).
  rewrite sin_minus, sin_2PI, cos_2PI. ring.
Qed.
Print Assumptions elevation_periodic.
(** Sizes that differ are refused, for every model. *)
Theorem elevation_sizes : forall fs x y t, List.length x <> List.length y -> get_and_check_wave_height fs x y t = Throw.
Proof. intros fs x y t L. unfold get_and_check_wave_height. apply Nat.eqb_neq in L. rewrite L. reflexivity. Qed.
Print Assumptions elevation_sizes.
Example elevation_witness : exists zs, get_and_check_wave_height [one_wave (fun _ _ _ => 1) (fun _ _ _ => 1) 0; one_wave (fun _ _ _ => 1) (fun _ _ _ => 1) 1] [1; 2] [3; 4] 5 = Ok zs /\
  List.length zs = 2%nat /\ (forall z, In z zs -> Rabs z <= 2) /\
  get_elevation (one_wave (fun _ _ _ => 1) (fun _ _ _ => 1) 0) [1] [2] (5 + 2 * PI / 1) = get_elevation (one_wave (fun _ _ _ => 1) (fun _ _ _ => 1) 0) [1] [2] 5.
Proof.
  destruct (elevation_bounded [one_wave (fun _ _ _ => 1) (fun _ _ _ => 1) 0; one_wave (fun _ _ _ => 1) (fun _ _ _ => 1) 1] [1; 2] [3; 4] 5) as (zs & A & B & C);
    [repeat constructor; apply one_wave_airy|reflexivity|].
  exists zs. split; [exact A|]. split; [exact B|]. split.
  - intros z Hz. specialize (C z Hz). cbn in C. rewrite Rabs_R1 in C. lra.
  - apply elevation_periodic; [apply one_wave_airy|lra|]. cbn. intros w' [<-|[]]. reflexivity.
Qed.

(** ** C37 *)
Lemma pressure_sizes : forall f rho g x y z eta t p, get_dynamic_pressure f rho g x y z eta t = Ok p ->
  List.length x = List.length y /\ List.length x = List.length z /\ List.length x = List.length eta /\
  Forall2 (fun q r => dynamic_pressure1 f rho g t (fst (fst (fst q))) (snd (fst (fst q))) (snd (fst q)) (snd q) = Ok r) (combine (combine (combine x y) z) eta) p.
Proof.
  intros f rho g x y z eta t p H. unfold get_dynamic_pressure in H.
  destruct (Nat.eqb_spec (List.length x) (List.length y)); [|discriminate]. destruct (Nat.eqb_spec (List.length x) (List.length z)); [|discriminate].
  destruct (Nat.eqb_spec (List.length x) (List.length eta)); [|discriminate]. cbn [negb orb] in H. apply mapM_inv in H. auto.
Qed.
Lemma Forall2_nth : forall (A B : Type) (P : A -> B -> Prop) l r j b, Forall2 P l r -> nth_error r j = Some b -> exists a, nth_error l j = Some a /\ P a b.
Proof. intros A B P l r j b H. revert j. induction H; intros [|j] E; cbn in E; try discriminate; [injection E as <-; exists x; auto|]. apply IHForall2. exact E. Qed.
Lemma Forall2_nth_l : forall (A B : Type) (P : A -> B -> Prop) l r j a, Forall2 P l r -> nth_error l j = Some a -> exists b, nth_error r j = Some b /\ P a b.
Proof. intros A B P l r j b H. revert j. induction H; intros [|j] E; cbn in E; try discriminate; [injection E as <-; exists y; auto|]. apply IHForall2. exact E. Qed.
Lemma Forall2_len : forall (A B : Type) (P : A -> B -> Prop) l r, Forall2 P l r -> List.length l = List.length r.
Proof. intros A B P l r H. induction H; cbn; congruence. Qed.
Lemma combine4_inv : forall (x y z e : list R) j q, nth_error (combine (combine (combine x y) z) e) j = Some q ->
  nth_error x j = Some (fst (fst (fst q))) /\ nth_error y j = Some (snd (fst (fst q))) /\ nth_error z j = Some (snd (fst q)) /\ nth_error e j = Some (snd q).
Proof.
  induction x as [|a x IH]; intros [|b y] [|c z] [|d e] [|j] q H; cbn in *; try discriminate; [injection H as <-; auto|]. apply IH. exact H.
Qed.
(** If every model gives a zero pressure at point j, so does their sum. *)
Lemma pressure_loop_zero : forall fs rho g x y z eta t acc p j, pressure_loop fs rho g x y z eta t acc = Ok p ->
  (forall f v, In f fs -> get_dynamic_pressure f rho g x y z eta t = Ok v -> nth_error v j = Some 0) ->
  nth_error acc j = Some 0 -> nth_error p j = Some 0.
Proof.
  induction fs as [|f fs IH]; intros rho g x y z eta t acc p j H Hz Ha; cbn [pressure_loop] in H; [injection H as <-; exact Ha|].
  destruct (get_dynamic_pressure f rho g x y z eta t) as [v| |] eqn:Ev; try discriminate. cbn [bindO] in H.
  destruct (mapM _ _) as [acc'| |] eqn:Em; try discriminate. cbn [bindO] in H.
  apply (IH _ _ _ _ _ _ _ acc' _ j H); [intros; apply (Hz f0); [right|]; assumption|].
  apply mapM_inv in Em. assert (j < List.length acc)%nat as Hj by (apply nth_error_Some; congruence).
  assert (nth_error (seq 0 (List.length acc)) j = Some j) as Hs by (rewrite (nth_error_nth' _ 0%nat) by (rewrite seq_length; exact Hj); rewrite seq_nth by exact Hj; f_equal).
  destruct (Forall2_nth_l _ _ _ _ _ j _ Em Hs) as (b & -> & Hb). unfold at_ub, at_throw in Hb. rewrite Ha, (Hz f v (or_introl eq_refl) Ev) in Hb. cbn in Hb.
  injection Hb as <-. f_equal. lra.
Qed.
Theorem no_pressure_above_surface : forall fs rho g x y z eta t p j zj ej, surface_dynamic_pressure fs rho g x y z eta t = Ok p ->
  (j < List.length x)%nat -> nth_error z j = Some zj -> nth_error eta j = Some ej -> zj < ej -> nth_error p j = Some 0.
Proof.
  intros fs rho g x y z eta t p j zj ej H Hj Hz He Hlt. apply (pressure_loop_zero _ _ _ _ _ _ _ _ _ _ j H).
  - intros f v Hf Hv. apply pressure_sizes in Hv. destruct Hv as (L1 & L2 & L3 & F).
    assert (j < List.length v)%nat as Hv. { rewrite <- (Forall2_len _ _ _ _ _ F). rewrite !combine_length. lia. }
    destruct (nth_error v j) as [r|] eqn:Er; [|apply nth_error_None in Er; lia]. destruct (Forall2_nth _ _ _ _ _ j r F Er) as (q & Eq & D).
    apply combine4_inv in Eq. destruct Eq as (_ & _ & Q3 & Q4). rewrite Hz in Q3. rewrite He in Q4. injection Q3 as Q3. injection Q4 as Q4.
    unfold dynamic_pressure1 in D. rewrite <- Q3, <- Q4 in D. rewrite Rltb_t in D by exact Hlt. injection D as <-. reflexivity.
  - apply nth_error_repeat. exact Hj.
Qed.
Print Assumptions no_pressure_above_surface.
(** The pressure below the sea bed, for models discretised with the depth h. *)
Definition finite_depth_model (h : R) (f : flat R) : Prop :=
  exists halley S D lo hi n st sp, discretize_h halley S D lo hi n h st = Ok sp /\ airy_of sp f.
Lemma Rsum_zero : forall (A : Type) (g : A -> R) l, (forall a, In a l -> g a = 0) -> Rsum (map g l) = 0.
Proof. induction l as [|a l IH]; intros H; cbn; [reflexivity|]. rewrite (H a) by (left; reflexivity). rewrite Rplus_0_l. apply IH. intros. apply H. right. assumption. Qed.
Theorem no_pressure_below_sea_bed : forall h fs rho g x y z eta t p j zj, Forall (finite_depth_model h) fs ->
  surface_dynamic_pressure fs rho g x y z eta t = Ok p -> (j < List.length x)%nat -> nth_error z j = Some zj -> h < zj -> nth_error p j = Some 0.
Proof.
  intros h fs rho g x y z eta t p j zj HF H Hj Hz Hlt. apply (pressure_loop_zero _ _ _ _ _ _ _ _ _ _ j H).
  - intros f v Hf Hv. rewrite Forall_forall in HF. destruct (HF f Hf) as (hal & S & D & lo & hi & n & st & sp & Ed & Ea).
    apply discretize_h_sized in Ed. destruct Ed as (_ & _ & _ & _ & _ & _ & _ & Epd & _). apply airy_of_inv in Ea. destruct Ea as (cs & -> & _ & _). rewrite Epd in *.
    apply pressure_sizes in Hv. destruct Hv as (L1 & L2 & L3 & F).
    assert (j < List.length v)%nat as Hv. { rewrite <- (Forall2_len _ _ _ _ _ F). rewrite !combine_length. lia. }
    destruct (nth_error v j) as [r|] eqn:Er; [|apply nth_error_None in Er; lia]. destruct (Forall2_nth _ _ _ _ _ j r F Er) as (q & Eq & D').
    apply combine4_inv in Eq. destruct Eq as (_ & _ & Q3 & Q4). rewrite Hz in Q3. injection Q3 as Q3. rewrite <- Q3 in D'.
    destruct (Rlt_dec zj (snd q)) as [Hq|Hq].
    + rewrite dynamic_pressure1_air in D' by exact Hq. congruence.
    + rewrite dynamic_pressure1_ok in D' by lra. injection D' as <-. f_equal. rewrite Rsum_zero; [lra|]. intros c _.
      unfold dynamic_pressure_factor. rewrite (Rltb_f zj (snd q)) by lra. rewrite andb_false_r. rewrite Rltb_t by exact Hlt. ring.
  - apply nth_error_repeat. exact Hj.
Qed.
Print Assumptions no_pressure_below_sea_bed.
(** For points of equal sizes the pressure is always returned. *)
Theorem pressure_returned : forall fs rho g x y z eta t, Forall airy fs -> List.length x = List.length y -> List.length x = List.length z -> List.length x = List.length eta ->
  exists p, surface_dynamic_pressure fs rho g x y z eta t = Ok p /\ List.length p = List.length x.
Proof.
  intros fs rho g x y z eta t H L1 L2 L3. unfold surface_dynamic_pressure.
  assert (forall acc, List.length acc = List.length x -> exists p, pressure_loop fs rho g x y z eta t acc = Ok p /\ List.length p = List.length x) as G; [|apply G, repeat_length].
  induction H as [|f fs Hf Hfs IH]; intros acc La; cbn [pressure_loop]; [exists acc; auto|].
  assert (exists v, get_dynamic_pressure f rho g x y z eta t = Ok v /\ List.length v = List.length x) as (v & Ev & Lv).
  { destruct (airy_flat f Hf) as (cs & pd & ps & -> & _). unfold get_dynamic_pressure. rewrite <- L1, <- L2, <- L3, Nat.eqb_refl. cbn [negb orb].
    rewrite (mapM_ok _ _ _ (fun q => if Rltb (snd (fst q)) (snd q) then 0 else rho * g * Rsum (map (fun c => c_a c * pd (c_k c) (snd (fst q)) (snd q) * sin (wangle (wave_of c) (fst (fst (fst q))) (snd (fst (fst q))) t)) cs))).
    - eexists. split; [reflexivity|]. rewrite map_length, !combine_length. lia.
    - intros q _. destruct (Rltb (snd (fst q)) (snd q)) eqn:E; rb; [apply dynamic_pressure1_air; exact E|apply dynamic_pressure1_ok; exact E]. }
  rewrite Ev. cbn [bindO]. rewrite (mapM_ok _ _ _ (fun i => nth i acc 0 + nth i v 0)).
  2: { intros i Hi. apply in_seq in Hi. rewrite (at_ub_ok _ acc i 0), (at_throw_ok _ v i 0) by lia. reflexivity. }
  cbn [bindO]. apply IH. rewrite map_length, seq_length. exact La.
Qed.
Print Assumptions pressure_returned.
Example pressure_witness : exists p, surface_dynamic_pressure [one_wave (fun _ _ _ => 1) (fun _ _ _ => 1) 0] 1000 10 [1; 2] [3; 4] [-1; 5] [0; 0] 7 = Ok p /\ nth_error p 0 = Some 0.
Proof.
  destruct (pressure_returned [one_wave (fun _ _ _ => 1) (fun _ _ _ => 1) 0] 1000 10 [1; 2] [3; 4] [-1; 5] [0; 0] 7) as (p & A & B); try reflexivity.
  - repeat constructor. apply one_wave_airy.
  - exists p. split; [exact A|]. apply (no_pressure_above_surface _ _ _ _ _ _ _ _ _ 0 (-1) 0 A); cbn; auto; lra || lia.
Qed.

(** ** C40: the output mesh *)
Theorem mesh_size : forall o, List.length (make_wave_mesh o) = (fst (get_wave_mesh_size o) * snd (get_wave_mesh_size o))%nat.
Proof. intros o. unfold make_wave_mesh, get_wave_mesh_size. cbn [fst snd]. rewrite map_length, list_prod_len. lia. Qed.
Print Assumptions mesh_size.
(** The surface elevation object built from the mesh and its declared size is always accepted. *)
Theorem mesh_accepted : forall fs o, make_surface fs (get_wave_mesh_size o) (make_wave_mesh o) = Ok (mkSurface fs (get_wave_mesh_size o) (make_wave_mesh o)).
Proof. intros fs o. unfold make_surface. rewrite mesh_size, Nat.eqb_refl. reflexivity. Qed.
Print Assumptions mesh_accepted.
(** Regular grids of at least two distinct values per direction: the points are in row order, equally spaced, from the minimum to the maximum included. *)
Lemma mesh_count_regular : forall lo hi n, lo <> hi -> mesh_count lo hi n = n.
Proof.
  intros lo hi n H. unfold mesh_count, mesh_step. rewrite Reqb_f; [reflexivity|]. destruct (Nat.ltb_spec 1 n).
  - apply Rmult_integral_contrapositive. split; [lra|]. apply Rinv_neq_0_compat. apply not_0_INR. lia.
  - cbn. lra.
Qed.
Theorem mesh_points : forall o i j, xmin o <> xmax o -> ymin o <> ymax o -> (2 <= onx o)%nat -> (2 <= ony o)%nat -> (i < onx o)%nat -> (j < ony o)%nat ->
  get_wave_mesh_size o = (onx o, ony o) /\
  nth_error (make_wave_mesh o) (j * onx o + i) =
    Some (xmin o + INR i * ((xmax o - xmin o) / INR (onx o - 1)), ymin o + INR j * ((ymax o - ymin o) / INR (ony o - 1)), 0).
Proof.
  intros o i j Hx Hy Nx Ny Hi Hj. unfold get_wave_mesh_size, make_wave_mesh. rewrite !mesh_count_regular by assumption. split; [reflexivity|].
  rewrite nth_error_map, list_prod_nth by assumption. cbn [option_map fst snd]. unfold mesh_step.
  replace (Nat.ltb 1 (onx o)) with true by (symmetry; apply Nat.ltb_lt; lia). replace (Nat.ltb 1 (ony o)) with true by (symmetry; apply Nat.ltb_lt; lia). reflexivity.
Qed.
Print Assumptions mesh_points.
Theorem mesh_corners : forall o, xmin o <> xmax o -> ymin o <> ymax o -> (2 <= onx o)%nat -> (2 <= ony o)%nat ->
  nth_error (make_wave_mesh o) 0 = Some (xmin o, ymin o, 0) /\ nth_error (make_wave_mesh o) (onx o * ony o - 1) = Some (xmax o, ymax o, 0).
Proof.
  intros o Hx Hy Nx Ny. assert (0 < INR (onx o - 1)) by (apply INR_pos; lia). assert (0 < INR (ony o - 1)) by (apply INR_pos; lia). split.
  - destruct (mesh_points o 0 0 Hx Hy Nx Ny) as [_ E]; try lia. cbn [Nat.mul Nat.add] in E. rewrite E. cbn [INR]. rewrite !Rmult_0_l, !Rplus_0_r. reflexivity.
  - destruct (mesh_points o (onx o - 1) (ony o - 1) Hx Hy Nx Ny) as [_ E]; try lia.
    replace (onx o * ony o - 1)%nat with ((ony o - 1) * onx o + (onx o - 1))%nat by nia. rewrite E.
    replace (xmin o + INR (onx o - 1) * ((xmax o - xmin o) / INR (onx o - 1))) with (xmax o) by (field; lra).
    replace (ymin o + INR (ony o - 1) * ((ymax o - ymin o) / INR (ony o - 1))) with (ymax o) by (field; lra). reflexivity.
Qed.
Print Assumptions mesh_corners.
(** A direction without extent is reduced to one row or column. *)
Theorem mesh_flat : forall o, xmin o = xmax o -> (1 <= onx o)%nat -> fst (get_wave_mesh_size o) = 1%nat.
Proof.
  intros o Hx Nx. unfold get_wave_mesh_size, mesh_count, mesh_step. cbn [fst]. rewrite Reqb_t; [replace (Nat.eqb (onx o) 0) with false by (symmetry; apply Nat.eqb_neq; lia); reflexivity|].
  unfold Rdiv. rewrite Hx, Rminus_diag_eq by reflexivity. apply Rmult_0_l.
Qed.
Print Assumptions mesh_flat.

(** The exported grid, when the frame of the mesh is NED or a translation of NED (such as NED(body)): the abscissae are those of the
    first row, the ordinates those of the first column, and z(i,j) is what the API returns for the elevation at (x_i, y_j). *)
Lemma points_ok : forall fs t P, Forall airy fs -> points_on_free_surface fs t P =
  Ok (map (fun p => (fst (fst p), snd (fst p), Rsum (map (fun f => elv f (fst (fst p)) (snd (fst p)) t) fs))) P).
Proof.
  intros fs t P H. unfold points_on_free_surface. rewrite wave_height_ok by (auto; rewrite !map_length; reflexivity). cbn [bindO].
  assert (forall (A B C : Type) (g : A -> B) (h : A -> C) l, combine (map g l) (map h l) = map (fun a => (g a, h a)) l) as Cm by (induction l; cbn; congruence).
  rewrite Cm, map_map. cbn [fst snd]. set (d := (0, 0, 0)).
  rewrite (mapM_ok _ _ _ (fun i => (fun p => (fst (fst p), snd (fst p), Rsum (map (fun f => elv f (fst (fst p)) (snd (fst p)) t) fs))) (nth i P d))).
  - rewrite (map_seq_nth_f _ _ (fun p => (fst (fst p), snd (fst p), Rsum (map (fun f => elv f (fst (fst p)) (snd (fst p)) t) fs))) P d). reflexivity.
  - intros i Hi. apply in_seq in Hi. rewrite (at_ub_ok _ P i d) by lia. cbn [bindO].
    set (G := fun p : R * R * R => Rsum (map (fun f => elv f (fst (fst p)) (snd (fst p)) t) fs)).
    rewrite (at_throw_ok _ (map G P) i (G d)) by (rewrite map_length; lia). cbn [bindO]. rewrite map_nth. reflexivity.
Qed.
Lemma nth_error_map_nth : forall (A B : Type) (g : A -> B) l i a, nth_error l i = Some a -> nth_error (map g l) i = Some (g a).
Proof. intros A B g l i a H. rewrite nth_error_map, H. reflexivity. Qed.
Theorem grid_values : forall fs o t tx ty tz, Forall airy fs -> xmin o <> xmax o -> ymin o <> ymax o -> (2 <= onx o)%nat -> (2 <= ony o)%nat ->
  exists gr, get_waves_on_mesh_as_a_grid (mkSurface fs (get_wave_mesh_size o) (make_wave_mesh o)) (fun p => (fst (fst p) + tx, snd (fst p) + ty, snd p + tz)) t = Ok gr /\
    List.length (g_x gr) = onx o /\ List.length (g_y gr) = ony o /\ List.length (g_z gr) = ony o /\
    forall i j xi yj row zij, nth_error (g_x gr) i = Some xi -> nth_error (g_y gr) j = Some yj -> nth_error (g_z gr) j = Some row -> nth_error row i = Some zij ->
      xi = xmin o + INR i * ((xmax o - xmin o) / INR (onx o - 1)) + tx /\ yj = ymin o + INR j * ((ymax o - ymin o) / INR (ony o - 1)) + ty /\
      get_and_check_wave_height fs [xi] [yj] t = Ok [zij].
Proof.
  intros fs o t tx ty tz H Hx Hy Nx Ny. set (T := fun p : R * R * R => (fst (fst p) + tx, snd (fst p) + ty, snd p + tz)).
  assert (get_wave_mesh_size o = (onx o, ony o)) as Es by (unfold get_wave_mesh_size; rewrite !mesh_count_regular by assumption; reflexivity).
  set (G := fun p : R * R * R => (fst (fst p), snd (fst p), Rsum (map (fun f => elv f (fst (fst p)) (snd (fst p)) t) fs))).
  set (res := map G (map T (make_wave_mesh o))).
  set (X := fun i => xmin o + INR i * ((xmax o - xmin o) / INR (onx o - 1)) + tx).
  set (Y := fun j => ymin o + INR j * ((ymax o - ymin o) / INR (ony o - 1)) + ty).
  set (Z := fun i j => Rsum (map (fun f => elv f (X i) (Y j) t) fs)).
  assert (List.length res = (onx o * ony o)%nat) as Lr by (unfold res; rewrite !map_length, mesh_size, Es; reflexivity).
  assert (forall i j, (i < onx o)%nat -> (j < ony o)%nat -> at_ub res (j * onx o + i) = Ok (X i, Y j, Z i j)) as Hr.
  { intros i j Hi Hj. unfold at_ub, res. destruct (mesh_points o i j Hx Hy Nx Ny Hi Hj) as [_ E]. rewrite (nth_error_map_nth _ _ G _ _ _ (nth_error_map_nth _ _ T _ _ _ E)). reflexivity. }
  assert (get_waves_on_mesh (mkSurface fs (get_wave_mesh_size o) (make_wave_mesh o)) T t = Ok res) as Ew.
  { unfold get_waves_on_mesh. cbn [su_mesh su_spectra]. unfold res. destruct (make_wave_mesh o) as [|p0 m0]; [reflexivity|]. apply points_ok. exact H. }
  unfold get_waves_on_mesh_as_a_grid. rewrite Ew. cbn [bindO su_size]. rewrite Es. cbn [fst snd]. clear Ew.
  assert (forall (A : Type) (u v : A), match res with [] => u | _ :: _ => v end = v) as Dm by (intros A u v; destruct res; [cbn in Lr; nia|reflexivity]).
  rewrite Dm. rewrite Lr, Nat.eqb_refl. cbn [negb].
  rewrite (mapM_ok _ _ _ X).
  2: { intros i Hi. apply in_seq in Hi. pose proof (Hr i 0%nat ltac:(lia) ltac:(lia)) as E. cbn [Nat.mul Nat.add] in E. rewrite E. reflexivity. }
  cbn [bindO]. rewrite (mapM_ok _ _ _ Y).
  2: { intros j Hj. apply in_seq in Hj. pose proof (Hr 0%nat j ltac:(lia) ltac:(lia)) as E. rewrite Nat.add_0_r in E. rewrite E. reflexivity. }
  cbn [bindO]. rewrite (mapM_ok _ _ _ (fun j => map (fun i => Z i j) (seq 0 (onx o)))).
  2: { intros j Hj. apply in_seq in Hj. apply mapM_ok. intros i Hi. apply in_seq in Hi. rewrite (Hr i j) by lia. reflexivity. }
  cbn [bindO]. eexists. split; [reflexivity|]. cbn [g_x g_y g_z]. rewrite !map_length, !seq_length. split; [reflexivity|]. split; [reflexivity|]. split; [reflexivity|].
  intros i j xi yj row zij Ex Ey Ez Ew.
  assert (i < onx o)%nat as Hi by (rewrite <- (seq_length (onx o) 0), <- (map_length X); apply nth_error_Some; congruence).
  assert (j < ony o)%nat as Hj by (rewrite <- (seq_length (ony o) 0), <- (map_length Y); apply nth_error_Some; congruence).
  rewrite nth_error_map_seq in Ex, Ey, Ez by assumption. cbn [Nat.add] in *. injection Ex as <-. injection Ey as <-. injection Ez as <-.
  rewrite nth_error_map_seq in Ew by assumption. injection Ew as <-. split; [reflexivity|]. split; [reflexivity|].
  rewrite wave_height_ok by auto. reflexivity.
Qed.
Print Assumptions grid_values.
(** The value z(i,j) is not the elevation at (x_i, y_j) when the frame of the mesh is rotated: here a quarter of a turn about the
    vertical. The grid claims the same position (0,0) for its four points, but the elevation at the fourth one is that at (-1,1). *)
Theorem grid_values_refuted : exists f o t gr, airy f /\
  get_waves_on_mesh_as_a_grid (mkSurface [f] (get_wave_mesh_size o) (make_wave_mesh o)) (fun p => (- snd (fst p), fst (fst p), snd p)) t = Ok gr /\
  exists x1 y1 row z11, nth_error (g_x gr) 1 = Some x1 /\ nth_error (g_y gr) 1 = Some y1 /\ nth_error (g_z gr) 1 = Some row /\ nth_error row 1 = Some z11 /\
    get_and_check_wave_height [f] [x1] [y1] t <> Ok [z11].
Proof.
  set (f := one_wave (fun _ _ _ => 1) (fun _ _ _ => 1) 0). exists f, (mkWaveOutput 0 1 2 0 1 2), 0.
  assert (airy f) as Hf by apply one_wave_airy.
  assert (make_wave_mesh (mkWaveOutput 0 1 2 0 1 2) = [(0, 0, 0); (1, 0, 0); (0, 1, 0); (1, 1, 0)]) as Em.
  { unfold make_wave_mesh. cbn [xmin xmax ymin ymax onx ony]. rewrite mesh_count_regular by lra. unfold mesh_step. cbn. repeat f_equal; field. }
  assert (get_wave_mesh_size (mkWaveOutput 0 1 2 0 1 2) = (2, 2)%nat) as Es.
  { unfold get_wave_mesh_size. cbn [xmin xmax ymin ymax onx ony]. rewrite mesh_count_regular by lra. reflexivity. }
  rewrite Em, Es. unfold get_waves_on_mesh_as_a_grid, get_waves_on_mesh. cbn [su_mesh su_spectra su_size]. rewrite points_ok by (constructor; auto). cbn [map fst snd bindO List.length Nat.mul Nat.add Nat.eqb negb].
  cbn [seq mapM at_ub nth_error bindO fst snd Nat.mul Nat.add]. eexists. split; [exact Hf|]. split; [reflexivity|]. cbn [g_x g_y g_z nth_error]. do 4 eexists. do 4 (split; [reflexivity|]).
  rewrite wave_height_ok by auto. cbn [combine map fst snd Rsum fold_right]. intros E. injection E as E. unfold elv in E.
  assert (forall x y, elevation1 f 0 x y = Ok (- sin x)) as G.
  { intros x y. unfold f, one_wave, elevation1, angle. cbn. rewrite cos_0, sin_0. f_equal. replace (- (1 * 0) + 1 * (x * 1 + y * 0) + 0) with x by ring. ring. }
  rewrite !G in E. rewrite Ropp_0, sin_0, sin_neg in E. pose proof sin_gt_0 1 ltac:(lra) ltac:(pose proof PI_gt_3; lra). lra.
Qed.
Print Assumptions grid_values_refuted.
Example grid_witness : exists gr, get_waves_on_mesh_as_a_grid (mkSurface [one_wave (fun _ _ _ => 1) (fun _ _ _ => 1) 0] (get_wave_mesh_size (mkWaveOutput 0 10 3 (-5) 5 4)) (make_wave_mesh (mkWaveOutput 0 10 3 (-5) 5 4)))
    (fun p => (fst (fst p) + 1, snd (fst p) + 2, snd p + 0)) 6 = Ok gr /\ List.length (g_x gr) = 3%nat /\ List.length (g_z gr) = 4%nat.
Proof.
  destruct (grid_values [one_wave (fun _ _ _ => 1) (fun _ _ _ => 1) 0] (mkWaveOutput 0 10 3 (-5) 5 4) 6 1 2 0) as (gr & A & B & C & D & _); cbn; try lra; try lia.
  - repeat constructor. apply one_wave_airy.
  - exists gr. auto.
Qed.

(** Relative wave heights: depth of each point below the local free surface. *)
Theorem relative_wave_heights : forall fs to_ned t P, Forall airy fs -> P <> [] ->
  exists zs rel, update_surface_elevation fs to_ned t P = Ok (Some (zs, rel)) /\ List.length zs = List.length P /\ List.length rel = List.length P /\
    forall i p z r, nth_error P i = Some p -> nth_error zs i = Some z -> nth_error rel i = Some r ->
      get_and_check_wave_height fs [fst (fst (to_ned p))] [snd (fst (to_ned p))] t = Ok [z] /\ r = snd (to_ned p) - z.
Proof.
  intros fs to_ned t P H NP. unfold update_surface_elevation. destruct P as [|p0 P0] eqn:EP; [contradiction|]. rewrite <- EP in *. clear NP EP p0 P0.
  set (OP := map to_ned P). rewrite wave_height_ok by (auto; rewrite !map_length; reflexivity). cbn [bindO].
  assert (forall (A B C : Type) (g : A -> B) (h : A -> C) l, combine (map g l) (map h l) = map (fun a => (g a, h a)) l) as Cm by (induction l; cbn; congruence).
  rewrite Cm, map_map. cbn [fst snd]. set (G := fun p : R * R * R => Rsum (map (fun f => elv f (fst (fst p)) (snd (fst p)) t) fs)). set (d := (0, 0, 0)).
  rewrite (mapM_ok _ _ _ (fun i => (fun p => snd p - G p) (nth i OP d))).
  2: { intros i Hi. apply in_seq in Hi. rewrite (at_ub_ok _ OP i d) by lia. cbn [bindO]. rewrite (at_throw_ok _ (map G OP) i (G d)) by (rewrite map_length; lia). cbn [bindO]. rewrite map_nth. reflexivity. }
  rewrite (map_seq_nth_f _ _ (fun p => snd p - G p) OP d). cbn [bindO]. do 2 eexists. split; [reflexivity|]. unfold OP. rewrite !map_length. split; [reflexivity|]. split; [reflexivity|].
  intros i p z r Hp Hz Hr. rewrite (nth_error_map_nth _ _ G _ _ _ (nth_error_map_nth _ _ to_ned _ _ _ Hp)) in Hz. injection Hz as <-.
  rewrite (nth_error_map_nth _ _ (fun p => snd p - G p) _ _ _ (nth_error_map_nth _ _ to_ned _ _ _ Hp)) in Hr. injection Hr as <-.
  split; [|reflexivity]. rewrite wave_height_ok by auto. reflexivity.
Qed.
Print Assumptions relative_wave_heights.
