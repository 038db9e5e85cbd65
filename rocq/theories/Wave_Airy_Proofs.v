(** Proofs about Airy waves: closed forms, derivatives, dispersion relation. *)
From Coq Require Import Reals List Bool ZArith Lra Lia.
From Coquelicot Require Import Coquelicot.
From Verif Require Import Common Wave_Model Wave_Spec Wave_Proofs Wave_Flat_Proofs.
Import ListNotations.
Open Scope R_scope.

Definition wave_of (c : component R) : wave := mkWave (c_a c) (c_omega c) (c_k c) (c_psi c) (c_phase c).

(** A constructed model is made of components, at least one. *)
Definition airy_of (sp : discrete) (f : flat R) : Prop :=
  (exists c, airy_constant sp c = Ok f) \/ (exists draw, airy_random sp draw = Ok f).
Lemma flatten_inv : forall sp f, flatten sp = Ok f -> exists cs, f = flat_of cs (d_pdyn sp) (d_pdyn_sh sp) /\
  mapM (fun ij => flatten_component sp (fst ij) (snd ij)) (list_prod (seq 0 (List.length (d_omega sp))) (seq 0 (List.length (d_psi sp)))) = Ok cs.
Proof. intros sp f H. unfold flatten in H. destruct (mapM _ _) as [cs| |] eqn:E; try discriminate. cbn [bindO] in H. injection H as <-. exists cs. auto. Qed.
Lemma check_sizes_inv : forall cs pd ps f, check_sizes (flat_of cs pd ps) = Ok f ->
  exists cs', f = flat_of cs' pd ps /\ cs' <> [] /\ cs = map (fun c => mkComp (Some (c_a c)) (c_omega c) (c_psi c) (c_k c) (c_phase c)) cs'.
Proof.
  intros cs pd ps f H. unfold check_sizes in H. destruct (is_nil _ || is_nil _ || is_nil _ || is_nil _) eqn:E; [discriminate|].
  destruct (all_numbers _) as [a|] eqn:Ea; [|discriminate]. injection H as <-. apply all_numbers_spec in Ea. cbn in Ea.
  exists (map (fun ca => mkComp (snd ca) (c_omega (fst ca)) (c_psi (fst ca)) (c_k (fst ca)) (c_phase (fst ca))) (combine cs a)).
  assert (List.length a = List.length cs) as L by (rewrite <- (map_length (@Some R) a), <- Ea; apply map_length).
  split; [|split].
  - unfold flat_of. rewrite !map_map. cbn. clear E. f_equal.
    + revert a L Ea. induction cs as [|c cs IH]; intros [|x a] L Ea; try discriminate; [reflexivity|]. cbn in *. f_equal. injection Ea as _ Ea. apply IH; auto.
    + revert a L Ea. induction cs as [|c cs IH]; intros [|x a] L Ea; try discriminate; [reflexivity|]. cbn in *. f_equal. injection Ea as _ Ea. apply (IH a); auto.
    + revert a L Ea. induction cs as [|c cs IH]; intros [|x a] L Ea; try discriminate; [reflexivity|]. cbn in *. f_equal. injection Ea as _ Ea. apply (IH a); auto.
    + revert a L Ea. induction cs as [|c cs IH]; intros [|x a] L Ea; try discriminate; [reflexivity|]. cbn in *. f_equal. injection Ea as _ Ea. apply (IH a); auto.
    + revert a L Ea. induction cs as [|c cs IH]; intros [|x a] L Ea; try discriminate; [reflexivity|]. cbn in *. f_equal. injection Ea as _ Ea. apply (IH a); auto.
    + revert a L Ea. induction cs as [|c cs IH]; intros [|x a] L Ea; try discriminate; [reflexivity|]. cbn in *. f_equal. injection Ea as _ Ea. apply (IH a); auto.
    + revert a L Ea. induction cs as [|c cs IH]; intros [|x a] L Ea; try discriminate; [reflexivity|]. cbn in *. f_equal. injection Ea as _ Ea. apply (IH a); auto.
  - destruct cs; [discriminate|]. destruct a; [discriminate|]. discriminate.
  - clear E. rewrite map_map. revert a L Ea. induction cs as [|c cs IH]; intros [|x a] L Ea; try discriminate; [reflexivity|]. cbn in *. injection Ea as Ex Ea. f_equal.
    + rewrite <- Ex. destruct c; reflexivity.
    + apply IH; auto.
Qed.
Lemma airy_of_inv : forall sp f, airy_of sp f -> exists cs, f = flat_of cs (d_pdyn sp) (d_pdyn_sh sp) /\ cs <> [] /\
  forall c, In c cs -> exists i j, (i < List.length (d_omega sp))%nat /\ (j < List.length (d_psi sp))%nat /\
    nth_error (d_omega sp) i = Some (c_omega c) /\ nth_error (d_k sp) i = Some (c_k c) /\ nth_error (d_psi sp) j = Some (c_psi c).
Proof.
  assert (forall sp f, (do fl <- flatten sp; check_sizes fl) = Ok f -> exists cs, f = flat_of cs (d_pdyn sp) (d_pdyn_sh sp) /\ cs <> [] /\
  forall c, In c cs -> exists i j, (i < List.length (d_omega sp))%nat /\ (j < List.length (d_psi sp))%nat /\
    nth_error (d_omega sp) i = Some (c_omega c) /\ nth_error (d_k sp) i = Some (c_k c) /\ nth_error (d_psi sp) j = Some (c_psi c)) as G.
  { intros sp f H. destruct (flatten sp) as [fl| |] eqn:E; try discriminate. cbn [bindO] in H. apply flatten_inv in E. destruct E as (cs & -> & E).
    apply check_sizes_inv in H. destruct H as (cs' & -> & N & ->). exists cs'. split; [reflexivity|]. split; [exact N|].
    intros c Hc. apply mapM_inv in E. remember (map _ cs') as m eqn:Em.
    assert (In (mkComp (Some (c_a c)) (c_omega c) (c_psi c) (c_k c) (c_phase c)) m) as Hm by (subst m; apply in_map_iff; exists c; auto).
    clear - E Hm. assert (exists ij, In ij (list_prod (seq 0 (List.length (d_omega sp))) (seq 0 (List.length (d_psi sp)))) /\
       flatten_component sp (fst ij) (snd ij) = Ok (mkComp (Some (c_a c)) (c_omega c) (c_psi c) (c_k c) (c_phase c))) as ([i j] & Hij & F).
    { induction E; [destruct Hm|]. destruct Hm as [->|Hm]; [exists x; split; [left; reflexivity|assumption]|]. destruct (IHE Hm) as (ij & A & B). exists ij. split; [right|]; assumption. }
    apply in_prod_iff in Hij. rewrite !in_seq in Hij. exists i, j. cbn [fst snd] in F. unfold flatten_component in F.
    destruct (width (d_omega sp) i); try discriminate. destruct (width (d_psi sp) j); try discriminate. cbn [bindO] in F. unfold at_ub in F.
    destruct (nth_error (d_k sp) i) eqn:E1; try discriminate. cbn [bindO] in F. destruct (nth_error (d_omega sp) i) eqn:E2; try discriminate. cbn [bindO] in F.
    destruct (nth_error (d_psi sp) j) eqn:E3; try discriminate. cbn [bindO] in F. destruct (nth_error (d_Si sp) i); try discriminate. cbn [bindO] in F.
    destruct (nth_error (d_Dj sp) j); try discriminate. cbn [bindO] in F. unfold at_throw in F. destruct (nth_error (d_phase sp) i); try discriminate. cbn [bindO] in F.
    destruct (nth_error l j); try discriminate. cbn [bindO] in F. injection F as _ -> -> -> _. repeat split; auto; lia. }
  intros sp f [(c & H)|(draw & H)].
  - assert (d_pdyn (add_constant_phases sp c) = d_pdyn sp /\ d_pdyn_sh (add_constant_phases sp c) = d_pdyn_sh sp /\ d_omega (add_constant_phases sp c) = d_omega sp /\
      d_psi (add_constant_phases sp c) = d_psi sp /\ d_k (add_constant_phases sp c) = d_k sp) as (E1 & E2 & E3 & E4 & E5)
      by (unfold add_constant_phases; destruct (Nat.ltb _ _); auto).
    apply G in H. rewrite E1, E2, E3, E4, E5 in H. exact H.
  - assert (d_pdyn (add_random_phases sp draw) = d_pdyn sp /\ d_pdyn_sh (add_random_phases sp draw) = d_pdyn_sh sp /\ d_omega (add_random_phases sp draw) = d_omega sp /\
      d_psi (add_random_phases sp draw) = d_psi sp /\ d_k (add_random_phases sp draw) = d_k sp) as (E1 & E2 & E3 & E4 & E5)
      by (unfold add_random_phases; destruct (Nat.ltb _ _); auto).
    apply G in H. rewrite E1, E2, E3, E4, E5 in H. exact H.
Qed.

(** ** Closed forms *)
Section Closed.
Variables (cs : list (component R)) (pd ps : R -> R -> R -> R).
Let f := flat_of cs pd ps.
Definition dcomp : component R := mkComp 0 0 0 0 0.
Lemma at_flat : forall (B : Type) (g : component R -> B) i, (i < List.length cs)%nat -> at_ub (map g cs) i = Ok (g (nth i cs dcomp)).
Proof. intros B g i H. rewrite (at_ub_ok _ _ i (g dcomp)) by (rewrite map_length; exact H). rewrite map_nth. reflexivity. Qed.
Lemma angle_ok : forall x y t i, (i < List.length cs)%nat -> angle f x y t i = Ok (wangle (wave_of (nth i cs dcomp)) x y t).
Proof. intros x y t i H. unfold angle, f, flat_of. cbn. rewrite !at_flat by exact H. cbn [bindO]. reflexivity. Qed.
Lemma psi_len : List.length (f_psi f) = List.length cs.
Proof. unfold f, flat_of. cbn. apply map_length. Qed.
Lemma k_len : List.length (f_k f) = List.length cs.
Proof. unfold f, flat_of. cbn. apply map_length. Qed.
Lemma in_range : forall i, In i (seq 0 (List.length cs)) -> (i < List.length cs)%nat.
Proof. intros i H. apply in_seq in H. lia. Qed.

Lemma elevation1_ok : forall t x y, elevation1 f t x y = Ok (Rsum (map (fun c => weta (wave_of c) x y t) cs)).
Proof.
  intros t x y. unfold elevation1. rewrite psi_len. rewrite (accM_ok _ _ (fun i => weta (wave_of (nth i cs dcomp)) x y t)).
  - rewrite (map_seq_nth_f _ _ (fun c => weta (wave_of c) x y t)). f_equal. lra.
  - intros i Hi. apply in_range in Hi. rewrite angle_ok by exact Hi. unfold f, flat_of. cbn [f_a]. rewrite at_flat by exact Hi. cbn [bindO]. reflexivity.
Qed.
Lemma dynamic_pressure1_ok : forall rho g t x y z eta, eta <= z ->
  dynamic_pressure1 f rho g t x y z eta = Ok (rho * g * Rsum (map (fun c => c_a c * pd (c_k c) z eta * sin (wangle (wave_of c) x y t)) cs)).
Proof.
  intros rho g t x y z eta H. unfold dynamic_pressure1. rewrite Rltb_f by exact H. rewrite psi_len.
  rewrite (accM_ok _ _ (fun i => c_a (nth i cs dcomp) * pd (c_k (nth i cs dcomp)) z eta * sin (wangle (wave_of (nth i cs dcomp)) x y t))).
  - rewrite (map_seq_nth_f _ _ (fun c => c_a c * pd (c_k c) z eta * sin (wangle (wave_of c) x y t))). cbn [bindO]. f_equal. lra.
  - intros i Hi. apply in_range in Hi. rewrite angle_ok by exact Hi. unfold f, flat_of. cbn [f_a f_k f_pdyn]. rewrite !at_flat by exact Hi. cbn [bindO]. reflexivity.
Qed.
Lemma dynamic_pressure1_air : forall rho g t x y z eta, z < eta -> dynamic_pressure1 f rho g t x y z eta = Ok 0.
Proof. intros. unfold dynamic_pressure1. rewrite Rltb_t by assumption. reflexivity. Qed.
Definition ako (c : component R) : R := c_a c * c_k c / c_omega c.
Lemma orbital_velocity1_ok : forall g t x y z eta, eta <= z ->
  orbital_velocity1 f g t x y z eta =
    Ok (g * Rsum (map (fun c => ako c * pd (c_k c) z 0 * sin (wangle (wave_of c) x y t) * cos (c_psi c)) cs),
        g * Rsum (map (fun c => ako c * pd (c_k c) z 0 * sin (wangle (wave_of c) x y t) * sin (c_psi c)) cs),
        g * Rsum (map (fun c => ako c * ps (c_k c) z 0 * cos (wangle (wave_of c) x y t)) cs)).
Proof.
  intros g t x y z eta H. unfold orbital_velocity1. rewrite Rltb_f by exact H. rewrite psi_len.
  rewrite (accM_ok _ _ (fun i => (fun c => ako c * pd (c_k c) z 0 * sin (wangle (wave_of c) x y t) * cos (c_psi c)) (nth i cs dcomp))).
  2: { intros i Hi. apply in_range in Hi. rewrite angle_ok by exact Hi. unfold f, flat_of. cbn [f_a f_k f_pdyn f_pdyn_sh f_omega f_cos f_sin]. rewrite !at_flat by exact Hi. cbn [bindO fst snd]. reflexivity. }
  cbn [bindO]. rewrite (accM_ok _ _ (fun i => (fun c => ako c * pd (c_k c) z 0 * sin (wangle (wave_of c) x y t) * sin (c_psi c)) (nth i cs dcomp))).
  2: { intros i Hi. apply in_range in Hi. rewrite angle_ok by exact Hi. unfold f, flat_of. cbn [f_a f_k f_pdyn f_pdyn_sh f_omega f_cos f_sin]. rewrite !at_flat by exact Hi. cbn [bindO fst snd]. reflexivity. }
  cbn [bindO]. rewrite (accM_ok _ _ (fun i => (fun c => ako c * ps (c_k c) z 0 * cos (wangle (wave_of c) x y t)) (nth i cs dcomp))).
  2: { intros i Hi. apply in_range in Hi. rewrite angle_ok by exact Hi. unfold f, flat_of. cbn [f_a f_k f_pdyn f_pdyn_sh f_omega f_cos f_sin]. rewrite !at_flat by exact Hi. cbn [bindO fst snd]. reflexivity. }
  cbn [bindO].
  rewrite (map_seq_nth_f _ _ (fun c => ako c * pd (c_k c) z 0 * sin (wangle (wave_of c) x y t) * cos (c_psi c))).
  rewrite (map_seq_nth_f _ _ (fun c => ako c * pd (c_k c) z 0 * sin (wangle (wave_of c) x y t) * sin (c_psi c))).
  rewrite (map_seq_nth_f _ _ (fun c => ako c * ps (c_k c) z 0 * cos (wangle (wave_of c) x y t))).
  f_equal. f_equal; [f_equal|]; lra.
Qed.
Lemma get_elevation_ok : forall x y t, List.length x = List.length y ->
  get_elevation f x y t = Ok (map (fun p => Rsum (map (fun c => weta (wave_of c) (fst p) (snd p) t) cs)) (combine x y)).
Proof.
  intros x y t H. unfold get_elevation. rewrite H, Nat.eqb_refl. cbn [negb]. apply mapM_ok. intros [a b] _. apply elevation1_ok.
Qed.
Lemma get_elevation_throws : forall x y t, List.length x <> List.length y -> get_elevation f x y t = Throw.
Proof. intros x y t H. unfold get_elevation. apply Nat.eqb_neq in H. rewrite H. reflexivity. Qed.
End Closed.

(** ** Stretching *)
Lemma rescaled_zero : forall st z, rescaled_z st z 0 = z.
Proof. intros st z. unfold rescaled_z. destruct (Reqb (st_h st) 0) eqn:E; [reflexivity|]. rb. destruct (Rltb (st_h st) z); [reflexivity|]. field. lra. Qed.
Lemma rescaled_none : forall st z ksi, st_h st = 0 -> rescaled_z st z ksi = z.
Proof. intros st z ksi H. unfold rescaled_z. rewrite Reqb_t by exact H. reflexivity. Qed.

(** ** Derivatives of sums *)
Lemma is_derive_Rsum : forall (cs : list (component R)) (F : component R -> R -> R) (dF : component R -> R) x,
  (forall c, In c cs -> is_derive (F c) x (dF c)) -> is_derive (fun x => Rsum (map (fun c => F c x) cs)) x (Rsum (map dF cs)).
Proof.
  induction cs as [|c cs IH]; intros F dF x H; cbn [map Rsum fold_right]; [apply (is_derive_const 0)|].
  apply (is_derive_plus (F c) (fun x => Rsum (map (fun c => F c x) cs))).
  - apply H. left. reflexivity.
  - apply IH. intros. apply H. right. assumption.
Qed.
Lemma is_derive_gRsum : forall g (cs : list (component R)) (F : component R -> R -> R) (dF : component R -> R) x,
  (forall c, In c cs -> is_derive (F c) x (dF c)) -> is_derive (fun x => g * Rsum (map (fun c => F c x) cs)) x (g * Rsum (map dF cs)).
Proof. intros g cs F dF x H. apply is_derive_scal. apply is_derive_Rsum. exact H. Qed.

(** ** Dispersion relation *)
Lemma cosh_pos : forall x, 0 < cosh x.
Proof. intros x. unfold cosh. assert (0 < exp x) by apply exp_pos. assert (0 < exp (- x)) by apply exp_pos. lra. Qed.
Lemma cosh_sinh : forall x, cosh x * cosh x - sinh x * sinh x = 1.
Proof. intros x. unfold cosh, sinh. assert (exp x * exp (- x) = 1) by (rewrite <- exp_plus, Rplus_opp_r; apply exp_0). nra. Qed.
Lemma is_derive_sinh : forall x, is_derive sinh x (cosh x).
Proof. intros x. apply is_derive_Reals. apply derivable_pt_lim_sinh. Qed.
Lemma is_derive_cosh : forall x, is_derive cosh x (sinh x).
Proof. intros x. apply is_derive_Reals. apply derivable_pt_lim_cosh. Qed.
Lemma is_derive_tanh : forall x, is_derive tanh x (1 - tanh x * tanh x).
Proof.
  intros x. unfold tanh at 1. assert (cosh x <> 0) by (apply Rgt_not_eq, cosh_pos). 
  replace (1 - tanh x * tanh x) with ((cosh x * cosh x - sinh x * sinh x) / (cosh x) ^ 2).
  - apply (is_derive_div sinh cosh x (cosh x) (sinh x)); [apply is_derive_sinh|apply is_derive_cosh|assumption].
  - unfold tanh. field. assumption.
Qed.
Lemma tanh_increasing : forall x y, x < y -> tanh x < tanh y.
Proof.
  intros x y H. apply (incr_function tanh m_infty p_infty (fun x => 1 - tanh x * tanh x)); simpl; auto.
  - intros z _ _. apply is_derive_tanh.
  - intros z _ _. unfold tanh. assert (0 < cosh z) by apply cosh_pos. replace (1 - sinh z / cosh z * (sinh z / cosh z)) with ((cosh z * cosh z - sinh z * sinh z) / (cosh z * cosh z)) by (field; lra).
    rewrite cosh_sinh. apply Rdiv_lt_0_compat; [lra|apply Rmult_lt_0_compat; assumption].
Qed.
Lemma tanh_0' : tanh 0 = 0.
Proof. unfold tanh. rewrite sinh_0. unfold Rdiv. apply Rmult_0_l. Qed.
Lemma tanh_lt_1 : forall x, tanh x < 1.
Proof.
  intros x. unfold tanh. assert (0 < cosh x) by apply cosh_pos. apply (Rmult_lt_reg_r (cosh x)); [assumption|].
  unfold Rdiv. rewrite Rmult_assoc, Rinv_l by lra. unfold sinh, cosh. assert (0 < exp (- x)) by apply exp_pos. lra.
Qed.
Lemma tanh_pos : forall x, 0 < x -> 0 < tanh x.
Proof. intros x H. rewrite <- tanh_0'. apply tanh_increasing. exact H. Qed.
Lemma PI_gt_3 : 3 < PI.
Proof. pose proof PI2_3_2. unfold PI2 in *. lra. Qed.
(** tanh(x) > 2/7 as soon as x >= 3/10 *)
Lemma tanh_lower : forall x, 3 / 10 <= x -> 2 / 7 < tanh x.
Proof.
  intros x H. apply (Rlt_le_trans _ (tanh (3 / 10))).
  - unfold tanh, sinh, cosh. set (e := exp (3 / 10)). assert (exp (- (3 / 10)) = / e) as -> by apply exp_Ropp.
    assert (0 < e) as He by apply exp_pos.
    assert (1 + 3 / 10 / 8 <= exp (3 / 10 / 8)) as G by (apply Rlt_le, exp_ineq1; lra).
    assert (e = (exp (3 / 10 / 8)) ^ 8) as E. { unfold e. simpl. rewrite Rmult_1_r, <- !exp_plus. f_equal. lra. }
    assert (1342 / 1000 < e) as L. { rewrite E. apply (Rlt_le_trans _ ((1 + 3 / 10 / 8) ^ 8)); [lra|]. apply pow_incr. lra. }
    apply (Rmult_lt_reg_r ((e + / e) / 2)); [assert (0 < / e) by (apply Rinv_0_lt_compat; assumption); lra|].
    assert (0 < / e) by (apply Rinv_0_lt_compat; assumption). replace ((e - / e) / 2 / ((e + / e) / 2) * ((e + / e) / 2)) with ((e - / e) / 2) by (field; split; nra).
    assert (e * / e = 1) as I by (apply Rinv_r; lra). assert (9 < 5 * e * e) as E5 by nra.
    assert (0 < / e * (5 * e * e - 9)) as P by (apply Rmult_lt_0_compat; lra). replace (/ e * (5 * e * e - 9)) with (5 * e * (e * / e) - 9 * / e) in P by ring.
    rewrite I in P. lra.
  - destruct (Req_dec x (3 / 10)) as [->|N]; [lra|]. apply Rlt_le, tanh_increasing. lra.
Qed.
