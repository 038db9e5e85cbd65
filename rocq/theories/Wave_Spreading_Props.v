(** Properties C88 (directional spreadings) and C89 (response amplitude operators applied to waves). *)
From Coq Require Import Reals List Bool ZArith Lra Lia.
From Verif Require Import Common Wave_Model Wave_Spec Wave_Proofs Wave_Flat_Proofs Wave_Airy_Proofs Wave_Surface_Props Wave_Props.
Import ListNotations.
Open Scope R_scope.

(** ** C88 *)
Lemma Int_part_INR : forall n, Int_part (INR n) = Z.of_nat n.
Proof. intros n. rewrite INR_IZR_INZ. destruct (base_Int_part (IZR (Z.of_nat n))) as (A & B). apply le_IZR in A. assert (IZR (Z.of_nat n) < IZR (Int_part (IZR (Z.of_nat n)) + 1)) as C by (rewrite plus_IZR; lra). apply lt_IZR in C. lia. Qed.
Lemma cpow_even : forall x n, exists v, cpow x (2 * INR n) = Some v /\ 0 <= v.
Proof.
  intros x n. replace (2 * INR n) with (INR (2 * n)) by (rewrite mult_INR; simpl; ring). unfold cpow.
  destruct (Rltb 0 x); [eexists; split; [reflexivity|left; apply exp_pos]|]. destruct (Reqb x 0); [destruct (Reqb (INR (2 * n)) 0); eexists; (split; [reflexivity|lra])|].
  rewrite Int_part_INR. rewrite Reqb_t by (symmetry; apply INR_IZR_INZ). replace (Z.even (Z.of_nat (2 * n))) with true by (rewrite Nat2Z.inj_mul, Z.even_mul; reflexivity).
  eexists; split; [reflexivity|left; apply exp_pos].
Qed.
(** With an integer s the density of a direction is a non-negative number, for every direction. *)
Theorem spreading_nonneg_partial : forall psi0 n Fs psi, 0 <= Fs -> exists v, spread (Cos2sDirectionalSpreading psi0 (INR n) Fs) psi = Some v /\ 0 <= v.
Proof.
  intros psi0 n Fs psi HF. cbn [spread]. destruct (cpow_even (cos ((psi - psi0) / 2)) n) as (v & -> & Hv). cbn. eexists. split; [reflexivity|]. nra.
Qed.
Print Assumptions spreading_nonneg_partial.
Lemma cpow_odd_neg : forall x n, x < 0 -> exists v, cpow x (INR (2 * n + 1)) = Some v /\ v < 0.
Proof.
  intros x n H. unfold cpow. rewrite Rltb_f by lra. rewrite Reqb_f by lra. rewrite Int_part_INR. rewrite Reqb_t by (symmetry; apply INR_IZR_INZ).
  replace (Z.even (Z.of_nat (2 * n + 1))) with false. 2: { rewrite Nat2Z.inj_add, Nat2Z.inj_mul, Z.even_add, Z.even_mul. reflexivity. }
  eexists. split; [reflexivity|]. assert (0 < Rpower (- x) (INR (2 * n + 1))) by apply exp_pos. lra.
Qed.
Lemma cpow_nan : forall x, x < 0 -> cpow x (1 / 2) = None.
Proof.
  intros x H. unfold cpow. rewrite Rltb_f by lra. rewrite Reqb_f by lra. rewrite Reqb_f; [reflexivity|]. intros E. destruct (base_Int_part (1 / 2)) as (A & B).
  assert (IZR (Int_part (1 / 2)) < IZR 1) as C by lra. apply lt_IZR in C. assert (IZR (-1) < IZR (Int_part (1 / 2))) as D by lra. apply lt_IZR in D. assert (Int_part (1 / 2) = 0%Z) as Z0 by lia. rewrite Z0 in E. lra.
Qed.
Lemma cos_half_neg : forall psi, PI < psi < 2 * PI -> cos (psi / 2) < 0.
Proof. intros psi (A & B). apply cos_lt_0; lra. Qed.
(** Not otherwise: s = n + 1/2 gives negative densities and s = 1/4 gives NaN on half of the directions, whatever the normalisation. *)
Theorem spreading_nonneg_refuted : forall n Fs psi, 0 < Fs -> PI < psi < 2 * PI ->
  spreading_ctor_ok (Cos2sDirectionalSpreading 0 (INR n + 1 / 2) Fs) = true /\ spreading_ctor_ok (Cos2sDirectionalSpreading 0 (1 / 4) Fs) = true /\
  (exists v, spread (Cos2sDirectionalSpreading 0 (INR n + 1 / 2) Fs) psi = Some v /\ v < 0) /\
  spread (Cos2sDirectionalSpreading 0 (1 / 4) Fs) psi = None.
Proof.
  intros n Fs psi HF Hp. pose proof (pos_INR n). pose proof (cos_half_neg psi Hp) as C. cbn [spreading_ctor_ok]. rewrite !Rltb_f by lra. split; [reflexivity|]. split; [reflexivity|].
  cbn [spread]. rewrite Rminus_0_r. split.
  - replace (2 * (INR n + 1 / 2)) with (INR (2 * n + 1)) by (rewrite plus_INR, mult_INR; simpl; lra). destruct (cpow_odd_neg _ n C) as (v & -> & Hv). cbn. eexists. split; [reflexivity|]. nra.
  - replace (2 * (1 / 4)) with (1 / 2) by lra. rewrite (cpow_nan _ C). reflexivity.
Qed.
Print Assumptions spreading_nonneg_refuted.
(** The spreading is even about the main direction, and (s integer) has the period of the circle. *)
Theorem spreading_even_periodic : forall psi0 s Fs d, spread (Cos2sDirectionalSpreading psi0 s Fs) (psi0 + d) = spread (Cos2sDirectionalSpreading psi0 s Fs) (psi0 - d) /\
  (forall n, s = INR n -> spread (Cos2sDirectionalSpreading psi0 s Fs) (psi0 + d + 2 * PI) = spread (Cos2sDirectionalSpreading psi0 s Fs) (psi0 + d)).
Proof.
  intros psi0 s Fs d. cbn [spread]. split.
  - replace ((psi0 + d - psi0) / 2) with (d / 2) by field. replace ((psi0 - d - psi0) / 2) with (- (d / 2)) by field. rewrite cos_neg. reflexivity.
  - intros n ->. f_equal. replace ((psi0 + d + 2 * PI - psi0) / 2) with (d / 2 + PI) by field. replace ((psi0 + d - psi0) / 2) with (d / 2) by field. rewrite neg_cos. set (x := cos (d / 2)).
    replace (2 * INR n) with (INR (2 * n)) by (rewrite mult_INR; simpl; ring). unfold cpow. rewrite Int_part_INR. rewrite (Reqb_t (IZR _)) by (symmetry; apply INR_IZR_INZ).
    replace (Z.even (Z.of_nat (2 * n))) with true by (rewrite Nat2Z.inj_mul, Z.even_mul; reflexivity). destruct (Rtotal_order x 0) as [H|[->|H]].
    + rewrite (Rltb_t 0 (- x)) by lra. rewrite (Rltb_f 0 x) by lra. rewrite (Reqb_f x) by lra. reflexivity.
    + rewrite !Ropp_0. reflexivity.
    + rewrite (Rltb_f 0 (- x)) by lra. rewrite (Reqb_f (- x)) by lra. rewrite (Rltb_t 0 x) by lra. rewrite Ropp_involutive. reflexivity.
Qed.
Print Assumptions spreading_even_periodic.
(** The directions of the grid are the n-th parts of the circle. *)
Theorem direction_grid : forall psi0 s Fs n i, (i < n)%nat -> List.length (directions (Cos2sDirectionalSpreading psi0 s Fs) n) = n /\
  nth_error (directions (Cos2sDirectionalSpreading psi0 s Fs) n) i = Some (2 * PI * INR i / INR n) /\
  forall psi, In psi (directions (Cos2sDirectionalSpreading psi0 s Fs) n) -> 0 <= psi < 2 * PI.
Proof.
  intros psi0 s Fs n i Hi. cbn [directions]. unfold base_directions. split; [rewrite map_length; apply seq_length|]. split.
  - rewrite nth_error_map_seq by exact Hi. f_equal. cbn [Nat.add]. field. apply not_0_INR. lia.
  - intros psi Hp. apply in_map_iff in Hp. destruct Hp as (j & <- & Hj). apply in_seq in Hj. pose proof PI_RGT_0. assert (0 < INR n) by (apply lt_0_INR; lia). pose proof (pos_INR j).
    assert (INR j < INR n) by (apply lt_INR; lia). replace (INR j * (2 * PI / INR n)) with (2 * PI * (INR j / INR n)) by (field; lra).
    assert (0 <= INR j / INR n) by (apply Rmult_le_pos; [assumption|left; apply Rinv_0_lt_compat; assumption]).
    assert (INR j / INR n < 1). { apply (Rmult_lt_reg_r (INR n)); [assumption|]. unfold Rdiv. rewrite Rmult_assoc, Rinv_l by lra. lra. } nra.
Qed.
Print Assumptions direction_grid.
Lemma trapz_const : forall c l x, trapz (x :: l) (map (fun _ => c) (x :: l)) = c * (last (x :: l) 0 - x).
Proof.
  intros c l. induction l as [|y l IH]; intros x; [cbn; ring|]. change (map (fun _ : R => c) (x :: y :: l)) with (c :: c :: map (fun _ => c) l).
  change (trapz (x :: y :: l) (c :: c :: map (fun _ => c) l)) with ((y - x) * (c + c) / 2 + trapz (y :: l) (map (fun _ => c) (y :: l))). rewrite IH. change (last (x :: y :: l) 0) with (last (y :: l) 0). field.
Qed.
(** The integral of the density over the grid of directions, which multiplies the energy of the sea (theorem [flatten_energy]), should be 1
    whatever the grid. For the uniform spreading (s = 0, density 1 / (2 PI)) it is 1 - 1/n: the energy between the last direction and 2 PI is lost. *)
Theorem directional_energy_refuted : forall psi0 n, (2 <= n)%nat ->
  let D := Cos2sDirectionalSpreading psi0 0 (/ (2 * PI)) in
  (forall psi, In psi (directions D n) -> spread D psi = Some (/ (2 * PI))) /\
  integral (directions D n) (map (fun _ => / (2 * PI)) (directions D n)) = 1 - 1 / INR n.
Proof.
  intros psi0 n Hn D. split.
  - intros psi _. unfold D. cbn [spread]. rewrite Rmult_0_r. unfold cpow. destruct (Rltb 0 (cos ((psi - psi0) / 2))) eqn:E1; rb.
    + cbn. f_equal. rewrite Rpower_O by exact E1. ring.
    + destruct (Reqb (cos ((psi - psi0) / 2)) 0) eqn:E2; rb.
      * rewrite Reqb_t by reflexivity. cbn. f_equal. ring.
      * assert (Int_part 0 = 0%Z) as I0 by (exact (Int_part_INR 0)). rewrite I0, Reqb_t by reflexivity. cbn [Z.even]. rewrite Rpower_O by lra. cbn. f_equal. ring.
  - unfold D. cbn [directions]. destruct n as [|[|n]]; [lia|lia|]. unfold base_directions. 
    assert (forall l, (2 <= List.length l)%nat -> integral l (map (fun _ => / (2 * PI)) l) = trapz l (map (fun _ => / (2 * PI)) l)) as G by (intros [|a [|b l]] L; cbn [List.length] in L; try lia; reflexivity).
    rewrite G by (rewrite map_length, seq_length; lia). pose proof PI_RGT_0. assert (0 < INR (S (S n))) as P by (apply lt_0_INR; lia).
    set (sc := 2 * PI / INR (S (S n))).
    assert (trapz (map (fun i => INR i * sc) (seq 0 (S (S n)))) (map (fun _ => / (2 * PI)) (map (fun i => INR i * sc) (seq 0 (S (S n))))) = / (2 * PI) * (last (map (fun i => INR i * sc) (seq 0 (S (S n)))) 0 - INR 0 * sc)) as -> by (cbn [seq]; apply trapz_const).
    rewrite seq_S, map_app. cbn [map Nat.add]. rewrite last_last. unfold sc. rewrite !S_INR in *. cbn [INR]. field. split; lra.
Qed.
Print Assumptions directional_energy_refuted.

(** ** C89 *)
(** An operator of gain 1 and phase 0 returns the elevation of the sea. *)
Definition unit_rao (fs : list (flat R)) : list (list R) := map (fun f => map (fun _ => 1) (f_k f)) fs.
Definition zero_rao (fs : list (flat R)) : list (list R) := map (fun f => map (fun _ => 0) (f_k f)) fs.
(** An operator whose phases are - omega * tau. *)
Definition delay_rao (tau : R) (fs : list (flat R)) : list (list R) := map (fun f => map (fun w => - (w * tau)) (f_omega f)) fs.
Lemma rao_spectrum_ok : forall cs pd ps x y t m p, List.length m = List.length cs -> List.length p = List.length cs ->
  rao_spectrum (flat_of cs pd ps) x y t m p = Ok (Rsum (map (fun q => - (fst (fst q) * c_a (snd q) * sin (wangle (wave_of (snd q)) x y t + snd (fst q)))) (combine (combine m p) cs))).
Proof.
  intros cs pd ps x y t m p Lm Lp. unfold rao_spectrum. rewrite k_len, Lm, Nat.eqb_refl. cbn [negb].
  rewrite (accM_ok _ _ (fun i => - (nth i m 0 * c_a (nth i cs dcomp) * sin (wangle (wave_of (nth i cs dcomp)) x y t + nth i p 0)))).
  - rewrite Rplus_0_l. f_equal. f_equal.
    rewrite <- (map_seq_nth_f _ _ (fun q => - (fst (fst q) * c_a (snd q) * sin (wangle (wave_of (snd q)) x y t + snd (fst q)))) (combine (combine m p) cs) (0, 0, dcomp)).
    rewrite !combine_length, Lm, Lp, !Nat.min_id. apply map_ext_in. intros i Hi. apply in_seq in Hi. rewrite combine_nth by (rewrite combine_length; lia). rewrite combine_nth by lia. reflexivity.
  - intros i Hi. apply in_seq in Hi. rewrite (at_ub_ok _ m i 0), (at_ub_ok _ p i 0) by lia. cbn [bindO]. rewrite angle_ok by lia. unfold flat_of. cbn [f_a]. rewrite at_flat by lia. cbn [bindO]. reflexivity.
Qed.
Lemma evaluate_rao_ok : forall fs x y t ms ps (F : flat R -> list R -> list R -> R), List.length ms = List.length fs -> List.length ps = List.length fs ->
  (forall i f m p, nth_error fs i = Some f -> nth_error ms i = Some m -> nth_error ps i = Some p -> rao_spectrum f x y t m p = Ok (F f m p)) ->
  evaluate_rao fs x y t ms ps = Ok (Rsum (map (fun q => F (fst (fst q)) (snd (fst q)) (snd q)) (combine (combine fs ms) ps))).
Proof.
  intros fs x y t ms ps F L1 L2 H. unfold evaluate_rao. set (df := mkFlat (A:=R) [] [] [] [] [] [] [] (fun _ _ _ => 0) (fun _ _ _ => 0)).
  rewrite (accM_ok _ _ (fun i => F (nth i fs df) (nth i ms []) (nth i ps []))).
  - rewrite Rplus_0_l. f_equal. f_equal. rewrite <- (map_seq_nth_f _ _ (fun q => F (fst (fst q)) (snd (fst q)) (snd q)) (combine (combine fs ms) ps) (df, [], [])).
    rewrite !combine_length, L1, L2, !Nat.min_id. apply map_ext_in. intros i Hi. apply in_seq in Hi. rewrite combine_nth by (rewrite combine_length; lia). rewrite combine_nth by lia. reflexivity.
  - intros i Hi. apply in_seq in Hi. rewrite (at_throw_ok _ ms i []), (at_throw_ok _ ps i []), (at_throw_ok _ fs i df) by lia. cbn [bindO]. apply (H i); apply nth_error_nth'; lia.
Qed.
Lemma airy_len : forall f, airy f -> List.length (f_k f) = List.length (f_omega f).
Proof. intros f H. destruct (airy_flat f H) as (cs & pd & ps & -> & _). unfold flat_of. cbn [f_k f_omega]. rewrite !map_length. reflexivity. Qed.
Lemma rao_of_lists : forall fs x y t (mf pf : flat R -> list R) (v : flat R -> R), (forall f, In f fs -> rao_spectrum f x y t (mf f) (pf f) = Ok (v f)) ->
  evaluate_rao fs x y t (map mf fs) (map pf fs) = Ok (Rsum (map v fs)).
Proof.
  intros fs x y t mf pf v H. rewrite (evaluate_rao_ok fs x y t (map mf fs) (map pf fs) (fun f _ _ => v f)).
  - f_equal. f_equal. clear H. induction fs as [|f fs IH]; [reflexivity|]. cbn [map combine fst snd]. f_equal. exact IH.
  - apply map_length.
  - apply map_length.
  - intros i f m p Ef Em Ep. rewrite nth_error_map, Ef in Em, Ep. cbn in Em, Ep. injection Em as <-. injection Ep as <-. apply H. eapply nth_error_In. exact Ef.
Qed.
Theorem rao_unit : forall fs x y t, Forall airy fs -> exists e, evaluate_rao fs x y t (unit_rao fs) (zero_rao fs) = Ok e /\ get_and_check_wave_height fs [x] [y] t = Ok [e].
Proof.
  intros fs x y t H. exists (Rsum (map (fun f => elv f x y t) fs)). split.
  - unfold unit_rao, zero_rao. apply rao_of_lists. intros f Hf. rewrite Forall_forall in H. destruct (airy_flat f (H f Hf)) as (cs & pd & ps & -> & _). rewrite rao_spectrum_ok by (unfold flat_of; cbn [f_k]; rewrite !map_length; reflexivity).
    unfold elv. rewrite elevation1_ok. f_equal. f_equal. unfold flat_of. cbn [f_k]. rewrite !map_map. clear. induction cs as [|c cs IH]; [reflexivity|]. cbn [map combine fst snd]. f_equal; [|exact IH].
    unfold weta, wave_of. cbn [wa]. rewrite Rplus_0_r. f_equal. ring.
  - rewrite wave_height_ok by (auto). reflexivity.
Qed.
Print Assumptions rao_unit.
(** The phases of the operator are time shifts: with the phases - omega * tau and gain 1 it returns the elevation at t + tau. *)
Theorem rao_phase : forall fs x y t tau, Forall airy fs -> exists e, evaluate_rao fs x y t (unit_rao fs) (delay_rao tau fs) = Ok e /\ get_and_check_wave_height fs [x] [y] (t + tau) = Ok [e].
Proof.
  intros fs x y t tau H. exists (Rsum (map (fun f => elv f x y (t + tau)) fs)). split.
  - unfold unit_rao, delay_rao. apply rao_of_lists. intros f Hf. rewrite Forall_forall in H. destruct (airy_flat f (H f Hf)) as (cs & pd & ps & -> & _). rewrite rao_spectrum_ok by (unfold flat_of; cbn [f_k f_omega]; rewrite !map_length; reflexivity).
    unfold elv. rewrite elevation1_ok. f_equal. f_equal. unfold flat_of. cbn [f_k f_omega]. rewrite !map_map. clear. induction cs as [|c cs IH]; [reflexivity|]. cbn [map combine fst snd]. f_equal; [|exact IH].
    unfold weta, wave_of. cbn [wa]. f_equal. rewrite Rmult_1_l. f_equal. f_equal. unfold wangle. cbn [ww wk wpsi wph]. ring.
  - rewrite wave_height_ok by (auto). reflexivity.
Qed.
Print Assumptions rao_phase.
(** Multiplying all the gains multiplies the response. *)
Theorem rao_linear : forall fs x y t ms ps a e, Forall airy fs -> List.length ms = List.length fs -> List.length ps = List.length fs ->
  (forall i f p, nth_error fs i = Some f -> nth_error ps i = Some p -> List.length p = List.length (f_k f)) ->
  evaluate_rao fs x y t ms ps = Ok e -> evaluate_rao fs x y t (map (map (Rmult a)) ms) ps = Ok (a * e).
Proof.
  intros fs x y t ms ps a e H L1 L2 Lp E.
  assert (forall i f m, nth_error fs i = Some f -> nth_error ms i = Some m -> List.length m = List.length (f_k f)) as Lm.
  { intros i f m Ef Em. unfold evaluate_rao in E. assert (i < List.length fs)%nat as Hi by (apply nth_error_Some; congruence).
    destruct (nth_error ps i) as [p|] eqn:Ep; [|apply nth_error_None in Ep; lia]. apply accM_inv in E. destruct E as (vs & F & _).
    assert (nth_error (seq 0 (List.length fs)) i = Some i) as Hs by (rewrite (nth_error_nth' _ 0%nat) by (rewrite seq_length; exact Hi); rewrite seq_nth by exact Hi; reflexivity).
    destruct (Forall2_nth_l _ _ _ _ _ i _ F Hs) as (b & _ & Hb). unfold at_throw in Hb. rewrite Em, Ep, Ef in Hb. cbn [bindO] in Hb. unfold rao_spectrum in Hb.
    destruct (Nat.eqb_spec (List.length m) (List.length (f_k f))); [assumption|discriminate]. }
  set (V := fun (f : flat R) (m p : list R) => match rao_spectrum f x y t m p with Ok v => v | _ => 0 end).
  assert (forall i f m p b, nth_error fs i = Some f -> nth_error ms i = Some m -> nth_error ps i = Some p -> rao_spectrum f x y t (map (Rmult b) m) p = Ok (b * V f m p)) as G.
  { intros i f m p b Ef Em Ep. pose proof (Lm i f m Ef Em) as Q1. pose proof (Lp i f p Ef Ep) as Q2. rewrite Forall_forall in H. destruct (airy_flat f (H f (nth_error_In _ _ Ef))) as (cs & pd & ps' & -> & _). rewrite k_len in Q1, Q2.
    unfold V. rewrite !rao_spectrum_ok by (rewrite ?map_length; assumption). f_equal. rewrite <- Rsum_scale. clear Em Ep. f_equal. revert p cs Ef Q1 Q2. induction m as [|m1 m IH]; intros [|p1 p] [|c cs] Ef Q1 Q2; try discriminate; [reflexivity|].
    cbn [map combine fst snd]. f_equal; [ring|]. apply IH with (1 := eq_refl) || idtac. clear IH Ef. revert p cs Q1 Q2. induction m as [|m2 m IH]; intros [|p2 p] [|c2 cs] Q1 Q2; try discriminate; [reflexivity|]. cbn [map combine fst snd]. f_equal; [ring|]. apply IH; cbn in *; congruence. }
  assert (forall i f m p, nth_error fs i = Some f -> nth_error ms i = Some m -> nth_error ps i = Some p -> rao_spectrum f x y t m p = Ok (V f m p)) as G1.
  { intros i f m p Ef Em Ep. specialize (G i f m p 1 Ef Em Ep). replace (map (Rmult 1) m) with m in G by (rewrite <- map_id at 1; apply map_ext; intros; ring). rewrite G. f_equal. ring. }
  rewrite (evaluate_rao_ok fs x y t ms ps V L1 L2 G1) in E. injection E as <-.
  rewrite (evaluate_rao_ok fs x y t (map (map (Rmult a)) ms) ps V); [|rewrite map_length; exact L1|exact L2|].
  - f_equal. rewrite <- Rsum_scale. f_equal. clear Lm Lp G1. revert ms ps L1 L2 G. induction fs as [|f fs IH]; intros [|m ms] [|p ps] L1 L2 G; try discriminate; [reflexivity|]. cbn [map combine fst snd]. f_equal.
    + unfold V at 1. rewrite (G 0%nat f m p a eq_refl eq_refl eq_refl). reflexivity.
    + inversion H; subst. apply IH; auto. intros i f0 m0 p0 b A B C. apply (G (S i) f0 m0 p0 b A B C).
  - intros i f m p Ef Em Ep. rewrite nth_error_map in Em. destruct (nth_error ms i) as [m0|] eqn:Em0; [|discriminate]. cbn in Em. injection Em as <-. unfold V. rewrite (G i f m0 p a Ef Em0 Ep). reflexivity.
Qed.
Print Assumptions rao_linear.
(** A gain table of the wrong size is refused. *)
Theorem rao_sizes : forall f fs x y t m ms p ps, List.length m <> List.length (f_k f) -> evaluate_rao (f :: fs) x y t (m :: ms) (p :: ps) = Throw.
Proof. intros f fs x y t m ms p ps H. unfold evaluate_rao. cbn [List.length seq]. rewrite accM_cons. cbn [at_throw nth_error bindO]. unfold rao_spectrum. apply Nat.eqb_neq in H. rewrite H. reflexivity. Qed.
Print Assumptions rao_sizes.
Example rao_witness : exists e, evaluate_rao [one_wave (fun _ _ _ => 1) (fun _ _ _ => 1) 0] 1 2 3 [[1]] [[0]] = Ok e /\ evaluate_rao [one_wave (fun _ _ _ => 1) (fun _ _ _ => 1) 0] 1 2 3 [[2 * 1]] [[0]] = Ok (2 * e).
Proof.
  destruct (rao_unit [one_wave (fun _ _ _ => 1) (fun _ _ _ => 1) 0] 1 2 3) as (e & E & _); [repeat constructor; apply one_wave_airy|]. exists e. split; [exact E|].
  apply (rao_linear [one_wave (fun _ _ _ => 1) (fun _ _ _ => 1) 0] 1 2 3 [[1]] [[0]] 2 e); auto; [repeat constructor; apply one_wave_airy|].
  intros [|i] f p A B; cbn in A, B; [injection A as <-; injection B as <-; reflexivity|destruct i; discriminate].
Qed.
