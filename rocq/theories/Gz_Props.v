(** Properties C59 (search of the equilibrium draught), C60 (equilibrium trim), C78 (righting lever), C79 (heel angles) and C80 (Newton iterations). *)
From Coq Require Import Reals List Bool Lra Lia Sorted ZArith.
From Verif Require Import Common Geometry Sim_Model Force_Model Force_Props Gz_Model Radiation_Props.
Import ListNotations.
Open Scope R_scope.

Lemma Rltb_lt : forall a b, Rltb a b = true -> a < b.
Proof. intros a b H. destruct (Rltb_dec a b) as [[_ G]|[E _]]; [exact G|congruence]. Qed.

(** ** C59 *)
(** The loop stops after as many steps as it takes to bring the length of the bracket below 1E-10 by halving it. The position found is between two
    positions of the initial bracket at most 1E-10 apart where the force has opposite signs. *)
Theorem equilibrium_bisection : forall FZ zmin zmax n, zmin <= zmax -> zmax - zmin <= 2 ^ n / 10 ^ 10 ->
  FZ zmax <= 0 -> 0 <= FZ zmin ->
  exists z lo hi, (forall fuel, (n <= fuel)%nat -> zeq_in fuel (fun z => Ok (FZ z)) (zmin, zmax) = Ok z) /\
    zmin <= lo <= z /\ z <= hi <= zmax /\ hi - lo <= 1 / 10 ^ 10 /\ z = (lo + hi) / 2 /\ FZ hi <= 0 /\ 0 <= FZ lo.
Proof.
  intros FZ a b n Hab Hn Hb Ha.
  assert (exists z lo hi, (forall fuel, (n <= fuel)%nat -> bisection fuel (fun z => Ok (FZ z)) (a, b) = Ok z) /\
    a <= lo <= z /\ z <= hi <= b /\ hi - lo <= 1 / 10 ^ 10 /\ z = (lo + hi) / 2 /\ FZ hi <= 0 /\ 0 <= FZ lo) as (z & lo & hi & E & P).
  { revert a b Hab Hn Hb Ha. induction n as [|n IH]; intros a b Hab Hn Hb Ha.
    - exists (average (a, b)), a, b. unfold average. cbn [fst snd]. split; [|repeat split; lra].
      intros fuel _. assert (Rltb (1 / 10 ^ 10) (delta (a, b)) = false) as E by (apply Rltb_f; unfold delta; cbn [fst snd]; lra).
      destruct fuel; cbn [bisection]; rewrite E; reflexivity.
    - destruct (Rltb (1 / 10 ^ 10) (delta (a, b))) eqn:E.
      + set (m := average (a, b)). assert (m = (a + b) / 2) as Em by (unfold m, average; cbn [fst snd]; field).
        assert (2 ^ S n / 10 ^ 10 = 2 * (2 ^ n / 10 ^ 10)) as E2 by (cbn [pow]; field; apply pow_nonzero; lra).
        destruct (Rltb (FZ m) 0) eqn:F.
        * apply Rltb_lt in F. destruct (IH a m) as (z & lo & hi & H1 & H2 & H3 & H4); [lra|lra|lra|lra|]. exists z, lo, hi.
          split; [|split; [lra|split; [lra|exact H4]]]. intros fuel Hf. destruct fuel as [|fuel]; [lia|]. cbn [bisection]. rewrite E. fold m. cbn [bindO fst].
          assert (Rltb (FZ m) 0 = true) as -> by (apply Rltb_t; exact F). apply H1. lia.
        * assert (0 <= FZ m) as F' by (destruct (Rle_lt_dec 0 (FZ m)) as [G|G]; [exact G|apply Rltb_t in G; congruence]).
          destruct (IH m b) as (z & lo & hi & H1 & H2 & H3 & H4); [lra|lra|lra|lra|]. exists z, lo, hi.
          split; [|split; [lra|split; [lra|exact H4]]]. intros fuel Hf. destruct fuel as [|fuel]; [lia|]. cbn [bisection]. rewrite E. fold m. cbn [bindO snd].
          rewrite F. apply H1. lia.
      + assert (delta (a, b) <= 1 / 10 ^ 10) as D by (destruct (Rle_lt_dec (delta (a, b)) (1 / 10 ^ 10)) as [G|G]; [exact G|apply Rltb_t in G; congruence]).
        unfold delta in D. cbn [fst snd] in D.
        exists (average (a, b)), a, b. unfold average. cbn [fst snd]. split; [|repeat split; lra].
        intros fuel _. destruct fuel; cbn [bisection]; rewrite E; reflexivity. }
  exists z, lo, hi. split; [|exact P]. intros fuel Hf. unfold zeq_in. cbn [fst snd bindO].
  assert (Rltb 0 (FZ b) = false) as -> by (apply Rltb_f; lra). assert (Rltb (FZ a) 0 = false) as -> by (apply Rltb_f; lra). apply E. exact Hf.
Qed.
Print Assumptions equilibrium_bisection.
(** Some number of steps is enough for every bracket. *)
(** Without a sign change: a body that is too light even when it is as high as possible is refused, and a body too heavy even when it is as low as
    possible is placed at the lower bound of the bracket. The comparisons are strict: a null force at a bound is searched. *)
Theorem equilibrium_without_sign_change : forall FZ zmin zmax fuel,
  (FZ zmax <= 0 -> FZ zmin < 0 -> zeq_in fuel (fun z => Ok (FZ z)) (zmin, zmax) = Throw) /\
  (0 < FZ zmax -> zeq_in fuel (fun z => Ok (FZ z)) (zmin, zmax) = Ok zmin).
Proof.
  intros FZ a b fuel. unfold zeq_in. cbn [fst snd bindO]. split.
  - intros H1 H2. destruct (Rltb_dec 0 (FZ b)) as [[_ G]|[-> _]]; [lra|]. destruct (Rltb_dec (FZ a) 0) as [[-> _]|[_ G]]; [reflexivity|lra].
  - intros H. destruct (Rltb_dec 0 (FZ b)) as [[-> _]|[_ G]]; [reflexivity|lra].
Qed.
Print Assumptions equilibrium_without_sign_change.
Theorem equilibrium_bisection_terminates : forall zmin zmax, exists n, zmax - zmin <= 2 ^ n / 10 ^ 10.
Proof.
  intros a b. destruct (archimed ((b - a) * 10 ^ 10)) as [H _]. set (w := (b - a) * 10 ^ 10) in *. exists (Z.to_nat (up w)).
  assert (forall n, INR n <= 2 ^ n) as P.
  { induction n as [|n IH]; [simpl; lra|]. rewrite S_INR. cbn [pow]. pose proof (pow_R1_Rle 2 n ltac:(lra)). lra. }
  assert (0 < 10 ^ 10) as T by (apply pow_lt; lra).
  apply Rmult_le_reg_r with (10 ^ 10); [exact T|]. fold w. unfold Rdiv. rewrite Rmult_assoc, Rinv_l, Rmult_1_r by lra.
  destruct (Z_le_gt_dec 0 (up w)) as [G|G].
  - apply Rle_trans with (INR (Z.to_nat (up w))); [|apply P]. rewrite INR_IZR_INZ, Z2Nat.id by exact G. lra.
  - apply Rle_trans with 0; [|apply pow_le; lra]. assert (IZR (up w) <= 0) by (apply IZR_le; lia). lra.
Qed.
Print Assumptions equilibrium_bisection_terminates.

(** A hull whose points are at heights between [low] and [high] (z downwards) when the origin of the body frame is at z = 0: the vertical force (downwards) varies
    continuously with the position, is directed downwards when the hull is out of the water and upwards when it is under water. *)
Record floats (low high : R) (FZ : R -> R) : Prop := {
  fl_continuous : continuity FZ;
  fl_emerged : forall z, z + high <= 0 -> 0 <= FZ z;
  fl_immersed : forall z, 0 <= z + low -> FZ z <= 0 }.

Lemma min_fold : forall phi l m q, In q l \/ m = heeled_z phi q -> fold_left (fun m q => Rmin m (heeled_z phi q)) l m <= heeled_z phi q.
Proof.
  intros phi l. induction l as [|a l IH]; intros m q H; cbn [fold_left].
  - destruct H as [[]| ->]. lra.
  - assert (forall l m, fold_left (fun m q => Rmin m (heeled_z phi q)) l m <= m) as M.
    { clear. induction l as [|a l IH]; intros m; cbn [fold_left]; [lra|]. eapply Rle_trans; [apply IH|apply Rmin_l]. }
    destruct H as [[->|H]|H].
    + eapply Rle_trans; [apply M|apply Rmin_r].
    + apply IH. left. exact H.
    + eapply Rle_trans; [apply M|]. rewrite <- H. apply Rmin_l.
Qed.
Lemma max_fold : forall phi l m q, In q l \/ m = heeled_z phi q -> heeled_z phi q <= fold_left (fun m q => Rmax m (heeled_z phi q)) l m.
Proof.
  intros phi l. induction l as [|a l IH]; intros m q H; cbn [fold_left].
  - destruct H as [[]| ->]. lra.
  - assert (forall l m, m <= fold_left (fun m q => Rmax m (heeled_z phi q)) l m) as M.
    { clear. induction l as [|a l IH]; intros m; cbn [fold_left]; [lra|]. eapply Rle_trans; [apply Rmax_l|apply IH]. }
    destruct H as [[->|H]|H].
    + eapply Rle_trans; [apply Rmax_r|apply M].
    + apply IH. left. exact H.
    + eapply Rle_trans; [|apply M]. rewrite <- H. apply Rmax_l.
Qed.
(** The bracket contains the heights of all the points of the mesh. *)
Theorem bracket_is_the_extent_of_the_mesh : forall mesh phi, mesh <> [] ->
  exists low high, get_zmin_zmax mesh phi = Ok (low, high) /\ low <= high /\ forall p, In p mesh -> low <= heeled_z phi p <= high.
Proof.
  intros [|p l] phi H; [congruence|]. cbn [get_zmin_zmax]. do 2 eexists. split; [reflexivity|].
  assert (forall q, In q (p :: l) -> fold_left (fun m q => Rmin m (heeled_z phi q)) l (heeled_z phi p) <= heeled_z phi q <= fold_left (fun m q => Rmax m (heeled_z phi q)) l (heeled_z phi p)) as B.
  { intros q [->|Hq]; (split; [apply min_fold|apply max_fold]); auto. }
  split; [|exact B]. destruct (B p (or_introl eq_refl)). lra.
Qed.
Print Assumptions bracket_is_the_extent_of_the_mesh.

(** For a hull that extends as far above the origin of the body frame as below it, the position found is within 1E-10 of an equilibrium. *)
Theorem equilibrium_draught_partial : forall mesh f phi theta FZ z0, mesh <> [] ->
  (forall z, exists r, f z phi theta = Ok r /\ r_Z r = FZ z) ->
  get_zmin_zmax mesh phi = Ok (- z0, z0) -> floats (- z0) z0 FZ ->
  exists n z zeq0, (forall fuel, (n <= fuel)%nat -> zeq fuel mesh f phi theta = Ok z) /\ FZ zeq0 = 0 /\ Rabs (z - zeq0) <= 1 / 10 ^ 10.
Proof.
  intros mesh f phi theta FZ z0 Hm Hf Hz HF.
  assert (- z0 <= z0) as Hs.
  { destruct (bracket_is_the_extent_of_the_mesh mesh phi Hm) as (a & b & E & L & _). rewrite Hz in E. injection E as -> ->. exact L. }
  destruct (equilibrium_bisection_terminates (- z0) z0) as (n & Hn).
  destruct (equilibrium_bisection FZ (- z0) z0 n Hs Hn) as (z & lo & hi & E & H1 & H2 & H3 & H4 & H5 & H6).
  { apply (fl_immersed _ _ _ HF). lra. }
  { apply (fl_emerged _ _ _ HF). lra. }
  destruct (IVT_cor FZ lo hi (fl_continuous _ _ _ HF)) as (r & Br & Er); [lra|nra|].
  exists n, z, r. split; [|split; [exact Er|apply Rabs_le; lra]].
  intros fuel Hfu. unfold zeq. rewrite Hz. cbn [bindO]. specialize (E fuel Hfu).
  enough (forall F1 F2, (forall z, F1 z = F2 z) -> zeq_in fuel F1 (- z0, z0) = zeq_in fuel F2 (- z0, z0)) as X.
  { rewrite <- E. apply X. intros x. destruct (Hf x) as (rr & -> & <-). reflexivity. }
  intros F1 F2 X. unfold zeq_in. rewrite !X. cbn [fst snd]. destruct (F2 z0); try reflexivity. cbn [bindO]. destruct (F2 (- z0)); try reflexivity. cbn [bindO].
  destruct (Rltb 0 a); [reflexivity|]. destruct (Rltb a0 0); [reflexivity|]. generalize (- z0, z0). clear - X. induction fuel as [|fu IH]; intros z; [reflexivity|].
  cbn [bisection]. rewrite X. destruct (Rltb _ _); [|reflexivity]. destruct (F2 (average z)); try reflexivity. cbn [bindO]. apply IH.
Qed.
Print Assumptions equilibrium_draught_partial.

(** Refuted in general: the bracket contains the heights of the points, not their opposites. A barge whose bottom is 2 m below the origin of the body frame and
    whose deck is 5 m above, loaded to float with 6 m of draught: its equilibrium is at z = 4, but the position returned is z = -5, where it is out of the water. *)
Definition barge : list vec3 := [V3 0 0 (-5); V3 1 0 2; V3 0 1 2].
Definition barge_FZ (z : R) : R := 6 - Rmin (Rmax (z + 2) 0) 7.
Theorem equilibrium_draught_refuted :
  get_zmin_zmax barge 0 = Ok (-5, 2) /\ floats (-5) 2 barge_FZ /\ barge_FZ 4 = 0 /\
  forall fuel, zeq fuel barge (fun z _ _ => Ok (mkRes (barge_FZ z) 0 0 0)) 0 0 = Ok (-5) /\ barge_FZ (-5) = 6.
Proof.
  assert (forall y z, heeled_z 0 (V3 y 0 z) = z) as Hz by (intros; unfold heeled_z; cbn [vx vy vz]; rewrite sin_0, cos_0; ring).
  assert (forall x y z, heeled_z 0 (V3 x y z) = z) as Hz' by (intros; unfold heeled_z; cbn [vx vy vz]; rewrite sin_0, cos_0; ring).
  assert (get_zmin_zmax barge 0 = Ok (-5, 2)) as G.
  { unfold barge, get_zmin_zmax. cbn [fold_left]. rewrite !Hz'. f_equal. unfold Rmin, Rmax. repeat destruct (Rle_dec _ _); f_equal; lra. }
  assert (forall z, -2 <= z -> z <= 5 -> barge_FZ z = 4 - z) as V by (intros z H1 H2; unfold barge_FZ; rewrite Rmax_left, Rmin_left by lra; lra).
  assert (forall z, z <= -2 -> barge_FZ z = 6) as V1 by (intros z H1; unfold barge_FZ; rewrite Rmax_right, Rmin_left by lra; lra).
  assert (forall z, 5 <= z -> barge_FZ z = -1) as V2 by (intros z H1; unfold barge_FZ; rewrite Rmax_left, Rmin_right by lra; lra).
  split; [exact G|]. split.
  - constructor.
    + intros x e He. exists e. split; [exact He|]. intros y [_ Hy]. unfold dist in *. simpl in *. unfold R_dist in *.
      apply Rle_lt_trans with (Rabs (y - x)); [|exact Hy]. unfold barge_FZ, Rmin, Rmax.
      repeat destruct (Rle_dec _ _); unfold Rabs; repeat destruct (Rcase_abs _); lra.
    + intros z H. rewrite V1 by lra. lra.
    + intros z H. rewrite V2 by lra. lra.
  - split; [rewrite V by lra; lra|]. intros fuel. split; [|apply V1; lra]. unfold zeq. rewrite G. cbn [bindO]. unfold zeq_in. cbn [bindO fst snd r_Z].
    rewrite (V 2) by lra. assert (Rltb 0 (4 - 2) = true) as -> by (apply Rltb_t; lra). reflexivity.
Qed.
Print Assumptions equilibrium_draught_refuted.
(** A raft from 1 m above to 1 m below the origin, floating with 0.5 m of draught, meets the hypotheses of the partial theorem: its equilibrium is z = -0.5. *)
Example raft_equilibrium : exists n z, (forall fuel, (n <= fuel)%nat -> zeq fuel [V3 0 0 (-1); V3 1 0 1; V3 0 1 1] (fun z _ _ => Ok (mkRes (1 / 2 - Rmin (Rmax (z + 1) 0) 2) 0 0 0)) 0 0 = Ok z) /\
  Rabs (z - (- 1 / 2)) <= 1 / 10 ^ 10.
Proof.
  set (FZ := fun z => 1 / 2 - Rmin (Rmax (z + 1) 0) 2).
  destruct (equilibrium_draught_partial [V3 0 0 (-1); V3 1 0 1; V3 0 1 1] (fun z _ _ => Ok (mkRes (FZ z) 0 0 0)) 0 0 FZ 1) as (n & z & r & E & Er & B).
  - discriminate.
  - intros z. eexists. split; reflexivity.
  - cbn [get_zmin_zmax fold_left]. unfold heeled_z. cbn [vy vz]. rewrite sin_0, cos_0. f_equal. unfold Rmin, Rmax. repeat destruct (Rle_dec _ _); f_equal; lra.
  - constructor.
    + intros x e He. exists e. split; [exact He|]. intros y [_ Hy]. unfold dist in *. simpl in *. unfold R_dist in *.
      apply Rle_lt_trans with (Rabs (y - x)); [|exact Hy]. unfold FZ, Rmin, Rmax. repeat destruct (Rle_dec _ _); unfold Rabs; repeat destruct (Rcase_abs _); lra.
    + intros z H. unfold FZ. rewrite Rmax_right, Rmin_left by lra. lra.
    + intros z H. unfold FZ. rewrite Rmax_left, Rmin_right by lra. lra.
  - exists n, z. split; [exact E|]. assert (r = - 1 / 2) as <-; [|exact B]. unfold FZ, Rmin, Rmax in Er. repeat destruct (Rle_dec _ _); lra.
Qed.

(** ** C60 *)
(** Refuted: whatever the hull, the trim used is zero... *)
Theorem equilibrium_trim_refuted : forall fuel mesh f theta, theta_eq fuel mesh f = Ok theta -> theta = 0.
Proof.
  intros fuel mesh f theta. unfold theta_eq, get_Xeq. destruct (zeq fuel mesh f 0 0); try discriminate. cbn [bindO].
  destruct (newton_raphson _ _ _ _ _); try discriminate. cbn [bindO]. intros E. injection E as <-. reflexivity.
Qed.
Print Assumptions equilibrium_trim_refuted.

(** ** C80: the Newton iterations *)
(** The heel is never changed, and one step solves an affine system exactly: the result is an equilibrium. *)
Lemma newton_heel : forall n f K eps X X1 Y, newton_loop n f K eps X X1 = Ok Y -> sphi Y = sphi X.
Proof.
  induction n as [|n IH]; intros f K eps X X1 Y H; cbn [newton_loop] in H; [injection H as <-; reflexivity|].
  destruct (Rltb _ eps); [injection H as <-; reflexivity|]. destruct (K X); try discriminate H. cbn [bindO] in H. destruct (Rltb _ _); [discriminate H|].
  destruct (f _ _ _); try discriminate H. cbn [bindO] in H. destruct (Rltb _ eps); [injection H as <-; reflexivity|]. apply IH in H. exact H.
Qed.
Theorem newton_keeps_the_heel : forall X0 f K max_it eps X, newton_raphson X0 f K max_it eps = Ok X -> sphi X = sphi X0.
Proof. intros X0 f K m eps X H. exact (newton_heel _ _ _ _ _ _ _ H). Qed.
Print Assumptions newton_keeps_the_heel.

(** Forces proportional to the distance to the equilibrium (zs, ts): Z = a(z-zs) + b(theta-ts), M = c(z-zs) + d(theta-ts), no roll moment. *)
Definition affine_forces (a b c d zs ts : R) : force_function := fun z _ theta => Ok (mkRes (a * (z - zs) + b * (theta - ts)) 0 (c * (z - zs) + d * (theta - ts)) 0).
Lemma delta3_self : forall x, delta3 x x = 0.
Proof. intros x. unfold delta3. rewrite !Rminus_eq_0, Rabs_R0. rewrite (Rmax_left 0 0) by lra. apply Rmax_left. lra. Qed.
Lemma stiffness_affine : forall a b c d zs ts dz dt X, 0 < dz -> 0 < dt -> stiffness (affine_forces a b c d zs ts) dz dt X = Ok (mkM2 a b c d).
Proof.
  intros. unfold stiffness, affine_forces. cbn [bindO r_Z r_M]. f_equal. f_equal; field; lra.
Qed.
Theorem newton_solves_affine_systems : forall a b c d zs ts phi z0 t0 max_it eps dz dt, 0 < eps -> 0 < dz -> 0 < dt -> 1 / 10 ^ 15 <= Rabs (a * d - b * c) -> (2 <= max_it)%nat ->
  exists X, newton_raphson (z0, phi, t0) (affine_forces a b c d zs ts) (stiffness (affine_forces a b c d zs ts) dz dt) max_it eps = Ok X /\
    (sz X = zs /\ stheta X = ts \/
     X = (z0, phi, t0) /\ exists r, affine_forces a b c d zs ts z0 phi t0 = Ok r /\ Rabs (r_Z r) < eps /\ Rabs (r_M r) < eps).
Proof.
  intros a b c d zs ts phi z0 t0 m eps dz dt He Hdz Hdt Hd Hm.
  assert (a * d - b * c <> 0) as Nz.
  { intros Z. rewrite Z, Rabs_R0 in Hd. pose proof (pow_lt 10 15 ltac:(lra)). assert (0 < 1 / 10 ^ 15) by (apply Rdiv_lt_0_compat; lra). lra. }
  set (f := affine_forces a b c d zs ts). assert (forall X, stiffness f dz dt X = Ok (mkM2 a b c d)) as EK by (intros; apply stiffness_affine; assumption).
  assert (Rltb (Rabs (a * d - b * c)) (1 / 10 ^ 15) = false) as ED by (apply Rltb_f; lra).
  assert (forall X, Rltb (delta3 X (0, 0, 0)) eps = true -> Rabs (sz X) < eps /\ Rabs (stheta X) < eps) as D0.
  { intros [[x y] w] H. apply Rltb_lt in H. unfold delta3 in H. cbn [sz sphi stheta fst snd] in H. cbn [sz stheta fst snd]. rewrite !Rminus_0_r in H.
    pose proof (Rmax_l (Rmax (Rabs x) (Rabs y)) (Rabs w)). pose proof (Rmax_r (Rmax (Rabs x) (Rabs y)) (Rabs w)). pose proof (Rmax_l (Rabs x) (Rabs y)). lra. }
  destruct m as [|[|m]]; [lia|lia|]. unfold newton_raphson.
  destruct (Rltb (delta3 (z0, phi, t0) (sz (z0, phi, t0) + 2 * eps, sphi (z0, phi, t0) + 2 * eps, stheta (z0, phi, t0) + 2 * eps)) eps) eqn:E0.
  { exfalso. apply Rltb_lt in E0. unfold delta3 in E0. cbn [sz sphi stheta fst snd] in E0. pose proof (Rmax_r (Rmax (Rabs (z0 - (z0 + 2 * eps))) (Rabs (phi - (phi + 2 * eps)))) (Rabs (t0 - (t0 + 2 * eps)))) as P.
    replace (t0 - (t0 + 2 * eps)) with (- (2 * eps)) in * by ring. rewrite Rabs_Ropp, (Rabs_right (2 * eps)) in * by lra. lra. }
  cbn [newton_loop]. rewrite E0. cbn [newton_loop]. rewrite EK. cbn [bindO k00 k01 k10 k11]. rewrite ED. unfold f at 1, affine_forces at 1. cbn [bindO r_Z r_K r_M].
  set (Y0 := a * (sz (z0, phi, t0) - zs) + b * (stheta (z0, phi, t0) - ts)). set (M0 := c * (sz (z0, phi, t0) - zs) + d * (stheta (z0, phi, t0) - ts)).
  destruct (Rltb (delta3 (Y0, 0, M0) (0, 0, 0)) eps) eqn:E1.
  - exists (z0, phi, t0). split; [reflexivity|]. right. split; [reflexivity|]. eexists. split; [reflexivity|]. exact (D0 _ E1).
  - cbn [sz sphi stheta fst snd] in *. unfold Y0, M0. 
    assert (z0 - (d * (a * (z0 - zs) + b * (t0 - ts)) - b * (c * (z0 - zs) + d * (t0 - ts))) / (a * d - b * c) = zs) as -> by (field; exact Nz).
    assert (t0 - (a * (c * (z0 - zs) + d * (t0 - ts)) - c * (a * (z0 - zs) + b * (t0 - ts))) / (a * d - b * c) = ts) as -> by (field; exact Nz).
    destruct (Rltb (delta3 (zs, phi, ts) (z0, phi, t0)) eps) eqn:E2; [exists (zs, phi, ts); split; [reflexivity|left; split; reflexivity]|].
    rewrite EK. cbn [bindO k00 k01 k10 k11]. rewrite ED. unfold f at 1, affine_forces at 1. cbn [bindO r_Z r_K r_M sz sphi stheta fst snd].
    assert (delta3 (a * (zs - zs) + b * (ts - ts), 0, c * (zs - zs) + d * (ts - ts)) (0, 0, 0) = 0) as ->.
    { rewrite !Rminus_eq_0, !Rmult_0_r, !Rplus_0_r. apply delta3_self. }
    assert (Rltb 0 eps = true) as -> by (apply Rltb_t; exact He). exists (zs, phi, ts). split; [reflexivity|left; split; reflexivity].
Qed.
Print Assumptions newton_solves_affine_systems.

(** Refuted: an equilibrium is not always what is returned. When the iterations are exhausted the last iterate is returned, without any error. *)
Theorem newton_unconverged_refuted : exists f K, (forall z phi theta, exists r, f z phi theta = Ok r /\ r_Z r = 1) /\
  forall n, exists X, newton_raphson (0, 0, 0) f K n (1 / 10 ^ 6) = Ok X.
Proof.
  exists (fun _ _ _ => Ok (mkRes 1 0 0 0)), (fun _ => Ok (mkM2 1 0 0 1)). split; [intros; eexists; split; reflexivity|].
  intros n. unfold newton_raphson. generalize (0, 0, 0) at 1. intros X. generalize (sz (0, 0, 0) + 2 * (1 / 10 ^ 6), sphi (0, 0, 0) + 2 * (1 / 10 ^ 6), stheta (0, 0, 0) + 2 * (1 / 10 ^ 6)).
  revert X. induction n as [|n IH]; intros X X1; cbn [newton_loop]; [eexists; reflexivity|].
  destruct (Rltb (delta3 X X1) _); [eexists; reflexivity|]. cbn [bindO k00 k01 k10 k11].
  assert (Rltb (Rabs (1 * 1 - 0 * 0)) (1 / 10 ^ 15) = false) as ->.
  { apply Rltb_f. rewrite Rmult_1_l, Rmult_0_l, Rminus_0_r, Rabs_R1. apply Rmult_le_reg_r with (10 ^ 15); [apply pow_lt; lra|]. unfold Rdiv. rewrite Rmult_assoc, Rinv_l by (apply pow_nonzero; lra). lra. }
  destruct (Rltb _ _); [eexists; reflexivity|]. apply IH.
Qed.
Print Assumptions newton_unconverged_refuted.
(** The trim of C60 with such a hull: the iterations find the trim 0.1 and the tool uses 0. *)
Theorem equilibrium_trim_lost_refuted : exists f mesh, (exists X, newton_raphson (0, 0, 0) f (stiffness f (1 / 10 ^ 6) (1 / 10 ^ 6)) 100 (1 / 10 ^ 6) = Ok X /\ sz X = 1 / 2 /\ stheta X = 1 / 10 /\
     exists r, f (1 / 2) 0 (1 / 10) = Ok r /\ r_Z r = 0 /\ r_M r = 0) /\
  forall fuel t, theta_eq fuel mesh f = Ok t -> t = 0.
Proof.
  exists (affine_forces (-1) 0 0 (-1) (1 / 2) (1 / 10)), barge. split; [|intros fuel t; apply equilibrium_trim_refuted].
  destruct (newton_solves_affine_systems (-1) 0 0 (-1) (1 / 2) (1 / 10) 0 0 0 100 (1 / 10 ^ 6) (1 / 10 ^ 6) (1 / 10 ^ 6)) as (X & E & D).
  1-3: apply Rdiv_lt_0_compat; [lra|apply pow_lt; lra].
  { replace (-1 * -1 - 0 * 0) with 1 by ring. rewrite Rabs_R1. apply Rmult_le_reg_r with (10 ^ 15); [apply pow_lt; lra|]. unfold Rdiv. rewrite Rmult_assoc, Rinv_l by (apply pow_nonzero; lra). lra. }
  { lia. }
  exists X. split; [exact E|]. assert (sz X = 1 / 2 /\ stheta X = 1 / 10) as [E1 E2].
  { destruct D as [D|(-> & r & Er & Hz & _)]; [exact D|exfalso]. unfold affine_forces in Er. injection Er as <-. cbn [r_Z] in Hz.
    replace (-1 * (0 - 1 / 2) + 0 * (0 - 1 / 10)) with (1 / 2) in Hz by field. rewrite Rabs_right in Hz by lra.
    assert (1 / 10 ^ 6 <= 1 / 2); [|lra]. apply Rmult_le_reg_r with (10 ^ 6); [apply pow_lt; lra|]. unfold Rdiv at 1. rewrite Rmult_assoc, Rinv_l by (apply pow_nonzero; lra). lra. }
  split; [exact E1|]. split; [exact E2|]. eexists. split; [reflexivity|]. cbn [r_Z r_M]. split; lra.
Qed.
Print Assumptions equilibrium_trim_lost_refuted.

(** ** C78: the righting lever. The buoyancy is a vertical force applied at B; [transverse] is the horizontal unit vector to starboard of the ship. *)
Definition horizontal_norm (X : vec3) : R := sqrt (vx X * vx X + vy X * vy X).
Definition transverse (X : vec3) : vec3 := V3 (- vy X / horizontal_norm X) (vx X / horizontal_norm X) 0.
Definition righting_lever (rot : mat3) (G B : vec3) : R := dot (vsub B G) (transverse (mapply rot (V3 1 0 0))).
Theorem gz_is_the_lever_partial : forall rot G B fz, rotation rot -> fz <> 0 -> horizontal_norm (mapply rot (V3 1 0 0)) <> 0 ->
  calculate_gz rot (V3 0 0 fz) (cross (vsub B G) (V3 0 0 fz)) = Some (horizontal_norm (mapply rot (V3 1 0 0)) * righting_lever rot G B).
Proof.
  intros rot G B fz HR Hf Hn. unfold calculate_gz. cbn [vz]. destruct (Req_EM_T fz 0); [contradiction|]. f_equal.
  rewrite (rotation_norm rot _ HR). assert (norm (V3 1 0 0) = 1) as -> by (unfold norm, dot; cbn [vx vy vz]; replace (1 * 1 + 0 * 0 + 0 * 0) with 1 by ring; apply sqrt_1).
  unfold righting_lever, transverse. set (X := mapply rot (V3 1 0 0)) in *. set (h := horizontal_norm X) in *.
  destruct B as [b1 b2 b3], G as [g1 g2 g3]. unfold dot, cross, vsub. cbn [vx vy vz]. field. split; assumption.
Qed.
Print Assumptions gz_is_the_lever_partial.
(** Without trim (the longitudinal axis of the ship is horizontal) this is the righting lever itself. *)
Theorem gz_without_trim : forall rot G B fz, rotation rot -> fz <> 0 -> vz (mapply rot (V3 1 0 0)) = 0 ->
  calculate_gz rot (V3 0 0 fz) (cross (vsub B G) (V3 0 0 fz)) = Some (righting_lever rot G B).
Proof.
  intros rot G B fz HR Hf H0.
  assert (horizontal_norm (mapply rot (V3 1 0 0)) = 1) as E.
  { unfold horizontal_norm. pose proof (rotation_dot rot (V3 1 0 0) (V3 1 0 0) HR) as D. set (X := mapply rot (V3 1 0 0)) in *. unfold dot in D. rewrite H0 in D. cbn [vx vy vz] in D.
    replace (vx X * vx X + vy X * vy X) with 1 by lra. apply sqrt_1. }
  rewrite gz_is_the_lever_partial by (try assumption; rewrite E; lra). rewrite E, Rmult_1_l. reflexivity.
Qed.
Print Assumptions gz_without_trim.
(** Refuted with a trim: the lever is multiplied by the cosine of the trim (division by the norm of a unit vector has no effect). *)
Definition pitched (c s : R) : mat3 := M3 (V3 c 0 s) (V3 0 1 0) (V3 (- s) 0 c).
Theorem gz_with_trim_refuted : exists rot G B fz, rotation rot /\ fz <> 0 /\ righting_lever rot G B = 1 /\
  calculate_gz rot (V3 0 0 fz) (cross (vsub B G) (V3 0 0 fz)) = Some (3 / 5).
Proof.
  exists (pitched (3 / 5) (4 / 5)), (V3 0 0 0), (V3 0 1 0), 1.
  assert (rotation (pitched (3 / 5) (4 / 5))) as HR by (unfold rotation, pitched, dot, det3, cross; cbn [r1 r2 r3 vx vy vz]; repeat split; try lra; apply vec_eq; cbn [vx vy vz]; lra).
  assert (mapply (pitched (3 / 5) (4 / 5)) (V3 1 0 0) = V3 (3 / 5) 0 (- (4 / 5))) as EX by (unfold mapply, pitched, dot; cbn [r1 r2 r3 vx vy vz]; f_equal; ring).
  assert (horizontal_norm (V3 (3 / 5) 0 (- (4 / 5))) = 3 / 5) as EH.
  { unfold horizontal_norm. cbn [vx vy]. replace (3 / 5 * (3 / 5) + 0 * 0) with (3 / 5 * (3 / 5)) by ring. apply sqrt_square. lra. }
  assert (righting_lever (pitched (3 / 5) (4 / 5)) (V3 0 0 0) (V3 0 1 0) = 1) as EL.
  { unfold righting_lever. rewrite EX. unfold transverse. rewrite EH. unfold dot, vsub. cbn [vx vy vz]. lra. }
  split; [exact HR|]. split; [lra|]. split; [exact EL|].
  rewrite gz_is_the_lever_partial; [|exact HR|lra|rewrite EX, EH; lra]. rewrite EX, EH, EL. f_equal. lra.
Qed.
Print Assumptions gz_with_trim_refuted.

(** ** C79: the heel angles of the curve *)
Lemma round_spec : forall x, IZR (round_half_up x) - / 2 <= x < IZR (round_half_up x) + / 2.
Proof. intros x. unfold round_half_up. rewrite minus_IZR. destruct (archimed (x + / 2)). lra. Qed.

(** The angles are sorted, symmetric, go from -phi_max to phi_max through 0, and are dphi apart except near the two ends, where the step is between half of dphi and
    one dphi and a half. *)
Theorem heel_angles : forall dphi phi_max, 0 < dphi -> dphi <= phi_max ->
  exists n l, get_phi dphi phi_max = Ok l /\ (1 <= n)%nat /\ List.length l = (2 * n + 1)%nat /\ StronglySorted Rlt l /\
    nth_error l 0 = Some (- phi_max) /\ nth_error l n = Some 0 /\ nth_error l (2 * n) = Some phi_max /\
    (forall i x, nth_error l i = Some x -> nth_error l (2 * n - i) = Some (- x)) /\
    (forall i d, nth_error (steps l) i = Some d -> dphi / 2 <= d <= 3 / 2 * dphi /\ ((1 <= i)%nat -> (i + 2 <= 2 * n)%nat -> d = dphi)).
Proof.
  intros d pm Hd Hp. pose proof (round_spec (pm / d)) as Rs. set (N := round_half_up (pm / d)) in *.
  assert (1 <= pm / d) as H1 by (apply Rmult_le_reg_r with d; [exact Hd|]; unfold Rdiv; rewrite Rmult_assoc, Rinv_l by lra; lra).
  assert (1 <= N)%Z as HN.
  { assert (1 / 2 < IZR N) as H by lra. destruct (Z_le_gt_dec N 0) as [G|G]; [|lia]. apply IZR_le in G. lra. }
  set (n := Z.to_nat N). assert (INR n = IZR N) as En by (unfold n; rewrite INR_IZR_INZ, Z2Nat.id by lia; reflexivity).
  assert (1 <= n)%nat as Hn by (unfold n; lia).
  assert ((INR n - / 2) * d <= pm <= (INR n + / 2) * d) as Hpm.
  { rewrite En. replace pm with (pm / d * d) by (field; lra). split; apply Rmult_le_compat_r; lra. }
  assert (Z.to_nat (2 * N) = 2 * n)%nat as E2 by (unfold n; lia).
  set (g := fun i => if (i =? 0)%nat then - pm else if (i =? 2 * n)%nat then pm else (INR i - INR n) * d).
  assert (compute_phi d pm = map g (seq 0 (2 * n + 1))) as El.
  { unfold compute_phi. fold N. rewrite E2, <- En. replace (2 * n + 1)%nat with (1 + ((2 * n - 1) + 1))%nat by lia. rewrite seq_app, map_app. f_equal.
    rewrite seq_app, map_app. f_equal.
    - apply map_ext_in. intros i Hi. apply in_seq in Hi. unfold g. replace (i =? 0)%nat with false by (symmetry; apply Nat.eqb_neq; lia).
      replace (i =? 2 * n)%nat with false by (symmetry; apply Nat.eqb_neq; lia). reflexivity.
    - replace (0 + 1 + (2 * n - 1))%nat with (2 * n)%nat by lia. cbn [seq map]. unfold g. replace (2 * n =? 0)%nat with false by (symmetry; apply Nat.eqb_neq; lia).
      rewrite Nat.eqb_refl. reflexivity. }
  assert (forall i, (i <= 2 * n)%nat -> INR (2 * n - i) = 2 * INR n - INR i) as E2n by (intros i Hi; rewrite minus_INR, mult_INR by exact Hi; simpl (INR 2); reflexivity).
  assert (forall i, (i < 2 * n)%nat -> d / 2 <= g (S i) - g i <= 3 / 2 * d /\ ((1 <= i)%nat -> (i + 2 <= 2 * n)%nat -> g (S i) - g i = d)) as St.
  { intros i Hi. unfold g. change (S i =? 0)%nat with false. cbv iota.
    destruct (i =? 0)%nat eqn:I0; [apply Nat.eqb_eq in I0; subst i|apply Nat.eqb_neq in I0].
    - replace (1 =? 2 * n)%nat with false by (symmetry; apply Nat.eqb_neq; lia). simpl (INR 1). split; [lra|intros; lia].
    - replace (i =? 2 * n)%nat with false by (symmetry; apply Nat.eqb_neq; lia).
      destruct (S i =? 2 * n)%nat eqn:I2; [apply Nat.eqb_eq in I2|].
      + assert (INR i = 2 * INR n - 1) as -> by (replace i with (2 * n - 1)%nat by lia; rewrite E2n by lia; reflexivity). split; [lra|intros; lia].
      + rewrite S_INR. split; [lra|intros; lra]. }
  assert (forall i j, (i < j)%nat -> (j <= 2 * n)%nat -> g i < g j) as Inc.
  { intros i j Hij. induction Hij as [|j Hij IH]; intros Hj; [destruct (St i ltac:(lia)); lra|].
    specialize (IH ltac:(lia)). destruct (St j ltac:(lia)). lra. }
  exists n, (compute_phi d pm). split.
  { unfold get_phi, check_input. assert (Rltb 0 d = true) as -> by (apply Rltb_t; lra). assert (Rltb 0 pm = true) as -> by (apply Rltb_t; lra).
    assert (Rltb pm d = false) as -> by (apply Rltb_f; lra). reflexivity. }
  split; [exact Hn|]. rewrite El. split; [rewrite map_length, seq_length; reflexivity|].
  split; [apply sorted_map_seq; intros i j Hi Hj; apply Inc; lia|].
  split; [rewrite nth_error_map_seq by lia; reflexivity|].
  split; [rewrite nth_error_map_seq by lia; unfold g; cbn [Nat.add]; replace (n =? 0)%nat with false by (symmetry; apply Nat.eqb_neq; lia); replace (n =? 2 * n)%nat with false by (symmetry; apply Nat.eqb_neq; lia); f_equal; ring|].
  split; [rewrite nth_error_map_seq by lia; unfold g; cbn [Nat.add]; replace (n + (n + 0))%nat with (2 * n)%nat by lia; replace (2 * n =? 0)%nat with false by (symmetry; apply Nat.eqb_neq; lia); rewrite Nat.eqb_refl; reflexivity|].
  split.
  - intros i x Hx. assert (i < 2 * n + 1)%nat as Hi by (erewrite <- (seq_length (2 * n + 1) 0), <- (map_length g); apply nth_error_Some; congruence).
    rewrite nth_error_map_seq in Hx by exact Hi. injection Hx as <-. rewrite nth_error_map_seq by lia. f_equal. rewrite !Nat.add_0_l. unfold g.
    destruct (i =? 0)%nat eqn:I0; [apply Nat.eqb_eq in I0; subst i|apply Nat.eqb_neq in I0].
    + rewrite Nat.sub_0_r. replace (2 * n =? 0)%nat with false by (symmetry; apply Nat.eqb_neq; lia). rewrite Nat.eqb_refl. ring.
    + destruct (i =? 2 * n)%nat eqn:I2; [apply Nat.eqb_eq in I2; subst i; rewrite Nat.sub_diag; reflexivity|apply Nat.eqb_neq in I2].
      replace (2 * n - i =? 0)%nat with false by (symmetry; apply Nat.eqb_neq; lia). replace (2 * n - i =? 2 * n)%nat with false by (symmetry; apply Nat.eqb_neq; lia).
      rewrite E2n by lia. ring.
  - intros i x Hx. replace (2 * n + 1)%nat with (S (2 * n)) in Hx by lia. rewrite steps_map_seq in Hx.
    assert (i < 2 * n)%nat as Hi by (erewrite <- (seq_length (2 * n) 0), <- (map_length (fun i => g (S i) - g i)); apply nth_error_Some; congruence).
    rewrite nth_error_map_seq in Hx by exact Hi. injection Hx as <-. apply St. exact Hi.
Qed.
Print Assumptions heel_angles.
(** Every other input is refused. *)
Theorem heel_angles_refused : forall dphi phi_max, dphi <= 0 \/ phi_max < dphi -> get_phi dphi phi_max = Throw.
Proof.
  intros d pm H. unfold get_phi, check_input. destruct (Rltb_dec 0 d) as [[-> G]|[-> G]]; [|reflexivity]. destruct (Rltb_dec 0 pm) as [[-> G']|[-> G']]; [|reflexivity].
  destruct (Rltb_dec pm d) as [[-> G'']|[-> G'']]; [reflexivity|]. destruct H; lra.
Qed.
Print Assumptions heel_angles_refused.
Example heel_angles_example : get_phi 2 5 = Ok [-5; -4; -2; 0; 2; 4; 5].
Proof.
  unfold get_phi, check_input. assert (Rltb 0 2 = true) as -> by (apply Rltb_t; lra). assert (Rltb 0 5 = true) as -> by (apply Rltb_t; lra).
  assert (Rltb 5 2 = false) as -> by (apply Rltb_f; lra). cbn [bindO]. f_equal. unfold compute_phi, round_half_up.
  assert (up (5 / 2 + / 2) = 4%Z) as -> by (symmetry; apply tech_up; lra). change (Z.to_nat (2 * (4 - 1)) - 1)%nat with 5%nat. change (4 - 1)%Z with 3%Z.
  cbn [seq map app INR]. apply (f_equal2 cons); [lra|]. apply (f_equal2 cons); [lra|]. apply (f_equal2 cons); [lra|]. apply (f_equal2 cons); [lra|]. apply (f_equal2 cons); [lra|]. apply (f_equal2 cons); [lra|reflexivity].
Qed.
