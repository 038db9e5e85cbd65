(** C104-C105: the inertia of a body. *)
From Coq Require Import Reals List Arith Bool Lra Lia.
From Verif Require Import Common Blocked_Model Sim_Model Sim_Spec Sim_Proofs Sim_Props Matrix_Model Matrix_Proofs Inertia_Model Inertia_Spec Inertia_Proofs.
Import ListNotations.
Open Scope R_scope.

Lemma Rltb_true : forall a b, Rltb a b = true <-> a < b.
Proof. intros a b. unfold Rltb. destruct (Rlt_dec a b); split; intros; try lra; try discriminate; reflexivity. Qed.
Lemma Rltb_false : forall a b, Rltb a b = false <-> b <= a.
Proof. intros a b. unfold Rltb. destruct (Rlt_dec a b); split; intros; try lra; try discriminate; reflexivity. Qed.
Lemma tolerance_pos : 0 < tolerance. Proof. unfold tolerance. lra. Qed.
Lemma is_symmetric_iff : forall n m, is_symmetric n m = true <-> forall i j, (i < n)%nat -> (j < n)%nat -> Rabs (m i j - m j i) <= tolerance.
Proof.
  intros n m. unfold is_symmetric. rewrite forallb_forall. split.
  - intros H i j Hi Hj. assert (forall i j, (i < j < n)%nat -> Rabs (m i j - m j i) <= tolerance) as K.
    { intros a b Hab. specialize (H a). rewrite forallb_forall in H. specialize (fun h => H h b). apply Rltb_false, negb_true_iff. apply H; apply in_seq; lia. }
    destruct (lt_eq_lt_dec i j) as [[L|E]|L].
    + apply K; lia.
    + subst. replace (m j j - m j j) with 0 by ring. rewrite Rabs_R0. pose proof tolerance_pos. lra.
    + rewrite Rabs_minus_sym. apply K; lia.
  - intros H i Hi. apply in_seq in Hi. rewrite forallb_forall. intros j Hj. apply in_seq in Hj. apply negb_true_iff, Rltb_false, H; lia.
Qed.
Lemma symmetric_accepted : forall n m, symmetric n m -> is_symmetric n m = true.
Proof. intros n m H. apply is_symmetric_iff. intros i j Hi Hj. rewrite (H i j Hi Hj). replace (m j i - m j i) with 0 by ring. rewrite Rabs_R0. pose proof tolerance_pos. lra. Qed.
Lemma is_sdp_iff : forall n m, is_symmetric_definite_positive n m = true <-> is_symmetric n m = true /\ forall k, (1 <= k <= n)%nat -> 0 < det k m.
Proof.
  intros n m. unfold is_symmetric_definite_positive. rewrite andb_true_iff, forallb_forall. split; intros (A & B); (split; [exact A|]).
  - intros k Hk. apply Rltb_true, B, in_seq. lia.
  - intros k Hk. apply in_seq in Hk. apply Rltb_true, B. lia.
Qed.

(** ** C104: the test on the inertia matrices is exact on symmetric matrices. *)
Theorem inertia_test_is_exact : forall n M, symmetric n M -> (is_symmetric_definite_positive n M = true <-> positive_definite n M).
Proof. intros n M S. rewrite is_sdp_iff, <- sylvester by exact S. split; [intros (_ & H); exact H|intros H; split; [apply symmetric_accepted; exact S|exact H]]. Qed.
Print Assumptions inertia_test_is_exact.

(** The six rows of a matrix of the YAML file *)
Definition rows_of (M : rows6) : list (list R) := [row_1 M; row_2 M; row_3 M; row_4 M; row_5 M; row_6 M].
Definition complete (M : rows6) : Prop := Forall (fun r => (6 <= List.length r)%nat) (rows_of M).
Lemma convert_complete : forall M, complete M -> convert M = Ok (fun i j => entry (rows_of M) i j).
Proof.
  intros [a b c d e f] H. unfold complete, rows_of in H. cbn in H.
  repeat match goal with H : Forall _ (_ :: _) |- _ => inversion H; clear H; subst end.
  repeat match goal with H : (6 <= List.length ?l)%nat |- _ => destruct l as [|? [|? [|? [|? [|? [|? ?]]]]]]; cbn in H; try lia; clear H end.
  reflexivity.
Qed.
Lemma convert_incomplete : forall M, ~ complete M -> convert M = Throw.
Proof.
  intros M H. unfold convert.
  set (rows := [row_1 M; row_2 M; row_3 M; row_4 M; row_5 M; row_6 M]). set (cells := map (fun p : nat * nat => (snd p, fst p)) (list_prod (seq 0 6) (seq 0 6))).
  assert (exists i j, In (i, j) cells /\ nth_error (nth i rows []) j = None) as X.
  { destruct (Exists_dec (fun r : list R => ~ (6 <= List.length r)%nat) rows) as [E|N].
    - intros r. destruct (le_dec 6 (List.length r)); [right|left]; intuition.
    - apply Exists_exists in E as (r & Hr & Lr). apply In_nth_error in Hr as (i & Hi). assert (i < 6)%nat as Li by (change 6%nat with (List.length rows); apply nth_error_Some; rewrite Hi; discriminate).
      exists i, (List.length r). split; [|rewrite (nth_error_nth _ _ _ Hi); apply nth_error_None; lia].
      unfold cells. apply in_map_iff. exists (List.length r, i). split; [reflexivity|]. apply in_prod; apply in_seq; lia.
    - exfalso. apply H. unfold complete. apply Forall_forall. intros r Hr. destruct (le_dec 6 (List.length r)) as [|L]; [assumption|]. exfalso. apply N, Exists_exists. exists r. split; [exact Hr|exact L]. }
  clearbody cells rows. clear H. destruct X as (i & j & Hin & Hn). induction cells as [|(a & b) l IH]; [destruct Hin|].
  cbn. unfold at_throw at 1. destruct (nth_error (nth a rows []) b) eqn:E; cbn [bindO]; [|reflexivity]. apply IH. destruct Hin as [Q|Q]; [|exact Q]. injection Q as -> ->. congruence.
Qed.
Lemma convert_ok : forall M m, convert M = Ok m -> complete M /\ forall i j, m i j = entry (rows_of M) i j.
Proof.
  intros M m H. assert (complete M \/ ~ complete M) as [C|N]. { unfold complete. destruct (Forall_dec (fun r : list R => (6 <= List.length r)%nat) (fun r => le_dec 6 (List.length r)) (rows_of M)); auto. }
  - rewrite convert_complete in H by exact C. injection H as <-. split; [exact C|reflexivity].
  - rewrite convert_incomplete in H by exact N. discriminate.
Qed.

(** A body whose matrices are symmetric is accepted exactly when the rigid body inertia and the total inertia are positive definite; the total inertia
    is then the sum of the two. Otherwise the builder throws. *)
Definition total (rigid added : rows6) : nat -> nat -> R := fun i j => entry (rows_of rigid) i j + entry (rows_of added) i j.
Theorem body_accepted_iff_inertia_is_positive : forall rigid added, complete rigid -> complete added ->
  symmetric 6 (entry (rows_of rigid)) -> symmetric 6 (entry (rows_of added)) ->
  (positive_definite 6 (entry (rows_of rigid)) /\ positive_definite 6 (total rigid added) /\
   exists s, add_inertia rigid (Added_rows added) = Ok s /\ (forall i j, i_solid s i j = entry (rows_of rigid) i j) /\ (forall i j, i_total s i j = total rigid added i j)) \/
  (~ (positive_definite 6 (entry (rows_of rigid)) /\ positive_definite 6 (total rigid added)) /\ add_inertia rigid (Added_rows added) = Throw).
Proof.
  intros rb am C1 C2 S1 S2. unfold add_inertia. rewrite (convert_complete rb C1), (convert_complete am C2). cbn [bindO].
  assert (symmetric 6 (total rb am)) as S3. { intros i j Hi Hj. unfold total. rewrite (S1 i j Hi Hj), (S2 i j Hi Hj). reflexivity. }
  destruct (inertia_test_is_exact 6 _ S1) as (A1 & A2). destruct (inertia_test_is_exact 6 _ S3) as (B1 & B2).
  change (fun i j => entry (rows_of rb) i j) with (entry (rows_of rb)). change (fun i j => entry (rows_of am) i j) with (entry (rows_of am)).
  destruct (is_symmetric_definite_positive 6 (entry (rows_of rb))) eqn:E1; cbn [negb].
  - rewrite (symmetric_accepted 6 _ S2). cbn [negb]. change (fun i j => entry (rows_of rb) i j + entry (rows_of am) i j) with (total rb am).
    destruct (is_symmetric_definite_positive 6 (total rb am)) eqn:E2; cbn [negb].
    + left. split; [apply A1; reflexivity|]. split; [apply B1; reflexivity|]. eexists. split; [reflexivity|]. split; reflexivity.
    + right. split; [|reflexivity]. intros (_ & X). apply B2 in X. discriminate.
  - right. split; [|reflexivity]. intros (X & _). apply A2 in X. discriminate.
Qed.
Print Assumptions body_accepted_iff_inertia_is_positive.
(** A matrix with an incomplete row is refused. *)
Theorem incomplete_inertia_is_refused : forall rigid added, ~ complete rigid \/ ~ complete added -> add_inertia rigid (Added_rows added) = Throw.
Proof.
  intros rb am H. unfold add_inertia. assert (complete rb \/ ~ complete rb) as [C|N]. { unfold complete. destruct (Forall_dec (fun r : list R => (6 <= List.length r)%nat) (fun r => le_dec 6 (List.length r)) (rows_of rb)); auto. }
  - rewrite (convert_complete rb C). cbn [bindO]. destruct (negb _); [reflexivity|]. rewrite convert_incomplete by tauto. reflexivity.
  - rewrite convert_incomplete by exact N. reflexivity.
Qed.
Print Assumptions incomplete_inertia_is_refused.

(** ** C105: the equations of motion of an accepted body have exactly one solution, Newton's law. *)
Lemma sum6_to : forall f, sum6 f = sum_to 6 f. Proof. intros f. unfold sum6. cbn. ring. Qed.
Theorem accepted_inertia_is_inverted : forall rigid added s, add_inertia rigid added = Ok s ->
  forall i j, (i < 6)%nat -> (j < 6)%nat -> sum6 (fun k => i_total s i k * i_inverse s k j) = id6 i j /\ sum6 (fun k => i_inverse s i k * i_total s k j) = id6 i j.
Proof.
  intros rb am s H i j Hi Hj. unfold add_inertia in H. destruct (convert rb) as [Mrb| |]; try discriminate. cbn [bindO] in H.
  destruct (negb (is_symmetric_definite_positive 6 Mrb)); try discriminate. destruct (match am with Added_rows r => convert r | Added_hdb m => m end) as [Ma| |]; try discriminate. cbn [bindO] in H.
  destruct (negb (is_symmetric 6 Ma)); try discriminate. destruct (is_symmetric_definite_positive 6 (fun i j => Mrb i j + Ma i j)) eqn:E; cbn [negb] in H; try discriminate. injection H as <-. cbn [i_total i_inverse].
  apply is_sdp_iff in E as (_ & D). specialize (D 6%nat ltac:(lia)). rewrite !sum6_to. split.
  - rewrite (mul_inverse 6 (fun i j => Mrb i j + Ma i j)) by (try assumption; lra). reflexivity.
  - rewrite (inverse_mul 6 (fun i j => Mrb i j + Ma i j)) by (try assumption; lra). reflexivity.
Qed.
Print Assumptions accepted_inertia_is_inverted.
(** Whatever the sum of the forces, the derivatives of the velocities (u,v,w,p,q,r) computed for a body without forced states satisfy
    (rigid body + added mass) * acceleration = forces, and they are the only ones. *)
Theorem newton_law : forall Itp (itp_df : Itp -> R -> outcome R) rigid added s idx bl F rot x dx t dx', add_inertia rigid added = Ok s ->
  (forall st, b_dof bl st = None) -> dx_dt itp_df [(mkBody idx bl (i_total s) (i_inverse s), F, rot)] x dx t = Ok dx' ->
  exists acc : nat -> R,
    (forall k, (k < 6)%nat -> nth_error dx' (13 * idx + 3 + k) = Some (acc k)) /\
    (forall i, (i < 6)%nat -> sum6 (fun j => i_total s i j * acc j) = F i) /\
    (forall a, (forall i, (i < 6)%nat -> sum6 (fun j => i_total s i j * a j) = F i) -> forall i, (i < 6)%nat -> a i = acc i).
Proof.
  intros Itp itp_df rb am s idx bl F rot x dx t dx' Hs NB H. set (b := mkBody idx bl (i_total s) (i_inverse s)) in *.
  pose proof (equations_of_motion Itp itp_df b F rot x dx t dx' NB H) as E. exists (fun k => sum6 (fun j => i_inverse s k j * F j)). split; [|split].
  - intros k Hk. replace (13 * idx + 3 + k)%nat with (13 * bd_idx b + (3 + k))%nat by (cbn; lia). rewrite E by lia.
    do 6 (destruct k as [|k]; [reflexivity|]). lia.
  - intros i Hi. rewrite sum6_to. rewrite (sum_to_ext 6 _ (fun j => sum_to 6 (fun k => i_total s i j * i_inverse s j k * F k))).
    + rewrite sum_to_swap. rewrite (sum_to_ext 6 _ (fun k => id6 i k * F k)).
      * rewrite (sum_to_single 6 i); [unfold id6; rewrite Nat.eqb_refl; ring|exact Hi|]. intros k _ N. unfold id6. destruct (Nat.eqb_spec i k); [congruence|ring].
      * intros k Hk. destruct (accepted_inertia_is_inverted rb am s Hs i k Hi Hk) as (X & _). rewrite <- X, sum6_to, Rmult_comm, <- sum_to_scale. apply sum_to_ext. intros; ring.
    + intros j Hj. rewrite sum6_to, <- sum_to_scale. apply sum_to_ext. intros; ring.
  - intros a Ha i Hi. rewrite sum6_to. rewrite (sum_to_ext 6 _ (fun k => sum_to 6 (fun j => i_inverse s i k * i_total s k j * a j))).
    + rewrite sum_to_swap. rewrite (sum_to_ext 6 _ (fun k => id6 i k * a k)).
      * rewrite (sum_to_single 6 i); [unfold id6; rewrite Nat.eqb_refl; ring|exact Hi|]. intros k _ N. unfold id6. destruct (Nat.eqb_spec i k); [congruence|ring].
      * intros k Hk. destruct (accepted_inertia_is_inverted rb am s Hs i k Hi Hk) as (_ & X). rewrite <- X, sum6_to, Rmult_comm, <- sum_to_scale. apply sum_to_ext. intros; ring.
    + intros k Hk. rewrite <- (Ha k Hk), sum6_to, <- sum_to_scale. apply sum_to_ext. intros; ring.
Qed.
Print Assumptions newton_law.
(** With symmetric matrices, no motion has a zero or negative kinetic energy, and the kinetic energy changes by the power of the forces. *)
Theorem kinetic_energy_is_positive : forall rigid added s v, add_inertia rigid (Added_rows added) = Ok s -> symmetric 6 (entry (rows_of rigid)) -> symmetric 6 (entry (rows_of added)) ->
  (exists i, (i < 6)%nat /\ v i <> 0) -> 0 < quadratic 6 (i_solid s) v / 2 /\ 0 < quadratic 6 (i_total s) v / 2.
Proof.
  intros rb am s v H S1 S2 Nv. assert (complete rb /\ complete am) as (C1 & C2).
  { split.
    - destruct (Forall_dec (fun r : list R => (6 <= List.length r)%nat) (fun r => le_dec 6 (List.length r)) (rows_of rb)) as [C|C]; [exact C|]. rewrite incomplete_inertia_is_refused in H by (left; exact C). discriminate.
    - destruct (Forall_dec (fun r : list R => (6 <= List.length r)%nat) (fun r => le_dec 6 (List.length r)) (rows_of am)) as [C|C]; [exact C|]. rewrite incomplete_inertia_is_refused in H by (right; exact C). discriminate. }
  destruct (body_accepted_iff_inertia_is_positive rb am C1 C2 S1 S2) as [(P1 & P2 & s' & E & X & Y)|(_ & E)]; [|congruence]. rewrite H in E. injection E as <-.
  assert (forall A B x, (forall i j, A i j = B i j) -> quadratic 6 A x = quadratic 6 B x) as Q. { intros A B x Hab. unfold quadratic. apply sum_to_ext. intros i _. f_equal. apply sum_to_ext. intros j _. rewrite Hab. reflexivity. }
  rewrite (Q _ _ v X), (Q _ _ v Y). specialize (P1 v Nv). specialize (P2 v Nv). lra.
Qed.
Print Assumptions kinetic_energy_is_positive.
Theorem kinetic_energy_changes_by_the_power : forall Itp (itp_df : Itp -> R -> outcome R) rigid added s idx bl F rot x dx t dx', add_inertia rigid added = Ok s ->
  symmetric 6 (i_total s) -> (forall st, b_dof bl st = None) -> dx_dt itp_df [(mkBody idx bl (i_total s) (i_inverse s), F, rot)] x dx t = Ok dx' ->
  forall v, let acc k := nth (13 * idx + 3 + k) dx' 0 in
  (* derivative of (1/2) v^T M v when v' = acc *)
  sum6 (fun i => acc i * sum6 (fun j => i_total s i j * v j)) / 2 + sum6 (fun i => v i * sum6 (fun j => i_total s i j * acc j)) / 2 = sum6 (fun i => v i * F i).
Proof.
  intros Itp itp_df rb am s idx bl F rot x dx t dx' Hs Sym NB H v acc.
  destruct (newton_law Itp itp_df rb am s idx bl F rot x dx t dx' Hs NB H) as (a & A1 & A2 & _).
  assert (forall k, (k < 6)%nat -> acc k = a k) as Ea. { intros k Hk. unfold acc. specialize (A1 k Hk). apply nth_error_nth with (d := 0) in A1. exact A1. }
  assert (forall i, (i < 6)%nat -> sum6 (fun j => i_total s i j * acc j) = F i) as N. { intros i Hi. rewrite <- (A2 i Hi). rewrite !sum6_to. apply sum_to_ext. intros j Hj. rewrite Ea by exact Hj. reflexivity. }
  assert (sum6 (fun i => v i * sum6 (fun j => i_total s i j * acc j)) = sum6 (fun i => v i * F i)) as E1 by (rewrite !sum6_to; apply sum_to_ext; intros i Hi; rewrite N by exact Hi; reflexivity).
  assert (sum6 (fun i => acc i * sum6 (fun j => i_total s i j * v j)) = sum6 (fun i => v i * F i)) as E2.
  { rewrite <- E1. rewrite !sum6_to. rewrite (sum_to_ext 6 _ (fun i => sum_to 6 (fun j => v j * (i_total s j i * acc i)))).
    - rewrite sum_to_swap. apply sum_to_ext. intros j Hj. rewrite sum_to_scale, sum6_to. reflexivity.
    - intros i Hi. rewrite sum6_to, <- sum_to_scale. apply sum_to_ext. intros j Hj. rewrite (Sym i j) by assumption. ring. }
  lra.
Qed.
Print Assumptions kinetic_energy_changes_by_the_power.

(** ** What the absolute tolerance lets through, and what it refuses *)
Definition diagonal_but (t e : R) : rows6 := mkRows [t; e; 0; 0; 0; 0] [0; t; 0; 0; 0; 0] [0; 0; t; 0; 0; 0] [0; 0; 0; t; 0; 0] [0; 0; 0; 0; t; 0] [0; 0; 0; 0; 0; t].
Lemma diagonal_but_det : forall t e k, t <> 0 -> (k <= 6)%nat -> det k (entry (rows_of (diagonal_but t e))) = t ^ k.
Proof.
  intros t e k Ht. induction k as [|k IH]; intros Hk; [reflexivity|]. set (A := entry (rows_of (diagonal_but t e))) in *.
  rewrite (det_bordered k A (fun j => if (Nat.eqb k 1 && Nat.eqb j 0)%bool then e / t else 0)).
  - rewrite IH by lia. replace (A k k) with t by (do 6 (destruct k as [|k]; [reflexivity|]); lia).
    rewrite sum_to_zero; [cbn; ring|]. intros j Hj. do 6 (destruct k as [|k]; [do 5 (destruct j as [|j]; [cbn; try ring; lia|]); lia|]). lia.
  - intros i Hi. do 6 (destruct k as [|k]; [do 5 (destruct i as [|i]; [try lia; unfold A, entry, rows_of, diagonal_but; cbn; try field; try exact Ht; try lia|]); lia|]). lia.
Qed.
Lemma diagonal_but_symmetric : forall t e, Rabs e <= tolerance -> is_symmetric 6 (entry (rows_of (diagonal_but t e))) = true.
Proof.
  intros t e He. apply is_symmetric_iff. pose proof tolerance_pos. intros i j Hi Hj.
  do 6 (destruct i as [|i]; [do 6 (destruct j as [|j]; [unfold entry, rows_of, diagonal_but; cbn; try (replace (0 - 0) with 0 by ring; rewrite Rabs_R0; lra); try (replace (t - t) with 0 by ring; rewrite Rabs_R0; lra); try (rewrite Rminus_0_r; exact He); try (rewrite Rabs_minus_sym, Rminus_0_r; exact He)|]); lia|]). lia.
Qed.
Lemma diagonal_but_accepted : forall t e, 0 < t -> Rabs e <= tolerance -> is_symmetric_definite_positive 6 (entry (rows_of (diagonal_but t e))) = true.
Proof. intros t e Ht He. apply is_sdp_iff. split; [apply diagonal_but_symmetric; exact He|]. intros k Hk. rewrite diagonal_but_det by (lra || lia). apply pow_lt. exact Ht. Qed.
Lemma det_ext : forall n A B, (forall i j, (i < n)%nat -> (j < n)%nat -> A i j = B i j) -> det n A = det n B.
Proof.
  induction n; intros A B H; [reflexivity|]. cbn [det]. apply sum_to_ext. intros j Hj. rewrite (H 0%nat j) by lia. f_equal. apply IHn. intros k l Hk Hl. unfold minor, skip.
  apply H; [destruct (Nat.ltb k 0); lia|destruct (Nat.ltb l j); lia].
Qed.
Lemma is_sdp_ext : forall n A B, (forall i j, (i < n)%nat -> (j < n)%nat -> A i j = B i j) -> is_symmetric_definite_positive n A = is_symmetric_definite_positive n B.
Proof.
  intros n A B H. apply Bool.eq_true_iff_eq. rewrite !is_sdp_iff, !is_symmetric_iff. split; intros (X & Y); (split; [intros i j Hi Hj|intros k Hk]).
  - rewrite <- !H by assumption. apply X; assumption.
  - rewrite <- (det_ext k A B); [apply Y; exact Hk|]. intros; apply H; lia.
  - rewrite !H by assumption. apply X; assumption.
  - rewrite (det_ext k A B); [apply Y; exact Hk|]. intros; apply H; lia.
Qed.
(** A non-symmetric matrix whose coefficients are below the tolerance is accepted although it is not positive definite: some motions of that body have a
    negative kinetic energy. *)
Theorem accepted_inertia_is_positive_refuted : exists rigid added s v, add_inertia rigid (Added_rows added) = Ok s /\ (exists i, (i < 6)%nat /\ v i <> 0) /\ quadratic 6 (i_solid s) v / 2 < 0.
Proof.
  set (t := 1 / 100000000000). set (e := tolerance). exists (diagonal_but t e), (diagonal_but 1 0).
  assert (0 < t) as Ht by (unfold t; lra). assert (Rabs e <= tolerance) as He. { unfold e. rewrite Rabs_right; [lra|pose proof tolerance_pos; lra]. }
  assert (complete (diagonal_but t e) /\ complete (diagonal_but 1 0)) as (C1 & C2) by (split; unfold complete, rows_of, diagonal_but; cbn; repeat (apply Forall_cons; [cbn; lia|]); apply Forall_nil).
  unfold add_inertia. rewrite (convert_complete _ C1), (convert_complete _ C2). cbn [bindO].
  change (fun i j => entry (rows_of (diagonal_but t e)) i j) with (entry (rows_of (diagonal_but t e))). rewrite (diagonal_but_accepted t e Ht He). cbn [negb].
  change (fun i j => entry (rows_of (diagonal_but 1 0)) i j) with (entry (rows_of (diagonal_but 1 0))).
  rewrite (diagonal_but_symmetric 1 0) by (rewrite Rabs_R0; pose proof tolerance_pos; lra). cbn [negb].
  assert (forall i j, (i < 6)%nat -> (j < 6)%nat -> entry (rows_of (diagonal_but t e)) i j + entry (rows_of (diagonal_but 1 0)) i j = entry (rows_of (diagonal_but (t + 1) e)) i j) as Sum.
  { intros i j Hi Hj. do 6 (destruct i as [|i]; [do 6 (destruct j as [|j]; [unfold entry, rows_of, diagonal_but; cbn; ring|]); lia|]). lia. }
  assert (is_symmetric_definite_positive 6 (fun i j => entry (rows_of (diagonal_but t e)) i j + entry (rows_of (diagonal_but 1 0)) i j) = true) as X.
  { rewrite <- (diagonal_but_accepted (t + 1) e) by (lra || exact He). apply is_sdp_ext. exact Sum. }
  rewrite X. cbn [negb]. eexists. exists (fun i => match i with O => 1 | 1%nat => -1 | _ => 0 end). split; [reflexivity|]. split; [exists 0%nat; split; [lia|lra]|].
  cbn [i_solid]. unfold quadratic, entry, rows_of, diagonal_but. cbn. unfold t, e, tolerance. lra.
Qed.
Print Assumptions accepted_inertia_is_positive_refuted.
(** The tolerance is absolute: the same body is accepted in kilograms and refused in grams. *)
Theorem inertia_test_does_not_depend_on_units_refuted : exists M, is_symmetric_definite_positive 6 M = true /\ is_symmetric_definite_positive 6 (fun i j => 1000 * M i j) = false.
Proof.
  exists (entry (rows_of (diagonal_but 1 tolerance))). split; [apply diagonal_but_accepted; [lra|rewrite Rabs_right; pose proof tolerance_pos; lra]|].
  destruct (is_symmetric_definite_positive 6 (fun i j => 1000 * entry (rows_of (diagonal_but 1 tolerance)) i j)) eqn:E; [|reflexivity]. exfalso.
  apply is_sdp_iff in E as (E & _). rewrite is_symmetric_iff in E. specialize (E 0%nat 1%nat ltac:(lia) ltac:(lia)). unfold entry, rows_of, diagonal_but in E. cbn in E.
  replace (1000 * tolerance - 1000 * 0) with (1000 * tolerance) in E by ring. rewrite Rabs_right in E by (pose proof tolerance_pos; lra). pose proof tolerance_pos. lra.
Qed.
Print Assumptions inertia_test_does_not_depend_on_units_refuted.

(** Bodies that meet the hypotheses: a ship with a coupling between sway and roll. *)
Definition boat (m c I : R) : rows6 := mkRows [m; 0; 0; 0; 0; 0] [0; m; 0; c; 0; 0] [0; 0; m; 0; 0; 0] [0; c; 0; I; 0; 0] [0; 0; 0; 0; I; 0] [0; 0; 0; 0; 0; I].
Lemma boat_complete : forall m c I, complete (boat m c I).
Proof. intros. unfold complete, rows_of, boat. cbn. repeat (apply Forall_cons; [cbn; lia|]). apply Forall_nil. Qed.
Lemma boat_symmetric : forall m c I, symmetric 6 (entry (rows_of (boat m c I))).
Proof. intros m c I i j Hi Hj. do 6 (destruct i as [|i]; [do 6 (destruct j as [|j]; [reflexivity|]); lia|]). lia. Qed.
Lemma boat_positive : forall m c I, 0 < m -> c * c < m * I -> positive_definite 6 (entry (rows_of (boat m c I))).
Proof.
  intros m c I Hm Hc x (i & Hi & Nx). assert (0 < I) by nra.
  assert (quadratic 6 (entry (rows_of (boat m c I))) x = m * (x 0%nat * x 0%nat) + (m * (x 1%nat + c / m * x 3%nat) * (x 1%nat + c / m * x 3%nat) + (I - c * c / m) * (x 3%nat * x 3%nat)) + m * (x 2%nat * x 2%nat) + I * (x 4%nat * x 4%nat) + I * (x 5%nat * x 5%nat)) as ->.
  { unfold quadratic, entry, rows_of, boat. cbn. field. lra. }
  assert (0 < I - c * c / m) as Hk. { apply (Rmult_lt_reg_l m); [exact Hm|]. replace (m * (I - c * c / m)) with (m * I - c * c) by (field; lra). lra. }
  assert (forall a y, 0 < a -> 0 <= a * (y * y)) as P0 by (intros; apply Rmult_le_pos; nra). assert (forall a y, 0 < a -> y <> 0 -> 0 < a * (y * y)) as P1 by (intros; apply Rmult_lt_0_compat; [lra|nra]).
  set (d := x 1%nat + c / m * x 3%nat) in *. replace (m * d * d) with (m * (d * d)) by ring.
  pose proof (P0 m (x 0%nat) Hm). pose proof (P0 m d Hm). pose proof (P0 m (x 2%nat) Hm). pose proof (P0 (I - c * c / m) (x 3%nat) Hk). pose proof (P0 I (x 4%nat) ltac:(assumption)). pose proof (P0 I (x 5%nat) ltac:(assumption)).
  destruct i as [|[|[|[|[|[|i]]]]]]; [pose proof (P1 m (x 0%nat) Hm Nx); lra| |pose proof (P1 m (x 2%nat) Hm Nx); lra|pose proof (P1 _ (x 3%nat) Hk Nx); lra|pose proof (P1 I (x 4%nat) ltac:(assumption) Nx); lra|pose proof (P1 I (x 5%nat) ltac:(assumption) Nx); lra|lia].
  destruct (Req_dec (x 3%nat) 0) as [E|N]; [|pose proof (P1 _ (x 3%nat) Hk N); lra].
  assert (d <> 0) as Nd by (unfold d; rewrite E; lra). pose proof (P1 m d Hm Nd). lra.
Qed.
Example boat_accepted : exists s, add_inertia (boat 1000 500 2000) (Added_rows (boat 100 (-50) 300)) = Ok s /\ i_total s 1%nat 3%nat = 450.
Proof.
  destruct (body_accepted_iff_inertia_is_positive (boat 1000 500 2000) (boat 100 (-50) 300) (boat_complete _ _ _) (boat_complete _ _ _) (boat_symmetric _ _ _) (boat_symmetric _ _ _)) as [(_ & _ & s & E & _ & T)|(N & _)].
  - exists s. split; [exact E|]. rewrite T. unfold total, entry, rows_of, boat. cbn. ring.
  - exfalso. apply N. split; [apply boat_positive; lra|].
    assert (forall x, quadratic 6 (total (boat 1000 500 2000) (boat 100 (-50) 300)) x = quadratic 6 (entry (rows_of (boat 1100 450 2300))) x) as E by (intros x; unfold quadratic, total, entry, rows_of, boat; cbn; ring).
    intros x Hx. rewrite E. apply boat_positive; lra || exact Hx.
Qed.
Example boat_refused : add_inertia (boat 1000 2000 2000) (Added_rows (boat 1 0 1)) = Throw.
Proof.
  destruct (body_accepted_iff_inertia_is_positive (boat 1000 2000 2000) (boat 1 0 1) (boat_complete _ _ _) (boat_complete _ _ _) (boat_symmetric _ _ _) (boat_symmetric _ _ _)) as [(P & _)|(_ & E)]; [|exact E].
  exfalso. specialize (P (fun i => match i with 1%nat => 1 | 3%nat => -1 | _ => 0 end)). assert (0 < quadratic 6 (entry (rows_of (boat 1000 2000 2000))) (fun i => match i with 1%nat => 1 | 3%nat => -1 | _ => 0 end)) as P' by (apply P; exists 1%nat; split; [lia|lra]). clear P. rename P' into P. unfold quadratic, entry, rows_of, boat in P. cbn in P. lra.
Qed.
