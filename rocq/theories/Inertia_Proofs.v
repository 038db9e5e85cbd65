(** Sylvester's criterion. *)
From Coq Require Import Reals List Arith Lra Lia.
From Verif Require Import Matrix_Model Matrix_Proofs Inertia_Spec.
Open Scope R_scope.

Lemma sum_to_ext : forall n f g, (forall i, (i < n)%nat -> f i = g i) -> sum_to n f = sum_to n g.
Proof. induction n; intros f g H; cbn; [reflexivity|]. rewrite (IHn f g) by (intros; apply H; lia). rewrite (H n) by lia. reflexivity. Qed.
Lemma sum_to_plus : forall n f g, sum_to n (fun i => f i + g i) = sum_to n f + sum_to n g.
Proof. induction n; intros f g; cbn; [lra|]. rewrite IHn. lra. Qed.
Lemma sum_to_scale : forall n c f, sum_to n (fun i => c * f i) = c * sum_to n f.
Proof. induction n; intros c f; cbn; [lra|]. rewrite IHn. lra. Qed.
Lemma sum_to_zero : forall n f, (forall i, (i < n)%nat -> f i = 0) -> sum_to n f = 0.
Proof. induction n; intros f H; cbn; [reflexivity|]. rewrite IHn by (intros; apply H; lia). rewrite (H n) by lia. lra. Qed.
Lemma sum_to_swap : forall n m f, sum_to n (fun i => sum_to m (fun j => f i j)) = sum_to m (fun j => sum_to n (fun i => f i j)).
Proof.
  induction n; intros m f; cbn; [symmetry; apply sum_to_zero; reflexivity|]. rewrite IHn, <- sum_to_plus. reflexivity.
Qed.
Lemma sum_to_single : forall n i f, (i < n)%nat -> (forall k, (k < n)%nat -> k <> i -> f k = 0) -> sum_to n f = f i.
Proof.
  induction n; intros i f Hi H; [lia|]. cbn. destruct (Nat.eq_dec i n) as [->|N].
  - rewrite sum_to_zero; [lra|]. intros k Hk. apply H; lia.
  - rewrite (IHn i) by (try lia; intros; apply H; lia). rewrite (H n) by lia. lra.
Qed.

Lemma mul_inverse : forall n A, det n A <> 0 -> forall i j, (i < n)%nat -> (j < n)%nat ->
  sum_to n (fun k => A i k * inverse n A k j) = if Nat.eqb i j then 1 else 0.
Proof. exact inverse_right. Qed.
Lemma inverse_mul : forall n A, det n A <> 0 -> forall i j, (i < n)%nat -> (j < n)%nat ->
  sum_to n (fun k => inverse n A i k * A k j) = if Nat.eqb i j then 1 else 0.
Proof. exact inverse_left. Qed.
(** a linear system with a non-zero determinant has one solution *)
Definition solution (n : nat) (A : nat -> nat -> R) (b : nat -> R) : nat -> R := fun i => sum_to n (fun k => inverse n A i k * b k).
Lemma solution_solves : forall n A b, det n A <> 0 -> forall i, (i < n)%nat -> sum_to n (fun j => A i j * solution n A b j) = b i.
Proof.
  intros n A b Hd i Hi. unfold solution.
  rewrite (sum_to_ext n _ (fun j => sum_to n (fun k => A i j * inverse n A j k * b k))) by (intros j Hj; rewrite <- sum_to_scale; apply sum_to_ext; intros; ring).
  rewrite sum_to_swap. rewrite (sum_to_ext n _ (fun k => (if Nat.eqb i k then 1 else 0) * b k)).
  - rewrite (sum_to_single n i); [rewrite Nat.eqb_refl; ring|exact Hi|]. intros k Hk N. destruct (Nat.eqb_spec i k); [congruence|ring].
  - intros k Hk. rewrite <- (mul_inverse n A Hd i k Hi Hk). rewrite Rmult_comm, <- sum_to_scale. apply sum_to_ext. intros; ring.
Qed.
Lemma solution_unique : forall n A b x, det n A <> 0 -> (forall i, (i < n)%nat -> sum_to n (fun j => A i j * x j) = b i) ->
  forall i, (i < n)%nat -> x i = solution n A b i.
Proof.
  intros n A b x Hd Hx i Hi. unfold solution.
  rewrite (sum_to_ext n _ (fun k => sum_to n (fun j => inverse n A i k * A k j * x j))).
  2:{ intros k Hk. rewrite <- (Hx k Hk), <- sum_to_scale. apply sum_to_ext. intros; ring. }
  rewrite sum_to_swap. rewrite (sum_to_ext n _ (fun j => (if Nat.eqb i j then 1 else 0) * x j)).
  - rewrite (sum_to_single n i); [rewrite Nat.eqb_refl; ring|exact Hi|]. intros k Hk N. destruct (Nat.eqb_spec i k); [congruence|ring].
  - intros j Hj. rewrite <- (inverse_mul n A Hd i j Hi Hj). rewrite Rmult_comm, <- sum_to_scale. apply sum_to_ext. intros; ring.
Qed.
Lemma det_bordered : forall n A w, (forall i, (i < n)%nat -> sum_to n (fun j => A i j * w j) = A i n) ->
  det (S n) A = det n A * (A n n - sum_to n (fun j => A n j * w j)).
Proof. exact bordered_det. Qed.

Lemma quadratic_S : forall n A x, quadratic (S n) A x =
  quadratic n A x + x n * sum_to n (fun j => A j n * x j) + x n * sum_to n (fun j => A n j * x j) + x n * x n * A n n.
Proof.
  intros n A x. unfold quadratic. cbn [sum_to].
  rewrite (sum_to_ext n _ (fun i => x i * sum_to n (fun j => A i j * x j) + x n * (A i n * x i))) by (intros; ring).
  rewrite sum_to_plus, sum_to_scale. ring.
Qed.
Lemma quadratic_ext : forall n A x y, (forall i, (i < n)%nat -> x i = y i) -> quadratic n A x = quadratic n A y.
Proof. intros n A x y H. unfold quadratic. apply sum_to_ext. intros i Hi. rewrite (H i Hi). f_equal. apply sum_to_ext. intros j Hj. rewrite (H j Hj). reflexivity. Qed.
Lemma quadratic_0 : forall n A x, (forall i, (i < n)%nat -> x i = 0) -> quadratic n A x = 0.
Proof. intros n A x H. unfold quadratic. apply sum_to_zero. intros i Hi. rewrite (H i Hi). ring. Qed.
Lemma complete_square : forall n A w x, symmetric (S n) A -> (forall i, (i < n)%nat -> sum_to n (fun j => A i j * w j) = A i n) ->
  quadratic (S n) A x = quadratic n A (fun i => x i + x n * w i) + x n * x n * (A n n - sum_to n (fun j => A n j * w j)).
Proof.
  intros n A w x Hs Hw. rewrite quadratic_S. unfold quadratic at 2.
  rewrite (sum_to_ext n (fun i => (x i + x n * w i) * sum_to n (fun j => A i j * (x j + x n * w j)))
    (fun i => x i * sum_to n (fun j => A i j * x j) + (x n * (A i n * x i) + (x n * (w i * sum_to n (fun j => A i j * x j)) + x n * x n * (A n i * w i))))).
  2:{ intros i Hi. replace (sum_to n (fun j => A i j * (x j + x n * w j))) with (sum_to n (fun j => A i j * x j) + x n * A i n).
      - rewrite <- (Hs i n) by lia. ring.
      - rewrite <- (Hw i Hi), <- sum_to_scale, <- sum_to_plus. apply sum_to_ext. intros; ring. }
  rewrite !sum_to_plus, !sum_to_scale. fold (quadratic n A x).
  replace (sum_to n (fun i => w i * sum_to n (fun j => A i j * x j))) with (sum_to n (fun j => A n j * x j)); [ring|].
  rewrite (sum_to_ext n (fun i => w i * _) (fun i => sum_to n (fun j => x j * (A j i * w i)))).
  - rewrite sum_to_swap. apply sum_to_ext. intros j Hj. rewrite sum_to_scale, (Hw j Hj), (Hs n j) by lia. ring.
  - intros i Hi. rewrite <- sum_to_scale. apply sum_to_ext. intros j Hj. rewrite (Hs i j) by lia. ring.
Qed.
Lemma any_nonzero : forall n (x : nat -> R), (exists i, (i < n)%nat /\ x i <> 0) \/ (forall i, (i < n)%nat -> x i = 0).
Proof.
  induction n; intros x; [right; lia|]. destruct (IHn x) as [(i & Hi & N)|H]; [left; exists i; split; [lia|exact N]|].
  destruct (Req_dec (x n) 0) as [E|N]; [right|left; exists n; split; [lia|exact N]]. intros i Hi. destruct (Nat.eq_dec i n) as [->|]; [exact E|apply H; lia].
Qed.
Lemma sylvester : forall n A, symmetric n A -> ((forall k, (1 <= k <= n)%nat -> 0 < det k A) <-> positive_definite n A).
Proof.
  induction n; intros A Hs.
  { split; [intros _ x (i & Hi & _); lia|intros _ k Hk; lia]. }
  assert (symmetric n A) as Hs' by (intros i j Hi Hj; apply Hs; lia). specialize (IHn A Hs'). destruct IHn as (I1 & I2). split.
  - intros Hd x (i & Hi & Nx). assert (positive_definite n A) as PD by (apply I1; intros k Hk; apply Hd; lia).
    assert (0 < det n A) as Dn by (destruct n; [cbn; lra|apply Hd; lia]). set (w := solution n A (fun i => A i n)).
    assert (forall i, (i < n)%nat -> sum_to n (fun j => A i j * w j) = A i n) as Hw by (intros; apply (solution_solves n A (fun i => A i n)); [lra|assumption]).
    rewrite (complete_square n A w x Hs Hw). pose proof (Hd (S n) ltac:(lia)) as D. rewrite (det_bordered n A w Hw) in D.
    set (s := A n n - sum_to n (fun j => A n j * w j)) in *. assert (0 < s) as Hpos. { apply (Rmult_lt_reg_l (det n A)); lra. }
    set (y := fun i => x i + x n * w i). destruct (any_nonzero n y) as [E|Z].
    + pose proof (PD y E). assert (0 <= x n * x n * s) by (apply Rmult_le_pos; [nra|lra]). lra.
    + rewrite (quadratic_0 n A y Z). assert (x n <> 0) as Nn. { intros E. destruct (Nat.eq_dec i n) as [->|]; [contradiction|]. specialize (Z i ltac:(lia)). unfold y in Z. rewrite E in Z. lra. }
      assert (0 < x n * x n) by nra. assert (0 < x n * x n * s) by (apply Rmult_lt_0_compat; lra). lra.
  - intros PD. assert (positive_definite n A) as PDn.
    { intros x E. specialize (PD (fun i => if Nat.eqb i n then 0 else x i)). destruct E as (i & Hi & N). rewrite quadratic_S in PD. rewrite Nat.eqb_refl in PD.
      rewrite (quadratic_ext n A (fun i => if Nat.eqb i n then 0 else x i) x) in PD by (intros k Hk; destruct (Nat.eqb_spec k n); [lia|reflexivity]).
      assert (0 < quadratic n A x + 0 * sum_to n (fun j => A j n * (if Nat.eqb j n then 0 else x j)) + 0 * sum_to n (fun j => A n j * (if Nat.eqb j n then 0 else x j)) + 0 * 0 * A n n) as X; [|lra].
      apply PD. exists i. split; [lia|]. destruct (Nat.eqb_spec i n); [lia|exact N]. }
    pose proof (I2 PDn) as Dk. assert (0 < det n A) as Dn by (destruct n; [cbn; lra|apply Dk; lia]). set (w := solution n A (fun i => A i n)).
    assert (forall i, (i < n)%nat -> sum_to n (fun j => A i j * w j) = A i n) as Hw by (intros; apply (solution_solves n A (fun i => A i n)); [lra|assumption]).
    intros k Hk. destruct (Nat.eq_dec k (S n)) as [->|]; [|apply Dk; lia]. rewrite (det_bordered n A w Hw). apply Rmult_lt_0_compat; [exact Dn|].
    pose proof (PD (fun i => if Nat.eqb i n then 1 else - w i)) as P. rewrite (complete_square n A w _ Hs Hw), Nat.eqb_refl in P. rewrite quadratic_0 in P.
    + assert (0 < 0 + 1 * 1 * (A n n - sum_to n (fun j => A n j * w j))); [|lra]. apply P. exists n. split; [lia|]. rewrite Nat.eqb_refl. lra.
    + intros i Hi. destruct (Nat.eqb_spec i n); [lia|]. ring.
Qed.
