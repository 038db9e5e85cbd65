(** Determinants and inverses, from mathcomp's theory of matrices applied to the reals. *)
From Coq Require Import Reals Lra Lia ClassicalEpsilon FunctionalExtensionality.
From mathcomp Require Import all_ssreflect all_algebra.
From Verif Require Import Matrix_Model.

(** ** The field of the reals *)
Definition Reqb' (a b : R) : bool := if Req_EM_T a b then true else false.
Lemma Reqb'P : Equality.axiom Reqb'.
Proof. move=> a b. rewrite /Reqb'. case: (Req_EM_T a b) => H; constructor; done. Qed.
Canonical R_eqMixin := EqMixin Reqb'P.
Canonical R_eqType := Eval hnf in EqType R R_eqMixin.
Definition R_find (P : pred R) (n : nat) : option R :=
  match excluded_middle_informative (exists x, P x) with left h => Some (proj1_sig (constructive_indefinite_description _ h)) | right _ => None end.
Lemma R_find1 : forall (P : pred R) n x, R_find P n = Some x -> P x.
Proof. move=> P n x. rewrite /R_find. case: excluded_middle_informative => // h [<-]. apply: (proj2_sig (constructive_indefinite_description _ h)). Qed.
Lemma R_find2 : forall P : pred R, (exists x, P x) -> exists n, R_find P n.
Proof. move=> P h. exists 0%N. rewrite /R_find. by case: excluded_middle_informative. Qed.
Lemma R_find3 : forall P Q : pred R, P =1 Q -> R_find P =1 R_find Q.
Proof. move=> P Q H n. have -> : P = Q by apply: functional_extensionality. done. Qed.
Canonical R_choiceMixin := Choice.Mixin R_find1 R_find2 R_find3.
Canonical R_choiceType := Eval hnf in ChoiceType R R_choiceMixin.
Lemma R_addA : associative Rplus. Proof. move=> a b c. by rewrite Rplus_assoc. Qed.
Lemma R_addN : left_inverse R0 Ropp Rplus. Proof. move=> a. apply: Rplus_opp_l. Qed.
Definition R_zmodMixin := ZmodMixin R_addA Rplus_comm Rplus_0_l R_addN.
Canonical R_zmodType := Eval hnf in ZmodType R R_zmodMixin.
Lemma R_mulA : associative Rmult. Proof. move=> a b c. by rewrite Rmult_assoc. Qed.
Lemma R_mulD : left_distributive Rmult Rplus. Proof. move=> a b c. apply: Rmult_plus_distr_r. Qed.
Lemma R_10 : R1 != R0 :> R. Proof. apply/eqP. exact: R1_neq_R0. Qed.
Definition R_ringMixin := ComRingMixin R_mulA Rmult_comm Rmult_1_l R_mulD R_10.
Canonical R_ringType := Eval hnf in RingType R R_ringMixin.
Canonical R_comRingType := Eval hnf in ComRingType R Rmult_comm.

Import GRing.Theory.
Local Open Scope ring_scope.

Definition Mx (n : nat) (A : nat -> nat -> R) : 'M[R]_n := \matrix_(i, j) A i j.
Lemma sum_big : forall n f, sum_to n f = \sum_(i < n) f i.
Proof. elim=> [|n IH] f; [by rewrite big_ord0|]. rewrite big_ord_recr /= -IH. done. Qed.
Lemma pow_exp : forall (a : R) n, pow a n = a ^+ n.
Proof. move=> a. elim=> [|n IH]; [done|]. by rewrite exprS -IH. Qed.
Lemma neg1 : Ropp (IZR 1) = -1 :> R. Proof. done. Qed.
Lemma skip_bump : forall (i k : nat), Matrix_Model.skip i k = bump i k.
Proof.
  move=> i k. rewrite /Matrix_Model.skip /bump. case: Nat.ltb_spec => H.
  - by have -> : (i <= k)%N = false by apply/negbTE; rewrite -ltnNge; apply/ltP.
  - by have -> : (i <= k)%N by apply/leP.
Qed.
Lemma minor_mx : forall n A (i j : 'I_n.+1), row' i (col' j (Mx n.+1 A)) = Mx n (minor A i j).
Proof. move=> n A i j. apply/matrixP => k l. by rewrite !mxE /minor !skip_bump. Qed.
Lemma det_mx : forall n A, det n A = \det (Mx n A).
Proof.
  elim=> [|n IH] A; [by rewrite det_mx00|]. rewrite (expand_det_row _ ord0) /cofactor.
  change (sum_to n.+1 (fun j => Rmult (Rmult (pow (IZR (Zneg xH)) j) (A O j)) (det n (minor A O j))) = \sum_j Mx n.+1 A ord0 j * ((-1) ^+ (@ord0 n + j) * \det (row' ord0 (col' j (Mx n.+1 A))))).
  rewrite sum_big. apply: eq_bigr => j _. rewrite minor_mx -IH !mxE pow_exp add0n mulrCA mulrA. done.
Qed.
(** ** Inverse *)
Lemma adj_entry : forall n A (i j : 'I_n.+1), (\adj (Mx n.+1 A)) i j = Rmult (pow (IZR (Zneg xH)) (i + j)) (det n (minor A j i)).
Proof. move=> n A i j. rewrite mxE /cofactor minor_mx -det_mx pow_exp [in RHS]addnC. done. Qed.
Lemma mul_sum : forall n (a : nat -> nat -> R) (B : 'M[R]_n) (i j : 'I_n), (Mx n a *m B) i j = \sum_(k < n) a i k * B k j.
Proof. move=> n a B i j. rewrite mxE. apply: eq_bigr => k _. by rewrite mxE. Qed.
Lemma inverse_entry : forall n A (i j : 'I_n.+1), Matrix_Model.inverse n.+1 A i j = Rmult ((\adj (Mx n.+1 A)) i j) (Rinv (det n.+1 A)).
Proof. move=> n A i j. rewrite adj_entry /Matrix_Model.inverse. by have -> : (n.+1 - 1)%coq_nat = n by rewrite /= Nat.sub_0_r. Qed.
Lemma sum_scale : forall n (f : nat -> R) (c : R), \sum_(k < n) (f k * c) = (\sum_(k < n) f k) * c.
Proof. move=> n f c. by rewrite mulr_suml. Qed.
Lemma inverse_right : forall n A, det n A <> R0 -> forall i j, (i < n)%coq_nat -> (j < n)%coq_nat ->
  sum_to n (fun k => Rmult (A i k) (Matrix_Model.inverse n A k j)) = if Nat.eqb i j then R1 else R0.
Proof.
  case=> [|n] A Hd i j /ltP Hi /ltP Hj; [done|]. rewrite sum_big.
  have E : forall k : 'I_n.+1, Rmult (A i k) (Matrix_Model.inverse n.+1 A k j) = A i k * (\adj (Mx n.+1 A)) k (Ordinal Hj) * Rinv (det n.+1 A).
  { move=> k. rewrite (inverse_entry n A k (Ordinal Hj)). by rewrite -[RHS]mulrA. }
  rewrite (eq_bigr _ (fun k _ => E k)) -mulr_suml -(mul_sum n.+1 A (\adj (Mx n.+1 A)) (Ordinal Hi) (Ordinal Hj)) mul_mx_adj -det_mx mxE.
  have -> : (Ordinal Hi == Ordinal Hj) = Nat.eqb i j. { apply/eqP/idP => [[->]|/Nat.eqb_eq H]; [by apply/Nat.eqb_eq|apply/val_inj; exact H]. }
  case: (Nat.eqb i j) => /=; [rewrite mulr1n|rewrite mulr0n mul0r //]. by apply: Rinv_r.
Qed.
Lemma inverse_left : forall n A, det n A <> R0 -> forall i j, (i < n)%coq_nat -> (j < n)%coq_nat ->
  sum_to n (fun k => Rmult (Matrix_Model.inverse n A i k) (A k j)) = if Nat.eqb i j then R1 else R0.
Proof.
  case=> [|n] A Hd i j /ltP Hi /ltP Hj; [done|]. rewrite sum_big.
  have E : forall k : 'I_n.+1, Rmult (Matrix_Model.inverse n.+1 A i k) (A k j) = (\adj (Mx n.+1 A)) (Ordinal Hi) k * Mx n.+1 A k (Ordinal Hj) * Rinv (det n.+1 A).
  { move=> k. rewrite (inverse_entry n A (Ordinal Hi) k) [Mx _ _ _ _]mxE /=. rewrite mulrAC. done. }
  rewrite (eq_bigr _ (fun k _ => E k)) -mulr_suml.
  have -> : \sum_(k < n.+1) (\adj (Mx n.+1 A)) (Ordinal Hi) k * Mx n.+1 A k (Ordinal Hj) = (\adj (Mx n.+1 A) *m Mx n.+1 A) (Ordinal Hi) (Ordinal Hj) by rewrite [RHS]mxE.
  rewrite mul_adj_mx -det_mx mxE.
  have -> : (Ordinal Hi == Ordinal Hj) = Nat.eqb i j. { apply/eqP/idP => [[->]|/Nat.eqb_eq H]; [by apply/Nat.eqb_eq|apply/val_inj; exact H]. }
  case: (Nat.eqb i j) => /=; [rewrite mulr1n|rewrite mulr0n mul0r //]. by apply: Rinv_r.
Qed.
(** ** The determinant of a bordered matrix, by the Schur complement *)
Lemma Mx_block : forall n A, Mx (n + 1) A = block_mx (Mx n A) (\col_i A i n) (\row_j A n j) (A n n)%:M.
Proof.
  move=> n A. apply/matrixP => i j. rewrite mxE. case: (split_ordP i) => i' ->; case: (split_ordP j) => j' ->.
  - by rewrite block_mxEul mxE.
  - by rewrite block_mxEur mxE (ord1 j') /= addn0.
  - by rewrite block_mxEdl mxE (ord1 i') /= addn0.
  - by rewrite block_mxEdr (ord1 i') (ord1 j') !mxE /= addn0 mulr1n.
Qed.
Lemma bordered_det : forall n A w, (forall i, (i < n)%coq_nat -> sum_to n (fun j => Rmult (A i j) (w j)) = A i n) ->
  det (S n) A = Rmult (det n A) (Rminus (A n n) (sum_to n (fun j => Rmult (A n j) (w j)))).
Proof.
  move=> n A w Hw. rewrite !det_mx. have -> : \det (Mx n.+1 A) = \det (Mx (n + 1) A) by rewrite addn1.
  set W : 'cV[R]_n := \col_i w i. set s := Rminus _ _.
  have E : Mx (n + 1) A = block_mx (Mx n A) 0 (\row_j A n j) 1%:M *m block_mx 1%:M W 0 s%:M.
  { rewrite mulmx_block Mx_block !mulmx1 !mul0mx !mulmx0 !addr0 !mul1mx. congr block_mx.
    - apply/colP => i. rewrite !mxE -(Hw i); [|by apply/ltP]. rewrite sum_big. apply: eq_bigr => k _. by rewrite !mxE.
    - apply/matrixP => i j. rewrite (ord1 i) (ord1 j) !mxE eqxx !mulr1n. have -> : \sum_k (\row_j A n j) 0 k * W k 0 = sum_to n (fun j => Rmult (A n j) (w j)).
      { rewrite sum_big. apply: eq_bigr => k _. by rewrite !mxE. }
      rewrite /s. rewrite addrC. change (A n n = Rplus (Rminus (A n n) (sum_to n (fun j => Rmult (A n j) (w j)))) (sum_to n (fun j => Rmult (A n j) (w j)))).
      unfold Rminus. rewrite Rplus_assoc Rplus_opp_l Rplus_0_r. done. }
  rewrite E det_mulmx det_lblock det_ublock !det1 mulr1 mul1r det_scalar1. done.
Qed.
