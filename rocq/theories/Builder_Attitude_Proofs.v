(** The quaternion computed by Eigen from a rotation matrix represents that rotation. *)
From Coq Require Import Reals Lra List Bool.
From Verif Require Import Common Geometry Sim_Model Force_Props Builder_Model.
Open Scope R_scope.

Lemma half_root : forall S, 0 < S -> exists s h, s = sqrt S /\ h = / 2 / s /\ (forall a b, (a * h) * (b * h) = a * b / (4 * S)) /\
  (forall a, (/ 2 * s) * (a * h) = a / 4) /\ (forall a, (a * h) * (/ 2 * s) = a / 4) /\ (/ 2 * s) * (/ 2 * s) = S / 4.
Proof.
  intros S HS. exists (sqrt S), (/ 2 / sqrt S). pose proof (sqrt_lt_R0 S HS) as P. pose proof (sqrt_sqrt S (Rlt_le _ _ HS)) as Q.
  repeat split; intros.
  - rewrite <- Q at 3. field. lra.
  - field. lra.
  - field. lra.
  - rewrite <- Q at 3. field.
Qed.

Definition represents (m : mat3) (q : R * R * R * R) : Prop :=
  let '(w, x, y, z) := q in qmat w x y z = m /\ w * w + x * x + y * y + z * z = 1.
Lemma quaternion_of_rotation : forall m, rotation m -> represents m (quaternion_of m).
Proof.
  intros m H. destruct (rotation_cofactors m H) as [P Q]. pose proof (rotation_columns m H) as C. destruct H as (A1 & A2 & A3 & A4 & A5 & A6 & A7).
  destruct C as (B1 & B2 & B3 & B4 & B5 & B6 & _). destruct m as [[m00 m01 m02] [m10 m11 m12] [m20 m21 m22]].
  unfold dot, cross, transpose in *. cbn [r1 r2 r3 vx vy vz] in *. injection P as P1 P2 P3. injection Q as Q1 Q2 Q3. injection A7 as X1 X2 X3.
  unfold quaternion_of, represents.
  Ltac branch S := let HS := fresh "HS" in assert (HS : 0 < S) by lra;
    let s := fresh "s" in let h := fresh "h" in let Es := fresh in let Eh := fresh in
    let pp := fresh in let sp := fresh in let ps := fresh in let ss := fresh in
    destruct (half_root S HS) as (s & h & Es & Eh & pp & sp & ps & ss); rewrite <- Es; rewrite <- Eh; unfold qmat; clear Es Eh;
    (split; [apply mat_eq; cbn [r1 r2 r3]; apply vec_eq; cbn [vx vy vz]|]);
    rewrite ?pp, ?sp, ?ps, ?ss; clear pp sp ps ss s h; (field_simplify_eq; [|lra]); lra.
  destruct (Rltb_dec 0 (m00 + m11 + m22)) as [[E L]|[E L]]; rewrite E.
  { branch (m00 + m11 + m22 + 1). }
  destruct (Rltb_dec m00 m11) as [[E1 L1]|[E1 L1]]; rewrite E1.
  - destruct (Rltb_dec m11 m22) as [[E2 L2]|[E2 L2]]; rewrite E2.
    + branch (m22 - m00 - m11 + 1).
    + branch (m11 - m22 - m00 + 1).
  - destruct (Rltb_dec m00 m22) as [[E2 L2]|[E2 L2]]; rewrite E2.
    + branch (m22 - m00 - m11 + 1).
    + branch (m00 - m11 - m22 + 1).
Qed.
