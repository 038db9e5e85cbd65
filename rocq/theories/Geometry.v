(** Vectors of R^3, 3x3 matrices, rotations, rigid displacements: plain mathematics shared by the models and the specifications.
    Nothing here models xdyn code; Eigen's fixed-size vectors and matrices are external. *)
From Coq Require Import Reals Lra List.
Import ListNotations.
Open Scope R_scope.

Record vec3 : Type := V3 { vx : R; vy : R; vz : R }.
Definition v0 : vec3 := V3 0 0 0.
Definition vadd (a b : vec3) : vec3 := V3 (vx a + vx b) (vy a + vy b) (vz a + vz b).
Definition vsub (a b : vec3) : vec3 := V3 (vx a - vx b) (vy a - vy b) (vz a - vz b).
Definition vopp (a : vec3) : vec3 := V3 (- vx a) (- vy a) (- vz a).
Definition vscale (k : R) (a : vec3) : vec3 := V3 (k * vx a) (k * vy a) (k * vz a).
Definition dot (a b : vec3) : R := vx a * vx b + vy a * vy b + vz a * vz b.
Definition cross (a b : vec3) : vec3 :=
  V3 (vy a * vz b - vz a * vy b) (vz a * vx b - vx a * vz b) (vx a * vy b - vy a * vx b).
Definition norm (a : vec3) : R := sqrt (dot a a).
Definition vsum (l : list vec3) : vec3 := fold_right vadd v0 l.

(** A matrix is given by its rows. *)
Record mat3 : Type := M3 { r1 : vec3; r2 : vec3; r3 : vec3 }.
Definition mapply (m : mat3) (v : vec3) : vec3 := V3 (dot (r1 m) v) (dot (r2 m) v) (dot (r3 m) v).
Definition transpose (m : mat3) : mat3 :=
  M3 (V3 (vx (r1 m)) (vx (r2 m)) (vx (r3 m))) (V3 (vy (r1 m)) (vy (r2 m)) (vy (r3 m))) (V3 (vz (r1 m)) (vz (r2 m)) (vz (r3 m))).
Definition mmul (a b : mat3) : mat3 :=
  let c := transpose b in
  M3 (V3 (dot (r1 a) (r1 c)) (dot (r1 a) (r2 c)) (dot (r1 a) (r3 c)))
     (V3 (dot (r2 a) (r1 c)) (dot (r2 a) (r2 c)) (dot (r2 a) (r3 c)))
     (V3 (dot (r3 a) (r1 c)) (dot (r3 a) (r2 c)) (dot (r3 a) (r3 c))).
Definition id3 : mat3 := M3 (V3 1 0 0) (V3 0 1 0) (V3 0 0 1).
Definition det3 (a b c : vec3) : R := dot a (cross b c).

(** Proper rotations: the rows form a direct orthonormal basis. *)
Definition rotation (m : mat3) : Prop :=
  dot (r1 m) (r1 m) = 1 /\ dot (r2 m) (r2 m) = 1 /\ dot (r3 m) (r3 m) = 1 /\
  dot (r1 m) (r2 m) = 0 /\ dot (r1 m) (r3 m) = 0 /\ dot (r2 m) (r3 m) = 0 /\ cross (r1 m) (r2 m) = r3 m.

Lemma vec_eq : forall a b, vx a = vx b -> vy a = vy b -> vz a = vz b -> a = b.
Proof. intros [a1 a2 a3] [b1 b2 b3]; cbn; intros -> -> ->; reflexivity. Qed.
Lemma mat_eq : forall a b, r1 a = r1 b -> r2 a = r2 b -> r3 a = r3 b -> a = b.
Proof. intros [a1 a2 a3] [b1 b2 b3]; cbn; intros -> -> ->; reflexivity. Qed.
Ltac vec := unfold mapply, transpose, mmul, id3, det3, dot, cross, vsub, vadd, vopp, vscale, v0 in *; cbn [vx vy vz r1 r2 r3] in *.
Ltac vring := repeat match goal with v : vec3 |- _ => destruct v | m : mat3 |- _ => destruct m end; vec; try (apply vec_eq; cbn [vx vy vz]); ring.

Lemma vadd_0_r : forall a, vadd a v0 = a. Proof. intros; vring. Qed.
Lemma vadd_0_l : forall a, vadd v0 a = a. Proof. intros; vring. Qed.
Lemma vadd_comm : forall a b, vadd a b = vadd b a. Proof. intros; vring. Qed.
Lemma vadd_assoc : forall a b c, vadd a (vadd b c) = vadd (vadd a b) c. Proof. intros; vring. Qed.
Lemma dot_comm : forall a b, dot a b = dot b a. Proof. intros; vring. Qed.
Lemma dot_pos : forall a, 0 <= dot a a.
Proof. intros [x y z]. vec. nra. Qed.
Lemma dot_0 : forall a, dot a a = 0 -> a = v0.
Proof. intros [x y z] H. vec. assert (x = 0) by nra. assert (y = 0) by nra. assert (z = 0) by nra. subst. reflexivity. Qed.
Lemma lagrange : forall a b, dot (cross a b) (cross a b) = dot a a * dot b b - dot a b * dot a b.
Proof. intros; vring. Qed.
Lemma norm_pos : forall a, 0 <= norm a. Proof. intros. apply sqrt_pos. Qed.
Lemma norm_sqr : forall a, norm a * norm a = dot a a. Proof. intros. apply sqrt_sqrt, dot_pos. Qed.
Lemma norm_0 : forall a, norm a = 0 -> a = v0.
Proof. intros a H. apply dot_0. rewrite <- norm_sqr, H. ring. Qed.
Lemma norm_scale : forall k a, norm (vscale k a) = Rabs k * norm a.
Proof.
  intros k a. unfold norm. replace (dot (vscale k a) (vscale k a)) with (Rsqr k * dot a a) by (unfold Rsqr; vring).
  rewrite sqrt_mult; [|apply Rle_0_sqr|apply dot_pos]. rewrite sqrt_Rsqr_abs. reflexivity.
Qed.
Lemma norm_v0 : norm v0 = 0. Proof. unfold norm. replace (dot v0 v0) with 0 by vring. apply sqrt_0. Qed.
Lemma norm_opp : forall a, norm (vopp a) = norm a.
Proof. intros. unfold norm. f_equal. vring. Qed.

(** The columns of a rotation are orthonormal too, and it preserves dot and cross products. *)
Lemma rotation_cofactors : forall m, rotation m -> cross (r2 m) (r3 m) = r1 m /\ cross (r3 m) (r1 m) = r2 m.
Proof.
  intros m (A & B & C & D & E & F & G). split.
  - rewrite <- G. replace (cross (r2 m) (cross (r1 m) (r2 m))) with (vsub (vscale (dot (r2 m) (r2 m)) (r1 m)) (vscale (dot (r1 m) (r2 m)) (r2 m))) by vring. rewrite B, D. vring.
  - rewrite <- G. replace (cross (cross (r1 m) (r2 m)) (r1 m)) with (vsub (vscale (dot (r1 m) (r1 m)) (r2 m)) (vscale (dot (r1 m) (r2 m)) (r1 m))) by vring. rewrite A, D. vring.
Qed.
Lemma rotation_expand : forall m v, rotation m -> vadd (vscale (dot (r1 m) v) (r1 m)) (vadd (vscale (dot (r2 m) v) (r2 m)) (vscale (dot (r3 m) v) (r3 m))) = v.
Proof.
  intros m v H. destruct (rotation_cofactors m H) as [P Q]. destruct H as (A & B & C & D & E & F & G).
  transitivity (vscale (det3 (r1 m) (r2 m) (r3 m)) v).
  - transitivity (vadd (vscale (dot (r1 m) v) (cross (r2 m) (r3 m))) (vadd (vscale (dot (r2 m) v) (cross (r3 m) (r1 m))) (vscale (dot (r3 m) v) (cross (r1 m) (r2 m))))).
    + rewrite P, Q, G. reflexivity.
    + vring.
  - unfold det3. rewrite P, A. vring.
Qed.
Lemma rotation_columns : forall m, rotation m -> rotation (transpose m).
Proof.
  intros m H. pose proof (rotation_expand m (V3 1 0 0) H) as X. pose proof (rotation_expand m (V3 0 1 0) H) as Y. pose proof (rotation_expand m (V3 0 0 1) H) as Z.
  destruct (rotation_cofactors m H) as [P Q]. destruct H as (_ & _ & _ & _ & _ & _ & G).
  destruct m as [[a b c] [d e f] [g h i]]. unfold rotation. vec. injection X as X1 X2 X3. injection Y as Y1 Y2 Y3. injection Z as Z1 Z2 Z3.
  injection P as P1 P2 P3. injection Q as Q1 Q2 Q3. injection G as G1 G2 G3.
  repeat split; try (apply vec_eq; cbn [vx vy vz]); lra.
Qed.
Lemma transpose_involutive : forall m, transpose (transpose m) = m.
Proof. intros [[a b c] [d e f] [g h i]]. reflexivity. Qed.
Lemma transpose_apply : forall m a b, dot (mapply m a) b = dot a (mapply (transpose m) b).
Proof. intros; vring. Qed.
Lemma rotation_dot : forall m a b, rotation m -> dot (mapply m a) (mapply m b) = dot a b.
Proof.
  intros m [x y z] [u v w] H. apply rotation_columns in H. destruct m as [[a b c] [d e f] [g h i]]. destruct H as (A & B & C & D & E & F & _). vec.
  transitivity (x * u * (a * a + d * d + g * g) + y * v * (b * b + e * e + h * h) + z * w * (c * c + f * f + i * i)
    + (x * v + y * u) * (a * b + d * e + g * h) + (x * w + z * u) * (a * c + d * f + g * i) + (y * w + z * v) * (b * c + e * f + h * i)); [ring|].
  rewrite A, B, C, D, E, F. ring.
Qed.
Lemma rotation_inverse : forall m a, rotation m -> mapply (transpose m) (mapply m a) = a.
Proof.
  intros m a H. apply rotation_columns in H. destruct m as [[m1 m2 m3] [m4 m5 m6] [m7 m8 m9]], a as [x y z]. destruct H as (A & B & C & D & E & F & _). vec.
  apply vec_eq; cbn [vx vy vz]; [
  transitivity (x * (m1 * m1 + m4 * m4 + m7 * m7) + y * (m1 * m2 + m4 * m5 + m7 * m8) + z * (m1 * m3 + m4 * m6 + m7 * m9)); [ring|rewrite A, D, E; ring]|
  transitivity (x * (m1 * m2 + m4 * m5 + m7 * m8) + y * (m2 * m2 + m5 * m5 + m8 * m8) + z * (m2 * m3 + m5 * m6 + m8 * m9)); [ring|rewrite B, D, F; ring]|
  transitivity (x * (m1 * m3 + m4 * m6 + m7 * m9) + y * (m2 * m3 + m5 * m6 + m8 * m9) + z * (m3 * m3 + m6 * m6 + m9 * m9)); [ring|rewrite C, E, F; ring]].
Qed.
Lemma rotation_inverse' : forall m a, rotation m -> mapply m (mapply (transpose m) a) = a.
Proof. intros m a H. rewrite <- (transpose_involutive m) at 1. apply rotation_inverse, rotation_columns, H. Qed.
Lemma rotation_cross : forall m a b, rotation m -> mapply m (cross a b) = cross (mapply m a) (mapply m b).
Proof.
  intros m a b H. pose proof H as (A & B & C & D & E & F & G).
  destruct (rotation_cofactors m H) as [G2 G3].
  transitivity (V3 (dot (cross (r2 m) (r3 m)) (cross a b)) (dot (cross (r3 m) (r1 m)) (cross a b)) (dot (cross (r1 m) (r2 m)) (cross a b))).
  - rewrite G, G2, G3. reflexivity.
  - clear. vring.
Qed.
Lemma rotation_norm : forall m a, rotation m -> norm (mapply m a) = norm a.
Proof. intros m a H. unfold norm. rewrite rotation_dot by exact H. reflexivity. Qed.
Lemma rotation_id : rotation id3.
Proof. unfold rotation. vec. repeat split; try (apply vec_eq; cbn [vx vy vz]); ring. Qed.
(** Rotation about the vertical axis. *)
Definition rotz (a : R) : mat3 := M3 (V3 (cos a) (- sin a) 0) (V3 (sin a) (cos a) 0) (V3 0 0 1).
Lemma rotz_rotation : forall a, rotation (rotz a).
Proof. intros a. pose proof (sin2_cos2 a) as H. unfold Rsqr in H. unfold rotation, rotz. vec. repeat split; try (apply vec_eq; cbn [vx vy vz]); lra. Qed.

(** Rotation matrix of a quaternion (Eigen::Quaternion::matrix). *)
Definition qmat (a b c d : R) : mat3 :=
  M3 (V3 (1 - 2 * (c * c + d * d)) (2 * (b * c - a * d)) (2 * (b * d + a * c)))
     (V3 (2 * (b * c + a * d)) (1 - 2 * (b * b + d * d)) (2 * (c * d - a * b)))
     (V3 (2 * (b * d - a * c)) (2 * (c * d + a * b)) (1 - 2 * (b * b + c * c))).
Lemma qmat_rotation : forall a b c d, a * a + b * b + c * c + d * d = 1 -> rotation (qmat a b c d).
Proof.
  intros a b c d H. assert (a * a = 1 - b * b - c * c - d * d) as Ha by lra.
  unfold rotation, qmat. vec. repeat split; try (apply vec_eq; cbn [vx vy vz]); ring [Ha].
Qed.

(** Rigid displacement: coordinates of a point in the first frame from those in the second. *)
Record transform : Type := mkT { t_rot : mat3; t_point : vec3 }.
Definition tapply (T : transform) (p : vec3) : vec3 := vadd (t_point T) (mapply (t_rot T) p).
Lemma mapply_add : forall m a b, mapply m (vadd a b) = vadd (mapply m a) (mapply m b). Proof. intros; vring. Qed.
Lemma mapply_sub : forall m a b, mapply m (vsub a b) = vsub (mapply m a) (mapply m b). Proof. intros; vring. Qed.
Lemma mapply_scale : forall m k a, mapply m (vscale k a) = vscale k (mapply m a). Proof. intros; vring. Qed.
Lemma mapply_id : forall a, mapply id3 a = a. Proof. intros; vring. Qed.
Lemma vsum_app : forall l m, vsum (l ++ m) = vadd (vsum l) (vsum m).
Proof. induction l; intros; cbn [app vsum fold_right]; [rewrite vadd_0_l; reflexivity|]. fold (vsum (l ++ m)). fold (vsum l). rewrite IHl. apply vadd_assoc. Qed.
