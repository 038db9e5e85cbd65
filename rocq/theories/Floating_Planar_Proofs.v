(** Planar polygons: the cone from the origin does not depend on the first vertex, and has a non-null area for pieces of triangles and for convex lids. *)
From Coq Require Import Reals List Arith Lra Lia Permutation.
From Verif Require Import Common Geometry Hull_Model Hull_Spec Hull_Proofs Hull_Archimedes_Proofs Hull_Force_Props Mesh_Spec Closing_Spec Closing_Contour_Proofs Closing_Contour_Props Triangle_Proofs Lid_Groups_Proofs Lid_Build_Proofs
  Floating_Spec Floating_Geometry_Proofs.
Import ListNotations.
Open Scope R_scope.

Definition planar (n : vec3) (d : R) (l : list vec3) : Prop := dot n n = 1 /\ forall p, In p l -> dot n p = d.
Lemma planar_triangle : forall n d l a b c, planar n d l -> In (a, b, c) (triangles l) -> det3 a b c = d * dot n (cross (vsub b a) (vsub c a)).
Proof.
  intros n d l a b c (Hn & D) I. apply triangles_In in I as (Ia & Ib & Ic). rewrite det3_triangle.
  assert (Hb : dot n (vsub b a) = 0) by (replace (dot n (vsub b a)) with (dot n b - dot n a) by (clear; vring); rewrite !D by assumption; ring).
  assert (Hc : dot n (vsub c a) = 0) by (replace (dot n (vsub c a)) with (dot n c - dot n a) by (clear; vring); rewrite !D by assumption; ring).
  pose proof (normal_parallel _ _ _ Hn Hb Hc) as E. apply (f_equal (dot a)) in E. rewrite dot_scale_r, (dot_comm a n), (D a Ia) in E. rewrite E. ring.
Qed.
Lemma planar_volume : forall n d l, planar n d l -> Rsum (map tetrahedron (triangles l)) = d / 3 * Rsum (map (on_edge (cross_edge n)) (cycle l)).
Proof.
  intros n d l P. rewrite <- telescope, <- Rsum_scale by apply cross_edge_anti. apply Rsum_map_ext. intros [[a b] c] I. unfold tetrahedron. rewrite (planar_triangle n d l a b c P I).
  rewrite <- tarea_boundary. unfold tarea. field.
Qed.
Lemma planar_moment : forall n d l r, planar n d l -> Rsum (map (fun t => dot r (tetrahedron_moment t)) (triangles l)) = d / 4 * Rsum (map (on_edge (moment_edge n r d)) (cycle l)).
Proof.
  intros n d l r P. rewrite <- telescope, <- Rsum_scale by apply moment_edge_anti. apply Rsum_map_ext. intros [[a b] c] I. pose proof (planar_triangle n d l a b c P I) as V.
  pose proof (archimedes_triangle r a b c) as A. apply (f_equal (dot n)) in A. rewrite first_moment_shape, first_moment_expand, V, dot_scale_r in A.
  unfold boundary3, moment_edge. rewrite cross_triangle in A, V.
  transitivity (d / 4 * (/ 2 * (dot n (cross a b) + dot n (cross b c) + dot n (cross c a)) / 3 * dot r (vadd (vadd a b) c))).
  - unfold tetrahedron_moment. rewrite V, !dot_scale_r. replace (dot r (vadd a (vadd b c))) with (dot r (vadd (vadd a b) c)) by (clear; vring). field.
  - rewrite A. field.
Qed.
Lemma planar_rotated : forall n d l l', planar n d l -> rotated l l' -> planar n d l'.
Proof. intros n d l l' (Hn & D) (a & b & -> & ->). split; [exact Hn|]. intros p Hp. apply D. apply in_app_or in Hp. apply in_or_app. tauto. Qed.
Lemma rotated_volume : forall n d l l', planar n d l -> rotated l l' -> Rsum (map tetrahedron (triangles l')) = Rsum (map tetrahedron (triangles l)) /\
  vsum (map tetrahedron_moment (triangles l')) = vsum (map tetrahedron_moment (triangles l)).
Proof.
  intros n d l l' P R1. pose proof (planar_rotated _ _ _ _ P R1) as P'. assert (PC : Permutation (cycle l') (cycle l)) by (rewrite !cycle_pairs; apply Permutation_sym, cyclic_perm, R1). split.
  - rewrite (planar_volume n d l' P'), (planar_volume n d l P). f_equal. apply Rsum_perm, Permutation_map, PC.
  - apply vec_dot_eq. intros r. rewrite !dot_vsum, !map_map, (planar_moment n d l' r P'), (planar_moment n d l r P). f_equal. apply Rsum_perm, Permutation_map, PC.
Qed.
Definition twice_area (n : vec3) (l : list vec3) : R := Rsum (map (fun t => dot n (vector_area t)) (triangles l)).
Lemma twice_area_cycle : forall n l, twice_area n l = 2 * Rsum (map (on_edge (cross_edge n)) (cycle l)).
Proof.
  intros n l. unfold twice_area. rewrite <- telescope, <- Rsum_scale by apply cross_edge_anti. apply Rsum_map_ext. intros [[a b] c] _. rewrite <- tarea_boundary. unfold tarea, vector_area. field.
Qed.
Lemma twice_area_rotated : forall n l l', rotated l l' -> twice_area n l' = twice_area n l.
Proof. intros n l l' R1. rewrite !twice_area_cycle. f_equal. apply Rsum_perm, Permutation_map. rewrite !cycle_pairs. apply Permutation_sym, cyclic_perm, R1. Qed.

(** ** Wet parts of triangles *)
Section Wet.
  Variable im : vec3 -> R.
  Lemma wet_in_plane : forall n d A B C, planar n d [A; B; C] -> planar n d (wet im [A; B; C]).
  Proof.
    intros n d A B C (Hn & D). split; [exact Hn|].
    assert (DA : dot n A = d) by (apply D; cbn; auto). assert (DB : dot n B = d) by (apply D; cbn; auto). assert (DC : dot n C = d) by (apply D; cbn; auto).
    assert (K : forall P x p, dot n P = d -> In p (keep 1 P x) -> dot n p = d) by (intros P x p DP H; unfold keep in H; destruct (Rle_dec 0 (1 * x)); [destruct H as [<-|[]]; exact DP|destruct H]).
    assert (X : forall P x Q y p, dot n P = d -> dot n Q = d -> In p (xing P x Q y) -> dot n p = d).
    { intros P x Q y p DP DQ H. unfold xing in H. destruct (Rlt_dec (x * y) 0) as [L|]; [|destruct H]. destruct H as [<-|[]]. unfold cut. cbn [fst snd].
      replace (dot n (vadd P (vscale (x / (x - y)) (vsub Q P)))) with (dot n P + x / (x - y) * (dot n Q - dot n P)) by (generalize (x / (x - y)); clear; intros; vring). rewrite DP, DQ. ring. }
    intros p Hp. rewrite wet3 in Hp. repeat (apply in_app_or in Hp as [Hp|Hp]); eauto.
  Qed.
  Ltac wets := repeat first [rewrite keep_im by lra|rewrite drop_im by lra|rewrite xing_no by lra|rewrite xing_yes by lra].
  Lemma frac : forall x y, (0 < x /\ y < 0) \/ (x < 0 /\ 0 < y) -> 0 < x / (x - y) < 1.
  Proof.
    intros x y [H|H].
    - split; [apply Rdiv_lt_0_compat; lra|]. apply (Rmult_lt_reg_r (x - y)); [lra|]. unfold Rdiv. rewrite Rmult_assoc, Rinv_l by lra. lra.
    - replace (x / (x - y)) with (- x / (y - x)) by (field; lra). split; [apply Rdiv_lt_0_compat; lra|]. apply (Rmult_lt_reg_r (y - x)); [lra|]. unfold Rdiv. rewrite Rmult_assoc, Rinv_l by lra. lra.
  Qed.
  (** The wet part of a triangle has a positive fraction of its area. *)
  Lemma wet_area : forall n A B C, im A <> 0 -> im B <> 0 -> im C <> 0 -> wet im [A; B; C] <> [] -> exists k, 0 < k /\ twice_area n (wet im [A; B; C]) = k * dot n (cross (vsub B A) (vsub C A)).
  Proof.
    intros n A B C NA NB NC W. assert (SA : im A < 0 \/ 0 < im A) by lra. assert (SB : im B < 0 \/ 0 < im B) by lra. assert (SC : im C < 0 \/ 0 < im C) by lra.
    pose proof (frac (im A) (im B)) as FAB. pose proof (frac (im B) (im C)) as FBC. pose proof (frac (im C) (im A)) as FCA.
    rewrite wet3 in *. destruct SA as [SA|SA], SB as [SB|SB], SC as [SC|SC].
    all: repeat first [rewrite keep_im in * by lra|rewrite drop_im in * by lra|rewrite xing_no in * by lra|rewrite xing_yes in * by lra].
    all: cbn [app] in *.
    - exfalso. apply W. reflexivity.
    - (* C *) specialize (FBC ltac:(lra)). specialize (FCA ltac:(lra)). unfold twice_area, cut. cbn [triangles triangles_from map fst snd vector_area]. unfold Rsum. cbn [fold_right].
      revert FBC FCA. generalize (im B / (im B - im C)) (im C / (im C - im A)). intros s t Hs Ht. exists ((1 - s) * t). split; [apply Rmult_lt_0_compat; lra|]. clear. vring.
    - (* B *) specialize (FAB ltac:(lra)). specialize (FBC ltac:(lra)). unfold twice_area, cut. cbn [triangles triangles_from map fst snd vector_area]. unfold Rsum. cbn [fold_right].
      revert FAB FBC. generalize (im A / (im A - im B)) (im B / (im B - im C)). intros s t Hs Ht. exists ((1 - s) * t). split; [apply Rmult_lt_0_compat; lra|]. clear. vring.
    - (* B, C *) specialize (FAB ltac:(lra)). specialize (FCA ltac:(lra)). unfold twice_area, cut. cbn [triangles triangles_from map fst snd vector_area]. unfold Rsum. cbn [fold_right].
      revert FAB FCA. generalize (im A / (im A - im B)) (im C / (im C - im A)). intros s t Hs Ht. exists (1 - s * (1 - t)). split; [nra|]. clear. vring.
    - (* A *) specialize (FAB ltac:(lra)). specialize (FCA ltac:(lra)). unfold twice_area, cut. cbn [triangles triangles_from map fst snd vector_area]. unfold Rsum. cbn [fold_right].
      revert FAB FCA. generalize (im A / (im A - im B)) (im C / (im C - im A)). intros s t Hs Ht. exists (s * (1 - t)). split; [apply Rmult_lt_0_compat; lra|]. clear. vring.
    - (* A, C *) specialize (FAB ltac:(lra)). specialize (FBC ltac:(lra)). unfold twice_area, cut. cbn [triangles triangles_from map fst snd vector_area]. unfold Rsum. cbn [fold_right].
      revert FAB FBC. generalize (im A / (im A - im B)) (im B / (im B - im C)). intros s t Hs Ht. exists (1 - (1 - s) * t). split; [nra|]. clear. vring.
    - (* A, B *) specialize (FBC ltac:(lra)). specialize (FCA ltac:(lra)). unfold twice_area, cut. cbn [triangles triangles_from map fst snd vector_area]. unfold Rsum. cbn [fold_right].
      revert FBC FCA. generalize (im B / (im B - im C)) (im C / (im C - im A)). intros s t Hs Ht. exists (1 - (1 - s) * t). split; [nra|]. clear. vring.
    - exists 1. split; [lra|]. unfold twice_area. cbn [triangles triangles_from map vector_area]. unfold Rsum. cbn [fold_right]. ring.
  Qed.
End Wet.

(** ** Lids *)
Lemma fan_edge : forall p t q r, In (q, r) (cycle (p :: t)) -> q = p \/ r = p \/ In (p, q, r) (triangles (p :: t)).
Proof.
  intros p t q r H. destruct t as [|a t]; [destruct H as [H|[]]; injection H as <- <-; auto|]. cbn [cycle path] in H. cbn [triangles].
  destruct H as [H|H]; [injection H as <- <-; auto|]. right. revert a H. induction t as [|b t IH]; intros a H; cbn [path triangles_from In] in *.
  - destruct H as [H|[]]. injection H as <- <-. auto.
  - destruct H as [H|H]; [injection H as <- <-; right; left; reflexivity|]. destruct (IH b H) as [E|E]; [left; exact E|right; right; exact E].
Qed.
Lemma Rsum_zero_nonneg : forall {A} (f : A -> R) l, (forall x, In x l -> 0 <= f x) -> Rsum (map f l) = 0 -> forall x, In x l -> f x = 0.
Proof.
  intros A f l. induction l as [|a l IH]; intros H S x Hx; [destruct Hx|]. unfold Rsum in S. cbn [map fold_right] in S. fold (Rsum (map f l)) in S.
  assert (NS : 0 <= Rsum (map f l)). { clear - H. unfold Rsum. induction l as [|b l IH]; cbn [map fold_right]; [lra|]. pose proof (H b (or_intror (or_introl eq_refl))). assert (0 <= fold_right Rplus 0 (map f l)); [apply IH; intros y [<-|Hy]; apply H; cbn; auto|lra]. }
  pose proof (H a (or_introl eq_refl)). destruct Hx as [<-|Hx]; [lra|]. apply IH; [intros y Hy; apply H; right; exact Hy|lra|exact Hx].
Qed.
Lemma flat_convex_aligned : forall n l, convex n l -> twice_area n l = 0 -> forall p q r, In p l -> In (q, r) (cycle l) -> dot n (cross (vsub r q) (vsub p q)) = 0.
Proof.
  intros n l CV Z p q r Hp He. apply in_split in Hp as (a & b & E). set (l' := p :: b ++ a). assert (R1 : rotated l l') by (exists a, (p :: b); split; [exact E|reflexivity]).
  assert (CV' : convex n l') by (apply (convex_rotated n l); assumption). rewrite <- (twice_area_rotated n l l' R1) in Z.
  assert (He' : In (q, r) (cycle l')). { rewrite cycle_pairs in *. apply (Permutation_in _ (cyclic_perm _ _ R1)). exact He. }
  destruct (fan_edge p (b ++ a) q r He') as [->|[->|I]]; [vring|vring|]. unfold twice_area in Z. fold l' in I.
  assert (NN : forall t, In t (triangles l') -> 0 <= dot n (vector_area t)) by (intros [[x y] z] Ht; exact (proj1 (convex_triangle n l' x y z CV' Ht))).
  pose proof (Rsum_zero_nonneg _ _ NN Z _ I) as Q.
  cbv beta in Q. unfold vector_area in Q. rewrite <- Q. clear. vring.
Qed.
Lemma lid_area : forall r d l, planar r d l -> (3 <= length l)%nat -> convex (V3 0 0 (-1)) (map flat l) -> resolved l -> twice_area r l <> 0.
Proof.
  intros r d l (Hr & D) L3 CV (_ & RS) Z.
  assert (VA : forall t, In t (triangles l) -> vector_area t = vscale (dot r (vector_area t)) r).
  { intros [[a b] c] I. apply triangles_In in I as (Ia & Ib & Ic). unfold vector_area. apply normal_parallel; [exact Hr| |].
    - replace (dot r (vsub b a)) with (dot r b - dot r a) by (clear; vring). rewrite !D by assumption. ring.
    - replace (dot r (vsub c a)) with (dot r c - dot r a) by (clear; vring). rewrite !D by assumption. ring. }
  assert (ZF : twice_area (V3 0 0 (-1)) (map flat l) = 0).
  { unfold twice_area. assert (TF : triangles (map flat l) = map (fun '(a, b, c) => (flat a, flat b, flat c)) (triangles l)).
    { assert (G : forall t p0 p, triangles_from (flat p0) (flat p) (map flat t) = map (fun '(a, b, c) => (flat a, flat b, flat c)) (triangles_from p0 p t)) by (induction t; intros; cbn; [reflexivity|f_equal; apply IHt]).
      destruct l as [|p0 [|p t]]; try reflexivity. exact (G t p0 p). }
    rewrite TF, map_map. rewrite (Rsum_map_ext _ (fun t => - vz r * dot r (vector_area t))).
    - rewrite Rsum_scale. unfold twice_area in Z. rewrite Z. ring.
    - intros [[a b] c] I. pose proof (f_equal vz (VA _ I)) as Q. unfold vscale in Q. cbn [vz] in Q. transitivity (- vz (vector_area (a, b, c))); [|rewrite Q at 1; ring].
      unfold vector_area, flat. clear. vring. }
  pose proof (flat_convex_aligned _ _ CV ZF) as AL. destruct l as [|p0 t] eqn:EL; [cbn in L3; lia|]. rewrite <- EL in *.
  assert (HE : exists e, In e (cyclic_pairs l)). { pose proof (cyclic_length l) as Q. destruct (cyclic_pairs l) as [|e es]; [rewrite EL in Q; discriminate Q|]. exists e. left. reflexivity. }
  destruct HE as (e & He). destruct (RS e He) as (f & Hf & NT). apply NT.
  assert (IE : In (flat (fst e), flat (snd e)) (cycle (map flat l))). { rewrite cycle_pairs, cyclic_map. apply (in_map (fun e => (flat (fst e), flat (snd e)))) in He. exact He. }
  assert (N : In (fst f) l /\ In (snd f) l). { split; [rewrite <- (cyclic_fst' l); apply in_map; exact Hf|]. apply (in_map snd) in Hf. rewrite cyclic_snd' in Hf. rewrite EL in *. apply in_app_or in Hf as [Hf|[Hf|[]]]; [right|left]; exact Hf. }
  pose proof (AL (flat (fst f)) _ _ (in_map flat _ _ (proj1 N)) IE) as Q1. pose proof (AL (flat (snd f)) _ _ (in_map flat _ _ (proj2 N)) IE) as Q2.
  revert Q1 Q2. unfold turn, flat, dot, cross, vsub. destruct e as [[? ? ?] [? ? ?]], f as [[? ? ?] [? ? ?]]. cbn. intros. lra.
Qed.
