(** Elementary waves are linear flows, and linear flows can be added. *)
From Coq Require Import Reals List Bool ZArith Lra Lia.
From Coquelicot Require Import Coquelicot.
From Verif Require Import Common Wave_Model Wave_Spec Wave_Proofs Wave_Flat_Proofs Wave_Airy_Proofs Wave_Flow_Spec Wave_Surface_Props.
Import ListNotations.
Open Scope R_scope.

Definition fzero : field := fun _ _ _ _ => 0.
Definition fplus (a b : field) : field := fun x y z t => a x y z t + b x y z t.
Lemma lim0 : forall x, derivable_pt_lim (fun _ : R => 0) x 0.
Proof. intros x. apply (derivable_pt_lim_const 0 x). Qed.
Lemma limplus : forall f g x a b, derivable_pt_lim f x a -> derivable_pt_lim g x b -> derivable_pt_lim (fun s => f s + g s) x (a + b).
Proof. intros f g x a b F G. exact (derivable_pt_lim_plus f g x a b F G). Qed.

Lemma divergence_free_zero : divergence_free fzero fzero fzero.
Proof. intros x y z t. exists 0, 0, 0. repeat split; try apply lim0. lra. Qed.
Lemma divergence_free_plus : forall u v w u' v' w', divergence_free u v w -> divergence_free u' v' w' ->
  divergence_free (fplus u u') (fplus v v') (fplus w w').
Proof.
  intros u v w u' v' w' H H' x y z t. destruct (H x y z t) as (a & b & c & A & B & C & E). destruct (H' x y z t) as (a' & b' & c' & A' & B' & C' & E').
  exists (a + a'), (b + b'), (c + c'). unfold d_dx, d_dy, d_dz, fplus. repeat split; try (apply limplus; assumption). lra.
Qed.
Lemma irrotational_zero : irrotational fzero fzero fzero.
Proof. intros x y z t. exists 0, 0, 0, 0, 0, 0. repeat split; apply lim0. Qed.
Lemma irrotational_plus : forall u v w u' v' w', irrotational u v w -> irrotational u' v' w' ->
  irrotational (fplus u u') (fplus v v') (fplus w w').
Proof.
  intros u v w u' v' w' H H' x y z t. destruct (H x y z t) as (a & b & c & d & e & f & A & B & C & D & E & F & G1 & G2 & G3).
  destruct (H' x y z t) as (a' & b' & c' & d' & e' & f' & A' & B' & C' & D' & E' & F' & G1' & G2' & G3').
  exists (a + a'), (b + b'), (c + c'), (d + d'), (e + e'), (f + f'). unfold d_dx, d_dy, d_dz, fplus. repeat split; try (apply limplus; assumption); lra.
Qed.
Lemma linear_momentum_zero : forall rho, linear_momentum rho fzero fzero fzero fzero.
Proof. intros rho x y z t. exists 0, 0, 0, 0, 0, 0. repeat split; try apply lim0; lra. Qed.
Lemma linear_momentum_plus : forall rho u v w p u' v' w' p', linear_momentum rho u v w p -> linear_momentum rho u' v' w' p' ->
  linear_momentum rho (fplus u u') (fplus v v') (fplus w w') (fplus p p').
Proof.
  intros rho u v w p u' v' w' p' H H' x y z t. destruct (H x y z t) as (a & b & c & d & e & f & A & B & C & D & E & F & G1 & G2 & G3).
  destruct (H' x y z t) as (a' & b' & c' & d' & e' & f' & A' & B' & C' & D' & E' & F' & G1' & G2' & G3').
  exists (a + a'), (b + b'), (c + c'), (d + d'), (e + e'), (f + f'). unfold d_dx, d_dy, d_dz, d_dt, fplus. repeat split; try (apply limplus; assumption); lra.
Qed.
Lemma kinematic_plus : forall w e w' e', kinematic_condition w e -> kinematic_condition w' e' ->
  kinematic_condition (fplus w w') (fun x y t => e x y t + e' x y t).
Proof. intros w e w' e' H H' x y t. unfold fplus. apply (limplus (fun s => e x y s) (fun s => e' x y s)); auto. Qed.
Lemma kinematic_zero : kinematic_condition fzero (fun _ _ _ => 0).
Proof. intros x y t. apply lim0. Qed.

(** ** One component *)
Section One.
Variables (g rho : R) (c : component R) (F G : R -> R).
Hypothesis dF : forall z, is_derive F z (- c_k c * G z).
Hypothesis dG : forall z, is_derive G z (- c_k c * F z).
Hypothesis w0 : c_omega c <> 0.
Definition th (x y t : R) := wangle (wave_of c) x y t.
Definition eu : field := fun x y z t => g * (ako c * F z * sin (th x y t) * cos (c_psi c)).
Definition ev : field := fun x y z t => g * (ako c * F z * sin (th x y t) * sin (c_psi c)).
Definition ew : field := fun x y z t => g * (ako c * G z * cos (th x y t)).
Definition ep : field := fun x y z t => rho * g * (c_a c * F z * sin (th x y t)).
Lemma th_x : forall x y t, is_derive (fun s => th s y t) x (c_k c * cos (c_psi c)).
Proof. intros. unfold th, wangle, wave_of. cbn [ww wk wpsi wph]. auto_derive; [auto|ring]. Qed.
Lemma th_y : forall x y t, is_derive (fun s => th x s t) y (c_k c * sin (c_psi c)).
Proof. intros. unfold th, wangle, wave_of. cbn [ww wk wpsi wph]. auto_derive; [auto|ring]. Qed.
Lemma th_t : forall x y t, is_derive (fun s => th x y s) t (- c_omega c).
Proof. intros. unfold th, wangle, wave_of. cbn [ww wk wpsi wph]. auto_derive; [auto|ring]. Qed.
Lemma sin_of : forall (f : R -> R) (x d K : R), is_derive f x d -> is_derive (fun s => K * sin (f s)) x (K * (d * cos (f x))).
Proof. intros f x d K H. assert (ex_derive f x) by (exists d; exact H). auto_derive; [auto|]. change (Derive (fun x0 => f x0) x) with (Derive f x). rewrite (is_derive_unique _ _ _ H). ring. Qed.
Lemma cos_of : forall (f : R -> R) (x d K : R), is_derive f x d -> is_derive (fun s => K * cos (f s)) x (- K * (d * sin (f x))).
Proof. intros f x d K H. assert (ex_derive f x) by (exists d; exact H). auto_derive; [auto|]. change (Derive (fun x0 => f x0) x) with (Derive f x). rewrite (is_derive_unique _ _ _ H). ring. Qed.
Lemma scaled : forall (f : R -> R) (x d K : R), is_derive f x d -> is_derive (fun s => K * f s) x (K * d).
Proof. intros f x d K H. assert (ex_derive f x) by (exists d; exact H). auto_derive; [auto|]. change (Derive (fun x0 => f x0) x) with (Derive f x). rewrite (is_derive_unique _ _ _ H). ring. Qed.
Lemma ext_lim : forall (f h : R -> R) (x d d' : R), is_derive h x d' -> (forall s, f s = h s) -> d = d' -> derivable_pt_lim f x d.
Proof. intros f h x d d' H E ->. apply is_derive_Reals. apply (is_derive_ext h f); [intros; symmetry; apply E|exact H]. Qed.

Definition K1 (z : R) := g * ako c * F z * cos (c_psi c).
Definition K2 (z : R) := g * ako c * F z * sin (c_psi c).
Definition K3 (z : R) := g * ako c * G z.
Definition Kp (z : R) := rho * g * c_a c * F z.
Lemma elementary_divergence : divergence_free eu ev ew.
Proof.
  intros x y z t. exists (K1 z * (c_k c * cos (c_psi c) * cos (th x y t))), (K2 z * (c_k c * sin (c_psi c) * cos (th x y t))), (g * ako c * cos (th x y t) * (- c_k c * F z)).
  unfold d_dx, d_dy, d_dz, eu, ev, ew. repeat split.
  - eapply ext_lim; [eapply (sin_of (fun s => th s y t) _ _ (K1 z)), th_x|intros; unfold K1; ring|unfold K1; ring].
  - eapply ext_lim; [eapply (sin_of (fun s => th x s t) _ _ (K2 z)), th_y|intros; unfold K2; ring|unfold K2; ring].
  - eapply ext_lim; [eapply (scaled G _ _ (g * ako c * cos (th x y t))), dG|intros; cbv beta; ring|cbv beta; ring].
  - unfold K1, K2. pose proof (sin2_cos2 (c_psi c)) as T. unfold Rsqr in T.
    transitivity (g * ako c * F z * c_k c * cos (th x y t) * (sin (c_psi c) * sin (c_psi c) + cos (c_psi c) * cos (c_psi c) - 1)); [ring|rewrite T; ring].
Qed.
Lemma elementary_rotation : irrotational eu ev ew.
Proof.
  intros x y z t.
  exists (K1 z * (c_k c * sin (c_psi c) * cos (th x y t))), (g * ako c * sin (th x y t) * cos (c_psi c) * (- c_k c * G z)),
         (K2 z * (c_k c * cos (c_psi c) * cos (th x y t))), (g * ako c * sin (th x y t) * sin (c_psi c) * (- c_k c * G z)),
         (- K3 z * (c_k c * cos (c_psi c) * sin (th x y t))), (- K3 z * (c_k c * sin (c_psi c) * sin (th x y t))).
  unfold d_dx, d_dy, d_dz, eu, ev, ew. repeat split.
  - eapply ext_lim; [eapply (sin_of (fun s => th x s t) _ _ (K1 z)), th_y|intros; unfold K1; ring|unfold K1; ring].
  - eapply ext_lim; [eapply (scaled F _ _ (g * ako c * sin (th x y t) * cos (c_psi c))), dF|intros; cbv beta; ring|cbv beta; ring].
  - eapply ext_lim; [eapply (sin_of (fun s => th s y t) _ _ (K2 z)), th_x|intros; unfold K2; ring|unfold K2; ring].
  - eapply ext_lim; [eapply (scaled F _ _ (g * ako c * sin (th x y t) * sin (c_psi c))), dF|intros; cbv beta; ring|cbv beta; ring].
  - eapply ext_lim; [eapply (cos_of (fun s => th s y t) _ _ (K3 z)), th_x|intros; unfold K3; ring|unfold K3; ring].
  - eapply ext_lim; [eapply (cos_of (fun s => th x s t) _ _ (K3 z)), th_y|intros; unfold K3; ring|unfold K3; ring].
  - unfold K1, K2. ring.
  - unfold K3. ring.
  - unfold K3. ring.
Qed.
Lemma elementary_momentum : linear_momentum rho eu ev ew ep.
Proof.
  intros x y z t.
  exists (K1 z * (- c_omega c * cos (th x y t))), (K2 z * (- c_omega c * cos (th x y t))), (- K3 z * (- c_omega c * sin (th x y t))),
    (Kp z * (c_k c * cos (c_psi c) * cos (th x y t))), (Kp z * (c_k c * sin (c_psi c) * cos (th x y t))), (rho * g * c_a c * sin (th x y t) * (- c_k c * G z)).
  unfold d_dx, d_dy, d_dz, d_dt, eu, ev, ew, ep. repeat split.
  - eapply ext_lim; [eapply (sin_of (fun s => th x y s) _ _ (K1 z)), th_t|intros; unfold K1; ring|unfold K1; ring].
  - eapply ext_lim; [eapply (sin_of (fun s => th x y s) _ _ (K2 z)), th_t|intros; unfold K2; ring|unfold K2; ring].
  - eapply ext_lim; [eapply (cos_of (fun s => th x y s) _ _ (K3 z)), th_t|intros; unfold K3; ring|unfold K3; ring].
  - eapply ext_lim; [eapply (sin_of (fun s => th s y t) _ _ (Kp z)), th_x|intros; unfold Kp; ring|unfold Kp; ring].
  - eapply ext_lim; [eapply (sin_of (fun s => th x s t) _ _ (Kp z)), th_y|intros; unfold Kp; ring|unfold Kp; ring].
  - eapply ext_lim; [eapply (scaled F _ _ (rho * g * c_a c * sin (th x y t))), dF|intros; cbv beta; ring|cbv beta; ring].
  - unfold K1, Kp, ako. field. exact w0.
  - unfold K2, Kp, ako. field. exact w0.
  - unfold K3, ako. field. exact w0.
Qed.
Lemma elementary_kinematic : c_omega c * c_omega c = g * c_k c * G 0 -> kinematic_condition ew (fun x y t => weta (wave_of c) x y t).
Proof.
  intros D x y t. unfold ew, weta. eapply ext_lim; [eapply (sin_of (fun s => th x y s) t (- c_omega c) (- c_a c)), th_t|intros; unfold th, wave_of; cbn [wa]; ring|].
  unfold ako. transitivity (c_a c / c_omega c * cos (th x y t) * (g * c_k c * G 0)); [field; exact w0|]. rewrite <- D. field. exact w0.
Qed.
End One.
