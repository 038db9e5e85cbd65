(** Properties C48 (mirror of the response amplitude operators) and C82 (diffraction force). *)
From Coq Require Import Reals List Bool Lra Lia ZArith.
From Verif Require Import Common Geometry Sim_Model Force_Model Force_Spec Force_Props Wave_Model Wave_Proofs Hdb_Model.
Import ListNotations.
Open Scope R_scope.

Lemma Rltb_dec : forall x y, Rltb x y = true /\ x < y \/ Rltb x y = false /\ y <= x.
Proof. intros x y. destruct (Rlt_le_dec x y) as [H|H]; [left|right]; (split; [|exact H]); [apply Rltb_t|apply Rltb_f]; exact H. Qed.

(** ** Reduction of the incidence *)
Lemma Int_part_unique : forall r (n : Z), IZR n <= r -> r < IZR n + 1 -> Int_part r = n.
Proof.
  intros r n H1 H2. destruct (base_Int_part r) as [B1 B2]. assert (IZR (Int_part r) < IZR (n + 1)) by (rewrite plus_IZR; lra). assert (IZR n < IZR (Int_part r + 1)) by (rewrite plus_IZR; lra).
  apply lt_IZR in H. apply lt_IZR in H0. lia.
Qed.
Lemma reduce_spec : forall beta, 0 <= reduce beta < 2 * PI /\ exists n, reduce beta = beta - 2 * PI * IZR n.
Proof.
  intros beta. pose proof PI_RGT_0 as P. unfold reduce. destruct (base_Int_part (beta / (2 * PI))) as [B1 B2]. set (n := Int_part (beta / (2 * PI))) in *. split; [|exists n; reflexivity].
  assert (beta = 2 * PI * (beta / (2 * PI))) as E by (field; lra). split; [|].
  - rewrite E at 1. apply (Rmult_le_compat_l (2 * PI)) in B1; lra.
  - assert (beta / (2 * PI) < IZR n + 1) as H by lra. apply (Rmult_lt_compat_l (2 * PI)) in H; lra.
Qed.
Lemma reduce_unique : forall beta x n, 0 <= x < 2 * PI -> x = beta - 2 * PI * IZR n -> reduce beta = x.
Proof.
  intros beta x n H E. pose proof PI_RGT_0 as P. unfold reduce. rewrite (Int_part_unique _ n).
  - symmetry. exact E.
  - apply Rmult_le_reg_l with (2 * PI); [lra|]. replace (2 * PI * (beta / (2 * PI))) with beta by (field; lra). lra.
  - apply Rmult_lt_reg_l with (2 * PI); [lra|]. replace (2 * PI * (beta / (2 * PI))) with beta by (field; lra). lra.
Qed.
Lemma reduce_periodic : forall beta n, reduce (beta + 2 * PI * IZR n) = reduce beta.
Proof.
  intros beta n. destruct (reduce_spec beta) as [B [m E]]. apply reduce_unique with (n := (m + n)%Z); [exact B|]. rewrite plus_IZR, E. ring.
Qed.
Lemma reduce_id : forall beta, 0 <= beta < 2 * PI -> reduce beta = beta.
Proof. intros beta H. apply reduce_unique with (n := 0%Z); [exact H|]. ring. Qed.
Lemma reduce_opp : forall beta, reduce beta = 0 /\ reduce (- beta) = 0 \/ reduce beta <> 0 /\ reduce (- beta) = 2 * PI - reduce beta.
Proof.
  intros beta. destruct (reduce_spec beta) as [B [m E]]. destruct (Req_dec (reduce beta) 0) as [H|H]; [left|right]; (split; [exact H|]).
  - apply reduce_unique with (n := (- m)%Z); [pose proof PI_RGT_0; lra|]. rewrite opp_IZR. lra.
  - apply reduce_unique with (n := (- m - 1)%Z); [lra|]. rewrite minus_IZR, opp_IZR. lra.
Qed.

Lemma nth_map : forall (A B : Type) (f : A -> B) l i d d', (i < List.length l)%nat -> nth i (map f l) d = f (nth i l d').
Proof. intros A B f l i d d' H. rewrite (nth_indep _ d (f d')) by (rewrite map_length; exact H). apply map_nth. Qed.

(** ** C48 *)
(** Sway, roll and yaw change sign in a mirror whose plane is the plane of symmetry of the ship. *)
Definition mirror_sign (axis : nat) : R := match axis with 1%nat | 3%nat | 5%nat => -1 | _ => 1 end.
Lemma mirror_sign_code : forall axis x, (axis < 6)%nat -> (if Nat.eqb axis 1 || Nat.eqb axis 3 || Nat.eqb axis 5 then x * -1 else x) = mirror_sign axis * x.
Proof. intros axis x H. do 6 (destruct axis as [|axis]; [cbn; ring|]). lia. Qed.
(** The operators have period 2 pi. *)
Theorem rao_periodic : forall table mirror axis Tp beta n,
  interpolate_module table mirror axis Tp (beta + 2 * PI * IZR n) = interpolate_module table mirror axis Tp beta /\
  interpolate_phase table mirror axis Tp (beta + 2 * PI * IZR n) = interpolate_phase table mirror axis Tp beta.
Proof. intros. unfold interpolate_module, interpolate_phase. rewrite reduce_periodic. split; reflexivity. Qed.
Print Assumptions rao_periodic.
(** With the mirror, only the incidences between 0 and 180 degrees of the table are used. *)
Theorem rao_mirror_half_table : forall t1 t2 axis Tp beta, (forall b, 0 <= b <= PI -> t1 axis Tp b = t2 axis Tp b) ->
  interpolate_module t1 true axis Tp beta = interpolate_module t2 true axis Tp beta /\ interpolate_phase t1 true axis Tp beta = interpolate_phase t2 true axis Tp beta.
Proof.
  intros t1 t2 axis Tp beta H. unfold interpolate_module, interpolate_phase. destruct (reduce_spec beta) as [B _]. cbn [andb].
  destruct (Rltb_dec PI (reduce beta)) as [[-> L]|[-> L]]; rewrite !H by lra; split; reflexivity.
Qed.
Print Assumptions rao_mirror_half_table.
(** Without, or for an incidence of the table, the value is the one of the table. *)
Theorem rao_table_value : forall table mirror axis Tp beta, 0 <= beta < 2 * PI -> (mirror = true -> beta <= PI) ->
  interpolate_module table mirror axis Tp beta = table axis Tp beta /\ interpolate_phase table mirror axis Tp beta = table axis Tp beta.
Proof.
  intros table mirror axis Tp beta B M. unfold interpolate_module, interpolate_phase. rewrite reduce_id by exact B. destruct mirror; [|split; reflexivity].
  cbn [andb]. rewrite Rltb_f by (apply M; reflexivity). split; reflexivity.
Qed.
Print Assumptions rao_table_value.
(** The mirror: waves coming from the other side give the opposite sway, roll and yaw, and the same surge, heave and pitch with the same phases, as soon as the table gives no
    sway, roll and yaw in head and following seas. *)
Definition symmetric_table (table : nat -> R -> R -> R) : Prop := forall axis Tp, mirror_sign axis = -1 -> table axis Tp 0 = 0 /\ table axis Tp PI = 0.
Theorem rao_mirror_partial : forall table axis Tp beta, (axis < 6)%nat -> symmetric_table table ->
  interpolate_module table true axis Tp (- beta) = mirror_sign axis * interpolate_module table true axis Tp beta /\
  forall table', interpolate_phase table' true axis Tp (- beta) = interpolate_phase table' true axis Tp beta.
Proof.
  intros table axis Tp beta Ha Sym. pose proof PI_RGT_0 as P. unfold interpolate_module, interpolate_phase. cbn [andb]. destruct (reduce_spec beta) as [B _].
  assert (mirror_sign axis = 1 \/ mirror_sign axis = -1) as MS by (do 6 (destruct axis as [|axis]; [cbn; lra|]); lia).
  destruct (reduce_opp beta) as [[-> ->]|[NZ ->]].
  - rewrite Rltb_f by lra. split; [|reflexivity]. destruct MS as [->|MS]; [ring|]. rewrite MS. destruct (Sym axis Tp MS) as [-> _]. ring.
  - destruct (Rltb_dec PI (reduce beta)) as [[-> L]|[-> L]].
    + rewrite Rltb_f by lra. rewrite mirror_sign_code by exact Ha. split; [|reflexivity]. destruct MS as [->| ->]; ring.
    + replace (2 * PI - (2 * PI - reduce beta)) with (reduce beta) by ring. destruct (Rltb_dec PI (2 * PI - reduce beta)) as [[-> L']|[-> L']].
      * rewrite mirror_sign_code by exact Ha. split; reflexivity.
      * assert (reduce beta = PI) as -> by lra. replace (2 * PI - PI) with PI by ring. split; [|reflexivity]. destruct MS as [->|MS]; [ring|]. rewrite MS. destruct (Sym axis Tp MS) as [_ ->]. ring.
Qed.
Print Assumptions rao_mirror_partial.
Example rao_mirror_example : let table := fun axis (Tp b : R) => match axis with 1%nat | 3%nat | 5%nat => sin b | _ => 1 + cos b end in
  symmetric_table table /\ interpolate_module table true 1%nat 10 (PI / 2) = 1 /\ interpolate_module table true 1%nat 10 (- (PI / 2)) = -1.
Proof.
  intros table. assert (symmetric_table table) as S by (intros axis Tp H; do 6 (destruct axis as [|axis]; [cbn in *; try lra; rewrite sin_0, sin_PI; split; reflexivity|]); cbn in H; lra).
  split; [exact S|]. pose proof PI_RGT_0. assert (interpolate_module table true 1%nat 10 (PI / 2) = 1) as E by (rewrite (proj1 (rao_table_value table true 1%nat 10 (PI / 2) ltac:(lra) ltac:(lra))); cbn; apply sin_PI2).
  split; [exact E|]. rewrite (proj1 (rao_mirror_partial table 1%nat 10 (PI / 2) ltac:(lia) S)), E. cbn. ring.
Qed.
(** Refuted for a table with some sway in head seas: it has the same sign whichever side the waves are said to come from. *)
Theorem rao_mirror_head_seas_refuted : exists table Tp, interpolate_module table true 1%nat Tp (- 0) <> mirror_sign 1 * interpolate_module table true 1%nat Tp 0.
Proof. exists (fun _ _ _ => 1), 1. rewrite Ropp_0. rewrite (proj1 (rao_table_value _ true 1%nat 1 0 ltac:(pose proof PI_RGT_0; lra) ltac:(intros; pose proof PI_RGT_0; lra))). cbn. lra. Qed.
Print Assumptions rao_mirror_head_seas_refuted.
(** The arrays given to the users of the tables (get_modules_cartesian) have the values of the interpolation on surge, heave and pitch. *)
Theorem rao_arrays_partial : forall table mirror omegas psis axis i j, Forall (fun p => 0 <= p < 2 * PI) psis -> mirror_sign axis = 1 -> (axis < 6)%nat ->
  (i < List.length omegas)%nat -> (j < List.length psis)%nat ->
  nth j (nth i (get_array_cartesian table mirror omegas psis axis) []) 0 = interpolate_module table mirror axis (2 * PI / nth i (rev omegas) 0) (nth j psis 0).
Proof.
  intros table mirror omegas psis axis i j F MS Ha Hi Hj. unfold get_array_cartesian. rewrite <- rev_length in Hi.
  rewrite (nth_map _ _ _ (rev omegas) i [] 0) by exact Hi. rewrite (nth_map _ _ _ psis j 0 0) by exact Hj. unfold interpolate_module. rewrite reduce_id by (rewrite Forall_forall in F; apply F, nth_In; exact Hj). rewrite mirror_sign_code by exact Ha. rewrite MS, Rmult_1_l. reflexivity.
Qed.
Print Assumptions rao_arrays_partial.
(** Refuted on sway, roll and yaw: the sign is not changed. *)
Theorem rao_arrays_refuted : exists table psi, 0 <= psi < 2 * PI /\ symmetric_table table /\
  get_array_cartesian table true [1] [psi] 1 = [[1]] /\ interpolate_module table true 1%nat (2 * PI / 1) psi = -1.
Proof.
  pose proof PI_RGT_0 as P. exists (fun axis (Tp b : R) => sin b), (3 * (PI / 2)). split; [lra|]. split; [intros axis Tp _; rewrite sin_0, sin_PI; split; reflexivity|].
  assert (sin (2 * PI - 3 * (PI / 2)) = 1) as E by (replace (2 * PI - 3 * (PI / 2)) with (PI / 2) by field; apply sin_PI2).
  unfold get_array_cartesian, interpolate_module. rewrite reduce_id by lra. cbn [rev app map andb]. rewrite Rltb_t by lra. rewrite E. split; [reflexivity|]. cbn. ring.
Qed.
Print Assumptions rao_arrays_refuted.

(** ** C82: diffraction force *)
(** A wave field seen in the mirror y = 0, and a wave field turned by an angle about the vertical *)
Definition mirrored_waves (f : flat R) : flat R := mkFlat (f_a f) (f_omega f) (map Ropp (f_psi f)) (f_cos f) (map Ropp (f_sin f)) (f_k f) (f_phase f) (f_pdyn f) (f_pdyn_sh f).
Definition scaled_waves (c : R) (f : flat R) : flat R := mkFlat (map (Rmult c) (f_a f)) (f_omega f) (f_psi f) (f_cos f) (f_sin f) (f_k f) (f_phase f) (f_pdyn f) (f_pdyn_sh f).
Definition mirrored_point (p : vec3) : vec3 := V3 (vx p) (- vy p) (vz p).

Lemma at_ub_map : forall (A B : Type) (g : A -> B) l i, at_ub (map g l) i = (do a <- at_ub l i; Ok (g a)).
Proof. intros. unfold at_ub. rewrite nth_error_map. destruct (nth_error l i); reflexivity. Qed.
Lemma at_throw_map : forall (A B : Type) (g : A -> B) l i, at_throw (map g l) i = (do a <- at_throw l i; Ok (g a)).
Proof. intros. unfold at_throw. rewrite nth_error_map. destruct (nth_error l i); reflexivity. Qed.
Lemma accM_scale : forall (A : Type) (f g : A -> outcome R) c l s, (forall a, In a l -> g a = (do x <- f a; Ok (c * x))) -> accM g (c * s) l = (do x <- accM f s l; Ok (c * x)).
Proof.
  intros A f g c l. induction l as [|a l IH]; intros s H; [reflexivity|]. rewrite !accM_cons, (H a) by (left; reflexivity). destruct (f a) as [x| |]; [|reflexivity|reflexivity]. cbn [bindO].
  rewrite <- IH by (intros b Hb; apply H; right; exact Hb). f_equal. ring.
Qed.
Lemma angle_mirror : forall f x y t i, angle (mirrored_waves f) x (- y) t i = angle f x y t i.
Proof.
  intros. unfold angle. cbn [mirrored_waves f_omega f_k f_cos f_sin f_phase]. rewrite at_ub_map.
  destruct (at_ub (f_omega f) i); [|reflexivity|reflexivity]. destruct (at_ub (f_k f) i); [|reflexivity|reflexivity]. destruct (at_ub (f_cos f) i); [|reflexivity|reflexivity].
  destruct (at_ub (f_sin f) i); [|reflexivity|reflexivity]. destruct (at_ub (f_phase f) i); [|reflexivity|reflexivity]. cbn [bindO]. f_equal. ring.
Qed.
Lemma combine_map_r : forall (A B C : Type) (g : B -> C) (l : list A) l', combine l (map g l') = map (fun p => (fst p, g (snd p))) (combine l l').
Proof. intros A B C g l. induction l as [|a l IH]; intros [|b l']; cbn; [reflexivity..|]. rewrite IH. reflexivity. Qed.

Lemma rao_tables_mirror : forall module phase fs psi axis, (axis < 6)%nat -> symmetric_table module ->
  rao_tables module phase true (map mirrored_waves fs) (- psi) axis =
  (map (map (Rmult (mirror_sign axis))) (fst (rao_tables module phase true fs psi axis)), snd (rao_tables module phase true fs psi axis)).
Proof.
  intros module phase fs psi axis Ha Sym. unfold rao_tables. cbn [fst snd]. rewrite !map_map. f_equal.
  - apply map_ext. intros f. cbn [mirrored_waves f_omega f_psi]. rewrite combine_map_r, !map_map. apply map_ext. intros [w b]. cbn [fst snd].
    replace (- psi - - b) with (- (psi - b)) by ring. apply rao_mirror_partial; assumption.
  - apply map_ext. intros f. cbn [mirrored_waves f_omega f_psi]. rewrite combine_map_r, map_map. apply map_ext. intros [w b]. cbn [fst snd].
    replace (- psi - - b) with (- (psi - b)) by ring. f_equal. destruct (rao_mirror_partial (fun _ _ _ => 0) axis (2 * PI / w) (psi - b) Ha ltac:(split; reflexivity)) as [_ E]. apply E.
Qed.
Lemma evaluate_rao_mirror : forall fs x y t M Ph c,
  evaluate_rao (map mirrored_waves fs) x (- y) t (map (map (Rmult c)) M) Ph = (do w <- evaluate_rao fs x y t M Ph; Ok (c * w)).
Proof.
  intros fs x y t M Ph c. unfold evaluate_rao. rewrite map_length. replace 0 with (c * 0) at 1 by ring. apply accM_scale. intros i _. rewrite !at_throw_map.
  destruct (at_throw M i) as [m| |]; [|reflexivity|reflexivity]. cbn [bindO]. destruct (at_throw Ph i) as [p| |]; [|reflexivity|reflexivity]. cbn [bindO].
  destruct (at_throw fs i) as [f| |]; [|reflexivity|reflexivity]. cbn [bindO]. unfold rao_spectrum. rewrite map_length. cbn [mirrored_waves f_k f_a].
  destruct (negb _); [reflexivity|]. replace 0 with (c * 0) at 1 by ring. apply accM_scale. intros k _. rewrite at_ub_map. fold (mirrored_waves f). rewrite angle_mirror.
  destruct (at_ub m k); [|reflexivity|reflexivity]. cbn [bindO]. destruct (at_ub (f_a f) k); [|reflexivity|reflexivity]. cbn [bindO]. destruct (angle f x y t k); [|reflexivity|reflexivity]. cbn [bindO].
  destruct (at_ub p k); [|reflexivity|reflexivity]. cbn [bindO]. f_equal. ring.
Qed.
(** A ship symmetric with respect to its plane y = 0, with the mirror option, gets in the mirrored waves the mirrored force and the mirrored moment. *)
Theorem diffraction_mirror : forall module phase fs P H0 G psi t w, symmetric_table module -> vy H0 = 0 -> vy G = 0 ->
  diffraction_force module phase true fs P H0 G psi t = Ok w ->
  diffraction_force module phase true (map mirrored_waves fs) (mirrored_point P) H0 G (- psi) t = Ok (mkW G (mirror_force (w_force w)) (mirror_torque (w_torque w))).
Proof.
  intros module phase fs P H0 G psi t w Sym HH HG H. unfold diffraction_force in *. cbv zeta in *. cbn [mirrored_point vx vy].
  rewrite !rao_tables_mirror by (assumption || lia). cbn [fst snd]. rewrite !evaluate_rao_mirror.
  repeat match type of H with (do _ <- ?e; _) = _ => destruct e as [?| |]; [cbn [bindO] in H |- *|discriminate H|discriminate H] end.
  injection H as <-. unfold mirror_force, mirror_torque. cbn [w_force w_torque]. f_equal. destruct H0 as [h1 h2 h3], G as [g1 g2 g3]. cbn [vy] in *. subst. f_equal; apply vec_eq; cbn; ring.
Qed.
Print Assumptions diffraction_mirror.
(** The moment is given at G, with the rule of transport of a wrench applied at the calculation point. *)
Theorem diffraction_transport : forall module phase mirror fs P H0 G psi t w, diffraction_force module phase mirror fs P H0 G psi t = Ok w ->
  exists torque, diffraction_force module phase mirror fs P H0 H0 psi t = Ok (mkW H0 (w_force w) torque) /\ w_point w = G /\ w_torque w = torque_about G H0 (w_force w) torque.
Proof.
  intros module phase mirror fs P H0 G psi t w H. unfold diffraction_force in *. cbv zeta in *.
  repeat match type of H with (do _ <- ?e; _) = _ => destruct e as [?| |]; [cbn [bindO] in H |- *|discriminate H|discriminate H] end.
  injection H as <-. cbn [w_force w_torque w_point]. eexists. split; [reflexivity|]. split; [reflexivity|]. unfold torque_about. destruct H0, G. apply vec_eq; cbn; ring.
Qed.
Print Assumptions diffraction_transport.
(** The force does not depend on the axes of the horizontal plane: turning the waves, the heading and the position together changes nothing. *)
Definition turned_waves (a : R) (f f' : flat R) : Prop :=
  f_a f' = f_a f /\ f_omega f' = f_omega f /\ f_k f' = f_k f /\ f_phase f' = f_phase f /\
  f_psi f' = map (fun p => p + a) (f_psi f) /\ f_cos f = map cos (f_psi f) /\ f_sin f = map sin (f_psi f) /\ f_cos f' = map cos (f_psi f') /\ f_sin f' = map sin (f_psi f').
Lemma angle_turned : forall a f f' x y t i, turned_waves a f f' -> angle f' (cos a * x - sin a * y) (sin a * x + cos a * y) t i = angle f x y t i.
Proof.
  intros a f f' x y t i (E1 & E2 & E3 & E4 & E5 & E6 & E7 & E8 & E9). unfold angle. rewrite E8, E9, E5, E2, E3, E4, E6, E7, !map_map, !at_ub_map.
  destruct (at_ub (f_omega f) i); [|reflexivity|reflexivity]. cbn [bindO]. destruct (at_ub (f_k f) i); [|reflexivity|reflexivity]. cbn [bindO].
  destruct (at_ub (f_psi f) i) as [p| |]; [|reflexivity|reflexivity]. cbn [bindO]. destruct (at_ub (f_phase f) i); [|reflexivity|reflexivity]. cbn [bindO].
  f_equal. rewrite cos_plus, sin_plus. pose proof (sin2_cos2 a) as SC. unfold Rsqr in SC.
  assert ((cos a * x - sin a * y) * (cos p * cos a - sin p * sin a) + (sin a * x + cos a * y) * (sin p * cos a + cos p * sin a) = (sin a * sin a + cos a * cos a) * (x * cos p + y * sin p)) as -> by ring.
  rewrite SC. ring.
Qed.
Lemma accM_ext : forall (A : Type) (f g : A -> outcome R) l s, (forall a, In a l -> g a = f a) -> accM g s l = accM f s l.
Proof.
  intros A f g l. induction l as [|a l IH]; intros s H; [reflexivity|]. rewrite !accM_cons, (H a) by (left; reflexivity). destruct (f a); [|reflexivity|reflexivity]. cbn [bindO].
  apply IH. intros b Hb. apply H. right. exact Hb.
Qed.
Lemma Forall2_nth_error : forall (A B : Type) (Q : A -> B -> Prop) l l' i, Forall2 Q l l' ->
  match nth_error l i, nth_error l' i with Some a, Some b => Q a b | None, None => True | _, _ => False end.
Proof. intros A B Q l l' i H. revert i. induction H; intros [|i]; cbn; auto. apply IHForall2. Qed.
Lemma rao_tables_turned : forall module phase mirror a fs fs' psi axis, Forall2 (turned_waves a) fs fs' ->
  rao_tables module phase mirror fs' (psi + a) axis = rao_tables module phase mirror fs psi axis.
Proof.
  intros module phase mirror a fs fs' psi axis H. unfold rao_tables. f_equal; induction H as [|f f' fs fs' Hf H IH]; try reflexivity; cbn [map]; rewrite IH; f_equal;
    destruct Hf as (_ & E2 & _ & _ & E5 & _); rewrite E2, E5, combine_map_r, map_map; apply map_ext; intros [w p]; cbn [fst snd]; replace (psi + a - (p + a)) with (psi - p) by ring; reflexivity.
Qed.
Theorem diffraction_turned : forall module phase mirror a fs fs' P H0 G psi t, Forall2 (turned_waves a) fs fs' ->
  diffraction_force module phase mirror fs' (V3 (cos a * vx P - sin a * vy P) (sin a * vx P + cos a * vy P) (vz P)) H0 G (psi + a) t = diffraction_force module phase mirror fs P H0 G psi t.
Proof.
  intros module phase mirror a fs fs' P H0 G psi t H. unfold diffraction_force. cbv zeta. rewrite !(rao_tables_turned _ _ _ a fs fs' psi _ H).
  assert (forall M Ph, evaluate_rao fs' (cos a * vx P - sin a * vy P) (sin a * vx P + cos a * vy P) t M Ph = evaluate_rao fs (vx P) (vy P) t M Ph) as E.
  { intros M Ph. unfold evaluate_rao. replace (List.length fs') with (List.length fs) by (clear - H; induction H; cbn; congruence). apply accM_ext. intros i _. destruct (at_throw M i) as [m| |]; [|reflexivity|reflexivity]. cbn [bindO].
    destruct (at_throw Ph i) as [ph| |]; [|reflexivity|reflexivity]. cbn [bindO]. pose proof (Forall2_nth_error _ _ _ fs fs' i H) as Hi. unfold at_throw.
    destruct (nth_error fs i) as [f|], (nth_error fs' i) as [f'|]; try contradiction; [|reflexivity]. cbn [bindO]. unfold rao_spectrum.
    destruct Hi as (E1 & E2 & E3 & E4 & Er). rewrite E3. destruct (negb _); [reflexivity|]. apply accM_ext. intros k _. rewrite E1.
    rewrite (angle_turned a f f') by (repeat split; try assumption; apply Er). reflexivity. }
  cbn [vx vy]. rewrite !E. reflexivity.
Qed.
Print Assumptions diffraction_turned.
(** The force is proportional to the amplitude of the waves; there is none without waves. *)
Lemma evaluate_rao_scaled : forall c fs x y t M Ph, evaluate_rao (map (scaled_waves c) fs) x y t M Ph = (do w <- evaluate_rao fs x y t M Ph; Ok (c * w)).
Proof.
  intros c fs x y t M Ph. unfold evaluate_rao. rewrite map_length. replace 0 with (c * 0) at 1 by ring. apply accM_scale. intros i _. rewrite at_throw_map.
  destruct (at_throw M i) as [m| |]; [|reflexivity|reflexivity]. cbn [bindO]. destruct (at_throw Ph i) as [p| |]; [|reflexivity|reflexivity]. cbn [bindO].
  destruct (at_throw fs i) as [f| |]; [|reflexivity|reflexivity]. cbn [bindO]. unfold rao_spectrum. cbn [scaled_waves f_k f_a].
  destruct (negb _); [reflexivity|]. replace 0 with (c * 0) at 1 by ring. apply accM_scale. intros k _. rewrite at_ub_map.
  change (angle (scaled_waves c f) x y t k) with (angle f x y t k).
  destruct (at_ub m k); [|reflexivity|reflexivity]. cbn [bindO]. destruct (at_ub (f_a f) k); [|reflexivity|reflexivity]. cbn [bindO]. destruct (angle f x y t k); [|reflexivity|reflexivity]. cbn [bindO].
  destruct (at_ub p k); [|reflexivity|reflexivity]. cbn [bindO]. f_equal. ring.
Qed.
Theorem diffraction_linear : forall module phase mirror c fs P H0 G psi t w, diffraction_force module phase mirror fs P H0 G psi t = Ok w ->
  diffraction_force module phase mirror (map (scaled_waves c) fs) P H0 G psi t = Ok (mkW G (vscale c (w_force w)) (vscale c (w_torque w))).
Proof.
  intros module phase mirror c fs P H0 G psi t w H. unfold diffraction_force in *. cbv zeta in *.
  assert (forall axis, rao_tables module phase mirror (map (scaled_waves c) fs) psi axis = rao_tables module phase mirror fs psi axis) as E by (intros axis; unfold rao_tables; rewrite !map_map; reflexivity).
  rewrite !E, !evaluate_rao_scaled.
  repeat match type of H with (do _ <- ?e; _) = _ => destruct e as [?| |]; [cbn [bindO] in H |- *|discriminate H|discriminate H] end.
  injection H as <-. cbn [w_force w_torque]. f_equal. destruct H0, G. f_equal; apply vec_eq; cbn; ring.
Qed.
Print Assumptions diffraction_linear.
(** A regular wave of amplitude a, with a response of module m and phase phi, gives the force m a sin(omega t - k x + phi - phase) with x the abscissa along the waves,
    on sway, heave, pitch and yaw; surge and roll are in the opposite direction (axes of Aquaplus). *)
Theorem diffraction_regular_wave : forall module phase mirror a w b k ph pd pd' P H0 psi t, 
  exists wr, diffraction_force module phase mirror [mkFlat [a] [w] [b] [cos b] [sin b] [k] [ph] pd pd'] P H0 H0 psi t = Ok wr /\
    let F axis := interpolate_module module mirror axis (2 * PI / w) (psi - b) * a * sin (w * t - k * (vx P * cos b + vy P * sin b) - ph + interpolate_phase phase mirror axis (2 * PI / w) (psi - b)) in
    w_force wr = V3 (- F 0%nat) (F 1%nat) (F 2%nat) /\ w_torque wr = V3 (- F 3%nat) (F 4%nat) (F 5%nat).
Proof.
  intros. unfold diffraction_force, evaluate_rao, rao_tables, rao_spectrum, angle. cbn -[interpolate_module interpolate_phase]. eexists. split; [reflexivity|]. cbn [w_force w_torque].
  assert (forall m d, 0 + (0 + - (m * a * sin (- (w * t) + k * (vx P * cos b + vy P * sin b) + ph + - d))) = m * a * sin (w * t - k * (vx P * cos b + vy P * sin b) - ph + d)) as E.
  { intros m d. replace (w * t - k * (vx P * cos b + vy P * sin b) - ph + d) with (- (- (w * t) + k * (vx P * cos b + vy P * sin b) + ph + - d)) by ring. rewrite sin_neg. ring. }
  rewrite !E. split; apply vec_eq; cbn -[interpolate_module interpolate_phase]; ring.
Qed.
Print Assumptions diffraction_regular_wave.
(** The periods of the waves must be in the table: they are refused otherwise. *)
Theorem diffraction_periods : forall lo hi omegas, check_periods lo hi omegas = Ok tt <-> forall l w, In l omegas -> In w l -> lo - 1 / 100 <= 2 * PI / w <= hi + 1 / 100.
Proof.
  intros lo hi omegas. unfold check_periods. destruct (existsb _ omegas) eqn:E.
  - split; [discriminate|]. intros H. exfalso. apply existsb_exists in E. destruct E as (l & Hl & E). apply existsb_exists in E. destruct E as (w & Hw & E). specialize (H l w Hl Hw).
    apply orb_true_iff in E. destruct E as [E|E]; apply Rltb_true in E; lra.
  - split; [|reflexivity]. intros _ l w Hl Hw. assert (forall b, b = true -> existsb (existsb (fun w0 => Rltb (2 * PI / w0) (lo - 1 / 100) || Rltb (hi + 1 / 100) (2 * PI / w0))) omegas <> b) as N by (intros b -> Q; congruence).
    destruct (Rltb_dec (2 * PI / w) (lo - 1 / 100)) as [[B L]|[B L]]; [exfalso; apply (N true eq_refl); apply existsb_exists; exists l; split; [exact Hl|]; apply existsb_exists; exists w; split; [exact Hw|]; rewrite B; reflexivity|].
    destruct (Rltb_dec (hi + 1 / 100) (2 * PI / w)) as [[B' L']|[B' L']]; [exfalso; apply (N true eq_refl); apply existsb_exists; exists l; split; [exact Hl|]; apply existsb_exists; exists w; split; [exact Hw|]; rewrite B, B'; reflexivity|]. lra.
Qed.
Print Assumptions diffraction_periods.
Example diffraction_mirror_example : let table := fun axis (Tp b : R) => match axis with 1%nat | 3%nat | 5%nat => sin b | _ => 1 + cos b end in
  symmetric_table table /\ exists w, diffraction_force table table true [mkFlat [2] [1] [PI / 2] [cos (PI / 2)] [sin (PI / 2)] [1 / 10] [0] (fun _ _ _ => 0) (fun _ _ _ => 0)] v0 v0 v0 PI (PI / 2) = Ok w /\ vy (w_force w) = 2 * sin (PI / 2 + 1).
Proof.
  intros table. split; [exact (proj1 rao_mirror_example)|]. pose proof PI_RGT_0.
  destruct (diffraction_regular_wave table table true 2 1 (PI / 2) (1 / 10) 0 (fun _ _ _ => 0) (fun _ _ _ => 0) v0 v0 PI (PI / 2)) as (w & E & F & _). exists w. split; [exact E|].
  rewrite F. cbn [vy]. destruct (rao_table_value table true 1%nat (2 * PI / 1) (PI - PI / 2) ltac:(lra) ltac:(lra)) as [E1 E2]. rewrite E1, E2. cbn. replace (PI - PI / 2) with (PI / 2) by field. rewrite sin_PI2.
  replace (1 * (PI / 2) - 1 / 10 * (0 * cos (PI / 2) + 0 * 1) - 0 + 1) with (PI / 2 + 1) by ring. ring.
Qed.
