(** Properties C61 (integration grids), C76 (radiation damping force) and C77 (truncation of the retardation integral). *)
From Coq Require Import Reals List Bool Lra Lia Sorted ZArith.
From Verif Require Import Common Geometry History_Model History_Order_Proofs History_Real_Proofs History_Props Force_Model Radiation_Model.
Import ListNotations.
Open Scope R_scope.

(** Specification of a grid of n points from [a] to [b]. *)
Definition grid (a b : R) (n : nat) (g : list R) : Prop :=
  List.length g = n /\ StronglySorted Rlt g /\ nth_error g 0 = Some a /\ nth_error g (n - 1) = Some b.
(** The step after each point *)
Fixpoint steps (g : list R) : list R :=
  match g with a :: (b :: _) as l => (b - a) :: steps l | _ => [] end.

Lemma sorted_map_seq : forall (f : nat -> R) (P : R -> R -> Prop) n s, (forall i j, (s <= i < j)%nat -> (j < s + n)%nat -> P (f i) (f j)) -> StronglySorted P (map f (seq s n)).
Proof.
  intros f P n. induction n as [|n IH]; intros s H; [constructor|]. cbn [seq map]. constructor.
  - apply IH. intros i j A B. apply H; lia.
  - apply Forall_forall. intros x Hx. apply in_map_iff in Hx. destruct Hx as (j & <- & Hj). apply in_seq in Hj. apply H; lia.
Qed.
Lemma nth_error_map_seq : forall {X} (f : nat -> X) n s i, (i < n)%nat -> nth_error (map f (seq s n)) i = Some (f (s + i)%nat).
Proof.
  intros X f n. induction n as [|n IH]; intros s i H; [lia|]. destruct i; cbn [seq map nth_error]; [rewrite Nat.add_0_r; reflexivity|].
  rewrite IH by lia. f_equal. f_equal. lia.
Qed.
Lemma steps_map_seq : forall (f : nat -> R) n s, steps (map f (seq s (S n))) = map (fun i => f (S i) - f i) (seq s n).
Proof.
  intros f n. induction n as [|n IH]; intros s; [reflexivity|].
  change (seq s (S (S n))) with (s :: seq (S s) (S n)). rewrite map_cons. change (seq s (S n)) with (s :: seq (S s) n). rewrite map_cons.
  rewrite <- IH. cbn [steps seq map]. reflexivity.
Qed.
Lemma den_pos : forall n, (2 <= n)%nat -> 0 < INR n - 1.
Proof. intros n H. apply le_INR in H. simpl (INR 2) in H. lra. Qed.
Lemma INR_last : forall n, (2 <= n)%nat -> INR (n - 1) = INR n - 1.
Proof. intros n H. rewrite minus_INR by lia. simpl (INR 1). reflexivity. Qed.

(** ** C61 *)
(** A regular grid has n points from the first to the last bound, equally spaced. *)
Theorem regular_grid_partial : forall first last n, first < last -> (2 <= n)%nat ->
  exists g, build_regular_intervals first last n = map Some g /\ grid first last n g /\
    Forall (fun d => d = (last - first) / (INR n - 1)) (steps g).
Proof.
  intros a b n H Hn. pose proof (den_pos n Hn) as D. set (f := fun i => a + (b - a) * INR i / (INR n - 1)).
  exists (map f (seq 0 n)). unfold build_regular_intervals. replace (n =? 1)%nat with false by (symmetry; apply Nat.eqb_neq; lia).
  split; [rewrite map_map; reflexivity|]. split; [split; [rewrite map_length, seq_length; reflexivity|split; [|split]]|].
  - apply sorted_map_seq. intros i j Hi Hj. unfold f. apply Rplus_lt_compat_l. apply Rmult_lt_compat_r; [apply Rinv_0_lt_compat; exact D|].
    apply Rmult_lt_compat_l; [lra|]. apply lt_INR. lia.
  - rewrite nth_error_map_seq by lia. unfold f. simpl (INR _). f_equal. field. lra.
  - rewrite nth_error_map_seq by lia. unfold f. rewrite Nat.add_0_l, INR_last by exact Hn. f_equal. field. lra.
  - destruct n as [|n]; [lia|]. rewrite steps_map_seq. apply Forall_forall. intros x Hx. apply in_map_iff in Hx. destruct Hx as (i & <- & _).
    unfold f. rewrite (S_INR i). field. lra.
Qed.
Print Assumptions regular_grid_partial.
(** With one point (accepted by the input file) it is not a grid: the point is not a number. *)
Theorem regular_grid_one_point_refuted : forall first last, build_regular_intervals first last 1 = [None].
Proof. reflexivity. Qed.
Print Assumptions regular_grid_one_point_refuted.

Lemma Rpower_inc : forall b x y, 1 < b -> x < y -> Rpower b x < Rpower b y.
Proof. intros. apply Rpower_lt; assumption. Qed.

(** An exponential grid also has n points, from the first to the last bound, and its steps increase. *)
Theorem exponential_grid_partial : forall first last n, first < last -> (2 <= n)%nat ->
  exists g, build_exponential_intervals first last n = map Some g /\ grid first last n g /\ StronglySorted Rlt (steps g).
Proof.
  intros a b n H Hn. pose proof (den_pos n Hn) as D. set (base := b - a + 1). set (f := fun i => a + 1 * (Rpower base (INR i / (INR n - 1)) - 1)).
  exists (map f (seq 0 n)). unfold build_exponential_intervals. replace (n =? 1)%nat with false by (symmetry; apply Nat.eqb_neq; lia).
  assert (Rabs (b - a) + 1 = base) as -> by (unfold base; rewrite Rabs_right; lra).
  assert (Rltb a b = true) as -> by (apply Rltb_true; exact H).
  assert (1 < base) as Hb by (unfold base; lra).
  split; [rewrite map_map; reflexivity|]. split; [split; [rewrite map_length, seq_length; reflexivity|split; [|split]]|].
  - apply sorted_map_seq. intros i j Hi Hj. unfold f. apply Rplus_lt_compat_l, Rmult_lt_compat_l; [lra|]. apply Rplus_lt_compat_r, Rpower_inc; [exact Hb|].
    apply Rmult_lt_compat_r; [apply Rinv_0_lt_compat; exact D|]. apply lt_INR. lia.
  - rewrite nth_error_map_seq by lia. unfold f. simpl (INR _). f_equal. replace (0 / (INR n - 1)) with 0 by (field; lra). rewrite Rpower_O by lra. ring.
  - rewrite nth_error_map_seq by lia. unfold f. rewrite Nat.add_0_l, INR_last by exact Hn. f_equal.
    replace ((INR n - 1) / (INR n - 1)) with 1 by (field; lra). rewrite Rpower_1 by lra. unfold base. ring.
  - destruct n as [|n]; [lia|]. rewrite steps_map_seq. apply sorted_map_seq. intros i j Hi Hj. unfold f. set (q := INR (S n) - 1) in *.
    assert (forall k, Rpower base (INR (S k) / q) - Rpower base (INR k / q) = Rpower base (INR k / q) * (Rpower base (/ q) - 1)) as E.
    { intros k. rewrite S_INR. replace ((INR k + 1) / q) with (INR k / q + / q) by (field; lra). rewrite Rpower_plus. ring. }
    assert (forall x y, a + 1 * (x - 1) - (a + 1 * (y - 1)) = x - y) as E2 by (intros; ring). rewrite !E2, !E.
    apply Rmult_lt_compat_r.
    + rewrite <- (Rpower_O base) by lra. apply Rlt_Rminus. apply Rpower_inc; [exact Hb|]. apply Rinv_0_lt_compat; exact D.
    + apply Rpower_inc; [exact Hb|]. apply Rmult_lt_compat_r; [apply Rinv_0_lt_compat; exact D|]. apply lt_INR. lia.
Qed.
Print Assumptions exponential_grid_partial.
Theorem exponential_grid_one_point_refuted : forall first last, first < last -> build_exponential_intervals first last 1 = [None].
Proof.
  intros a b H. unfold build_exponential_intervals. cbn [seq map Nat.eqb]. destruct (Req_EM_T _ _) as [E|]; [|reflexivity].
  rewrite Rabs_right in E by lra. exfalso. lra.
Qed.
Print Assumptions exponential_grid_one_point_refuted.

Lemma rev_map_seq : forall {X} (f : nat -> X) n, rev (map f (seq 0 n)) = map (fun i => f (n - 1 - i)%nat) (seq 0 n).
Proof.
  intros X f n. apply nth_ext with (d := f 0%nat) (d' := f 0%nat); [rewrite rev_length, !map_length; reflexivity|].
  intros i Hi. rewrite rev_length, map_length, seq_length in Hi. rewrite rev_nth by (rewrite map_length, seq_length; exact Hi).
  rewrite map_length, seq_length. rewrite (map_nth f (seq 0 n) 0%nat). rewrite seq_nth by lia.
  rewrite nth_indep with (d' := f (n - 1 - 0)%nat) by (rewrite map_length, seq_length; exact Hi).
  rewrite (map_nth (fun i => f (n - 1 - i)%nat) (seq 0 n) 0%nat), seq_nth by lia. f_equal. lia.
Qed.
(** The reversed exponential grid has the same bounds, in the same (increasing) order, and its steps decrease. *)
Theorem exponential_grid_reversed_partial : forall first last n, first < last -> (2 <= n)%nat ->
  exists g, build_exponential_intervals_reversed first last n = map Some g /\ grid first last n g /\ StronglySorted Rgt (steps g).
Proof.
  intros a b n H Hn. pose proof (den_pos n Hn) as D. set (base := b - a + 1). set (f0 := fun i => b + -1 * (Rpower base (INR i / (INR n - 1)) - 1)).
  set (f := fun i => f0 (n - 1 - i)%nat).
  exists (map f (seq 0 n)). unfold build_exponential_intervals_reversed, build_exponential_intervals.
  replace (n =? 1)%nat with false by (symmetry; apply Nat.eqb_neq; lia).
  assert (Rabs (a - b) + 1 = base) as -> by (unfold base; rewrite Rabs_left; lra).
  assert (Rltb b a = false) as -> by (apply Rltb_false; lra).
  assert (1 < base) as Hb by (unfold base; lra).
  assert (forall i j, (i < j)%nat -> Rpower base (INR i / (INR n - 1)) < Rpower base (INR j / (INR n - 1))) as M.
  { intros i j Hij. apply Rpower_inc; [exact Hb|]. apply Rmult_lt_compat_r; [apply Rinv_0_lt_compat; exact D|]. apply lt_INR. lia. }
  split; [rewrite rev_map_seq, map_map; reflexivity|]. split; [split; [rewrite map_length, seq_length; reflexivity|split; [|split]]|].
  - apply sorted_map_seq. intros i j Hi Hj. unfold f, f0. pose proof (M (n - 1 - j)%nat (n - 1 - i)%nat ltac:(lia)). lra.
  - rewrite nth_error_map_seq by lia. unfold f, f0. rewrite Nat.add_0_l, Nat.sub_0_r, INR_last by exact Hn. f_equal.
    replace ((INR n - 1) / (INR n - 1)) with 1 by (field; lra). rewrite Rpower_1 by lra. unfold base. ring.
  - rewrite nth_error_map_seq by lia. unfold f, f0. replace (n - 1 - (0 + (n - 1)))%nat with 0%nat by lia. simpl (INR 0). f_equal.
    replace (0 / (INR n - 1)) with 0 by (field; lra). rewrite Rpower_O by lra. ring.
  - destruct n as [|n]; [lia|]. rewrite steps_map_seq. apply sorted_map_seq. intros i j Hi Hj. unfold f, f0. set (q := INR (S n) - 1) in *.
    assert (forall k, Rpower base (INR (S k) / q) - Rpower base (INR k / q) = Rpower base (INR k / q) * (Rpower base (/ q) - 1)) as E.
    { intros k. rewrite S_INR. replace ((INR k + 1) / q) with (INR k / q + / q) by (field; lra). rewrite Rpower_plus. ring. }
    assert (forall x y, b + -1 * (x - 1) - (b + -1 * (y - 1)) = y - x) as E2 by (intros; ring). rewrite !E2.
    replace (S n - 1 - i)%nat with (S (S n - 1 - S i))%nat by lia. replace (S n - 1 - j)%nat with (S (S n - 1 - S j))%nat by lia. rewrite !E.
    apply Rmult_gt_compat_r.
    + apply Rlt_Rminus. rewrite <- (Rpower_O base) at 1 by lra. apply Rpower_inc; [exact Hb|]. apply Rinv_0_lt_compat; exact D.
    + apply M. lia.
Qed.
Print Assumptions exponential_grid_reversed_partial.
Example grids : build_regular_intervals 1 3 3 = map Some [1; 2; 3] /\ build_exponential_intervals 0 3 3 = map Some [0; 1; 3] /\
  build_exponential_intervals_reversed 0 3 3 = map Some [0; 2; 3].
Proof.
  assert (INR 3 - 1 = 2) as E by (simpl; lra). assert (Rpower 4 (1 / 2) = 2) as P.
  { unfold Rdiv. rewrite Rmult_1_l, Rpower_sqrt by lra. replace 4 with (2 * 2) by lra. apply sqrt_square. lra. }
  assert (Rpower 4 (0 / 2) = 1) as P0 by (unfold Rdiv; rewrite Rmult_0_l; apply Rpower_O; lra).
  assert (Rpower 4 ((1 + 1) / 2) = 4) as P2 by (replace ((1 + 1) / 2) with 1 by field; apply Rpower_1; lra).
  unfold build_exponential_intervals_reversed, build_exponential_intervals, build_regular_intervals. cbn [seq map Nat.eqb rev app]. rewrite !E.
  assert (Rltb 0 3 = true) as -> by (apply Rltb_true; lra). assert (Rltb 3 0 = false) as -> by (apply Rltb_false; lra).
  rewrite (Rabs_right (3 - 0)), (Rabs_left (0 - 3)) by lra. replace (3 - 0 + 1) with 4 by ring. replace (- (0 - 3) + 1) with 4 by ring.
  cbn [INR]. rewrite P, P0, P2. repeat split; repeat (f_equal; try lra).
Qed.

(** ** C77: truncation of the integral defining the retardation function *)
(** What is assumed of the root finder (boost's documentation): given two bounds where the function has opposite signs, it returns the lower
    end of a bracket of a root, no longer than [tol]. *)
Definition finds_roots (tol : R) (toms748 : root_finder) : Prop := forall g a b, a <= b -> g a * g b <= 0 ->
  exists x y, toms748 g a b = Ok x /\ a <= x <= y /\ y <= b /\ y - x <= tol /\ g x * g y <= 0.

(** The search never fails and stays between the two frequencies, ... *)
Theorem integration_bound_within : forall tol toms748 f omega_min omega_max eps, finds_roots tol toms748 -> omega_min <= omega_max ->
  exists w, find_integration_bound toms748 f omega_min omega_max eps = Ok w /\ omega_min <= w <= omega_max.
Proof.
  intros tol toms f a b eps HR H. unfold find_integration_bound. destruct (Rltb eps _) eqn:E1; [exists b; split; [reflexivity|lra]|].
  destruct (Rltb (Rabs (f a)) eps) eqn:E2; [exists a; split; [reflexivity|lra]|]. apply Rltb_false in E1, E2.
  destruct (HR (fun w => Rabs (f w) - eps) a b H) as (x & y & E & B1 & B2 & _); [nra|]. exists x. split; [exact E|lra].
Qed.
Print Assumptions integration_bound_within.
(** ... and for a damping whose magnitude decreases with the frequency, what is cut off is below eps (up to the tolerance). *)
Theorem integration_bound_cuts_the_negligible_partial : forall tol toms748 f omega_min omega_max eps, finds_roots tol toms748 -> omega_min <= omega_max ->
  0 <= eps -> (forall x y, omega_min <= x <= y -> y <= omega_max -> Rabs (f y) <= Rabs (f x)) ->
  exists w, find_integration_bound toms748 f omega_min omega_max eps = Ok w /\
    forall x, w + tol < x -> x <= omega_max -> Rabs (f x) <= eps.
Proof.
  intros tol toms f a b eps HR H He Hd. unfold find_integration_bound. 
  assert (0 <= tol) as Ht.
  { destruct (HR (fun _ => 0) 0 0) as (x & y & _ & B1 & B2 & B3 & _); lra. }
  destruct (Rltb eps _) eqn:E1; [exists b; split; [reflexivity|intros; lra]|].
  destruct (Rltb (Rabs (f a)) eps) eqn:E2.
  { apply Rltb_true in E2. exists a. split; [reflexivity|]. intros x Hx Hb. pose proof (Hd a x ltac:(lra) Hb). lra. }
  apply Rltb_false in E1, E2.
  destruct (HR (fun w => Rabs (f w) - eps) a b H) as (x & y & E & B1 & B2 & B3 & B4); [nra|]. exists x. split; [exact E|].
  intros z Hz Hb. pose proof (Hd x y ltac:(lra) B2). pose proof (Hd y z ltac:(lra) Hb). nra.
Qed.
Print Assumptions integration_bound_cuts_the_negligible_partial.

(** Refuted in general. A damping that vanishes at both ends of the table (as a radiation damping does) is cut off entirely, however large
    it is in between: the integral is taken between omega_min and omega_min. *)
Theorem integration_bound_loses_everything_refuted : forall toms748 f omega_min omega_max eps,
  f omega_min = 0 -> f omega_max = 0 -> 0 < eps -> find_integration_bound toms748 f omega_min omega_max eps = Ok omega_min.
Proof.
  intros toms f a b eps Ha Hb He. unfold find_integration_bound. rewrite Ha, Hb, Rabs_R0.
  assert (Rltb eps 0 = false) as -> by (apply Rltb_false; lra). assert (Rltb 0 eps = true) as -> by (apply Rltb_true; lra). reflexivity.
Qed.
Print Assumptions integration_bound_loses_everything_refuted.
(** The retardation function interpolates, at the given dates, the cosine transform (2/pi) x integral of Br(w).cos(w.tau) between the lower
    frequency and the bound found; [I f a b] is what the integration formula gives for the integral of f from a to b. *)
Theorem retardation_function_is_the_cosine_transform : forall toms748 Q spline Br taus eps omega_min omega_max bound (I : (R -> R) -> R -> R -> R),
  (forall f a b, run (Q a b) (fun x => Ok (f x)) = Ok (I f a b)) -> find_integration_bound toms748 Br omega_min omega_max eps = Ok bound ->
  build_retardation_function toms748 Q spline Br taus eps omega_min omega_max =
  Ok (spline taus (map (fun tau => 2 / PI * I (fun omega => Br omega * cos (omega * tau)) omega_min bound) taus)).
Proof.
  intros toms Q spline Br taus eps a b w I HQ HB. unfold build_retardation_function. rewrite HB. cbn [bindO].
  assert (retardation_values Q Br a w taus = Ok (map (fun tau => 2 / PI * I (fun omega => Br omega * cos (omega * tau)) a w) taus)) as ->; [|reflexivity].
  induction taus as [|t taus IH]; [reflexivity|]. cbn [retardation_values]. unfold cos_transform at 1. rewrite (HQ (fun omega => Br omega * cos (omega * t))). cbn [bindO].
  rewrite IH. reflexivity.
Qed.
Print Assumptions retardation_function_is_the_cosine_transform.
(** Then every value of the retardation function is zero, for every formula that integrates to zero over an empty interval. *)
Theorem retardation_function_vanishes_refuted : forall toms748 Q spline Br taus omega_min omega_max eps,
  (forall f a, run (Q a a) (fun x => Ok (f x)) = Ok 0) -> Br omega_min = 0 -> Br omega_max = 0 -> 0 < eps ->
  build_retardation_function toms748 Q spline Br taus eps omega_min omega_max = Ok (spline taus (map (fun _ => 0) taus)).
Proof.
  intros toms Q spline Br taus a b eps HQ Ha Hb He. unfold build_retardation_function.
  rewrite (integration_bound_loses_everything_refuted toms Br a b eps Ha Hb He). cbn [bindO].
  assert (retardation_values Q Br a a taus = Ok (map (fun _ => 0) taus)) as ->; [|reflexivity].
  induction taus as [|t taus IH]; [reflexivity|]. cbn [retardation_values]. unfold cos_transform. rewrite (HQ (fun omega => Br omega * cos (omega * t))). cbn [bindO]. rewrite IH. cbn [bindO map].
  rewrite Rmult_0_r. reflexivity.
Qed.
Print Assumptions retardation_function_vanishes_refuted.
(** The trapezoidal rule with three points, as an example of an integration formula *)
Definition trapezes : scheme := fun a b => Ask a (fun ya => Ask ((a + b) / 2) (fun ym => Ask b (fun yb => Done ((b - a) / 4 * (ya + 2 * ym + yb))))).
Example bump_lost : exists Br, Br 1 = 5000 /\
  (forall toms748 spline, build_retardation_function toms748 trapezes spline Br [0; 1] (1 / 1000) 0 2 = Ok (spline [0; 1] [0; 0])) /\
  cos_transform trapezes Br 0 2 0 = Ok (2 / PI * 5000).
Proof.
  exists (fun w => 5000 * w * (2 - w)). split; [lra|]. split.
  - intros toms spline. apply (retardation_function_vanishes_refuted toms trapezes spline (fun w => 5000 * w * (2 - w)) [0; 1] 0 2 (1 / 1000)); try lra.
    intros f a. unfold trapezes. cbn [run bindO]. f_equal. field.
  - unfold cos_transform, trapezes. cbn [run bindO]. f_equal. f_equal. rewrite !Rmult_0_r, cos_0. field.
Qed.

(** ** C76: the radiation damping force *)
(** The formula asks for the function between the bounds only. *)
Inductive asks_within (a b : R) : quad -> Prop :=
| asks_done : forall r, asks_within a b (Done r)
| asks_ask : forall x k, a <= x <= b -> (forall y, asks_within a b (k y)) -> asks_within a b (Ask x k).
Definition inside (Q : scheme) : Prop := forall a b, asks_within (Rmin a b) (Rmax a b) (Q a b).
(** The formula is a weighted sum. *)
Definition total (l : list R) : R := fold_right Rplus 0 l.
Definition weighted (Q : scheme) (nodes : R -> R -> list (R * R)) : Prop :=
  forall a b f, run (Q a b) (fun x => Ok (f x)) = Ok (total (map (fun n => fst n * f (snd n)) (nodes a b))).
Lemma trapezes_inside : inside trapezes.
Proof.
  intros a b. unfold trapezes. pose proof (Rmin_l a b). pose proof (Rmin_r a b). pose proof (Rmax_l a b). pose proof (Rmax_r a b).
  repeat (constructor; [lra|intros ?]). constructor.
Qed.
Lemma trapezes_weighted : weighted trapezes (fun a b => [((b - a) / 4, a); ((b - a) / 2, (a + b) / 2); ((b - a) / 4, b)]).
Proof. intros a b f. unfold trapezes, total. cbn [run bindO map fold_right fst snd]. f_equal. field. Qed.

Lemma run_ok : forall a b q f, asks_within a b q -> (forall x, a <= x <= b -> exists y, f x = Ok y) -> exists r, run q f = Ok r.
Proof.
  intros a b q f H Hf. induction H as [r|x k Hx Hk IH]; [eexists; reflexivity|]. cbn [run]. destruct (Hf x Hx) as (y & ->). apply IH.
Qed.
Lemma run_ext : forall a b q f g, asks_within a b q -> (forall x, a <= x <= b -> f x = g x) -> run q f = run q g.
Proof.
  intros a b q f g H Hf. induction H as [r|x k Hx Hk IH]; [reflexivity|]. cbn [run]. rewrite (Hf x Hx). destruct (g x); [apply IH|reflexivity|reflexivity].
Qed.
Lemma fold_ok : forall {X} (step : R -> X -> outcome R) l (s : R), (forall s x, In x l -> exists r, step s x = Ok r) ->
  exists r, fold_left (fun acc x => do s <- acc; step s x) l (Ok s) = Ok r.
Proof.
  intros X step l. induction l as [|x l IH]; intros s H; [exists s; reflexivity|]. cbn [fold_left bindO].
  destruct (H s x (or_introl eq_refl)) as (r & ->). apply IH. intros. apply H. right. assumption.
Qed.
Lemma fold_ext : forall {X} (f g : outcome R -> X -> outcome R) l s, (forall s x, In x l -> f s x = g s x) -> fold_left f l s = fold_left g l s.
Proof. intros X f g l. induction l as [|x l IH]; intros s H; [reflexivity|]. cbn [fold_left]. rewrite H by (left; reflexivity). apply IH. intros. apply H. right. assumption. Qed.

Section Force.
Variable aeqR : Z -> R -> R -> bool.
Hypothesis aeqR_refl : forall n x, aeqR n x x = true.
Notation A := (Rarith aeqR).
Notation history := (hist A).
(** The histories of the six velocities, each after any sequence of recordings. *)
Definition recorded_velocities (his : nat -> history) : Prop := forall k, (k < 6)%nat -> exists T recs, 0 <= T /\ reachable A T (his k) recs.
Definition duration (h : history) : R := get_duration A h.
Definition velocity (h : history) (tau : R) : outcome R := value_at A h tau.

Lemma velocity_ok : forall T h recs tau, 0 <= T -> reachable A T h recs -> 0 <= tau -> exists y, velocity h tau = Ok y.
Proof.
  intros T h recs tau HT HR Ht. unfold velocity.
  destruct (Rle_lt_dec Reps (Rabs (tau - T))) as [F|F].
  - destruct (history_value_outside aeqR aeqR_refl T h recs tau HT HR F) as (O1 & _ & O3).
    destruct (Rle_lt_dec tau T) as [G|G]; [|eexists; apply O1; exact G].
    destruct (L h) as [|p l] eqn:E; [eexists; apply O3; [lra|reflexivity]|].
    destruct (history_value_within_bounds aeqR aeqR_refl T h recs tau (fold_right Rmin 0 (map snd (L h))) (fold_right Rmax 0 (map snd (L h))) HT HR) as (y & Ey & _).
    + rewrite E. discriminate.
    + lra.
    + intros q Hq. clear - Hq. induction (L h) as [|a r IH]; [contradiction|]. cbn [map fold_right]. destruct Hq as [->|Hq].
      * split; [apply Rmin_l|apply Rmax_l].
      * destruct (IH Hq). pose proof (Rmin_r (snd a) (fold_right Rmin 0 (map snd r))). pose proof (Rmax_r (snd a) (fold_right Rmax 0 (map snd r))). lra.
    + exists y. exact Ey.
  - destruct (reachable_inv A (R_laws aeqR aeqR_refl) T h recs (T_ok aeqR T HT) HR) as [_ ET].
    assert (value_at A h tau = value_at A h T) as ->.
    { unfold value_at. rewrite ET. change (History_Model.lt A) with Rltb. change (History_Model.abs A) with Rabs. change (History_Model.sub A) with Rminus. change (History_Model.eps A) with Reps.
      assert (Rltb (Rabs (tau - T)) Reps = true) as -> by (apply Rltb_true; exact F). destruct (Rltb (Rabs (T - T)) Reps); reflexivity. }
    destruct (L h) as [|p l] eqn:E.
    + exists 0. unfold value_at. rewrite ET, E. unfold History_Model.gt. change (History_Model.lt A) with Rltb. change (History_Model.abs A) with Rabs. change (History_Model.sub A) with Rminus. change (History_Model.eps A) with Reps. change (History_Model.zero A) with 0.
      assert (Rltb T T = false) as E1 by (apply Rltb_false; lra). assert (Rltb T 0 = false) as E2 by (apply Rltb_false; lra).
      destruct (Rltb (Rabs (T - T)) Reps); rewrite E1, E2; reflexivity.
    + destruct (history_value_within_bounds aeqR aeqR_refl T h recs T (fold_right Rmin 0 (map snd (L h))) (fold_right Rmax 0 (map snd (L h))) HT HR) as (y & Ey & _).
      * rewrite E. discriminate.
      * lra.
      * intros q Hq. clear - Hq. induction (L h) as [|a r IH]; [contradiction|]. cbn [map fold_right]. destruct Hq as [->|Hq].
        { split; [apply Rmin_l|apply Rmax_l]. }
        destruct (IH Hq). pose proof (Rmin_r (snd a) (fold_right Rmin 0 (map snd r))). pose proof (Rmax_r (snd a) (fold_right Rmax 0 (map snd r))). lra.
      * exists y. exact Ey.
Qed.

(** Whatever has been recorded, the force can be computed (no velocity is asked in the future), unless the formula is one of the two that
    cannot be used for the convolution. *)
Theorem radiation_force_is_defined_partial : forall y Q K his, yr_quad_convolution y = Some Q -> inside Q -> 0 <= yr_tau_min y -> 0 <= yr_tau_max y ->
  recorded_velocities his -> exists w, radiation_wrench aeqR y K his = Ok w.
Proof.
  intros y Q K his EQ IQ Hmin Hmax Hh.
  assert (forall i, exists r, get_convolution_for_axis aeqR y K his i = Ok r) as E.
  { intros i. unfold get_convolution_for_axis. apply fold_ok. intros s k Hk. apply in_seq in Hk. destruct (Rltb _ _) eqn:F; [eexists; reflexivity|].
    destruct (Hh k ltac:(lia)) as (T & recs & HT & HR). rewrite EQ. unfold convolution. apply Rltb_false in F. change (get_duration (Rarith aeqR) (his k)) with (duration (his k)) in *.
    destruct (run_ok _ _ (Q (yr_tau_min y) (Rmin (yr_tau_max y) (duration (his k)))) (fun tau => do v <- value_at A (his k) tau; Ok (v * K i k tau)) (IQ _ _)) as (r & ->);
      [|eexists; reflexivity].
    intros x Hx. destruct (velocity_ok T (his k) recs x HT HR) as (v & Ev); [|exists (v * K i k x); change (value_at A (his k) x) with (velocity (his k) x); rewrite Ev; reflexivity].
    destruct Hx as [Hx _]. eapply Rle_trans; [|exact Hx]. unfold Rmin. repeat destruct (Rle_dec _ _); lra. }
  unfold radiation_wrench. destruct (E 0%nat) as (r0 & ->), (E 1%nat) as (r1 & ->), (E 2%nat) as (r2 & ->), (E 3%nat) as (r3 & ->), (E 4%nat) as (r4 & ->), (E 5%nat) as (r5 & ->).
  eexists. reflexivity.
Qed.
Print Assumptions radiation_force_is_defined_partial.
(** Those two are accepted when reading the input and make the simulation fail as soon as the history reaches tau min. *)
Theorem radiation_force_bad_formula_refuted : forall y K his, yr_quad_convolution y = None -> yr_tau_min y <= duration (his 0%nat) ->
  radiation_wrench aeqR y K his = Throw.
Proof.
  intros y K his E H. unfold radiation_wrench. unfold get_convolution_for_axis at 1. cbn [seq fold_left bindO]. change (get_duration (Rarith aeqR) (his 0%nat)) with (duration (his 0%nat)).
  assert (Rltb (duration (his 0%nat)) (yr_tau_min y) = false) as -> by (apply Rltb_false; exact H). rewrite E. reflexivity.
Qed.
Print Assumptions radiation_force_bad_formula_refuted.

(** The force depends on the velocities between tau min and the smallest of tau max and the length of the history, and on nothing else: not on
    what precedes the recorded history. *)
Theorem radiation_force_reads_the_recorded_past : forall y Q K his1 his2, yr_quad_convolution y = Some Q -> inside Q ->
  (forall k, (k < 6)%nat -> duration (his1 k) = duration (his2 k)) ->
  (forall k tau, (k < 6)%nat -> Rmin (yr_tau_min y) (yr_tau_max y) <= tau <= duration (his1 k) -> velocity (his1 k) tau = velocity (his2 k) tau) ->
  radiation_wrench aeqR y K his1 = radiation_wrench aeqR y K his2.
Proof.
  intros y Q K h1 h2 EQ IQ Hd Hv.
  assert (forall i, get_convolution_for_axis aeqR y K h1 i = get_convolution_for_axis aeqR y K h2 i) as E.
  { intros i. unfold get_convolution_for_axis. apply fold_ext. intros s k Hk. apply in_seq in Hk.
    change (get_duration (Rarith aeqR) (h1 k)) with (duration (h1 k)). change (get_duration (Rarith aeqR) (h2 k)) with (duration (h2 k)). rewrite <- Hd by lia.
    destruct s as [s| |]; [cbn [bindO]|reflexivity|reflexivity]. destruct (Rltb _ _) eqn:F; [reflexivity|]. apply Rltb_false in F. rewrite EQ. unfold convolution.
    rewrite (run_ext _ _ _ _ (fun tau => do v <- value_at A (h2 k) tau; Ok (v * K i k tau)) (IQ _ _)); [reflexivity|].
    intros x Hx. change (value_at A (h1 k) x) with (velocity (h1 k) x). rewrite Hv; [reflexivity|lia|]. destruct Hx as [Hx1 Hx2]. split.
    - eapply Rle_trans; [|exact Hx1]. unfold Rmin. repeat destruct (Rle_dec _ _); lra.
    - eapply Rle_trans; [exact Hx2|]. unfold Rmin, Rmax. repeat destruct (Rle_dec _ _); lra. }
  unfold radiation_wrench. rewrite !E. reflexivity.
Qed.
Print Assumptions radiation_force_reads_the_recorded_past.

(** There is no force until the history reaches tau min. *)
Theorem radiation_force_starts_at_tau_min : forall y K his, (forall k, (k < 6)%nat -> duration (his k) < yr_tau_min y) ->
  radiation_wrench aeqR y K his = Ok (mkW v0 v0 v0).
Proof.
  intros y K his H.
  assert (forall i, get_convolution_for_axis aeqR y K his i = Ok 0) as E.
  { intros i. unfold get_convolution_for_axis.
    rewrite fold_ext with (g := fun acc _ => acc); [reflexivity|]. intros s k Hk. apply in_seq in Hk. destruct s as [s| |]; [cbn [bindO]|reflexivity|reflexivity].
    assert (Rltb (get_duration (Rarith aeqR) (his k)) (yr_tau_min y) = true) as -> by (apply Rltb_true; apply H; lia). reflexivity. }
  unfold radiation_wrench. rewrite !E. cbn [bindO]. rewrite Ropp_0. reflexivity.
Qed.
Print Assumptions radiation_force_starts_at_tau_min.

(** With a formula that is a weighted sum, axis i receives minus the sum over the six velocities of the sum of w.K_ik(tau).v_k(t-tau). *)
Definition memory (nodes : R -> R -> list (R * R)) (y : yaml_radiation) (K : R -> R) (d : R) (v : R -> R) : R :=
  if Rltb d (yr_tau_min y) then 0 else total (map (fun n => fst n * (K (snd n) * v (snd n))) (nodes (yr_tau_min y) (Rmin (yr_tau_max y) d))).
Definition axis (w : wrench) (i : nat) : R :=
  match i with 0 => vx (w_force w) | 1 => vy (w_force w) | 2 => vz (w_force w) | 3 => vx (w_torque w) | 4 => vy (w_torque w) | _ => vz (w_torque w) end%nat.
Theorem radiation_force_value : forall y Q nodes K his vel, yr_quad_convolution y = Some Q -> inside Q -> weighted Q nodes -> 0 <= yr_tau_min y -> 0 <= yr_tau_max y ->
  (forall k tau, (k < 6)%nat -> 0 <= tau -> velocity (his k) tau = Ok (vel k tau)) ->
  exists w, radiation_wrench aeqR y K his = Ok w /\
    forall i, (i < 6)%nat -> axis w i = - total (map (fun k => memory nodes y (K i k) (duration (his k)) (vel k)) (seq 0 6)).
Proof.
  intros y Q nodes K his vel EQ IQ WQ Hmin Hmax Hv.
  assert (forall i l s, (forall k, In k l -> (k < 6)%nat) -> fold_left (fun acc k => do s <- acc;
      if Rltb (get_duration A (his k)) (yr_tau_min y) then Ok s
      else do co <- convolution aeqR (Some Q) (his k) (K i k) (yr_tau_min y) (Rmin (yr_tau_max y) (get_duration A (his k))); Ok (s + co)) l (Ok s) =
    Ok (s + total (map (fun k => memory nodes y (K i k) (duration (his k)) (vel k)) l))) as E.
  { intros i l. induction l as [|k l IH]; intros s Hl; [unfold total; cbn [map fold_left fold_right]; rewrite Rplus_0_r; reflexivity|].
    cbn [fold_left bindO map]. unfold total in *. cbn [fold_right]. unfold memory at 1. change (get_duration A (his k)) with (duration (his k)).
    destruct (Rltb (duration (his k)) (yr_tau_min y)) eqn:F.
    - rewrite IH by (intros; apply Hl; right; assumption). f_equal. ring.
    - unfold convolution at 2. apply Rltb_false in F.
      rewrite (run_ext _ _ _ _ (fun tau => Ok (vel k tau * K i k tau)) (IQ _ _)).
      + rewrite WQ. cbn [bindO]. rewrite IH by (intros; apply Hl; right; assumption). f_equal. rewrite <- Rplus_assoc. f_equal. f_equal.
        unfold total. f_equal. apply map_ext. intros n. ring.
      + intros x [Hx _]. change (value_at A (his k) x) with (velocity (his k) x). rewrite Hv; [reflexivity|apply Hl; left; reflexivity|].
        eapply Rle_trans; [|exact Hx]. unfold Rmin. repeat destruct (Rle_dec _ _); lra. }
  assert (forall i, get_convolution_for_axis aeqR y K his i = Ok (total (map (fun k => memory nodes y (K i k) (duration (his k)) (vel k)) (seq 0 6)))) as E'.
  { intros i. unfold get_convolution_for_axis. rewrite EQ, E by (intros k Hk; apply in_seq in Hk; lia). rewrite Rplus_0_l. reflexivity. }
  unfold radiation_wrench. rewrite !E'. cbn [bindO]. eexists. split; [reflexivity|].
  intros i Hi. do 6 (destruct i as [|i]; [reflexivity|]). lia.
Qed.
Print Assumptions radiation_force_value.

(** Refuted: the force should be applied at the calculation point given in the input, and the frequencies of the input should bound the
    integral. It is always applied at the origin of the body frame, and changing any of these inputs changes nothing. *)
Theorem radiation_calculation_point_refuted : forall y p omin omax K his w, radiation_wrench aeqR y K his = Ok w ->
  w_point w = v0 /\
  radiation_wrench aeqR (mkYR (yr_n y) omin omax (yr_tau_min y) (yr_tau_max y) p (yr_quad_convolution y) (yr_quad_cos y)) K his = Ok w.
Proof.
  intros y p omin omax K his w E. split; [|exact E]. unfold radiation_wrench in E.
  destruct (get_convolution_for_axis aeqR y K his 0), (get_convolution_for_axis aeqR y K his 1), (get_convolution_for_axis aeqR y K his 2),
    (get_convolution_for_axis aeqR y K his 3), (get_convolution_for_axis aeqR y K his 4), (get_convolution_for_axis aeqR y K his 5); try discriminate E.
  cbn [bindO] in E. injection E as <-. reflexivity.
Qed.
Print Assumptions radiation_calculation_point_refuted.
Theorem radiation_frequency_bounds_refuted : forall toms748 spline y p omin omax Br omegas i k,
  radiation_K toms748 spline (mkYR (yr_n y) omin omax (yr_tau_min y) (yr_tau_max y) p (yr_quad_convolution y) (yr_quad_cos y)) Br omegas i k =
  radiation_K toms748 spline y Br omegas i k.
Proof. reflexivity. Qed.
Print Assumptions radiation_frequency_bounds_refuted.
End Force.

(** A ship that has been surging at 1 m/s for 4 s, with retardation functions equal to 3 on the diagonal: the surge force is -3*1*2 N for tau in [0,2]. *)
Definition eqR (_ : Z) (a b : R) : bool := if Req_EM_T a b then true else false.
Ltac decide_Rltb := repeat match goal with
  | |- context [Rltb ?a ?b] => first [replace (Rltb a b) with true by (symmetry; apply Rltb_true; lra) | replace (Rltb a b) with false by (symmetry; apply Rltb_false; lra)]
  end.
Definition surging : hist (Rarith eqR) := @mkHist (Rarith eqR) 10 [(0, 1); (4, 1)] 0.
Lemma surging_reachable : reachable (Rarith eqR) 10 surging [(0, 1); (4, 1)].
Proof.
  pose proof (reach_new (Rarith eqR) 10) as H0.
  assert (record (Rarith eqR) (new_history (Rarith eqR) 10) 0 1 = Returned (@mkHist (Rarith eqR) 10 [(0, 1)] 0)) as E1.
  { unfold record, new_history, update_oldest_recorded_instant, minn. cbn [L History_Model.Tmax oldest zero Rarith num History_Model.lt]. decide_Rltb.
    unfold add_value_to_history, find_braketing_position. cbn [L bindO List.length Nat.eqb firstn skipn app].
    unfold shift_oldest_recorded_instant_if_necessary, get_current_time, ge. cbn [L last fst History_Model.lt History_Model.sub Rarith oldest History_Model.Tmax]. decide_Rltb. reflexivity. }
  pose proof (reach_record _ _ _ _ _ _ _ H0 E1) as H1.
  assert (record (Rarith eqR) (@mkHist (Rarith eqR) 10 [(0, 1)] 0) 4 1 = Returned surging) as E2; [|exact (reach_record _ _ _ _ _ _ _ H1 E2)].
  unfold record, update_oldest_recorded_instant, minn. cbn [L last fst History_Model.Tmax oldest zero Rarith num History_Model.lt aeq].
  assert (eqR 4 4 0 = false) as -> by (unfold eqR; destruct (Req_EM_T 4 0); [lra|reflexivity]). decide_Rltb.
  unfold add_value_to_history, find_braketing_position. cbn [L last fst History_Model.lt Rarith bindO List.length]. decide_Rltb. cbn [bindO List.length Nat.eqb firstn skipn app].
  unfold shift_oldest_recorded_instant_if_necessary, get_current_time, ge. cbn [L last fst History_Model.lt History_Model.sub Rarith oldest History_Model.Tmax]. decide_Rltb. reflexivity.
Qed.
Lemma eqR_refl : forall n x, eqR n x x = true.
Proof. intros. unfold eqR. destruct (Req_EM_T x x); congruence. Qed.
Definition rest : hist (Rarith eqR) := new_history (Rarith eqR) 10.
Definition surge_only (k : nat) : hist (Rarith eqR) := match k with 0 => surging | _ => rest end%nat.
Lemma surge_only_recorded : recorded_velocities eqR surge_only.
Proof.
  intros k _. exists 10. destruct k; [exists [(0, 1); (4, 1)]; split; [lra|exact surging_reachable]|exists []; split; [lra|apply reach_new]].
Qed.
Definition surge_yaml : yaml_radiation := mkYR 10 0 0 0 2 v0 (Some trapezes) trapezes.
Example radiation_surging : exists w, radiation_wrench eqR surge_yaml (fun i k _ => if (i =? k)%nat then 3 else 0) surge_only = Ok w /\ axis w 0 = -6 /\ axis w 2 = 0.
Proof.
  set (vel := fun k tau => match velocity eqR (surge_only k) tau with Ok v => v | _ => 0 end).
  assert (forall k tau, (k < 6)%nat -> 0 <= tau -> velocity eqR (surge_only k) tau = Ok (vel k tau)) as Hv.
  { intros k tau Hk Ht. unfold vel. destruct (surge_only_recorded k Hk) as (T & recs & HT & HR).
    destruct (velocity_ok eqR eqR_refl T (surge_only k) recs tau HT HR Ht) as (y & ->). reflexivity. }
  assert (forall tau, 0 <= tau <= 2 -> vel 0%nat tau = 1) as H1.
  { intros tau Ht. unfold vel. cbn [surge_only]. destruct (history_value_within_bounds eqR eqR_refl 10 surging _ tau 1 1 ltac:(lra) surging_reachable) as (y & Ey & By); [discriminate|lra| |].
    - intros p [<-|[<-|[]]]; simpl; lra.
    - unfold velocity. rewrite Ey. lra. }
  assert (forall k tau, (0 < k)%nat -> 0 <= tau <= 2 -> vel k tau = 0) as H0.
  { intros k tau Hk Ht. unfold vel. destruct k; [lia|]. cbn [surge_only].
    pose proof (history_value_outside eqR eqR_refl 10 rest [] tau ltac:(lra) (reach_new _ _)) as (_ & _ & E); [|unfold velocity; rewrite E; [reflexivity|lra|reflexivity]].
    unfold Reps. rewrite Rabs_left by lra. apply Rle_trans with 1; [|lra]. apply Rmult_le_reg_r with (10 ^ 12); [lra|]. unfold Rdiv. rewrite Rmult_assoc, Rinv_l by lra. lra. }
  assert (duration eqR surging = 4) as Ds by (unfold duration, get_duration; cbn; lra).
  assert (duration eqR rest = 0) as Dr by reflexivity.
  destruct (radiation_force_value eqR surge_yaml trapezes _ (fun i k _ => if (i =? k)%nat then 3 else 0) surge_only vel eq_refl trapezes_inside trapezes_weighted ltac:(cbn; lra) ltac:(cbn; lra) Hv) as (w & Ew & Hw).
  exists w. split; [exact Ew|]. rewrite !Hw by lia.
  unfold total. cbn [seq map fold_right surge_only Nat.eqb]. rewrite Ds, Dr. unfold memory. cbn [yr_tau_min yr_tau_max surge_yaml]. decide_Rltb.
  rewrite (Rmin_left 2 4), (Rmin_right 2 0) by lra. unfold total. cbn [map fold_right fst snd].
  rewrite (H1 0), (H1 ((0 + 2) / 2)), (H1 2) by lra. split; lra.
Qed.
