(** C183, C184: bound of the error of the fixed-step solvers on the bodies of Drift_Model.v, with efforts known up to some error. *)
From Coq Require Import ZArith Reals Lra Lia Psatz List.
From Verif Require Import Common History_Model History_Real_Proofs Blocked_Model Sim_Model Sim_Spec Solver_Model Solver_Props Drift_Model Drift_Props.
Import ListNotations.
Open Scope R_scope.

Lemma Rabs_le_sum a b e : Rabs a <= e -> Rabs (a + b) <= e + Rabs b.
Proof. intros H. eapply Rle_trans; [apply Rabs_triang|]. lra. Qed.
(** ** Sums of the table *)
Definition total (l : list R) : R := fold_right Rplus 0 l.
Definition size (l : list R) : R := fold_right Rplus 0 (map Rabs l).
Lemma size_pos l : 0 <= size l.
Proof. unfold size. induction l as [|a l IH]; cbn [map fold_right]; [lra|]. pose proof (Rabs_pos a). lra. Qed.
Lemma weighted_bound (f : list R -> R) B : 0 <= B -> forall a ks, (forall k, In k ks -> Rabs (f k) <= B) ->
  Rabs (fold_right Rplus 0 (map (fun ak => fst ak * f (snd ak)) (combine a ks))) <= size a * B.
Proof.
  intros HB. induction a as [|c a IH]; intros [|k ks] H; cbn [combine map fold_right].
  - rewrite Rabs_R0. pose proof (size_pos []). nra.
  - rewrite Rabs_R0. pose proof (size_pos []). nra.
  - rewrite Rabs_R0. pose proof (size_pos (c :: a)). nra.
  - cbn [fst snd]. eapply Rle_trans; [apply Rabs_triang|]. rewrite Rabs_mult. pose proof (H k (or_introl eq_refl)) as K. specialize (IH ks (fun q Q => H q (or_intror Q))).
    unfold size in *. cbn [map fold_right]. pose proof (Rabs_pos c). pose proof (Rmult_le_compat_l (Rabs c) _ _ (Rabs_pos c) K). lra.
Qed.
Lemma weighted_shift (f : list R -> R) phi : forall a ks, List.length a = List.length ks ->
  fold_right Rplus 0 (map (fun ak => fst ak * f (snd ak)) (combine a ks)) = total a * phi + fold_right Rplus 0 (map (fun ak => fst ak * (f (snd ak) - phi)) (combine a ks)).
Proof.
  unfold total. induction a as [|c a IH]; intros [|k ks] L; try discriminate; cbn [combine map fold_right]; [lra|]. cbn [fst snd]. injection L as L. rewrite (IH ks L). ring.
Qed.
(** ** A method whose weights sum to one and whose dates stay within the step *)
Definition consistent (s : method) : Prop :=
  List.length (nodes s) = List.length (coefficients s) /\ List.length (nodes s) = List.length (weights s) /\ total (weights s) = 1 /\ List.Forall (fun c => 0 <= c <= 1) (nodes s).
Lemma consistent_methods : consistent euler /\ consistent rk4 /\ consistent rkck.
Proof.
  repeat split; unfold euler, rk4, rkck, total; cbn [nodes coefficients weights fold_right List.length]; try reflexivity; try lra; repeat (constructor; try lra).
Qed.
(** The largest sum of a line of the table *)
Definition spread (s : method) : R := fold_right Rplus 0 (map size (coefficients s)).
Lemma spread_row s row : In row (coefficients s) -> size row <= spread s.
Proof.
  unfold spread. induction (coefficients s) as [|r l IH]; intros []; cbn [map fold_right].
  - subst. assert (0 <= fold_right Rplus 0 (map size l)); [|lra]. clear. induction l as [|r l IH]; cbn [map fold_right]; [lra|]. pose proof (size_pos r). lra.
  - pose proof (size_pos r). specialize (IH H). lra.
Qed.
Lemma spread_pos s : 0 <= spread s.
Proof. unfold spread. induction (coefficients s) as [|r l IH]; cbn [map fold_right]; [lra|]. pose proof (size_pos r). lra. Qed.

Section Converge.
Variable aeqR : Z -> R -> R -> bool.
Variable Itp : Type.
Variable itp_f itp_df : Itp -> R -> outcome R.
Variable bodies : nat -> body Itp.
Variable n_bodies : nat.
Variable sum_of_forces : list (memory aeqR) -> nat -> list R -> R -> outcome vec.
Notation der := (derivatives aeqR Itp itp_df bodies sum_of_forces).
Notation frc := (forced Itp itp_f bodies).
Notation ev := (evaluate aeqR Itp itp_f itp_df bodies sum_of_forces n_bodies).
Notation stp := (step aeqR Itp itp_f itp_df bodies sum_of_forces n_bodies).
Notation rn := (run aeqR Itp itp_f itp_df bodies sum_of_forces n_bodies (fun x _ => x)).
(** What an evaluation should give for the state [k] of the body [i]. *)
Variable flow : R -> list R -> nat -> nat -> R.

Definition near (e : R) (y z : list R) : Prop := forall i k, (i < n_bodies)%nat -> (k < 13)%nat -> Rabs (state_of y i k - state_of z i k) <= e.
Definition within (r : R) (y : list R) : Prop := forall i k, (i < n_bodies)%nat -> (k < 13)%nat -> Rabs (state_of y i k) <= r.

Variables t0 T rho B L eps : R.
Hypothesis B_pos : 0 <= B.
Hypothesis L_pos : 0 <= L.
Hypothesis eps_pos : 0 <= eps <= 1.
(** On the states bounded by [rho]: the derivatives are bounded by [B], and Lipschitz with the constant [L]. *)
Hypothesis flow_bound : forall t y, t0 <= t <= t0 + T -> List.length y = (13 * n_bodies)%nat -> within rho y -> forall i k, (i < n_bodies)%nat -> (k < 13)%nat -> Rabs (flow t y i k) <= B.
Hypothesis flow_lipschitz : forall t t' y y' e, t0 <= t <= t0 + T -> t0 <= t' <= t0 + T -> List.length y = (13 * n_bodies)%nat -> List.length y' = (13 * n_bodies)%nat -> within rho y -> within rho y' -> near e y y' ->
  forall i k, (i < n_bodies)%nat -> (k < 13)%nat -> Rabs (flow t y i k - flow t' y' i k) <= L * (Rabs (t - t') + e).
(** The solution *)
Variable X : R -> list R.
Hypothesis X_length : forall t, t0 <= t <= t0 + T -> List.length (X t) = (13 * n_bodies)%nat.
Hypothesis X_solution : forall t i k, t0 <= t <= t0 + T -> (i < n_bodies)%nat -> (k < 13)%nat -> derivable_pt_lim (fun s => state_of (X s) i k) t (flow t (X t) i k).
Hypothesis X_within : forall t, t0 <= t <= t0 + T -> within (rho - 1) (X t).
(** What an evaluation gives, on states at most 1 from the solution at a date [t'] of the same step (at most [g] before). *)
Variable g : R.
Hypothesis evaluation : forall m y t m' dx t', t0 <= t' <= t -> t - t' <= g -> t <= t0 + T -> List.length y = (13 * n_bodies)%nat -> near 1 y (X t') -> ev m y t = Done m' dx ->
  forall i k, (i < n_bodies)%nat -> (k < 13)%nat -> Rabs (state_of dx i k - flow t y i k) <= eps.

Lemma within_weaken y r r' : within r y -> r <= r' -> within r' y.
Proof. intros H Hr i k Hi Hk. specialize (H i k Hi Hk). lra. Qed.
Lemma near_within e y t : t0 <= t <= t0 + T -> near e y (X t) -> e <= 1 -> within rho y.
Proof. intros Ht Hn He i k Hi Hk. specialize (Hn i k Hi Hk). pose proof (X_within t Ht i k Hi Hk) as W. replace (state_of y i k) with (state_of (X t) i k + (state_of y i k - state_of (X t) i k)) by ring. eapply Rle_trans; [apply Rabs_triang|]. lra. Qed.
Lemma X_in t : t0 <= t <= t0 + T -> within rho (X t).
Proof. intros Ht. apply (within_weaken _ (rho - 1)); [apply X_within; exact Ht|lra]. Qed.
Lemma X_moves t t' : t0 <= t -> t <= t' -> t' <= t0 + T -> near (B * (t' - t)) (X t') (X t).
Proof.
  intros H1 H2 H3 i k Hi Hk. destruct (Rle_lt_or_eq_dec t t' H2) as [Lt|E]; [|subst t'; replace (_ - _) with 0 by ring; rewrite Rabs_R0; nra].
  destruct (MVT_cor2 (fun s => state_of (X s) i k) (fun s => flow s (X s) i k) t t' Lt) as (c & E & Hc); [intros c Hc; apply X_solution; auto; lra|].
  rewrite E, Rabs_mult, (Rabs_right (t' - t)) by lra. apply Rmult_le_compat_r; [lra|]. apply flow_bound; auto; try lra; [apply X_length; lra|apply X_in; lra].
Qed.
Lemma taylor t h i k : t0 <= t -> 0 <= h -> t + h <= t0 + T -> (i < n_bodies)%nat -> (k < 13)%nat ->
  Rabs (state_of (X (t + h)) i k - state_of (X t) i k - h * flow t (X t) i k) <= h * (L * (h + B * h)).
Proof.
  intros H1 H2 H3 Hi Hk. destruct (Rle_lt_or_eq_dec 0 h H2) as [Lt|E]; [|subst h; rewrite Rplus_0_r; replace (_ - _) with 0 by ring; rewrite Rabs_R0; nra].
  destruct (MVT_cor2 (fun s => state_of (X s) i k) (fun s => flow s (X s) i k) t (t + h) ltac:(lra)) as (c & E & Hc); [intros c Hc; apply X_solution; auto; lra|].
  rewrite E. replace (flow c (X c) i k * (t + h - t) - h * flow t (X t) i k) with (h * (flow c (X c) i k - flow t (X t) i k)) by ring. rewrite Rabs_mult, (Rabs_right h) by lra. apply Rmult_le_compat_l; [lra|].
  eapply Rle_trans; [apply (flow_lipschitz c t (X c) (X t) (B * (c - t))); auto; try lra; [apply X_length; lra|apply X_length; lra|apply X_in; lra|apply X_in; lra|apply X_moves; lra]|].
  apply Rmult_le_compat_l; [exact L_pos|]. rewrite Rabs_right by lra. apply Rplus_le_compat; [lra|]. apply Rmult_le_compat_l; lra.
Qed.

(** ** Stages *)
Variable s : method.
Hypothesis s_ok : consistent s.
Notation A := (spread s).
Definition good (t h e : R) (dx : list R) : Prop := forall i k, (i < n_bodies)%nat -> (k < 13)%nat ->
  Rabs (state_of dx i k) <= B + 1 /\ Rabs (state_of dx i k - flow t (X t) i k) <= L * (h + (e + h * (A * (B + 1)))) + eps.
Lemma stages_good x t h e : List.length x = (13 * n_bodies)%nat -> t0 <= t -> 0 <= h <= g -> t + h <= t0 + T -> near e x (X t) -> e + h * (A * (B + 1)) <= 1 ->
  forall cs table m ks m' ks', List.Forall (fun c => 0 <= c <= 1) cs -> (forall row, In row table -> In row (coefficients s)) -> List.length cs = List.length table -> List.Forall (good t h e) ks ->
  stages aeqR frc der n_bodies cs table m x t h ks = Done m' ks' -> List.Forall (good t h e) ks' /\ List.length ks' = (List.length ks + List.length cs)%nat.
Proof.
  intros Lx H1 H2 H3 Hn He. induction cs as [|c cs IH]; intros [|row table] m ks m' ks' Hc Ht Hl Hk H; try discriminate.
  - cbn [stages] in H. injection H as _ <-. split; [exact Hk|]. cbn. lia.
  - apply stage_inv in H as (m1 & k1 & E1 & H). inversion Hc as [|c0 l0 C0 Cs]; subst. cbn [List.length] in Hl. injection Hl as Hl.
    destruct (IH table m1 (ks ++ [k1]) m' ks' Cs (fun r Q => Ht r (or_intror Q)) Hl) as (Q1 & Q2); [|exact H|split; [exact Q1|rewrite Q2, app_length; cbn [List.length]; lia]].
    apply Forall_app. split; [exact Hk|]. constructor; [|constructor].
    set (y := combine_with x h row ks). assert (Ly : List.length y = (13 * n_bodies)%nat) by (unfold y; rewrite combine_with_length; exact Lx).
    assert (Ny : near (e + h * (A * (B + 1))) y (X t)).
    { intros i k Hi Hk'. unfold y. rewrite state_of_combine by (apply (index_ok n_bodies); auto).
      set (sm := fold_right Rplus 0 _). replace (state_of x i k + h * sm - state_of (X t) i k) with ((state_of x i k - state_of (X t) i k) + h * sm) by ring.
      eapply Rle_trans; [apply Rabs_le_sum; apply Hn; assumption|]. apply Rplus_le_compat_l. rewrite Rabs_mult, (Rabs_right h) by lra. apply Rmult_le_compat_l; [exact (proj1 H2)|].
      unfold sm. eapply Rle_trans; [apply (weighted_bound (fun q => state_of q i k) (B + 1) ltac:(lra)); intros q Q; rewrite Forall_forall in Hk; apply (Hk q Q i k Hi Hk')|].
      apply Rmult_le_compat_r; [lra|]. apply spread_row. apply Ht. left. reflexivity. }
    assert (Hch : 0 <= c * h <= h) by (split; nra). assert (Wy : within rho y) by (apply (near_within (e + h * (A * (B + 1))) y t); auto; lra).
    intros i k Hi Hk'. fold y in E1. assert (N1 : near 1 y (X t)) by (intros i' k' Hi' Hk2; specialize (Ny i' k' Hi' Hk2); lra).
    pose proof (evaluation m y (t + c * h) m1 k1 t ltac:(lra) ltac:(lra) ltac:(lra) Ly N1 E1 i k Hi Hk') as V. set (ph := flow (t + c * h) y i k) in V. assert (Rabs ph <= B) by (apply flow_bound; auto; lra). split.
    + replace (state_of k1 i k) with (ph + (state_of k1 i k - ph)) by ring. eapply Rle_trans; [apply Rabs_triang|]. lra.
    + replace (state_of k1 i k - flow t (X t) i k) with ((ph - flow t (X t) i k) + (state_of k1 i k - ph)) by ring. eapply Rle_trans; [apply Rabs_triang|]. apply Rplus_le_compat; [|exact V].
      eapply Rle_trans; [apply (flow_lipschitz (t + c * h) t y (X t) (e + h * (A * (B + 1)))); auto; try lra; [apply X_length; lra|apply X_in; lra]|].
      apply Rmult_le_compat_l; [exact L_pos|]. rewrite Rabs_right by lra. lra.
Qed.
Notation W := (size (weights s)).
(** ** One step *)
Lemma step_error x t h e m m' y : List.length x = (13 * n_bodies)%nat -> t0 <= t -> 0 <= h <= g -> t + h <= t0 + T -> 0 <= e -> near e x (X t) -> e + h * (A * (B + 1)) <= 1 -> stp s m x t h = Done m' y ->
  List.length y = (13 * n_bodies)%nat /\ near ((1 + h * (W * L)) * e + h * (W * eps) + (W * (L * (1 + A * (B + 1))) + L * (1 + B)) * (h * h)) y (X (t + h)).
Proof.
  intros Lx H1 H2 H3 H4 Hn He H. unfold step, do_step in H. destruct s_ok as (S1 & S2 & S3 & S4).
  match type of H with bind _ ?st _ = _ => destruct st as [m4 ks| |] eqn:E; cbn [bind] in H; try discriminate end. injection H as _ <-.
  destruct (stages_good x t h e Lx H1 H2 H3 Hn He _ _ _ _ _ _ S4 (fun r Q => Q) S1 (Forall_nil _) E) as (G & Lk). cbn [List.length Nat.add] in Lk.
  split; [rewrite combine_with_length; exact Lx|]. intros i k Hi Hk. rewrite state_of_combine by (apply (index_ok n_bodies); auto).
  rewrite (weighted_shift (fun q => state_of q i k) (flow t (X t) i k)) by lia. rewrite S3.
  pose proof (weighted_bound (fun q => state_of q i k - flow t (X t) i k) (L * (h + (e + h * (A * (B + 1)))) + eps)) as Wb. specialize (Wb ltac:(pose proof (spread_pos s); apply Rplus_le_le_0_compat; [|lra]; apply Rmult_le_pos; [exact L_pos|]; assert (0 <= A * (B + 1)) by nra; nra)).
  specialize (Wb (weights s) ks). rewrite Forall_forall in G. specialize (Wb (fun q Q => proj2 (G q Q i k Hi Hk))).
  set (sm := fold_right Rplus 0 _) in *. pose proof (taylor t h i k H1 (proj1 H2) H3 Hi Hk) as Ty. pose proof (Hn i k Hi Hk) as N0.
  replace (state_of x i k + h * (1 * flow t (X t) i k + sm) - state_of (X (t + h)) i k) with ((state_of x i k - state_of (X t) i k) + h * sm - (state_of (X (t + h)) i k - state_of (X t) i k - h * flow t (X t) i k)) by ring.
  unfold Rminus at 1. eapply Rle_trans; [apply Rabs_triang|]. rewrite Rabs_Ropp.
  assert (Rabs (state_of x i k - state_of (X t) i k + h * sm) <= e + h * (W * (L * (h + (e + h * (A * (B + 1)))) + eps))).
  { eapply Rle_trans; [apply Rabs_le_sum; exact N0|]. apply Rplus_le_compat_l. rewrite Rabs_mult, (Rabs_right h) by lra. apply Rmult_le_compat_l; [exact (proj1 H2)|exact Wb]. }
  eapply Rle_trans; [apply Rplus_le_compat; [exact H|exact Ty]|]. apply Req_le. ring.
Qed.

(** ** Any number of steps, from states at most [d] from those of the solution: the error is at most C (h + eps + d), as long as C (h + eps + d) + h A (B + 1) is at most 1. *)
Notation K := (W * (L * (1 + A * (B + 1))) + L * (1 + B)).
Notation Lam := (W * L).
Definition C : R := ((K + W) * T + 1) * exp (Lam * T).
Lemma constants_pos : 0 <= K /\ 0 <= Lam /\ 0 <= A * (B + 1) /\ 0 <= W.
Proof.
  pose proof (spread_pos s). pose proof (size_pos (weights s)). assert (0 <= A * (B + 1)) by nra. assert (0 <= L * (1 + A * (B + 1))) by nra. assert (0 <= L * (1 + B)) by nra. assert (0 <= W * (L * (1 + A * (B + 1)))) by nra. repeat split; nra.
Qed.
Lemma exp_step a : 0 <= a -> 1 + a <= exp a.
Proof. intros H. destruct (Rle_lt_or_eq_dec 0 a H) as [P|<-]; [left; apply exp_ineq1; lra|rewrite exp_0; lra]. Qed.
Lemma exp_mono a b : a <= b -> exp a <= exp b.
Proof. intros H. destruct (Rle_lt_or_eq_dec a b H) as [P|<-]; [left; apply exp_increasing; exact P|lra]. Qed.
Lemma error_below h d v : 0 <= h -> 0 <= d -> 0 <= v <= T -> (d + (K * h + W * eps) * v) * exp (Lam * v) <= C * (h + eps + d).
Proof.
  intros Hh Hd Hv. destruct constants_pos as (Kp & Lp & _ & Wp). unfold C. replace (((K + W) * T + 1) * exp (Lam * T) * (h + eps + d)) with ((((K + W) * T + 1) * (h + eps + d)) * exp (Lam * T)) by ring.
  assert (0 <= K * h) by (apply Rmult_le_pos; lra). assert (0 <= W * eps) by (apply Rmult_le_pos; lra). assert (0 <= (K * h + W * eps) * v) by (apply Rmult_le_pos; lra).
  apply Rmult_le_compat; [lra|left; apply exp_pos| |apply exp_mono; apply Rmult_le_compat_l; lra].
  assert ((K * h + W * eps) * v <= (K * h + W * eps) * T) by (apply Rmult_le_compat_l; lra).
  assert (0 <= T) by lra. set (k := K) in *. assert (0 <= k * eps) by nra. assert (0 <= W * h) by nra. assert (0 <= (k * eps + W * h) * T) by (apply Rmult_le_pos; lra). assert (0 <= (k + W) * T * d) by (apply Rmult_le_pos; [apply Rmult_le_pos; lra|lra]). nra.
Qed.
Lemma run_error : forall n m x h d m' y, List.length x = (13 * n_bodies)%nat -> 0 <= d -> near d x (X t0) -> 0 <= h <= g -> INR n * h <= T -> C * (h + eps + d) + h * (A * (B + 1)) <= 1 ->
  rn s n m x t0 h = Done m' y -> List.length y = (13 * n_bodies)%nat /\ near ((d + (K * h + W * eps) * (INR n * h)) * exp (Lam * (INR n * h))) y (X (t0 + INR n * h)).
Proof.
  intros n m x h d m' y Lx Pd E0 Hh. destruct constants_pos as (Kp & Lp & Ap & Wp). revert m' y. induction n as [|n IH]; intros m' y Hn Hs H.
  - unfold run in H. cbn [steps] in H. injection H as _ <-. split; [exact Lx|]. cbn [INR]. intros i k Hi Hk. replace (t0 + 0 * h) with t0 by ring. rewrite Rmult_0_l, !Rmult_0_r, exp_0. specialize (E0 i k Hi Hk). lra.
  - unfold run in H. apply steps_last in H as (m1 & x1 & x2 & H1 & H2 & ->). cbn [Nat.add] in H2. rewrite S_INR in Hn |- *. pose proof (pos_INR n) as Pn.
    destruct (IH m1 x1 ltac:(nra) Hs H1) as (L1 & N1). set (e := (d + (K * h + W * eps) * (INR n * h)) * exp (Lam * (INR n * h))) in *. set (Q := K * h + W * eps) in *.
    assert (PQ : 0 <= Q) by (unfold Q; pose proof (Rmult_le_pos K h Kp (proj1 Hh)); pose proof (Rmult_le_pos W eps Wp (proj1 eps_pos)); lra).
    assert (Tp : 0 <= INR n * h <= T) by nra. pose proof (exp_pos (Lam * (INR n * h))) as P1. assert (PQn : 0 <= Q * (INR n * h)) by (apply Rmult_le_pos; lra). assert (Pe : 0 <= e) by (unfold e; apply Rmult_le_pos; lra).
    assert (Le : e <= C * (h + eps + d)) by (apply error_below; lra).
    destruct (step_error x1 (t0 + INR n * h) h e m1 m' x2 L1 ltac:(lra) Hh ltac:(lra) Pe N1 ltac:(lra) H2) as (L2 & N2). split; [exact L2|].
    intros i k Hi Hk. specialize (N2 i k Hi Hk). replace (t0 + (INR n + 1) * h) with (t0 + INR n * h + h) by ring. eapply Rle_trans; [exact N2|].
    replace (Lam * ((INR n + 1) * h)) with (Lam * (INR n * h) + Lam * h) by ring. rewrite exp_plus.
    assert (Eh : 1 + Lam * h <= exp (Lam * h)) by (apply exp_step; nra).
    assert (E1 : 1 <= exp (Lam * (INR n * h))) by (pose proof (exp_step (Lam * (INR n * h)) ltac:(nra)); assert (0 <= Lam * (INR n * h)) by nra; lra).
    set (E' := exp (Lam * (INR n * h))) in *. set (Fh := exp (Lam * h)) in *.
    assert (Q1 : (1 + h * Lam) * e <= (d + Q * (INR n * h)) * (E' * Fh)).
    { unfold e. replace ((d + Q * (INR n * h)) * (E' * Fh)) with (Fh * ((d + Q * (INR n * h)) * E')) by ring. apply Rmult_le_compat_r; [exact Pe|]. lra. }
    assert (Q2 : h * (W * eps) + K * (h * h) <= Q * h * (E' * Fh)).
    { assert (1 <= E' * Fh) by (assert (1 <= Fh) by nra; nra). assert (0 <= Q * h) by nra. replace (h * (W * eps) + K * (h * h)) with (Q * h * 1) by (unfold Q; ring). apply Rmult_le_compat_l; assumption. }
    replace ((d + Q * ((INR n + 1) * h)) * (E' * Fh)) with ((d + Q * (INR n * h)) * (E' * Fh) + Q * h * (E' * Fh)) by ring. lra.
Qed.
Lemma C_pos : 0 <= T -> 0 <= C.
Proof. intros HT. destruct constants_pos as (Kp & Lp & Ap & Wp). unfold C. pose proof (exp_pos (Lam * T)). assert (0 <= (K + W) * T) by (apply Rmult_le_pos; lra). apply Rmult_le_pos; lra. Qed.
Theorem run_robust : 0 <= T -> forall n m x h d m' y, List.length x = (13 * n_bodies)%nat -> 0 <= d -> near d x (X t0) -> 0 <= h <= g -> INR n * h <= T -> (C + A * (B + 1)) * (h + eps + d) <= 1 ->
  rn s n m x t0 h = Done m' y -> near (C * (h + eps + d)) y (X (t0 + INR n * h)).
Proof.
  intros HT n m x h d m' y Lx Pd E0 Hh Hn Hs H. destruct constants_pos as (Kp & Lp & Ap & Wp).
  destruct (run_error n m x h d m' y Lx Pd E0 Hh Hn) as (_ & N); [|exact H|].
  - assert (h * (A * (B + 1)) <= A * (B + 1) * (h + eps + d)) by (rewrite Rmult_comm; apply Rmult_le_compat_l; lra). lra.
  - intros i k Hi Hk. eapply Rle_trans; [apply (N i k Hi Hk)|]. pose proof (pos_INR n). apply error_below; nra.
Qed.
End Converge.
