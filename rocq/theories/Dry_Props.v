(** C177: simulations without wave model; C178: the rudder and the waves. *)
From Coq Require Import ZArith Reals Lra Lia List String Bool.
From Verif Require Import Common Wave_Model Wave_Surface_Props Geometry Force_Model Hull_Model Mesh_Model Mesh_Spec Closing_Model Froude_Model Dry_Model.
Import ListNotations.
Open Scope R_scope.
Open Scope list_scope.

(** A model that only makes sense with a free surface *)
Definition needs_waves (f : force) : Prop := match f with Other _ _ => False | _ => True end.
Definition refused (fs : list force) : Prop := construct None fs <> None.
(** No evaluation, at any number of instants, is undefined behaviour. *)
Section Props.
Variables rho g : R.
Variable with_waves : force -> sea -> instant -> inter -> outcome torsor.
Notation evals := (evaluations rho g with_waves).

(** Exactly the five models that test it are refused. *)
Theorem refused_without_waves : forall fs, refused fs <-> exists f, In f fs /\ checked f = true.
Proof.
  intros fs. unfold refused. induction fs as [|f fs IH]; cbn [construct].
  - split; [intros H; contradiction|intros (f & [] & _)].
  - destruct (checked f) eqn:C; [split; [exists f; split; [left; reflexivity|exact C]|discriminate]|]. rewrite IH. split.
    + intros (f' & H & C'). exists f'. split; [right; exact H|exact C'].
    + intros (f' & [<-|H] & C'); [congruence|]. exists f'. split; assumption.
Qed.
(** With any wave model, "no waves" included, nothing is refused for that reason. *)
Theorem accepted_with_waves : forall s fs, construct (Some s) fs = None.
Proof. intros s fs. induction fs as [|f fs IH]; [reflexivity|exact IH]. Qed.

Lemma fresh_center m : center_of_mass_immersed (intersector m) = Ok (intersector m, (v0, 0, false)).
Proof. reflexivity. Qed.
Lemma evaluate_dry f i m : checked f = false -> (forall l, f <> Linear l) -> (forall n h j, f = Other n h -> h j <> UB) ->
  match evaluate rho g with_waves None f i (intersector m) with Ok x => fst x = intersector m | Throw => True | UB => False end.
Proof.
  intros C L O. destruct f; try discriminate C; cbn [evaluate].
  - destruct (L m0); reflexivity.
  - rewrite fresh_center. reflexivity.
  - specialize (O _ _ i eq_refl). destruct (f i) as [x| |]; cbn [bindO]; [reflexivity|exact I|contradiction].
Qed.
(** What holds: a simulation that was not refused, without linear hydrostatics, never uses the wave model that does not exist. *)
Theorem no_waves_partial : forall fs m l, ~ refused fs -> (forall h, ~ In (Linear h) fs) -> (forall n h j, In (Other n h) fs -> h j <> UB) ->
  evals None fs l (intersector m) <> UB.
Proof.
  intros fs m l Rf L O.
  assert (forall i, match evaluate_all rho g with_waves None fs i (intersector m) with Ok x => fst x = intersector m | Throw => True | UB => False end) as A.
  { intros i. assert (forall f, In f fs -> checked f = false) as C.
    { intros f H. destruct (checked f) eqn:E; [|reflexivity]. exfalso. apply Rf. apply refused_without_waves. eauto. }
    clear Rf. induction fs as [|f fs IH]; cbn [evaluate_all]; [reflexivity|].
    pose proof (evaluate_dry f i m (C f (or_introl eq_refl)) ltac:(intros h ->; apply (L h); left; reflexivity) ltac:(intros n h j ->; apply (O n); left; reflexivity)) as G.
    destruct (evaluate rho g with_waves None f i (intersector m)) as [x| |]; cbn [bindO]; [|exact I|exact G]. rewrite G.
    specialize (IH ltac:(intros h H; apply (L h); right; exact H) ltac:(intros n h j H; apply (O n); right; exact H) ltac:(intros; apply C; right; assumption)).
    destruct (evaluate_all rho g with_waves None fs i (intersector m)) as [y| |]; cbn [bindO]; [exact IH|exact I|exact IH]. }
  induction l as [|(i, st) l IH]; cbn [evaluations update_hull bindO]; [discriminate|]. specialize (A i). destruct (evaluate_all rho g with_waves None fs i (intersector m)) as [x| |]; cbn [bindO]; [|discriminate|contradiction].
  rewrite A. destruct (evals None fs l (intersector m)); cbn [bindO]; congruence.
Qed.
(** What does not (1): the linear hydrostatic model is accepted without wave model, and uses it at the first evaluation. *)
Theorem linear_hydrostatics_without_waves_refuted : forall h i st l m, ~ refused [Linear h] /\ evals None [Linear h] ((i, st) :: l) (intersector m) = UB.
Proof. intros. split; [intros H; apply H; reflexivity|reflexivity]. Qed.
(** What does not (2): the model "hydrostatic" is accepted without wave model, and gives no force at all, wherever the hull is, at every instant: the hull sinks. *)
Theorem hydrostatic_without_waves_refuted : forall m l, ~ refused [Hydrostatic] /\ evals None [Hydrostatic] l (intersector m) = Ok (map (fun _ => [(v0, v0)]) l).
Proof.
  intros m l. split; [intros H; apply H; reflexivity|]. induction l as [|(i, st) l IH]; [reflexivity|]. cbn [evaluations update_hull bindO evaluate_all evaluate map]. rewrite fresh_center. cbn [bindO fst snd].
  rewrite IH. cbn [bindO]. f_equal. f_equal. f_equal. unfold hydrostatic. apply f_equal2.
  - destruct (in_T i) as [[[a1 a2 a3] [b1 b2 b3] [c1 c2 c3]] p]. unfold transpose, mapply, dot, v0. apply vec_eq; cbn [vx vy vz r1 r2 r3 t_rot]; ring.
  - destruct (in_T i) as [[[a1 a2 a3] [b1 b2 b3] [c1 c2 c3]] p], (in_G i) as [x y z]. unfold transpose, mapply, dot, vsub, cross, v0. apply vec_eq; cbn [vx vy vz r1 r2 r3 t_rot]; ring.
Qed.
(** In calm water the linear model is evaluated. *)
Theorem linear_hydrostatics_in_calm_water : forall h level i, exists x, linear_evaluation h (Some (Calm level)) i = Ok x.
Proof. intros. eexists. unfold linear_evaluation. cbn [map sea_height]. reflexivity. Qed.
End Props.
Print Assumptions refused_without_waves.
Print Assumptions accepted_with_waves.
Print Assumptions no_waves_partial.
Print Assumptions linear_hydrostatics_without_waves_refuted.
Print Assumptions hydrostatic_without_waves_refuted.
Print Assumptions linear_hydrostatics_in_calm_water.

(** The message should tell which model is refused. It does for Froude-Krylov only: the four others give the same message, without the name of any model. *)
Theorem refusal_names_the_model_refuted : forall f, In f [Exact; Fast; Diffraction; Gm] ->
  refusal f = "Force model '1' needs a wave model, even if it's 'no waves'"%string /\ forall g, In g [Exact; Fast; Diffraction; Gm] -> String.index 0 (name g) (refusal f) = None.
Proof.
  intros f H. split.
  - cbn [In] in H. destruct H as [<-|[<-|[<-|[<-|[]]]]]; reflexivity.
  - intros h Hg. cbn [In] in H, Hg. destruct H as [<-|[<-|[<-|[<-|[]]]]]; destruct Hg as [<-|[<-|[<-|[<-|[]]]]]; vm_compute; reflexivity.
Qed.
Theorem refusal_names_the_model_partial : exists n, String.index 0 (name FroudeKrylov) (refusal FroudeKrylov) = Some n.
Proof. eexists. vm_compute. reflexivity. Qed.
Print Assumptions refusal_names_the_model_refuted.
Print Assumptions refusal_names_the_model_partial.

(** A falling ball (tutorial 1: gravity only) meets the hypotheses of [no_waves_partial], and so does a hull with gravity and "hydrostatic". *)
Example falling_ball : let weight := Other "gravity"%string (fun i => Ok (V3 0 0 981, v0)) in
  ~ refused [weight; Hydrostatic] /\ (forall h, ~ In (Linear h) [weight; Hydrostatic]) /\ (forall n h j, In (Other n h) [weight; Hydrostatic] -> h j <> UB) /\ refused [weight; Fast].
Proof.
  cbv zeta. split; [intros H; apply H; reflexivity|]. split; [intros h [H|[H|[]]]; discriminate|]. split; [|discriminate].
  intros n h j [H|[H|[]]]; [|discriminate]. injection H as <- <-. discriminate.
Qed.

(** ** C178 *)
(** The user's guide (modeles_environnementaux.md line 9) says that the rudder feels the orbital velocities. Two seas, one where the water does not move,
    one where it moves at 9.81 m/s at the rudder, give the same efforts for every rudder, propeller, speed and command (and so does the absence of a wave model). *)
Theorem rudder_feels_the_waves_refuted : exists swell a b c, surface_orbital_velocity swell (981 / 100) [0] [0] [1] 0 [0] = Ok [(a, b, c)] /\ a = 981 / 100 /\
  forall w p m u v rpm beta, propeller_and_rudder_in (Some (Waves swell)) p m u v rpm beta = propeller_and_rudder_in w p m u v rpm beta.
Proof.
  exists [one_wave (fun _ _ _ => 1) (fun _ _ _ => 1) (PI / 2)]. do 3 eexists. split; [|split; [|reflexivity]].
  - unfold surface_orbital_velocity. cbn [velocity_loop List.length repeat]. unfold get_orbital_velocity. cbn [List.length Nat.eqb negb orb combine mapM fst snd]. unfold orbital_velocity1.
    destruct (Rltb 1 0) eqn:Q; [unfold Rltb in Q; destruct (Rlt_dec 1 0); [lra|discriminate]|]. cbn [one_wave f_psi f_omega f_k f_a f_cos f_sin f_phase f_pdyn f_pdyn_sh List.length seq accM at_ub nth_error bindO angle fst snd mapM repeat]. reflexivity.
  - rewrite cos_0, sin_0. replace (- (1 * 0) + 1 * (0 * 1 + 0 * 0) + PI / 2) with (PI / 2) by ring. rewrite sin_PI2. field.
Qed.
(** The public function that gives the speed of the ship in the water reads a variable before it has a value, whatever its arguments. *)
Theorem ship_speed_refuted : forall w T P u v w0 t, get_ship_speed w T P u v w0 t = UB.
Proof. intros. reflexivity. Qed.
Print Assumptions rudder_feels_the_waves_refuted.
Print Assumptions ship_speed_refuted.
