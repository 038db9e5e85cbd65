(** Properties C107 (force models of the input), C108 (length of the history), C109 (initial states), C110 (rotation conventions) and C111 (wave model). *)
From Coq Require Import Reals Lra List Arith Bool Lia String.
From Verif Require Import Common Geometry Grpc_Spec Attitude_Props Blocked_Model Sim_Model Sim_Spec Sim_Proofs Blocked_Proofs Matrix_Model Inertia_Model Inertia_Spec Inertia_Props Builder_Model Builder_Spec Builder_Attitude_Proofs Builder_Proofs.
Import ListNotations.
Open Scope R_scope.

Lemma Forall2_nth_l : forall {A B} (P : A -> B -> Prop) l m, Forall2 P l m -> forall k a, nth_error l k = Some a -> exists b, nth_error m k = Some b /\ P a b.
Proof. intros A B P l m H. induction H; intros [|k] a E; cbn in E; try discriminate; [injection E as <-; eexists; split; [reflexivity|assumption]|apply IHForall2; exact E]. Qed.
Lemma Forall2_len : forall {A B} (P : A -> B -> Prop) l m, Forall2 P l m -> List.length l = List.length m.
Proof. intros A B P l m H. induction H; cbn; congruence. Qed.

Lemma history_set : forall h k v n, history_of (map_set h k v) n = if string_dec k n then v else history_of h n.
Proof. intros. unfold history_of. rewrite map_get_set. destruct (string_dec k n); reflexivity. Qed.

Section Build.
Context {Env Wave Mesh Dof Blocked : Type}.
Variable blocked_dof : Dof -> nat -> outcome Blocked.
Variable make_env : option Wave -> Env.
Variables (waves : list (@wave_parser Wave)) (external controllable : list (@parser Env)).
Notation build := (build blocked_dof make_env waves external controllable).

Lemma build_inv : forall (input : @yaml_input Mesh Dof) s, build input = Ok s ->
  exists meshes forces controlled,
  make_mesh_map (y_bodies input) [] = Ok meshes /\
  get_wave waves (y_environment input) = Ok (s_wave s) /\
  get_forces external y_external (y_bodies input) (make_env (s_wave s)) = Ok forces /\
  get_forces controllable y_controlled (y_bodies input) (make_env (s_wave s)) = Ok controlled /\
  get_bodies blocked_dof (y_rotations input) (y_bodies input) meshes (are_there_surface_forces_acting_on_body forces) (get_max_history_length forces controlled) 0 = Ok (s_bodies s) /\
  get_initial_states (y_rotations input) (y_bodies input) = Ok (s_state s) /\
  s_forces s = indexed (map y_name (y_bodies input)) forces [] /\ s_controlled s = indexed (map y_name (y_bodies input)) controlled [].
Proof.
  intros input s H. unfold Builder_Model.build in H. destruct (make_mesh_map (y_bodies input) []) as [meshes| |] eqn:MM; cbn in H; try discriminate.
  unfold build_with in H. destruct (get_wave waves (y_environment input)) as [w| |] eqn:W; cbn in H; try discriminate.
  destruct (get_forces external y_external (y_bodies input) (make_env w)) as [forces| |] eqn:F; cbn in H; try discriminate.
  destruct (get_forces controllable y_controlled (y_bodies input) (make_env w)) as [controlled| |] eqn:C; cbn in H; try discriminate.
  destruct (get_bodies _ _ _ _ _ _ _) as [bodies| |] eqn:B in H; cbn in H; try discriminate.
  destruct (get_initial_states (y_rotations input) (y_bodies input)) as [x| |] eqn:X; cbn in H; try discriminate.
  destruct (index_forces bodies forces controlled 0 ([], [])) as [fs| |] eqn:I1; cbn in H; try discriminate. injection H as <-. cbn [s_wave s_bodies s_forces s_controlled s_state].
  exists meshes, forces, controlled. apply index_forces_spec in I1 as E; [|eapply index_forces_lengths; exact I1].
  rewrite (get_bodies_names _ _ _ _ _ _ _ _ B) in E. rewrite E. cbn. repeat split; assumption.
Qed.
Lemma names_of_forces : forall (ps : list (@parser Env)) section env (bodies : list (@yaml_body Mesh Dof)) ls, get_forces ps section bodies env = Ok ls ->
  Forall2 (fun n l => Forall (fun f => f_body f = n) l) (map y_name bodies) ls.
Proof.
  intros ps section env bodies ls H. apply get_forces_inv in H. induction H as [|b l bodies ls E _ IH]; [apply Forall2_nil|]. cbn [map]. apply Forall2_cons; [|exact IH].
  eapply forces_from_body; [exact E|apply Forall_nil].
Qed.

(** ** C107 *)
(** Each model of the file gives one force, on the body which declares it, in the order of the file. *)
Theorem every_model_of_the_file_acts_once : forall (input : @yaml_input Mesh Dof) s, build input = Ok s ->
  NoDup (map p_name external) -> NoDup (map p_name controllable) -> NoDup (map y_name (y_bodies input)) ->
  forall b, In b (y_bodies input) ->
  Forall2 (made_from external (make_env (s_wave s)) (y_name b)) (y_external b) (forces_on (s_forces s) (y_name b)) /\
  Forall2 (made_from controllable (make_env (s_wave s)) (y_name b)) (y_controlled b) (forces_on (s_controlled s) (y_name b)).
Proof.
  intros input s H D1 D2 D3 b Hb. destruct (build_inv input s H) as (meshes & forces & controlled & _ & _ & F & C & _ & _ & -> & ->).
  apply In_nth_error in Hb. destruct Hb as [k Hk]. apply get_forces_inv in F. apply get_forces_inv in C.
  destruct (Forall2_nth_l _ _ _ F k b Hk) as (l & Hl & Fl). destruct (Forall2_nth_l _ _ _ C k b Hk) as (c & Hc & Fc).
  assert (nth_error (map y_name (y_bodies input)) k = Some (y_name b)) as Hn by (apply map_nth_error; exact Hk).
  unfold forces_on. rewrite (indexed_nth _ _ [] _ _ _ D3 Hn Hl), (indexed_nth _ _ [] _ _ _ D3 Hn Hc).
  destruct (forces_from_inv _ _ _ D1 _ _ _ Fl) as (l' & -> & Pl). destruct (forces_from_inv _ _ _ D2 _ _ _ Fc) as (c' & -> & Pc). split; assumption.
Qed.
(** Models which the simulator does not know are refused. *)
Theorem unknown_model_is_refused : forall (input : @yaml_input Mesh Dof) b m, In b (y_bodies input) ->
  In m (y_external b) /\ ~ In (ym_model m) (map p_name external) \/ In m (y_controlled b) /\ ~ In (ym_model m) (map p_name controllable) ->
  forall s, build input <> Ok s.
Proof.
  intros input b m Hb Hm s H. destruct (build_inv input s H) as (meshes & forces & controlled & _ & _ & F & C & _). apply In_nth_error in Hb. destruct Hb as [k Hk].
  apply get_forces_inv in F. apply get_forces_inv in C. destruct (Forall2_nth_l _ _ _ F k b Hk) as (l & _ & Fl). destruct (Forall2_nth_l _ _ _ C k b Hk) as (c & _ & Fc).
  destruct Hm as [[I1 N]|[I1 N]]; [exact (forces_from_unknown _ _ _ _ _ _ _ I1 N Fl)|exact (forces_from_unknown _ _ _ _ _ _ _ I1 N Fc)].
Qed.
(** Bodies come in the order of the file, with their place in the state vector; the waterline of a body is computed when one of its models needs it. *)
Theorem bodies_are_built_in_order : forall (input : @yaml_input Mesh Dof) s, build input = Ok s ->
  List.length (s_bodies s) = List.length (y_bodies input) /\
  forall k b, nth_error (y_bodies input) k = Some b -> exists x, nth_error (s_bodies s) k = Some x /\
    b_name x = y_name b /\ b_idx x = k /\ b_velocity x = y_velocity b /\ t_point (b_frame x) = y_mesh_position b /\
    add_inertia (y_inertia b) (y_added b) = Ok (b_inertia x) /\ blocked_dof (y_blocked b) k = Ok (b_blocked x) /\
    (NoDup (map y_name (y_bodies input)) -> y_mesh b = Ok (b_mesh x) /\
      (b_surface x = true <-> exists f, In f (forces_on (s_forces s) (y_name b)) /\ f_surface f = true)).
Proof.
  intros input s H. destruct (build_inv input s H) as (meshes & forces & controlled & M & _ & F & C & B & _ & Fs & _). destruct (get_bodies_inv _ _ _ _ _ _ _ _ B) as [Len Nth].
  split; [exact Len|]. intros k b Hk. destruct (Nth k b Hk) as (mesh & su & x & Mg & Su & Hx & Bx). cbn in Su. exists x. split; [exact Hx|].
  apply build_body_inv in Bx. destruct Bx as (rot & i & bl & _ & I1 & I2 & ->). cbn. repeat (split; [reflexivity || assumption|]). intros D. split.
  - clear - M Mg D Hk.
    assert (K : forall bodies m meshes, make_mesh_map bodies m = Ok meshes -> NoDup (map y_name bodies) ->
      (forall n, ~ In n (map y_name bodies) -> map_get meshes n = map_get m n) /\
      forall k (b : @yaml_body Mesh Dof) mesh, nth_error bodies k = Some b -> map_get meshes (y_name b) = Some mesh -> y_mesh b = Ok mesh).
    { induction bodies as [|a r IH]; intros m ms E ND; cbn [make_mesh_map] in E.
      - injection E as <-. split; [reflexivity|]. intros [|k'] b' mesh' Hk'; discriminate Hk'.
      - destruct (y_mesh a) as [ma| |] eqn:Ea; cbn in E; try discriminate. inversion ND as [|? ? N ND']; subst. destruct (IH _ _ E ND') as [Oth Val]. split.
        + intros n Hn. rewrite Oth by (intros X; apply Hn; right; exact X). rewrite map_get_set. destruct (string_dec (y_name a) n) as [X|]; [exfalso; apply Hn; left; exact X|reflexivity].
        + intros [|k'] b' mesh' Hk' G; cbn in Hk'; [|eapply Val; eassumption]. injection Hk' as <-. rewrite Oth in G by exact N. rewrite map_get_set in G.
          destruct (string_dec (y_name a) (y_name a)); [|congruence]. rewrite Ea. congruence. }
    exact (proj2 (K _ _ _ M D) k b mesh Hk Mg).
  - unfold are_there_surface_forces_acting_on_body in Su. rewrite nth_error_map in Su. destruct (nth_error forces k) as [l|] eqn:El; cbn in Su; [|discriminate]. injection Su as <-.
    rewrite Fs. unfold forces_on. rewrite (indexed_nth _ _ [] k (y_name b) l D); [|apply map_nth_error; exact Hk|exact El].
    assert (K : forall l b0, fold_left (fun b f => (b || f_surface f)%bool) l b0 = true <-> b0 = true \/ exists f, In f l /\ f_surface f = true).
    { clear. induction l as [|f r IH]; intros b0; cbn [fold_left].
      - split; [left; assumption|]. intros [X|(f & [] & _)]. exact X.
      - rewrite IH. split.
        + intros [X|(g & Hg & Sg)]; [apply orb_true_iff in X; destruct X as [X|X]; [left; exact X|right; exists f; split; [left; reflexivity|exact X]]|right; exists g; split; [right; exact Hg|exact Sg]].
        + intros [X|(g & [<-|Hg] & Sg)]; [left; rewrite X; reflexivity|left; rewrite Sg; apply orb_true_r|right; exists g; split; assumption]. }
    rewrite K. split; [intros [X|X]; [discriminate X|exact X]|intros X; right; exact X].
Qed.

(** ** C108 *)
Theorem history_is_long_enough : forall (input : @yaml_input Mesh Dof) s, build input = Ok s -> forall x, In x (s_bodies s) -> forall f,
  In f (forces_on (s_forces s) (b_name x)) \/ In f (forces_on (s_controlled s) (b_name x)) -> f_Tmax f <= b_Tmax x.
Proof.
  intros input s H x Hx f Hf. destruct (build_inv input s H) as (meshes & forces & controlled & _ & _ & F & C & B & _ & Fs & Cs).
  apply In_nth_error in Hx. destruct Hx as [k Hk]. destruct (get_bodies_inv _ _ _ _ _ _ _ _ B) as [Len Nth].
  assert (k < List.length (y_bodies input))%nat as Lk by (rewrite <- Len; apply nth_error_Some; congruence). destruct (nth_error (y_bodies input) k) as [b|] eqn:Eb; [|apply nth_error_None in Eb; lia].
  destruct (Nth k b Eb) as (mesh & su & x' & _ & _ & E & Bx). rewrite Hk in E. injection E as <-. apply build_body_inv in Bx. destruct Bx as (rot & i & bl & _ & _ & _ & ->). cbn in *.
  apply names_of_forces in F. apply names_of_forces in C. rewrite Fs, Cs in Hf. unfold get_max_history_length.
  destruct (history_external _ _ F [] []) as [P1 P2]; [intros n g []|intros; cbn; unfold history_of; cbn; lra|].
  destruct Hf as [Hf|Hf].
  - eapply Rle_trans; [apply P1; exact Hf|]. apply controlled_mono.
  - eapply history_controlled; [exact C| |exact Hf]. intros n g [].
Qed.
(** and no longer than one of its models requires. *)
Theorem history_is_not_too_long : forall (input : @yaml_input Mesh Dof) s, build input = Ok s -> NoDup (map y_name (y_bodies input)) -> forall x, In x (s_bodies s) ->
  b_Tmax x = 0 \/ exists f, (In f (forces_on (s_forces s) (b_name x)) \/ In f (forces_on (s_controlled s) (b_name x))) /\ b_Tmax x = f_Tmax f.
Proof.
  intros input s H D x Hx. destruct (build_inv input s H) as (meshes & forces & controlled & _ & _ & F & C & B & _ & Fs & Cs).
  apply In_nth_error in Hx. destruct Hx as [k Hk]. destruct (get_bodies_inv _ _ _ _ _ _ _ _ B) as [Len Nth].
  assert (k < List.length (y_bodies input))%nat as Lk by (rewrite <- Len; apply nth_error_Some; congruence). destruct (nth_error (y_bodies input) k) as [b|] eqn:Eb; [|apply nth_error_None in Eb; lia].
  destruct (Nth k b Eb) as (mesh & su & x' & _ & _ & E & Bx). rewrite Hk in E. injection E as <-. apply build_body_inv in Bx. destruct Bx as (rot & i & bl & _ & _ & _ & ->). cbn in *.
  apply names_of_forces in F. apply names_of_forces in C. rewrite Fs, Cs. unfold get_max_history_length. generalize (y_name b) as n0. clear - F C D. intros n0.
  set (names := map y_name (y_bodies input)) in *. clearbody names.
  assert (K : forall names ls, Forall2 (fun n l => Forall (fun f => f_body f = n) l) names ls -> NoDup names -> forall m h n,
    (~ In n names -> history_of (fold_left record_external ls h) n = history_of h n) /\
    (In n names -> history_of (fold_left record_external ls h) n = history_of h n \/ exists f, In f (forces_on (indexed names ls m) n) /\ (history_of (fold_left record_external ls h) n = f_Tmax f \/ history_of (fold_left record_external ls h) n = 0))).
  { clear. intros names ls HF. induction HF as [|n1 l names ls Hl HF IH]; intros ND m h n; [split; [reflexivity|intros []]|]. inversion ND as [|? ? N ND']; subst. cbn [indexed fold_left].
    destruct (IH ND' (map_set m n1 l) (record_external h l) n) as [I1 I2]. split.
    - intros Hn. rewrite I1 by (intros X; apply Hn; right; exact X). unfold record_external. destruct l as [|g l]; [reflexivity|]. inversion Hl; subst. unfold history_of. rewrite map_get_set.
      destruct (string_dec (f_body g) n) as [X|]; [exfalso; apply Hn; left; exact X|reflexivity].
    - intros [<-|Hn].
      + rewrite I1 by exact N. destruct l as [|g l]; [left; reflexivity|]. right. unfold forces_on. rewrite indexed_other by exact N. rewrite map_get_set. destruct (string_dec n1 n1); [|congruence].
        inversion Hl; subst. unfold record_external, history_of. rewrite map_get_set. destruct (string_dec (f_body g) (f_body g)); [|congruence].
        destruct (longest_least (g :: l)) as [E|(f & Hf & E)]; rewrite E; [exists g; split; [left; reflexivity|right; reflexivity]|exists f; split; [exact Hf|left; reflexivity]].
      + destruct (string_dec n1 n) as [X|X]; [subst; contradiction|]. assert (history_of (record_external h l) n = history_of h n) as E.
        { unfold record_external. destruct l as [|g l]; [reflexivity|]. inversion Hl; subst. unfold history_of. rewrite map_get_set. destruct (string_dec (f_body g) n); [contradiction|reflexivity]. }
        rewrite E in I2. apply I2. exact Hn. }
  assert (K2 : forall names ls, Forall2 (fun n l => Forall (fun f => f_body f = n) l) names ls -> NoDup names -> forall m h n,
    (~ In n names -> history_of (fold_left record_controlled ls h) n = history_of h n) /\
    (In n names -> history_of (fold_left record_controlled ls h) n = history_of h n \/ exists f, In f (forces_on (indexed names ls m) n) /\ (history_of (fold_left record_controlled ls h) n = f_Tmax f \/ history_of (fold_left record_controlled ls h) n = 0))).
  { clear. intros names ls HF. induction HF as [|n1 l names ls Hl HF IH]; intros ND m h n; [split; [reflexivity|intros []]|]. inversion ND as [|? ? N ND']; subst. cbn [indexed fold_left].
    destruct (IH ND' (map_set m n1 l) (record_controlled h l) n) as [I1 I2]. split.
    - intros Hn. rewrite I1 by (intros X; apply Hn; right; exact X). unfold record_controlled. destruct l as [|g l]; [reflexivity|]. inversion Hl; subst. unfold history_of. rewrite map_get_set.
      destruct (string_dec (f_body g) n) as [X|]; [exfalso; apply Hn; left; exact X|reflexivity].
    - intros [<-|Hn].
      + rewrite I1 by exact N. destruct l as [|g l]; [left; reflexivity|]. unfold forces_on. rewrite indexed_other by exact N. rewrite map_get_set. destruct (string_dec n1 n1); [|congruence].
        inversion Hl; subst. unfold record_controlled. rewrite !history_set. destruct (string_dec (f_body g) (f_body g)); [|congruence].
        destruct (std_max_either (longest (g :: l)) (history_of h (f_body g))) as [E|E]; rewrite E; [|left; reflexivity]. right.
        destruct (longest_least (g :: l)) as [E'|(f & Hf & E')]; rewrite E'; [exists g; split; [left; reflexivity|right; reflexivity]|exists f; split; [exact Hf|left; reflexivity]].
      + destruct (string_dec n1 n) as [X|X]; [subst; contradiction|]. assert (history_of (record_controlled h l) n = history_of h n) as E.
        { unfold record_controlled. destruct l as [|g l]; [reflexivity|]. inversion Hl; subst. unfold history_of at 1. rewrite map_get_set. destruct (string_dec (f_body g) n); [contradiction|reflexivity]. }
        rewrite E in I2. apply I2. exact Hn. }
  destruct (K _ _ F D [] [] n0) as [A1 A2]. destruct (K2 _ _ C D [] (fold_left record_external forces []) n0) as [B1 B2].
  destruct (in_dec string_dec n0 names) as [I1|I1].
  - destruct (B2 I1) as [E|(f & Hf & [E|E])]; [|right; exists f; split; [right; exact Hf|exact E]|left; exact E]. rewrite E.
    destruct (A2 I1) as [E'|(f & Hf & [E'|E'])]; [left; rewrite E'; reflexivity|right; exists f; split; [left; exact Hf|exact E']|left; exact E'].
  - left. rewrite B1, A1 by exact I1. reflexivity.
Qed.
End Build.
Print Assumptions every_model_of_the_file_acts_once.
Print Assumptions unknown_model_is_refused.
Print Assumptions bodies_are_built_in_order.
Print Assumptions history_is_long_enough.
Print Assumptions history_is_not_too_long.

(** ** C109. The initial states are those of the file. *)
Lemma documented_match : forall r, documented r <-> order_by r = "angle"%string /\ conventions_match (convention r) "z" "y'" "x''" = Ok true.
Proof.
  intros [o c]. unfold documented, conventions_match. cbn [order_by convention]. split; intros [-> H]; (split; [reflexivity|]).
  - destruct c as [|a [|b [|d c]]]; cbn in H; try discriminate H. injection H as -> -> ->. reflexivity.
  - destruct c as [|a c]; cbn in H; [discriminate|]. destruct (String.eqb_spec a "z") as [->|]; cbn in H; [|discriminate].
    destruct c as [|b c]; cbn in H; [discriminate|]. destruct (String.eqb_spec b "y'") as [->|]; cbn in H; [|discriminate].
    destruct c as [|d c]; cbn in H; [discriminate|]. destruct (String.eqb_spec d "x''") as [->|]; [reflexivity|discriminate].
Qed.
Lemma angle2matrix_documented : forall r a, documented r -> angle2matrix a r = Ok (rotation_matrix_321 (a_phi a) (a_theta a) (a_psi a)).
Proof. intros r a H. apply documented_match in H as [H1 H2]. unfold angle2matrix. rewrite H1, H2. reflexivity. Qed.
Lemma rotation_321 : forall phi theta psi, rotation_matrix_321 phi theta psi = euler_matrix phi theta psi.
Proof. intros. rewrite euler_matrix_val. reflexivity. Qed.
Lemma euler_rotation : forall phi theta psi, rotation (euler_matrix phi theta psi).
Proof.
  intros f t s. rewrite euler_matrix_val. pose proof (sin2_cos2 f) as F. pose proof (sin2_cos2 t) as T. pose proof (sin2_cos2 s) as P. unfold Rsqr in *.
  assert (sin f * sin f = 1 - cos f * cos f) as F' by lra. assert (sin t * sin t = 1 - cos t * cos t) as T' by lra. assert (sin s * sin s = 1 - cos s * cos s) as P' by lra.
  unfold rotation, dot, cross. cbn [r1 r2 r3 vx vy vz]. repeat split; try (apply vec_eq; cbn [vx vy vz]); ring [F' T' P'].
Qed.
(** The thirteen states of a body placed as requested. *)
Definition placed_as_requested {Mesh Dof} (b : @yaml_body Mesh Dof) (x : list R) (k : nat) : Prop :=
  V3 (state_of x k 0) (state_of x k 1) (state_of x k 2) = y_position b /\
  mkVelocity (state_of x k 3) (state_of x k 4) (state_of x k 5) (state_of x k 6) (state_of x k 7) (state_of x k 8) = y_velocity b /\
  quaternion_norm x k = 1 /\
  qmat (state_of x k 9) (state_of x k 10) (state_of x k 11) (state_of x k 12) = euler_matrix (a_phi (y_angle b)) (a_theta (y_angle b)) (a_psi (y_angle b)).
Lemma initial_loop_spec : forall Mesh Dof r, documented r -> forall (bodies : list (@yaml_body Mesh Dof)) i x, (13 * (i + List.length bodies) <= List.length x)%nat ->
  exists x', initial_loop r bodies i x = Ok x' /\ List.length x' = List.length x /\
  (forall j, (j < 13 * i)%nat -> nth_error x' j = nth_error x j) /\
  forall k b, nth_error bodies k = Some b -> placed_as_requested b x' (i + k).
Proof.
  intros Mesh Dof r Hr. induction bodies as [|b bs IH]; intros i x L; cbn [initial_loop].
  - exists x. split; [reflexivity|]. split; [reflexivity|]. split; [reflexivity|]. intros [|k] b E; discriminate E.
  - unfold initial_state. rewrite angle2matrix_documented by exact Hr. cbn [bindO].
    pose proof (euler_rotation (a_phi (y_angle b)) (a_theta (y_angle b)) (a_psi (y_angle b))) as Rot. rewrite <- rotation_321 in Rot. apply quaternion_of_rotation in Rot.
    destruct (quaternion_of (rotation_matrix_321 (a_phi (y_angle b)) (a_theta (y_angle b)) (a_psi (y_angle b)))) as [[[w qx] qy] qz]. destruct Rot as [Qm Qn]. cbn [bindO].
    rewrite Qn, sqrt_1. unfold Rdiv. rewrite Rinv_1, !Rmult_1_r.
    match goal with |- context [set_all x ?l] => set (l0 := l) end.
    assert (ND : NoDup (map fst l0)).
    { unfold l0. cbn [map fst]. idx. repeat (apply NoDup_cons; [cbn [In]; intuition lia|]). apply NoDup_nil. }
    assert (IB : forall j, In j (map fst l0) -> (13 * i <= j < 13 * i + 13)%nat).
    { unfold l0. cbn [map fst]. idx. intros j Hj. cbn [In] in Hj. intuition lia. }
    cbn [List.length] in L. destruct (set_all_ok l0 x) as [x1 E]; [intros j Hj; apply IB in Hj; lia|]. rewrite E. cbn [bindO].
    destruct (set_all_spec l0 x x1 ND E) as (Len & Val & Oth). destruct (IH (i + 1)%nat x1) as (x' & E' & Len' & Oth' & P); [rewrite Len; lia|]. exists x'. split; [exact E'|].
    split; [congruence|]. split.
    + intros j Hj. rewrite Oth' by lia. apply Oth. intros N. apply IB in N. lia.
    + assert (forall j v, In (j, v) l0 -> nth j x' 0 = v) as Get.
      { intros j v Hj. apply nth_error_nth. rewrite Oth'; [apply Val; exact Hj|]. assert (In j (map fst l0)) as Ij by (apply in_map_iff; exists (j, v); split; [reflexivity|exact Hj]). apply IB in Ij. lia. }
      intros [|k] b' Hk; cbn in Hk; [|replace (i + S k)%nat with (i + 1 + k)%nat by lia; apply P; exact Hk]. injection Hk as <-. rewrite Nat.add_0_r.
      unfold placed_as_requested, quaternion_norm, norm4, state_of.
      assert (forall j v, In (i * 13 + j, v)%nat l0 -> nth (13 * i + j) x' 0 = v) as G by (intros j v Hj; replace (13 * i + j)%nat with (i * 13 + j)%nat by lia; apply Get; exact Hj).
      assert (nth (13 * i + 0) x' 0 = vx (y_position b)) as -> by (apply Get; unfold l0; idx; left; f_equal; lia).
      repeat match goal with |- context [nth (13 * i + ?j) x' 0] => erewrite (G j) by (unfold l0; idx; cbn [In]; tauto) end.
      split; [destruct (y_position b); reflexivity|]. split; [destruct (y_velocity b); reflexivity|]. split.
      * unfold norm4. rewrite Qn. apply sqrt_1.
      * rewrite <- rotation_321. exact Qm.
Qed.
Theorem initial_states_are_those_of_the_file : forall Mesh Dof r (bodies : list (@yaml_body Mesh Dof)), documented r ->
  exists x, get_initial_states r bodies = Ok x /\ List.length x = (13 * List.length bodies)%nat /\
  forall k b, nth_error bodies k = Some b -> placed_as_requested b x k.
Proof.
  intros Mesh Dof r bodies Hr. destruct (initial_loop_spec Mesh Dof r Hr bodies 0 (repeat 0 (13 * List.length bodies))) as (x & E & Len & _ & P); [rewrite repeat_length; cbn; lia|].
  exists x. split; [exact E|]. split; [rewrite Len, repeat_length; reflexivity|]. exact P.
Qed.
Print Assumptions initial_states_are_those_of_the_file.

(** ** C110. Rotation conventions: another convention than the documented one is never taken for it. *)
Theorem rotation_conventions : forall r,
  (documented r -> forall a, angle2matrix a r = Ok (euler_matrix (a_phi a) (a_theta a) (a_psi a))) /\
  (~ documented r -> forall a, angle2matrix a r = Throw).
Proof.
  intros r. split.
  - intros H a. rewrite <- rotation_321. apply angle2matrix_documented. exact H.
  - intros H a. unfold angle2matrix. destruct (String.eqb_spec (order_by r) "angle") as [E|]; [|reflexivity].
    destruct (conventions_match (convention r) "z" "y'" "x''") as [[|]| |] eqn:M; cbn; try reflexivity.
    + exfalso. apply H. apply documented_match. split; assumption.
    + exfalso. unfold conventions_match, at_throw in M. destruct (convention r) as [|x [|y [|z c]]]; cbn in M; try discriminate;
        repeat match type of M with context [String.eqb ?u ?v] => destruct (String.eqb u v); cbn in M end; discriminate.
Qed.
Print Assumptions rotation_conventions.
(** No simulation of a body starts with another convention. *)
Theorem simulations_use_the_documented_convention : forall Env Wave Mesh Dof Blocked blocked_dof make_env waves external controllable input s,
  @build Env Wave Mesh Dof Blocked blocked_dof make_env waves external controllable input = Ok s -> y_bodies input <> [] -> documented (y_rotations input).
Proof.
  intros Env Wave Mesh Dof Blocked blocked_dof make_env waves external controllable input s H N. destruct (build_inv _ _ _ _ _ _ _ H) as (_ & _ & _ & _ & _ & _ & _ & _ & X & _).
  destruct (y_bodies input) as [|b bs]; [contradiction|]. unfold get_initial_states in X. cbn [initial_loop] in X. unfold initial_state in X.
  destruct (angle2matrix (y_angle b) (y_rotations input)) as [m| |] eqn:E; cbn in X; try discriminate. unfold angle2matrix in E.
  destruct (String.eqb_spec (order_by (y_rotations input)) "angle") as [O|]; [|discriminate]. destruct (conventions_match (convention (y_rotations input)) "z" "y'" "x''") as [[|]| |] eqn:M; try discriminate.
  apply documented_match. split; assumption.
Qed.
Print Assumptions simulations_use_the_documented_convention.
(** The check of the input file accepts exactly the lists of three axes. *)
Theorem check_accepts_three_axes : forall r, check_rotations r = Ok tt <->
  List.length (convention r) = 3%nat /\ Forall (fun a => In a axes) (convention r) /\ (order_by r = "angle" \/ order_by r = "axis")%string.
Proof.
  assert (AX : forall a, is_an_axis a = true <-> In a axes).
  { intros a. unfold is_an_axis, axes. repeat match goal with |- context [String.eqb a ?s] => destruct (String.eqb_spec a s); [subst; cbn; tauto|] end. cbn. split; [discriminate|intuition congruence]. }
  intros [o c]. unfold check_rotations. cbn [order_by convention]. unfold at_throw.
  destruct c as [|a c]; cbn [nth_error bindO]; [split; [discriminate|intros (E & _); discriminate E]|].
  destruct c as [|b c]; cbn [nth_error bindO]; [split; [discriminate|intros (E & _); discriminate E]|].
  destruct c as [|d c]; cbn [nth_error bindO]; [split; [discriminate|intros (E & _); discriminate E]|].
  destruct c as [|e c]; cbn [List.length Nat.eqb negb orb].
  - destruct (is_an_axis a) eqn:A; cbn [negb orb]; [|split; [discriminate|intros (_ & F & _); inversion F as [|? ? F1 _]; apply AX in F1; congruence]].
    destruct (is_an_axis b) eqn:B; cbn [negb orb]; [|split; [discriminate|intros (_ & F & _); inversion F as [|? ? _ F']; inversion F' as [|? ? F1 _]; apply AX in F1; congruence]].
    destruct (is_an_axis d) eqn:D; cbn [negb orb]; [|split; [discriminate|intros (_ & F & _); inversion F as [|? ? _ F']; inversion F' as [|? ? _ F'']; inversion F'' as [|? ? F1 _]; apply AX in F1; congruence]].
    apply AX in A, B, D. destruct (String.eqb_spec o "angle") as [->|N1]; [cbn; split; [intros _; repeat split; auto|reflexivity]|].
    destruct (String.eqb_spec o "axis") as [->|N2]; [cbn; split; [intros _; repeat split; auto|reflexivity]|]. cbn. split; [discriminate|]. intros (_ & _ & [E|E]); contradiction.
  - split; [discriminate|]. intros (E & _). cbn in E. discriminate E.
Qed.
Print Assumptions check_accepts_three_axes.
(** An input accepted by the check may not be usable: the check accepts 27 * 27 * 2 conventions, one of them can be simulated. *)
Theorem accepted_conventions_are_usable_refuted : exists r a, check_rotations r = Ok tt /\ angle2matrix a r = Throw.
Proof. exists (mkRot "angle" ["x"; "y'"; "z''"]), (mkAngles 0 0 0). split; reflexivity. Qed.
Print Assumptions accepted_conventions_are_usable_refuted.

(** ** C111. The wave model. *)
Theorem one_wave_model_at_most : forall Wave (waves : list (@wave_parser Wave)) models w, NoDup (map wp_name waves) -> get_wave waves models = Ok w ->
  match models with
  | [] => w = None
  | [m] => exists p x, In p waves /\ wp_name p = ym_model m /\ wp_build p (ym_yaml m) = Ok x /\ w = Some x
  | _ => False
  end.
Proof.
  intros Wave waves models w D H. unfold get_wave in H. assert (H' : wave_models waves models None = Ok w) by (destruct waves; [discriminate|exact H]). clear H.
  assert (Absent : forall ps m (ret : option Wave) b, ~ In (ym_model m) (map wp_name ps) -> wave_loop ps m ret b = Ok (ret, b)).
  { induction ps as [|p r IH]; intros m ret b N; [reflexivity|]. cbn [wave_loop]. destruct (String.eqb_spec (ym_model m) (wp_name p)) as [E|]; [exfalso; apply N; left; symmetry; exact E|].
    apply IH. intros X. apply N. right. exact X. }
  assert (Step : forall ps m (ret : option Wave) r, NoDup (map wp_name ps) -> wave_loop ps m ret false = Ok r -> snd r = true ->
    ret = None /\ exists p x, In p ps /\ wp_name p = ym_model m /\ wp_build p (ym_yaml m) = Ok x /\ fst r = Some x).
  { induction ps as [|p ps IH]; intros m ret r ND E S; cbn [wave_loop] in E; [injection E as <-; discriminate S|]. cbn [map] in ND. inversion ND as [|? ? N ND']; subst.
    destruct (String.eqb_spec (ym_model m) (wp_name p)) as [Em|Em].
    - destruct (wp_build p (ym_yaml m)) as [x| |] eqn:B; cbn in E; try discriminate. destruct ret; [discriminate|]. rewrite Absent in E by (rewrite Em; exact N). injection E as <-.
      split; [reflexivity|]. exists p, x. repeat split; [left; reflexivity|symmetry; exact Em|exact B].
    - destruct (IH m ret r ND' E S) as [A (q & x & I1 & Rest)]. split; [exact A|]. exists q, x. split; [right; exact I1|exact Rest]. }
  destruct models as [|m1 [|m2 rest]]; cbn [wave_models] in H'.
  - injection H' as <-. reflexivity.
  - destruct (wave_loop waves m1 None false) as [r| |] eqn:E; cbn in H'; try discriminate. destruct (snd r) eqn:S; [|discriminate]. injection H' as <-.
    destruct (Step waves m1 None r D E S) as [_ (p & x & A)]. exists p, x. exact A.
  - destruct (wave_loop waves m1 None false) as [r| |] eqn:E; cbn in H'; try discriminate. destruct (snd r) eqn:S; [|discriminate].
    destruct (Step waves m1 None r D E S) as [_ (p & x & _ & _ & _ & Er)]. rewrite Er in H'. destruct (wave_loop waves m2 (Some x) false) as [r2| |] eqn:E2; cbn in H'; try discriminate.
    destruct (snd r2) eqn:S2; [|discriminate]. destruct (Step waves m2 (Some x) r2 D E2 S2) as [X _]. discriminate X.
Qed.
Print Assumptions one_wave_model_at_most.

(** ** Correct inputs are accepted. *)
Lemma make_mesh_map_ok : forall Mesh Dof (bodies : list (@yaml_body Mesh Dof)) m, (forall b, In b bodies -> exists x, y_mesh b = Ok x) ->
  exists m', make_mesh_map bodies m = Ok m' /\ forall n, In n (map y_name bodies) \/ (exists x, map_get m n = Some x) -> exists x, map_get m' n = Some x.
Proof.
  intros Mesh Dof. induction bodies as [|b r IH]; intros m H; cbn [make_mesh_map].
  - exists m. split; [reflexivity|]. intros n [[]|X]. exact X.
  - destruct (H b (or_introl eq_refl)) as [x E]. rewrite E. cbn. destruct (IH (map_set m (y_name b) x)) as (m' & E' & P); [intros; apply H; right; assumption|]. exists m'. split; [exact E'|].
    intros n Hn. apply P. rewrite map_get_set. destruct (string_dec (y_name b) n) as [X|X]; [right; eexists; reflexivity|]. destruct Hn as [[Hn|Hn]|Hn]; [contradiction|left; exact Hn|right; exact Hn].
Qed.
Theorem correct_input_is_accepted : forall Env Wave Mesh Dof Blocked (blocked_dof : Dof -> nat -> outcome Blocked) (make_env : option Wave -> Env)
  waves external controllable (input : @yaml_input Mesh Dof) w,
  NoDup (map p_name external) -> NoDup (map p_name controllable) ->
  get_wave waves (y_environment input) = Ok w -> documented (y_rotations input) ->
  (forall k b, nth_error (y_bodies input) k = Some b ->
     (exists m, y_mesh b = Ok m) /\ (exists i, add_inertia (y_inertia b) (y_added b) = Ok i) /\ (exists x, blocked_dof (y_blocked b) k = Ok x) /\
     (forall m, In m (y_external b) -> acceptable external (make_env w) (y_name b) m) /\
     (forall m, In m (y_controlled b) -> acceptable controllable (make_env w) (y_name b) m)) ->
  exists s, build blocked_dof make_env waves external controllable input = Ok s.
Proof.
  intros Env Wave Mesh Dof Blocked blocked_dof make_env waves external controllable input w D1 D2 W R0 H. unfold build.
  destruct (make_mesh_map_ok _ _ (y_bodies input) []) as (meshes & M & P).
  { intros b Hb. apply In_nth_error in Hb. destruct Hb as [k Hk]. apply (H k b Hk). }
  rewrite M. cbn [bindO]. unfold build_with. rewrite W. cbn [bindO].
  destruct (get_forces_ok external y_external (make_env w) D1 (y_bodies input)) as [fs F].
  { intros b m Hb Hm. apply In_nth_error in Hb. destruct Hb as [k Hk]. destruct (H k b Hk) as (_ & _ & _ & A & _). apply A. exact Hm. }
  destruct (get_forces_ok controllable y_controlled (make_env w) D2 (y_bodies input)) as [cs C].
  { intros b m Hb Hm. apply In_nth_error in Hb. destruct Hb as [k Hk]. destruct (H k b Hk) as (_ & _ & _ & _ & A). apply A. exact Hm. }
  rewrite F, C. cbn [bindO].
  pose proof (Forall2_len _ _ _ (get_forces_inv _ _ _ _ _ F)) as LF. pose proof (Forall2_len _ _ _ (get_forces_inv _ _ _ _ _ C)) as LC.
  destruct (get_bodies_ok blocked_dof (y_rotations input) (y_bodies input) meshes (are_there_surface_forces_acting_on_body fs) (get_max_history_length fs cs) 0) as [bs B].
  { intros k b Hk. destruct (P (y_name b)) as [mesh Em]; [left; apply in_map; eapply nth_error_In; exact Hk|].
    assert (k < List.length fs)%nat as Lk by (rewrite <- LF; apply nth_error_Some; congruence).
    destruct (nth_error (are_there_surface_forces_acting_on_body fs) (0 + k)) as [su|] eqn:Su.
    2:{ exfalso. apply nth_error_None in Su. unfold are_there_surface_forces_acting_on_body in Su. rewrite map_length in Su. cbn in Su. lia. }
    exists mesh, su. split; [exact Em|]. split; [first [exact Su|reflexivity]|]. destruct (H k b Hk) as (_ & [i Hi] & [x Hx] & _). unfold build_body.
    rewrite angle2matrix_documented by exact R0. cbn [bindO]. rewrite Hi. cbn [bindO]. cbn [Nat.add]. rewrite Hx. cbn. eexists. reflexivity. }
  rewrite B. cbn [bindO]. destruct (initial_states_are_those_of_the_file _ _ (y_rotations input) (y_bodies input) R0) as (x & X & _). rewrite X. cbn [bindO].
  destruct (get_bodies_inv _ _ _ _ _ _ _ _ B) as [LB _].
  destruct (index_forces_ok bs fs cs 0 ([], [])) as [r Hr]; [lia|lia|]. rewrite Hr. cbn. eexists. reflexivity.
Qed.
Print Assumptions correct_input_is_accepted.

(** The names of the models known to xdyn are distinct, and no name is in both sections. *)
Theorem known_models_are_told_apart : NoDup external_names /\ NoDup controllable_names /\ NoDup wave_names /\ forall n, In n external_names -> ~ In n controllable_names.
Proof.
  assert (D : forall l, (if list_eq_dec string_dec (nodup string_dec l) l then true else false) = true -> NoDup l).
  { intros l. destruct (list_eq_dec string_dec (nodup string_dec l) l) as [E|]; [|discriminate]. intros _. rewrite <- E. apply NoDup_nodup. }
  split; [apply D; reflexivity|]. split; [apply D; reflexivity|]. split; [apply D; reflexivity|].
  assert (K : forallb (fun n => negb (if in_dec string_dec n controllable_names then true else false)) external_names = true) by reflexivity. rewrite forallb_forall in K.
  intros n Hn Hc. specialize (K n Hn). destruct (in_dec string_dec n controllable_names); [discriminate|contradiction].
Qed.
Print Assumptions known_models_are_told_apart.
Theorem misplaced_model_is_refused : forall Env Wave Mesh Dof Blocked (blocked_dof : Dof -> nat -> outcome Blocked) (make_env : option Wave -> Env)
  waves external controllable (input : @yaml_input Mesh Dof) b m,
  map p_name external = external_names -> map p_name controllable = controllable_names -> In b (y_bodies input) ->
  (In m (y_external b) /\ In (ym_model m) controllable_names) \/ (In m (y_controlled b) /\ In (ym_model m) external_names) ->
  forall s, build blocked_dof make_env waves external controllable input <> Ok s.
Proof.
  intros Env Wave Mesh Dof Blocked blocked_dof make_env waves external controllable input b m E1 E2 Hb H. destruct known_models_are_told_apart as (_ & _ & _ & K).
  apply (unknown_model_is_refused _ _ _ _ _ input b m Hb). rewrite E1, E2. destruct H as [[A B]|[A B]]; [left|right]; (split; [exact A|]); intros X; exact (K _ ltac:(eassumption) ltac:(eassumption)).
Qed.
Print Assumptions misplaced_model_is_refused.

(** ** A file, and the bodies with the same name *)
Definition known (names : list string) (Tmax : R) : list (@parser unit) := map (fun n => mkParser n (fun _ _ _ => Ok (Tmax, String.eqb n "hydrostatic"))) names.
Definition no_waves : list (@wave_parser unit) := map (fun n => mkWaveParser n (fun _ => Ok tt)) wave_names.
Definition zyx : rotations := mkRot "angle" ["z"; "y'"; "x''"].
Definition ship (name : string) (mesh : nat) (external controlled : list yaml_model) : @yaml_body nat unit :=
  mkBody0 name (Ok mesh) (V3 0 0 1) (mkAngles 0 0 0) (V3 1 2 3) (mkAngles (1/10) (2/10) 3) (mkVelocity 4 5 6 7 8 9) (boat 1000 500 2000) (Added_rows (boat 100 (-50) 300)) tt external controlled.
Definition no_blocked : unit -> nat -> outcome unit := fun _ _ => Ok tt.
Lemma known_names : forall names T, map p_name (known names T) = names.
Proof. intros. unfold known. rewrite map_map. cbn. apply map_id. Qed.
Lemma ships_are_built : forall bodies, (forall b, In b bodies -> exists n m e c, b = ship n m e c /\
    (forall x, In x e -> In (ym_model x) external_names) /\ (forall x, In x c -> In (ym_model x) controllable_names)) ->
  exists s, build no_blocked (fun _ : option unit => tt) no_waves (known external_names 10) (known controllable_names 20) (mkInput0 zyx bodies [mkYaml "no waves" ""]) = Ok s.
Proof.
  intros bodies H. destruct known_models_are_told_apart as (N1 & N2 & _).
  apply (correct_input_is_accepted _ _ _ _ _ no_blocked (fun _ : option unit => tt) no_waves _ _ (mkInput0 zyx bodies [mkYaml "no waves" ""]) (Some tt)); try (rewrite known_names; assumption); try reflexivity.
  - split; reflexivity.
  - cbn [y_bodies]. intros k b Hk. apply nth_error_In in Hk. destruct (H b Hk) as (n & m & e & c & -> & He & Hc). cbn [y_mesh y_inertia y_added y_blocked y_external y_controlled y_name ship].
    split; [eexists; reflexivity|]. split; [destruct boat_accepted as (i & Ei & _); exists i; exact Ei|]. split; [eexists; reflexivity|].
    assert (K : forall names T body x, In (ym_model x) names -> acceptable (known names T) tt body x).
    { intros names T body x Hx. exists (mkParser (ym_model x) (fun _ _ _ => Ok (T, String.eqb (ym_model x) "hydrostatic"))), T, (String.eqb (ym_model x) "hydrostatic"). split; [|split; reflexivity].
      unfold known. apply in_map_iff. exists (ym_model x). split; [reflexivity|exact Hx]. }
    split; intros x Hx; apply K; [apply He|apply Hc]; exact Hx.
Qed.
Example two_ships : exists s, build no_blocked (fun _ : option unit => tt) no_waves (known external_names 10) (known controllable_names 20)
    (mkInput0 zyx [ship "tug" 1 [mkYaml "gravity" ""; mkYaml "hydrostatic" ""] []; ship "barge" 2 [mkYaml "gravity" ""] [mkYaml "maneuvering" "text"]] [mkYaml "no waves" ""]) = Ok s /\
  map (fun f => (f_model f, f_body f)) (forces_on (s_forces s) "tug") = [("gravity", "tug"); ("hydrostatic", "tug")]%string /\
  map f_yaml (forces_on (s_controlled s) "barge") = ["text"%string] /\ map b_surface (s_bodies s) = [true; false] /\ map b_mesh (s_bodies s) = [1; 2]%nat.
Proof.
  destruct (ships_are_built [ship "tug" 1 [mkYaml "gravity" ""; mkYaml "hydrostatic" ""] []; ship "barge" 2 [mkYaml "gravity" ""] [mkYaml "maneuvering" "text"]]) as [s E].
  { intros b [<-|[<-|[]]]; do 4 eexists; (split; [reflexivity|]); split; intros x Hx; cbn in Hx; repeat (destruct Hx as [<-|Hx]); try contradiction; cbn; tauto. }
  exists s. split; [exact E|]. destruct (build_inv _ _ _ _ _ _ _ E) as (meshes & fs & cs & M & _ & F & C & B & _ & -> & ->). cbn in F, C, M. injection F as <-. injection C as <-. injection M as <-.
  split; [reflexivity|]. split; [reflexivity|]. destruct (get_bodies_inv _ _ _ _ _ _ _ _ B) as [Len Nth].
  destruct (Nth 0%nat _ eq_refl) as (m1 & s1 & x1 & M1 & S1 & X1 & B1). destruct (Nth 1%nat _ eq_refl) as (m2 & s2 & x2 & M2 & S2 & X2 & B2).
  destruct (s_bodies s) as [|y1 [|y2 [|? ?]]]; try discriminate Len. cbn in X1, X2, M1, M2, S1, S2. injection X1 as ->. injection X2 as ->. injection M1 as <-. injection M2 as <-. injection S1 as <-. injection S2 as <-.
  apply build_body_inv in B1, B2. destruct B1 as (? & ? & ? & _ & _ & _ & ->). destruct B2 as (? & ? & ? & _ & _ & _ & ->). split; reflexivity.
Qed.
(** Two bodies with the same name are accepted, and the forces and the mesh of the first are silently replaced by those of the last. *)
Theorem bodies_with_the_same_name_refuted : exists (input : @yaml_input nat unit) s b x,
  build no_blocked (fun _ : option unit => tt) no_waves (known external_names 10) (known controllable_names 20) input = Ok s /\
  nth_error (y_bodies input) 0 = Some b /\ nth_error (s_bodies s) 0 = Some x /\
  map ym_model (y_external b) = ["gravity"%string] /\ forces_on (s_forces s) (b_name x) = [] /\ y_mesh b = Ok 1%nat /\ b_mesh x = 2%nat.
Proof.
  destruct (ships_are_built [ship "ship" 1 [mkYaml "gravity" ""] []; ship "ship" 2 [] []]) as [s E].
  { intros b [<-|[<-|[]]]; do 4 eexists; (split; [reflexivity|]); split; intros x Hx; cbn in Hx; repeat (destruct Hx as [<-|Hx]); try contradiction; cbn; tauto. }
  destruct (build_inv _ _ _ _ _ _ _ E) as (meshes & fs & cs & M & _ & F & C & B & _ & Fs & _). cbn in F, C, M. injection F as <-. injection C as <-. injection M as <-.
  destruct (get_bodies_inv _ _ _ _ _ _ _ _ B) as [Len Nth]. destruct (Nth 0%nat _ eq_refl) as (m1 & s1 & x1 & M1 & S1 & X1 & B1).
  apply build_body_inv in B1. destruct B1 as (? & ? & ? & _ & _ & _ & ->). cbn in M1. injection M1 as <-.
  do 4 eexists. split; [exact E|]. split; [reflexivity|]. split; [exact X1|]. split; [reflexivity|]. split; [rewrite Fs; reflexivity|]. split; reflexivity.
Qed.
Print Assumptions bodies_with_the_same_name_refuted.
(** A parser registered twice builds each of its models twice: distinct names are needed. *)
Theorem registering_twice_refuted : forces_from (known ["gravity"; "gravity"] 0) [mkYaml "gravity" ""] [] "ship" tt =
  Ok [mkForce "gravity" "" "ship" 0 false; mkForce "gravity" "" "ship" 0 false].
Proof. reflexivity. Qed.
Print Assumptions registering_twice_refuted.
