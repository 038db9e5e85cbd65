(** C115-C116. Commands and reports of the controlled forces. *)
From Coq Require Import Reals Lra List String Ascii Bool.
From Verif Require Import Common Force_Model Builder_Model Builder_Proofs Command_Model Geometry.
Import ListNotations.
Open Scope R_scope.

(** ** C115: each command reaches its model, and no other. *)
Fixpoint has_char (c : ascii) (s : string) : bool := match s with EmptyString => false | String a r => Ascii.eqb a c || has_char c r end.
(** Names of models and commands cannot be confused if the names of the models have no parenthesis. *)
Lemma namify_inj : forall m1 m2 c1 c2, has_char "(" m1 = false -> has_char "(" m2 = false -> namify c1 m1 = namify c2 m2 -> m1 = m2 /\ c1 = c2.
Proof.
  unfold namify. induction m1 as [|a m1 IH]; intros [|b m2] c1 c2 H1 H2 E; cbn in E.
  - split; [reflexivity|]. injection E as E. clear - E. revert c2 E. induction c1 as [|x c1 IH]; intros [|y c2] E; cbn in E; [reflexivity| | |].
    + injection E as _ E. destruct c2; discriminate E.
    + injection E as _ E. destruct c1; discriminate E.
    + injection E as <- E. f_equal. apply IH. exact E.
  - injection E as <- _. cbn in H2. discriminate H2.
  - injection E as -> _. cbn in H1. discriminate H1.
  - injection E as <- E. cbn in H1, H2. apply orb_false_elim in H1. apply orb_false_elim in H2. destruct (IH m2 c1 c2) as [-> ->]; tauto.
Qed.
Theorem names_of_commands_refuted : exists m1 c1 m2 c2, (m1, c1) <> (m2, c2) /\ namify c1 m1 = namify c2 m2.
Proof. exists "a"%string, "b)(c"%string, "a(b)"%string, "c"%string. split; [discriminate|reflexivity]. Qed.
Print Assumptions names_of_commands_refuted.

Section Commands.
Context {Itp : Type}.
Variable interpolation : list R -> list R -> outcome Itp.
Variable itp_f : Itp -> R -> outcome R.
Notation make_command_listener := (make_command_listener interpolation).
Notation get_command := (get_command itp_f).
Notation get_commands := (get_commands itp_f).

(** What the section "commands" says of the command [c] of [model]: a constant if there is one instant, or a table. *)
Inductive requested (l : list yaml_commands) (model c : string) : R -> outcome R -> Prop :=
| Request_constant : forall y x r t, In y l -> yc_name y = model -> List.length (yc_t y) = 1%nat -> In (c, x :: r) (yc_values y) -> requested l model c t (Ok x)
| Request_table : forall y values i t, In y l -> yc_name y = model -> List.length (yc_t y) <> 1%nat -> In (c, values) (yc_values y) -> interpolation (yc_t y) values = Ok i ->
    requested l model c t (itp_f i t).
(** All the commands of the section, with the model they are for. *)
Definition all_commands (l : list yaml_commands) : list (string * string) := flat_map (fun y => map (fun v => (yc_name y, fst v)) (yc_values y)) l.

Lemma constants_spec : forall name values (ds ds' : @data_source Itp), add_constants name values ds = Ok ds' -> NoDup (map fst values) -> has_char "(" name = false ->
  (forall c x r, In (c, x :: r) values -> map_get ds' (namify c name) = Some (Constant x)) /\
  (forall c l, In (c, l) values -> l <> []) /\
  (forall n, (forall c l, In (c, l) values -> n <> namify c name) -> map_get ds' n = map_get ds n).
Proof.
  intros name. induction values as [|[c l] r IH]; intros ds ds' E D P; cbn [add_constants] in E.
  - injection E as <-. repeat split; try (intros; contradiction). 
  - destruct l as [|x l]; [discriminate|]. cbn [map fst] in D. inversion D as [|? ? N D']; subst. destruct (IH _ _ E D' P) as (I1 & I2 & I3). split; [|split].
    + intros c' x' r' [X|X]; [|eapply I1; exact X]. injection X as <- <- <-. rewrite I3; [rewrite map_get_set; destruct (string_dec _ _); [reflexivity|contradiction]|].
      intros c' l' X Y. apply namify_inj in Y; [|exact P|exact P]. destruct Y as [_ <-]. apply N. apply (in_map fst) in X. exact X.
    + intros c' l' [X|X]; [injection X as <- <-; discriminate|eapply I2; exact X].
    + intros n H. rewrite I3 by (intros c' l' X; apply (H c' l'); right; exact X). rewrite map_get_set. destruct (string_dec _ _) as [X|X]; [|reflexivity]. exfalso. symmetry in X. apply (H c (x :: l) (or_introl eq_refl) X).
Qed.
Lemma tables_spec : forall name t values (ds ds' : @data_source Itp), add_tables interpolation name t values ds = Ok ds' -> NoDup (map fst values) -> has_char "(" name = false ->
  (forall c l, In (c, l) values -> exists i, interpolation t l = Ok i /\ map_get ds' (namify c name) = Some (Table i)) /\
  (forall n, (forall c l, In (c, l) values -> n <> namify c name) -> map_get ds' n = map_get ds n).
Proof.
  intros name t. induction values as [|[c l] r IH]; intros ds ds' E D P; cbn [add_tables] in E.
  - injection E as <-. split; [intros ? ? []|reflexivity].
  - destruct (interpolation t l) as [i| |] eqn:Ei; cbn in E; try discriminate. cbn [map fst] in D. inversion D as [|? ? N D']; subst. destruct (IH _ _ E D' P) as (I1 & I3). split.
    + intros c' l' [X|X]; [|eapply I1; exact X]. injection X as <- <-. exists i. split; [exact Ei|]. rewrite I3; [rewrite map_get_set; destruct (string_dec _ _); [reflexivity|contradiction]|].
      intros c' l' X Y. apply namify_inj in Y; [|exact P|exact P]. destruct Y as [_ <-]. apply N. apply (in_map fst) in X. exact X.
    + intros n H. rewrite I3 by (intros c' l' X; apply (H c' l'); right; exact X). rewrite map_get_set. destruct (string_dec _ _) as [X|X]; [|reflexivity]. exfalso. symmetry in X. apply (H c l (or_introl eq_refl) X).
Qed.
Lemma add_command_spec : forall y (ds ds' : @data_source Itp), add_command interpolation y ds = Ok ds' -> NoDup (map fst (yc_values y)) -> has_char "(" (yc_name y) = false ->
  (forall c t, In c (map fst (yc_values y)) -> requested [y] (yc_name y) c t (get_command (yc_name y) c ds' t)) /\
  (forall n, (forall c, In c (map fst (yc_values y)) -> n <> namify c (yc_name y)) -> map_get ds' n = map_get ds n).
Proof.
  intros y ds ds' E D P. unfold add_command in E. destruct (Nat.eqb_spec (List.length (yc_t y)) 1) as [L|L].
  - destruct (constants_spec _ _ _ _ E D P) as (I1 & I2 & I3). split.
    + intros c t Hc. apply in_map_iff in Hc. destruct Hc as [[c' l] [<- Hc]]. cbn [fst]. destruct l as [|x r]; [exfalso; apply (I2 _ _ Hc); reflexivity|]. unfold Command_Model.get_command, ds_get. rewrite (I1 _ _ _ Hc).
      eapply Request_constant; [left; reflexivity|reflexivity|exact L|exact Hc].
    + intros n H. apply I3. intros c l X. apply H. apply (in_map fst) in X. exact X.
  - destruct (tables_spec _ _ _ _ _ E D P) as (I1 & I3). split.
    + intros c t Hc. apply in_map_iff in Hc. destruct Hc as [[c' l] [<- Hc]]. cbn [fst]. destruct (I1 _ _ Hc) as (i & Ei & G). unfold Command_Model.get_command, ds_get. rewrite G.
      eapply Request_table; [left; reflexivity|reflexivity|exact L|exact Hc|exact Ei].
    + intros n H. apply I3. intros c l X. apply H. apply (in_map fst) in X. exact X.
Qed.
Lemma requested_in : forall l l' model c t x, requested l model c t x -> (forall y, In y l -> In y l') -> requested l' model c t x.
Proof. intros l l' model c t x H I. destruct H; [eapply Request_constant|eapply Request_table]; try apply I; eassumption. Qed.
Lemma NoDup_app_l : forall A (l m : list A), NoDup (l ++ m) -> NoDup l /\ NoDup m /\ forall x, In x l -> ~ In x m.
Proof.
  intros A. induction l as [|a l IH]; intros m H; [split; [constructor|]; split; [exact H|intros x []]|]. cbn in H. inversion H as [|? ? N H']; subst. destruct (IH m H') as (A1 & A2 & A3).
  split; [constructor; [intros X; apply N; apply in_or_app; left; exact X|exact A1]|]. split; [exact A2|]. intros x [<-|X]; [intros Y; apply N; apply in_or_app; right; exact Y|apply A3; exact X].
Qed.
Lemma add_commands_spec : forall l (ds ds' : @data_source Itp), add_commands interpolation l ds = Ok ds' -> NoDup (all_commands l) -> (forall y, In y l -> has_char "(" (yc_name y) = false) ->
  (forall m c t, In (m, c) (all_commands l) -> requested l m c t (get_command m c ds' t)) /\
  (forall n, (forall m c, In (m, c) (all_commands l) -> n <> namify c m) -> map_get ds' n = map_get ds n).
Proof.
  induction l as [|y l IH]; intros ds ds' E D P; cbn [add_commands] in E.
  - injection E as <-. split; [intros ? ? ? []|reflexivity].
  - destruct (add_command interpolation y ds) as [d1| |] eqn:E1; cbn in E; try discriminate. cbn [all_commands flat_map] in D. apply NoDup_app_l in D. destruct D as (D1 & D2 & D3).
    assert (Dy : NoDup (map fst (yc_values y))).
    { rewrite <- (map_map fst (fun c => (yc_name y, c))) in D1. apply NoDup_map_inv in D1. exact D1. }
    assert (Py : has_char "(" (yc_name y) = false) by (apply P; left; reflexivity).
    destruct (add_command_spec y ds d1 E1 Dy Py) as [S1 S2]. destruct (IH d1 ds' E D2) as [T1 T2]; [intros; apply P; right; assumption|]. split.
    + intros m c t H. cbn [all_commands flat_map] in H. apply in_app_or in H. destruct H as [H|H].
      * apply in_map_iff in H. destruct H as [[c' v] [X H]]. injection X as <- <-. cbn [fst]. assert (Hc : In c' (map fst (yc_values y))) by (apply (in_map fst) in H; exact H).
        unfold Command_Model.get_command, ds_get. rewrite T2; [|intros m' c'' H' X; apply (D3 (yc_name y, c'))].
        -- apply (requested_in [y]); [apply S1; exact Hc|intros z [<-|[]]; left; reflexivity].
        -- apply in_map_iff. exists (c', v). split; [reflexivity|exact H].
        -- assert (m' = yc_name y /\ c'' = c') as [-> ->]; [|exact H']. apply namify_inj; [|exact Py|symmetry; exact X].
           unfold all_commands in H'. apply in_flat_map in H'. destruct H' as (z & Hz & H'). apply in_map_iff in H'. destruct H' as (v' & Y & _). injection Y as <- _. apply P. right. exact Hz.
      * apply (requested_in l); [apply T1; exact H|intros; right; assumption].
    + intros n H. rewrite T2 by (intros m c X; apply H; cbn [all_commands flat_map]; apply in_or_app; right; exact X). apply S2. intros c Hc. apply H. cbn [all_commands flat_map]. apply in_or_app. left.
      apply in_map_iff in Hc. destruct Hc as [v [<- Hv]]. apply in_map_iff. exists v. split; [reflexivity|exact Hv].
Qed.
(** The command asked by a model is the one written for this model in the section "commands"; it is an error to ask for another one. *)
Theorem commands_reach_their_model_partial : forall l ds, make_command_listener l = Ok ds -> NoDup (all_commands l) -> (forall y, In y l -> has_char "(" (yc_name y) = false) ->
  forall m c t, has_char "(" m = false ->
  (In (m, c) (all_commands l) -> requested l m c t (get_command m c ds t)) /\ (~ In (m, c) (all_commands l) -> get_command m c ds t = Throw).
Proof.
  intros l ds E D P m c t Hm. destruct (add_commands_spec l [] ds E D P) as [S1 S2]. split; [apply S1|]. intros N. unfold Command_Model.get_command, ds_get. rewrite S2; [reflexivity|].
  intros m' c' H X. apply namify_inj in X; [|exact Hm|]. { destruct X as [-> ->]. contradiction. }
  unfold all_commands in H. apply in_flat_map in H. destruct H as (z & Hz & H). apply in_map_iff in H. destruct H as (v' & Y & _). injection Y as <- _. apply P. exact Hz.
Qed.
(** The values given to the force model are its own commands, even if a signal of the data source has the same name. *)
Theorem own_commands_prevail : forall model commands ds all t ret, get_commands model commands ds all t = Ok ret -> forall c, In c commands ->
  exists x, get_command model c ds t = Ok x /\ map_get ret c = Some x.
Proof.
  intros model commands ds all t ret E. unfold Command_Model.get_commands in E. destruct (own_commands itp_f model commands ds t []) as [own| |] eqn:O; cbn in E; try discriminate. injection E as <-.
  assert (I : forall all own c x, map_get own c = Some x -> map_get (insert_all all own) c = Some x).
  { clear. induction all as [|[n y] r IH]; intros own c x H; [exact H|]. cbn [insert_all]. apply IH. destruct (map_get own n) eqn:En; [exact H|]. rewrite map_get_set. destruct (string_dec n c) as [->|]; [congruence|exact H]. }
  assert (K : forall commands r own, own_commands itp_f model commands ds t r = Ok own ->
    (forall c, In c commands -> exists x, get_command model c ds t = Ok x /\ map_get own c = Some x) /\ (forall c, ~ In c commands -> map_get own c = map_get r c)).
  { clear. induction commands as [|c0 r0 IH]; intros r own E; cbn [own_commands] in E; [injection E as <-; split; [intros ? []|reflexivity]|].
    destruct (get_command model c0 ds t) as [x| |] eqn:G; cbn in E; try discriminate. destruct (IH _ _ E) as [A B]. split.
    - intros c Hc. destruct (in_dec string_dec c r0) as [X|X]; [apply A; exact X|]. destruct Hc as [<-|Hc]; [|contradiction]. exists x. split; [exact G|]. rewrite B by exact X. rewrite map_get_set. destruct (string_dec c0 c0); [reflexivity|contradiction].
    - intros c Hc. rewrite B by (intros X; apply Hc; right; exact X). rewrite map_get_set. destruct (string_dec c0 c) as [->|]; [exfalso; apply Hc; left; reflexivity|reflexivity]. }
  intros c Hc. destruct (K _ _ _ O) as [A _]. destruct (A c Hc) as (x & G & M). exists x. split; [exact G|]. apply I. exact M.
Qed.
(** A constant command given without any value is not refused. *)
Theorem command_without_value_refuted : exists l, make_command_listener l = UB.
Proof. exists [mkCommands "propeller" [0] [("rpm"%string, [])]]. reflexivity. Qed.
(** All but the first values of a command are silently ignored when a single instant is given. *)
Theorem extra_values_are_ignored_refuted : exists l ds, make_command_listener l = Ok ds /\ (forall t, get_command "propeller" "rpm" ds t = Ok 1) /\ l = [mkCommands "propeller" [0] [("rpm"%string, [1; 2; 3])]].
Proof. eexists. eexists. split; [|split; [|reflexivity]]; [reflexivity|]. intros t. reflexivity. Qed.
End Commands.
Print Assumptions commands_reach_their_model_partial. Print Assumptions own_commands_prevail. Print Assumptions command_without_value_refuted. Print Assumptions extra_values_are_ignored_refuted.
Definition orders : list yaml_commands := [mkCommands "propeller" [0] [("rpm", [10]); ("P/D", [1])]; mkCommands "rudder" [0; 5] [("rpm", [3; 4])]]%string.
Example commands_witness : exists ds : @data_source (list R * list R),
  make_command_listener (fun t x => Ok (t, x)) orders = Ok ds /\ NoDup (all_commands orders) /\ (forall y, In y orders -> has_char "(" (yc_name y) = false) /\
  get_command (fun i t => Ok (t + List.hd 0 (snd i))) "propeller" "rpm" ds 7 = Ok 10 /\ get_command (fun i t => Ok (t + List.hd 0 (snd i))) "rudder" "rpm" ds 7 = Ok (7 + 3).
Proof.
  eexists. split; [reflexivity|]. split; [|split].
  - cbn. repeat constructor; cbn; intuition discriminate.
  - intros y [<-|[<-|[]]]; reflexivity.
  - split; reflexivity.
Qed.

(** ** C116: the report of a controlled force. [F] is the force of the model, in its frame; [position] is the position of the ship. *)
Definition observed (T Tbn : transform) (G position : vec3) (F : torsor) : report := sim_output_force T Tbn position (controlled_wrench T G F).
Lemma mapply_sub' : forall m a b, mapply m (vsub a b) = vsub (mapply m a) (mapply m b). Proof. intros; vring. Qed.
(** The forces are right; the torque in the frame of the model is wrong by the moment of the force about the point that has, in the frame of the ship, the
    coordinates of the ship in NED. *)
Theorem observed_force_is_right_partial : forall T Tbn G position F, rotation (t_rot T) ->
  in_body_frame (observed T Tbn G position F) = controlled_wrench T G F /\
  fst (in_internal_frame (observed T Tbn G position F)) = fst F /\
  fst (in_ned_frame (observed T Tbn G position F)) = mapply (transpose (t_rot Tbn)) (mapply (t_rot T) (fst F)).
Proof. intros [R P] Tbn G x [f m] H. unfold observed, sim_output_force, reported_in_internal_frame, reported_in_ned_frame, controlled_wrench. cbn [in_body_frame in_internal_frame in_ned_frame fst snd t_rot t_point] in *. split; [reflexivity|]. split; [apply rotation_inverse; exact H|reflexivity]. Qed.
Theorem observed_torque : forall T Tbn G position F, rotation (t_rot T) ->
  snd (in_internal_frame (observed T Tbn G position F)) = vadd (snd F) (mapply (transpose (t_rot T)) (cross (vsub position G) (mapply (t_rot T) (fst F)))).
Proof.
  intros [R P] Tbn G x [f m] H. unfold observed, sim_output_force, reported_in_internal_frame, controlled_wrench. cbn [in_body_frame in_internal_frame fst snd t_rot t_point] in *.
  replace (vadd (vadd (mapply R m) (cross (vadd (vopp G) P) (mapply R f))) (cross (vsub x P) (mapply R f))) with (vadd (mapply R m) (cross (vsub x G) (mapply R f))) by (clear; generalize (mapply R m) (mapply R f); intros; vring).
  rewrite mapply_add. rewrite rotation_inverse by exact H. reflexivity.
Qed.
Theorem observed_torque_is_right_iff : forall T Tbn G position F, rotation (t_rot T) ->
  (in_internal_frame (observed T Tbn G position F) = F <-> cross (vsub position G) (mapply (t_rot T) (fst F)) = v0).
Proof.
  intros T Tbn G x F H. pose proof (observed_torque T Tbn G x F H) as E. destruct (observed_force_is_right_partial T Tbn G x F H) as (_ & E1 & _). destruct (in_internal_frame (observed T Tbn G x F)) as [a b]. destruct F as [f m]. cbn [fst snd] in *. subst a b.
  set (c := cross (vsub x G) (mapply (t_rot T) f)). split.
  - intros X. injection X as X. assert (Y : mapply (transpose (t_rot T)) c = v0) by (clear - X; generalize dependent (mapply (transpose (t_rot T)) c); intros [a b d] X; destruct m as [m1 m2 m3]; unfold vadd in X; cbn [vx vy vz] in X; injection X as X1 X2 X3; apply vec_eq; unfold v0; cbn [vx vy vz]; lra).
    rewrite <- (rotation_inverse' (t_rot T) c H). rewrite Y. clear. apply vec_eq; vec; ring.
  - intros ->. f_equal. clear. apply vec_eq; vec; ring.
Qed.
(** A propeller at the centre of gravity which pushes ahead: it has no torque, but a torque is reported as soon as the ship has moved sideways. *)
Theorem observed_torque_refuted : exists T Tbn G position F, rotation (t_rot T) /\ snd F = v0 /\ position = V3 0 1000 0 /\ snd (in_internal_frame (observed T Tbn G position F)) = V3 0 0 (-10000).
Proof.
  exists (mkT id3 v0), (mkT id3 v0), v0, (V3 0 1000 0), (V3 10 0 0, v0). split; [exact rotation_id|]. split; [reflexivity|]. split; [reflexivity|]. rewrite observed_torque by exact rotation_id. cbn [t_rot fst snd]. apply vec_eq; vec; lra.
Qed.
(** In NED, the torque about the origin would need the position of G; it is right, whatever the force, only if the ship is where G is in its frame. *)
Theorem observed_torque_in_ned : forall T Tbn G position F, rotation (t_rot Tbn) ->
  snd (in_ned_frame (observed T Tbn G position F)) =
  vadd (snd (reported_in_ned_frame Tbn G (controlled_wrench T G F))) (mapply (transpose (t_rot Tbn)) (cross (vsub position G) (mapply (t_rot T) (fst F)))).
Proof.
  intros T Tbn G x F _. unfold observed, sim_output_force, reported_in_ned_frame. cbn [in_ned_frame snd fst]. rewrite <- mapply_add. f_equal.
  destruct (controlled_wrench T G F) as [a b] eqn:E. assert (a = mapply (t_rot T) (fst F)) as <- by (unfold controlled_wrench in E; injection E as <- _; reflexivity). cbn [fst snd]. clear. apply vec_eq; vec; ring.
Qed.
Print Assumptions observed_force_is_right_partial. Print Assumptions observed_torque. Print Assumptions observed_torque_is_right_iff. Print Assumptions observed_torque_refuted. Print Assumptions observed_torque_in_ned.
