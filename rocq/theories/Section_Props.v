(** C151-C155: the sections of the force models. *)
From Coq Require Import Reals List Arith Bool String ZArith Lra Lia.
From Verif Require Import Common Sim_Model Hdf5_Mesh_Model Yaml_Model Yaml_Spec Yaml_Proofs Yaml_Props Geometry Force_Model Wave_Proofs Section_Model Section_Spec.
Import ListNotations.
Open Scope R_scope.

Section Reading.
Set Default Proof Using "Type".
Variable dbl : string -> option R.
Variable int_of : string -> option Z.
Variable factor : string -> option R.
Variable bool_of : string -> option bool.
Variable unsigned_of : string -> option Z.
Notation quantity := (quantity R Rmult dbl factor). Notation number := (number R dbl). Notation numbers := (list_of int_of number).

Lemma at_key_ok {A} (read : string -> option A) n k a : at_key read n k = Ok a <-> under n k (word_for read) a.
Proof.
  unfold at_key. rewrite (step_ok _ _ _ _ (string_at_ok n k)). split.
  - intros (s & (v & E & T) & H). exists v. split; [exact E|]. exists s. split; [exact T|]. destruct (read s); [injection H as ->; reflexivity|discriminate].
  - intros (v & E & s & T & H). exists s. split; [exists v; split; assumption|]. rewrite H. reflexivity.
Qed.
Lemma position_at_ok n k c : position_at dbl factor n k = Ok c <-> under n k (describes_position R Rmult dbl factor) c.
Proof. apply under_ok. intros v a. apply position_ok. Qed.
Lemma coordinates_at_ok n k c : coordinates_at dbl factor n k = Ok c <-> under n k (describes_coordinates R Rmult dbl factor) c.
Proof. apply under_ok. intros v a. apply coordinates_ok. Qed.
Lemma quadrature_ok n k q : at_key quadrature_of n k = Ok q <-> under n k text (quadrature_name q).
Proof.
  rewrite at_key_ok. split; intros (v & E & H); exists v; (split; [exact E|]).
  - destruct H as (s & T & H). enough (s = quadrature_name q) by (subst; exact T). unfold quadrature_of in H.
    repeat match type of H with context [String.eqb s ?t] => destruct (String.eqb_spec s t) as [Hs|_]; [injection H as <-; exact Hs|] end. discriminate.
  - exists (quadrature_name q). split; [exact H|]. destruct q; reflexivity.
Qed.

Ltac fwd H := repeat first
  [ apply (step_ok _ _ _ _ (string_at_ok _ _)) in H; destruct H as (? & ? & H)
  | apply (step_ok _ _ _ _ (uv_ok R Rmult dbl factor _ _)) in H; destruct H as (? & ? & H)
  | apply (step_ok _ _ _ _ (double_at_ok R dbl _ _)) in H; destruct H as (? & ? & H)
  | apply (step_ok _ _ _ _ (doubles_at_ok R dbl int_of _ _)) in H; destruct H as (? & ? & H)
  | apply (step_ok _ _ _ _ (natural_ok int_of _ _)) in H; destruct H as (? & ? & H)
  | apply (step_ok _ _ _ _ (position_at_ok _ _)) in H; destruct H as (? & ? & H)
  | apply (step_ok _ _ _ _ (coordinates_at_ok _ _)) in H; destruct H as (? & ? & H)
  | apply (step_ok _ _ _ _ (quadrature_ok _ _)) in H; destruct H as (? & ? & H)
  | apply (step_ok _ _ _ _ (at_key_ok _ _ _)) in H; destruct H as (? & ? & H) ].
Ltac bwd := repeat first
  [ apply (step_ok _ _ _ _ (string_at_ok _ _)); eexists; split; [eassumption|]
  | apply (step_ok _ _ _ _ (uv_ok R Rmult dbl factor _ _)); eexists; split; [eassumption|]
  | apply (step_ok _ _ _ _ (double_at_ok R dbl _ _)); eexists; split; [eassumption|]
  | apply (step_ok _ _ _ _ (doubles_at_ok R dbl int_of _ _)); eexists; split; [eassumption|]
  | apply (step_ok _ _ _ _ (natural_ok int_of _ _)); eexists; split; [eassumption|]
  | apply (step_ok _ _ _ _ (position_at_ok _ _)); eexists; split; [eassumption|]
  | apply (step_ok _ _ _ _ (coordinates_at_ok _ _)); eexists; split; [eassumption|]
  | apply (step_ok _ _ _ _ (quadrature_ok _ _)); eexists; split; [eassumption|]
  | apply (step_ok _ _ _ _ (at_key_ok _ _ _)); eexists; split; [eassumption|] ].
Lemma exactly {A} (read : yaml -> outcome A) says : (forall n i, read n = Ok i <-> says n i) -> (forall n, read n <> UB) -> exact read says.
Proof.
  intros H N n. split; [apply H|]. intros F. destruct (read n) as [i| |] eqn:E; [|reflexivity|exfalso; exact (N n E)]. exfalso. apply (F i), H, E.
Qed.
Lemma at_key_ub {A} (read : string -> option A) n k : at_key read n k <> UB.
Proof. unfold at_key. apply bind_ub; [apply string_at_ub|]. intros s. destruct (read s); discriminate. Qed.
Lemma position_at_ub n k : position_at dbl factor n k <> UB.
Proof. unfold position_at. apply bind_ub; [apply get_ub|]. intros v. apply position_ub. Qed.
Lemma coordinates_at_ub n k : coordinates_at dbl factor n k <> UB.
Proof. unfold coordinates_at. apply bind_ub; [apply get_ub|]. intros v. apply coordinates_ub. Qed.
Ltac nub := repeat first [discriminate | apply get_ub | apply string_at_ub | apply uv_ub | apply uvs_ub | apply double_at_ub | apply doubles_at_ub | apply integer_ub
  | apply at_key_ub | apply position_at_ub | apply coordinates_at_ub | match goal with |- bindO _ _ <> UB => apply bind_ub; [|intros ?] end].

(** ** C151 *)
Theorem constant_force_section : exact (parse_constant_force dbl factor) (says_constant dbl factor).
Proof.
  apply exactly; intros n; [|unfold parse_constant_force; nub]. intros i. unfold parse_constant_force, says_constant. split.
  - intros H. fwd H. injection H as <-. cbn. repeat (split; [assumption|]). assumption.
  - destruct i as [f [x y z] [X Y Z] [K M N]]. cbn. intros (A & B & C & D & E & F & G & I & J & L). bwd. reflexivity.
Qed.
Theorem heading_controller_section : exact (parse_heading dbl factor) (says_heading dbl factor).
Proof.
  apply exactly; intros n; [|unfold parse_heading; nub]. intros i. unfold parse_heading, says_heading. split.
  - intros H. fwd H. injection H as <-. cbn. repeat (split; [assumption|]). assumption.
  - destruct i as ((name, ksi), tp). cbn. intros (A & B & C). bwd. reflexivity.
Qed.
Theorem station_keeping_section : exact (parse_station dbl factor) (says_station dbl factor).
Proof.
  apply exactly; intros n; [|unfold parse_station; nub]. intros i. unfold parse_station, says_station. split.
  - intros H. fwd H. injection H as <-. cbn. repeat (split; [assumption|]). assumption.
  - destruct i as (name, [a b c d e f]). cbn. intros (A & B & C & D & E & F & G). bwd. reflexivity.
Qed.
Lemma row3_ok l v : row3 l = Ok v <-> exists rest, l = vx v :: vy v :: vz v :: rest.
Proof.
  split.
  - intros H. destruct l as [|a [|b [|c l]]]; try discriminate. cbn in H. injection H as <-. cbn. eauto.
  - intros (rest & ->). destruct v. reflexivity.
Qed.
Lemma row3_ub l : row3 l <> UB.
Proof. destruct l as [|a [|b [|c l]]]; discriminate. Qed.
Lemma three_ok n k v : under n k (three dbl int_of) v <-> exists l rest, under n k numbers l /\ l = vx v :: vy v :: vz v :: rest.
Proof.
  split.
  - intros (w & E & rest & H). exists (vx v :: vy v :: vz v :: rest), rest. split; [exists w; split; assumption|reflexivity].
  - intros (l & rest & (w & E & H) & ->). exists w. split; [exact E|]. exists rest. exact H.
Qed.
Theorem linear_hydrostatic_section : exact (parse_linear_hydrostatic dbl int_of factor) (says_linear_hydrostatic dbl int_of factor).
Proof.
  apply exactly; intros n.
  2: { unfold parse_linear_hydrostatic. nub. all: apply row3_ub. }
  intros i. unfold parse_linear_hydrostatic, says_linear_hydrostatic. split.
  - intros H. fwd H. do 3 (apply (step_ok _ _ _ _ (row3_ok _)) in H; destruct H as (? & (? & ?) & H)). injection H as <-. cbn.
    repeat match goal with |- _ /\ _ => split end; try assumption; try (apply three_ok; eexists _, _; split; eassumption); (eexists _, _; split; [eassumption|split; [eassumption|reflexivity]]).
  - destruct i as [[k1 k2 k3] p1 p2 p3 p4 z theta phi]. cbn. intros (A & B & C & D & E & F & (x1 & y1 & G1 & G2 & ->) & (x2 & y2 & I1 & I2 & ->) & (x3 & y3 & J1 & J2 & ->) & (x4 & y4 & K1 & K2 & ->)).
    apply three_ok in D as (l1 & rest1 & D & H1), E as (l2 & rest2 & E & H2), F as (l3 & rest3 & F & H3). bwd.
    apply (step_ok _ _ _ _ (row3_ok _)). exists k1. split; [eauto|]. apply (step_ok _ _ _ _ (row3_ok _)). exists k2. split; [eauto|].
    apply (step_ok _ _ _ _ (row3_ok _)). exists k3. split; [eauto|]. reflexivity.
Qed.
Theorem gm_section : exact (parse_gm dbl factor) (says_gm dbl factor).
Proof.
  apply exactly; intros n.
  2: { unfold parse_gm. nub. repeat match goal with |- context [String.eqb ?a ?b] => destruct (String.eqb a b); [discriminate|] end. discriminate. }
  intros i. unfold parse_gm, says_gm. split.
  - intros H. fwd H. repeat match type of H with context [String.eqb ?a ?b] => destruct (String.eqb_spec a b) as [->|_]; [injection H as <-; cbn; tauto|] end. discriminate.
  - destruct i as (name, step). cbn. intros (A & B & C). bwd. destruct C as [<-|[<-|[<-|[]]]]; reflexivity.
Qed.
Theorem diffraction_section : exact (parse_diffraction dbl factor bool_of) (says_diffraction dbl factor bool_of).
Proof.
  apply exactly; intros n; [|unfold parse_diffraction; nub]. intros i. unfold parse_diffraction, says_diffraction. split.
  - intros H. fwd H. injection H as <-. cbn. repeat (split; [assumption|]). assumption.
  - destruct i as [h p m]. cbn. intros (A & B & C). bwd. reflexivity.
Qed.
Theorem radiation_section : exact (parse_radiation dbl factor bool_of unsigned_of) (says_radiation dbl factor bool_of unsigned_of).
Proof.
  apply exactly; intros n; [|unfold parse_radiation; nub]. intros i. unfold parse_radiation, says_radiation. split.
  - intros H. fwd H. injection H as <-. cbn. repeat (split; [assumption|]). assumption.
  - destruct i as [a b c d e f g h j k]. cbn. intros (A & B & C & D & E & F & G & I & J & K). bwd. reflexivity.
Qed.
Theorem resistance_section : exact (parse_resistance dbl int_of factor) (says_resistance dbl int_of factor).
Proof.
  apply exactly; intros n; [|unfold parse_resistance; nub]. intros i. unfold parse_resistance, says_resistance. split.
  - intros H. do 2 (apply (step_under _ _ _ _ _ _ (parse_uvs_ok R Rmult dbl int_of factor)) in H; destruct H as (? & ? & H)). injection H as <-. cbn. repeat (split; [assumption|]). assumption.
  - destruct i as (v, r). cbn. intros (A & B).
    apply (step_under _ _ _ _ _ _ (parse_uvs_ok R Rmult dbl int_of factor)). exists v. split; [exact A|].
    apply (step_under _ _ _ _ _ _ (parse_uvs_ok R Rmult dbl int_of factor)). exists r. split; [exact B|]. reflexivity.
Qed.
Lemma eqb_iff (b : bool) s t : (b = true <-> s = t) -> String.eqb s t = b.
Proof. intros H. destruct (String.eqb_spec s t) as [E|E]; destruct b; try reflexivity; [apply H in E; discriminate|exfalso; apply E, H; reflexivity]. Qed.
Lemma propeller_ok n i : parse_propeller dbl factor n = Ok i <-> says_propeller dbl factor n i.
Proof.
  unfold parse_propeller, says_propeller. split.
  - intros H. fwd H. injection H as <-. cbn. repeat split; try assumption. eexists. split; [eassumption|]. apply String.eqb_eq.
  - destruct i as [name fr w eta t cw d]. cbn. intros ((rot & A & W) & B & C & D & E & F & G). bwd. rewrite (eqb_iff cw _ _ W). reflexivity.
Qed.
Lemma propeller_ub n : parse_propeller dbl factor n <> UB.
Proof. unfold parse_propeller. nub. Qed.
Theorem propeller_section : exact (parse_propeller dbl factor) (says_propeller dbl factor).
Proof. apply exactly; [apply propeller_ok|apply propeller_ub]. Qed.
Lemma wageningen_ok n i : parse_wageningen dbl int_of factor n = Ok i <-> says_wageningen dbl int_of factor n i.
Proof.
  unfold parse_wageningen, says_wageningen. split.
  - intros H. apply (step_ok _ _ _ _ (propeller_ok n)) in H as (p & P & H). fwd H. injection H as <-. cbn. repeat (split; [assumption|]). assumption.
  - destruct i as ((p, a), z). cbn. intros (A & B & C). apply (step_ok _ _ _ _ (propeller_ok n)). exists p. split; [exact A|]. bwd. reflexivity.
Qed.
Lemma wageningen_ub n : parse_wageningen dbl int_of factor n <> UB.
Proof. unfold parse_wageningen. nub. apply propeller_ub. Qed.
(** The B-series is accepted for two to seven blades and for a blade area ratio from 0.3 to 1.05. *)
Theorem wageningen_section_domain : exact (wageningen_section dbl int_of factor)
  (fun n i => says_wageningen dbl int_of factor n i /\ (2 <= snd i <= 7)%Z /\ 3 / 10 <= snd (fst i) <= 105 / 100).
Proof.
  apply exactly.
  - intros n i. unfold wageningen_section. rewrite (step_ok _ _ _ _ (wageningen_ok n)). split.
    + intros (((p, a), z) & W & H). destruct (Z.ltb z 2) eqn:E1; [discriminate|]. destruct (Z.ltb 7 z) eqn:E2; [discriminate|]. cbn [orb] in H.
      destruct (Rltb a (3 / 10)) eqn:E3; [discriminate|]. destruct (Rltb (105 / 100) a) eqn:E4; [discriminate|]. cbn [orb] in H. injection H as <-.
      apply Z.ltb_ge in E1, E2. apply Rltb_false in E3, E4. cbn. split; [exact W|]. split; [lia|lra].
    + destruct i as ((p, a), z). cbn [fst snd]. intros (W & Hz & Ha). exists (p, a, z). split; [exact W|]. rewrite (proj2 (Z.ltb_ge z 2)), (proj2 (Z.ltb_ge 7 z)) by lia.
      rewrite !Rltb_f by lra. reflexivity.
  - intros n. unfold wageningen_section. apply bind_ub; [apply wageningen_ub|]. intros ((p, a), z).
    destruct (_ || _)%bool; [discriminate|]. destruct (_ || _)%bool; discriminate.
Qed.
Lemma ktkq_ok n i : parse_ktkq dbl int_of factor n = Ok i <-> says_ktkq dbl int_of factor n i.
Proof.
  unfold parse_ktkq, says_ktkq. split.
  - intros H. apply (step_ok _ _ _ _ (propeller_ok n)) in H as (p & P & H). fwd H. injection H as <-. cbn. repeat (split; [assumption|]). assumption.
  - destruct i as (((p, j), kt), kq). cbn. intros (A & B & C & D). apply (step_ok _ _ _ _ (propeller_ok n)). exists p. split; [exact A|]. bwd. reflexivity.
Qed.
Theorem ktkq_section : exact (parse_ktkq dbl int_of factor) (says_ktkq dbl int_of factor).
Proof. apply exactly; [apply ktkq_ok|]. intros n. unfold parse_ktkq. nub. apply propeller_ub. Qed.
Theorem rudder_section : exact (parse_rudder dbl int_of factor) (says_rudder dbl int_of factor).
Proof.
  apply exactly; intros n.
  - intros i. unfold parse_rudder, says_rudder. split.
    + intros H. apply (step_ok _ _ _ _ (wageningen_ok n)) in H as (((p, a), z) & W & H). fwd H. injection H as <-. cbn. repeat (split; [assumption|]). assumption.
    + destruct i as [p a z ar b e l d c]. cbn. intros (W & A & B & C & D & E & F). apply (step_ok _ _ _ _ (wageningen_ok n)). exists (p, a, z). split; [exact W|]. bwd. reflexivity.
  - unfold parse_rudder. apply bind_ub; [apply wageningen_ub|]. intros ((p, a), z). nub.
Qed.
End Reading.
