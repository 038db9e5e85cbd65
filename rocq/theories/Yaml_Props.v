(** C137-C143: the input file is read as it is written. *)
From Coq Require Import List Arith Bool String Ascii ZArith Lia.
From Verif Require Import Common Builder_Model Hdf5_Mesh_Model Yaml_Model Yaml_Spec Observer_Proofs Yaml_Proofs Yaml_Rotation_Proofs.
Import ListNotations.
Open Scope string_scope.

Lemma entry_size n k v : entry n k v -> Nat.eqb (size n) 0 = false.
Proof. intros (b & a & -> & _). cbn [size]. rewrite app_length. cbn. apply Nat.eqb_neq. lia. Qed.

(** ** No undefined behaviour *)
Lemma bind_ub {A B} (a : outcome A) (f : A -> outcome B) : a <> UB -> (forall x, f x <> UB) -> bindO a f <> UB.
Proof. intros N F. destruct a as [x| |]; cbn [bindO]; [apply F|discriminate|congruence]. Qed.
Lemma traverse_ub {A B} (f : A -> outcome B) l : (forall x, f x <> UB) -> traverse f l <> UB.
Proof. intros F. induction l as [|a l IH]; cbn [traverse]; [discriminate|]. apply bind_ub; [apply F|]. intros b. apply bind_ub; [exact IH|]. discriminate. Qed.
Lemma get_ub n k : get n k <> UB.
Proof. unfold get. destruct (FindValue n k); discriminate. Qed.
Lemma string_ub n : read_string n <> UB.
Proof. destruct n; discriminate. Qed.
Lemma try_ub {A} n k (read : yaml -> outcome A) d : (forall v, read v <> UB) -> try_to_parse n k read d <> UB.
Proof. intros H. unfold try_to_parse. destruct (FindValue n k); [apply H|discriminate]. Qed.

Section NoUB.
Variable D : Type.
Variable zero : D.
Variable mul : D -> D -> D.
Variable dbl : string -> option D.
Variable int_of : string -> option Z.
Variable factor : string -> option D.
Ltac nub := repeat first [discriminate | apply get_ub | apply string_ub | match goal with |- bindO _ _ <> UB => apply bind_ub; [|intros ?] end | assumption].
Lemma double_ub n : read_double D dbl n <> UB.
Proof. unfold read_double. nub. destruct (dbl x); discriminate. Qed.
Ltac nub1 := repeat first [discriminate | apply get_ub | apply double_ub | apply string_ub | match goal with |- bindO _ _ <> UB => apply bind_ub; [|intros ?] end | assumption].
Lemma find_int_ub l i : find_int int_of l i <> UB.
Proof. induction l as [|(k, v) l IH]; cbn [find_int]; [discriminate|]. destruct (match int_of k with Some j => Z.eqb j i | None => false end); [discriminate|exact IH]. Qed.
Lemma items_ub n : items int_of n <> UB.
Proof. destruct n; cbn [items]; try discriminate. apply traverse_ub. intros. apply find_int_ub. Qed.
Lemma vector_ub {A} (read : yaml -> outcome A) n : (forall v, read v <> UB) -> read_vector int_of read n <> UB.
Proof. intros H. unfold read_vector. apply bind_ub; [apply items_ub|]. intros l. apply traverse_ub, H. Qed.
Lemma uv_ub n k : uv D mul dbl factor n k <> UB.
Proof. unfold uv, parse_uv. nub1. destruct (factor x3); discriminate. Qed.
Lemma uvs_ub n : parse_uvs D mul dbl int_of factor n <> UB.
Proof. unfold parse_uvs. apply bind_ub; [apply get_ub|]. intros v. apply bind_ub; [apply vector_ub, double_ub|]. intros l. nub1. destruct (factor x0); discriminate. Qed.
Lemma string_at_ub n k : string_at n k <> UB.
Proof. unfold string_at. nub. Qed.
Lemma double_at_ub n k : double_at D dbl n k <> UB.
Proof. unfold double_at. nub1. Qed.
Lemma doubles_at_ub n k : doubles_at D dbl int_of n k <> UB.
Proof. unfold doubles_at. apply bind_ub; [apply get_ub|]. intros v. apply vector_ub, double_ub. Qed.
Lemma integer_ub n k : try_to_parse_positive_integer int_of n k <> UB.
Proof. unfold try_to_parse_positive_integer, read_int. apply bind_ub; [apply get_ub|]. intros v. apply bind_ub; [apply bind_ub; [apply string_ub|]; intros t; destruct (int_of t); discriminate|]. intros x. destruct (Z.ltb x 0); discriminate. Qed.
Ltac nub2 := repeat first [discriminate | apply get_ub | apply string_ub | apply string_at_ub | apply uv_ub | apply uvs_ub | apply double_at_ub | apply doubles_at_ub | apply integer_ub | match goal with |- bindO _ _ <> UB => apply bind_ub; [|intros ?] end | assumption].
Lemma coordinates_ub n : read_coordinates D mul dbl factor n <> UB. Proof. unfold read_coordinates. nub2. Qed.
Lemma angle_ub n : read_angle D mul dbl factor n <> UB. Proof. unfold read_angle. nub2. Qed.
Lemma position_ub n : read_position D mul dbl factor n <> UB. Proof. unfold read_position. nub2. all: try apply angle_ub. all: try apply coordinates_ub. Qed.
Lemma speed_ub n : read_speed D mul dbl factor n <> UB. Proof. unfold read_speed. nub2. Qed.
Lemma point_ub n nm : parse_point_with_name D mul dbl factor n nm <> UB. Proof. unfold parse_point_with_name. nub2. all: try apply coordinates_ub. Qed.
Lemma matrix_ub n b f : parse_matrix6 D dbl int_of n b f <> UB.
Proof.
  unfold parse_matrix6. destruct (FindValue n "from hdb"); [destruct (_ || _)%bool; [discriminate|]; nub2|]. apply bind_ub; [destruct b; nub2|]. intros ?. nub2.
Qed.
Lemma at_ub_ n w f : at_buoyancy_or_gravity D dbl int_of n w f <> UB.
Proof. unfold at_buoyancy_or_gravity. destruct (FindValue n _); [apply matrix_ub|]. nub2. all: try apply matrix_ub. Qed.
Lemma dynamics_ub n : read_dynamics D mul dbl int_of factor n <> UB.
Proof. unfold read_dynamics. nub2. all: try apply point_ub. all: try apply at_ub_. all: try apply at_ub_. all: try apply coordinates_ub. Qed.
Lemma state_ub n : read_state n <> UB.
Proof. unfold read_state. apply bind_ub; [apply string_ub|]. intros t. repeat match goal with |- context [String.eqb t ?s] => destruct (String.eqb t s); [discriminate|] end. discriminate. Qed.
Lemma interpolation_ub n : read_interpolation n <> UB.
Proof. unfold read_interpolation. apply bind_ub; [apply string_ub|]. intros t. repeat match goal with |- context [String.eqb t ?s] => destruct (String.eqb t s); [discriminate|] end. discriminate. Qed.
Lemma blocked_ub n : read_blocked_dof D dbl int_of n <> UB.
Proof.
  unfold read_blocked_dof. apply bind_ub; [|intros ?; apply bind_ub; [|discriminate]]; apply try_ub; intros v; apply vector_ub; intros w.
  - unfold read_csv_dof. nub2. apply interpolation_ub. apply state_ub.
  - unfold read_yaml_dof. nub2. all: try apply interpolation_ub. all: try apply state_ub.
Qed.
Lemma model_ub n : read_model n <> UB. Proof. unfold read_model. nub2. Qed.
Lemma body_ub n : read_body D mul dbl int_of factor n <> UB.
Proof.
  unfold read_body. nub2; try apply position_ub; try apply speed_ub; try apply dynamics_ub; try (apply try_ub; intros v; try apply vector_ub; try apply model_ub; try apply string_ub; try apply blocked_ub).
Qed.
Lemma constants_ub n : read_constants D mul dbl factor n <> UB. Proof. unfold read_constants. nub2. Qed.
Lemma commands_ub n : read_commands D mul dbl int_of factor n <> UB.
Proof.
  unfold read_commands. nub2. generalize (@nil (string * list D)) (keys_of n). intros acc ks. revert acc. induction ks as [|k ks IH]; intros acc; cbn [commands_loop]; [discriminate|].
  destruct (String.eqb k "name" || String.eqb k "t")%bool; [apply IH|]. nub2. all: try apply IH.
Qed.
Lemma rotations_ub n : read_rotations int_of n <> UB.
Proof.
  unfold read_rotations. apply bind_ub; [apply vector_ub, string_ub|]. intros s. destruct (Nat.eqb (List.length s) 3); [|discriminate].
  apply bind_ub; [|intros ((?, ?), ?); discriminate]. generalize (false, false, @nil string). induction s as [|a s IH]; intros st; cbn [rotation_loop]; [discriminate|].
  apply bind_ub; [|exact IH]. destruct st as ((x, g), c). rewrite rotation_step_eq. destruct (Nat.ltb 7 (String.length a)); [discriminate|].
  destruct (x || is_axis a || (g || is_angle a))%bool; discriminate.
Qed.
Lemma simulator_ub n : parse_simulator D zero mul dbl int_of factor n <> UB.
Proof.
  unfold parse_simulator. destruct (Nat.eqb (size n) 0); [discriminate|]. nub2; try apply rotations_ub;
    try (apply try_ub; intros v; try apply vector_ub; try apply model_ub; try apply body_ub; try apply commands_ub; try apply constants_ub).
Qed.
End NoUB.

Section Theorems.
Variable D : Type.
Variable zero : D.
Variable mul : D -> D -> D.
Variable dbl : string -> option D.
Variable int_of : string -> option Z.
Variable factor : string -> option D.
Notation parse := (parse_simulator D zero mul dbl int_of factor).
Notation quantity := (quantity D mul dbl factor).

(** ** C137 *)
Theorem input_file_reading : forall n i,
  parse n = Ok i <-> describes_input D zero mul dbl int_of factor n i.
Proof.
  intros n i. unfold parse_simulator, describes_input.
  pose proof (fun d x => try_ok n "environmental constants" _ _ d x (constants_ok D mul dbl factor)) as E1.
  pose proof (fun d x => try_ok n "bodies" _ _ d x (fun v a => vector_ok int_of _ _ v a (body_ok D mul dbl int_of factor))) as E2.
  pose proof (fun d x => try_ok n "environment models" _ _ d x (models_ok int_of)) as E3.
  pose proof (fun d x => try_ok n "commands" _ _ d x (fun v a => vector_ok int_of _ _ v a (commands_ok D mul dbl int_of factor))) as E4.
  split.
  - intros H. destruct (Nat.eqb (size n) 0); [discriminate|].
    apply (step_ok _ _ _ _ (E1 _)) in H. destruct H as (c & C & H). apply (step_ok _ _ _ _ (E2 _)) in H. destruct H as (b & B & H).
    apply (step_under _ _ _ _ _ _ (rotations_ok int_of)) in H. destruct H as (r & Rr & H). apply (step_ok _ _ _ _ (E3 _)) in H. destruct H as (e & E & H).
    apply (step_ok _ _ _ _ (E4 _)) in H. destruct H as (co & Co & H). injection H as <-. exact (conj C (conj B (conj Rr (conj E Co)))).
  - destruct i as [r c e b co]. cbn [i_constants i_bodies i_rotations i_environment i_commands]. intros (C & B & Rr & E & Co).
    destruct Rr as (rv & Ev & Hr). rewrite (entry_size _ _ _ Ev).
    apply (step_ok _ _ _ _ (E1 _)). exists c. split; [exact C|]. apply (step_ok _ _ _ _ (E2 _)). exists b. split; [exact B|].
    apply (step_under _ _ _ _ _ _ (rotations_ok int_of)). exists r. split; [exists rv; split; assumption|].
    apply (step_ok _ _ _ _ (E3 _)). exists e. split; [exact E|]. apply (step_ok _ _ _ _ (E4 _)). exists co. split; [exact Co|]. reflexivity.
Qed.
(** Everything else is refused with an exception, nothing is read out of bounds. *)
Theorem input_file_refusal : forall n,
  (forall i, ~ describes_input D zero mul dbl int_of factor n i) -> parse n = Throw.
Proof.
  intros n H. destruct (parse n) as [i| |] eqn:E; [|reflexivity|].
  - exfalso. apply (H i), input_file_reading, E.
  - exfalso. exact (simulator_ub D zero mul dbl int_of factor n E).
Qed.
(** A body without one of the mandatory sections is refused, wherever it stands in the list. *)
Theorem mandatory_sections : forall n bodies l b k,
  entry n "bodies" bodies -> listed int_of bodies l -> In b l ->
  In k ["name"; "position of body frame relative to mesh"; "initial position of body frame relative to NED";
        "initial velocity of body frame relative to NED"; "dynamics"] ->
  lacks b k -> parse n = Throw.
Proof.
  intros n bodies l b k En Hl Hb Hk L. apply input_file_refusal. intros i (_ & B & _).
  destruct B as [(v & Ev & lv & Hlv & F)|(La & _)]; [|exact (entry_lacks _ _ _ En La)].
  assert (v = bodies) by (eapply entry_fun; eassumption). subst v.
  assert (lv = l) by (apply (items_ok int_of) in Hl, Hlv; congruence). subst lv.
  assert (X : exists y, describes_body D mul dbl int_of factor b y).
  { revert Hb. clear -F. induction F as [|x y l l' P F IH]; [intros []|]. intros [<-|I]; [exists y; exact P|apply IH, I]. }
  destruct X as (y & H1 & _ & _ & _ & H2 & H3 & H4 & H5 & _).
  destruct Hk as [<-|[<-|[<-|[<-|[<-|[]]]]]];
    [destruct H1 as (w & Ew & _)|destruct H2 as (w & Ew & _)|destruct H3 as (w & Ew & _)|destruct H4 as (w & Ew & _)|destruct H5 as (w & Ew & _)]; exact (entry_lacks _ _ _ Ew L).
Qed.

(** ** C139: only the documented keys count *)
Definition same_under (ks : list string) (n n' : yaml) : Prop := forall k, In k ks -> forall v, entry n k v <-> entry n' k v.
Lemma same_find ks n n' k : same_under ks n n' -> In k ks -> FindValue n k = FindValue n' k.
Proof.
  intros H I. specialize (H k I). destruct (FindValue n k) as [v|] eqn:E.
  - apply find_ok, H, find_ok in E. congruence.
  - destruct (FindValue n' k) as [w|] eqn:E'; [|reflexivity]. apply find_ok, H, find_ok in E'. congruence.
Qed.
Definition top_keys := ["environmental constants"; "bodies"; "rotations convention"; "environment models"; "commands"].
Theorem other_sections_ignored_partial : forall n n', same_under top_keys n n' -> parse n = parse n'.
Proof.
  intros n n' H. assert (F : forall k, In k top_keys -> FindValue n k = FindValue n' k) by (intros k; apply (same_find top_keys); exact H).
  assert (F1 := F "environmental constants" ltac:(cbn; tauto)). assert (F2 := F "bodies" ltac:(cbn; tauto)). assert (F3 := F "rotations convention" ltac:(cbn; tauto)).
  assert (F4 := F "environment models" ltac:(cbn; tauto)). assert (F5 := F "commands" ltac:(cbn; tauto)).
  assert (T : forall n, FindValue n "rotations convention" = None -> parse n = Throw).
  { clear. intros n E. unfold parse_simulator. destruct (Nat.eqb (size n) 0); [reflexivity|].
    destruct (try_to_parse n "environmental constants" _ _) eqn:E1; [| reflexivity |exfalso; revert E1; apply try_ub; apply constants_ub]. cbn [bindO].
    destruct (try_to_parse n "bodies" _ _) eqn:E2; [| reflexivity |exfalso; revert E2; apply try_ub; intros; apply vector_ub, body_ub]. cbn [bindO].
    unfold get. rewrite E. reflexivity. }
  destruct (FindValue n "rotations convention") as [v|] eqn:E; [|rewrite (T n E), (T n'); congruence].
  assert (S1 : Nat.eqb (size n) 0 = false) by (apply (entry_size n "rotations convention" v), find_ok; exact E).
  assert (S2 : Nat.eqb (size n') 0 = false) by (apply (entry_size n' "rotations convention" v), find_ok; congruence).
  unfold parse_simulator. rewrite S1, S2. unfold try_to_parse, get. rewrite F1, F2, E, <- F3, F4, F5. reflexivity.
Qed.
Definition body_keys := ["name"; "mesh"; "external forces"; "controlled forces"; "position of body frame relative to mesh";
  "initial position of body frame relative to NED"; "initial velocity of body frame relative to NED"; "dynamics"; "blocked dof"].
Theorem other_body_keys_ignored_partial : forall n n', same_under body_keys n n' -> read_body D mul dbl int_of factor n = read_body D mul dbl int_of factor n'.
Proof.
  intros n n' H. assert (F : forall k, In k body_keys -> FindValue n k = FindValue n' k) by (intros k; apply (same_find body_keys); exact H).
  assert (F1 := F "name" ltac:(cbn; tauto)). assert (F2 := F "mesh" ltac:(cbn; tauto)). assert (F3 := F "external forces" ltac:(cbn; tauto)).
  assert (F4 := F "controlled forces" ltac:(cbn; tauto)). assert (F5 := F "position of body frame relative to mesh" ltac:(cbn; tauto)).
  assert (F6 := F "initial position of body frame relative to NED" ltac:(cbn; tauto)). assert (F7 := F "initial velocity of body frame relative to NED" ltac:(cbn; tauto)).
  assert (F8 := F "dynamics" ltac:(cbn; tauto)). assert (F9 := F "blocked dof" ltac:(cbn; tauto)).
  unfold read_body, string_at, try_to_parse, get. rewrite F1, F2, F3, F4, F5, F6, F7, F8, F9. reflexivity.
Qed.

(** ** C142: the commands *)
Theorem commands_section : forall n c, read_commands D mul dbl int_of factor n = Ok c ->
  under n "name" text (c_name c) /\ under n "t" (list_of int_of (number D dbl)) (c_t c) /\
  (forall k v, k <> "name" -> k <> "t" -> entry n k v -> exists x, quantities D mul dbl int_of factor v x /\ map_get (c_values c) k = Some x) /\
  (forall k, lacks n k \/ k = "name" \/ k = "t" -> map_get (c_values c) k = None).
Proof.
  intros n c H. apply commands_ok in H as (N & T & F). split; [exact N|]. split; [exact T|].
  assert (G : forall ks l, Forall2 (fun k (kv : string * list D) => fst kv = k /\ under n k (quantities D mul dbl int_of factor) (snd kv)) ks l ->
    forall k, match map_get (rev l) k with Some x => In k ks /\ under n k (quantities D mul dbl int_of factor) x | None => ~ In k ks end).
  { clear. intros ks l F. induction F as [|k0 (k1, x1) ks l (E1 & U) F IH]; intros k; [cbn; tauto|]. cbn [rev fst snd] in *. subst k0.
    assert (A : forall m, map_get (m ++ [(k1, x1)])%list k = match map_get m k with Some x => Some x | None => if string_dec k1 k then Some x1 else None end).
    { clear. induction m as [|(a, b) m IH]; cbn [app map_get]; [reflexivity|]. destruct (string_dec a k); [reflexivity|exact IH]. }
    rewrite A. specialize (IH k). destruct (map_get (rev l) k) as [x|]; [split; [right; tauto|tauto]|].
    destruct (string_dec k1 k) as [->|Nk]; [split; [left; reflexivity|exact U]|]. intros [E|I]; [congruence|exact (IH I)]. }
  specialize (G _ _ F). rewrite rev_involutive in G. split.
  - intros k v N1 N2 E. specialize (G k). destruct (map_get (c_values c) k) as [x|].
    + destruct G as (_ & w & Ew & Q). exists x. split; [|reflexivity]. rewrite (entry_fun _ _ _ _ E Ew). exact Q.
    + exfalso. apply G. apply filter_In. split; [|destruct (String.eqb_spec k "name"); [congruence|]; destruct (String.eqb_spec k "t"); [congruence|reflexivity]].
      destruct E as (b & a & -> & _). cbn [keys]. rewrite map_app. apply in_or_app. right. left. reflexivity.
  - intros k L. specialize (G k). destruct (map_get (c_values c) k) as [x|]; [|reflexivity]. exfalso. destruct G as (I & w & Ew & _).
    apply filter_In in I as (_ & NB). destruct L as [L|[->| ->]]; [exact (entry_lacks _ _ _ Ew L)|discriminate|discriminate].
Qed.

(** ** C143: the seed *)
Theorem seed_reading : forall n s, parse_seed int_of n = Ok s <->
  (exists x, under n "seed of the random data generator" (natural int_of) x /\ s = Some x) \/
  (under n "seed of the random data generator" text "none" /\ s = None /\ ~ exists x, int_of "none" = Some x /\ (0 <= x)%Z).
Proof.
  intros n s. unfold parse_seed. pose proof (natural_ok int_of n "seed of the random data generator") as N.
  pose proof (fun x => try_ok n "seed of the random data generator" read_string text "" x string_ok) as T.
  destruct (try_to_parse_positive_integer int_of n "seed of the random data generator") as [x| |] eqn:E.
  - assert (U := proj1 (N x) eq_refl). split.
    + intros H. injection H as <-. left. exists x. split; [exact U|reflexivity].
    + intros [(y & Uy & ->)|(Ut & _ & Q)]; [apply N in Uy; injection Uy as ->; reflexivity|]. exfalso. apply Q.
      destruct U as (v & Ev & w & Tw & Iw & P). destruct Ut as (v' & Ev' & Tn). rewrite (entry_fun _ _ _ _ Ev' Ev) in Tn. rewrite (text_fun _ _ _ Tn Tw). exists x. auto.
  - destruct (try_to_parse n "seed of the random data generator" read_string "") as [w| |] eqn:E2.
    + assert (O := proj1 (T w) eq_refl). destruct (String.eqb_spec w "none") as [->|Nw].
      * destruct O as [U|(_ & X)]; [|discriminate]. split.
        { intros H. injection H as <-. right. split; [exact U|]. split; [reflexivity|]. intros (x & Ix & P). destruct U as (v & Ev & Tv).
          assert (Z : under n "seed of the random data generator" (natural int_of) x) by (exists v; split; [exact Ev|exists "none"; auto]). apply N in Z. discriminate. }
        { intros [(y & Uy & ->)|(_ & -> & _)]; [apply N in Uy; discriminate|reflexivity]. }
      * split; [discriminate|]. intros [(y & Uy & ->)|(Ut & _)]; [apply N in Uy; discriminate|]. assert (X := proj2 (T "none") (or_introl Ut)). congruence.
    + split; [discriminate|]. intros [(y & Uy & ->)|(Ut & _)]; [apply N in Uy; discriminate|]. assert (X := proj2 (T "none") (or_introl Ut)). congruence.
    + split; [discriminate|]. intros [(y & Uy & ->)|(Ut & _)]; [apply N in Uy; discriminate|]. assert (X := proj2 (T "none") (or_introl Ut)). congruence.
  - exfalso. exact (integer_ub int_of n _ E).
Qed.
End Theorems.
Print Assumptions input_file_reading.
Print Assumptions input_file_refusal.
Print Assumptions mandatory_sections.
Print Assumptions other_sections_ignored_partial.
Print Assumptions other_body_keys_ignored_partial.
Print Assumptions commands_section.
Print Assumptions seed_reading.
