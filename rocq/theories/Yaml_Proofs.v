(** The readers of the input file against what the sections say. *)
From Coq Require Import List Arith Bool String Ascii ZArith Lia.
From Verif Require Import Common Builder_Model Hdf5_Mesh_Model Yaml_Model Yaml_Spec.
Import ListNotations.
Open Scope string_scope.

(** ** Generic facts *)
Lemma bind_ok {A B} (a : outcome A) (f : A -> outcome B) b : bindO a f = Ok b <-> exists x, a = Ok x /\ f x = Ok b.
Proof. destruct a as [x| |]; cbn [bindO]; split; intros H; try discriminate; try (destruct H as (y & E & _); discriminate); eauto. destruct H as (y & E & G). injection E as <-. exact G. Qed.
Lemma traverse_iff {A B} (f : A -> outcome B) (P : A -> B -> Prop) l r : (forall a b, f a = Ok b <-> P a b) -> (traverse f l = Ok r <-> Forall2 P l r).
Proof.
  intros H. revert r. induction l as [|a l IH]; intros r; cbn [traverse].
  - split; [intros E; injection E as <-; apply Forall2_nil|intros E; inversion E; reflexivity].
  - rewrite bind_ok. split.
    + intros (b & E & G). apply bind_ok in G as (t & Et & G). injection G as <-. apply Forall2_cons; [apply H, E|apply IH, Et].
    + intros F. inversion F as [|x b l' t Pb Ft]; subst. exists b. split; [apply H, Pb|]. rewrite bind_ok. exists t. split; [apply IH, Ft|reflexivity].
Qed.

(** ** Keys *)
Lemma find_entry_ok l k v : find_entry l k = Some v <-> exists b a, l = (b ++ (k, v) :: a)%list /\ ~ In k (map fst b).
Proof.
  induction l as [|(k', w) l IH]; cbn [find_entry].
  - split; [discriminate|]. intros (b & a & E & _). destruct b; discriminate.
  - destruct (String.eqb_spec k' k) as [->|N].
    + split.
      * intros E. injection E as <-. exists [], l. split; [reflexivity|intros []].
      * intros (b & a & E & NI). destruct b as [|(k2, w2) b]; cbn [app] in E; inversion E; subst; [congruence|]. exfalso. apply NI. left. reflexivity.
    + rewrite IH. split.
      * intros (b & a & -> & NI). exists ((k', w) :: b), a. split; [reflexivity|]. intros [E|I]; [cbn in E; congruence|exact (NI I)].
      * intros (b & a & E & NI). destruct b as [|(k2, w2) b]; cbn [app] in E; inversion E; subst; [congruence|]. exists b, a. split; [reflexivity|].
        intros I. apply NI. right. exact I.
Qed.
Lemma find_entry_none l k : find_entry l k = None <-> ~ In k (map fst l).
Proof.
  induction l as [|(k', w) l IH]; cbn [find_entry map fst]; [split; [intros _ []|reflexivity]|].
  destruct (String.eqb_spec k' k) as [->|N]; [split; [discriminate|intros H; exfalso; apply H; left; reflexivity]|].
  rewrite IH. split; [intros H [E|I]; [congruence|exact (H I)]|intros H I; apply H; right; exact I].
Qed.
Lemma find_ok n k v : FindValue n k = Some v <-> entry n k v.
Proof.
  unfold FindValue, entry. destruct n as [|s|l|l]; try (split; [discriminate|intros (b & a & E & _); discriminate]).
  rewrite find_entry_ok. split; intros (b & a & E & NI); exists b, a; (split; [|exact NI]); congruence.
Qed.
Lemma find_none n k : FindValue n k = None <-> lacks n k.
Proof. unfold FindValue, lacks. destruct n as [|s|l|l]; try (split; [intros; exact Logic.I|reflexivity]). apply find_entry_none. Qed.
Lemma get_ok n k v : get n k = Ok v <-> entry n k v.
Proof. rewrite <- find_ok. unfold get. destruct (FindValue n k); split; congruence. Qed.
Lemma entry_fun n k v w : entry n k v -> entry n k w -> v = w.
Proof. rewrite <- !find_ok. congruence. Qed.
Lemma entry_lacks n k v : entry n k v -> lacks n k -> False.
Proof. rewrite <- find_ok, <- find_none. congruence. Qed.
Lemma has_false n k : has n k = false <-> lacks n k.
Proof. rewrite <- find_none. unfold has. destruct (FindValue n k); split; congruence. Qed.
Lemma under_ok {A} n k (read : yaml -> outcome A) says x : (forall v a, read v = Ok a <-> says v a) -> (bindO (get n k) read = Ok x <-> under n k says x).
Proof.
  intros H. rewrite bind_ok. unfold under. split; intros (v & E & G); exists v; split; try (apply get_ok; exact E); apply H, G.
Qed.
(** The two shapes of a reading step *)
Lemma step_under {A B} n k (read : yaml -> outcome A) says (f : A -> outcome B) b : (forall v a, read v = Ok a <-> says v a) ->
  (bindO (get n k) (fun v => bindO (read v) f) = Ok b <-> exists x, under n k says x /\ f x = Ok b).
Proof.
  intros H. rewrite bind_ok. split.
  - intros (v & E & G). apply bind_ok in G as (x & Ex & G). exists x. split; [|exact G]. exists v. split; [apply get_ok, E|apply H, Ex].
  - intros (x & (v & E & S) & G). exists v. split; [apply get_ok, E|]. apply bind_ok. exists x. split; [apply H, S|exact G].
Qed.
Lemma step_ok {A B} (r : outcome A) (P : A -> Prop) (f : A -> outcome B) b : (forall a, r = Ok a <-> P a) -> (bindO r f = Ok b <-> exists x, P x /\ f x = Ok b).
Proof. intros H. rewrite bind_ok. split; intros (x & E & G); exists x; (split; [apply H, E|exact G]). Qed.
Lemma try_ok {A} n k (read : yaml -> outcome A) says d x : (forall v a, read v = Ok a <-> says v a) -> (try_to_parse n k read d = Ok x <-> optionally n k says d x).
Proof.
  intros H. unfold try_to_parse, optionally, under. destruct (FindValue n k) as [v|] eqn:E.
  - split.
    + intros G. left. exists v. split; [apply find_ok, E|apply H, G].
    + intros [(w & Ew & G)|(L & _)]; [|apply find_none in L; congruence]. apply H. apply find_ok in Ew. congruence.
  - split.
    + intros G. injection G as <-. right. split; [apply find_none, E|reflexivity].
    + intros [(w & Ew & G)|(L & ->)]; [apply find_ok in Ew; congruence|reflexivity].
Qed.
Lemma string_ok n s : read_string n = Ok s <-> text n s.
Proof.
  unfold read_string, text. destruct n; split; intros H; try discriminate.
  - injection H as <-. right. split; reflexivity.
  - destruct H as [H|(_ & ->)]; [discriminate|reflexivity].
  - injection H as <-. left. reflexivity.
  - destruct H as [H|(H & _)]; [injection H as ->; reflexivity|discriminate].
  - destruct H as [H|(H & _)]; discriminate.
  - destruct H as [H|(H & _)]; discriminate.
Qed.
Lemma string_at_ok n k s : string_at n k = Ok s <-> under n k text s.
Proof. apply under_ok, string_ok. Qed.

Section Reading.
Variable D : Type.
Variable zero : D.
Variable mul : D -> D -> D.
Variable dbl : string -> option D.
Variable int_of : string -> option Z.
Variable factor : string -> option D.
Notation number := (number D dbl). Notation quantity := (quantity D mul dbl factor). Notation quantities := (quantities D mul dbl int_of factor).
Notation list_of := (list_of int_of). Notation natural := (natural int_of). Notation listed := (listed int_of).

Lemma double_ok n x : read_double D dbl n = Ok x <-> number n x.
Proof.
  unfold read_double, Yaml_Spec.number. rewrite bind_ok. split; intros (s & E & G); exists s.
  - destruct (dbl s) eqn:F; [injection G as <-; split; [apply string_ok, E|reflexivity]|discriminate].
  - rewrite G. split; [apply string_ok, E|reflexivity].
Qed.
Lemma double_at_ok n k s : double_at D dbl n k = Ok s <-> under n k number s.
Proof. apply under_ok, double_ok. Qed.
Lemma find_int_ok l i v : find_int int_of l i = Ok v <-> exists b k a, l = (b ++ (k, v) :: a)%list /\ int_of k = Some i /\ forall e, In e b -> int_of (fst e) <> Some i.
Proof.
  induction l as [|(k, w) l IH]; cbn [find_int].
  - split; [discriminate|]. intros (b & k & a & E & _). destruct b; discriminate.
  - assert (C : match int_of k with Some j => Z.eqb j i | None => false end = true <-> int_of k = Some i).
    { destruct (int_of k) as [j|]; [rewrite Z.eqb_eq; split; congruence|split; discriminate]. }
    destruct (match int_of k with Some j => Z.eqb j i | None => false end) eqn:T.
    + assert (Ek := proj1 C eq_refl). split.
      * intros E. injection E as <-. exists [], k, l. repeat split; [exact Ek|intros e []].
      * intros (b & k2 & a & E & Ek2 & NI). destruct b as [|(k3, w3) b]; cbn [app] in E; inversion E; subst; [congruence|].
        exfalso. apply (NI (k3, w3)); [left; reflexivity|exact Ek].
    + assert (Nk : int_of k <> Some i) by (intros X; apply C in X; discriminate). rewrite IH. split.
      * intros (b & k2 & a & -> & Ek2 & NI). exists ((k, w) :: b), k2, a. repeat split; [exact Ek2|]. intros e [<-|I]; [exact Nk|exact (NI e I)].
      * intros (b & k2 & a & E & Ek2 & NI). destruct b as [|(k3, w3) b]; cbn [app] in E; inversion E; subst; [congruence|].
        exists b, k2, a. repeat split; [exact Ek2|]. intros e I. apply NI. right. exact I.
Qed.
Lemma traverse_seq {A} (f : nat -> outcome A) (P : nat -> A -> Prop) : (forall i a, f i = Ok a <-> P i a) -> forall m s r,
  traverse f (seq s m) = Ok r <-> List.length r = m /\ forall i v, nth_error r i = Some v -> P (s + i) v.
Proof.
  intros H m. induction m as [|m IH]; intros s r; cbn [seq traverse].
  - split; [intros E; injection E as <-; split; [reflexivity|intros [|i] v; discriminate]|]. intros (L & _). destruct r; [reflexivity|discriminate].
  - rewrite bind_ok. split.
    + intros (a & Ea & G). apply bind_ok in G as (t & Et & G). injection G as <-. apply IH in Et as (L & F). split; [cbn; congruence|].
      intros [|i] v E; cbn in E; [injection E as <-; rewrite Nat.add_0_r; apply H, Ea|]. replace (s + S i) with (S s + i) by lia. apply F, E.
    + intros (L & F). destruct r as [|a r]; [discriminate|]. exists a. split; [apply H; specialize (F 0 a eq_refl); rewrite Nat.add_0_r in F; exact F|].
      rewrite bind_ok. exists r. split; [|reflexivity]. apply IH. split; [cbn in L; congruence|]. intros i v E. replace (S s + i) with (s + S i) by lia. apply F. exact E.
Qed.
Lemma items_ok n l : items int_of n = Ok l <-> listed n l.
Proof.
  unfold items, Yaml_Spec.listed. destruct n as [|s|l'|m]; try (split; congruence).
  rewrite (traverse_seq _ (fun i v => exists b k a, m = (b ++ (k, v) :: a)%list /\ int_of k = Some (Z.of_nat i) /\ forall e, In e b -> int_of (fst e) <> Some (Z.of_nat i)))
    by (intros i a; apply find_int_ok). reflexivity.
Qed.
Lemma vector_ok {A} (read : yaml -> outcome A) says n l : (forall v a, read v = Ok a <-> says v a) -> (read_vector int_of read n = Ok l <-> list_of says n l).
Proof.
  intros H. unfold read_vector, Yaml_Spec.list_of. rewrite bind_ok. split; intros (x & E & G); exists x; (split; [apply items_ok, E|]).
  - apply (traverse_iff read says x l H), G.
  - apply (traverse_iff read says x l H), G.
Qed.
Lemma doubles_ok n l : read_vector int_of (read_double D dbl) n = Ok l <-> list_of number n l.
Proof. apply vector_ok, double_ok. Qed.
Lemma doubles_at_ok n k s : doubles_at D dbl int_of n k = Ok s <-> under n k (list_of number) s.
Proof. apply under_ok, doubles_ok. Qed.
Lemma parse_uv_ok n x : parse_uv D mul dbl factor n = Ok x <-> quantity n x.
Proof.
  unfold parse_uv, Yaml_Spec.quantity. rewrite (step_under _ _ _ number) by apply double_ok. split.
  - intros (d & Ud & G). apply (step_under _ _ _ text) in G; [|apply string_ok]. destruct G as (u & Uu & G).
    destruct (factor u) as [f|] eqn:F; [|discriminate]. injection G as <-. exists d, u, f. auto.
  - intros (d & u & f & Ud & Uu & F & ->). exists d. split; [exact Ud|]. apply (step_under _ _ _ text); [apply string_ok|]. exists u. rewrite F. auto.
Qed.
Lemma parse_uvs_ok n x : parse_uvs D mul dbl int_of factor n = Ok x <-> quantities n x.
Proof.
  unfold parse_uvs, Yaml_Spec.quantities. rewrite (step_under _ _ _ (list_of number)) by apply doubles_ok. split.
  - intros (d & Ud & G). apply (step_under _ _ _ text) in G; [|apply string_ok]. destruct G as (u & Uu & G).
    destruct (factor u) as [f|] eqn:F; [|discriminate]. injection G as <-. exists d, u, f. auto.
  - intros (d & u & f & Ud & Uu & F & ->). exists d. split; [exact Ud|]. apply (step_under _ _ _ text); [apply string_ok|]. exists u. rewrite F. auto.
Qed.
Lemma uv_ok n k x : uv D mul dbl factor n k = Ok x <-> under n k quantity x.
Proof. apply under_ok, parse_uv_ok. Qed.
Lemma natural_ok n k x : try_to_parse_positive_integer int_of n k = Ok x <-> under n k natural x.
Proof.
  unfold try_to_parse_positive_integer, under, Yaml_Spec.natural, read_int. rewrite bind_ok. split.
  - intros (v & E & G). exists v. split; [apply get_ok, E|]. apply bind_ok in G as (y & Ey & G). apply bind_ok in Ey as (s & Es & Ey).
    destruct (int_of s) eqn:I; [|discriminate]. injection Ey as ->. destruct (Z.ltb_spec y 0); [discriminate|]. injection G as ->.
    exists s. split; [apply string_ok, Es|]. split; [exact I|assumption].
  - intros (v & E & s & T & I & P). exists v. split; [apply get_ok, E|]. apply string_ok in T. rewrite T. cbn [bindO]. rewrite I. cbn [bindO].
    destruct (Z.ltb_spec x 0); [lia|reflexivity].
Qed.

(** Chains of readings *)
Ltac one L H := let x := fresh "x" in let U := fresh "U" in apply L in H; destruct H as (x & U & H).
Ltac fwd H := repeat first
  [ apply (step_ok _ _ _ _ (string_at_ok _ _)) in H; destruct H as (? & ? & H)
  | apply (step_ok _ _ _ _ (uv_ok _ _)) in H; destruct H as (? & ? & H)
  | apply (step_ok _ _ _ _ (double_at_ok _ _)) in H; destruct H as (? & ? & H)
  | apply (step_ok _ _ _ _ (doubles_at_ok _ _)) in H; destruct H as (? & ? & H)
  | apply (step_ok _ _ _ _ (natural_ok _ _)) in H; destruct H as (? & ? & H) ].
Ltac bwd := repeat first
  [ apply (step_ok _ _ _ _ (string_at_ok _ _)); eexists; split; [eassumption|]
  | apply (step_ok _ _ _ _ (uv_ok _ _)); eexists; split; [eassumption|]
  | apply (step_ok _ _ _ _ (double_at_ok _ _)); eexists; split; [eassumption|]
  | apply (step_ok _ _ _ _ (doubles_at_ok _ _)); eexists; split; [eassumption|]
  | apply (step_ok _ _ _ _ (natural_ok _ _)); eexists; split; [eassumption|] ].

Notation coordinates_ := (describes_coordinates D mul dbl factor).
Lemma coordinates_ok n c : read_coordinates D mul dbl factor n = Ok c <-> coordinates_ n c.
Proof.
  unfold read_coordinates, describes_coordinates. split.
  - intros H. fwd H. injection H as <-. cbn. auto.
  - destruct c as [x y z]. cbn. intros (A & B & C). bwd. reflexivity.
Qed.
Lemma angle_ok n c : read_angle D mul dbl factor n = Ok c <-> describes_angle D mul dbl factor n c.
Proof.
  unfold read_angle, describes_angle. split.
  - intros H. fwd H. injection H as <-. cbn. auto.
  - destruct c as [x y z]. cbn. intros (A & B & C). bwd. reflexivity.
Qed.
Lemma position_ok n c : read_position D mul dbl factor n = Ok c <-> describes_position D mul dbl factor n c.
Proof.
  unfold read_position, describes_position. rewrite (step_ok _ _ _ _ (angle_ok n)). split.
  - intros (a & A & H). apply (step_ok _ _ _ _ (coordinates_ok n)) in H. destruct H as (p & P & H). fwd H. injection H as <-. cbn. auto.
  - destruct c as [f p a]. cbn. intros (A & P & F). exists a. split; [exact A|]. apply (step_ok _ _ _ _ (coordinates_ok n)). exists p. split; [exact P|]. bwd. reflexivity.
Qed.
Lemma speed_ok n c : read_speed D mul dbl factor n = Ok c <-> describes_speed D mul dbl factor n c.
Proof.
  unfold read_speed, describes_speed. split.
  - intros H. fwd H. injection H as <-. cbn. auto 10.
  - destruct c as [f u v w p q r]. cbn. intros (F & U & V & W & P & Q & R). bwd. reflexivity.
Qed.
Lemma centre_ok n c : parse_point_with_name D mul dbl factor n "centre of inertia" = Ok c <-> describes_centre D mul dbl factor n c.
Proof.
  unfold parse_point_with_name, describes_centre. rewrite (step_ok _ _ _ _ (coordinates_ok n)). split.
  - intros (p & P & H). fwd H. injection H as <-. cbn. auto.
  - destruct c as [nm f p]. cbn. intros (-> & P & F). exists p. split; [exact P|]. bwd. reflexivity.
Qed.
Lemma matrix_ok frame n m : parse_matrix6 D dbl int_of n false frame = Ok m <-> describes_matrix D dbl int_of frame n m.
Proof.
  unfold parse_matrix6, describes_matrix. destruct (FindValue n "from hdb") as [p|] eqn:E.
  - split.
    + intros H. left. destruct (_ || _)%bool eqn:B in H; [discriminate|]. apply bind_ok in H as (s & Es & H). injection H as <-. cbn.
      repeat (apply orb_false_elim in B as (B & ?)). repeat split; try (apply has_false; assumption).
      exists p. split; [apply find_ok, E|apply string_ok, Es].
    + intros [((v & Ev & T) & F & Fr & R & L1 & L2 & L3 & L4 & L5 & L6)|(L & _)]; [|apply find_none in L; congruence].
      apply has_false in L1, L2, L3, L4, L5, L6. rewrite L1, L2, L3, L4, L5, L6. cbn [orb]. apply find_ok in Ev. rewrite E in Ev. injection Ev as ->.
      apply string_ok in T. rewrite T. cbn [bindO]. destruct m; cbn in *. subst. reflexivity.
  - split.
    + intros H. right. cbn [bindO] in H. fwd H. injection H as <-. cbn. split; [apply find_none, E|]. repeat split. do 6 eexists. split; [reflexivity|]. auto 10.
    + intros [((v & Ev & T) & _)|(_ & F & Hd & Fr & r1 & r2 & r3 & r4 & r5 & r6 & R & R1 & R2 & R3 & R4 & R5 & R6)]; [apply find_ok in Ev; congruence|].
      cbn [bindO]. bwd. destruct m; cbn in *. subst. reflexivity.
Qed.
Lemma matrix_at_ok n what frame m : at_buoyancy_or_gravity D dbl int_of n what frame = Ok m <->
  describes_matrix_at D dbl int_of n (what ++ " matrix at the center of buoyancy projected in the body frame")
    (what ++ " matrix at the center of gravity and projected in the body frame") frame m.
Proof.
  unfold at_buoyancy_or_gravity, describes_matrix_at.
  generalize (what ++ " matrix at the center of buoyancy projected in the body frame") (what ++ " matrix at the center of gravity and projected in the body frame").
  intros kb kg. destruct (FindValue n kb) as [v|] eqn:E.
  - split.
    + intros H. left. exists v. split; [apply find_ok, E|apply matrix_ok, H].
    + intros [(w & Ew & H)|(L & _)]; [|apply find_none in L; congruence]. apply find_ok in Ew. rewrite E in Ew. injection Ew as ->. apply matrix_ok, H.
  - rewrite (under_ok n kg _ (describes_matrix D dbl int_of frame)) by (intros; apply matrix_ok). split.
    + intros H. right. split; [apply find_none, E|exact H].
    + intros [(w & Ew & H)|(L & H)]; [apply find_ok in Ew; congruence|exact H].
Qed.
Lemma dynamics_ok n d : read_dynamics D mul dbl int_of factor n = Ok d <-> describes_dynamics D mul dbl int_of factor n d.
Proof.
  unfold read_dynamics, describes_dynamics. rewrite (step_under _ _ _ _ _ _ centre_ok). split.
  - intros (c & C & H). apply (step_ok _ _ _ _ (matrix_at_ok n _ _)) in H. destruct H as (i & I & H). apply (step_ok _ _ _ _ (matrix_at_ok n _ _)) in H. destruct H as (a & A & H).
    apply (step_under _ _ _ _ _ _ coordinates_ok) in H. destruct H as (h & Hh & H). injection H as <-. exact (conj C (conj I (conj A Hh))).
  - destruct d as [c i a h]. intros (C & I & A & Hh). exists c. split; [exact C|].
    apply (step_ok _ _ _ _ (matrix_at_ok n _ _)). exists i. split; [exact I|]. apply (step_ok _ _ _ _ (matrix_at_ok n _ _)). exists a. split; [exact A|].
    apply (step_under _ _ _ _ _ _ coordinates_ok). exists h. split; [exact Hh|reflexivity].
Qed.
Lemma text_fun n s t : text n s -> text n t -> s = t.
Proof. rewrite <- !string_ok. congruence. Qed.
Lemma state_ok n s : read_state n = Ok s <-> describes_state n s.
Proof.
  unfold read_state, describes_state. rewrite bind_ok. split.
  - intros (t & T & H). apply string_ok in T.
    repeat match type of H with (if String.eqb t ?x then _ else _) = _ => destruct (String.eqb_spec t x) as [->|_]; [injection H as <-; exact T|] end. discriminate.
  - intros T. exists (match s with BU => "u" | BV => "v" | BW => "w" | BP => "p" | BQ => "q" | BR => "r" end). split; [apply string_ok, T|]. destruct s; reflexivity.
Qed.
Lemma interpolation_ok n s : read_interpolation n = Ok s <-> describes_interpolation n s.
Proof.
  unfold read_interpolation, describes_interpolation. rewrite bind_ok. split.
  - intros (t & T & H). apply string_ok in T.
    repeat match type of H with (if String.eqb t ?x then _ else _) = _ => destruct (String.eqb_spec t x) as [->|_]; [injection H as <-; exact T|] end. discriminate.
  - intros T. exists (match s with PiecewiseConstant => "piecewise constant" | Linear => "linear" | Spline => "spline" end). split; [apply string_ok, T|]. destruct s; reflexivity.
Qed.
Lemma csv_ok n s : read_csv_dof n = Ok s <-> describes_csv_dof n s.
Proof.
  unfold read_csv_dof, describes_csv_dof. split.
  - intros H. fwd H. apply (step_under _ _ _ _ _ _ interpolation_ok) in H. destruct H as (i & I & H). apply (step_under _ _ _ _ _ _ state_ok) in H. destruct H as (st & St & H).
    fwd H. injection H as <-. cbn. auto 10.
  - destruct s as [[st t v i] f]. cbn. intros (F & I & St & T & V). bwd. apply (step_under _ _ _ _ _ _ interpolation_ok). exists i. split; [exact I|].
    apply (step_under _ _ _ _ _ _ state_ok). exists st. split; [exact St|]. bwd. reflexivity.
Qed.
Lemma yaml_dof_ok n s : read_yaml_dof D dbl int_of n = Ok s <-> describes_yaml_dof D dbl int_of n s.
Proof.
  unfold read_yaml_dof, describes_yaml_dof. rewrite (step_under _ _ _ _ _ _ interpolation_ok). split.
  - intros (i & I & H). apply (step_under _ _ _ _ _ _ state_ok) in H. destruct H as (st & St & H). fwd H. injection H as <-. cbn. auto 10.
  - destruct s as [st t v i]. cbn. intros (I & St & T & V). exists i. split; [exact I|]. apply (step_under _ _ _ _ _ _ state_ok). exists st. split; [exact St|]. bwd. reflexivity.
Qed.
Lemma blocked_ok n b : read_blocked_dof D dbl int_of n = Ok b <-> describes_blocked D dbl int_of n b.
Proof.
  unfold read_blocked_dof, describes_blocked.
  rewrite (step_ok _ _ _ _ (fun x => try_ok n _ _ _ _ x (fun v a => vector_ok _ _ v a csv_ok))). split.
  - intros (c & C & H). apply (step_ok _ _ _ _ (fun x => try_ok n _ _ _ _ x (fun v a => vector_ok _ _ v a yaml_dof_ok))) in H. destruct H as (y & Y & H).
    injection H as <-. exact (conj C Y).
  - destruct b as [y c]. intros (C & Y). exists c. split; [exact C|].
    apply (step_ok _ _ _ _ (fun x => try_ok n _ _ _ _ x (fun v a => vector_ok _ _ v a yaml_dof_ok))). exists y. split; [exact Y|reflexivity].
Qed.
Lemma model_ok n m : read_model n = Ok m <-> describes_model n m.
Proof.
  unfold read_model, describes_model. split.
  - intros H. fwd H. injection H as <-. cbn. auto.
  - destruct m as [s y]. cbn. intros (S & ->). bwd. reflexivity.
Qed.
Lemma models_ok n m : read_vector int_of read_model n = Ok m <-> list_of describes_model n m.
Proof. apply vector_ok, model_ok. Qed.
Lemma body_ok n b : read_body D mul dbl int_of factor n = Ok b <-> describes_body D mul dbl int_of factor n b.
Proof.
  unfold read_body, describes_body.
  pose proof (fun d x => try_ok n "mesh" _ _ d x string_ok) as E1.
  pose proof (fun d x => try_ok n "external forces" _ _ d x models_ok) as E2.
  pose proof (fun d x => try_ok n "controlled forces" _ _ d x models_ok) as E3.
  pose proof (fun d x => try_ok n "blocked dof" _ _ d x blocked_ok) as E4.
  split.
  - intros H. fwd H.
    apply (step_ok _ _ _ _ (E1 _)) in H. destruct H as (me & Me & H). apply (step_ok _ _ _ _ (E2 _)) in H. destruct H as (ex & Ex & H).
    apply (step_ok _ _ _ _ (E3 _)) in H. destruct H as (co & Co & H).
    apply (step_under _ _ _ _ _ _ position_ok) in H. destruct H as (pm & Pm & H). apply (step_under _ _ _ _ _ _ position_ok) in H. destruct H as (pn & Pn & H).
    apply (step_under _ _ _ _ _ _ speed_ok) in H. destruct H as (sp & Sp & H). apply (step_under _ _ _ _ _ _ dynamics_ok) in H. destruct H as (dy & Dy & H).
    apply (step_ok _ _ _ _ (E4 _)) in H. destruct H as (bl & Bl & H). injection H as <-. cbn [b_name b_mesh b_external b_controlled b_mesh_position b_position b_speed b_dynamics b_blocked]. repeat (split; [assumption|]). assumption.
  - destruct b as [nm me pm pn sp dy ex co bl]. cbn [b_name b_mesh b_external b_controlled b_mesh_position b_position b_speed b_dynamics b_blocked].
    intros (Nm & Me & Ex & Co & Pm & Pn & Sp & Dy & Bl). bwd.
    apply (step_ok _ _ _ _ (E1 _)). exists me. split; [exact Me|]. apply (step_ok _ _ _ _ (E2 _)). exists ex. split; [exact Ex|].
    apply (step_ok _ _ _ _ (E3 _)). exists co. split; [exact Co|].
    apply (step_under _ _ _ _ _ _ position_ok). exists pm. split; [exact Pm|]. apply (step_under _ _ _ _ _ _ position_ok). exists pn. split; [exact Pn|].
    apply (step_under _ _ _ _ _ _ speed_ok). exists sp. split; [exact Sp|]. apply (step_under _ _ _ _ _ _ dynamics_ok). exists dy. split; [exact Dy|].
    apply (step_ok _ _ _ _ (E4 _)). exists bl. split; [exact Bl|]. reflexivity.
Qed.
Lemma constants_ok n c : read_constants D mul dbl factor n = Ok c <-> describes_constants D mul dbl factor n c.
Proof.
  unfold read_constants, describes_constants. split.
  - intros H. fwd H. injection H as <-. cbn. auto.
  - destruct c as [x y z]. cbn. intros (A & B & C). bwd. reflexivity.
Qed.

(** ** Commands *)
Lemma commands_loop_ok n keys : forall acc r, commands_loop D mul dbl int_of factor n keys acc = Ok r <->
  exists l, r = (rev l ++ acc)%list /\ Forall2 (fun k kv => fst kv = k /\ under n k quantities (snd kv)) (filter (fun k => negb (String.eqb k "name" || String.eqb k "t")) keys) l.
Proof.
  induction keys as [|k keys IH]; intros acc r; cbn [commands_loop filter].
  - split; [intros H; injection H as <-; exists []; split; [reflexivity|apply Forall2_nil]|]. intros (l & -> & F). inversion F; subst. reflexivity.
  - destruct (String.eqb k "name" || String.eqb k "t")%bool; cbn [negb]; [apply IH|].
    rewrite (step_under _ _ _ _ _ _ parse_uvs_ok). split.
    + intros (x & U & H). apply IH in H as (l & -> & F). exists ((k, x) :: l). split; [cbn [rev]; rewrite <- app_assoc; reflexivity|]. apply Forall2_cons; [cbn; auto|exact F].
    + intros (l & -> & F). inversion F as [|k0 [k1 x] ks l' (E & U) Ft]; subst. cbn in *. subst. exists x. split; [exact U|]. apply IH. exists l'. split; [|exact Ft].
      cbn [rev]. rewrite <- app_assoc. reflexivity.
Qed.
Lemma commands_ok n c : read_commands D mul dbl int_of factor n = Ok c <-> describes_commands D mul dbl int_of factor n c.
Proof.
  unfold read_commands, describes_commands. split.
  - intros H. fwd H. apply bind_ok in H as (v & Ev & H). injection H as <-. cbn [c_name c_t c_values]. repeat (split; [assumption|]).
    apply commands_loop_ok in Ev as (l & -> & F). rewrite app_nil_r, rev_involutive. exact F.
  - destruct c as [nm t v]. cbn [c_name c_t c_values]. intros (Nm & T & F). bwd. apply bind_ok. exists v. split; [|reflexivity].
    apply commands_loop_ok. exists (rev v). rewrite rev_involutive, app_nil_r. split; [reflexivity|exact F].
Qed.
End Reading.
