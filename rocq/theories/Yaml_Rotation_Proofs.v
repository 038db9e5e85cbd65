(** The rotations convention, and the whole file. *)
From Coq Require Import List Arith Bool String Ascii ZArith Lia.
From Verif Require Import Common Builder_Model Hdf5_Mesh_Model Yaml_Model Yaml_Spec Observer_Proofs Yaml_Proofs.
Import ListNotations.
Open Scope string_scope.

(** ** Words *)
Lemma before_apostrophe_spec s name : before_apostrophe name = name -> (before_apostrophe s = name <-> named s name).
Proof.
  unfold named. revert s. induction name as [|c name IH]; intros s N.
  - destruct s as [|d s]; cbn [before_apostrophe]; [split; [left; reflexivity|reflexivity]|].
    destruct (Ascii.eqb_spec d "'") as [->|Nd].
    + split; [intros _; right; exists s; reflexivity|reflexivity].
    + split; [discriminate|]. intros [E|(r & E)]; [discriminate|]. cbn in E. injection E as E _. congruence.
  - cbn [before_apostrophe] in N. destruct (Ascii.eqb_spec c "'") as [->|Nc]; [discriminate|]. injection N as N.
    destruct s as [|d s]; cbn [before_apostrophe]; [split; [discriminate|intros [E|(r & E)]; discriminate]|].
    destruct (Ascii.eqb_spec d "'") as [->|Nd].
    + split; [discriminate|]. intros [E|(r & E)]; cbn in E; injection E as E _; congruence.
    + split.
      * intros E. injection E as -> E. apply (IH s N) in E as [->|(r & ->)]; [left; reflexivity|right; exists r; reflexivity].
      * intros [E|(r & E)]; cbn in E; injection E as -> E; f_equal; apply (IH s N); [left; exact E|right; exists r; exact E].
Qed.
Lemma one_of_spec s a b c : before_apostrophe a = a -> before_apostrophe b = b -> before_apostrophe c = c ->
  (one_of (before_apostrophe s) a b c = true <-> named s a \/ named s b \/ named s c).
Proof.
  intros A B C. unfold one_of. rewrite !orb_true_iff, !String.eqb_eq, (before_apostrophe_spec s a A), (before_apostrophe_spec s b B), (before_apostrophe_spec s c C). tauto.
Qed.
Lemma axis_spec s : one_of (before_apostrophe s) "x" "y" "z" = true <-> axis_name s.
Proof. apply one_of_spec; reflexivity. Qed.
Lemma angle_spec s : one_of (before_apostrophe s) "phi" "theta" "psi" = true <-> angle_name s.
Proof. apply one_of_spec; reflexivity. Qed.

(** ** Replacements *)
Definition translate (s : string) : string := search_and_replace (search_and_replace (search_and_replace s "phi" "x") "theta" "y") "psi" "z".
Ltac chars := repeat match goal with |- context [Ascii.eqb ?a ?b] => destruct (Ascii.eqb_spec a b); [try (subst; discriminate)|try congruence]; subst; cbn end.
Lemma sar_short f r s : String.length s < String.length f -> search_and_replace s f r = s.
Proof.
  intros L. unfold search_and_replace. assert (P : forall f s, String.length s < String.length f -> prefix_of f s = None).
  { clear. intros f. induction f as [|a f IH]; intros s L; [cbn in L; lia|]. destruct s as [|b s]; [reflexivity|]. cbn in *. destruct (Ascii.eqb a b); [apply IH; lia|reflexivity]. }
  generalize (S (String.length s)). intros n. revert n s L. induction n as [|n IH]; intros s L; [reflexivity|]. cbn [search_and_replace_fuel]. rewrite (P _ _ L).
  destruct s as [|c s]; [reflexivity|]. rewrite IH by (cbn in L; lia). reflexivity.
Qed.
Lemma fuel_enough f r : f <> EmptyString -> forall n m s, String.length s < n -> String.length s < m -> search_and_replace_fuel n s f r = search_and_replace_fuel m s f r.
Proof.
  intros F. assert (P : forall f s t, prefix_of f s = Some t -> String.length s = String.length f + String.length t).
  { clear. intros f. induction f as [|a f IH]; intros s t E; [injection E as <-; reflexivity|]. destruct s as [|b s]; [discriminate|]. cbn in E. destruct (Ascii.eqb a b); [|discriminate].
    cbn. f_equal. apply IH, E. }
  assert (L : 0 < String.length f) by (destruct f; [congruence|cbn; lia]).
  induction n as [|n IH]; intros m s Hn Hm; [lia|]. destruct m as [|m]; [lia|]. cbn [search_and_replace_fuel]. destruct (prefix_of f s) as [t|] eqn:E.
  - apply P in E. f_equal. apply IH; lia.
  - destruct s as [|c s]; [reflexivity|]. f_equal. cbn in Hn, Hm. apply IH; lia.
Qed.
(** One character that begins no occurrence *)
Lemma sar_cons f r c s : f <> EmptyString -> prefix_of f (String c s) = None -> search_and_replace (String c s) f r = String c (search_and_replace s f r).
Proof. intros F P. unfold search_and_replace. cbn [String.length]. cbn [search_and_replace_fuel]. rewrite P. f_equal. Qed.
Lemma sar_prefix f r s t : f <> EmptyString -> prefix_of f s = Some t -> search_and_replace s f r = (r ++ search_and_replace t f r)%string.
Proof.
  intros F P. unfold search_and_replace at 1. cbn [search_and_replace_fuel]. rewrite P. f_equal. apply fuel_enough; [exact F| |lia].
  assert (Q : forall f s t, prefix_of f s = Some t -> String.length s = String.length f + String.length t).
  { clear. intros f. induction f as [|a f IH]; intros s t E; [injection E as <-; reflexivity|]. destruct s as [|b s]; [discriminate|]. cbn in E. destruct (Ascii.eqb a b); [|discriminate].
    cbn. f_equal. apply IH, E. }
  apply Q in P. destruct f; [congruence|]. cbn in P. lia.
Qed.
Lemma prefix_quote f c s : prefix_of (String c f) (String "'" s) = if Ascii.eqb c "'" then prefix_of f s else None.
Proof. reflexivity. Qed.
Lemma sar_quote f c r s : c <> "'"%char -> search_and_replace (String "'" s) (String c f) r = String "'" (search_and_replace s (String c f) r).
Proof. intros N. apply sar_cons; [discriminate|]. cbn. destruct (Ascii.eqb_spec c "'"); [congruence|reflexivity]. Qed.
(** At most three characters *)
Lemma sar_exact f r : f <> EmptyString -> search_and_replace f f r = (r ++ "")%string.
Proof.
  intros F. rewrite (sar_prefix f r f ""); [|exact F|]. { f_equal. unfold search_and_replace. cbn. destruct f; [congruence|reflexivity]. }
  clear. induction f as [|a f IH]; [reflexivity|]. cbn. rewrite Ascii.eqb_refl. exact IH.
Qed.
Lemma sar_other f r s : String.length s <= String.length f -> s <> f -> search_and_replace s f r = s.
Proof.
  intros L N. destruct (Nat.eq_dec (String.length s) (String.length f)) as [E|NE]; [|apply sar_short; lia].
  assert (P : prefix_of f s = None).
  { revert s E N L. induction f as [|a f IH]; intros s E N L; [destruct s; [congruence|discriminate]|]. destruct s as [|b s]; [reflexivity|]. cbn. destruct (Ascii.eqb_spec a b) as [->|]; [|reflexivity].
    cbn in *. apply IH; [lia|congruence|lia]. }
  destruct s as [|c s].
  - unfold search_and_replace. cbn [String.length search_and_replace_fuel]. rewrite P. reflexivity.
  - destruct f as [|a f]; [cbn in *; discriminate|]. rewrite sar_cons by (discriminate || exact P). rewrite sar_short; [reflexivity|]. cbn in *. lia.
Qed.
Lemma translate_short s : String.length s <= 3 -> translate s = second_name s.
Proof.
  intros L. unfold translate, second_name. destruct (String.eqb_spec s "phi") as [->|N1]; [reflexivity|]. destruct (String.eqb_spec s "psi") as [->|N2]; [reflexivity|].
  rewrite (sar_other "phi" "x" s L N1). rewrite (sar_short "theta") by (cbn; lia). apply (sar_other "psi" "z" s L N2).
Qed.
Lemma translate_phi s : String.length s <= 3 -> translate ("phi'" ++ s) = "x'" ++ second_name s.
Proof.
  intros L. rewrite <- (translate_short s L). unfold translate. cbn [append].
  rewrite (sar_prefix "phi" "x" _ (String "'" s)) by (discriminate || reflexivity). rewrite (sar_quote _ _ "x") by discriminate. cbn [append].
  rewrite (sar_cons "theta" "y") by (discriminate || reflexivity). rewrite (sar_quote _ _ "y") by discriminate.
  rewrite (sar_cons "psi" "z") by (discriminate || reflexivity). rewrite (sar_quote _ _ "z") by discriminate. reflexivity.
Qed.
Lemma translate_psi s : String.length s <= 3 -> translate ("psi'" ++ s) = "z'" ++ second_name s.
Proof.
  intros L. rewrite <- (translate_short s L). unfold translate. cbn [append].
  do 3 (rewrite (sar_cons "phi" "x") by (discriminate || reflexivity)). rewrite (sar_quote _ _ "x") by discriminate.
  do 3 (rewrite (sar_cons "theta" "y") by (discriminate || reflexivity)). rewrite (sar_quote _ _ "y") by discriminate.
  rewrite (sar_prefix "psi" "z" _ (String "'" (search_and_replace (search_and_replace s "phi" "x") "theta" "y"))) by (discriminate || reflexivity).
  rewrite (sar_quote _ _ "z") by discriminate. reflexivity.
Qed.
Lemma translate_theta s : String.length s <= 3 -> translate ("theta'" ++ s) = "y'" ++ second_name s.
Proof.
  intros L. rewrite <- (translate_short s L). unfold translate. cbn [append].
  do 5 (rewrite (sar_cons "phi" "x") by (discriminate || reflexivity)). rewrite (sar_quote _ _ "x") by discriminate.
  rewrite (sar_prefix "theta" "y" _ (String "'" (search_and_replace s "phi" "x"))) by (discriminate || reflexivity). rewrite (sar_quote _ _ "y") by discriminate. cbn [append].
  rewrite (sar_cons "psi" "z") by (discriminate || reflexivity). rewrite (sar_quote _ _ "z") by discriminate. reflexivity.
Qed.
Definition rename (s : string) : string := if one_of (before_apostrophe s) "phi" "theta" "psi" then translate s else s.
Lemma app_inv_l (a b c : string) : a ++ b = a ++ c -> b = c.
Proof. induction a as [|x a IH]; cbn; intros E; [exact E|]. injection E as E. apply IH, E. Qed.
Lemma rename_spec s t : String.length s <= 7 -> (rename s = t <-> renamed s t).
Proof.
  intros L. unfold rename, renamed, angle_renamed. destruct (one_of (before_apostrophe s) "phi" "theta" "psi") eqn:O.
  - apply angle_spec in O as [N|[N|N]]; destruct N as [->|(r & ->)].
    + split; [intros <-; left; left; split; reflexivity|]. intros [[(_ & ->)|(r & E & _)]|[[(E & _)|(r & E & _)]|[[(E & _)|(r & E & _)]|(E & _)]]]; try discriminate; try reflexivity.
      exfalso. apply E. left. left. reflexivity.
    + cbn in L. change ("phi" ++ "'" ++ r) with ("phi'" ++ r). rewrite translate_phi by lia. split.
      * intros <-. left. right. exists r. split; reflexivity.
      * intros [[(E & _)|(r' & E & ->)]|[[(E & _)|(r' & E & _)]|[[(E & _)|(r' & E & _)]|(E & _)]]]; try discriminate.
        { change ("phi" ++ "'" ++ r') with ("phi'" ++ r') in E. apply app_inv_l in E as ->. reflexivity. }
        exfalso. apply E. left. right. exists r. reflexivity.
    + split; [intros <-; right; left; left; split; reflexivity|]. intros [[(E & _)|(r & E & _)]|[[(_ & ->)|(r & E & _)]|[[(E & _)|(r & E & _)]|(E & _)]]]; try discriminate; try reflexivity.
      exfalso. apply E. right. left. left. reflexivity.
    + cbn in L. change ("theta" ++ "'" ++ r) with ("theta'" ++ r). rewrite translate_theta by lia. split.
      * intros <-. right. left. right. exists r. split; reflexivity.
      * intros [[(E & _)|(r' & E & _)]|[[(E & _)|(r' & E & ->)]|[[(E & _)|(r' & E & _)]|(E & _)]]]; try discriminate.
        { change ("theta" ++ "'" ++ r') with ("theta'" ++ r') in E. apply app_inv_l in E as ->. reflexivity. }
        exfalso. apply E. right. left. right. exists r. reflexivity.
    + split; [intros <-; right; right; left; left; split; reflexivity|]. intros [[(E & _)|(r & E & _)]|[[(E & _)|(r & E & _)]|[[(_ & ->)|(r & E & _)]|(E & _)]]]; try discriminate; try reflexivity.
      exfalso. apply E. right. right. left. reflexivity.
    + cbn in L. change ("psi" ++ "'" ++ r) with ("psi'" ++ r). rewrite translate_psi by lia. split.
      * intros <-. right. right. left. right. exists r. split; reflexivity.
      * intros [[(E & _)|(r' & E & _)]|[[(E & _)|(r' & E & _)]|[[(E & _)|(r' & E & ->)]|(E & _)]]]; try discriminate.
        { change ("psi" ++ "'" ++ r') with ("psi'" ++ r') in E. apply app_inv_l in E as ->. reflexivity. }
        exfalso. apply E. right. right. right. exists r. reflexivity.
  - assert (NA : ~ angle_name s) by (intros A; apply angle_spec in A; congruence). split.
    + intros <-. right. right. right. split; [exact NA|reflexivity].
    + intros [[(E & _)|(r & E & _)]|[[(E & _)|(r & E & _)]|[[(E & _)|(r & E & _)]|(_ & E)]]]; try congruence; exfalso; apply NA.
      * left. left. exact E. * left. right. exists r. exact E. * right. left. left. exact E. * right. left. right. exists r. exact E.
      * right. right. left. exact E. * right. right. right. exists r. exact E.
Qed.

(** ** The three words *)
Definition is_axis s := one_of (before_apostrophe s) "x" "y" "z".
Definition is_angle s := one_of (before_apostrophe s) "phi" "theta" "psi".
Lemma rotation_step_eq x g conv s : rotation_step (x, g, conv) s =
  if Nat.ltb 7 (String.length s) then Throw
  else if (x || is_axis s || (g || is_angle s))%bool then Ok ((x || is_axis s)%bool, (g || is_angle s)%bool, (conv ++ [rename s])%list) else Throw.
Proof. unfold rotation_step, rename, is_axis, is_angle, translate. destruct (Nat.ltb 7 (String.length s)); reflexivity. Qed.
Lemma renamed3 a b c l : (forall s, In s [a; b; c] -> String.length s <= 7) -> (l = [rename a; rename b; rename c] <-> Forall2 renamed [a; b; c] l).
Proof.
  intros L. split.
  - intros ->. repeat (apply Forall2_cons; [apply rename_spec; [apply L; cbn; tauto|reflexivity]|]). apply Forall2_nil.
  - intros F. inversion F as [|? a' ? l1 Ra F1]; subst. inversion F1 as [|? b' ? l2 Rb F2]; subst. inversion F2 as [|? c' ? l3 Rc F3]; subst. inversion F3; subst.
    apply rename_spec in Ra; [|apply L; cbn; tauto]. apply rename_spec in Rb; [|apply L; cbn; tauto]. apply rename_spec in Rc; [|apply L; cbn; tauto]. congruence.
Qed.
Section Rotations.
Variable int_of : string -> option Z.
Lemma rotations_ok n r : read_rotations int_of n = Ok r <-> describes_rotations int_of n r.
Proof.
  unfold read_rotations, describes_rotations. rewrite (step_ok _ _ _ _ (fun x => vector_ok int_of _ _ n x string_ok)).
  assert (A : forall a b c (r : rotations),
    (do st <- rotation_loop [a; b; c] (false, false, []); let '(axis, angle, conv) := st in
      Ok (mkRot (if angle then "angle" else if axis then "axis" else "") conv)) = Ok r <->
    (forall s, In s [a; b; c] -> String.length s <= 7) /\ (axis_name a \/ angle_name a) /\ Forall2 renamed [a; b; c] (convention r) /\
    (((exists s, In s [a; b; c] /\ angle_name s) /\ order_by r = "angle") \/ ((forall s, In s [a; b; c] -> ~ angle_name s) /\ order_by r = "axis"))).
  { clear. intros a b c r. cbn [rotation_loop]. rewrite rotation_step_eq. cbn [orb app].
    assert (AX : is_axis a = true <-> axis_name a) by apply axis_spec.
    assert (AG : is_angle a = true <-> angle_name a) by apply angle_spec. assert (BG : is_angle b = true <-> angle_name b) by apply angle_spec.
    assert (CG : is_angle c = true <-> angle_name c) by apply angle_spec.
    assert (EX : (exists s, In s [a; b; c] /\ angle_name s) <-> (is_angle a || is_angle b || is_angle c)%bool = true).
    { rewrite !orb_true_iff, AG, BG, CG. split.
      - intros (s & [<-|[<-|[<-|[]]]] & G); tauto.
      - intros [[G|G]|G]; [exists a|exists b|exists c]; cbn; tauto. }
    assert (NX : (forall s, In s [a; b; c] -> ~ angle_name s) <-> (is_angle a || is_angle b || is_angle c)%bool = false).
    { split.
      - intros H. apply not_true_iff_false. intros E. apply EX in E as (s & I & G). exact (H s I G).
      - intros H s I G. assert (X : exists s, In s [a; b; c] /\ angle_name s) by (exists s; tauto). apply EX in X. congruence. }
    rewrite EX, NX. rewrite <- AX, <- AG.
    destruct (Nat.ltb_spec 7 (String.length a)) as [La|La]. { split; [discriminate|]. intros (L & _). specialize (L a (or_introl eq_refl)). lia. }
    destruct (is_axis a || is_angle a)%bool eqn:E1.
    2:{ apply orb_false_elim in E1 as (-> & ->). split; [discriminate|]. intros (_ & [X|X] & _); discriminate. }
    cbn [bindO]. rewrite rotation_step_eq. cbn [app].
    destruct (Nat.ltb_spec 7 (String.length b)) as [Lb|Lb]. { split; [discriminate|]. intros (L & _). specialize (L b (or_intror (or_introl eq_refl))). lia. }
    assert (Q2 : (is_axis a || is_axis b || (is_angle a || is_angle b))%bool = true) by (destruct (is_axis a), (is_angle a), (is_axis b), (is_angle b); try discriminate; reflexivity).
    rewrite Q2. cbn [bindO]. rewrite rotation_step_eq. cbn [app].
    destruct (Nat.ltb_spec 7 (String.length c)) as [Lc|Lc]. { split; [discriminate|]. intros (L & _). specialize (L c (or_intror (or_intror (or_introl eq_refl)))). lia. }
    assert (Q3 : (is_axis a || is_axis b || is_axis c || (is_angle a || is_angle b || is_angle c))%bool = true)
      by (destruct (is_axis a), (is_angle a), (is_axis b), (is_angle b); try discriminate; try reflexivity; rewrite ?orb_true_r; reflexivity).
    rewrite Q3. cbn [bindO].
    assert (L : forall s, In s [a; b; c] -> String.length s <= 7) by (intros s [<-|[<-|[<-|[]]]]; assumption).
    rewrite <- (renamed3 a b c (convention r) L). apply orb_true_iff in E1. split.
    - intros H. injection H as <-. cbn [convention order_by]. split; [exact L|]. split; [exact E1|]. split; [reflexivity|].
      destruct (is_angle a || is_angle b || is_angle c)%bool; [left; split; reflexivity|right; split; [reflexivity|]].
      cbn [orb] in Q3. rewrite orb_false_r in Q3. rewrite Q3. reflexivity.
    - intros (_ & _ & Ec & O). destruct r as [o cv]. cbn [convention order_by] in *. subst cv. do 2 f_equal.
      destruct O as [(G & ->)|(G & ->)]; rewrite G; [reflexivity|]. rewrite G in Q3. rewrite orb_false_r in Q3. rewrite Q3. reflexivity. }
  split.
  - intros (l & Hl & H). destruct (Nat.eqb_spec (List.length l) 3) as [E3|N3]; [|discriminate].
    destruct l as [|a [|b [|c [|d l]]]]; try discriminate. exists a, b, c. split; [exact Hl|]. apply A. exact H.
  - intros (a & b & c & Hl & F). exists [a; b; c]. split; [exact Hl|]. cbn [List.length Nat.eqb]. apply A in F. exact F.
Qed.
End Rotations.
