(** Paths, groups and datasets of the HDF5 model. *)
From Coq Require Import ZArith List Bool Lia String Ascii.
From Verif Require Import Common Observer_Model Observer_Spec Observer_Proofs Output_Proofs Hdf5_Model Hdf5_Spec.
Import ListNotations.
Open Scope string_scope.

(** ** Strings *)
Lemma find_from_app c a b : find_from c (String.length a) (a ++ b) = option_map (fun n => String.length a + n)%nat (find_from c 0 b).
Proof.
  induction a as [|x a IH]; cbn [String.length append find_from]; [destruct (find_from c 0 b); reflexivity|].
  rewrite IH. destruct (find_from c 0 b); reflexivity.
Qed.
Lemma find_from_none c s : has_char c s = false -> find_from c 0 s = None.
Proof. induction s as [|a s IH]; cbn; [reflexivity|]. intros H. apply orb_false_iff in H as (-> & H). rewrite IH by exact H. reflexivity. Qed.
Lemma find_from_some c s r : has_char c s = false -> find_from c 0 (s ++ String c r) = Some (String.length s).
Proof.
  induction s as [|a s IH]; cbn; [rewrite Ascii.eqb_refl; reflexivity|].
  intros H. apply orb_false_iff in H as (-> & H). rewrite IH by exact H. reflexivity.
Qed.
Lemma substring_skip a b n : substring (String.length a) n (a ++ b) = substring 0 n b.
Proof. induction a as [|x a IH]; [reflexivity|]. cbn [String.length append substring]. exact IH. Qed.
Lemma substring_take a b : substring 0 (String.length a) (a ++ b) = a.
Proof. induction a as [|x a IH]; [destruct b; reflexivity|]. cbn [String.length append substring]. f_equal. exact IH. Qed.

Lemma join_cons x y l : join (x :: y :: l) "/" = x ++ "/" ++ join (y :: l) "/".
Proof. reflexivity. Qed.

Lemma split_loop_clean l : l <> [] -> Forall clean l -> forall n pre, (List.length l <= n)%nat ->
  split_loop n slash (pre ++ join l "/") (String.length pre) = l.
Proof.
  intros NE F. induction l as [|x l IH]; [congruence|]. intros n pre Hn. inversion F as [|? ? (X1 & X2) F']; subst.
  destruct l as [|y l].
  - unfold join. cbn [String.concat]. destruct n as [|n]; [cbn in Hn; lia|]. cbn [split_loop].
    rewrite find_from_app, find_from_none by exact X2. cbn [option_map]. rewrite slength_app.
    replace (String.length pre + String.length x - String.length pre)%nat with (String.length x) by lia.
    rewrite substring_skip. rewrite <- (sapp_nil_r x) at 2. rewrite substring_take. reflexivity.
  - rewrite join_cons. cbn [append]. destruct n as [|n]; [cbn in Hn; lia|]. cbn [split_loop].
    rewrite find_from_app, find_from_some by exact X2. cbn [option_map].
    replace (String.length pre + String.length x - String.length pre)%nat with (String.length x) by lia.
    rewrite substring_skip, substring_take. destruct (String.eqb_spec x ""); [congruence|]. f_equal.
    specialize (IH ltac:(discriminate) F' n (pre ++ x ++ String slash "")).
    rewrite !sapp_assoc in IH. cbn [append] in IH. rewrite !slength_app in IH. cbn [String.length] in IH.
    rewrite <- IH at 2 by (cbn in *; lia). f_equal. lia.
Qed.

(** Absolute path of clean components, as text *)
Definition text (p : path) : string := "/" ++ join p "/".
Lemma length_join l : l <> [] -> Forall clean l -> (List.length l <= String.length (join l "/"))%nat.
Proof.
  intros NE F. induction l as [|x l IH]; [congruence|]. inversion F as [|? ? (X1 & X2) F']; subst.
  assert (1 <= String.length x)%nat by (destruct x; [congruence|cbn; lia]).
  destruct l as [|y l]; [cbn in *; lia|]. rewrite join_cons, !slength_app. cbn [String.length].
  specialize (IH ltac:(discriminate) F'). cbn [List.length] in *. lia.
Qed.
Lemma split_text p : clean_path p -> split slash (text p) = p.
Proof.
  intros (NE & F). unfold split, text. cbn [append]. pose proof (length_join p NE F) as L.
  cbn [String.length split_loop find_from]. cbn [slash Ascii.eqb Bool.eqb substring Nat.sub]. cbn [String.eqb].
  change (String.eqb "" "") with true. cbv iota.
  exact (split_loop_clean p NE F (String.length (join p "/")) (String slash "") L).
Qed.

Lemma components_app s r acc : has_char "/" s = false -> components (s ++ r) acc = components r (acc ++ s).
Proof.
  revert acc. induction s as [|a s IH]; intros acc H; cbn [append components].
  - rewrite sapp_nil_r. reflexivity.
  - cbn [has_char] in H. apply orb_false_iff in H as (A & H). unfold slash. rewrite A, IH by exact H. f_equal.
    rewrite sapp_assoc. reflexivity.
Qed.
Lemma components_join l : Forall clean l -> components (join l "/") "" = l.
Proof.
  intros F. induction l as [|x l IH]; [reflexivity|]. inversion F as [|? ? (X1 & X2) F']; subst.
  destruct l as [|y l].
  - unfold join. cbn [String.concat]. rewrite <- (sapp_nil_r x) at 1. rewrite components_app by exact X2. cbn [components append].
    destruct (String.eqb_spec x ""); [congruence|reflexivity].
  - rewrite join_cons, components_app by exact X2. cbn [append components]. unfold slash at 1. rewrite Ascii.eqb_refl.
    destruct (String.eqb_spec x ""); [congruence|]. f_equal. apply IH. exact F'.
Qed.
Lemma path_of_text p : Forall clean p -> path_of (text p) = p.
Proof. intros F. unfold path_of, text. cbn [append components]. unfold slash. rewrite Ascii.eqb_refl. apply components_join. exact F. Qed.
Lemma text_cons x p : p <> [] -> text (x :: p) = "/" ++ x ++ text p.
Proof. intros H. destruct p as [|y p]; [congruence|]. unfold text. rewrite join_cons. reflexivity. Qed.
Lemma text_app p q : p <> [] -> q <> [] -> text (p ++ q) = text p ++ text q.
Proof.
  intros NE Q. induction p as [|x p IH]; [congruence|]. destruct p as [|y p].
  - cbn [app]. rewrite text_cons by exact Q. unfold text, join. cbn [String.concat]. rewrite !sapp_assoc. reflexivity.
  - cbn [app] in *. rewrite (text_cons x (y :: p ++ q)), (text_cons x (y :: p)) by discriminate. rewrite IH by discriminate.
    rewrite !sapp_assoc. reflexivity.
Qed.
Lemma has_char_join_clean x l : clean x -> starts_with slash (join (x :: l) "/") = text (x :: l).
Proof.
  intros (X1 & X2). destruct x as [|a x]; [congruence|]. cbn [has_char] in X2. apply orb_false_iff in X2 as (A & _).
  assert (exists r, join (String a x :: l) "/" = String a r) as (r & E).
  { destruct l as [|y l]; [unfold join; cbn [String.concat]; eauto|]. rewrite join_cons. cbn [append]. eauto. }
  unfold text. rewrite E. cbn [starts_with append]. unfold slash. rewrite A. reflexivity.
Qed.
Lemma full_address_text a : clean_path a -> full_address a = text ("outputs" :: a).
Proof.
  intros (NE & F). destruct a as [|x a]; [congruence|]. unfold full_address. inversion F; subst. rewrite has_char_join_clean by assumption.
  rewrite (text_cons "outputs" (x :: a)) by discriminate. reflexivity.
Qed.

(** ** Files *)
Section Files.
Context {D : Type} (zero : D).
Notation file := (@file D).

Lemma path_eqb_spec p q : reflect (p = q) (path_eqb p q).
Proof. unfold path_eqb. destruct (list_eq_dec string_dec p q); constructor; assumption. Qed.
Lemma lookup_replace p n q (f : file) :
  lookup q (replace_node p n f) = if path_eqb q p then (match lookup p f with Some _ => Some n | None => None end) else lookup q f.
Proof.
  induction f as [|(r, m) f IH]; cbn [replace_node lookup]; [destruct (path_eqb q p); reflexivity|].
  destruct (path_eqb_spec p r) as [<-|NE]; cbn [lookup].
  - destruct (path_eqb_spec q p); [reflexivity|reflexivity].
  - destruct (path_eqb_spec q r) as [->|NE']; [destruct (path_eqb_spec r p); [congruence|reflexivity]|exact IH].
Qed.
Lemma is_group_iff p (f : file) : p <> [] -> is_group p f = true <-> lookup p f = Some Group.
Proof. intros NE. destruct p; [congruence|]. unfold is_group. destruct (lookup _ f) as [[|]|]; split; congruence. Qed.

Lemma removelast_snoc {A} (l : list A) x : removelast (l ++ [x]) = l.
Proof. rewrite removelast_app by discriminate. cbn. apply app_nil_r. Qed.

(** The parents of all the links above exist. *)
Lemma tree_prefix (f : file) : tree f -> forall r q n, lookup (q ++ r) f = Some n -> q <> [] -> r <> [] -> lookup q f = Some Group.
Proof.
  intros T r. induction r as [|x r IH] using rev_ind; intros q n H Q R; [congruence|].
  rewrite app_assoc in H. destruct (T _ _ H) as (_ & G). rewrite removelast_snoc in G.
  destruct r as [|y r].
  - rewrite app_nil_r in G. apply is_group_iff in G; assumption.
  - apply is_group_iff in G; [|destruct q; discriminate]. eapply IH; [exact G|exact Q|discriminate].
Qed.

(** A creation that succeeds *)
Definition added (p : path) (n : node) (f f' : file) : Prop := forall q, lookup q f' = if path_eqb q p then Some n else lookup q f.
Lemma added_tree p n f f' : p <> [] -> tree f -> added p n f f' -> lookup p f = None -> is_group (removelast p) f = true -> tree f'.
Proof.
  intros NE T A N G q m H. rewrite A in H.
  assert (forall r, is_group r f = true -> is_group r f' = true) as M.
  { intros r Hr. destruct r as [|x r]; [reflexivity|]. apply is_group_iff in Hr; [|discriminate]. apply is_group_iff; [discriminate|].
    rewrite A. destruct (path_eqb_spec (x :: r) p) as [E|]; [congruence|exact Hr]. }
  destruct (path_eqb_spec q p) as [->|]; [split; [exact NE|apply M, G]|]. destruct (T q m H) as (Q & Gq). split; [exact Q|apply M, Gq].
Qed.
Lemma create_ok p n (f : file) : p <> [] -> lookup p f = None -> is_group (removelast p) f = true -> exists f', create p n f = Ok f' /\ added p n f f'.
Proof.
  intros NE N G. unfold create. rewrite G, N. destruct p; [congruence|]. eexists. split; [reflexivity|]. intros q. reflexivity.
Qed.
Lemma create_throw p n (f : file) : lookup p f <> None \/ is_group (removelast p) f = false -> create p n f = Throw.
Proof.
  intros H. unfold create. destruct p; [reflexivity|]. destruct H as [H| ->]; [|reflexivity].
  destruct (is_group _ f); [|reflexivity]. destruct (lookup _ f); [reflexivity|congruence].
Qed.
Lemma exists_link_tree p (f : file) : tree f -> p <> [] -> exists_link p f = match lookup p f with Some _ => true | None => false end.
Proof.
  intros T NE. unfold exists_link. destruct p as [|x p]; [congruence|]. destruct (lookup (x :: p) f) as [n|] eqn:E.
  - destruct (T _ _ E) as (_ & ->). reflexivity.
  - apply andb_false_r.
Qed.

(** ** Missing groups *)
(** [between pre q p]: q is a prefix of p longer than pre, and not p itself. *)
Definition between (pre q p : path) : Prop := exists a b, a <> [] /\ b <> [] /\ q = (pre ++ a)%list /\ p = (q ++ b)%list.
Definition grouped (pre p : path) (f f' : file) : Prop :=
  forall q, (between pre q p -> lookup q f' = Some Group) /\ (~ between pre q p -> lookup q f' = lookup q f).
Lemma between_dec pre q p : {between pre q p} + {~ between pre q p}.
Proof.
  destruct (list_eq_dec string_dec (firstn (List.length pre) q) pre) as [E|N].
  2:{ right. intros (a & b & _ & _ & -> & _). apply N. rewrite firstn_app, Nat.sub_diag. cbn. rewrite app_nil_r. apply firstn_all. }
  destruct (list_eq_dec string_dec (firstn (List.length q) p) q) as [E2|N].
  2:{ right. intros (a & b & _ & _ & E1 & ->). apply N. rewrite firstn_app, Nat.sub_diag. cbn. rewrite app_nil_r. apply firstn_all. }
  destruct (list_eq_dec string_dec (skipn (List.length pre) q) []) as [E3|N3].
  { right. intros (a & b & A & _ & -> & _). apply A. rewrite skipn_app, Nat.sub_diag, skipn_all in E3. exact E3. }
  destruct (list_eq_dec string_dec (skipn (List.length q) p) []) as [E4|N4].
  { right. intros (a & b & _ & B & _ & ->). apply B. rewrite skipn_app, Nat.sub_diag, skipn_all in E4. exact E4. }
  left. exists (skipn (List.length pre) q), (skipn (List.length q) p). repeat split; auto.
  - rewrite <- (firstn_skipn (List.length pre) q) at 1. rewrite E. reflexivity.
  - rewrite <- (firstn_skipn (List.length q) p) at 1. rewrite E2. reflexivity.
Qed.

Lemma create_groups_spec : forall tokens pre (f : file), tree f -> Forall clean pre -> Forall clean tokens -> tokens <> [] ->
  is_group pre f = true ->
  let p := (pre ++ tokens)%list in
  (forall q, between pre q p -> lookup q f = None \/ lookup q f = Some Group) ->
  exists f', create_groups (match pre with [] => "" | _ => text pre end) tokens f = Ok f' /\ tree f' /\ grouped pre p f f' /\
    is_group (removelast p) f' = true.
Proof.
  induction tokens as [|g rest IH]; intros pre f T P F NE G p H; [congruence|].
  destruct rest as [|h rest].
  - exists f. cbn [create_groups]. split; [reflexivity|]. split; [exact T|]. split.
    + intros q. split; [|reflexivity]. intros (a & b & A & B & -> & E). exfalso. unfold p in E. rewrite <- app_assoc in E. apply app_inv_head in E.
      destruct a as [|a0 a]; [congruence|]. destruct a; destruct b; try congruence; discriminate.
    + unfold p. rewrite removelast_snoc. exact G.
  - inversion F as [|? ? Cg Cr]; subst.
    assert (C1 : Forall clean (pre ++ [g])) by (apply Forall_app; split; auto).
    assert (TX : (match pre with [] => "" | _ => text pre end) ++ "/" ++ g = text (pre ++ [g])).
    { destruct pre as [|x pre]; [reflexivity|]. rewrite text_app by discriminate. reflexivity. }
    assert (Ng : (pre ++ [g])%list <> []) by (destruct pre; discriminate).
    assert (E : forall f1, match (pre ++ [g])%list with [] => "" | _ => text (pre ++ [g]) end = text (pre ++ [g]) /\ f1 = f1 :> file).
    { intros f1. split; [|reflexivity]. destruct (pre ++ [g])%list; [congruence|reflexivity]. }
    assert (B1 : between pre (pre ++ [g]) p).
    { exists [g], (h :: rest). repeat split; try discriminate. unfold p. rewrite <- app_assoc. reflexivity. }
    assert (PP : p = ((pre ++ [g]) ++ h :: rest)%list) by (unfold p; rewrite <- app_assoc; reflexivity).
    assert (BB : forall q, between (pre ++ [g]) q p -> between pre q p).
    { intros q (a & b & A & B & -> & Eq). exists (g :: a), b. repeat split; [discriminate|exact B| |exact Eq]. rewrite <- app_assoc. reflexivity. }
    assert (BC : forall q, between pre q p -> q = (pre ++ [g])%list \/ between (pre ++ [g]) q p).
    { intros q (a & b & A & B & -> & Eq). destruct a as [|a0 a]; [congruence|].
      assert (a0 = g) as ->. { rewrite PP, <- !app_assoc in Eq. apply app_inv_head in Eq. injection Eq as ->. reflexivity. }
      destruct a as [|a1 a]; [left; reflexivity|]. right. exists (a1 :: a), b. repeat split; [discriminate|exact B| |exact Eq].
      rewrite <- app_assoc. reflexivity. }
    assert (step : forall f1 : file, tree f1 -> lookup (pre ++ [g]) f1 = Some Group ->
      (forall q, q <> (pre ++ [g])%list -> lookup q f1 = lookup q f) ->
      exists f', create_groups (text (pre ++ [g])) (h :: rest) f1 = Ok f' /\ tree f' /\ grouped pre p f f' /\ is_group (removelast p) f' = true).
    { intros f1 T1 G1 S1. destruct (IH (pre ++ [g])%list f1 T1 C1 Cr ltac:(discriminate)) as (f' & R & T' & GR & GL).
      - apply is_group_iff; assumption.
      - rewrite <- PP. intros q Bq. rewrite S1; [apply H, BB, Bq|]. intros ->. destruct Bq as (a & b & A & _ & Eq & _).
        apply A. symmetry in Eq. rewrite <- (app_nil_r (pre ++ [g])) in Eq at 2. apply app_inv_head in Eq. exact Eq.
      - destruct (E f1) as (E1 & _). rewrite E1 in R. rewrite <- PP in *. exists f'. split; [exact R|]. split; [exact T'|]. split; [|exact GL].
        intros q. split.
        + intros Bq. apply BC in Bq as [->|Bq].
          * destruct (GR (pre ++ [g])%list) as (_ & GR2). rewrite GR2; [exact G1|]. intros (a & b & A & _ & Eq & _).
            apply A. symmetry in Eq. rewrite <- (app_nil_r (pre ++ [g])) in Eq at 2. apply app_inv_head in Eq. exact Eq.
          * apply GR. exact Bq.
        + intros Nq. destruct (GR q) as (_ & GR2). rewrite GR2 by (intros Bq; apply Nq, BB, Bq). apply S1. intros ->. apply Nq, B1. }
    cbn [create_groups]. rewrite TX, path_of_text by exact C1. rewrite exists_link_tree by assumption.
    destruct (H _ B1) as [L|L]; rewrite L.
    + destruct (create_ok (pre ++ [g]) Group f Ng L) as (f1 & -> & A). { rewrite removelast_snoc. exact G. }
      cbn [bindO]. apply step.
      * eapply added_tree; eauto. rewrite removelast_snoc. exact G.
      * rewrite A. destruct (path_eqb_spec (pre ++ [g]) (pre ++ [g])); congruence.
      * intros q Hq. rewrite A. destruct (path_eqb_spec q (pre ++ [g])); congruence.
    + destruct (step f T L (fun q _ => eq_refl)) as (f' & R & T' & GR & GL).
      destruct rest as [|i rest].
      * assert (is_group (pre ++ [g]) f = true) as -> by (apply is_group_iff; assumption). cbn [create_groups] in R. exists f'. auto.
      * exists f'. auto.
Qed.

(** A dataset on the way *)
Lemma create_groups_throw : forall tokens pre (f : file), tree f -> Forall clean pre -> Forall clean tokens -> 
  (exists q d m c, between pre q (pre ++ tokens) /\ lookup q f = Some (Data d m c)) ->
  create_groups (match pre with [] => "" | _ => text pre end) tokens f = Throw.
Proof.
  induction tokens as [|g rest IH]; intros pre f T P F (q & d & m & c & B & L).
  - exfalso. destruct B as (a & b & A & _ & -> & E). rewrite <- app_assoc in E. apply app_inv_head in E. destruct a; [congruence|discriminate].
  - destruct rest as [|h rest].
    { exfalso. destruct B as (a & b & A & NB & -> & E). rewrite <- app_assoc in E. apply app_inv_head in E.
      destruct a as [|a0 a]; [congruence|]. destruct a; destruct b; try congruence; discriminate. }
    inversion F as [|? ? Cg Cr]; subst.
    assert (C1 : Forall clean (pre ++ [g])) by (apply Forall_app; split; auto).
    assert (TX : (match pre with [] => "" | _ => text pre end) ++ "/" ++ g = text (pre ++ [g])).
    { destruct pre as [|x pre]; [reflexivity|]. rewrite text_app by discriminate. reflexivity. }
    assert (Ng : (pre ++ [g])%list <> []) by (destruct pre; discriminate).
    assert (E1 : match (pre ++ [g])%list with [] => "" | _ => text (pre ++ [g]) end = text (pre ++ [g])).
    { destruct (pre ++ [g])%list; [congruence|reflexivity]. }
    assert (PP : (pre ++ g :: h :: rest)%list = ((pre ++ [g]) ++ h :: rest)%list) by (rewrite <- app_assoc; reflexivity).
    destruct B as (a & b & A & NB & Eq & Ep). destruct a as [|a0 a]; [congruence|].
    assert (a0 = g) as ->. { subst q. rewrite PP, <- !app_assoc in Ep. apply app_inv_head in Ep. injection Ep as ->. reflexivity. }
    cbn [create_groups]. rewrite TX, path_of_text by exact C1. rewrite exists_link_tree by assumption.
    assert (lookup (pre ++ [g]) f <> None) as PN.
    { destruct a as [|a1 a]; [subst q; congruence|].
      assert (q = ((pre ++ [g]) ++ a1 :: a)%list) as -> by (rewrite <- app_assoc; exact Eq).
      rewrite (tree_prefix f T _ _ _ L Ng ltac:(discriminate)). discriminate. }
    destruct (lookup (pre ++ [g]) f) as [n|] eqn:Lg; [|congruence]. clear PN.
    destruct a as [|a1 a].
    + (* the dataset is this link *)
      assert (n = Data d m c) as -> by (subst q; congruence).
      assert (is_group (pre ++ [g]) f = false) as NG.
      { destruct (is_group (pre ++ [g]) f) eqn:X; [|reflexivity]. apply is_group_iff in X; [congruence|exact Ng]. }
      destruct rest as [|i rest]; [rewrite NG; reflexivity|].
      cbn [create_groups].
      assert (text (pre ++ [g]) ++ "/" ++ h = text ((pre ++ [g]) ++ [h])) as ->.
      { rewrite (text_app (pre ++ [g]) [h]) by (assumption || discriminate). reflexivity. }
      assert (C2 : Forall clean ((pre ++ [g]) ++ [h])). { apply Forall_app; split; [exact C1|]. inversion Cr; auto. }
      rewrite path_of_text by exact C2. 
      assert (N2 : ((pre ++ [g]) ++ [h])%list <> []) by (destruct (pre ++ [g])%list; discriminate).
      rewrite exists_link_tree by assumption.
      destruct (lookup ((pre ++ [g]) ++ [h]) f) as [n2|] eqn:L2.
      * destruct (T _ _ L2) as (_ & G2). rewrite removelast_snoc in G2. congruence.
      * rewrite create_throw; [reflexivity|]. right. rewrite removelast_snoc. exact NG.
    + assert (q = ((pre ++ [g]) ++ a1 :: a)%list) as Eq2 by (rewrite <- app_assoc; exact Eq).
      assert (create_groups (text (pre ++ [g])) (h :: rest) f = Throw) as R.
      { rewrite <- E1. apply IH; [exact T|exact C1|exact Cr|]. exists q, d, m, c. split; [|exact L]. exists (a1 :: a), b.
        rewrite <- PP. repeat split; [discriminate|exact NB|exact Eq2|exact Ep]. }
      destruct rest as [|i rest]; [|exact R]. exfalso. rewrite PP, Eq2 in Ep. apply (f_equal (@List.length string)) in Ep.
      rewrite !app_length in Ep. destruct b; [congruence|]. cbn [List.length] in Ep. lia.
Qed.
End Files.
