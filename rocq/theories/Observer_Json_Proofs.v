(** Proofs about the dictionary observers. *)
From Coq Require Import ZArith NArith List Bool Lia String Ascii.
From Verif Require Import Observer_Model Observer_Spec Observer_Proofs Observer_Text_Proofs.
Import ListNotations.
Open Scope string_scope.

(** ** Names *)
Lemma find_first_none c s : has_char c s = false -> find_first c s = None.
Proof.
  induction s; simpl; [reflexivity|]. intros H. apply orb_false_iff in H as (A & B). rewrite A, IHs by assumption. reflexivity.
Qed.
Lemma find_first_some c s k : find_first c s = Some k -> has_char c s = true.
Proof.
  revert k. induction s; simpl; [discriminate|]. intros k. destruct (Ascii.eqb a c); [reflexivity|].
  destruct (find_first c s); [|discriminate]. intros _. exact (IHs n eq_refl).
Qed.
Lemma has_comma_spec k : has_comma k = has_char "," k.
Proof.
  unfold has_comma. destruct (find_first "," k) eqn:E.
  - symmetry. eapply find_first_some; eauto.
  - destruct (has_char "," k) eqn:F; [|reflexivity]. exfalso. revert E F. clear. induction k; simpl; [discriminate|].
    destruct (Ascii.eqb a ","); [discriminate|]. simpl. destruct (find_first "," k); [discriminate|]. auto.
Qed.
Lemma find_last_none c s : has_char c s = false -> find_last c s = None.
Proof.
  induction s; simpl; [reflexivity|]. intros H. apply orb_false_iff in H as (A & B). rewrite IHs, A by assumption. reflexivity.
Qed.
Lemma find_first_app c a b : has_char c a = false -> find_first c (a ++ String c b) = Some (String.length a).
Proof.
  induction a; simpl; intros H. { rewrite Ascii.eqb_refl. reflexivity. }
  apply orb_false_iff in H as (A & B). rewrite A, IHa by assumption. reflexivity.
Qed.
Lemma find_last_end c a : find_last c (a ++ String c "") = Some (String.length a).
Proof. induction a; simpl. { rewrite Ascii.eqb_refl. reflexivity. } rewrite IHa. reflexivity. Qed.
Lemma substring_prefix a b : substring 0 (String.length a) (a ++ b) = a.
Proof. induction a; simpl; [destruct b; reflexivity|]. rewrite IHa. reflexivity. Qed.
Lemma substring_skip a b n : substring (String.length a) n (a ++ b) = substring 0 n b.
Proof. induction a; simpl; [reflexivity|]. exact IHa. Qed.

Lemma extract_field f obj : has_char "(" f = false -> extractKeyVarFromString (f ++ "(" ++ obj ++ ")") = (obj, f).
Proof.
  intros H. unfold extractKeyVarFromString. cbv zeta.
  assert (find_first "(" (f ++ "(" ++ obj ++ ")") = Some (String.length f)) as -> by (apply (find_first_app "(" f (obj ++ ")")), H).
  assert (find_last ")" (f ++ "(" ++ obj ++ ")") = Some (String.length (f ++ "(" ++ obj))) as ->.
  { rewrite <- (find_last_end ")" (f ++ "(" ++ obj)). f_equal. rewrite !sapp_assoc. reflexivity. }
  replace (Nat.ltb (String.length f) (String.length (f ++ "(" ++ obj))) with true
    by (symmetry; apply Nat.ltb_lt; rewrite !slength_app; simpl; lia).
  f_equal.
  - replace (String.length f + 1)%nat with (String.length (f ++ "(")) by (rewrite slength_app; simpl; lia).
    replace (String.length (f ++ "(" ++ obj) - String.length f - 1)%nat with (String.length obj) by (rewrite !slength_app; simpl; lia).
    replace (f ++ "(" ++ obj ++ ")") with ((f ++ "(") ++ obj ++ ")") by (rewrite !sapp_assoc; reflexivity).
    rewrite substring_skip. apply substring_prefix.
  - apply substring_prefix.
Qed.
Lemma extract_plain n : has_char "(" n = false -> has_char ")" n = false -> extractKeyVarFromString n = (n, "").
Proof. intros A B. unfold extractKeyVarFromString. rewrite find_first_none, find_last_none by assumption. reflexivity. Qed.

(** ** JSON text *)
Fixpoint jprint (j : json) : string :=
  match j with
  | JNum l => l
  | JObj l => "{" ++ String.concat "," (map (fun p => quoted (fst p) ++ ":" ++ jprint (snd p)) l) ++ "}"
  | _ => ""
  end.
Definition pmembers (l : list (string * json)) : string :=
  String.concat "," (map (fun p => quoted (fst p) ++ ":" ++ jprint (snd p)) l).

Lemma jprint_obj l : jprint (JObj l) = "{" ++ pmembers l ++ "}".
Proof. reflexivity. Qed.

Definition delim (rest : string) : Prop := rest = "" \/ (exists r, rest = String "," r) \/ (exists r, rest = String "}" r).
Definition okv (j : json) : Prop := jprint j <> "" /\ forall n rest, (String.length (jprint j) <= n)%nat -> delim rest ->
  jvalue n (jprint j ++ rest) = Some (j, rest).

Lemma scan_num_app q s rest : delim rest -> scan_num q s = Some (s, "") -> scan_num q (s ++ rest) = Some (s, rest).
Proof.
  intros Hd. revert q. induction s as [|c s IH]; intros q; simpl.
  - intros H. destruct (naccept q) eqn:A; [|discriminate]. destruct Hd as [->|[(r & ->)|(r & ->)]]; simpl.
    + rewrite A. reflexivity.
    + replace (nstep q ",") with (@None nst) by (destruct q; reflexivity). rewrite A. reflexivity.
    + replace (nstep q "}") with (@None nst) by (destruct q; reflexivity). rewrite A. reflexivity.
  - destruct (nstep q c) as [q'|].
    + destruct (scan_num q' s) as [(l, r)|] eqn:E; [|discriminate]. intros [= -> ->]. rewrite IH by exact E. reflexivity.
    + destruct (naccept q); discriminate.
Qed.
Lemma number_start c s l r : scan_num N0 (String c s) = Some (l, r) -> l <> "" ->
  is_ws c = false /\ Ascii.eqb c "{" = false /\ Ascii.eqb c "[" = false /\ Ascii.eqb c dquote = false.
Proof.
  intros H Hl. cbn [scan_num] in H. destruct (nstep N0 c) as [q|] eqn:E.
  - clear H. revert E. destruct c as [[] [] [] [] [] [] [] []]; vm_compute; intros E; try discriminate; repeat split.
  - destruct (naccept N0) eqn:A; discriminate.
Qed.
Lemma okv_num l : json_number l -> okv (JNum l).
Proof.
  intros H. unfold json_number in H. split. { cbn. intros ->. discriminate. } intros n rest Hn Hd. cbn [jprint] in *.
  destruct l as [|c l]; [discriminate|]. destruct n as [|n]; [cbn in Hn; lia|].
  destruct (number_start c l _ _ H ltac:(discriminate)) as (W & B1 & B2 & B3).
  pose proof (scan_num_app N0 _ _ Hd H) as E. cbn [append] in *. unfold jvalue; fold jvalue. cbn [skip_ws]. rewrite W, B1, B2, B3, E. reflexivity.
Qed.

Lemma plain_char_spec c : plain_char c = true -> Ascii.eqb c dquote = false /\ Ascii.eqb c backslash = false /\ Nat.ltb (nat_of_ascii c) 32 = false.
Proof. unfold plain_char. rewrite negb_true_iff, !orb_false_iff. tauto. Qed.
Lemma scan_str_clean k r : json_clean k = true -> scan_str (k ++ String dquote r) = Some (k, r).
Proof.
  induction k as [|c k IH]; intros H.
  - reflexivity.
  - simpl in H. apply andb_true_iff in H as (A & B). apply plain_char_spec in A as (A1 & A2 & A3).
    cbn [append scan_str]. rewrite A1, A2, A3, IH by exact B. reflexivity.
Qed.

Lemma skip_ws_quoted k r : skip_ws (quoted k ++ r) = String dquote (k ++ String dquote r).
Proof. unfold quoted, quote. cbn [append]. rewrite sapp_assoc. reflexivity. Qed.
Lemma quoted_length k : String.length (quoted k) = (String.length k + 2)%nat.
Proof. unfold quoted, quote. simpl. rewrite slength_app. simpl. lia. Qed.

Lemma jmembers_ok l : l <> [] -> Forall (fun p => json_clean (fst p) = true /\ okv (snd p)) l ->
  forall n rest, (String.length (pmembers l) <= n)%nat -> jmembers n (pmembers l ++ String "}" rest) = Some (l, rest).
Proof.
  induction l as [|(k, v) l IH]; [congruence|]. intros _ HF n rest Hn. inversion HF as [|? ? (Ck & (Vne & Vok)) HF']; subst. cbn [fst snd] in *.
  destruct l as [|p2 l].
  - unfold pmembers in *. cbn [map String.concat fst snd] in *.
    rewrite !slength_app, quoted_length in Hn. cbn in Hn. destruct n as [|n]; [lia|].
    rewrite !sapp_assoc. cbn [jmembers]. rewrite skip_ws_quoted. rewrite Ascii.eqb_refl, scan_str_clean by exact Ck.
    cbn [append]. cbn [skip_ws]. change (is_ws ":") with false. cbn iota. rewrite Ascii.eqb_refl.
    rewrite Vok; [|lia|right; right; eexists; reflexivity]. reflexivity.
  - assert (pmembers ((k, v) :: p2 :: l) = quoted k ++ ":" ++ jprint v ++ "," ++ pmembers (p2 :: l)) as E.
    { unfold pmembers. cbn [map String.concat fst snd]. rewrite !sapp_assoc. reflexivity. }
    rewrite E in *. rewrite !slength_app, quoted_length in Hn. cbn [String.length] in Hn. destruct n as [|n]; [lia|].
    rewrite !sapp_assoc. cbn [jmembers]. rewrite skip_ws_quoted. rewrite Ascii.eqb_refl, scan_str_clean by exact Ck.
    cbn [append]. cbn [skip_ws]. change (is_ws ":") with false. cbn iota. rewrite Ascii.eqb_refl.
    rewrite Vok; [|lia|right; left; eexists; reflexivity]. cbn [skip_ws]. change (is_ws ",") with false. cbn iota.
    rewrite Ascii.eqb_refl. rewrite IH; [reflexivity|congruence|exact HF'|lia].
Qed.
Lemma okv_obj l : Forall (fun p => json_clean (fst p) = true /\ okv (snd p)) l -> okv (JObj l).
Proof.
  intros HF. split; [discriminate|]. intros n rest Hn Hd. cbn [jprint] in *. fold (pmembers l) in *.
  rewrite !slength_app in Hn. cbn [String.length] in Hn. destruct n as [|n]; [lia|].
  rewrite !sapp_assoc. cbn [append]. unfold jvalue; fold jvalue; fold jmembers. cbn [skip_ws]. change (is_ws "{") with false. cbn iota.
  rewrite Ascii.eqb_refl. destruct l as [|(k, v) l].
  - cbn [pmembers map String.concat append skip_ws]. reflexivity.
  - assert (skip_ws (pmembers ((k, v) :: l) ++ String "}" rest) = pmembers ((k, v) :: l) ++ String "}" rest
            /\ exists r, pmembers ((k, v) :: l) ++ String "}" rest = String dquote r) as (W & r & Er).
    { unfold pmembers. cbn [map]. destruct (map (fun p : string * json => quoted (fst p) ++ ":" ++ jprint (snd p)) l); cbn [String.concat];
        rewrite !sapp_assoc; split; try (eexists; reflexivity); reflexivity. }
    rewrite W, Er. change (Ascii.eqb dquote "}") with false. cbn iota. rewrite <- Er.
    rewrite jmembers_ok; [reflexivity|congruence|exact HF|lia].
Qed.
Lemma json_parse_print j : okv j -> json_parse (jprint j) = Some j.
Proof.
  intros (_ & H). unfold json_parse. rewrite <- (sapp_nil_r (jprint j)) at 2. rewrite H; [reflexivity|lia|left; reflexivity].
Qed.

(** ** The record of a DictObserver *)
Section Dict.
  Context {D : Type} (fmt : D -> string).
  Definition jleaf (m : list (string * D)) : list (string * json) := map (fun p => (fst p, JNum (fmt (snd p)))) m.
  Definition jobjs (m : list (string * list (string * D))) : list (string * json) := map (fun p => (fst p, JObj (jleaf (snd p)))) m.

  Lemma flush_entries_print m n i : (i + List.length m = n)%nat -> flush_entries fmt n i m = pmembers (jleaf m).
  Proof.
    revert i. induction m as [|(k, v) m IH]; intros i H; [reflexivity|].
    cbn [flush_entries]. cbn in H. rewrite IH by lia. destruct m as [|(k2, v2) m].
    - replace (Nat.ltb i (n - 1)) with false by (symmetry; apply Nat.ltb_ge; cbn in H; lia).
      unfold pmembers. cbn. rewrite sapp_nil_r. reflexivity.
    - replace (Nat.ltb i (n - 1)) with true by (symmetry; apply Nat.ltb_lt; cbn in H; lia).
      unfold pmembers, jleaf. cbn [map String.concat fst snd jprint]. rewrite !sapp_assoc. reflexivity.
  Qed.
  Lemma flushMap_braces m : m <> [] -> flushMap fmt m true = jprint (JObj (jleaf m)).
  Proof.
    intros H. destruct m as [|p m]; [congruence|]. unfold flushMap. rewrite flush_entries_print by reflexivity. reflexivity.
  Qed.
  Lemma flushMap_nobraces m : flushMap fmt m false = pmembers (jleaf m).
  Proof.
    destruct m as [|p m]; [reflexivity|]. unfold flushMap. rewrite flush_entries_print by reflexivity. cbn [append].
    now rewrite sapp_nil_r.
  Qed.
  Lemma flush_objects_print keep m n i : Forall (fun p => snd p <> []) m ->
    (i + List.length (filter (fun p => keep (fst p)) m) = n)%nat ->
    flush_objects fmt keep n i m = pmembers (jobjs (filter (fun p => keep (fst p)) m)).
  Proof.
    intros HF. revert i. induction HF as [|(k, inner) m Hi HF IH]; intros i H; [reflexivity|].
    cbn [flush_objects filter fst] in *. destruct (keep k); [|apply IH; exact H].
    cbn in H. rewrite IH by lia. cbn [snd] in Hi. rewrite flushMap_braces by exact Hi.
    destruct (filter (fun p => keep (fst p)) m) as [|p2 fm].
    - replace (Nat.ltb i (n - 1)) with false by (symmetry; apply Nat.ltb_ge; cbn in H; lia).
      unfold pmembers. cbn [map jobjs String.concat fst snd]. cbn [append]. rewrite sapp_nil_r. reflexivity.
    - replace (Nat.ltb i (n - 1)) with true by (symmetry; apply Nat.ltb_lt; cbn in H; lia).
      unfold pmembers, jobjs. cbn [map String.concat fst snd]. rewrite !sapp_assoc. reflexivity.
  Qed.

  Definition jstates (m : list (string * list (string * D))) := jobjs (filter (fun p => negb (has_comma (fst p))) m).
  Definition jwrenches (m : list (string * list (string * D))) := jobjs (filter (fun p => has_comma (fst p)) m).
  Definition jmap2 (m : list (string * list (string * D))) : list (string * json) :=
    match m with
    | [] => []
    | _ => ("states", JObj (jstates m)) :: match jwrenches m with [] => [] | w => [("wrenches", JObj w)] end
    end.
  Lemma jobjs_length m : List.length (jobjs m) = List.length m.
  Proof. apply map_length. Qed.

  Lemma map2_print m : m <> [] -> Forall (fun p => snd p <> []) m -> (jwrenches m <> [] -> jstates m <> []) ->
    attitudes fmt m ++ wrenches fmt m = pmembers (jmap2 m).
  Proof.
    intros Hne HF HW. unfold attitudes, wrenches, count_objects.
    rewrite (flush_objects_print (fun k => negb (has_comma k))) by (exact HF || reflexivity).
    rewrite (flush_objects_print has_comma) by (exact HF || reflexivity).
    fold (jstates m) (jwrenches m).
    unfold jmap2. destruct m as [|p m']; [congruence|]. set (m := p :: m') in *.
    destruct (Nat.ltb 0 (List.length (filter (fun p => has_comma (fst p)) m))) eqn:E.
    - apply Nat.ltb_lt in E. assert (jwrenches m <> []) as NW.
      { intros Ew. unfold jwrenches in Ew. apply (f_equal (@List.length _)) in Ew. rewrite jobjs_length in Ew. cbn [List.length] in Ew. lia. }
      assert (match jwrenches m with [] => [] | w => [("wrenches", JObj w)] end = [("wrenches", JObj (jwrenches m))]) as -> by (destruct (jwrenches m); congruence).
      replace (Nat.ltb 0 (List.length (filter (fun p => negb (has_comma (fst p))) m))) with true.
      2:{ symmetry. apply Nat.ltb_lt. rewrite <- jobjs_length. fold (jstates m). destruct (jstates m); [exfalso; apply HW; [exact NW|reflexivity]|cbn; lia]. }
      unfold pmembers at 3. cbn [map String.concat fst snd]. rewrite !jprint_obj.
      rewrite !sapp_assoc. reflexivity.
    - apply Nat.ltb_ge in E. destruct (jwrenches m) as [|w ws] eqn:Ew.
      + unfold pmembers at 2. cbn [map String.concat fst snd]. rewrite jprint_obj, sapp_nil_r. reflexivity.
      + exfalso. unfold jwrenches in Ew. apply (f_equal (@List.length _)) in Ew. rewrite jobjs_length in Ew. cbn [List.length] in Ew. lia.
  Qed.

  Lemma pmembers_app a b : a <> [] -> b <> [] -> pmembers (a ++ b)%list = pmembers a ++ "," ++ pmembers b.
  Proof.
    induction a as [|x a IH]; [congruence|]. intros _ Hb. destruct a as [|y a].
    - destruct b as [|z b]; [congruence|]. reflexivity.
    - assert (forall q r, pmembers (x :: q :: r) = (quoted (fst x) ++ ":" ++ jprint (snd x)) ++ "," ++ pmembers (q :: r)) as E by reflexivity.
      cbn [app]. rewrite !E. change (y :: a ++ b)%list with ((y :: a) ++ b)%list. rewrite IH by congruence. rewrite !sapp_assoc. reflexivity.
  Qed.

  (** Text of the record, when its state allows a well-formed one. *)
  Lemma dict_flush_record (s : dict_state D) : d_ss s = "" -> d_grid s = "" ->
    Forall (fun p => snd p <> []) (d_map2 s) -> (jwrenches (d_map2 s) <> [] -> jstates (d_map2 s) <> []) ->
    (d_comma s = true -> d_map1 s <> []) ->
    dict_flush fmt s = mkDict "" "" (d_map1 s) (d_map2 s) (match d_map1 s, d_map2 s with [], [] => d_comma s | _, _ => true end)
      (d_sent s ++ [jprint (JObj (jleaf (d_map1 s) ++ jmap2 (d_map2 s)))])%list.
  Proof.
    intros Hss Hg HF HW Hc. unfold dict_flush. rewrite Hss, Hg.
    destruct (d_map1 s) as [|p1 m1] eqn:E1, (d_map2 s) as [|p2 m2] eqn:E2.
    - reflexivity.
    - assert (d_comma s = false) as -> by (destruct (d_comma s); [exfalso; apply Hc; reflexivity|reflexivity]).
      rewrite map2_print by (congruence || assumption). cbn [jprint jleaf map app append]. fold (pmembers (jmap2 (p2 :: m2))).
      reflexivity.
    - rewrite flushMap_nobraces. cbn [jmap2]. rewrite app_nil_r. cbn [jprint]. fold (pmembers (jleaf (p1 :: m1))). reflexivity.
    - rewrite flushMap_nobraces, map2_print by (congruence || assumption). cbn [jprint]. fold (pmembers (jleaf (p1 :: m1) ++ jmap2 (p2 :: m2))).
      rewrite pmembers_app by discriminate. rewrite !sapp_assoc. reflexivity.
  Qed.

  Lemma okv_jleaf m : (forall d, json_number (fmt d)) -> Forall (fun p => json_clean (fst p) = true) m ->
    Forall (fun p => json_clean (fst p) = true /\ okv (snd p)) (jleaf m).
  Proof.
    intros Hf. induction 1 as [|(k, v) m Hk HF IH]; [constructor|]. cbn. constructor; [|exact IH]. split; [exact Hk|]. apply okv_num, Hf.
  Qed.
  Definition clean2 (p : string * list (string * D)) : Prop :=
    json_clean (fst p) = true /\ snd p <> [] /\ Forall (fun q => json_clean (fst q) = true) (snd p).
  Lemma okv_jobjs m : (forall d, json_number (fmt d)) -> Forall clean2 m ->
    Forall (fun p => json_clean (fst p) = true /\ okv (snd p)) (jobjs m).
  Proof.
    intros Hf. induction 1 as [|(k, v) m (Hk & _ & Hv) HF IH]; [constructor|]. cbn. constructor; [|exact IH]. split; [exact Hk|].
    apply okv_obj, okv_jleaf; assumption.
  Qed.
  Lemma Forall_filter {A} (P : A -> Prop) f l : Forall P l -> Forall P (filter f l).
  Proof. induction 1; cbn; [constructor|]. destruct (f x); auto. Qed.
  Lemma okv_record m1 m2 : (forall d, json_number (fmt d)) -> Forall (fun p => json_clean (fst p) = true) m1 -> Forall clean2 m2 ->
    okv (JObj (jleaf m1 ++ jmap2 m2)).
  Proof.
    intros Hf H1 H2. apply okv_obj. apply Forall_app. split; [apply okv_jleaf; assumption|].
    unfold jmap2. destruct m2 as [|p m2]; [constructor|]. constructor.
    - split; [reflexivity|]. apply okv_obj, okv_jobjs; [exact Hf|]. apply Forall_filter, H2.
    - assert (okv (JObj (jwrenches (p :: m2)))) by (apply okv_obj, okv_jobjs; [exact Hf|]; apply Forall_filter, H2).
      destruct (jwrenches (p :: m2)); [constructor|]. constructor; [|constructor]. split; [reflexivity|assumption].
  Qed.

  Lemma find_jleaf k m : smap_find k (jleaf m) = option_map (fun d => JNum (fmt d)) (smap_find k m).
  Proof. induction m as [|(x, v) m IH]; [reflexivity|]. cbn. destruct (String.eqb k x); [reflexivity|exact IH]. Qed.
  Lemma find_jobjs k keep m : keep k = true -> smap_find k (jobjs (filter (fun p => keep (fst p)) m)) = option_map (fun l => JObj (jleaf l)) (smap_find k m).
  Proof.
    intros Hk. induction m as [|(x, v) m IH]; [reflexivity|]. cbn. destruct (String.eqb k x) eqn:E.
    - apply String.eqb_eq in E as <-. rewrite Hk. cbn. rewrite String.eqb_refl. reflexivity.
    - destruct (keep x); [|exact IH]. cbn. rewrite E. exact IH.
  Qed.
End Dict.

(** ** The maps of a DictObserver *)
Section Store.
  Context {D : Type} (fmt : D -> string).
  Notation steps_t := (list (D * list (string * value D (grid D)))).
  Notation cls := (@dict_class D fmt).

  Definition lookup (s : dict_state D) (x : vname) : option D :=
    match x with
    | Plain n => smap_find n (d_map1 s)
    | Field f obj => match smap_find obj (d_map2 s) with Some inner => smap_find f inner | None => None end
    end.
  Lemma dict_store_plain n (d : D) s : well_named (Plain n) ->
    dict_store n d s = mkDict (d_ss s) (d_grid s) (smap_set n d (d_map1 s)) (d_map2 s) (d_comma s) (d_sent s).
  Proof. intros (A & B & C). unfold dict_store. rewrite extract_plain by assumption. destruct n; [congruence|reflexivity]. Qed.
  Lemma dict_store_field f obj (d : D) s : well_named (Field f obj) ->
    dict_store (vtext (Field f obj)) d s = mkDict (d_ss s) (d_grid s) (d_map1 s) (map2_set obj f d (d_map2 s)) (d_comma s) (d_sent s).
  Proof.
    intros (A & B & C). unfold dict_store. cbn [vtext]. rewrite extract_field by assumption.
    destruct obj; [congruence|]. destruct f; [congruence|]. reflexivity.
  Qed.
  Lemma vname_dec (x y : vname) : {x = y} + {x <> y}.
  Proof. decide equality; apply string_dec. Qed.
  Lemma lookup_store x y (d : D) s : well_named y ->
    lookup (dict_store (vtext y) d s) x = if vname_dec x y then Some d else lookup s x.
  Proof.
    intros Hy. destruct y as [n|f obj].
    - cbn [vtext]. rewrite dict_store_plain by exact Hy. destruct x as [m|g o]; cbn [lookup d_map1 d_map2].
      + rewrite smap_find_set. destruct (vname_dec (Plain m) (Plain n)) as [[= ->]|E].
        * rewrite String.eqb_refl. reflexivity.
        * replace (String.eqb m n) with false; [reflexivity|]. symmetry. apply String.eqb_neq. congruence.
      + destruct (vname_dec _ _); [discriminate|reflexivity].
    - rewrite dict_store_field by exact Hy. destruct x as [m|g o]; cbn [lookup d_map1 d_map2].
      + destruct (vname_dec _ _); [discriminate|reflexivity].
      + unfold map2_set. rewrite smap_find_set. destruct (String.eqb o obj) eqn:Eo.
        * apply String.eqb_eq in Eo. subst o. rewrite smap_find_set. destruct (String.eqb g f) eqn:Eg.
          -- apply String.eqb_eq in Eg. subst g. destruct (vname_dec _ _); [reflexivity|congruence].
          -- apply String.eqb_neq in Eg. destruct (vname_dec _ _) as [[= ]|]; [congruence|].
             destruct (smap_find obj (d_map2 s)); reflexivity.
        * apply String.eqb_neq in Eo. destruct (vname_dec _ _) as [[= ]|]; [congruence|]. reflexivity.
  Qed.

  Definition comma_free (x : vname) : Prop := exists f obj, x = Field f obj /\ has_char "," obj = false.
  Definition clean_name (x : vname) : Prop :=
    match x with Plain n => json_clean n = true | Field f obj => json_clean f = true /\ json_clean obj = true end.

  (** State between two records. *)
  Definition Inv (s : dict_state D) : Prop :=
    d_ss s = "" /\ d_grid s = "" /\ Forall (fun p => json_clean (fst p) = true) (d_map1 s) /\ Forall clean2 (d_map2 s)
    /\ (d_comma s = true -> d_map1 s <> []).
  Lemma Inv_store y (d : D) s : well_named y -> clean_name y -> Inv s -> Inv (dict_store (vtext y) d s).
  Proof.
    intros Hy Hc (A & B & C & E & F). destruct y as [n|f obj].
    - cbn [vtext]. rewrite dict_store_plain by exact Hy. repeat split; cbn; auto.
      + apply smap_set_forall; assumption.
      + intros _. apply smap_set_nonempty.
    - rewrite dict_store_field by exact Hy. destruct Hc as (Hf & Ho). repeat split; cbn; auto.
      unfold map2_set. apply smap_set_forall; [|exact E]. repeat split; cbn; [exact Ho|apply smap_set_nonempty|].
      apply smap_set_forall; [exact Hf|]. destruct (smap_find obj (d_map2 s)) as [inner|] eqn:Ei; [|constructor].
      apply smap_find_in in Ei. rewrite Forall_forall in E. exact (proj2 (proj2 (E _ Ei))).
  Qed.
  Lemma sent_store y (d : D) s : well_named y -> d_sent (dict_store (vtext y) d s) = d_sent s.
  Proof. intros Hy. destruct y; [cbn [vtext]; rewrite dict_store_plain by exact Hy|rewrite dict_store_field by exact Hy]; reflexivity. Qed.
  (** Objects never disappear, and only come from the names. *)
  Lemma map2_keys_store y (d : D) s o : well_named y -> smap_find o (d_map2 (dict_store (vtext y) d s)) <> None ->
    smap_find o (d_map2 s) <> None \/ exists f, y = Field f o.
  Proof.
    intros Hy H. destruct y as [n|f obj].
    - cbn [vtext] in H. rewrite dict_store_plain in H by exact Hy. left. exact H.
    - rewrite dict_store_field in H by exact Hy. cbn [d_map2] in H. unfold map2_set in H. rewrite smap_find_set in H.
      destruct (String.eqb o obj) eqn:E; [|left; exact H]. apply String.eqb_eq in E. subst. right. eauto.
  Qed.

  (** One pass over the requested variables. *)
  Lemma run_store (names : list vname) (find : string -> option (value D (grid D))) s :
    Forall (fun x => well_named x /\ clean_name x) names ->
    (forall x, In x names -> exists d, find (vtext x) = Some (VDouble d)) -> Inv s ->
    let s' := run_vars cls (run_ser cls) (fetch find (map vtext names)) s in
    Inv s' /\ d_sent s' = d_sent s
    /\ (forall x d, In x names -> find (vtext x) = Some (VDouble d) -> lookup s' x = Some d)
    /\ (forall x, ~ In x names -> lookup s' x = lookup s x)
    /\ (forall o, smap_find o (d_map2 s') <> None -> smap_find o (d_map2 s) <> None \/ exists f, In (Field f o) names).
  Proof.
    intros HF Hd HI. cbv zeta.
    assert (forall pv s, run_vars cls (run_ser cls) pv s = fold_left (fun s p => run_ser cls (snd p) (fst p) s) pv s) as RV.
    { clear. induction pv as [|(x, v) pv IH]; intros s; [reflexivity|]. destruct pv; [reflexivity|].
      rewrite run_vars_cons2, IH. reflexivity. }
    rewrite RV. clear RV.
    revert s HI. induction names as [|y names IH] using rev_ind; intros s HI.
    - cbn. repeat split; auto; try apply HI; contradiction.
    - apply Forall_app in HF as (HF & Hy). inversion Hy as [|? ? (Wy & Cy) _]; subst.
      unfold fetch. rewrite map_app, flat_map_app, fold_left_app. fold (fetch find (map vtext names)).
      destruct (IH HF (fun x Hx => Hd x (in_or_app _ _ _ (or_introl Hx))) s HI) as (A & B & C & E & F).
      destruct (Hd y) as (d & Ed); [apply in_or_app; right; left; reflexivity|].
      cbn [map flat_map]. rewrite Ed. cbn [app fold_left fst snd dict_class run_ser].
      set (s1 := fold_left _ _ s) in *. repeat split; try apply Inv_store; auto.
      + rewrite sent_store by exact Wy. exact B.
      + intros x d' Hx Hd'. rewrite lookup_store by exact Wy. destruct (vname_dec x y) as [->|N]; [congruence|].
        apply in_app_or in Hx as [Hx|[->|[]]]; [|congruence]. apply C; assumption.
      + intros x Hx. rewrite lookup_store by exact Wy. destruct (vname_dec x y) as [->|N].
        * exfalso. apply Hx, in_or_app. right. left. reflexivity.
        * apply E. intros ?. apply Hx, in_or_app. auto.
      + intros o Ho. apply map2_keys_store in Ho; [|exact Wy]. destruct Ho as [Ho|(f & ->)].
        * apply F in Ho as [Ho|(f & Hf)]; [left; exact Ho|right; exists f; apply in_or_app; auto].
        * right. exists f. apply in_or_app. right. left. reflexivity.
  Qed.

  Definition place (x : vname) : list string :=
    match x with
    | Plain n => [n]
    | Field f obj => [if has_char "," obj then "wrenches" else "states"; obj; f]
    end.

  Lemma jpath_record s x d : lookup s x = Some d -> (forall n, x = Plain n -> n <> "states" /\ n <> "wrenches") ->
    smap_find "states" (d_map1 s) = None -> smap_find "wrenches" (d_map1 s) = None ->
    jpath (place x) (JObj (jleaf fmt (d_map1 s) ++ jmap2 fmt (d_map2 s))) = Some (JNum (fmt d)).
  Proof.
    intros Hl Hn Hs Hw. destruct x as [n|f obj]; cbn [place jpath jfield].
    - cbn [lookup] in Hl. rewrite smap_find_app, find_jleaf, Hl. reflexivity.
    - cbn [lookup] in Hl. destruct (smap_find obj (d_map2 s)) as [inner|] eqn:E; [|discriminate].
      destruct (has_char "," obj) eqn:Hc; rewrite smap_find_app, find_jleaf.
      + rewrite Hw. cbn [option_map]. unfold jmap2. destruct (d_map2 s) as [|p m2] eqn:Em; [discriminate|].
        cbn [smap_find]. change (String.eqb "wrenches" "states") with false. cbn iota.
        assert (smap_find obj (jwrenches fmt (p :: m2)) = Some (JObj (jleaf fmt inner))) as Ew.
        { unfold jwrenches. rewrite (find_jobjs fmt obj has_comma) by (rewrite has_comma_spec; exact Hc). rewrite E. reflexivity. }
        destruct (jwrenches fmt (p :: m2)) as [|w ws] eqn:EW; [discriminate|]. cbn [smap_find]. rewrite String.eqb_refl.
        cbn [jpath jfield]. rewrite Ew. cbn [jpath jfield]. rewrite find_jleaf, Hl. reflexivity.
      + rewrite Hs. cbn [option_map]. unfold jmap2. destruct (d_map2 s) as [|p m2] eqn:Em; [discriminate|].
        cbn [smap_find]. rewrite String.eqb_refl. cbn [jpath jfield].
        unfold jstates. rewrite (find_jobjs fmt obj (fun k => negb (has_comma k))) by (rewrite has_comma_spec, Hc; reflexivity).
        rewrite E. cbn [option_map jpath jfield]. rewrite find_jleaf, Hl. reflexivity.
  Qed.

  Lemma in_jwrenches m o : (In o (map fst (jwrenches fmt m))) -> has_comma o = true /\ In o (map fst m).
  Proof.
    unfold jwrenches, jobjs. rewrite map_map. cbn [fst]. rewrite in_map_iff. intros (p & <- & Hp). apply filter_In in Hp as (A & B).
    split; [exact B|]. apply in_map, A.
  Qed.

  (** One record. *)
  Lemma one_record (names : list vname) past s :
    (forall d, json_number (fmt d)) ->
    Forall (fun x => well_named x /\ clean_name x) names ->
    ~ In (Plain "states") names -> ~ In (Plain "wrenches") names ->
    (exists n, In (Plain n) names) ->
    ((exists f o, In (Field f o) names) -> exists x, In x names /\ comma_free x) ->
    (forall x, In x names -> exists d, latest past (vtext x) = Some (VDouble d)) ->
    Inv s -> lookup s (Plain "states") = None -> lookup s (Plain "wrenches") = None ->
    (forall o, smap_find o (d_map2 s) <> None -> exists f, In (Field f o) names) ->
    let s' := flush_after_write cls (run_vars cls (run_ser cls) (fetch (latest past) (map vtext names)) s) in
    Inv s' /\ lookup s' (Plain "states") = None /\ lookup s' (Plain "wrenches") = None
    /\ (forall o, smap_find o (d_map2 s') <> None -> exists f, In (Field f o) names)
    /\ exists r j, d_sent s' = (d_sent s ++ [r])%list /\ json_parse r = Some j
       /\ forall x d, In x names -> latest past (vtext x) = Some (VDouble d) -> jpath (place x) j = Some (JNum (fmt d)).
  Proof.
    intros Hf HF Ns Nw (n0 & Hn0) Hcf Hd HI Ls Lw Hk. cbv zeta.
    destruct (run_store names (latest past) s HF Hd HI) as (A & B & C & E & F). cbv zeta in *.
    set (s1 := run_vars cls (run_ser cls) (fetch (latest past) (map vtext names)) s) in *.
    assert (forall o, smap_find o (d_map2 s1) <> None -> exists f, In (Field f o) names) as Hk1.
    { intros o Ho. apply F in Ho as [Ho|Ho]; [apply Hk, Ho|exact Ho]. }
    destruct A as (A1 & A2 & A3 & A4 & A5).
    assert (jwrenches fmt (d_map2 s1) <> [] -> jstates fmt (d_map2 s1) <> []) as HW.
    { intros Hw. destruct (jwrenches fmt (d_map2 s1)) as [|(o, j) ws] eqn:Ew; [congruence|].
      destruct (in_jwrenches (d_map2 s1) o) as (Ho1 & Ho2). { rewrite Ew. left. reflexivity. }
      destruct (Hk1 o) as (f & Hof). { intros N. apply smap_find_none in N. contradiction. }
      destruct Hcf as (x & Hx & (f' & o' & -> & Hc')); [eauto|].
      destruct (Hd _ Hx) as (d & Ed). pose proof (C _ _ Hx Ed) as L. cbn [lookup] in L.
      destruct (smap_find o' (d_map2 s1)) as [inner|] eqn:Ei; [|discriminate].
      pose proof (find_jobjs fmt o' (fun k => negb (has_comma k)) (d_map2 s1)) as FJ. cbv beta in FJ.
      rewrite has_comma_spec, Hc', Ei in FJ. specialize (FJ eq_refl). fold (jstates fmt (d_map2 s1)) in FJ.
      intros N. rewrite N in FJ. discriminate. }
    cbn [dict_class flush_after_write].
    assert (Forall (fun p => snd p <> []) (d_map2 s1)) as Hne.
    { eapply Forall_impl; [|exact A4]. intros p (_ & H & _). exact H. }
    assert (d_map1 s1 <> []) as N1.
    { destruct (Hd _ Hn0) as (d & Ed). pose proof (C _ _ Hn0 Ed) as L. cbn [lookup] in L. intros N. rewrite N in L. discriminate. }
    assert (lookup s1 (Plain "states") = None) as Ls1 by (rewrite E by exact Ns; exact Ls).
    assert (lookup s1 (Plain "wrenches") = None) as Lw1 by (rewrite E by exact Nw; exact Lw).
    rewrite dict_flush_record by (assumption || auto).
    repeat split; cbn [d_ss d_grid d_map1 d_map2 d_comma lookup]; auto.
    eexists _, (JObj (jleaf fmt (d_map1 s1) ++ jmap2 fmt (d_map2 s1))). cbn [d_sent]. split; [rewrite B; reflexivity|].
    split; [apply json_parse_print, okv_record; assumption|].
    intros x d Hx Hdx. apply jpath_record; auto. intros n ->. split; intros ->; contradiction.
  Qed.

  Lemma all_records (names : list vname) past steps s :
    (forall d, json_number (fmt d)) ->
    Forall (fun x => well_named x /\ clean_name x) names ->
    ~ In (Plain "states") names -> ~ In (Plain "wrenches") names ->
    (exists n, In (Plain n) names) ->
    ((exists f o, In (Field f o) names) -> exists x, In x names /\ comma_free x) ->
    doubles (map vtext names) past steps ->
    Inv s -> lookup s (Plain "states") = None -> lookup s (Plain "wrenches") = None ->
    (forall o, smap_find o (d_map2 s) <> None -> exists f, In (Field f o) names) ->
    exists rs, d_sent (states_after cls (map vtext names) past steps s) = (d_sent s ++ rs)%list
      /\ List.length rs = List.length steps
      /\ forall k r, nth_error rs k = Some r -> exists j, json_parse r = Some j
         /\ forall x d, In x names -> latest (past ++ firstn (Datatypes.S k) steps)%list (vtext x) = Some (VDouble d) ->
              jpath (place x) j = Some (JNum (fmt d)).
  Proof.
    intros Hf HF Ns Nw Hn0 Hcf. revert past s. induction steps as [|(t, out) steps IH]; intros past s Hd HI Ls Lw Hk.
    - exists []. cbn. rewrite app_nil_r. repeat split. intros [|k]; discriminate.
    - apply doubles_cons in Hd as (Hd1 & Hd2).
      destruct (one_record names (past ++ [(t, out)])%list s) as (A & B & C & E & r & j & F1 & F2 & F3); auto.
      { intros x Hx. apply Hd1, in_map, Hx. }
      cbv zeta in *. cbn [states_after].
      destruct (IH _ _ Hd2 A B C E) as (rs & R1 & R2 & R3).
      exists (r :: rs). split; [rewrite R1, F1, <- app_assoc; reflexivity|]. split; [cbn; congruence|].
      intros [|k] r' Hr.
      + injection Hr as <-. exists j. auto.
      + destruct (R3 k r' Hr) as (j' & P1 & P2). exists j'. split; [exact P1|]. intros x d Hx Hdx. apply P2; [exact Hx|].
        rewrite <- app_assoc. exact Hdx.
  Qed.
End Store.
