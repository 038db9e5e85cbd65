(** Reading back the texts written by Wire_Model. *)
From Coq Require Import List Bool String Ascii Lia Arith.
From Verif Require Import Common Observer_Spec Observer_Proofs Observer_Json_Proofs Wire_Model Wire_Spec.
Import ListNotations.
Open Scope string_scope.

(** The characters that may follow a value. *)
Definition stop (rest : string) : Prop :=
  match rest with "" => True | String c _ => In c [","; "}"; "]"; " "; nl]%char end.
Definition reads (s : string) (j : json) : Prop := s <> "" /\
  forall n rest, (String.length s <= n)%nat -> stop rest -> jvalue n (s ++ rest) = Some (j, rest).

Lemma jvalue_ws n c s : is_ws c = true -> jvalue n (String c s) = jvalue n s.
Proof. intros H. destruct n; [reflexivity|]. unfold jvalue; fold jvalue; fold jmembers; fold jelements. cbn [skip_ws]. rewrite H. reflexivity. Qed.
Lemma jmembers_ws n c s : is_ws c = true -> jmembers n (String c s) = jmembers n s.
Proof. intros H. destruct n; [reflexivity|]. unfold jmembers; fold jvalue; fold jmembers. cbn [skip_ws]. rewrite H. reflexivity. Qed.
Lemma jelements_ws n c s : is_ws c = true -> jelements n (String c s) = jelements n s.
Proof. intros H. destruct n; [reflexivity|]. unfold jelements; fold jvalue; fold jelements. rewrite jvalue_ws by exact H. reflexivity. Qed.

Lemma scan_num_stop q s rest : stop rest -> scan_num q s = Some (s, "") -> scan_num q (s ++ rest) = Some (s, rest).
Proof.
  intros Hd. revert q. induction s as [|c s IH]; intros q; simpl.
  - intros H. destruct (naccept q) eqn:A; [|discriminate]. destruct rest as [|c r]; simpl; [rewrite A; reflexivity|].
    replace (nstep q c) with (@None nst); [rewrite A; reflexivity|]. cbn [stop In] in Hd.
    destruct Hd as [<-|[<-|[<-|[<-|[<-|[]]]]]]; destruct q; reflexivity.
  - destruct (nstep q c) as [q'|].
    + destruct (scan_num q' s) as [(l, r)|] eqn:E; [|discriminate]. intros [= -> ->]. rewrite IH by exact E. reflexivity.
    + destruct (naccept q); discriminate.
Qed.
Lemma reads_num l : json_number l -> reads l (JNum l).
Proof.
  intros H. unfold json_number in H. split. { intros ->. discriminate. } intros n rest Hn Hd.
  destruct l as [|c l]; [discriminate|]. destruct n as [|n]; [cbn in Hn; lia|].
  destruct (number_start c l _ _ H ltac:(discriminate)) as (W & B1 & B2 & B3).
  pose proof (scan_num_stop N0 _ _ Hd H) as E. cbn [append] in *. unfold jvalue; fold jvalue. cbn [skip_ws]. rewrite W, B1, B2, B3, E. reflexivity.
Qed.
Lemma reads_null : reads "null" (JWord "null").
Proof. split; [discriminate|]. intros n rest Hn _. destruct n as [|n]; [cbn in Hn; lia|]. reflexivity. Qed.
Lemma reads_str k : json_clean k = true -> reads (q1 ++ k ++ q1) (JStr k).
Proof.
  intros C. split; [discriminate|]. intros n rest Hn _. unfold q1 in *. cbn [append] in *. destruct n as [|n]; [cbn in Hn; lia|].
  unfold jvalue; fold jvalue; fold jmembers; fold jelements. cbn [skip_ws]. change (is_ws dquote) with false. cbn iota.
  change (Ascii.eqb dquote "{") with false. change (Ascii.eqb dquote "[") with false. rewrite Ascii.eqb_refl. cbn iota.
  rewrite sapp_assoc. cbn [append]. rewrite scan_str_clean by exact C. reflexivity.
Qed.

(** Members with a space after the colon and [sep] (a comma and blanks) between them. *)
Fixpoint members (sep : string) (l : list (string * string)) : string :=
  match l with
  | [] => ""
  | (k, s) :: l' => match l' with [] => q1 ++ k ++ q1 ++ ": " ++ s | _ => q1 ++ k ++ q1 ++ ": " ++ s ++ "," ++ sep ++ members sep l' end
  end.
Definition blank (s : string) : Prop := s = "" \/ s = " " \/ s = newline.
Lemma blank_skip sep n s : blank sep -> jmembers n (sep ++ s) = jmembers n s.
Proof. intros [->|[->| ->]]; [reflexivity|cbn [append]; apply jmembers_ws; reflexivity|unfold newline; cbn [append]; apply jmembers_ws; reflexivity]. Qed.

Definition mem_ok (p : string * string) (r : string * json) : Prop := fst p = fst r /\ json_clean (fst p) = true /\ reads (snd p) (snd r).
Lemma members_cons sep k s p l : members sep ((k, s) :: p :: l) = q1 ++ k ++ q1 ++ ": " ++ s ++ "," ++ sep ++ members sep (p :: l).
Proof. destruct p. reflexivity. Qed.
Lemma jmembers_reads sep l js : blank sep -> l <> [] -> Forall2 mem_ok l js ->
  forall n rest, (String.length (members sep l) <= n)%nat -> jmembers n (members sep l ++ String "}" rest) = Some (js, rest).
Proof.
  intros Bs Hl HF. revert Hl. induction HF as [|(k, s) (k', j) l js (Ek & Ck & Ne & Rd) HF IH]; [congruence|]. intros _ n rest Hn. cbn [fst snd] in *. subst k'.
  destruct l as [|p l].
  - inversion HF; subst js. cbn [members] in *. unfold q1 in *. rewrite !slength_app in Hn. cbn [String.length] in Hn. destruct n as [|n]; [lia|].
    rewrite !sapp_assoc. cbn [append]. unfold jmembers; fold jvalue; fold jmembers. cbn [skip_ws]. change (is_ws dquote) with false. cbn iota.
    rewrite Ascii.eqb_refl. rewrite scan_str_clean by exact Ck. cbn [append skip_ws]. change (is_ws ":") with false. cbn iota. rewrite Ascii.eqb_refl.
    rewrite jvalue_ws by reflexivity. rewrite Rd; [|lia|cbn; auto]. cbn [skip_ws]. change (is_ws "}") with false. cbn iota. reflexivity.
  - rewrite members_cons in *. unfold q1 in *. rewrite !slength_app in Hn. cbn [String.length] in Hn. destruct n as [|n]; [lia|].
    rewrite !sapp_assoc. cbn [append]. unfold jmembers; fold jvalue; fold jmembers. cbn [skip_ws]. change (is_ws dquote) with false. cbn iota.
    rewrite Ascii.eqb_refl. rewrite scan_str_clean by exact Ck. cbn [append skip_ws]. change (is_ws ":") with false. cbn iota. rewrite Ascii.eqb_refl.
    rewrite jvalue_ws by reflexivity. rewrite ?sapp_assoc. cbn [append]. rewrite Rd; [|lia|cbn; auto]. cbn [skip_ws]. change (is_ws ",") with false. cbn iota.
    rewrite Ascii.eqb_refl. rewrite blank_skip by exact Bs. rewrite IH; [reflexivity|congruence|lia].
Qed.
Lemma reads_obj sep l js : blank sep -> Forall2 mem_ok l js -> reads ("{" ++ members sep l ++ "}") (JObj js).
Proof.
  intros Bs HF. split; [discriminate|]. intros n rest Hn _. cbn [append] in *. rewrite sapp_assoc. cbn [String.length] in Hn. rewrite slength_app in Hn. cbn [String.length] in Hn.
  destruct n as [|n]; [lia|]. unfold jvalue; fold jvalue; fold jmembers; fold jelements. cbn [skip_ws]. change (is_ws "{") with false. cbn iota.
  rewrite Ascii.eqb_refl. destruct HF as [|p j l js M HF].
  - reflexivity.
  - assert (exists r, members sep (p :: l) ++ String "}" rest = String dquote r) as (r & Er).
    { destruct p as (k, s). cbn [members]. unfold q1. destruct l; rewrite !sapp_assoc; cbn [append]; eexists; reflexivity. }
    change ("}" ++ rest) with (String "}" rest). rewrite Er. cbn [skip_ws]. change (is_ws dquote) with false. cbn iota. change (Ascii.eqb dquote "}") with false. cbn iota.
    rewrite <- Er. rewrite (jmembers_reads sep (p :: l) (j :: js)); [reflexivity|exact Bs|congruence|constructor; assumption|lia].
Qed.
Lemma reads_parse s j : reads s j -> json_parse s = Some j.
Proof.
  intros (_ & H). unfold json_parse. rewrite <- (sapp_nil_r s) at 2. rewrite H; [reflexivity|lia|exact I].
Qed.

Section Wire.
  Context {D : Type} (fmt : D -> string) (isnan : D -> bool).
  Notation encode_entries := (encode_entries fmt isnan).
  Notation encode_map := (encode_map fmt isnan).
  Notation encode_state := (encode_state fmt isnan).

  Lemma entries_members m : forall n i, (i + List.length m = n)%nat ->
    encode_entries n i m = members " " (map (fun p => (fst p, if isnan (snd p) then "null" else fmt (snd p))) m).
  Proof.
    induction m as [|(k, d) m IH]; intros n i Hn; [reflexivity|]. cbn [Wire_Model.encode_entries List.length map fst snd] in *.
    rewrite (IH n (S i)) by lia. destruct m as [|p m].
    - replace (Nat.ltb i (n - 1)) with false by (symmetry; apply Nat.ltb_ge; cbn in Hn; lia). cbn [map members append]. rewrite sapp_nil_r. reflexivity.
    - replace (Nat.ltb i (n - 1)) with true by (symmetry; apply Nat.ltb_lt; cbn in Hn; lia). cbn [map]. rewrite members_cons. reflexivity.
  Qed.
  Lemma encode_map_reads m : (forall k d, In (k, d) m -> json_clean k = true /\ (isnan d = false -> json_number (fmt d))) ->
    reads (encode_map m) (JObj (map (fun p => (fst p, if isnan (snd p) then JWord "null" else JNum (fmt (snd p)))) m)).
  Proof.
    intros H. unfold Wire_Model.encode_map. rewrite entries_members by lia. apply reads_obj; [right; left; reflexivity|].
    induction m as [|(k, d) m IH]; cbn [map fst snd]; [apply Forall2_nil|]. apply Forall2_cons.
    - destruct (H k d (or_introl eq_refl)) as (C & N). split; [reflexivity|]. split; [exact C|]. cbn [snd]. destruct (isnan d); [apply reads_null|apply reads_num, N; reflexivity].
    - apply IH. intros k' d' I. apply H. right. exact I.
  Qed.
  Lemma encode_state_members s : encode_state s = "{" ++ members " " (map (fun p => (fst p, fmt (snd p))) (state_numbers s) ++ [("extra_observations", encode_map (w_extra s))]) ++ "}".
  Proof.
    unfold Wire_Model.encode_state, state_numbers. cbn [map fst snd app members]. unfold q1. rewrite !sapp_assoc. cbn [append]. 
    repeat (rewrite ?sapp_assoc; cbn [append]). reflexivity.
  Qed.
  Lemma encode_state_reads s : printable fmt isnan s -> reads (encode_state s) (state_json fmt isnan s).
  Proof.
    intros (A & B). rewrite encode_state_members. apply reads_obj; [right; left; reflexivity|]. apply Forall2_app.
    - assert (C : List.Forall (fun p => json_clean (fst p) = true) (state_numbers s)) by (unfold state_numbers; repeat constructor).
      revert A C. generalize (state_numbers s). intros l. induction l as [|(k, d) l IH]; intros A C; cbn [map fst snd]; [apply Forall2_nil|]. inversion C; subst.
      apply Forall2_cons; [|apply IH; [intros k' d' I; apply (A k' d'); right; exact I|assumption]].
      split; [reflexivity|]. split; [assumption|]. apply reads_num, (A k d). left. reflexivity.
    - apply Forall2_cons; [|apply Forall2_nil]. split; [reflexivity|]. split; [reflexivity|]. apply encode_map_reads, B.
  Qed.

  Lemma elements_reads l : forall n i m rest, (i + List.length l = n)%nat -> l <> [] -> Forall (printable fmt isnan) l ->
    (String.length (encode_from fmt isnan n i l) <= m)%nat ->
    jelements m (encode_from fmt isnan n i l ++ String "]" rest) = Some (map (state_json fmt isnan) l, rest).
  Proof.
    induction l as [|s l IH]; intros n i m rest Hn Hl HF Hm; [congruence|]. inversion HF as [|? ? P HF']; subst. cbn [encode_from map] in *.
    destruct (encode_state_reads s P) as (Ne & Rd). unfold newline in *. rewrite !slength_app in Hm. destruct m as [|m]; [destruct (encode_state s); [congruence|cbn in Hm; lia]|].
    unfold jelements; fold jvalue; fold jelements. rewrite !sapp_assoc. destruct l as [|s2 l].
    - assert (Eb : Nat.ltb i (i + List.length [s] - 1) = false) by (apply Nat.ltb_ge; cbn [List.length]; lia). rewrite Eb in *.
      cbn [append encode_from String.length] in Hm |- *. rewrite Rd; [|lia|cbn; auto 10]. cbn [skip_ws]. change (is_ws nl) with true. cbn iota. reflexivity.
    - assert (Eb : Nat.ltb i (i + List.length (s :: s2 :: l) - 1) = true) by (apply Nat.ltb_lt; cbn [List.length]; lia). rewrite Eb in *.
      cbn [append String.length] in Hm |- *. rewrite Rd; [|lia|cbn; auto]. cbn [skip_ws]. change (is_ws ",") with false. cbn iota. rewrite Ascii.eqb_refl.
      rewrite jelements_ws by reflexivity. rewrite IH; [reflexivity|cbn [List.length]; lia|congruence|exact HF'|lia].
  Qed.
  Lemma encode_states_reads l : Forall (printable fmt isnan) l -> reads (encode_states fmt isnan l) (JArr (map (state_json fmt isnan) l)).
  Proof.
    intros HF. split; [discriminate|]. intros n rest Hn _. unfold encode_states in *. cbn [append] in *. rewrite sapp_assoc. cbn [String.length append] in *.
    rewrite slength_app in Hn. destruct n as [|n]; [lia|]. cbn [String.length] in Hn.
    unfold jvalue; fold jvalue; fold jmembers; fold jelements. cbn [skip_ws]. change (is_ws "[") with false. cbn iota.
    change (Ascii.eqb "[" "{") with false. rewrite Ascii.eqb_refl. cbn iota. destruct l as [|s l]; [reflexivity|].
    set (w := encode_from fmt isnan (List.length (s :: l)) 0 (s :: l)) in *.
    assert (E : exists r, w = String "{" r) by (subst w; cbn [encode_from]; unfold Wire_Model.encode_state; eexists; reflexivity).
    destruct E as (r & E). rewrite E. cbn [append skip_ws]. change (is_ws "{") with false. cbn iota.
    change (Ascii.eqb "{" "]") with false. cbn iota. change (String "{" (r ++ String "]" rest)) with (String "{" r ++ String "]" rest). rewrite <- E. subst w.
    rewrite elements_reads; [reflexivity|reflexivity|congruence|exact HF|lia].
  Qed.
  Lemma encode_states_parse l : Forall (printable fmt isnan) l -> json_parse (encode_states fmt isnan l) = Some (JArr (map (state_json fmt isnan) l)).
  Proof. intros HF. apply reads_parse, encode_states_reads, HF. Qed.
End Wire.
