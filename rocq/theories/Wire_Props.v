(** C117-C119: messages of the websocket servers. *)
From Coq Require Import List Bool String Ascii Lia Arith.
From Verif Require Import Common Observer_Model Observer_Spec Observer_Proofs Observer_Json_Proofs Wire_Model Wire_Spec Wire_Proofs.
Import ListNotations.
Open Scope string_scope.

Section Wire.
  Context {D : Type} (fmt : D -> string) (isnan : D -> bool) (num : string -> option D) (zero : D) (dec : nat -> string).
  Notation request := (@request D).

  (** ** Answers *)

  (** A step of the co-simulation server is answered with one text, a JSON array with one object per state, each with all its numbers and observations. *)
Theorem cs_answer_is_json_partial : forall l, List.Forall (printable fmt isnan) l ->
    exists text, cs_handler fmt isnan dec (Returned l) = [text] /\ json_parse text = Some (JArr (map (state_json fmt isnan) l)).
  Proof. intros l H. exists (encode_states fmt isnan l). split; [reflexivity|]. apply encode_states_parse, H. Qed.

  Lemma find_state_number s k d : In (k, d) (state_numbers s) -> jfield k (state_json fmt isnan s) = Some (JNum (fmt d)).
  Proof.
    unfold state_numbers. cbn [In]. intros H. repeat (destruct H as [[= <- <-]|H]; [reflexivity|]). destruct H.
  Qed.
  (** Each number is under its own name. *)
Theorem cs_answer_fields : forall s k d, In (k, d) (state_numbers s) -> jfield k (state_json fmt isnan s) = Some (JNum (fmt d)).
  Proof. exact find_state_number. Qed.

  Lemma find_double_state s k d : lossless fmt num -> printable fmt isnan s -> In (k, d) (state_numbers s) -> find_double num k (state_json fmt isnan s) = Ok d.
  Proof. intros L (P & _) H. unfold find_double. rewrite (find_state_number s k d H), (L d (P k d H)). reflexivity. Qed.
  Lemma decode_state_json s : lossless fmt num -> printable fmt isnan s -> decode_state num zero (state_json fmt isnan s) = Ok (core zero s).
  Proof.
    intros L P. unfold decode_state.
    rewrite (find_double_state s "t" (w_t s)), (find_double_state s "x" (w_x s)), (find_double_state s "y" (w_y s)), (find_double_state s "z" (w_z s)),
      (find_double_state s "u" (w_u s)), (find_double_state s "v" (w_v s)), (find_double_state s "w" (w_w s)), (find_double_state s "p" (w_p s)),
      (find_double_state s "q" (w_q s)), (find_double_state s "r" (w_r s)), (find_double_state s "qr" (w_qr s)), (find_double_state s "qi" (w_qi s)),
      (find_double_state s "qj" (w_qj s)), (find_double_state s "qk" (w_qk s)); try assumption; try reflexivity; unfold state_numbers; cbn [In]; auto 20.
  Qed.
  Lemma decode_states_json l : lossless fmt num -> List.Forall (printable fmt isnan) l ->
    decode_states num zero (map (state_json fmt isnan) l) = Ok (map (core zero) l).
  Proof.
    intros L. induction 1 as [|s l P H IH]; [reflexivity|]. cbn [map decode_states]. rewrite decode_state_json by assumption. cbn [bindO]. rewrite IH. reflexivity.
  Qed.

  (** The states of an answer can be sent back: pasted in the text of the next request, they are read with the same values. *)
Theorem answer_can_be_sent_back : forall l Dt, lossless fmt num -> List.Forall (printable fmt isnan) l -> json_number (fmt Dt) ->
    exists text, cs_handler fmt isnan dec (Returned l) = [text] /\
      decode_request num zero ("{" ++ q1 ++ "Dt" ++ q1 ++ ": " ++ fmt Dt ++ "," ++ q1 ++ "states" ++ q1 ++ ": " ++ text ++ "}") = Ok (mkReq Dt (map (core zero) l) []).
  Proof.
    intros l Dt L P N. exists (encode_states fmt isnan l). split; [reflexivity|]. unfold decode_request.
    replace ("{" ++ q1 ++ "Dt" ++ q1 ++ ": " ++ fmt Dt ++ "," ++ q1 ++ "states" ++ q1 ++ ": " ++ encode_states fmt isnan l ++ "}")
      with ("{" ++ members "" [("Dt", fmt Dt); ("states", encode_states fmt isnan l)] ++ "}")
      by (cbn [members]; unfold q1; repeat (rewrite ?sapp_assoc; cbn [append]); reflexivity).
    rewrite (reads_parse _ (JObj [("Dt", JNum (fmt Dt)); ("states", JArr (map (state_json fmt isnan) l))])).
    - cbn [decode_document jfield smap_find String.eqb Ascii.eqb Bool.eqb]. unfold find_optional_double, find_double. cbn [jfield smap_find String.eqb Ascii.eqb Bool.eqb].
      rewrite (L Dt N). cbn [bindO]. rewrite decode_states_json by assumption. reflexivity.
    - apply reads_obj; [left; reflexivity|]. apply Forall2_cons; [split; [reflexivity|split; [reflexivity|apply reads_num, N]]|].
      apply Forall2_cons; [|apply Forall2_nil]. split; [reflexivity|split; [reflexivity|apply encode_states_reads, P]].
  Qed.

  (** ** Requests *)

  Lemma find_double_iff k v d : find_double num k v = Ok d <-> number_member num k v d.
  Proof.
    unfold find_double, number_member. split.
    - destruct (jfield k v) as [[]|]; try discriminate. destruct (num lexeme) eqn:E; intros [= <-]. eauto.
    - intros (l & -> & ->). reflexivity.
  Qed.
  Lemma find_double_cases k v : (exists d, find_double num k v = Ok d) \/ find_double num k v = Throw.
  Proof. unfold find_double. destruct (jfield k v) as [[]|]; auto. destruct (num lexeme); eauto. Qed.

  Notation is_state := (is_state num zero).
  Notation is_request := (is_request num zero).
  Lemma decode_state_iff v s : decode_state num zero v = Ok s <-> is_state v s.
  Proof.
    unfold decode_state, is_state, request_fields, state_numbers. cbn [firstn]. split.
    - intros H. repeat match type of H with bindO (find_double num ?k v) _ = _ =>
        let E := fresh "E" in destruct (find_double num k v) eqn:E; [apply find_double_iff in E|discriminate|discriminate]; cbn [bindO] in H end.
      injection H as <-. split; [|reflexivity]. repeat (apply Forall2_cons; [split; [reflexivity|eassumption]|]). apply Forall2_nil.
    - intros (H & Ec). repeat match goal with H : Forall2 _ (_ :: _) (_ :: _) |- _ => inversion H; subst; clear H end.
      repeat match goal with H : _ /\ _ |- _ => destruct H as (_ & H); apply find_double_iff in H; cbn [snd] in H end.
      repeat match goal with H : find_double num ?k v = Ok _ |- _ => rewrite H; clear H; cbn [bindO] end.
      unfold core in Ec. rewrite Ec. reflexivity.
  Qed.
  Lemma decode_states_iff l : forall ss, decode_states num zero l = Ok ss <-> Forall2 is_state l ss.
  Proof.
    induction l as [|v l IH]; intros ss; cbn [decode_states].
    - split; [intros [= <-]; apply Forall2_nil|inversion 1; reflexivity].
    - split.
      + intros H. destruct (decode_state num zero v) eqn:E; try discriminate. cbn [bindO] in H. destruct (decode_states num zero l) eqn:E2; try discriminate.
        cbn [bindO] in H. injection H as <-. apply Forall2_cons; [apply decode_state_iff, E|apply IH; first [exact E2|reflexivity]].
      + inversion 1; subst. match goal with H : is_state v _ |- _ => apply decode_state_iff in H; rewrite H end.
        match goal with H : Forall2 is_state l _ |- _ => apply IH in H; rewrite H end. reflexivity.
  Qed.
  Lemma assign_In (m : list (string * D)) k d k' d' : NoDup (map fst m) -> In (k', d') (assign m k d) <-> (k' = k /\ d' = d) \/ (k' <> k /\ In (k', d') m).
  Proof.
    induction m as [|(k0, d0) m IH]; cbn [assign map fst]; intros ND.
    - cbn [In]. split; [intros [[= <- <-]|[]]; auto|intros [(-> & ->)|(_ & [])]; auto].
    - inversion ND as [|? ? Ni ND']; subst. destruct (String.eqb_spec k k0) as [->|Nk]; cbn [In].
      + split.
        * intros [[= <- <-]|I]; [auto|]. right. split; [|auto]. intros ->. apply Ni. apply (in_map fst) in I. exact I.
        * intros [(-> & ->)|(N & [[= <- <-]|I])]; [auto|congruence|auto].
      + rewrite (IH ND'). split; [intros [[= <- <-]|[H|(A & B)]]; auto|intros [H|(A & [[= <- <-]|B])]; auto].
  Qed.
  Lemma assign_keys (m : list (string * D)) k d : forall k', In k' (map fst (assign m k d)) <-> k' = k \/ In k' (map fst m).
  Proof.
    induction m as [|(k0, d0) m IH]; intros k'; cbn [assign map fst In]; [intuition|]. destruct (String.eqb_spec k k0) as [->|Nk]; cbn [map fst In]; [intuition|].
    rewrite IH. intuition.
  Qed.
  Lemma assign_NoDup (m : list (string * D)) k d : NoDup (map fst m) -> NoDup (map fst (assign m k d)).
  Proof.
    induction m as [|(k0, d0) m IH]; cbn [assign map fst]; intros ND; [repeat constructor; intros []|]. inversion ND as [|? ? Ni ND']; subst.
    destruct (String.eqb_spec k k0) as [->|Nk]; cbn [map fst]; [constructor; assumption|]. constructor; [|apply IH, ND'].
    rewrite assign_keys. intros [E|I]; [congruence|contradiction].
  Qed.
  Lemma decode_commands_spec all l : forall m r, NoDup (map fst m) -> decode_commands num all l m = Ok r ->
    NoDup (map fst r) /\ (forall k d, In (k, d) r <-> (In k (map fst l) /\ number_member num k all d) \/ (~ In k (map fst l) /\ In (k, d) m)).
  Proof.
    induction l as [|(k0, j) l IH]; intros m r ND; cbn [decode_commands map fst In].
    - intros [= <-]. split; [exact ND|]. intuition.
    - destruct (find_double num k0 all) as [d0| |] eqn:E; try discriminate. cbn [bindO]. intros H. apply IH in H; [|apply assign_NoDup, ND].
      destruct H as (NDr & H). split; [exact NDr|]. intros k d. rewrite H, (assign_In m k0 d0 k d ND). apply find_double_iff in E.
      destruct (in_dec string_dec k (map fst l)) as [I|I]; destruct (string_dec k k0) as [->|N]; try (intuition congruence).
      split.
      + intros [(A & _)|(_ & [(_ & ->)|(A & _)])]; [contradiction|left; auto|congruence].
      + intros [(_ & M)|(A & _)]; [|exfalso; auto]. right. split; [exact I|]. left. split; [reflexivity|].
        destruct E as (l1 & E1 & E2), M as (l2 & M1 & M2). rewrite E1 in M1. injection M1 as <-. rewrite E2 in M2. congruence.
  Qed.
  Lemma decode_commands_ok all l : forall m, (forall k, In k (map fst l) -> exists d, number_member num k all d) -> exists r, decode_commands num all l m = Ok r.
  Proof.
    induction l as [|(k0, j) l IH]; intros m H; cbn [decode_commands]; [eauto|]. destruct (H k0 (or_introl eq_refl)) as (d & E). apply find_double_iff in E. rewrite E.
    cbn [bindO]. apply IH. intros k I. apply H. right. exact I.
  Qed.
  Lemma decode_commands_total all l : forall m, decode_commands num all l m <> UB.
  Proof.
    induction l as [|(k0, j) l IH]; intros m; cbn [decode_commands]; [discriminate|]. destruct (find_double_cases k0 all) as [(d & ->)| ->]; [cbn [bindO]; apply IH|discriminate].
  Qed.

  (** Exactly the requests that have the documented contents are accepted, and each value is read under its own name. *)
Theorem request_contents : forall text r, decode_request num zero text = Ok r -> is_request text r.
  Proof.
    intros text r. unfold decode_request. destruct (json_parse text) as [doc|] eqn:J; [|discriminate]. unfold decode_document.
    destruct doc as [| | | |ms]; try discriminate. destruct (jfield "states" (JObj ms)) as [[| | |arr|]|] eqn:St; try discriminate.
    intros H. destruct (find_optional_double num "Dt" (JObj ms) zero) as [Dt| |] eqn:ED; try discriminate. cbn [bindO] in H.
    destruct (decode_states num zero arr) as [ss| |] eqn:ES; try discriminate. cbn [bindO] in H. apply decode_states_iff in ES.
    assert (RD : (jfield "Dt" (JObj ms) = None /\ Dt = zero) \/ number_member num "Dt" (JObj ms) Dt).
    { unfold find_optional_double in ED. destruct (jfield "Dt" (JObj ms)) eqn:F; [right; apply find_double_iff, ED|left; split; [reflexivity|congruence]]. }
    exists (JObj ms), arr, ms. split; [exact J|]. split; [reflexivity|]. split; [exact St|].
    destruct (jfield "commands" (JObj ms)) as [[| |w| |c]|] eqn:C; try discriminate.
    - destruct (string_dec w "null") as [->|Nw].
      + injection H as <-. split; [exact ES|]. split; [exact RD|]. left. auto.
      + exfalso. clear - H Nw. repeat (destruct w as [|[[] [] [] [] [] [] [] []] w]; try discriminate). congruence.
    - destruct (decode_commands num (JObj c) c []) as [m| |] eqn:EC; try discriminate. cbn [bindO] in H. injection H as <-.
      split; [exact ES|]. split; [exact RD|]. right. exists c. split; [reflexivity|]. destruct (decode_commands_spec _ _ [] _ (NoDup_nil _) EC) as (ND & I).
      split; [exact ND|]. cbn [rq_commands]. intros k d. rewrite I. cbn [In]. tauto.
    - injection H as <-. split; [exact ES|]. split; [exact RD|]. left. auto.
  Qed.
Theorem request_accepted : forall text doc arr, json_parse text = Some doc -> (exists ms, doc = JObj ms) -> jfield "states" doc = Some (JArr arr) ->
    (forall v, In v arr -> forall k, In k request_fields -> exists d, number_member num k v d) ->
    (jfield "Dt" doc = None \/ exists d, number_member num "Dt" doc d) ->
    (jfield "commands" doc = None \/ jfield "commands" doc = Some (JWord "null") \/
     exists c, jfield "commands" doc = Some (JObj c) /\ forall k, In k (map fst c) -> exists d, number_member num k (JObj c) d) ->
    exists r, decode_request num zero text = Ok r.
  Proof.
    intros text doc arr J (ms & ->) St Hs HD HC. unfold decode_request. rewrite J. unfold decode_document. rewrite St.
    assert (EDt : exists Dt, find_optional_double num "Dt" (JObj ms) zero = Ok Dt).
    { unfold find_optional_double. destruct (jfield "Dt" (JObj ms)) eqn:F; [|eauto]. destruct HD as [HD|(d & HD)]; [discriminate|]. apply find_double_iff in HD. eauto. }
    destruct EDt as (Dt & ->). cbn [bindO].
    assert (ES : exists ss, decode_states num zero arr = Ok ss).
    { clear - Hs. induction arr as [|v arr IH]; [exists []; reflexivity|]. cbn [decode_states]. destruct IH as (ss & ->); [intros v' I; apply Hs; right; exact I|].
      pose proof (Hs v (or_introl eq_refl)) as K. unfold request_fields in K. unfold decode_state.
      repeat match goal with |- context [find_double num ?k v] => let d := fresh "d" in let E := fresh "E" in
        destruct (K k) as (d & E); [cbn [In]; auto 20|apply find_double_iff in E; rewrite E; clear E; cbn [bindO]] end. eauto. }
    destruct ES as (ss & ->). cbn [bindO]. destruct HC as [->|[->|(c & -> & HC)]]; eauto. destruct (decode_commands_ok (JObj c) c [] HC) as (m & ->). cbn [bindO]. eauto.
  Qed.
  (** No request makes the decoder run into undefined behaviour. *)
Theorem request_never_undefined : forall text, decode_request num zero text <> UB.
  Proof.
    intros text. unfold decode_request. destruct (json_parse text) as [doc|]; [|discriminate]. unfold decode_document. destruct doc as [| | | |ms]; try discriminate.
    destruct (jfield "states" (JObj ms)) as [[| | |arr|]|]; try discriminate.
    assert (F : forall k v, find_double num k v <> UB) by (intros k v; destruct (find_double_cases k v) as [(d & ->)| ->]; discriminate).
    unfold find_optional_double. assert (B : forall (Dt : D), (do l <- decode_states num zero arr;
      match jfield "commands" (JObj ms) with None | Some (JWord "null") => Ok (mkReq Dt l []) | Some (JObj c) => do m <- decode_commands num (JObj c) c []; Ok (mkReq Dt l m) | Some _ => Throw end) <> UB).
    { intros Dt. assert (DS : decode_states num zero arr <> UB).
      { induction arr as [|v arr IH]; [discriminate|]. cbn [decode_states]. assert (DV : decode_state num zero v <> UB).
        { unfold decode_state. repeat match goal with |- context [find_double num ?k v] => destruct (find_double_cases k v) as [(? & ->)| ->]; cbn [bindO]; [|discriminate] end. discriminate. }
        destruct (decode_state num zero v); try congruence; try discriminate. cbn [bindO]. destruct (decode_states num zero arr); try congruence; discriminate. }
      destruct (decode_states num zero arr) as [l| |]; try congruence; [|discriminate]. cbn [bindO].
      destruct (jfield "commands" (JObj ms)) as [[| |w| |c]|]; try discriminate.
      - repeat (destruct w as [|[[] [] [] [] [] [] [] []] w]; try discriminate).
      - pose proof (decode_commands_total (JObj c) c []) as T. destruct (decode_commands num (JObj c) c []); try congruence; discriminate. }
    destruct (jfield "Dt" (JObj ms)); [|exact (B zero)]. specialize (F "Dt" (JObj ms)). destruct (find_double num "Dt" (JObj ms)); try congruence; [exact (B a)|discriminate].
  Qed.

  (** ** Errors *)

  (** The text of an exception. *)
  Definition text_of (e : exn) : string :=
    match e with
    | ProgramOptions w | InvalidInput w | InternalError w | MeshError w | NumericalError w | WebSocketError w | ConnexionError w | JsonError w | SscError w | YamlError _ _ w | StdError w => w
    | Other => ""
    end.
  (** Except for the errors of meshes and of websockets, a failed step is answered, once. *)
Theorem failed_step_is_answered_partial : forall (e : exn),
    (forall m, e <> MeshError m) -> (forall m, e <> WebSocketError m) -> e <> Other -> exists text, cs_handler fmt isnan dec (Thrown e) = [text].
  Proof. intros e A B C. destruct e; try (eexists; reflexivity); exfalso; [eapply A|eapply B|apply C]; reflexivity. Qed.

  Lemma replace_app a b : replace_newlines (a ++ b) = replace_newlines a ++ replace_newlines b.
  Proof. induction a as [|c a IH]; [reflexivity|]. cbn [append replace_newlines]. rewrite IH. reflexivity. Qed.
  Lemma clean_app a b : json_clean (a ++ b) = json_clean a && json_clean b.
  Proof. induction a as [|c a IH]; [reflexivity|]. cbn [append json_clean]. rewrite IH, andb_assoc. reflexivity. Qed.
  Lemma error_answer_is_json what : json_clean (replace_newlines what) = true -> is_error (error_answer what) (replace_newlines what).
  Proof.
    intros C. unfold is_error, error_answer. rewrite !replace_app. change (replace_newlines q1) with q1. change (replace_newlines "{") with "{".
    change (replace_newlines "}") with "}". change (replace_newlines "error") with "error". change (replace_newlines ": ") with ": ".
    replace ("{" ++ q1 ++ "error" ++ q1 ++ ": " ++ q1 ++ replace_newlines what ++ q1 ++ "}") with ("{" ++ members "" [("error", q1 ++ replace_newlines what ++ q1)] ++ "}")
      by (cbn [members]; unfold q1; repeat (rewrite ?sapp_assoc; cbn [append]); reflexivity).
    apply reads_parse, reads_obj; [left; reflexivity|]. apply Forall2_cons; [|apply Forall2_nil]. split; [reflexivity|]. split; [reflexivity|]. apply reads_str, C.
  Qed.
  (** The answer to a failed step is a JSON object with the error, when the text of the error has no quotation mark, backslash or control character other than
      newlines. The text of the exception is in the answer. *)
Theorem error_answers_are_json_partial : forall (e : exn), (forall n, json_clean (dec n) = true) ->
    (forall w, e <> ProgramOptions w) -> json_clean (replace_newlines (text_of e)) = true ->
    forall text, In text (cs_handler fmt isnan dec (Thrown e)) -> exists before after, is_error text (before ++ replace_newlines (text_of e) ++ after).
  Proof.
    intros e Dc NP C text I. assert (W : forall a b, json_clean (replace_newlines a) = true -> json_clean (replace_newlines b) = true ->
      exists before after, is_error (error_answer (a ++ text_of e ++ b)) (before ++ replace_newlines (text_of e) ++ after)).
    { intros a b Ca Cb. exists (replace_newlines a), (replace_newlines b). rewrite <- !replace_app. apply error_answer_is_json. rewrite !replace_app, !clean_app, Ca, C, Cb. reflexivity. }
    assert (Dr : forall n, json_clean (replace_newlines (dec n)) = true).
    { intros n. specialize (Dc n). revert Dc. generalize (dec n). intros x. induction x as [|c x IH]; [reflexivity|]. cbn [json_clean replace_newlines]. intros H.
      apply andb_true_iff in H as (H1 & H2). rewrite (IH H2). destruct (Ascii.eqb_spec c nl); [reflexivity|]. rewrite H1. reflexivity. }
    assert (Z : forall n, dec n ++ "" = dec n) by (intros; apply sapp_nil_r).
    destruct e; cbn [cs_handler answers report told map tell In text_of] in *; try (destruct I as [<-|[]]); try destruct I.
    - exfalso. eapply NP. reflexivity.
    - apply W; reflexivity.
    - match goal with |- context [error_answer (?a ++ ?n ++ ?w ++ ?b)] => rewrite <- (sapp_assoc a n (w ++ b)) end. apply W; reflexivity.
    - apply W; reflexivity.
    - apply W; reflexivity.
    - apply W; reflexivity.
    - match goal with |- context [error_answer (?a ++ ?n ++ ?w ++ ?b)] => rewrite <- (sapp_assoc a n (w ++ b)) end. apply W; reflexivity.
    - match goal with |- context [error_answer (?a ++ ?l ++ ?b ++ ?c ++ ?d ++ ?w ++ ?f)] =>
        replace (a ++ l ++ b ++ c ++ d ++ w ++ f) with ((a ++ l ++ b ++ c ++ d) ++ w ++ f) by (rewrite !sapp_assoc; reflexivity) end.
      apply W; [|reflexivity]. rewrite !replace_app, !clean_app, !Dr. reflexivity.
    - match goal with |- context [error_answer (?a ++ ?l ++ ?b ++ ?c ++ ?d ++ ?g ++ ?h ++ ?w ++ ?f)] =>
        replace (a ++ l ++ b ++ c ++ d ++ g ++ h ++ w ++ f) with ((a ++ l ++ b ++ c ++ d ++ g ++ h) ++ w ++ f) by (rewrite !sapp_assoc; reflexivity) end.
      apply W; reflexivity.
  Qed.

  (** ** Derivatives *)

  (** The answer of the model-exchange server has the thirteen derivatives, each under its name; with fewer values it reads outside of the array. *)
Theorem me_answer_is_json_partial : forall dx, (13 <= List.length dx)%nat -> (forall d, In d dx -> json_number (fmt d)) ->
    exists text, encode_derivatives fmt dx = Ok text /\ json_parse text = Some (JObj (combine
      ["dx_dt"; "dy_dt"; "dz_dt"; "du_dt"; "dv_dt"; "dw_dt"; "dp_dt"; "dq_dt"; "dr_dt"; "dqr_dt"; "dqi_dt"; "dqj_dt"; "dqk_dt"] (map (fun d => JNum (fmt d)) dx))).
  Proof.
    intros dx L P. do 13 (destruct dx as [|? dx]; [cbn in L; lia|]). eexists. split; [reflexivity|].
    match goal with |- json_parse ?t = Some (JObj ?js) => 
      replace t with ("{" ++ members "" (combine me_fields [fmt d; fmt d0; fmt d1; fmt d2; fmt d3; fmt d4; fmt d5; fmt d6; fmt d7; fmt d8; fmt d9; fmt d10; fmt d11]) ++ "}")
        by (unfold me_fields; cbn [members combine]; unfold q1; repeat (rewrite ?sapp_assoc; cbn [append]); reflexivity) end.
    apply reads_parse, reads_obj; [left; reflexivity|]. unfold me_fields. cbn [combine map].
    repeat (apply Forall2_cons; [split; [reflexivity|split; [reflexivity|apply reads_num, P; cbn [In]; auto 20]]|]). apply Forall2_nil.
  Qed.
Theorem me_answer_of_a_short_vector : forall dx, (List.length dx < 13)%nat -> encode_derivatives fmt dx = UB.
  Proof. intros dx L. do 13 (destruct dx as [|? dx]; [reflexivity|]). cbn in L. lia. Qed.
End Wire.
Print Assumptions cs_answer_is_json_partial.
Print Assumptions cs_answer_fields.
Print Assumptions answer_can_be_sent_back.
Print Assumptions request_contents.
Print Assumptions request_accepted.
Print Assumptions request_never_undefined.
Print Assumptions failed_step_is_answered_partial.
Print Assumptions error_answers_are_json_partial.
Print Assumptions me_answer_is_json_partial.
Print Assumptions me_answer_of_a_short_vector.

(** ** What the servers do otherwise. In the witnesses a double is represented by the text the C++ streams print for it ("nan", "-nan", "inf" for those that are not numbers). *)
Definition txt (s : string) : string := s.
Definition is_nan (s : string) : bool := (String.eqb s "nan" || String.eqb s "-nan")%bool.
Definition read (s : string) : option string := if String.eqb s "inf" then None else Some s.
Definition rest_state (x : string) (extra : list (string * string)) : wstate :=
  mkWS "1.5" x "0" "-2" "10" "0" "0" "0" "0" "0.25" "1" "0" "0" "0" "0" "0" "0" extra.
Definition decimal2 (n : nat) : string := if Nat.leb n 1 then "1" else "2".

(** A state that is not finite is sent as a text that is not JSON, whereas an observation that is not a number is sent as null; an infinite observation, or an
    observation whose name has a quotation mark, is not JSON either. *)
Theorem cs_answer_is_json_refuted :
  json_parse (encode_states txt is_nan [rest_state "nan" []]) = None /\
  json_parse (encode_states txt is_nan [rest_state "3" [("alpha", "nan")]]) <> None /\
  json_parse (encode_states txt is_nan [rest_state "3" [("alpha", "inf")]]) = None /\
  json_parse (encode_states txt is_nan [rest_state "3" [("the " ++ q1 ++ "angle" ++ q1, "1")]]) = None.
Proof. split; [vm_compute; reflexivity|]. split; [vm_compute; discriminate|]. split; vm_compute; reflexivity. Qed.
Print Assumptions cs_answer_is_json_refuted.
Theorem me_answer_is_json_refuted : exists text,
  encode_derivatives txt ["0"; "0"; "0"; "-inf"; "0"; "0"; "0"; "0"; "0"; "0"; "0"; "0"; "0"] = Ok text /\ json_parse text = None.
Proof. eexists. split; vm_compute; reflexivity. Qed.
Print Assumptions me_answer_is_json_refuted.
(** Errors about meshes or websockets are never sent to the client, who waits for an answer. *)
Theorem failed_step_is_answered_refuted : forall m, cs_handler txt is_nan decimal2 (Thrown (MeshError m)) = [] /\ cs_handler txt is_nan decimal2 (Thrown (WebSocketError m)) = [].
Proof. split; reflexivity. Qed.
Print Assumptions failed_step_is_answered_refuted.
(** The error for a request whose states are not an array contains these states as JSON (parse_history.cpp:22-25), with their quotation marks: the answer is
    not JSON. *)
Theorem error_answers_are_json_refuted : exists text,
  decode_request read "0" ("{" ++ q1 ++ "states" ++ q1 ++ ": " ++ q1 ++ "abc" ++ q1 ++ "}") = Throw /\
  cs_handler txt is_nan decimal2 (Thrown (JsonError ("Expecting a JSON array but got '" ++ q1 ++ "abc" ++ q1))) = [text] /\ json_parse text = None.
Proof. eexists. split; [vm_compute; reflexivity|]. split; [reflexivity|]. vm_compute. reflexivity. Qed.
Print Assumptions error_answers_are_json_refuted.
(** When a command is given twice, the first value is used for both. *)
Example command_given_twice : decode_request read "0"
  ("{" ++ q1 ++ "states" ++ q1 ++ ": [], " ++ q1 ++ "commands" ++ q1 ++ ": {" ++ q1 ++ "a" ++ q1 ++ ": 1, " ++ q1 ++ "a" ++ q1 ++ ": 2}}")
  = Ok (mkReq "0" [] [("a", "1")]).
Proof. vm_compute. reflexivity. Qed.

(** ** The hypotheses are met *)
Example printable_states : List.Forall (printable txt is_nan) [rest_state "3" [("alpha(foil)", "nan"); ("beta", "1e-05")]; rest_state "-4.25" []].
Proof.
  assert (N : forall x e, json_number x -> forall k d, In (k, d) (state_numbers (rest_state x e)) -> json_number (txt d)).
  { intros x e Hx k d. unfold state_numbers. cbn [In rest_state w_t w_x w_y w_z w_u w_v w_w w_p w_q w_r w_qr w_qi w_qj w_qk w_phi w_theta w_psi]. intros H.
    repeat (destruct H as [[= <- <-]|H]; [first [exact Hx|reflexivity]|]). destruct H. }
  apply List.Forall_cons; [|apply List.Forall_cons; [|apply List.Forall_nil]].
  - split; [apply N; reflexivity|]. intros k d [[= <- <-]|[[= <- <-]|[]]]; (split; [reflexivity|intros H; first [discriminate H|reflexivity]]).
  - split; [apply N; reflexivity|]. intros k d [].
Qed.
Example lossless_text : lossless txt read.
Proof. intros d H. unfold read, txt in *. destruct (String.eqb_spec d "inf") as [->|]; [discriminate H|reflexivity]. Qed.
Example sent_back : exists text, cs_handler txt is_nan decimal2 (Returned [rest_state "3" [("beta", "nan")]]) = [text] /\
  decode_request read "0" ("{" ++ q1 ++ "Dt" ++ q1 ++ ": " ++ "0.1" ++ "," ++ q1 ++ "states" ++ q1 ++ ": " ++ text ++ "}")
  = Ok (mkReq "0.1" [rest_state "3" []] []).
Proof. eexists. split; [reflexivity|]. vm_compute. reflexivity. Qed.
Example an_error : is_error (error_answer ("Dt should be greater than 0 but got Dt = 0" ++ newline)) "Dt should be greater than 0 but got Dt = 0 ".
Proof. vm_compute. reflexivity. Qed.
Example derivatives : exists text, encode_derivatives txt ["1"; "2"; "3"; "4"; "5"; "6"; "7"; "8"; "9"; "10"; "11"; "12"; "13"] = Ok text /\
  option_map (jfield "dqk_dt") (json_parse text) = Some (Some (JNum "13")) /\ option_map (jfield "dx_dt") (json_parse text) = Some (Some (JNum "1")).
Proof. eexists. split; [reflexivity|]. vm_compute. split; reflexivity. Qed.
