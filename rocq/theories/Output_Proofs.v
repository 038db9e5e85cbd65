(** Proofs about the command-line outputs. *)
From Coq Require Import ZArith List Bool Ascii String Lia.
From Verif Require Import Common Output_Model Output_Spec.
Import ListNotations.
Open Scope string_scope.

Lemma sapp_nil : forall s, s ++ "" = s.
Proof. induction s; simpl; congruence. Qed.
Lemma sapp_ass : forall a b c : string, (a ++ b) ++ c = a ++ b ++ c.
Proof. induction a; intros; simpl; [reflexivity|]. rewrite IHa. reflexivity. Qed.
Lemma slen_app : forall a b : string, String.length (a ++ b) = (String.length a + String.length b)%nat.
Proof. induction a; intros; simpl; auto. Qed.

(** ** Classes *)
Lemma allowed_true : forall l c, allowed l c = true <-> ~ In c l.
Proof.
  intros l c. unfold allowed. rewrite negb_true_iff. split.
  - intros H Hin. assert (existsb (Ascii.eqb c) l = true); [|congruence]. apply existsb_exists. exists c. split; [exact Hin|apply Ascii.eqb_refl].
  - intros H. destruct (existsb (Ascii.eqb c) l) eqn:E; [|reflexivity]. apply existsb_exists in E. destruct E as (x & Hx & Ex).
    apply Ascii.eqb_eq in Ex. subst x. contradiction.
Qed.
Lemma avoids_app : forall l a b, avoids l (a ++ b) <-> avoids l a /\ avoids l b.
Proof. induction a; intros b; simpl; [tauto|]. rewrite IHa. tauto. Qed.
Lemma avoids_sub : forall l l' s, (forall c, In c l' -> In c l) -> avoids l s -> avoids l' s.
Proof. induction s; simpl; intros H K; [exact I|]. split; [intros Hc; apply (proj1 K); auto|tauto]. Qed.
Lemma avoids_both : forall l l' s, avoids l s -> avoids l' s -> avoids (l ++ l') s.
Proof.
  induction s; simpl; intros H K; [exact I|]. split; [|tauto]. intros Hc. apply in_app_or in Hc. tauto.
Qed.
(** The longest prefix in a class. *)
Lemma span : forall l s, exists a b, s = a ++ b /\ avoids l a /\ (b = "" \/ exists c b', b = String c b' /\ In c l).
Proof.
  induction s as [|c s (a & b & -> & Ha & Hb)]; [exists "", ""; simpl; auto|].
  destruct (allowed l c) eqn:E.
  - exists (String c a), b. apply allowed_true in E. simpl. auto.
  - exists "", (String c (a ++ b)). simpl. repeat split; auto. right. exists c, (a ++ b). split; [reflexivity|].
    unfold allowed in E. rewrite negb_false_iff in E. apply existsb_exists in E. destruct E as (x & Hx & Ex). apply Ascii.eqb_eq in Ex. subst. exact Hx.
Qed.

(** ** The greedy match *)
Definition stops (l : list ascii) (b : string) : Prop := b = "" \/ exists c b', b = String c b' /\ In c l.
Lemma star_greedy : forall l k a b r, avoids l a -> stops l b -> k b = Some r -> star l k (a ++ b) = Some (a :: r).
Proof.
  induction a as [|c a IH]; intros b r Ha Hb Hk.
  - simpl. destruct Hb as [->|(c & b' & -> & Hc)]; simpl.
    + rewrite Hk. reflexivity.
    + assert (allowed l c = false) as ->. { destruct (allowed l c) eqn:E; [|reflexivity]. apply allowed_true in E. contradiction. }
      rewrite Hk. reflexivity.
  - simpl in *. destruct Ha as [Hc Ha]. rewrite (proj2 (allowed_true l c) Hc), (IH b r Ha Hb Hk). reflexivity.
Qed.
Lemma star_sound : forall l k s r, star l k s = Some r -> exists a b rs, s = a ++ b /\ avoids l a /\ k b = Some rs /\ r = a :: rs.
Proof.
  induction s as [|c s IH]; intros r E; simpl in E.
  - destruct (k "") as [rs|] eqn:K; [|discriminate]. injection E as <-. exists "", "", rs. simpl. auto.
  - assert (match k (String c s) with Some r0 => Some ("" :: r0) | None => None end = Some r ->
      exists a b rs, String c s = a ++ b /\ avoids l a /\ k b = Some rs /\ r = a :: rs) as Here.
    { destruct (k (String c s)) as [rs|] eqn:K; [|discriminate]. intros [= <-]. exists "", (String c s), rs. simpl. auto. }
    destruct (allowed l c) eqn:A; [|auto]. destruct (star l k s) as [[|cap cs]|] eqn:St; auto. injection E as <-.
    destruct (IH _ eq_refl) as (a & b & rs & -> & Ha & Kb & [= -> ->]). exists (String c a), b, rs. simpl. apply allowed_true in A. auto.
Qed.
Lemma strip_spec : forall p s s', strip p s = Some s' <-> s = p ++ s'.
Proof.
  induction p as [|a p IH]; intros s s'; simpl; [split; [intros [= ->]|intros ->]; reflexivity|].
  destruct s as [|b s]; [split; discriminate|]. destruct (Ascii.eqb_spec a b) as [->|N].
  - rewrite IH. split; [intros ->; reflexivity|intros [= ->]; reflexivity].
  - split; [discriminate|]. intros [= -> _]. contradiction.
Qed.

(** The tail of the URL after the port: it matches every string without a space, starting with a slash or empty. *)
Definition tail_regex : list item := [Opt "/"; Star [" "; "#"; "?"]%char; Opt "?"; Star [" "; "#"]%char; Opt "#"; Star [" "]%char].
Lemma star_all : forall l s, avoids l s -> star l (regex_match []) s = Some [s].
Proof. intros l s H. rewrite <- (sapp_nil s) at 1. apply star_greedy; [exact H|left; reflexivity|reflexivity]. Qed.
Lemma opt_skip : forall c r s cs, (s = "" \/ exists a b, s = String a b /\ a <> c) -> regex_match r s = Some cs -> regex_match (Opt c :: r) s = Some ("" :: cs).
Proof.
  intros c r s cs H E. destruct H as [->|(a & b & -> & N)]; cbn [regex_match]; [rewrite E; reflexivity|].
  destruct (Ascii.eqb_spec a c) as [->|_]; [contradiction|]. rewrite E. reflexivity.
Qed.
Lemma opt_take : forall c r s cs, regex_match r s = Some cs -> regex_match (Opt c :: r) (String c s) = Some (String c "" :: cs).
Proof. intros c r s cs E. cbn [regex_match]. rewrite Ascii.eqb_refl, E. reflexivity. Qed.
Lemma star_item : forall l r a b cs, avoids l a -> stops l b -> regex_match r b = Some cs -> regex_match (Star l :: r) (a ++ b) = Some (a :: cs).
Proof. intros. cbn [regex_match]. apply star_greedy; assumption. Qed.
Lemma plus_item : forall l r c a b cs, ~ In c l -> avoids l a -> stops l b -> regex_match r b = Some cs ->
  regex_match (Plus l :: r) (String c (a ++ b)) = Some (String c a :: cs).
Proof.
  intros l r c a b cs Hc Ha Hb E. cbn [regex_match]. rewrite (proj2 (allowed_true l c) Hc), (star_greedy l _ a b cs Ha Hb E). reflexivity.
Qed.
Lemma fragment_matches : forall s, avoids [" "]%char s -> (s = "" \/ exists b, s = String "#" b) ->
  exists cs, regex_match [Opt "#"; Star [" "]%char] s = Some cs.
Proof.
  intros s H [->|(b & ->)]; [eexists; reflexivity|]. eexists. apply opt_take. cbn [regex_match]. apply star_all. simpl in H. tauto.
Qed.
Lemma query_matches : forall s, avoids [" "]%char s -> exists cs, regex_match [Star [" "; "#"]%char; Opt "#"; Star [" "]%char] s = Some cs.
Proof.
  intros s H. destruct (span [" "; "#"]%char s) as (a & b & -> & Ha & Hb). apply avoids_app in H. destruct H as [_ H].
  destruct (fragment_matches b H) as (cs & E).
  { destruct Hb as [->|(c & b' & -> & [<-|[<-|[]]])]; [auto| |right; eauto]. simpl in H. exfalso. apply H. left. reflexivity. }
  eexists. eapply star_item; eauto.
Qed.
Lemma tail_matches : forall s, avoids [" "]%char s -> exists cs, regex_match tail_regex s = Some cs.
Proof.
  assert (forall s, avoids [" "]%char s -> exists cs, regex_match [Star [" "; "#"; "?"]%char; Opt "?"; Star [" "; "#"]%char; Opt "#"; Star [" "]%char] s = Some cs) as G.
  { intros s H. destruct (span [" "; "#"; "?"]%char s) as (a & b & -> & Ha & Hb). apply avoids_app in H. destruct H as [_ H].
    assert (exists cs, regex_match [Opt "?"; Star [" "; "#"]%char; Opt "#"; Star [" "]%char] b = Some cs) as (cs & E).
    { destruct Hb as [->|(c & b' & -> & [<-|[<-|[<-|[]]]])].
      - eexists. reflexivity.
      - simpl in H. exfalso. apply H. left. reflexivity.
      - destruct (query_matches _ H) as (cs & E). eexists. apply opt_skip; [right; do 2 eexists; split; [reflexivity|discriminate]|exact E].
      - destruct (query_matches b') as (cs & E); [simpl in H; tauto|]. eexists. apply opt_take. exact E. }
    eexists. eapply star_item; eauto. }
  intros s H. destruct s as [|c s]; [eexists; reflexivity|]. destruct (Ascii.eqb_spec c "/") as [->|N].
  - destruct (G s) as (cs & E); [simpl in H; tauto|]. eexists. apply opt_take. exact E.
  - destruct (G (String c s) H) as (cs & E). eexists. apply opt_skip; [right; eauto|exact E].
Qed.

(** Every match of the part after "://" avoids spaces. *)
Definition spaceless (it : item) : Prop :=
  match it with Alt _ => False | Lit _ => False | Opt c => c <> " "%char | Star l => In " "%char l | Plus l => In " "%char l end.
Lemma no_space : forall r s cs, Forall spaceless r -> regex_match r s = Some cs -> avoids [" "]%char s.
Proof.
  assert (forall l a, In " "%char l -> avoids l a -> avoids [" "]%char a) as Av.
  { intros l a Hl. apply avoids_sub. intros c [<-|[]]. exact Hl. }
  induction r as [|it r IH]; intros s cs F E.
  - destruct s; [exact I|discriminate].
  - apply Forall_cons_iff in F. destruct F as [Fi F]. destruct it; simpl in Fi; try contradiction.
    + cbn [regex_match] in E. destruct s as [|a s]; [exact I|].
      assert (forall x : option (list string), match x with Some cs0 => Some ("" :: cs0) | None => None end = Some cs -> exists y, x = Some y) as K.
      { intros [y|]; [eauto|discriminate]. }
      destruct (Ascii.eqb_spec a c) as [->|N].
      * destruct (regex_match r s) eqn:E1.
        -- simpl. split; [intros [D|[]]; congruence|]. eapply IH; eauto.
        -- destruct (K _ E) as (y & Ey). eapply IH; eauto.
      * destruct (K _ E) as (y & Ey). eapply IH; eauto.
    + cbn [regex_match] in E. destruct (star_sound _ _ _ _ E) as (a & b & rs & -> & Ha & Kb & _). apply avoids_app. split; [eauto|eapply IH; eauto].
    + cbn [regex_match] in E. destruct s as [|a s]; [exact I|]. destruct (allowed excluded a) eqn:Al; [|discriminate].
      apply allowed_true in Al. destruct (star excluded (regex_match r) s) as [[|cap cs']|] eqn:St; try discriminate.
      destruct (star_sound _ _ _ _ St) as (a' & b & rs & -> & Ha & Kb & _). simpl. split.
      * intros [<-|[]]. contradiction.
      * apply avoids_app. split; [eauto|eapply IH; eauto].
Qed.

Definition body_regex : list item := Plus ["/"; " "; ":"]%char :: Opt ":" :: Star ["/"; " "]%char :: tail_regex.

(** The match of the part after "://", when there is one. *)
Lemma body_match : forall s cs, regex_match body_regex s = Some cs ->
  exists host colon port rest tl, s = host ++ colon ++ port ++ rest /\ cs = host :: colon :: port :: tl /\ host <> "" /\
    avoids ["/"; " "; ":"]%char host /\ avoids ["/"; " "]%char port /\ avoids [" "]%char rest /\
    (rest = "" \/ exists p, rest = String "/" p) /\ (colon = ":" \/ colon = "" /\ port = "").
Proof.
  intros s cs E.
  assert (avoids [" "]%char s) as Sp. { eapply no_space; [|exact E]. repeat constructor; simpl; auto; discriminate. }
  destruct s as [|c0 s]; [discriminate|].
  destruct (allowed ["/"; " "; ":"]%char c0) eqn:Al.
  2:{ unfold body_regex in E. cbn [regex_match] in E. rewrite Al in E. discriminate. }
  apply allowed_true in Al.
  destruct (span ["/"; " "; ":"]%char s) as (h & b & -> & Hh & Hb). simpl in Sp. destruct Sp as [Sp0 Sp]. apply avoids_app in Sp. destruct Sp as [_ Sp].
  set (rest_regex := Opt ":" :: Star ["/"; " "]%char :: tail_regex) in *.
  assert (exists colon port rest tl, b = colon ++ port ++ rest /\ regex_match rest_regex b = Some (colon :: port :: tl) /\
     avoids ["/"; " "]%char port /\ avoids [" "]%char rest /\ (rest = "" \/ exists p, rest = String "/" p) /\ (colon = ":" \/ colon = "" /\ port = "")) as
     (colon & port & rest & tl & -> & Em & Hp & Hr & Hs & Hc).
  { assert (forall b, avoids [" "]%char b -> exists port rest tl, b = port ++ rest /\ regex_match (Star ["/"; " "]%char :: tail_regex) b = Some (port :: tl) /\
        avoids ["/"; " "]%char port /\ avoids [" "]%char rest /\ (rest = "" \/ exists p, rest = String "/" p) /\ (stops ["/"; " "]%char b -> port = "")) as G.
    { intros b1 H1. destruct (span ["/"; " "]%char b1) as (p & q & -> & Hp & Hq). pose proof H1 as H1'. apply avoids_app in H1'. destruct H1' as [_ H2].
      destruct (tail_matches q H2) as (tl & Et). exists p, q, tl. split; [reflexivity|].
      split; [apply star_item; [exact Hp|exact Hq|exact Et]|]. split; [exact Hp|]. split; [exact H2|]. split.
      - destruct Hq as [->|(c & q' & -> & [<-|[<-|[]]])]; [auto|right; eauto|]. simpl in H2. exfalso. apply H2. left. reflexivity.
      - intros [E0|(c & b' & E0 & Hc)]; destruct p as [|c' p]; auto; try discriminate. simpl in E0, Hp. injection E0 as -> _. destruct Hp as [Hp _]. contradiction. }
    destruct Hb as [->|(c & b' & -> & Hc)].
    - exists "", "", "". eexists. split; [reflexivity|]. split; [reflexivity|]. simpl. auto 10.
    - destruct (Ascii.eqb_spec c ":") as [->|Nc].
      + destruct (G b') as (port & rest & tl & -> & Em & Hp & Hr & Hs & _); [simpl in Sp; tauto|].
        exists ":", port, rest, tl. split; [reflexivity|]. split; [apply opt_take; exact Em|]. auto 10.
      + destruct (G (String c b') Sp) as (port & rest & tl & Eb & Em & Hp & Hr & Hs & Hz).
        assert (port = "") as ->. { apply Hz. right. exists c, b'. split; [reflexivity|]. destruct Hc as [<-|[<-|[<-|[]]]]; simpl; auto; contradiction. }
        exists "", "", rest, tl. split; [exact Eb|]. split; [apply opt_skip; [right; eauto|exact Em]|]. auto 10. }
  assert (regex_match body_regex (String c0 (h ++ colon ++ port ++ rest)) = Some (String c0 h :: colon :: port :: tl)) as K.
  { unfold body_regex. fold rest_regex. cbn [regex_match]. rewrite (proj2 (allowed_true _ _) Al).
    rewrite (star_greedy _ _ h _ _ Hh Hb Em). reflexivity. }
  rewrite K in E. injection E as <-. exists (String c0 h), colon, port, rest, tl.
  split; [reflexivity|]. split; [reflexivity|]. split; [discriminate|]. simpl. auto 10.
Qed.

Lemma body_match_complete : forall host port rest, host <> "" -> avoids ["/"; " "; ":"]%char host -> avoids ["/"; " "]%char port ->
  avoids [" "]%char rest -> (rest = "" \/ exists p, rest = String "/" p) ->
  exists tl, regex_match body_regex (host ++ ":" ++ port ++ rest) = Some (host :: ":" :: port :: tl).
Proof.
  intros host port rest Hn Hh Hp Hr Hs. destruct (tail_matches rest Hr) as (tl & Et).
  assert (regex_match (Star ["/"; " "]%char :: tail_regex) (port ++ rest) = Some (port :: tl)) as E1.
  { apply star_item; [exact Hp| |exact Et]. destruct Hs as [->|(p & ->)]; [left; reflexivity|right; do 2 eexists; split; [reflexivity|simpl; auto]]. }
  pose proof (opt_take ":" _ _ _ E1) as E2.
  destruct host as [|c h]; [contradiction|]. simpl in Hh. destruct Hh as [Hc Hh]. exists tl.
  apply (plus_item ["/"; " "; ":"]%char _ c h (":" ++ port ++ rest)); [exact Hc|exact Hh| |exact E2].
  right. do 2 eexists. split; [reflexivity|simpl; auto].
Qed.

(** The whole expression. *)
Lemma url_match_unfold : forall s, regex_match url_regex s =
  match strip "ws" s with
  | Some s' => match match strip "://" s' with Some s2 => match regex_match body_regex s2 with Some c => Some ("://" :: c) | None => None end | None => None end with
               | Some c => Some ("ws" :: c)
               | None => match strip "wss" s with
                         | Some s' => match match strip "://" s' with Some s2 => match regex_match body_regex s2 with Some c => Some ("://" :: c) | None => None end | None => None end with
                                      | Some c => Some ("wss" :: c) | None => None end
                         | None => None end
               end
  | None => match strip "wss" s with
                         | Some s' => match match strip "://" s' with Some s2 => match regex_match body_regex s2 with Some c => Some ("://" :: c) | None => None end | None => None end with
                                      | Some c => Some ("wss" :: c) | None => None end
                         | None => None end
  end.
Proof. reflexivity. Qed.
Lemma url_match_sound : forall s p sc rest0, regex_match url_regex s = Some (p :: sc :: rest0) ->
  exists b, regex_match body_regex b = Some rest0 /\ s = p ++ "://" ++ b /\ (p = "ws" \/ p = "wss").
Proof.
  intros s p sc rest0 E. rewrite url_match_unfold in E.
  assert (forall q s', match match strip "://" s' with Some s2 => match regex_match body_regex s2 with Some c => Some ("://" :: c) | None => None end | None => None end with
               | Some c => Some (q :: c) | None => None end = Some (p :: sc :: rest0) -> p = q /\ exists b, regex_match body_regex b = Some rest0 /\ s' = "://" ++ b) as K.
  { intros q s' H. destruct (strip "://" s') as [s2|] eqn:E2; [|discriminate]. destruct (regex_match body_regex s2) as [c|] eqn:E3; [|discriminate].
    injection H as <- <- <-. split; [reflexivity|]. exists s2. split; [exact E3|]. apply strip_spec. exact E2. }
  assert (match strip "wss" s with
                         | Some s' => match match strip "://" s' with Some s2 => match regex_match body_regex s2 with Some c => Some ("://" :: c) | None => None end | None => None end with
                                      | Some c => Some ("wss" :: c) | None => None end
                         | None => None end = Some (p :: sc :: rest0) -> exists b, regex_match body_regex b = Some rest0 /\ s = p ++ "://" ++ b /\ (p = "ws" \/ p = "wss")) as K2.
  { intros H. destruct (strip "wss" s) as [s'|] eqn:E1; [|discriminate]. destruct (K _ _ H) as (-> & b & Hb & ->).
    exists b. split; [exact Hb|]. split; [|auto]. apply strip_spec in E1. exact E1. }
  destruct (strip "ws" s) as [s'|] eqn:E1; [|auto]. specialize (K "ws" s').
  destruct (match strip "://" s' with Some s2 => match regex_match body_regex s2 with Some c => Some ("://" :: c) | None => None end | None => None end) as [c|] eqn:E2; [|auto].
  destruct (K E) as (-> & b & Hb & ->). exists b. split; [exact Hb|]. split; [|auto]. apply strip_spec in E1. exact E1.
Qed.

(** ** C strings *)
Lemma c_str_id : forall s, avoids [NUL] s -> c_str s = s.
Proof.
  induction s as [|c s IH]; intros H; [reflexivity|]. simpl in *. destruct H as [Hc H].
  destruct (Ascii.eqb_spec c "000") as [->|_]; [exfalso; apply Hc; left; reflexivity|]. rewrite IH by exact H. reflexivity.
Qed.

(** ** Decimal numbers *)
Lemma digit_spec : forall c d, digit c = Some d <-> is_digit c d.
Proof.
  intros c d. unfold digit, is_digit. split.
  - destruct ((48 <=? nat_of_ascii c)%nat && (nat_of_ascii c <=? 57)%nat) eqn:E; [|discriminate]. intros [= <-].
    apply andb_true_iff in E. rewrite !Nat.leb_le in E. exists (nat_of_ascii c - 48)%nat. split; [lia|]. split; [|reflexivity].
    replace (48 + (nat_of_ascii c - 48))%nat with (nat_of_ascii c) by lia. symmetry. apply ascii_nat_embedding.
  - intros (n & Hn & -> & ->). rewrite nat_ascii_embedding by lia. 
    replace ((48 <=? 48 + n)%nat && (48 + n <=? 57)%nat) with true by (symmetry; apply andb_true_iff; rewrite !Nat.leb_le; lia).
    do 2 f_equal. lia.
Qed.
Definition no_digit_ahead (s : string) : Prop := match s with EmptyString => True | String c _ => digit c = None end.
Lemma decimal_digits : forall s v, decimal s v -> forall r, digits 0 (s ++ r) = digits v r.
Proof.
  intros s v D. induction D as [c d H|s v c d D IH H]; intros r.
  - simpl. rewrite (proj2 (digit_spec c d) H). reflexivity.
  - rewrite sapp_ass, IH. simpl. rewrite (proj2 (digit_spec c d) H). reflexivity.
Qed.
Lemma decimal_nonneg : forall s v, decimal s v -> (0 <= v)%Z.
Proof. intros s v D. induction D as [c d (n & _ & _ & ->)|s v c d D IH (n & _ & _ & ->)]; lia. Qed.
Lemma digits_spec : forall s acc pre, decimal pre acc -> exists ds junk, s = ds ++ junk /\ decimal (pre ++ ds) (digits acc s).
Proof.
  induction s as [|c s IH]; intros acc pre D; [exists "", ""; simpl; rewrite sapp_nil; auto|].
  simpl. destruct (digit c) as [d|] eqn:E.
  - apply digit_spec in E. destruct (IH (acc * 10 + d)%Z (pre ++ String c "")) as (ds & junk & -> & D2); [constructor; auto|].
    exists (String c ds), junk. split; [reflexivity|]. rewrite sapp_ass in D2. exact D2.
  - exists "", (String c s). simpl. rewrite sapp_nil. auto.
Qed.
Lemma digits0_spec : forall s, digits 0 s = 0%Z \/ exists ds junk, s = ds ++ junk /\ decimal ds (digits 0 s).
Proof.
  intros [|c s]; [left; reflexivity|]. simpl. destruct (digit c) as [d|] eqn:E; [right|left; reflexivity].
  apply digit_spec in E. destruct (digits_spec s d (String c "")) as (ds & junk & -> & D); [constructor; exact E|].
  exists (String c ds), junk. simpl in *. auto.
Qed.
Lemma decimal_first : forall s v, decimal s v -> exists c d r, s = String c r /\ is_digit c d.
Proof.
  intros s v D. induction D as [c d H|s v c d D (c1 & d1 & r & -> & H1) H]; [exists c, d, ""; auto|exists c1, d1, (r ++ String c ""); auto].
Qed.
Lemma is_digit_char : forall c d, is_digit c d -> is_space c = false /\ c <> "-"%char /\ c <> "+"%char.
Proof.
  intros c d (n & Hn & -> & _). do 10 (destruct n as [|n]; [repeat split; try reflexivity; discriminate|]). lia.
Qed.
Lemma atoi_decimal : forall s v r, decimal s v -> no_digit_ahead r -> (v < 2 ^ 31)%Z -> atoi (s ++ r) = Ok v.
Proof.
  intros s v r D Hr Hv. pose proof (decimal_nonneg s v D) as Hn. unfold atoi.
  assert (skip_spaces (s ++ r) = s ++ r) as ->.
  { destruct (decimal_first s v D) as (c & d & t & -> & H). simpl. rewrite (proj1 (is_digit_char c d H)). reflexivity. }
  assert (digits 0 (s ++ r) = v) as Ed. { rewrite (decimal_digits s v D r). destruct r as [|c r]; [reflexivity|]. simpl in *. rewrite Hr. reflexivity. }
  destruct (decimal_first s v D) as (c & d & t & -> & H). destruct (is_digit_char c d H) as (_ & N1 & N2).
  cbn [append] in *. rewrite (proj2 (Ascii.eqb_neq c "-") N1), (proj2 (Ascii.eqb_neq c "+") N2), Ed.
  replace ((v <? - 2 ^ 31)%Z || (2 ^ 31 <=? v)%Z) with false; [reflexivity|]. symmetry. apply orb_false_iff. rewrite Z.ltb_ge, Z.leb_gt. lia.
Qed.
(** What [atoi] read when it returned a positive number. *)
Lemma atoi_sound : forall s v, atoi s = Ok v -> (0 < v)%Z ->
  exists sp sign ds junk, s = sp ++ sign ++ ds ++ junk /\ (sign = "" \/ sign = "+") /\ decimal ds v /\
    (forall a c b, sp = a ++ String c b -> is_space c = true).
Proof.
  intros s v E Hv. unfold atoi in E.
  assert (exists sp, s = sp ++ skip_spaces s /\ (forall a c b, sp = a ++ String c b -> is_space c = true)) as (sp & Es & Hsp).
  { clear. induction s as [|c s (sp & Es & Hs)]; [exists ""; split; [reflexivity|intros [|? ?] ? ?; discriminate]|].
    simpl. destruct (is_space c) eqn:C.
    - exists (String c sp). split; [simpl; f_equal; exact Es|]. intros [|c' a] c1 b; simpl; intros [= <- Eb]; [exact C|]. eapply Hs. exact Eb.
    - exists "". split; [reflexivity|intros [|? ?] ? ?; discriminate]. }
  destruct (skip_spaces s) as [|c t] eqn:Et; [simpl in E; injection E as <-; lia|].
  assert (forall w, (if ((w <? - 2 ^ 31) || (2 ^ 31 <=? w))%Z then UB else Ok w) = Ok v -> w = v) as Kw.
  { intros w. destruct ((w <? - 2 ^ 31)%Z || (2 ^ 31 <=? w)%Z); [discriminate|intros [= ->]; reflexivity]. }
  apply Kw in E. destruct (Ascii.eqb_spec c "-") as [->|N1].
  - destruct (digits0_spec t) as [Z0|(ds & junk & _ & D)]; [lia|]. pose proof (decimal_nonneg _ _ D). lia.
  - destruct (Ascii.eqb_spec c "+") as [->|N2].
    + destruct (digits0_spec t) as [Z0|(ds & junk & -> & D)]; [lia|]. rewrite E in D.
      exists sp, "+", ds, junk. split; [exact Es|auto].
    + destruct (digits0_spec (String c t)) as [Z0|(ds & junk & Ej & D)]; [lia|]. rewrite E in D.
      exists sp, "", ds, junk. split; [rewrite Es, Ej at 1; reflexivity|auto].
Qed.

(** ** Suffixes *)
Lemma substring_suffix : forall b e, substring (String.length b) (String.length e) (b ++ e) = e.
Proof.
  induction b as [|c b IH]; intros e; simpl; [|apply IH]. induction e as [|c e IHe]; simpl; [reflexivity|]. rewrite IHe. reflexivity.
Qed.
Lemma substring_split : forall n (s : string), (n <= String.length s)%nat ->
  exists b, s = b ++ substring (String.length s - n) n s /\ String.length b = (String.length s - n)%nat.
Proof.
  intros n s. remember (String.length s - n)%nat as k eqn:Ek. revert n Ek. revert s. induction k as [|k IH]; intros s n Ek Hn.
  - exists "". split; [|reflexivity]. simpl. replace n with (String.length s) by lia. clear. induction s as [|c s IHs]; simpl; [reflexivity|]. f_equal. exact IHs.
  - destruct s as [|c s]; [cbn [String.length] in Ek; lia|]. cbn [String.length] in Ek, Hn. destruct (Nat.eq_dec n (S (String.length s))) as [->|Ne]; [lia|].
    destruct (IH s n) as (b & Eb & Lb); [lia|lia|]. exists (String c b). cbn [append substring String.length]. split; [f_equal; exact Eb|lia].
Qed.
Lemma if_ends_spec : forall f k ext res rest, String.length ext = k -> (Z.of_nat (String.length f) < 2 ^ 63)%Z -> (k < 10)%nat ->
  (String.length f < k)%nat /\ if_ends f (Z.of_nat k) ext res rest = Throw \/
  (k <= String.length f)%nat /\ ((ends_with f ext /\ if_ends f (Z.of_nat k) ext res rest = Ok res) \/
     (~ ends_with f ext /\ if_ends f (Z.of_nat k) ext res rest = rest)).
Proof.
  intros f k ext res rest Lx Hf Hk. unfold if_ends, substr, size_sub. destruct (Nat.lt_ge_cases (String.length f) k) as [H|H].
  - left. split; [exact H|].
    assert (((Z.of_nat (String.length f) - Z.of_nat k) mod 2 ^ 64 = 2 ^ 64 + (Z.of_nat (String.length f) - Z.of_nat k))%Z) as ->.
    { rewrite <- (Z_mod_plus_full _ 1). rewrite Z.mod_small; lia. }
    replace (Z.of_nat (String.length f) <? 2 ^ 64 + (Z.of_nat (String.length f) - Z.of_nat k))%Z with true; [reflexivity|]. symmetry. apply Z.ltb_lt. lia.
  - right. split; [exact H|]. rewrite Z.mod_small by lia.
    replace (Z.of_nat (String.length f) <? Z.of_nat (String.length f) - Z.of_nat k)%Z with false by (symmetry; apply Z.ltb_ge; lia).
    cbn [bindO]. rewrite <- Nat2Z.inj_sub by exact H. rewrite !Nat2Z.id.
    destruct (substring_split k f H) as (b & Eb & Lb). destruct (String.eqb_spec (substring (String.length f - k) k f) ext) as [E|E].
    + left. split; [|reflexivity]. exists b. rewrite <- E. exact Eb.
    + right. split; [|reflexivity]. intros (b' & Ef). apply E. rewrite Ef, slen_app, Lx.
      replace (String.length b' + k - k)%nat with (String.length b') by lia. rewrite <- Lx. apply substring_suffix.
Qed.
