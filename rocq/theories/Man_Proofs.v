(** The grammar of the maneuvering expressions recognises the usual texts. *)
From Coq Require Import Reals List Bool String Ascii ZArith Lra Lia.
From Verif Require Import Common Man_Model Man_Spec.
Import ListNotations.
Open Scope R_scope.

(** ** Characters *)
Lemma blank_iff : forall c, is_blank c = true <-> blank c.
Proof.
  intros c. unfold is_blank, blank. rewrite orb_true_iff, !Ascii.eqb_eq. tauto.
Qed.
Lemma decimal_digit : forall c d, decimal c d -> is_digit c = true /\ digit c = Z.of_nat d.
Proof.
  intros c d [H ->]. unfold is_digit, between, digit. rewrite nat_ascii_embedding by lia. change (nat_of_ascii "0") with 48%nat. change (nat_of_ascii "9") with 57%nat.
  split; [apply andb_true_iff; split; apply Nat.leb_le; lia|]. f_equal. lia.
Qed.
Lemma letter_alpha : forall c, letter c -> is_alpha c = true.
Proof.
  intros c (k & H & [-> | ->]); unfold is_alpha, between; rewrite nat_ascii_embedding by lia;
    change (nat_of_ascii "a") with 97%nat; change (nat_of_ascii "z") with 122%nat; change (nat_of_ascii "A") with 65%nat; change (nat_of_ascii "Z") with 90%nat;
    apply orb_true_iff; [left|right]; apply andb_true_iff; split; apply Nat.leb_le; lia.
Qed.
(** The classes of characters are distinct (checked on the 256 characters) *)
Definition all_ascii : list ascii := map ascii_of_nat (seq 0 256).
Lemma all_ascii_in : forall c, In c all_ascii.
Proof. intros c. unfold all_ascii. apply in_map_iff. exists (nat_of_ascii c). split; [apply ascii_nat_embedding|]. apply in_seq. pose proof (nat_ascii_bounded c). lia. Qed.
Lemma ascii_forall : forall (f : ascii -> bool), forallb f all_ascii = true -> forall c, f c = true.
Proof. intros f H c. rewrite forallb_forall in H. apply H, all_ascii_in. Qed.
Definition closing : list ascii := ["+"; "-"; "*"; "/"; "^"; ")"]%char.
Lemma closing_facts : forall c, In c closing -> is_blank c = false /\ is_word c = false /\ is_alpha c = false /\ is_digit c = false /\ Ascii.eqb c "." = false /\ Ascii.eqb c "(" = false /\ Ascii.eqb "(" c = false.
Proof. intros c H. repeat (destruct H as [<-|H]; [repeat split; reflexivity|]). destruct H. Qed.
Lemma word_not_blank : forall c, is_word c = true -> is_blank c = false.
Proof. intros c H. pose proof (ascii_forall (fun c => implb (is_word c) (negb (is_blank c))) ltac:(vm_compute; reflexivity) c) as F. cbv beta in F. rewrite H in F. now destruct (is_blank c). Qed.
Lemma alpha_facts : forall c, is_alpha c = true -> is_word c = true /\ is_blank c = false /\ char_is "(" c = false.
Proof.
  intros c H. assert (is_word c = true) as W by (unfold is_word; rewrite H; reflexivity). split; [exact W|]. split; [apply word_not_blank; exact W|].
  pose proof (ascii_forall (fun c => implb (is_alpha c) (negb (char_is "(" c))) ltac:(vm_compute; reflexivity) c) as F. cbv beta in F. rewrite H in F. now destruct (char_is "(" c).
Qed.
Lemma digit_facts : forall c, is_digit c = true -> is_word c = true /\ is_blank c = false /\ char_is "(" c = false /\ is_alpha c = false /\ Ascii.eqb c "-" = false /\ Ascii.eqb c "+" = false /\ Ascii.eqb c "." = false /\ Ascii.eqb c "e" = false /\ Ascii.eqb c "E" = false.
Proof.
  intros c H.
  pose proof (ascii_forall (fun c => implb (is_digit c) (is_word c && negb (is_blank c) && negb (char_is "(" c) && negb (is_alpha c) && negb (Ascii.eqb c "-") && negb (Ascii.eqb c "+") && negb (Ascii.eqb c ".") && negb (Ascii.eqb c "e") && negb (Ascii.eqb c "E"))) ltac:(vm_compute; reflexivity) c) as F.
  cbv beta in F. rewrite H in F. cbn [implb] in F. repeat (apply andb_true_iff in F; destruct F as [F ?]). repeat match goal with Hx : negb ?b = true |- _ => apply negb_true_iff in Hx end. repeat split; assumption.
Qed.

(** ** Blanks *)
Lemma skip_blanks : forall b s, blanks b -> skip (b ++ s) = skip s.
Proof. intros b s H. induction H as [|c b Hc H IH]; [reflexivity|]. cbn [app skip]. apply blank_iff in Hc. rewrite Hc. exact IH. Qed.
Lemma skip_idem : forall s, skip (skip s) = skip s.
Proof. induction s as [|c s IH]; [reflexivity|]. cbn [skip]. destruct (is_blank c) eqn:E; [exact IH|]. cbn [skip]. rewrite E. reflexivity. Qed.
Lemma skip_nonblank : forall c s, is_blank c = false -> skip (c :: s) = c :: s.
Proof. intros c s H. cbn [skip]. rewrite H. reflexivity. Qed.
Lemma lit_blanks : forall p b s, blanks b -> lit p (b ++ s) = lit p s.
Proof. intros. unfold lit. rewrite skip_blanks by assumption. reflexivity. Qed.
Lemma lit_hit : forall p c s, is_blank c = false -> p c = true -> lit p (c :: s) = Some (c, s).
Proof. intros p c s H1 H2. unfold lit. rewrite skip_nonblank by exact H1. rewrite H2. reflexivity. Qed.
Lemma lit_miss : forall p c s, is_blank c = false -> p c = false -> lit p (c :: s) = None.
Proof. intros p c s H1 H2. unfold lit. rewrite skip_nonblank by exact H1. rewrite H2. reflexivity. Qed.
Lemma identifier_blanks : forall b s, blanks b -> identifier (b ++ s) = identifier s.
Proof. intros. unfold identifier. rewrite lit_blanks by assumption. reflexivity. Qed.
Lemma double_blanks : forall b s, blanks b -> double_ (b ++ s) = double_ s.
Proof. intros. unfold double_. rewrite skip_blanks by assumption. reflexivity. Qed.
Lemma parenthesised_blanks : forall pe b s, blanks b -> parenthesised pe (b ++ s) = parenthesised pe s.
Proof. intros. unfold parenthesised. rewrite lit_blanks by assumption. reflexivity. Qed.
Lemma base_blanks : forall pe b s, blanks b -> base_ pe (b ++ s) = base_ pe s.
Proof. intros. unfold base_, atom_, function_call. rewrite parenthesised_blanks, identifier_blanks, double_blanks by assumption. reflexivity. Qed.

(** What may follow a text *)
Definition follows (l : list ascii) (r : text) : Prop := match skip r with [] => True | c :: _ => In c l end.
Lemma follows_blanks : forall l b r, blanks b -> follows l r -> follows l (b ++ r).
Proof. intros l b r Hb H. unfold follows. rewrite skip_blanks by exact Hb. exact H. Qed.
Lemma follows_head : forall l c r, is_blank c = false -> In c l -> follows l (c :: r).
Proof. intros l c r Hb H. unfold follows. rewrite skip_nonblank by exact Hb. exact H. Qed.
Lemma follows_incl : forall l l' r, incl l l' -> follows l r -> follows l' r.
Proof. intros l l' r Hi H. unfold follows in *. destruct (skip r); auto. Qed.
Lemma follows_lit : forall l p r, follows l r -> (forall c, In c l -> p c = false) -> lit p r = None.
Proof. intros l p r H Hp. unfold follows, lit in *. destruct (skip r) as [|c r']; [reflexivity|]. rewrite Hp by exact H. reflexivity. Qed.
Lemma follows_first : forall l c r, follows l (c :: r) -> is_blank c = true \/ In c l.
Proof. intros l c r H. unfold follows in H. cbn [skip] in H. destruct (is_blank c); [left; reflexivity|right; exact H]. Qed.

(** ** Numbers *)
Lemma integer_digits : forall s z, integer s z -> Forall (fun c => is_digit c = true) s /\ number s = z.
Proof.
  intros s z H. induction H as [|s z c d H [IH1 IH2] Hd]; [split; [constructor|reflexivity]|]. apply decimal_digit in Hd. destruct Hd as [D1 D2].
  split; [apply Forall_app; split; [exact IH1|constructor; [exact D1|constructor]]|]. unfold number in *. rewrite fold_left_app. cbn [fold_left]. rewrite IH2, D2. reflexivity.
Qed.
Lemma digits_app : forall s r, Forall (fun c => is_digit c = true) s -> match r with [] => True | c :: _ => is_digit c = false end -> digits (s ++ r) = (s, r).
Proof.
  intros s r H Hr. induction H as [|c s Hc H IH]; cbn [app digits].
  - destruct r as [|c r]; [reflexivity|]. cbn [digits]. rewrite Hr. reflexivity.
  - rewrite Hc, IH. reflexivity.
Qed.
Lemma number_acc : forall l a, fold_left (fun n c => 10 * n + digit c)%Z l a = (a * 10 ^ Z.of_nat (List.length l) + number l)%Z.
Proof.
  intros l. unfold number. induction l as [|c l IH]; intros a; [cbn; lia|]. cbn [fold_left]. rewrite IH, (IH (10 * 0 + digit c)%Z).
  change (List.length (c :: l)) with (S (List.length l)). rewrite Nat2Z.inj_succ, Z.pow_succ_r by lia. ring.
Qed.
Lemma number_app : forall a b, number (a ++ b) = (number a * 10 ^ Z.of_nat (List.length b) + number b)%Z.
Proof. intros. unfold number at 1. rewrite fold_left_app. apply number_acc. Qed.
Lemma powerRZ_10_pos : forall n : nat, IZR (10 ^ Z.of_nat n) = 10 ^ n.
Proof. intros n. rewrite <- pow_IZR. reflexivity. Qed.

(** the text after a number: no digit, point or "e" *)
Definition after_number (r : text) : Prop := match r with [] => True | c :: _ => is_digit c = false /\ Ascii.eqb c "." = false /\ Ascii.eqb c "e" = false /\ Ascii.eqb c "E" = false end.
Lemma follows_after_number : forall l r, incl l closing -> follows l r -> after_number r.
Proof.
  intros l r Hl H. destruct r as [|c r]; [exact I|]. apply follows_first in H. destruct H as [H|H].
  - apply blank_iff in H. destruct H as [-> | ->]; repeat split; reflexivity.
  - apply Hl in H. repeat (destruct H as [<-|H]; [repeat split; reflexivity|]). destruct H.
Qed.
(** a mantissa: its digits, the number of decimals *)
Lemma mantissa_shape : forall s x, mantissa s x -> exists ip fp dot, (dot = [] /\ fp = [] \/ dot = ["."%char]) /\ s = ip ++ dot ++ fp /\ ip ++ fp <> [] /\
  Forall (fun c => is_digit c = true) ip /\ Forall (fun c => is_digit c = true) fp /\ x = IZR (number (ip ++ fp)) * / 10 ^ List.length fp.
Proof.
  intros s x H. destruct H as [s z NE H|s f z z' NE H H'].
  - destruct (integer_digits _ _ H) as [F E]. exists s, [], []. rewrite !app_nil_r. split; [left; split; reflexivity|]. repeat split; try assumption; [constructor|]. rewrite E. cbn. field.
  - destruct (integer_digits _ _ H) as [F E]. destruct (integer_digits _ _ H') as [F' E']. exists s, f, ["."%char]. split; [right; reflexivity|]. repeat split; try assumption.
    rewrite number_app, E, E', plus_IZR, mult_IZR, powerRZ_10_pos. field. apply pow_nonzero. lra.
Qed.
Lemma exponent_none : forall r, after_number r -> exponent_part r = (0%Z, r).
Proof. intros [|c r] H; [reflexivity|]. destruct H as (_ & _ & H1 & H2). unfold exponent_part. rewrite H1, H2. reflexivity. Qed.
Lemma after_digit : forall r, after_number r -> match r with [] => True | c :: _ => is_digit c = false end.
Proof. intros [|c r] H; [exact I|]. apply H. Qed.
Lemma nonempty_match : forall (A B : Type) (l : list A) (x y : B), l <> [] -> match l with [] => x | _ => y end = y.
Proof. intros A B [|a l] x y H; [congruence|reflexivity]. Qed.
Lemma exponent_some : forall c sg n e r, c = "e"%char \/ c = "E"%char -> sg = [] \/ sg = ["+"%char] -> n <> [] -> integer n e -> after_number r -> exponent_part (c :: sg ++ n ++ r) = (e, r).
Proof.
  intros c sg n e r Hc Hs NE Hn Hr. destruct (integer_digits _ _ Hn) as [F E]. unfold exponent_part. replace (Ascii.eqb c "e" || Ascii.eqb c "E") with true by (destruct Hc as [-> | ->]; reflexivity).
  assert (sign (sg ++ n ++ r) = (false, n ++ r)) as ->.
  { destruct Hs as [-> | ->]; [|reflexivity]. destruct n as [|d n]; [congruence|]. inversion F as [|? ? Hd]; subst. destruct (digit_facts d Hd) as (_ & _ & _ & _ & H1 & H2 & _). cbn [app sign]. rewrite H1, H2. reflexivity. }
  rewrite digits_app by (exact F || apply after_digit; exact Hr). destruct n; [congruence|]. rewrite E. reflexivity.
Qed.
Lemma exponent_neg : forall c n e r, c = "e"%char \/ c = "E"%char -> n <> [] -> integer n e -> after_number r -> exponent_part (c :: "-"%char :: n ++ r) = ((- e)%Z, r).
Proof.
  intros c n e r Hc NE Hn Hr. destruct (integer_digits _ _ Hn) as [F E]. unfold exponent_part. replace (Ascii.eqb c "e" || Ascii.eqb c "E") with true by (destruct Hc as [-> | ->]; reflexivity).
  cbn [sign]. change (Ascii.eqb "-" "-") with true. cbv iota. rewrite digits_app by (exact F || apply after_digit; exact Hr). destruct n; [congruence|]. rewrite E. reflexivity.
Qed.
Lemma unsigned_shape : forall s x, unsigned_number s x -> exists m ex y q, mantissa m y /\ s = m ++ ex /\ x = y * powerRZ 10 q /\
  forall r, after_number r -> exponent_part (ex ++ r) = (q, r) /\ (ex ++ r = [] \/ exists c t, ex ++ r = c :: t /\ is_digit c = false /\ Ascii.eqb c "." = false).
Proof.
  intros s x H. assert (forall c, c = "e"%char \/ c = "E"%char -> is_digit c = false /\ Ascii.eqb c "." = false) as EE by (intros c [-> | ->]; split; reflexivity).
  destruct H as [s x H|s x e n c sg H Hc Hs NE Hn|s x e n c H Hc NE Hn].
  - exists s, [], x, 0%Z. split; [exact H|]. rewrite app_nil_r. split; [reflexivity|]. split; [cbn; ring|]. intros r Hr. split; [apply exponent_none; exact Hr|].
    destruct r as [|c r]; [left; reflexivity|right]. exists c, r. split; [reflexivity|]. split; apply Hr.
  - exists s, (c :: sg ++ n), x, e. repeat split; auto.
    + cbn [app]. rewrite <- app_assoc. apply exponent_some; assumption.
    + right. exists c, (sg ++ n ++ r). split; [cbn [app]; rewrite <- app_assoc; reflexivity|]. apply EE. exact Hc.
  - exists s, (c :: "-"%char :: n), x, (- e)%Z. repeat split; auto.
    + apply exponent_neg; assumption.
    + right. exists c, ("-"%char :: n ++ r). split; [reflexivity|]. apply EE. exact Hc.
Qed.
(** qi::double_ without its sign *)
Definition unsigned_ (neg : bool) (s1 : text) : option (R * text) :=
  let (ip, s2) := digits s1 in
  match s2 with
  | c :: s3 => if Ascii.eqb c "." then
                 let (fp, s4) := digits s3 in
                 match ip, fp with
                 | [], [] => None
                 | _, _ => let (ex, s5) := exponent_part s4 in Some (scaled neg (ip ++ fp) (ex - Z.of_nat (List.length fp)), s5)
                 end
               else match ip with [] => None | _ => let (ex, s5) := exponent_part s2 in Some (scaled neg ip ex, s5) end
  | [] => match ip with [] => None | _ => Some (scaled neg ip 0, []) end
  end.
Lemma double_sign : forall s, double_ s = let (neg, s1) := sign (skip s) in unsigned_ neg s1.
Proof. reflexivity. Qed.
Lemma unsigned_spec : forall s x neg r, unsigned_number s x -> after_number r -> unsigned_ neg (s ++ r) = Some (if neg then - x else x, r).
Proof.
  intros s x neg r H Hr. destruct (unsigned_shape _ _ H) as (m & ex & y & q & Hm & -> & -> & Hx). destruct (Hx r Hr) as [X1 X2]. clear Hx H.
  destruct (mantissa_shape _ _ Hm) as (ip & fp & dot & Hd & -> & NE & F1 & F2 & ->). clear Hm.
  assert (forall n (l : list ascii) , scaled neg l (q - Z.of_nat n) = if neg then - (IZR (number l) * / 10 ^ n * powerRZ 10 q) else IZR (number l) * / 10 ^ n * powerRZ 10 q) as SC.
  { intros n l. unfold scaled. replace (q - Z.of_nat n)%Z with (q + - Z.of_nat n)%Z by ring. rewrite powerRZ_add by lra. rewrite powerRZ_neg'. rewrite <- pow_powerRZ. destruct neg; ring. }
  unfold unsigned_. rewrite <- !app_assoc. destruct Hd as [[-> ->]| ->].
  - cbn [app]. rewrite app_nil_r in *. rewrite digits_app; [|exact F1|destruct X2 as [->|(c & t & -> & D & _)]; [exact I|exact D]]. specialize (SC 0%nat ip). cbn [pow Z.of_nat List.length] in *. rewrite Z.sub_0_r in SC.
    destruct X2 as [E|(c & t & E & D & P)]; rewrite E in *.
    + rewrite nonempty_match by exact NE. cbn in X1. injection X1 as <- <-. rewrite SC. reflexivity.
    + rewrite P, nonempty_match by exact NE. rewrite X1, SC. reflexivity.
  - rewrite digits_app; [|exact F1|reflexivity]. cbn [app]. change (Ascii.eqb "." ".") with true. cbv iota.
    rewrite digits_app; [|exact F2|destruct X2 as [->|(c & t & -> & D & _)]; [exact I|exact D]]. rewrite X1, SC. destruct ip; [destruct fp; [exfalso; apply NE; reflexivity|reflexivity]|reflexivity].
Qed.
Lemma mantissa_head : forall s x, mantissa s x -> exists c t, s = c :: t /\ (is_digit c = true \/ c = "."%char).
Proof.
  intros s x H. destruct (mantissa_shape _ _ H) as (ip & fp & dot & Hd & -> & NE & F1 & F2 & _). destruct ip as [|c ip].
  - destruct Hd as [[-> ->]| ->]; [exfalso; apply NE; reflexivity|]. exists "."%char, fp. split; [reflexivity|right; reflexivity].
  - exists c, (ip ++ dot ++ fp). split; [reflexivity|left]. inversion F1; assumption.
Qed.
Lemma number_head : forall s x, unsigned_number s x -> exists c t, s = c :: t /\ is_blank c = false /\ char_is "(" c = false /\ is_alpha c = false /\ Ascii.eqb c "-" = false /\ Ascii.eqb c "+" = false.
Proof.
  intros s x H. assert (exists c t, s = c :: t /\ (is_digit c = true \/ c = "."%char)) as (c & t & -> & Hc).
  { destruct H as [s x H|s x e n c sg H Hc Hs NE Hn|s x e n c H Hc NE Hn]; destruct (mantissa_head _ _ H) as (c0 & t & -> & D); eexists; eexists; (split; [reflexivity|exact D]). }
  exists c, t. split; [reflexivity|]. destruct Hc as [Hc| ->]; [|repeat split; reflexivity]. destruct (digit_facts c Hc) as (_ & H1 & H2 & H3 & H4 & H5 & _). repeat split; assumption.
Qed.

(** ** Identifiers *)
Lemma many_word : forall l n r, Forall (fun c => is_word c = true) l -> lit is_word r = None -> (List.length l <= n)%nat -> many n (lit is_word) (l ++ r) = (l, r).
Proof.
  intros l. induction l as [|c l IH]; intros n r F Hr Hn; cbn [app].
  - destruct n; cbn [many]; [reflexivity|]. rewrite Hr. reflexivity.
  - inversion F; subst. destruct n as [|n]; [cbn in Hn; lia|]. cbn [many]. rewrite lit_hit by (assumption || apply word_not_blank; assumption). rewrite IH; [reflexivity|assumption|assumption|cbn in Hn; lia].
Qed.
Lemma identifier_spec : forall s r l, name s -> incl l closing -> follows l r -> identifier (s ++ r) = Some (s, r).
Proof.
  intros [|c s] r l H Hl Hr; [destruct H|]. destruct H as [H1 H2]. apply letter_alpha in H1. destruct (alpha_facts c H1) as (W & B & _). unfold identifier. cbn [app]. rewrite lit_hit by assumption.
  rewrite many_word; [reflexivity| | |rewrite app_length; lia].
  - eapply Forall_impl; [|exact H2]. intros d [Hd|[[k Hd]| ->]]; [apply letter_alpha in Hd; apply alpha_facts in Hd; apply Hd|apply decimal_digit in Hd; destruct Hd as [Hd _]; apply digit_facts in Hd; apply Hd|reflexivity].
  - apply follows_lit with (l := l); [exact Hr|]. intros d Hd. apply closing_facts. apply Hl. exact Hd.
Qed.
Lemma identifier_paren : forall s b r, name s -> blanks b -> identifier (s ++ b ++ "("%char :: r) = Some (s, b ++ "("%char :: r).
Proof.
  intros [|c s] b r H Hb; [destruct H|]. destruct H as [H1 H2]. apply letter_alpha in H1. destruct (alpha_facts c H1) as (W & B & _). unfold identifier. cbn [app]. rewrite lit_hit by assumption.
  rewrite many_word; [reflexivity| | |rewrite app_length; lia].
  - eapply Forall_impl; [|exact H2]. intros d [Hd|[[k Hd]| ->]]; [apply letter_alpha in Hd; apply alpha_facts in Hd; apply Hd|apply decimal_digit in Hd; destruct Hd as [Hd _]; apply digit_facts in Hd; apply Hd|reflexivity].
  - rewrite lit_blanks by exact Hb. apply lit_miss; reflexivity.
Qed.

(** ** Expressions *)
Definition binary_of (o : operator) : binary := match o with Plus => Sum | Minus => Difference | Times => Multiply | Over => Divide | Power => Pow end.
Definition known_function (f : text) : Prop := find (fun g => text_eqb (fst g) f) functions <> None.
Fixpoint known (e : exp) : Prop :=
  match e with Num _ | Var _ => True | Man_Spec.Call f a => (known_function f \/ exists c, a = Var c) /\ known a | Bin _ a b => known a /\ known b end.
Fixpoint comp (e : exp) : node :=
  match e with
  | Num x => Constant x
  | Var n => if text_eqb n (str "t") then Time else UnknownIdentifier n
  | Man_Spec.Call f a => call f (match a with Var c => f ++ par c | _ => [] end) (comp a)
  | Bin o a b => Binary (binary_of o) (comp a) (comp b)
  end.
Lemma call_known : forall f p p' a, known_function f -> call f p a = call f p' a.
Proof. intros f p p' a H. unfold known_function, call in *. destruct (find _ functions); [reflexivity|congruence]. Qed.

Section Grammar.
  Variable fmt : R -> text.
  Lemma eval_expr_eq : forall t l, eval_expr fmt (Expr t l) = fold_left (fun ret o => operation (fst o) ret (eval_term fmt (snd o))) l (eval_term fmt t). Proof. reflexivity. Qed.
  Lemma eval_term_eq : forall f l, eval_term fmt (Term f l) = fold_left (fun ret o => operation (fst o) ret (eval_factor fmt (snd o))) l (eval_factor fmt f). Proof. reflexivity. Qed.
  Lemma eval_factor_eq : forall b l, eval_factor fmt (Factor b l) = fold_left (fun ret e => Binary Pow ret (eval_base fmt e)) l (eval_base fmt b). Proof. reflexivity. Qed.
  (** An expression that has been read: the operators are those of the grammar. *)
  Definition proper (c : ascii) : Prop := In c ["+"; "-"; "*"; "/"]%char.
  Fixpoint fine_expr (e : expr) : Prop := match e with Expr t l => Forall (fun o => proper (fst o)) l /\ fine_term t end
  with fine_term (e : term) : Prop := match e with Term t l => Forall (fun o => proper (fst o)) l /\ fine_factor t end
  with fine_factor (e : factor) : Prop := match e with Factor b _ => fine_base b end
  with fine_base (e : base) : Prop := match e with BExpr e => fine_expr e | _ => True end.
  Lemma many_operators : forall (A : Type) (ops : ascii -> bool) (q : parser A) n s bs r, many n (operator_and ops q) s = (bs, r) -> Forall (fun b => ops (fst b) = true) bs.
  Proof.
    intros A ops q. induction n as [|n IH]; intros s bs r H; cbn [many] in H; [injection H as <- _; constructor|].
    destruct (operator_and ops q s) as [[b s']|] eqn:O; [|injection H as <- _; constructor]. destruct (many n (operator_and ops q) s') as [l r'] eqn:M. injection H as <- _.
    apply Forall_cons; [|eapply IH; exact M]. unfold operator_and, lit in O. destruct (skip s) as [|c s1]; [discriminate|]. destruct (ops c) eqn:E; [|discriminate]. destruct (q s1) as [[a r1]|]; [|discriminate].
    injection O as <- _. exact E.
  Qed.
  Lemma read_list : forall (A B : Type) (p : parser A) ops (q : parser B) s a l r (P : A -> Prop), (forall s x r, p s = Some (x, r) -> P x) -> list_of p ops q s = Some ((a, l), r) -> P a /\ Forall (fun b => ops (fst b) = true) l.
  Proof.
    intros A B p ops q s a l r P HP H. unfold list_of in H. destruct (p s) as [[x s']|] eqn:E; [|discriminate]. destruct (many _ _ s') as [l' r'] eqn:M. injection H as <- <- _.
    split; [eapply HP; exact E|eapply many_operators; exact M].
  Qed.
  Lemma proper_mul : forall c, mul_operators c = true -> proper c.
  Proof. intros c H. unfold mul_operators, char_is in H. apply orb_prop in H as [H|H]; apply Ascii.eqb_eq in H; subst; unfold proper; cbn; tauto. Qed.
  Lemma proper_add : forall c, add_operators c = true -> proper c.
  Proof. intros c H. unfold add_operators, char_is in H. apply orb_prop in H as [H|H]; apply Ascii.eqb_eq in H; subst; unfold proper; cbn; tauto. Qed.
  Lemma expr_fine : forall depth s x r, expr_ depth s = Some (x, r) -> fine_expr x.
  Proof.
    induction depth as [|depth IH]; intros s x r H; cbn [expr_] in H; [discriminate|].
    assert (HB : forall s x r, base_ (expr_ depth) s = Some (x, r) -> fine_base x).
    { intros s1 x1 r1 H1. unfold base_ in H1. destruct (parenthesised (expr_ depth) s1) as [[e r2]|] eqn:E.
      - injection H1 as <- _. unfold parenthesised in E. destruct (lit _ s1) as [[c s2]|]; [|discriminate]. destruct (expr_ depth s2) as [[e' r3]|] eqn:E2; [|discriminate]. destruct (lit _ r3) as [[c' r4]|]; [|discriminate].
        injection E as <- _. exact (IH _ _ _ E2).
      - destruct (atom_ _ s1) as [[a r2]|]; [|discriminate]. injection H1 as <- _. exact I. }
    assert (HF : forall s x r, factor_ (expr_ depth) s = Some (x, r) -> fine_factor x).
    { intros s1 x1 r1 H1. unfold factor_ in H1. destruct (list_of _ _ _ s1) as [[[b l] r2]|] eqn:E; [|discriminate]. injection H1 as <- _. apply (read_list _ _ _ _ _ _ _ _ _ fine_base HB) in E as (E & _). exact E. }
    assert (HT : forall s x r, term_ (expr_ depth) s = Some (x, r) -> fine_term x).
    { intros s1 x1 r1 H1. unfold term_ in H1. destruct (list_of _ _ _ s1) as [[[b l] r2]|] eqn:E; [|discriminate]. injection H1 as <- _. apply (read_list _ _ _ _ _ _ _ _ _ fine_factor HF) in E as (E & F).
      split; [|exact E]. eapply Forall_impl; [|exact F]. intros b'. apply proper_mul. }
    destruct (list_of _ _ _ s) as [[[b l] r2]|] eqn:E; [|discriminate]. injection H as <- _. apply (read_list _ _ _ _ _ _ _ _ _ fine_term HT) in E as (E & F).
    split; [|exact E]. eapply Forall_impl; [|exact F]. intros b'. apply proper_add.
  Qed.
  (** When its value is a variable, it is printed as the name of this variable. *)
  Definition is_named (n : node) (s : text) : Prop := match n with UnknownIdentifier k => s = k | Time => s = str "t" | _ => True end.
  Lemma fold_last : forall (A : Type) (g : node -> A -> node) (ok : A -> Prop) l n, (forall x y s, ok y -> is_named (g x y) s) -> l <> [] -> Forall ok l -> forall s, is_named (fold_left g l n) s.
  Proof. intros A g ok l n H Hl F s. destruct (exists_last Hl) as (l' & y & ->). rewrite fold_left_app. apply H. apply Forall_app in F as (_ & F). inversion F; assumption. Qed.
  Lemma operation_named : forall c a b s, proper c -> is_named (operation c a b) s.
  Proof. intros c a b s H. unfold proper in H. cbn [In] in H. repeat (destruct H as [<-|H]; [exact I|]). destruct H. Qed.
  Fixpoint print_named_expr (e : expr) : fine_expr e -> is_named (eval_expr fmt e) (print_expr fmt e)
  with print_named_term (e : term) : fine_term e -> is_named (eval_term fmt e) (print_term fmt e)
  with print_named_factor (e : factor) : fine_factor e -> is_named (eval_factor fmt e) (print_factor fmt e)
  with print_named_base (e : base) : fine_base e -> is_named (eval_base fmt e) (print_base fmt e)
  with print_named_atom (e : atom) : is_named (eval_atom fmt e) (print_atom fmt e).
  Proof.
    - destruct e as [t [|o l]]; intros (F & G); [exact (print_named_term t G)|]. rewrite eval_expr_eq. eapply fold_last; [|discriminate|exact F]. intros. apply operation_named. assumption.
    - destruct e as [t [|o l]]; intros (F & G); [exact (print_named_factor t G)|]. rewrite eval_term_eq. eapply fold_last; [|discriminate|exact F]. intros. apply operation_named. assumption.
    - destruct e as [t [|o l]]; intros G; [exact (print_named_base t G)|]. rewrite eval_factor_eq. apply (fold_last _ _ (fun _ => True)); [intros; exact I|discriminate|apply Forall_forall; intros; exact I].
    - destruct e as [|e|a]; intros G; [exact I|exact (print_named_expr e G)|exact (print_named_atom a)].
    - destruct e as [x|n|f e]; [exact I| |].
      + cbn [eval_atom print_atom]. destruct (text_eqb n (str "t")) eqn:E; [|reflexivity]. unfold text_eqb in E. destruct (list_eq_dec ascii_dec n (str "t")); [assumption|discriminate].
      + change (is_named (call f (f ++ par (print_expr fmt e)) (eval_expr fmt e)) (f ++ par (print_expr fmt e))). unfold call. destruct (find _ functions) as [g|] eqn:F; [|reflexivity].
        apply find_some in F as (H & _). unfold functions in H. cbn [In] in H. repeat (destruct H as [<-|H]; [exact I|]). destruct H.
  Qed.
  Lemma print_variable : forall e c, fine_expr e -> eval_expr fmt e = comp (Var c) -> print_expr fmt e = c.
  Proof.
    intros e c G H. pose proof (print_named_expr e G) as N. rewrite H in N. cbn [comp] in N. destruct (text_eqb c (str "t")) eqn:E; [|exact N].
    unfold text_eqb in E. destruct (list_eq_dec ascii_dec c (str "t")) as [->|]; [exact N|discriminate].
  Qed.
  (** what is expected of the parser of the expressions in parentheses *)
  Definition parses_sums (pe : parser expr) (size : nat) : Prop := forall s e, sum_text s e -> (List.length s < size)%nat -> known e ->
    forall r, follows [")"%char] r -> exists x, pe (s ++ r) = Some (x, r) /\ eval_expr fmt x = comp e /\ fine_expr x.
  Lemma parenthesised_spec : forall pe size s e b r, parses_sums pe size -> sum_text s e -> (List.length s < size)%nat -> known e -> blanks b ->
    exists x, parenthesised pe ("("%char :: s ++ b ++ ")"%char :: r) = Some (x, r) /\ eval_expr fmt x = comp e /\ fine_expr x.
  Proof.
    intros pe size s e b r HP Hs Hl Hk Hb. destruct (HP s e Hs Hl Hk (b ++ ")"%char :: r)) as (x & E & Hx).
    { apply follows_blanks; [exact Hb|]. apply follows_head; [reflexivity|left; reflexivity]. }
    exists x. split; [|exact Hx]. unfold parenthesised. rewrite lit_hit by reflexivity. rewrite E. rewrite lit_blanks by exact Hb. rewrite lit_hit by reflexivity. reflexivity.
  Qed.
  Lemma operand_spec : forall pe size s e r, parses_sums pe size -> operand_text s e -> (List.length s <= size)%nat -> known e -> follows closing r ->
    exists b, base_ pe (s ++ r) = Some (b, r) /\ eval_base fmt b = comp e.
  Proof.
    intros pe size s e r HP H Hl Hk Hr. destruct H as [b s x Hb Hs|b s Hb Hs|b f b' s e b'' Hb Hf Hb' Hs Hb''|b s e b' Hb Hs Hb'].
    - rewrite <- app_assoc, base_blanks by exact Hb. exists (BAtom (ANum x)). split; [|reflexivity].
      destruct (number_head s x Hs) as (c & t & E & N1 & N2 & N3 & N4 & N5). unfold base_, atom_, function_call, parenthesised, identifier. rewrite E. cbn [app]. rewrite !lit_miss by assumption.
      rewrite double_sign, skip_nonblank by exact N1. unfold sign. rewrite N4, N5. change (c :: t ++ r) with ((c :: t) ++ r). rewrite <- E.
      rewrite (unsigned_spec s x false r) by (exact Hs || (apply follows_after_number with (l := closing); [apply incl_refl|exact Hr])). reflexivity.
    - rewrite <- app_assoc, base_blanks by exact Hb. exists (BAtom (AIdentifier s)). split; [|reflexivity].
      unfold base_, atom_, function_call. rewrite (identifier_spec s r closing) by (assumption || apply incl_refl).
      assert (forall q, parenthesised pe r = None /\ parenthesised pe (s ++ q) = None) as PN.
      { intros q. split; unfold parenthesised.
        - rewrite (follows_lit closing) by (exact Hr || (intros c Hc; apply closing_facts in Hc; apply Hc)). reflexivity.
        - destruct s as [|c s]; [destruct Hs|]. destruct Hs as [Hs _]. apply letter_alpha in Hs. destruct (alpha_facts c Hs) as (_ & B & C). cbn [app]. rewrite lit_miss by assumption. reflexivity. }
      destruct (PN r) as [P1 P2]. rewrite P1, P2. reflexivity.
    - rewrite !app_length in Hl. cbn [List.length] in Hl. rewrite !app_length in Hl. cbn [List.length] in Hl. destruct Hk as [K1 K2].
      destruct (parenthesised_spec pe size s e b'' r HP Hs ltac:(lia) K2 Hb'') as (x & E & Hx & Fx).
      exists (BAtom (ACall f x)). split; [|change (call f (f ++ par (print_expr fmt x)) (eval_expr fmt x) = call f (match e with Var c => f ++ par c | _ => [] end) (comp e)); destruct K1 as [K1|(c & ->)]; [rewrite Hx; apply call_known; exact K1|rewrite (print_variable x c Fx Hx), Hx; reflexivity]].
      rewrite <- !app_assoc, base_blanks by exact Hb. cbn [app]. rewrite <- !app_assoc. cbn [app]. unfold base_, atom_, function_call. rewrite identifier_paren by assumption.
      rewrite (parenthesised_blanks pe b') by exact Hb'. rewrite E.
      assert (parenthesised pe (f ++ b' ++ "("%char :: s ++ b'' ++ ")"%char :: r) = None) as ->; [|reflexivity].
      unfold parenthesised. destruct f as [|c f]; [destruct Hf|]. destruct Hf as [Hf _]. apply letter_alpha in Hf. destruct (alpha_facts c Hf) as (_ & B & C). cbn [app]. rewrite lit_miss by assumption. reflexivity.
    - rewrite !app_length in Hl. cbn [List.length] in Hl. rewrite !app_length in Hl. cbn [List.length] in Hl.
      destruct (parenthesised_spec pe size s e b' r HP Hs ltac:(lia) Hk Hb') as (x & E & Hx & _). exists (BExpr x). split; [|exact Hx].
      rewrite <- !app_assoc, base_blanks by exact Hb. cbn [app]. rewrite <- !app_assoc. cbn [app]. unfold base_. rewrite E. reflexivity.
  Qed.
  Lemma signed_spec : forall pe s e r, signed_text s e -> follows closing r -> exists b, base_ pe (s ++ r) = Some (b, r) /\ eval_base fmt b = comp e.
  Proof.
    intros pe s e r H Hr. assert (after_number r) as AN by (apply follows_after_number with (l := closing); [apply incl_refl|exact Hr]).
    destruct H as [b s x Hb Hs|b s x Hb Hs]; rewrite <- app_assoc, base_blanks by exact Hb; [exists (BAtom (ANum x))|exists (BAtom (ANum (- x)))]; (split; [|reflexivity]); cbn [app];
      unfold base_, atom_, function_call, parenthesised, identifier; rewrite !lit_miss by reflexivity; rewrite double_sign, skip_nonblank by reflexivity; cbn [sign].
    - change (Ascii.eqb "+" "-") with false. change (Ascii.eqb "+" "+") with true. cbv iota. rewrite (unsigned_spec s x false r) by assumption. reflexivity.
    - change (Ascii.eqb "-" "-") with true. cbv iota. rewrite (unsigned_spec s x true r) by assumption. reflexivity.
  Qed.

  (** Lists of operands *)
  Record item : Type := mkItem { i_blanks : text; i_char : ascii; i_op : operator; i_text : text; i_exp : exp }.
  Definition item_text (i : item) : text := i_blanks i ++ i_char i :: i_text i.
  Definition item_ok (T : text -> exp -> Prop) (ops : list (ascii * operator)) (i : item) : Prop := blanks (i_blanks i) /\ In (i_char i, i_op i) ops /\ T (i_text i) (i_exp i).
  Definition chain (l : list item) (e0 : exp) : exp := fold_left (fun e i => Bin (i_op i) e (i_exp i)) l e0.
  Lemma chain_known : forall l e0, known (chain l e0) <-> known e0 /\ Forall (fun i => known (i_exp i)) l.
  Proof.
    induction l as [|i l IH]; intros e0; [cbn; split; [intros; split; [assumption|constructor]|tauto]|]. unfold chain in *. cbn [fold_left]. rewrite IH. cbn [known]. split.
    - intros [[H1 H2] H3]. split; [exact H1|constructor; assumption].
    - intros [H1 H2]. inversion H2; subst. tauto.
  Qed.
  Lemma many_spec : forall (B : Type) (q : parser B) (ev : B -> node) (T : text -> exp -> Prop) (opl : list (ascii * operator)) (ops : ascii -> bool) (L Lout : list ascii) (l : list item) r,
    (forall c o, In (c, o) opl -> is_blank c = false /\ ops c = true /\ In c L) -> (forall c, In c Lout -> ops c = false) -> incl Lout L ->
    (forall i, In i l -> forall r', follows L r' -> exists b, q (i_text i ++ r') = Some (b, r') /\ ev b = comp (i_exp i)) ->
    Forall (item_ok T opl) l -> follows Lout r -> 
    forall n, (List.length l <= n)%nat -> exists bs, many n (operator_and ops q) (flat_map item_text l ++ r) = (bs, r) /\ Forall2 (fun i b => fst b = i_char i /\ ev (snd b) = comp (i_exp i)) l bs.
  Proof.
    intros B q ev T opl ops L Lout l r HO HL HI. induction l as [|i l IH]; intros Hq Hok Hr n Hn.
    - exists []. split; [|constructor]. cbn [flat_map app]. destruct n; cbn [many]; [reflexivity|]. unfold operator_and. rewrite (follows_lit Lout) by assumption. reflexivity.
    - destruct n as [|n]; [cbn in Hn; lia|]. inversion Hok as [|? ? (B1 & B2 & B3) Hok']; subst. destruct (HO _ _ B2) as (O1 & O2 & O3).
      destruct (IH ltac:(intros; apply Hq; [right; assumption|assumption]) Hok' Hr n ltac:(cbn in Hn; lia)) as (bs & E & F2).
      assert (follows L (flat_map item_text l ++ r)) as FL.
      { destruct l as [|j l]; [cbn [flat_map app]; apply follows_incl with (l := Lout); assumption|]. inversion Hok' as [|? ? (C1 & C2 & C3) _]; subst. destruct (HO _ _ C2) as (P1 & P2 & P3).
        cbn [flat_map]. unfold item_text at 1. rewrite <- !app_assoc. apply follows_blanks; [exact C1|]. apply follows_head; assumption. }
      destruct (Hq i ltac:(left; reflexivity) _ FL) as (b & Eb & Hb). exists ((i_char i, b) :: bs). split; [|constructor; [split; [reflexivity|exact Hb]|exact F2]].
      cbn [flat_map many]. unfold operator_and at 1. unfold item_text at 1. rewrite <- !app_assoc. rewrite lit_blanks by exact B1. cbn [app]. rewrite lit_hit by assumption. rewrite Eb, E. reflexivity.
  Qed.
  Lemma items_length : forall l, (List.length l <= List.length (flat_map item_text l))%nat.
  Proof. induction l as [|i l IH]; [cbn; lia|]. cbn [flat_map]. unfold item_text at 1. rewrite !app_length. cbn [List.length]. lia. Qed.
  Lemma fold_operations : forall (B : Type) (ev : B -> node) (opl : list (ascii * operator)) T l bs n0 e0,
    (forall c o, In (c, o) opl -> forall a b, operation c a b = Binary (binary_of o) a b) -> Forall (item_ok T opl) l -> n0 = comp e0 ->
    Forall2 (fun i b => fst b = i_char i /\ ev (snd b) = comp (i_exp i)) l bs -> fold_left (fun ret o => operation (fst o) ret (ev (snd o))) bs n0 = comp (chain l e0).
  Proof.
    intros B ev opl T l bs n0 e0 HO Hok E H. revert n0 e0 E. induction H as [|i b l bs [H1 H2] H IH]; intros n0 e0 E; [exact E|]. inversion Hok as [|? ? (B1 & B2 & B3) Hok']; subst. cbn [fold_left]. unfold chain. cbn [fold_left].
    apply IH; [exact Hok'|]. cbn [comp]. rewrite H1, H2. apply HO. exact B2.
  Qed.

  Definition adds : list (ascii * operator) := [("+"%char, Plus); ("-"%char, Minus)].
  Definition muls : list (ascii * operator) := [("*"%char, Times); ("/"%char, Over)].
  Lemma chain_snoc : forall l i e0, chain (l ++ [i]) e0 = Bin (i_op i) (chain l e0) (i_exp i).
  Proof. intros. unfold chain. rewrite fold_left_app. reflexivity. Qed.
  Lemma flat_snoc : forall s0 l i, (s0 ++ flat_map item_text l) ++ item_text i = s0 ++ flat_map item_text (l ++ [i]).
  Proof. intros. rewrite flat_map_app. cbn [flat_map]. rewrite app_nil_r, app_assoc. reflexivity. Qed.
  Lemma sum_chain : forall s e, sum_text s e -> exists s0 e0 l, product_text s0 e0 /\ Forall (item_ok product_text adds) l /\ s = s0 ++ flat_map item_text l /\ e = chain l e0.
  Proof.
    intros s e H. induction H as [s e H|s1 e1 b s2 e2 H (s0 & e0 & l & H0 & F & -> & ->) Hb H2|s1 e1 b s2 e2 H (s0 & e0 & l & H0 & F & -> & ->) Hb H2].
    - exists s, e, []. cbn. rewrite app_nil_r. repeat split; [exact H|constructor].
    - exists s0, e0, (l ++ [mkItem b "+" Plus s2 e2]). rewrite <- flat_snoc, chain_snoc. repeat split; [exact H0|]. apply Forall_app. split; [exact F|]. constructor; [|constructor]. split; [exact Hb|]. split; [left; reflexivity|exact H2].
    - exists s0, e0, (l ++ [mkItem b "-" Minus s2 e2]). rewrite <- flat_snoc, chain_snoc. repeat split; [exact H0|]. apply Forall_app. split; [exact F|]. constructor; [|constructor]. split; [exact Hb|]. split; [right; left; reflexivity|exact H2].
  Qed.
  Lemma product_chain : forall s e, product_text s e -> exists s0 e0 l, power_text s0 e0 /\ Forall (item_ok power_text muls) l /\ s = s0 ++ flat_map item_text l /\ e = chain l e0.
  Proof.
    intros s e H. induction H as [s e H|s1 e1 b s2 e2 H (s0 & e0 & l & H0 & F & -> & ->) Hb H2|s1 e1 b s2 e2 H (s0 & e0 & l & H0 & F & -> & ->) Hb H2].
    - exists s, e, []. cbn. rewrite app_nil_r. repeat split; [exact H|constructor].
    - exists s0, e0, (l ++ [mkItem b "*" Times s2 e2]). rewrite <- flat_snoc, chain_snoc. repeat split; [exact H0|]. apply Forall_app. split; [exact F|]. constructor; [|constructor]. split; [exact Hb|]. split; [left; reflexivity|exact H2].
    - exists s0, e0, (l ++ [mkItem b "/" Over s2 e2]). rewrite <- flat_snoc, chain_snoc. repeat split; [exact H0|]. apply Forall_app. split; [exact F|]. constructor; [|constructor]. split; [exact Hb|]. split; [right; left; reflexivity|exact H2].
  Qed.
  Lemma item_length : forall l i, In i l -> (List.length (i_text i) < List.length (flat_map item_text l))%nat.
  Proof.
    induction l as [|j l IH]; intros i H; [destruct H|]. cbn [flat_map]. rewrite app_length. unfold item_text at 1. rewrite app_length. cbn [List.length]. destruct H as [<-|H]; [lia|]. specialize (IH i H). lia.
  Qed.

  (** a list of operands: [p0] reads the first one *)
  Lemma list_spec : forall (A B : Type) (p0 : parser A) (ev0 : A -> node) (q : parser B) (ev : B -> node) (T : text -> exp -> Prop) (opl : list (ascii * operator)) (ops : ascii -> bool) (L Lout : list ascii) s0 e0 l r,
    (forall c o, In (c, o) opl -> is_blank c = false /\ ops c = true /\ In c L) -> (forall c, In c Lout -> ops c = false) -> incl Lout L ->
    (forall r', follows L r' -> exists a, p0 (s0 ++ r') = Some (a, r') /\ ev0 a = comp e0) ->
    (forall i, In i l -> forall r', follows L r' -> exists b, q (i_text i ++ r') = Some (b, r') /\ ev b = comp (i_exp i)) ->
    Forall (item_ok T opl) l -> follows Lout r ->
    exists a bs, list_of p0 ops q ((s0 ++ flat_map item_text l) ++ r) = Some ((a, bs), r) /\ ev0 a = comp e0 /\ Forall2 (fun i b => fst b = i_char i /\ ev (snd b) = comp (i_exp i)) l bs.
  Proof.
    intros A B p0 ev0 q ev T opl ops L Lout s0 e0 l r HO HL HI H0 Hq Hok Hr. rewrite <- app_assoc.
    assert (follows L (flat_map item_text l ++ r)) as FL.
    { destruct l as [|j l]; [cbn [flat_map app]; apply follows_incl with (l := Lout); assumption|]. inversion Hok as [|? ? (C1 & C2 & C3) _]; subst. destruct (HO _ _ C2) as (P1 & P2 & P3).
      cbn [flat_map]. unfold item_text at 1. rewrite <- !app_assoc. apply follows_blanks; [exact C1|]. apply follows_head; assumption. }
    destruct (H0 _ FL) as (a & E & Ha).
    destruct (many_spec B q ev T opl ops L Lout l r HO HL HI Hq Hok Hr (List.length (flat_map item_text l ++ r))) as (bs & Em & F2); [rewrite app_length; pose proof (items_length l); lia|].
    exists a, bs. split; [|split; assumption]. unfold list_of. rewrite E, Em. reflexivity.
  Qed.

  Definition after_power : list ascii := ["+"; "-"; "*"; "/"; ")"]%char.
  Definition after_product : list ascii := ["+"; "-"; ")"]%char.
  Ltac in_cases := repeat match goal with H : In _ (_ :: _) |- _ => destruct H as [H|H]; [inversion H; subst; clear H|] | H : In _ [] |- _ => destruct H end.
  Lemma power_spec : forall pe size s e r, parses_sums pe size -> power_text s e -> (List.length s <= size)%nat -> known e -> follows after_power r ->
    exists f, factor_ pe (s ++ r) = Some (f, r) /\ eval_factor fmt f = comp e.
  Proof.
    intros pe size s e r HP H Hl Hk Hr. unfold factor_.
    assert (exists s0 e0 l, (operand_text s0 e0 \/ signed_text s0 e0) /\ (List.length l <= 1)%nat /\ Forall (item_ok (fun s e => operand_text s e \/ signed_text s e) [("^"%char, Power)]) l /\ s = s0 ++ flat_map item_text l /\ e = chain l e0) as (s0 & e0 & l & H0 & L1 & F & -> & ->).
    { destruct H as [s e H|s e H|s1 e1 b s2 e2 H1 Hb H2].
      - exists s, e, []. cbn. rewrite app_nil_r. repeat split; [left; exact H|lia|constructor].
      - exists s, e, []. cbn. rewrite app_nil_r. repeat split; [right; exact H|lia|constructor].
      - exists s1, e1, [mkItem b "^" Power s2 e2]. cbn. rewrite app_nil_r. repeat split; [left; exact H1|lia|]. constructor; [|constructor]. repeat split; [exact Hb|left; reflexivity|exact H2]. }
    clear H. apply chain_known in Hk. destruct Hk as [K0 K]. rewrite app_length in Hl.
    assert (forall s e, operand_text s e \/ signed_text s e -> (List.length s <= size)%nat -> known e -> forall r', follows closing r' -> exists b, base_ pe (s ++ r') = Some (b, r') /\ eval_base fmt b = comp e) as HB.
    { intros s e [H|H] Hs Hk r' Hr'; [apply operand_spec with (size := size); assumption|apply signed_spec; assumption]. }
    destruct (list_spec base base (base_ pe) (eval_base fmt) (base_ pe) (eval_base fmt) (fun s e => operand_text s e \/ signed_text s e) [("^"%char, Power)] (char_is "^") closing after_power s0 e0 l r) as (a & bs & E & Ha & F2).
    - intros c o Hc. in_cases. repeat split; cbn; tauto.
    - intros c Hc. unfold after_power in Hc. in_cases; reflexivity.
    - intros c Hc. unfold after_power, closing in *. cbn in *. tauto.
    - intros r' Hr'. apply HB; [exact H0|lia|exact K0|exact Hr'].
    - intros i Hi r' Hr'. rewrite Forall_forall in F, K. apply HB; [apply F; exact Hi| |apply K; exact Hi|exact Hr']. pose proof (item_length l i Hi). lia.
    - exact F.
    - exact Hr.
    - rewrite E. exists (Factor a (map snd bs)). split; [reflexivity|]. rewrite eval_factor_eq. rewrite Ha. clear - F2 F.
      revert e0. induction F2 as [|i b l bs [H1 H2] F2 IH]; intros e0; [reflexivity|]. inversion F as [|? ? (B1 & B2 & B3) F']; subst. cbn [map fold_left]. unfold chain. cbn [fold_left].
      rewrite H2. destruct B2 as [B2|[]]. injection B2 as _ Ho. rewrite <- Ho. exact (IH F' (Bin Power e0 (i_exp i))).
  Qed.
  Lemma product_spec : forall pe size s e r, parses_sums pe size -> product_text s e -> (List.length s <= size)%nat -> known e -> follows after_product r ->
    exists f, term_ pe (s ++ r) = Some (f, r) /\ eval_term fmt f = comp e.
  Proof.
    intros pe size s e r HP H Hl Hk Hr. unfold term_. destruct (product_chain s e H) as (s0 & e0 & l & H0 & F & -> & ->). clear H. apply chain_known in Hk. destruct Hk as [K0 K]. rewrite app_length in Hl.
    destruct (list_spec factor factor (factor_ pe) (eval_factor fmt) (factor_ pe) (eval_factor fmt) power_text muls mul_operators after_power after_product s0 e0 l r) as (a & bs & E & Ha & F2).
    - intros c o Hc. unfold muls in Hc. in_cases; repeat split; cbn; tauto.
    - intros c Hc. unfold after_product in Hc. in_cases; reflexivity.
    - intros c Hc. unfold after_power, after_product in *. cbn in *. tauto.
    - intros r' Hr'. apply power_spec with (size := size); try assumption. lia.
    - intros i Hi r' Hr'. rewrite Forall_forall in F, K. apply power_spec with (size := size); try assumption; [apply F; exact Hi| |apply K; exact Hi]. pose proof (item_length l i Hi). lia.
    - exact F.
    - exact Hr.
    - rewrite E. exists (Term a bs). split; [reflexivity|]. rewrite eval_term_eq. apply (fold_operations factor (eval_factor fmt) muls power_text); try assumption. intros c o Hc x y. unfold muls in Hc. in_cases; reflexivity.
  Qed.
  Lemma sum_spec : forall depth s e r, sum_text s e -> (List.length s < depth)%nat -> known e -> follows [")"%char] r ->
    exists x, expr_ depth (s ++ r) = Some (x, r) /\ eval_expr fmt x = comp e.
  Proof.
    induction depth as [|depth IH]; intros s e r H Hl Hk Hr; [lia|]. cbn [expr_].
    assert (parses_sums (expr_ depth) depth) as HP by (intros s' e' Hs' Hl' Hk' r' Hr'; destruct (IH s' e' r' Hs' Hl' Hk' Hr') as (x & E & Hx); exists x; split; [exact E|split; [exact Hx|eapply expr_fine; exact E]]).
    destruct (sum_chain s e H) as (s0 & e0 & l & H0 & F & -> & ->). clear H. apply chain_known in Hk. destruct Hk as [K0 K]. rewrite app_length in Hl.
    destruct (list_spec term term (term_ (expr_ depth)) (eval_term fmt) (term_ (expr_ depth)) (eval_term fmt) product_text adds add_operators after_product [")"%char] s0 e0 l r) as (a & bs & E & Ha & F2).
    - intros c o Hc. unfold adds in Hc. in_cases; repeat split; cbn; tauto.
    - intros c Hc. in_cases; reflexivity.
    - intros c Hc. unfold after_product in *. cbn in *. tauto.
    - intros r' Hr'. apply product_spec with (size := depth); try assumption. lia.
    - intros i Hi r' Hr'. rewrite Forall_forall in F, K. apply product_spec with (size := depth); try assumption; [apply F; exact Hi| |apply K; exact Hi]. pose proof (item_length l i Hi). lia.
    - exact F.
    - exact Hr.
    - rewrite E. exists (Expr a bs). split; [reflexivity|]. rewrite eval_expr_eq. apply (fold_operations term (eval_term fmt) adds product_text); try assumption. intros c o Hc x y. unfold adds in Hc. in_cases; reflexivity.
  Qed.
End Grammar.
