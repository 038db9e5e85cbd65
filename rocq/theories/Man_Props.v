(** Properties C49 (value of the maneuvering expressions), C50 (malformed expressions) and C51 (length of the history). *)
From Coq Require Import Reals List Bool String Ascii ZArith Lra Lia.
From Verif Require Import Common Man_Model Man_Spec Man_Proofs.
Import ListNotations.
Open Scope R_scope.

(** ** C49 *)
(** The functions and the states that an expression may call: a state is given at the date of the argument, [state s tau] being its value tau seconds ago. *)
Definition meaning (state : state_type -> R -> R) (t : R) : list (text * (R -> R)) :=
  let at_date s := fun date => state s (t - date) in
  [(txt "cos", cos); (txt "sin", sin); (txt "exp", Rtrigo_def.exp); (txt "abs", Rabs); (txt "log", ln); (txt "sqrt", sqrt);
   (txt "x", at_date X); (txt "y", at_date Y); (txt "z", at_date Z_); (txt "u", at_date U); (txt "v", at_date V); (txt "w", at_date W); (txt "p", at_date P); (txt "q", at_date Q);
   (txt "r", at_date R_); (txt "phi", at_date PHI); (txt "theta", at_date THETA); (txt "psi", at_date PSI); (txt "qr", at_date QR); (txt "qi", at_date QI); (txt "qj", at_date QJ);
   (txt "qk", at_date QK)].
Definition same (a b : text) : bool := if list_eq_dec ascii_dec a b then true else false.
Definition apply_function (state : state_type -> R -> R) (t : R) (f : text) (x : R) : R := match find (fun g => same (fst g) f) (meaning state t) with Some g => snd g x | None => 0 end.
Definition variable (ident : text -> R) (t : R) (n : text) : R := if same n (txt "t") then t else ident n.
Fixpoint calls (e : Man_Spec.exp) : list text := match e with Num _ | Var _ => [] | Call f a => f :: calls a | Bin _ a b => calls a ++ calls b end.

Lemma functions_meaning : forall pow ident state t,
  Forall2 (fun g h => fst g = fst h /\ forall a x, node_value pow ident state t a = Some x -> node_value pow ident state t (snd g a) = Some (snd h x)) functions (meaning state t).
Proof.
  intros. unfold functions, meaning. repeat (constructor; [split; [reflexivity|intros a x H; cbn [snd node_value unary_value]; rewrite H; reflexivity]|]). constructor.
Qed.
Lemma find_parallel : forall (A B : Type) (l : list (text * A)) (l' : list (text * B)) (Q : text * A -> text * B -> Prop) f, Forall2 (fun g h => fst g = fst h /\ Q g h) l l' ->
  In f (map fst l') -> exists g h, find (fun g => text_eqb (fst g) f) l = Some g /\ find (fun g => same (fst g) f) l' = Some h /\ Q g h.
Proof.
  intros A B l l' Q f H. induction H as [|g h l l' [E HQ] H IH]; intros HI; [destruct HI|]. cbn [find]. rewrite E. unfold text_eqb at 1, same at 1. destruct (list_eq_dec ascii_dec (fst h) f) as [Ef|Nf].
  - exists g, h. repeat split; exact HQ.
  - apply IH. destruct HI as [HI|HI]; [congruence|exact HI].
Qed.
Definition function_names : list text := map fst (meaning (fun _ _ => 0) 0).
Lemma names_known : forall e, incl (calls e) function_names -> known e.
Proof.
  induction e as [x|n|f a IH|o a IHa b IHb]; intros H; cbn [known calls] in *; [exact I|exact I| |].
  - split; [left|apply IH; intros g Hg; apply H; right; exact Hg].
    destruct (find_parallel _ _ _ _ _ f (functions_meaning (fun _ _ => 0) (fun _ => 0) (fun _ _ => 0) 0)) as (g & h & E & _); [apply (H f); left; reflexivity|]. unfold known_function. rewrite E. discriminate.
  - split; [apply IHa|apply IHb]; intros g Hg; apply H, in_or_app; [left|right]; exact Hg.
Qed.
Lemma comp_value : forall pow ident state t e, incl (calls e) function_names -> node_value pow ident state t (comp e) = Some (value pow (variable ident t) (apply_function state t) e).
Proof.
  intros pow ident state t. induction e as [x|n|f a IH|o a IHa b IHb]; intros H; cbn [calls] in H; cbn [comp value].
  - reflexivity.
  - unfold variable. change (same n (txt "t")) with (text_eqb n (str "t")). destruct (text_eqb n (str "t")); reflexivity.
  - destruct (find_parallel _ _ _ _ _ f (functions_meaning pow ident state t)) as (g & h & E & E' & Q); [apply (H f); left; reflexivity|]. unfold call, apply_function. rewrite E, E'. apply Q.
    apply IH. intros k Hk. apply H. right. exact Hk.
  - cbn [node_value]. rewrite IHa, IHb by (intros k Hk; apply H, in_or_app; (left; exact Hk) || (right; exact Hk)). destruct o; reflexivity.
Qed.
(** Every text written with the usual conventions compiles to an expression that has its usual value, for all values of the states, of the variables and of time. *)
Theorem maneuvering_value_partial : forall fmt s e b, sum_text s e -> blanks b -> incl (calls e) function_names ->
  exists n, compile fmt (s ++ b) = Ok n /\
    forall pow ident state t, node_value pow ident state t n = Some (value pow (variable ident t) (apply_function state t) e).
Proof.
  intros fmt s e b H Hb Hc. destruct (sum_spec fmt (S (List.length (s ++ b))) s e b H) as (x & E & Hx).
  - rewrite app_length. lia.
  - apply names_known. exact Hc.
  - unfold follows. rewrite <- (app_nil_r b), skip_blanks by exact Hb. exact I.
  - exists (comp e). split; [unfold compile, parse; rewrite E, Hx; reflexivity|]. intros. apply comp_value. exact Hc.
Qed.
Print Assumptions maneuvering_value_partial.
(** "2 * x(t-3) - Y1" *)
Lemma digit2 : integer ["2"%char] 2. Proof. apply (integer_digit [] 0 "2" 2%nat); [constructor|split; [lia|reflexivity]]. Qed.
Lemma digit3 : integer ["3"%char] 3. Proof. apply (integer_digit [] 0 "3" 3%nat); [constructor|split; [lia|reflexivity]]. Qed.
Example maneuvering_text : sum_text (txt "2 * x(t-3) - Y1") (Bin Minus (Bin Times (Num 2) (Call (txt "x") (Bin Minus (Var (txt "t")) (Num 3)))) (Var (txt "Y1"))).
Proof.
  assert (letter "x" /\ letter "t" /\ letter "Y") as (L1 & L2 & L3).
  { split; [exists 23%nat; split; [lia|left; reflexivity]|]. split; [exists 19%nat; split; [lia|left; reflexivity]|exists 24%nat; split; [lia|right; reflexivity]]. }
  assert (unsigned_number (txt "2") 2 /\ unsigned_number (txt "3") 3) as [N2 N3] by (split; apply no_exponent; apply mantissa_integer; [discriminate|exact digit2|discriminate|exact digit3]).
  apply (sum_minus (txt "2 * x(t-3)") _ (txt " ") (txt " Y1")); [|repeat constructor|].
  - apply sum_product. apply (product_times (txt "2") _ (txt " ") (txt " x(t-3)")); [|repeat constructor|].
    + apply product_power, power_operand. apply (operand_number [] _ _); [constructor|exact N2].
    + apply power_operand. apply (operand_call (txt " ") (txt "x") [] (txt "t-3") _ []); [repeat constructor|split; [exact L1|constructor]|constructor| |constructor].
      apply (sum_minus (txt "t") _ [] (txt "3")); [|constructor|].
      * apply sum_product, product_power, power_operand. apply (operand_variable [] _); [constructor|]. split; [exact L2|constructor].
      * apply product_power, power_operand. apply (operand_number [] _ _); [constructor|exact N3].
  - apply product_power, power_operand. apply (operand_variable (txt " ") (txt "Y1")); [repeat constructor|]. split; [exact L3|]. constructor; [right; left; exists 1%nat; split; [lia|reflexivity]|constructor].
Qed.
Example maneuvering_text_calls : incl (calls (Bin Minus (Bin Times (Num 2) (Call (txt "x") (Bin Minus (Var (txt "t")) (Num 3)))) (Var (txt "Y1")))) function_names.
Proof. intros f [<-|[]]. unfold function_names. cbn [meaning map fst]. repeat ((left; reflexivity) || right). Qed.

Lemma scaled_digit : forall c d, decimal c d -> scaled false [c] 0 = INR d.
Proof. intros c d H. apply decimal_digit in H. destruct H as [_ H]. unfold scaled, number. cbn [fold_left]. rewrite H. rewrite INR_IZR_INZ. cbn [powerRZ]. replace (10 * 0 + Z.of_nat d)%Z with (Z.of_nat d) by ring. ring. Qed.
Lemma one : scaled false ["1"%char] 0 = 1. Proof. rewrite (scaled_digit "1" 1) by (split; [lia|reflexivity]). cbn. reflexivity. Qed.
Lemma two : scaled false ["2"%char] 0 = 2. Proof. rewrite (scaled_digit "2" 2) by (split; [lia|reflexivity]). cbn. lra. Qed.
Lemma three : scaled false ["3"%char] 0 = 3. Proof. rewrite (scaled_digit "3" 3) by (split; [lia|reflexivity]). cbn. lra. Qed.
Lemma minus_three : scaled true ["3"%char] 0 = -3. Proof. pose proof three as H. unfold scaled in *. lra. Qed.
Ltac compute_compile := lazy -[scaled]; reflexivity.
(** Refuted for powers of powers and for signs: "2^3^2" is (2^3)^2, "-3^2" is (-3)^2, and "-x(t)" is a NaN. *)
Theorem maneuvering_powers_refuted : forall fmt, exists n n', compile fmt (str "2^3^2") = Ok n /\ compile fmt (str "-3^2") = Ok n' /\ compile fmt (str "-x(t)") = Ok NaN /\
  forall pow ident state t, node_value pow ident state t n = Some (pow (pow 2 3) 2) /\ node_value pow ident state t n' = Some (pow (-3) 2).
Proof.
  intros fmt. exists (Binary Pow (Binary Pow (Constant (scaled false ["2"%char] 0)) (Constant (scaled false ["3"%char] 0))) (Constant (scaled false ["2"%char] 0))), (Binary Pow (Constant (scaled true ["3"%char] 0)) (Constant (scaled false ["2"%char] 0))).
  split; [compute_compile|]. split; [compute_compile|]. split; [compute_compile|]. intros. cbn [node_value binary_value]. rewrite two, three, minus_three. split; reflexivity.
Qed.
Print Assumptions maneuvering_powers_refuted.
(** The printed form of an expression (used in error messages) loses the parentheses of a first operand: "(a+b)*c" is printed as "a+(b)*(c)". *)
Theorem maneuvering_print_refuted : forall fmt, print fmt (str "(a+b)*c") = Ok (str "a+(b)*(c)") /\ compile fmt (str "(a+b)*c") <> compile fmt (str "a+(b)*(c)").
Proof. intros fmt. split; [compute_compile|]. lazy. discriminate. Qed.
Print Assumptions maneuvering_print_refuted.

(** ** C50: no text is ever refused *)
Theorem maneuvering_malformed_refuted : (forall fmt s, exists n, compile fmt s = Ok n) /\
  forall fmt, compile fmt (str "1 2") = Ok (Constant (scaled false ["1"%char] 0)) /\ compile fmt (str "1+") = Ok (Constant (scaled false ["1"%char] 0)) /\
    compile fmt (str "2*(3") = Ok (Constant (scaled false ["2"%char] 0)) /\ compile fmt (str "2 x(t)") = Ok (Constant (scaled false ["2"%char] 0)) /\
    compile fmt (str "a b") = Ok (UnknownIdentifier (str "ab")) /\ compile fmt (str "") = Ok NaN /\ compile fmt (str "(1") = Ok NaN.
Proof.
  split.
  - intros fmt s. unfold compile. destruct (parse s) as [[e r]|]; eexists; reflexivity.
  - intros fmt. repeat split; compute_compile.
Qed.
Print Assumptions maneuvering_malformed_refuted.
(** On the other hand, a text written with the usual conventions is read to its end. *)
Theorem maneuvering_well_formed_partial : forall s e b, sum_text s e -> blanks b -> incl (calls e) function_names -> exists x, parse (s ++ b) = Some (x, b).
Proof.
  intros s e b H Hb Hc. destruct (sum_spec (fun _ => []) (S (List.length (s ++ b))) s e b H) as (x & E & _).
  - rewrite app_length. lia.
  - apply names_known. exact Hc.
  - unfold follows. rewrite <- (app_nil_r b), skip_blanks by exact Hb. exact I.
  - exists x. exact E.
Qed.
Print Assumptions maneuvering_well_formed_partial.

(** ** C51 *)
(** Evaluating the expression n at date t reads a state tau seconds before t *)
Inductive reads (pow : R -> R -> R) (ident : text -> R) (state : state_type -> R -> R) (t : R) : node -> R -> Prop :=
| reads_state : forall s a x, node_value pow ident state t a = Some x -> reads pow ident state t (State s a) (t - x)
| reads_operand : forall s a tau, reads pow ident state t a tau -> reads pow ident state t (State s a) tau
| reads_unary : forall f a tau, reads pow ident state t a tau -> reads pow ident state t (Unary f a) tau
| reads_left : forall f a b tau, reads pow ident state t a tau -> reads pow ident state t (Binary f a b) tau
| reads_right : forall f a b tau, reads pow ident state t b tau -> reads pow ident state t (Binary f a b) tau.
Lemma reads_at : forall pow ident state t s a x tau, node_value pow ident state t a = Some x -> tau = t - x -> reads pow ident state t (State s a) tau.
Proof. intros. subst. apply reads_state. assumption. Qed.
Fixpoint stateless (n : node) : Prop := match n with State _ _ => False | Unary _ a => stateless a | Binary _ a b => stateless a /\ stateless b | _ => True end.
(** Numbers and operations on numbers *)
Inductive number_node (pow : R -> R -> R) : node -> R -> Prop :=
| number_constant : forall x, number_node pow (Constant x) x
| number_unary : forall f a x, f = Log \/ f = Exp \/ f = Sqrt -> number_node pow a x -> number_node pow (Unary f a) (unary_value f x)
| number_binary : forall f a b x y, number_node pow a x -> number_node pow b y -> number_node pow (Binary f a b) (binary_value pow f x y).
(** t, t - 3, 2 + t - 5... : time plus a number *)
Inductive shifted_time (pow : R -> R -> R) : node -> R -> Prop :=
| shifted_now : shifted_time pow Time 0
| shifted_plus : forall a b x y, shifted_time pow a x -> number_node pow b y -> shifted_time pow (Binary Sum a b) (x + y)
| shifted_plus' : forall a b x y, number_node pow a x -> shifted_time pow b y -> shifted_time pow (Binary Sum a b) (x + y)
| shifted_minus : forall a b x y, shifted_time pow a x -> number_node pow b y -> shifted_time pow (Binary Difference a b) (x - y).
(** Numbers, sines and cosines, and their sums, differences, exponentials, absolute values *)
Inductive bounded_node (pow : R -> R -> R) : node -> Prop :=
| bounded_number : forall a x, number_node pow a x -> bounded_node pow a
| bounded_wave : forall f a, f = Cos \/ f = Sin -> stateless a -> bounded_node pow (Unary f a)
| bounded_unary : forall f a, f = Abs \/ f = Exp -> bounded_node pow a -> bounded_node pow (Unary f a)
| bounded_binary : forall f a b, f = Sum \/ f = Difference -> bounded_node pow a -> bounded_node pow b -> bounded_node pow (Binary f a b).
Inductive bounded_time (pow : R -> R -> R) : node -> Prop :=
| bounded_now : bounded_time pow Time
| bounded_plus : forall f a b, f = Sum \/ f = Difference -> bounded_time pow a -> bounded_node pow b -> bounded_time pow (Binary f a b).
(** Expressions in which the dates of the states are t plus a number; and, for x, t plus something bounded *)
Inductive supported (pow : R -> R -> R) : node -> Prop :=
| supported_shifted : forall s a d, shifted_time pow a d -> supported pow (State s a)
| supported_x : forall a, bounded_time pow a -> supported pow (State X a)
| supported_stateless : forall n, stateless n -> supported pow n
| supported_unary : forall f a, supported pow a -> supported pow (Unary f a)
| supported_binary : forall f a b, supported pow a -> supported pow b -> supported pow (Binary f a b).

Lemma number_node_spec : forall pow n x, number_node pow n x -> stateless n /\ bounds pow n = Some (x, x) /\ forall ident state t, node_value pow ident state t n = Some x.
Proof.
  intros pow n x H. induction H as [x|f a x Hf H (I1 & I2 & I3)|f a b x y Ha (A1 & A2 & A3) Hb (B1 & B2 & B3)].
  - repeat split.
  - split; [exact I1|]. split; [cbn [bounds]; rewrite I2; destruct Hf as [->|[->| ->]]; reflexivity|]. intros. cbn [node_value]. rewrite I3. reflexivity.
  - split; [split; assumption|]. split.
    + cbn [bounds]. rewrite A2, B2. destruct f; try reflexivity. cbn [binary_value]. rewrite !Rmin_left, !Rmax_left by lra. reflexivity.
    + intros. cbn [node_value]. rewrite A3, B3. reflexivity.
Qed.
Lemma shifted_time_spec : forall pow n d, shifted_time pow n d -> stateless n /\ bounds pow n = Some (d, d) /\ forall ident state t, node_value pow ident state t n = Some (t + d).
Proof.
  intros pow n d H. induction H as [|a b x y Ha (A1 & A2 & A3) Hb|a b x y Ha Hb (B1 & B2 & B3)|a b x y Ha (A1 & A2 & A3) Hb].
  - repeat split. intros. cbn. f_equal. ring.
  - destruct (number_node_spec _ _ _ Hb) as (B1 & B2 & B3). repeat split; [assumption|assumption|cbn [bounds]; rewrite A2, B2; reflexivity|]. intros. cbn [node_value]. rewrite A3, B3. cbn. f_equal. ring.
  - destruct (number_node_spec _ _ _ Ha) as (A1 & A2 & A3). repeat split; [assumption|assumption|cbn [bounds]; rewrite A2, B2; reflexivity|]. intros. cbn [node_value]. rewrite A3, B3. cbn. f_equal. ring.
  - destruct (number_node_spec _ _ _ Hb) as (B1 & B2 & B3). repeat split; [assumption|assumption|cbn [bounds]; rewrite A2, B2; reflexivity|]. intros. cbn [node_value]. rewrite A3, B3. cbn. f_equal. ring.
Qed.
Lemma bounded_node_spec : forall pow n, bounded_node pow n -> stateless n /\ exists lo hi, bounds pow n = Some (lo, hi) /\ forall ident state t x, node_value pow ident state t n = Some x -> lo <= x <= hi.
Proof.
  intros pow n H. induction H as [a x H|f a Hf Ha|f a Hf H (I1 & lo & hi & I2 & I3)|f a b Hf Ha (A1 & la & ha & A2 & A3) Hb (B1 & lb & hb & B2 & B3)].
  - destruct (number_node_spec _ _ _ H) as (B1 & B2 & B3). split; [exact B1|]. exists x, x. split; [exact B2|]. intros ident state t y Hy. rewrite B3 in Hy. injection Hy as <-. lra.
  - split; [exact Ha|]. exists (-1), 1. split; [destruct Hf as [->| ->]; reflexivity|]. intros ident state t y Hy. cbn [node_value] in Hy. destruct (node_value pow ident state t a) as [z|]; [|discriminate Hy]. cbn [option_map] in Hy. injection Hy as <-.
    destruct Hf as [->| ->]; cbn [unary_value]; [apply COS_bound|apply SIN_bound].
  - split; [exact I1|]. cbn [bounds]. rewrite I2. destruct Hf as [->| ->]; cbn [option_map fst snd].
    + exists 0, (Rmax (Rabs hi) (Rabs lo)). split; [reflexivity|]. intros ident state t y Hy. cbn [node_value] in Hy. destruct (node_value pow ident state t a) as [z|] eqn:E; [|discriminate Hy]. cbn [option_map unary_value] in Hy. injection Hy as <-.
      specialize (I3 _ _ _ _ E). split; [apply Rabs_pos|]. destruct (Rle_dec 0 z).
      * eapply Rle_trans; [|apply Rmax_l]. rewrite !Rabs_pos_eq by lra. lra.
      * eapply Rle_trans; [|apply Rmax_r]. rewrite !Rabs_left1 by lra. lra.
    + exists (Rtrigo_def.exp lo), (Rtrigo_def.exp hi). split; [reflexivity|]. intros ident state t y Hy. cbn [node_value] in Hy. destruct (node_value pow ident state t a) as [z|] eqn:E; [|discriminate Hy]. cbn [option_map unary_value] in Hy. injection Hy as <-.
      specialize (I3 _ _ _ _ E). destruct I3 as [[I3|I3] [I4|I4]]; split; try (left; apply exp_increasing; assumption); right; f_equal; assumption.
  - split; [split; assumption|]. cbn [bounds]. rewrite A2, B2. destruct Hf as [->| ->].
    + exists (la + lb), (ha + hb). split; [reflexivity|]. intros ident state t y Hy. cbn [node_value] in Hy. destruct (node_value pow ident state t a) eqn:Ea; [|discriminate Hy]. destruct (node_value pow ident state t b) eqn:Eb; [|discriminate Hy].
      injection Hy as <-. specialize (A3 _ _ _ _ Ea). specialize (B3 _ _ _ _ Eb). cbn [binary_value]. lra.
    + exists (la - hb), (ha - lb). split; [reflexivity|]. intros ident state t y Hy. cbn [node_value] in Hy. destruct (node_value pow ident state t a) eqn:Ea; [|discriminate Hy]. destruct (node_value pow ident state t b) eqn:Eb; [|discriminate Hy].
      injection Hy as <-. specialize (A3 _ _ _ _ Ea). specialize (B3 _ _ _ _ Eb). cbn [binary_value]. lra.
Qed.
Lemma bounded_time_spec : forall pow n, bounded_time pow n -> stateless n /\ exists lo hi, bounds pow n = Some (lo, hi) /\ forall ident state t x, node_value pow ident state t n = Some x -> lo <= x - t <= hi.
Proof.
  intros pow n H. induction H as [|f a b Hf Ha (A1 & la & ha & A2 & A3) Hb].
  - split; [exact I|]. exists 0, 0. split; [reflexivity|]. intros ident state t x Hx. injection Hx as <-. lra.
  - destruct (bounded_node_spec _ _ Hb) as (B1 & lb & hb & B2 & B3). split; [split; assumption|]. cbn [bounds]. rewrite A2, B2. destruct Hf as [->| ->].
    + exists (la + lb), (ha + hb). split; [reflexivity|]. intros ident state t y Hy. cbn [node_value] in Hy. destruct (node_value pow ident state t a) eqn:Ea; [|discriminate Hy]. destruct (node_value pow ident state t b) eqn:Eb; [|discriminate Hy].
      injection Hy as <-. specialize (A3 _ _ _ _ Ea). specialize (B3 _ _ _ _ Eb). cbn [binary_value]. lra.
    + exists (la - hb), (ha - lb). split; [reflexivity|]. intros ident state t y Hy. cbn [node_value] in Hy. destruct (node_value pow ident state t a) eqn:Ea; [|discriminate Hy]. destruct (node_value pow ident state t b) eqn:Eb; [|discriminate Hy].
      injection Hy as <-. specialize (A3 _ _ _ _ Ea). specialize (B3 _ _ _ _ Eb). cbn [binary_value]. lra.
Qed.
Lemma stateless_reads : forall pow ident state t n tau, stateless n -> ~ reads pow ident state t n tau.
Proof. intros pow ident state t n tau H R. induction R; cbn in H; try tauto. Qed.
Lemma find_Tmax_ge : forall pow n T, T <= find_Tmax pow n T.
Proof.
  intros pow. induction n as [x| | |name|f a IH|f a IHa b IHb|s a IH]; intros T; cbn [find_Tmax]; try lra.
  - apply IH.
  - eapply Rle_trans; [apply IHa|apply IHb].
  - destruct s; destruct (bounds pow a) as [[lo hi]|]; try apply Rmax_l; lra.
Qed.
Lemma find_Tmax_mono : forall pow n T T', T <= T' -> find_Tmax pow n T <= find_Tmax pow n T'.
Proof.
  intros pow. induction n as [x| | |name|f a IH|f a IHa b IHb|s a IH]; intros T T' H; cbn [find_Tmax]; try lra.
  - apply IH. exact H.
  - apply IHb, IHa, H.
  - destruct s; destruct (bounds pow a) as [[lo hi]|]; try (apply Rmax_lub; [eapply Rle_trans; [exact H|apply Rmax_l]|apply Rmax_r]); lra.
Qed.
Lemma supported_Tmax : forall pow n, supported pow n -> forall ident state t tau T, reads pow ident state t n tau -> tau <= find_Tmax pow n T.
Proof.
  intros pow n H. induction H as [s a d Hs|a Hb|n Hn|f a H IH|f a b Ha IHa Hb IHb]; intros ident state t tau T R.
  - destruct (shifted_time_spec _ _ _ Hs) as (S1 & S2 & S3). inversion R as [s' a' x Hx| ? ? ? R'| | |]; subst; [|exfalso; exact (stateless_reads _ _ _ _ _ _ S1 R')].
    rewrite S3 in Hx. injection Hx as <-. cbn [find_Tmax]. rewrite S2. replace (t - (t + d)) with (- d) by ring. destruct s; apply Rmax_r.
  - destruct (bounded_time_spec _ _ Hb) as (S1 & lo & hi & S2 & S3). inversion R as [s' a' x Hx| ? ? ? R'| | |]; subst; [|exfalso; exact (stateless_reads _ _ _ _ _ _ S1 R')].
    cbn [find_Tmax]. rewrite S2. specialize (S3 _ _ _ _ Hx). eapply Rle_trans; [|apply Rmax_r]. lra.
  - exfalso. exact (stateless_reads _ _ _ _ _ _ Hn R).
  - inversion R; subst. cbn [find_Tmax]. eapply IH; eassumption.
  - inversion R; subst; cbn [find_Tmax]; [eapply Rle_trans; [eapply IHa; eassumption|apply find_Tmax_ge]|eapply IHb; eassumption].
Qed.
(** The history requested by a maneuvering model covers all the dates at which its expressions read the states. *)
Theorem maneuvering_history_partial : forall pow m, Forall (fun e => supported pow (snd e)) m ->
  forall e ident state t tau, In e m -> reads pow ident state t (snd e) tau -> tau <= model_Tmax pow m.
Proof.
  intros pow m H. assert (forall (l : list (text * node)) T, T <= fold_left (fun Tmax e => Rmax Tmax (node_Tmax pow (snd e))) l T) as G.
  { clear. induction l as [|e l IH]; intros T; cbn [fold_left]; [lra|]. eapply Rle_trans; [apply Rmax_l|apply IH]. }
  unfold model_Tmax. generalize 0 as T0. induction H as [|e0 m H0 H IH]; intros T0 e ident state t tau HI R; [destruct HI|]. cbn [fold_left]. destruct HI as [<-|HI].
  - eapply Rle_trans; [|apply G]. eapply Rle_trans; [|apply Rmax_r]. apply (supported_Tmax pow (snd e0) H0 ident state t tau 0 R).
  - apply (IH _ e ident state t tau HI R).
Qed.
Print Assumptions maneuvering_history_partial.
Example maneuvering_history_example : forall pow, exists n1 n2, compile (fun _ => []) (str "2*u(t-3)") = Ok n1 /\ compile (fun _ => []) (str "x(t+sin(t)-1)") = Ok n2 /\ supported pow n1 /\ supported pow n2 /\
  model_Tmax pow [(str "X", n1); (str "Y", n2)] = 3 /\ reads pow (fun _ => 0) (fun _ _ => 0) 10 n1 3.
Proof.
  intros pow. exists (Binary Multiply (Constant (scaled false ["2"%char] 0)) (State U (Binary Difference Time (Constant (scaled false ["3"%char] 0))))), (State X (Binary Difference (Binary Sum Time (Unary Sin Time)) (Constant (scaled false ["1"%char] 0)))).
  rewrite one, two, three. split; [rewrite <- two, <- three; compute_compile|]. split; [rewrite <- one at 1; compute_compile|].
  split; [apply supported_binary; [apply supported_stateless; exact I|apply supported_shifted with (d := 0 - 3); apply shifted_minus; constructor]|].
  split; [apply supported_x; apply bounded_plus; [right; reflexivity|apply bounded_plus; [left; reflexivity|constructor|apply bounded_wave; [right; reflexivity|exact I]]|apply (bounded_number pow _ 1); constructor]|].
  split.
  - unfold model_Tmax, node_Tmax. cbn [fold_left snd find_Tmax bounds]. rewrite (Rmax_right 0 (- (0 - 3))) by lra. rewrite (Rmax_right 0 (- (0 - 3))) by lra. rewrite (Rmax_right 0 (- (0 + -1 - 1))) by lra. rewrite Rmax_left by lra. ring.
  - apply reads_right. eapply reads_at; [reflexivity|]. cbn [binary_value]. ring.
Qed.
(** Refuted in general: *)
(** - the bound of the wrong side is used for all the states but x: y(t+sin(t)-1) needs 2 seconds and requests none; *)
Theorem maneuvering_history_refuted : forall pow, exists n, compile (fun _ => []) (str "y(t+sin(t)-1)") = Ok n /\ node_Tmax pow n = 0 /\
  forall ident state, reads pow ident state (3 * (PI / 2)) n 2.
Proof.
  intros pow. exists (State Y (Binary Difference (Binary Sum Time (Unary Sin Time)) (Constant (scaled false ["1"%char] 0)))). split; [compute_compile|]. rewrite one. split.
  - unfold node_Tmax. cbn [find_Tmax bounds]. rewrite Rmax_left by lra. reflexivity.
  - intros ident state. eapply reads_at; [reflexivity|]. cbn [unary_value binary_value]. replace (3 * (PI / 2)) with (PI / 2 + PI) by field. rewrite neg_sin, sin_PI2. ring.
Qed.
Print Assumptions maneuvering_history_refuted.
(** - the variables (including the commands) are supposed to be 0; *)
Theorem maneuvering_history_variable_refuted : forall pow, exists n, compile (fun _ => []) (str "x(t-T)") = Ok n /\ node_Tmax pow n = 0 /\ forall ident state t, reads pow ident state t n (ident (str "T")).
Proof.
  intros pow. exists (State X (Binary Difference Time (UnknownIdentifier (str "T")))). split; [compute_compile|]. split; [unfold node_Tmax; cbn [find_Tmax bounds]; rewrite Rmax_left by lra; reflexivity|].
  intros ident state t. eapply reads_at; [reflexivity|]. cbn [binary_value]. ring.
Qed.
Print Assumptions maneuvering_history_variable_refuted.
(** - the bounds of a product are wrong when a factor is negative; *)
Theorem maneuvering_history_product_refuted : forall pow, exists n, compile (fun _ => []) (str "x(t+sin(t)*(0-2))") = Ok n /\ node_Tmax pow n = 0 /\ forall ident state, reads pow ident state (PI / 2) n 2.
Proof.
  intros pow. exists (State X (Binary Sum Time (Binary Multiply (Unary Sin Time) (Binary Difference (Constant (scaled false ["0"%char] 0)) (Constant (scaled false ["2"%char] 0)))))). split; [compute_compile|].
  rewrite two. replace (scaled false ["0"%char] 0) with 0 by (rewrite (scaled_digit "0" 0) by (split; [lia|reflexivity]); reflexivity). split.
  - unfold node_Tmax. cbn [find_Tmax bounds]. rewrite Rmax_left by lra. reflexivity.
  - intros ident state. eapply reads_at; [reflexivity|]. cbn [binary_value unary_value]. rewrite sin_PI2. ring.
Qed.
Print Assumptions maneuvering_history_product_refuted.
(** - the dates of the states inside the date of another state are not looked at. *)
Theorem maneuvering_history_nested_refuted : forall pow, exists n, compile (fun _ => []) (str "u(t+y(t-3))") = Ok n /\ node_Tmax pow n = 0 /\ forall ident state t, reads pow ident state t n 3.
Proof.
  intros pow. exists (State U (Binary Sum Time (State Y (Binary Difference Time (Constant (scaled false ["3"%char] 0)))))). split; [compute_compile|]. rewrite three. split.
  - unfold node_Tmax. cbn [find_Tmax bounds]. assert (0 < 10 ^ 15) by (apply pow_lt; lra). rewrite Rmax_left by lra. reflexivity.
  - intros ident state t. apply reads_operand. apply reads_right. eapply reads_at; [reflexivity|]. cbn [binary_value]. ring.
Qed.
Print Assumptions maneuvering_history_nested_refuted.
