(** Usual arithmetic expressions: their value, and the texts that denote them (textbook grammar, with left recursion). *)
From Coq Require Import Reals List Bool String Ascii ZArith.
From Verif Require Import Common.
Import ListNotations.
Open Scope R_scope.

Inductive operator : Type := Plus | Minus | Times | Over | Power.
Inductive exp : Type := Num (x : R) | Var (name : list ascii) | Call (name : list ascii) (e : exp) | Bin (o : operator) (a b : exp).

(** Value of an expression, given the value of the variables, of the functions and of the powers *)
Fixpoint value (pow : R -> R -> R) (var : list ascii -> R) (fn : list ascii -> R -> R) (e : exp) : R :=
  match e with
  | Num x => x
  | Var n => var n
  | Call f a => fn f (value pow var fn a)
  | Bin o a b => let x := value pow var fn a in let y := value pow var fn b in
                 match o with Plus => x + y | Minus => x - y | Times => x * y | Over => x / y | Power => pow x y end
  end.

(** ** Texts *)
Definition blank (c : ascii) : Prop := c = " "%char \/ c = "009"%char.
Definition blanks (s : list ascii) : Prop := Forall blank s.
Definition decimal (c : ascii) (d : nat) : Prop := (d < 10)%nat /\ c = ascii_of_nat (48 + d).
(** The digits of an integer, most significant first *)
Inductive integer : list ascii -> Z -> Prop :=
| integer_nil : integer [] 0
| integer_digit : forall s z c d, integer s z -> decimal c d -> integer (s ++ [c]) (10 * z + Z.of_nat d).
(** 12, 12.5, 12., .5, with an optional exponent *)
Inductive mantissa : list ascii -> R -> Prop :=
| mantissa_integer : forall s z, s <> [] -> integer s z -> mantissa s (IZR z)
| mantissa_decimal : forall s f z z', s ++ f <> [] -> integer s z -> integer f z' -> mantissa (s ++ "."%char :: f) (IZR z + IZR z' / 10 ^ List.length f).
Inductive unsigned_number : list ascii -> R -> Prop :=
| no_exponent : forall s x, mantissa s x -> unsigned_number s x
| with_exponent : forall s x e n c (sg : list ascii) , mantissa s x -> (c = "e"%char \/ c = "E"%char) -> (sg = [] \/ sg = ["+"%char]) -> n <> [] -> integer n e ->
    unsigned_number (s ++ c :: sg ++ n) (x * powerRZ 10 e)
| with_negative_exponent : forall s x e n c, mantissa s x -> (c = "e"%char \/ c = "E"%char) -> n <> [] -> integer n e ->
    unsigned_number (s ++ c :: "-"%char :: n) (x * powerRZ 10 (- e)).
Definition letter (c : ascii) : Prop := exists k, (k < 26)%nat /\ (c = ascii_of_nat (97 + k) \/ c = ascii_of_nat (65 + k)).
Definition name (s : list ascii) : Prop := match s with [] => False | c :: r => letter c /\ Forall (fun c => letter c \/ (exists d, decimal c d) \/ c = "_"%char) r end.

(** The product binds more than the sum, the power more than the product; + - * / associate to the left; every token may be preceded by blanks.
    An operand of a power is a number, a variable, a call or an expression in parentheses; a signed number is not the left operand of a power. *)
Inductive sum_text : list ascii -> exp -> Prop :=
| sum_product : forall s e, product_text s e -> sum_text s e
| sum_plus : forall s1 e1 b s2 e2, sum_text s1 e1 -> blanks b -> product_text s2 e2 -> sum_text (s1 ++ b ++ "+"%char :: s2) (Bin Plus e1 e2)
| sum_minus : forall s1 e1 b s2 e2, sum_text s1 e1 -> blanks b -> product_text s2 e2 -> sum_text (s1 ++ b ++ "-"%char :: s2) (Bin Minus e1 e2)
with product_text : list ascii -> exp -> Prop :=
| product_power : forall s e, power_text s e -> product_text s e
| product_times : forall s1 e1 b s2 e2, product_text s1 e1 -> blanks b -> power_text s2 e2 -> product_text (s1 ++ b ++ "*"%char :: s2) (Bin Times e1 e2)
| product_over : forall s1 e1 b s2 e2, product_text s1 e1 -> blanks b -> power_text s2 e2 -> product_text (s1 ++ b ++ "/"%char :: s2) (Bin Over e1 e2)
with power_text : list ascii -> exp -> Prop :=
| power_operand : forall s e, operand_text s e -> power_text s e
| power_signed : forall s e, signed_text s e -> power_text s e
| power_power : forall s1 e1 b s2 e2, operand_text s1 e1 -> blanks b -> (operand_text s2 e2 \/ signed_text s2 e2) -> power_text (s1 ++ b ++ "^"%char :: s2) (Bin Power e1 e2)
with signed_text : list ascii -> exp -> Prop :=
| signed_plus : forall b s x, blanks b -> unsigned_number s x -> signed_text (b ++ "+"%char :: s) (Num x)
| signed_minus : forall b s x, blanks b -> unsigned_number s x -> signed_text (b ++ "-"%char :: s) (Num (- x))
with operand_text : list ascii -> exp -> Prop :=
| operand_number : forall b s x, blanks b -> unsigned_number s x -> operand_text (b ++ s) (Num x)
| operand_variable : forall b s, blanks b -> name s -> operand_text (b ++ s) (Var s)
| operand_call : forall b f b' s e b'', blanks b -> name f -> blanks b' -> sum_text s e -> blanks b'' -> operand_text (b ++ f ++ b' ++ "("%char :: s ++ b'' ++ [")"%char]) (Call f e)
| operand_parentheses : forall b s e b', blanks b -> sum_text s e -> blanks b' -> operand_text (b ++ "("%char :: s ++ b' ++ [")"%char]) e.

(** The functions a user may call *)
Definition txt (s : string) : list ascii := list_ascii_of_string s.
