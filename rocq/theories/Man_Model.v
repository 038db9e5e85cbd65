(** Model of the symbolic expressions of the maneuvering model: code/force_models/inc/maneuvering_grammar.hpp, src/maneuvering_compiler.cpp,
    inc/ManeuveringInternal.hpp, src/ManeuveringInternal.cpp and get_Tmax of src/ManeuveringForceModel.cpp.
    Numbers are exact reals. Texts are lists of characters. The grammar is the parsing expression grammar that boost::spirit::qi executes (ordered
    alternatives, greedy repetitions, blanks skipped before every character or literal). *)
From Coq Require Import Reals List Bool String Ascii ZArith.
From Verif Require Import Common.
Import ListNotations.
Open Scope R_scope.

Definition text := list ascii.
Definition parser (A : Type) := text -> option (A * text).

(** ** Characters *)
Definition is_blank (c : ascii) : bool := Ascii.eqb c " " || Ascii.eqb c "009".
Definition between (a b : ascii) (c : ascii) : bool := Nat.leb (nat_of_ascii a) (nat_of_ascii c) && Nat.leb (nat_of_ascii c) (nat_of_ascii b).
Definition is_digit : ascii -> bool := between "0" "9".
Definition is_alpha (c : ascii) : bool := between "a" "z" c || between "A" "Z" c.
Definition is_word (c : ascii) : bool := is_alpha c || is_digit c || Ascii.eqb c "_".
(** The skipper (boost::spirit::ascii::blank) *)
Fixpoint skip (s : text) : text := match s with c :: s' => if is_blank c then skip s' else s | [] => [] end.
(** qi::lit and qi::char_ *)
Definition lit (p : ascii -> bool) : parser ascii := fun s => match skip s with c :: r => if p c then Some (c, r) else None | [] => None end.
(** *p : [n] bounds the number of repetitions; it is the length of the text, and every repetition reads a character. *)
Fixpoint many {A} (n : nat) (p : parser A) (s : text) : list A * text :=
  match n with
  | O => ([], s)
  | S n => match p s with Some (a, r) => let (l, r') := many n p r in (a :: l, r') | None => ([], s) end
  end.

(** ** Syntax tree (maneuvering_grammar.hpp:18-71) *)
Inductive expr : Type := Expr (first : term) (rest : list (ascii * term))
with term : Type := Term (first : factor) (rest : list (ascii * factor))
with factor : Type := Factor (b : base) (exponents : list base)
with base : Type := BNil | BExpr (e : expr) | BAtom (a : atom)
with atom : Type := ANum (x : R) | AIdentifier (name : text) | ACall (name : text) (e : expr).

(** qi::double_ (boost), without "inf" and "nan", which need a sign to be reached (an identifier is tried first) *)
Fixpoint digits (s : text) : list ascii * text :=
  match s with c :: s' => if is_digit c then (let (l, r) := digits s' in (c :: l, r)) else ([], s) | [] => ([], []) end.
Definition digit (c : ascii) : Z := Z.of_nat (nat_of_ascii c - 48).
Definition number (l : list ascii) : Z := fold_left (fun n c => 10 * n + digit c)%Z l 0%Z.
Definition sign (s : text) : bool * text :=
  match s with c :: r => if Ascii.eqb c "-" then (true, r) else if Ascii.eqb c "+" then (false, r) else (false, s) | [] => (false, s) end.
Definition scaled (neg : bool) (mantissa : list ascii) (exponent : Z) : R := (if neg then -1 else 1) * (IZR (number mantissa) * powerRZ 10 exponent).
(** the exponent; when "e" is not followed by a number it is not read *)
Definition exponent_part (s : text) : Z * text :=
  match s with
  | c :: r => if Ascii.eqb c "e" || Ascii.eqb c "E" then
                let (neg, r1) := sign r in
                match digits r1 with ([], _) => (0%Z, s) | (d, r2) => ((if neg then - number d else number d)%Z, r2) end
              else (0%Z, s)
  | [] => (0%Z, s)
  end.
Definition double_ : parser R := fun s =>
  let (neg, s1) := sign (skip s) in
  let (ip, s2) := digits s1 in
  match s2 with
  | c :: s3 => if Ascii.eqb c "." then
                 let (fp, s4) := digits s3 in
                 match ip, fp with
                 | [], [] => None
                 | _, _ => let (ex, s5) := exponent_part s4 in Some (scaled neg (ip ++ fp) (ex - Z.of_nat (List.length fp)), s5)
                 end
               else match ip with [] => None | _ => let (ex, s5) := exponent_part s2 in Some (scaled neg ip ex, s5) end
  | [] => match ip with [] => None | _ => Some (scaled neg ip 0, []) end
  end.

(** ** Grammar (maneuvering_grammar.hpp:114-152) *)
(** 136: identifier = alpha >> *(alnum | '_'), with blanks skipped between the characters *)
Definition identifier : parser text := fun s =>
  match lit is_alpha s with Some (c, r) => let (l, r') := many (List.length r) (lit is_word) r in Some (c :: l, r') | None => None end.
Definition char_is (c : ascii) : ascii -> bool := Ascii.eqb c.
(** '(' >> expr >> ')' *)
Definition parenthesised (pe : parser expr) : parser expr := fun s =>
  match lit (char_is "(") s with
  | Some (_, r) => match pe r with Some (e, r') => match lit (char_is ")") r' with Some (_, r'') => Some (e, r'') | None => None end | None => None end
  | None => None
  end.
(** 135 *)
Definition function_call (pe : parser expr) : parser atom := fun s =>
  match identifier s with Some (f, r) => match parenthesised pe r with Some (e, r') => Some (ACall f e, r') | None => None end | None => None end.
(** 134 *)
Definition atom_ (pe : parser expr) : parser atom := fun s =>
  match function_call pe s with
  | Some x => Some x
  | None => match identifier s with
            | Some (name, r) => Some (AIdentifier name, r)
            | None => match double_ s with Some (x, r) => Some (ANum x, r) | None => None end
            end
  end.
(** 132 *)
Definition base_ (pe : parser expr) : parser base := fun s =>
  match parenthesised pe s with
  | Some (e, r) => Some (BExpr e, r)
  | None => match atom_ pe s with Some (a, r) => Some (BAtom a, r) | None => None end
  end.
(** p preceded by one of the characters *)
Definition operator_and {A} (ops : ascii -> bool) (p : parser A) : parser (ascii * A) := fun s =>
  match lit ops s with Some (c, r) => match p r with Some (a, r') => Some ((c, a), r') | None => None end | None => None end.
Definition list_of {A B} (p : parser A) (ops : ascii -> bool) (q : parser B) : parser (A * list (ascii * B)) := fun s =>
  match p s with Some (a, r) => let (l, r') := many (List.length r) (operator_and ops q) r in Some ((a, l), r') | None => None end.
(** 131, 130, 125: factor, term, expr *)
Definition factor_ (pe : parser expr) : parser factor := fun s =>
  match list_of (base_ pe) (char_is "^") (base_ pe) s with Some ((b, l), r) => Some (Factor b (map snd l), r) | None => None end.
Definition mul_operators (c : ascii) : bool := char_is "*" c || char_is "/" c.
Definition add_operators (c : ascii) : bool := char_is "+" c || char_is "-" c.
Definition term_ (pe : parser expr) : parser term := fun s =>
  match list_of (factor_ pe) mul_operators (factor_ pe) s with Some ((f, l), r) => Some (Term f l, r) | None => None end.
(** The recursion through parentheses reads a character each time: the length of the text bounds its depth. *)
Fixpoint expr_ (depth : nat) : parser expr := fun s =>
  match depth with
  | O => None
  | S depth => match list_of (term_ (expr_ depth)) add_operators (term_ (expr_ depth)) s with Some ((t, l), r) => Some (Expr t l, r) | None => None end
  end.

(** ** Nodes (ManeuveringInternal.hpp) *)
Inductive state_type : Type := X | Y | Z_ | U | V | W | P | Q | R_ | QR | QI | QJ | QK | PHI | THETA | PSI.
Inductive unary : Type := Cos | Sin | Abs | Log | Exp | Sqrt.
Inductive binary : Type := Sum | Difference | Multiply | Divide | Pow.
Inductive node : Type :=
| Constant (x : R) | NaN | Time | UnknownIdentifier (name : text)
| Unary (f : unary) (a : node) | Binary (f : binary) (a b : node) | State (s : state_type) (a : node).

(** ** Evaluator (maneuvering_compiler.cpp:77-161) *)
Definition str (s : string) : text := list_ascii_of_string s.
Definition text_eqb (a b : text) : bool := if list_eq_dec ascii_dec a b then true else false.
Definition operation (c : ascii) (l r : node) : node :=
  if Ascii.eqb c "-" then Binary Difference l r else if Ascii.eqb c "+" then Binary Sum l r
  else if Ascii.eqb c "*" then Binary Multiply l r else if Ascii.eqb c "/" then Binary Divide l r else l.
(** PrettyPrinter (lines 18-75); [fmt] is the default format of a double in a stream *)
Section Printer.
  Variable fmt : R -> text.
  Definition par (s : text) : text := "("%char :: s ++ [")"%char].
  Fixpoint print_expr (e : expr) : text :=
    match e with Expr t l => fold_left (fun ret o => ret ++ fst o :: par (print_term (snd o))) l (print_term t) end
  with print_term (t : term) : text :=
    match t with Term f l => fold_left (fun ret o => ret ++ fst o :: par (print_factor (snd o))) l (print_factor f) end
  with print_factor (f : factor) : text :=
    match f with Factor b l => fold_left (fun ret e => par ret ++ "^"%char :: par (print_base e)) l (print_base b) end
  with print_base (b : base) : text := match b with BNil => str "NaN" | BExpr e => print_expr e | BAtom a => print_atom a end
  with print_atom (a : atom) : text := match a with ANum x => fmt x | AIdentifier n => n | ACall f e => f ++ par (print_expr e) end.
  Definition functions : list (text * (node -> node)) :=
    [(str "cos", Unary Cos); (str "sin", Unary Sin); (str "exp", Unary Exp); (str "abs", Unary Abs); (str "log", Unary Log); (str "sqrt", Unary Sqrt);
     (str "x", State X); (str "y", State Y); (str "z", State Z_); (str "u", State U); (str "v", State V); (str "w", State W); (str "p", State P); (str "q", State Q);
     (str "r", State R_); (str "phi", State PHI); (str "theta", State THETA); (str "psi", State PSI); (str "qr", State QR); (str "qi", State QI); (str "qj", State QJ);
     (str "qk", State QK)].
  Definition call (f : text) (printed : text) (a : node) : node :=
    match find (fun g => text_eqb (fst g) f) functions with Some g => snd g a | None => UnknownIdentifier printed end.
  Fixpoint eval_expr (e : expr) : node := match e with Expr t l => fold_left (fun ret o => operation (fst o) ret (eval_term (snd o))) l (eval_term t) end
  with eval_term (t : term) : node := match t with Term f l => fold_left (fun ret o => operation (fst o) ret (eval_factor (snd o))) l (eval_factor f) end
  with eval_factor (f : factor) : node := match f with Factor b l => fold_left (fun ret e => Binary Pow ret (eval_base e)) l (eval_base b) end
  with eval_base (b : base) : node := match b with BNil => NaN | BExpr e => eval_expr e | BAtom a => eval_atom a end
  with eval_atom (a : atom) : node :=
    match a with
    | ANum x => Constant x
    | AIdentifier n => if text_eqb n (str "t") then Time else UnknownIdentifier n
    | ACall f e => call f (f ++ par (print_expr e)) (eval_expr e)
    end.
  (** compile (163-171): the result of phrase_parse is not read. When the grammar does not match, the tree keeps its initial value. *)
  Definition parse (s : text) : option (expr * text) := expr_ (S (List.length s)) s.
  Definition compile (s : text) : outcome node :=
    match parse s with Some (e, _) => Ok (eval_expr e) | None => Ok NaN end.
  (** print (173-181) *)
  Definition print (s : text) : outcome text := match parse s with Some (e, _) => Ok (print_expr e) | None => Ok (str "NaN") end.
End Printer.

(** ** Values of the nodes (get_lambda). [state s tau] is the value of a state [tau] seconds ago (History::operator()); [pow] is std::pow; [ident] is the DataSource.
    A NaN is None. *)
Section Values.
  Variable pow : R -> R -> R.
  Variable ident : text -> R.
  Variable state : state_type -> R -> R.
  Variable t : R.
  Definition unary_value (f : unary) (x : R) : R :=
    match f with Cos => cos x | Sin => sin x | Abs => Rabs x | Log => ln x | Exp => exp x | Sqrt => sqrt x end.
  Definition binary_value (f : binary) (x y : R) : R :=
    match f with Sum => x + y | Difference => x - y | Multiply => x * y | Divide => x / y | Pow => pow x y end.
  Fixpoint node_value (n : node) : option R :=
    match n with
    | Constant x => Some x
    | NaN => None
    | Time => Some t
    | UnknownIdentifier name => Some (ident name)
    | Unary f a => option_map (unary_value f) (node_value a)
    | Binary f a b => match node_value a, node_value b with Some x, Some y => Some (binary_value f x y) | _, _ => None end
    | State s a => option_map (fun x => state s (t - x)) (node_value a)
    end.
End Values.

(** ** Bounds (get_min, get_max of ManeuveringInternal.cpp) *)
Section Bounds.
  Variable pow : R -> R -> R.
  (** the two bounds of a node, (get_min, get_max); None when one is a NaN *)
  Fixpoint bounds (n : node) : option (R * R) :=
    match n with
    | Constant x => Some (x, x)
    | NaN => None
    | Time | UnknownIdentifier _ => Some (0, 0)
    | State _ _ => Some (- 10 ^ 15, 10 ^ 15)
    | Unary Cos _ | Unary Sin _ => Some (-1, 1)
    | Unary f a => option_map (fun b => match f with
                                        | Abs => (0, Rmax (Rabs (snd b)) (Rabs (fst b)))
                                        | Log => (ln (fst b), ln (snd b))
                                        | Exp => (exp (fst b), exp (snd b))
                                        | _ => (sqrt (fst b), sqrt (snd b))
                                        end) (bounds a)
    | Binary f a b =>
        match bounds a, bounds b with
        | Some (la, ha), Some (lb, hb) =>
            Some (match f with
                  | Sum => (la + lb, ha + hb)
                  | Difference => (la - hb, ha - lb)
                  | Multiply => (la * lb, ha * hb)
                  | Divide => (la / hb, ha / lb)
                  | Pow => (Rmin (Rmin (pow la lb) (pow la hb)) (Rmin (pow ha lb) (pow ha hb)), Rmax (Rmax (pow la lb) (pow la hb)) (Rmax (pow ha lb) (pow ha hb)))
                  end)
        | _, _ => None
        end
    end.
  (** FindTmax (661-785): the states' operands are not visited. std::max(Tmax, NaN) is Tmax. *)
  Fixpoint find_Tmax (n : node) (Tmax : R) : R :=
    match n with
    | State X a => match bounds a with Some (lo, _) => Rmax Tmax (- lo) | None => Tmax end
    | State _ a => match bounds a with Some (_, hi) => Rmax Tmax (- hi) | None => Tmax end
    | Unary _ a => find_Tmax a Tmax
    | Binary _ a b => find_Tmax b (find_Tmax a Tmax)
    | _ => Tmax
    end.
  (** maneuvering_compiler.cpp:183-188 and ManeuveringForceModel.cpp:104-112 *)
  Definition node_Tmax (n : node) : R := find_Tmax n 0.
  Definition model_Tmax (m : list (text * node)) : R := fold_left (fun Tmax e => Rmax Tmax (node_Tmax (snd e))) m 0.
End Bounds.
