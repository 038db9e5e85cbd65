(** Specification vocabulary for the observers (C26-C29, C63): text lines, latest written values, JSON. *)
From Coq Require Import ZArith NArith List Bool Lia String Ascii.
From Verif Require Import Observer_Model.
Import ListNotations.
Open Scope string_scope.

(** ** Text *)
Fixpoint split_on (c : ascii) (s : string) : list string :=
  match s with
  | "" => [""]
  | String a s' =>
      if Ascii.eqb a c then "" :: split_on c s'
      else match split_on c s' with h :: t => String a h :: t | [] => [String a ""] end
  end.
Fixpoint has_char (c : ascii) (s : string) : bool :=
  match s with "" => false | String a s' => orb (Ascii.eqb a c) (has_char c s') end.
Definition nl : ascii := ascii_of_nat 10.
Definition lines (s : string) : list string := split_on nl s.
(** Fields separated by one or more blanks. *)
Definition words (s : string) : list string := filter (fun w => negb (String.eqb w "")) (split_on " " s).

(** ** What has been written so far *)
(** The writes of the instants [steps], oldest first. *)
Definition writes {D G} (steps : list (D * list (string * value D G))) : list (string * value D G) :=
  flat_map (fun p => ("t", VDouble (fst p)) :: snd p) steps.
(** The last value written for [x]. *)
Definition latest {D G} (steps : list (D * list (string * value D G))) (x : string) : option (value D G) :=
  smap_find x (rev (writes steps)).
(** The states of a body in the results of the API: position, velocity in the body frame, angular velocity, quaternion (StateMacros.hpp). *)
Definition state_order : list string := ["x"; "y"; "z"; "u"; "v"; "w"; "p"; "q"; "r"; "qr"; "qi"; "qj"; "qk"].
Definition state_of_body (body s : string) : string := s ++ "(" ++ body ++ ")".
Definition value_text {D G} (fmt : D -> string) (v : option (value D G)) : string :=
  match v with Some (VDouble d) => fmt d | _ => "" end.

(** ** JSON (RFC 8259), on bytes; the text of numbers and strings is kept undecoded. *)
Inductive json : Type :=
| JNum (lexeme : string) | JStr (raw : string) | JWord (w : string)
| JArr (l : list json) | JObj (l : list (string * json)).

Definition is_digit (c : ascii) : bool := let n := nat_of_ascii c in andb (Nat.leb 48 n) (Nat.leb n 57).
Inductive nst := N0 | NMinus | NZero | NInt | NDot | NFrac | NE | NESign | NExp.
Definition nstep (q : nst) (c : ascii) : option nst :=
  let e := orb (Ascii.eqb c "e") (Ascii.eqb c "E") in
  match q with
  | N0 => if Ascii.eqb c "-" then Some NMinus else if Ascii.eqb c "0" then Some NZero else if is_digit c then Some NInt else None
  | NMinus => if Ascii.eqb c "0" then Some NZero else if is_digit c then Some NInt else None
  | NZero => if Ascii.eqb c "." then Some NDot else if e then Some NE else None
  | NInt => if is_digit c then Some NInt else if Ascii.eqb c "." then Some NDot else if e then Some NE else None
  | NDot => if is_digit c then Some NFrac else None
  | NFrac => if is_digit c then Some NFrac else if e then Some NE else None
  | NE => if orb (Ascii.eqb c "+") (Ascii.eqb c "-") then Some NESign else if is_digit c then Some NExp else None
  | NESign => if is_digit c then Some NExp else None
  | NExp => if is_digit c then Some NExp else None
  end.
Definition naccept (q : nst) : bool := match q with NZero | NInt | NFrac | NExp => true | _ => false end.
Fixpoint scan_num (q : nst) (s : string) : option (string * string) :=
  match s with
  | "" => if naccept q then Some ("", "") else None
  | String c s' => match nstep q c with
                   | Some q' => match scan_num q' s' with Some (l, r) => Some (String c l, r) | None => None end
                   | None => if naccept q then Some ("", s) else None
                   end
  end.
(** A JSON number. *)
Definition json_number (s : string) : Prop := scan_num N0 s = Some (s, "").

Definition dquote : ascii := ascii_of_nat 34.
Definition backslash : ascii := ascii_of_nat 92.
Definition is_hex (c : ascii) : bool :=
  let n := nat_of_ascii c in
  orb (is_digit c) (orb (andb (Nat.leb 97 n) (Nat.leb n 102)) (andb (Nat.leb 65 n) (Nat.leb n 70))).
(** The characters of a string after its opening quote. *)
Fixpoint scan_str (s : string) : option (string * string) :=
  match s with
  | "" => None
  | String c s' =>
      if Ascii.eqb c dquote then Some ("", s')
      else if Ascii.eqb c backslash then
        match s' with
        | String e s2 =>
            if Ascii.eqb e "u" then
              match s2 with
              | String a (String b (String d (String f s3))) =>
                  if andb (andb (is_hex a) (is_hex b)) (andb (is_hex d) (is_hex f))
                  then match scan_str s3 with
                       | Some (l, r) => Some (String c (String e (String a (String b (String d (String f l))))), r)
                       | None => None
                       end
                  else None
              | _ => None
              end
            else if existsb (Ascii.eqb e) [dquote; backslash; "/"%char; "b"%char; "f"%char; "n"%char; "r"%char; "t"%char]
            then match scan_str s2 with Some (l, r) => Some (String c (String e l), r) | None => None end
            else None
        | "" => None
        end
      else if Nat.ltb (nat_of_ascii c) 32 then None
      else match scan_str s' with Some (l, r) => Some (String c l, r) | None => None end
  end.
Definition is_ws (c : ascii) : bool := existsb (Nat.eqb (nat_of_ascii c)) [32; 9; 10; 13].
Fixpoint skip_ws (s : string) : string :=
  match s with String c s' => if is_ws c then skip_ws s' else s | "" => "" end.
Fixpoint strip (w s : string) : option string :=
  match w, s with
  | "", _ => Some s
  | String a w', String b s' => if Ascii.eqb a b then strip w' s' else None
  | _, "" => None
  end.
Definition scan_word (s : string) : option (json * string) :=
  match strip "true" s, strip "false" s, strip "null" s with
  | Some r, _, _ => Some (JWord "true", r)
  | _, Some r, _ => Some (JWord "false", r)
  | _, _, Some r => Some (JWord "null", r)
  | _, _, _ => None
  end.

Fixpoint jvalue (n : nat) (s : string) {struct n} : option (json * string) :=
  match n with
  | O => None
  | S n' =>
      match skip_ws s with
      | "" => None
      | String c r =>
          if Ascii.eqb c "{" then
            match skip_ws r with
            | String d r' => if Ascii.eqb d "}" then Some (JObj [], r')
                             else match jmembers n' r with Some (l, r2) => Some (JObj l, r2) | None => None end
            | "" => None
            end
          else if Ascii.eqb c "[" then
            match skip_ws r with
            | String d r' => if Ascii.eqb d "]" then Some (JArr [], r')
                             else match jelements n' r with Some (l, r2) => Some (JArr l, r2) | None => None end
            | "" => None
            end
          else if Ascii.eqb c dquote then
            match scan_str r with Some (l, r2) => Some (JStr l, r2) | None => None end
          else match scan_num N0 (String c r) with
               | Some (l, r2) => Some (JNum l, r2)
               | None => scan_word (String c r)
               end
      end
  end
with jmembers (n : nat) (s : string) {struct n} : option (list (string * json) * string) :=
  match n with
  | O => None
  | S n' =>
      match skip_ws s with
      | String q r =>
          if Ascii.eqb q dquote then
            match scan_str r with
            | Some (k, r1) =>
                match skip_ws r1 with
                | String colon r2 =>
                    if Ascii.eqb colon ":" then
                      match jvalue n' r2 with
                      | Some (v, r3) =>
                          match skip_ws r3 with
                          | String d r4 =>
                              if Ascii.eqb d "," then
                                match jmembers n' r4 with Some (l, r5) => Some ((k, v) :: l, r5) | None => None end
                              else if Ascii.eqb d "}" then Some ([(k, v)], r4) else None
                          | "" => None
                          end
                      | None => None
                      end
                    else None
                | "" => None
                end
            | None => None
            end
          else None
      | "" => None
      end
  end
with jelements (n : nat) (s : string) {struct n} : option (list json * string) :=
  match n with
  | O => None
  | S n' =>
      match jvalue n' s with
      | Some (v, r3) =>
          match skip_ws r3 with
          | String d r4 =>
              if Ascii.eqb d "," then
                match jelements n' r4 with Some (l, r5) => Some (v :: l, r5) | None => None end
              else if Ascii.eqb d "]" then Some ([v], r4) else None
          | "" => None
          end
      | None => None
      end
  end.
(** Each level consumes a character, so the length of the text is enough fuel. *)
Definition json_parse (s : string) : option json :=
  match jvalue (2 * String.length s + 2) s with
  | Some (j, r) => match skip_ws r with "" => Some j | _ => None end
  | None => None
  end.
Example json_parse_ok : json_parse "{ ""a"" : [1, -2.5e+3,true], ""b"":{}, ""c\n\u00e9"":""x"" }"
  = Some (JObj [("a", JArr [JNum "1"; JNum "-2.5e+3"; JWord "true"]); ("b", JObj []); ("c\n\u00e9", JStr "x")]).
Proof. reflexivity. Qed.
Example json_parse_ko : map json_parse ["{,""a"":1}"; "{""a"":1,}"; "{""a"":{}""b"":1}"; "{'a':1}"; "01"; "1."; "nan"; "{} x"; ""]
  = [None; None; None; None; None; None; None; None; None].
Proof. reflexivity. Qed.

(** Member [k] of an object, and of nested objects. *)
Definition jfield (k : string) (j : json) : option json := match j with JObj l => smap_find k l | _ => None end.
Fixpoint jpath (p : list string) (j : json) : option json :=
  match p with [] => Some j | k :: p' => match jfield k j with Some j' => jpath p' j' | None => None end end.

(** ** Variable names *)
(** [Plain n] is written n, [Field f obj] is written f(obj). *)
Inductive vname := Plain (n : string) | Field (f obj : string).
Definition vtext (x : vname) : string := match x with Plain n => n | Field f obj => f ++ "(" ++ obj ++ ")" end.
(** Usual names: not empty, and no parenthesis outside the object part. *)
Definition well_named (x : vname) : Prop :=
  match x with
  | Plain n => n <> "" /\ has_char "(" n = false /\ has_char ")" n = false
  | Field f obj => f <> "" /\ obj <> "" /\ has_char "(" f = false
  end.
(** Characters that need no escape in JSON. *)
Definition plain_char (c : ascii) : bool :=
  negb (orb (Ascii.eqb c dquote) (orb (Ascii.eqb c backslash) (Nat.ltb (nat_of_ascii c) 32))).
Fixpoint json_clean (s : string) : bool :=
  match s with "" => true | String c s' => andb (plain_char c) (json_clean s') end.
