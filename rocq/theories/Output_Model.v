(** Model of the choice of an output from the command line: yaml_parser/src/parse_address.cpp and parse_output.cpp.
    Strings are byte strings ([string]); [size_t] arithmetic is modulo 2^64. *)
From Coq Require Import ZArith List Bool Ascii String.
From Verif Require Import Common.
Import ListNotations.
Open Scope string_scope.

(** ** Regular expressions *)

(** The regular expressions used here are sequences of these items; a [Star]/[Plus] class is given by the characters it excludes. *)
Inductive item : Type :=
| Alt (l : list string)            (* (a|b|...) *)
| Lit (s : string)
| Opt (c : ascii)                  (* c? *)
| Star (excluded : list ascii)     (* [^...]* *)
| Plus (excluded : list ascii).    (* [^...]+ *)

Definition allowed (excluded : list ascii) (c : ascii) : bool := negb (existsb (Ascii.eqb c) excluded).

Fixpoint strip (p s : string) : option string :=
  match p, s with
  | EmptyString, _ => Some s
  | String a p', String b s' => if Ascii.eqb a b then strip p' s' else None
  | _, _ => None
  end.

(** Greedy matching of a class, most characters first, then fewer ([k] is the rest of the match). *)
Fixpoint star (excluded : list ascii) (k : string -> option (list string)) (s : string) : option (list string) :=
  match s with
  | EmptyString => match k s with Some r => Some ("" :: r) | None => None end
  | String c s' =>
      let here := match k s with Some r => Some ("" :: r) | None => None end in
      if allowed excluded c then
        match star excluded k s' with
        | Some (cap :: r) => Some (String c cap :: r)
        | _ => here
        end
      else here
  end.

(** boost::regex_match (Perl syntax): the whole string must match; among the matches, the first in backtracking order (alternatives
    from left to right, repetitions from the longest). The result lists what each item matched. *)
Fixpoint regex_match (r : list item) (s : string) : option (list string) :=
  match r with
  | [] => match s with EmptyString => Some [] | _ => None end
  | it :: r' =>
      match it with
      | Lit p => match strip p s with Some s' => match regex_match r' s' with Some c => Some (p :: c) | None => None end | None => None end
      | Alt l => (fix alt l := match l with
                  | [] => None
                  | p :: l' => match strip p s with
                               | Some s' => match regex_match r' s' with Some c => Some (p :: c) | None => alt l' end
                               | None => alt l'
                               end
                  end) l
      | Opt c => match s with
                 | String a s' => if Ascii.eqb a c then
                                    match regex_match r' s' with
                                    | Some cs => Some (String c "" :: cs)
                                    | None => match regex_match r' s with Some cs => Some ("" :: cs) | None => None end
                                    end
                                  else match regex_match r' s with Some cs => Some ("" :: cs) | None => None end
                 | EmptyString => match regex_match r' s with Some cs => Some ("" :: cs) | None => None end
                 end
      | Star ex => star ex (regex_match r') s
      | Plus ex => match s with
                   | String a s' => if allowed ex a then
                                      match star ex (regex_match r') s' with
                                      | Some (cap :: cs) => Some (String a cap :: cs)
                                      | _ => None
                                      end
                                    else None
                   | EmptyString => None
                   end
      end
  end.

(** parse_address.cpp:10 (group 4, an optional slash followed by a class, is two items here). *)
Definition url_regex : list item :=
  [Alt ["ws"; "wss"]; Lit "://"; Plus ["/"; " "; ":"]%char; Opt ":"; Star ["/"; " "]%char;
   Opt "/"; Star [" "; "#"; "?"]%char; Opt "?"; Star [" "; "#"]%char; Opt "#"; Star [" "]%char].

(** [s.c_str()] read up to its first NUL. *)
Fixpoint c_str (s : string) : string :=
  match s with
  | EmptyString => EmptyString
  | String c s' => if Ascii.eqb c "000" then EmptyString else String c (c_str s')
  end.

(** ** std::atoi (C11 7.22.1.2): white space, an optional sign, decimal digits; the rest is ignored; undefined when the value does
    not fit an int. *)
Definition is_space (c : ascii) : bool :=
  let n := nat_of_ascii c in (n =? 32)%nat || ((9 <=? n)%nat && (n <=? 13)%nat).
Definition digit (c : ascii) : option Z :=
  let n := nat_of_ascii c in if ((48 <=? n)%nat && (n <=? 57)%nat) then Some (Z.of_nat (n - 48)) else None.
Fixpoint skip_spaces (s : string) : string :=
  match s with String c s' => if is_space c then skip_spaces s' else s | EmptyString => s end.
Fixpoint digits (acc : Z) (s : string) : Z :=
  match s with
  | String c s' => match digit c with Some d => digits (acc * 10 + d) s' | None => acc end
  | EmptyString => acc
  end.
Definition atoi (s : string) : outcome Z :=
  let s1 := skip_spaces s in
  let v := match s1 with
           | String c s' => if Ascii.eqb c "-" then (- digits 0 s')%Z else if Ascii.eqb c "+" then digits 0 s' else digits 0 s1
           | EmptyString => 0%Z
           end in
  if (v <? - 2 ^ 31)%Z || (2 ^ 31 <=? v)%Z then UB else Ok v.

(** external_data_structures/inc/YamlOutput.hpp. *)
Record output : Type := mkOutput { o_filename : string; o_format : string; o_address : string; o_port : Z; o_data : list string }.
Definition empty_output : output := mkOutput "" "" "" 0 [].

(** parse_address.cpp:51-80. *)
Definition build_YamlOutput_from_WS_URL (url : string) : outcome output :=
  match regex_match url_regex (c_str url) with
  | Some (protocol :: _ :: domain :: _ :: portAsString :: _) =>
      if negb (String.eqb protocol "ws") then Throw
      else
        do port <- atoi portAsString ;
        if (port <=? 0)%Z || (65535 <? port)%Z then Throw
        else Ok (mkOutput "" "ws" (protocol ++ "://" ++ domain) port [])
  | _ => Throw
  end.

(** ** Formats *)

(** [s.substr(pos, len)]: throws std::out_of_range when pos > size. [pos] is a size_t. *)
Definition substr (s : string) (pos len : Z) : outcome string :=
  if (Z.of_nat (String.length s) <? pos)%Z then Throw
  else Ok (String.substring (Z.to_nat pos) (Z.to_nat len) s).
(** [n - k] on size_t. *)
Definition size_sub (n k : Z) : Z := ((n - k) mod 2 ^ 64)%Z.

(** [if (filename.substr(n-k,k)==ext) return f; else continue with rest]. *)
Definition if_ends (filename : string) (k : Z) (ext f : string) (rest : outcome string) : outcome string :=
  do x <- substr filename (size_sub (Z.of_nat (String.length filename)) k) k ;
  if String.eqb x ext then Ok f else rest.

(** parse_output.cpp:100-114. *)
Definition get_format_for_wave_observer (filename : string) : outcome string :=
  if (Z.of_nat (String.length filename) <=? 3)%Z then Throw
  else if_ends filename 3 ".h5" "hdf5" (if_ends filename 5 ".hdf5" "hdf5" (if_ends filename 3 ".H5" "hdf5"
         (if_ends filename 5 ".HDF5" "hdf5" Throw))).

(** parse_output.cpp:116-132. *)
Definition get_format (filename : string) : outcome string :=
  if (Z.of_nat (String.length filename) =? 0)%Z then Ok "tsv"
  else if (Z.of_nat (String.length filename) <=? 3)%Z then Throw
  else if_ends filename 3 ".h5" "hdf5" (if_ends filename 5 ".hdf5" "hdf5" (if_ends filename 4 ".csv" "csv"
         (if_ends filename 4 ".tsv" "tsv" (if_ends filename 5 ".json" "json" Throw)))).

(** parse_output.cpp:134-168. *)
Definition build_YamlOutput_from_filename (filename : string) : outcome output :=
  if (String.eqb filename "" || String.eqb filename "tsv")%bool then Ok (mkOutput "" "tsv" "" 0 [])
  else if String.eqb filename "csv" then Ok (mkOutput "" "csv" "" 0 [])
  else if String.eqb filename "json" then Ok (mkOutput "" "json" "" 0 [])
  else if (String.eqb filename "h5" || String.eqb filename "hdf5")%bool then Throw
  else if (String.prefix "ws" filename || String.prefix "wss" filename)%bool then build_YamlOutput_from_WS_URL filename
  else do f <- get_format filename ; Ok (mkOutput filename f "" 0 []).

(** parse_output.cpp:54-57. *)
Definition customize (var_name body_name : string) : string := var_name ++ "(" ++ body_name ++ ")".
(** parse_output.cpp:59-79. *)
Definition fill (out : output) (body_name : string) : output :=
  mkOutput (o_filename out) (o_format out) (o_address out) (o_port out)
    (o_data out ++ [customize "x" body_name; customize "y" body_name; customize "z" body_name;
                    customize "u" body_name; customize "v" body_name; customize "w" body_name;
                    customize "p" body_name; customize "q" body_name; customize "r" body_name;
                    customize "qr" body_name; customize "qi" body_name; customize "qj" body_name; customize "qk" body_name;
                    customize "phi" body_name; customize "theta" body_name; customize "psi" body_name]).
(** parse_output.cpp:170-177. The body names, read from the YAML file, are given. *)
Definition generate_default_outputter (bodies : list string) (filename : string) : outcome output :=
  do out <- build_YamlOutput_from_filename filename ;
  Ok (fold_left fill bodies (mkOutput (o_filename out) (o_format out) (o_address out) (o_port out) (o_data out ++ ["t"]))).
