(** Model of the reader of ASCII STL files (external_file_formats/src/stl_reader.cpp:10-147,184-196).

    A character is a byte, of type [Z]. A [double] is an element of an arbitrary type [D]; [%lf] is an arbitrary function
    [scan_double]. The process locale is an element of an arbitrary type [L]. *)
From Coq Require Import ZArith List Bool Lia String Ascii.
From Verif Require Import Common Stl_Model.
Import ListNotations.
Open Scope Z_scope.

(** The bytes of a literal. *)
Definition codes (s : string) : list Z := map (fun c => Z.of_nat (nat_of_ascii c)) (list_ascii_of_string s).

(** [strcmp(a, b) == 0]. *)
Definition same (a b : list Z) : bool := if list_eq_dec Z.eq_dec a b then true else false.

(** [std::istream::getline(line, n + 1)] on a stream that is good: the characters stored, what remains to be read and
    [good()] after the call. The end of file sets eofbit, the end of line is extracted, and a line that does not fit sets
    failbit. *)
Fixpoint take_line (n : nat) (l : list Z) {struct l} : list Z * stream :=
  match l with
  | [] => ([], ([], false))
  | c :: t =>
      if c =? 10 then ([], (t, true)) else
      match n with
      | O => ([], (l, false))
      | S n' => let '(a, s) := take_line n' t in (c :: a, s)
      end
  end.

(** A line of characters, [char input[LINE_MAX_LENGTH]] (lines 86, 10): the bytes that were never written are [None]. *)
Definition buffer : Type := list (option Z).

(** [ParserState::get_line] (lines 35-37), with LINE_MAX_LENGTH = 256 (line 10): the line is stored with a final null
    character over the beginning of the buffer, the rest of which keeps its value. A stream that is not good gives an empty
    line. *)
Definition get_line (s : stream) (b : buffer) : buffer * stream :=
  let '(p, s') := (if snd s then take_line 255 (fst s) else ([], s)) in
  (map Some p ++ Some 0 :: skipn (S (List.length p)) b, s').

(** The C string found at the beginning of a region of memory; reading indeterminate bytes or beyond the end of the array
    is undefined. *)
Fixpoint cstr (b : buffer) : outcome (list Z) :=
  match b with
  | Some c :: t => if c =? 0 then Ok [] else do s <- cstr t ; Ok (c :: s)
  | _ => UB
  end.

(** [isspace] in the C locale. *)
Definition is_space (c : Z) : bool := ((9 <=? c) && (c <=? 13)) || (c =? 32).

Fixpoint span {A} (f : A -> bool) (l : list A) : list A * list A :=
  match l with
  | [] => ([], [])
  | c :: t => if f c then let '(a, b) := span f t in (c :: a, b) else ([], l)
  end.

(** [sscanf(s, "%s%n", token, &width)]: the word and the number of characters consumed; [None] when there is no word, and
    then [token] and [width] are left as they were. *)
Definition scan_word (s : list Z) : option (list Z * nat) :=
  let '(blanks, rest) := span is_space s in
  match fst (span (fun c => negb (is_space c)) rest) with
  | [] => None
  | w => Some (w, (List.length blanks + List.length w)%nat)
  end.

(** Lines 93 and 95: the spaces (only) are skipped; number of characters skipped. *)
Definition leading_spaces (s : list Z) : nat := List.length (fst (span (Z.eqb 32) s)).

Section Reader.
Variables D L : Type.
(** One conversion [%lf]: the value and what follows it; [None] when there is no number. *)
Variable scan_double : list Z -> option (D * list Z).
(** The locale "C" (line 79). *)
Variable c_locale : L.

(** [sscanf(s, "%lf %lf %lf", ...)]: the values assigned. *)
Fixpoint scan_doubles (n : nat) (s : list Z) : list D :=
  match n with
  | O => []
  | S n' => match scan_double s with None => [] | Some (x, r) => x :: scan_doubles n' r end
  end.

(** A point: a coordinate that is not assigned is indeterminate, [None] (lines 46 and 54: [EPoint] is not initialised). *)
Definition point : Type := (option D * option D * option D)%type.
Definition point_of (l : list D) : point := (nth_error l 0, nth_error l 1, nth_error l 2).

(** Lines 44-56. [char token[20] = ""]: a longer word overflows the array. *)
Definition read_vertex (b : buffer) : outcome point :=
  do line <- cstr b ;
  match scan_word line with
  | None => Throw
  | Some (token, width) =>
      if (20 <=? List.length token)%nat then UB else
      if same token (codes "vertex") then Ok (point_of (scan_doubles 3 (skipn width line))) else Throw
  end.

(** Lines 58-66. [char token[20]] is not initialised: comparing it when no word was read is undefined. The components of
    the normal are never used: left out. *)
Definition read_normal (b : buffer) : outcome unit :=
  do line <- cstr b ;
  match scan_word line with
  | None => UB
  | Some (token, width) =>
      if (20 <=? List.length token)%nat then UB else
      if same token (codes "normal") then Ok tt else Throw
  end.

(** Lines 107-127: what follows the word facet, starting at offset [next] of the buffer. *)
Definition read_facet (s : stream) (b : buffer) (next : nat) : outcome (list point * stream * buffer) :=
  do _ <- read_normal (skipn next b) ;
  let '(b, s) := get_line s b in
  let '(b, s) := get_line s b in
  do p0 <- read_vertex b ;
  let '(b, s) := get_line s b in
  do p1 <- read_vertex b ;
  let '(b, s) := get_line s b in
  do p2 <- read_vertex b ;
  let '(b, s) := get_line s b in
  let '(b, s) := get_line s b in
  Ok ([p0; p1; p2], s, b).

(** Lines 89-146. The state: the stream, the buffer, the last word ([None]: not initialised), its width, whether the end
    was reached, and the facets read so far (the last one first). [fuel] bounds the number of iterations, see
    [enough_fuel]. The result and the locale in force at the end (lines 138, 145). What line 129 assigns is never used. *)
Fixpoint read_loop (saved : L) (fuel : nat) (s : stream) (b : buffer) (token : option (list Z)) (width : nat)
    (end_reached : bool) (acc : list (list point)) : outcome (list (list point)) * L :=
  match fuel with
  | O => (UB, c_locale)
  | S fuel' =>
      if snd s then
        let '(b, s) := get_line s b in
        match cstr b with
        | Ok line =>
            let next := leading_spaces line in
            match skipn next line with
            | [] => read_loop saved fuel' s b token width end_reached acc
            | c :: _ =>
                if (c =? 35) || (c =? 33) || (c =? 36) then read_loop saved fuel' s b token width end_reached acc else
                let '(token, width) :=
                  match scan_word (skipn next line) with Some (t, w) => (Some t, w) | None => (token, width) end in
                let next := (next + width)%nat in
                match token with
                | None => (UB, c_locale)
                | Some t =>
                    if same t (codes "facet") then
                      match read_facet s b next with
                      | Ok (f, s, b) => read_loop saved fuel' s b token width end_reached (f :: acc)
                      | Throw => (Throw, c_locale)
                      | UB => (UB, c_locale)
                      end
                    else if same t (codes "color") then
                      match cstr (skipn next b) with
                      | Ok _ => read_loop saved fuel' s b token width end_reached acc
                      | _ => (UB, c_locale)
                      end
                    else if same t (codes "solid") then read_loop saved fuel' s b token width end_reached acc
                    else if same t (codes "endsolid") then read_loop saved fuel' s b token width true acc
                    else (Throw, saved)
                end
            end
        | _ => (UB, c_locale)
        end
      else if end_reached then (Ok (rev acc), saved) else (Throw, c_locale)
  end.

(** Lines 71-88: the first line is dropped. *)
Definition read_ascii_stl (saved : L) (input : list Z) : outcome (list (list point)) * L :=
  let '(b, s) := get_line (input, true) (repeat None 256) in
  read_loop saved (2 + List.length input) s b None 0 false [].

(** Lines 184-196: the facets of the file and the locale in force afterwards; [widen] is the conversion of the words of a
    binary file to double. *)
Definition read_stl_file (peeks : bool) (widen : Z -> D) (saved : L) (input : list Z) : outcome (list (list point)) * L :=
  match is_stl_data_binary input with
  | Ok true =>
      (do fs <- read_binary_stl peeks input ;
       Ok (map (map (fun '(x, y, z) => (Some (widen x), Some (widen y), Some (widen z)))) fs), saved)
  | Ok false => read_ascii_stl saved input
  | Throw => (Throw, saved)
  | UB => (UB, saved)
  end.
End Reader.
