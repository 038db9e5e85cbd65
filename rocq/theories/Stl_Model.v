(** Model of the binary STL writer and reader (external_file_formats/src/stl_writer.cpp, stl_reader.cpp).

    A [float] is the 32-bit word that represents it (little-endian host, as the code copies the bytes of the object
    representation); a [double] is an element of an arbitrary type [D] with an arbitrary narrowing conversion to float.
    The widening float -> double done by the reader is exact, so the model keeps the words. *)
From Coq Require Import ZArith List Bool Lia.
From Verif Require Import Common.
Import ListNotations.
Open Scope Z_scope.

(** Object representation of a 32-bit word on a little-endian host ([os.write(reinterpret_cast<const char*>(&x), 4)]). *)
Definition le_bytes4 (w : Z) : list Z :=
  [w mod 256; (w / 256) mod 256; (w / 65536) mod 256; (w / 16777216) mod 256].

(** [memcpy] of four bytes into a 32-bit word. *)
Definition le_word4 (b0 b1 b2 b3 : Z) : Z := b0 + 256 * b1 + 65536 * b2 + 16777216 * b3.

Section Writer.
Variable D : Type.
(** [(float)x]: the 32-bit word of the rounded value. *)
Variable narrow : D -> Z.
(** [unit_normal__] (stl_writer.cpp:53-78), narrowed; its value is irrelevant to the reader: arbitrary. *)
Variable normal_words : list (D * D * D) -> Z * Z * Z.

(** stl_writer.cpp:91-112, one face: the three first vertices of the facet ([stl[i][j]] for j < 3, unchecked),
    preceded by the normal and followed by a two-byte spacer. *)
Definition write_face (facet : list (D * D * D)) : outcome (list Z) :=
  do p0 <- at_ub facet 0 ;
  do p1 <- at_ub facet 1 ;
  do p2 <- at_ub facet 2 ;
  let '(n0, n1, n2) := normal_words [p0; p1; p2] in
  let vertex p := let '(x, y, z) := p in le_bytes4 (narrow x) ++ le_bytes4 (narrow y) ++ le_bytes4 (narrow z) in
  Ok (le_bytes4 n0 ++ le_bytes4 n1 ++ le_bytes4 n2 ++ vertex p0 ++ vertex p1 ++ vertex p2 ++ [0; 0]).

Fixpoint write_faces (facets : list (list (D * D * D))) : outcome (list Z) :=
  match facets with
  | [] => Ok []
  | f :: t => do a <- write_face f ; do b <- write_faces t ; Ok (a ++ b)
  end.

(** stl_writer.cpp:80-114: 80 bytes of value 1, the number of faces converted to [unsigned int], then that many faces
    (the loop bound is the converted number). *)
Definition write_binary_stl (stl : list (list (D * D * D))) : outcome (list Z) :=
  let nFaces := Z.of_nat (length stl) mod 4294967296 in
  do faces <- write_faces (firstn (Z.to_nat nFaces) stl) ;
  Ok (repeat 1 80 ++ le_bytes4 nFaces ++ faces).
End Writer.

(** An input stream on a string: what remains to be read and [good()]. *)
Definition stream : Type := (list Z * bool)%type.

(** [std::istream::ignore(n)]. [peeks] is true for the versions of libstdc++ (before GCC 11, PR 96161) that look one
    character further and set eofbit when exactly n characters remained; false for the behaviour of the standard. *)
Definition s_ignore (peeks : bool) (n : nat) (s : stream) : stream :=
  let '(l, good) := s in
  if good then
    if (length l <? n)%nat then ([], false)
    else (skipn n l, negb (peeks && (length l =? n)%nat))
  else (l, false).

(** [stream.read(buffer, 4)] over a zero-initialised buffer (stl_reader.cpp:200,204). *)
Definition s_read4 (s : stream) : list Z * stream :=
  let '(l, good) := s in
  if good then
    if (4 <=? length l)%nat then (firstn 4 l, (skipn 4 l, true))
    else (l ++ repeat 0 (4 - length l), ([], false))
  else (repeat 0 4%nat, (l, false)).

(** [char c; stream.get(c);] : on failure [c] keeps its indeterminate value, [None] here. *)
Definition s_get (s : stream) : option Z * stream :=
  let '(l, good) := s in
  match good, l with
  | true, c :: t => (Some c, (t, true))
  | _, _ => (None, (l, false))
  end.

(** stl_reader.cpp:216-225: the 9*4 bytes written over the first 36 bytes of [v]. *)
Fixpoint s_get_n (n : nat) (s : stream) : list (option Z) * stream :=
  match n with
  | O => ([], s)
  | S n' => let '(c, s1) := s_get s in let '(cs, s2) := s_get_n n' s1 in (c :: cs, s2)
  end.

(** Reading [v[j]] as a float: indeterminate bytes are undefined behaviour. *)
Fixpoint words_of (v : list (option Z)) : outcome (list Z) :=
  match v with
  | Some a :: Some b :: Some c :: Some d :: t => do ws <- words_of t ; Ok (le_word4 a b c d :: ws)
  | [] => Ok []
  | _ => UB
  end.

(** A facet read: its three vertices, as words. *)
Definition facet_words : Type := list (Z * Z * Z).
Definition facet_of (ws : list Z) : outcome facet_words :=
  match ws with
  | [a; b; c; d; e; f; g; h; i] => Ok [(a, b, c); (d, e, f); (g, h, i)]
  | _ => UB
  end.

(** stl_reader.cpp:211-234. The array [v] (line 208, not initialised) survives from one iteration to the next and is
    used even when the stream is not good. *)
Fixpoint read_facets (peeks : bool) (n : nat) (s : stream) (v : list (option Z)) : outcome (list facet_words) :=
  match n with
  | O => Ok []
  | S n' =>
      let '(v', s') :=
        (if snd s then
           let s1 := s_ignore peeks 12 s in
           let '(v1, s2) := s_get_n 36 s1 in
           (v1, s_ignore peeks 2 s2)
         else (v, s)) in
      do ws <- words_of v' ;
      do f <- facet_of ws ;
      do fs <- read_facets peeks n' s' v' ;
      Ok (f :: fs)
  end.

(** stl_reader.cpp:198-242. *)
Definition read_binary_stl (peeks : bool) (input : list Z) : outcome (list facet_words) :=
  let s1 := s_ignore peeks 80 (input, true) in
  let '(buffer, s2) := s_read4 s1 in
  let nFaces := match buffer with [a; b; c; d] => le_word4 a b c d | _ => 0 end in
  read_facets peeks (Z.to_nat nFaces) s2 (repeat None 36).

(** stl_reader.cpp:164-169: [find_first_not_of(" \t")]; [None] is [npos]. *)
Fixpoint first_non_blank (l : list Z) : option nat :=
  match l with
  | [] => None
  | c :: t => if (c =? 32) || (c =? 9) then option_map S (first_non_blank t) else Some O
  end.

(** stl_reader.cpp:149-153. [input.compare(pos, len, str) == 0] iff the substring (clamped at the end of the input) is
    the pattern; it throws [std::out_of_range] when [pos > input.size()], in particular for [npos]. *)
Definition starts_with (input pattern : list Z) (offset : option nat) : outcome bool :=
  if (length pattern <=? length input)%nat then
    match offset with
    | None => Throw
    | Some o => Ok (if list_eq_dec Z.eq_dec (firstn (length pattern) (skipn o input)) pattern then true else false)
    end
  else Ok false.

Definition solid_lower : list Z := [115; 111; 108; 105; 100; 32].   (* "solid " *)
Definition solid_upper : list Z := [83; 79; 76; 73; 68; 32].        (* "SOLID " *)

(** stl_reader.cpp:155-162,171-182 ([||] short-circuits). *)
Definition is_stl_data_binary (input : list Z) : outcome bool :=
  let offset := first_non_blank input in
  do a <- starts_with input solid_lower offset ;
  if a then Ok false else
  do b <- starts_with input solid_upper offset ;
  Ok (negb b).

(** stl_reader.cpp:184-196. The ASCII reader (lines 70-147) is not modelled: it is the parameter [read_ascii]. *)
Definition read_stl (peeks : bool) (read_ascii : list Z -> outcome (list facet_words)) (input : list Z)
  : outcome (list facet_words) :=
  do bin <- is_stl_data_binary input ;
  if bin then read_binary_stl peeks input else read_ascii input.
