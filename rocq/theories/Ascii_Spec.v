(** What a text says, as an ASCII STL file, independently of the reader. *)
From Coq Require Import ZArith List Bool Lia String.
From Verif Require Import Common Stl_Model Ascii_Model.
Import ListNotations.
Open Scope Z_scope.

(** The text made of these lines, separated by line feeds: [text_of [a; b; []]] is "a\nb\n". *)
Fixpoint text_of (lines : list (list Z)) : list Z :=
  match lines with
  | [] => []
  | [l] => l
  | l :: t => l ++ 10 :: text_of t
  end.

(** White space of the C locale: tabulation, line feed, vertical tabulation, form feed, carriage return, space. *)
Definition white (c : Z) : Prop := In c [9; 10; 11; 12; 13; 32].

(** The first word of a line, and what follows it. *)
Definition first_word (line word rest : list Z) : Prop :=
  exists blanks, line = blanks ++ word ++ rest /\ Forall white blanks /\ word <> [] /\ Forall (fun c => ~ white c) word /\
    (rest = [] \/ exists c t, rest = c :: t /\ white c).

(** Blank lines (spaces only), and lines of comments: spaces, then one of #, ! and $. *)
Definition skipped (line : list Z) : Prop :=
  exists n rest, line = repeat 32 n ++ rest /\ (rest = [] \/ exists c t, rest = c :: t /\ In c (codes "#!$")).

(** Lines that the reader can tell apart: they fit in its buffer, have no null character, and have a word if they have
    anything but spaces. *)
Definition plain (line : list Z) : Prop :=
  (List.length line <= 255)%nat /\ ~ In 0 line /\ ~ In 10 line /\
  (skipped line \/ exists word rest, first_word line word rest).

Section Spec.
Variable D : Type.
Variable scan_double : list Z -> option (D * list Z).

(** The numbers that begin a text: as many as can be read, but no more than n. *)
Inductive numbers : nat -> list Z -> list D -> Prop :=
| no_number : forall n s, scan_double s = None -> numbers n s []
| enough : forall s, numbers 0 s []
| one_number : forall n s x r l, scan_double s = Some (x, r) -> numbers n r l -> numbers (S n) s (x :: l).

(** The line of a vertex; a coordinate that is missing is [None]. *)
Definition vertex_line (line : list Z) (p : point D) : Prop :=
  exists rest l, first_word line (codes "vertex") rest /\ numbers 3 rest l /\ p = (nth_error l 0, nth_error l 1, nth_error l 2).

(** The line that begins a facet. *)
Definition facet_line (line : list Z) : Prop :=
  exists rest rest', first_word line (codes "facet") rest /\ first_word rest (codes "normal") rest'.

(** The facets a list of lines gives, and whether it has an endsolid. A facet is a line facet normal, any line (outer loop),
    three vertices, and any two lines (endloop, endfacet). *)
Inductive gives : list (list Z) -> list (list (point D)) -> bool -> Prop :=
| gives_nothing : gives [] [] false
| gives_skip : forall l ls fs e, skipped l -> gives ls fs e -> gives (l :: ls) fs e
| gives_solid : forall l ls fs e rest word, ~ skipped l -> first_word l word rest -> In word [codes "solid"; codes "color"] -> gives ls fs e ->
    gives (l :: ls) fs e
| gives_endsolid : forall l ls fs e rest, ~ skipped l -> first_word l (codes "endsolid") rest -> gives ls fs e -> gives (l :: ls) fs true
| gives_facet : forall l loop l0 l1 l2 ls p0 p1 p2 fs e, ~ skipped l -> facet_line l ->
    vertex_line l0 p0 -> vertex_line l1 p1 -> vertex_line l2 p2 -> gives (skipn 2 ls) fs e ->
    gives (l :: loop :: l0 :: l1 :: l2 :: ls) ([p0; p1; p2] :: fs) e.
End Spec.
