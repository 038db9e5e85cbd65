(** Model of the writer of ASCII STL files (external_file_formats/src/stl_writer.cpp:7-50).

    A character is a byte, of type [Z]. A [double] is an element of an arbitrary type [D]; [os << x], with the default
    format (six significant digits), is an arbitrary function [fmt]. *)
From Coq Require Import ZArith List Bool Lia String.
From Verif Require Import Common Stl_Model Ascii_Model.
Import ListNotations.
Open Scope Z_scope.

Section Writer.
Variable D : Type.
Variable fmt : D -> list Z.

(** Lines 7-13. *)
Definition write_vertex (p : D * D * D) : list Z :=
  let '(x, y, z) := p in
  codes "      vertex   " ++ fmt x ++ codes "     " ++ fmt y ++ codes "     " ++ fmt z ++ [10].

(** Lines 16-27: every vertex of the facet, however many there are. *)
Definition write_facet (facet : list (D * D * D)) : list Z :=
  codes "  facet normal   0.00000  0.00000  0.00000" ++ [10] ++
  codes "    outer loop" ++ [10] ++
  flat_map write_vertex facet ++
  codes "    endloop" ++ [10] ++
  codes "  endfacet" ++ [10].

(** Lines 29-39. *)
Definition write_stl (mesh : list (list (D * D * D))) : list Z :=
  codes "solid MYSOLID" ++ [10] ++ flat_map write_facet mesh ++ codes "endsolid MYSOLID" ++ [10].

(** Lines 47-50: a single facet. *)
Definition write_stl_facet (facet : list (D * D * D)) : list Z := write_stl [facet].
End Writer.
