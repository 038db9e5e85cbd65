(** Model of executables/src/convert_stl_files_to_code.cpp, which prints a mesh as a C++ string, and of the code that reads such a string
    (binary_stl_data/src/generate_test_ship.cpp:6-9). Characters are their codes. *)
From Coq Require Import ZArith List String.
From Verif Require Import Common Base91_Model Stl_Model Ascii_Model.
Import ListNotations.
Open Scope Z_scope.
Open Scope list_scope.

Section Code.
Variable D : Type.
(** (float)x and the unit normals, as in Stl_Model.v *)
Variable narrow : D -> Z.
Variable normal_words : list (D * D * D) -> Z * Z * Z.
(** Lines 56-62 *)
Definition write_binary_cpp (points : list (list (D * D * D))) : outcome (list Z) :=
  do ss <- write_binary_stl D narrow normal_words points;
  b91_encode ss.
(** Lines 64-77, for a mesh that could be read: the text printed. *)
Definition convert_stl_files_to_code (points : list (list (D * D * D))) : outcome (list Z) :=
  do text <- write_binary_cpp points;
  Ok (codes "const std::string s = " ++ [34] ++ text ++ [34] ++ codes ";" ++ [10]).
End Code.
(** generate_test_ship.cpp:6-9 *)
Definition mesh_of_code (peeks : bool) (s : list Z) : outcome (list facet_words) :=
  do bytes <- b91_decode s;
  read_binary_stl peeks bytes.
