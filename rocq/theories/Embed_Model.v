(** Model of executables/src/yml2test.cpp, which prints a C++ function that returns the contents of a YAML file (used for the test data). Characters are their codes. *)
From Coq Require Import ZArith List String.
From Verif Require Import Common Ascii_Model.
Import ListNotations.
Open Scope Z_scope.
Open Scope list_scope.

Definition newline : Z := 10.
(** Lines 12-19: the last character is read without testing that there is one. *)
Definition remove_carriage_return (line : list Z) : outcome (list Z) :=
  match rev line with
  | [] => UB
  | c :: r => Ok (if c =? 13 then rev r else line)
  end.
(** Lines 21-27: up to the last point. *)
Definition remove_file_extension (filename : list Z) : list Z :=
  (fix after_point (r : list Z) : list Z := match r with [] => filename | c :: r => if c =? 46 then rev r else after_point r end) (rev filename).
(** Line 49: the lines given by std::getline; what follows the last end of line is a line unless it is empty. *)
Fixpoint getlines (line : list Z) (s : list Z) : list (list Z) :=
  match s with
  | [] => match line with [] => [] | _ => [line] end
  | c :: r => if c =? newline then line :: getlines [] r else getlines (line ++ [c]) r
  end.
(** Lines 49-57. *)
Fixpoint literals (first_line : bool) (lines : list (list Z)) : outcome (list Z) :=
  match lines with
  | [] => Ok []
  | l :: r =>
      do l <- remove_carriage_return l;
      do c <- literals false r;
      Ok ([newline] ++ codes (if first_line then "    ss << " else "       << ") ++ [34] ++ l ++ [92; 110; 34] ++ c)
  end.
(** Lines 29-62, for a file that can be opened, with its contents: the text printed. *)
Definition yml2test (filename contents : list Z) : outcome (list Z) :=
  do body <- literals true (getlines [] contents);
  Ok (codes "std::string test_data::" ++ remove_file_extension filename ++ codes "()" ++ [newline] ++ codes "{" ++ [newline] ++ codes "    std::stringstream ss;" ++ body ++
      codes ";" ++ [newline] ++ codes "    return ss.str();" ++ [newline] ++ codes "}" ++ [newline]).
