(** Model of the maneuvering force model as a whole: force_models/src/ManeuveringForceModel.cpp and force_models/src/maneuvering_DataSource_builder.cpp, on top of the
    expressions of Man_Model and of the reading of Yaml_Model. *)
From Coq Require Import Reals List Bool String Ascii ZArith.
From Verif Require Import Common Hdf5_Mesh_Model Yaml_Model Man_Model.
Import ListNotations.
Open Scope R_scope.

(** ** Reading (ManeuveringForceModel.cpp:29-67) *)
Record man_yaml (D : Type) : Type := mkMan { mn_name : string; mn_frame : position D; mn_commands : list string; mn_exprs : list (string * string) }.
Arguments mkMan {D}. Arguments mn_name {D}. Arguments mn_frame {D}. Arguments mn_commands {D}. Arguments mn_exprs {D}.
Section Reading.
  Variable D : Type.
  Variable mul : D -> D -> D.
  Variable dbl : string -> option D.
  Variable int_of : string -> option Z.
  Variable factor : string -> option D.
  (** Lines 46-65: the keys of the mapping in their order; [node[key]] is the first value of this key. ["name"] and ["model"] are read as expressions too. *)
  Fixpoint keys_loop (n : yaml) (keys : list string) (commands : list string) (exprs : list (string * string)) : outcome (list string * list (string * string)) :=
    match keys with
    | [] => Ok (commands, exprs)
    | key :: keys =>
      if String.eqb key "commands" then do v <- get n key; do c <- read_vector int_of read_string v; keys_loop n keys c exprs
      else if String.eqb key "reference frame" then keys_loop n keys commands exprs
      else do v <- string_at n key; keys_loop n keys commands (exprs ++ [(key, v)])
    end.
  Definition parse_maneuvering (n : yaml) : outcome (man_yaml D) :=
    do f <- get n "reference frame"; do f <- read_position D mul dbl factor f;
    do name <- string_at n "name";
    do r <- keys_loop n (keys_of n) [] [];
    Ok (mkMan name f (fst r) (snd r)).
End Reading.

(** ** Values *)
Section System.
  Variable pow : R -> R -> R.
  Variable state : state_type -> R -> R.
  Variable fmt : R -> text.
  Fixpoint assoc {A} (l : list (text * A)) (k : text) : option A := match l with [] => None | (k', a) :: l => if text_eqb k' k then Some a else assoc l k end.
  (** maneuvering_DataSource_builder.cpp:32-39 and the lambdas of ManeuveringInternal.cpp: [ident] is ds.get, which may throw. A NaN is None. *)
  Fixpoint node_get (t : R) (ident : text -> outcome (option R)) (n : node) : outcome (option R) :=
    match n with
    | Constant x => Ok (Some x)
    | NaN => Ok None
    | Time => Ok (Some t)
    | UnknownIdentifier name => ident name
    | Unary f a => do x <- node_get t ident a; Ok (option_map (unary_value f) x)
    | Binary f a b => do x <- node_get t ident a; do y <- node_get t ident b; Ok (match x, y with Some x, Some y => Some (binary_value pow f x y) | _, _ => None end)
    | State s a => do x <- node_get t ident a; Ok (option_map (fun x => state s (t - x)) x)
    end.
  (** ssc::data_source::DataSource::get (external): the value set for this name, or that of the module of this name, which asks for the values it needs; an unknown name
      throws. A module that needs itself gives no value ([depth] bounds the chains of distinct names). The result when a name is both set and computed is not
      specified here: the theorems exclude it. *)
  Fixpoint ds_get (sets : list (text * R)) (m : list (text * node)) (t : R) (depth : nat) (k : text) : outcome (option R) :=
    match assoc sets k with
    | Some x => Ok (Some x)
    | None => match assoc m k with
              | None => Throw
              | Some n => match depth with O => Throw | S depth => node_get t (ds_get sets m t depth) n end
              end
    end.
  (** ManeuveringForceModel.cpp:69-83 *)
  Fixpoint compile_all (l : list (string * string)) : outcome (list (text * node)) :=
    match l with [] => Ok [] | (k, s) :: l => do n <- compile fmt (str s); do r <- compile_all l; Ok ((str k, n) :: r) end.
  (** ManeuveringForceModel.cpp:85-102; the commands are those of ControllableForceModel::get_commands (a std::map). *)
  Definition get_force (g nu rho : R) (m : list (text * node)) (t : R) (commands : list (text * R)) : outcome (list (option R)) :=
    let sets := (commands ++ [(str "t", t); (str "rho", rho); (str "nu", nu); (str "g", g)])%list in
    let get k := ds_get sets m t (S (List.length m)) (str k) in
    do x <- get "X"%string; do y <- get "Y"%string; do z <- get "Z"%string; do k <- get "K"%string; do m <- get "M"%string; do n <- get "N"%string;
    Ok [x; y; z; k; m; n].
End System.
