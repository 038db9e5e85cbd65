(** Model of class BlockedDOF (core/src/BlockedDOF.cpp): states imposed by the user.

    Dates and values are elements of an arbitrary type [D] (double) with its comparison [lt]; the interpolators of the
    external library SSC and the CSV reader are parameters. Only the six blockable states exist in the model, as in the
    [enum class BlockableState] (external_data_structures/inc/YamlBody.hpp:20). *)
From Coq Require Import ZArith List Bool Lia String.
From Verif Require Import Common.
Import ListNotations.

(** YamlBody.hpp:19-20. *)
Inductive ikind : Type := PIECEWISE_CONSTANT | LINEAR | SPLINE.
Inductive bstate : Type := SU | SV | SW | SP | SQ | SR.
Definition bstate_eq_dec : forall a b : bstate, {a = b} + {a <> b}.
Proof. decide equality. Defined.

(** core/inc/StateMacros.hpp:15-30 with core/src/BlockedDOF.cpp:223-249: place of a blockable state in the state vector. *)
Definition NB_OF_STATES_PER_BODY : nat := 13.
Definition XIDX i := i * NB_OF_STATES_PER_BODY.
Definition YIDX i := i * NB_OF_STATES_PER_BODY + 1.
Definition ZIDX i := i * NB_OF_STATES_PER_BODY + 2.
Definition UIDX i := i * NB_OF_STATES_PER_BODY + 3.
Definition VIDX i := i * NB_OF_STATES_PER_BODY + 4.
Definition WIDX i := i * NB_OF_STATES_PER_BODY + 5.
Definition PIDX i := i * NB_OF_STATES_PER_BODY + 6.
Definition QIDX i := i * NB_OF_STATES_PER_BODY + 7.
Definition RIDX i := i * NB_OF_STATES_PER_BODY + 8.
Definition QRIDX i := i * NB_OF_STATES_PER_BODY + 9.
Definition QIIDX i := i * NB_OF_STATES_PER_BODY + 10.
Definition QJIDX i := i * NB_OF_STATES_PER_BODY + 11.
Definition QKIDX i := i * NB_OF_STATES_PER_BODY + 12.
Definition state_index (body_idx : nat) (s : bstate) : nat :=
  match s with
  | SU => UIDX body_idx | SV => VIDX body_idx | SW => WIDX body_idx
  | SP => PIDX body_idx | SQ => QIDX body_idx | SR => RIDX body_idx
  end.

(** [x[i] = v] on a vector: undefined behaviour out of bounds. *)
Fixpoint set_ub {A} (x : list A) (i : nat) (v : A) : outcome (list A) :=
  match x, i with
  | [], _ => UB
  | _ :: t, O => Ok (v :: t)
  | a :: t, S i' => do t' <- set_ub t i' v ; Ok (a :: t')
  end.

Section Blocked.
Variable D : Type.
Variable lt : D -> D -> bool.
(** SSC interpolators: construction from dates and values, value and derivative at a date; each may throw. *)
Variable Itp : Type.
Variable build : ikind -> list D -> list D -> outcome Itp.
Variable itp_f itp_df : Itp -> D -> outcome D.
(** SSC CSV reader: the columns of a file, by name. *)
Variable read_csv : string -> outcome (list (string * list D)).

(** YamlBody.hpp:22-49. *)
Record table : Type := mkTable { t_state : bstate; t_dates : list D; t_values : list D; t_kind : ikind }.
Record csv_dof : Type := mkCsv { c_state : bstate; c_t : string; c_value : string; c_kind : ikind; c_file : string }.
Record blocked_input : Type := mkInput { from_yaml : list table; from_csv : list csv_dof }.

(** [std::map<BlockableState, X>]: iterated in the order of the enumeration. *)
Definition smap (X : Type) : Type := bstate -> option X.
Definition mempty {X} : smap X := fun _ => None.
Definition mset {X} (m : smap X) (s : bstate) (v : X) : smap X := fun s' => if bstate_eq_dec s' s then Some v else m s'.
Definition all_states : list bstate := [SU; SV; SW; SP; SQ; SR].

(** BlockedDOF.cpp:159-191. [Table table;] starts as YamlDOF() does (YamlBody.hpp:24-29), i.e. with state U; only
    interpolation, t and value are assigned. *)
Definition find_column (m : list (string * list D)) (c : string) : outcome (list D) :=
  match find (fun p => String.eqb (fst p) c) m with Some p => Ok (snd p) | None => Throw end.
Definition read_table_from_csv (y : csv_dof) : outcome table :=
  do m <- read_csv (c_file y) ;
  do ts <- find_column m (c_t y) ;
  do vs <- find_column m (c_value y) ;
  Ok (mkTable SU ts vs (c_kind y)).

(** BlockedDOF.cpp:61-69. *)
Fixpoint read_tables (l : list csv_dof) : outcome (list table) :=
  match l with
  | [] => Ok []
  | y :: r => do t <- read_table_from_csv y ; do ts <- read_tables r ; Ok (t :: ts)
  end.
Definition build_tables (input : blocked_input) : outcome (list table) :=
  do ts <- read_tables (from_csv input) ; Ok (from_yaml input ++ ts).

(** BlockedDOF.cpp:106-127. [defined[state]] creates the entry with [false]. *)
Definition throw_if_already_defined (s : bstate) (d : smap bool) : outcome (smap bool) :=
  match d s with Some true => Throw | _ => Ok (mset d s true) end.
Fixpoint check_yaml (l : list table) (d : smap bool) : outcome (smap bool) :=
  match l with
  | [] => Ok d
  | y :: r => do d' <- throw_if_already_defined (t_state y) d ; check_yaml r d'
  end.
Fixpoint check_csv (l : list csv_dof) (d1 d2 : smap bool) : outcome unit :=
  match l with
  | [] => Ok tt
  | y :: r => do d1' <- throw_if_already_defined (c_state y) d1 ;
              do d2' <- throw_if_already_defined (c_state y) d2 ; check_csv r d1' d2'
  end.
Definition check_states_are_not_defined_twice (input : blocked_input) : outcome unit :=
  do d <- check_yaml (from_yaml input) mempty ; check_csv (from_csv input) d mempty.

(** BlockedDOF.cpp:71-79 and 128-157 (every exception of the constructors is rethrown as InvalidInputException). *)
Fixpoint get_forced_states (l : list table) (m : smap Itp) : outcome (smap Itp) :=
  match l with
  | [] => Ok m
  | y :: r => do i <- build (t_kind y) (t_dates y) (t_values y) ; get_forced_states r (mset m (t_state y) i)
  end.

(** [*std::min_element(begin, end)] and [*std::max_element]: undefined on an empty range. *)
Definition min_element (l : list D) : outcome D :=
  match l with [] => UB | a :: r => Ok (fold_left (fun m x => if lt x m then x else m) r a) end.
Definition max_element (l : list D) : outcome D :=
  match l with [] => UB | a :: r => Ok (fold_left (fun m x => if lt m x then x else m) r a) end.

(** BlockedDOF.cpp:81-101. *)
Fixpoint get_bounds (elt : list D -> outcome D) (l : list table) (m : smap D) : outcome (smap D) :=
  match l with
  | [] => Ok m
  | y :: r => do b <- elt (t_dates y) ; get_bounds elt r (mset m (t_state y) b)
  end.

(** BlockedDOF.cpp:195-208. *)
Record blocked : Type := mkBlocked { b_dof : smap Itp; b_idx : nat; b_tmin : smap D; b_tmax : smap D }.

(** BlockedDOF.cpp:56-59, 195-203, 255-257. *)
Definition make_blocked (input : blocked_input) (body_idx : nat) : outcome blocked :=
  do tables <- build_tables input ;
  do _ <- check_states_are_not_defined_twice input ;
  do dof <- get_forced_states tables mempty ;
  do mn <- get_bounds min_element tables mempty ;
  do mx <- get_bounds max_element tables mempty ;
  Ok (mkBlocked dof body_idx mn mx).

(** BlockedDOF.cpp:210-221; [a <= b] on doubles that are not NaN. *)
Definition le (a b : D) : bool := negb (lt b a).
Definition state_is_blocked_at_that_date (b : blocked) (s : bstate) (t : D) : bool :=
  match b_tmin b s, b_tmax b s with
  | Some mn, Some mx => le mn t && le t mx
  | _, _ => false
  end.

(** BlockedDOF.cpp:263-283 and 285-305: the loop over the map, for values ([itp_f]) or derivatives ([itp_df]). *)
Fixpoint force_loop (eval : Itp -> D -> outcome D) (b : blocked) (l : list bstate) (x : list D) (t : D) : outcome (list D) :=
  match l with
  | [] => Ok x
  | s :: r =>
      match b_dof b s with
      | None => force_loop eval b r x t
      | Some i =>
          if state_is_blocked_at_that_date b s t then
            do v <- eval i t ;
            do x' <- set_ub x (state_index (b_idx b) s) v ;
            force_loop eval b r x' t
          else force_loop eval b r x t
      end
  end.
Definition force_states (b : blocked) (x : list D) (t : D) : outcome (list D) := force_loop itp_f b all_states x t.
Definition force_state_derivatives (b : blocked) (dx : list D) (t : D) : outcome (list D) := force_loop itp_df b all_states dx t.

(** [blocked_dof.empty()], BlockedDOF.cpp:309. *)
Definition no_blocked_dof (b : blocked) : bool :=
  forallb (fun s => match b_dof b s with None => true | Some _ => false end) all_states.

End Blocked.

Arguments mkTable {D}. Arguments t_state {D}. Arguments t_dates {D}. Arguments t_values {D}. Arguments t_kind {D}.
Arguments mkInput {D}. Arguments from_yaml {D}. Arguments from_csv {D}.
Arguments mkBlocked {D Itp}. Arguments b_dof {D Itp}. Arguments b_idx {D Itp}. Arguments b_tmin {D Itp}. Arguments b_tmax {D Itp}.
Arguments min_element {D}. Arguments max_element {D}. Arguments get_bounds {D}. Arguments le {D}.
Arguments state_is_blocked_at_that_date {D} lt {Itp}.
Arguments force_loop {D} lt {Itp}. Arguments force_states {D} lt {Itp}. Arguments force_state_derivatives {D} lt {Itp}.
Arguments get_forced_states {D Itp}. Arguments make_blocked {D} lt {Itp}. Arguments no_blocked_dof {D Itp}.
Arguments read_table_from_csv {D}. Arguments read_tables {D}. Arguments build_tables {D}.
Arguments check_states_are_not_defined_twice {D}. Arguments check_yaml {D}. Arguments find_column {D}.
