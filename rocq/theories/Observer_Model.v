(** Model of the observers: code/core/src/Observer.cpp, code/observers_and_api/src/{Csv,Tsv,Dict,Json,Map,
    Everything}Observer.cpp. Standard output and files are one string per observer; a C++ exception keeps what was
    written before it was thrown. *)
From Coq Require Import ZArith NArith List Bool Lia String Ascii.
Import ListNotations.
Open Scope string_scope.

(** ** std::map<std::string, V>: association list sorted by the byte order of std::string. *)
Section SMap.
  Context {V : Type}.
  (** operator[] followed by an assignment. *)
  Fixpoint smap_set (k : string) (v : V) (m : list (string * V)) : list (string * V) :=
    match m with
    | [] => [(k, v)]
    | (k', v') :: m' => match String.compare k k' with
                        | Lt => (k, v) :: m
                        | Eq => (k, v) :: m'
                        | Gt => (k', v') :: smap_set k v m'
                        end
    end.
  (** find *)
  Fixpoint smap_find (k : string) (m : list (string * V)) : option V :=
    match m with
    | [] => None
    | (k', v') :: m' => if String.eqb k k' then Some v' else smap_find k m'
    end.
End SMap.

(** A value handed over to an observer: a double or a SurfaceElevationGrid
    (the two overloads of Observer.hpp lines 59-63). *)
Inductive value (D G : Type) : Type := VDouble (d : D) | VGrid (g : G).
Arguments VDouble {D G} d.
Arguments VGrid {D G} g.

(** Result of a member function: the new object state, and whether it threw (with the text of the message that
    identifies the culprit). *)
Inductive res (S : Type) : Type := Done (s : S) | Fail (s : S) (what : string).
Arguments Done {S} s.
Arguments Fail {S} s what.
Definition bindR {S T} (f : S -> T) (x : res S) (k : S -> res T) : res T :=
  match x with Done s => k s | Fail s w => Fail (f s) w end.

(** The virtual functions of an observer, on its private state [S] (Observer.hpp lines 57-69). *)
Record obs_class (D G S : Type) : Type := mkClass {
  run_init : value D G -> string -> S -> S;        (* get_initializer(val, address)() *)
  run_ser : value D G -> string -> S -> S;         (* get_serializer(val, address)() *)
  flush_after_init : S -> res S;
  flush_after_write : S -> S;
  flush_value_write : S -> S
  (* before_write is never overridden (Observer.cpp lines 27-29) and flush_value_during_initialization calls
     flush_value_during_write (lines 95-98) *)
}.
Arguments run_init {D G S} _ _ _ _.
Arguments run_ser {D G S} _ _ _ _.
Arguments flush_after_init {D G S} _ _.
Arguments flush_after_write {D G S} _ _.
Arguments flush_value_write {D G S} _ _.

(** Observer.hpp lines 74-77. The closures stored in the two maps capture the value and the name. *)
Record observer (D G S : Type) : Type := mkObs {
  o_initialized : bool;
  o_requested : list string;
  o_serialize : list (string * value D G);
  o_initialize : list (string * value D G);
  o_st : S
}.
Arguments mkObs {D G S} _ _ _ _ _.
Arguments o_initialized {D G S} _.
Arguments o_requested {D G S} _.
Arguments o_serialize {D G S} _.
Arguments o_initialize {D G S} _.
Arguments o_st {D G S} _.

Section Observer.
  Context {D G S : Type} (c : obs_class D G S).
  Notation obs := (observer D G S).

  (** Observer.cpp lines 13-15 *)
  Definition new_observer (data : list string) (s : S) : obs := mkObs false data [] [] s.

  (** Observer.hpp lines 43-49: [write]. *)
  Definition write (v : value D G) (name : string) (o : obs) : obs :=
    mkObs (o_initialized o) (o_requested o) (smap_set name v (o_serialize o)) (smap_set name v (o_initialize o)) (o_st o).

  Definition set_st (o : obs) (s : S) : obs := mkObs (o_initialized o) (o_requested o) (o_serialize o) (o_initialize o) s.
  Definition set_initialized (o : obs) : obs := mkObs true (o_requested o) (o_serialize o) (o_initialize o) (o_st o).

  (** The two loops, Observer.cpp lines 62-72 and 82-92: [i] counts the variables done, [n] is the size of the list.
      (size_t)(n-1) does not wrap inside the loop because n>0 there. *)
  Fixpoint loop (run : value D G -> string -> S -> S) (m : list (string * value D G)) (n i : nat) (l : list string) (s : S)
    : res S :=
    match l with
    | [] => Done s
    | x :: l' =>
        match smap_find x m with
        | None => Fail s x
        | Some v =>
            let s1 := run v x s in
            let s2 := if Nat.ltb i (n - 1) then flush_value_write c s1 else s1 in
            loop run m n (i + 1) l' s2
        end
    end.

  (** Observer.cpp lines 56-76 *)
  Definition initialize_serialization_of_requested_variables (vars : list string) (o : obs) : res obs :=
    if o_initialized o then Done (set_initialized o)
    else bindR (set_st o) (loop (run_init c) (o_initialize o) (List.length vars) 0 vars (o_st o)) (fun s =>
         bindR (set_st o) (flush_after_init c s) (fun s => Done (set_initialized (set_st o s)))).

  (** Observer.cpp lines 78-94 *)
  Definition serialize_requested_variables (vars : list string) (o : obs) : res obs :=
    bindR (set_st o) (loop (run_ser c) (o_serialize o) (List.length vars) 0 vars (o_st o)) (fun s =>
      Done (set_st o (flush_after_write c s))).

  (** What Sim::output writes at one instant, in its order, is a parameter: a list of (name, value).
      Observer.cpp lines 31-37. *)
  Definition write_all (t : D) (outputs : list (string * value D G)) (o : obs) : obs :=
    fold_left (fun o p => write (snd p) (fst p) o) outputs (write (VDouble t) "t" o).
  Definition observe (t : D) (outputs : list (string * value D G)) (o : obs) : res obs :=
    let o := write_all t outputs o in
    bindR (fun o => o) (initialize_serialization_of_requested_variables (o_requested o) o) (fun o =>
      serialize_requested_variables (o_requested o) o).
  (** Observer.cpp lines 47-54 (all_variables: lines 40-45) *)
  Definition observe_everything (t : D) (outputs : list (string * value D G)) (o : obs) : res obs :=
    let o := write_all t outputs o in
    let all_vars := map fst (o_initialize o) in
    bindR (fun o => o) (initialize_serialization_of_requested_variables all_vars o) (fun o =>
      serialize_requested_variables all_vars o).

  (** A simulation: one call per instant, stopped by the first exception. *)
  Fixpoint observe_all (steps : list (D * list (string * value D G))) (o : obs) : res obs :=
    match steps with
    | [] => Done o
    | (t, out) :: steps' => bindR (fun o => o) (observe t out o) (observe_all steps')
    end.
End Observer.

(** ** CsvObserver.cpp *)
Definition newline : string := String (ascii_of_nat 10) "".
(** boost::replace_all(title, ",", " ") *)
Fixpoint replace_commas (s : string) : string :=
  match s with
  | "" => ""
  | String c s' => String (if Ascii.eqb c "," then " "%char else c) (replace_commas s')
  end.
(** Lines 27-51. [fmt] is operator<<(double) in scientific notation. A grid uses the empty functions of
    Observer.cpp lines 17-25. *)
Definition csv_class {D G} (fmt : D -> string) : obs_class D G string :=
  mkClass D G string
    (fun v name s => match v with VDouble _ => s ++ replace_commas name | VGrid _ => s end)
    (fun v _ s => match v with VDouble d => s ++ fmt d | VGrid _ => s end)
    (fun s => Done (s ++ newline)) (fun s => s ++ newline) (fun s => s ++ ",").

(** ** TsvObserver.cpp *)
Fixpoint repeat_char (c : ascii) (n : nat) : string := match n with O => "" | S n' => String c (repeat_char c n') end.
Definition WIDTH : nat := 9. (* lines 8-9 *)
Record tsv_state : Type := mkTsv { ts_out : string; ts_len : nat (* length_of_title_line *); ts_width : nat (* os.width() *) }.
(** operator<< pads on the left up to the width, then resets it; std::endl does not. *)
Definition put (x : string) (s : tsv_state) : tsv_state :=
  mkTsv (ts_out s ++ repeat_char " " (ts_width s - String.length x) ++ x) (ts_len s) 0.
Definition endl (s : tsv_state) : tsv_state := mkTsv (ts_out s ++ newline) (ts_len s) (ts_width s).
(** Lines 16-19: the constructor leaves a pending width. *)
Definition new_tsv : tsv_state := mkTsv "" 0 WIDTH.
(** Lines 27-51. (int)address.name.size() is taken exact. std::string(size_t(-1),'-') throws std::length_error. *)
Definition tsv_class {D G} (fmt : D -> string) : obs_class D G tsv_state :=
  mkClass D G tsv_state
    (fun v name s => match v with
       | VDouble _ => put name (mkTsv (ts_out s) (ts_len s + Nat.max (String.length name) WIDTH + 1) WIDTH)
       | VGrid _ => s end)
    (fun v _ s => match v with VDouble d => put (fmt d) s | VGrid _ => s end)
    (fun s => let s := endl s in
              match ts_len s with
              | O => Fail s "length_error"
              | S n => Done (endl (put (repeat_char "-" n) s))
              end)
    endl (put " ").

(** ** DictObserver.cpp *)
(** s.find(c), s.find_last_of(c): None is npos *)
Fixpoint find_first (c : ascii) (s : string) : option nat :=
  match s with
  | "" => None
  | String a s' => if Ascii.eqb a c then Some 0%nat else option_map Datatypes.S (find_first c s')
  end.
Fixpoint find_last (c : ascii) (s : string) : option nat :=
  match s with
  | "" => None
  | String a s' => match find_last c s' with
                   | Some k => Some (Datatypes.S k)
                   | None => if Ascii.eqb a c then Some 0%nat else None
                   end
  end.
(** Lines 8-23. size_t arithmetic is modulo 2^64 and npos = 2^64-1, and substr(pos, len) stops at the end of the string:
    - both found, kS < kE: substr(kS+1, kE-kS-1);
    - both found, kE < kS: kE-kS-1 wraps to a value larger than any size, hence the rest of the string after kS;
    - only '(': kE-kS-1 = npos-kS-1 is also larger than the rest of the string;
    - only ')': kS+1 wraps to 0 and kE-kS-1 to kE, and the variable is substr(0, npos), the whole string.
    kS+1 <= size so substr never throws. *)
Definition extractKeyVarFromString (s : string) : string * string :=
  let rest k := substring (k + 1) (String.length s - (k + 1)) s in
  match find_first "(" s, find_last ")" s with
  | None, None => (s, "")
  | Some kS, Some kE => (if Nat.ltb kS kE then substring (kS + 1) (kE - kS - 1) s else rest kS, substring 0 kS s)
  | Some kS, None => (rest kS, substring 0 kS s)
  | None, Some kE => (substring 0 kE s, s)
  end.

Record dict_state (D : Type) : Type := mkDict {
  d_ss : string;                                       (* ss *)
  d_grid : string;                                     (* ssSurfaceElevationGrid *)
  d_map1 : list (string * D);                          (* dictMap1 *)
  d_map2 : list (string * list (string * D));          (* dictMap2 *)
  d_comma : bool;                                      (* shouldWeAddAStartingComma *)
  d_sent : list string                                 (* what JsonObserver / WebSocketObserver emitted, in order *)
}.
Arguments mkDict {D} _ _ _ _ _ _.
Arguments d_ss {D} _.
Arguments d_grid {D} _.
Arguments d_map1 {D} _.
Arguments d_map2 {D} _.
Arguments d_comma {D} _.
Arguments d_sent {D} _.

(** dictMap2[k][v] = val (operator[] creates the inner map) *)
Definition map2_set {D} (k f : string) (x : D) (m : list (string * list (string * D))) : list (string * list (string * D)) :=
  smap_set k (smap_set f x (match smap_find k m with Some inner => inner | None => [] end)) m.

(** Lines 34-51 *)
Definition dict_store {D} (name : string) (val : D) (s : dict_state D) : dict_state D :=
  let '(key, var) := extractKeyVarFromString name in
  match key, var with
  | "", _ => s
  | _, "" => mkDict (d_ss s) (d_grid s) (smap_set key val (d_map1 s)) (d_map2 s) (d_comma s) (d_sent s)
  | _, _ => mkDict (d_ss s) (d_grid s) (d_map1 s) (map2_set key var val (d_map2 s)) (d_comma s) (d_sent s)
  end.

Definition quote : string := String (ascii_of_nat 34) "".
Definition quoted (s : string) : string := quote ++ s ++ quote.

(** Lines 85-100: flushMap. *)
Fixpoint flush_entries {D} (fmt : D -> string) (n i : nat) (m : list (string * D)) : string :=
  match m with
  | [] => ""
  | (k, v) :: m' => quoted k ++ ":" ++ fmt v ++ (if Nat.ltb i (n - 1) then "," else "") ++ flush_entries fmt n (i + 1) m'
  end.
Definition flushMap {D} (fmt : D -> string) (m : list (string * D)) (addBraces : bool) : string :=
  match m with
  | [] => ""
  | _ => (if addBraces then "{" else "") ++ flush_entries fmt (List.length m) 0 m ++ (if addBraces then "}" else "")
  end.

Definition has_comma (k : string) : bool := match find_first "," k with Some _ => true | None => false end.

(** The loops of lines 129-137 and 161-168: objects selected by [keep], [n] of them. *)
Fixpoint flush_objects {D} (fmt : D -> string) (keep : string -> bool) (n i : nat) (m : list (string * list (string * D))) : string :=
  match m with
  | [] => ""
  | (k, inner) :: m' =>
      if keep k then quoted k ++ ":" ++ flushMap fmt inner true ++ (if Nat.ltb i (n - 1) then "," else "")
                     ++ flush_objects fmt keep n (i + 1) m'
      else flush_objects fmt keep n i m'
  end.
Definition count_objects {D} (keep : string -> bool) (m : list (string * list (string * D))) : nat :=
  List.length (filter (fun p => keep (fst p)) m).
(** Lines 116-139 *)
Definition attitudes {D} (fmt : D -> string) (m : list (string * list (string * D))) : string :=
  let keep k := negb (has_comma k) in
  quoted "states" ++ ":{" ++ flush_objects fmt keep (count_objects keep m) 0 m ++ "}".
(** Lines 141-171 *)
Definition wrenches {D} (fmt : D -> string) (m : list (string * list (string * D))) : string :=
  let nA := count_objects (fun k => negb (has_comma k)) m in
  let nW := count_objects has_comma m in
  if Nat.ltb 0 nW
  then (if Nat.ltb 0 nA then "," else "") ++ quoted "wrenches" ++ ":{" ++ flush_objects fmt has_comma nW 0 m ++ "}"
  else "".

(** Lines 108-114, 173-188, 190-197, called by flush_after_write. The record is appended to ss; the Json and websocket
    observers (JsonObserver.cpp lines 19-24, WebSocketObserver.cpp lines 17-22) send ss and clear it. *)
Definition dict_flush {D} (fmt : D -> string) (s : dict_state D) : dict_state D :=
  let t1 := match d_map1 s with [] => "" | _ => flushMap fmt (d_map1 s) false end in
  let c1 := match d_map1 s with [] => d_comma s | _ => true end in
  let t2 := match d_map2 s with [] => "" | _ => (if c1 then "," else "") ++ attitudes fmt (d_map2 s) ++ wrenches fmt (d_map2 s) end in
  let c2 := match d_map2 s with [] => c1 | _ => true end in
  let t3 := match d_grid s with "" => "" | g => (if c2 then "," else "") ++ g end in
  let c3 := match d_grid s with "" => c2 | _ => true end in
  let record := d_ss s ++ "{" ++ t1 ++ t2 ++ t3 ++ "}" in
  mkDict "" (d_grid s) (d_map1 s) (d_map2 s) c3 (d_sent s ++ [record]).

(** Lines 59-78: the text of a grid, from its sizes, bounds and base91-encoded elevations. *)
Record grid (D : Type) : Type := mkGrid { g_nx : D; g_ny : D; g_xmin : D; g_xmax : D; g_ymin : D; g_ymax : D;
                                          g_empty : bool (* n = 0 *); g_base91 : string }.
Arguments mkGrid {D} _ _ _ _ _ _ _ _.
Definition grid_text {D} (fmt : D -> string) (g : grid D) : string :=
  if g_empty D g then "" else
  quoted "waves" ++ ":{" ++ quoted "nx" ++ ":" ++ fmt (g_nx D g) ++ "," ++ quoted "ny" ++ ":" ++ fmt (g_ny D g)
  ++ "," ++ quoted "xmin" ++ ":" ++ fmt (g_xmin D g) ++ "," ++ quoted "xmax" ++ ":" ++ fmt (g_xmax D g)
  ++ "," ++ quoted "ymin" ++ ":" ++ fmt (g_ymin D g) ++ "," ++ quoted "ymax" ++ ":" ++ fmt (g_ymax D g)
  ++ "," ++ quoted "z" ++ ":'" ++ g_base91 D g ++ "'}".

Definition dict_class {D} (fmt : D -> string) : obs_class D (grid D) (dict_state D) :=
  mkClass D (grid D) (dict_state D)
    (fun _ _ s => s)
    (fun v name s => match v with
       | VDouble d => dict_store name d s
       | VGrid g => mkDict (d_ss s) (grid_text fmt g) (d_map1 s) (d_map2 s) (d_comma s) (d_sent s)
       end)
    (fun s => Done s) (dict_flush fmt) (fun s => s).
(** DictObserver.cpp lines 25-28 *)
Definition new_dict {D} : dict_state D := mkDict "" "" [] [] false [].

(** ** MapObserver.cpp *)
Definition map_push {D} (name : string) (d : D) (m : list (string * list D)) : list (string * list D) :=
  smap_set name (match smap_find name m with Some l => l | None => [] end ++ [d])%list m.
Definition map_class {D G} : obs_class D G (list (string * list D)) :=
  mkClass D G (list (string * list D))
    (fun v name s => match v with VDouble _ => smap_set name [] s | VGrid _ => s end)
    (fun v name s => match v with VDouble d => map_push name d s | VGrid _ => s end)
    (fun s => Done s) (fun s => s) (fun s => s).

(** ** EverythingObserver.cpp: results of the in-memory API, one per instant. *)
Record result (D : Type) : Type := mkResult { r_t : D; r_x : list D; r_extra : list (string * D) }. (* Res.hpp *)
Arguments mkResult {D} _ _ _.
Arguments r_t {D} _.
Arguments r_x {D} _.
Arguments r_extra {D} _.
Fixpoint set_nth_nat {A} (l : list A) (i : nat) (a : A) : list A :=
  match l, i with
  | [], _ => []
  | _ :: l', O => a :: l'
  | x :: l', S i' => x :: set_nth_nat l' i' a
  end.
Section Everything.
  Context {D : Type} (zero : D).
  (** vector::resize: truncates or appends zeros *)
  Definition resize {A} (n : nat) (a : A) (l : list A) : list A := firstn n l ++ repeat a (n - List.length l).
  (** Lines 43-102: the tests on the name, in order; the indices are those of StateMacros.hpp. *)
  Definition state_names : list string := ["x"; "y"; "z"; "u"; "v"; "w"; "p"; "q"; "r"; "qr"; "qi"; "qj"; "qk"].
  Fixpoint find_state (names : list string) (body var : string) (i : nat) : option nat :=
    match names with
    | [] => None
    | s :: names' => if String.eqb var (s ++ "(" ++ body ++ ")") then Some i else find_state names' body var (i + 1)
    end.
  Definition insert_value (body var : string) (v : D) (r : result D) : result D :=
    if String.eqb var "t" then mkResult v (r_x r) (r_extra r)
    else match find_state state_names body var 0 with
         | Some k => mkResult (r_t r) (set_nth_nat (resize 13 zero (r_x r)) k v) (r_extra r)
         | None => mkResult (r_t r) (r_x r) (smap_set var v (r_extra r))
         end.
  (** Lines 106-121 *)
  Fixpoint add_from (body var : string) (values : list D) (res : list (result D)) : list (result D) :=
    match values, res with
    | v :: values', r :: res' => insert_value body var v r :: add_from body var values' res'
    | _, _ => res
    end.
  Definition add (body var : string) (values : list D) (res : list (result D)) : list (result D) :=
    match values with
    | [] => res
    | _ => add_from body var values (if Nat.ltb (List.length res) (List.length values)
                                     then resize (List.length values) (mkResult zero [] []) res else res)
    end.
  (** Lines 26-35. The state is the MapObserver part and [res]. *)
  Definition everything_observe {G} (body : string) (t : D) (out : list (string * value D G))
    (s : observer D G (list (string * list D)) * list (result D)) : option (observer D G (list (string * list D)) * list (result D)) :=
    match observe_everything map_class t out (fst s) with
    | Done o => Some (o, fold_left (fun res kv => add body (fst kv) (snd kv) res) (o_st o) (snd s))
    | Fail _ _ => None
    end.
  (** One call per instant. *)
  Fixpoint everything_all {G} (body : string) (steps : list (D * list (string * value D G)))
    (s : observer D G (list (string * list D)) * list (result D)) : option (observer D G (list (string * list D)) * list (result D)) :=
    match steps with
    | [] => Some s
    | (t, out) :: steps' => match everything_observe body t out s with Some s' => everything_all body steps' s' | None => None end
    end.
End Everything.
