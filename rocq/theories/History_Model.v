(** Model of class History (hdb_interpolators/src/History.cpp, inc/History.hpp): the record of a state over the last
    Tmax seconds, used for the radiation memory effect, filtered states and delayed maneuvering states.

    The model is written once for an arbitrary arithmetic [A]: comparisons, the four operations (each rounding as it
    likes), the literals used and the ULP comparison [almost_equal]. The order properties are proved for every such
    arithmetic whose comparison is a strict weak order (doubles without NaN, with -0 == +0), the value properties for
    the exact reals. *)
From Coq Require Import ZArith List Bool Lia.
From Verif Require Import Common.
Import ListNotations.

Record arith : Type := mkArith {
  num : Type;
  lt : num -> num -> bool;            (* a < b *)
  add : num -> num -> num;
  sub : num -> num -> num;
  mul : num -> num -> num;
  div : num -> num -> num;
  abs : num -> num;
  zero : num;
  two : num;
  eps : num;                          (* the literal 1E-12 *)
  aeq : Z -> num -> num -> bool       (* almost_equal(a, b, maxUlpsDiff), History.cpp:25-44 *)
}.

(** The effect of a call on an object: what it returns and the state in which it leaves the object. *)
Inductive call (S : Type) : Type :=
| Returned (s : S)
| Threw (s : S)
| Undefined.
Arguments Returned {S} s.
Arguments Threw {S} s.
Arguments Undefined {S}.

Section History.
Variable A : arith.
Notation num := (num A).
Notation lt := (lt A).
Notation add := (add A).
Notation sub := (sub A).
Notation mul := (mul A).
Notation div := (div A).
Notation abs := (abs A).

(** a >= b, a > b and a == b on doubles that are not NaN. *)
Definition ge (a b : num) : bool := negb (lt a b).
Definition gt (a b : num) : bool := lt b a.
Definition eqn (a b : num) : bool := negb (lt a b) && negb (lt b a).
(** [std::min(a,b)]. *)
Definition minn (a b : num) : num := if lt b a then b else a.

(** History.hpp:97-99. *)
Record hist : Type := mkHist { Tmax : num; L : list (num * num); oldest : num }.

(** History.cpp:46-48. *)
Definition new_history (T : num) : hist := mkHist T [] (zero A).

(** History.cpp:82-85. *)
Definition get_current_time (h : hist) : num :=
  match L h with [] => oldest h | p :: _ => fst (last (L h) p) end.

(** History.cpp:94-114. [L[0]] is an unchecked access. *)
Definition interpolate_value_in_interval (l : list (num * num)) (idx : nat) (t : num) : outcome num :=
  if (idx =? 0)%nat || (length l <=? idx)%nat then mapO snd (at_ub l 0)
  else
    do pA <- at_ub l (idx - 1) ;
    do pB <- at_ub l idx ;
    let '(tA, yA) := pA in
    let '(tB, yB) := pB in
    if lt (abs (sub t tA)) (eps A) then Ok yA
    else if lt (abs (sub t tB)) (eps A) then Ok yB
    else Ok (add (mul (div (sub t tA) (sub tB tA)) (sub yB yA)) yA).

(** History.cpp:130-160, the [while (true)] loop. [fuel] bounds the number of iterations; running out of it is reported
    as [UB] so that termination has to be proved. The middle index is computed in the code by
    [floor((double)(lo)+(double)(hi))/2.)], which is exact below 2^52 elements. *)
Fixpoint find_loop (fuel : nat) (l : list (num * num)) (t : num) (lo hi : nat) : outcome nat :=
  match fuel with
  | O => UB
  | S fuel' =>
      do plo <- at_ub l lo ;
      if eqn t (fst plo) then Ok lo else
      do phi <- at_ub l hi ;
      if eqn t (fst phi) then Ok hi else
      if (hi <=? lo + 1)%nat then Ok hi else
      let mid := ((lo + hi) / 2)%nat in
      do pm <- at_ub l mid ;
      if eqn t (fst pm) then Ok mid else
      if lt t (fst pm) then find_loop fuel' l t lo mid else find_loop fuel' l t mid hi
  end.

(** History.cpp:125-162. *)
Definition find_braketing_position (l : list (num * num)) (t : num) : outcome nat :=
  match l with
  | [] => Ok 0%nat
  | front :: _ =>
      if lt (fst (last l front)) t then Ok (length l)
      else if ge (fst front) t then Ok 0%nat
      else find_loop (length l) l t 0 (length l - 1)
  end.

(** History.cpp:164-177. [L.front()] after the erase is undefined on an empty vector. *)
Definition shift_oldest_recorded_instant_if_necessary (h : hist) : outcome hist :=
  let now := get_current_time h in
  if ge (sub now (oldest h)) (Tmax h) then
    let o := sub now (Tmax h) in
    do vmin <- interpolate_value_in_interval (L h) 1 o ;
    do idx <- find_braketing_position (L h) o ;
    let l1 := skipn idx (L h) in
    match l1 with
    | [] => UB
    | front :: _ => Ok (mkHist (Tmax h) (if aeq A 32 (fst front) o then l1 else (o, vmin) :: l1) o)
    end
  else Ok h.

(** Replacing element [idx] of a vector. *)
Fixpoint set_nth {X} (l : list X) (idx : nat) (x : X) : list X :=
  match l, idx with
  | [], _ => []
  | _ :: t, O => x :: t
  | a :: t, S i => a :: set_nth t i x
  end.

(** History.cpp:179-190. *)
Definition add_value_to_history (h : hist) (t val : num) : outcome hist :=
  do idx <- find_braketing_position (L h) t ;
  let ins := mkHist (Tmax h) (firstn idx (L h) ++ (t, val) :: skipn idx (L h)) (oldest h) in
  if (idx =? length (L h))%nat then Ok ins
  else
    do p <- at_ub (L h) idx ;
    if aeq A 4 (fst p) t then Ok (mkHist (Tmax h) (set_nth (L h) idx (t, val)) (oldest h))
    else Ok ins.

(** History.cpp:192-196. *)
Definition update_oldest_recorded_instant (h : hist) (t : num) : hist :=
  let o := match L h with [] => t | _ => oldest h end in
  mkHist (Tmax h) (L h) (minn o t).

(** History.cpp:198-225. *)
Definition record (h : hist) (t val : num) : call hist :=
  let finish t' :=
    match bindO (add_value_to_history (update_oldest_recorded_instant h t') t' val)
                shift_oldest_recorded_instant_if_necessary with
    | Ok h' => Returned h'
    | _ => Undefined
    end in
  match L h with
  | [] => finish t
  | p :: _ =>
      let back := fst (last (L h) p) in
      let t' := if aeq A 4 t back then back else t in
      if lt t' back then Threw h else finish t'
  end.

(** History.cpp:61-80, 87-92. *)
Definition value_at (h : hist) (tau0 : num) : outcome num :=
  let tau := if lt (abs (sub tau0 (Tmax h))) (eps A) then Tmax h else tau0 in
  if gt tau (Tmax h) then Ok (zero A)
  else if lt tau (zero A) then Throw
  else match L h with
       | [] => Ok (zero A)
       | _ =>
         let t := sub (get_current_time h) tau in
         do idx <- find_braketing_position (L h) t ;
         interpolate_value_in_interval (L h) idx t
       end.

(** History.cpp:237-241. *)
Definition get_duration (h : hist) : num :=
  match L h with [] => zero A | front :: _ => sub (fst (last (L h) front)) (fst front) end.

(** History.cpp:255-258. *)
Definition trapeze (xa ya xb yb : num) : num := div (mul (sub xb xa) (add ya yb)) (two A).

(** History.cpp:260-268: the loop from [idx] to the last interval (i ranges over [seq idx (size-1-idx)]; [.at] checks). *)
Definition integrate (l : list (num * num)) (idx : nat) : outcome num :=
  fold_left (fun acc i =>
      do ret <- acc ;
      do a <- at_throw l i ;
      do b <- at_throw l (i + 1) ;
      Ok (add ret (trapeze (fst a) (snd a) (fst b) (snd b))))
    (seq idx (length l - 1 - idx)) (Ok (zero A)).

(** History.cpp:280-292 (and 270-278). [T != 0] is [not (T == 0)]. *)
Definition average (h : hist) (T0 : num) : outcome num :=
  match L h with
  | [] => Ok (zero A)
  | [p] => Ok (snd p)
  | p0 :: _ =>
      if lt T0 (zero A) then Throw else
      let T := minn T0 (get_duration h) in
      (* std::min(T, duration) *)
      let t := sub (get_current_time h) T in
      do idx <- find_braketing_position (L h) t ;
      do first_value <- interpolate_value_in_interval (L h) idx t ;
      do p <- at_throw (L h) idx ;
      let first := trapeze t first_value (fst p) (snd p) in
      do rest <- integrate (L h) idx ;
      if eqn T (zero A) then Ok (snd (last (L h) p0)) else Ok (div (add first rest) T)
  end.

(** History.cpp:306-310. *)
Definition reset (h : hist) : hist := mkHist (Tmax h) [] (zero A).

(** History.cpp:317-334. *)
Definition get_values (h : hist) (tmax : num) : outcome (list num) :=
  if eqn tmax (zero A) then do v <- value_at h (zero A) ; Ok [v]
  else Ok (map snd (filter (fun p => ge tmax (sub (get_current_time h) (fst p))) (L h))).

(** History.cpp:336-354. *)
Definition get_dates (h : hist) (tmax : num) : list num :=
  if eqn tmax (zero A) then [get_current_time h]
  else map fst (filter (fun p => ge tmax (sub (get_current_time h) (fst p))) (L h)).

(** A history after a sequence of recordings, each of which may have been refused. *)
Inductive reachable (T : num) : hist -> list (num * num) -> Prop :=
| reach_new : reachable T (new_history T) []
| reach_record : forall h recs t v h', reachable T h recs -> record h t v = Returned h' -> reachable T h' (recs ++ [(t, v)])
| reach_refused : forall h recs t v h', reachable T h recs -> record h t v = Threw h' -> reachable T h' recs
| reach_reset : forall h recs, reachable T h recs -> reachable T (reset h) [].

End History.

Arguments Tmax {A} h.
Arguments L {A} h.
Arguments oldest {A} h.
Arguments mkHist {A} Tmax L oldest.
