(** Model of the detection of NaN in the states: core/src/Body.cpp:106-126, core/src/Sim.cpp:111-134 and the time loop core/inc/solver.hpp:20-45 with
    exceptions. Numbers are elements of any type with a test for NaN. What comes after the test for each body (frames, forces, derivatives) is a
    parameter, which may throw. *)
From Coq Require Import List Arith Bool.
From Verif Require Import Common Blocked_Model.
Import ListNotations.

Section Nan.
Variable D : Type.
Variable isnan : D -> bool.
Variable T : Type.
(** Body.cpp:106: CHECK(x,y,t) *)
Definition check (x : list D) (i : nat) : outcome unit := do v <- at_ub x i; if isnan v then Throw else Ok tt.
(** Body.cpp:107-121 *)
Definition check_body (x : list D) (idx : nat) : outcome unit :=
  do _ <- check x (XIDX idx); do _ <- check x (YIDX idx); do _ <- check x (ZIDX idx);
  do _ <- check x (UIDX idx); do _ <- check x (VIDX idx); do _ <- check x (WIDX idx);
  do _ <- check x (PIDX idx); do _ <- check x (QIDX idx); do _ <- check x (RIDX idx);
  do _ <- check x (QRIDX idx); do _ <- check x (QIIDX idx); do _ <- check x (QJIDX idx); check x (QKIDX idx).
(** Body.cpp:122-126 (frames, history, intersection with the free surface) then Sim.cpp:131-132, for the body of this index *)
Variable derivatives : nat -> list D -> list D -> T -> outcome (list D).
(** Sim.cpp:126-134, for the bodies from [idx] *)
Fixpoint dx_dt (idx n : nat) (x dx : list D) (t : T) : outcome (list D) :=
  match n with
  | O => Ok dx
  | S n => do _ <- check_body x idx; do dx <- derivatives idx x dx t; dx_dt (S idx) n x dx t
  end.
(** Sim.cpp:111-116, the vector of derivatives given by the stepper being [dx0] *)
Variable n_bodies : nat.
Definition system (dx0 x : list D) (t : T) : outcome (list D) := dx_dt 0 n_bodies x dx0 t.
(** The steppers of ssc (Euler, Runge-Kutta, Runge-Kutta-Cash-Karp, external): they evaluate the system at the state and the date they are given; what they
    do next, with other evaluations, is any function of the derivative obtained. *)
Variable next : list D -> T -> T -> list D -> outcome (list D).
Variable dx0 : list D.
Definition do_step (x : list D) (t dt : T) : outcome (list D) := do k1 <- system dx0 x t; next x t dt k1.

(** How a simulation ends *)
Inductive ending : Type := Finished | Threw | Undefined.
Variable instant : T -> nat -> T -> T.
Variable Sch : Type.
Variable get_time : Sch -> T.
Variable has_more_time_events : Sch -> bool.
Variable append_time_event : Sch -> T -> Sch.
Variable force : list D -> T -> list D.
(** solver.hpp:29-44: the states observed (with their dates) before the simulation ends; at most [n] turns ([None] when they are not enough). *)
Fixpoint quicksolve_loop (n i : nat) (tstart dt : T) (x : list D) (sch : Sch) : list (T * list D) * option ending :=
  if has_more_time_events sch then
    match n with
    | O => ([], None)
    | S n =>
      let t := get_time sch in
      match do_step x t dt with
      | Ok x => let x := force x t in
                let sch := append_time_event sch (instant tstart (S i) dt) in
                let '(obs, e) := quicksolve_loop n (S i) tstart dt x sch in ((get_time sch, x) :: obs, e)
      | Throw => ([], Some Threw)
      | UB => ([], Some Undefined)
      end
    end
  else ([], Some Finished).
(** solver.hpp:20-28 *)
Definition quicksolve (n : nat) (dt : T) (x : list D) (sch : Sch) : list (T * list D) * option ending :=
  let '(obs, e) := quicksolve_loop n 0 (get_time sch) dt x sch in ((get_time sch, x) :: obs, e).
End Nan.
