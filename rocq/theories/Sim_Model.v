(** Model of the state vector and of its derivative: core/src/Sim.cpp, core/src/Body.cpp, core/src/BodyStates.cpp,
    the end of core/src/BlockedDOF.cpp and the time loop core/inc/solver.hpp.

    Numbers are exact reals. A 6-vector is a function of the index (only 0..5 are used), a matrix a function of two
    indices. The sum of the forces (Sim.cpp:144-176), the rotation matrix kept by the kinematics library and the
    interpolators are parameters. *)
From Coq Require Import ZArith List Bool Lia Reals String.
From Verif Require Import Common Blocked_Model.
Import ListNotations.
Open Scope R_scope.

Definition Rltb (a b : R) : bool := if Rlt_dec a b then true else false.
Definition vec := nat -> R.
Definition mat := nat -> nat -> R.
Definition sum3 (f : nat -> R) : R := f 0%nat + f 1%nat + f 2%nat.
Definition sum6 (f : nat -> R) : R := f 0%nat + f 1%nat + f 2%nat + f 3%nat + f 4%nat + f 5%nat.
(** Eigen's matrix * vector, 6x6 and 3x3. *)
Definition mul6 (M : mat) (v : vec) : vec := fun i => sum6 (fun j => M i j * v j).
Definition mul3 (M : mat) (v : vec) : vec := fun i => sum3 (fun j => M i j * v j).

Section Bodies.
Variable Itp : Type.
Variable itp_f itp_df : Itp -> R -> outcome R.

(** core/inc/Body.hpp, core/inc/BodyStates.hpp: what is used here. *)
Record body : Type := mkBody { bd_idx : nat; bd_blocked : blocked R Itp; bd_M : mat; bd_Minv : mat }.

(** BlockedDOF.cpp:307-328. [.at] throws out of range. *)
Definition get_delta_F (b : blocked R Itp) (dx_dt : list R) (total_inertia : mat) (F : vec) : outcome vec :=
  if no_blocked_dof b then Ok (fun _ => 0)
  else
    do a0 <- at_throw dx_dt (UIDX (b_idx b)) ;
    do a1 <- at_throw dx_dt (VIDX (b_idx b)) ;
    do a2 <- at_throw dx_dt (WIDX (b_idx b)) ;
    do a3 <- at_throw dx_dt (PIDX (b_idx b)) ;
    do a4 <- at_throw dx_dt (QIDX (b_idx b)) ;
    do a5 <- at_throw dx_dt (RIDX (b_idx b)) ;
    let a := fun j => nth j [a0; a1; a2; a3; a4; a5] 0 in
    Ok (fun i => mul6 total_inertia a i - F i).

(** Successive assignments [x[i] = v]. *)
Fixpoint set_all (x : list R) (l : list (nat * R)) : outcome (list R) :=
  match l with
  | [] => Ok x
  | (i, v) :: r => do x' <- set_ub x i v ; set_all x' r
  end.

(** Eigen::Quaternion product a*b, as (w, x, y, z). *)
Definition qmul (a b : R * R * R * R) : R * R * R * R :=
  let '(aw, ax, ay, az) := a in
  let '(bw, bx, by_, bz) := b in
  (aw * bw - ax * bx - ay * by_ - az * bz,
   aw * bx + ax * bw + ay * bz - az * by_,
   aw * by_ + ay * bw + az * bx - ax * bz,
   aw * bz + az * bw + ax * by_ - ay * bx).

(** Body.cpp:129-163: derivatives of the 13 states of a body, then forced derivatives. [F] is the sum of forces as a
    6-vector, [rot] the rotation matrix from NED to the body. *)
Definition calculate_state_derivatives (b : body) (F : vec) (rot : mat) (x dx : list R) (t : R) : outcome (list R) :=
  let i := bd_idx b in
  let acc := mul6 (bd_Minv b) F in
  do u <- at_ub x (UIDX i) ; do v <- at_ub x (VIDX i) ; do w <- at_ub x (WIDX i) ;
  do p <- at_ub x (PIDX i) ; do q <- at_ub x (QIDX i) ; do r <- at_ub x (RIDX i) ;
  do qr <- at_ub x (QRIDX i) ; do qi <- at_ub x (QIIDX i) ; do qj <- at_ub x (QJIDX i) ; do qk <- at_ub x (QKIDX i) ;
  let XpYpZp := mul3 rot (fun k => nth k [u; v; w] 0) in
  let '(dqr, dqi, dqj, dqk) := qmul (qr, qi, qj, qk) (0, p, q, r) in
  do dx1 <- set_all dx
     [(UIDX i, acc 0%nat); (VIDX i, acc 1%nat); (WIDX i, acc 2%nat);
      (PIDX i, acc 3%nat); (QIDX i, acc 4%nat); (RIDX i, acc 5%nat);
      (XIDX i, XpYpZp 0%nat); (YIDX i, XpYpZp 1%nat); (ZIDX i, XpYpZp 2%nat);
      (QRIDX i, 1 / 2 * dqr); (QIIDX i, 1 / 2 * dqi); (QJIDX i, 1 / 2 * dqj); (QKIDX i, 1 / 2 * dqk)] ;
  force_state_derivatives Rltb itp_df (bd_blocked b) dx1 t.

(** Sim.cpp:126-134: loop over the bodies; the forces and the rotation obtained for each body are arbitrary. *)
Fixpoint dx_dt (bodies : list (body * vec * mat)) (x dx : list R) (t : R) : outcome (list R) :=
  match bodies with
  | [] => Ok dx
  | (b, F, rot) :: r => do dx' <- calculate_state_derivatives b F rot x dx t ; dx_dt r x dx' t
  end.

(** Sim.cpp:118-124. *)
Fixpoint sim_force_states (bodies : list body) (x : list R) (t : R) : outcome (list R) :=
  match bodies with
  | [] => Ok x
  | b :: r => do x' <- force_states Rltb itp_f (bd_blocked b) x t ; sim_force_states r x' t
  end.

(** [std::hypot] and [almost_equal] (the latter arbitrary: an ULP comparison). *)
Definition hypot (a b : R) : R := sqrt (a * a + b * b).
Variable almost_equal : R -> R -> bool.

(** Sim.cpp:90-108, one iteration. *)
Definition normalize_one (i : nat) (x : list R) : outcome (list R) :=
  do qr <- at_ub x (QRIDX i) ; do qi <- at_ub x (QIIDX i) ; do qj <- at_ub x (QJIDX i) ; do qk <- at_ub x (QKIDX i) ;
  let norm := hypot (hypot (hypot qr qi) qj) qk in
  if almost_equal norm 1 then Ok x
  else set_all x [(QRIDX i, qr / norm); (QIIDX i, qi / norm); (QJIDX i, qj / norm); (QKIDX i, qk / norm)].
Fixpoint normalize_from (i n : nat) (x : list R) : outcome (list R) :=
  match n with
  | O => Ok x
  | S n' => do x' <- normalize_one i x ; normalize_from (S i) n' x'
  end.
Definition normalize_quaternions (n_bodies : nat) (x : list R) : outcome (list R) := normalize_from 0 n_bodies x.

(** Sim.cpp:199-206: the states given to the observers. Each turn of the loop starts again from [x]. *)
Fixpoint block_states_loop (bodies : list body) (x acc : list R) (t : R) : outcome (list R) :=
  match bodies with
  | [] => Ok acc
  | b :: r => do acc' <- force_states Rltb itp_f (bd_blocked b) x t ; block_states_loop r x acc' t
  end.
Definition output_states (bodies : list body) (x : list R) (t : R) : outcome (list R) :=
  do xf <- block_states_loop bodies x [] t ;
  normalize_quaternions (List.length bodies) xf.

End Bodies.
Arguments mkBody {Itp}. Arguments bd_idx {Itp}. Arguments bd_blocked {Itp}. Arguments bd_M {Itp}. Arguments bd_Minv {Itp}.
Arguments get_delta_F {Itp}. Arguments calculate_state_derivatives {Itp}. Arguments dx_dt {Itp}.
Arguments sim_force_states {Itp}. Arguments block_states_loop {Itp}. Arguments output_states {Itp}.

(** BodyStates.cpp:110-127: [vals] are the thirteen current values, in the order of the assignments. *)
Definition get_current_state_values (vals : list R) (idx : nat) : outcome (list R) :=
  let v k := nth k vals 0 in
  set_all (repeat 0 13)
    [(XIDX idx, v 0%nat); (YIDX idx, v 1%nat); (ZIDX idx, v 2%nat); (UIDX idx, v 3%nat); (VIDX idx, v 4%nat);
     (WIDX idx, v 5%nat); (PIDX idx, v 6%nat); (QIDX idx, v 7%nat); (RIDX idx, v 8%nat); (QRIDX idx, v 9%nat);
     (QIIDX idx, v 10%nat); (QJIDX idx, v 11%nat); (QKIDX idx, v 12%nat)].

(** ** The time loop *)
Section Solver.
(** The simulated system (all of its state), dates, and the external scheduler and stepper. *)
Variable Sys : Type.
Variable T : Type.
(** [tstart + i*dt], rounded as it likes. *)
Variable instant : T -> nat -> T -> T.
Variable Sch : Type.
Variable get_time : Sch -> T.
Variable has_more_time_events : Sch -> bool.
Variable append_time_event : Sch -> T -> Sch.
Variable do_step : Sys -> T -> T -> Sys.
Variable force : Sys -> T -> Sys.

(** core/inc/solver.hpp:29-44: at most [n] turns of the [while] loop; the observations made (date, system) and whether the
    loop ended by itself. Sim's discrete and continuous updates (Sim.cpp:136-142) are empty and the default event handler
    detects nothing. *)
Fixpoint quicksolve_loop (n : nat) (i : nat) (tstart dt : T) (sys : Sys) (sch : Sch) : list (T * Sys) * bool :=
  if has_more_time_events sch then
    match n with
    | O => ([], false)
    | S n' =>
        let t := get_time sch in
        let sys1 := force (do_step sys t dt) t in
        let sch1 := append_time_event sch (instant tstart (S i) dt) in
        let '(obs, fin) := quicksolve_loop n' (S i) tstart dt sys1 sch1 in
        ((get_time sch1, sys1) :: obs, fin)
    end
  else ([], true).

(** solver.hpp:20-45; [sch] is the scheduler as constructed at line 23. *)
Definition quicksolve (n : nat) (dt : T) (sys : Sys) (sch : Sch) : list (T * Sys) * bool :=
  let tstart := get_time sch in
  let '(obs, fin) := quicksolve_loop n 0 tstart dt sys sch in
  ((tstart, sys) :: obs, fin).

(** observers_and_api/inc/simulator_api.hpp:29-38: one more observation at tend, then the last result is dropped. *)
Definition simulate (n : nat) (dt tend : T) (sys : Sys) (sch : Sch) : list (T * Sys) * bool :=
  let '(obs, fin) := quicksolve n dt sys sch in
  let last_sys := match rev obs with (_, s) :: _ => s | [] => sys end in
  (removelast (obs ++ [(tend, last_sys)]), fin).
End Solver.
