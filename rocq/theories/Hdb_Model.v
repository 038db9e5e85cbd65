(** Model of the tables of hydrodynamic coefficients: code/hdb_interpolators/src/HDBParser.cpp, DiffractionInterpolator.cpp, and of the diffraction force
    (code/force_models/src/DiffractionForceModel.cpp), over exact reals. The text of the file is already a tree (hdb_to_ast.cpp and its
    boost::spirit grammar are not modelled); a line of numbers has a first number (the period) followed by at least one other (hdb_grammar.hpp:35). *)
From Coq Require Import Reals List Bool String Ascii ZArith.
From Verif Require Import Common Geometry Sim_Model Force_Model Wave_Model.
Import ListNotations.
Open Scope R_scope.

(** A line: period and the values that follow *)
Definition line := (R * list R)%type.
Definition matrix := nat -> nat -> R.

(** ** HDBParser.cpp:93-145: the sixteen entries whose sign is changed *)
Definition flipped : list (nat * nat) :=
  [(0,1); (0,2); (0,4); (0,5); (1,0); (1,3); (2,0); (2,3); (3,1); (3,2); (3,4); (3,5); (4,0); (4,3); (5,0); (5,3)]%nat.
Definition convert_matrix (M : matrix) : matrix :=
  fun i j => if existsb (fun p => Nat.eqb (fst p) i && Nat.eqb (snd p) j) flipped then - M i j else M i j.
Definition timestamped := list (R * matrix).
Definition convert_matrices_from_aquaplus_to_xdyn_frame (ms : timestamped) : timestamped := map (fun m => (fst m, convert_matrix (snd m))) ms.

(** HDBParser.cpp:72-91. [set_row i v m] replaces line i of m by the first six values of v (.at throws if there are less). *)
Definition set_row (i : nat) (v : list R) (m : matrix) : matrix := fun a b => if Nat.eqb a i then nth b v 0 else m a b.
Fixpoint fill_loop (i : nat) (V : list line) (ret : timestamped) : outcome timestamped :=
  match V, ret with
  | (T, v) :: V, m :: ret => if Nat.ltb (List.length v) 6 then Throw else do r <- fill_loop i V ret; Ok ((T, set_row i v (snd m)) :: r)
  | _, _ => Ok []
  end.
(** the matrices are value-initialised *)
Definition fill (ret : timestamped) (i : nat) (V : list line) : outcome timestamped :=
  let ret := match ret with [] => repeat (0, fun _ _ => 0) (List.length V) | _ => ret end in
  if Nat.eqb (List.length V) (List.length ret) then fill_loop i V ret else Throw.

(** HDBParser.cpp:147-176. [sections] are the sections of all the lists with the right header, in the order of the file. The names of the six lines
    are different, so a section matches at most one of them. *)
Definition line_name (matrix_name : string) (i : nat) : string := (matrix_name ++ "_" ++ String (ascii_of_nat (49 + i)) "")%string.
Definition line_of (matrix_name header : string) : option nat := find (fun i => String.eqb header (line_name matrix_name i)) (seq 0 6).
Fixpoint matrix_loop (matrix_name : string) (sections : list (string * list line)) (ret : timestamped) (found : list nat) : outcome (timestamped * list nat) :=
  match sections with
  | [] => Ok (ret, found)
  | (header, V) :: sections =>
      match line_of matrix_name header with
      | Some i => do ret <- fill ret i V; matrix_loop matrix_name sections ret (i :: found)
      | None => matrix_loop matrix_name sections ret found
      end
  end.
Definition get_matrix (matrix_name : string) (sections : list (string * list line)) : outcome timestamped :=
  do r <- matrix_loop matrix_name sections [] [];
  if forallb (fun i => existsb (Nat.eqb i) (snd r)) (seq 0 6) then Ok (convert_matrices_from_aquaplus_to_xdyn_frame (fst r)) else Throw.

(** HDBParser.cpp:409-421 *)
Definition get_Tp (ms : timestamped) : list R := map fst ms.
Definition get_Mij (ms : timestamped) (i j : nat) : list R := map (fun m => snd m i j) ms.
(** HDBParser.cpp:61-69 and 320-324: the frequencies and the coefficients, in the reverse order of the file *)
Definition radiation_damping_angular_frequencies (Br : timestamped) : outcome (list R) :=
  mapM (fun T => if Req_EM_T T 0 then Throw else Ok (2 * PI / T)) (rev (get_Tp Br)).
Definition radiation_damping_coeff (Br : timestamped) (i j : nat) : list R := rev (get_Mij Br i j).

(** ** HDBParser.cpp:178-230. A section is an incidence (in degrees) and its lines. *)
Definition incidence := (R * list line)%type.
(** std::set<double>: sorted, without duplicates *)
Fixpoint insert (x : R) (l : list R) : list R :=
  match l with
  | [] => [x]
  | y :: l' => if Rltb x y then x :: l else if Rltb y x then y :: insert x l' else l
  end.
Definition pad (n : nat) (l : list R) : list R := l ++ repeat 0 (n - List.length l).
Fixpoint set_at {A} (l : list A) (i : nat) (x : A) : list A :=
  match l, i with [], _ => [] | _ :: l, O => x :: l | a :: l, S i => a :: set_at l i x end.
(** lines 198-208 for axis j: [t] are the lines of the table from the current period on *)
Fixpoint rao_lines (j psi_idx : nat) (V : list line) (t : list (list R)) : outcome (list (list R)) :=
  match V with
  | [] => Ok t
  | (_, v) :: V =>
      let (row, t') := match t with [] => ([], []) | r :: t' => (r, t') end in
      do x <- at_throw v j;
      do t'' <- rao_lines j psi_idx V t';
      Ok (set_at (pad (S psi_idx) row) psi_idx x :: t'')
  end.
(** lines 189-211 (one list of sections; psi_idx restarts at 0 for each list) *)
Fixpoint rao_sections (j psi_idx : nat) (ss : list incidence) (t : list (list R)) : outcome (list (list R)) :=
  match ss with
  | [] => Ok t
  | (_, V) :: ss => do t <- rao_lines j psi_idx V t; rao_sections j (S psi_idx) ss t
  end.
Fixpoint rao_lists (j : nat) (lists : list (list incidence)) (t : list (list R)) : outcome (list (list R)) :=
  match lists with [] => Ok t | ss :: lists => do t <- rao_sections j 0 ss t; rao_lists j lists t end.
Record rao_data : Type := mkRAO { rao_periods : list R; rao_psi : list R; rao_values : nat -> list (list R) }.
(** [lists]: for each list with the right header, its sections with the right header. When there is none, an error message is returned instead. *)
Definition get_rao (lists : list (list incidence)) : outcome rao_data :=
  do v0 <- rao_lists 0 lists []; do v1 <- rao_lists 1 lists []; do v2 <- rao_lists 2 lists []; do v3 <- rao_lists 3 lists [];
  do v4 <- rao_lists 4 lists []; do v5 <- rao_lists 5 lists [];
  match List.concat lists with
  | [] => Throw
  | ss => Ok (mkRAO (fold_left (fun s x => insert x s) (List.concat (map (fun s => map fst (snd s)) ss)) [])
                    (fold_left (fun s x => insert x s) (map (fun s => fst s * PI / 180) ss) [])
                    (fun j => nth j [v0; v1; v2; v3; v4; v5] []))
  end.

(** ** DiffractionInterpolator.cpp. [table axis Tp beta] is the (ssc) interpolation of the table of the HDB file. *)
Definition reduce (beta : R) : R := beta - 2 * PI * IZR (Int_part (beta / (2 * PI))).
(** lines 72-102 *)
Definition interpolate_module (table : nat -> R -> R -> R) (mirror : bool) (axis : nat) (Tp beta : R) : R :=
  let beta := reduce beta in
  if mirror && Rltb PI beta then
    let ret := table axis Tp (2 * PI - beta) in
    if Nat.eqb axis 1 || Nat.eqb axis 3 || Nat.eqb axis 5 then ret * -1 else ret
  else table axis Tp beta.
(** lines 104-121 *)
Definition interpolate_phase (table : nat -> R -> R -> R) (mirror : bool) (axis : nat) (Tp beta : R) : R :=
  let beta := reduce beta in
  if mirror && Rltb PI beta then table axis Tp (2 * PI - beta) else table axis Tp beta.
(** lines 44-58 *)
Definition get_array_cartesian (table : nat -> R -> R -> R) (mirror : bool) (omegas psis : list R) (axis : nat) : list (list R) :=
  map (fun omega => map (fun psi => if mirror && Rltb PI psi then table axis (2 * PI / omega) (2 * PI - psi) else table axis (2 * PI / omega) psi) psis) (rev omegas).

(** ** DiffractionForceModel.cpp *)
(** lines 34-57 and 60-70; TWOPI is 6.283185307179586232 in the code *)
Definition check_periods (min_bound max_bound : R) (omegas : list (list R)) : outcome unit :=
  if existsb (existsb (fun w => Rltb (2 * PI / w) (min_bound - 1 / 100) || Rltb (max_bound + 1 / 100) (2 * PI / w))) omegas then Throw else Ok tt.
(** lines 121-191. [P] is the position in the NED frame of the calculation point H0, [psi] the heading. The RAO are evaluated for each axis (143-172), the wrench
    converted (193-198) and moved to G (182-190). *)
Definition rao_tables (module phase : nat -> R -> R -> R) (mirror : bool) (fs : list (flat R)) (psi : R) (axis : nat) : list (list R) * list (list R) :=
  (map (fun f => map (fun p => interpolate_module module mirror axis (2 * PI / fst p) (psi - snd p)) (combine (f_omega f) (f_psi f))) fs,
   map (fun f => map (fun p => - interpolate_phase phase mirror axis (2 * PI / fst p) (psi - snd p)) (combine (f_omega f) (f_psi f))) fs).
Definition diffraction_force (module phase : nat -> R -> R -> R) (mirror : bool) (fs : list (flat R)) (P H0 G : vec3) (psi t : R) : outcome wrench :=
  let w k := let rp := rao_tables module phase mirror fs psi k in evaluate_rao fs (vx P) (vy P) t (fst rp) (snd rp) in
  do w0 <- w 0%nat; do w1 <- w 1%nat; do w2 <- w 2%nat; do w3 <- w 3%nat; do w4 <- w 4%nat; do w5 <- w 5%nat;
  let force := V3 (w0 * -1) w1 w2 in
  let torque := V3 (w3 * -1) w4 w5 in
  Ok (mkW G force (vadd torque (cross (vadd (vopp G) H0) force))).
