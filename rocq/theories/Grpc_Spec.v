(** Vocabulary for the statements about the gRPC services. *)
From Coq Require Import ZArith List Bool String Reals.
From Verif Require Import Common History_Model Server_Model Server_Spec Geometry Grpc_Model.
From Coquelicot Require Import Coquelicot.
Import ListNotations.
Notation Rnum := Rdefinitions.R (only parsing).
Open Scope list_scope.

(** The lists of a request other than that of the dates, with the names by which the protocol calls them. *)
Definition quaternion_lists {A} (r : quaternion_request A) : list (string * list (num A)) :=
  let s := q_states r in
  [("x", s_x s); ("y", s_y s); ("z", s_z s); ("u", s_u s); ("v", s_v s); ("w", s_w s); ("p", s_p s); ("q", s_q s); ("r", s_r s);
   ("qr", s_qr s); ("qi", s_qi s); ("qj", s_qj s); ("qk", s_qk s)]%string.
Definition euler_lists {A} (r : euler_request A) : list (string * list (num A)) :=
  [("x", e_x r); ("y", e_y r); ("z", e_z r); ("u", e_u r); ("v", e_v r); ("w", e_w r); ("p", e_p r); ("q", e_q r); ("r", e_r r);
   ("phi", e_phi r); ("theta", e_theta r); ("psi", e_psi r)]%string.
(** Every list has as many elements as there are dates. *)
Definition well_sized {X Y} (t : list X) (ls : list (string * list Y)) : Prop := forall name l, In (name, l) ls -> List.length l = List.length t.
(** What the error message must contain: the lists of another size, in order, with both sizes. *)
Definition faulty {X Y} (t : list X) (ls : list (string * list Y)) : list (string * nat * nat) :=
  map (fun f => (fst f, List.length (snd f), List.length t)) (filter (fun f => negb (Nat.eqb (List.length (snd f)) (List.length t))) ls).

(** The same request, with other dates. *)
Definition with_dates {A} (t : list (num A)) (r : quaternion_request A) : quaternion_request A := mkReqQ (q_Dt r) t (q_states r).
Definition with_dates_e {A} (t : list (num A)) (r : euler_request A) : euler_request A :=
  mkReqE (e_Dt r) t (e_x r) (e_y r) (e_z r) (e_u r) (e_v r) (e_w r) (e_p r) (e_q r) (e_r r) (e_phi r) (e_theta r) (e_psi r).

(** ** Attitudes *)
Open Scope R_scope.
Definition rotx (a : Rnum) : mat3 := M3 (V3 1 0 0) (V3 0 (cos a) (- sin a)) (V3 0 (sin a) (cos a)).
Definition roty (a : Rnum) : mat3 := M3 (V3 (cos a) 0 (sin a)) (V3 0 1 0) (V3 (- sin a) 0 (cos a)).
(** The convention z y' x'': yaw, then pitch, then roll. *)
Definition euler_matrix (phi theta psi : Rnum) : mat3 := mmul (rotz psi) (mmul (roty theta) (rotx phi)).
(** A moving attitude [M] turns at the rate [omega] (in the body frame) at instant [t0]: the point of the body at [v] moves at
    the velocity omega x v. Written for the projection on any direction [w] of the fixed frame. *)
Definition turns_at (M : Rnum -> mat3) (omega : vec3) (t0 : Rnum) : Prop :=
  forall v w, is_derive (fun t => dot w (mapply (M t) v)) t0 (dot w (mapply (M t0) (cross omega v))).
