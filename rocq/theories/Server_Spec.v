(** Vocabulary for the statements about the servers: the thirteen states of a body, in the order of the state vector documented
    by xdyn (x y z u v w p q r qr qi qj qk). *)
From Coq Require Import List.
From Verif Require Import Server_Model.
Import ListNotations.

Inductive comp : Type := X | Y | Z | U | V | W | P | Q | R | QR | QI | QJ | QK.
Definition all_comps : list comp := [X; Y; Z; U; V; W; P; Q; R; QR; QI; QJ; QK].
Definition get {T} (c : comp) (s : abs_states T) : T :=
  match c with
  | X => s_x s | Y => s_y s | Z => s_z s | U => s_u s | V => s_v s | W => s_w s | P => s_p s | Q => s_q s | R => s_r s
  | QR => s_qr s | QI => s_qi s | QJ => s_qj s | QK => s_qk s
  end.
(** The state vector of thirteen values. *)
Definition vector {T} (s : abs_states T) : list T := map (fun c => get c s) all_comps.
