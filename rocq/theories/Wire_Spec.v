(** What the messages of the websocket servers should be (C117-C120). JSON texts and values are those of Observer_Spec, a reader written from RFC 8259. *)
From Coq Require Import List Bool String Ascii.
From Verif Require Import Observer_Spec Wire_Model.
Import ListNotations.
Open Scope string_scope.

Section Wire.
  Context {D : Type} (fmt : D -> string) (isnan : D -> bool).

  (** The seventeen numbers of a state and their names. *)
  Definition state_numbers (s : @wstate D) : list (string * D) :=
    [("t", w_t s); ("x", w_x s); ("y", w_y s); ("z", w_z s); ("u", w_u s); ("v", w_v s); ("w", w_w s); ("p", w_p s); ("q", w_q s); ("r", w_r s);
     ("qr", w_qr s); ("qi", w_qi s); ("qj", w_qj s); ("qk", w_qk s); ("phi", w_phi s); ("theta", w_theta s); ("psi", w_psi s)].
  (** The JSON value that represents a state: its numbers, and an object with the observations (null for those that are not numbers). *)
  Definition state_json (s : @wstate D) : json :=
    JObj (map (fun p => (fst p, JNum (fmt (snd p)))) (state_numbers s)
          ++ [("extra_observations", JObj (map (fun p => (fst p, if isnan (snd p) then JWord "null" else JNum (fmt (snd p)))) (w_extra s)))]).
  (** The numbers that a state sends are printed as JSON numbers, and the names need no escape. *)
  Definition printable (s : @wstate D) : Prop :=
    (forall k d, In (k, d) (state_numbers s) -> json_number (fmt d)) /\
    (forall k d, In (k, d) (w_extra s) -> json_clean k = true /\ (isnan d = false -> json_number (fmt d))).
  (** Every value printed is read back. *)
  Definition lossless (num : string -> option D) : Prop := forall d, json_number (fmt d) -> num (fmt d) = Some d.
  (** The state without what a request does not contain. *)
  Definition core (zero : D) (s : @wstate D) : @wstate D :=
    mkWS (w_t s) (w_x s) (w_y s) (w_z s) (w_u s) (w_v s) (w_w s) (w_p s) (w_q s) (w_r s) (w_qr s) (w_qi s) (w_qj s) (w_qk s) zero zero zero [].
End Wire.

(** A JSON object with the single member "error", a string. *)
Definition is_error (text message : string) : Prop := json_parse text = Some (JObj [("error", JStr message)]).
(** The member [k] of the object [v] is a number that can be read. *)
Definition number_member {D} (num : string -> option D) (k : string) (v : json) (d : D) : Prop := exists l, jfield k v = Some (JNum l) /\ num l = Some d.
(** The names a state of a request must have. *)
Definition request_fields : list string := ["t"; "x"; "y"; "z"; "u"; "v"; "w"; "p"; "q"; "r"; "qr"; "qi"; "qj"; "qk"].

Section Requests.
  Context {D : Type} (num : string -> option D) (zero : D).
  (** A state of a request: the fourteen numbers are there, under their names; the angles and observations are not read. *)
  Definition is_state (v : json) (s : @wstate D) : Prop :=
    Forall2 (fun k p => k = fst p /\ number_member num k v (snd p)) request_fields (firstn 14 (state_numbers s)) /\ core zero s = s.
  (** What a request must be, and what is read in it: an object with an array of states, an optional duration (0 if it is not given) and optional commands. *)
  Definition is_request (text : string) (r : @request D) : Prop :=
    exists doc arr ms, json_parse text = Some doc /\ doc = JObj ms /\ jfield "states" doc = Some (JArr arr) /\
      Forall2 is_state arr (rq_states r) /\
      ((jfield "Dt" doc = None /\ rq_Dt r = zero) \/ number_member num "Dt" doc (rq_Dt r)) /\
      (((jfield "commands" doc = None \/ jfield "commands" doc = Some (JWord "null")) /\ rq_commands r = []) \/
       (exists c, jfield "commands" doc = Some (JObj c) /\ NoDup (map fst (rq_commands r)) /\
          forall k d, In (k, d) (rq_commands r) <-> In k (map fst c) /\ number_member num k (JObj c) d)).
End Requests.
