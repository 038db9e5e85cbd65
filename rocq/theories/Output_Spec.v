(** Specification of the command-line outputs, in terms of strings only. *)
From Coq Require Import ZArith List Bool Ascii String.
Import ListNotations.
Open Scope string_scope.

(** No character of [s] is in [l]. *)
Fixpoint avoids (l : list ascii) (s : string) : Prop :=
  match s with EmptyString => True | String c s' => ~ In c l /\ avoids l s' end.

(** [s] is a non-empty sequence of decimal digits of value [v]. *)
Definition is_digit (c : ascii) (d : Z) : Prop := exists n, (n < 10)%nat /\ c = ascii_of_nat (48 + n) /\ d = Z.of_nat n.
Inductive decimal : string -> Z -> Prop :=
| dec_one : forall c d, is_digit c d -> decimal (String c "") d
| dec_more : forall s v c d, decimal s v -> is_digit c d -> decimal (s ++ String c "") (v * 10 + d).

(** The ASCII NUL, which ends C strings. *)
Definition NUL : ascii := Ascii.zero.

(** A websocket URL without user information: "ws://" host ":" port, then nothing or a path. *)
Record ws_url (url host port path : string) : Prop := {
  url_eq : url = "ws://" ++ host ++ ":" ++ port ++ path;
  host_ok : host <> "" /\ avoids ["/"; " "; ":"; NUL]%char host;
  port_ok : avoids ["/"; " "; NUL]%char port;
  path_ok : (path = "" \/ exists p, path = String "/" p) /\ avoids [" "; NUL]%char path
}.

Definition ends_with (s ext : string) : Prop := exists base, s = base ++ ext.
