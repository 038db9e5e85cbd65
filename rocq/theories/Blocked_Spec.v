(** Specification vocabulary for forced states (C14-C16, C21), independent of the model's functions. *)
From Coq Require Import List.
From Verif Require Import Blocked_Model.
Import ListNotations.

(** The state vector: 13 numbers per body, in the order x y z u v w p q r qr qi qj qk. *)
Definition rank (s : bstate) : nat := match s with SU => 3 | SV => 4 | SW => 5 | SP => 6 | SQ => 7 | SR => 8 end.
Definition slot (body : nat) (s : bstate) : nat := 13 * body + rank s.

(** A table covers a date if the date is between two dates of the table (bounds included). *)
Definition covers {D} (lt : D -> D -> bool) (dates : list D) (t : D) : Prop :=
  (exists a, In a dates /\ lt t a = false) /\ (exists b, In b dates /\ lt b t = false).

(** Comparison of doubles that are not NaN: a strict weak order. *)
Record strict_weak_order {D} (lt : D -> D -> bool) : Prop := {
  swo_irrefl : forall a, lt a a = false;
  swo_trans : forall a b c, lt a b = true -> lt b c = true -> lt a c = true;
  swo_cotrans : forall a b c, lt a c = true -> lt a b = true \/ lt b c = true
}.

(** Every state the user declares, in YAML or in CSV. *)
Definition declared_states {D} (input : blocked_input D) : list bstate :=
  map t_state (from_yaml input) ++ map c_state (from_csv input).
