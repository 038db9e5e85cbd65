(** What the properties of the closing facets (C98-...) talk about. Nothing here refers to the model. *)
From Coq Require Import Reals List Arith Permutation.
From Verif Require Import Geometry Hull_Spec Mesh_Spec.
Import ListNotations.
Open Scope R_scope.

(** Two edges (pairs of nodes) touch when they have a node in common. *)
Definition touch (e f : nat * nat) : Prop := fst e = fst f \/ fst e = snd f \/ snd e = fst f \/ snd e = snd f.
(** One can go from edge number [i] to edge number [j] along the edges of numbers [idx] of the list [es]. *)
Inductive linked (es : list (nat * nat)) (idx : list nat) : nat -> nat -> Prop :=
| linked_refl : forall i, In i idx -> linked es idx i i
| linked_step : forall i j k e f, linked es idx i j -> In k idx -> nth_error es j = Some e -> nth_error es k = Some f -> touch e f -> linked es idx i k.

(** The edges [es] form one closed line through the distinct nodes [ns], in that order: they are, in any order and each in any direction, the segments that join
    consecutive nodes. *)
Definition closed_line (es : list (nat * nat)) (ns : list nat) : Prop :=
  (3 <= length ns)%nat /\ NoDup ns /\ exists es', Permutation es es' /\ Forall2 same_edge es' (cyclic_pairs ns).
(** The list of oriented edges (number, run backwards?) goes once around the nodes [ns]. *)
Definition runs_around (es : list (nat * nat)) (k : list (nat * bool)) (ns : list nat) : Prop :=
  map (fun '(e, r) => match nth_error es e with Some (a, b) => Some (if r : bool then (b, a) else (a, b)) | None => None end) k = map Some (cyclic_pairs ns).
(** The same polygon, from another node and in any direction. *)
Definition same_polygon {A} (l l' : list A) : Prop := rotated l l' \/ rotated (rev l) l'.
(** Projection on the plane (x, y). *)
Definition flat (p : vec3) : vec3 := V3 (vx p) (vy p) 0.
(** The edges, run in the given directions *)
Definition directed (es : list (nat * nat)) (k : list (nat * bool)) : list (option (nat * nat)) :=
  map (fun '(e, r) => match nth_error es e with Some (a, b) => Some (if r : bool then (b, a) else (a, b)) | None => None end) k.
(** Each edge starts where the one before ends. *)
Fixpoint chained (l : list (nat * nat)) : Prop := match l with e :: ((f :: _) as t) => snd e = fst f /\ chained t | _ => True end.
