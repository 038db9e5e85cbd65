(** What the mesh properties (C41-C44) talk about, independently of how the code builds and cuts meshes. *)
From Coq Require Import Reals List Bool Arith.
From Verif Require Import Common Geometry Hull_Model Mesh_Model.
Import ListNotations.
Open Scope R_scope.

(** Consecutive pairs of a closed polygon, the last one coming back to the first. *)
Definition cyclic_pairs {A} (l : list A) : list (A * A) := match l with [] => [] | a :: t => combine l (t ++ [a]) end.
(** The polygon starting from another of its vertices. *)
Definition rotated {A} (l l' : list A) : Prop := exists a b, l = a ++ b /\ l' = b ++ a.

(** The same edge, whatever its direction. *)
Definition same_edge (a b : nat * nat) : Prop := a = b \/ a = (snd b, fst b).

(** Nodes of a mesh read from a file: the static ones. *)
Definition static_nodes (m : mesh) : list vec3 := firstn (m_nnodes m) (m_all m).
Definition static_edges (m : mesh) : list (nat * nat) := firstn (m_nedges m) (m_edges m).
(** End points of an oriented edge: the edge is [o / 2], run backwards when [o] is odd. *)
Definition ends (edges : list (nat * nat)) (o : nat) : option (nat * nat) :=
  match nth_error edges (Nat.div2 o) with Some (a, b) => Some (if Nat.odd o then (b, a) else (a, b)) | None => None end.
(** How many times an edge is used by a list of oriented edges *)
Definition uses (e : nat) (oes : list nat) : nat := count_occ Nat.eq_dec (map Nat.div2 oes) e.

(** Points of a facet *)
Definition has_points (nodes : list vec3) (vs : list nat) (pts : list vec3) : Prop := map (nth_error nodes) vs = map Some pts.

(** [m] is a faithful table of the polygons [v]. *)
Record table_of (v : list (list vec3)) (m : mesh) : Prop := {
  (* every non-empty polygon is a facet, in the same order, with the same points *)
  t_facets : Forall2 (fun pts f => has_points (static_nodes m) (mf_vertices f) pts) (filter (fun l => negb (length l =? 0)%nat) v) (m_facets m);
  (* with its own normal, area and centre *)
  t_geometry : Forall2 (fun pts f => unit_normal pts = Ok (mf_normal f) /\ mf_area f = area pts /\ mf_centroid f = centre_of_gravity pts)
                       (filter (fun l => negb (length l =? 0)%nat) v) (m_facets m);
  (* each point is stored once, and is a point of the input *)
  t_nodes : NoDup (static_nodes m);
  t_nodes_in : forall p, In p (static_nodes m) <-> In p (concat v);
  (* each edge is stored once, whatever its direction *)
  t_edges : forall i j a b, nth_error (m_edges m) i = Some a -> nth_error (m_edges m) j = Some b -> same_edge a b -> i = j;
  (* the oriented edges of a facet run around its vertices *)
  t_oriented : Forall2 (fun f oes => map (ends (m_edges m)) oes = map Some (cyclic_pairs (mf_vertices f))) (m_facets m) (m_oef m);
  (* each edge knows its facets, with multiplicity *)
  t_fpe_length : length (m_fpe m) = length (m_edges m);
  t_fpe : forall e f l, nth_error (m_fpe m) e = Some l -> count_occ Nat.eq_dec l f = match nth_error (m_oef m) f with Some oes => uses e oes | None => O end;
  (* there is no edge without a facet *)
  t_used : forall e, (e < length (m_edges m))%nat -> exists f oes, nth_error (m_oef m) f = Some oes /\ (0 < uses e oes)%nat
}.

(** ** Cutting by the free surface *)
(** A point with its immersion (its depth under the free surface). *)
Definition cut (a b : vec3 * R) : vec3 := vadd (fst a) (vscale (snd a / (snd a - snd b)) (vsub (fst b) (fst a))).
(** The part of a polygon that is under the surface [s = 1] or above it [s = -1] (Sutherland-Hodgman): keep the vertices on that side or on the
    surface, and add the point of the surface on each edge whose ends are strictly on both sides. *)
Definition clip (s : R) (l : list (vec3 * R)) : list vec3 :=
  flat_map (fun '(a, b) => (if Rle_dec 0 (s * snd a) then [fst a] else []) ++ (if Rlt_dec (snd a * snd b) 0 then [cut a b] else [])) (cyclic_pairs l).

(** What must become of a facet [f] of a mesh whose node [i] has immersion [z i]: with a vertex under the surface and none above, it is immersed;
    with a vertex above and none below, it is emerged; otherwise (vertices on both sides, or all of them exactly on the surface) it is replaced by one
    immersed and one emerged facet, that are the parts of [f] under and above the surface and have its normal. [im], [em]: the immersed
    and emerged facets it gives. *)
Definition cut_as (nodes : list vec3) (facets : list mfacet) (z : nat -> R) (f : nat) (im em : list nat) : Prop :=
  exists fc pts, nth_error facets f = Some fc /\ has_points nodes (mf_vertices fc) pts /\
    let polygon := combine pts (map z (mf_vertices fc)) in
    let below := exists i, In i (mf_vertices fc) /\ 0 < z i in
    let above := exists i, In i (mf_vertices fc) /\ z i < 0 in
    (below /\ ~ above /\ im = [f] /\ em = []) \/
    (above /\ ~ below /\ im = [] /\ em = [f]) \/
    ((above <-> below) /\ exists i e fi fe pi pe,
      im = [i] /\ em = [e] /\ nth_error facets i = Some fi /\ nth_error facets e = Some fe /\
      has_points nodes (mf_vertices fi) pi /\ has_points nodes (mf_vertices fe) pe /\
      rotated (clip 1 polygon) pi /\ rotated (clip (-1) polygon) pe /\
      mf_normal fi = mf_normal fc /\ mf_normal fe = mf_normal fc /\
      mf_area fi = area pi /\ mf_area fe = area pe /\ mf_centroid fi = centre_of_gravity pi /\ mf_centroid fe = centre_of_gravity pe).
