(** Model of the mesh tables: code/mesh/src/MeshBuilder.cpp (from a list of polygons to shared nodes and edges), code/mesh/src/Mesh.cpp (tables,
    dynamic part) and code/mesh/src/MeshIntersector.cpp (cutting by the free surface), over exact reals. Indices are natural numbers
    ([size_t] never wraps here); unchecked accesses ([a[i]], Eigen columns, iterators) outside the array are [UB]. *)
From Coq Require Import Reals List Bool ZArith Arith.
From Verif Require Import Common Geometry Sim_Model Force_Model Hull_Model Blocked_Model.
Import ListNotations.
Open Scope R_scope.

(** A C++ loop over a list, with a state. *)
Fixpoint foldO {A B} (f : A -> B -> outcome A) (l : list B) (a : A) : outcome A :=
  match l with [] => Ok a | b :: l => do a' <- f a b; foldO f l a' end.
Fixpoint mapO_list {A B} (f : A -> outcome B) (l : list A) : outcome (list B) :=
  match l with [] => Ok [] | a :: l => do b <- f a; do r <- mapO_list f l; Ok (b :: r) end.

(** ** std::map with a comparator (MeshBuilder.hpp:9-24, 41-58) *)
(** Vector3dComparator, MeshBuilder.hpp:9-22 with MESH_LT and MESH_EQ of MeshNumeric.hpp:12-20 *)
Definition vector3d_lt (a b : vec3) : bool :=
  if Rltb 0 (vx b - vx a) then true
  else if Reqb (vx a) (vx b)
       then if Rltb 0 (vy b - vy a) then true
            else Reqb (vy a) (vy b) && Rltb 0 (vz b - vz a)
       else false.
(** EdgeComparator, MeshBuilder.hpp:41-56 *)
Definition edge_lt (a b : nat * nat) : bool :=
  let i1 := Nat.min (fst a) (snd a) in let i2 := Nat.max (fst a) (snd a) in
  let j1 := Nat.min (fst b) (snd b) in let j2 := Nat.max (fst b) (snd b) in
  if (i1 <? j1)%nat then true else if (i1 =? j1)%nat then (i2 <? j2)%nat else false.
(** std::map::find: an entry whose key is equivalent for the comparator (neither is less than the other). The tree is an association list. *)
Fixpoint map_find {K} (lt : K -> K -> bool) (k : K) (m : list (K * nat)) : option nat :=
  match m with
  | [] => None
  | (k', i) :: m => if negb (lt k k') && negb (lt k' k) then Some i else map_find lt k m
  end.
(** std::map::operator[]: 0 for a missing key (the insertion of that default value is not modelled: the key is never missing when it is called,
    MeshBuilder.cpp:93, 100) *)
Definition map_get {K} (lt : K -> K -> bool) (k : K) (m : list (K * nat)) : nat := match map_find lt k m with Some i => i | None => O end.

(** ** Facets and oriented edges *)
(** GeometricTypes3d.hpp, struct Facet: indices of the vertices, unit normal, centre of gravity (None: NaN), area *)
Record mfacet : Type := mkMF { mf_vertices : list nat; mf_normal : vec3; mf_centroid : option vec3; mf_area : R }.
(** Mesh.cpp:90-106 *)
Definition oriented_id (e : nat) (reversed : bool) : nat := (2 * e + (if reversed then 1 else 0))%nat.
Definition edge_index (o : nat) : nat := Nat.div2 o.
Definition is_reversed (o : nat) : bool := Nat.odd o.
(** Mesh.cpp:111-126 (first_vertex_of_oriented_edge, second_vertex_of_oriented_edge). The code keeps the first and second ends of the edges in
    two vectors that are always modified together: they are one list of pairs here. *)
Definition first_vertex (edges : list (nat * nat)) (o : nat) : outcome nat :=
  do e <- at_ub edges (edge_index o); Ok (if is_reversed o then snd e else fst e).
Definition second_vertex (edges : list (nat * nat)) (o : nat) : outcome nat :=
  do e <- at_ub edges (edge_index o); Ok (if is_reversed o then fst e else snd e).

(** ** MeshBuilder *)
Record builder : Type := mkB {
  b_xyz : list (vec3 * nat);       (* xyzMap *)
  b_emap : list ((nat * nat) * nat); (* edgeMap *)
  b_index : nat;                   (* index: number of points *)
  b_eindex : nat;                  (* edgeIndex *)
  b_nodes : list vec3;             (* nodes, as many columns as allocated by the constructor *)
  b_edges : list (nat * nat);
  b_facets : list mfacet;
  b_fpe : list (list nat);         (* facetsPerEdge *)
  b_oef : list (list nat)          (* orientedEdgesPerFacet *) }.

(** MeshBuilder.cpp:7-18: the matrix of nodes has v.size()*v.front().size() columns *)
Definition builder_init (v : list (list vec3)) : builder :=
  mkB [] [] 0 0 (match v with [] => [] | f :: _ => repeat v0 (length v * length f)%nat end) [] [] [] [].

(** MeshBuilder.cpp:96-101, 115-125, 133-137 *)
Definition build_one_point (b : builder) (p : vec3) : outcome (builder * nat) :=
  match map_find vector3d_lt p (b_xyz b) with
  | Some _ => Ok (b, map_get vector3d_lt p (b_xyz b))
  | None =>
      do nodes <- set_ub (b_nodes b) (b_index b) p;
      let b' := mkB ((p, b_index b) :: b_xyz b) (b_emap b) (S (b_index b)) (b_eindex b) nodes (b_edges b) (b_facets b) (b_fpe b) (b_oef b) in
      Ok (b', map_get vector3d_lt p (b_xyz b'))
  end.
(** MeshBuilder.cpp:85-94, 103-113, 127-131 *)
Definition build_one_edge (b : builder) (e : nat * nat) : builder * nat :=
  match map_find edge_lt e (b_emap b) with
  | Some _ => (b, map_get edge_lt e (b_emap b))
  | None =>
      let b' := mkB (b_xyz b) ((e, b_eindex b) :: b_emap b) (b_index b) (S (b_eindex b)) (b_nodes b) (b_edges b ++ [e]) (b_facets b) (b_fpe b ++ [[]]) (b_oef b) in
      (b', map_get edge_lt e (b_emap b'))
  end.
(** [v.at(i).push_back(x)] *)
Fixpoint push_at (l : list (list nat)) (i x : nat) : outcome (list (list nat)) :=
  match l, i with
  | [], _ => Throw
  | a :: l, O => Ok ((a ++ [x]) :: l)
  | a :: l, S i => do l' <- push_at l i x; Ok (a :: l')
  end.
(** MeshBuilder.cpp:68-79: the loop over the points of one facet. [first] is *list_of_points.begin(). Returns the vertices and the oriented edges. *)
Fixpoint build_points (first : vec3) (facet_index : nat) (l : list vec3) (b : builder) : outcome (builder * list nat * list nat) :=
  match l with
  | [] => Ok (b, [], [])
  | p :: l' =>
      do bv <- build_one_point b p; let (b1, v) := bv : builder * nat in
      do bw <- build_one_point b1 (hd first l'); let (b2, w) := bw : builder * nat in
      let (b3, e) := build_one_edge b2 (v, w) in
      do ed <- at_throw (b_edges b3) e;
      let reversed := Nat.eqb (snd ed) v in
      do fpe <- push_at (b_fpe b3) e facet_index;
      let b4 := mkB (b_xyz b3) (b_emap b3) (b_index b3) (b_eindex b3) (b_nodes b3) (b_edges b3) (b_facets b3) fpe (b_oef b3) in
      do r <- build_points first facet_index l' b4;
      let '(b5, vs, oes) := r : builder * list nat * list nat in Ok (b5, v :: vs, oriented_id e reversed :: oes)
  end.
(** MeshBuilder.cpp:57-83 *)
Definition build_facet_of (b : builder) (l : list vec3) : outcome builder :=
  match l with
  | [] => Ok b
  | p :: _ =>
      let facet_index := length (b_facets b) in
      do n <- unit_normal l;
      do r <- build_points p facet_index l b;
      let '(b', vs, oes) := r : builder * list nat * list nat in
      Ok (mkB (b_xyz b') (b_emap b') (b_index b') (b_eindex b') (b_nodes b') (b_edges b')
              (b_facets b' ++ [mkMF vs n (centre_of_gravity l) (area l)]) (b_fpe b') (b_oef b' ++ [oes]))
  end.

(** ** Mesh (Mesh.hpp:64-77) *)
Record mesh : Type := mkMesh {
  m_edges : list (nat * nat);
  m_facets : list mfacet;
  m_fpe : list (list nat);   (* facets_per_edge *)
  m_oef : list (list nat);   (* oriented_edges_per_facet *)
  m_nnodes : nat;            (* nb_of_static_nodes *)
  m_nedges : nat;            (* nb_of_static_edges *)
  m_nfacets : nat;           (* nb_of_static_facets *)
  m_all : list vec3;         (* all_nodes: every column *)
  m_total : nat;             (* total_number_of_nodes *)
  m_orientation : R          (* orientation_factor *) }.
(** MeshBuilder.cpp:33-41 (resize): the first [index] columns *)
Definition resize_nodes (b : builder) : outcome (list vec3) := mapO_list (at_ub (b_nodes b)) (seq 0 (b_index b)).
(** Mesh.cpp:21-43 *)
Definition make_mesh (nodes : list vec3) (b : builder) (clockwise : bool) : mesh :=
  mkMesh (b_edges b) (b_facets b) (b_fpe b) (b_oef b) (length nodes) (length (b_edges b)) (length (b_facets b))
         (nodes ++ repeat v0 (length (b_edges b))) (length nodes) (if clockwise then -1 else 1).
(** MeshBuilder.cpp:7-18 and 43-55 *)
Definition build_mesh (check_orientation : bool) (v : list (list vec3)) : outcome mesh :=
  do clockwise <- (if check_orientation then oriented_clockwise v (mesh_barycenter v) else Ok true);
  do b <- foldO build_facet_of v (builder_init v);
  do nodes <- resize_nodes b;
  Ok (make_mesh nodes b clockwise).

(** Mesh.cpp:45-51. The vectors are never shorter than their static part, so that [erase] is always valid. *)
Definition reset_dynamic_data (m : mesh) : mesh :=
  mkMesh (firstn (m_nedges m) (m_edges m)) (firstn (m_nfacets m) (m_facets m)) (m_fpe m) (m_oef m) (m_nnodes m) (m_nedges m) (m_nfacets m)
         (m_all m) (m_nnodes m) (m_orientation m).
(** Mesh.cpp:75-80 *)
Definition add_edge (m : mesh) (a b : nat) : mesh * nat :=
  (mkMesh (m_edges m ++ [(a, b)]) (m_facets m) (m_fpe m) (m_oef m) (m_nnodes m) (m_nedges m) (m_nfacets m) (m_all m) (m_total m) (m_orientation m),
   length (m_edges m)).
(** Mesh.cpp:82-88 *)
Definition add_vertex (m : mesh) (p : vec3) : outcome (mesh * nat) :=
  do all <- set_ub (m_all m) (m_total m) p;
  Ok (mkMesh (m_edges m) (m_facets m) (m_fpe m) (m_oef m) (m_nnodes m) (m_nedges m) (m_nfacets m) all (S (m_total m)) (m_orientation m), m_total m).
(** Mesh.cpp:58-68: the list of vertices with a 0 left in place of each repeated vertex, and the number of distinct vertices; [seen] is
    vertex_inserted *)
Fixpoint vertex_list (edges : list (nat * nat)) (l : list nat) (seen : list nat) : outcome (list nat * nat) :=
  match l with
  | [] => Ok ([], O)
  | o :: l =>
      do v <- second_vertex edges o;
      if existsb (Nat.eqb v) seen
      then do r <- vertex_list edges l seen; let (vs, n) := r : list nat * nat in Ok (O :: vs, n)
      else do r <- vertex_list edges l (v :: seen); let (vs, n) := r : list nat * nat in Ok (v :: vs, S n)
  end.
(** Mesh.cpp:53-73. [vertex_list.resize(n)] keeps the first n. The points are all read (the code reads them triangle by triangle). *)
Definition create_facet_from_edges (m : mesh) (l : list nat) (n : vec3) : outcome (mesh * nat) :=
  do r <- vertex_list (m_edges m) l []; let (vs, k) := r : list nat * nat in
  let vs := firstn k vs in
  match vs with
  | [] => UB (* vertex_index.front(), mesh_manipulations.cpp:169 *)
  | _ =>
      do pts <- mapO_list (at_ub (m_all m)) vs;
      Ok (mkMesh (m_edges m) (m_facets m ++ [mkMF vs n (centre_of_gravity pts) (area pts)]) (m_fpe m) (m_oef m) (m_nnodes m) (m_nedges m)
                 (m_nfacets m) (m_all m) (m_total m) (m_orientation m), length (m_facets m))
  end.

(** ** MeshIntersector (MeshIntersector.hpp:186-194) *)
Record inter : Type := mkI {
  i_mesh : mesh;
  i_rel : list R;      (* all_relative_immersions *)
  i_waves : list R;    (* all_absolute_wave_elevations *)
  i_abs : list R;      (* all_absolute_immersions *)
  i_emerged : list nat; (* index_of_emerged_facets *)
  i_immersed : list nat; (* index_of_immersed_facets *)
  i_surface : list nat; (* index_of_facets_exactly_on_the_surface *)
  i_on : list nat;     (* index_of_edges_exactly_on_surface, a std::set: increasing list *)
  i_closing : bool     (* need_to_update_closing_facet *) }.
(** MeshIntersector.cpp:31-41 *)
Definition intersector (m : mesh) : inter := mkI m [] [] [] [] [] [] [] true.
(** std::set::insert *)
Fixpoint set_insert (x : nat) (l : list nat) : list nat :=
  match l with [] => [x] | y :: l' => if (x <? y)%nat then x :: l else if (x =? y)%nat then l else y :: set_insert x l' end.

(** MeshIntersector.cpp:314-323 *)
Definition immersion_status (z0 z1 : R) : nat :=
  ((if Rltb 0 z0 then 1 else 0) + (if Rltb 0 z1 then 2 else 0) + (if Rltb z0 0 then 4 else 0) + (if Rltb z1 0 then 8 else 0))%nat.
(** MeshIntersector.cpp:325-348 *)
Definition crosses (s : nat) : bool := (s =? 9)%nat || (s =? 6)%nat.
Definition is_emerged (s : nat) : bool := (s =? 12)%nat || (s =? 8)%nat || (s =? 4)%nat.
Definition is_immersed (s : nat) : bool := (s =? 1)%nat || (s =? 2)%nat || (s =? 3)%nat.
Definition one_end_touches (s : nat) : bool := (s =? 1)%nat || (s =? 2)%nat || (s =? 4)%nat || (s =? 8)%nat.
Definition both_ends_touch (s : nat) : bool := (s =? 0)%nat.
(** MeshIntersector.cpp:299-312. Only called with dzA and dzB of strictly opposite signs. *)
Definition edge_intersection (A : vec3) (dzA : R) (B : vec3) (dzB : R) : vec3 :=
  let k := dzA / (dzA - dzB) in
  V3 (vx A + k * (vx B - vx A)) (vy A + k * (vy B - vy A)) (vz A + k * (vz B - vz A)).

(** Locals of find_intersection_with_free_surface: split_edges, edges_immersion_status, facet_crosses_free_surface *)
Record scan : Type := mkS { s_inter : inter; s_split : list nat; s_status : list nat; s_flags : list bool }.
Definition with_mesh (I : inter) (m : mesh) : inter :=
  mkI m (i_rel I) (i_waves I) (i_abs I) (i_emerged I) (i_immersed I) (i_surface I) (i_on I) (i_closing I).
(** MeshIntersector.cpp:255-277. Bit operations on the statuses: [s & 1], [(s & 2)/2], [| 4] with a multiple of 3 below 4. *)
Definition split_partially_immersed_edge (I : inter) (status : list nat) (e : nat) : outcome (inter * list nat * nat) :=
  let m := i_mesh I in
  do ab <- at_ub (m_edges m) e; let (a, b) := ab : nat * nat in
  do A <- at_ub (m_all m) a;
  do B <- at_ub (m_all m) b;
  do dzA <- at_ub (i_rel I) a;
  do dzB <- at_ub (i_rel I) b;
  do zA <- at_ub (i_waves I) a;
  do zB <- at_ub (i_waves I) b;
  do mv <- add_vertex m (edge_intersection A dzA B dzB); let (m1, mid) := mv : mesh * nat in
  let k := dzA / (dzA - dzB) in
  let (m2, first) := add_edge m1 a mid in
  let (m3, _) := add_edge m2 mid b in
  do s <- at_ub status e;
  let status := status ++ [Nat.lor (Nat.land s 1 * 3) 4; Nat.lor (Nat.div2 (Nat.land s 2) * 3) 4] in
  Ok (mkI m3 (i_rel I ++ [0]) (i_waves I ++ [zA + k * (zB - zA)]) (i_abs I) (i_emerged I) (i_immersed I) (i_surface I) (i_on I) (i_closing I),
      status, first).
(** MeshIntersector.cpp:48-67: one edge *)
Definition scan_edge (s : scan) (e : nat) : outcome scan :=
  let I := s_inter s in
  do ab <- at_ub (m_edges (i_mesh I)) e;
  do z0 <- at_ub (i_rel I) (fst ab);
  do z1 <- at_ub (i_rel I) (snd ab);
  let st := immersion_status z0 z1 in
  do status <- set_ub (s_status s) e st;
  do r <- (if crosses st
           then do r <- split_partially_immersed_edge I status e;
                let '(I', status', first) := r : inter * list nat * nat in
                do split <- set_ub (s_split s) e first; Ok (I', status', split)
           else Ok (I, status, s_split s));
  let '(I', status', split) := r : inter * list nat * list nat in
  do flags <- (if crosses st || both_ends_touch st || one_end_touches st
               then do fs <- at_ub (m_fpe (i_mesh I')) e; foldO (fun fl f => set_ub fl f true) fs (s_flags s)
               else Ok (s_flags s));
  Ok (mkS I' split status' flags).
(** MeshIntersector.cpp:43-68 *)
Definition find_intersection (s : scan) : outcome scan := foldO scan_edge (seq 0 (m_nedges (i_mesh (s_inter s)))) s.

(** Locals of split_partially_immersed_facet_and_classify: emerged_edges, immersed_edges, first_emerged, first_immersed, status, and the set
    index_of_edges_exactly_on_surface *)
Record walk : Type := mkW { w_em : list nat; w_im : list nat; w_fe : nat; w_fi : nat; w_st : Z; w_on : list nat }.
(** MeshIntersector.cpp:182-227: one oriented edge of the facet *)
Definition walk_step (status split : list nat) (w : walk) (o : nat) : outcome walk :=
  let e := edge_index o in
  do s <- at_ub status e;
  if both_ends_touch s then
    let em := w_em w ++ [o] in let im := w_im w ++ [o] in
    Ok (mkW em im (if (w_st w =? 3)%Z then length em else w_fe w) (if (w_st w =? 0)%Z then length im else w_fi w) (w_st w) (set_insert e (w_on w)))
  else if is_emerged s then
    Ok (mkW (w_em w ++ [o]) (w_im w) (if (w_st w =? 3)%Z then length (w_em w) else w_fe w) (w_fi w) 0%Z (w_on w))
  else if is_immersed s then
    Ok (mkW (w_em w) (w_im w ++ [o]) (w_fe w) (if (w_st w =? 0)%Z then length (w_im w) else w_fi w) 3%Z (w_on w))
  else
    let r := is_reversed o in
    do e0 <- at_ub split e;
    let e1 := if r then S e0 else e0 in
    let e2 := if r then e0 else S e0 in
    do s1 <- at_ub status e1;
    if is_emerged s1
    then Ok (mkW (w_em w ++ [oriented_id e1 r]) (w_im w ++ [oriented_id e2 r]) (w_fe w) (length (w_im w)) 3%Z (w_on w))
    else Ok (mkW (w_em w ++ [oriented_id e2 r]) (w_im w ++ [oriented_id e1 r]) (length (w_em w)) (w_fi w) 0%Z (w_on w)).
(** [v.insert(v.begin()+i, x)] *)
Definition insert_ub {A} (l : list A) (i : nat) (x : A) : outcome (list A) :=
  if (i <=? length l)%nat then Ok (firstn i l ++ x :: skipn i l) else UB.
(** MeshIntersector.cpp:169-253 *)
Definition split_facet (status split : list nat) (I : inter) (f : nat) : outcome inter :=
  do oes <- at_ub (m_oef (i_mesh I)) f;
  do w <- foldO (walk_step status split) oes (mkW [] [] 0 0 (-1)%Z (i_on I));
  let I1 := mkI (i_mesh I) (i_rel I) (i_waves I) (i_abs I) (i_emerged I) (i_immersed I) (i_surface I) (w_on w) (i_closing I) in
  if (length (w_em w) <=? 1)%nat then
    Ok (mkI (i_mesh I) (i_rel I) (i_waves I) (i_abs I) (i_emerged I) (i_immersed I ++ [f]) (i_surface I) (w_on w) (i_closing I))
  else if (length (w_im w) <=? 1)%nat then
    Ok (mkI (i_mesh I) (i_rel I) (i_waves I) (i_abs I) (i_emerged I ++ [f]) (i_immersed I) (i_surface I) (w_on w) (i_closing I))
  else
    do oi <- at_ub (w_im w) (w_fi w);
    do a <- first_vertex (m_edges (i_mesh I)) oi;
    do oe <- at_ub (w_em w) (w_fe w);
    do b <- first_vertex (m_edges (i_mesh I)) oe;
    let (m1, c) := add_edge (i_mesh I) a b in
    let on := if Nat.eqb a b then w_on w else set_insert c (w_on w) in
    do im <- insert_ub (w_im w) (w_fi w) (oriented_id c true);
    do em <- insert_ub (w_em w) (w_fe w) (oriented_id c false);
    do fct <- at_ub (m_facets m1) f;
    do r2 <- create_facet_from_edges m1 em (mf_normal fct); let (m2, fe) := r2 : mesh * nat in
    do r3 <- create_facet_from_edges m2 im (mf_normal fct); let (m3, fi) := r3 : mesh * nat in
    Ok (mkI m3 (i_rel I1) (i_waves I1) (i_abs I1) (i_emerged I ++ [fe]) (i_immersed I ++ [fi]) (i_surface I) on (i_closing I)).
(** MeshIntersector.cpp:91-102 *)
Definition classify_facet (status : list nat) (I : inter) (f : nat) : outcome inter :=
  do oes <- at_ub (m_oef (i_mesh I)) f;
  do o <- at_ub oes 0;
  do s <- at_ub status (edge_index o);
  if is_emerged s
  then Ok (mkI (i_mesh I) (i_rel I) (i_waves I) (i_abs I) (i_emerged I ++ [f]) (i_immersed I) (i_surface I) (i_on I) (i_closing I))
  else Ok (mkI (i_mesh I) (i_rel I) (i_waves I) (i_abs I) (i_emerged I) (i_immersed I ++ [f]) (i_surface I) (i_on I) (i_closing I)).
(** MeshIntersector.cpp:70-89 *)
Definition classify_or_split (s : scan) : outcome inter :=
  foldO (fun I f => do c <- at_ub (s_flags s) f; if c : bool then split_facet (s_status s) (s_split s) I f else classify_facet (s_status s) I f)
        (seq 0 (m_nfacets (i_mesh (s_inter s)))) (s_inter s).

(** MeshIntersector.cpp:104-114 *)
Definition reset_dynamic_members (I : inter) : inter := mkI (reset_dynamic_data (i_mesh I)) (i_rel I) (i_waves I) (i_abs I) [] [] [] [] (i_closing I).
(** MeshIntersector.cpp:116-138. The check against NaN (lines 121-124) has no counterpart over the reals. *)
Definition update_intersection (I : inter) (rel waves : list R) : outcome inter :=
  let I0 := reset_dynamic_members (mkI (i_mesh I) rel waves (i_abs I) (i_emerged I) (i_immersed I) (i_surface I) (i_on I) (i_closing I)) in
  do s <- find_intersection (mkS I0 (repeat O (m_nedges (i_mesh I0))) (repeat O (m_nedges (i_mesh I0))) (repeat false (m_nfacets (i_mesh I0))));
  do I2 <- classify_or_split s;
  do abs <- mapO_list (fun i => do r <- at_ub (i_rel I2) i; do w <- at_ub (i_waves I2) i; Ok (r + w)) (seq 0 (length (i_waves I2)));
  Ok (mkI (i_mesh I2) (i_rel I2) (i_waves I2) abs (i_emerged I2) (i_immersed I2) (i_surface I2) (i_on I2) true).
