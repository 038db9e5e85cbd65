(** Model of the closing facets ("lids") of the part of a hull under the free surface and of the volumes computed with them
    (/repo/code/mesh/src/ClosingFacetComputer.cpp, MeshIntersector.cpp:11-20, 140-167, 349-397, 406-442, 489-541, CenterOfMass.cpp). Real arithmetic. *)
From Coq Require Import Reals List Bool Arith.
From Verif Require Import Common Geometry Sim_Model Force_Model Hull_Model Mesh_Model.
Import ListNotations.
Open Scope R_scope.

(** An InternalErrorException is caught by [contour] (ClosingFacetComputer.cpp:520-527, 531-542); other exceptions are not. A call that may throw it returns
    [Ok None] for an InternalErrorException; [Throw] is any other exception. *)
Definition thrown {A} : outcome (option A) := Ok None.
Definition bindE {A B} (x : outcome (option A)) (f : A -> outcome (option B)) : outcome (option B) :=
  do r <- x; match r with Some a => f a | None => thrown end.

Definition edge_list : Type := list (nat * nat).

(** ** Tables *)
(** ClosingFacetComputer.cpp:183-201 (extract_nodes): used_nodes holds the elements of ret *)
Definition mem (x : nat) (l : list nat) : bool := existsb (Nat.eqb x) l.
Definition add_node (ret : list nat) (n : nat) : list nat := if mem n ret then ret else ret ++ [n].
Definition extract_nodes (es : edge_list) : list nat := fold_left (fun ret e => add_node (add_node ret (fst e)) (snd e)) es [].
(** ClosingFacetComputer.cpp:584-597 (get_node_to_connected_edges). The std::map is an association list, the std::set an increasing list. *)
Definition node_map : Type := list (nat * list nat).
Fixpoint nm_find (n : nat) (m : node_map) : option (list nat) := match m with [] => None | (k, s) :: m => if Nat.eqb k n then Some s else nm_find n m end.
Fixpoint nm_insert (n i : nat) (m : node_map) : node_map :=
  match m with [] => [(n, [i])] | (k, s) :: m => if Nat.eqb k n then (k, set_insert i s) :: m else (k, s) :: nm_insert n i m end.
Fixpoint connected_from (i : nat) (es : edge_list) (m : node_map) : node_map :=
  match es with [] => m | e :: es => connected_from (S i) es (nm_insert (snd e) i (nm_insert (fst e) i m)) end.
Definition node_to_connected_edges (es : edge_list) : node_map := connected_from 0 es [].

(** ** Connected components *)
(** boost::connected_components (external) on the undirected graph of vertices 0..n-1: the components are numbered in the order of their first vertices.
    Each vertex gets the lowest vertex of its component (relabelling for each edge), then the rank of that vertex. *)
Definition relabel (lab : list nat) (e : nat * nat) : list nat :=
  let a := nth (fst e) lab O in let b := nth (snd e) lab O in map (fun l => if Nat.eqb l (Nat.max a b) then Nat.min a b else l) lab.
Definition labels (n : nat) (es : edge_list) : list nat := fold_left relabel es (seq 0 n).
Definition roots (lab : list nat) : list nat := filter (fun v => Nat.eqb (nth v lab O) v) (seq 0 (length lab)).
Fixpoint rank (x : nat) (l : list nat) : nat := match l with [] => O | y :: l => if Nat.eqb x y then O else S (rank x l) end.
Definition boost_components (n : nat) (es : edge_list) : nat * list nat :=
  let lab := labels n es in (length (roots lab), map (fun l => rank l (roots lab)) lab).

(** ClosingFacetComputer.cpp:112-140. [rank x nodes] is idx_in_mesh_to_node_idx[x] (every x looked up is in [nodes]). The result is nb_of_components and
    component_idx_per_node, indexed by the nodes of the mesh, 0 for those that are not in the edges. Without edges, line 130 takes the address
    of element 0 of an empty vector. *)
Definition get_connected_components (es : edge_list) : outcome (nat * list nat) :=
  let nodes := extract_nodes es in
  let max_idx := fold_left Nat.max nodes O in
  match es with
  | [] => UB
  | _ =>
      let (nb, comp) := boost_components (length nodes) (map (fun e => (rank (fst e) nodes, rank (snd e) nodes)) es) in
      Ok (nb, map (fun x => if mem x nodes then nth (rank x nodes) comp O else O) (seq 0 (S max_idx)))
  end.
(** ClosingFacetComputer.cpp:142-153: [facets] are nb_of_components sets; a node without edges inserts nothing *)
Fixpoint update_at {A} (l : list A) (i : nat) (f : A -> A) : outcome (list A) :=
  match l, i with
  | [], _ => UB
  | a :: l, O => Ok (f a :: l)
  | a :: l, S i => do l' <- update_at l i f; Ok (a :: l')
  end.
Definition get_edges_per_component (c : nat * list nat) (es : edge_list) : outcome (list (list nat)) :=
  let n2e := node_to_connected_edges es in
  foldO (fun facets n =>
           do f <- at_ub (snd c) n;
           update_at facets f (fun s => fold_left (fun s i => set_insert i s) (match nm_find n n2e with Some l => l | None => [] end) s))
        (seq 0 (length (snd c))) (repeat [] (fst c)).
(** ClosingFacetComputer.cpp:171-181, with 101-110 and 155-169 *)
Definition relevant (es : edge_list) (idx : list nat) : list nat := match idx with [] => seq 0 (length es) | _ => idx end.
Definition group_connected_edges (es : edge_list) (idx : list nat) : outcome (list (list nat)) :=
  let idx := relevant es idx in
  do rel <- mapO_list (at_throw es) idx;
  do c <- get_connected_components rel;
  do v <- get_edges_per_component c rel;
  mapO_list (mapO_list (at_ub idx)) v.

(** ** Object *)
Record computer : Type := mkC {
  c_mesh : list vec3;             (* mesh: the columns *)
  c_edges : edge_list;            (* edges *)
  c_nodes : list nat;             (* node_idx_in_mesh *)
  c_connected : node_map;         (* node_to_connected_edges *)
  c_original : list nat;          (* original_edge_index *)
  c_xmin : R; c_xmax : R; c_ymin : R; c_ymax : R }.
(** One edge of the loop of ClosingFacetComputer.cpp:85-96: std::min(std::min(m, a), b) *)
Definition bounds_step (nodes : list vec3) (b : R * R * R * R) (e : nat * nat) : outcome (R * R * R * R) :=
  let '(xmin, xmax, ymin, ymax) := b in
  do p <- at_ub nodes (fst e); do q <- at_ub nodes (snd e);
  Ok (Rmin (Rmin xmin (vx p)) (vx q), Rmax (Rmax xmax (vx p)) (vx q), Rmin (Rmin ymin (vy p)) (vy q), Rmax (Rmax ymax (vy p)) (vy q)).
(** ClosingFacetComputer.cpp:39-68 and 70-99. The bounds start from the first node of the first edge of the whole mesh (not of the relevant edges), except ymax, which
    starts from 0 (line 84 sets ymin a second time). The edges are read before the loop on the bounds instead of inside it. *)
Definition make_computer (nodes : list vec3) (es : edge_list) (idx : list nat) : outcome computer :=
  let idx := relevant es idx in
  do e0 <- at_throw es 0;
  do p0 <- at_ub nodes (fst e0);
  do rel <- mapO_list (at_throw es) idx;
  do b <- foldO (bounds_step nodes) rel (vx p0, vx p0, vy p0, 0);
  let '(xmin, xmax, ymin, ymax) := b in
  Ok (mkC nodes rel (extract_nodes rel) (node_to_connected_edges rel) idx xmin xmax ymin ymax).

(** ClosingFacetComputer.cpp:203-225. Both extrema start from the abscissa of node 0 of the mesh. [node_idx_in_mesh.at(0)] throws without edges. *)
Definition find_extreme_nodes (c : computer) : outcome (nat * nat) :=
  do p0 <- at_ub (c_mesh c) 0;
  do r <- foldO (fun '(ix, xmin, iy, ymax) i =>
                   do n <- at_throw (c_nodes c) i;
                   do p <- at_ub (c_mesh c) n;
                   let '(ix, xmin) := if Rltb (vx p) xmin then (i, vx p) else (ix, xmin) in
                   let '(iy, ymax) := if Rltb ymax (vy p) then (i, vy p) else (iy, ymax) in
                   Ok (ix, xmin, iy, ymax)) (seq 1 (length (c_nodes c) - 1)) (O, vx p0, O, vx p0);
  let '(ix, _, iy, _) := r in
  do a <- at_throw (c_nodes c) ix; do b <- at_throw (c_nodes c) iy; Ok (a, b).

(** ClosingFacetComputer.cpp:227-298 (TwoEdges): the nodes A, B, C *)
Definition two_edges (es : edge_list) (ab bc : nat) (reverse : bool) : option (nat * nat * nat) :=
  match nth_error es ab, nth_error es bc with
  | Some (a, b), Some (c, d) =>
      let common := (if Nat.eqb a c then [a] else []) ++ (if Nat.eqb a d then [a] else []) ++ (if Nat.eqb b c then [b] else []) ++ (if Nat.eqb b d then [b] else []) in
      match common with
      | [n] => if (if reverse then Nat.eqb a n else Nat.eqb b n) then Some (a, b, if Nat.eqb c n then d else c) else None
      | _ => None
      end
  | _, _ => None
  end.
(** fmod(x, y) for y > 0: x minus the largest multiple of y, in absolute value, that is not larger than |x|. ClosingFacetComputer.cpp:300-308 *)
Definition fmod (x y : R) : R := if Rltb x 0 then x + y * IZR (Int_part (- x / y)) else x - y * IZR (Int_part (x / y)).
Definition constrain_0_2pi (x : R) : R :=
  let x := fmod x (2 * PI) in
  let x := if Rltb x 0 then x + 2 * PI else x in
  if Rltb (Rabs (x - 2 * PI)) (/ 100000000000000) then 0 else x.
(** ClosingFacetComputer.cpp:310-320 *)
Definition angle_between_edges (c : computer) (ab bc : nat) (reverse : bool) : outcome (option R) :=
  match two_edges (c_edges c) ab bc reverse with
  | None => thrown
  | Some (a, b, d) =>
      do A <- at_ub (c_mesh c) a; do B <- at_ub (c_mesh c) b; do C <- at_ub (c_mesh c) d;
      let BA := vsub A B in let BC := vsub C B in
      let angle := atan2 (vy BC) (vx BC) - atan2 (vy BA) (vx BA) in
      let sign := if Rltb (vz (cross (vopp BA) BC)) 0 then -1 else 1 in
      Ok (Some (sign * constrain_0_2pi angle))
  end.
(** ClosingFacetComputer.cpp:322-337 and 339-354 *)
Definition edges_connected_to (c : computer) (first : bool) (e : nat) : option (list nat) :=
  match nth_error (c_edges c) e with
  | None => None
  | Some ab => match nm_find (if first then fst ab else snd ab) (c_connected c) with
               | None => None
               | Some l => Some (filter (fun i => negb (Nat.eqb i e)) l)
               end
  end.
(** ClosingFacetComputer.cpp:356-369 *)
Definition keep_lowest_angle (c : computer) (x0 y0 : R) (reverse : bool) : bool :=
  let left := Rltb (c_xmin c) x0 in let right := Rltb x0 (c_xmax c) in let top := Rltb y0 (c_ymax c) in
  if left && negb right then negb reverse
  else if negb left && right && top then negb reverse
  else true.
(** ClosingFacetComputer.cpp:391-424 *)
Definition pi_eps : R := / 10000000000.
Definition choose_step (save_lowest all_negative : bool) (acc : nat * R) (ia : nat * R) : nat * R :=
  let (idx, angle) := acc in let (i, new_angle) := ia in
  let angle := if Rltb (Rabs (angle - PI)) pi_eps && all_negative then - PI else angle in
  if save_lowest then (if Rltb new_angle angle then (i, new_angle) else (idx, angle))
  else (if Rltb angle new_angle then (i, new_angle) else (idx, angle)).
(** ClosingFacetComputer.cpp:371-426. connected_edges.at(idx): idx is always an index of the list. *)
Fixpoint angles_of (c : computer) (e : nat) (reverse : bool) (l : list nat) : outcome (option (list R)) :=
  match l with
  | [] => Ok (Some [])
  | i :: l => bindE (angle_between_edges c e i reverse) (fun a => bindE (angles_of c e reverse l) (fun r => Ok (Some (a :: r))))
  end.
Definition next_edge (c : computer) (e : nat) (reverse : bool) : outcome (option nat) :=
  match edges_connected_to c reverse e with
  | None => thrown
  | Some connected =>
      match connected with
      | [] => thrown
      | c0 :: _ =>
          do ab <- at_throw (c_edges c) e;
          do p <- at_ub (c_mesh c) (if reverse then fst ab else snd ab);
          let save_lowest := keep_lowest_angle c (vx p) (vy p) reverse in
          bindE (angles_of c e reverse connected) (fun angles =>
            let all_negative := forallb (fun a => negb (Rltb pi_eps (Rabs (Rabs a - PI))) || Rltb a 0) angles in
            match combine (seq 0 (length angles)) angles with
            | [] => UB (* angles.front() *)
            | ia :: rest =>
                let (idx, _) := fold_left (choose_step save_lowest all_negative) rest ia in
                do r <- at_throw connected idx; Ok (Some r)
            end)
      end
  end.
(** ClosingFacetComputer.cpp:428-470: the search starts from edge 0 whether or not it has the node. *)
Definition extreme_angle (c : computer) (node candidate : nat) : outcome R :=
  do A <- at_ub (c_mesh c) node;
  do e <- at_throw (c_edges c) candidate;
  do B <- at_ub (c_mesh c) (if Nat.eqb (fst e) node then snd e else fst e);
  Ok (constrain_0_2pi (atan2 (vy B - vy A) (vx B - vx A))).
Definition extreme_edge (c : computer) (node : nat) : outcome (option nat) :=
  match nm_find node (c_connected c) with
  | None => thrown
  | Some candidates =>
      do A <- at_ub (c_mesh c) node;
      do a0 <- extreme_angle c node 0;
      let save_lowest := keep_lowest_angle c (vx A) (vy A) true in
      do r <- foldO (fun '(ret, angle) i =>
                       do a <- extreme_angle c node i;
                       Ok (if (if save_lowest then Rltb a angle else Rltb angle a) then (i, a) else (ret, angle))) candidates (O, a0);
      Ok (Some (fst r))
  end.
(** ClosingFacetComputer.cpp:472-476 *)
Definition extreme_edges (c : computer) : outcome (option (nat * nat)) :=
  do n <- find_extreme_nodes c;
  bindE (extreme_edge c (fst n)) (fun a => bindE (extreme_edge c (snd n)) (fun b => Ok (Some (a, b)))).

(** ** Contours: the vectors edge_idx and reversed, of the same length, are one list of pairs *)
Definition contour : Type := list (nat * bool).
(** ClosingFacetComputer.cpp:478-481 *)
Definition need_to_reverse (c : computer) (e1 e2 : nat) (reverse : bool) : outcome bool :=
  do a <- at_throw (c_edges c) e1; do b <- at_throw (c_edges c) e2;
  Ok (if reverse then negb (Nat.eqb (fst a) (fst b)) else negb (Nat.eqb (snd a) (fst b))).
(** ClosingFacetComputer.cpp:483-504: AB is the first edge, in its own direction; [k] are the edges from index 1 on *)
Definition edge_vector (c : computer) (er : nat * bool) : outcome vec3 :=
  do e <- at_throw (c_edges c) (fst er);
  do p <- at_ub (c_mesh c) (if snd er then snd e else fst e);
  do q <- at_ub (c_mesh c) (if snd er then fst e else snd e);
  Ok (vsub q p).
Fixpoint first_turn (c : computer) (AB : vec3) (k : contour) : outcome R :=
  match k with
  | [] => Throw (* reversed.at(1) *)
  | er :: k =>
      do CD <- edge_vector c er;
      let z := vz (cross AB CD) in
      match k with
      | [] => Ok z
      | _ => if Rltb (Rabs z) (/ 10000000000) then first_turn c AB k else Ok z
      end
  end.
Definition direct_orientation (c : computer) (k : contour) : outcome bool :=
  match k with
  | [] => UB (* front() *)
  | er :: k => do AB <- edge_vector c (fst er, false); do z <- first_turn c AB k; Ok (Rltb z 0)
  end.
(** ClosingFacetComputer.cpp:506-512 *)
Definition flip_contour (k : contour) : contour := rev (map (fun er => (fst er, negb (snd er))) k).
(** ClosingFacetComputer.cpp:529-543. [fuel] is edges.size() - edge_idx.size(). [Ok None] when an InternalErrorException was caught. *)
Fixpoint contour_loop (fuel : nat) (c : computer) (front edge previous : nat) (reverse : bool) (ret : contour) : outcome (option contour) :=
  match fuel with
  | O => Ok (Some ret)
  | S fuel =>
      if Nat.eqb edge front then Ok (Some ret)
      else do reverse' <- need_to_reverse c previous edge reverse;
           bindE (next_edge c edge reverse') (fun next => contour_loop fuel c front next edge reverse' (ret ++ [(edge, reverse')]))
  end.
(** ClosingFacetComputer.cpp:514-549: an InternalErrorException gives an empty contour *)
Definition contour_from (c : computer) (edge : nat) : outcome contour :=
  do r <- bindE (next_edge c edge false) (fun next => contour_loop (length (c_edges c) - 1) c edge next edge false [(edge, false)]);
  match r with
  | None => Ok []
  | Some ret => do d <- direct_orientation c ret; Ok (if d : bool then ret else flip_contour ret)
  end.
(** ClosingFacetComputer.cpp:551-564 *)
Definition have_same_elements (a b : list nat) : bool := forallb (fun x => mem x b) a && forallb (fun x => mem x a) b.
(** ClosingFacetComputer.cpp:566-582. The InternalErrorException of lines 432-437 and 572-575 are not caught. *)
Definition find_contour (c : computer) : outcome contour :=
  if Nat.eqb (length (c_edges c)) 1 then Ok []
  else
    do ext <- extreme_edges c;
    match ext with
    | None => Throw
    | Some (e1, e2) =>
        do k1 <- contour_from c e1;
        do k2 <- contour_from c e2;
        if have_same_elements (map fst k1) (map fst k2)
        then mapO_list (fun er => do i <- at_ub (c_original c) (fst er); Ok (i, snd er)) k1
        else Throw
    end.

(** ** MeshIntersector.cpp:140-167 *)
Definition lid_normal : vec3 := V3 0 0 (-1).
Definition add_lid (es : edge_list) (I : inter) (group : list nat) : outcome inter :=
  do c <- make_computer (m_all (i_mesh I)) es group;
  do k <- find_contour c;
  match k with
  | [] => Ok I
  | _ =>
      do r <- create_facet_from_edges (i_mesh I) (map (fun er => oriented_id (fst er) (snd er)) k) lid_normal; let (m, f) := r : mesh * nat in
      Ok (mkI m (i_rel I) (i_waves I) (i_abs I) (i_emerged I) (i_immersed I) (i_surface I ++ [f]) (i_on I) (i_closing I))
  end.
Definition build_closing_edge (I : inter) : outcome inter :=
  match i_on I with
  | [] => Ok I
  | _ =>
      do ll <- group_connected_edges (m_edges (i_mesh I)) (i_on I);
      do I' <- foldO (add_lid (m_edges (i_mesh I))) ll I;
      Ok (mkI (i_mesh I') (i_rel I') (i_waves I') (i_abs I') (i_emerged I') (i_immersed I') (i_surface I') (i_on I') false)
  end.
(** The test made by every query (MeshIntersector.cpp:420, 513, 529) *)
Definition update_closing (I : inter) : outcome inter := if i_closing I then build_closing_edge I else Ok I.

(** ** Queries *)
(** FacetIterator (MeshIntersector.hpp:57-101): the facets of the mesh with the given indices *)
Definition facets_at (I : inter) (l : list nat) : outcome (list mfacet) := mapO_list (at_throw (m_facets (i_mesh I))) l.
(** MeshIntersector.cpp:354-385 *)
Definition contains_vertex (v : nat) (n : vec3) (f : mfacet) : bool := negb (Rltb (/ 100000000) (norm (vsub n (mf_normal f)))) && mem v (mf_vertices f).
Definition has_facet (f : mfacet) (l : list mfacet) : bool :=
  match mf_vertices f with
  | [] => false
  | _ => forallb (fun v => existsb (contains_vertex v (mf_normal f)) l) (mf_vertices f)
  end.
(** MeshIntersector.cpp:11-20 *)
Definition flip_facet (f : mfacet) : mfacet := mkMF (rev (mf_vertices f)) (vopp (mf_normal f)) (mf_centroid f) (mf_area f).
(** The facet with the coordinates of its vertices *)
Definition with_points (I : inter) (f : mfacet) : outcome facet :=
  do pts <- mapO_list (at_ub (m_all (i_mesh I))) (mf_vertices f); Ok (mkFacet pts (mf_normal f) (mf_area f) (mf_centroid f)).
(** MeshIntersector.cpp:511-541: [part] are the immersed (or emerged) facets, [lid] is the identity (or flip) *)
Definition closed_volume (part : inter -> list nat) (lid : mfacet -> mfacet) (I : inter) : outcome (inter * R) :=
  do I <- update_closing I;
  do fs <- facets_at I (part I);
  do ps <- mapO_list (with_points I) fs;
  let V := volume ps in
  if Reqb V 0 then Ok (I, 0)
  else
    do lids <- facets_at I (i_surface I);
    do cs <- mapO_list (with_points I) (filter (fun f => negb (has_facet f fs)) (map lid lids));
    Ok (I, Rabs (fold_left (fun v f => v + facet_volume f) cs V)).
Definition immersed_volume : inter -> outcome (inter * R) := closed_volume i_immersed (fun f => f).
Definition emerged_volume : inter -> outcome (inter * R) := closed_volume i_emerged flip_facet.
(** MeshIntersector.cpp:408-442. A facet without vertices would throw (line 471): facets of a mesh have vertices. *)
Definition center_of_mass_of (part : inter -> list nat) (lid : mfacet -> mfacet) (I : inter) : outcome (inter * (vec3 * R * bool)) :=
  do I <- update_closing I;
  do fs <- facets_at I (part I);
  do ps <- mapO_list (with_points I) fs;
  do lids <- facets_at I (i_surface I);
  do cs <- mapO_list (with_points I) (filter (fun f => negb (has_facet f fs)) (map lid lids));
  Ok (I, center_of_mass ps (map f_points cs)).
Definition center_of_mass_immersed : inter -> outcome (inter * (vec3 * R * bool)) := center_of_mass_of i_immersed (fun f => f).
Definition center_of_mass_emerged : inter -> outcome (inter * (vec3 * R * bool)) := center_of_mass_of i_emerged flip_facet.
