(** Model of BodyBuilder::change_mesh_ref_frame (code/core/src/BodyBuilder.cpp:51-65): the mesh of the STL file is read in its own frame and then moved to
    the frame of the body. Over exact reals. *)
From Coq Require Import Reals List Bool.
From Verif Require Import Common Geometry Hull_Model Mesh_Model.
Import ListNotations.
Open Scope R_scope.

(** BodyBuilder.cpp:53-56: [p] is position_of_body_frame_relative_to_mesh, [rot] the matrix of its angles (mesh_to_body); T is the inverse of the
    transform (rot, p) (ssc::kinematics::Transform::inverse, external): rotation by the transpose of [rot] after the translation by -p. *)
Definition to_body (rot : mat3) (p x : vec3) : vec3 := mapply (transpose rot) (vsub x p).
(** BodyBuilder.cpp:59-63: a centre of gravity that is NaN stays NaN; the area is left unchanged. *)
Definition move_facet (rot : mat3) (p : vec3) (f : mfacet) : mfacet :=
  mkMF (mf_vertices f) (mapply (transpose rot) (mf_normal f)) (match mf_centroid f with Some c => Some (to_body rot p c) | None => None end) (mf_area f).
(** BodyBuilder.cpp:55-64. [nodes] (line 57) are the first columns of [all_nodes] (line 58), that are all moved; states.M (line 64) is [nodes] *)
Definition move_mesh (rot : mat3) (p : vec3) (m : mesh) : mesh :=
  mkMesh (m_edges m) (map (move_facet rot p) (m_facets m)) (m_fpe m) (m_oef m) (m_nnodes m) (m_nedges m) (m_nfacets m) (map (to_body rot p) (m_all m)) (m_total m) (m_orientation m).
Definition change_mesh_ref_frame (rot : mat3) (p : vec3) (v : list (list vec3)) : outcome mesh :=
  do m <- build_mesh true v; Ok (move_mesh rot p m).
