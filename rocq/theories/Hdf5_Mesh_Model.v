(** Model of external_file_formats/src/stl_io_hdf5.cpp: meshes in HDF5 files. A point is a triple; the coordinates are of any type. *)
From Coq Require Import ZArith List Bool Lia String Ascii.
From Verif Require Import Common Hdf5_Model.
Import ListNotations.
Open Scope string_scope.

(** A loop whose body may fail *)
Fixpoint traverse {A B} (f : A -> outcome B) (l : list A) : outcome (list B) :=
  match l with [] => Ok [] | a :: l => do b <- f a; do r <- traverse f l; Ok (b :: r) end.

Section Mesh.
Context {D : Type} (zero : D).
Notation point := (D * D * D)%type.
Definition xyz (p : point) : list (@elem D) := let '(x, y, z) := p in [EDouble x; EDouble y; EDouble z].
(** Lines 62-82: three 1-based indices per triangle; [c] is the index of the first point of the polygon. A polygon of less than two
    points makes size()-2 wrap: memory is exhausted. *)
Fixpoint fan_from (a : nat) (l : list nat) : list (list nat) :=
  match l with b :: ((c :: _) as l') => [a; b; c] :: fan_from a l' | _ => [] end.
Fixpoint concatenate_triangles (c : nat) (v : list (list point)) : outcome (list (list nat)) :=
  match v with
  | [] => Ok []
  | p :: v => if Nat.ltb (List.length p) 2 then Throw
              else do r <- concatenate_triangles (c + List.length p) v; Ok (fan_from c (seq (c + 1) (List.length p - 1)) ++ r)
  end%list.
Definition uints (t : list nat) : list (@elem D) := map (fun n => EUint (Z.of_nat n)) t.
Definition write_arrays (f : file) (name : string) (points : list point) (triangles : list (list nat)) : outcome file :=
  do f <- write_whole zero f (name ++ "/points") [List.length points; 3%nat] (flat_map xyz points);
  write_whole zero f (name ++ "/faces") [List.length triangles; 3%nat] (flat_map uints triangles).
(** Lines 92-110 (and 44-60) *)
Definition write_polygons (f : file) (name : string) (v : list (list point)) : outcome file :=
  do t <- concatenate_triangles 1 v; write_arrays f name (List.concat v) t.
(** Lines 121-159; [facets] are the lists vertex_index. With less than two vertices the loop reads beyond the end and at() throws
    (or the number of triangles has wrapped and the dataset cannot be created). *)
Definition write_mesh (f : file) (name : string) (nodes : list point) (facets : list (list nat)) : outcome file :=
  do t <- traverse (fun p => if Nat.ltb (List.length p) 2 then Throw
                         else match map S p with a :: l => Ok (fan_from a l) | [] => Throw end) facets;
  write_arrays f name nodes (List.concat t).

(** Lines 168-194. EigenHDF5::load gives the array; it throws when the dataset is missing. Reading beyond the points is undefined. *)
Definition load (f : file) (name : string) : outcome (nat * nat * (nat -> nat -> @elem D)) :=
  match lookup (path_of name) f with
  | Some (Data [n; m] _ cell) => Ok (n, m, fun i j => cell [i; j])
  | _ => Throw
  end.
Definition coordinate (e : @elem D) : outcome D := match e with EDouble d => Ok d | _ => Throw end.
Definition read_mesh (f : file) (name : string) : outcome (list (list point)) :=
  do points <- load f (name ++ "/points");
  do faces <- load f (name ++ "/faces");
  let '(np, cp, pt) := points in
  let '(nf, cf, fc) := faces in
  traverse (fun i => traverse (fun j =>
    match fc i j with
    | EUint k =>
        if andb (Z.leb 1 k) (Z.ltb (k - 1) (Z.of_nat np)) then
          if Nat.ltb cp 3 then UB else
          let r := Z.to_nat (k - 1) in
          do x <- coordinate (pt r 0%nat); do y <- coordinate (pt r 1%nat); do z <- coordinate (pt r 2%nat); Ok (x, y, z)
        else UB
    | _ => Throw
    end) (seq 0 cf)) (seq 0 nf).
End Mesh.
