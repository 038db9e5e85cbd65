(** Model of the HDF5 outputs: interface_hdf5/src/h5_tools.cpp, observers_and_api/src/Hdf5Observer.cpp, Hdf5WaveObserver.cpp,
    Hdf5WaveObserverBuilder.cpp, Hdf5WaveSpectrumObserver.cpp and external_file_formats/src/stl_io_hdf5.cpp.

    The HDF5 library is taken at its documented meaning: a file is a tree of groups and datasets; a link is found by the components of its
    path between the slashes, empty components being ignored (the special component "." is not modelled); a link can be created
    only if its parent is a group and if it does not exist; a dataset is an array with current and maximal dimensions; extending
    keeps the values; writing a hyperslab changes the cells of the selection only and needs as many values as it has cells. The
    types of the numbers, the chunks and the attributes are left out. *)
From Coq Require Import ZArith List Bool Lia String Ascii.
From Verif Require Import Common Observer_Model.
Import ListNotations.
Open Scope string_scope.

(** ** Strings: h5_tools.cpp *)
(** std::string::find(c, pos), for a pattern of one character (the only one used: "/"): None is npos. *)
Fixpoint find_from (c : ascii) (pos : nat) (s : string) : option nat :=
  match s with
  | "" => None
  | String a s' =>
      match pos with
      | O => if Ascii.eqb a c then Some O else option_map S (find_from c O s')
      | S p => option_map S (find_from c p s')
      end
  end.
(** Lines 20-31 with a one-character pattern. The branch delim.size()>res.size() cannot be taken since res is not empty. *)
Definition starts_with (c : ascii) (s : string) : string :=
  match s with
  | "" => String c ""
  | String a _ => if Ascii.eqb a c then s else String c s
  end.
(** Lines 6-18 with a one-character pattern *)
Definition last_is (c : ascii) (s : string) : bool := match String.get (String.length s - 1) s with Some a => Ascii.eqb a c | None => false end.
Definition starts_and_ends_with (c : ascii) (s : string) : string :=
  match s with
  | "" => String c ""
  | _ => let r := starts_with c s in if last_is c r then r else r ++ String c ""
  end.
(** Lines 33-57 with a one-character delimiter; substr(prevPos, currPos - prevPos), then prevPos = currPos + 1.
    [n] bounds the number of iterations (the length of the string). *)
Fixpoint split_loop (n : nat) (c : ascii) (s : string) (prev : nat) : list string :=
  match find_from c prev s with
  | None => [substring prev (String.length s - prev) s]
  | Some curr =>
      let item := substring prev (curr - prev) s in
      let rest := match n with O => [] | S n => split_loop n c s (curr + 1) end in
      if String.eqb item "" then rest else item :: rest
  end.
Definition split (c : ascii) (s : string) : list string :=
  match s with "" => [] | _ => split_loop (String.length s) c s 0 end.
(** Lines 181-193 *)
Definition join (v : list string) (delim : string) : string := String.concat delim v.

(** ** The file *)
Notation path := (list string) (only parsing).
Definition slash : ascii := "/"%char.
Section File.
Context {D : Type} (zero : D).
(** Elements: doubles, unsigned integers (stl_io_hdf5.cpp), or texts *)
Inductive elem : Type := EDouble (d : D) | EUint (n : Z) | EText (s : string).
(** A dataset has its current dimensions, its maximal ones (None: unlimited) and its cells; those that were never written hold
    the fill value. *)
Inductive node : Type := Group | Data (dims : list nat) (maxdims : list (option nat)) (cell : list nat -> elem).
Definition file := list (path * node).
Definition path_eqb (p q : path) : bool := if list_eq_dec string_dec p q then true else false.
Fixpoint lookup (p : path) (f : file) : option node :=
  match f with [] => None | (q, n) :: f' => if path_eqb p q then Some n else lookup p f' end.
(** The component of a path given to the library *)
Fixpoint components (s acc : string) : path :=
  match s with
  | "" => if String.eqb acc "" then [] else [acc]
  | String a s' => if Ascii.eqb a slash then (if String.eqb acc "" then components s' "" else acc :: components s' "")
                   else components s' (acc ++ String a "")
  end.
Definition path_of (s : string) : path := components s "".
(** A group; the root always exists. *)
Definition is_group (p : path) (f : file) : bool :=
  match p with [] => true | _ => match lookup p f with Some Group => true | _ => false end end.
(** H5Lexists()>0: all the parents are groups and the link exists. *)
Definition exists_link (p : path) (f : file) : bool :=
  match p with
  | [] => true
  | _ => andb (is_group (removelast p) f) (match lookup p f with Some _ => true | None => false end)
  end.
(** createGroup, createDataSet *)
Definition create (p : path) (n : node) (f : file) : outcome file :=
  match p with
  | [] => Throw
  | _ => if is_group (removelast p) f then (match lookup p f with None => Ok ((p, n) :: f) | Some _ => Throw end) else Throw
  end.
Fixpoint replace_node (p : path) (n : node) (f : file) : file :=
  match f with [] => [] | (q, m) :: f' => if path_eqb p q then (q, n) :: f' else (q, m) :: replace_node p n f' end.

(** Row-major rank of the cell [i] of an array of dimensions [d]; size of an array; cells of the hyperslab. *)
Fixpoint rank_of (d i : list nat) (acc : nat) : nat :=
  match d, i with n :: d', k :: i' => rank_of d' i' (acc * n + k) | _, _ => acc end.
Definition size (d : list nat) : nat := fold_left Nat.mul d 1%nat.
Fixpoint within (d i : list nat) : bool :=
  match d, i with [], [] => true | n :: d', k :: i' => andb (Nat.ltb k n) (within d' i') | _, _ => false end.
Fixpoint selected (offset count i : list nat) : bool :=
  match offset, count, i with
  | [], [], [] => true
  | o :: offset', c :: count', k :: i' => andb (Nat.leb o k) (andb (Nat.ltb k (o + c)) (selected offset' count' i'))
  | _, _, _ => false
  end.
Fixpoint minus (i offset : list nat) : list nat :=
  match i, offset with k :: i', o :: offset' => (k - o)%nat :: minus i' offset' | _, _ => [] end.
Fixpoint fits (new : list nat) (maxdims : list (option nat)) : bool :=
  match new, maxdims with
  | [], [] => true
  | n :: new', m :: maxdims' => andb (match m with None => true | Some k => Nat.leb n k end) (fits new' maxdims')
  | _, _ => false
  end.
Fixpoint inside (offset count dims : list nat) : bool :=
  match offset, count, dims with
  | [], [], [] => true
  | o :: offset', c :: count', n :: dims' => andb (Nat.leb (o + c) n) (inside offset' count' dims')
  | _, _, _ => false
  end.
(** DataSet::extend *)
Definition extend (p : path) (new : list nat) (f : file) : outcome file :=
  match lookup p f with
  | Some (Data dims maxdims cell) =>
      if fits new maxdims
      then Ok (replace_node p (Data new maxdims (fun i => if within dims i then cell i else EDouble zero)) f)
      else Throw
  | _ => Throw
  end.
(** selectHyperslab then DataSet::write, from a memory space of [List.length values] elements *)
Definition write_slab (p : path) (offset count : list nat) (values : list elem) (f : file) : outcome file :=
  match lookup p f with
  | Some (Data dims maxdims cell) =>
      if andb (inside offset count dims) (Nat.eqb (size count) (List.length values))
      then Ok (replace_node p (Data dims maxdims (fun i =>
             if selected offset count i then nth (rank_of count (minus i offset) 0) values (EDouble zero) else cell i)) f)
      else Throw
  | _ => Throw
  end.

(** ** h5_tools.cpp *)
(** Lines 90-129: the groups of all the tokens but the last one; [current] is the path so far. *)
Fixpoint create_groups (current : string) (tokens : list string) (f : file) : outcome file :=
  match tokens with
  | [] | [_] => Ok f
  | g :: rest =>
      let current := current ++ "/" ++ g in
      let p := path_of current in
      if exists_link p f
      then match rest with
           | [_] => if is_group p f then Ok f else Throw (* openGroup *)
           | _ => create_groups current rest f
           end
      else do f <- create p Group f; create_groups current rest f
  end.
Definition create_missing_groups (f : file) (name : string) : outcome file := create_groups "" (split slash name) f.
(** Lines 131-152: the links that are missing, then the dataset, unless it exists. *)
Definition create_data_set (f : file) (name : string) (dims : list nat) (maxdims : list (option nat)) : outcome file :=
  do f <- create_missing_groups f name;
  if exists_link (path_of name) f then Throw
  else create (path_of name) (Data dims maxdims (fun _ => EDouble zero)) f.
(** DataSet::write of the whole dataset *)
Definition write_whole (f : file) (name : string) (dims : list nat) (values : list elem) : outcome file :=
  do f <- create_data_set f name dims (map Some dims);
  write_slab (path_of name) (map (fun _ => 0%nat) dims) dims values f.
(** Lines 244-259: a text; nothing for an empty one. *)
Definition write_text (f : file) (name text : string) : outcome file :=
  match text with "" => Ok f | _ => write_whole f name [1%nat] [EText text] end.
(** Lines 312-326: a column of doubles. (&v[0] of an empty vector is not used by the library.) *)
Definition write_column (f : file) (name : string) (v : list D) : outcome file :=
  write_whole f name [List.length v; 1%nat] (map EDouble v).

(** ** Hdf5WaveObserverBuilder.cpp and Hdf5WaveObserver.cpp *)
(** core/inc/SurfaceElevationGrid.hpp: z(i,j) is element j of row i. *)
Record hgrid : Type := mkHG { hg_t : D; hg_x : list D; hg_y : list D; hg_z : list (list D) }.
Definition rows (g : hgrid) : nat := List.length (hg_z g).
Definition cols (g : hgrid) : nat := match hg_z g with [] => 0%nat | r :: _ => List.length r end.
(** The datasets t, x, y, z of the group, the sizes of the memory spaces (set at the first write) and the number of grids written.
    With nx*ny=0 there is no dataset: [w_path] is None and each access throws. *)
Record wave_writer : Type := mkWW { w_path : option path; w_nx : nat; w_ny : nat; w_nz : nat; w_n : nat }.
(** Builder lines 22-34 and 46-119: "datasetName_" is surrounded by slashes, then t, x, y, z are created. *)
Definition new_wave_writer (f : file) (name : string) (nx ny : nat) : outcome (file * wave_writer) :=
  if Nat.eqb (nx * ny) 0 then Ok (f, mkWW None nx ny (nx * ny) 0)
  else
    let dn := starts_and_ends_with slash name in
    do f <- create_missing_groups f dn;
    let dataset v dims maxdims f := create (path_of (dn ++ v)) (Data dims maxdims (fun _ => EDouble zero)) f in
    do f <- dataset "t" [1%nat] [None] f;
    do f <- dataset "x" [1%nat; nx] [None; Some nx] f;
    do f <- dataset "y" [1%nat; ny] [None; Some ny] f;
    do f <- dataset "z" [nx; ny; 1%nat] [Some nx; Some ny; None] f;
    Ok (f, mkWW (Some (path_of dn)) nx ny (nx * ny) 0).
(** Hdf5WaveObserver.cpp lines 34-125. The memory spaces have 1, x.size(), y.size() and rows*cols elements at the first write
    and keep this size; the elements of z are taken row by row (lines 116-124). *)
Definition write_grid (g : hgrid) (f : file) (w : wave_writer) : outcome (file * wave_writer) :=
  match w_path w with
  | None => Throw
  | Some p =>
      let n := w_n w in
      let w := if Nat.eqb n 0 then mkWW (w_path w) (List.length (hg_x g)) (List.length (hg_y g)) (rows g * cols g) n else w in
      let put v (new offset count : list nat) (mem : nat) (values : list D) f :=
        let p := (p ++ [v])%list in
        do f <- extend p new f;
        if Nat.eqb mem (size count) then write_slab p offset count (map EDouble values) f else Throw in
      do f <- put "t" [n + 1]%nat [n] [1%nat] 1%nat [hg_t g] f;
      do f <- put "x" [n + 1; List.length (hg_x g)]%nat [n; 0%nat] [1%nat; List.length (hg_x g)] (w_nx w) (hg_x g) f;
      do f <- put "y" [n + 1; List.length (hg_y g)]%nat [n; 0%nat] [1%nat; List.length (hg_y g)] (w_ny w) (hg_y g) f;
      do f <- put "z" [rows g; cols g; n + 1]%nat [0%nat; 0%nat; n] [rows g; cols g; 1%nat] (w_nz w) (List.concat (hg_z g)) f;
      Ok (f, mkWW (w_path w) (w_nx w) (w_ny w) (w_nz w) (n + 1))
  end.

(** ** Hdf5Observer.cpp *)
(** Lines 13-19: "/outputs" followed by the components of the address *)
Definition full_address (address : list string) : string :=
  starts_with slash "outputs" ++ starts_with slash (join address "/").
(** The members that matter: the file, the datasets (found by the name of the variable) and the writer of the waves. *)
Record h5_state : Type := mkH5 { h_file : file; h_dataset : list (string * path); h_waves : option wave_writer }.
(** The values handed over carry the address of the variable (the closures of lines 40 and 64 capture both). *)
Definition h5_value := value (list string * D) hgrid.
(** Lines 62-75 and 82-90 *)
Definition h5_init (v : h5_value) (name : string) (s : h5_state) : outcome h5_state :=
  match v with
  | VDouble (address, _) =>
      let a := full_address address in
      do f <- create_data_set (h_file s) a [0%nat] [None];
      Ok (mkH5 f (smap_set name (path_of a) (h_dataset s)) (h_waves s))
  | VGrid g =>
      do fw <- new_wave_writer (h_file s) "outputs/waves" (List.length (hg_x g)) (List.length (hg_y g));
      Ok (mkH5 (fst fw) (h_dataset s) (Some (snd fw)))
  end.
(** Lines 38-60 and 77-80. A dataset that was never created makes the library throw; a null wave_serializer is dereferenced. *)
Definition h5_ser (v : h5_value) (name : string) (s : h5_state) : outcome h5_state :=
  match v with
  | VDouble (_, d) =>
      match smap_find name (h_dataset s) with
      | None => Throw
      | Some p =>
          match lookup p (h_file s) with
          | Some (Data [n] _ _) =>
              do f <- extend p [n + 1]%nat (h_file s);
              do f <- write_slab p [n] [1%nat] [EDouble d] f;
              Ok (mkH5 f (h_dataset s) (h_waves s))
          | _ => Throw
          end
      end
  | VGrid g =>
      match h_waves s with
      | None => UB
      | Some w => do fw <- write_grid g (h_file s) w; Ok (mkH5 (fst fw) (h_dataset s) (Some (snd fw)))
      end
  end.
(** As an observer (Observer_Model): the state is the outcome so far; after an exception or undefined behaviour nothing is done. The
    three flush functions are empty (lines 92-102). *)
Definition h5_class : obs_class (list string * D) hgrid (outcome h5_state) :=
  mkClass (list string * D) hgrid (outcome h5_state)
    (fun v name s => do s <- s; h5_init v name s)
    (fun v name s => do s <- s; h5_ser v name s)
    (fun s => Done s) (fun s => s) (fun s => s).

(** ** Hdf5WaveSpectrumObserver.cpp *)
(** wave_models/inc/DiscreteDirectionalWaveSpectrum.hpp: the arrays of a flat spectrum *)
Record hspectrum : Type := mkHS { hs_omega : list D; hs_a : list D; hs_psi : list D; hs_k : list D; hs_phase : list D }.
Definition elevation_formula : string :=
  "eta(x,y,t)=-\sum_{i=1}^{nfreq}a_{i}\sin(k_i \cdot(x \cdot \cos(\gamma_i)+ y \cdot \sin(\gamma_i)) - \omega_i \cdot t + \phi_{i})".
(** std::setfill('0') << std::setw(2) << index *)
Definition digit_of (n : nat) : ascii := ascii_of_nat (48 + n).
Fixpoint decimal (fuel n : nat) : string :=
  match fuel with
  | O => ""
  | S fuel => if Nat.ltb n 10 then String (digit_of n) "" else decimal fuel (Nat.div n 10) ++ String (digit_of (Nat.modulo n 10)) ""
  end.
Definition index_text (n : nat) : string := let s := decimal (S n) n in if Nat.ltb (String.length s) 2 then String "0" s else s.
(** Lines 37-49 *)
Definition write_spectrum (f : file) (name : string) (s : hspectrum) : outcome file :=
  let dn := starts_and_ends_with slash name in
  do f <- write_column f (dn ++ "/omega") (hs_omega s);
  do f <- write_column f (dn ++ "/a") (hs_a s);
  do f <- write_column f (dn ++ "/gamma") (hs_psi s);
  do f <- write_column f (dn ++ "/k") (hs_k s);
  write_column f (dn ++ "/phase") (hs_phase s).
(** Lines 19-35 *)
Fixpoint write_spectra_from (f : file) (dn : string) (index : nat) (s : list hspectrum) : outcome file :=
  match s with
  | [] => Ok f
  | ss :: s => do f <- write_spectrum f (dn ++ "/" ++ index_text index) ss; write_spectra_from f dn (index + 1) s
  end.
Definition write_spectra (f : file) (name : string) (s : list hspectrum) : outcome file :=
  let dn := starts_and_ends_with slash name in
  do f <- write_text f (dn ++ "/elevation") elevation_formula;
  write_spectra_from f dn 0 s.
(** Hdf5Observer.cpp lines 104-107 *)
Definition write_before_simulation (f : file) (s : list hspectrum) : outcome file := write_spectra f "/outputs/spectra" s.
End File.
