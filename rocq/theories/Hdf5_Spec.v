(** Specification vocabulary for the HDF5 outputs: what is stored where. *)
From Coq Require Import ZArith List Bool Lia String Ascii.
From Verif Require Import Common Observer_Model Observer_Spec Hdf5_Model.
Import ListNotations.
Open Scope string_scope.

(** A name that can be a component of a path *)
Definition clean (s : string) : Prop := s <> "" /\ has_char "/" s = false.
Definition clean_path (p : path) : Prop := p <> [] /\ Forall clean p.
Definition prefix (p q : path) : Prop := exists r, q = (p ++ r)%list.
(** Neither path is inside the other. *)
Definition apart (p q : path) : Prop := ~ prefix p q /\ ~ prefix q p.

Section Spec.
Context {D : Type}.
Notation file := (@file D).
(** The file is a tree: the parent of each link is a group. *)
Definition tree (f : file) : Prop := forall p n, lookup p f = Some n -> p <> [] /\ is_group (removelast p) f = true.
(** A dataset can be created there: nothing is there, and no dataset is on the way. *)
Definition free (p : path) (f : file) : Prop :=
  lookup p f = None /\ forall q r, p = (q ++ r)%list -> q <> [] -> lookup q f = None \/ lookup q f = Some Group.
(** A dataset of one dimension that holds these values *)
Definition series (p : path) (values : list D) (f : file) : Prop :=
  exists m cell, lookup p f = Some (Data [List.length values] m cell) /\ forall k d, nth_error values k = Some d -> cell [k] = EDouble d.
(** An array of two dimensions whose line k is the k-th list of [lines], each of [n] values *)
Definition table (p : path) (n : nat) (lines : list (list D)) (f : file) : Prop :=
  exists m cell, lookup p f = Some (Data [List.length lines; n] m cell) /\
    forall k l i d, nth_error lines k = Some l -> nth_error l i = Some d -> cell [k; i] = EDouble d.
(** An array of three dimensions whose slice k (for the last index) is the k-th matrix of [matrices] *)
Definition slices (p : path) (nx ny : nat) (matrices : list (list (list D))) (f : file) : Prop :=
  exists m cell, lookup p f = Some (Data [nx; ny; List.length matrices] m cell) /\
    forall k z i r j d, nth_error matrices k = Some z -> nth_error z i = Some r -> nth_error r j = Some d -> cell [i; j; k] = EDouble d.
(** A column of values, as [H5_Tools::write] stores vectors *)
Definition column (p : path) (values : list D) (f : file) : Prop :=
  exists m cell, lookup p f = Some (Data [List.length values; 1%nat] m cell) /\ forall k d, nth_error values k = Some d -> cell [k; 0%nat] = EDouble d.
(** A grid of nx by ny points *)
Definition has_size (nx ny : nat) (g : hgrid) : Prop :=
  List.length (hg_x g) = nx /\ List.length (hg_y g) = ny /\ List.length (hg_z g) = nx /\ Forall (fun r : list D => List.length r = ny) (hg_z g).
(** The waves group holds these grids. *)
Definition holds_grids (p : path) (nx ny : nat) (gs : list hgrid) (f : file) : Prop :=
  series (p ++ ["t"])%list (map hg_t gs) f /\ table (p ++ ["x"])%list nx (map hg_x gs) f /\ table (p ++ ["y"])%list ny (map hg_y gs) f /\
  slices (p ++ ["z"])%list nx ny (map hg_z gs) f.
End Spec.
