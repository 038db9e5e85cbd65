(** C131-C133: what a simulation leaves in an HDF5 file. *)
From Coq Require Import ZArith List Bool Lia String Ascii.
From Verif Require Import Common Observer_Model Observer_Spec Observer_Proofs Hdf5_Model Hdf5_Spec Hdf5_Proofs Hdf5_File_Proofs Hdf5_Series_Proofs Hdf5_Observer_Proofs.
Import ListNotations.
Open Scope string_scope.

(** ** C131, C133. One value per instant, at the address of the variable; one grid per instant in /outputs/waves *)
Section Doubles.
Context {D : Type}.
Variable value_at : nat -> string -> option (@h5_value D).
Lemma doubles_nth x a : forall n, (forall k, (k < n)%nat -> exists d, value_at k x = Some (VDouble (a, d))) ->
  List.length (doubles value_at n x) = n /\ forall k d, (k < n)%nat -> value_at k x = Some (VDouble (a, d)) -> nth_error (doubles value_at n x) k = Some d.
Proof.
  induction n as [|n IH]; intros H; [split; [reflexivity|intros; lia]|].
  destruct IH as (L & N); [intros k Hk; apply H; lia|]. rewrite doubles_S. destruct (H n) as (e & E); [lia|]. rewrite E.
  split; [rewrite app_length, L; cbn; lia|]. intros k d Hk Ek. destruct (Nat.eq_dec k n) as [->|].
  - rewrite nth_error_app2, L, Nat.sub_diag by lia. cbn. congruence.
  - rewrite nth_error_app1 by lia. apply N; [lia|exact Ek].
Qed.
Lemma grids_nth x : forall n, (forall k, (k < n)%nat -> exists g, value_at k x = Some (VGrid g)) ->
  List.length (grids value_at n x) = n /\ forall k g, (k < n)%nat -> value_at k x = Some (VGrid g) -> nth_error (grids value_at n x) k = Some g.
Proof.
  induction n as [|n IH]; intros H; [split; [reflexivity|intros; lia]|].
  destruct IH as (L & N); [intros k Hk; apply H; lia|]. rewrite grids_S. destruct (H n) as (e & E); [lia|]. rewrite E.
  split; [rewrite app_length, L; cbn; lia|]. intros k d Hk Ek. destruct (Nat.eq_dec k n) as [->|].
  - rewrite nth_error_app2, L, Nat.sub_diag by lia. cbn. congruence.
  - rewrite nth_error_app1 by lia. apply N; [lia|exact Ek].
Qed.
End Doubles.

(** The datasets of a requested variable: one at its address below /outputs, or the four of /outputs/waves for the grid *)
Definition datasets (kind : string -> option (list string)) (x : string) : list path :=
  match kind x with
  | Some a => ["outputs" :: a]
  | None => [["outputs"; "waves"; "t"]; ["outputs"; "waves"; "x"]; ["outputs"; "waves"; "y"]; ["outputs"; "waves"; "z"]]
  end.
(** What is written for [x] at an instant: a number at the address [a], or a grid of nx by ny points *)
Definition written_as {D} (kind : string -> option (list string)) (nx ny : nat) (x : string) (v : option (@h5_value D)) : Prop :=
  match kind x with
  | Some a => exists d, v = Some (VDouble (a, d))
  | None => exists g, v = Some (VGrid g) /\ has_size nx ny g
  end.

Theorem hdf5_series : forall D (zero : D) req kind f0 nx ny t out steps,
  let all : list ((list string * D) * list (string * @h5_value D)) := (t, out) :: steps in
  NoDup req -> tree f0 ->
  (forall x a, In x req -> kind x = Some a -> clean_path a) ->
  (forall x y p q, In x req -> In y req -> x <> y -> In p (datasets kind x) -> In q (datasets kind y) -> apart p q) ->
  (forall x p, In x req -> In p (datasets kind x) -> free p f0) ->
  (forall x, In x req -> kind x = None -> (0 < nx)%nat /\ (0 < ny)%nat) ->
  (forall x k, In x req -> (k < List.length all)%nat -> written_as kind nx ny x (latest (firstn (k + 1) all) x)) ->
  exists o s, observe_all (h5_class zero) all (new_observer req (Ok (mkH5 f0 [] None))) = Done o /\ o_st o = Ok s
    (* the numbers *)
    /\ (forall x a, In x req -> kind x = Some a -> exists values, series ("outputs" :: a) values (h_file s) /\ List.length values = List.length all
         /\ forall k d, (k < List.length all)%nat -> latest (firstn (k + 1) all) x = Some (VDouble (a, d)) -> nth_error values k = Some d)
    (* the grids *)
    /\ (forall x, In x req -> kind x = None -> exists gs, holds_grids ["outputs"; "waves"] nx ny gs (h_file s) /\ List.length gs = List.length all
         /\ forall k g, (k < List.length all)%nat -> latest (firstn (k + 1) all) x = Some (VGrid g) -> nth_error gs k = Some g)
    (* what was in the file is still there *)
    /\ (forall p n, lookup p f0 = Some n -> lookup p (h_file s) = Some n)
    (* and only the requested datasets and the groups on the way to them are new *)
    /\ (forall p n, lookup p f0 = None -> lookup p (h_file s) = Some n -> exists x q, In x req /\ In q (datasets kind x) /\ prefix p q).
Proof.
  intros D zero req kind f0 nx ny t out steps all ND T0 CL AP FR NZ W.
  (* without a grid the size does not matter *)
  assert (exists nx' ny', (0 < nx')%nat /\ (0 < ny')%nat /\ forall x, In x req -> kind x = None -> nx' = nx /\ ny' = ny) as (nx' & ny' & NX & NY & EN).
  { destruct nx as [|nx1].
    - exists 1%nat, 1%nat. repeat split; try lia; intros; exfalso; specialize (NZ x); lia || (destruct (NZ H H0); lia).
    - destruct ny as [|ny1].
      + exists 1%nat, 1%nat. repeat split; try lia; intros; exfalso; destruct (NZ x H H0); lia.
      + exists (S nx1), (S ny1). repeat split; lia. }
  set (value_at := fun k x => latest (firstn (S k) all) x).
  assert (DT : forall x, datasets kind x = targets kind x) by (intros x; unfold datasets, targets; destruct (kind x); reflexivity).
  assert (G : forall x k, In x req -> (k < List.length all)%nat -> good kind nx' ny' x (value_at k x)).
  { intros x k X K. specialize (W x k X K). unfold value_at. rewrite Nat.add_1_r in W. unfold written_as in W. unfold good. destruct (kind x) as [a|] eqn:E.
    - destruct W as (d & ->). reflexivity.
    - destruct W as (g & -> & S). destruct (EN x X E) as (-> & ->). exact S. }
  assert (F1 : forall x, In x req -> latest [(t, out)] x <> None).
  { intros x X. specialize (G x 0%nat X ltac:(cbn; lia)). unfold good in G. change (value_at 0%nat x) with (latest [(t, out)] x) in G.
    intros E. rewrite E in G. exact G. }
  assert (I0 : inv kind f0 nx' ny' value_at [] (fun _ => 0%nat) (mkH5 f0 [] None)).
  { constructor; cbn; auto; try contradiction. apply grown_refl. }
  assert (AP' : forall x y p q, In x req -> In y req -> x <> y -> In p (targets kind x) -> In q (targets kind y) -> apart p q).
  { intros x y p q X Y N P Q. rewrite <- DT in P, Q. eauto. }
  assert (FR' : forall x p, In x req -> In p (targets kind x) -> free p f0) by (intros x p X P; rewrite <- DT in P; eauto).
  assert (G1 : forall x, In x req -> good kind nx' ny' x (latest [(t, out)] x)) by (intros x X; apply (G x 0%nat X); cbn; lia).
  destruct (init_all zero req kind f0 nx' ny' ND CL AP' FR' NX NY value_at (latest [(t, out)]) G1 req [] (mkH5 f0 [] None) eq_refl I0) as (s1 & R1 & I1).
  destruct (observe_all_ok (h5_class zero) req (Ok (mkH5 f0 [] None)) t out steps (Ok s1) F1) as (o & EO & ES).
  { cbn [h5_class flush_after_init]. fold (@h5_class D zero). f_equal. rewrite run_fold. exact R1. }
  destruct (all_steps zero req kind f0 nx' ny' ND AP' FR' NX NY value_at all (fun k x _ => eq_refl) (fun k x K X => G x k X K) all [] s1 eq_refl I1) as (s & RS & IS).
  exists o, s. split; [exact EO|]. split; [rewrite ES; exact RS|]. destruct IS as [TT ID IG (GP & GN)]. split; [|split; [|split]].
  - intros x a X K. destruct (ID x a X K) as (_ & m & L & V).
    assert (H : forall k, (k < List.length all)%nat -> exists d, value_at k x = Some (VDouble (a, d))).
    { intros k Hk. specialize (W x k X Hk). unfold written_as in W. rewrite K, Nat.add_1_r in W. exact W. }
    destruct (doubles_nth value_at x a _ H) as (Ln & Nn). exists (doubles value_at (List.length all) x). split.
    { exists [None], m. auto. }
    split; [exact Ln|]. intros k d Hk E. apply Nn; [exact Hk|]. rewrite Nat.add_1_r in E. exact E.
  - intros x X K. destruct (EN x X K) as (-> & ->). destruct (IG x X K) as (w & _ & _ & A).
    assert (H : forall k, (k < List.length all)%nat -> exists g, value_at k x = Some (VGrid g)).
    { intros k Hk. specialize (W x k X Hk). unfold written_as in W. rewrite K, Nat.add_1_r in W. destruct W as (g & E & _). eauto. }
    destruct (grids_nth value_at x _ H) as (Ln & Nn). set (gs := grids value_at (List.length all) x) in *. exists gs. split.
    { destruct A as (ct & cx & cy & cz & A1 & A2 & A3 & A4 & V).
      assert (Nat.max 1 (List.length gs) = List.length gs) as M. { rewrite Ln. unfold all. cbn [List.length]. lia. }
      rewrite M in *. unfold holds_grids, series, table, slices. rewrite !map_length. split; [|split; [|split]].
      - exists [None], ct. split; [exact A1|]. intros k d E. rewrite nth_error_map in E. destruct (nth_error gs k) as [g|] eqn:Eg; [|discriminate].
        injection E as <-. apply (V k g Eg).
      - exists [None; Some nx], cx. split; [exact A2|]. intros k l i d E. rewrite nth_error_map in E. destruct (nth_error gs k) as [g|] eqn:Eg; [|discriminate].
        injection E as <-. apply (V k g Eg).
      - exists [None; Some ny], cy. split; [exact A3|]. intros k l i d E. rewrite nth_error_map in E. destruct (nth_error gs k) as [g|] eqn:Eg; [|discriminate].
        injection E as <-. apply (V k g Eg).
      - exists [Some nx; Some ny; None], cz. split; [exact A4|]. intros k z i r j d E. rewrite nth_error_map in E. destruct (nth_error gs k) as [g|] eqn:Eg; [|discriminate].
        injection E as <-. apply (V k g Eg). }
    split; [exact Ln|]. intros k d Hk E. apply Nn; [exact Hk|]. rewrite Nat.add_1_r in E. exact E.
  - exact GP.
  - intros p n L L'. destruct (GN p n L L') as (_ & q & Q & P). apply in_flat_map in Q as (x & X & Q). rewrite <- DT in Q. eauto.
Qed.
Print Assumptions hdf5_series.

(** A run of two steps with the date and a grid of two by one points, in an empty file, meets the hypotheses, and here is what the file holds. *)
Definition example_grid (n : nat) : @hgrid nat := mkHG n [1; 2]%nat [3]%nat [[10 + n]; [20 + n]]%nat.
Example grid_run_meets_hypotheses :
  let kind := fun x => if String.eqb x "t" then Some ["t"] else None in
  let steps := [((["t"], 0%nat), [("t", VDouble (["t"], 0%nat)); ("waves", VGrid (example_grid 0))]); ((["t"], 1%nat), [("t", VDouble (["t"], 1%nat)); ("waves", VGrid (example_grid 1))])] in
  let req := ["t"; "waves"] in
  NoDup req /\ tree (D := nat) [] /\ (forall x a, In x req -> kind x = Some a -> clean_path a) /\
  (forall x y p q, In x req -> In y req -> x <> y -> In p (datasets kind x) -> In q (datasets kind y) -> apart p q) /\
  (forall x p, In x req -> In p (datasets kind x) -> free (D := nat) p []) /\
  (forall x k, In x req -> (k < List.length steps)%nat -> written_as kind 2 1 x (latest (firstn (k + 1) steps) x)) /\
  exists o s, observe_all (h5_class 0%nat) steps (new_observer req (Ok (mkH5 [] [] None))) = Done o /\ o_st o = Ok s /\
    series ["outputs"; "t"] [0; 1]%nat (h_file s) /\ holds_grids ["outputs"; "waves"] 2 1 [example_grid 0; example_grid 1] (h_file s).
Proof.
  intros kind steps req.
  assert (A : forall x y p q, In x req -> In y req -> x <> y -> In p (datasets kind x) -> In q (datasets kind y) -> apart p q).
  { intros x y p q X Y N P Q. destruct X as [<-|[<-|[]]], Y as [<-|[<-|[]]]; try congruence; cbn in P, Q;
    repeat (destruct P as [<-|P]; [|try contradiction P]); repeat (destruct Q as [<-|Q]; [|try contradiction Q]); split; intros [r E]; cbn in E; discriminate. }
  assert (W : forall x k, In x req -> (k < List.length steps)%nat -> written_as kind 2 1 x (latest (firstn (k + 1) steps) x)).
  { intros x k X K. cbn in K. destruct X as [<-|[<-|[]]]; destruct k as [|[|k]]; try lia; cbn; try (eexists; reflexivity);
    eexists; (split; [reflexivity|]); repeat split; repeat constructor. }
  assert (C : forall x a, In x req -> kind x = Some a -> clean_path a).
  { intros x a [<-|[<-|[]]] E; [|discriminate]. injection E as <-. split; [discriminate|]. repeat constructor. discriminate. }
  assert (F : forall x p, In x req -> In p (datasets kind x) -> free (D := nat) p []).
  { intros x p X P. split; [destruct p; reflexivity|]. intros q r _ N. left. destruct q; [congruence|reflexivity]. }
  assert (T : tree (D := nat) []) by (intros p n H; destruct p; discriminate).
  assert (ND : NoDup req) by (repeat constructor; cbn; intuition discriminate).
  split; [exact ND|]. split; [exact T|]. split; [exact C|]. split; [exact A|]. split; [exact F|]. split; [exact W|].
  destruct (hdf5_series nat 0%nat req kind [] 2 1 (["t"], 0%nat) [("t", VDouble (["t"], 0%nat)); ("waves", VGrid (example_grid 0))] [((["t"], 1%nat), [("t", VDouble (["t"], 1%nat)); ("waves", VGrid (example_grid 1))])] ND T C A F) as (o & s & E & S & V & G & _).
  { intros; lia. }
  { exact W. }
  exists o, s. split; [exact E|]. split; [exact S|]. split.
  - destruct (V "t" ["t"]) as (l & Hl & L & N); [cbn; auto|reflexivity|]. pose proof (N 0%nat 0%nat ltac:(cbn; lia) eq_refl) as A0. pose proof (N 1%nat 1%nat ltac:(cbn; lia) eq_refl) as A1.
    cbn in L. destruct l as [|a [|b [|]]]; try discriminate L. injection A0 as ->. injection A1 as ->. exact Hl.
  - destruct (G "waves") as (l & Hl & L & N); [cbn; auto|reflexivity|]. pose proof (N 0%nat _ ltac:(cbn; lia) eq_refl) as A0. pose proof (N 1%nat _ ltac:(cbn; lia) eq_refl) as A1.
    cbn in L. destruct l as [|a [|b [|]]]; try discriminate L. injection A0 as ->. injection A1 as ->. exact Hl.
Qed.
