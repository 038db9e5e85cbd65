(** C135: a mesh stored in an HDF5 file and read back. *)
From Coq Require Import ZArith List Bool Lia String Ascii Reals.
From Verif Require Import Common Observer_Proofs Hdf5_Model Hdf5_Spec Hdf5_Proofs Hdf5_File_Proofs Hdf5_Series_Proofs Hdf5_Spectra_Proofs Hdf5_Mesh_Model.
From Verif Require Geometry Hull_Spec.
Import ListNotations.
Open Scope string_scope.

(** ** Specification *)
(** The triangles of a polygon, all from its first vertex *)
Fixpoint pairs {A} (l : list A) : list (A * A) := match l with a :: ((b :: _) as l') => (a, b) :: pairs l' | _ => [] end.
Definition fan {A} (l : list A) : list (list A) := match l with [] => [] | a :: l => map (fun p => [a; fst p; snd p]) (pairs l) end.

Section Mesh.
Context {D : Type} (zero : D).
Notation point := (D * D * D)%type.
Notation file := (@file D).

Lemma fan_from_spec a l : fan_from a l = map (fun p => [a; fst p; snd p]) (pairs l).
Proof. induction l as [|b [|c l] IH]; try reflexivity. change (fan_from a (b :: c :: l)) with ([a; b; c] :: fan_from a (c :: l)). rewrite IH. reflexivity. Qed.
Lemma pairs_map {A B} (g : A -> B) l : pairs (map g l) = map (fun p => (g (fst p), g (snd p))) (pairs l).
Proof. induction l as [|a [|b l] IH]; try reflexivity. change (pairs (map g (a :: b :: l))) with ((g a, g b) :: pairs (map g (b :: l))). rewrite IH. reflexivity. Qed.
Lemma fan_map {A B} (g : A -> B) l : fan (map g l) = map (map g) (fan l).
Proof. destruct l as [|a l]; [reflexivity|]. cbn [map fan]. rewrite pairs_map, !map_map. reflexivity. Qed.
Lemma fan_in {A} (l : list A) t : In t (fan l) -> incl t l /\ List.length t = 3%nat.
Proof.
  destruct l as [|a l]; [contradiction|]. cbn [fan]. intros H. apply in_map_iff in H as ((b, c) & <- & H). cbn [fst snd]. split; [|reflexivity].
  assert (I : In b l /\ In c l).
  { clear - H. induction l as [|x [|y l] IH]; try contradiction. change (pairs (x :: y :: l)) with ((x, y) :: pairs (y :: l)) in H. destruct H as [H|H].
    - injection H as <- <-. cbn. auto.
    - destruct (IH H). split; right; assumption. }
  intros z [<-|[<-|[<-|[]]]]; [left; reflexivity|right; tauto|right; tauto].
Qed.
Lemma traverse_ok {A B} (f : A -> outcome B) (g : A -> B) l : (forall a, In a l -> f a = Ok (g a)) -> traverse f l = Ok (map g l).
Proof.
  induction l as [|a l IH]; intros H; [reflexivity|]. cbn [traverse map]. rewrite (H a) by (left; reflexivity). cbn [bindO]. rewrite IH; [reflexivity|].
  intros b Hb. apply H. right. exact Hb.
Qed.
(** Rows of three *)
Lemma length_flat3 {A B} (g : A -> list B) l : (forall a, In a l -> List.length (g a) = 3%nat) -> List.length (flat_map g l) = (List.length l * 3)%nat.
Proof.
  induction l as [|a l IH]; intros H; [reflexivity|]. cbn [flat_map]. rewrite app_length, IH, H; [cbn; lia|left; reflexivity|]. intros b Hb. apply H. right. exact Hb.
Qed.
Lemma nth_flat3 {A B} (g : A -> list B) l d i k a : (forall a, In a l -> List.length (g a) = 3%nat) -> (k < 3)%nat -> nth_error l i = Some a ->
  nth (i * 3 + k) (flat_map g l) d = nth k (g a) d.
Proof.
  revert i. induction l as [|b l IH]; intros i H K E; [destruct i; discriminate|]. cbn [flat_map]. assert (L : List.length (g b) = 3%nat) by (apply H; left; reflexivity).
  destruct i as [|i].
  - injection E as ->. rewrite app_nth1 by lia. reflexivity.
  - rewrite app_nth2 by lia. rewrite L. replace (S i * 3 + k - 3)%nat with (i * 3 + k)%nat by lia. apply IH; [|exact K|exact E]. intros c Hc. apply H. right. exact Hc.
Qed.

(** The two arrays, written then read *)
Lemma arrays_round_trip (f0 : file) p name (points : list point) (triangles : list (list nat)) :
  tree f0 -> (forall v, clean v -> slashed (name ++ String slash v) (p ++ [v])) -> free (p ++ ["points"]) f0 -> free (p ++ ["faces"]) f0 ->
  (forall t, In t triangles -> List.length t = 3%nat /\ forall k, In k t -> (1 <= k <= List.length points)%nat) ->
  exists f, write_arrays zero f0 name points triangles = Ok f /\ tree f /\ grown [(p ++ ["points"])%list; (p ++ ["faces"])%list] f0 f /\
    read_mesh f name = Ok (map (map (fun k => nth (k - 1) points (zero, zero, zero))) triangles).
Proof.
  intros T SL F1 F2 TR.
  set (j1 := mkJob (name ++ "/points") (p ++ ["points"])%list [List.length points; 3%nat] (flat_map xyz points)).
  set (j2 := mkJob (name ++ "/faces") (p ++ ["faces"])%list [List.length triangles; 3%nat] (flat_map (@uints D) triangles)).
  assert (L1 : forall a : point, In a points -> List.length (xyz a) = 3%nat) by (intros ((x, y), z) _; reflexivity).
  assert (L2 : forall t, In t triangles -> List.length (@uints D t) = 3%nat) by (intros t Ht; unfold uints; rewrite map_length; apply TR, Ht).
  assert (S1 : slashed (name ++ "/points") (p ++ ["points"])) by (apply SL; split; [discriminate|reflexivity]).
  assert (S2 : slashed (name ++ "/faces") (p ++ ["faces"])) by (apply SL; split; [discriminate|reflexivity]).
  destruct (jobs_ok zero [j1; j2] f0 T) as (f & E & TF & H & G).
  - constructor; [|constructor; [|constructor]]; (split; [assumption|]); cbn [j1 j2 j_dims j_values]; unfold size; cbn [fold_left]; rewrite length_flat3 by assumption; lia.
  - apply FOP_cons; [apply Forall_cons; [|apply Forall_nil]|apply FOP_cons; [apply Forall_nil|apply FOP_nil]].
    cbn [j1 j2 j_path]. split; intros (r & Er); rewrite <- app_assoc in Er; apply app_inv_head in Er; discriminate.
  - intros j [<-|[<-|[]]]; assumption.
  - exists f. split; [|split; [exact TF|split; [exact G|]]].
    { unfold write_arrays. cbn [run_jobs] in E. unfold run_job in E. cbn [j1 j2 j_name j_dims j_values] in E.
      destruct (write_whole zero f0 (name ++ "/points") _ _) as [g| |]; cbn [bindO] in *; try discriminate. destruct (write_whole zero g _ _ _); cbn [bindO] in *; congruence. }
    destruct (H j1 (or_introl eq_refl)) as (m1 & c1 & K1 & V1). destruct (H j2 (or_intror (or_introl eq_refl))) as (m2 & c2 & K2 & V2).
    cbn [j1 j2 j_path j_dims j_values] in *.
    assert (P1 : path_of (name ++ "/points") = (p ++ ["points"])%list) by (apply slashed_names, S1).
    assert (P2 : path_of (name ++ "/faces") = (p ++ ["faces"])%list) by (apply slashed_names, S2).
    unfold read_mesh, load. rewrite P1, P2, K1, K2. cbn [bindO].
    assert (R1 : forall i k q, (k < 3)%nat -> nth_error points i = Some q -> c1 [i; k] = nth k (xyz q) (EDouble zero)).
    { intros i k q Hk Hq. assert (i < List.length points)%nat by (apply nth_error_Some; congruence). rewrite V1.
      - cbn [rank_of]. replace (0 * List.length points + i)%nat with i by lia. apply nth_flat3; assumption.
      - cbn [within]. destruct (Nat.ltb_spec i (List.length points)); [|lia]. destruct (Nat.ltb_spec k 3); [reflexivity|lia]. }
    assert (R2 : forall i k t, (k < 3)%nat -> nth_error triangles i = Some t -> c2 [i; k] = nth k (uints t) (EDouble zero)).
    { intros i k t Hk Ht. assert (i < List.length triangles)%nat by (apply nth_error_Some; congruence). rewrite V2.
      - cbn [rank_of]. replace (0 * List.length triangles + i)%nat with i by lia. apply nth_flat3; assumption.
      - cbn [within]. destruct (Nat.ltb_spec i (List.length triangles)); [|lia]. destruct (Nat.ltb_spec k 3); [reflexivity|lia]. }
    rewrite (traverse_ok _ (fun i => map (fun k => nth (k - 1) points (zero, zero, zero)) (nth i triangles []))).
    { f_equal. apply (nth_ext _ _ [] []); [rewrite !map_length, seq_length; reflexivity|]. intros i Hi. rewrite map_length, seq_length in Hi.
      rewrite (nth_indep _ [] (map (fun k => nth (k - 1) points (zero, zero, zero)) (nth 0%nat triangles []))) by (rewrite map_length, seq_length; exact Hi).
      rewrite (map_nth (fun i => map (fun k => nth (k - 1) points (zero, zero, zero)) (nth i triangles []))). rewrite seq_nth by exact Hi. cbn [plus].
      rewrite (nth_indep _ [] (map (fun k => nth (k - 1) points (zero, zero, zero)) [])) by (rewrite map_length; exact Hi).
      rewrite (map_nth (map (fun k => nth (k - 1) points (zero, zero, zero)))). reflexivity. }
    intros i Hi. cbv beta. apply in_seq in Hi. set (t := nth i triangles []).
    assert (Et : nth_error triangles i = Some t) by (apply nth_error_nth'; lia).
    destruct (TR t (nth_error_In _ _ Et)) as (L3 & B).
    assert (EL : t = map (fun k => nth k t 0%nat) (seq 0 3)).
    { destruct t as [|x [|y [|z [|u t']]]]; try discriminate L3. reflexivity. }
    rewrite EL. rewrite map_map. apply traverse_ok. intros k Hk. apply in_seq in Hk. rewrite (R2 i k t) by (auto; lia).
    unfold uints. assert (Bk := B (nth k t 0%nat) ltac:(apply nth_In; lia)).
    rewrite (nth_indep _ (EDouble zero) (EUint (Z.of_nat 0))) by (rewrite map_length; lia). rewrite (map_nth (fun n => EUint (Z.of_nat n))).
    destruct (Z.leb_spec 1 (Z.of_nat (nth k t 0%nat))); [|lia]. destruct (Z.ltb_spec (Z.of_nat (nth k t 0%nat) - 1) (Z.of_nat (List.length points))); [|lia].
    cbn [andb Nat.ltb Nat.leb]. cbv zeta. replace (Z.to_nat (Z.of_nat (nth k t 0%nat) - 1)) with (nth k t 0%nat - 1)%nat by lia.
    set (r := (nth k t 0 - 1)%nat). assert (Er : nth_error points r = Some (nth r points (zero, zero, zero))) by (apply nth_error_nth'; unfold r; lia).
    rewrite (R1 r 0%nat _ ltac:(lia) Er), (R1 r 1%nat _ ltac:(lia) Er), (R1 r 2%nat _ ltac:(lia) Er). destruct (nth r points (zero, zero, zero)) as ((x, y), z). reflexivity.
Qed.

(** ** C135 *)
(** Facets on a table of nodes *)
Theorem hdf5_mesh_round_trip : forall (f0 : file) p name nodes facets,
  tree f0 -> (forall v, clean v -> slashed (name ++ String slash v) (p ++ [v])) -> free (p ++ ["points"]) f0 -> free (p ++ ["faces"]) f0 ->
  (forall l, In l facets -> (2 <= List.length l)%nat /\ forall k, In k l -> (k < List.length nodes)%nat) ->
  exists f, write_mesh zero f0 name nodes facets = Ok f
    /\ read_mesh f name = Ok (List.concat (map (fun l => fan (map (fun k => nth k nodes (zero, zero, zero)) l)) facets))
    /\ (forall q n, lookup q f0 = Some n -> lookup q f = Some n).
Proof.
  intros f0 p name nodes facets T SL F1 F2 V. unfold write_mesh.
  rewrite (traverse_ok _ (fun l => fan (map S l))).
  2:{ intros l Hl. destruct (V l Hl) as (L & _). destruct (Nat.ltb_spec (List.length l) 2); [lia|]. destruct l as [|a l]; [cbn in L; lia|]. cbn [map fan]. rewrite fan_from_spec. reflexivity. }
  cbn [bindO]. destruct (arrays_round_trip f0 p name nodes (List.concat (map (fun l => fan (map S l)) facets)) T SL F1 F2) as (f & E & TF & G & R).
  { intros t Ht. apply in_concat in Ht as (x & Hx & Ht). apply in_map_iff in Hx as (l & <- & Hl). destruct (fan_in _ _ Ht) as (I & L). split; [exact L|].
    intros k Hk. apply I, in_map_iff in Hk as (k' & <- & Hk). apply (V l Hl) in Hk. lia. }
  exists f. split; [exact E|]. split; [|apply G]. rewrite R, concat_map, map_map. do 2 f_equal. apply map_ext. intros l. rewrite fan_map, map_map, fan_map. apply map_ext. intros t.
  rewrite map_map. apply map_ext. intros k. f_equal. lia.
Qed.

(** Polygons given by their points *)
Lemma concatenate_ok : forall (v : list (list point)) c, (forall l, In l v -> (2 <= List.length l)%nat) ->
  exists ts, concatenate_triangles c v = Ok ts
    /\ (forall t, In t ts -> List.length t = 3%nat /\ forall k, In k t -> (c <= k < c + List.length (List.concat v))%nat)
    /\ (forall pre, List.length pre = (c - 1)%nat -> (1 <= c)%nat -> map (map (fun k => nth (k - 1) (pre ++ List.concat v) (zero, zero, zero))) ts = List.concat (map fan v)).
Proof.
  induction v as [|l v IH]; intros c H; [exists []; repeat split; auto; contradiction|]. cbn [concatenate_triangles].
  assert (L : (2 <= List.length l)%nat) by (apply H; left; reflexivity). destruct (Nat.ltb_spec (List.length l) 2); [lia|].
  destruct (IH (c + List.length l)%nat) as (ts & -> & B & M); [intros l' Hl'; apply H; right; exact Hl'|]. cbn [bindO]. eexists. split; [reflexivity|].
  assert (FS : fan_from c (seq (c + 1) (List.length l - 1)) = fan (seq c (List.length l))).
  { destruct l as [|a l]; [cbn in L; lia|]. cbn [List.length]. replace (S (List.length l) - 1)%nat with (List.length l) by lia. cbn [seq fan]. rewrite fan_from_spec, Nat.add_1_r. reflexivity. }
  rewrite FS. cbn [List.concat]. split.
  - intros t Ht. apply in_app_or in Ht as [Ht|Ht].
    + destruct (fan_in _ _ Ht) as (I & L3). split; [exact L3|]. intros k Hk. apply I, in_seq in Hk. rewrite app_length. lia.
    + destruct (B t Ht) as (L3 & K). split; [exact L3|]. intros k Hk. apply K in Hk. rewrite app_length. lia.
  - intros pre P C. rewrite map_app. cbn [map List.concat]. f_equal.
    + rewrite <- fan_map. f_equal. apply (nth_ext _ _ (zero, zero, zero) (zero, zero, zero)); [rewrite map_length, seq_length; reflexivity|].
      intros i Hi. rewrite map_length, seq_length in Hi.
      rewrite (nth_indep _ _ (nth (0 - 1) (pre ++ l ++ List.concat v) (zero, zero, zero))) by (rewrite map_length, seq_length; exact Hi).
      rewrite (map_nth (fun k => nth (k - 1) (pre ++ l ++ List.concat v) (zero, zero, zero))). rewrite seq_nth by exact Hi.
      rewrite app_nth2 by lia. rewrite P. replace (c + i - 1 - (c - 1))%nat with i by lia. rewrite app_nth1 by exact Hi. reflexivity.
    + rewrite <- (M (pre ++ l)%list); [rewrite <- app_assoc; reflexivity|rewrite app_length; lia|lia].
Qed.
Theorem hdf5_polygons_round_trip : forall (f0 : file) p name v,
  tree f0 -> (forall v, clean v -> slashed (name ++ String slash v) (p ++ [v])) -> free (p ++ ["points"]) f0 -> free (p ++ ["faces"]) f0 ->
  (forall l, In l v -> (2 <= List.length l)%nat) ->
  exists f, write_polygons zero f0 name v = Ok f /\ read_mesh f name = Ok (List.concat (map fan v)) /\ (forall q n, lookup q f0 = Some n -> lookup q f = Some n).
Proof.
  intros f0 p name v T SL F1 F2 V. unfold write_polygons. destruct (concatenate_ok v 1 V) as (ts & -> & B & M). cbn [bindO].
  destruct (arrays_round_trip f0 p name (List.concat v) ts T SL F1 F2) as (f & E & TF & G & R).
  { intros t Ht. destruct (B t Ht) as (L & K). split; [exact L|]. intros k Hk. apply K in Hk. lia. }
  exists f. split; [exact E|]. split; [|apply G]. rewrite R. f_equal. exact (M [] eq_refl (le_n _)).
Qed.
(** Triangles come back as they are. *)
Theorem hdf5_triangles_round_trip : forall (f0 : file) p name v,
  tree f0 -> (forall v, clean v -> slashed (name ++ String slash v) (p ++ [v])) -> free (p ++ ["points"]) f0 -> free (p ++ ["faces"]) f0 ->
  (forall l, In l v -> List.length l = 3%nat) ->
  exists f, write_polygons zero f0 name v = Ok f /\ read_mesh f name = Ok v.
Proof.
  intros f0 p name v T SL F1 F2 V. destruct (hdf5_polygons_round_trip f0 p name v T SL F1 F2) as (f & E & R & _); [intros l Hl; rewrite (V l Hl); lia|].
  exists f. split; [exact E|]. rewrite R. f_equal. clear - V. induction v as [|l v IH]; [reflexivity|]. cbn [map List.concat]. rewrite IH by (intros x Hx; apply V; right; exact Hx).
  assert (L : List.length l = 3%nat) by (apply V; left; reflexivity). destruct l as [|a [|b [|c [|d l]]]]; try discriminate L. reflexivity.
Qed.
(** A facet of less than two vertices makes the writing fail. *)
Theorem hdf5_degenerate_facet_throws : forall (f0 : file) name nodes facets l, In l facets -> (List.length l < 2)%nat -> write_mesh zero f0 name nodes facets = Throw.
Proof.
  intros f0 name nodes facets l I L. unfold write_mesh. set (g := fun p : list nat => _).
  assert (E : traverse g facets = Throw); [|rewrite E; reflexivity].
  assert (G : forall p, g p = Throw \/ exists r, g p = Ok r).
  { intros p. unfold g. destruct (Nat.ltb (List.length p) 2); [auto|]. destruct (map S p); eauto. }
  assert (GL : g l = Throw) by (unfold g; destruct (Nat.ltb_spec (List.length l) 2); [reflexivity|lia]). clearbody g.
  clear L. induction facets as [|x facets IH]; [contradiction|]. cbn [traverse]. destruct I as [->|I]; [rewrite GL; reflexivity|].
  destruct (G x) as [->|(r & ->)]; [reflexivity|]. cbn [bindO]. rewrite IH by exact I. reflexivity.
Qed.
End Mesh.
Print Assumptions hdf5_mesh_round_trip.
Print Assumptions hdf5_polygons_round_trip.
Print Assumptions hdf5_triangles_round_trip.
Print Assumptions hdf5_degenerate_facet_throws.

(** The triangulated surface encloses the same volume, with the same centre, as the polygons. *)
Theorem fan_keeps_the_volume : forall m : list (list Geometry.vec3),
  Hull_Spec.enclosed_volume (List.concat (map fan m)) = Hull_Spec.enclosed_volume m /\ Hull_Spec.volume_moment (List.concat (map fan m)) = Hull_Spec.volume_moment m.
Proof.
  intros m. assert (E : List.concat (map Hull_Spec.triangles (List.concat (map fan m))) = List.concat (map Hull_Spec.triangles m)).
  { rewrite concat_map, map_map. induction m as [|l m IH]; [reflexivity|]. cbn [map List.concat]. rewrite concat_app, IH. f_equal.
    destruct l as [|a [|b l]]; try reflexivity. cbn [fan Hull_Spec.triangles]. revert b. induction l as [|c l IHl]; intros b; [reflexivity|].
    change (pairs (b :: c :: l)) with ((b, c) :: pairs (c :: l)). cbn [map fst snd List.concat Hull_Spec.triangles Hull_Spec.triangles_from app]. f_equal. apply IHl. }
  unfold Hull_Spec.enclosed_volume, Hull_Spec.volume_moment. rewrite E. auto.
Qed.
Print Assumptions fan_keeps_the_volume.
(** Non-vacuity: where xdyn stores the mesh of a body (xdyn.cpp lines 95-98) *)
Example mesh_place body : clean body -> forall v, clean v -> slashed (("/inputs/meshes/" ++ body) ++ String slash v) (["inputs"; "meshes"; body] ++ [v]).
Proof.
  intros B v V. rewrite sapp_assoc. change ("/inputs/meshes/" ++ body ++ String slash v) with (String slash ("inputs" ++ String slash ("meshes" ++ String slash (body ++ String slash v)))).
  apply slashed_skip. apply slashed_item; [split; [discriminate|reflexivity]|]. apply slashed_item; [split; [discriminate|reflexivity]|]. apply slashed_item; [exact B|]. apply slashed_last, V.
Qed.
Example mesh_witness : exists f, write_mesh 0%nat [] "/inputs/meshes/ship" [(0, 0, 0); (1, 0, 0); (1, 1, 0); (0, 1, 0)]%nat [[0; 1; 2; 3]%nat] = Ok f
  /\ read_mesh f "/inputs/meshes/ship" = Ok [[(0, 0, 0); (1, 0, 0); (1, 1, 0)]; [(0, 0, 0); (1, 1, 0); (0, 1, 0)]]%nat.
Proof. eexists. split; vm_compute; reflexivity. Qed.
