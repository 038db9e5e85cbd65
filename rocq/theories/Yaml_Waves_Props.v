(** C138, C140, C141, C144, C145: conventions of rotation, sections in the wrong form, waves. *)
From Coq Require Import Reals List Arith Bool String Ascii ZArith Lia.
From Verif Require Import Common Grpc_Spec Builder_Model Builder_Spec Builder_Props Hdf5_Mesh_Model Yaml_Model Yaml_Spec Observer_Proofs Yaml_Proofs Yaml_Rotation_Proofs Yaml_Props Geometry.
Import ListNotations.
Open Scope string_scope.

(** ** C138 *)
Lemma renamed_to s (a name axis rest : string) : In (name, axis) [("phi", "x"); ("theta", "y"); ("psi", "z")] -> In rest [""; "'"; "''"] ->
  renamed s (axis ++ rest) -> (angle_name s /\ s = name ++ rest) \/ (~ angle_name s /\ s = axis ++ rest).
Proof.
  intros H Hr R0.
  assert (SN : forall r t, second_name r = t -> In t [""; "'"] -> r = t).
  { clear. intros r t. unfold second_name. destruct (String.eqb_spec r "phi"); [intros <- [X|[X|[]]]; discriminate|]. destruct (String.eqb_spec r "psi"); [intros <- [X|[X|[]]]; discriminate|]. congruence. }
  destruct R0 as [[(-> & E)|(r & -> & E)]|[[(-> & E)|(r & -> & E)]|[[(-> & E)|(r & -> & E)]|(N & E)]]].
  7: { right. split; [exact N|congruence]. }
  all: left; (split; [first [left; left; reflexivity|left; right; eexists; reflexivity|right; left; left; reflexivity|right; left; right; eexists; reflexivity|right; right; left; reflexivity|right; right; right; eexists; reflexivity]|]).
  all: destruct H as [H|[H|[H|[]]]]; injection H as <- <-; destruct Hr as [<-|[<-|[<-|[]]]]; cbn in E; try discriminate; try reflexivity.
  all: injection E as E; symmetry in E; apply SN in E; [subst r; reflexivity|cbn; tauto].
Qed.
Section Rotations.
Variable int_of : string -> option Z.
(** The conventions with which a simulation can start, and the rotation they stand for: yaw, then pitch, then roll. *)
Theorem usable_conventions : forall n a m,
  (exists r, read_rotations int_of n = Ok r /\ check_rotations r = Ok tt /\ angle2matrix a r = Ok m) <->
  (exists x y z, list_of int_of text n [x; y; z] /\ (x = "psi" \/ x = "z") /\ (y = "theta'" \/ y = "y'") /\ (z = "phi''" \/ z = "x''") /\
     ~ (x = "z" /\ y = "y'" /\ z = "x''")) /\ m = euler_matrix (a_phi a) (a_theta a) (a_psi a).
Proof.
  intros n a m. split.
  - intros (r & Hr & _ & Hm). apply rotations_ok in Hr as (x & y & z & L & Len & _ & F & O).
    unfold angle2matrix in Hm. destruct (String.eqb_spec (order_by r) "angle") as [Eo|]; [|discriminate].
    destruct (convention r) as [|x' [|y' [|z' [|w c]]]] eqn:Ec; try (inversion F as [|? ? ? ? ? F1]; inversion F1 as [|? ? ? ? ? F2]; inversion F2 as [|? ? ? ? ? F3]; inversion F3; fail).
    unfold conventions_match, at_throw in Hm. cbn [nth_error bindO] in Hm.
    destruct (String.eqb_spec x' "z") as [->|]; [|discriminate]. cbn [negb bindO] in Hm. destruct (String.eqb_spec y' "y'") as [->|]; [|discriminate]. cbn [negb bindO] in Hm.
    destruct (String.eqb_spec z' "x''") as [->|]; [|discriminate]. cbn [bindO] in Hm. injection Hm as <-. split; [|apply rotation_321].
    inversion F as [|? ? ? ? Rx F1]; subst. inversion F1 as [|? ? ? ? Ry F2]; subst. inversion F2 as [|? ? ? ? Rz F3]; subst.
    apply (renamed_to x "" "psi" "z" "") in Rx; [|cbn; tauto|cbn; tauto]. apply (renamed_to y "" "theta" "y" "'") in Ry; [|cbn; tauto|cbn; tauto].
    apply (renamed_to z "" "phi" "x" "''") in Rz; [|cbn; tauto|cbn; tauto].
    exists x, y, z. split; [exact L|]. split; [tauto|]. split; [tauto|]. split; [tauto|].
    intros (-> & -> & ->). destruct O as [((s & I & G) & _)|(_ & X)]; [|congruence].
    destruct Rx as [(_ & X)|(Nx & _)]; [discriminate|]. destruct Ry as [(_ & X)|(Ny & _)]; [discriminate|]. destruct Rz as [(_ & X)|(Nz & _)]; [discriminate|].
    destruct I as [<-|[<-|[<-|[]]]]; tauto.
  - intros ((x & y & z & L & Hx & Hy & Hz & N) & ->). exists (mkRot "angle" ["z"; "y'"; "x''"]).
    split; [|split; [reflexivity|rewrite <- rotation_321; reflexivity]].
    unfold read_rotations. assert (V := proj2 (vector_ok int_of read_string text n [x; y; z] string_ok) L). rewrite V. cbn [bindO List.length Nat.eqb].
    destruct Hx as [-> | ->], Hy as [-> | ->], Hz as [-> | ->]; try reflexivity. exfalso. apply N. auto.
Qed.
End Rotations.
Print Assumptions usable_conventions.
(** The documented convention, the same with axes only, and a misspelt one *)
Example usable_convention : forall int_of,
  (exists r, read_rotations int_of (Seq [Scalar "psi"; Scalar "theta'"; Scalar "phi''"]) = Ok r /\ check_rotations r = Ok tt /\ order_by r = "angle") /\
  (exists r, read_rotations int_of (Seq [Scalar "z"; Scalar "y'"; Scalar "x''"]) = Ok r /\ check_rotations r = Ok tt /\ order_by r = "axis" /\
             forall a, angle2matrix a r = Throw) /\
  (exists r, read_rotations int_of (Seq [Scalar "psi"; Scalar "teta'"; Scalar "phi''"]) = Ok r /\ check_rotations r = Throw).
Proof. intros. split; [|split]; eexists; (split; [reflexivity|]); repeat split. Qed.

Section Theorems.
Variable D : Type.
Variable zero : D.
Variable mul : D -> D -> D.
Variable dbl : string -> option D.
Variable int_of : string -> option Z.
Variable factor : string -> option D.
Notation quantity := (quantity D mul dbl factor).
Notation number := (number D dbl).

(** ** C144: waves *)
Lemma wave_output_ok n o : read_wave_output D zero mul dbl int_of factor n = Ok o <-> describes_wave_output D mul dbl int_of factor n o.
Proof.
  unfold read_wave_output, describes_wave_output, wave_output_steps, no_wave_output. cbv zeta. cbn [run_steps].
  pose proof (string_at_ok n "frame of reference") as Hf. destruct (string_at n "frame of reference") as [f| |] eqn:Ef; cbn [bindO].
  2,3: split; [discriminate|]; intros (U & _); apply Hf in U; discriminate.
  assert (Uf := proj1 (Hf f) eq_refl).
  pose proof (get_ok n "mesh") as Hm. destruct (get n "mesh") as [m| |] eqn:Em; cbn [bindO].
  2,3: split; [discriminate|]; intros (_ & w & Ew & _); apply Hm in Ew; discriminate.
  assert (Um := proj1 (Hm m) eq_refl).
  assert (U : forall k, match uv D mul dbl factor m k with Ok x => under m k quantity x | _ => forall x, ~ under m k quantity x end).
  { intros k. pose proof (uv_ok D mul dbl factor m k) as H. destruct (uv D mul dbl factor m k) as [x| |]; [apply H; reflexivity| |]; intros x Hx; apply H in Hx; discriminate. }
  assert (N : forall k, match try_to_parse_positive_integer int_of m k with Ok x => under m k (natural int_of) x | _ => forall x, ~ under m k (natural int_of) x end).
  { intros k. pose proof (natural_ok int_of m k) as H. destruct (try_to_parse_positive_integer int_of m k) as [x| |]; [apply H; reflexivity| |]; intros x Hx; apply H in Hx; discriminate. }
  assert (UF : forall k x y, under m k quantity x -> under m k quantity y -> x = y) by (intros k x y; rewrite <- !uv_ok; congruence).
  assert (NF : forall k x y, under m k (natural int_of) x -> under m k (natural int_of) y -> x = y) by (intros k x y; rewrite <- !natural_ok; congruence).
  assert (TF : forall x y, under n "frame of reference" text x -> under n "frame of reference" text y -> x = y) by (intros x y; rewrite <- !string_at_ok; congruence).
  pose proof (U "xmin") as U1. destruct (uv D mul dbl factor m "xmin") as [x1| |]; cbn [bindO].
  2,3: split; [discriminate|]; intros (_ & w & Ew & A & _); rewrite <- (entry_fun _ _ _ _ Um Ew) in A; exfalso; exact (U1 _ A).
  pose proof (U "xmax") as U2. destruct (uv D mul dbl factor m "xmax") as [x2| |]; cbn [bindO].
  2,3: split; [discriminate|]; intros (_ & w & Ew & _ & A & _); rewrite <- (entry_fun _ _ _ _ Um Ew) in A; exfalso; exact (U2 _ A).
  pose proof (N "nx") as U3. destruct (try_to_parse_positive_integer int_of m "nx") as [x3| |]; cbn [bindO].
  2,3: split; [discriminate|]; intros (_ & w & Ew & _ & _ & A & _); rewrite <- (entry_fun _ _ _ _ Um Ew) in A; exfalso; exact (U3 _ A).
  pose proof (U "ymin") as U4. destruct (uv D mul dbl factor m "ymin") as [x4| |]; cbn [bindO].
  2,3: split; [discriminate|]; intros (_ & w & Ew & _ & _ & _ & A & _); rewrite <- (entry_fun _ _ _ _ Um Ew) in A; exfalso; exact (U4 _ A).
  pose proof (U "ymax") as U5. destruct (uv D mul dbl factor m "ymax") as [x5| |]; cbn [bindO].
  2,3: split; [discriminate|]; intros (_ & w & Ew & _ & _ & _ & _ & A & _); rewrite <- (entry_fun _ _ _ _ Um Ew) in A; exfalso; exact (U5 _ A).
  pose proof (N "ny") as U6. destruct (try_to_parse_positive_integer int_of m "ny") as [x6| |]; cbn [bindO].
  2,3: split; [discriminate|]; intros (_ & w & Ew & _ & _ & _ & _ & _ & A); rewrite <- (entry_fun _ _ _ _ Um Ew) in A; exfalso; exact (U6 _ A).
  cbn [wo_frame wo_xmin wo_xmax wo_nx wo_ymin wo_ymax wo_ny]. split.
  - intros H. injection H as <-. cbn [wo_frame wo_xmin wo_xmax wo_nx wo_ymin wo_ymax wo_ny]. split; [exact Uf|]. exists m. tauto.
  - destruct o as [f' a b c d e g]. cbn [wo_frame wo_xmin wo_xmax wo_nx wo_ymin wo_ymax wo_ny]. intros (F & w & Ew & A1 & A2 & A3 & A4 & A5 & A6).
    rewrite <- (entry_fun _ _ _ _ Um Ew) in *. f_equal. f_equal; eauto.
Qed.
Theorem waves_section_reading : forall n w,
  parse_waves D zero mul dbl int_of factor n = Ok w <-> describes_waves D zero mul dbl int_of factor n w.
Proof.
  assert (E1 : forall v a, read_discretization D mul dbl int_of factor v = Ok a <-> describes_discretization D mul dbl int_of factor v a).
  { intros v a. unfold read_discretization, describes_discretization. rewrite (step_ok _ _ _ _ (natural_ok int_of v "n")). split.
    - intros (k & K & H). apply (step_ok _ _ _ _ (uv_ok D mul dbl factor v _)) in H as (lo & Lo & H). apply (step_ok _ _ _ _ (uv_ok D mul dbl factor v _)) in H as (hi & Hi & H).
      apply (step_ok _ _ _ _ (double_at_ok D dbl v _)) in H as (e & E & H). injection H as <-. cbn. auto.
    - destruct a as [k lo hi e]. cbn. intros (K & Lo & Hi & E). exists k. split; [exact K|].
      apply (step_ok _ _ _ _ (uv_ok D mul dbl factor v _)). exists lo. split; [exact Lo|]. apply (step_ok _ _ _ _ (uv_ok D mul dbl factor v _)). exists hi. split; [exact Hi|].
      apply (step_ok _ _ _ _ (double_at_ok D dbl v _)). exists e. split; [exact E|reflexivity]. }
  assert (E2 : forall v a, read_stretching D mul dbl factor v = Ok a <-> describes_stretching D mul dbl factor v a).
  { intros v a. unfold read_stretching, describes_stretching. rewrite (step_ok _ _ _ _ (uv_ok D mul dbl factor v _)). split.
    - intros (h & Hh & H). apply (step_ok _ _ _ _ (double_at_ok D dbl v _)) in H as (e & E & H). injection H as <-. cbn. auto.
    - destruct a as [h d]. cbn. intros (Hh & Hd). exists h. split; [exact Hh|]. apply (step_ok _ _ _ _ (double_at_ok D dbl v _)). exists d. split; [exact Hd|reflexivity]. }
  assert (T : forall {B} n k (f : yaml -> string -> outcome B) b, (do v <- get n k; do t <- string_at v "type"; f v t) = Ok b <-> exists v t, under n k typed (t, v) /\ f v t = Ok b).
  { intros B n k f b. rewrite bind_ok. split.
    - intros (v & Ev & H). apply (step_ok _ _ _ _ (string_at_ok v "type")) in H as (t & Ht & H). exists v, t. split; [|exact H]. exists v. split; [apply get_ok, Ev|split; [exact Ht|reflexivity]].
    - intros (v & t & (v' & Ev & Ht & E) & H). cbn [fst snd] in *. subst v'. exists v. split; [apply get_ok, Ev|]. apply (step_ok _ _ _ _ (string_at_ok v "type")). exists t. split; [exact Ht|exact H]. }
  assert (E3 : forall v a, read_spectra D mul dbl factor v = Ok a <-> describes_spectra D mul dbl factor v a).
  { intros v a. unfold read_spectra, describes_spectra. rewrite (step_ok _ _ _ _ (string_at_ok v "model")). split.
    - intros (m & Hm & H). apply T in H as (sp & spt & Hsp & H). apply T in H as (de & det & Hde & H). apply (step_under _ _ _ _ _ _ E2) in H as (st & Hst & H).
      apply (step_ok _ _ _ _ (uv_ok D mul dbl factor v _)) in H as (dp & Hdp & H). injection H as <-.
      cbn [s_model s_yaml s_spreading_type s_spreading s_density_type s_density s_stretching s_depth]. auto 10.
    - destruct a as [m y spt sp det de st dp]. cbn [s_model s_yaml s_spreading_type s_spreading s_density_type s_density s_stretching s_depth].
      intros (Hm & -> & Hsp & Hde & Hst & Hdp). exists m. split; [exact Hm|]. apply T. exists sp, spt. split; [exact Hsp|]. apply T. exists de, det. split; [exact Hde|].
      apply (step_under _ _ _ _ _ _ E2). exists st. split; [exact Hst|]. apply (step_ok _ _ _ _ (uv_ok D mul dbl factor v _)). exists dp. split; [exact Hdp|reflexivity]. }
  intros n w. unfold parse_waves, describes_waves. rewrite (step_under _ _ _ _ _ _ E1).
  pose proof (fun d x => try_ok n "output" _ _ d x wave_output_ok) as E4. split.
  - intros (d & Hd & H). apply (step_under _ _ _ _ _ _ (fun v a => vector_ok int_of _ _ v a E3)) in H as (s & Hs & H).
    apply (step_ok _ _ _ _ (E4 _)) in H as (o & Ho & H). injection H as <-. exact (conj Hd (conj Hs Ho)).
  - destruct w as [d s o]. intros (Hd & Hs & Ho). exists d. split; [exact Hd|].
    apply (step_under _ _ _ _ _ _ (fun v a => vector_ok int_of _ _ v a E3)). exists s. split; [exact Hs|]. apply (step_ok _ _ _ _ (E4 _)). exists o. split; [exact Ho|reflexivity].
Qed.

(** ** C145: the output section of the other two wave models *)
Theorem correct_wave_output_is_used_partial : forall n,
  (forall w, parse_default_wave_model D zero mul dbl int_of factor n = Ok w ->
     under n "constant sea elevation in NED frame" quantity (dw_z w) /\
     (lacks n "output" -> dw_output w = no_output D zero) /\
     (forall o, under n "output" (describes_wave_output D mul dbl int_of factor) o -> dw_output w = o)) /\
  (forall w, parse_grpc D zero mul dbl int_of factor n = Ok w ->
     under n "url" text (gm_url w) /\ gm_yaml w = n /\
     (lacks n "output" -> gm_output w = no_output D zero) /\
     (forall o, under n "output" (describes_wave_output D mul dbl int_of factor) o -> gm_output w = o)).
Proof.
  intros n.
  assert (A : lacks n "output" -> output_or_nothing D zero mul dbl int_of factor n = no_output D zero).
  { intros L. unfold output_or_nothing, get. apply find_none in L. rewrite L. reflexivity. }
  assert (B : forall o, under n "output" (describes_wave_output D mul dbl int_of factor) o -> output_or_nothing D zero mul dbl int_of factor n = o).
  { intros o (v & Ev & Ho). unfold output_or_nothing. apply get_ok in Ev. rewrite Ev. apply wave_output_ok in Ho. unfold read_wave_output in Ho.
    destruct (run_steps _ _) as (g & [|]); [discriminate|]. injection Ho as ->. reflexivity. }
  split.
  - intros w H. unfold parse_default_wave_model in H. apply (step_ok _ _ _ _ (uv_ok D mul dbl factor n _)) in H as (z & Hz & H). injection H as <-. cbn [dw_z dw_output]. auto.
  - intros w H. unfold parse_grpc in H. apply (step_ok _ _ _ _ (string_at_ok n _)) in H as (z & Hz & H). injection H as <-. cbn [gm_url gm_output gm_yaml]. auto.
Qed.

(** ** C140: lists *)
(** Whatever the readers of elements, a word where a list is expected is an empty list. *)
Theorem word_is_an_empty_list : forall A (read : yaml -> outcome A) s, read_vector int_of read (Scalar s) = Ok [] /\ read_vector int_of read Null = Ok [].
Proof. intros. split; reflexivity. Qed.
(** Otherwise every element of the list is read, in order: none is skipped. *)
Theorem lists_are_read_completely_partial : forall A (read : yaml -> outcome A) l xs,
  read_vector int_of read (Seq l) = Ok xs <-> Forall2 (fun v x => read v = Ok x) l xs.
Proof. intros A read l xs. unfold read_vector. cbn [items bindO]. apply traverse_iff. reflexivity. Qed.

(** ** C141: a matrix is given once *)
Theorem matrix_given_twice_partial : forall frame n i v w, entry n "from hdb" v -> In i ["row 1"; "row 2"; "row 3"; "row 4"; "row 5"; "row 6"] -> entry n i w ->
  parse_matrix6 D dbl int_of n false frame = Throw.
Proof.
  intros frame n i v w Ev Hi Ew. destruct (parse_matrix6 D dbl int_of n false frame) as [m| |] eqn:E; [|reflexivity|exfalso; exact (matrix_ub D dbl int_of n false frame E)].
  exfalso. apply matrix_ok in E as [(_ & _ & _ & _ & L1 & L2 & L3 & L4 & L5 & L6)|(L & _)]; [|exact (entry_lacks _ _ _ Ev L)].
  destruct Hi as [<-|[<-|[<-|[<-|[<-|[<-|[]]]]]]]; eapply entry_lacks; eassumption.
Qed.
End Theorems.
Print Assumptions waves_section_reading.
Print Assumptions correct_wave_output_is_used_partial.
Print Assumptions word_is_an_empty_list.
Print Assumptions lists_are_read_completely_partial.
Print Assumptions matrix_given_twice_partial.
