(** Properties C05-C06: binary STL files. *)
From Coq Require Import ZArith List Bool Lia.
From Verif Require Import Common Stl_Model Stl_Proofs.
Import ListNotations.
Open Scope Z_scope.

(** Specification (see Stl_Proofs): [word_at l i] is the little-endian 32-bit word at offset i of file l,
    [declared_facets l] the word at offset 80, [facet_at l i] the three vertices found at offset 84 + 50 i + 12. *)

(** ** C05. Reading: a file which is long enough for the number of facets it declares is read as the format says. *)
Theorem stl_reader_follows_format : forall peeks l,
  (84 <= length l)%nat -> 84 + 50 * declared_facets l <= Z.of_nat (length l) ->
  read_binary_stl peeks l = Ok (map (facet_at l) (seq 0 (Z.to_nat (declared_facets l)))).
Proof. intros. apply read_binary_complete; assumption. Qed.
Print Assumptions stl_reader_follows_format.

(** ** C05. Round trip: any list of (less than 2^32) facets of at least three vertices can be written, takes exactly
    84 + 50 n bytes, is recognised as binary, and reads back as its facets (three first vertices, coordinates rounded
    to single precision), whatever the unit normals are and whatever the ASCII reader does. *)
Theorem stl_round_trip : forall (D : Type) (narrow : D -> Z) normal_words peeks read_ascii,
  (forall x, 0 <= narrow x < 4294967296) ->
  forall stl : list (list (D * D * D)),
  Forall (fun f => (3 <= length f)%nat) stl -> Z.of_nat (length stl) < 4294967296 ->
  exists file, write_binary_stl D narrow normal_words stl = Ok file /\
    length file = (84 + 50 * length stl)%nat /\
    read_stl peeks read_ascii file =
      Ok (map (fun f => map (fun p => let '(x, y, z) := p in (narrow x, narrow y, narrow z)) (firstn 3 f)) stl).
Proof.
  intros D narrow nw peeks ra Hn stl H B.
  destruct (write_ok D narrow nw Hn stl H B) as (bs & E & L & N & P & F).
  exists bs. split; [exact E|]. split; [exact L|].
  unfold read_stl. rewrite not_ascii; [|rewrite L; apply Nat.le_add_r|exact P]. cbn [bindO].
  rewrite read_binary_complete; [|rewrite N, L; lia|rewrite L; apply Nat.le_add_r].
  rewrite N, Nat2Z.id, F. reflexivity.
Qed.
Print Assumptions stl_round_trip.
Example stl_round_trip_witness :
  let narrow := fun x : Z => x mod 4294967296 in
  let stl := [[(1,2,3);(4,5,6);(7,8,9)]; [(1065353216,0,5);(3212836864,2,6);(4294967295,1,7);(0,0,0)]] in
  exists file, write_binary_stl Z narrow (fun _ => (0,0,1065353216)) stl = Ok file /\
    read_stl false (fun _ => Throw) file =
      Ok [[(1,2,3);(4,5,6);(7,8,9)]; [(1065353216,0,5);(3212836864,2,6);(4294967295,1,7)]].
Proof. eexists. split; vm_compute; reflexivity. Qed.

(** A facet with fewer than three vertices makes the writer read out of bounds. *)
Theorem stl_writer_short_facet_ub : forall (D : Type) (narrow : D -> Z) normal_words before f after,
  Forall (fun f => (3 <= length f)%nat) before -> (length f < 3)%nat ->
  Z.of_nat (length (before ++ f :: after)) < 4294967296 ->
  write_binary_stl D narrow normal_words (before ++ f :: after) = UB.
Proof.
  intros D narrow nw before f after Hb Hf B. unfold write_binary_stl. rewrite Z.mod_small by lia.
  rewrite Nat2Z.id, firstn_all.
  assert (write_faces D narrow nw (before ++ f :: after) = UB) as ->; [|reflexivity].
  clear B. induction Hb as [|g gs Hg Hgs IH]; simpl.
  - rewrite write_face_short by exact Hf. reflexivity.
  - destruct (write_face D narrow nw g) eqn:E; cbn [bindO]; [rewrite IH; reflexivity| |reflexivity].
    destruct g as [|? [|? [|? ?]]]; try discriminate E. unfold write_face in E. cbn [at_ub nth_error bindO] in E.
    destruct (nw _) as [[? ?] ?]. discriminate.
Qed.
Print Assumptions stl_writer_short_facet_ub.
Example stl_writer_short_facet_witness :
  write_binary_stl Z (fun x => x) (fun _ => (0,0,0)) [[(1,2,3);(4,5,6);(7,8,9)]; [(1,1,1);(2,2,2)]] = UB.
Proof. vm_compute. reflexivity. Qed.

(** ** C06 is violated: no input whatsoever makes the binary reader report an error. *)
Theorem stl_truncation_reported_refuted : forall peeks l, read_binary_stl peeks l <> Throw.
Proof.
  intros peeks l. unfold read_binary_stl. destruct (s_read4 _) as [b s]. apply read_facets_no_throw.
Qed.
Print Assumptions stl_truncation_reported_refuted.
Example stl_truncation_reported_witness : read_binary_stl false [] = Ok [] /\ read_binary_stl true (repeat 1 90) = UB.
Proof. split; [reflexivity|]. unfold read_binary_stl. simpl s_read4. cbv [le_word4]. cbn.
  replace (Pos.to_nat 16843009) with (S (Pos.to_nat 16843008)) by lia. apply read_facets_short; simpl; lia. Qed.

(** The number of facets returned is the number declared in the header, however long the file really is. *)
Theorem stl_facet_count_ignores_file_size : forall peeks l fs, (84 <= length l)%nat ->
  Forall is_byte l ->
  read_binary_stl peeks l = Ok fs -> Z.of_nat (length fs) = declared_facets l.
Proof.
  intros peeks l fs H HB E. rewrite read_binary_header in E by exact H. apply read_facets_length in E.
  rewrite E. apply Z2Nat.id. unfold declared_facets, word_at.
  assert (forall i, 0 <= byte_at l i) as N.
  { intros i. unfold byte_at. destruct (nth_in_or_default i l 0) as [I|I]; [|lia].
    rewrite Forall_forall in HB. specialize (HB _ I). unfold is_byte in HB. lia. }
  pose proof (N 80%nat); pose proof (N (80+1)%nat); pose proof (N (80+2)%nat); pose proof (N (80+3)%nat). lia.
Qed.
Print Assumptions stl_facet_count_ignores_file_size.

(** What a file cut after its header is read as (standard [istream::ignore]): with q complete facets and r more bytes,
    - if the cut is in the two-byte spacer of a facet (r >= 48), that facet is silently repeated up to the declared
      number of facets;
    - otherwise the reader uses indeterminate values (undefined behaviour). *)
Theorem stl_truncated_file : forall l q r,
  (length l = 84 + 50 * q + r)%nat -> (r < 50)%nat -> Z.of_nat q < declared_facets l ->
  read_binary_stl false l =
    if (r <? 48)%nat then UB
    else Ok (map (facet_at l) (seq 0 (S q)) ++ repeat (facet_at l q) (Z.to_nat (declared_facets l) - S q)).
Proof.
  intros l q r L R B. rewrite read_binary_header by (rewrite L, <- Nat.add_assoc; apply Nat.le_add_r).
  set (n := Z.to_nat (declared_facets l)).
  assert (length (skipn 84 l) = 50 * q + r)%nat as L2 by (rewrite skipn_length; lia).
  destruct n as [|m] eqn:En; [lia|].
  assert (q <= m)%nat as Q by lia.
  destruct (Nat.ltb_spec r 48) as [R48|R48].
  - destruct r as [|r'].
    + (* exactly q facets *)
      assert (forall q l v, length l = (50 * q)%nat -> read_facets false (q + (S (m - q))) (l, true) v = UB) as G.
      { clear. intros q. generalize (m - q)%nat as k. intros k. induction q; intros l v H.
        - simpl Nat.add. apply read_facets_short; lia.
        - destruct (read_facets_step false (q + S k) l v) as (v' & _ & E & _); [lia|].
          change (S q + S k)%nat with (S (q + S k)). rewrite E.
          unfold s_ignore. rewrite skipn_length. destruct (Nat.ltb_spec (length l - 48) 2); [lia|].
          cbn [andb negb]. rewrite skipn_2_48. rewrite IHq; [reflexivity|]. rewrite skipn_length. lia. }
      replace (S m) with (q + S (m - q))%nat by lia. apply G. lia.
    + destruct (read_facets_complete false q (S m - q) (skipn 84 l) (repeat None 36)) as (v' & E); [left; lia|].
      replace (q + (S m - q))%nat with (S m) in E by lia. rewrite E.
      rewrite read_facets_short; [reflexivity| |lia]. rewrite skipn_length. lia.
  - destruct (read_facets_complete false q (S (m - q)) (skipn 84 l) (repeat None 36)) as (v' & E); [left; lia|].
    replace (q + S (m - q))%nat with (S m) in E by lia. rewrite E. clear E.
    set (l' := skipn (50 * q) (skipn 84 l)).
    assert (length l' = r) as Ll' by (unfold l'; rewrite skipn_length; lia).
    destruct (read_facets_step false (m - q) l' v') as (v2 & _ & E & F); [lia|]. rewrite E. clear E.
    unfold s_ignore. destruct (Nat.ltb_spec (length (skipn 48 l')) 2) as [_|X]; [|rewrite skipn_length in X; lia].
    rewrite (read_facets_not_good false _ _ _ _ F). cbn [bindO]. f_equal.
    rewrite facets_from_facet_at.
    assert (facet_at l q = [vertex_at l' 12; vertex_at l' 24; vertex_at l' 36]) as ->.
    { unfold facet_at, l'. rewrite !vertex_at_skipn. rewrite <- !Nat.add_assoc. reflexivity. }
    rewrite seq_S, map_app. cbn [map].
    assert (facet_at l (0 + q) = [vertex_at l' 12; vertex_at l' 24; vertex_at l' 36]) as ->.
    { unfold facet_at, l'. rewrite !vertex_at_skipn. rewrite <- !Nat.add_assoc. reflexivity. }
    rewrite <- app_assoc. replace (S m - S q)%nat with (m - q)%nat by lia. reflexivity.
Qed.
Print Assumptions stl_truncated_file.

(** A concrete damaged file: three facets written, cut one byte before the end of the second one; it is read without
    error as three facets, the last of which is not in the file that was written. This holds for both versions of
    [istream::ignore]. *)
Theorem stl_truncation_duplicates_facet_refuted : exists stl file cut,
  write_binary_stl Z (fun x => x) (fun _ => (0,0,0)) stl = Ok file /\
  cut = firstn 183 file /\ (length cut < length file)%nat /\
  forall peeks, read_stl peeks (fun _ => Throw) cut =
     Ok [[(1,2,3);(4,5,6);(7,8,9)]; [(11,12,13);(14,15,16);(17,18,19)]; [(11,12,13);(14,15,16);(17,18,19)]] /\
  read_stl peeks (fun _ => Throw) file =
     Ok [[(1,2,3);(4,5,6);(7,8,9)]; [(11,12,13);(14,15,16);(17,18,19)]; [(21,22,23);(24,25,26);(27,28,29)]].
Proof.
  exists [[(1,2,3);(4,5,6);(7,8,9)]; [(11,12,13);(14,15,16);(17,18,19)]; [(21,22,23);(24,25,26);(27,28,29)]].
  eexists. eexists. split; [vm_compute; reflexivity|]. split; [reflexivity|].
  split; [vm_compute; repeat constructor|]. intros [|]; vm_compute; split; reflexivity.
Qed.
Print Assumptions stl_truncation_duplicates_facet_refuted.

(** The hypotheses of [stl_truncated_file] hold for that file. *)
Example stl_truncated_file_witness :
  let l := repeat 1 80 ++ [3;0;0;0] ++ repeat 7 98 in
  length l = (84 + 50 * 1 + 48)%nat /\ declared_facets l = 3 /\ exists f, read_binary_stl false l = Ok [f; f; f].
Proof. split; [reflexivity|]. split; [reflexivity|]. eexists. vm_compute. reflexivity. Qed.

(** ** C62. Format detection: after skipping spaces and tabs, a text that starts with "solid " or "SOLID " goes to the
    ASCII reader, anything else to the binary reader. *)
Definition blank (c : Z) : Prop := c = 32 \/ c = 9.
Definition has_prefix (p l : list Z) : Prop := exists t, l = p ++ t.
Definition text_solid : list Z := [115; 111; 108; 105; 100; 32].
Definition text_SOLID : list Z := [83; 79; 76; 73; 68; 32].
Lemma first_non_blank_app : forall bl c t, Forall blank bl -> ~ blank c ->
  first_non_blank (bl ++ c :: t) = Some (length bl).
Proof.
  induction 1 as [|b bl Hb Hbl IH]; intros Hc; cbn [first_non_blank app].
  - destruct (Z.eqb_spec c 32); [exfalso; apply Hc; left; auto|]. destruct (Z.eqb_spec c 9); [exfalso; apply Hc; right; auto|]. reflexivity.
  - destruct Hb as [-> | ->]; cbn [Z.eqb Pos.eqb orb]; rewrite IH by exact Hc; reflexivity.
Qed.
Lemma starts_with_spec : forall bl t p, exists b, starts_with (bl ++ t) p (Some (length bl)) = Ok b /\ (b = true <-> has_prefix p t).
Proof.
  intros bl t p. unfold starts_with. rewrite skipn_app, skipn_all, Nat.sub_diag. cbn [skipn app].
  destruct (Nat.leb_spec (length p) (length (bl ++ t))) as [L|L].
  - destruct (list_eq_dec Z.eq_dec (firstn (length p) t) p) as [E|E]; eexists; (split; [reflexivity|]).
    + split; [intros _|reflexivity]. exists (skipn (length p) t). rewrite <- E at 1. symmetry. apply firstn_skipn.
    + split; [discriminate|]. intros (u & ->). exfalso. apply E. rewrite firstn_app, firstn_all, Nat.sub_diag. apply app_nil_r.
  - eexists. split; [reflexivity|]. split; [discriminate|]. intros (u & ->). rewrite !app_length in L. lia.
Qed.
Theorem stl_format_detection : forall bl c t, Forall blank bl -> ~ blank c ->
  exists b, is_stl_data_binary (bl ++ c :: t) = Ok b /\
    (b = false <-> has_prefix text_solid (c :: t) \/ has_prefix text_SOLID (c :: t)).
Proof.
  intros bl c t Hbl Hc. unfold is_stl_data_binary. rewrite first_non_blank_app by assumption.
  destruct (starts_with_spec bl (c :: t) solid_lower) as (b1 & E1 & S1).
  destruct (starts_with_spec bl (c :: t) solid_upper) as (b2 & E2 & S2).
  rewrite E1. cbn [bindO]. destruct b1.
  - eexists. split; [reflexivity|]. split; [intros _; left; apply S1; reflexivity|reflexivity].
  - rewrite E2. cbn [bindO]. eexists. split; [reflexivity|]. destruct b2; cbn [negb].
    + split; [intros _; right; apply S2; reflexivity|reflexivity].
    + split; [discriminate|]. intros [H|H]; [apply S1 in H|apply S2 in H]; discriminate.
Qed.
Print Assumptions stl_format_detection.
Example stl_format_detection_witness : (* "\t solid x" is ASCII, "Solid x" is taken as binary *)
  is_stl_data_binary [9; 32; 115; 111; 108; 105; 100; 32; 120] = Ok false /\
  is_stl_data_binary [83; 111; 108; 105; 100; 32; 120] = Ok true.
Proof. split; vm_compute; reflexivity. Qed.

(** A text made only of (at least six) spaces and tabs makes the detection throw [std::out_of_range]. *)
Theorem stl_format_detection_blank_throws : forall l, Forall blank l -> (6 <= length l)%nat -> is_stl_data_binary l = Throw.
Proof.
  intros l H L. assert (first_non_blank l = None) as E.
  { clear L. induction H as [|b l Hb Hl IH]; [reflexivity|]. cbn [first_non_blank].
    destruct Hb as [-> | ->]; cbn [Z.eqb Pos.eqb orb]; rewrite IH; reflexivity. }
  unfold is_stl_data_binary, starts_with. rewrite E.
  destruct (Nat.leb_spec (length solid_lower) (length l)) as [_|B]; [reflexivity|]. simpl in B. lia.
Qed.
Print Assumptions stl_format_detection_blank_throws.
Example stl_blank_witness : Forall blank (repeat 32 7) /\ is_stl_data_binary (repeat 32 7) = Throw.
Proof. split; [repeat constructor|reflexivity]. Qed.
