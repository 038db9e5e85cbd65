From Coq Require Import ZArith List Bool Lia.
From Verif Require Import Common Stl_Model.
Import ListNotations.
Open Scope Z_scope.

(** * Independent reading of the STL file format: little-endian words at fixed offsets. *)
Definition byte_at (l : list Z) (i : nat) : Z := nth i l 0.
Definition word_at (l : list Z) (i : nat) : Z :=
  byte_at l i + 256 * byte_at l (i + 1) + 65536 * byte_at l (i + 2) + 16777216 * byte_at l (i + 3).
Definition vertex_at (l : list Z) (i : nat) : Z * Z * Z := (word_at l i, word_at l (i + 4), word_at l (i + 8)).
(** facet number i: the normal (12 bytes) is skipped, then three vertices *)
Definition facet_at (l : list Z) (i : nat) : list (Z * Z * Z) :=
  [vertex_at l (84 + 50 * i + 12); vertex_at l (84 + 50 * i + 24); vertex_at l (84 + 50 * i + 36)].
Definition declared_facets (l : list Z) : Z := word_at l 80.

Lemma s_get_n_all : forall n l, (n <= length l)%nat ->
  s_get_n n (l, true) = (map Some (firstn n l), (skipn n l, true)).
Proof.
  induction n; intros l H; [reflexivity|].
  destruct l as [|c t]; simpl in H; [lia|]. simpl. rewrite IHn by lia. reflexivity.
Qed.

Lemma split_len : forall (n : nat) (l : list Z), (n <= length l)%nat -> exists a b, l = a ++ b /\ length a = n.
Proof. intros n l H. exists (firstn n l), (skipn n l). split; [symmetry; apply firstn_skipn| apply firstn_length_le; auto]. Qed.

Lemma byte_at_skipn : forall k l i, byte_at (skipn k l) i = byte_at l (k + i).
Proof. unfold byte_at. induction k; intros l i; [reflexivity|]. destruct l; simpl; [destruct i; reflexivity|]. apply IHk. Qed.

Ltac list_of_len l H :=
  repeat (let x := fresh "b" in destruct l as [|x l]; simpl in H; [discriminate H|]; apply Nat.succ_inj in H);
  apply length_zero_iff_nil in H; subst l.

Definition facet_in (l : list Z) : facet_words := [vertex_at l 0; vertex_at l 12; vertex_at l 24].

Lemma words_of_36 : forall l, length l = 36%nat ->
  bindO (words_of (map Some l)) facet_of = Ok (facet_in l).
Proof.
  intros l H.
  do 36 (let x := fresh "b" in destruct l as [|x l]; [discriminate H|]; simpl in H; apply Nat.succ_inj in H).
  apply length_zero_iff_nil in H. subst l. reflexivity.
Qed.

Lemma facet_in_firstn : forall l, facet_in (firstn 36 (skipn 12 l)) = [vertex_at l 12; vertex_at l 24; vertex_at l 36].
Proof.
  intros l. unfold facet_in, vertex_at, word_at.
  assert (forall i, (i < 36)%nat -> byte_at (firstn 36 (skipn 12 l)) i = byte_at l (12 + i)) as E.
  { intros i Hi. rewrite <- byte_at_skipn. unfold byte_at. generalize (skipn 12 l). intros m.
    revert i Hi m. generalize 36%nat. induction n; intros i Hi m; [lia|].
    destruct m; [rewrite firstn_nil; reflexivity|]. destruct i; [reflexivity|]. simpl. apply IHn. lia. }
  simpl Nat.add. rewrite !E by lia. reflexivity.
Qed.

(** one iteration on a stream with at least 48 bytes *)
Lemma read_facets_step : forall peeks n l v, (48 <= length l)%nat ->
  exists v', words_of v' <> UB /\
  read_facets peeks (S n) (l, true) v =
    bindO (read_facets peeks n (s_ignore peeks 2 (skipn 48 l, true)) v')
          (fun fs => Ok ([vertex_at l 12; vertex_at l 24; vertex_at l 36] :: fs)) /\
  bindO (words_of v') facet_of = Ok [vertex_at l 12; vertex_at l 24; vertex_at l 36].
Proof.
  intros peeks n l v H.
  exists (map Some (firstn 36 (skipn 12 l))).
  assert (length (firstn 36 (skipn 12 l)) = 36%nat) as L36 by (rewrite firstn_length_le; auto; rewrite skipn_length; lia).
  pose proof (words_of_36 _ L36) as W. rewrite facet_in_firstn in W.
  split.
  { intros E. rewrite E in W. discriminate. }
  split; [|exact W].
  cbn [read_facets]. cbn [snd]. unfold s_ignore at 1.
  destruct (Nat.ltb_spec (length l) 12); [lia|].
  destruct (Nat.eqb_spec (length l) 12); [lia|]. rewrite andb_false_r. cbn [negb].
  rewrite s_get_n_all by (rewrite skipn_length; lia).
  assert (skipn 36 (skipn 12 l) = skipn 48 l) as ->.
  { clear. do 12 (destruct l; [reflexivity|]; cbn [skipn]). reflexivity. }
  destruct (words_of (map Some (firstn 36 (skipn 12 l)))) eqn:EW; simpl in W; try discriminate.
  cbn [bindO]. rewrite W. cbn [bindO]. reflexivity.
Qed.

Lemma vertex_at_skipn : forall k l i, vertex_at (skipn k l) i = vertex_at l (k + i).
Proof. intros. unfold vertex_at, word_at. rewrite !byte_at_skipn, !Nat.add_assoc. reflexivity. Qed.

Definition facets_from (l : list Z) (n : nat) : list facet_words :=
  map (fun i => [vertex_at l (50 * i + 12); vertex_at l (50 * i + 24); vertex_at l (50 * i + 36)]) (seq 0 n).

Lemma facets_from_S : forall l n,
  facets_from l (S n) = [vertex_at l 12; vertex_at l 24; vertex_at l 36] :: facets_from (skipn 50 l) n.
Proof.
  intros. unfold facets_from. simpl seq. cbn [map]. f_equal.
  rewrite <- seq_shift, map_map. apply map_ext. intros i. rewrite !vertex_at_skipn.
  replace (50 + (50 * i + 12))%nat with (50 * S i + 12)%nat by lia.
  replace (50 + (50 * i + 24))%nat with (50 * S i + 24)%nat by lia.
  replace (50 + (50 * i + 36))%nat with (50 * S i + 36)%nat by lia. reflexivity.
Qed.

Lemma skipn_2_48 : forall (l : list Z), skipn 2 (skipn 48 l) = skipn 50 l.
Proof. intros l. do 48 (destruct l; [reflexivity|]; cbn [skipn]). reflexivity. Qed.

(** after q complete facets the loop continues where it should *)
Lemma read_facets_complete : forall peeks q n l v, (50 * q < length l)%nat \/ (n = 0 /\ 50 * q <= length l)%nat ->
  exists v', read_facets peeks (q + n) (l, true) v =
    bindO (read_facets peeks n (skipn (50 * q) l, true) v') (fun fs => Ok (facets_from l q ++ fs)).
Proof.
  induction q; intros n l v H.
  - exists v. simpl Nat.mul. simpl skipn. simpl Nat.add. destruct (read_facets peeks n (l, true) v); reflexivity.
  - destruct (read_facets_step peeks (q + n) l v) as (v1 & _ & E & _); [lia|].
    simpl Nat.add. rewrite E. clear E.
    unfold s_ignore. destruct (Nat.ltb_spec (length (skipn 48 l)) 2) as [B|B]; [rewrite skipn_length in B; lia|].
    rewrite skipn_2_48.
    destruct (Nat.eqb_spec (length (skipn 48 l)) 2) as [B2|B2]; rewrite skipn_length in B2.
    + assert (q = 0 /\ n = 0)%nat as [-> ->] by lia.
      exists v1. simpl. destruct (peeks && true); reflexivity.
    + rewrite andb_false_r. cbn [negb].
      destruct (IHq n (skipn 50 l) v1) as (v' & E); [rewrite skipn_length; lia|].
      exists v'. rewrite E. rewrite facets_from_S.
      assert (skipn (50 * q) (skipn 50 l) = skipn (50 * S q) l) as ->.
      { replace (50 * S q)%nat with (50 + 50 * q)%nat by lia. clear.
        generalize (50 * q)%nat as m. intros m. generalize 50%nat as k. intros k. revert l. induction k; intros l; [reflexivity|].
        destruct l; [rewrite skipn_nil; reflexivity|]. simpl. apply IHk. }
      destruct (read_facets peeks n (skipn (50 * S q) l, true) v'); reflexivity.
Qed.

Lemma read_facets_not_good : forall peeks n l v f,
  bindO (words_of v) facet_of = Ok f -> read_facets peeks n (l, false) v = Ok (repeat f n).
Proof.
  intros peeks n l v f H. induction n; [reflexivity|]. cbn [read_facets snd].
  destruct (words_of v) eqn:EW; simpl in H; try discriminate. cbn [bindO]. rewrite H. cbn [bindO].
  rewrite IHn. reflexivity.
Qed.

Lemma words_of_None : forall v, In None v -> words_of v = UB.
Proof.
  assert (forall n v, (length v <= n)%nat -> In None v -> words_of v = UB) as G.
  { induction n; intros v Hl Hi; [destruct v; [destruct Hi|simpl in Hl; lia]|].
    destruct v as [|[a|] v]; [destruct Hi| |reflexivity].
    destruct v as [|[b|] v]; [reflexivity| |reflexivity].
    destruct v as [|[c|] v]; [reflexivity| |reflexivity].
    destruct v as [|[d|] v]; [reflexivity| |reflexivity].
    simpl in *. rewrite IHn; [reflexivity|lia|].
    destruct Hi as [E|[E|[E|[E|E]]]]; try discriminate; auto. }
  intros v. apply (G (length v)). lia.
Qed.

Lemma s_get_n_bad : forall n l, (0 < n)%nat -> In None (fst (s_get_n n (l, false))).
Proof. destruct n; intros l H; [lia|]. simpl. destruct (s_get_n n (l, false)). simpl. auto. Qed.

Lemma s_get_n_short : forall n l, (length l < n)%nat -> In None (fst (s_get_n n (l, true))).
Proof.
  induction n; intros l H; [lia|]. destruct l as [|c t]; simpl.
  - destruct (s_get_n n ([], false)). simpl. auto.
  - simpl in H. specialize (IHn t). destruct (s_get_n n (t, true)). simpl in *. right. apply IHn. lia.
Qed.

Lemma read_facets_short : forall peeks n l v, (length l < 48)%nat -> (0 < n)%nat ->
  read_facets peeks n (l, true) v = UB.
Proof.
  intros peeks n l v H Hn. destruct n; [lia|]. cbn [read_facets snd].
  assert (In None (fst (s_get_n 36 (s_ignore peeks 12 (l, true))))) as I.
  { unfold s_ignore. destruct (Nat.ltb_spec (length l) 12); [apply s_get_n_bad; lia|].
    destruct (peeks && (length l =? 12)%nat); cbn [negb]; [apply s_get_n_bad; lia|].
    apply s_get_n_short. rewrite skipn_length. lia. }
  destruct (s_get_n 36 (s_ignore peeks 12 (l, true))) as [v1 s2]. cbn [fst] in I.
  rewrite words_of_None by exact I. reflexivity.
Qed.

Lemma read_facets_no_throw : forall peeks n s v, read_facets peeks n s v <> Throw.
Proof.
  assert (forall v, words_of v <> Throw) as W.
  { assert (forall n v, (length v <= n)%nat -> words_of v <> Throw) as G.
    { induction n; intros v Hl; [destruct v; [discriminate|simpl in Hl; lia]|].
      destruct v as [|[a|] v]; [discriminate| |discriminate].
      destruct v as [|[b|] v]; [discriminate| |discriminate].
      destruct v as [|[c|] v]; [discriminate| |discriminate].
      destruct v as [|[d|] v]; [discriminate| |discriminate].
      simpl in *. specialize (IHn v). destruct (words_of v); simpl; try discriminate. exfalso. apply IHn; [lia|reflexivity]. }
    intros v. apply (G (length v)). lia. }
  induction n; intros s v; [discriminate|]. cbn [read_facets].
  match goal with |- (let '(_, _) := ?X in _) <> _ => destruct X as [v' s'] end.
  specialize (W v'). destruct (words_of v') as [ws| |] eqn:E; cbn [bindO]; try discriminate; [|exfalso; auto].
  assert (facet_of ws <> Throw) as F.
  { unfold facet_of. do 10 (destruct ws as [|? ws]; try discriminate). }
  destruct (facet_of ws); cbn [bindO]; try discriminate; [|exfalso; auto].
  specialize (IHn s' v'). destruct (read_facets peeks n s' v'); cbn [bindO]; try discriminate. exfalso; auto.
Qed.

Lemma read_facets_length : forall peeks n s v fs, read_facets peeks n s v = Ok fs -> length fs = n.
Proof.
  induction n; intros s v fs H; [injection H as <-; reflexivity|]. cbn [read_facets] in H.
  match type of H with (let '(_, _) := ?X in _) = _ => destruct X as [v' s'] end.
  destruct (words_of v'); cbn [bindO] in H; try discriminate.
  destruct (facet_of _); cbn [bindO] in H; try discriminate.
  destruct (read_facets peeks n s' v') eqn:E; cbn [bindO] in H; try discriminate.
  injection H as <-. simpl. f_equal. eapply IHn. exact E.
Qed.

(** the header *)
Lemma read_binary_header : forall peeks l, (84 <= length l)%nat ->
  read_binary_stl peeks l = read_facets peeks (Z.to_nat (declared_facets l)) (skipn 84 l, true) (repeat None 36).
Proof.
  intros peeks l H. unfold read_binary_stl, s_ignore.
  destruct (Nat.ltb_spec (length l) 80); [lia|]. destruct (Nat.eqb_spec (length l) 80); [lia|].
  rewrite andb_false_r. cbn [negb]. unfold s_read4. rewrite skipn_length.
  destruct (Nat.leb_spec 4 (length l - 80)); [|lia].
  assert (skipn 4 (skipn 80 l) = skipn 84 l) as ->.
  { clear. do 80 (destruct l; [reflexivity|]; cbn [skipn]). reflexivity. }
  unfold declared_facets, word_at.
  assert (forall i, byte_at l (80 + i) = byte_at (skipn 80 l) i) as E by (intros; rewrite byte_at_skipn; reflexivity).
  replace (byte_at l 80) with (byte_at l (80 + 0)) by reflexivity. rewrite !E.
  assert (4 <= length (skipn 80 l))%nat as L by (rewrite skipn_length; lia).
  destruct (skipn 80 l) as [|a [|b [|c [|d t]]]]; simpl in L; try lia. reflexivity.
Qed.

Lemma facets_from_facet_at : forall l n, facets_from (skipn 84 l) n = map (facet_at l) (seq 0 n).
Proof.
  intros. unfold facets_from. apply map_ext. intros i. rewrite !vertex_at_skipn. unfold facet_at.
  rewrite <- !Nat.add_assoc. reflexivity.
Qed.

Lemma read_binary_complete : forall peeks l,
  84 + 50 * declared_facets l <= Z.of_nat (length l) ->
  (84 <= length l)%nat ->
  read_binary_stl peeks l = Ok (map (facet_at l) (seq 0 (Z.to_nat (declared_facets l)))).
Proof.
  intros peeks l H H84. rewrite read_binary_header by exact H84.
  set (n := Z.to_nat (declared_facets l)).
  destruct (read_facets_complete peeks n 0 (skipn 84 l) (repeat None 36)) as (v' & E).
  { right. rewrite skipn_length. lia. }
  rewrite Nat.add_0_r in E. rewrite E. cbn [bindO read_facets]. rewrite app_nil_r, facets_from_facet_at. reflexivity.
Qed.

(** * The writer *)
Section W.
Variable D : Type.
Variable narrow : D -> Z.
Variable normal_words : list (D * D * D) -> Z * Z * Z.
Hypothesis narrow_word : forall x, 0 <= narrow x < 4294967296.
Notation write_face := (write_face D narrow normal_words).
Notation write_faces := (write_faces D narrow normal_words).
Notation write_binary_stl := (write_binary_stl D narrow normal_words).

Definition narrow3 (p : D * D * D) : Z * Z * Z := let '(x, y, z) := p in (narrow x, narrow y, narrow z).
Definition narrow_facet (f : list (D * D * D)) : facet_words := map narrow3 (firstn 3 f).

Lemma le_word4_bytes : forall w, 0 <= w < 4294967296 ->
  w mod 256 + 256 * ((w / 256) mod 256) + 65536 * ((w / 65536) mod 256) + 16777216 * ((w / 16777216) mod 256) = w.
Proof. intros w H. Z.to_euclidean_division_equations. lia. Qed.

Lemma write_face_ok : forall f, (3 <= length f)%nat -> exists bs, write_face f = Ok bs /\ length bs = 50%nat /\
  forall t, [vertex_at (bs ++ t) 12; vertex_at (bs ++ t) 24; vertex_at (bs ++ t) 36] = narrow_facet f.
Proof.
  intros f H. destruct f as [|[[x0 y0] z0] [|[[x1 y1] z1] [|[[x2 y2] z2] f]]]; simpl in H; try lia.
  unfold Stl_Model.write_face. cbn [at_ub nth_error bindO].
  destruct (normal_words _) as [[n0 n1] n2].
  eexists. split; [reflexivity|]. split; [reflexivity|]. intros t.
  unfold narrow_facet, narrow3, vertex_at, word_at, byte_at. cbn -[Z.modulo Z.div Z.mul Z.add].
  rewrite !le_word4_bytes by apply narrow_word. reflexivity.
Qed.

Lemma write_faces_ok : forall fs, Forall (fun f => (3 <= length f)%nat) fs ->
  exists bs, write_faces fs = Ok bs /\ length bs = (50 * length fs)%nat /\
    facets_from bs (length fs) = map narrow_facet fs.
Proof.
  induction 1 as [|f fs Hf Hfs IH].
  - exists []. repeat split.
  - destruct IH as (bs & E & L & F). destruct (write_face_ok f Hf) as (b & Eb & Lb & Fb).
    exists (b ++ bs). simpl write_faces. rewrite Eb, E. split; [reflexivity|].
    split; [rewrite app_length, Lb, L; simpl; lia|].
    simpl length. rewrite facets_from_S, Fb.
    assert (skipn 50 (b ++ bs) = bs) as ->.
    { rewrite skipn_app, Lb. rewrite skipn_all2 by lia. reflexivity. }
    rewrite F. reflexivity.
Qed.

Lemma write_face_short : forall f, (length f < 3)%nat -> write_face f = UB.
Proof. intros f H. destruct f as [|[[x0 y0] z0] [|[[x1 y1] z1] [|[[x2 y2] z2] f]]]; simpl in H; try lia; reflexivity. Qed.

Definition file_of (stl : list (list (D * D * D))) bs :=
  write_binary_stl stl = Ok bs /\ length bs = (84 + 50 * length stl)%nat /\
  declared_facets bs = Z.of_nat (length stl) /\ (forall i, (i < 80)%nat -> byte_at bs i = 1) /\
  map (facet_at bs) (seq 0 (length stl)) = map narrow_facet stl.

Lemma write_ok : forall stl, Forall (fun f => (3 <= length f)%nat) stl -> Z.of_nat (length stl) < 4294967296 ->
  exists bs, file_of stl bs.
Proof.
  intros stl H B. unfold file_of. unfold Stl_Model.write_binary_stl. rewrite Z.mod_small by lia. rewrite Nat2Z.id, firstn_all.
  destruct (write_faces_ok stl H) as (fs & E & L & F). rewrite E. cbn [bindO].
  eexists. split; [reflexivity|]. split; [|split; [|split]].
  - rewrite !app_length, repeat_length, L. simpl length. lia.
  - unfold declared_facets, word_at, byte_at. simpl repeat. cbn -[Z.modulo Z.div Z.mul Z.add Z.of_nat].
    apply le_word4_bytes. lia.
  - intros i Hi. unfold byte_at. rewrite app_nth1 by (rewrite repeat_length; lia). rewrite (nth_indep _ 0 1) by (rewrite repeat_length; lia). apply nth_repeat.
  - rewrite <- facets_from_facet_at. simpl repeat. cbn [app skipn]. exact F.
Qed.
End W.

Lemma not_ascii : forall l, (84 <= length l)%nat -> (forall i, (i < 80)%nat -> byte_at l i = 1) ->
  is_stl_data_binary l = Ok true.
Proof.
  intros l H H1. pose proof (H1 0%nat ltac:(lia)) as A.
  destruct l as [|c t]; [simpl in H; lia|]. unfold byte_at in A. simpl in A. subst c.
  unfold is_stl_data_binary, starts_with.
  destruct (Nat.leb_spec (length solid_lower) (length (1 :: t))) as [_|B]; [|exfalso; simpl in B, H; lia].
  destruct (Nat.leb_spec (length solid_upper) (length (1 :: t))) as [_|B]; [|exfalso; simpl in B, H; lia].
  simpl first_non_blank. cbn [bindO skipn].
  destruct (list_eq_dec _ _ _) as [E|_]; [discriminate E|]. cbn [bindO].
  destruct (list_eq_dec _ _ _) as [E|_]; [discriminate E|]. reflexivity.
Qed.
