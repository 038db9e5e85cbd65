(** The HDF5 observer over a whole simulation. *)
From Coq Require Import ZArith List Bool Lia String Ascii.
From Verif Require Import Common Observer_Model Observer_Spec Observer_Proofs Hdf5_Model Hdf5_Spec Hdf5_Proofs Hdf5_File_Proofs.
Import ListNotations.
Open Scope string_scope.

Section Grown.
Context {D : Type} (zero : D).
Notation file := (@file D).

(** New links only: datasets at the paths [ts], and groups above them *)
Definition grown (ts : list path) (f f' : file) : Prop :=
  (forall q n, lookup q f = Some n -> lookup q f' = Some n) /\
  (forall q n, lookup q f = None -> lookup q f' = Some n -> (In q ts \/ n = Group) /\ exists t, In t ts /\ prefix q t).
Lemma grown_refl f : grown [] f f.
Proof. split; [auto|]. intros q n A B. congruence. Qed.
Lemma grown_trans ts ts' f f1 f2 : grown ts f f1 -> grown ts' f1 f2 -> grown (ts ++ ts') f f2.
Proof.
  intros (A1 & A2) (B1 & B2). split; [auto|]. intros q n N S. destruct (lookup q f1) as [n1|] eqn:E.
  - assert (n1 = n) as -> by (apply B1 in E; congruence). destruct (A2 q n N E) as ([H|H] & t & T & P); (split; [|exists t; split; [apply in_or_app; auto|exact P]]);
    [left; apply in_or_app; auto|right; exact H].
  - destruct (B2 q n E S) as ([H|H] & t & T & P); (split; [|exists t; split; [apply in_or_app; auto|exact P]]); [left; apply in_or_app; auto|right; exact H].
Qed.
Lemma grown_incl ts ts' f f' : incl ts ts' -> grown ts f f' -> grown ts' f f'.
Proof.
  intros I (A & B). split; [exact A|]. intros q n N S. destruct (B q n N S) as ([H|H] & t & T & P); (split; [|exists t; split; [apply I; exact T|exact P]]); auto.
Qed.
Lemma free_grown p ts f f' : free p f -> (forall t, In t ts -> apart p t) -> grown ts f f' -> free p f'.
Proof.
  intros (N & F) A (G1 & G2). split.
  - destruct (lookup p f') as [n|] eqn:E; [|reflexivity]. destruct (G2 p n N E) as (_ & t & T & P). destruct (A t T). contradiction.
  - intros q r E Q. destruct (lookup q f') as [[|d m c]|] eqn:L; auto. exfalso. destruct (lookup q f) as [n|] eqn:L0.
    + pose proof (G1 q n L0). destruct (F q r E Q); congruence.
    + destruct (G2 q _ L0 L) as ([H|H] & _); [|discriminate]. destruct (A q H) as (_ & B). apply B. exists r. exact E.
Qed.
Lemma between_prefix q p : between [] q p -> prefix q p.
Proof. intros (a & b & _ & _ & _ & ->). exists b. reflexivity. Qed.
Lemma made_grown p n f f' : free p f -> made p n f f' -> grown [p] f f'.
Proof.
  intros F (A & B & C). split.
  - intros q m L. destruct (list_eq_dec string_dec q p) as [->|N]; [destruct F; congruence|].
    destruct (between_dec [] q p) as [Bq|Nq]; [|rewrite C; assumption].
    destruct (free_between p f F q Bq); rewrite B by exact Bq; congruence.
  - intros q m N L. destruct (list_eq_dec string_dec q p) as [->|Nq].
    { split; [left; left; reflexivity|]. exists p. split; [left; reflexivity|]. exists []. rewrite app_nil_r. reflexivity. }
    destruct (between_dec [] q p) as [Bq|NB]; [|rewrite C in L by assumption; congruence].
    split; [right; rewrite B in L by exact Bq; congruence|]. exists p. split; [left; reflexivity|apply between_prefix, Bq].
Qed.
Lemma added_grown p n f f' : lookup p f = None -> added p n f f' -> grown [p] f f'.
Proof.
  intros N A. split.
  - intros q m L. rewrite A. destruct (path_eqb_spec q p); congruence.
  - intros q m L L'. rewrite A in L'. destruct (path_eqb_spec q p) as [->|]; [|congruence].
    split; [left; left; reflexivity|]. exists p. split; [left; reflexivity|]. exists []. rewrite app_nil_r. reflexivity.
Qed.
Lemma updated_grown ts p n f0 f f' : lookup p f0 = None -> In p ts -> grown ts f0 f -> updated p n f f' -> grown ts f0 f'.
Proof.
  intros N I (A & B) U. split.
  - intros q m L. rewrite U. destruct (path_eqb_spec q p); [congruence|auto].
  - intros q m L L'. rewrite U in L'. destruct (path_eqb_spec q p) as [->|]; [|eauto].
    split; [left; exact I|]. exists p. split; [exact I|]. exists []. rewrite app_nil_r. reflexivity.
Qed.
Lemma apart_neq p q : apart p q -> p <> q.
Proof. intros (A & _) ->. apply A. exists []. rewrite app_nil_r. reflexivity. Qed.

(** ** Grids *)
Definition waves_at : path := ["outputs"; "waves"].
Definition wave_paths : list path := [(waves_at ++ ["t"])%list; (waves_at ++ ["x"])%list; (waves_at ++ ["y"])%list; (waves_at ++ ["z"])%list].
Definition wave_arrays (nx ny : nat) (gs : list hgrid) (f : file) : Prop :=
  let n := Nat.max 1 (List.length gs) in
  exists ct cx cy cz,
    lookup (waves_at ++ ["t"]) f = Some (Data [n] [None] ct) /\ lookup (waves_at ++ ["x"]) f = Some (Data [n; nx] [None; Some nx] cx) /\
    lookup (waves_at ++ ["y"]) f = Some (Data [n; ny] [None; Some ny] cy) /\ lookup (waves_at ++ ["z"]) f = Some (Data [nx; ny; n] [Some nx; Some ny; None] cz) /\
    forall k g, nth_error gs k = Some g -> ct [k] = EDouble (hg_t g) /\ (forall i d, nth_error (hg_x g) i = Some d -> cx [k; i] = EDouble d) /\
      (forall i d, nth_error (hg_y g) i = Some d -> cy [k; i] = EDouble d) /\
      (forall i r j d, nth_error (hg_z g) i = Some r -> nth_error r j = Some d -> cz [i; j; k] = EDouble d).
Definition wave_state (nx ny : nat) (gs : list (@hgrid D)) (w : wave_writer) : Prop := w = mkWW (Some waves_at) nx ny (nx * ny) (List.length gs).
Lemma wave_arrays_ext nx ny gs f f' : (forall p, In p wave_paths -> lookup p f' = lookup p f) -> wave_arrays nx ny gs f -> wave_arrays nx ny gs f'.
Proof.
  intros H (ct & cx & cy & cz & A & B & C & E & V). exists ct, cx, cy, cz.
  rewrite !H by (unfold wave_paths; cbn [In]; auto). auto.
Qed.

Lemma nth_error_concat {A} (z : list (list A)) ny i r j : Forall (fun r => List.length r = ny) z -> nth_error z i = Some r -> (j < ny)%nat ->
  nth_error (List.concat z) (i * ny + j) = nth_error r j.
Proof.
  intros F. revert i. induction F as [|a z La F IH]; intros i H J; [destruct i; discriminate|].
  cbn [List.concat]. destruct i as [|i]; [injection H as ->; rewrite nth_error_app1 by lia; reflexivity|].
  rewrite nth_error_app2 by (cbn; lia). replace (S i * ny + j - List.length a)%nat with (i * ny + j)%nat by (cbn; lia). apply IH; assumption.
Qed.
Lemma length_concat {A} (z : list (list A)) ny : Forall (fun r => List.length r = ny) z -> List.length (List.concat z) = (List.length z * ny)%nat.
Proof. induction 1 as [|a z La F IH]; [reflexivity|]. cbn [List.concat List.length]. rewrite app_length, IH. lia. Qed.
Lemma nth_doubles (l : list D) i d : nth_error l i = Some d -> nth i (map EDouble l) (EDouble zero) = EDouble d.
Proof. intros H. apply nth_error_nth. rewrite nth_error_map, H. reflexivity. Qed.

Lemma append_grid nx ny gs g w (f : file) : (0 < nx)%nat -> (0 < ny)%nat -> has_size nx ny g -> Forall (has_size nx ny) gs ->
  wave_state nx ny gs w -> wave_arrays nx ny gs f ->
  exists f' w', write_grid zero g f w = Ok (f', w') /\ wave_state nx ny (gs ++ [g]) w' /\ wave_arrays nx ny (gs ++ [g]) f' /\
    (forall q, ~ In q wave_paths -> lookup q f' = lookup q f) /\
    (forall q, In q wave_paths -> exists d m c, lookup q f' = Some (Data d m c)).
Proof.
  intros X Y (Sx & Sy & Sz & Sr) HS -> (ct & cx & cy & cz & A & B & C & E & V).
  set (n := List.length gs) in *.
  assert (R : rows g = nx) by exact Sz.
  assert (K : cols g = ny). { unfold cols. destruct (hg_z g) as [|r z]; [cbn in Sz; lia|]. inversion Sr; assumption. }
  unfold write_grid. cbn [w_path w_n w_nx w_ny w_nz].
  assert (W : (if (n =? 0)%nat then mkWW (Some waves_at) (List.length (hg_x g)) (List.length (hg_y g)) (rows g * cols g) n else mkWW (Some waves_at) nx ny (nx * ny) n)
          = mkWW (Some waves_at) nx ny (nx * ny) n) by (destruct (n =? 0)%nat; [rewrite R, K, Sx, Sy; reflexivity|reflexivity]).
  rewrite W. clear W. cbn [w_nx w_ny w_nz w_path]. rewrite R, K, Sx, Sy.
  assert (Z1 : size [1%nat] = 1%nat) by reflexivity. assert (Zx : forall a, size [1%nat; a] = a) by (intros; unfold size; cbn; lia).
  assert (Zz : size [nx; ny; 1%nat] = (nx * ny)%nat) by (unfold size; cbn [fold_left]; lia).
  rewrite Z1, !Zx, Zz, !Nat.eqb_refl.
  (* t *)
  destruct (extend_write zero (waves_at ++ ["t"]) [n + 1]%nat [n] [1%nat] (map EDouble [hg_t g]) _ _ _ f A) as (f1 & f2 & E1 & E2 & U1); try reflexivity.
  { cbn [inside]. rewrite Nat.leb_refl. reflexivity. }
  rewrite E1. cbn [bindO]. rewrite E2. cbn [bindO].
  (* x *)
  destruct (extend_write zero (waves_at ++ ["x"]) [n + 1; nx]%nat [n; 0%nat] [1%nat; nx] (map EDouble (hg_x g)) [Nat.max 1 n; nx] [None; Some nx] cx f2) as (f3 & f4 & E3 & E4 & U2).
  { rewrite U1. cbn. exact B. } { cbn. rewrite Nat.leb_refl. reflexivity. } { cbn [inside]. rewrite Nat.leb_refl. cbn. rewrite Nat.leb_refl. reflexivity. }
  { rewrite Zx, map_length. congruence. }
  rewrite E3. cbn [bindO]. rewrite E4. cbn [bindO].
  (* y *)
  destruct (extend_write zero (waves_at ++ ["y"]) [n + 1; ny]%nat [n; 0%nat] [1%nat; ny] (map EDouble (hg_y g)) [Nat.max 1 n; ny] [None; Some ny] cy f4) as (f5 & f6 & E5 & E6 & U3).
  { rewrite U2. cbn. rewrite U1. cbn. exact C. } { cbn. rewrite Nat.leb_refl. reflexivity. } { cbn [inside]. rewrite Nat.leb_refl. cbn. rewrite Nat.leb_refl. reflexivity. }
  { rewrite Zx, map_length. congruence. }
  rewrite E5. cbn [bindO]. rewrite E6. cbn [bindO].
  (* z *)
  destruct (extend_write zero (waves_at ++ ["z"]) [nx; ny; n + 1]%nat [0%nat; 0%nat; n] [nx; ny; 1%nat] (map EDouble (List.concat (hg_z g))) [nx; ny; Nat.max 1 n] [Some nx; Some ny; None] cz f6) as (f7 & f8 & E7 & E8 & U4).
  { rewrite U3. cbn. rewrite U2. cbn. rewrite U1. cbn. exact E. } { cbn. rewrite !Nat.leb_refl. reflexivity. }
  { cbn [inside]. cbn [Nat.add]. rewrite !Nat.leb_refl. reflexivity. }
  { rewrite Zz, map_length, (length_concat _ ny Sr). congruence. }
  rewrite E7. cbn [bindO]. rewrite E8. cbn [bindO].
  exists f8. eexists. split; [reflexivity|].
  assert (LN : List.length (gs ++ [g]) = (n + 1)%nat) by (rewrite app_length; reflexivity).
  assert (MX : Nat.max 1 (List.length (gs ++ [g])) = (n + 1)%nat) by (rewrite LN; lia).
  split; [unfold wave_state; rewrite LN; reflexivity|]. split.
  - unfold wave_arrays. rewrite MX.
    eexists _, _, _, _.
    split; [rewrite U4; cbn; rewrite U3; cbn; rewrite U2; cbn; rewrite U1; reflexivity|].
    split; [rewrite U4; cbn; rewrite U3; cbn; rewrite U2; reflexivity|].
    split; [rewrite U4; cbn; rewrite U3; reflexivity|].
    split; [rewrite U4; reflexivity|].
    intros k h H.
    destruct (Nat.ltb_spec k n) as [Hk|Hk].
    + rewrite nth_error_app1 in H by exact Hk. destruct (V k h H) as (V1 & V2 & V3 & V4).
      assert (has_size nx ny h) as (Hx & Hy & Hz & Hr). { rewrite Forall_forall in HS. apply HS. exact (nth_error_In _ _ H). }
      assert (NK : (n <=? k)%nat = false) by (apply Nat.leb_gt; exact Hk).
      assert (KM : (k <? Nat.max 1 n)%nat = true) by (apply Nat.ltb_lt; lia).
      cbn [selected within]. rewrite NK, KM. cbn [andb]. split; [exact V1|]. split; [|split].
      * intros i d Hi. assert (i < nx)%nat by (rewrite <- Hx; apply nth_error_Some; congruence).
        assert ((i <? nx)%nat = true) as -> by (apply Nat.ltb_lt; assumption). cbn [andb]. apply V2. exact Hi.
      * intros i d Hi. assert (i < ny)%nat by (rewrite <- Hy; apply nth_error_Some; congruence).
        assert ((i <? ny)%nat = true) as -> by (apply Nat.ltb_lt; assumption). cbn [andb]. apply V3. exact Hi.
      * intros i r j d Hi Hj. assert (i < nx)%nat by (rewrite <- Hz; apply nth_error_Some; congruence).
        assert (j < ny)%nat. { rewrite Forall_forall in Hr. rewrite <- (Hr r (nth_error_In _ _ Hi)). apply nth_error_Some. congruence. }
        assert ((i <? nx)%nat = true) as -> by (apply Nat.ltb_lt; assumption). assert ((j <? ny)%nat = true) as -> by (apply Nat.ltb_lt; assumption).
        rewrite !andb_false_r. cbn [andb]. eapply V4; eauto.
    + assert (k = n) as ->. { assert (k < List.length (gs ++ [g]))%nat by (apply nth_error_Some; congruence). lia. }
      rewrite nth_error_app2 in H by lia. fold n in H. rewrite Nat.sub_diag in H. injection H as <-.
      assert (N1 : (n <? n + 1)%nat = true) by (apply Nat.ltb_lt; lia).
      cbn [selected minus rank_of]. rewrite Nat.leb_refl, N1, Nat.sub_diag. cbn [andb Nat.leb Nat.add Nat.mul].
      split; [reflexivity|]. split; [|split].
      * intros i d Hi. assert (i < nx)%nat by (rewrite <- Sx; apply nth_error_Some; congruence).
        assert ((i <? nx)%nat = true) as -> by (apply Nat.ltb_lt; assumption). cbn [andb]. rewrite Nat.sub_0_r. apply nth_doubles. exact Hi.
      * intros i d Hi. assert (i < ny)%nat by (rewrite <- Sy; apply nth_error_Some; congruence).
        assert ((i <? ny)%nat = true) as -> by (apply Nat.ltb_lt; assumption). cbn [andb]. rewrite Nat.sub_0_r. apply nth_doubles. exact Hi.
      * intros i r j d Hi Hj. assert (i < nx)%nat by (rewrite <- Sz; apply nth_error_Some; congruence).
        assert (j < ny)%nat. { rewrite Forall_forall in Sr. rewrite <- (Sr r (nth_error_In _ _ Hi)). apply nth_error_Some. congruence. }
        assert ((i <? nx)%nat = true) as -> by (apply Nat.ltb_lt; assumption). assert ((j <? ny)%nat = true) as -> by (apply Nat.ltb_lt; assumption).
        cbn [andb]. rewrite !Nat.sub_0_r, Nat.mul_1_r, Nat.add_0_r. apply nth_doubles. rewrite (nth_error_concat _ ny i r j); assumption.
  - split.
    + intros q Hq. unfold wave_paths in Hq. cbn [In] in Hq. rewrite U4, U3, U2, U1.
      repeat match goal with |- context [path_eqb q ?p] => destruct (path_eqb_spec q p) as [Eq|]; [exfalso; apply Hq; rewrite Eq; cbn; auto 10|] end. reflexivity.
    + intros q Hq. rewrite U4, U3, U2, U1.
      repeat match goal with |- context [path_eqb q ?p] => destruct (path_eqb_spec q p) as [|]; [eauto|] end.
      exfalso. unfold wave_paths in Hq. cbn [In] in Hq. intuition congruence.
Qed.

Lemma new_writer nx ny (f : file) : (0 < nx)%nat -> (0 < ny)%nat -> tree f -> (forall p, In p wave_paths -> free p f) ->
  exists f' w, new_wave_writer zero f "outputs/waves" nx ny = Ok (f', w) /\ tree f' /\ wave_state nx ny [] w /\ wave_arrays nx ny [] f' /\ grown wave_paths f f'.
Proof.
  intros X Y T F. unfold new_wave_writer. destruct (Nat.eqb_spec (nx * ny) 0) as [N|_]; [nia|].
  change (starts_and_ends_with slash "outputs/waves") with "/outputs/waves/". cbv zeta.
  unfold create_missing_groups. change (split slash "/outputs/waves/") with (waves_at ++ [""])%list.
  rewrite (create_groups_last waves_at "" "" "t" f).
  assert (CP : forall v, clean v -> clean_path (waves_at ++ [v])).
  { intros v Cv. split; [discriminate|]. repeat constructor; try discriminate; apply Cv. }
  destruct (missing_groups (waves_at ++ ["t"]) f T) as (f0 & -> & T0 & G & L & H1 & H2).
  { apply CP. split; [discriminate|reflexivity]. } { apply F. left. reflexivity. }
  cbn [bindO]. change (path_of ("/outputs/waves/" ++ "t")) with (waves_at ++ ["t"])%list. change (path_of ("/outputs/waves/" ++ "x")) with (waves_at ++ ["x"])%list.
  change (path_of ("/outputs/waves/" ++ "y")) with (waves_at ++ ["y"])%list. change (path_of ("/outputs/waves/" ++ "z")) with (waves_at ++ ["z"])%list.
  change (path_of "/outputs/waves/") with waves_at. change (removelast (waves_at ++ ["t"])) with waves_at in G.
  assert (G0 : grown [waves_at ++ ["t"]]%list f f0).
  { assert (free (waves_at ++ ["t"]) f) as Ft by (apply F; left; reflexivity). split.
    - intros q n Lq. destruct (between_dec [] q (waves_at ++ ["t"])) as [B|B]; [|rewrite H2; assumption].
      destruct (free_between _ _ Ft q B); rewrite H1 by exact B; congruence.
    - intros q n Nq Lq. destruct (between_dec [] q (waves_at ++ ["t"])) as [B|B]; [|rewrite H2 in Lq by exact B; congruence].
      split; [right; rewrite H1 in Lq by exact B; congruence|]. eexists. split; [left; reflexivity|]. apply between_prefix, B. }
  assert (NB : forall v, v <> "t" -> lookup (waves_at ++ [v]) f = None -> lookup (waves_at ++ [v]) f0 = None).
  { intros v Nv Lv. rewrite H2; [exact Lv|]. intros (a & b & _ & B & Ea & E). cbn [app] in Ea. subst a. apply (f_equal (@List.length string)) in E.
    cbn in E. destruct b; [congruence|]. cbn in E. discriminate. }
  assert (NF : forall v, In (waves_at ++ [v])%list wave_paths -> v <> "t" -> lookup (waves_at ++ [v]) f0 = None).
  { intros v I Nv. apply NB; [exact Nv|]. apply F in I. apply I. }
  destruct (create_ok (waves_at ++ ["t"]) (Data [1%nat] [None] (fun _ => EDouble zero)) f0 ltac:(discriminate) L G) as (f1 & -> & A1). cbn [bindO].
  assert (GG : forall (fa fb : file) v n, is_group waves_at fa = true -> added (waves_at ++ [v]) n fa fb -> is_group waves_at fb = true).
  { intros fa fb v n Ga Ab. apply is_group_iff; [discriminate|]. rewrite Ab. destruct (path_eqb_spec waves_at (waves_at ++ [v])); [discriminate|]. apply is_group_iff; [discriminate|exact Ga]. }
  assert (T1 : tree f1) by (eapply added_tree; eauto; discriminate).
  assert (G1 : is_group waves_at f1 = true) by (eapply GG; eauto).
  assert (L1 : lookup (waves_at ++ ["x"]) f1 = None). { rewrite A1. cbn. apply NF; [unfold wave_paths; cbn [In]; auto|discriminate]. }
  destruct (create_ok (waves_at ++ ["x"]) (Data [1%nat; nx] [None; Some nx] (fun _ => EDouble zero)) f1 ltac:(discriminate) L1 G1) as (f2 & -> & A2). cbn [bindO].
  assert (T2 : tree f2) by (eapply added_tree; eauto; discriminate).
  assert (G2 : is_group waves_at f2 = true) by (eapply GG; eauto).
  assert (L2 : lookup (waves_at ++ ["y"]) f2 = None). { rewrite A2. cbn. rewrite A1. cbn. apply NF; [unfold wave_paths; cbn [In]; auto|discriminate]. }
  destruct (create_ok (waves_at ++ ["y"]) (Data [1%nat; ny] [None; Some ny] (fun _ => EDouble zero)) f2 ltac:(discriminate) L2 G2) as (f3 & -> & A3). cbn [bindO].
  assert (T3 : tree f3) by (eapply added_tree; eauto; discriminate).
  assert (G3 : is_group waves_at f3 = true) by (eapply GG; eauto).
  assert (L3 : lookup (waves_at ++ ["z"]) f3 = None). { rewrite A3. cbn. rewrite A2. cbn. rewrite A1. cbn. apply NF; [unfold wave_paths; cbn [In]; auto|discriminate]. }
  destruct (create_ok (waves_at ++ ["z"]) (Data [nx; ny; 1%nat] [Some nx; Some ny; None] (fun _ => EDouble zero)) f3 ltac:(discriminate) L3 G3) as (f4 & -> & A4). cbn [bindO].
  assert (T4 : tree f4) by (eapply added_tree; eauto; discriminate).
  exists f4. eexists. split; [reflexivity|]. split; [exact T4|]. split; [reflexivity|]. split.
  - unfold wave_arrays. eexists _, _, _, _.
    split; [rewrite A4; cbn; rewrite A3; cbn; rewrite A2; cbn; rewrite A1; reflexivity|].
    split; [rewrite A4; cbn; rewrite A3; cbn; rewrite A2; reflexivity|].
    split; [rewrite A4; cbn; rewrite A3; reflexivity|].
    split; [rewrite A4; reflexivity|]. intros [|k] g Hk; discriminate.
  - eapply grown_incl; [|eapply grown_trans; [eapply grown_trans; [eapply grown_trans; [eapply grown_trans; [exact G0|apply (added_grown _ _ _ _ L A1)]|apply (added_grown _ _ _ _ L1 A2)]|apply (added_grown _ _ _ _ L2 A3)]|apply (added_grown _ _ _ _ L3 A4)]].
    intros q Hq. cbn [app In] in Hq. unfold wave_paths. cbn [app In waves_at] in *. intuition.
Qed.
End Grown.
