(** Datasets: creation, extension, writing. *)
From Coq Require Import ZArith List Bool Lia String Ascii.
From Verif Require Import Common Observer_Model Observer_Spec Observer_Proofs Hdf5_Model Hdf5_Spec Hdf5_Proofs.
Import ListNotations.
Open Scope string_scope.

Section Files.
Context {D : Type} (zero : D).
Notation file := (@file D).
Notation create_data_set := (create_data_set zero).

Definition names (s : string) (p : path) : Prop := split slash s = p /\ path_of s = p.
Lemma names_text p : clean_path p -> names (text p) p.
Proof. intros C. split; [apply split_text, C|apply path_of_text, C]. Qed.

(** Only this link and its parents are new. *)
Definition made (p : path) (n : node) (f f' : file) : Prop :=
  lookup p f' = Some n /\ (forall q, between [] q p -> lookup q f' = Some Group) /\ (forall q, q <> p -> ~ between [] q p -> lookup q f' = lookup q f).

Lemma create_groups_cons cur g h rest (f : file) : create_groups cur (g :: h :: rest) f =
  let cur := cur ++ "/" ++ g in let p := path_of cur in
  if exists_link p f then match rest with [] => if is_group p f then Ok f else Throw | _ => create_groups cur (h :: rest) f end
  else do f <- create p Group f; create_groups cur (h :: rest) f.
Proof. destruct rest; reflexivity. Qed.
Lemma create_groups_last : forall l cur x y (f : file), create_groups cur (l ++ [x]) f = create_groups cur (l ++ [y]) f.
Proof.
  induction l as [|g l IH]; intros cur x y f; [reflexivity|].
  destruct l as [|h l]; [reflexivity|]. cbn [app] in *. rewrite !create_groups_cons. cbv zeta.
  assert (forall A (u v : A) z, match (l ++ [z])%list with [] => u | _ => v end = v) as M by (intros A u v z; destruct l; reflexivity).
  rewrite !M, (IH _ x y f). destruct (exists_link _ f); [reflexivity|]. destruct (create _ _ f); cbn [bindO]; try reflexivity. apply IH.
Qed.

Lemma free_between p (f : file) : free p f -> forall q, between [] q p -> lookup q f = None \/ lookup q f = Some Group.
Proof. intros (_ & H) q (a & b & A & B & E & P). apply (H q b P). cbn in E. subst. exact A. Qed.

Lemma missing_groups p (f : file) : tree f -> clean_path p -> free p f -> exists f', create_groups "" p f = Ok f' /\ tree f' /\
  is_group (removelast p) f' = true /\ lookup p f' = None /\ (forall q, between [] q p -> lookup q f' = Some Group) /\
  (forall q, ~ between [] q p -> lookup q f' = lookup q f).
Proof.
  intros T (NE & C) F.
  destruct (create_groups_spec p [] f T (Forall_nil _) C NE eq_refl) as (f1 & R & T1 & G & GL).
  { exact (free_between p f F). }
  cbn [app] in *. exists f1. split; [exact R|]. split; [exact T1|]. split; [exact GL|]. split.
  - rewrite (proj2 (G p)); [apply F|]. intros (a & b & _ & B & _ & E). apply B. rewrite <- (app_nil_r p) in E at 1.
    apply app_inv_head in E. congruence.
  - split; intros q; apply G.
Qed.
Lemma create_data_set_ok p s dims m (f : file) : tree f -> clean_path p -> names s p -> free p f ->
  exists f', create_data_set f s dims m = Ok f' /\ tree f' /\ made p (Data dims m (fun _ => EDouble zero)) f f'.
Proof.
  intros T C (S1 & S2) F. unfold Hdf5_Model.create_data_set, create_missing_groups. rewrite S1, S2.
  destruct (missing_groups p f T C F) as (f1 & -> & T1 & GL & L & G1 & G2). cbn [bindO].
  destruct C as (NE & C).
  rewrite exists_link_tree by assumption. rewrite L.
  destruct (create_ok p (Data dims m (fun _ => EDouble zero)) f1 NE L GL) as (f2 & -> & A). exists f2. split; [reflexivity|].
  split; [eapply added_tree; eauto|]. split; [rewrite A; destruct (path_eqb_spec p p); congruence|]. split.
  - intros q Bq. rewrite A. destruct (path_eqb_spec q p) as [->|]; [|apply G1, Bq]. rewrite G1 in L by exact Bq. discriminate.
  - intros q N Nb. rewrite A. destruct (path_eqb_spec q p); [congruence|apply G2, Nb].
Qed.
Lemma create_data_set_throw p s dims m (f : file) : tree f -> clean_path p -> names s p ->
  lookup p f <> None \/ (exists q d m c, between [] q p /\ lookup q f = Some (Data d m c)) ->
  create_data_set f s dims m = Throw.
Proof.
  intros T (NE & C) (S1 & S2) H. unfold Hdf5_Model.create_data_set, create_missing_groups. rewrite S1, S2.
  assert (HD : (forall q, between [] q p -> lookup q f = None \/ lookup q f = Some Group) \/ exists q d m c, between [] q p /\ lookup q f = Some (Data d m c)).
  { clear - p. assert (K : forall n, (n <= List.length p)%nat ->
      (forall q, between [] q p -> (List.length q <= n)%nat -> lookup q f = None \/ lookup q f = Some Group) \/ exists q d m c, between [] q p /\ lookup q f = Some (Data d m c)).
    { induction n as [|n IH]; intros Hn.
      - left. intros q (a & b & A & _ & -> & _) L. cbn in L. destruct a; [congruence|cbn in L; lia].
      - destruct IH as [IH|IH]; [lia| |right; exact IH].
        destruct (between_dec [] (firstn (S n) p) p) as [B|B].
        + destruct (lookup (firstn (S n) p) f) as [[|d m c]|] eqn:E; [left|right|left].
          2:{ exists (firstn (S n) p), d, m, c. auto. }
          all: intros q Bq L; destruct (Nat.eq_dec (List.length q) (S n)) as [E2|N]; [|apply IH; [exact Bq|lia]].
          all: destruct Bq as (a & b & A & NB & E3 & E4); rewrite E4, <- E2, firstn_app, Nat.sub_diag in E; cbn in E; rewrite app_nil_r, firstn_all in E; auto.
        + left. intros q Bq L. destruct (Nat.eq_dec (List.length q) (S n)) as [E2|N]; [|apply IH; [exact Bq|lia]].
          exfalso. apply B. destruct Bq as (a & b & A & NB & E3 & E4). rewrite E4 at 1. rewrite <- E2, firstn_app, Nat.sub_diag. cbn [firstn]. rewrite app_nil_r, firstn_all.
          exists a, b. auto. }
    destruct (K (List.length p) (le_n _)) as [K'|K']; [left|right; exact K']. intros q B. apply K'; [exact B|].
    destruct B as (a & b & _ & _ & _ & ->). rewrite app_length. lia. }
  destruct HD as [HD|HD].
  - destruct H as [H|H].
    2:{ destruct H as (q & d & m' & c & B & L). destruct (HD q B); congruence. }
    destruct (create_groups_spec p [] f T (Forall_nil _) C NE eq_refl HD) as (f1 & -> & T1 & G & GL). cbn [bindO app] in *.
    rewrite exists_link_tree by assumption. rewrite (proj2 (G p)).
    + destruct (lookup p f); [reflexivity|congruence].
    + intros (a & b & _ & B & _ & E). apply B. rewrite <- (app_nil_r p) in E at 1. apply app_inv_head in E. congruence.
  - rewrite (create_groups_throw p [] f T (Forall_nil _) C HD). reflexivity.
Qed.

(** Same links as before, the dataset at [p] apart *)
Definition updated (p : path) (n : node) (f f' : file) : Prop := forall q, lookup q f' = if path_eqb q p then Some n else lookup q f.
Lemma updated_tree p d m c d' m' c' f f' : lookup p f = Some (Data d m c) -> updated p (Data d' m' c') f f' -> tree f -> tree f'.
Proof.
  intros L U T q n H. rewrite U in H.
  assert (forall r, is_group r f = true -> is_group r f' = true) as M.
  { intros r Hr. destruct r as [|x r]; [reflexivity|]. apply is_group_iff in Hr; [|discriminate]. apply is_group_iff; [discriminate|].
    rewrite U. destruct (path_eqb_spec (x :: r) p) as [Er|]; [rewrite Er in Hr; congruence|exact Hr]. }
  destruct (path_eqb_spec q p) as [->|]; [destruct (T p _ L)|destruct (T q n H)]; auto.
Qed.
Lemma extend_ok p new dims m c (f : file) : lookup p f = Some (Data dims m c) -> fits new m = true ->
  exists f', extend zero p new f = Ok f' /\ updated p (Data new m (fun i => if within dims i then c i else EDouble zero)) f f'.
Proof.
  intros L F. unfold extend. rewrite L, F. eexists. split; [reflexivity|]. intros q. rewrite lookup_replace, L. reflexivity.
Qed.
Lemma write_slab_ok p offset count values dims m c (f : file) : lookup p f = Some (Data dims m c) -> inside offset count dims = true ->
  size count = List.length values ->
  exists f', write_slab zero p offset count values f = Ok f' /\
    updated p (Data dims m (fun i => if selected offset count i then nth (rank_of count (minus i offset) 0) values (EDouble zero) else c i)) f f'.
Proof.
  intros L I E. unfold write_slab. rewrite L, I, E, Nat.eqb_refl. cbn [andb]. eexists. split; [reflexivity|]. intros q. rewrite lookup_replace, L. reflexivity.
Qed.
Lemma updated_trans p n n' f f1 f2 : updated p n f f1 -> updated p n' f1 f2 -> updated p n' f f2.
Proof. intros U1 U2 q. rewrite U2, U1. destruct (path_eqb q p); reflexivity. Qed.
Lemma extend_write p new offset count values dims m c (f : file) : lookup p f = Some (Data dims m c) -> fits new m = true ->
  inside offset count new = true -> size count = List.length values ->
  exists f1 f2, extend zero p new f = Ok f1 /\ write_slab zero p offset count values f1 = Ok f2 /\
    updated p (Data new m (fun i => if selected offset count i then nth (rank_of count (minus i offset) 0) values (EDouble zero)
                                    else if within dims i then c i else EDouble zero)) f f2.
Proof.
  intros L F I E. destruct (extend_ok p new dims m c f L F) as (f1 & E1 & U1). exists f1.
  destruct (write_slab_ok p offset count values new m (fun i => if within dims i then c i else EDouble zero) f1) as (f2 & E2 & U2); auto.
  - rewrite U1. destruct (path_eqb_spec p p); congruence.
  - exists f2. split; [exact E1|]. split; [exact E2|]. eapply updated_trans; eauto.
Qed.

(** One more value at the end of a series *)
Lemma append_series p values d (f : file) : series p values f -> (exists n c, lookup p f = Some (Data [n] [None] c)) ->
  exists f1 f2 c, extend zero p [List.length values + 1]%nat f = Ok f1 /\ write_slab zero p [List.length values] [1%nat] [EDouble d] f1 = Ok f2 /\
    updated p (Data [List.length values + 1]%nat [None] c) f f2 /\ series p (values ++ [d]) f2.
Proof.
  intros (m & c & L & V) (n & c2 & L2). assert (m = [None]) as -> by congruence.
  destruct (extend_write p [List.length values + 1]%nat [List.length values] [1%nat] [EDouble d] _ _ _ f L) as (f1 & f2 & E1 & E2 & U); try reflexivity.
  - cbn [inside]. rewrite Nat.leb_refl. reflexivity.
  - exists f1, f2. eexists. split; [exact E1|]. split; [exact E2|]. split; [exact U|].
    exists [None]. eexists. split.
    { rewrite U. destruct (path_eqb_spec p p); [|congruence]. rewrite app_length. reflexivity. }
    intros k v H. cbn [selected within minus rank_of].
    destruct (Nat.leb_spec (List.length values) k) as [A|A].
    + assert (k = List.length values) as ->.
      { assert (k < List.length (values ++ [d]))%nat by (apply nth_error_Some; congruence). rewrite app_length in *. cbn in *. lia. }
      rewrite nth_error_app2, Nat.sub_diag in H by lia. injection H as <-. cbn [andb].
      destruct (Nat.ltb_spec (List.length values) (List.length values + 1)); [|lia]. cbn [andb]. rewrite Nat.sub_diag. reflexivity.
    + cbn [andb]. destruct (Nat.ltb_spec k (List.length values)); [|lia]. cbn [andb]. apply V. rewrite nth_error_app1 in H by lia. exact H.
Qed.
End Files.
