(** Two datasets that are not apart cannot both be created. *)
From Coq Require Import ZArith List Bool Lia String Ascii.
From Verif Require Import Common Observer_Model Observer_Spec Observer_Proofs Hdf5_Model Hdf5_Spec Hdf5_Proofs Hdf5_File_Proofs Hdf5_Series_Proofs Hdf5_Observer_Proofs.
Import ListNotations.
Open Scope string_scope.

Section Clash.
Context {D : Type} (zero : D).
Notation file := (@file D).
Definition keeps (f f' : file) : Prop := (tree f -> tree f') /\ forall q n, lookup q f = Some n -> lookup q f' = Some n.
Lemma keeps_refl f : keeps f f.
Proof. split; auto. Qed.
Lemma keeps_trans f g h : keeps f g -> keeps g h -> keeps f h.
Proof. intros (A & B) (C & E). split; auto. Qed.
Lemma create_keeps p n (f : file) : match create p n f with Ok f' => keeps f f' | Throw => True | UB => False end.
Proof.
  unfold create. destruct p as [|x p]; [exact I|].
  destruct (is_group (removelast _) f) eqn:G; [|exact I]. destruct (lookup _ f) eqn:L; [exact I|].
  assert (A : added (x :: p) n f ((x :: p, n) :: f)).
  { intros q. cbn [lookup]. destruct (path_eqb_spec q (x :: p)); reflexivity. }
  split.
  - intros T. eapply (added_tree (x :: p) n); eauto. discriminate.
  - intros q m H. rewrite A. destruct (path_eqb_spec q (x :: p)) as [->|]; congruence.
Qed.
Definition safe (f : file) (r : outcome file) : Prop := match r with Ok f' => keeps f f' | Throw => True | UB => False end.
Lemma safe_bind f r k : safe f r -> (forall g, keeps f g -> safe g (k g)) -> safe f (do g <- r; k g).
Proof.
  intros H K. destruct r as [g| |]; cbn in *; [|exact I|contradiction]. specialize (K g H). destruct (k g); cbn in *; auto. eapply keeps_trans; eauto.
Qed.
Lemma create_groups_keeps : forall l cur f, safe f (create_groups cur l f).
Proof.
  induction l as [|g l IH]; intros cur f; [apply keeps_refl|]. destruct l as [|h l]; [apply keeps_refl|].
  rewrite create_groups_cons. cbv zeta. destruct (exists_link _ f).
  - destruct l; [destruct (is_group _ f); [apply keeps_refl|exact I]|]. apply IH.
  - apply safe_bind; [apply create_keeps|]. intros g' _. apply IH.
Qed.
Lemma create_data_set_keeps f s dims m : safe f (create_data_set zero f s dims m).
Proof.
  unfold create_data_set, create_missing_groups. apply safe_bind; [apply create_groups_keeps|]. intros g _.
  destruct (exists_link _ g); [exact I|apply create_keeps].
Qed.
Lemma new_writer_keeps f name nx ny : match new_wave_writer zero f name nx ny with Ok (f', _) => keeps f f' | Throw => True | UB => False end.
Proof.
  unfold new_wave_writer. destruct (Nat.eqb (nx * ny) 0); [apply keeps_refl|]. cbv zeta.
  assert (R : forall (r : outcome file) f (k : file -> outcome (file * wave_writer)), safe f r ->
    (forall g, keeps f g -> match k g with Ok (f', _) => keeps g f' | Throw => True | UB => False end) ->
    match (do g <- r; k g) with Ok (f', _) => keeps f f' | Throw => True | UB => False end).
  { intros r g k H K. destruct r as [h| |]; cbn in *; [|exact I|contradiction]. specialize (K h H). destruct (k h) as [(f', w)| |]; auto. eapply keeps_trans; eauto. }
  apply R; [apply create_groups_keeps|]. intros g1 _. apply R; [apply create_keeps|]. intros g2 _. apply R; [apply create_keeps|]. intros g3 _.
  apply R; [apply create_keeps|]. intros g4 _. apply R; [apply create_keeps|]. intros g5 _. apply keeps_refl.
Qed.
Lemma h5_init_keeps v x (s : @h5_state D) : match h5_init zero v x s with Ok s' => keeps (h_file s) (h_file s') | Throw => True | UB => False end.
Proof.
  destruct v as [(a, d)|g]; cbn [h5_init].
  - pose proof (create_data_set_keeps (h_file s) (full_address a) [0%nat] [None]) as H. destruct (create_data_set _ _ _ _ _); cbn in *; auto.
  - pose proof (new_writer_keeps (h_file s) "outputs/waves" (List.length (hg_x g)) (List.length (hg_y g))) as H. destruct (new_wave_writer _ _ _ _ _) as [(f, w)| |]; cbn in *; auto.
Qed.

(** A successful creation leaves a dataset. *)
Lemma create_data_set_leaves p s dims m f f' : tree f -> clean_path p -> names s p -> create_data_set zero f s dims m = Ok f' ->
  exists c, lookup p f' = Some (Data dims m c).
Proof.
  intros T C N E.
  assert (F : free p f).
  { assert (L : lookup p f = None).
    { destruct (lookup p f) eqn:L; [|reflexivity]. rewrite (create_data_set_throw zero p s dims m f T C N) in E; [discriminate|left; congruence]. }
    split; [exact L|]. intros q r Ep Nq. destruct r as [|r0 r]; [rewrite app_nil_r in Ep; subst q; auto|].
    destruct (lookup q f) as [[|d' m' c']|] eqn:Lq; auto. exfalso.
    rewrite (create_data_set_throw zero p s dims m f T C N) in E; [discriminate|]. right. exists q, d', m', c'. split; [|exact Lq].
    exists q, (r0 :: r). repeat split; auto. discriminate. }
  destruct (create_data_set_ok zero p s dims m f T C N F) as (g & E' & _ & M). rewrite E' in E. injection E as <-. eexists. apply (proj1 M).
Qed.
Lemma clash_throws p q s dims m f d m' c : tree f -> clean_path q -> names s q -> p <> [] -> lookup p f = Some (Data d m' c) -> ~ apart p q ->
  create_data_set zero f s dims m = Throw.
Proof.
  intros T C N NP L A. apply (create_data_set_throw zero q s dims m f T C N).
  assert (P : forall a b : path, {r | b = (a ++ r)%list} + {~ prefix a b}).
  { clear. induction a as [|x a IH]; intros b; [left; exists b; reflexivity|]. destruct b as [|y b]; [right; intros (r & E); discriminate|].
    destruct (string_dec x y) as [->|]; [|right; intros (r & E); injection E; congruence].
    destruct (IH b) as [(r & ->)|H]; [left; exists r; reflexivity|right; intros (r & E); apply H; exists r; injection E; auto]. }
  destruct (P p q) as [(r & ->)|NP1].
  - destruct r as [|r0 r]; [rewrite app_nil_r; left; congruence|]. right. exists p, d, m', c. split; [|exact L]. exists p, (r0 :: r). repeat split; auto. discriminate.
  - destruct (P q p) as [(r & ->)|NP2]; [|exfalso; apply A; split; assumption]. left.
    destruct r as [|r0 r]; [rewrite app_nil_r in L; congruence|]. rewrite (tree_prefix f T (r0 :: r) q _ L); [discriminate|apply C|discriminate].
Qed.

(** The loop over the requested variables *)
Notation val := (@h5_value D).
Definition init_fold (l : list (string * val)) (s : outcome (@h5_state D)) := fold_left (fun s p => run_init (h5_class zero) (snd p) (fst p) s) l s.
Lemma init_fold_throw l : init_fold l Throw = Throw.
Proof. induction l as [|p l IH]; [reflexivity|exact IH]. Qed.
Lemma init_fold_safe l : forall s, match init_fold l (Ok s) with Ok s' => keeps (h_file s) (h_file s') | Throw => True | UB => False end.
Proof.
  induction l as [|(x, v) l IH]; intros s; [apply keeps_refl|]. unfold init_fold. cbn [fold_left fst snd].
  change (run_init (h5_class zero) v x (Ok s)) with (h5_init zero v x s). pose proof (h5_init_keeps v x s) as H.
  destruct (h5_init zero v x s) as [s1| |]; [|rewrite init_fold_throw; exact I|contradiction].
  specialize (IH s1). fold (init_fold l (Ok s1)). destruct (init_fold l (Ok s1)); auto. eapply keeps_trans; eauto.
Qed.
Lemma clean_outputs a : clean_path a -> clean_path ("outputs" :: a).
Proof. intros (_ & F). split; [discriminate|]. constructor; [split; [discriminate|reflexivity]|exact F]. Qed.
Lemma init_fold_clash l1 x a d l2 y b e l3 s : tree (h_file s) -> clean_path a -> clean_path b -> ~ apart a b ->
  init_fold (l1 ++ (x, VDouble (a, d)) :: l2 ++ (y, VDouble (b, e)) :: l3) (Ok s) = Throw.
Proof.
  intros T Ca Cb A. unfold init_fold. rewrite fold_left_app. cbn [fold_left fst snd]. rewrite fold_left_app. cbn [fold_left fst snd].
  pose proof (init_fold_safe l1 s) as H1. fold (init_fold l1 (Ok s)). destruct (init_fold l1 (Ok s)) as [s1| |]; [|clear H1|contradiction].
  2:{ change (run_init (h5_class zero) (VDouble (a, d)) x Throw) with (@Throw (@h5_state D)). fold (init_fold l2 Throw). rewrite init_fold_throw. exact (init_fold_throw l3). }
  change (run_init (h5_class zero) (VDouble (a, d)) x (Ok s1)) with (h5_init zero (VDouble (a, d)) x s1).
  pose proof (h5_init_keeps (VDouble (a, d)) x s1) as H2. destruct (h5_init zero (VDouble (a, d)) x s1) as [s2| |] eqn:E2; [|clear H2|contradiction].
  2:{ fold (init_fold l2 Throw). rewrite init_fold_throw. exact (init_fold_throw l3). }
  assert (T1 : tree (h_file s1)) by (apply H1, T). assert (T2 : tree (h_file s2)) by (apply H2, T1).
  assert (exists c, lookup ("outputs" :: a) (h_file s2) = Some (Data [0%nat] [None] c)) as (c & L).
  { cbn [h5_init] in E2. rewrite full_address_text in E2 by exact Ca.
    destruct (create_data_set zero (h_file s1) (text ("outputs" :: a)) [0%nat] [None]) as [g| |] eqn:Eg; try discriminate. injection E2 as <-. cbn [h_file].
    eapply create_data_set_leaves; [exact T1|apply clean_outputs, Ca|apply names_text, clean_outputs, Ca|exact Eg]. }
  pose proof (init_fold_safe l2 s2) as H3. fold (init_fold l2 (Ok s2)). destruct (init_fold l2 (Ok s2)) as [s3| |]; [|clear H3|contradiction].
  2:{ exact (init_fold_throw l3). }
  change (run_init (h5_class zero) (VDouble (b, e)) y (Ok s3)) with (h5_init zero (VDouble (b, e)) y s3). cbn [h5_init].
  rewrite full_address_text by exact Cb.
  rewrite (clash_throws ("outputs" :: a) ("outputs" :: b) (text ("outputs" :: b)) [0%nat] [None] (h_file s3) [0%nat] [None] c).
  - exact (init_fold_throw l3).
  - apply H3, T2.
  - apply clean_outputs, Cb.
  - apply names_text, clean_outputs, Cb.
  - discriminate.
  - apply H3, L.
  - intros (P & Q). apply A. split; intros (r & E); [apply P|apply Q]; exists r; cbn; congruence.
Qed.
Lemma ser_throw l : fold_left (fun s (p : string * val) => run_ser (h5_class zero) (snd p) (fst p) s) l Throw = Throw.
Proof. induction l as [|p l IH]; [reflexivity|exact IH]. Qed.
Lemma states_after_throw req : forall steps past, states_after (h5_class zero) req past steps Throw = Throw.
Proof.
  induction steps as [|(t, out) steps IH]; intros past; [reflexivity|]. cbn [states_after h5_class flush_after_write]. fold (@h5_class D zero).
  rewrite run_fold, ser_throw. apply IH.
Qed.
End Clash.
