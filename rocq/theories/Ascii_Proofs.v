(** Lemmas on the reader of ASCII STL files. *)
From Coq Require Import ZArith List Bool Lia String.
From Verif Require Import Common Stl_Model Ascii_Model Ascii_Spec.
Import ListNotations.
Open Scope Z_scope.

Lemma same_iff : forall a b, same a b = true <-> a = b.
Proof. intros a b. unfold same. destruct (list_eq_dec Z.eq_dec a b); split; congruence. Qed.
Lemma same_refl : forall a, same a a = true.
Proof. intros. now apply same_iff. Qed.
Lemma same_ne : forall a b, a <> b -> same a b = false.
Proof. intros a b H. unfold same. destruct (list_eq_dec Z.eq_dec a b); congruence. Qed.

Lemma is_space_white : forall c, is_space c = true <-> white c.
Proof.
  intros c. unfold is_space, white. rewrite orb_true_iff, andb_true_iff, Z.eqb_eq, !Z.leb_le. cbn [In]. lia.
Qed.
Lemma is_space_not : forall c, is_space c = false <-> ~ white c.
Proof. intros c. rewrite <- is_space_white. destruct (is_space c); split; congruence. Qed.

Lemma span_spec : forall A (f : A -> bool) l, exists a b, span f l = (a, b) /\ l = a ++ b /\ Forall (fun c => f c = true) a /\
  (b = [] \/ exists c t, b = c :: t /\ f c = false).
Proof.
  intros A f l. induction l as [|c t IH]; cbn [span].
  - exists [], []. split; [reflexivity|]. split; [reflexivity|]. split; [constructor|now left].
  - destruct (f c) eqn:E.
    + destruct IH as (a & b & E1 & E2 & F & B). rewrite E1. exists (c :: a), b. subst t. split; [reflexivity|]. split; [reflexivity|].
      split; [now apply Forall_cons|exact B].
    + exists [], (c :: t). split; [reflexivity|]. split; [reflexivity|]. split; [constructor|right; eauto].
Qed.
Lemma span_app : forall A (f : A -> bool) a b, Forall (fun c => f c = true) a -> (b = [] \/ exists c t, b = c :: t /\ f c = false) ->
  span f (a ++ b) = (a, b).
Proof.
  intros A f a b F B. induction a as [|c t IH]; cbn [app span].
  - destruct B as [->|(c & t & -> & E)]; [reflexivity|]. cbn [span]. now rewrite E.
  - inversion F; subst. rewrite H1, IH by assumption. reflexivity.
Qed.

Lemma skipn_app_exact : forall A (a b : list A), skipn (List.length a) (a ++ b) = b.
Proof. intros. rewrite skipn_app, Nat.sub_diag, skipn_all. reflexivity. Qed.

Lemma scan_word_ok : forall s w rest, first_word s w rest ->
  exists n, scan_word s = Some (w, n) /\ skipn n s = rest /\ (n <= List.length s)%nat.
Proof.
  intros s w rest (bl & E & B & NE & W & R). unfold scan_word. subst s.
  rewrite span_app.
  - rewrite span_app.
    + cbn [fst]. destruct w as [|c w]; [congruence|]. exists (List.length bl + List.length (c :: w))%nat.
      split; [reflexivity|]. split.
      * rewrite app_assoc. rewrite <- app_length. apply skipn_app_exact.
      * rewrite !app_length. lia.
    + revert W. apply Forall_impl. intros c N. apply is_space_not in N. now rewrite N.
    + destruct R as [->|(c & t & -> & N)]; [now left|right; exists c, t; split; [reflexivity|]]. apply is_space_white in N. now rewrite N.
  - revert B. apply Forall_impl. intros c N. now apply is_space_white.
  - right. destruct w as [|c w]; [congruence|]. inversion W; subst. exists c, (w ++ rest). split; [reflexivity|]. now apply is_space_not.
Qed.
Lemma scan_word_some : forall s w n, scan_word s = Some (w, n) -> first_word s w (skipn n s) /\ (n <= List.length s)%nat.
Proof.
  intros s w n. unfold scan_word.
  destruct (span_spec _ is_space s) as (bl & b & E1 & E2 & F & B). rewrite E1.
  destruct (span_spec _ (fun c => negb (is_space c)) b) as (wd & r & E3 & E4 & F2 & B2). rewrite E3. cbn [fst].
  destruct wd as [|c wd0] eqn:EW; [discriminate|]. rewrite <- EW in *. intros E. injection E as E5 E6. subst w n b s.
  split.
  - exists bl. rewrite app_assoc, <- app_length, skipn_app_exact.
    split; [now rewrite app_assoc|]. split; [revert F; apply Forall_impl; intros; now apply is_space_white|].
    split; [subst wd; discriminate|]. split.
    + revert F2. apply Forall_impl. intros x N. apply is_space_not. now destruct (is_space x).
    + destruct B2 as [->|(x & t & -> & N)]; [now left|right; exists x, t; split; [reflexivity|]]. apply is_space_white. now destruct (is_space x).
  - rewrite !app_length. lia.
Qed.
Lemma first_word_fun : forall s w r w' r', first_word s w r -> first_word s w' r' -> w = w' /\ r = r'.
Proof.
  intros s w r w' r' H1 H2. apply scan_word_ok in H1, H2. destruct H1 as (n & E & S1 & _), H2 as (n' & E' & S2 & _).
  rewrite E in E'. injection E' as -> ->. split; congruence.
Qed.
Lemma scan_word_none : forall s, scan_word s = None -> forall w r, ~ first_word s w r.
Proof. intros s E w r H. apply scan_word_ok in H. destruct H as (n & E' & _). congruence. Qed.
Lemma no_word_nil : forall w r, ~ first_word [] w r.
Proof. intros w r (bl & E & _ & NE & _). symmetry in E. apply app_eq_nil in E. destruct E as [_ E]. apply app_eq_nil in E. tauto. Qed.

(** Lines and streams. *)
Definition stream_of (ps : list (list Z)) : stream := match ps with [] => ([], false) | _ => (text_of ps, true) end.
Definition store (p : list Z) (b : buffer) : buffer := map Some p ++ Some 0 :: skipn (S (List.length p)) b.

Lemma take_line_piece : forall p n r, ~ In 10 p -> (List.length p <= n)%nat -> take_line n (p ++ 10 :: r) = (p, (r, true)).
Proof.
  induction p as [|c t IH]; intros n r N Le; cbn [app take_line].
  - reflexivity.
  - destruct (Z.eqb_spec c 10) as [->|_]; [exfalso; apply N; now left|]. destruct n as [|n]; [cbn in Le; lia|].
    rewrite IH; [reflexivity| |cbn in Le; lia]. intros H. apply N. now right.
Qed.
Lemma take_line_last : forall p n, ~ In 10 p -> (List.length p <= n)%nat -> take_line n p = (p, ([], false)).
Proof.
  induction p as [|c t IH]; intros n N Le; cbn [take_line].
  - reflexivity.
  - destruct (Z.eqb_spec c 10) as [->|_]; [exfalso; apply N; now left|]. destruct n as [|n]; [cbn in Le; lia|].
    rewrite IH; [reflexivity| |cbn in Le; lia]. intros H. apply N. now right.
Qed.
Lemma get_line_pieces : forall ps b, Forall plain ps -> get_line (stream_of ps) b = (store (hd [] ps) b, stream_of (tl ps)).
Proof.
  intros [|p ps] b F; cbn [hd tl]; [reflexivity|]. inversion F as [|? ? P]; subst. destruct P as (Le & _ & N & _).
  unfold get_line. destruct ps as [|q ps].
  - cbn [stream_of snd fst text_of]. rewrite take_line_last by assumption. reflexivity.
  - cbn [stream_of snd fst]. change (text_of (p :: q :: ps)) with (p ++ 10 :: text_of (q :: ps)).
    rewrite take_line_piece by assumption. reflexivity.
Qed.
Lemma get_line_first : forall p ps b, ~ In 10 p -> (List.length p <= 255)%nat ->
  get_line (text_of (p :: ps), true) b = (store p b, stream_of ps).
Proof.
  intros p ps b N Le. unfold get_line. cbn [snd fst]. destruct ps as [|q ps].
  - cbn [text_of]. rewrite take_line_last by assumption. reflexivity.
  - change (text_of (p :: q :: ps)) with (p ++ 10 :: text_of (q :: ps)). rewrite take_line_piece by assumption. reflexivity.
Qed.

Lemma cstr_map : forall p r, ~ In 0 p -> cstr (map Some p ++ Some 0 :: r) = Ok p.
Proof.
  induction p as [|c t IH]; intros r N; cbn [map app cstr]; [reflexivity|].
  destruct (Z.eqb_spec c 0) as [->|_]; [exfalso; apply N; now left|]. rewrite IH; [reflexivity|]. intros H. apply N. now right.
Qed.
Lemma In_skipn : forall A n (l : list A) x, In x (skipn n l) -> In x l.
Proof. induction n as [|n IH]; intros l x H; [exact H|]. destruct l as [|a l]; [exact H|]. right. apply IH, H. Qed.
Lemma cstr_store : forall n p b, ~ In 0 p -> (n <= List.length p)%nat -> cstr (skipn n (store p b)) = Ok (skipn n p).
Proof.
  intros n p b N Le. unfold store. rewrite skipn_app, map_length. replace (n - List.length p)%nat with O by lia.
  cbn [skipn]. rewrite skipn_map. apply cstr_map. intros H. apply N. revert H. apply In_skipn.
Qed.
Lemma cstr_store0 : forall p b, ~ In 0 p -> cstr (store p b) = Ok p.
Proof. intros p b N. apply (cstr_store 0 p b N). lia. Qed.

(** The two kinds of lines. *)
Definition comment (c : Z) : bool := (c =? 35) || (c =? 33) || (c =? 36).
Lemma comment_iff : forall c, comment c = true <-> In c (codes "#!$").
Proof.
  intros c. unfold comment. rewrite !orb_true_iff, !Z.eqb_eq. change (codes "#!$") with [35; 33; 36]. cbn [In]. intuition.
Qed.

Lemma leading_spec : forall l, exists r, l = repeat 32 (leading_spaces l) ++ r /\ skipn (leading_spaces l) l = r /\ (r = [] \/ exists c t, r = c :: t /\ c <> 32).
Proof.
  intros l. unfold leading_spaces. destruct (span_spec _ (Z.eqb 32) l) as (a & b & E & E2 & F & B). rewrite E. cbn [fst].
  exists b. assert (a = repeat 32 (List.length a)) as Ea.
  { clear -F. induction a as [|c t IH]; [reflexivity|]. inversion F; subst. cbn. rewrite <- IH by assumption. apply Z.eqb_eq in H1. now subst. }
  split; [now rewrite <- Ea|]. split; [subst l; apply skipn_app_exact|].
  destruct B as [->|(c & t & -> & N)]; [now left|right; exists c, t; split; [reflexivity|]]. apply Z.eqb_neq in N. congruence.
Qed.
Lemma spaces_unique : forall n m a b, repeat 32 n ++ a = repeat 32 m ++ b ->
  (a = [] \/ exists c t, a = c :: t /\ c <> 32) -> (b = [] \/ exists c t, b = c :: t /\ c <> 32) -> n = m /\ a = b.
Proof.
  induction n as [|n IH]; intros [|m] a b E A B; cbn in E.
  - auto.
  - exfalso. destruct A as [->|(c & t & -> & N)]; [discriminate|injection E; congruence].
  - exfalso. destruct B as [->|(c & t & -> & N)]; [discriminate|injection E; congruence].
  - injection E as E. destruct (IH m a b E A B). now subst.
Qed.
Lemma skipped_iff : forall l, skipped l <->
  (skipn (leading_spaces l) l = [] \/ exists c t, skipn (leading_spaces l) l = c :: t /\ comment c = true).
Proof.
  intros l. destruct (leading_spec l) as (r & E & Er & R). rewrite Er. split.
  - intros (n & rest & El & C). rewrite El in E at 1.
    assert (rest = [] \/ exists c t, rest = c :: t /\ c <> 32) as C'.
    { destruct C as [->|(c & t & -> & I)]; [now left|]. right. exists c, t. split; [reflexivity|].
      change (codes "#!$") with [35; 33; 36] in I. cbn [In] in I. lia. }
    destruct (spaces_unique _ _ _ _ E C' R) as [_ <-]. destruct C as [->|(c & t & -> & I)]; [now left|].
    right. exists c, t. split; [reflexivity|]. now apply comment_iff.
  - intros C. exists (leading_spaces l), r. split; [exact E|]. destruct C as [->|(c & t & -> & I)]; [now left|].
    right. exists c, t. split; [reflexivity|]. now apply comment_iff.
Qed.

Lemma first_word_spaces : forall n l w rest, first_word l w rest <-> first_word (repeat 32 n ++ l) w rest.
Proof.
  intros n l w rest.
  assert (forall n l, first_word l w rest -> first_word (repeat 32 n ++ l) w rest) as H.
  { intros k s (bl & E & B & R). exists (repeat 32 k ++ bl). split; [now rewrite E, app_assoc|]. split; [|exact R].
    apply Forall_app. split; [|exact B]. clear. induction k; [constructor|apply Forall_cons]; [|assumption]. right; right; right; right; right; left. reflexivity. }
  split; [apply H|]. intros F. 
  destruct (scan_word l) as [[w' k]|] eqn:E.
  - apply scan_word_some in E. destruct E as [E _]. pose proof (H n l) as H'. 
    assert (forall w r, first_word l w r -> first_word (repeat 32 n ++ l) w r) as G.
    { clear. intros w r (bl & E & B & R). exists (repeat 32 n ++ bl). split; [now rewrite E, app_assoc|]. split; [|exact R].
      apply Forall_app. split; [|exact B]. clear. induction n; [constructor|apply Forall_cons]; [|assumption]. right; right; right; right; right; left. reflexivity. }
    pose proof (G _ _ E) as E'. destruct (first_word_fun _ _ _ _ _ F E') as [-> ->]. exact E.
  - exfalso. unfold scan_word in E. apply scan_word_ok in F. destruct F as (k & F & _). unfold scan_word in F.
    destruct (span_spec _ is_space l) as (bl & b & E1 & E2 & F1 & B1). rewrite E1 in E.
    assert (span is_space (repeat 32 n ++ l) = (repeat 32 n ++ bl, b)) as E3.
    { rewrite E2, app_assoc. apply span_app; [|exact B1]. apply Forall_app. split; [|exact F1].
      clear. induction n; [constructor|apply Forall_cons]; [reflexivity|assumption]. }
    rewrite E3 in F. destruct (fst (span (fun c => negb (is_space c)) b)); discriminate.
Qed.

Lemma line_cases : forall l, plain l ->
  (skipped l /\ (skipn (leading_spaces l) l = [] \/ exists c t, skipn (leading_spaces l) l = c :: t /\ comment c = true)) \/
  (~ skipped l /\ exists c t w wid rest, skipn (leading_spaces l) l = c :: t /\ comment c = false /\ scan_word (c :: t) = Some (w, wid) /\
    first_word l w rest /\ skipn (leading_spaces l + wid) l = rest /\ (leading_spaces l + wid <= List.length l)%nat).
Proof.
  intros l (Le & N0 & N1 & C). destruct (leading_spec l) as (r & E & Er & R).
  assert (skipped l \/ ~ skipped l) as [S|S].
  { rewrite skipped_iff. destruct (skipn (leading_spaces l) l) as [|c t]; [left; now left|].
    destruct (comment c) eqn:Ec; [left; right; eauto|right]. intros [H|(c' & t' & H & H')]; [discriminate|]. injection H as -> ->. congruence. }
  - left. split; [exact S|]. now apply skipped_iff in S.
  - right. split; [exact S|]. destruct C as [C|(w & rest & F)]; [contradiction|].
    destruct r as [|c t].
    { exfalso. apply S. apply skipped_iff. now left. }
    assert (comment c = false) as Ec.
    { destruct (comment c) eqn:Ec; [|reflexivity]. exfalso. apply S. apply skipped_iff. right. exists c, t. split; assumption. }
    pose proof F as F'. rewrite E in F'. apply first_word_spaces in F'. apply scan_word_ok in F'. destruct F' as (wid & Ew & Es & Lw).
    exists c, t, w, wid, rest. repeat (split; [assumption|]). split.
    + rewrite <- Es, <- Er. generalize (leading_spaces l). clear. induction l as [|a l IH]; intros [|n]; cbn [skipn Nat.add]; try reflexivity; [now rewrite skipn_nil|apply IH].
    + rewrite E at 2. rewrite app_length, repeat_length. lia.
Qed.

Section Reader.
Variables D L : Type.
Variable scan_double : list Z -> option (D * list Z).
Variable c_locale : L.

Lemma numbers_scan : forall n s, numbers D scan_double n s (scan_doubles D scan_double n s).
Proof.
  induction n as [|n IH]; intros s; cbn [scan_doubles]; [apply enough|].
  destruct (scan_double s) as [[x r]|] eqn:E; [eapply one_number; [exact E|apply IH]|now apply no_number].
Qed.
Lemma numbers_fun : forall n s l, numbers D scan_double n s l -> l = scan_doubles D scan_double n s.
Proof.
  intros n s l H. induction H as [n s E|s|n s x r l E H IH].
  - destruct n; cbn [scan_doubles]; [reflexivity|]. now rewrite E.
  - reflexivity.
  - cbn [scan_doubles]. now rewrite E, <- IH.
Qed.

Lemma read_vertex_ok : forall p b pt, ~ In 0 p -> read_vertex D scan_double (store p b) = Ok pt <-> vertex_line D scan_double p pt.
Proof.
  intros p b pt N. unfold read_vertex. rewrite cstr_store0 by assumption. cbn [bindO]. split.
  - destruct (scan_word p) as [[w n]|] eqn:E; [|discriminate]. destruct (20 <=? List.length w)%nat; [discriminate|].
    destruct (same w (codes "vertex")) eqn:Es; [|discriminate]. apply same_iff in Es. subst w. intros H. injection H as <-.
    apply scan_word_some in E. destruct E as [E _]. exists (skipn n p), (scan_doubles D scan_double 3 (skipn n p)). split; [exact E|].
    split; [apply numbers_scan|reflexivity].
  - intros (rest & l & F & NU & ->). apply scan_word_ok in F. destruct F as (n & E & Er & _). rewrite E.
    change (20 <=? List.length (codes "vertex"))%nat with false. cbv iota. rewrite same_refl, Er. apply numbers_fun in NU. now subst l.
Qed.

Lemma plain_nil : plain [].
Proof. split; [cbn; lia|]. split; [intros []|]. split; [intros []|]. left. exists O, []. split; [reflexivity|now left]. Qed.
Lemma plain_hd : forall ps, Forall plain ps -> plain (hd [] ps).
Proof. intros [|p ps] F; [apply plain_nil|]. now inversion F. Qed.
Lemma plain_tl : forall ps, Forall plain ps -> Forall plain (tl ps).
Proof. intros [|p ps] F; [constructor|]. now inversion F. Qed.
Lemma vertex_nonempty : forall pt, ~ vertex_line D scan_double [] pt.
Proof. intros pt (rest & l & F & _). revert F. apply no_word_nil. Qed.
Lemma tl_tl : forall (l : list (list Z)), tl (tl l) = skipn 2 l.
Proof. intros [|a [|b l]]; reflexivity. Qed.

Lemma read_normal_ok : forall b line, cstr b = Ok line -> read_normal b = Ok tt <-> exists rest, first_word line (codes "normal") rest.
Proof.
  intros b line E. unfold read_normal. rewrite E. cbn [bindO]. split.
  - destruct (scan_word line) as [[w n]|] eqn:Ew; [|discriminate]. destruct (20 <=? List.length w)%nat; [discriminate|].
    destruct (same w (codes "normal")) eqn:Es; [|discriminate]. apply same_iff in Es. subst w. intros _.
    apply scan_word_some in Ew. destruct Ew as [Ew _]. now exists (skipn n line).
  - intros (rest & F). apply scan_word_ok in F. destruct F as (n & -> & _). 
    change (20 <=? List.length (codes "normal"))%nat with false. cbv iota. now rewrite same_refl.
Qed.

Lemma read_facet_ok : forall ps b next line, Forall plain ps -> cstr (skipn next b) = Ok line -> forall f s,
  (exists b', read_facet D scan_double (stream_of ps) b next = Ok (f, s, b')) <->
  (exists rest loop l0 l1 l2 ls p0 p1 p2, first_word line (codes "normal") rest /\ ps = loop :: l0 :: l1 :: l2 :: ls /\
     vertex_line D scan_double l0 p0 /\ vertex_line D scan_double l1 p1 /\ vertex_line D scan_double l2 p2 /\
     f = [p0; p1; p2] /\ s = stream_of (skipn 2 ls)).
Proof.
  intros ps b next line F C f s.
  assert (Forall plain (tl ps)) as F1 by now apply plain_tl.
  assert (Forall plain (tl (tl ps))) as F2 by now apply plain_tl.
  assert (Forall plain (tl (tl (tl ps)))) as F3 by now apply plain_tl.
  assert (Forall plain (tl (tl (tl (tl ps))))) as F4 by now apply plain_tl.
  assert (Forall plain (tl (tl (tl (tl (tl ps)))))) as F5 by now apply plain_tl.
  pose proof (proj1 (proj2 (plain_hd _ F1))) as N1. pose proof (proj1 (proj2 (plain_hd _ F2))) as N2. pose proof (proj1 (proj2 (plain_hd _ F3))) as N3.
  unfold read_facet.
  rewrite (get_line_pieces ps) by assumption. cbv iota beta. rewrite (get_line_pieces (tl ps)) by assumption. cbv iota beta.
  rewrite (get_line_pieces (tl (tl ps))) by assumption. cbv iota beta.
  rewrite (get_line_pieces (tl (tl (tl ps)))) by assumption. cbv iota beta.
  rewrite (get_line_pieces (tl (tl (tl (tl ps))))) by assumption. cbv iota beta.
  rewrite (get_line_pieces (tl (tl (tl (tl (tl ps)))))) by assumption. cbv iota beta.
  split.
  - intros (b' & H). destruct (read_normal (skipn next b)) as [[]| |] eqn:EN; [|discriminate|discriminate].
    apply (read_normal_ok _ line C) in EN. destruct EN as (rest & EN). cbn [bindO] in H.
    destruct (read_vertex D scan_double (store (hd [] (tl ps)) (store (hd [] ps) b))) as [p0| |] eqn:E0; [|discriminate|discriminate]. cbn [bindO] in H.
    destruct (read_vertex D scan_double (store (hd [] (tl (tl ps))) _)) as [p1| |] eqn:E1; [|discriminate|discriminate]. cbn [bindO] in H.
    destruct (read_vertex D scan_double (store (hd [] (tl (tl (tl ps)))) _)) as [p2| |] eqn:E2; [|discriminate|discriminate]. cbn [bindO] in H.
    apply read_vertex_ok in E0; [|exact N1]. apply read_vertex_ok in E1; [|exact N2]. apply read_vertex_ok in E2; [|exact N3].
    injection H as <- <- _.
    destruct ps as [|loop [|l0 [|l1 [|l2 ls]]]]; try (exfalso; cbn [tl hd] in E2; now apply vertex_nonempty in E2).
    exists rest, loop, l0, l1, l2, ls, p0, p1, p2. cbn [tl hd] in *. rewrite <- tl_tl.
    repeat (split; [assumption || reflexivity|]). reflexivity.
  - intros (rest & loop & l0 & l1 & l2 & ls & p0 & p1 & p2 & EN & -> & V0 & V1 & V2 & -> & ->). cbn [tl hd] in *.
    rewrite <- tl_tl.
    assert (read_normal (skipn next b) = Ok tt) as -> by (apply (read_normal_ok _ line C); eauto). cbn [bindO].
    rewrite (proj2 (read_vertex_ok _ _ p0 N1) V0). cbn [bindO]. rewrite (proj2 (read_vertex_ok _ _ p1 N2) V1). cbn [bindO].
    rewrite (proj2 (read_vertex_ok _ _ p2 N3) V2). cbn [bindO]. eexists. reflexivity.
Qed.

Lemma Forall_skipn : forall A (P : A -> Prop) n l, Forall P l -> Forall P (skipn n l).
Proof. intros A P n l F. apply Forall_forall. intros x I. apply In_skipn in I. revert x I. now apply Forall_forall. Qed.

Lemma loop_ok : forall k ps, (List.length ps <= k)%nat -> Forall plain ps -> forall saved fuel b token width e acc r,
  (List.length ps < fuel)%nat ->
  (fst (read_loop D L scan_double c_locale saved fuel (stream_of ps) b token width e acc) = Ok r <->
   exists fs e', gives D scan_double ps fs e' /\ e || e' = true /\ r = rev acc ++ fs).
Proof.
  induction k as [|k IH]; intros ps Lk F saved fuel b token width e acc r Lf.
  - destruct ps as [|p ps]; [|cbn in Lk; lia]. destruct fuel as [|fuel]; [lia|]. cbn [read_loop stream_of snd].
    destruct e; cbn [fst]; split.
    + intros H. injection H as <-. exists [], false. split; [constructor|]. split; [reflexivity|]. now rewrite app_nil_r.
    + intros (fs & e' & G & _ & ->). inversion G; subst. now rewrite app_nil_r.
    + discriminate.
    + intros (fs & e' & G & E & ->). inversion G; subst. discriminate.
  - destruct ps as [|p ps].
    { apply IH; [cbn; lia|constructor|cbn; lia]. }
    destruct fuel as [|fuel]; [lia|]. cbn [List.length] in Lk, Lf. inversion F as [|? ? P F']; subst.
    cbn [read_loop]. change (snd (stream_of (p :: ps))) with true. cbv iota.
    rewrite (get_line_pieces (p :: ps)) by assumption. cbv iota beta. cbn [hd tl].
    destruct P as (Le & N0 & N10 & C). rewrite cstr_store0 by assumption.
    assert (plain p) as P by (repeat split; assumption).
    destruct (line_cases p P) as [[S [En|(c & t & En & Ec)]]|[S (c & t & w & wid & rest & En & Ec & Ew & Fw & Er & Lw)]]; rewrite En; cbv iota zeta.
    + rewrite IH by (assumption || lia). split; intros (fs & e' & G & E & ->); exists fs, e'.
      * split; [now constructor|]. split; [exact E|reflexivity].
      * inversion G; subst; try contradiction. split; [assumption|]. split; [exact E|reflexivity].
    + fold (comment c). rewrite Ec. cbv iota. rewrite IH by (assumption || lia). split; intros (fs & e' & G & E & ->); exists fs, e'.
      * split; [now constructor|]. split; [exact E|reflexivity].
      * inversion G; subst; try contradiction. split; [assumption|]. split; [exact E|reflexivity].
    + fold (comment c). rewrite Ec. cbv iota. rewrite Ew. cbv iota beta.
      assert (forall w' r', first_word p w' r' -> w' = w /\ r' = rest) as U by (intros w' r' H; apply (first_word_fun p _ _ _ _ H Fw)).
      destruct (same w (codes "facet")) eqn:E1.
      * apply same_iff in E1. subst w.
        assert (cstr (skipn (leading_spaces p + wid) (store p b)) = Ok rest) as Cr by (rewrite cstr_store by assumption; now rewrite Er).
        split.
        -- destruct (read_facet D scan_double (stream_of ps) (store p b) (leading_spaces p + wid)) as [[[f s] b']| |] eqn:ER; [|discriminate|discriminate].
           destruct (proj1 (read_facet_ok ps (store p b) _ rest F' Cr f s) (ex_intro _ b' ER))
             as (rest' & loop & l0 & l1 & l2 & ls & p0 & p1 & p2 & Fn & -> & V0 & V1 & V2 & -> & ->).
           assert (Forall plain ls) as Fl by (do 4 (apply Forall_inv_tail in F'); exact F').
           rewrite IH; [|rewrite skipn_length; cbn in Lk; lia|now apply Forall_skipn|rewrite skipn_length; cbn in Lf; lia].
           intros (fs & e' & G & E & ->). exists ([p0; p1; p2] :: fs), e'. split; [|split; [exact E|]].
           ++ apply gives_facet; try assumption. exists rest, rest'. split; assumption.
           ++ cbn [rev]. now rewrite <- app_assoc.
        -- intros (fs & e' & G & E & ->). inversion G as [|? ? ? ? Sk|? ? ? ? r' w' _ Fw' I|? ? ? ? r' _ Fw'|? loop l0 l1 l2 ls p0 p1 p2 fs' ? _ FL V0 V1 V2 G']; subst.
           ++ contradiction.
           ++ exfalso. destruct (U _ _ Fw') as [-> _]. destruct I as [I|[I|[]]]; discriminate I.
           ++ exfalso. destruct (U _ _ Fw') as [I _]. discriminate I.
           ++ destruct FL as (r1 & r2 & Fa & Fb). destruct (U _ _ Fa) as [_ ->].
              assert (Forall plain ls) as Fl by (do 4 (apply Forall_inv_tail in F'); exact F').
              destruct (proj2 (read_facet_ok (loop :: l0 :: l1 :: l2 :: ls) (store p b) _ _ F' Cr [p0; p1; p2] (stream_of (skipn 2 ls)))) as (b' & ->).
              { exists r2, loop, l0, l1, l2, ls, p0, p1, p2. repeat (split; [assumption || reflexivity|]). reflexivity. }
              apply IH; [rewrite skipn_length; cbn in Lk; lia|now apply Forall_skipn|rewrite skipn_length; cbn in Lf; lia|].
              exists fs', e'. split; [assumption|]. split; [exact E|]. cbn [rev]. now rewrite <- app_assoc.
      * assert (w <> codes "facet") as N1 by (intros ->; rewrite same_refl in E1; discriminate).
        assert (forall fs e', gives D scan_double (p :: ps) fs e' -> In w [codes "solid"; codes "color"] /\ gives D scan_double ps fs e' \/
          w = codes "endsolid" /\ e' = true /\ exists e'', gives D scan_double ps fs e'') as GI.
        { intros fs e' G. inversion G as [|? ? ? ? Sk|? ? ? ? r' w' _ Fw' I G'|? ? ? e'' r' _ Fw' G'|? loop l0 l1 l2 ls p0 p1 p2 fs' ? _ FL V0 V1 V2 G']; subst.
          - contradiction.
          - destruct (U _ _ Fw') as [-> _]. left. split; assumption.
          - destruct (U _ _ Fw') as [<- _]. right. split; [reflexivity|]. split; [reflexivity|]. now exists e''.
          - exfalso. destruct FL as (r1 & r2 & Fa & Fb). destruct (U _ _ Fa) as [I _]. now apply N1. }
        destruct (same w (codes "color")) eqn:E2.
        { apply same_iff in E2. subst w. rewrite cstr_store by assumption. cbv iota beta. rewrite IH by (assumption || lia). split; intros (fs & e' & G & E & ->); exists fs, e'.
          - split; [|split; [exact E|reflexivity]]. apply (gives_solid _ _ p ps fs e' rest (codes "color")); try assumption. right; left; reflexivity.
          - destruct (GI _ _ G) as [[_ G']|[I _]]; [|discriminate I]. split; [assumption|]. split; [exact E|reflexivity]. }
        destruct (same w (codes "solid")) eqn:E3.
        { apply same_iff in E3. subst w. rewrite IH by (assumption || lia). split; intros (fs & e' & G & E & ->); exists fs, e'.
          - split; [|split; [exact E|reflexivity]]. apply (gives_solid _ _ p ps fs e' rest (codes "solid")); try assumption. left; reflexivity.
          - destruct (GI _ _ G) as [[_ G']|[I _]]; [|discriminate I]. split; [assumption|]. split; [exact E|reflexivity]. }
        destruct (same w (codes "endsolid")) eqn:E4.
        { apply same_iff in E4. subst w. rewrite IH by (assumption || lia). split.
          - intros (fs & e' & G & E & ->). exists fs, true. split; [|split; [apply orb_true_r|reflexivity]].
            apply (gives_endsolid _ _ p ps fs e' rest); assumption.
          - intros (fs & e' & G & E & ->). destruct (GI _ _ G) as [[I _]|(_ & -> & e'' & G')]; [destruct I as [I|[I|[]]]; discriminate I|].
            exists fs, e''. split; [exact G'|]. split; reflexivity. }
        split; [discriminate|]. intros (fs & e' & G & E & ->). exfalso.
        destruct (GI _ _ G) as [[I _]|(-> & _)]; [|now rewrite same_refl in E4].
        destruct I as [<-|[<-|[]]]; [rewrite same_refl in E3|rewrite same_refl in E2]; discriminate.
Qed.
End Reader.
