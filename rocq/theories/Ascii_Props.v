(** ASCII STL files: what is read, what is refused, and what is left undefined. *)
From Coq Require Import ZArith List Bool Lia String.
From Verif Require Import Common Stl_Model Stl_Props Ascii_Model Ascii_Spec Ascii_Proofs.
Import ListNotations.
Open Scope Z_scope.

Lemma text_length : forall l ls, (List.length ls <= List.length (text_of (l :: ls)))%nat.
Proof.
  intros l ls. revert l. induction ls as [|a ls IH]; intros l; [cbn; lia|].
  change (text_of (l :: a :: ls)) with (l ++ 10 :: text_of (a :: ls)). rewrite app_length. cbn [List.length]. specialize (IH a). lia.
Qed.

(** ** C157. A text made of a first line and of lines that the reader can tell apart is read if and only if these lines give
    facets and have an endsolid, and what is read is these facets, in this order. *)
Theorem ascii_stl_reading : forall D L scan_double (c_locale saved : L) header lines fs,
  (List.length header <= 255)%nat -> ~ In 10 header -> Forall plain lines ->
  (fst (read_ascii_stl D L scan_double c_locale saved (text_of (header :: lines))) = Ok fs <-> gives D scan_double lines fs true).
Proof.
  intros D L scan_double c_locale saved header lines fs Le N F. unfold read_ascii_stl. rewrite get_line_first by assumption.
  rewrite (loop_ok D L scan_double c_locale _ lines (le_n _) F) by (pose proof (text_length header lines); lia). cbn [rev app orb]. split.
  - intros (fs' & e' & G & -> & ->). exact G.
  - intros G. exists fs, true. repeat split. exact G.
Qed.
Print Assumptions ascii_stl_reading.

(** The same for the function that chooses between the two formats: the first line is solid (or SOLID) and a name, after
    any number of spaces and tabs. *)
Theorem ascii_stl_file : forall D L scan_double (c_locale saved : L) peeks widen blanks solid name lines fs,
  Forall blank blanks -> In solid [codes "solid "; codes "SOLID "] -> ~ In 10 name ->
  (List.length (blanks ++ solid ++ name) <= 255)%nat -> Forall plain lines ->
  (fst (read_stl_file D L scan_double c_locale peeks widen saved (text_of ((blanks ++ solid ++ name) :: lines))) = Ok fs <->
   gives D scan_double lines fs true).
Proof.
  intros D L scan_double c_locale saved peeks widen blanks solid name lines fs B S N Le F.
  set (header := blanks ++ solid ++ name).
  assert (~ In 10 header) as Nh.
  { unfold header. rewrite !in_app_iff. intros [I|[I|I]]; [| |contradiction].
    - rewrite Forall_forall in B. destruct (B _ I); lia.
    - destruct S as [<-|[<-|[]]]; vm_compute in I; intuition discriminate. }
  assert (exists c t, ~ blank c /\ text_of (header :: lines) = blanks ++ c :: t /\ (has_prefix text_solid (c :: t) \/ has_prefix text_SOLID (c :: t))) as (c & t & Nb & E & P).
  { assert (exists t, text_of (header :: lines) = blanks ++ solid ++ t) as (t & E).
    { unfold header. destruct lines as [|l ls].
      - exists name. reflexivity.
      - change (text_of ((blanks ++ solid ++ name) :: l :: ls)) with ((blanks ++ solid ++ name) ++ 10 :: text_of (l :: ls)).
        exists (name ++ 10 :: text_of (l :: ls)). now rewrite <- !app_assoc. }
    rewrite E. destruct S as [<-|[<-|[]]].
    - exists 115, ([111; 108; 105; 100; 32] ++ t). split; [intros [H|H]; discriminate|]. split; [reflexivity|]. left. exists t. reflexivity.
    - exists 83, ([79; 76; 73; 68; 32] ++ t). split; [intros [H|H]; discriminate|]. split; [reflexivity|]. right. exists t. reflexivity. }
  unfold read_stl_file. rewrite E. destruct (stl_format_detection blanks c t B Nb) as (b & Eb & Pb). rewrite Eb.
  destruct b; [exfalso; pose proof (proj2 Pb P); discriminate|]. rewrite <- E. now apply ascii_stl_reading.
Qed.
Print Assumptions ascii_stl_file.

(** A toy [%lf]: a digit after white space. *)
Definition digit (s : list Z) : option (Z * list Z) :=
  match snd (span is_space s) with c :: t => if (48 <=? c) && (c <=? 57) then Some (c - 48, t) else None | [] => None end.
Definition two_facets : list (list Z) := map codes [
  "# made by hand"; " facet normal 0 0 1"; "  outer loop"; "   vertex 0 0 0"; "   vertex 1 0 0"; "   vertex 0 1 0"; "  endloop"; " endfacet";
  ""; "color x 1 1 1 1";
  " facet normal 0 0 1 "; "  outer loop"; "   vertex 1 0 0"; "   vertex 1 1 2"; "   vertex 0 1 0"; "  endloop"; " endfacet"; "endsolid cube"; ""]%string.
Definition read_toy (l : list (list Z)) := fst (read_stl_file Z unit digit tt false (fun z => z) tt (text_of (codes "solid cube" :: l))).
Definition pt (x y z : Z) : point Z := (Some x, Some y, Some z).

Lemma plain_dec : forall l, (Nat.leb (List.length l) 255 && forallb (fun c => negb (c =? 0) && negb (c =? 10)) l &&
  (match skipn (leading_spaces l) l with [] => true | c :: _ => comment c || match scan_word l with Some _ => true | None => false end end))%bool = true -> plain l.
Proof.
  intros l. rewrite !andb_true_iff. intros [[Le F] C]. apply Nat.leb_le in Le. rewrite forallb_forall in F.
  split; [exact Le|]. split; [intros I; apply F in I; discriminate|]. split; [intros I; apply F in I; discriminate|].
  destruct (scan_word l) as [[w n]|] eqn:E.
  - right. apply scan_word_some in E. destruct E as [E _]. eauto.
  - left. apply skipped_iff. destruct (skipn (leading_spaces l) l) as [|c t]; [now left|]. right. exists c, t. split; [reflexivity|].
    now rewrite orb_false_r in C.
Qed.
Lemma all_plain : forall ls, forallb (fun l => (Nat.leb (List.length l) 255 && forallb (fun c => negb (c =? 0) && negb (c =? 10)) l &&
  (match skipn (leading_spaces l) l with [] => true | c :: _ => comment c || match scan_word l with Some _ => true | None => false end end))%bool) ls = true -> Forall plain ls.
Proof. intros ls. rewrite forallb_forall. intros F. apply Forall_forall. intros l I. now apply plain_dec, F. Qed.

Example two_facets_read : Forall plain two_facets /\
  read_toy two_facets = Ok [[pt 0 0 0; pt 1 0 0; pt 0 1 0]; [pt 1 0 0; pt 1 1 2; pt 0 1 0]] /\
  gives Z digit two_facets [[pt 0 0 0; pt 1 0 0; pt 0 1 0]; [pt 1 0 0; pt 1 1 2; pt 0 1 0]] true.
Proof.
  assert (Forall plain two_facets) as F by (apply all_plain; vm_compute; reflexivity).
  split; [exact F|]. split; [vm_compute; reflexivity|].
  apply (ascii_stl_reading Z unit digit tt tt (codes "solid cube")); [cbn; lia|vm_compute; intuition discriminate|exact F|vm_compute; reflexivity].
Qed.

(** A file whose first line is solid alone is not recognised as a text. *)
Theorem ascii_unnamed_solid_is_binary : forall D L scan_double (c_locale saved : L) peeks widen rest,
  read_stl_file D L scan_double c_locale peeks widen saved (codes "solid" ++ 10 :: rest) =
  (do fs <- read_binary_stl peeks (codes "solid" ++ 10 :: rest) ;
   Ok (map (map (fun '(x, y, z) => (Some (widen x), Some (widen y), Some (widen z)))) fs), saved).
Proof.
  intros. unfold read_stl_file. destruct (stl_format_detection [] 115 ([111; 108; 105; 100] ++ 10 :: rest)) as (b & E & P); [constructor|intros [H|H]; discriminate|].
  change (codes "solid" ++ 10 :: rest) with ([] ++ 115 :: [111; 108; 105; 100] ++ 10 :: rest). rewrite E. destruct b; [reflexivity|].
  exfalso. destruct (proj1 P eq_refl) as [(u & H)|(u & H)]; injection H; intros; discriminate.
Qed.
Print Assumptions ascii_unnamed_solid_is_binary.

(** ** C158. Damaged files. *)
(** A text without endsolid is never accepted, whatever else it contains. *)
Definition occurs (word text : list Z) : Prop := exists a b, text = a ++ word ++ b.
Definition suffix (b a : list Z) : Prop := exists p, a = p ++ b.
Lemma suffix_refl : forall a, suffix a a.
Proof. intros a. now exists []. Qed.
Lemma suffix_trans : forall a b c, suffix a b -> suffix b c -> suffix a c.
Proof. intros a b c (p & ->) (q & ->). exists (q ++ p). now rewrite app_assoc. Qed.
Lemma occurs_suffix : forall w a b, occurs w b -> suffix b a -> occurs w a.
Proof. intros w a b (x & y & ->) (p & ->). exists (p ++ x), y. now rewrite <- app_assoc. Qed.
Lemma take_line_parts : forall l n p s, take_line n l = (p, s) -> suffix (fst s) l /\ exists r, l = p ++ r.
Proof.
  induction l as [|c t IH]; intros n p s H; cbn [take_line] in H.
  - injection H as <- <-. split; [apply suffix_refl|now exists []].
  - destruct (c =? 10).
    + injection H as <- <-. split; [now exists [c]|now exists (c :: t)].
    + destruct n as [|n].
      * injection H as <- <-. split; [apply suffix_refl|now exists (c :: t)].
      * destruct (take_line n t) as [a s'] eqn:E. injection H as <- <-. destruct (IH _ _ _ E) as [S (r & ->)].
        split; [|now exists r]. destruct S as (q & Eq). exists (c :: q). cbn. now rewrite <- Eq.
Qed.
Lemma get_line_parts : forall s b b' s', get_line s b = (b', s') -> suffix (fst s') (fst s) /\ exists p, b' = store p b /\ exists r, fst s = p ++ r.
Proof.
  intros [l g] b b' s' H. unfold get_line in H. cbn [snd fst] in H. destruct g.
  - destruct (take_line 255 l) as [p s2] eqn:E. injection H as <- <-. destruct (take_line_parts _ _ _ _ E) as [S R].
    split; [exact S|]. exists p. split; [reflexivity|exact R].
  - injection H as <- <-. split; [apply suffix_refl|]. exists []. split; [reflexivity|now exists l].
Qed.
Lemma cstr_prefix : forall p b s, cstr (store p b) = Ok s -> exists r, p = s ++ r.
Proof.
  intros p b. unfold store. generalize (skipn (S (List.length p)) b). induction p as [|c t IH]; intros r s H; cbn [map app cstr] in H.
  - cbn in H. injection H as <-. now exists [].
  - destruct (c =? 0); [injection H as <-; now exists (c :: t)|]. destruct (cstr (map Some t ++ Some 0 :: r)) as [s'| |] eqn:E; [|discriminate|discriminate].
    cbn [bindO] in H. injection H as <-. destruct (IH _ _ E) as (q & ->). now exists q.
Qed.

Section Damaged.
Variables D L : Type.
Variable scan_double : list Z -> option (D * list Z).
Variable c_locale : L.
Notation loop := (read_loop D L scan_double c_locale).

Lemma read_facet_stream : forall s b next f s' b', read_facet D scan_double s b next = Ok (f, s', b') -> suffix (fst s') (fst s).
Proof.
  intros s b next f s' b' H. unfold read_facet in H.
  repeat match type of H with
  | context [get_line ?s ?b] => let b1 := fresh "b" in let s1 := fresh "s" in let E := fresh "E" in destruct (get_line s b) as [b1 s1] eqn:E; apply get_line_parts in E; destruct E as [E _]
  end.
  repeat match type of H with
  | bindO ?x _ = _ => let y := fresh in destruct x as [y| |]; [cbn [bindO] in H|discriminate|discriminate]
  end.
  injection H as _ <- _. eauto 10 using suffix_trans.
Qed.

Lemma loop_ok_occurs : forall input saved fuel s b token width e acc fs,
  suffix (fst s) input -> (token = Some (codes "endsolid") -> occurs (codes "endsolid") input) -> (e = true -> occurs (codes "endsolid") input) ->
  fst (loop saved fuel s b token width e acc) = Ok fs -> occurs (codes "endsolid") input.
Proof.
  intros input saved fuel. induction fuel as [|fuel IH]; intros s b token width e acc fs S T E H; cbn [read_loop] in H; [discriminate|].
  destruct (snd s) eqn:G; [|destruct e; [now apply E|discriminate]].
  destruct (get_line s b) as [b1 s1] eqn:EL. apply get_line_parts in EL. destruct EL as (S1 & p & -> & r & Ep).
  pose proof (suffix_trans _ _ _ S1 S) as S1'.
  destruct (cstr (store p b)) as [line| |] eqn:EC; [|discriminate|discriminate]. apply cstr_prefix in EC. destruct EC as (r2 & ->).
  cbv zeta in H. destruct (skipn (leading_spaces line) line) as [|c t] eqn:Es; [now apply (IH _ _ _ _ _ _ _ S1' T E H)|].
  destruct ((c =? 35) || (c =? 33) || (c =? 36)); [now apply (IH _ _ _ _ _ _ _ S1' T E H)|].
  destruct (match scan_word (c :: t) with Some (t0, w) => (Some t0, w) | None => (token, width) end) as [token' width'] eqn:Et.
  assert (token' = Some (codes "endsolid") -> occurs (codes "endsolid") input) as T'.
  { intros ->. destruct (scan_word (c :: t)) as [[w n]|] eqn:Ew; [|apply T; congruence]. injection Et as -> _.
    apply scan_word_some in Ew. destruct Ew as [(bl & Ew & _) _]. apply (occurs_suffix _ _ (fst s)); [|exact S].
    rewrite Ep, <- (firstn_skipn (leading_spaces line) line), Es, Ew. exists (firstn (leading_spaces line) line ++ bl), (skipn n (c :: t) ++ r2 ++ r).
    now rewrite <- !app_assoc. }
  destruct token' as [w|]; [|discriminate].
  destruct (same w (codes "facet")).
  - destruct (read_facet D scan_double s1 (store (line ++ r2) b) (leading_spaces line + width')) as [[[f s2] b2]| |] eqn:ER; [|discriminate|discriminate].
    apply read_facet_stream in ER. apply (IH _ _ _ _ _ _ _ (suffix_trans _ _ _ ER S1') T' E H).
  - destruct (same w (codes "color")).
    { destruct (cstr (skipn _ _)); [|discriminate|discriminate]. now apply (IH _ _ _ _ _ _ _ S1' T' E H). }
    destruct (same w (codes "solid")); [now apply (IH _ _ _ _ _ _ _ S1' T' E H)|].
    destruct (same w (codes "endsolid")) eqn:E4; [|discriminate]. apply same_iff in E4. subst w.
    apply (IH _ _ _ _ _ _ _ S1' T' (fun _ => T' eq_refl) H).
Qed.

Lemma loop_locale : forall saved fuel s b token width e acc,
  match loop saved fuel s b token width e acc with (Ok _, l) => l = saved | (Throw, l) => l = saved \/ l = c_locale | (UB, _) => True end.
Proof.
  intros saved fuel. induction fuel as [|fuel IH]; intros s b token width e acc; cbn [read_loop]; [exact I|].
  destruct (snd s); [|destruct e; [reflexivity|now right]].
  destruct (get_line s b) as [b1 s1]. destruct (cstr b1) as [line| |]; [|exact I|exact I]. cbv zeta.
  destruct (skipn (leading_spaces line) line) as [|c t]; [apply IH|]. destruct ((c =? 35) || (c =? 33) || (c =? 36)); [apply IH|].
  destruct (match scan_word (c :: t) with Some (t0, w) => (Some t0, w) | None => (token, width) end) as [token' width'].
  destruct token' as [w|]; [|exact I].
  destruct (same w (codes "facet")).
  { destruct (read_facet D scan_double s1 b1 (leading_spaces line + width')) as [[[f s2] b2]| |]; [apply IH|now right|exact I]. }
  destruct (same w (codes "color")).
  { destruct (cstr (skipn _ _)); [apply IH|exact I|exact I]. }
  destruct (same w (codes "solid")); [apply IH|]. destruct (same w (codes "endsolid")); [apply IH|now left].
Qed.

(** The number of iterations is not limited by the model. *)
Definition left_to_read (s : stream) : nat := (List.length (fst s) + if snd s then 1 else 0)%nat.
Lemma take_line_less : forall l n p s, take_line n l = (p, s) -> (left_to_read s < S (List.length l))%nat.
Proof.
  induction l as [|c t IH]; intros n p s H; cbn [take_line] in H.
  - injection H as <- <-. cbn. lia.
  - destruct (c =? 10).
    + injection H as <- <-. cbn. lia.
    + destruct n as [|n].
      * injection H as <- <-. cbn. lia.
      * destruct (take_line n t) as [a s'] eqn:E. injection H as <- <-. apply IH in E. cbn [List.length]. lia.
Qed.
Lemma get_line_less : forall s b b' s', get_line s b = (b', s') -> (left_to_read s' <= left_to_read s)%nat /\ (snd s = true -> (left_to_read s' < left_to_read s)%nat).
Proof.
  intros [l g] b b' s' H. unfold get_line in H. cbn [snd fst] in H. destruct g.
  - destruct (take_line 255 l) as [p s2] eqn:E. injection H as _ <-. apply take_line_less in E. unfold left_to_read at 2 4. cbn [fst snd]. lia.
  - injection H as _ <-. split; [lia|discriminate].
Qed.
Lemma read_facet_less : forall s b next f s' b', read_facet D scan_double s b next = Ok (f, s', b') -> (left_to_read s' <= left_to_read s)%nat.
Proof.
  intros s b next f s' b' H. unfold read_facet in H.
  repeat match type of H with
  | context [get_line ?s ?b] => let b1 := fresh "b" in let s1 := fresh "s" in let E := fresh "E" in destruct (get_line s b) as [b1 s1] eqn:E; apply get_line_less in E; destruct E as [E _]
  end.
  repeat match type of H with
  | bindO ?x _ = _ => let y := fresh in destruct x as [y| |]; [cbn [bindO] in H|discriminate|discriminate]
  end.
  injection H as _ <- _. lia.
Qed.
Lemma enough_fuel : forall saved n m s b token width e acc, (left_to_read s < n)%nat -> (left_to_read s < m)%nat ->
  loop saved n s b token width e acc = loop saved m s b token width e acc.
Proof.
  intros saved n. induction n as [|n IH]; intros m s b token width e acc Ln Lm; [lia|]. destruct m as [|m]; [lia|]. cbn [read_loop].
  destruct (snd s) eqn:G; [|reflexivity]. destruct (get_line s b) as [b1 s1] eqn:EL. apply get_line_less in EL. destruct EL as [_ EL]. specialize (EL G).
  destruct (cstr b1) as [line| |]; [|reflexivity|reflexivity]. cbv zeta.
  destruct (skipn (leading_spaces line) line) as [|c t]; [apply IH; lia|]. destruct ((c =? 35) || (c =? 33) || (c =? 36)); [apply IH; lia|].
  destruct (match scan_word (c :: t) with Some (t0, w) => (Some t0, w) | None => (token, width) end) as [token' width'].
  destruct token' as [w|]; [|reflexivity].
  destruct (same w (codes "facet")).
  { destruct (read_facet D scan_double s1 b1 (leading_spaces line + width')) as [[[f s2] b2]| |] eqn:ER; [|reflexivity|reflexivity].
    apply read_facet_less in ER. apply IH; lia. }
  destruct (same w (codes "color")).
  { destruct (cstr (skipn _ _)); [apply IH; lia|reflexivity|reflexivity]. }
  destruct (same w (codes "solid")); [apply IH; lia|]. destruct (same w (codes "endsolid")); [apply IH; lia|reflexivity].
Qed.

(** Two streams with the same future. *)
Definition alike_streams (s s' : stream) : Prop := (snd s = false /\ snd s' = false) \/
  exists ps l after, Forall (fun p => (List.length p <= 255)%nat /\ ~ In 10 p) ps /\ ~ In 10 l /\ (255 < List.length l)%nat /\
    s = (text_of (ps ++ l :: after), true) /\ s' = (text_of (ps ++ [firstn 255 l]), true).
Lemma take_line_long : forall l n r, ~ In 10 l -> (n < List.length l)%nat -> exists s, take_line n (l ++ r) = (firstn n l, s) /\ snd s = false.
Proof.
  induction l as [|c t IH]; intros n r N Ln; [cbn in Ln; lia|]. cbn [take_line app]. destruct (Z.eqb_spec c 10) as [->|_]; [exfalso; apply N; now left|].
  destruct n as [|n]; [eexists; split; reflexivity|]. destruct (IH n r) as (s & E & Es); [intros H; apply N; now right|cbn in Ln; lia|].
  rewrite E. exists s. split; [reflexivity|exact Es].
Qed.
Lemma text_of_long : forall l after, exists r, text_of (l :: after) = l ++ r.
Proof. intros l [|a after]; [exists []; symmetry; apply app_nil_r|eexists; reflexivity]. Qed.
Lemma get_line_alike : forall s s' b, alike_streams s s' ->
  exists b1 s1 s1', get_line s b = (b1, s1) /\ get_line s' b = (b1, s1') /\ alike_streams s1 s1'.
Proof.
  intros s s' b [[E E']|(ps & l & after & F & N & Ll & -> & ->)].
  - unfold get_line. rewrite E, E'. do 3 eexists. split; [reflexivity|]. split; [reflexivity|]. now left.
  - unfold get_line. cbn [snd fst]. destruct ps as [|p ps]; cbn [app].
    + destruct (text_of_long l after) as (r & ->). destruct (take_line_long l 255 r N Ll) as (s1 & -> & Es).
      cbn [text_of]. rewrite take_line_last.
      * do 3 eexists. split; [reflexivity|]. split; [reflexivity|]. left. split; [exact Es|reflexivity].
      * intros H. apply N. rewrite <- (firstn_skipn 255 l). apply in_app_iff. now left.
      * rewrite firstn_length. lia.
    + inversion F as [|? ? [Lp Np] F']; subst.
      assert (forall q x, text_of (p :: (ps ++ q :: x)) = p ++ 10 :: text_of (ps ++ q :: x)) as TO.
      { intros q x. destruct ps; reflexivity. }
      rewrite !TO, !take_line_piece by assumption. do 3 eexists. split; [reflexivity|]. split; [reflexivity|].
      right. exists ps, l, after. repeat (split; [assumption|]). split; reflexivity.
Qed.
Lemma read_facet_alike : forall s s' b next, alike_streams s s' ->
  match read_facet D scan_double s b next, read_facet D scan_double s' b next with
  | Ok (f, s1, b1), Ok (f', s1', b1') => f = f' /\ b1 = b1' /\ alike_streams s1 s1'
  | Throw, Throw => True | UB, UB => True | _, _ => False
  end.
Proof.
  intros s s' b next A. unfold read_facet.
  destruct (get_line_alike s s' b A) as (b1 & s1 & s1' & E1 & E1' & A1). rewrite E1, E1'.
  destruct (get_line_alike s1 s1' b1 A1) as (b2 & s2 & s2' & E2 & E2' & A2). rewrite E2, E2'.
  destruct (get_line_alike s2 s2' b2 A2) as (b3 & s3 & s3' & E3 & E3' & A3). rewrite E3, E3'.
  destruct (get_line_alike s3 s3' b3 A3) as (b4 & s4 & s4' & E4 & E4' & A4). rewrite E4, E4'.
  destruct (get_line_alike s4 s4' b4 A4) as (b5 & s5 & s5' & E5 & E5' & A5). rewrite E5, E5'.
  destruct (get_line_alike s5 s5' b5 A5) as (b6 & s6 & s6' & E6 & E6' & A6). rewrite E6, E6'.
  destruct (read_normal (skipn next b)); cbn [bindO]; [|exact I|exact I].
  destruct (read_vertex D scan_double b2); cbn [bindO]; [|exact I|exact I].
  destruct (read_vertex D scan_double b3); cbn [bindO]; [|exact I|exact I].
  destruct (read_vertex D scan_double b4); cbn [bindO]; [|exact I|exact I].
  split; [reflexivity|]. split; [reflexivity|exact A6].
Qed.
Lemma alike_snd : forall s s', alike_streams s s' -> snd s = snd s'.
Proof. intros s s' [[E E']|(ps & l & after & _ & _ & _ & -> & ->)]; [congruence|reflexivity]. Qed.
Lemma loop_alike : forall saved n s s' b token width e acc, alike_streams s s' ->
  loop saved n s b token width e acc = loop saved n s' b token width e acc.
Proof.
  intros saved n. induction n as [|n IH]; intros s s' b token width e acc A; cbn [read_loop]; [reflexivity|].
  rewrite <- (alike_snd _ _ A). destruct (snd s); [|reflexivity].
  destruct (get_line_alike s s' b A) as (b1 & s1 & s1' & -> & -> & A1).
  destruct (cstr b1) as [line| |]; [|reflexivity|reflexivity]. cbv zeta.
  destruct (skipn (leading_spaces line) line) as [|c t]; [now apply IH|]. destruct ((c =? 35) || (c =? 33) || (c =? 36)); [now apply IH|].
  destruct (match scan_word (c :: t) with Some (t0, w) => (Some t0, w) | None => (token, width) end) as [token' width'].
  destruct token' as [w|]; [|reflexivity].
  destruct (same w (codes "facet")).
  { pose proof (read_facet_alike s1 s1' b1 (leading_spaces line + width') A1) as R.
    destruct (read_facet D scan_double s1 b1 _) as [[[f s2] b2]| |]; destruct (read_facet D scan_double s1' b1 _) as [[[f' s2'] b2']| |]; try contradiction; try reflexivity.
    destruct R as (-> & -> & A2). now apply IH. }
  destruct (same w (codes "color")).
  { destruct (cstr (skipn _ _)); [now apply IH|reflexivity|reflexivity]. }
  destruct (same w (codes "solid")); [now apply IH|]. destruct (same w (codes "endsolid")); [now apply IH|reflexivity].
Qed.
End Damaged.

Theorem ascii_truncation_reported : forall D L scan_double (c_locale saved : L) input fs,
  fst (read_ascii_stl D L scan_double c_locale saved input) = Ok fs -> occurs (codes "endsolid") input.
Proof.
  intros D L scan_double c_locale saved input fs H. unfold read_ascii_stl in H.
  destruct (get_line (input, true) (repeat None 256)) as [b s] eqn:E. apply get_line_parts in E. destruct E as [S _].
  apply (loop_ok_occurs D L scan_double c_locale input _ _ _ _ _ _ _ _ _ S) in H; [exact H|discriminate|discriminate].
Qed.
Print Assumptions ascii_truncation_reported.
Example truncated : fst (read_ascii_stl Z unit digit tt tt (text_of (codes "solid cube" :: removelast (removelast two_facets)))) = Throw.
Proof. vm_compute. reflexivity. Qed.

(** A line of more than 255 characters ends the reading: what follows it is ignored. *)
Theorem ascii_long_line_ends_reading : forall D L scan_double (c_locale saved : L) header lines l after,
  Forall (fun p => (List.length p <= 255)%nat /\ ~ In 10 p) (header :: lines) -> ~ In 10 l -> (255 < List.length l)%nat ->
  read_ascii_stl D L scan_double c_locale saved (text_of (header :: lines ++ l :: after)) =
  read_ascii_stl D L scan_double c_locale saved (text_of (header :: lines ++ [firstn 255 l])).
Proof.
  intros D L scan_double c_locale saved header lines l after F N Ll. unfold read_ascii_stl. inversion F as [|? ? [Lh Nh] F']; subst.
  rewrite !get_line_first by assumption.
  assert (forall q x, stream_of (lines ++ q :: x) = (text_of (lines ++ q :: x), true)) as SO by (intros; destruct lines; reflexivity).
  rewrite !SO.
  rewrite (loop_alike D L scan_double c_locale saved _ _ (text_of (lines ++ [firstn 255 l]), true)).
  - apply enough_fuel; unfold left_to_read; cbn [fst snd].
    + assert (forall q x, text_of (header :: lines ++ q :: x) = header ++ 10 :: text_of (lines ++ q :: x)) as TO by (intros; destruct lines; reflexivity).
      rewrite TO, app_length. cbn [List.length].
      assert (List.length (text_of (lines ++ [firstn 255 l])) <= List.length (text_of (lines ++ l :: after)))%nat; [|lia].
      clear. induction lines as [|p ps IH]; cbn [app].
      * destruct (text_of_long l after) as (r & ->). cbn [text_of]. rewrite app_length, firstn_length. lia.
      * assert (forall q x, text_of (p :: ps ++ q :: x) = p ++ 10 :: text_of (ps ++ q :: x)) as TO by (intros; destruct ps; reflexivity).
        rewrite !TO, !app_length. cbn [List.length]. lia.
    + assert (forall q x, text_of (header :: lines ++ q :: x) = header ++ 10 :: text_of (lines ++ q :: x)) as TO by (intros; destruct lines; reflexivity).
      rewrite TO, app_length. cbn [List.length]. lia.
  - right. exists lines, l, after. repeat (split; [assumption|]). split; reflexivity.
Qed.
Print Assumptions ascii_long_line_ends_reading.

(** A text whose words are short, and in which facet is always followed by a word, is either read or refused with an error. *)
Definition tidy (line : list Z) : Prop := forall w rest, first_word line w rest -> (List.length w < 20)%nat /\
  (w = codes "facet" -> exists w' rest', first_word rest w' rest' /\ (List.length w' < 20)%nat).
Section Refused.
Variables D L : Type.
Variable scan_double : list Z -> option (D * list Z).
Variable c_locale : L.
Lemma tidy_hd : forall ps, Forall tidy ps -> tidy (hd [] ps).
Proof. intros [|p ps] F; [intros w r H; now apply no_word_nil in H|]. now inversion F. Qed.
Lemma tidy_tl : forall ps, Forall tidy ps -> Forall tidy (tl ps).
Proof. intros [|p ps] F; [constructor|]. now inversion F. Qed.
Lemma vertex_no_ub : forall p b, ~ In 0 p -> tidy p -> read_vertex D scan_double (store p b) <> UB.
Proof.
  intros p b N T. unfold read_vertex. rewrite cstr_store0 by assumption. cbn [bindO].
  destruct (scan_word p) as [[w n]|] eqn:E; [|discriminate]. apply scan_word_some in E. destruct E as [E _]. destruct (T _ _ E) as [Lw _].
  destruct (Nat.leb_spec 20 (List.length w)); [lia|]. destruct (same w (codes "vertex")); discriminate.
Qed.
Lemma facet_no_ub : forall ps b next line, Forall plain ps -> Forall tidy ps -> cstr (skipn next b) = Ok line ->
  (exists w r, first_word line w r /\ (List.length w < 20)%nat) ->
  match read_facet D scan_double (stream_of ps) b next with
  | UB => False | Throw => True | Ok (f, s, b') => exists qs, s = stream_of qs /\ Forall plain qs /\ Forall tidy qs /\ (List.length qs <= List.length ps)%nat
  end.
Proof.
  intros ps b next line F T C (w & r & Fw & Lw). unfold read_facet.
  assert (Forall plain (tl ps)) as F1 by now apply plain_tl.
  assert (Forall plain (tl (tl ps))) as F2 by now apply plain_tl.
  assert (Forall plain (tl (tl (tl ps)))) as F3 by now apply plain_tl.
  assert (Forall plain (tl (tl (tl (tl ps))))) as F4 by now apply plain_tl.
  assert (Forall plain (tl (tl (tl (tl (tl ps)))))) as F5 by now apply plain_tl.
  assert (Forall tidy (tl ps)) as T1 by now apply tidy_tl.
  assert (Forall tidy (tl (tl ps))) as T2 by now apply tidy_tl.
  assert (Forall tidy (tl (tl (tl ps)))) as T3 by now apply tidy_tl.
  rewrite (get_line_pieces ps) by assumption. cbv iota beta. rewrite (get_line_pieces (tl ps)) by assumption. cbv iota beta.
  rewrite (get_line_pieces (tl (tl ps))) by assumption. cbv iota beta.
  rewrite (get_line_pieces (tl (tl (tl ps)))) by assumption. cbv iota beta.
  rewrite (get_line_pieces (tl (tl (tl (tl ps))))) by assumption. cbv iota beta.
  rewrite (get_line_pieces (tl (tl (tl (tl (tl ps)))))) by assumption. cbv iota beta.
  assert (read_normal (skipn next b) <> UB) as N.
  { unfold read_normal. rewrite C. cbn [bindO]. apply scan_word_ok in Fw. destruct Fw as (n & -> & _).
    destruct (Nat.leb_spec 20 (List.length w)); [lia|]. destruct (same w (codes "normal")); discriminate. }
  destruct (read_normal (skipn next b)); cbn [bindO]; [|exact I|congruence].
  pose proof (vertex_no_ub (hd [] (tl ps)) (store (hd [] ps) b) (proj1 (proj2 (plain_hd _ F1))) (tidy_hd _ T1)) as V0.
  destruct (read_vertex D scan_double (store (hd [] (tl ps)) _)); cbn [bindO]; [|exact I|congruence].
  pose proof (vertex_no_ub (hd [] (tl (tl ps))) (store (hd [] (tl ps)) (store (hd [] ps) b)) (proj1 (proj2 (plain_hd _ F2))) (tidy_hd _ T2)) as V1.
  destruct (read_vertex D scan_double (store (hd [] (tl (tl ps))) _)); cbn [bindO]; [|exact I|congruence].
  pose proof (vertex_no_ub (hd [] (tl (tl (tl ps)))) (store (hd [] (tl (tl ps))) (store (hd [] (tl ps)) (store (hd [] ps) b))) (proj1 (proj2 (plain_hd _ F3))) (tidy_hd _ T3)) as V2.
  destruct (read_vertex D scan_double (store (hd [] (tl (tl (tl ps)))) _)); cbn [bindO]; [|exact I|congruence].
  eexists. split; [reflexivity|]. split; [now apply plain_tl|]. split; [now repeat apply tidy_tl|].
  assert (forall (l : list (list Z)), List.length (tl l) <= List.length l)%nat as TL by (intros []; cbn; lia).
  do 5 (etransitivity; [apply TL|]). apply TL.
Qed.
Lemma loop_no_ub : forall saved fuel ps b token width e acc, Forall plain ps -> Forall tidy ps -> (List.length ps < fuel)%nat ->
  fst (read_loop D L scan_double c_locale saved fuel (stream_of ps) b token width e acc) <> UB.
Proof.
  intros saved fuel. induction fuel as [|fuel IH]; intros ps b token width e acc F T Lf; [lia|]. cbn [read_loop].
  destruct ps as [|p ps]; [cbn [stream_of snd]; destruct e; discriminate|]. change (snd (stream_of (p :: ps))) with true. cbv iota.
  rewrite (get_line_pieces (p :: ps)) by assumption. cbv iota beta. cbn [hd tl].
  inversion F as [|? ? P F']; subst. inversion T as [|? ? Tp T']; subst. pose proof P as (_ & N0 & _ & _). rewrite cstr_store0 by assumption. cbn [List.length] in Lf.
  destruct (line_cases p P) as [[S [En|(c & t & En & Ec)]]|[S (c & t & w & wid & rest & En & Ec & Ew & Fw & Er & Lw)]]; rewrite En; cbv iota zeta.
  - apply IH; [assumption|assumption|lia].
  - fold (comment c). rewrite Ec. apply IH; [assumption|assumption|lia].
  - fold (comment c). rewrite Ec. cbv iota. rewrite Ew. cbv iota beta. destruct (same w (codes "facet")) eqn:E1.
    + apply same_iff in E1. subst w. destruct (Tp _ _ Fw) as [_ Tf]. destruct (Tf eq_refl) as (w' & r' & Fw' & Lw').
      pose proof (facet_no_ub ps (store p b) (leading_spaces p + wid) rest F' T') as R. rewrite cstr_store, Er in R by assumption.
      specialize (R eq_refl (ex_intro _ w' (ex_intro _ r' (conj Fw' Lw')))).
      destruct (read_facet D scan_double (stream_of ps) (store p b) (leading_spaces p + wid)) as [[[f s] b']| |]; [|discriminate|contradiction].
      destruct R as (qs & -> & Fq & Tq & Lq). apply IH; [assumption|assumption|lia].
    + destruct (same w (codes "color")); [rewrite cstr_store by assumption; apply IH; [assumption|assumption|lia]|].
      destruct (same w (codes "solid")); [apply IH; [assumption|assumption|lia]|].
      destruct (same w (codes "endsolid")); [apply IH; [assumption|assumption|lia]|discriminate].
Qed.
End Refused.
Theorem ascii_malformed_refused_partial : forall D L scan_double (c_locale saved : L) header lines,
  (List.length header <= 255)%nat -> ~ In 10 header -> Forall plain lines -> Forall tidy lines ->
  (forall fs, ~ gives D scan_double lines fs true) ->
  fst (read_ascii_stl D L scan_double c_locale saved (text_of (header :: lines))) = Throw.
Proof.
  intros D L scan_double c_locale saved header lines Le N F T G.
  destruct (fst (read_ascii_stl D L scan_double c_locale saved (text_of (header :: lines)))) as [fs| |] eqn:E; [|reflexivity|].
  - exfalso. apply (G fs). now apply (ascii_stl_reading D L scan_double c_locale saved header lines fs).
  - exfalso. revert E. unfold read_ascii_stl. rewrite get_line_first by assumption.
    apply loop_no_ub; [assumption|assumption|]. pose proof (text_length header lines). lia.
Qed.
Print Assumptions ascii_malformed_refused_partial.
Definition bad_lines : list (list Z) := map codes ["facet normal 0 0 1"; "outer loop"; "vertex 0 0 0"; "vertex 1 0 0"; "endloop"; "endfacet"; "endsolid"]%string.
Example bad_lines_refused : Forall plain bad_lines /\ Forall tidy bad_lines /\ (forall fs, ~ gives Z digit bad_lines fs true) /\ read_toy bad_lines = Throw.
Proof.
  assert (Forall plain bad_lines) as F by (apply all_plain; vm_compute; reflexivity).
  split; [exact F|]. split; [|split; [|vm_compute; reflexivity]].
  - assert (forall l w n, scan_word l = Some (w, n) -> (List.length w < 20)%nat -> w <> codes "facet" -> tidy l) as H.
    { intros l w n E Lw N w' r' Fw. apply scan_word_some in E. destruct E as [E _]. destruct (first_word_fun _ _ _ _ _ Fw E) as [-> ->]. split; [exact Lw|contradiction]. }
    apply Forall_cons.
    { intros w r Fw. assert (first_word (codes "facet normal 0 0 1") (codes "facet") (codes " normal 0 0 1")) as E by (apply (proj1 (scan_word_some (codes "facet normal 0 0 1") (codes "facet") 5 eq_refl))).
      destruct (first_word_fun _ _ _ _ _ Fw E) as [-> ->]. split; [vm_compute; lia|]. intros _. exists (codes "normal"), (codes " 0 0 1").
      split; [apply (proj1 (scan_word_some (codes " normal 0 0 1") (codes "normal") 7 eq_refl))|vm_compute; lia]. }
    unfold bad_lines. cbn [map]. repeat (apply Forall_cons; [eapply H; [vm_compute; reflexivity|vm_compute; lia|vm_compute; discriminate]|]). constructor.
  - intros fs G. apply (ascii_stl_reading Z unit digit tt tt (codes "solid") bad_lines fs) in G; [|vm_compute; lia|vm_compute; intuition discriminate|exact F].
    vm_compute in G. discriminate G.
Qed.

Definition one_facet : list (list Z) := map codes ["facet normal 0 0 1"; "outer loop"; "vertex 0 0 0"; "vertex 1 0 0"; "vertex 0 1 0"; "endloop"; "endfacet"]%string.
(** So a comment that is too long makes the rest of the file disappear without an error. *)
Theorem ascii_long_line_refuted : exists comment_line, skipped comment_line /\
  read_toy (map codes ["endsolid"; "solid second"]%string ++ one_facet ++ [codes "endsolid"; []]) = Ok [[pt 0 0 0; pt 1 0 0; pt 0 1 0]] /\
  read_toy (map codes ["endsolid"; "solid second"]%string ++ [comment_line] ++ one_facet ++ [codes "endsolid"; []]) = Ok [].
Proof.
  exists (35 :: repeat 32 255). split.
  - exists O, (35 :: repeat 32 255). split; [reflexivity|]. right. exists 35, (repeat 32 255). split; [reflexivity|]. now left.
  - split; vm_compute; reflexivity.
Qed.
Print Assumptions ascii_long_line_refuted.

(** Missing coordinates are not reported: the point has an indeterminate coordinate. *)
Theorem ascii_missing_coordinate_refuted :
  read_toy (map codes ["facet normal 0 0 1"; "outer loop"; "vertex 0 0"; "vertex 1 0 0"; "vertex 0 1 0"; "endloop"; "endfacet"; "endsolid"]%string) =
  Ok [[(Some 0, Some 0, None); pt 1 0 0; pt 0 1 0]].
Proof. vm_compute. reflexivity. Qed.
Print Assumptions ascii_missing_coordinate_refuted.

(** Blank lines are refused or undefined as soon as they have a carriage return (files written on Windows). *)
Definition crlf (l : list Z) : list Z := l ++ [13].
Theorem ascii_carriage_return_refuted :
  read_toy (map crlf (one_facet ++ [codes "endsolid"])) = Ok [[pt 0 0 0; pt 1 0 0; pt 0 1 0]] /\
  read_toy (map crlf (one_facet ++ [[]; codes "endsolid"])) = Throw /\
  read_toy (map crlf ([] :: one_facet ++ [codes "endsolid"])) = UB.
Proof. repeat split; vm_compute; reflexivity. Qed.
Print Assumptions ascii_carriage_return_refuted.

(** The lines that overflow an array or make the reader look at an array that was not initialised. *)
Theorem ascii_undefined_refuted :
  read_toy (map codes ["facet"; "outer loop"; "vertex 0 0 0"; "vertex 1 0 0"; "vertex 0 1 0"; "endloop"; "endfacet"; "endsolid"]%string) = UB /\
  read_toy (map codes ["facet normal 0 0 1"; "outer loop"; "vertex0000000000000000000000000"; "endsolid"]%string) = UB.
Proof. split; vm_compute; reflexivity. Qed.
Print Assumptions ascii_undefined_refuted.

(** ** C159. The locale of the process. *)
Theorem ascii_locale_partial : forall D L scan_double (c_locale saved : L) peeks widen input,
  match read_stl_file D L scan_double c_locale peeks widen saved input with
  | (Ok _, l) => l = saved
  | (Throw, l) => l = saved \/ l = c_locale
  | (UB, _) => True
  end.
Proof.
  intros. unfold read_stl_file. destruct (is_stl_data_binary input) as [[]| |]; [| |now left|exact I].
  - destruct (read_binary_stl peeks input); cbn [bindO]; [reflexivity|now left|exact I].
  - unfold read_ascii_stl. destruct (get_line (input, true) (repeat None 256)) as [b s]. apply loop_locale.
Qed.
Print Assumptions ascii_locale_partial.
(** It is not restored when a vertex is malformed or when the end is missing. *)
Theorem ascii_locale_refuted :
  (exists input, read_stl_file Z string digit "C"%string false (fun z => z) "fr_FR"%string input = (Throw, "C"%string)) /\
  (exists input, occurs (codes "endsolid") input /\ read_stl_file Z string digit "C"%string false (fun z => z) "fr_FR"%string input = (Throw, "C"%string)) /\
  (exists input, read_stl_file Z string digit "C"%string false (fun z => z) "fr_FR"%string input = (Throw, "fr_FR"%string)).
Proof.
  split; [|split].
  - exists (text_of (map codes ["solid cube"; "solid"]%string)). vm_compute. reflexivity.
  - exists (text_of (map codes ["solid cube"; "facet normal 0 0 1"; "outer loop"; "point 0 0 0"; "endsolid"]%string)). split; [|vm_compute; reflexivity].
    exists (text_of (map codes ["solid cube"; "facet normal 0 0 1"; "outer loop"; "point 0 0 0"; ""]%string)), []. vm_compute. reflexivity.
  - exists (text_of (map codes ["solid cube"; "triangle"]%string)). vm_compute. reflexivity.
Qed.
Print Assumptions ascii_locale_refuted.
