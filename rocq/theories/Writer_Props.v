(** ASCII STL files: what xdyn writes is read back by xdyn if and only if it is made of triangles. *)
From Coq Require Import ZArith List Bool Lia String.
From Verif Require Import Common Stl_Model Stl_Props Ascii_Model Ascii_Spec Ascii_Proofs Ascii_Props Writer_Model.
Import ListNotations.
Open Scope Z_scope.

(** What is needed of the formatting of numbers: a number is written with at most 75 characters, none of which is white or
    null, and what [%lf] reads from this text, after spaces and before white space or the end of the line, is [back x]. *)
Definition number_format {D} (fmt : D -> list Z) (scan_double : list Z -> option (D * list Z)) (back : D -> D) : Prop :=
  forall x, (1 <= List.length (fmt x) <= 75)%nat /\ Forall (fun c => ~ white c /\ c <> 0) (fmt x) /\
    forall n rest, (rest = [] \/ exists c t, rest = c :: t /\ white c) -> scan_double (repeat 32 n ++ fmt x ++ rest) = Some (back x, rest).

Section Writer.
Variables D L : Type.
Variable fmt : D -> list Z.
Variable scan_double : list Z -> option (D * list Z).
Variable back : D -> D.
Hypothesis FMT : number_format fmt scan_double back.
Variable c_locale : L.

(** The lines. *)
Definition vline (p : D * D * D) : list Z :=
  let '(x, y, z) := p in codes "      vertex" ++ repeat 32 3 ++ fmt x ++ repeat 32 5 ++ fmt y ++ repeat 32 5 ++ fmt z.
Definition fl : list Z := codes "  facet normal   0.00000  0.00000  0.00000".
Definition ol : list Z := codes "    outer loop".
Definition el : list Z := codes "    endloop".
Definition ef : list Z := codes "  endfacet".
Definition es : list Z := codes "endsolid MYSOLID".
Definition facet_lines (f : list (D * D * D)) : list (list Z) := [fl; ol] ++ map vline f ++ [el; ef].
Definition mesh_lines (m : list (list (D * D * D))) : list (list Z) := flat_map facet_lines m ++ [es; []].

Definition ended (ls : list (list Z)) : list Z := flat_map (fun l => l ++ [10]) ls.
Lemma text_of_ended : forall ls, text_of (ls ++ [[]]) = ended ls.
Proof.
  induction ls as [|l ls IH]; [reflexivity|]. cbn [app]. change (ended (l :: ls)) with ((l ++ [10]) ++ ended ls). rewrite <- IH, <- app_assoc.
  destruct ls; reflexivity.
Qed.
Lemma ended_app : forall a b, ended (a ++ b) = ended a ++ ended b.
Proof. intros a b. unfold ended. apply flat_map_app. Qed.
Lemma vline_text : forall p, vline p ++ [10] = write_vertex D fmt p.
Proof. intros [[x y] z]. unfold vline, write_vertex. rewrite <- !app_assoc. reflexivity. Qed.
Lemma facet_text : forall f, ended (facet_lines f) = write_facet D fmt f.
Proof.
  intros f. unfold facet_lines, write_facet. rewrite !ended_app.
  assert (ended (map vline f) = flat_map (write_vertex D fmt) f) as ->.
  { unfold ended. induction f as [|p f IH]; [reflexivity|]. cbn [map flat_map]. now rewrite IH, vline_text. }
  cbn [ended flat_map]. rewrite !app_nil_r, <- !app_assoc. reflexivity.
Qed.
Lemma mesh_text : forall m, text_of (codes "solid MYSOLID" :: mesh_lines m) = write_stl D fmt m.
Proof.
  intros m. unfold mesh_lines. change (codes "solid MYSOLID" :: flat_map facet_lines m ++ [es; []]) with ((codes "solid MYSOLID" :: flat_map facet_lines m) ++ [es; []]).
  change [es; []] with ([es] ++ [[]]). rewrite app_assoc, text_of_ended, ended_app.
  change (ended (codes "solid MYSOLID" :: flat_map facet_lines m)) with ((codes "solid MYSOLID" ++ [10]) ++ ended (flat_map facet_lines m)).
  unfold write_stl.
  assert (ended (flat_map facet_lines m) = flat_map (write_facet D fmt) m) as ->.
  { induction m as [|f m IH]; [reflexivity|]. cbn [flat_map]. now rewrite ended_app, IH, facet_text. }
  cbn [ended flat_map]. rewrite app_nil_r, <- !app_assoc. reflexivity.
Qed.

Lemma white32 : white 32.
Proof. now (do 5 right; left). Qed.
Lemma head_white : forall n a, (n > 0)%nat -> exists c t, repeat 32 n ++ a = c :: t /\ white c.
Proof. intros [|n] a H; [lia|]. exists 32, (repeat 32 n ++ a). split; [reflexivity|apply white32]. Qed.
Lemma vline_word : forall x y z, first_word (vline (x, y, z)) (codes "vertex") (repeat 32 3 ++ fmt x ++ repeat 32 5 ++ fmt y ++ repeat 32 5 ++ fmt z).
Proof.
  intros x y z. exists (repeat 32 6). split; [reflexivity|].
  split; [repeat (apply Forall_cons; [apply white32|]); constructor|]. split; [discriminate|]. split.
  - repeat (apply Forall_cons; [vm_compute; intuition discriminate|]). constructor.
  - right. apply head_white. lia.
Qed.
Definition read_point (p : D * D * D) : point D := let '(x, y, z) := p in (Some (back x), Some (back y), Some (back z)).
Lemma vline_point : forall p, vertex_line D scan_double (vline p) (read_point p).
Proof.
  intros [[x y] z]. exists (repeat 32 3 ++ fmt x ++ repeat 32 5 ++ fmt y ++ repeat 32 5 ++ fmt z), [back x; back y; back z].
  split; [apply vline_word|]. split; [|reflexivity].
  eapply one_number; [apply FMT; right; apply head_white; lia|].
  eapply one_number; [apply FMT; right; apply head_white; lia|].
  eapply one_number; [|apply enough]. rewrite <- (app_nil_r (fmt z)). apply FMT. now left.
Qed.
Lemma fmt_plain : forall x, ~ In 0 (fmt x) /\ ~ In 10 (fmt x).
Proof.
  intros x. destruct (FMT x) as (_ & F & _). rewrite Forall_forall in F. split; intros I; destruct (F _ I) as [A B]; [congruence|].
  apply A. vm_compute. tauto.
Qed.
Lemma vline_plain : forall p, plain (vline p).
Proof.
  intros [[x y] z]. split; [|split; [|split]].
  - unfold vline. rewrite !app_length, !repeat_length. destruct (FMT x) as (Lx & _), (FMT y) as (Ly & _), (FMT z) as (Lz & _).
    change (List.length (codes "      vertex")) with 12%nat. lia.
  - unfold vline. rewrite !in_app_iff. destruct (fmt_plain x), (fmt_plain y), (fmt_plain z). vm_compute in *. intuition discriminate.
  - unfold vline. rewrite !in_app_iff. destruct (fmt_plain x), (fmt_plain y), (fmt_plain z). vm_compute in *. intuition discriminate.
  - right. do 2 eexists. apply vline_word.
Qed.
Lemma facet_plain : forall f, Forall plain (facet_lines f).
Proof.
  intros f. unfold facet_lines. apply Forall_app. split; [apply all_plain; vm_compute; reflexivity|].
  apply Forall_app. split; [|apply all_plain; vm_compute; reflexivity]. apply Forall_forall. intros l I. apply in_map_iff in I.
  destruct I as (p & <- & _). apply vline_plain.
Qed.
Lemma mesh_plain : forall m, Forall plain (mesh_lines m).
Proof.
  intros m. unfold mesh_lines. apply Forall_app. split; [|apply all_plain; vm_compute; reflexivity].
  apply Forall_forall. intros l I. apply in_flat_map in I. destruct I as (f & _ & I). revert l I. apply Forall_forall, facet_plain.
Qed.

Lemma word_of : forall l w n, scan_word l = Some (w, n) -> first_word l w (skipn n l).
Proof. intros l w n E. now apply scan_word_some in E. Qed.
Lemma other_word : forall l w n, scan_word l = Some (w, n) -> forall w' r, first_word l w' r -> w' = w.
Proof. intros l w n E w' r F. apply word_of in E. now destruct (first_word_fun _ _ _ _ _ F E). Qed.
Lemma not_skipped : forall l, (match skipn (leading_spaces l) l with [] => true | c :: _ => comment c end) = false -> ~ skipped l.
Proof.
  intros l E S. apply skipped_iff in S. destruct S as [S|(c & t & S & C)]; rewrite S in E; congruence.
Qed.
Lemma tidy_word : forall l w n, scan_word l = Some (w, n) -> (List.length w < 20)%nat -> w <> codes "facet" -> tidy l.
Proof. intros l w n E Lw N w' r' Fw. rewrite (other_word _ _ _ E _ _ Fw). split; [exact Lw|contradiction]. Qed.
Lemma mesh_tidy : forall m, Forall tidy (mesh_lines m).
Proof.
  intros m. unfold mesh_lines. apply Forall_app. split.
  - apply Forall_forall. intros l I. apply in_flat_map in I. destruct I as (f & _ & I). unfold facet_lines in I. rewrite !in_app_iff in I.
    destruct I as [[<-|[<-|[]]]|[I|[<-|[<-|[]]]]].
    + intros w r Fw. assert (scan_word fl = Some (codes "facet", 7%nat)) as E by reflexivity. pose proof (word_of _ _ _ E) as G.
      destruct (first_word_fun _ _ _ _ _ Fw G) as [-> ->]. split; [vm_compute; lia|]. intros _. exists (codes "normal"), (codes "   0.00000  0.00000  0.00000").
      split; [apply (word_of (skipn 7 fl) _ 7 eq_refl)|vm_compute; lia].
    + eapply tidy_word; [vm_compute; reflexivity|vm_compute; lia|discriminate].
    + apply in_map_iff in I. destruct I as ([[x y] z] & <- & _). intros w r Fw. destruct (first_word_fun _ _ _ _ _ Fw (vline_word x y z)) as [-> _].
      split; [vm_compute; lia|discriminate].
    + eapply tidy_word; [vm_compute; reflexivity|vm_compute; lia|discriminate].
    + eapply tidy_word; [vm_compute; reflexivity|vm_compute; lia|discriminate].
  - apply Forall_cons; [eapply tidy_word; [vm_compute; reflexivity|vm_compute; lia|discriminate]|].
    apply Forall_cons; [|constructor]. intros w r Fw. now apply no_word_nil in Fw.
Qed.

Lemma fl_facet : facet_line fl.
Proof.
  exists (skipn 7 fl), (skipn 7 (skipn 7 fl)). split; apply word_of; reflexivity.
Qed.
Lemma mesh_gives : forall m, Forall (fun f => List.length f = 3%nat) m -> gives D scan_double (mesh_lines m) (map (map read_point) m) true.
Proof.
  intros m F. induction F as [|f m Lf F IH].
  - unfold mesh_lines. cbn [flat_map app map]. eapply gives_endsolid; [apply not_skipped; reflexivity|apply (word_of es _ 8 eq_refl)|].
    apply gives_skip; [exists O, []; split; [reflexivity|now left]|]. apply gives_nothing.
  - destruct f as [|a [|b [|c [|d f]]]]; try discriminate Lf.
    change (mesh_lines ([a; b; c] :: m)) with (fl :: ol :: vline a :: vline b :: vline c :: el :: ef :: mesh_lines m).
    change (map (map read_point) ([a; b; c] :: m)) with ([read_point a; read_point b; read_point c] :: map (map read_point) m).
    apply gives_facet; [apply not_skipped; reflexivity|apply fl_facet|apply vline_point|apply vline_point|apply vline_point|exact IH].
Qed.

(** Lines that begin with these words stop everything. *)
Lemma stops : forall l ls fs e, ~ skipped l -> (forall w r, first_word l w r -> ~ In w (map codes ["facet"; "solid"; "color"; "endsolid"]%string)) -> ~ gives D scan_double (l :: ls) fs e.
Proof.
  intros l ls fs e S W G. inversion G as [|? ? ? ? Sk|? ? ? ? r' w' _ Fw' I G'|? ? ? e'' r' _ Fw' G'|? loop l0 l1 l2 ls' p0 p1 p2 fs' ? _ FL V0 V1 V2 G']; subst.
  - contradiction.
  - apply (W _ _ Fw'). destruct I as [<-|[<-|[]]]; cbn; tauto.
  - apply (W _ _ Fw'). cbn; tauto.
  - destruct FL as (r1 & r2 & Fa & _). apply (W _ _ Fa). cbn; tauto.
Qed.
Lemma el_stops : forall ls fs e, ~ gives D scan_double (el :: ls) fs e.
Proof.
  intros. apply stops; [apply not_skipped; reflexivity|]. intros w r F. rewrite (other_word el (codes "endloop") 11 eq_refl _ _ F). vm_compute. intuition discriminate.
Qed.
Lemma ef_stops : forall ls fs e, ~ gives D scan_double (ef :: ls) fs e.
Proof.
  intros. apply stops; [apply not_skipped; reflexivity|]. intros w r F. rewrite (other_word ef (codes "endfacet") 10 eq_refl _ _ F). vm_compute. intuition discriminate.
Qed.
Lemma vline_not_skipped : forall p, ~ skipped (vline p).
Proof. intros [[x y] z]. apply not_skipped. reflexivity. Qed.
Lemma vline_stops : forall p ls fs e, ~ gives D scan_double (vline p :: ls) fs e.
Proof.
  intros [[x y] z] ls fs e. apply stops; [apply vline_not_skipped|]. intros w r F. destruct (first_word_fun _ _ _ _ _ F (vline_word x y z)) as [-> _].
  vm_compute. intuition discriminate.
Qed.
Lemma el_no_vertex : forall p, ~ vertex_line D scan_double el p.
Proof. intros p (r & l & F & _). apply (other_word el (codes "endloop") 11 eq_refl) in F. discriminate F. Qed.
Lemma ef_no_vertex : forall p, ~ vertex_line D scan_double ef p.
Proof. intros p (r & l & F & _). apply (other_word ef (codes "endfacet") 10 eq_refl) in F. discriminate F. Qed.

Lemma facet_triangle : forall f ls fs e, gives D scan_double (facet_lines f ++ ls) fs e ->
  List.length f = 3%nat /\ exists g fs', fs = g :: fs' /\ gives D scan_double ls fs' e.
Proof.
  intros f ls fs e G. unfold facet_lines in G. rewrite <- !app_assoc in G. cbn [app] in G.
  inversion G as [|? ? ? ? Sk|? ? ? ? r' w' _ Fw' I G'|? ? ? e'' r' _ Fw' G'|? loop l0 l1 l2 ls' p0 p1 p2 fs' ? _ FL V0 V1 V2 G' E]; subst.
  - exfalso. revert Sk. apply not_skipped. reflexivity.
  - exfalso. rewrite (other_word fl (codes "facet") 7 eq_refl _ _ Fw') in I. destruct I as [I|[I|[]]]; discriminate I.
  - exfalso. apply (other_word fl (codes "facet") 7 eq_refl) in Fw'. discriminate Fw'.
  - destruct f as [|a [|b [|c f]]]; cbn [map app] in *.
    + exfalso. match goal with H : l0 :: _ = el :: _ |- _ => injection H as -> end. now apply el_no_vertex in V0.
    + exfalso. match goal with H : l0 :: _ = vline a :: _ |- _ => injection H as -> -> end. now apply el_no_vertex in V1.
    + exfalso. match goal with H : l0 :: _ = vline a :: _ |- _ => injection H as -> -> -> end. now apply el_no_vertex in V2.
    + match goal with H : l0 :: _ = vline a :: _ |- _ => injection H as -> -> -> -> end.
      destruct f as [|d [|e' [|g f]]]; cbn [map app skipn] in G'.
      * split; [reflexivity|]. eauto.
      * exfalso. revert G'. apply ef_stops.
      * exfalso. revert G'. apply el_stops.
      * exfalso. revert G'. apply vline_stops.
Qed.
Lemma mesh_triangles : forall m fs e, gives D scan_double (mesh_lines m) fs e -> Forall (fun f => List.length f = 3%nat) m.
Proof.
  induction m as [|f m IH]; intros fs e G; [constructor|]. unfold mesh_lines in G. cbn [flat_map] in G. rewrite <- app_assoc in G.
  apply facet_triangle in G. destruct G as (Lf & g & fs' & -> & G). apply Forall_cons; [exact Lf|]. exact (IH _ _ G).
Qed.
Lemma mesh_unique : forall m fs, gives D scan_double (mesh_lines m) fs true -> fs = map (map read_point) m.
Proof.
  intros m fs G. pose proof (mesh_gives m (mesh_triangles _ _ _ G)) as G'.
  apply (ascii_stl_reading D unit scan_double tt tt [] (mesh_lines m)) in G; [|cbn; lia|intros []|apply mesh_plain].
  apply (ascii_stl_reading D unit scan_double tt tt [] (mesh_lines m)) in G'; [|cbn; lia|intros []|apply mesh_plain]. congruence.
Qed.
End Writer.

Section Theorems.
Variables D L : Type.
Variable fmt : D -> list Z.
Variable scan_double : list Z -> option (D * list Z).
Variable back : D -> D.
Variables c_locale saved : L.
Variable peeks : bool.
Variable widen : Z -> D.

(** ** C164. What [write_stl] writes for a mesh made of triangles is read by [read_stl] as the same facets, with the same
    vertices in the same order; every coordinate is the number that [%lf] reads in its text. *)
Theorem written_stl_read_back : number_format fmt scan_double back -> forall mesh,
  Forall (fun f => List.length f = 3%nat) mesh ->
  read_stl_file D L scan_double c_locale peeks widen saved (write_stl D fmt mesh) =
  (Ok (map (map (fun '(x, y, z) => (Some (back x), Some (back y), Some (back z)))) mesh), saved).
Proof.
  intros FMT mesh T.
  assert (fst (read_stl_file D L scan_double c_locale peeks widen saved (write_stl D fmt mesh)) = Ok (map (map (read_point D back)) mesh)) as H.
  { rewrite <- mesh_text. apply (ascii_stl_file D L scan_double c_locale saved peeks widen [] (codes "solid ") (codes "MYSOLID") (mesh_lines D fmt mesh)).
    - constructor.
    - now left.
    - vm_compute. intuition discriminate.
    - vm_compute. lia.
    - now apply (mesh_plain D fmt scan_double back).
    - now apply mesh_gives. }
  pose proof (ascii_locale_partial D L scan_double c_locale saved peeks widen (write_stl D fmt mesh)) as Lo.
  destruct (read_stl_file D L scan_double c_locale peeks widen saved (write_stl D fmt mesh)) as [r l]. cbn [fst] in H. subst r. rewrite Lo. reflexivity.
Qed.

(** ** C165. A mesh that has a facet with more or fewer vertices than three is written without an error, but what is
    written cannot be read back: the reader refuses the file. *)
Theorem written_polygons_refused : number_format fmt scan_double back -> forall mesh,
  ~ Forall (fun f => List.length f = 3%nat) mesh ->
  fst (read_stl_file D L scan_double c_locale peeks widen saved (write_stl D fmt mesh)) = Throw.
Proof.
  intros FMT mesh T. rewrite <- mesh_text.
  assert (is_stl_data_binary (text_of (codes "solid MYSOLID" :: mesh_lines D fmt mesh)) = Ok false) as B.
  { assert (exists t, text_of (codes "solid MYSOLID" :: mesh_lines D fmt mesh) = [] ++ 115 :: [111; 108; 105; 100; 32] ++ t) as (t & ->).
    { destruct (text_of_long (codes "solid MYSOLID") (mesh_lines D fmt mesh)) as (r & ->). exists (codes "MYSOLID" ++ r). reflexivity. }
    destruct (stl_format_detection [] 115 ([111; 108; 105; 100; 32] ++ t)) as (b & E & P); [constructor|intros [H|H]; discriminate|].
    rewrite E. destruct b; [exfalso|reflexivity]. assert (true = false) by (apply P; left; now exists t). discriminate. }
  unfold read_stl_file. rewrite B. apply ascii_malformed_refused_partial.
  - vm_compute. lia.
  - vm_compute. intuition discriminate.
  - now apply (mesh_plain D fmt scan_double back).
  - now apply (mesh_tidy D fmt).
  - intros fs G. apply T. revert G. apply mesh_triangles.
Qed.

(** The two together: reading back succeeds exactly when every facet is a triangle. *)
Theorem written_stl_read_iff : number_format fmt scan_double back -> forall mesh fs,
  fst (read_stl_file D L scan_double c_locale peeks widen saved (write_stl D fmt mesh)) = Ok fs <->
  (Forall (fun f => List.length f = 3%nat) mesh /\ fs = map (map (fun '(x, y, z) => (Some (back x), Some (back y), Some (back z)))) mesh).
Proof.
  intros FMT mesh fs.
  destruct (forallb (fun f => Nat.eqb (List.length f) 3) mesh) eqn:E.
  - assert (Forall (fun f => List.length f = 3%nat) mesh) as T.
    { rewrite forallb_forall in E. apply Forall_forall. intros f I. now apply Nat.eqb_eq, E. }
    rewrite written_stl_read_back by assumption. cbn [fst]. split; [intros H; injection H as <-; split; [exact T|reflexivity]|intros [_ ->]; reflexivity].
  - assert (~ Forall (fun f => List.length f = 3%nat) mesh) as T.
    { intros F. rewrite Forall_forall in F. assert (forallb (fun f : list (D * D * D) => Nat.eqb (List.length f) 3) mesh = true) as E'; [|congruence].
      apply forallb_forall. intros f I. now apply Nat.eqb_eq, F. }
    rewrite written_polygons_refused by assumption. split; [discriminate|]. intros [F _]. contradiction.
Qed.
End Theorems.
Print Assumptions written_stl_read_back.
Print Assumptions written_polygons_refused.
Print Assumptions written_stl_read_iff.

(** The hypotheses are met by numbers of one digit; the second digit of larger numbers is lost, as the seventh one is by
    the default format. *)
Definition fmt1 (x : Z) : list Z := [48 + x mod 10].
Lemma fmt1_format : number_format fmt1 digit (fun x => x mod 10).
Proof.
  intros x. pose proof (Z.mod_pos_bound x 10 ltac:(lia)) as B. unfold fmt1. split; [cbn; lia|]. split.
  - apply Forall_cons; [|constructor]. split; [|lia]. unfold white. cbn [In]. lia.
  - intros n rest R. unfold digit. cbn [app]. rewrite span_app.
    + cbn [snd]. destruct (Z.leb_spec 48 (48 + x mod 10)); [|lia]. destruct (Z.leb_spec (48 + x mod 10) 57); [|lia]. cbn [andb].
      replace (48 + x mod 10 - 48) with (x mod 10) by lia. reflexivity.
    + clear. induction n; [constructor|apply Forall_cons]; [reflexivity|assumption].
    + right. exists (48 + x mod 10), rest. split; [reflexivity|]. unfold is_space.
      destruct (Z.leb_spec 9 (48 + x mod 10)); destruct (Z.leb_spec (48 + x mod 10) 13); destruct (Z.eqb_spec (48 + x mod 10) 32); try reflexivity; lia.
Qed.
Definition triangles : list (list (Z * Z * Z)) := [[(0, 0, 0); (1, 0, 0); (0, 1, 0)]; [(1, 0, 0); (1, 1, 2); (0, 1, 0)]].
Example triangles_read_back :
  fst (read_stl_file Z unit digit tt false (fun z => z) tt (write_stl Z fmt1 triangles)) =
  Ok [[pt 0 0 0; pt 1 0 0; pt 0 1 0]; [pt 1 0 0; pt 1 1 2; pt 0 1 0]].
Proof. vm_compute. reflexivity. Qed.
Example quadrangle_refused :
  fst (read_stl_file Z unit digit tt false (fun z => z) tt (write_stl_facet Z fmt1 [(0, 0, 0); (1, 0, 0); (1, 1, 0); (0, 1, 0)])) = Throw.
Proof. vm_compute. reflexivity. Qed.

(** Writing then reading is not the identity: digits are lost. *)
Theorem written_stl_identity_refuted : exists mesh, Forall (fun f => List.length f = 3%nat) mesh /\
  fst (read_stl_file Z unit digit tt false (fun z => z) tt (write_stl Z fmt1 mesh)) = Ok [[pt 2 0 0; pt 1 0 0; pt 0 1 0]] /\
  mesh = [[(12, 0, 0); (1, 0, 0); (0, 1, 0)]].
Proof.
  eexists. split; [|split; [|reflexivity]]; [apply Forall_cons; [reflexivity|constructor]|vm_compute; reflexivity].
Qed.
Print Assumptions written_stl_identity_refuted.
