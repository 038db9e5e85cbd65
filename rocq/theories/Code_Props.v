(** C188: a mesh printed as C++ code. *)
From Coq Require Import ZArith Lia Bool List String.
From Verif Require Import Common Base91_Model Base91_Proofs Base91_Props Stl_Model Stl_Proofs Stl_Props Ascii_Model Embed_Model Embed_Props Code_Model.
Import ListNotations.
Open Scope Z_scope.
Open Scope list_scope.

(** ** Specification: the code is the definition of the string "s", with this value (Embed_Props: words, literals and symbols of C++). *)
Definition defines (code value : list Z) : Prop :=
  lex Out code = Some [Embed_Props.s "const"; Embed_Props.s "std"; Symbol 58; Symbol 58; Embed_Props.s "string"; Embed_Props.s "s"; Symbol 61; Literal value; Symbol 59].

(** ** Proofs *)
Lemma le_bytes w : Forall is_byte (le_bytes4 w).
Proof. unfold le_bytes4, is_byte. repeat constructor; apply Z.mod_pos_bound; lia. Qed.
Lemma faces_bytes D narrow nw : forall fs b, write_faces D narrow nw fs = Ok b -> Forall is_byte b.
Proof.
  induction fs as [|f fs IH]; intros b H; cbn [write_faces] in H; [injection H as <-; constructor|].
  destruct (write_face D narrow nw f) as [a| |] eqn:E; cbn [bindO] in H; try discriminate. destruct (write_faces D narrow nw fs) as [c| |] eqn:E2; cbn [bindO] in H; try discriminate. injection H as <-.
  apply Forall_app. split; [|exact (IH c eq_refl)]. unfold write_face in E.
  destruct (at_ub f 0) as [[[x0 y0] z0]| |]; cbn [bindO] in E; try discriminate. destruct (at_ub f 1) as [[[x1 y1] z1]| |]; cbn [bindO] in E; try discriminate. destruct (at_ub f 2) as [[[x2 y2] z2]| |]; cbn [bindO] in E; try discriminate.
  destruct (nw _) as [[n0 n1] n2]. assert (E3 : a = le_bytes4 n0 ++ le_bytes4 n1 ++ le_bytes4 n2 ++ (le_bytes4 (narrow x0) ++ le_bytes4 (narrow y0) ++ le_bytes4 (narrow z0)) ++ (le_bytes4 (narrow x1) ++ le_bytes4 (narrow y1) ++ le_bytes4 (narrow z1)) ++ (le_bytes4 (narrow x2) ++ le_bytes4 (narrow y2) ++ le_bytes4 (narrow z2)) ++ [0; 0]) by (symmetry; injection E as E; exact E). rewrite E3. repeat (apply Forall_app; split; [try apply le_bytes; repeat (apply Forall_app; split); apply le_bytes|]). unfold is_byte. repeat constructor; lia.
Qed.
Lemma file_bytes D narrow nw stl b : write_binary_stl D narrow nw stl = Ok b -> Forall is_byte b.
Proof.
  unfold write_binary_stl. cbv zeta. destruct (write_faces _ _ _ _) as [f| |] eqn:E; cbn [bindO]; try discriminate. intros H. assert (Eb : b = repeat 1 80 ++ le_bytes4 (Z.of_nat (List.length stl) mod 4294967296) ++ f) by congruence. rewrite Eb.
  change (Forall is_byte (repeat 1 80 ++ le_bytes4 (Z.of_nat (List.length stl) mod 4294967296) ++ f)). generalize (Z.of_nat (List.length stl) mod 4294967296). intros w. assert (R : Forall is_byte (repeat 1 80)) by (apply Forall_forall; intros x Hx; apply repeat_spec in Hx as ->; unfold is_byte; lia). revert R. generalize (repeat 1 80). intros h R. apply Forall_app. split; [exact R|]. apply Forall_app. split; [apply le_bytes|exact (faces_bytes _ _ _ _ _ E)].
Qed.
Lemma lex_in_literal : forall n r v ts, (List.length r <= n)%nat -> lex (InLiteral v) r = Some ts -> exists u, In (Literal u) ts.
Proof.
  induction n as [|n IH]; intros r v ts L H.
  - destruct r; [discriminate|cbn in L; lia].
  - destruct r as [|c r]; [discriminate|]. cbn [List.length] in L.
    change (lex (InLiteral v) (c :: r)) with (if c =? 34 then option_map (cons (Literal v)) (lex Out r) else if c =? 10 then None else if c =? 92 then match r with [] => None | e :: r => match escape e with Some x => lex (InLiteral (v ++ [x])) r | None => None end end else lex (InLiteral (v ++ [c])) r) in H.
    destruct (c =? 34); [destruct (lex Out r); [|discriminate]; injection H as <-; exists v; left; reflexivity|]. destruct (c =? 10); [discriminate|]. destruct (c =? 92).
    + destruct r as [|e r]; [discriminate|]. destruct (escape e); [|discriminate]. apply (IH r _ _ ltac:(cbn in L; lia) H).
    + apply (IH r _ _ ltac:(lia) H).
Qed.
Lemma lex_quote : forall r, In 34 r -> (forall ts, lex Out r = Some ts -> exists u, In (Literal u) ts) /\ (forall w ts, lex (InWord w) r = Some ts -> exists u, In (Literal u) ts).
Proof.
  induction r as [|c r IH]; intros I; [destruct I|].
  assert (A : forall ts, (if c =? 34 then lex (InLiteral []) r else option_map (cons (Symbol c)) (lex Out r)) = Some ts -> exists u, In (Literal u) ts).
  { intros ts H. destruct (Z.eqb_spec c 34) as [->|N]; [exact (lex_in_literal _ _ _ _ (Nat.le_refl _) H)|]. destruct I as [->|I]; [contradiction|]. destruct (lex Out r) as [q|]; [|discriminate]. injection H as <-. destruct (proj1 (IH I) q eq_refl) as (u & U). exists u. right. exact U. }
  assert (B : c <> 34 -> In 34 r) by (intros N; destruct I as [->|I]; [contradiction|exact I]).
  assert (Q : blank c = true \/ (letter c || digit c) = true -> c <> 34) by (intros H ->; destruct H; discriminate).
  split.
  - intros ts H. change (lex Out (c :: r)) with (if blank c then lex Out r else if letter c || digit c then lex (InWord [c]) r else if c =? 34 then lex (InLiteral []) r else option_map (cons (Symbol c)) (lex Out r)) in H.
    destruct (blank c); [exact (proj1 (IH (B (Q (or_introl eq_refl)))) ts H)|]. destruct (letter c || digit c); [exact (proj2 (IH (B (Q (or_intror eq_refl)))) _ ts H)|]. exact (A ts H).
  - intros w ts H.
    change (lex (InWord w) (c :: r)) with (if letter c || digit c then lex (InWord (w ++ [c])) r else option_map (cons (Word w)) (if blank c then lex Out r else if c =? 34 then lex (InLiteral []) r else option_map (cons (Symbol c)) (lex Out r))) in H.
    destruct (letter c || digit c); [exact (proj2 (IH (B (Q (or_intror eq_refl)))) _ ts H)|].
    assert (G : forall o, option_map (cons (Word w)) o = Some ts -> (forall q, o = Some q -> exists u, In (Literal u) q) -> exists u, In (Literal u) ts).
    { intros [q|] E K; [|discriminate]. injection E as <-. destruct (K q eq_refl) as (u & U). exists u. right. exact U. }
    apply (G _ H). intros q E. destruct (blank c); [exact (proj1 (IH (B (Q (or_introl eq_refl)))) q E)|]. exact (A q E).
Qed.
Lemma lex_beginning z : lex Out (codes "const std::string s = " ++ 34 :: z) =
  option_map (cons (Embed_Props.s "const")) (option_map (cons (Embed_Props.s "std")) (option_map (cons (Symbol 58)) (option_map (cons (Symbol 58)) (option_map (cons (Embed_Props.s "string")) (option_map (cons (Embed_Props.s "s")) (option_map (cons (Symbol 61)) (lex (InLiteral []) z))))))).
Proof. reflexivity. Qed.
Lemma first_quote : forall l, In 34 l -> exists a b, l = a ++ 34 :: b /\ ~ In 34 a.
Proof.
  induction l as [|c l IH]; intros I; [destruct I|]. destruct (Z.eq_dec c 34) as [->|N]; [exists [], l; split; [reflexivity|intros []]|].
  destruct I as [->|I]; [contradiction|]. destruct (IH I) as (a & b & -> & Na). exists (c :: a), b. split; [reflexivity|]. intros [->|Q]; [apply N; reflexivity|exact (Na Q)].
Qed.
Definition narrowed {D} (narrow : D -> Z) (stl : list (list (D * D * D))) : list facet_words := map (fun f => map (fun p => let '(x, y, z) := p in (narrow x, narrow y, narrow z)) (firstn 3 f)) stl.
(** The characters of the string are always the mesh; they are what the compiler reads if and only if no double quote is among them. *)
Theorem mesh_as_code_partial : forall (D : Type) (narrow : D -> Z) normal_words peeks, (forall x, 0 <= narrow x < 4294967296) ->
  forall stl, Forall (fun f => (3 <= List.length f)%nat) stl -> Z.of_nat (List.length stl) < 4294967296 ->
  exists text code, convert_stl_files_to_code D narrow normal_words stl = Ok code /\ mesh_of_code peeks text = Ok (narrowed narrow stl) /\
    (~ In 34 text -> defines code text) /\ (In 34 text -> forall value, ~ defines code value).
Proof.
  intros D narrow nw peeks Hn stl H B. destruct (stl_round_trip D narrow nw peeks (fun _ => UB) Hn stl H B) as (file & W & Lf & Rd).
  destruct (base91_round_trip file (file_bytes _ _ _ _ _ W)) as (text & En & De). exists text. unfold convert_stl_files_to_code, write_binary_cpp. rewrite W. cbn [bindO]. rewrite En. cbn [bindO]. eexists. split; [reflexivity|].
  split; [|split].
  - unfold mesh_of_code. rewrite De. cbn [bindO]. unfold read_stl in Rd. destruct (is_stl_data_binary file) as [[|]| |]; cbn [bindO] in Rd; try discriminate. exact Rd.
  - intros Nq. unfold defines. cbn [app]. rewrite (lex_beginning (text ++ 34 :: codes ";" ++ [10])).
    rewrite lex_plain; [reflexivity|]. pose proof (base91_alphabet file text En) as Al. rewrite Forall_forall in Al. apply Forall_forall. intros c Hc. destruct (Al c Hc) as ((Pc & _) & _ & Bc & _). split; [intros ->; contradiction|]. split; [exact Bc|lia].
  - intros Iq value Df. unfold defines in Df. cbn [app] in Df. rewrite (lex_beginning (text ++ 34 :: codes ";" ++ [10])) in Df. destruct (first_quote text Iq) as (a & b & Et & Na).
    assert (Pa : Forall plain_char a). { pose proof (base91_alphabet file text En) as Al. rewrite Forall_forall in Al. apply Forall_forall. intros c Hc. assert (Ic : In c text) by (rewrite Et; apply in_or_app; left; exact Hc). destruct (Al c Ic) as ((Pc & _) & _ & Bc & _). split; [intros ->; contradiction|]. split; [exact Bc|lia]. }
    rewrite Et, <- app_assoc in Df. cbn [app] in Df. rewrite lex_plain in Df by exact Pa. cbn [app] in Df.
    set (rest := b ++ 34 :: codes ";" ++ [10]) in *. change (lex (InLiteral a) (34 :: rest)) with (option_map (cons (Literal a)) (lex Out rest)) in Df.
    destruct (lex Out rest) as [ts|] eqn:Er; [|discriminate]. cbn [option_map] in Df. injection Df as _ ->.
    destruct (proj1 (lex_quote rest ltac:(unfold rest; apply in_or_app; right; left; reflexivity)) _ Er) as (u & [U|[]]). discriminate.
Qed.
Print Assumptions mesh_as_code_partial.
(** A triangle whose string is read as it should be: (0,0,0), (2,0,0), (0,1,0). Numbers are the words of the floats. *)
Definition word (x : Z) : Z := x mod 4294967296.
Definition up : list (Z * Z * Z) -> Z * Z * Z := fun _ => (0, 0, 1065353216).
Example mesh_as_code_witness : exists code text, convert_stl_files_to_code Z word up [[(0, 0, 0); (1073741824, 0, 0); (0, 1065353216, 0)]] = Ok code /\ defines code text /\
  mesh_of_code false text = Ok [[(0, 0, 0); (1073741824, 0, 0); (0, 1065353216, 0)]].
Proof. do 2 eexists. split; [vm_compute; reflexivity|]. split; [vm_compute; reflexivity|]. vm_compute. reflexivity. Qed.
(** The triangle (0,0,0), (1,0,0), (0,1,0) is printed as a definition that does not compile. *)
Theorem mesh_as_code_refuted : exists code, convert_stl_files_to_code Z word up [[(0, 0, 0); (1065353216, 0, 0); (0, 1065353216, 0)]] = Ok code /\ forall value, ~ defines code value.
Proof.
  destruct (mesh_as_code_partial Z word up false ltac:(intros x; unfold word; apply Z.mod_pos_bound; lia) [[(0, 0, 0); (1065353216, 0, 0); (0, 1065353216, 0)]]) as (text & code & C & M & _ & F).
  - constructor; [cbn; lia|constructor].
  - cbn. lia.
  - exists code. split; [exact C|]. intros value Df. unfold defines in Df. vm_compute in C. injection C as <-. vm_compute in Df. discriminate.
Qed.
Print Assumptions mesh_as_code_refuted.
