(** C186: the function printed by yml2test. *)
From Coq Require Import ZArith Lia Bool List String.
From Verif Require Import Common Ascii_Model Embed_Model.
Import ListNotations.
Open Scope Z_scope.
Open Scope list_scope.

(** ** Specification: the part of C++ needed to read such a function *)
Inductive token : Type := Word (w : list Z) | Literal (v : list Z) | Symbol (c : Z).
Inductive mode : Type := Out | InWord (w : list Z) | InLiteral (v : list Z).
Definition blank (c : Z) : bool := (c =? 32) || (c =? 10) || (c =? 9).
Definition letter (c : Z) : bool := ((97 <=? c) && (c <=? 122)) || ((65 <=? c) && (c <=? 90)) || (c =? 95).
Definition digit (c : Z) : bool := (48 <=? c) && (c <=? 57).
(** Escape sequences n, t, r, quote and backslash; others are not used here. *)
Definition escape (c : Z) : option Z := if c =? 110 then Some 10 else if c =? 116 then Some 9 else if c =? 114 then Some 13 else if c =? 34 then Some 34 else if c =? 92 then Some 92 else None.
Fixpoint lex (m : mode) (s : list Z) : option (list token) :=
  match s with
  | [] => match m with Out => Some [] | InWord w => Some [Word w] | InLiteral _ => None end
  | c :: r =>
      match m with
      | InLiteral v => if c =? 34 then option_map (cons (Literal v)) (lex Out r) else if c =? 10 then None
                       else if c =? 92 then match r with [] => None | e :: r => match escape e with Some x => lex (InLiteral (v ++ [x])) r | None => None end end
                       else lex (InLiteral (v ++ [c])) r
      | Out => if blank c then lex Out r else if letter c || digit c then lex (InWord [c]) r else if c =? 34 then lex (InLiteral []) r else option_map (cons (Symbol c)) (lex Out r)
      | InWord w => if letter c || digit c then lex (InWord (w ++ [c])) r else
                    option_map (cons (Word w)) (if blank c then lex Out r else if c =? 34 then lex (InLiteral []) r else option_map (cons (Symbol c)) (lex Out r))
      end
  end.
(** What follows "ss": any number of "<<" and a literal, up to the semicolon *)
Fixpoint pieces (l : list token) : option (list Z * list token) :=
  match l with
  | Symbol 60 :: Symbol 60 :: Literal v :: r => match pieces r with Some (w, r) => Some (v ++ w, r) | None => None end
  | Symbol 59 :: r => Some ([], r)
  | _ => None
  end.
Definition identifier (w : list Z) : bool := match w with [] => false | c :: _ => letter c && forallb (fun c => letter c || digit c) w end.
Definition s (x : string) : token := Word (codes x).
Definition beginning (name : list Z) : list token :=
  [s "std"; Symbol 58; Symbol 58; s "string"; s "test_data"; Symbol 58; Symbol 58; Word name; Symbol 40; Symbol 41; Symbol 123; s "std"; Symbol 58; Symbol 58; s "stringstream"; s "ss"; Symbol 59].
Definition ending : list token := [s "return"; s "ss"; Symbol 46; s "str"; Symbol 40; Symbol 41; Symbol 59; Symbol 125].
(** The code is a function test_data::name without argument that returns this text. *)
Definition returns (code name value : list Z) : Prop := identifier name = true /\ exists rest, 
  (lex Out code = Some (beginning name ++ s "ss" :: rest) /\ pieces rest = Some (value, ending)) \/ (value = [] /\ lex Out code = Some (beginning name ++ Symbol 59 :: ending)).

(** ** Proofs *)
Definition plain_char (c : Z) : Prop := c <> 34 /\ c <> 92 /\ c <> 10.
Lemma lex_plain v : forall l r, List.Forall plain_char l -> lex (InLiteral v) (l ++ r) = lex (InLiteral (v ++ l)) r.
Proof.
  intros l. revert v. induction l as [|c l IH]; intros v r H; [rewrite app_nil_r; reflexivity|]. inversion H as [|c' l' (A & B & C) Hl]; subst. cbn [app lex].
  destruct (Z.eqb_spec c 34); [contradiction|]. destruct (Z.eqb_spec c 10); [contradiction|]. destruct (Z.eqb_spec c 92); [contradiction|]. rewrite IH by exact Hl. rewrite <- app_assoc. reflexivity.
Qed.
Lemma lex_word w : forall l c r, forallb (fun c => letter c || digit c) l = true -> (letter c || digit c) = false -> lex (InWord w) (l ++ c :: r) = lex (InWord (w ++ l)) (c :: r).
Proof.
  intros l. revert w. induction l as [|d l IH]; intros w c r H Hc; [rewrite app_nil_r; reflexivity|]. cbn [forallb] in H. apply andb_prop in H as (Hd & Hl). cbn [app].
  change (lex (InWord w) (d :: l ++ c :: r)) with (if letter d || digit d then lex (InWord (w ++ [d])) (l ++ c :: r) else option_map (cons (Word w)) (if blank d then lex Out (l ++ c :: r) else if d =? 34 then lex (InLiteral []) (l ++ c :: r) else option_map (cons (Symbol d)) (lex Out (l ++ c :: r)))).
  rewrite Hd, IH by assumption. rewrite <- app_assoc. reflexivity.
Qed.
Lemma lex_literal_line l r : List.Forall plain_char l -> lex Out ([34] ++ l ++ [92; 110; 34] ++ r) = option_map (cons (Literal (l ++ [10]))) (lex Out r).
Proof. intros H. change (lex Out ([34] ++ l ++ [92; 110; 34] ++ r)) with (lex (InLiteral []) (l ++ [92; 110; 34] ++ r)). rewrite lex_plain by exact H. reflexivity. Qed.
(** A line of the file: what the user wrote, without the end of line *)
Definition clean (l : list Z) : Prop := l <> [] /\ List.Forall plain_char l.
Definition written (first : bool) (lines : list (list Z)) : list token := match lines with [] => [] | _ => (if first then [s "ss"] else []) ++ flat_map (fun l => [Symbol 60; Symbol 60; Literal (l ++ [10])]) lines end.
(** The ends of line: LF or CR LF *)
Definition eol (dos : bool) : list Z := if dos then [13; 10] else [10].
Definition plain_eol (dos : bool) (l : list Z) : list Z := if dos then l ++ [13] else l.
Lemma literals_lex : forall (lines : list (bool * list Z)) first r ts, List.Forall (fun l => clean (snd l) /\ (forall r', snd l <> r' ++ [13])) lines -> lex Out r = Some ts -> exists body,
  literals first (map (fun l => plain_eol (fst l) (snd l)) lines) = Ok body /\ lex Out (body ++ r) = Some (written first (map snd lines) ++ ts).
Proof.
  induction lines as [|(d, l) lines IH]; intros first r ts H Hr.
  - exists []. split; [reflexivity|exact Hr].
  - inversion H as [|x y ((Ne & Pl) & NR) Hl]; subst. cbn [snd] in *. cbn [map literals fst snd].
    assert (remove_carriage_return (plain_eol d l) = Ok l) as ->.
    { unfold remove_carriage_return, plain_eol. destruct d.
      - rewrite rev_app_distr. cbn [rev app]. change (13 =? 13) with true. cbv iota. rewrite rev_involutive. reflexivity.
      - destruct (rev l) as [|c t] eqn:E; [apply (f_equal (@rev Z)) in E; rewrite rev_involutive in E; contradiction|]. destruct (Z.eqb_spec c 13) as [->|]; [|reflexivity].
        apply (f_equal (@rev Z)) in E. rewrite rev_involutive in E. cbn [rev] in E. destruct (NR _ E). }
    cbn [bindO]. destruct (IH false r ts Hl Hr) as (body & -> & B). cbn [bindO]. eexists. split; [reflexivity|]. rewrite <- !app_assoc.
    assert (T : lex Out ([34] ++ l ++ [92; 110; 34] ++ body ++ r) = Some (Literal (l ++ [10]) :: written false (map snd lines) ++ ts)) by (rewrite lex_literal_line by exact Pl; rewrite B; reflexivity).
    set (z := [34] ++ _) in *. assert (K : written false (map snd lines) ++ ts = flat_map (fun l => [Symbol 60; Symbol 60; Literal (l ++ [10])]) (map snd lines) ++ ts) by (destruct lines; reflexivity). rewrite K in T.
    destruct first.
    + change (lex Out ([newline] ++ codes "    ss << " ++ z)) with (option_map (cons (s "ss")) (option_map (cons (Symbol 60)) (option_map (cons (Symbol 60)) (lex Out z)))). rewrite T. reflexivity.
    + change (lex Out ([newline] ++ codes "       << " ++ z)) with (option_map (cons (Symbol 60)) (option_map (cons (Symbol 60)) (lex Out z))). rewrite T. reflexivity.
Qed.
Lemma getlines_from : forall l acc r, List.Forall (fun c => c <> 10) l -> getlines acc (l ++ 10 :: r) = (acc ++ l) :: getlines [] r.
Proof.
  induction l as [|c l IH]; intros acc r H; [rewrite app_nil_r; reflexivity|]. inversion H as [|c' l' A B]; subst. cbn [app getlines]. unfold newline. destruct (Z.eqb_spec c 10); [contradiction|]. rewrite (IH (acc ++ [c]) r B). rewrite <- app_assoc. reflexivity.
Qed.
Lemma getlines_of : forall (lines : list (bool * list Z)), List.Forall (fun l => clean (snd l)) lines -> getlines [] (flat_map (fun l => snd l ++ eol (fst l)) lines) = map (fun l => plain_eol (fst l) (snd l)) lines.
Proof.
  induction lines as [|(d, l) lines IH]; intros H; [reflexivity|]. inversion H as [|x y (Ne & Pl) Hl]; subst. cbn [flat_map map fst snd] in *.
  assert (P : List.Forall (fun c => c <> 10) l) by (apply (List.Forall_impl _ (fun c (Q : plain_char c) => proj2 (proj2 Q)) Pl)).
  assert ((l ++ eol d) ++ flat_map (fun l => snd l ++ eol (fst l)) lines = plain_eol d l ++ 10 :: flat_map (fun l => snd l ++ eol (fst l)) lines) as -> by (destruct d; unfold plain_eol, eol; rewrite <- !app_assoc; reflexivity).
  rewrite getlines_from; [cbn [app]; rewrite IH by exact Hl; reflexivity|]. destruct d; unfold plain_eol; [apply Forall_app; split; [exact P|constructor; [discriminate|constructor]]|exact P].
Qed.
Lemma pieces_of ts : forall lines, pieces (flat_map (fun l => [Symbol 60; Symbol 60; Literal (l ++ [10])]) lines ++ Symbol 59 :: ts) = Some (flat_map (fun l => l ++ [10]) lines, ts).
Proof. induction lines as [|l lines IH]; [reflexivity|]. cbn [flat_map app pieces]. rewrite IH. reflexivity. Qed.

(** What holds: lines with at least one character, without quotation marks or backslashes, that end with LF or CR LF: the function returns the text, with LF. *)
Theorem yml2test_partial : forall name extension (lines : list (bool * list Z)), identifier name = true -> ~ In 46 extension -> ~ In 46 name ->
  List.Forall (fun l => clean (snd l) /\ forall r, snd l <> r ++ [13]) lines ->
  exists code, yml2test (name ++ [46] ++ extension) (flat_map (fun l => snd l ++ eol (fst l)) lines) = Ok code /\ returns code name (flat_map (fun l => snd l ++ [10]) lines).
Proof.
  intros name ext lines Id Nx Nn H. unfold yml2test.
  assert (remove_file_extension (name ++ [46] ++ ext) = name) as ->.
  { unfold remove_file_extension. set (full := name ++ [46] ++ ext). assert (rev full = rev ext ++ 46 :: rev name) as -> by (unfold full; rewrite app_assoc, !rev_app_distr; reflexivity). assert (N : ~ In 46 (rev ext)) by (intros Q; apply in_rev in Q; contradiction).
    generalize (rev ext) N. intros e. induction e as [|c e IHe]; intros M; cbn [app].
    - change (46 =? 46) with true. cbv iota. apply rev_involutive.
    - destruct (Z.eqb_spec c 46) as [->|]; [destruct M; left; reflexivity|]. apply IHe. intros Q. apply M. right. exact Q. }
  rewrite getlines_of by (apply (List.Forall_impl _ (fun l Q => proj1 Q) H)).
  set (tail := codes ";" ++ [newline] ++ codes "    return ss.str();" ++ [newline] ++ codes "}" ++ [newline]).
  assert (Tl : lex Out tail = Some (Symbol 59 :: ending)) by reflexivity.
  destruct (literals_lex lines true tail _ H Tl) as (body & -> & B). cbn [bindO]. fold tail. eexists. split; [reflexivity|].
  assert (L : lex Out (codes "std::string test_data::" ++ name ++ codes "()" ++ [newline] ++ codes "{" ++ [newline] ++ codes "    std::stringstream ss;" ++ body ++ tail) = Some (beginning name ++ written true (map snd lines) ++ Symbol 59 :: ending)).
  { unfold identifier in Id. destruct name as [|c name]; [discriminate|]. apply andb_prop in Id as (Lc & Ln). cbn [forallb] in Ln. apply andb_prop in Ln as (_ & Ln).
    set (z := codes "()" ++ _). 
    change (lex Out (codes "std::string test_data::" ++ (c :: name) ++ z)) with (option_map (cons (s "std")) (option_map (cons (Symbol 58)) (option_map (cons (Symbol 58)) (option_map (cons (s "string")) (option_map (cons (s "test_data")) (option_map (cons (Symbol 58)) (option_map (cons (Symbol 58)) (lex Out (c :: name ++ z))))))))).
    assert (lex Out (c :: name ++ z) = lex (InWord [c]) (name ++ z)) as ->.
    { change (lex Out (c :: name ++ z)) with (if blank c then lex Out (name ++ z) else if letter c || digit c then lex (InWord [c]) (name ++ z) else if c =? 34 then lex (InLiteral []) (name ++ z) else option_map (cons (Symbol c)) (lex Out (name ++ z))).
      rewrite Lc. cbn [orb]. destruct (blank c) eqn:Bc; [|reflexivity]. exfalso. unfold blank in Bc. unfold letter in Lc. lia. }
    set (z' := 41 :: [newline] ++ codes "{" ++ [newline] ++ codes "    std::stringstream ss;" ++ body ++ tail). change z with (40 :: z'). rewrite lex_word by (try exact Ln; reflexivity).
    change (lex (InWord ([c] ++ name)) (40 :: z')) with (option_map (cons (Word (c :: name))) (option_map (cons (Symbol 40)) (option_map (cons (Symbol 41)) (option_map (cons (Symbol 123)) (option_map (cons (s "std")) (option_map (cons (Symbol 58)) (option_map (cons (Symbol 58)) (option_map (cons (s "stringstream")) (option_map (cons (s "ss")) (option_map (cons (Symbol 59)) (lex Out (body ++ tail)))))))))))). rewrite B. reflexivity. }
  split; [exact Id|]. destruct lines as [|l lines].
  - exists []. right. split; [reflexivity|exact L].
  - exists (flat_map (fun l => [Symbol 60; Symbol 60; Literal (l ++ [10])]) (map snd (l :: lines)) ++ Symbol 59 :: ending). left. split; [exact L|]. rewrite pieces_of. rewrite !flat_map_concat_map, map_map. reflexivity.
Qed.
Print Assumptions yml2test_partial.
(** What does not (1): an empty line, which is usual in YAML files, is undefined behaviour. *)
Theorem yml2test_empty_line_refuted : forall name lines more, List.Forall (fun l => ~ In 10 l /\ l <> []) lines -> yml2test name (flat_map (fun l => l ++ [10]) lines ++ 10 :: more) = UB.
Proof.
  intros name lines more H. unfold yml2test. assert (forall first, literals first (getlines [] (flat_map (fun l => l ++ [10]) lines ++ 10 :: more)) = UB) as ->; [|reflexivity].
  induction lines as [|l lines IH]; intros first; [reflexivity|]. inversion H as [|x y (N & Ne) Hl]; subst. cbn [flat_map]. rewrite <- !app_assoc. cbn [app]. rewrite getlines_from by (apply List.Forall_forall; intros c Hc ->; contradiction). cbn [app literals].
  unfold remove_carriage_return. destruct (rev l) as [|c t] eqn:E; [apply (f_equal (@rev Z)) in E; rewrite rev_involutive in E; contradiction|]. cbn [bindO]. rewrite (IH Hl). reflexivity.
Qed.
Print Assumptions yml2test_empty_line_refuted.
(** (2) quotation marks: the function does not compile; (3) backslashes: it returns another text. *)
Theorem yml2test_quotes_refuted : exists code, yml2test (codes "sea.yml") (codes "model: ""no waves""" ++ [10]) = Ok code /\ forall name value, ~ returns code name value.
Proof.
  eexists. split; [vm_compute; reflexivity|]. intros name value (_ & rest & [(E & P)|(_ & E)]); vm_compute in E; [|discriminate].
  injection E as En Er. subst rest. vm_compute in P. discriminate.
Qed.
Print Assumptions yml2test_quotes_refuted.
Theorem yml2test_backslash_refuted : exists code value, yml2test (codes "sea.yml") (codes "mesh: C:\new.stl" ++ [10]) = Ok code /\ returns code (codes "sea") value /\ value <> codes "mesh: C:\new.stl" ++ [10].
Proof.
  eexists. exists (codes "mesh: C:" ++ [10] ++ codes "ew.stl" ++ [10]). split; [vm_compute; reflexivity|]. split; [|vm_compute; discriminate].
  split; [reflexivity|]. eexists. left. split; [vm_compute; reflexivity|]. vm_compute. reflexivity.
Qed.
Print Assumptions yml2test_backslash_refuted.
(** A file of the tutorials, with both ends of line, meets the hypotheses of [yml2test_partial]. *)
Example yml2test_witness : exists code, yml2test (codes "tutorial_01.yml") (codes "environment:" ++ [10] ++ codes "    g: 9.81" ++ [13; 10]) = Ok code /\
  returns code (codes "tutorial_01") (codes "environment:" ++ [10] ++ codes "    g: 9.81" ++ [10]).
Proof.
  apply (yml2test_partial (codes "tutorial_01") (codes "yml") [(false, codes "environment:"); (true, codes "    g: 9.81")]); [reflexivity|vm_compute; intuition discriminate|vm_compute; intuition discriminate|].
  assert (forall l, l <> [] -> forallb (fun c => negb (c =? 34) && negb (c =? 92) && negb (c =? 10)) l = true -> last l 0 <> 13 -> clean l /\ forall r, l <> r ++ [13]) as G.
  { intros l Ne F La. split; [split; [exact Ne|]|].
    - apply List.Forall_forall. intros c Hc. rewrite forallb_forall in F. specialize (F c Hc). unfold plain_char. lia.
    - intros r ->. apply La. apply last_last. }
  constructor; [|constructor; [|constructor]]; apply G; vm_compute; try reflexivity; discriminate.
Qed.
