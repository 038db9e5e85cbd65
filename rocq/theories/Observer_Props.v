(** Properties C26-C29 and C63: observers. *)
From Coq Require Import ZArith NArith List Bool Lia String Ascii.
From Verif Require Import Observer_Model Observer_Spec Observer_Proofs Observer_Text_Proofs Observer_Json_Proofs Observer_Series_Proofs.
Import ListNotations.
Open Scope string_scope.

(** ** C26. One field per requested variable. *)
(** CSV: the file is a header line followed by one line per instant; every line has exactly the requested fields, in the
    requested order. Numbers are printed by an arbitrary [fmt] that writes neither commas nor newlines. *)
Theorem csv_file_layout : forall D G (fmt : D -> string) req t out steps,
  (forall d, has_char "," (fmt d) = false /\ has_char nl (fmt d) = false) ->
  req <> [] -> (forall x, In x req -> has_char nl x = false) ->
  (forall x, In x req -> latest [(t, out)] x <> None) ->
  let all := (t, out) :: steps in
  exists o header data,
    observe_all (@csv_class D G fmt) all (new_observer req "") = Done o
    /\ lines (o_st o) = (header :: data ++ [""])%list
    /\ split_on "," header = map (fun x => match latest [(t, out)] x with Some (VDouble _) => replace_commas x | _ => "" end) req
    /\ List.length data = List.length all
    /\ forall k line, nth_error data k = Some line ->
         split_on "," line = map (fun x => value_text fmt (latest (firstn (k + 1) all) x)) req.
Proof.
  intros D G fmt req t out steps Hf Hne Hnl Hl all.
  destruct (observe_all_ok (@csv_class D G fmt) req "" t out steps
              (run_vars (csv_class fmt) (run_init (csv_class fmt)) (fetch (latest [(t, out)]) req) "" ++ newline)) as (o & E & S0);
    [exact Hl|reflexivity|].
  rewrite (csv_run_vars fmt _ (fun p => csv_title (Some (snd p)) (fst p))) in S0.
  2:{ intros [d|g] x s; cbn; [reflexivity|]. now rewrite sapp_nil_r. }
  rewrite (fetch_map (fun x v => csv_title v x)) in S0 by exact Hl.
  rewrite csv_states_after in S0.
  2:{ intros x Hx t' out' steps' [= <- <- <-]. apply Hl, Hx. }
  destruct (csv_lines fmt req [] all) as (data & L1 & L2 & L3); [intros d; apply Hf|].
  exists o, (String.concat "," (map (fun x => csv_title (latest [(t, out)] x) x) req)), data.
  split; [exact E|]. cbn [append] in S0. rewrite S0, !sapp_assoc. split; [|split; [|split]].
  - rewrite lines_cons; [f_equal; exact L1|]. apply has_char_concat; [reflexivity|]. apply forallb_forall.
    intros y Hy. apply in_map_iff in Hy as (x & <- & Hx). apply negb_true_iff. unfold csv_title.
    destruct (latest _ x) as [[d|g]|]; [apply replace_commas_nl, Hnl, Hx|reflexivity..].
  - apply (split_on_concat ","). { intros N. apply map_eq_nil in N. contradiction. }
    apply forallb_forall. intros y Hy. apply in_map_iff in Hy as (x & <- & Hx). apply negb_true_iff. unfold csv_title.
    destruct (latest _ x) as [[d|g]|]; [apply replace_commas_no_comma|reflexivity..].
  - exact L2.
  - intros k line Hk. rewrite (L3 k line Hk), Nat.add_1_r. cbn [app]. unfold csv_line. apply (split_on_concat ",").
    { intros N. apply map_eq_nil in N. contradiction. }
    apply forallb_forall. intros y Hy. apply in_map_iff in Hy as (x & <- & Hx). apply negb_true_iff. unfold value_text.
    destruct (latest _ x) as [[d|g]|]; [apply Hf|reflexivity..].
Qed.
Print Assumptions csv_file_layout.

(** TSV: blank-separated fields. The title line is underlined over its whole length. Titles without blanks. *)
Theorem tsv_file_layout_partial : forall D G (fmt : D -> string) req t out steps,
  (forall d, has_char " " (fmt d) = false /\ has_char nl (fmt d) = false /\ fmt d <> "") ->
  req <> [] -> (forall x, In x req -> has_char nl x = false /\ has_char " " x = false /\ x <> "") ->
  let all := (t, out) :: steps in
  (forall x k, In x req -> (k < List.length all)%nat -> exists d, latest (firstn (k + 1) all) x = Some (@VDouble D G d)) ->
  exists o header data,
    observe_all (@tsv_class D G fmt) all (new_observer req new_tsv) = Done o
    /\ lines (ts_out (o_st o)) = (header :: repeat_char "-" (String.length header) :: data ++ [""])%list
    /\ words header = req
    /\ List.length data = List.length all
    /\ forall k line, nth_error data k = Some line ->
         words line = map (fun x => value_text fmt (latest (firstn (k + 1) all) x)) req.
Proof.
  intros D G fmt req t out steps Hf Hne Hnl all Hd.
  assert (doubles req [] all) as HD. { intros x k Hx Hk. rewrite <- Nat.add_1_r. apply Hd; assumption. }
  pose proof HD as HD'. apply doubles_cons in HD' as (H1 & _). destruct (fetch_doubles _ _ H1) as (Ad & Nn). cbn [app] in *.
  assert (fetch (latest [(t, out)]) req <> []) as Fne.
  { destruct req as [|x req]; [congruence|]. unfold fetch. cbn [flat_map]. specialize (Nn x (or_introl eq_refl)).
    destruct (latest [(t, out)] x); [discriminate|congruence]. }
  set (header := String.concat " " (map padded req)).
  assert (String.length header = (list_sum (map (fun x => Nat.max (String.length x) WIDTH + 1) req) - 1)%nat) as Hlen.
  { unfold header. rewrite concat_length by (intros N; apply map_eq_nil in N; contradiction). rewrite map_map.
    f_equal. f_equal. apply map_ext. intros x. rewrite padded_length. reflexivity. }
  assert (list_sum (map (fun x => Nat.max (String.length x) WIDTH + 1)%nat req) = Datatypes.S (String.length header)) as Hs.
  { rewrite Hlen. destruct req as [|x req]; [congruence|]. cbn [map list_sum fold_right]. unfold list_sum. cbn. lia. }
  destruct (observe_all_ok (@tsv_class D G fmt) req new_tsv t out steps
              (mkTsv (header ++ newline ++ repeat_char "-" (String.length header) ++ newline) (Datatypes.S (String.length header)) 0)) as (o & E & S0);
    [exact Nn| |].
  { rewrite tsv_titles by assumption.
    rewrite (fetch_map (fun x _ => padded x)), (fetch_map (fun x _ => (Nat.max (String.length x) WIDTH + 1)%nat)) by exact Nn.
    cbn [tsv_class flush_after_init ts_len ts_out ts_width new_tsv append Nat.add endl]. rewrite Hs. unfold put, endl. cbn [ts_out ts_len ts_width Nat.sub repeat_char].
    rewrite !sapp_assoc. reflexivity. }
  rewrite tsv_states_after in S0 by (exact HD || reflexivity).
  destruct (@tsv_lines D G fmt req [] all) as (data & L1 & L2 & L3); [intros d; apply Hf|].
  exists o, header, data. split; [exact E|]. rewrite S0. cbn [ts_out]. rewrite !sapp_assoc. split; [|split; [|split]].
  - rewrite lines_cons.
    + rewrite lines_cons by (apply has_char_repeat; reflexivity). f_equal. f_equal. exact L1.
    + apply has_char_concat; [reflexivity|]. apply forallb_forall. intros y Hy. apply in_map_iff in Hy as (x & <- & Hx).
      apply negb_true_iff, padded_nl, Hnl, Hx.
  - unfold header. rewrite (words_concat padded (fun x => x)).
    + apply map_id.
    + intros x b _. apply padded_words.
    + intros x Hx. apply Hnl, Hx.
  - exact L2.
  - intros k line Hk. rewrite (L3 k line Hk). cbn [app]. unfold tsv_line. rewrite Nat.add_1_r.
    apply (words_concat (fun x => value_text fmt (latest (firstn (Datatypes.S k) all) x)) (fun x => value_text fmt (latest (firstn (Datatypes.S k) all) x))).
    + reflexivity.
    + intros x Hx. assert (k < List.length all)%nat as Hk' by (rewrite <- L2; apply nth_error_Some; congruence).
      destruct (Hd x k Hx Hk') as (d & Ed). rewrite Nat.add_1_r in Ed. rewrite Ed. cbn. split; apply Hf.
Qed.
Print Assumptions tsv_file_layout_partial.

(** Examples: values are printed texts. *)
Definition sfmt (s : string) : string := s.
Definition outs (x fx : string) : list (string * value string (grid string)) :=
  [("x(ship)", VDouble x); ("Fx(sum of forces,ship,NED)", VDouble fx)].
Definition two_steps := [("0", outs "1" "2.5"); ("0.1", outs "3" "-4")].
Example csv_witness : exists o,
  observe_all (csv_class sfmt) two_steps (new_observer ["t"; "x(ship)"; "Fx(sum of forces,ship,NED)"] "") = Done o
  /\ lines (o_st o) = ["t,x(ship),Fx(sum of forces ship NED)"; "0,1,2.5"; "0.1,3,-4"; ""].
Proof. eexists. split; reflexivity. Qed.
Example tsv_witness : exists o,
  observe_all (tsv_class sfmt) two_steps (new_observer ["t"; "x(ship)"] new_tsv) = Done o
  /\ lines (ts_out (o_st o)) = ["        t   x(ship)"; "-------------------"; "0 1"; "0.1 3"; ""].
Proof. eexists. split; reflexivity. Qed.
Definition two_vars (d : string) : list (string * value string (grid string)) := [("a", VDouble d); ("b,c", VDouble d)].
(** The hypotheses of the two layout theorems hold for a real formatter. *)
Definition bfmt (b : bool) : string := if b then "1.0e+00" else "-2.5e-01".
Example layout_hypotheses :
  (forall d, has_char "," (bfmt d) = false /\ has_char nl (bfmt d) = false /\ has_char " " (bfmt d) = false /\ bfmt d <> "")
  /\ (forall x, In x ["t"; "x(ship)"] -> latest [(true, [("x(ship)", @VDouble bool unit false)])] x <> None).
Proof. split; [intros []; repeat split; discriminate|]. intros x [<-|[<-|[]]]; discriminate. Qed.

(** With a title containing blanks (such as the names the simulator gives to the total force), the title line of a TSV
    file has more fields than the data lines. *)
Theorem tsv_titles_match_fields_refuted : exists req t out o header dashes line,
  observe_all (@tsv_class string (grid string) sfmt) [(t, out)] (new_observer req new_tsv) = Done o
  /\ lines (ts_out (o_st o)) = [header; dashes; line; ""]
  /\ List.length (words line) = List.length req /\ List.length (words header) <> List.length req.
Proof.
  exists ["t"; "Fx(sum of forces,ship,NED)"], "0", (outs "1" "2").
  eexists _, _, _, _. split; [reflexivity|]. split; [reflexivity|]. split; [reflexivity|]. vm_compute. discriminate.
Qed.
Print Assumptions tsv_titles_match_fields_refuted.
(** An empty list of outputs makes the TSV observer throw. *)
Theorem tsv_empty_request_throws : forall D G (fmt : D -> string) t out,
  exists o, observe_all (@tsv_class D G fmt) [(t, out)] (new_observer [] new_tsv) = Fail o "length_error".
Proof.
  intros. pose proof (observe_first (@tsv_class D G fmt) t out (new_observer [] new_tsv) [] (fun x => conj eq_refl eq_refl) eq_refl
                        (fun x (H : In x []) => False_ind _ H)) as H.
  cbn in H. destruct H as (o & E & _). exists o. cbn. change (bindR (fun o => o) (observe (@tsv_class D G fmt) t out (new_observer [] new_tsv)) (fun o => Done o) = Fail o "length_error").
  rewrite E. reflexivity.
Qed.
Print Assumptions tsv_empty_request_throws.

(** ** C27. Unknown outputs. *)
(** For every kind of observer: if a requested variable has not been written at the first instant, the observation fails,
    naming the first such variable, and only column titles have been produced ([P] is any property of the output that
    writing titles and separators preserves, such as "no complete line"). *)
Theorem unknown_output_is_reported : forall D G S (c : obs_class D G S) (P : S -> Prop) s0 req t out steps,
  P s0 -> (forall v x s, In x req -> P s -> P (run_init c v x s)) -> (forall s, P s -> P (flush_value_write c s)) ->
  (exists x, In x req /\ latest [(t, out)] x = None) ->
  exists o x pre post, observe_all c ((t, out) :: steps) (new_observer req s0) = Fail o x /\ P (o_st o)
    /\ req = (pre ++ x :: post)%list /\ latest [(t, out)] x = None /\ (forall y, In y pre -> latest [(t, out)] y <> None).
Proof.
  intros D G S c P s0 req t out steps P0 Pr Pf Hx.
  destruct (observe_missing c t out (new_observer req s0) [] P (fun x => conj eq_refl eq_refl) eq_refl Pr Pf P0 Hx)
    as (o & x & pre & post & E & A & B & C & F).
  exists o, x, pre, post. cbn [observe_all]. rewrite E. cbn. auto.
Qed.
Print Assumptions unknown_output_is_reported.

(** No complete line in a CSV file, no record sent by a dictionary observer. *)
Theorem unknown_output_no_data_line : forall D (fmt : D -> string) req t out steps,
  (forall x, In x req -> has_char nl x = false) ->
  (exists x, In x req /\ latest [(t, out)] x = None) ->
  (exists o x, observe_all (@csv_class D (grid D) fmt) ((t, out) :: steps) (new_observer req "") = Fail o x /\ In x req
     /\ latest [(t, out)] x = None /\ has_char nl (o_st o) = false)
  /\ (exists o x, observe_all (@dict_class D fmt) ((t, out) :: steps) (new_observer req new_dict) = Fail o x /\ In x req
     /\ latest [(t, out)] x = None /\ d_sent (o_st o) = []).
Proof.
  intros D fmt req t out steps Hnl Hx. split.
  - destruct (unknown_output_is_reported _ _ _ (@csv_class D (grid D) fmt) (fun s => has_char nl s = false) "" req t out steps) as (o & z & pre & post & E & A & R & Z & _); auto.
    + intros [d|g] x s Hin Hs; cbn [csv_class run_init]; [|exact Hs]. rewrite has_char_app, Hs, replace_commas_nl by (apply Hnl, Hin). reflexivity.
    + intros s Hs. cbn [csv_class flush_value_write]. rewrite has_char_app, Hs. reflexivity.
    + exists o, z. repeat split; auto. rewrite R. apply in_or_app. right. left. reflexivity.
  - destruct (unknown_output_is_reported _ _ _ (@dict_class D fmt) (fun s => d_sent s = []) new_dict req t out steps) as (o & z & pre & post & E & A & R & Z & _); auto.
    exists o, z. repeat split; auto. rewrite R. apply in_or_app. right. left. reflexivity.
Qed.
Print Assumptions unknown_output_no_data_line.

(** Once the first observation has succeeded no later one fails, even if a variable is not computed any more
    (its last value is repeated). *)
Theorem later_observations_succeed : forall D G S (c : obs_class D G S) req s0 t out steps s1,
  (forall x, In x req -> latest [(t, out)] x <> None) ->
  flush_after_init c (run_vars c (run_init c) (fetch (latest [(t, out)]) req) s0) = Done s1 ->
  exists o, observe_all c ((t, out) :: steps) (new_observer req s0) = Done o.
Proof.
  intros D G S c req s0 t out steps s1 H1 H2. destruct (observe_all_ok c req s0 t out steps s1 H1 H2) as (o & E & _). eauto.
Qed.
Print Assumptions later_observations_succeed.
Example unknown_witness :
  observe_all (csv_class sfmt) two_steps (new_observer ["t"; "z(ship)"; "x(ship)"] "") =
  Fail (mkObs false ["t"; "z(ship)"; "x(ship)"]
         [("Fx(sum of forces,ship,NED)", VDouble "2.5"); ("t", VDouble "0"); ("x(ship)", VDouble "1")]
         [("Fx(sum of forces,ship,NED)", VDouble "2.5"); ("t", VDouble "0"); ("x(ship)", VDouble "1")] "t,") "z(ship)".
Proof. reflexivity. Qed.

(** ** C28. Records of the dictionary observers. *)
(** Numbers are printed by an arbitrary [fmt] producing JSON numbers (not true of nan and inf). If the requested names are
    usual names needing no escape, at least one of them has no object part (such as t), at least one object name has no
    comma (or there are no objects), and the values are numbers, then every record is a JSON object in which every
    requested value is at its place. *)
Theorem json_records_partial : forall D (fmt : D -> string) names t out steps,
  (forall d, json_number (fmt d)) ->
  Forall (fun x => well_named x /\ clean_name x) names ->
  ~ In (Plain "states") names -> ~ In (Plain "wrenches") names ->
  (exists n, In (Plain n) names) ->
  ((exists f obj, In (Field f obj) names) -> exists f obj, In (Field f obj) names /\ has_char "," obj = false) ->
  let all := (t, out) :: steps in
  (forall x k, In x names -> (k < List.length all)%nat -> exists d, latest (firstn (k + 1) all) (vtext x) = Some (VDouble d)) ->
  exists o,
    observe_all (dict_class fmt) all (new_observer (map vtext names) new_dict) = Done o
    /\ List.length (d_sent (o_st o)) = List.length all
    /\ forall k record, nth_error (d_sent (o_st o)) k = Some record ->
         exists j, json_parse record = Some j
           /\ forall x d, In x names -> latest (firstn (k + 1) all) (vtext x) = Some (VDouble d) ->
                jpath (match x with
                       | Plain n => [n]
                       | Field f obj => [if has_char "," obj then "wrenches" else "states"; obj; f]
                       end) j = Some (JNum (fmt d)).
Proof.
  intros D fmt names t out steps Hf HF Ns Nw Hp Hcf all Hd.
  assert (doubles (map vtext names) [] all) as HD.
  { intros x k Hx Hk. apply in_map_iff in Hx as (y & <- & Hy). rewrite <- Nat.add_1_r. apply Hd; assumption. }
  pose proof HD as HD'. apply doubles_cons in HD' as (H1 & _). destruct (fetch_doubles _ _ H1) as (Ad & Nn). cbn [app] in *.
  destruct (observe_all_ok (@dict_class D fmt) (map vtext names) new_dict t out steps new_dict) as (o & E & S0); [exact Nn| |].
  { assert (forall pv s, run_vars (@dict_class D fmt) (run_init (dict_class fmt)) pv s = s) as RI.
    { clear. induction pv as [|(x, v) pv IH]; intros s; [reflexivity|]. destruct pv; [reflexivity|]. rewrite run_vars_cons2, IH. reflexivity. }
    rewrite RI. reflexivity. }
  destruct (all_records fmt names [] all new_dict) as (rs & R1 & R2 & R3); auto.
  { intros H. destruct (Hcf H) as (f & obj & A & B). exists (Field f obj). split; [exact A|]. exists f, obj. auto. }
  { repeat split; try constructor. discriminate. }
  { intros o0 H. exfalso. apply H. reflexivity. }
  exists o. split; [exact E|]. rewrite S0. change ((t, out) :: steps) with all. rewrite R1. cbn [new_dict d_sent app]. split; [exact R2|].
  intros k r Hr. destruct (R3 k r Hr) as (j & J1 & J2). exists j. split; [exact J1|]. intros x d Hx Hdx. rewrite Nat.add_1_r in Hdx.
  exact (J2 x d Hx Hdx).
Qed.
Print Assumptions json_records_partial.
Example json_witness : exists o,
  observe_all (dict_class sfmt) two_steps (new_observer ["t"; "x(ship)"; "Fx(sum of forces,ship,NED)"] new_dict) = Done o
  /\ map json_parse (d_sent (o_st o)) =
     [Some (JObj [("t", JNum "0"); ("states", JObj [("ship", JObj [("x", JNum "1")])]);
                  ("wrenches", JObj [("sum of forces,ship,NED", JObj [("Fx", JNum "2.5")])])]);
      Some (JObj [("t", JNum "0.1"); ("states", JObj [("ship", JObj [("x", JNum "3")])]);
                  ("wrenches", JObj [("sum of forces,ship,NED", JObj [("Fx", JNum "-4")])])])].
Proof. eexists. split; reflexivity. Qed.
Example json_hypotheses : (forall d, json_number (bfmt d))
  /\ Forall (fun x => well_named x /\ clean_name x) [Plain "t"; Field "x" "ship"; Field "Fx" "sum of forces,ship,NED"].
Proof. split; [intros []; reflexivity|]. repeat constructor; discriminate. Qed.

(** The property is violated when
    - only forces are requested: the comma between "states" and "wrenches" is missing;
    - the time is not requested: from the second record on, the object starts with a comma;
    - the wave elevations are requested: they are between single quotes. *)
Theorem json_records_refuted :
  (exists o r, observe_all (dict_class sfmt) [("0", outs "1" "2.5")]
                 (new_observer ["t"; "Fx(sum of forces,ship,NED)"] new_dict) = Done o /\ d_sent (o_st o) = [r] /\ json_parse r = None)
  /\ (exists o r1 r2 j, observe_all (dict_class sfmt) two_steps (new_observer ["x(ship)"] new_dict) = Done o
        /\ d_sent (o_st o) = [r1; r2] /\ json_parse r1 = Some j /\ json_parse r2 = None)
  /\ (exists g o r, observe_all (dict_class sfmt) [("0", [("waves", VGrid g)])] (new_observer ["t"; "waves"] new_dict) = Done o
        /\ d_sent (o_st o) = [r] /\ json_parse r = None /\ g_empty string g = false).
Proof.
  split; [|split].
  - eexists _, _. split; [reflexivity|]. split; reflexivity.
  - eexists _, _, _, _. split; [reflexivity|]. split; [reflexivity|]. split; reflexivity.
  - exists (mkGrid "1" "1" "0" "0" "0" "0" false "AAAA"). eexists _, _. split; [reflexivity|]. split; [reflexivity|]. split; reflexivity.
Qed.
Print Assumptions json_records_refuted.

(** ** C29. Names. *)
Theorem names_are_split : forall x, well_named x ->
  extractKeyVarFromString (vtext x) = match x with Plain n => (n, "") | Field f obj => (obj, f) end.
Proof. intros [n|f obj] H; [apply extract_plain; apply H|apply extract_field; apply H]. Qed.
Print Assumptions names_are_split.
Theorem usual_names_do_not_collide : forall x y, well_named x -> well_named y ->
  extractKeyVarFromString (vtext x) = extractKeyVarFromString (vtext y) -> x = y.
Proof.
  intros x y Hx Hy H. rewrite !names_are_split in H by assumption. destruct x, y; try congruence.
  - injection H as -> <-. destruct Hy as (N & _). congruence.
  - injection H as -> ->. destruct Hx as (N & _). congruence.
Qed.
Print Assumptions usual_names_do_not_collide.
Example names_witness : map extractKeyVarFromString ["t"; "x(ship)"; "Fx(sum of forces,ship,NED)"; "u(ship(2))"]
  = [("t", ""); ("ship", "x"); ("sum of forces,ship,NED", "Fx"); ("ship(2)", "u")].
Proof. reflexivity. Qed.
(** Other names collide, or are dropped (empty key). *)
Theorem names_are_lossless_refuted :
  (exists a b, a <> b /\ extractKeyVarFromString a = extractKeyVarFromString b)
  /\ (exists a, a <> "" /\ forall D (d : D) s, dict_store a d s = s).
Proof.
  split.
  - exists "x(ship)", "x(ship)2". split; [discriminate|reflexivity].
  - exists "x()". split; [discriminate|]. reflexivity.
Qed.
Print Assumptions names_are_lossless_refuted.

(** ** C63. In-memory observers. *)
(** The map observer returns, for each requested variable, one value per instant, in order. *)
Theorem map_observer_series : forall D G req t out steps,
  NoDup req ->
  let all : list (D * list (string * value D G)) := (t, out) :: steps in
  (forall x k, In x req -> (k < List.length all)%nat -> exists d, latest (firstn (k + 1) all) x = Some (VDouble d)) ->
  exists o, observe_all map_class all (new_observer req []) = Done o
    /\ forall x, In x req -> exists values, smap_find x (o_st o) = Some values /\ List.length values = List.length all
         /\ forall k d, (k < List.length all)%nat -> latest (firstn (k + 1) all) x = Some (VDouble d) -> nth_error values k = Some d.
Proof.
  intros D G req t out steps ND all Hd.
  assert (forall x, In x req -> latest [(t, out)] x <> None) as H1.
  { intros x Hx. destruct (Hd x 0%nat Hx) as (d & E); [cbn; lia|]. change (firstn (0 + 1) all) with [(t, out)] in E. rewrite E. discriminate. }
  destruct (observe_all_ok (@map_class D G) req [] t out steps _ H1 eq_refl) as (o & E & S0).
  exists o. split; [exact E|]. intros x Hx. rewrite S0.
  destruct (map_states_after req [] all (run_vars map_class (run_init map_class) (fetch (latest [(t, out)]) req) []) x []) as (more & A & B & C); auto.
  - right. intros y t' out' steps' [= <- <- <-] Hy. apply H1, Hy.
  - intros k Hk. rewrite <- Nat.add_1_r. apply Hd; assumption.
  - rewrite (proj1 (init_series (latest [(t, out)]) req [] x H1)).
    destruct (Hd x 0%nat Hx) as (d & Ed); [cbn; lia|]. change (firstn (0 + 1) all) with [(t, out)] in Ed. rewrite Ed.
    destruct (in_dec string_dec x req); [reflexivity|contradiction].
  - exists more. split; [exact A|]. split; [exact B|]. intros k d Hk Hkd. rewrite Nat.add_1_r in Hkd. apply C; assumption.
Qed.
Print Assumptions map_observer_series.
Example map_witness : exists o,
  observe_all map_class two_steps (new_observer ["t"; "x(ship)"] []) = Done o /\ o_st o = [("t", ["0"; "0.1"]); ("x(ship)", ["1"; "3"])].
Proof. eexists. split; reflexivity. Qed.
(** A variable requested twice gets two values per instant. *)
Theorem map_observer_duplicate_request_refuted : exists req o,
  observe_all map_class two_steps (new_observer req []) = Done o
  /\ smap_find "t" (o_st o) = Some ["0"; "0"; "0.1"; "0.1"] /\ List.length two_steps = 2%nat.
Proof. exists ["t"; "t"]. eexists. repeat split; reflexivity. Qed.
Print Assumptions map_observer_duplicate_request_refuted.

(** Where the states are stored. *)
Lemma state_name_inj : forall body s s', In s state_order -> In s' state_order -> state_of_body body s = state_of_body body s' -> s = s'.
Proof.
  intros body s s' H H' E. unfold state_order in H, H'. cbn [In] in H, H'.
  repeat (destruct H as [<-|H]; [repeat (destruct H' as [<-|H']; [first [reflexivity|discriminate E]|]); destruct H'|]). destruct H.
Qed.
Lemma find_state_at : forall body l i s k, NoDup l -> incl l state_order -> nth_error l i = Some s -> find_state l body (state_of_body body s) k = Some (k + i)%nat.
Proof.
  induction l as [|a l IH]; intros i s k ND In' H; [destruct i; discriminate H|]. cbn [find_state]. fold (state_of_body body a). inversion ND; subst. destruct i as [|i].
  - injection H as ->. rewrite String.eqb_refl, Nat.add_0_r. reflexivity.
  - cbn in H. assert (state_of_body body s <> state_of_body body a) as N.
    { intros E. apply state_name_inj in E; [|apply In'; right; apply nth_error_In in H; exact H|apply In'; left; reflexivity]. subst. apply nth_error_In in H. contradiction. }
    apply String.eqb_neq in N. rewrite N. rewrite (IH i s (k + 1)%nat); [f_equal; lia|assumption|intros b Hb; apply In'; right; exact Hb|exact H].
Qed.
Lemma find_state_order : forall body i s, nth_error state_order i = Some s -> find_state state_names body (state_of_body body s) 0 = Some i.
Proof.
  intros body i s H. change state_names with state_order. rewrite (find_state_at body state_order i s 0); [reflexivity| |intros a Ha; exact Ha|exact H].
  unfold state_order. repeat (constructor; [cbn [In]; intuition discriminate|]). constructor.
Qed.
Lemma find_state_none : forall body x, (forall s, In s state_order -> x <> state_of_body body s) -> find_state state_names body x 0 = None.
Proof.
  intros body x. change state_names with state_order. generalize 0%nat. induction state_order as [|a l IH]; intros k H; [reflexivity|]. cbn [find_state]. fold (state_of_body body a).
  assert (N := H a (or_introl eq_refl)). apply String.eqb_neq in N. rewrite N. apply IH. intros s Hs. apply H. right. exact Hs.
Qed.

(** The observer of the co-simulation API returns one result per instant, with the date, the states of the first body and
    all the other variables, provided every instant writes the same variables. *)
Theorem everything_observer_partial : forall D G (zero : D) body names (steps : list (D * list (string * value D G))),
  Forall (fun p => map fst (snd p) = names /\ Forall (fun q => exists d, snd q = VDouble d) (snd p)) steps ->
  exists o res, everything_all zero body steps (new_observer [] [], []) = Some (o, res)
    /\ List.length res = List.length steps
    /\ forall k r x, nth_error res k = Some r -> x = "t" \/ In x names ->
         exists d, latest (firstn (k + 1) steps) x = Some (VDouble d)
           /\ (x = "t" -> r_t r = d)
           /\ (forall i s, nth_error state_order i = Some s -> x = state_of_body body s -> nth_error (r_x r) i = Some d)
           /\ (x <> "t" -> (forall s, In s state_order -> x <> state_of_body body s) -> smap_find x (r_extra r) = Some d).
Proof.
  intros D G zero body names steps HR.
  destruct (everything_run zero body names [] steps (new_observer [] [], [])) as ((o, res) & E & I).
  { constructor; cbn; try constructor; try reflexivity. intros x [|k]; discriminate. }
  { exact HR. }
  exists o, res. split; [exact E|]. destruct I as [_ _ _ _ _ L _ R]. cbn [fst snd app] in *. split; [exact L|].
  intros k r x Hk Hx. assert (k < List.length steps)%nat as Hk' by (rewrite <- L; apply nth_error_Some; congruence).
  assert (steps <> []) as Ne by (destruct steps; [cbn in Hk'; lia|discriminate]).
  destruct (regular_latest names (firstn (k + 1) steps) x) as ((A & _) & B).
  { apply regular_prefix, HR. }
  { rewrite Nat.add_1_r. destruct steps; [congruence|discriminate]. }
  pose proof (A Hx) as N. destruct (latest (firstn (k + 1) steps) x) as [v|] eqn:El; [|congruence]. destruct (B v eq_refl) as (d & ->).
  exists d. split; [reflexivity|]. rewrite Nat.add_1_r in El.
  assert (Rd := R x k r d Hk (proj1 (proj1 (regular_latest names steps x HR Ne)) Hx) El). unfold reported in Rd. clear - Rd.
  split; [|split].
  - intros ->. rewrite String.eqb_refl in Rd. injection Rd as ->. reflexivity.
  - intros i s Hi ->. assert (In s state_order) as Hs by (apply nth_error_In in Hi; exact Hi).
    assert (state_of_body body s <> "t") as Nt by (intros E; unfold state_order in Hs; cbn [In] in Hs; repeat (destruct Hs as [<-|Hs]; [discriminate E|]); destruct Hs).
    apply String.eqb_neq in Nt. rewrite Nt in Rd. rewrite (find_state_order body i s Hi) in Rd. exact Rd.
  - intros Nt Ns. apply String.eqb_neq in Nt. rewrite Nt in Rd. rewrite (find_state_none body x Ns) in Rd. exact Rd.
Qed.
Print Assumptions everything_observer_partial.
Example everything_witness : exists o,
  everything_all "?" "ship" two_steps (new_observer [] [], []) =
  Some (o, [mkResult "0" ["1"; "?"; "?"; "?"; "?"; "?"; "?"; "?"; "?"; "?"; "?"; "?"; "?"] [("Fx(sum of forces,ship,NED)", "2.5")];
            mkResult "0.1" ["3"; "?"; "?"; "?"; "?"; "?"; "?"; "?"; "?"; "?"; "?"; "?"; "?"] [("Fx(sum of forces,ship,NED)", "-4")]]).
Proof. eexists. reflexivity. Qed.
(** A variable that appears at the second instant is reported at the first one. *)
Theorem everything_observer_refuted : exists steps o r1 r2,
  everything_all "?" "ship" steps (new_observer [] [], []) = Some (o, [r1; r2])
  /\ latest (firstn 1 steps) "late" = None /\ latest (firstn 2 steps) "late" = Some (@VDouble string (grid string) "7")
  /\ smap_find "late" (r_extra r1) = Some "7" /\ smap_find "late" (r_extra r2) = None.
Proof.
  exists [("0", []); ("1", [("late", VDouble "7")])]. eexists _, _, _. repeat split; reflexivity.
Qed.
Print Assumptions everything_observer_refuted.
