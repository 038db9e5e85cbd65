(** Properties C31 and C32: outputs selected from the command line. *)
From Coq Require Import ZArith List Bool Ascii String Lia.
From Verif Require Import Common Output_Model Output_Spec Output_Proofs.
Import ListNotations.
Open Scope string_scope.

(** ** C31: every well-formed URL whose port is a number between 1 and 65535 is accepted and gives that host and port, with or without
    a path, a query or a fragment after a slash. *)
Lemma ws_url_match : forall url host port path, ws_url url host port path ->
  exists tl, regex_match url_regex (c_str url) = Some ("ws" :: "://" :: host :: ":" :: port :: tl).
Proof.
  intros url host port path [-> [Hn Hh] Hp [Hs Ha]].
  assert (avoids [NUL] ("ws://" ++ host ++ ":" ++ port ++ path)) as N.
  { apply avoids_app. split; [simpl; repeat split; intros [D|[]]; discriminate|]. apply avoids_app. split.
    - eapply avoids_sub; [|exact Hh]. simpl. tauto.
    - apply avoids_app. split; [simpl; repeat split; intros [D|[]]; discriminate|]. apply avoids_app. split.
      + eapply avoids_sub; [|exact Hp]. simpl. tauto.
      + eapply avoids_sub; [|exact Ha]. simpl. tauto. }
  rewrite (c_str_id _ N).
  destruct (body_match_complete host port path) as (tl & E); auto.
  - eapply avoids_sub; [|exact Hh]. simpl. tauto.
  - eapply avoids_sub; [|exact Hp]. simpl. tauto.
  - eapply avoids_sub; [|exact Ha]. simpl. tauto.
  - exists tl. rewrite url_match_unfold.
    replace ("ws://" ++ host ++ ":" ++ port ++ path) with ("ws" ++ "://" ++ (host ++ ":" ++ port ++ path)) by reflexivity.
    rewrite (proj2 (strip_spec "ws" _ _) eq_refl), (proj2 (strip_spec "://" _ _) eq_refl), E. reflexivity.
Qed.
Theorem ws_url_accepted : forall url host port path v, ws_url url host port path -> decimal port v -> (1 <= v <= 65535)%Z ->
  build_YamlOutput_from_WS_URL url = Ok (mkOutput "" "ws" ("ws://" ++ host) v []).
Proof.
  intros url host port path v W D Hv. unfold build_YamlOutput_from_WS_URL. destruct (ws_url_match url host port path W) as (tl & ->).
  cbn [String.eqb negb Ascii.eqb Bool.eqb]. change (negb ("ws" =? "ws")) with false. cbv iota.
  rewrite <- (sapp_nil port), (atoi_decimal port v "" D I) by lia. cbn [bindO].
  replace ((v <=? 0)%Z || (65535 <? v)%Z) with false; [reflexivity|]. symmetry. apply orb_false_iff. rewrite Z.leb_gt, Z.ltb_ge. lia.
Qed.
Print Assumptions ws_url_accepted.
(** Ports out of range are refused as long as they fit an int, and so is the secure protocol. *)
Theorem ws_url_port_out_of_range : forall url host port path v, ws_url url host port path -> decimal port v ->
  (v < 2 ^ 31)%Z -> (v < 1 \/ 65535 < v)%Z -> build_YamlOutput_from_WS_URL url = Throw.
Proof.
  intros url host port path v W D H31 Hv. unfold build_YamlOutput_from_WS_URL. destruct (ws_url_match url host port path W) as (tl & ->).
  change (negb ("ws" =? "ws")) with false. cbv iota. rewrite <- (sapp_nil port), (atoi_decimal port v "" D I) by lia. cbn [bindO].
  replace ((v <=? 0)%Z || (65535 <? v)%Z) with true; [reflexivity|]. symmetry. apply orb_true_iff. rewrite Z.leb_le, Z.ltb_lt. lia.
Qed.
Print Assumptions ws_url_port_out_of_range.
Theorem wss_refused : forall rest, build_YamlOutput_from_WS_URL ("wss://" ++ rest) = Throw.
Proof.
  intros rest. unfold build_YamlOutput_from_WS_URL. destruct (regex_match url_regex (c_str ("wss://" ++ rest))) as [[|p [|sc r0]]|] eqn:E; auto.
  destruct (url_match_sound _ _ _ _ E) as (b & Eb & Es & Hp). destruct (body_match _ _ Eb) as (h & c & po & re & tl & _ & -> & _).
  destruct Hp as [->| ->]; [|reflexivity]. cbn in Es. discriminate.
Qed.
Print Assumptions wss_refused.

(** Whatever is accepted is a well-formed URL; the port returned is in range and is the number written at the start of the port part
    (after white space and a plus sign, if any). *)
Theorem ws_url_accepts_only_partial : forall url o, avoids [NUL] url -> build_YamlOutput_from_WS_URL url = Ok o ->
  (1 <= o_port o <= 65535)%Z /\ o_format o = "ws" /\ o_data o = [] /\
  exists host port path, ws_url url host port path /\ o_address o = "ws://" ++ host /\
    exists sp sign ds junk, port = sp ++ sign ++ ds ++ junk /\ (sign = "" \/ sign = "+") /\ decimal ds (o_port o) /\
      (forall a c b, sp = a ++ String c b -> is_space c = true).
Proof.
  intros url o N E. unfold build_YamlOutput_from_WS_URL in E. rewrite (c_str_id _ N) in E.
  destruct (regex_match url_regex url) as [[|p [|sc r0]]|] eqn:Er; try discriminate.
  destruct (url_match_sound _ _ _ _ Er) as (b & Eb & Es & Hp).
  destruct (body_match _ _ Eb) as (host & colon & port & path & tl & Ebb & -> & Hn & Hh & Hpo & Hpa & Hsl & Hc).
  destruct Hp as [->| ->]; [|discriminate]. change (negb ("ws" =? "ws")) with false in E. cbv iota in E.
  destruct (atoi port) as [v| |] eqn:Ea; try discriminate. cbn [bindO] in E.
  destruct ((v <=? 0)%Z || (65535 <? v)%Z) eqn:Ev; [discriminate|]. injection E as <-. cbn [o_port o_format o_data o_address].
  apply orb_false_iff in Ev. rewrite Z.leb_gt, Z.ltb_ge in Ev. split; [lia|]. split; [reflexivity|]. split; [reflexivity|].
  assert (colon = ":") as ->. { destruct Hc as [->|[-> ->]]; [reflexivity|]. injection Ea as <-. lia. }
  assert (avoids [NUL] (host ++ ":" ++ port ++ path)) as N2 by (rewrite Es, Ebb in N; apply (avoids_app [NUL] "ws://") in N; apply N).
  apply avoids_app in N2. destruct N2 as [Nh N2]. apply (avoids_app [NUL] ":") in N2. destruct N2 as [_ N2]. apply avoids_app in N2. destruct N2 as [Np Na].
  exists host, port, path. split; [|split; [reflexivity|]].
  - constructor.
    + rewrite Es, Ebb. reflexivity.
    + split; [exact Hn|]. eapply avoids_sub; [|exact (avoids_both _ _ _ Hh Nh)]. simpl. tauto.
    + eapply avoids_sub; [|exact (avoids_both _ _ _ Hpo Np)]. simpl. tauto.
    + split; [exact Hsl|]. eapply avoids_sub; [|exact (avoids_both _ _ _ Hpa Na)]. simpl. tauto.
  - apply atoi_sound; [exact Ea|lia].
Qed.
Print Assumptions ws_url_accepts_only_partial.
(** The full claim (the port part is a number) fails: what follows the number is ignored, so a query attached to the port is lost. *)
Theorem ws_url_accepts_only_refuted : exists url host port path o, ws_url url host port path /\ ~ (exists v, decimal port v) /\
  build_YamlOutput_from_WS_URL url = Ok o.
Proof.
  exists "ws://localhost:8080abc?x=1", "localhost", "8080abc?x=1", "". eexists. split; [|split; [|vm_compute; reflexivity]].
  - constructor; [reflexivity|split; [discriminate|]| |split; [left; reflexivity|exact I]]; simpl; repeat split;
      intros D; repeat (destruct D as [D|D]; [discriminate D|]); exact D.
  - intros (v & D). assert (forall s w, decimal s w -> forall a c b, s = a ++ String c b -> exists d, digit c = Some d) as K.
    { clear. intros s w D. induction D as [c0 d H|s v c0 d D IH H]; intros a c b E.
      - destruct a as [|? [|? ?]]; try discriminate. injection E as <- _. exists d. apply digit_spec. exact H.
      - assert (exists b', s ++ String c0 "" = a ++ String c b /\ (b = "" /\ c = c0 \/ (b = b' ++ String c0 "" /\ s = a ++ String c b'))) as (b' & _ & [[-> ->]|[-> ->]]).
        { clear - E. revert s E. induction a as [|x a IHa]; intros s E.
          - destruct s as [|y s]; [injection E as <- <-; exists ""; auto|]. injection E as <- <-. exists s. simpl. auto.
          - destruct s as [|y s]; [destruct a; discriminate|]. injection E as <- E. destruct (IHa _ E) as (b' & E2 & [[-> ->]|[-> ->]]); exists b'; simpl; rewrite ?E2; auto. }
        + exists d. apply digit_spec. exact H.
        + eapply IH. reflexivity. }
    destruct (K _ _ D "8080" "a"%char "bc?x=1" eq_refl) as (d & Ed). discriminate.
Qed.
Print Assumptions ws_url_accepts_only_refuted.
(** A port that does not fit an int is undefined behaviour (std::atoi). *)
Theorem ws_url_huge_port_undefined : build_YamlOutput_from_WS_URL "ws://localhost:99999999999" = UB.
Proof. vm_compute. reflexivity. Qed.
Print Assumptions ws_url_huge_port_undefined.
Lemma dec8080 : decimal "8080" 8080.
Proof.
  apply (dec_more "808" 808 "0"%char 0); [|exists 0%nat; auto with arith].
  apply (dec_more "80" 80 "8"%char 8); [|exists 8%nat; auto with arith].
  apply (dec_more "8" 8 "0"%char 0); [|exists 0%nat; auto with arith].
  apply (dec_one "8"%char 8). exists 8%nat; auto with arith.
Qed.
Example ws_url_witness : ws_url "ws://130.66.124.200:8080/a?b#c" "130.66.124.200" "8080" "/a?b#c" /\
  build_YamlOutput_from_WS_URL "ws://130.66.124.200:8080/a?b#c" = Ok (mkOutput "" "ws" "ws://130.66.124.200" 8080 []).
Proof.
  split; [|vm_compute; reflexivity].
  constructor; [reflexivity|split; [discriminate|]| |split; [right; eexists; reflexivity|]]; simpl; repeat split;
      intros D; repeat (destruct D as [D|D]; [discriminate D|]); exact D.
Qed.

(** ** C32: formats. *)
Definition reasonable (s : string) : Prop := (Z.of_nat (String.length s) < 2 ^ 63)%Z.
Lemma ends_app : forall (a b : string), ends_with (a ++ b) b. Proof. intros. exists a. reflexivity. Qed.
Lemma ends_diff : forall s e1 e2, String.length e1 = String.length e2 -> e1 <> e2 -> ends_with s e1 -> ~ ends_with s e2.
Proof.
  intros s e1 e2 L N (b1 & E1) (b2 & E2). apply N. rewrite <- (substring_suffix b1 e1), <- (substring_suffix b2 e2), <- E1, <- E2.
  assert (String.length b1 = String.length b2) as Hb.
  { apply (f_equal String.length) in E1, E2. rewrite slen_app in E1, E2. lia. }
  rewrite Hb, L. reflexivity.
Qed.
(** Two extensions with different last characters. *)
Lemma last_char : forall s (c : ascii), ends_with s (String c "") -> forall d e, ends_with s (e ++ String d "") -> c = d.
Proof.
  intros s c (b & ->) d e (b2 & E). rewrite <- sapp_ass in E. revert E. generalize (b2 ++ e). clear. revert c d. induction b as [|x b IH]; intros c d [|y t] E; simpl in E.
  - injection E as ->. reflexivity.
  - injection E as _ E. destruct t; discriminate.
  - injection E as _ E. destruct b; discriminate.
  - injection E as _ E. eapply IH. exact E.
Qed.
Lemma ends_last : forall s e (c : ascii), ends_with s (e ++ String c "") -> ends_with s (String c "").
Proof. intros s e c (b & ->). exists (b ++ e). rewrite sapp_ass. reflexivity. Qed.

(** Every base name of at least one character: the format is that of the extension. *)
Theorem format_of_extension : forall base, base <> "" -> reasonable (base ++ ".hdf5") ->
  get_format (base ++ ".csv") = Ok "csv" /\ get_format (base ++ ".tsv") = Ok "tsv" /\ get_format (base ++ ".json") = Ok "json" /\
  get_format (base ++ ".h5") = Ok "hdf5" /\ get_format (base ++ ".hdf5") = Ok "hdf5" /\
  get_format_for_wave_observer (base ++ ".h5") = Ok "hdf5" /\ get_format_for_wave_observer (base ++ ".hdf5") = Ok "hdf5" /\
  get_format_for_wave_observer (base ++ ".HDF5") = Ok "hdf5".
Proof.
  intros base Hb Hr.
  assert (forall ext, (3 <= String.length ext <= 5)%nat -> reasonable (base ++ ext) /\ (3 < String.length (base ++ ext))%nat) as R.
  { intros ext He. unfold reasonable in *. rewrite slen_app in *. simpl in Hr. assert (1 <= String.length base)%nat by (destruct base; [congruence|simpl; lia]). split; lia. }
  assert (forall f, (3 < String.length f)%nat -> get_format f = if_ends f 3 ".h5" "hdf5" (if_ends f 5 ".hdf5" "hdf5" (if_ends f 4 ".csv" "csv"
         (if_ends f 4 ".tsv" "tsv" (if_ends f 5 ".json" "json" Throw)))) /\
        get_format_for_wave_observer f = if_ends f 3 ".h5" "hdf5" (if_ends f 5 ".hdf5" "hdf5" (if_ends f 3 ".H5" "hdf5" (if_ends f 5 ".HDF5" "hdf5" Throw)))) as Uf.
  { intros f Hf. unfold get_format, get_format_for_wave_observer. replace (Z.of_nat (String.length f) =? 0)%Z with false by (symmetry; apply Z.eqb_neq; lia).
    replace (Z.of_nat (String.length f) <=? 3)%Z with false by (symmetry; apply Z.leb_gt; lia). auto. }
  assert (forall f k ext res rest, String.length ext = k -> (k < 10)%nat -> reasonable f -> (k <= String.length f)%nat -> ~ ends_with f ext -> if_ends f (Z.of_nat k) ext res rest = rest) as Skip.
  { intros f k ext res rest He Hk Hf Hl Ne. destruct (if_ends_spec f k ext res rest He Hf Hk) as [[? _]|[_ [[? _]|[_ K]]]]; [lia|contradiction|exact K]. }
  assert (forall f k ext res rest, String.length ext = k -> (k < 10)%nat -> reasonable f -> ends_with f ext -> if_ends f (Z.of_nat k) ext res rest = Ok res) as Take.
  { intros f k ext res rest He Hk Hf En. destruct (if_ends_spec f k ext res rest He Hf Hk) as [[Hl _]|[_ [[_ K]|[N _]]]]; [|exact K|contradiction].
    destruct En as (b & ->). rewrite slen_app in Hl. lia. }
  assert (forall b c d e (e' : string), ends_with (b ++ e ++ String c "") (e' ++ String d "") -> c = d) as LC.
  { intros b c d e e' H. apply (last_char (b ++ e ++ String c "") c) in H; [exact H|]. apply (ends_last _ e). exists b. reflexivity. }
  assert (1 <= String.length base)%nat as Lb by (destruct base; [congruence|simpl; lia]).
  assert (forall ext, String.length (base ++ ext) = (String.length base + String.length ext)%nat) as SL by (intros; apply slen_app).
  destruct (R ".csv" ltac:(simpl; lia)) as [Rc Lc]. destruct (R ".tsv" ltac:(simpl; lia)) as [Rt Lt]. destruct (R ".json" ltac:(simpl; lia)) as [Rj Lj].
  destruct (R ".h5" ltac:(simpl; lia)) as [Rh Lh]. destruct (R ".hdf5" ltac:(simpl; lia)) as [Rd Ld]. destruct (R ".HDF5" ltac:(simpl; lia)) as [RD LD].
  repeat split.
  - rewrite (proj1 (Uf _ Lc)).
    rewrite (Skip _ 3%nat ".h5"), (Skip _ 5%nat ".hdf5"); try reflexivity; try lia; try exact Rc; try (rewrite SL; simpl; lia).
    + apply (Take _ 4%nat); try reflexivity; [lia|exact Rc|apply ends_app].
    + intros H. apply (LC base "v"%char "5"%char ".cs" ".hdf") in H. discriminate.
    + intros H. apply (LC base "v"%char "5"%char ".cs" ".h") in H. discriminate.
  - rewrite (proj1 (Uf _ Lt)).
    rewrite (Skip _ 3%nat ".h5"), (Skip _ 5%nat ".hdf5"), (Skip _ 4%nat ".csv"); try reflexivity; try lia; try exact Rt; try (rewrite SL; simpl; lia).
    + apply (Take _ 4%nat); try reflexivity; [lia|exact Rt|apply ends_app].
    + apply (ends_diff _ ".tsv"); [reflexivity|discriminate|apply ends_app].
    + intros H. apply (LC base "v"%char "5"%char ".ts" ".hdf") in H. discriminate.
    + intros H. apply (LC base "v"%char "5"%char ".ts" ".h") in H. discriminate.
  - rewrite (proj1 (Uf _ Lj)).
    rewrite (Skip _ 3%nat ".h5"), (Skip _ 5%nat ".hdf5"), (Skip _ 4%nat ".csv"), (Skip _ 4%nat ".tsv"); try reflexivity; try lia; try exact Rj; try (rewrite SL; simpl; lia).
    + apply (Take _ 5%nat); try reflexivity; [lia|exact Rj|apply ends_app].
    + intros H. apply (LC base "n"%char "v"%char ".jso" ".ts") in H. discriminate.
    + intros H. apply (LC base "n"%char "v"%char ".jso" ".cs") in H. discriminate.
    + intros H. apply (LC base "n"%char "5"%char ".jso" ".hdf") in H. discriminate.
    + intros H. apply (LC base "n"%char "5"%char ".jso" ".h") in H. discriminate.
  - rewrite (proj1 (Uf _ Lh)). apply (Take _ 3%nat); try reflexivity; [lia|exact Rh|apply ends_app].
  - rewrite (proj1 (Uf _ Ld)).
    rewrite (Skip _ 3%nat ".h5"); try reflexivity; try lia; try exact Rd; try (rewrite SL; simpl; lia).
    + apply (Take _ 5%nat); try reflexivity; [lia|exact Rd|apply ends_app].
    + apply (ends_diff _ "df5"); [reflexivity|discriminate|]. exists (base ++ ".h"). rewrite sapp_ass. reflexivity.
  - rewrite (proj2 (Uf _ Lh)). apply (Take _ 3%nat); try reflexivity; [lia|exact Rh|apply ends_app].
  - rewrite (proj2 (Uf _ Ld)).
    rewrite (Skip _ 3%nat ".h5"); try reflexivity; try lia; try exact Rd; try (rewrite SL; simpl; lia).
    + apply (Take _ 5%nat); try reflexivity; [lia|exact Rd|apply ends_app].
    + apply (ends_diff _ "df5"); [reflexivity|discriminate|]. exists (base ++ ".h"). rewrite sapp_ass. reflexivity.
  - rewrite (proj2 (Uf _ LD)).
    rewrite (Skip _ 3%nat ".h5"), (Skip _ 5%nat ".hdf5"), (Skip _ 3%nat ".H5"); try reflexivity; try lia; try exact RD; try (rewrite SL; simpl; lia).
    + apply (Take _ 5%nat); try reflexivity; [lia|exact RD|apply ends_app].
    + apply (ends_diff _ "DF5"); [reflexivity|discriminate|]. exists (base ++ ".H"). rewrite sapp_ass. reflexivity.
    + apply (ends_diff _ ".HDF5"); [reflexivity|discriminate|apply ends_app].
    + apply (ends_diff _ "DF5"); [reflexivity|discriminate|]. exists (base ++ ".H"). rewrite sapp_ass. reflexivity.
Qed.
Print Assumptions format_of_extension.

(** Conversely a format is only given to a file with a corresponding extension (or to no file at all). *)
Theorem format_only_from_extension : forall f r, reasonable f -> get_format f = Ok r ->
  (f = "" /\ r = "tsv") \/ (r = "hdf5" /\ (ends_with f ".h5" \/ ends_with f ".hdf5")) \/ (r = "csv" /\ ends_with f ".csv") \/
  (r = "tsv" /\ ends_with f ".tsv") \/ (r = "json" /\ ends_with f ".json").
Proof.
  intros f r Hf E. unfold get_format in E. destruct (Z.eqb_spec (Z.of_nat (String.length f)) 0) as [L0|L0].
  { left. injection E as <-. destruct f; [auto|discriminate]. }
  destruct (Z.of_nat (String.length f) <=? 3)%Z; [discriminate|]. right.
  destruct (if_ends_spec f 3 ".h5" "hdf5" (if_ends f 5 ".hdf5" "hdf5" (if_ends f 4 ".csv" "csv"
         (if_ends f 4 ".tsv" "tsv" (if_ends f 5 ".json" "json" Throw)))) eq_refl Hf ltac:(lia)) as [[_ K]|[_ [[H K]|[_ K]]]];
    change (Z.of_nat 3) with 3%Z in K; rewrite K in E; [discriminate|injection E as <-; auto|]. clear K.
  destruct (if_ends_spec f 5 ".hdf5" "hdf5" (if_ends f 4 ".csv" "csv"
         (if_ends f 4 ".tsv" "tsv" (if_ends f 5 ".json" "json" Throw))) eq_refl Hf ltac:(lia)) as [[_ K]|[_ [[H K]|[_ K]]]];
    change (Z.of_nat 5) with 5%Z in K; rewrite K in E; [discriminate|injection E as <-; auto|]. clear K.
  destruct (if_ends_spec f 4 ".csv" "csv" (if_ends f 4 ".tsv" "tsv" (if_ends f 5 ".json" "json" Throw)) eq_refl Hf ltac:(lia)) as [[_ K]|[_ [[H K]|[_ K]]]];
    change (Z.of_nat 4) with 4%Z in K; rewrite K in E; [discriminate|injection E as <-; auto|]. clear K.
  destruct (if_ends_spec f 4 ".tsv" "tsv" (if_ends f 5 ".json" "json" Throw) eq_refl Hf ltac:(lia)) as [[_ K]|[_ [[H K]|[_ K]]]];
    change (Z.of_nat 4) with 4%Z in K; rewrite K in E; [discriminate|injection E as <-; auto|]. clear K.
  destruct (if_ends_spec f 5 ".json" "json" Throw eq_refl Hf ltac:(lia)) as [[_ K]|[_ [[H K]|[_ K]]]];
    change (Z.of_nat 5) with 5%Z in K; rewrite K in E; [discriminate|injection E as <-; auto|discriminate].
Qed.
Print Assumptions format_only_from_extension.

(** The command line: a name that is not a keyword and does not start with "ws" is a file, in the format of its extension. *)
Theorem command_line_file_partial : forall name f, ~ In name ["tsv"; "csv"; "json"; "h5"; "hdf5"; ""] -> String.prefix "ws" name = false ->
  get_format name = Ok f ->
  build_YamlOutput_from_filename name = Ok (mkOutput name f "" 0 []).
Proof.
  intros name f Nk Np E. unfold build_YamlOutput_from_filename.
  assert (forall k, In k ["tsv"; "csv"; "json"; "h5"; "hdf5"; ""] -> String.eqb name k = false) as K.
  { intros k Hk. destruct (String.eqb_spec name k) as [->|_]; [contradiction|reflexivity]. }
  rewrite !K by (simpl; tauto). cbn [orb]. rewrite Np.
  assert (String.prefix "wss" name = false) as ->.
  { destruct (String.prefix "wss" name) eqn:Es; [exfalso|reflexivity]. destruct name as [|a [|b name]]; cbn [String.prefix] in Es, Np.
    - discriminate.
    - destruct (ascii_dec "w" a); discriminate.
    - destruct (ascii_dec "w" a); [|discriminate Es]. destruct (ascii_dec "s" b); [destruct name; discriminate Np|discriminate Es]. }
  cbn [orb]. rewrite E. reflexivity.
Qed.
Print Assumptions command_line_file_partial.
(** The full claim fails for base names that start with "ws" (taken for an address), for an empty base name, and in the wave output
    for a one-letter base name with extension .H5 (std::out_of_range from an index that wrapped around). *)
Theorem command_line_file_refuted :
  get_format "ws_run.csv" = Ok "csv" /\ build_YamlOutput_from_filename "ws_run.csv" = Throw /\
  get_format ".csv" = Throw /\ get_format_for_wave_observer "ab.H5" = Ok "hdf5" /\ get_format_for_wave_observer "a.H5" = Throw.
Proof. vm_compute. auto. Qed.
Print Assumptions command_line_file_refuted.
Example command_line_file_witness : build_YamlOutput_from_filename "results/run1.csv" = Ok (mkOutput "results/run1.csv" "csv" "" 0 []).
Proof. vm_compute. reflexivity. Qed.

(** The default output asks for the date, then for the thirteen states and the three angles of every body, in order. *)
Theorem default_output_has_all_states : forall bodies name o, build_YamlOutput_from_filename name = Ok o ->
  exists o', generate_default_outputter bodies name = Ok o' /\ o_format o' = o_format o /\ o_filename o' = o_filename o /\
    o_data o' = "t" :: flat_map (fun b => map (fun v => v ++ "(" ++ b ++ ")")
      ["x"; "y"; "z"; "u"; "v"; "w"; "p"; "q"; "r"; "qr"; "qi"; "qj"; "qk"; "phi"; "theta"; "psi"]) bodies.
Proof.
  intros bodies name o E. unfold generate_default_outputter. rewrite E. cbn [bindO].
  assert (o_data o = []) as Ed.
  { unfold build_YamlOutput_from_filename in E. repeat match type of E with (if ?b then _ else _) = _ => destruct b end; try (injection E as <-; reflexivity); try discriminate.
    - unfold build_YamlOutput_from_WS_URL in E. destruct (regex_match url_regex (c_str name)) as [[|? [|? [|? [|? [|? ?]]]]]|]; try discriminate.
      destruct (negb _); [discriminate|]. destruct (atoi _) as [v| |]; try discriminate. cbn [bindO] in E. destruct (_ || _)%bool; [discriminate|]. injection E as <-. reflexivity.
    - destruct (get_format name); try discriminate. injection E as <-. reflexivity. }
  rewrite Ed. eexists. split; [reflexivity|].
  assert (forall l o0, o_format (fold_left fill l o0) = o_format o0 /\ o_filename (fold_left fill l o0) = o_filename o0 /\
     o_data (fold_left fill l o0) = (o_data o0 ++ flat_map (fun b : string => map (fun v : string => (v ++ "(" ++ b ++ ")")%string)
      ["x"; "y"; "z"; "u"; "v"; "w"; "p"; "q"; "r"; "qr"; "qi"; "qj"; "qk"; "phi"; "theta"; "psi"]) l)%list) as G.
  { induction l as [|b l IH]; intros o0; [cbn; rewrite app_nil_r; auto|]. cbn [fold_left flat_map]. destruct (IH (fill o0 b)) as (H1 & H2 & H3).
    rewrite H1, H2, H3. cbn [fill o_format o_filename o_data]. rewrite <- app_assoc. auto. }
  destruct (G bodies (mkOutput (o_filename o) (o_format o) (o_address o) (o_port o) ([] ++ ["t"])%list)) as (H1 & H2 & H3).
  rewrite H1, H2, H3. auto.
Qed.
Print Assumptions default_output_has_all_states.
