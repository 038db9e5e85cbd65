(** Properties of the small programs. *)
From Coq Require Import Reals List Bool ZArith String Ascii Lra Lia Sorting.Sorted.
From Verif Require Import Common Geometry Sim_Model Force_Model Gz_Model Gz_Props Builder_Model Gm_Model Gm_Props Grpc_Spec Wire_Model Main_Model Base91_Model Base91_Props Stl_Model Stl_Proofs Stl_Props Ascii_Model Tool_Model.
From Verif Require Import Force_Props.
Import ListNotations.
Open Scope R_scope.

(** ** C160. The table of the righting-lever curve. *)
Lemma compute_phi_scale : forall k d pm, 0 < k -> 0 < d -> compute_phi (k * d) (k * pm) = map (Rmult k) (compute_phi d pm).
Proof.
  intros k d pm Hk Hd. unfold compute_phi. replace (k * pm / (k * d)) with (pm / d) by (field; split; lra).
  rewrite !map_app, !map_map. cbn [map]. f_equal; [f_equal; ring|]. f_equal. apply map_ext. intros i. ring.
Qed.
Lemma get_phi_degrees : forall d pm, 0 < d -> d <= pm ->
  exists l, get_phi d pm = Ok l /\ get_phi (d * PI / 180) (pm * PI / 180) = Ok (map (fun x => x * PI / 180) l).
Proof.
  intros d pm Hd Hp. pose proof PI_RGT_0 as P. exists (compute_phi d pm).
  assert (forall a b, 0 < a -> a <= b -> get_phi a b = Ok (compute_phi a b)) as G.
  { intros a b Ha Hb. unfold get_phi, check_input. assert (Rltb 0 a = true) as -> by (apply Rltb_t; lra).
    assert (Rltb 0 b = true) as -> by (apply Rltb_t; lra). assert (Rltb b a = false) as -> by (apply Rltb_f; lra). reflexivity. }
  split; [now apply G|]. rewrite G.
  - f_equal. replace (d * PI / 180) with (PI / 180 * d) by field. replace (pm * PI / 180) with (PI / 180 * pm) by field.
    rewrite compute_phi_scale by lra. apply map_ext. intros x. field.
  - assert (0 < d * PI) by (apply Rmult_lt_0_compat; lra). lra.
  - assert (d * PI <= pm * PI) by (apply Rmult_le_compat_r; lra). lra.
Qed.

Section Gz.
Variable fmt : R -> string.
Variable dec : nat -> string.
Variable opens : string -> bool.
Variable curve : list string -> string -> result (R -> result R).
Variable angle_message : R -> R -> string.
Notation main := (gz_main fmt dec opens curve angle_message).

(** Options that the program accepts. *)
Definition acceptable (o : gz_options) : Prop := g_stl o <> ""%string /\ g_yaml o <> [] /\ 0 < g_dphi o <= g_phi_max o.
Lemma acceptable_valid : forall o, acceptable o -> gz_invalid fmt o = (false, []).
Proof.
  intros [d pm s y c] (Hs & Hy & Hd & Hp). cbn in *. unfold gz_invalid, gz_empty. cbn [g_dphi g_phi_max g_stl g_yaml g_csv].
  destruct s as [|a s]; [congruence|]. destruct y as [|b y]; [congruence|]. cbn [is_empty nothing].
  rewrite andb_false_r. cbn [andb]. assert (Rltb 0 d = true) as -> by (apply Rltb_t; lra). assert (Rltb pm d = false) as -> by (apply Rltb_f; lra). reflexivity.
Qed.
(** Where the table goes, and the separator of its columns. *)
Definition destination (o : gz_options) : sink := if String.eqb (g_csv o) "" then Screen else File (g_csv o).
Definition row (to : sink) (a b : string) : gz_event :=
  Line to (a ++ match to with Screen => String (ascii_of_nat 9) "" | File _ => ";" end ++ b ++ endl).
Lemma is_empty_eqb : forall s, is_empty s = String.eqb s "".
Proof. intros []; reflexivity. Qed.
Lemma rows_all : forall to gz l (v : R -> R), (forall x, In x l -> gz (x * PI / 180) = Returned (v x)) ->
  gz_rows fmt to gz (map (fun x => x * PI / 180) l) = (map (fun x => row to (fmt x) (fmt (v x))) l, None).
Proof.
  intros to gz l v H. induction l as [|x l IH]; [reflexivity|]. cbn [map gz_rows]. rewrite (H x) by now left.
  rewrite IH by (intros; apply H; now right). cbv beta iota. f_equal. f_equal. unfold row, two_columns.
  replace (x * PI / 180 * 180 / PI) with x; [reflexivity|]. field. apply PI_neq0.
Qed.
Theorem gz_table : forall o gz v, acceptable o -> (g_csv o = ""%string \/ opens (g_csv o) = true) ->
  curve (g_yaml o) (g_stl o) = Returned gz -> (forall x, gz (x * PI / 180) = Returned (v x)) ->
  exists angles, get_phi (g_dphi o) (g_phi_max o) = Ok angles /\
    main (GzParsed o false) = (row (destination o) "Phi [deg]" "GZ(phi) [m]" :: map (fun x => row (destination o) (fmt x) (fmt (v x))) angles, Status 0).
Proof.
  intros o gz v A W C V. pose proof A as (_ & _ & Hd & Hp). destruct (get_phi_degrees _ _ Hd Hp) as (l & El & E). exists l. split; [exact El|].
  unfold gz_main. rewrite acceptable_valid by assumption. cbn [orb]. unfold gz_run. rewrite C, E. cbv zeta.
  assert ((if is_empty (g_csv o) then Screen else File (g_csv o)) = destination o) as -> by (unfold destination; now rewrite is_empty_eqb).
  rewrite (rows_all _ _ _ v) by (intros; apply V).
  assert (is_empty (g_csv o) || opens (g_csv o) = true) as -> by (destruct W as [->| ->]; [reflexivity|apply orb_true_r]).
  cbn [gz_end app]. now rewrite app_nil_r.
Qed.

(** An error at some angle ends the table there: the lines before it are written, and the error is reported. *)
Theorem gz_table_stops : forall o gz v before x after e, acceptable o -> g_csv o = ""%string ->
  curve (g_yaml o) (g_stl o) = Returned gz -> get_phi (g_dphi o) (g_phi_max o) = Ok (before ++ x :: after)%list ->
  (forall y, In y before -> gz (y * PI / 180) = Returned (v y)) -> gz (x * PI / 180) = Thrown e ->
  main (GzParsed o false) =
    (row Screen "Phi [deg]" "GZ(phi) [m]" :: map (fun y => row Screen (fmt y) (fmt (v y))) before ++
     map Complaint (told (report dec e) ++ stderr (report dec e)), if escapes (report dec e) then Killed else Status 0)%list.
Proof.
  intros o gz v before x after e A W C G V X. pose proof A as (_ & _ & Hd & Hp). destruct (get_phi_degrees _ _ Hd Hp) as (l & El & E).
  rewrite El in G. injection G as ->. unfold gz_main. rewrite acceptable_valid by assumption. cbn [orb]. unfold gz_run. rewrite C, E. cbv zeta. rewrite W. cbn [is_empty orb].
  assert (gz_rows fmt Screen gz (map (fun x => x * PI / 180) (before ++ x :: after)%list) = (map (fun y => row Screen (fmt y) (fmt (v y))) before, Some e)) as ->; [|reflexivity].
  clear -V X. induction before as [|y before IH].
  - cbn [app map gz_rows]. now rewrite X.
  - cbn [app map gz_rows]. rewrite (V y) by now left. rewrite IH by (intros; apply V; now right). cbv beta iota. f_equal. f_equal. unfold row, two_columns.
    replace (y * PI / 180 * 180 / PI) with y; [reflexivity|]. field. apply PI_neq0.
Qed.

(** ** C161. Errors of the program. *)
(** Options that are not acceptable only show the usage, after a message unless no option at all is given. *)
Theorem gz_options_refused : forall o help, ~ acceptable o \/ help = true ->
  exists said, main (GzParsed o help) = (said ++ [Usage], Status 0)%list /\ Forall (fun e => exists m, e = Complaint m) said /\
    (~ acceptable o -> said = [] -> g_dphi o = 0 /\ g_phi_max o = 0 /\ g_stl o = ""%string /\ g_yaml o = [] /\ g_csv o = ""%string).
Proof.
  intros o help H. unfold gz_main.
  assert (forall b s, gz_invalid fmt o = (b, s) -> (b = false -> acceptable o) /\ Forall (fun e => exists m, e = Complaint m) s /\
    (b = true -> s = [] -> g_dphi o = 0 /\ g_phi_max o = 0 /\ g_stl o = ""%string /\ g_yaml o = [] /\ g_csv o = ""%string)) as G.
  { destruct o as [d pm st y c]. unfold gz_invalid, gz_empty, acceptable. cbn [g_dphi g_phi_max g_stl g_yaml g_csv]. intros b s.
    assert (forall m, Forall (fun e => exists m, e = Complaint m) [Complaint m]) as FC by (intros m; apply Forall_cons; [eauto|constructor]).
    destruct ((if Req_EM_T d 0 then true else false) && (if Req_EM_T pm 0 then true else false) && is_empty st && nothing y && is_empty c) eqn:E0.
    { rewrite !andb_true_iff in E0. destruct E0 as [[[[E1 E2] E3] E4] E5]. destruct (Req_EM_T d 0); [|discriminate]. destruct (Req_EM_T pm 0); [|discriminate].
      destruct st; [|discriminate]. destruct y; [|discriminate]. destruct c; [|discriminate]. intros E. injection E as <- <-. repeat split; [discriminate|discriminate|discriminate|discriminate|constructor|assumption|assumption]. }
    destruct st as [|a st]; cbn [is_empty].
    { intros E. injection E as <- <-. split; [discriminate|]. split; [apply FC|discriminate]. }
    destruct y as [|a' y]; cbn [nothing].
    { intros E. injection E as <- <-. split; [discriminate|]. split; [apply FC|discriminate]. }
    destruct (Rltb_dec 0 d) as [[-> G1]|[-> G1]].
    - destruct (Rltb_dec pm d) as [[-> G2]|[-> G2]]; intros E; injection E as <- <-.
      + split; [discriminate|]. split; [apply FC|discriminate].
      + split; [intros _; repeat split; [discriminate|discriminate|lra|lra]|]. split; [constructor|discriminate].
    - intros E. injection E as <- <-. split; [discriminate|]. split; [apply FC|discriminate]. }
  destruct (gz_invalid fmt o) as [b s] eqn:E. destruct (G b s eq_refl) as (G1 & G2 & G3). exists s.
  assert (b || help = true) as -> by (destruct H as [H| ->]; [|apply orb_true_r]; destruct b; [reflexivity|exfalso; apply H, G1; reflexivity]).
  split; [reflexivity|]. split; [exact G2|]. intros NA. apply G3. destruct b; [reflexivity|]. exfalso. apply NA, G1. reflexivity.
Qed.

(** The exit status never reports a failure. *)
Theorem gz_exit_status_refuted : forall p l n, main p = (l, Status n) -> n = 0%Z.
Proof.
  intros [|o help] l n; [discriminate|]. unfold gz_main. destruct (gz_invalid fmt o) as [b s]. destruct (b || help); [intros E; now injection E|].
  destruct (gz_run fmt opens curve angle_message o) as [ls [e|]]; cbn [gz_end].
  - destruct (escapes (report dec e)); [discriminate|]. intros E. now injection E.
  - intros E. now injection E.
Qed.

(** A table that cannot be written is lost without a word. *)
Theorem gz_table_lost_refuted : forall o gz v, acceptable o -> g_csv o <> ""%string -> opens (g_csv o) = false ->
  curve (g_yaml o) (g_stl o) = Returned gz -> (forall x, gz (x * PI / 180) = Returned (v x)) ->
  main (GzParsed o false) = ([], Status 0).
Proof.
  intros o gz v A W O C V. pose proof A as (_ & _ & Hd & Hp). destruct (get_phi_degrees _ _ Hd Hp) as (l & El & E).
  unfold gz_main. rewrite acceptable_valid by assumption. cbn [orb]. unfold gz_run. rewrite C, E. cbv zeta.
  rewrite (rows_all _ _ _ v) by (intros; apply V). rewrite O, is_empty_eqb.
  destruct (String.eqb_spec (g_csv o) ""); [contradiction|]. reflexivity.
Qed.
End Gz.
Print Assumptions gz_table.
Print Assumptions gz_table_stops.
Print Assumptions gz_options_refused.
Print Assumptions gz_exit_status_refuted.
Print Assumptions gz_table_lost_refuted.

Definition some_options : gz_options := mkGz 2 5 "hull.stl" ["hull.yml"%string] "".
Example gz_table_example : acceptable some_options /\
  gz_main (fun _ => "x"%string) (fun _ => ""%string) (fun _ => true) (fun _ _ => Returned (fun x => Returned x)) (fun _ _ => ""%string) (GzParsed some_options false) =
  (row Screen "Phi [deg]" "GZ(phi) [m]" :: repeat (row Screen "x" "x") 7, Status 0).
Proof.
  assert (acceptable some_options) as A by (unfold acceptable, some_options; cbn; repeat split; [discriminate|discriminate|lra|lra]).
  split; [exact A|].
  destruct (gz_table (fun _ => "x"%string) (fun _ => ""%string) (fun _ => true) (fun _ _ => Returned (fun x => Returned x)) (fun _ _ => ""%string) some_options
    (fun x => Returned x) (fun x => x * PI / 180) A (or_introl eq_refl) eq_refl (fun x => eq_refl)) as (l & El & ->).
  change (get_phi 2 5 = Ok l) in El. rewrite heel_angles_example in El. injection El as <-. reflexivity.
Qed.

(** ** C162. Quaternions to angles. *)
(** With four arguments that make a unit quaternion, the program displays, in degrees, the angles of an attitude that is the rotation of the quaternion. *)
Theorem quaternion_tool_partial : forall fmt dec atof euler_angles name a b c d, good_angles euler_angles ->
  atof a * atof a + atof b * atof b + atof c * atof c + atof d * atof d = 1 ->
  exists phi theta psi, euler_main fmt dec atof euler_angles [name; a; b; c; d] =
    Ok ([Cout ("phi: " ++ fmt phi ++ endl ++ "theta: " ++ fmt theta ++ endl ++ "psi: " ++ fmt psi ++ endl)], 0%Z) /\
    euler_matrix (phi * PI / 180) (theta * PI / 180) (psi * PI / 180) = qmat (atof a) (atof b) (atof c) (atof d).
Proof.
  intros fmt dec atof ea name a b c d G U. unfold euler_main. cbn [List.length Nat.eqb at_ub nth_error bindO app].
  do 3 eexists. split; [reflexivity|]. pose proof PI_neq0 as P.
  assert (forall x, x * (180 / PI) * PI / 180 = x) as K by (intros; field; exact P). rewrite !K. apply G, qmat_rotation. lra.
Qed.
Print Assumptions quaternion_tool_partial.
(** With fewer arguments the program reads what does not exist, whatever message it has just displayed; additional arguments are ignored. *)
Theorem quaternion_tool_refuted : forall fmt dec atof euler_angles argv,
  ((List.length argv < 5)%nat -> euler_main fmt dec atof euler_angles argv = UB) /\
  (forall name a b c d e more, exists said text, argv = name :: a :: b :: c :: d :: e :: more ->
     euler_main fmt dec atof euler_angles [name; a; b; c; d] = Ok ([Cout text], 0%Z) /\
     euler_main fmt dec atof euler_angles argv = Ok ([Cerr said; Cout text], 0%Z)).
Proof.
  intros fmt dec atof ea argv. split.
  - intros H. unfold euler_main. destruct argv as [|n [|a [|b [|c [|d l]]]]]; try reflexivity. cbn in H. lia.
  - intros name a b c d e more. do 2 eexists. intros ->. split; reflexivity.
Qed.
Print Assumptions quaternion_tool_refuted.

(** ** C163. Meshes embedded in code. *)
(** The code defines a string with this value (a literal without escape sequences). *)
Definition defines (code value : list Z) : Prop :=
  code = (codes "const std::string s = """ ++ value ++ codes """;" ++ [10%Z])%list /\
  Forall (fun c => c <> 34 /\ c <> 92 /\ c <> 10)%Z value.
Lemma le_bytes4_bytes : forall w, Forall is_byte (le_bytes4 w).
Proof. intros w. unfold le_bytes4, is_byte. repeat apply Forall_cons; try (apply Z.mod_pos_bound; lia). constructor. Qed.
Lemma write_face_bytes : forall D narrow nw f bs, write_face D narrow nw f = Ok bs -> Forall is_byte bs.
Proof.
  intros D narrow nw f bs. unfold write_face. destruct f as [|[[a b] c] [|[[d e] g] [|[[h i] j] f]]]; cbn [at_ub nth_error bindO]; try discriminate.
  destruct (nw _) as [[n0 n1] n2]. match goal with |- Ok ?x = Ok bs -> _ => intros E; assert (x = bs) as <- by congruence end. repeat (apply Forall_app; split); try apply le_bytes4_bytes.
  apply Forall_forall. intros x [<-|[<-|[]]]; unfold is_byte; lia.
Qed.
Lemma write_bytes : forall D narrow nw stl bs, write_binary_stl D narrow nw stl = Ok bs -> Forall is_byte bs.
Proof.
  intros D narrow nw stl bs. unfold write_binary_stl. set (n := (Z.of_nat (List.length stl) mod 4294967296)%Z). generalize (firstn (Z.to_nat n) stl). intros l.
  destruct (write_faces D narrow nw l) as [fs| |] eqn:E; cbn [bindO]; [|discriminate|discriminate]. match goal with |- Ok ?x = Ok bs -> _ => intros H; assert (x = bs) as <- by congruence end.
  apply Forall_app. split; [apply Forall_forall; intros x I; apply repeat_spec in I; subst; unfold is_byte; lia|]. apply (Forall_app is_byte (le_bytes4 n) fs). split; [apply le_bytes4_bytes|].
  clear H n. revert fs E. induction l as [|f l IH]; intros fs E; cbn [write_faces] in E.
  - injection E as <-. constructor.
  - destruct (write_face D narrow nw f) as [a| |] eqn:Ef; cbn [bindO] in E; [|discriminate|discriminate].
    destruct (write_faces D narrow nw l) as [b| |]; cbn [bindO] in E; [|discriminate|discriminate]. injection E as <-.
    apply Forall_app. split; [now apply (write_face_bytes D narrow nw f)|now apply IH].
Qed.
Theorem embedded_mesh_partial : forall D (narrow : D -> Z) normal_words peeks, (forall x, (0 <= narrow x < 4294967296)%Z) ->
  forall stl, Forall (fun f => (3 <= List.length f)%nat) stl -> (Z.of_nat (List.length stl) < 4294967296)%Z ->
  exists data text code, write_binary_stl D narrow normal_words stl = Ok data /\ b91_encode data = Ok text /\ generated_code D narrow normal_words stl = Ok code /\
    (~ In 34%Z text -> exists value, defines code value /\
       (do s <- b91_decode value; read_binary_stl peeks s) =
         Ok (map (fun f => map (fun p => let '(x, y, z) := p in (narrow x, narrow y, narrow z)) (firstn 3 f)) stl)) /\
    (In 34%Z text -> forall value, ~ defines code value).
Proof.
  intros D narrow nw peeks Hn stl H B. destruct (write_ok D narrow nw Hn stl H B) as (bs & E & L & N & P & F).
  pose proof (write_bytes D narrow nw stl bs E) as BB. destruct (base91_round_trip bs BB) as (text & Et & Ed).
  exists bs, text. unfold generated_code. rewrite E. cbn [bindO]. rewrite Et. cbn [bindO]. eexists. split; [reflexivity|]. split; [reflexivity|]. split; [reflexivity|].
  pose proof (base91_alphabet bs text Et) as Al. split.
  - intros Q. exists text. split; [split; [reflexivity|]|].
    + apply Forall_forall. intros c I. rewrite Forall_forall in Al. destruct (Al c I) as (Pr & _ & Bk & _). unfold printable_ascii in Pr. split; [intros ->; contradiction|]. split; [exact Bk|lia].
    + rewrite Ed. cbn [bindO]. rewrite read_binary_complete; [|rewrite N, L; lia|rewrite L; apply Nat.le_add_r]. rewrite N, Nat2Z.id, F. reflexivity.
  - intros Q value (Ec & Fv). apply app_inv_head in Ec.
    assert (text = value) as ->.
    { revert Ec. generalize (codes """;" ++ [10%Z])%list. intros tail. apply app_inv_tail. }
    rewrite Forall_forall in Fv. destruct (Fv _ Q) as [K _]. now apply K.
Qed.
Print Assumptions embedded_mesh_partial.
(** Both cases exist: the code of this mesh defines a string that gives it back, and the code of that one does not compile. *)
Definition triangle (x : Z) : list (list (Z * Z * Z)) := [[(x, 0, 0); (0, 1065353216, 0); (0, 0, 1065353216)]]%Z.
Definition code_of (x : Z) : outcome (list Z) := generated_code Z (fun x => x mod 4294967296)%Z (fun _ => (0, 0, 1065353216)%Z) (triangle x).
Theorem embedded_mesh_refuted :
  (exists code value, code_of 67 = Ok code /\ defines code value /\
     (do s <- b91_decode value; read_binary_stl false s) = Ok (triangle 67)) /\
  (exists code, code_of 68 = Ok code /\ forall value, ~ defines code value).
Proof.
  assert (forall x, (0 <= x mod 4294967296 < 4294967296)%Z) as Hn by (intros; apply Z.mod_pos_bound; lia).
  assert (forall x, Forall (fun f : list (Z * Z * Z) => (3 <= List.length f)%nat) (triangle x)) as Hl by (intros; apply Forall_cons; [cbn; lia|constructor]).
  split.
  - destruct (embedded_mesh_partial Z (fun x => x mod 4294967296)%Z (fun _ => (0, 0, 1065353216)%Z) false Hn (triangle 67) (Hl 67%Z)) as (data & text & code & Ed & Et & Ec & K & _); [vm_compute; reflexivity|].
    exists code. destruct K as (value & Dv & Rv).
    + assert (text = match b91_encode data with Ok t => t | _ => [] end) as -> by now rewrite Et.
      assert (data = match write_binary_stl Z (fun x => x mod 4294967296)%Z (fun _ => (0, 0, 1065353216)%Z) (triangle 67) with Ok t => t | _ => [] end) as -> by now rewrite Ed.
      vm_compute. intuition discriminate.
    + exists value. split; [exact Ec|]. split; [exact Dv|]. rewrite Rv. vm_compute. reflexivity.
  - destruct (embedded_mesh_partial Z (fun x => x mod 4294967296)%Z (fun _ => (0, 0, 1065353216)%Z) false Hn (triangle 68) (Hl 68%Z)) as (data & text & code & Ed & Et & Ec & _ & K); [vm_compute; reflexivity|].
    exists code. split; [exact Ec|]. apply K.
    assert (text = match b91_encode data with Ok t => t | _ => [] end) as -> by now rewrite Et.
    assert (data = match write_binary_stl Z (fun x => x mod 4294967296)%Z (fun _ => (0, 0, 1065353216)%Z) (triangle 68) with Ok t => t | _ => [] end) as -> by now rewrite Ed.
    vm_compute. tauto.
Qed.
Print Assumptions embedded_mesh_refuted.
