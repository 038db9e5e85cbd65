(** C120-C124: the command-line programs and the outputs they build. *)
From Coq Require Import ZArith List Bool String Ascii Lia.
From Flocq Require Import Core BinarySingleNaN.
From Verif Require Import Common Output_Model Output_Props Wire_Model Propeller_Model Main_Model.
Import ListNotations.
Open Scope string_scope.

(** ** Specification *)
(** The simulations and the servers that a program starts. *)
Definition starts (t : run_trace) : list event := filter (fun e => match e with Ran _ _ | Served _ _ => true | _ => false end) (fst t).
Definition messages (t : run_trace) : list event := filter (fun e => match e with Message _ => true | _ => false end) (fst t).
(** Arguments with which a simulation makes sense: some input, a known solver, a positive and finite step. *)
Definition solver_of (name : string) (s : stepper) : Prop := (name = "euler" /\ s = Euler) \/ (name = "rk4" /\ s = RK4) \/ (name = "rkck" /\ s = RKCK).
Definition positive (x : f64) : Prop := Bltb fzero x = true.

Section Programs.
  Context (dec : nat -> string) (simulate : args -> stepper -> option exn) (serve : args -> bool -> option exn).
  Notation xdyn := (xdyn_main dec simulate). Notation cs := (cs_main dec serve). Notation me := (me_main dec serve).

  Lemma not_nan_sign x : is_nan x = false -> leb0 x = false -> positive x.
  Proof.
    unfold leb0, positive, Bleb, Bltb, SpecFloat.SFleb, SpecFloat.SFltb. unfold fzero. destruct x as [s|s| |s m e B]; try discriminate; try destruct s; cbn; intros; try discriminate; reflexivity.
  Qed.
  Lemma positive_sign x : positive x -> leb0 x = false.
  Proof.
    unfold leb0, positive, Bleb, Bltb, SpecFloat.SFleb, SpecFloat.SFltb. unfold fzero. destruct x as [s|s| |s m e B]; try destruct s; cbn; intros; try discriminate; reflexivity.
  Qed.

  (** *** Exit status *)
  (** A command line that cannot be understood, or without input file, solver or time step, gives an error status and starts nothing. *)
Theorem bad_command_line_is_refused : forall argc, argc <> 1%nat ->
    (forall what, snd (xdyn argc (BadCommandLine what)) = Status (-1) /\ starts (xdyn argc (BadCommandLine what)) = [] /\ messages (xdyn argc (BadCommandLine what)) <> []) /\
    (forall a f, fl_help f = false -> a_yaml a = [] \/ a_solver a = "" \/ leb0 (a_dt a) = true -> snd (xdyn argc (Parsed a f)) = Status 1 /\ starts (xdyn argc (Parsed a f)) = []).
  Proof.
    intros argc Ha. unfold xdyn_main. replace (Nat.eqb argc 1) with false by (symmetry; apply Nat.eqb_neq, Ha). split.
    - intros what. repeat split. discriminate.
    - intros a f Hf H. unfold xdyn_check. rewrite Hf. unfold xdyn_invalid. destruct (xdyn_empty a); [auto|]. destruct H as [-> | [->|H]].
      + auto.
      + destruct (a_yaml a); auto.
      + rewrite H. destruct (a_yaml a); auto. destruct (String.eqb (a_solver a) ""); auto.
  Qed.
  (** A simulation that succeeds gives the status 0. *)
Theorem success_gives_status_zero : forall argc a f, (forall s, simulate a s = None) -> fl_help f = false -> a_yaml a <> [] -> a_solver a <> "" -> positive (a_dt a) ->
    argc <> 1%nat -> xdyn argc (Parsed a f) = ([Ran a (xdyn_stepper (a_solver a))], Status 0).
  Proof.
    intros argc a f Hs Hf Hy Hn Hd Ha. unfold xdyn_main. replace (Nat.eqb argc 1) with false by (symmetry; apply Nat.eqb_neq, Ha). unfold xdyn_check, xdyn_invalid. rewrite Hf.
    assert (E : xdyn_empty a = false). { unfold xdyn_empty. destruct (a_yaml a); [congruence|]. rewrite !andb_false_r. reflexivity. }
    rewrite E, (positive_sign _ Hd). destruct (a_yaml a); [congruence|]. replace (String.eqb (a_solver a) "") with false by (symmetry; apply String.eqb_neq, Hn).
    cbn [Z.eqb negb]. unfold xdyn_run. rewrite E, Hs. reflexivity.
  Qed.
  (** The status is also 0 for every simulation that fails. *)
Theorem exit_status_refuted : forall argc a e, simulate a (xdyn_stepper (a_solver a)) = Some e -> e <> Other -> a_yaml a <> [] -> a_solver a <> "" -> positive (a_dt a) ->
    argc <> 1%nat -> snd (xdyn argc (Parsed a (mkFlags false false false))) = Status 0.
  Proof.
    intros argc a e Hs He Hy Hn Hd Ha. unfold xdyn_main. replace (Nat.eqb argc 1) with false by (symmetry; apply Nat.eqb_neq, Ha). unfold xdyn_check, xdyn_invalid. cbn [fl_help fl_debug].
    assert (E : xdyn_empty a = false). { unfold xdyn_empty. destruct (a_yaml a); [congruence|]. rewrite !andb_false_r. reflexivity. }
    rewrite E, (positive_sign _ Hd). destruct (a_yaml a); [congruence|]. replace (String.eqb (a_solver a) "") with false by (symmetry; apply String.eqb_neq, Hn).
    cbn [Z.eqb negb]. unfold xdyn_run. rewrite E, Hs. destruct e; try reflexivity. congruence.
  Qed.
  (** A failure is at least displayed, except when a websocket could not be opened: nothing at all is displayed then. *)
Theorem failure_is_displayed_partial : forall a e, simulate a (xdyn_stepper (a_solver a)) = Some e -> (forall w, e <> WebSocketError w) -> xdyn_empty a = false ->
    (e <> Other -> messages (xdyn_run dec simulate a true) <> []) /\ (e = Other -> snd (xdyn_run dec simulate a true) = Killed).
  Proof.
    intros a e Hs Hw Ha. unfold xdyn_run. rewrite Ha, Hs. split; [intros He; destruct e; cbn; try discriminate; [exfalso; eapply Hw; reflexivity|congruence]|intros ->; reflexivity].
  Qed.
Theorem failure_is_displayed_refuted : forall a w, simulate a (xdyn_stepper (a_solver a)) = Some (WebSocketError w) -> xdyn_empty a = false ->
    xdyn_run dec simulate a true = ([Ran a (xdyn_stepper (a_solver a))], Status 0).
  Proof. intros a w Hs Ha. unfold xdyn_run. rewrite Ha, Hs. reflexivity. Qed.

  (** *** What is started *)
  (** A simulation is only started with an input file, a solver and a step that is not negative or null, unless the help is asked for. *)
Theorem simulations_have_valid_arguments_partial : forall argc a f b s, fl_help f = false -> In (Ran b s) (starts (xdyn argc (Parsed a f))) ->
    b = a /\ a_yaml a <> [] /\ a_solver a <> "" /\ s = xdyn_stepper (a_solver a) /\ (is_nan (a_dt a) = false -> positive (a_dt a)).
  Proof.
    intros argc a f b s Hf. unfold xdyn_main. destruct (Nat.eqb argc 1); [intros []|]. unfold xdyn_check. rewrite Hf. unfold xdyn_invalid.
    destruct (xdyn_empty a) eqn:E; [intros []|]. destruct (a_yaml a) eqn:Y; [intros []|]. destruct (String.eqb_spec (a_solver a) "") as [|N]; [intros []|].
    destruct (leb0 (a_dt a)) eqn:L; [intros []|]. cbn [Z.eqb negb]. unfold xdyn_run. rewrite E.
    assert (C : forall l : list event, In (Ran b s) (filter (fun e => match e with Ran _ _ | Served _ _ => true | _ => false end) l) -> In (Ran b s) l) by (intros l0 I; apply filter_In in I; tauto).
    assert (R : forall e, ~ In (Ran b s) (report_events dec e)). { intros e I. unfold report_events in I. apply in_map_iff in I. destruct I as (x & X & _). discriminate. }
    assert (G : In (Ran b s) [Ran a (xdyn_stepper (a_solver a))] -> b = a /\ s = xdyn_stepper (a_solver a)) by (intros [[= <- <-]|[]]; auto).
    intros I. assert (B : b = a /\ s = xdyn_stepper (a_solver a)).
    { unfold starts in I. destruct (simulate a (xdyn_stepper (a_solver a))) as [e|].
      - destruct (negb (fl_debug f)); [destruct (escapes (report dec e))|]; cbn [fst app] in I; apply C in I; auto. destruct I as [[= <- <-]|I]; [auto|]. exfalso. exact (R e I).
      - cbn [fst app] in I. apply C in I. auto. }
    destruct B as (-> & ->). split; [reflexivity|]. split; [discriminate|]. split; [exact N|]. split; [reflexivity|]. intros Hn. apply not_nan_sign; assumption.
  Qed.
  (** A step that is not a number is accepted. *)
Theorem step_that_is_not_a_number_refuted : forall a f argc, fl_help f = false -> a_yaml a <> [] -> a_solver a <> "" -> a_dt a = B754_nan -> argc <> 1%nat ->
    In (Ran a (xdyn_stepper (a_solver a))) (starts (xdyn argc (Parsed a f))).
  Proof.
    intros a f argc Hf Hy Hn Hd Ha. unfold xdyn_main. replace (Nat.eqb argc 1) with false by (symmetry; apply Nat.eqb_neq, Ha). unfold xdyn_check, xdyn_invalid. rewrite Hf.
    assert (E : xdyn_empty a = false). { unfold xdyn_empty. destruct (a_yaml a); [congruence|]. rewrite !andb_false_r. reflexivity. }
    rewrite E, Hd. destruct (a_yaml a); [congruence|]. replace (String.eqb (a_solver a) "") with false by (symmetry; apply String.eqb_neq, Hn).
    cbn [leb0 Bleb]. change (leb0 B754_nan) with false. cbn [Z.eqb negb]. unfold xdyn_run. rewrite E. destruct (simulate a (xdyn_stepper (a_solver a))) as [e|]; [|left; reflexivity].
    destruct (negb (fl_debug f)); [destruct (escapes (report dec e))|]; left; reflexivity.
  Qed.

  (** Asking for help starts no server. *)
Theorem help_starts_no_server : forall argc a f, fl_help f = true -> starts (cs argc (Parsed a f)) = [] /\ starts (me argc (Parsed a f)) = [].
  Proof. intros argc a f Hf. unfold cs_main, me_main. rewrite Hf. destruct (Nat.eqb argc 1); auto. Qed.
  (** The simulator displays its help and then runs the simulation, with whatever arguments were given (even a null step). *)
Theorem help_starts_nothing_refuted : forall argc a f, fl_help f = true -> xdyn_empty a = false -> argc <> 1%nat ->
    In (Ran a (xdyn_stepper (a_solver a))) (starts (xdyn argc (Parsed a f))).
  Proof.
    intros argc a f Hf E Ha. unfold xdyn_main. replace (Nat.eqb argc 1) with false by (symmetry; apply Nat.eqb_neq, Ha). unfold xdyn_check. rewrite Hf. cbn [Z.eqb negb]. unfold xdyn_run. rewrite E.
    destruct (simulate a (xdyn_stepper (a_solver a))) as [e|]; [|left; reflexivity]. destruct (negb (fl_debug f)); [destruct (escapes (report dec e))|]; left; reflexivity.
  Qed.
Theorem help_starts_nothing_partial : forall argc a f, xdyn_empty a = true -> starts (xdyn argc (Parsed a f)) = [].
  Proof.
    intros argc a f E. unfold xdyn_main. destruct (Nat.eqb argc 1); [reflexivity|]. unfold xdyn_check, xdyn_invalid, xdyn_run. rewrite E. destruct (fl_help f); reflexivity.
  Qed.

  (** A server is only started with an input file and a port that can be used. *)
Theorem servers_have_valid_arguments_partial : forall argc a f b g, In (Served b g) (starts (cs argc (Parsed a f))) \/ In (Served b g) (starts (me argc (Parsed a f))) ->
    b = a /\ g = fl_grpc f /\ a_yaml a <> [] /\ (1024 <= a_port a)%Z.
  Proof.
    intros argc a f b g.
    assert (C : forall l : list event, In (Served b g) (filter (fun e => match e with Ran _ _ | Served _ _ => true | _ => false end) l) -> In (Served b g) l) by (intros l0 I; apply filter_In in I; tauto).
    assert (R : forall e, ~ In (Served b g) (report_events dec e)). { intros e I. unfold report_events in I. apply in_map_iff in I. destruct I as (x & X & _). discriminate. }
    assert (S1 : forall catch, In (Served b g) (starts (serve_run dec serve a (fl_grpc f) catch)) -> b = a /\ g = fl_grpc f).
    { intros catch I. unfold starts, serve_run in I. destruct (serve a (fl_grpc f)) as [e|].
      - destruct catch; [destruct (escapes (report dec e))|]; cbn [fst] in I; apply C in I; destruct I as [[= <- <-]|I]; auto; [destruct I|exfalso; exact (R e I)|destruct I].
      - apply C in I. destruct I as [[= <- <-]|[]]. auto. }
    intros [I|I]; revert I; [unfold cs_main|unfold me_main]; (destruct (Nat.eqb argc 1); [intros []|]); (destruct (fl_help f); [intros []|]).
    - unfold cs_invalid. destruct (cs_empty a) eqn:E; [intros []|]. destruct (a_yaml a) eqn:Y; [intros []|]. destruct (String.eqb (a_solver a) ""); [intros []|].
      destruct (leb0 (a_dt a)); [intros []|]. destruct (Z.eqb (a_port a) 0); [intros []|]. destruct (Z.ltb_spec (a_port a) 1024) as [|P]; [intros []|].
      intros I. destruct (S1 _ I) as (-> & ->). repeat split; [discriminate|exact P].
    - unfold me_invalid. destruct (me_empty a) eqn:E; [intros []|]. destruct (a_yaml a) eqn:Y; [intros []|].
      destruct (Z.eqb (a_port a) 0); [intros []|]. destruct (Z.ltb_spec (a_port a) 1024) as [|P]; [intros []|].
      intros I. destruct (S1 _ I) as (-> & ->). repeat split; [discriminate|exact P].
  Qed.
  (** When the command line of a server cannot be understood, the co-simulation server exits with the status 0, and the model-exchange server starts, without
      input file, on port 0. *)
Theorem servers_refuse_bad_command_lines_refuted : forall argc what, argc <> 1%nat ->
    snd (cs argc (BadCommandLine what)) = Status 0 /\ In (Served no_args false) (starts (me argc (BadCommandLine what))).
  Proof.
    intros argc what Ha. unfold cs_main, me_main. replace (Nat.eqb argc 1) with false by (symmetry; apply Nat.eqb_neq, Ha). split; [reflexivity|].
    unfold serve_run. destruct (serve no_args false) as [e|]; left; reflexivity.
  Qed.
End Programs.

(** *** Solvers *)
Theorem solver_selection_partial : forall name s, solver_of name s -> xdyn_stepper name = s /\ cs_stepper name = Ok s.
Proof. intros name s [(-> & ->)|[(-> & ->)|(-> & ->)]]; split; reflexivity. Qed.
(** The co-simulation server refuses every other name; the simulator silently uses the Euler scheme. *)
Theorem unknown_solvers_of_the_server : forall name, (forall s, ~ solver_of name s) -> cs_stepper name = Throw.
Proof.
  intros name H. unfold cs_stepper, solver_of in *. destruct (String.eqb_spec name "euler") as [->|]; [exfalso; eapply H; eauto|].
  destruct (String.eqb_spec name "rk4") as [->|]; [exfalso; eapply H; eauto|]. destruct (String.eqb_spec name "rkck") as [->|]; [exfalso; eapply H; eauto 6|reflexivity].
Qed.
Theorem unknown_solvers_refuted : forall name, (forall s, ~ solver_of name s) -> xdyn_stepper name = Euler.
Proof.
  intros name H. unfold xdyn_stepper, solver_of in *. destruct (String.eqb_spec name "euler") as [->|]; [reflexivity|].
  destruct (String.eqb_spec name "rk4") as [->|]; [exfalso; eapply H; eauto|]. destruct (String.eqb_spec name "rkck") as [->|]; [exfalso; eapply H; eauto 6|reflexivity].
Qed.

(** ** Outputs *)
(** What an observer writes, and where. *)
Definition data_of (o : observer) : list string := match o with Csv _ d | Hdf5 _ d | Tsv _ d | Map d | Json _ d | Ws _ _ d => d end.
(** The observer that an entry of the section 'output' asks for. *)
Definition string_or (k : key string) : string := match k with Value s => s | _ => "" end.
Definition Z_or (k : key Z) : Z := match k with Value z => z | _ => 0%Z end.
Definition asked (e : entry) (o : observer) : Prop :=
  exists data, e_data e = Value data /\
    ((e_format e = Value "csv" /\ o = Csv (string_or (e_filename e)) data) \/
     ((e_format e = Value "hdf5" \/ e_format e = Value "h5") /\ o = Hdf5 (string_or (e_filename e)) data) \/
     (e_format e = Value "tsv" /\ o = Tsv (string_or (e_filename e)) data) \/
     (e_format e = Value "map" /\ o = Map data) \/
     (e_format e = Value "json" /\ o = Json (string_or (e_filename e)) data) \/
     (e_format e = Value "ws" /\ o = Ws (string_or (e_address e)) (Z_or (e_port e)) data)).
Definition well_typed (e : entry) : Prop := e_filename e <> Wrong /\ e_address e <> Wrong /\ e_port e <> Wrong.

Lemma read_good e o : well_typed e -> asked e o -> exists out, read_entry e = (out, false) /\ observers_of out = [o].
Proof.
  intros (A & B & C) (data & D & H). unfold read_entry. destruct (e_filename e) eqn:F; [|congruence|]; (destruct (e_address e) eqn:G; [|congruence|]); (destruct (e_port e) eqn:P; [|congruence|]);
    rewrite D; cbn [string_or Z_or] in H; destruct H as [(-> & ->)|[([->| ->] & ->)|[(-> & ->)|[(-> & ->)|[(-> & ->)|(-> & ->)]]]]]; (eexists; split; [reflexivity|reflexivity]).
Qed.
(** When every entry is complete, each gives its observer, in the order of the file. *)
Theorem outputs_of_the_file_partial : forall l os, List.Forall well_typed l -> Forall2 asked l os -> list_of_observers (parse_output (Some l)) = os.
Proof.
  intros l os W H. cbn [parse_output]. induction H as [|e o l os A H IH]; [reflexivity|]. inversion W as [|? ? We W']; subst.
  destruct (read_good e o We A) as (out & R & O). cbn [read_entries]. rewrite R. unfold list_of_observers in *. cbn [flat_map]. rewrite O, (IH W'). reflexivity.
Qed.
(** Otherwise nothing is reported: the entries after the first one that is not complete are lost, and those of an unknown format too. *)
Theorem outputs_of_the_file_refuted :
  (forall before e after, (forall x, In x before -> snd (read_entry x) = false) -> e_data e = Absent ->
     exists o, list_of_observers (parse_output (Some (before ++ e :: after)%list)) = (list_of_observers (parse_output (Some before)) ++ observers_of o)%list /\ o_data o = []) /\
  (forall fmt, ~ In fmt ["csv"; "h5"; "hdf5"; "tsv"; "map"; "json"; "ws"] ->
     forall f d, list_of_observers (parse_output (Some [mkEntry f Absent Absent (Value fmt) (Value d)])) = []).
Proof.
  split.
  - intros before e after Hb He. cbn [parse_output]. assert (RE : snd (read_entry e) = true /\ o_data (fst (read_entry e)) = []).
    { unfold read_entry. rewrite He. destruct (e_filename e), (e_address e), (e_port e), (e_format e); split; reflexivity. }
    destruct (read_entry e) as (o, b) eqn:R. cbn [fst snd] in RE. destruct RE as (-> & RD). exists o. split; [|exact RD].
    induction before as [|x before IH].
    + cbn [app read_entries]. rewrite R. unfold list_of_observers. cbn [flat_map app]. replace (flat_map observers_of (map (fun _ => empty_output) after)) with (@nil observer); [apply app_nil_r|].
      induction after as [|y after IHa]; [reflexivity|]. cbn [map flat_map]. rewrite <- IHa. reflexivity.
    + cbn [app read_entries]. pose proof (Hb x (or_introl eq_refl)) as Hx. destruct (read_entry x) as (ox, bx). cbn [snd] in Hx. subst bx.
      unfold list_of_observers in *. cbn [flat_map]. rewrite IH, app_assoc; [reflexivity|]. intros y Iy. apply Hb. right. exact Iy.
  - intros fmt Hf f d. cbn [In] in Hf. unfold parse_output, read_entries, read_entry. cbn [e_filename e_address e_port e_format e_data].
    assert (E : forall file, observers_of (mkOutput file fmt "" 0 d) = []).
    { intros file. unfold observers_of. cbn [o_format o_filename o_data o_address o_port].
      repeat match goal with |- context [String.eqb fmt ?s] => destruct (String.eqb_spec fmt s) as [->|]; [exfalso; tauto|] end. reflexivity. }
    destruct f as [| |f]; unfold list_of_observers; cbn [flat_map o_filename o_address o_port o_data empty_output]; try (rewrite E; reflexivity). reflexivity.
Qed.

(** The outputs asked for on the command line come after those of the file. With -o, all the states of all the bodies are written; the wave heights asked for with -w
    are written once: in the main output if it is a HDF5 file, JSON or a websocket, else in the file given with -w, which must be a HDF5 file. *)
Definition all_states (bodies : list string) : list string :=
  "t" :: flat_map (fun b => map (fun v => v ++ "(" ++ b ++ ")") ["x"; "y"; "z"; "u"; "v"; "w"; "p"; "q"; "r"; "qr"; "qi"; "qj"; "qk"; "phi"; "theta"; "psi"]) bodies.
Lemma if_ends_inv name k ext f rest r : if_ends name k ext f rest = Ok r -> r = f \/ rest = Ok r.
Proof. unfold if_ends. destruct (substr _ _ _) as [x| |]; try discriminate. cbn [bindO]. destruct (String.eqb x ext); [intros H; injection H as <-; auto|auto]. Qed.
Theorem outputs_without_main_output : forall section bodies a, a_output a = "" ->
  (a_waves a = "" -> build_observers_description section bodies a = Ok (parse_output section)) /\
  (a_waves a <> "" -> forall f, get_format_for_wave_observer (a_waves a) = Ok f ->
     build_observers_description section bodies a = Ok (parse_output section ++ [mkOutput (a_waves a) f "" 0 ["waves"]])%list).
Proof.
  intros section bodies a Ho. unfold build_observers_description. rewrite Ho. cbn [String.eqb negb]. split.
  - intros ->. reflexivity.
  - intros Hw f Ef. replace (String.eqb (a_waves a) "") with false by (symmetry; apply String.eqb_neq, Hw). cbn [negb]. unfold create_a_wave_observer. rewrite Ef. reflexivity.
Qed.
Print Assumptions outputs_without_main_output.
Theorem outputs_of_the_command_line : forall section bodies a o, a_output a <> "" -> build_YamlOutput_from_filename (a_output a) = Ok o ->
  let main data := mkOutput (o_filename o) (o_format o) (o_address o) (o_port o) data in
  (a_waves a = "" -> build_observers_description section bodies a = Ok (parse_output section ++ [main (all_states bodies)])%list) /\
  (a_waves a <> "" -> In (o_format o) ["ws"; "hdf5"; "json"] ->
     build_observers_description section bodies a = Ok (parse_output section ++ [main (all_states bodies ++ ["waves"])])%list) /\
  (a_waves a <> "" -> ~ In (o_format o) ["ws"; "hdf5"; "json"] ->
     forall f, get_format_for_wave_observer (a_waves a) = Ok f ->
       f = "hdf5" /\ build_observers_description section bodies a = Ok (parse_output section ++ [mkOutput (a_waves a) f "" 0 ["waves"]; main (all_states bodies)])%list).
Proof.
  intros section bodies a o Ho E main.
  assert (G : generate_default_outputter bodies (a_output a) = Ok (main (all_states bodies))).
  { destruct (default_output_has_all_states bodies _ _ E) as (o' & G & F1 & F2 & F3). rewrite G. f_equal.
    assert (F4 : o_address o' = o_address o /\ o_port o' = o_port o).
    { revert G. unfold generate_default_outputter. rewrite E. cbn [bindO]. intros [= <-]. 
      match goal with |- context [fold_left fill bodies ?i] => assert (K : forall j, o_address (fold_left fill bodies j) = o_address j /\ o_port (fold_left fill bodies j) = o_port j);
        [|exact (K i)] end. clear. induction bodies as [|b bodies IH]; intros i; [auto|]. cbn [fold_left]. destruct (IH (fill i b)) as (-> & ->). auto. }
    destruct o' as [fn fm ad po da]. cbn in *. destruct F4 as (-> & ->). subst. reflexivity. }
  unfold build_observers_description, add_observers_with_output. replace (String.eqb (a_output a) "") with false by (symmetry; apply String.eqb_neq, Ho). cbn [negb]. rewrite G. cbn [bindO].
  split; [|split].
  - intros ->. reflexivity.
  - intros Hw I. replace (String.eqb (a_waves a) "") with false by (symmetry; apply String.eqb_neq, Hw). cbn [negb]. unfold main. cbn [o_format o_filename o_address o_port o_data].
    cbn [In] in I. destruct I as [<-|[<-|[<-|[]]]]; reflexivity.
  - intros Hw I f Ef. replace (String.eqb (a_waves a) "") with false by (symmetry; apply String.eqb_neq, Hw). cbn [negb].
    assert (Hf : f = "hdf5").
    { unfold get_format_for_wave_observer in Ef. destruct (_ <=? 3)%Z; [discriminate|]. do 4 (apply if_ends_inv in Ef; destruct Ef as [Ef|Ef]; [exact Ef|]). discriminate. }
    split; [exact Hf|]. unfold main at 1 2 3. cbn [o_format]. cbn [In] in I. destruct (String.eqb_spec (o_format o) "ws"); [exfalso; auto|]. destruct (String.eqb_spec (o_format o) "hdf5"); [exfalso; auto|].
    destruct (String.eqb_spec (o_format o) "json"); [exfalso; auto|]. cbn [orb]. unfold create_a_wave_observer. rewrite Ef. reflexivity.
Qed.

Print Assumptions bad_command_line_is_refused.
Print Assumptions success_gives_status_zero.
Print Assumptions exit_status_refuted.
Print Assumptions failure_is_displayed_partial.
Print Assumptions failure_is_displayed_refuted.
Print Assumptions simulations_have_valid_arguments_partial.
Print Assumptions step_that_is_not_a_number_refuted.
Print Assumptions help_starts_no_server.
Print Assumptions help_starts_nothing_refuted.
Print Assumptions help_starts_nothing_partial.
Print Assumptions servers_have_valid_arguments_partial.
Print Assumptions servers_refuse_bad_command_lines_refuted.
Print Assumptions solver_selection_partial.
Print Assumptions unknown_solvers_of_the_server.
Print Assumptions unknown_solvers_refuted.
Print Assumptions outputs_of_the_file_partial.
Print Assumptions outputs_of_the_file_refuted.
Print Assumptions outputs_of_the_command_line.

(** ** Examples *)
Definition usual : args := mkArgs ["tutorial.yml"] "rk4" "out.csv" "waves.h5" fone fzero fone 0.
Example usual_run : xdyn_main (fun _ => "1") (fun _ _ => None) 6 (Parsed usual (mkFlags false false false)) = ([Ran usual RK4], Status 0).
Proof. vm_compute. reflexivity. Qed.
Example failing_run : snd (xdyn_main (fun _ => "1") (fun _ _ => Some (NumericalError "NaN")) 6 (Parsed usual (mkFlags false false false))) = Status 0.
Proof. vm_compute. reflexivity. Qed.
Example silent_run : fst (xdyn_main (fun _ => "1") (fun _ _ => Some (WebSocketError "connection refused")) 6 (Parsed usual (mkFlags false false false))) = [Ran usual RK4].
Proof. vm_compute. reflexivity. Qed.
Example help_with_a_file : starts (xdyn_main (fun _ => "1") (fun _ _ => None) 3 (Parsed (mkArgs ["a.yml"] "rk4" "" "" fzero fzero fzero 0) (mkFlags true false false)))
  = [Ran (mkArgs ["a.yml"] "rk4" "" "" fzero fzero fzero 0) RK4].
Proof. vm_compute. reflexivity. Qed.
Example positive_step : positive fone /\ usual.(a_yaml) <> [] /\ a_solver usual <> "" /\ xdyn_empty usual = false.
Proof. repeat split; discriminate. Qed.
Example misspelled_solver : (forall s, ~ solver_of "RK4" s) /\ xdyn_stepper "RK4" = Euler.
Proof. split; [|reflexivity]. intros s [(H & _)|[(H & _)|(H & _)]]; discriminate. Qed.
Example server_run : starts (cs_main (fun _ => "1") (fun _ _ => None) 5 (Parsed (mkArgs ["a.yml"] "rk4" "" "" fone fzero fzero 9002) (mkFlags false false false)))
  = [Served (mkArgs ["a.yml"] "rk4" "" "" fone fzero fzero 9002) false].
Proof. vm_compute. reflexivity. Qed.
Definition csv_entry : entry := mkEntry (Value "o.csv") Absent Absent (Value "csv") (Value ["t"; "x(ship)"]).
Definition ws_entry : entry := mkEntry Absent (Value "ws://127.0.0.1") (Value 1234%Z) (Value "ws") (Value ["t"]).
Example entries_ok : List.Forall well_typed [csv_entry; ws_entry] /\ Forall2 asked [csv_entry; ws_entry] [Csv "o.csv" ["t"; "x(ship)"]; Ws "ws://127.0.0.1" 1234 ["t"]].
Proof.
  split; [repeat (apply List.Forall_cons; [repeat split; discriminate|]); apply List.Forall_nil|].
  apply Forall2_cons; [eexists; split; [reflexivity|]; left; split; reflexivity|]. apply Forall2_cons; [|apply Forall2_nil]. eexists. split; [reflexivity|]. do 5 right. split; reflexivity.
Qed.
Example lost_outputs : list_of_observers (parse_output (Some [csv_entry; mkEntry (Value "b.csv") Absent Absent (Value "csv") Absent; ws_entry]))
  = [Csv "o.csv" ["t"; "x(ship)"]; Csv "b.csv" []].
Proof. vm_compute. reflexivity. Qed.
Example usual_outputs : build_observers_description (Some [ws_entry]) ["ship"] usual
  = Ok [mkOutput "" "ws" "ws://127.0.0.1" 1234 ["t"]; mkOutput "waves.h5" "hdf5" "" 0 ["waves"]; mkOutput "out.csv" "csv" "" 0 (all_states ["ship"])].
Proof. vm_compute. reflexivity. Qed.
