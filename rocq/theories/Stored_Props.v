(** C136: the command stored in the HDF5 file. *)
From Coq Require Import ZArith List Bool Lia String Ascii.
From Verif Require Import Common Observer_Spec Observer_Proofs Stored_Model.
Import ListNotations.
Open Scope string_scope.

(** ** Specification *)
(** Reading a command line (display_command_line_arguments.cpp lines 34-50, parse_XdynCommandLineArguments.cpp lines 41-51): the options -y, --tstart, --tend, --dt,
    --solver, -o and -w are followed by their value, and any other word is the name of a YAML file. [num] reads a number. *)
Section Read.
Context {D : Type} (num : string -> option D).
Fixpoint read_words (l : list string) (a : @inputs D) : option (@inputs D) :=
  match l with
  | [] => Some a
  | w :: l =>
      let number k := match l with v :: l' => match num v with Some d => read_words l' (k d) | None => None end | [] => None end in
      let text k := match l with v :: l' => read_words l' (k v) | [] => None end in
      if String.eqb w "-y" then text (fun v => mkInputs (i_yaml a ++ [v]) (i_tstart a) (i_tend a) (i_dt a) (i_solver a) (i_output a) (i_waves a) (i_catch a))
      else if String.eqb w "--tstart" then number (fun d => mkInputs (i_yaml a) d (i_tend a) (i_dt a) (i_solver a) (i_output a) (i_waves a) (i_catch a))
      else if String.eqb w "--tend" then number (fun d => mkInputs (i_yaml a) (i_tstart a) d (i_dt a) (i_solver a) (i_output a) (i_waves a) (i_catch a))
      else if String.eqb w "--dt" then number (fun d => mkInputs (i_yaml a) (i_tstart a) (i_tend a) d (i_solver a) (i_output a) (i_waves a) (i_catch a))
      else if String.eqb w "--solver" then text (fun v => mkInputs (i_yaml a) (i_tstart a) (i_tend a) (i_dt a) v (i_output a) (i_waves a) (i_catch a))
      else if String.eqb w "-o" then text (fun v => mkInputs (i_yaml a) (i_tstart a) (i_tend a) (i_dt a) (i_solver a) v (i_waves a) (i_catch a))
      else if String.eqb w "-w" then text (fun v => mkInputs (i_yaml a) (i_tstart a) (i_tend a) (i_dt a) (i_solver a) (i_output a) v (i_catch a))
      else match w with
           | String "-" _ => None
           | _ => read_words l (mkInputs (i_yaml a ++ [w]) (i_tstart a) (i_tend a) (i_dt a) (i_solver a) (i_output a) (i_waves a) (i_catch a))
           end
  end%list.
(** The command, typed in a shell, with the defaults of the options *)
Definition replay (zero : D) (command : string) : option (@inputs D) :=
  match words command with
  | prog :: l => if String.eqb prog "xdyn" then read_words l (mkInputs [] zero zero zero "rk4" "" "" true) else None
  | [] => None
  end.
End Read.
(** One word of a shell that is not an option *)
Definition word (s : string) : Prop := s <> "" /\ has_char " " s = false /\ match s with String "-" _ => False | _ => True end.

Lemma split_nonempty c s : split_on c s <> [].
Proof. induction s as [|a s IH]; cbn; [discriminate|]. destruct (Ascii.eqb a c); [discriminate|]. destruct (split_on c s); discriminate. Qed.
Lemma words_app a b : words (a ++ " " ++ b) = (words a ++ words b)%list.
Proof.
  unfold words. enough (E : split_on " " (a ++ " " ++ b) = (split_on " " a ++ split_on " " b)%list) by (rewrite E; apply filter_app).
  induction a as [|c a IH]; [reflexivity|]. cbn [append split_on] in *. rewrite IH. destruct (Ascii.eqb c " "); [reflexivity|].
  pose proof (split_nonempty " " a). destruct (split_on " " a); [congruence|reflexivity].
Qed.
Lemma words_one w : w <> "" -> has_char " " w = false -> words w = [w].
Proof. intros N H. unfold words. rewrite split_on_no_char by exact H. cbn [filter]. destruct (String.eqb_spec w ""); [congruence|reflexivity]. Qed.
Lemma words_blank s : words (" " ++ s) = words s.
Proof. reflexivity. Qed.
Lemma words_files l : (forall f, In f l -> word f) -> forall s, words (String.concat "" (map (fun f => f ++ " ") l) ++ s) = (l ++ words s)%list.
Proof.
  induction l as [|f l IH]; intros H s; [reflexivity|].
  assert (E : String.concat "" (map (fun f => f ++ " ") (f :: l)) = f ++ " " ++ String.concat "" (map (fun f => f ++ " ") l)).
  { cbn [map]. destruct l; [reflexivity|]. cbn [map String.concat]. rewrite sapp_assoc. reflexivity. }
  rewrite E, !sapp_assoc. rewrite words_app, IH by (intros g Hg; apply H; right; exact Hg). destruct (H f (or_introl eq_refl)) as (N & B & _). rewrite words_one by assumption. reflexivity.
Qed.
Section Props.
Context {D : Type} (fmt : D -> string) (num : string -> option D) (zero : D).
Lemma read_files l : forall r a, (forall f, In f l -> word f) ->
  read_words num (l ++ r) a = read_words num r (mkInputs (i_yaml a ++ l) (i_tstart a) (i_tend a) (i_dt a) (i_solver a) (i_output a) (i_waves a) (i_catch a)).
Proof.
  induction l as [|f l IH]; intros r a H; [rewrite app_nil_r; destruct a; reflexivity|].
  destruct (H f (or_introl eq_refl)) as (N & _ & M). destruct f as [|c f]; [congruence|]. cbn [app].
  assert (E : read_words num (String c f :: l ++ r) a =
    read_words num (l ++ r) (mkInputs (i_yaml a ++ [String c f]) (i_tstart a) (i_tend a) (i_dt a) (i_solver a) (i_output a) (i_waves a) (i_catch a))).
  { cbn [read_words]. assert (C : c <> "-"%char) by (intros ->; exact M).
    assert (X : forall s, String.eqb (String c f) (String "-" s) = false) by (intros s; cbn; destruct (Ascii.eqb_spec c "-"); congruence).
    rewrite !X. clear X. destruct c as [[] [] [] [] [] [] [] []]; try reflexivity. congruence. }
  rewrite E, IH by (intros g Hg; apply H; right; exact Hg). cbn [i_yaml i_tstart i_tend i_dt i_solver i_output i_waves i_catch]. rewrite <- app_assoc. reflexivity.
Qed.
Lemma read_tstart v d l a : num v = Some d -> read_words num ("--tstart" :: v :: l) a =
  read_words num l (mkInputs (i_yaml a) d (i_tend a) (i_dt a) (i_solver a) (i_output a) (i_waves a) (i_catch a)).
Proof. intros E. cbn -[read_words]. unfold read_words at 1. fold (read_words num). cbv beta iota zeta. rewrite E. reflexivity. Qed.
Lemma read_tend v d l a : num v = Some d -> read_words num ("--tend" :: v :: l) a =
  read_words num l (mkInputs (i_yaml a) (i_tstart a) d (i_dt a) (i_solver a) (i_output a) (i_waves a) (i_catch a)).
Proof. intros E. unfold read_words at 1. fold (read_words num). cbv beta iota zeta. rewrite E. reflexivity. Qed.
Lemma read_dt v d l a : num v = Some d -> read_words num ("--dt" :: v :: l) a =
  read_words num l (mkInputs (i_yaml a) (i_tstart a) (i_tend a) d (i_solver a) (i_output a) (i_waves a) (i_catch a)).
Proof. intros E. unfold read_words at 1. fold (read_words num). cbv beta iota zeta. rewrite E. reflexivity. Qed.
Lemma read_solver v l a : read_words num ("--solver" :: v :: l) a =
  read_words num l (mkInputs (i_yaml a) (i_tstart a) (i_tend a) (i_dt a) v (i_output a) (i_waves a) (i_catch a)).
Proof. reflexivity. Qed.
Lemma read_output v l a : read_words num ("-o" :: v :: l) a =
  read_words num l (mkInputs (i_yaml a) (i_tstart a) (i_tend a) (i_dt a) (i_solver a) v (i_waves a) (i_catch a)).
Proof. reflexivity. Qed.
Lemma read_waves v l a : read_words num ("-w" :: v :: l) a =
  read_words num l (mkInputs (i_yaml a) (i_tstart a) (i_tend a) (i_dt a) (i_solver a) (i_output a) v (i_catch a)).
Proof. reflexivity. Qed.
(** Without blanks in the names, the command gives back all the inputs but the flag -d, as far as the numbers keep their value in six digits. *)
Lemma stored (a : @inputs D) : (forall d, In d [i_tstart a; i_tend a; i_dt a] -> num (fmt d) = Some d /\ word (fmt d)) ->
  i_yaml a <> [] -> (forall f, In f (i_yaml a) -> word f) -> word (i_solver a) -> (i_output a = "" \/ word (i_output a)) -> (i_waves a = "" \/ word (i_waves a)) ->
  replay num zero (input_data_serialize fmt a) = Some (mkInputs (i_yaml a) (i_tstart a) (i_tend a) (i_dt a) (i_solver a) (i_output a) (i_waves a) true).
Proof.
  intros F Y FY S O W. destruct (F (i_tstart a)) as (N1 & W1 & B1 & _); [cbn; auto|]. destruct (F (i_tend a)) as (N2 & W2 & B2 & _); [cbn; auto|].
  destruct (F (i_dt a)) as (N3 & W3 & B3 & _); [cbn; auto|]. destruct S as (S1 & S2 & _).
  assert (E : words (input_data_serialize fmt a) = (["xdyn"; "-y"] ++ i_yaml a ++ ["--tstart"; fmt (i_tstart a); "--tend"; fmt (i_tend a); "--dt"; fmt (i_dt a); "--solver"; i_solver a]
    ++ match i_output a with "" => [] | o => ["-o"; o] end ++ match i_waves a with "" => [] | w => ["-w"; w] end)%list).
  { unfold input_data_serialize. destruct (i_yaml a) as [|f0 l0] eqn:EY; [congruence|]. rewrite <- EY in *. clear Y.
    change ("xdyn " ++ "-y " ++ ?s) with ("xdyn" ++ " " ++ "-y" ++ " " ++ s). rewrite words_app, words_app, words_files by exact FY.
    rewrite (words_one "xdyn"), (words_one "-y") by (discriminate || reflexivity). cbn [app]. do 3 f_equal.
    set (tail := match i_output a with "" => "" | o => " -o " ++ o end ++ match i_waves a with "" => "" | w => " -w " ++ w end).
    change (words (" " ++ "--tstart" ++ " " ++ fmt (i_tstart a) ++ " " ++ " " ++ "--tend" ++ " " ++ fmt (i_tend a) ++ " " ++ " " ++ "--dt" ++ " " ++ fmt (i_dt a) ++ " " ++ " " ++ "--solver" ++ " " ++ i_solver a ++ tail) =
      ["--tstart"; fmt (i_tstart a); "--tend"; fmt (i_tend a); "--dt"; fmt (i_dt a); "--solver"; i_solver a] ++ match i_output a with "" => [] | o => ["-o"; o] end ++ match i_waves a with "" => [] | w => ["-w"; w] end)%list.
    rewrite words_blank, !words_app. rewrite !words_blank, !words_app. rewrite !words_blank, !words_app. rewrite !words_blank, !words_app.
    rewrite (words_one "--tstart"), (words_one "--tend"), (words_one "--dt"), (words_one "--solver") by (discriminate || reflexivity).
    rewrite (words_one (fmt (i_tstart a))), (words_one (fmt (i_tend a))), (words_one (fmt (i_dt a))) by assumption. cbn [app]. do 7 f_equal.
    unfold tail. clear tail.
    assert (T2 : forall x, words x = [x] -> words (x ++ match i_waves a with "" => "" | w => " -w " ++ w end) = (x :: match i_waves a with "" => [] | w => ["-w"; w] end)%list).
    { intros x Hx. destruct W as [->|(V1 & V2 & _)]; [rewrite sapp_nil_r; exact Hx|]. destruct (i_waves a) as [|c w] eqn:EW; [congruence|]. rewrite <- EW in *.
      change (" -w " ++ i_waves a) with (" " ++ "-w" ++ " " ++ i_waves a). rewrite !words_app, Hx, (words_one "-w"), (words_one (i_waves a)) by (assumption || discriminate || reflexivity). reflexivity. }
    destruct O as [->|(V1 & V2 & _)]; [cbn [append app]; apply T2, words_one; assumption|]. destruct (i_output a) as [|c o] eqn:EO; [congruence|]. rewrite <- EO in *.
    rewrite sapp_assoc. change (" -o " ++ i_output a ++ ?s) with (" " ++ "-o" ++ " " ++ i_output a ++ s).
    rewrite !words_app, (words_one (i_solver a)), (words_one "-o"), T2 by (try apply words_one; assumption || discriminate || reflexivity). reflexivity. }
  unfold replay. rewrite E. cbn [app]. change (String.eqb "xdyn" "xdyn") with true. cbv iota.
  destruct (i_yaml a) as [|f0 l0]; [congruence|]. cbn [app read_words]. change (String.eqb "-y" "-y") with true. cbv iota.
  rewrite read_files by (intros g Hg; apply FY; right; exact Hg). cbn [i_yaml i_tstart i_tend i_dt i_solver i_output i_waves i_catch app].
  rewrite (read_tstart _ _ _ _ N1), (read_tend _ _ _ _ N2), (read_dt _ _ _ _ N3), read_solver.
  cbn [i_yaml i_tstart i_tend i_dt i_solver i_output i_waves i_catch app].
  assert (R : forall b, read_words num match i_waves a with "" => [] | w => ["-w"; w] end b =
    Some (mkInputs (i_yaml b) (i_tstart b) (i_tend b) (i_dt b) (i_solver b) (i_output b) match i_waves a with "" => i_waves b | w => w end (i_catch b))).
  { intros b. destruct (i_waves a) as [|c w]; [destruct b; reflexivity|]. rewrite read_waves. reflexivity. }
  destruct (i_output a) as [|c o].
  - cbn [app]. rewrite R. destruct (i_waves a); reflexivity.
  - cbn [app]. rewrite read_output, R. destruct (i_waves a); reflexivity.
Qed.
End Props.

(** ** Theorems *)
(** C136: the command stored in an HDF5 output, typed again, gives the inputs of the run: its YAML files in the same order, dates, time step, solver and outputs. That needs
    names without blanks and numbers that survive six digits; the flag -d is lost (the replay always has [i_catch = true]). *)
Theorem stored_command_can_be_replayed_partial {D} (fmt : D -> string) (num : string -> option D) (zero : D) (a : @inputs D) :
  (forall d, In d [i_tstart a; i_tend a; i_dt a] -> num (fmt d) = Some d /\ word (fmt d)) ->
  i_yaml a <> [] -> (forall f, In f (i_yaml a) -> word f) -> word (i_solver a) -> (i_output a = "" \/ word (i_output a)) -> (i_waves a = "" \/ word (i_waves a)) ->
  replay num zero (input_data_serialize fmt a) = Some (mkInputs (i_yaml a) (i_tstart a) (i_tend a) (i_dt a) (i_solver a) (i_output a) (i_waves a) true).
Proof. apply stored. Qed.
Print Assumptions stored_command_can_be_replayed_partial.

(** Numbers for the examples: tenths of a millionth in [0.1, 1), written with six digits, and small integers *)
Definition digit (z : Z) : string := String (ascii_of_nat (48 + Z.to_nat z)) "".
Definition six (n : Z) : string :=
  let m := ((n + 5) / 10)%Z in "0." ++ digit (m / 100000) ++ digit (m / 10000 mod 10) ++ digit (m / 1000 mod 10) ++ digit (m / 100 mod 10) ++ digit (m / 10 mod 10) ++ digit (m mod 10).
Definition dfmt (b : bool) : string := if b then "1" else "0".
Definition dnum (s : string) : option bool := if String.eqb s "1" then Some true else if String.eqb s "0" then Some false else None.
Example replay_witness : let a := mkInputs ["ship.yml"; "waves.yml"] false true true "rkck" "out.h5" "w.h5" true in
  input_data_serialize dfmt a = "xdyn -y ship.yml waves.yml  --tstart 0  --tend 1  --dt 1  --solver rkck -o out.h5 -w w.h5" /\
  (forall d, In d [i_tstart a; i_tend a; i_dt a] -> dnum (dfmt d) = Some d /\ word (dfmt d)) /\ (forall f, In f (i_yaml a) -> word f) /\ word (i_solver a) /\
  word (i_output a) /\ word (i_waves a) /\ replay dnum false (input_data_serialize dfmt a) = Some a.
Proof.
  assert (W : forall s, s <> "" -> has_char " " s = false -> match s with String "-" _ => False | _ => True end -> word s) by (intros s H1 H2 H3; repeat split; assumption).
  repeat split; try discriminate; try reflexivity.
  - destruct d; reflexivity.
  - destruct d; discriminate.
  - destruct d; reflexivity.
  - destruct d; exact Logic.I.
  - destruct H as [<-|[<-|[]]]; discriminate.
  - destruct H as [<-|[<-|[]]]; reflexivity.
  - destruct H as [<-|[<-|[]]]; exact Logic.I.
Qed.

(** A file name with a blank is read as two files. *)
Theorem stored_blank_refuted : exists a b : @inputs bool, a <> b /\ i_yaml a = ["my ship.yml"] /\ i_yaml b = ["my"; "ship.yml"] /\
  input_data_serialize dfmt a = input_data_serialize dfmt b /\ replay dnum false (input_data_serialize dfmt a) = Some b.
Proof.
  exists (mkInputs ["my ship.yml"] false true true "rk4" "o.h5" "" true), (mkInputs ["my"; "ship.yml"] false true true "rk4" "o.h5" "" true).
  repeat split; [discriminate|vm_compute; reflexivity..].
Qed.
Print Assumptions stored_blank_refuted.
(** The flag -d is not stored: two runs that differ by it store the same command. *)
Theorem stored_debug_refuted {D} (fmt : D -> string) (a : @inputs D) (b : bool) :
  input_data_serialize fmt a = input_data_serialize fmt (mkInputs (i_yaml a) (i_tstart a) (i_tend a) (i_dt a) (i_solver a) (i_output a) (i_waves a) b).
Proof. reflexivity. Qed.
Print Assumptions stored_debug_refuted.
(** Two time steps with the same first six digits give the same command, so no reader can give back both. *)
Theorem stored_digits_refuted : exists a b : @inputs Z, i_dt a <> i_dt b /\ input_data_serialize six a = input_data_serialize six b /\
  forall replay' : string -> option (@inputs Z), ~ (replay' (input_data_serialize six a) = Some a /\ replay' (input_data_serialize six b) = Some b).
Proof.
  set (run := fun d => mkInputs ["ship.yml"] 1000000%Z 9000000%Z d "rk4" "o.h5" "" true). exists (run 1234567%Z), (run 1234568%Z).
  assert (E : input_data_serialize six (run 1234567%Z) = input_data_serialize six (run 1234568%Z)) by (vm_compute; reflexivity).
  split; [discriminate|]. split; [exact E|]. intros r [A B]. rewrite E, B in A. discriminate.
Qed.
Print Assumptions stored_digits_refuted.
