(** Writing whole datasets, one after the other. *)
From Coq Require Import ZArith List Bool Lia String Ascii.
From Verif Require Import Common Observer_Model Observer_Spec Observer_Proofs Hdf5_Model Hdf5_Spec Hdf5_Proofs Hdf5_File_Proofs Hdf5_Series_Proofs.
Import ListNotations.
Open Scope string_scope.

(** Text of a path with repeated slashes *)
Inductive slashed : string -> path -> Prop :=
| slashed_last x : clean x -> slashed x [x]
| slashed_skip s l : slashed s l -> slashed (String slash s) l
| slashed_item x s l : clean x -> slashed s l -> slashed (x ++ String slash s) (x :: l).
Lemma slashed_clean s l : slashed s l -> clean_path l.
Proof. induction 1 as [x C|s l _ IH|x s l C _ (N & F)]; [split; [discriminate|repeat constructor; apply C]|exact IH|split; [discriminate|constructor; assumption]]. Qed.
Lemma slashed_components s l : slashed s l -> components s "" = l.
Proof.
  induction 1 as [x (X1 & X2)|s l _ IH|x s l (X1 & X2) _ IH].
  - rewrite <- (sapp_nil_r x) at 1. rewrite components_app by exact X2. cbn [components append]. destruct (String.eqb_spec x ""); [congruence|reflexivity].
  - cbn [components]. rewrite Ascii.eqb_refl. exact IH.
  - rewrite components_app by exact X2. cbn [append components]. rewrite Ascii.eqb_refl. destruct (String.eqb_spec x ""); [congruence|]. f_equal. exact IH.
Qed.
Lemma slashed_split s l : slashed s l -> forall n pre, (String.length s <= n)%nat -> split_loop n slash (pre ++ s) (String.length pre) = l.
Proof.
  induction 1 as [x (X1 & X2)|s l _ IH|x s l (X1 & X2) _ IH]; intros n pre Hn.
  - assert (E : split_loop n slash (pre ++ x) (String.length pre) = [x]); [|exact E].
    assert (F : find_from slash (String.length pre) (pre ++ x) = None) by (rewrite find_from_app, find_from_none by exact X2; reflexivity).
    destruct n; cbn [split_loop]; rewrite F, slength_app; replace (String.length pre + String.length x - String.length pre)%nat with (String.length x) by lia;
      rewrite substring_skip; rewrite <- (sapp_nil_r x) at 2; rewrite substring_take; reflexivity.
  - destruct n as [|n]; [cbn in Hn; lia|]. cbn [split_loop]. rewrite find_from_app. cbn [find_from]. rewrite Ascii.eqb_refl. cbn [option_map].
    replace (String.length pre + 0 - String.length pre)%nat with 0%nat by lia. rewrite substring_skip. cbn [substring]. cbn [String.eqb].
    specialize (IH n (pre ++ String slash "")). rewrite !sapp_assoc in IH. cbn [append] in IH. rewrite !slength_app in IH. cbn [String.length] in IH.
    rewrite <- IH at 1 by (cbn in Hn; lia). cbn [String.eqb]. change (String.eqb "" "") with true. cbv iota. f_equal. lia.
  - destruct n as [|n]; [rewrite slength_app in Hn; cbn in Hn; lia|]. cbn [split_loop].
    rewrite find_from_app, find_from_some by exact X2. cbn [option_map].
    replace (String.length pre + String.length x - String.length pre)%nat with (String.length x) by lia.
    rewrite substring_skip, substring_take. destruct (String.eqb_spec x ""); [congruence|]. f_equal.
    specialize (IH n (pre ++ x ++ String slash "")).
    rewrite !sapp_assoc in IH. cbn [append] in IH. rewrite !slength_app in IH. cbn [String.length] in IH.
    rewrite <- IH by (rewrite slength_app in Hn; cbn in Hn; lia). f_equal. lia.
Qed.
Lemma slashed_names s l : slashed s l -> names s l.
Proof.
  intros H. split; [|apply slashed_components, H]. pose proof (slashed_split s l H (String.length s) "" (le_n _)) as E. cbn [append String.length] in E.
  unfold split. destruct s; [|exact E]. exfalso. inversion H as [x (X & _)| |x s l' ? ? E']; [congruence|]. apply (f_equal String.length) in E'. rewrite slength_app in E'. cbn in E'. lia.
Qed.

Section Jobs.
Context {D : Type} (zero : D).
Notation file := (@file D).
Notation elem := (@elem D).
Record job : Type := mkJob { j_name : string; j_path : path; j_dims : list nat; j_values : list elem }.
Definition run_job (f : file) (j : job) : outcome file := write_whole zero f (j_name j) (j_dims j) (j_values j).
Fixpoint run_jobs (f : file) (js : list job) : outcome file := match js with [] => Ok f | j :: js => do f <- run_job f j; run_jobs f js end.
Lemma run_jobs_app js js' f : run_jobs f (js ++ js') = do f <- run_jobs f js; run_jobs f js'.
Proof. revert f. induction js as [|j js IH]; intros f; [reflexivity|]. cbn [app run_jobs]. destruct (run_job f j); cbn [bindO]; auto. Qed.
Definition fine (j : job) : Prop := slashed (j_name j) (j_path j) /\ size (j_dims j) = List.length (j_values j).
(** The dataset holds these values in row-major order. *)
Definition holds (j : job) (f : file) : Prop := exists m cell, lookup (j_path j) f = Some (Data (j_dims j) m cell) /\
  forall i, within (j_dims j) i = true -> cell i = nth (rank_of (j_dims j) i 0) (j_values j) (EDouble zero).
Lemma inside_all dims : inside (map (fun _ => 0%nat) dims) dims dims = true.
Proof. induction dims as [|n dims IH]; [reflexivity|]. cbn. rewrite Nat.leb_refl. exact IH. Qed.
Lemma selected_all dims : forall i, selected (map (fun _ => 0%nat) dims) dims i = within dims i.
Proof. induction dims as [|n dims IH]; intros [|k i]; cbn; try reflexivity. rewrite IH. reflexivity. Qed.
Lemma minus_zero dims : forall i, within dims i = true -> minus i (map (fun _ => 0%nat) dims) = i.
Proof.
  induction dims as [|n dims IH]; intros [|k i] H; cbn in *; try discriminate; [reflexivity|]. apply andb_prop in H as (_ & H). rewrite Nat.sub_0_r, IH by exact H. reflexivity.
Qed.
Lemma job_ok j (f : file) : tree f -> fine j -> free (j_path j) f -> exists f', run_job f j = Ok f' /\ tree f' /\ holds j f' /\ grown [j_path j] f f'.
Proof.
  intros T (S & Z) F. pose proof (slashed_names _ _ S) as N. pose proof (slashed_clean _ _ S) as C. unfold run_job, write_whole.
  destruct (create_data_set_ok zero (j_path j) (j_name j) (j_dims j) (map Some (j_dims j)) f T C N F) as (f1 & -> & T1 & M). cbn [bindO].
  rewrite (proj2 N). destruct (write_slab_ok zero (j_path j) (map (fun _ => 0%nat) (j_dims j)) (j_dims j) (j_values j) (j_dims j) (map Some (j_dims j)) _ f1 (proj1 M) (inside_all _) Z)
    as (f2 & -> & U). exists f2. split; [reflexivity|].
  split; [eapply updated_tree; [apply (proj1 M)|exact U|exact T1]|]. split.
  - do 2 eexists. split; [rewrite U; destruct (path_eqb_spec (j_path j) (j_path j)); [reflexivity|congruence]|].
    intros i W. cbv beta. rewrite selected_all, W, minus_zero by exact W. reflexivity.
  - eapply updated_grown; [apply F|left; reflexivity|apply (made_grown _ _ _ _ F M)|exact U].
Qed.
Lemma holds_grown j ts f f' : holds j f -> grown ts f f' -> holds j f'.
Proof. intros (m & c & L & V) (G & _). exists m, c. split; [apply G, L|exact V]. Qed.
Lemma jobs_ok : forall js (f : file), tree f -> Forall fine js -> ForallOrdPairs (fun j j' => apart (j_path j') (j_path j)) js -> (forall j, In j js -> free (j_path j) f) ->
  exists f', run_jobs f js = Ok f' /\ tree f' /\ (forall j, In j js -> holds j f') /\ grown (map j_path js) f f'.
Proof.
  induction js as [|j js IH]; intros f T F A Fr.
  - exists f. split; [reflexivity|]. split; [exact T|]. split; [intros j []|apply grown_refl].
  - inversion F as [|? ? F1 F2]; subst. inversion A as [|? ? A1 A2]; subst. destruct (job_ok j f T) as (f1 & E1 & T1 & H1 & G1); [assumption|apply Fr; left; reflexivity|].
    destruct (IH f1) as (f2 & E2 & T2 & H2 & G2); auto.
    { intros j' J. apply (free_grown (j_path j') [j_path j] f); [apply Fr; right; exact J| |exact G1]. intros t [<-|[]]. rewrite Forall_forall in A1. apply A1, J. }
    exists f2. cbn [run_jobs]. rewrite E1. cbn [bindO]. split; [exact E2|]. split; [exact T2|]. split.
    + intros j' [<-|J]; [eapply holds_grown; eauto|apply H2, J].
    + exact (grown_trans [j_path j] (map j_path js) f f1 f2 G1 G2).
Qed.
End Jobs.

(** Decimal numbers *)
Lemma digit_char n : (n < 10)%nat -> (nat_of_ascii (digit_of n) = 48 + n)%nat.
Proof. intros H. unfold digit_of. rewrite nat_ascii_embedding by lia. reflexivity. Qed.
Fixpoint value_of (acc : nat) (s : string) : nat := match s with "" => acc | String a s' => value_of (acc * 10 + (nat_of_ascii a - 48)) s' end.
Lemma value_app acc a b : value_of acc (a ++ b) = value_of (value_of acc a) b.
Proof. revert acc. induction a as [|c a IH]; intros acc; [reflexivity|]. cbn [append value_of]. apply IH. Qed.
Lemma value_decimal : forall fuel n, (n < fuel)%nat -> value_of 0 (decimal fuel n) = n.
Proof.
  induction fuel as [|fuel IH]; intros n H; [lia|]. cbn [decimal]. destruct (Nat.ltb_spec n 10) as [L|L].
  - cbn [value_of]. rewrite digit_char by exact L. lia.
  - rewrite value_app, IH.
    + cbn [value_of]. rewrite digit_char by (apply Nat.mod_upper_bound; lia). pose proof (Nat.div_mod n 10 ltac:(lia)). lia.
    + pose proof (Nat.div_lt n 10 ltac:(lia) ltac:(lia)). lia.
Qed.
Lemma value_index n : value_of 0 (index_text n) = n.
Proof.
  unfold index_text. cbv zeta. destruct (Nat.ltb _ 2); [cbn [value_of]; change (0 * 10 + (nat_of_ascii "0" - 48))%nat with 0%nat|]; apply value_decimal; lia.
Qed.
Lemma index_inj a b : index_text a = index_text b -> a = b.
Proof. intros H. rewrite <- (value_index a), <- (value_index b), H. reflexivity. Qed.
Definition digits (s : string) : Prop := forall c, (nat_of_ascii c < 48 \/ 57 < nat_of_ascii c)%nat -> has_char c s = false.
Lemma digits_app a b : digits a -> digits b -> digits (a ++ b).
Proof. intros A B c H. rewrite has_char_app, A, B by exact H. reflexivity. Qed.
Lemma digits_one n : (n < 10)%nat -> digits (String (digit_of n) "").
Proof. intros H c C. cbn [has_char]. destruct (Ascii.eqb_spec (digit_of n) c) as [E|]; [|reflexivity]. exfalso. rewrite <- E, digit_char in C by exact H. lia. Qed.
Lemma digits_decimal : forall fuel n, digits (decimal fuel n).
Proof.
  induction fuel as [|fuel IH]; intros n; [intros c _; reflexivity|]. cbn [decimal]. destruct (Nat.ltb_spec n 10); [apply digits_one; assumption|].
  apply digits_app; [apply IH|apply digits_one, Nat.mod_upper_bound; lia].
Qed.
Lemma index_digits n : digits (index_text n).
Proof.
  unfold index_text. cbv zeta. destruct (Nat.ltb _ 2); [|apply digits_decimal]. apply (digits_app "0" (decimal (S n) n)); [apply (digits_one 0); lia|apply digits_decimal].
Qed.
Lemma index_clean n : clean (index_text n).
Proof.
  split; [|apply index_digits; cbv; left; lia]. unfold index_text. cbv zeta. cbn [decimal]. destruct (Nat.ltb n 10); [destruct (Nat.ltb _ 2); discriminate|].
  destruct (Nat.ltb _ 2); [discriminate|]. intros E. apply (f_equal String.length) in E. rewrite slength_app in E. cbn in E. lia.
Qed.
Lemma index_not_elevation n : index_text n <> "elevation".
Proof. intros E. pose proof (index_digits n "e"%char) as H. rewrite E in H. specialize (H ltac:(cbv; right; lia)). discriminate. Qed.
