(** Proofs about the CSV and TSV observers. *)
From Coq Require Import ZArith NArith List Bool Lia String Ascii.
From Verif Require Import Observer_Model Observer_Spec Observer_Proofs.
Import ListNotations.
Open Scope string_scope.

Section Csv.
  Context {D G : Type} (fmt : D -> string).
  Notation steps_t := (list (D * list (string * value D G))).
  Notation vt := (fun v : value D G => value_text fmt (Some v)).

  Lemma fetch_map {B} (g : string -> option (value D G) -> B) (f : string -> option (value D G)) l :
    (forall x, In x l -> f x <> None) -> map (fun p => g (fst p) (Some (snd p))) (fetch f l) = map (fun x => g x (f x)) l.
  Proof.
    intros H. induction l as [|x l IH]; [reflexivity|]. cbn [fetch flat_map]. destruct (f x) as [v|] eqn:E.
    - cbn. rewrite E. f_equal. apply IH. intros; apply H; right; assumption.
    - exfalso. exact (H x (or_introl eq_refl) E).
  Qed.

  Lemma csv_run_vars run title (pv : list (string * value D G)) s :
    (forall v x s, run v x s = s ++ title (x, v)) ->
    run_vars (csv_class fmt) run pv s = s ++ String.concat "," (map title pv).
  Proof.
    intros Hr. revert s. induction pv as [|(x, v) pv IH]; intros s. { simpl. now rewrite sapp_nil_r. }
    destruct pv as [|(y, w) pv]. { simpl. apply Hr. }
    rewrite run_vars_cons2. rewrite Hr. cbn [csv_class flush_value_write]. rewrite IH.
    cbn [map String.concat]. rewrite !sapp_assoc. reflexivity.
  Qed.

  Definition csv_line (past : steps_t) (req : list string) : string :=
    String.concat "," (map (fun x => value_text fmt (latest past x)) req).
  Definition csv_title (o : option (value D G)) (x : string) : string :=
    match o with Some (VDouble _) => replace_commas x | _ => "" end.

  Fixpoint csv_text (req : list string) (past steps : steps_t) : string :=
    match steps with
    | [] => ""
    | (t, out) :: steps' => csv_line (past ++ [(t, out)])%list req ++ newline ++ csv_text req (past ++ [(t, out)])%list steps'
    end.

  Lemma csv_states_after req past steps s :
    (forall x, In x req -> forall t out steps', steps = (t, out) :: steps' -> latest (past ++ [(t, out)])%list x <> None) ->
    states_after (csv_class fmt) req past steps s = s ++ csv_text req past steps.
  Proof.
    revert past s. induction steps as [|(t, out) steps IH]; intros past s H; simpl. { now rewrite sapp_nil_r. }
    rewrite IH.
    - rewrite (csv_run_vars _ (fun p => value_text fmt (Some (snd p)))).
      + rewrite (fetch_map (fun _ v => value_text fmt v)).
        * unfold csv_line. rewrite !sapp_assoc. reflexivity.
        * intros x Hx. eapply H; eauto.
      + intros [d|g] x s'; simpl; [reflexivity|]. now rewrite sapp_nil_r.
    - intros x Hx t' out' steps' ->. apply latest_mono. eapply H; eauto.
  Qed.

  Lemma csv_lines req past steps :
    (forall d, has_char nl (fmt d) = false) ->
    exists data, lines (csv_text req past steps) = (data ++ [""])%list /\ List.length data = List.length steps
      /\ forall k line, nth_error data k = Some line -> line = csv_line (past ++ firstn (Datatypes.S k) steps)%list req.
  Proof.
    intros Hf. revert past. induction steps as [|(t, out) steps IH]; intros past.
    - exists []. repeat split. intros [|k]; discriminate.
    - destruct (IH (past ++ [(t, out)])%list) as (data & A & B & C). cbn [csv_text]. rewrite lines_cons.
      2:{ apply has_char_concat; [reflexivity|]. apply forallb_forall. intros x Hx. apply in_map_iff in Hx as (y & <- & _).
          apply negb_true_iff. unfold value_text. destruct (latest _ y) as [[d|g]|]; auto. }
      rewrite A. exists (csv_line (past ++ [(t, out)])%list req :: data). split; [reflexivity|]. split; [simpl; congruence|].
      intros [|k] line Hk.
      + injection Hk as <-. reflexivity.
      + apply C in Hk. rewrite Hk, <- app_assoc. reflexivity.
  Qed.
End Csv.

(** ** TSV *)
Section Tsv.
  Context {D G : Type} (fmt : D -> string).
  Notation steps_t := (list (D * list (string * value D G))).

  (** setw(9): padding on the left *)
  Definition padded (x : string) : string := repeat_char " " (WIDTH - String.length x) ++ x.
  Definition all_doubles (pv : list (string * value D G)) : Prop := Forall (fun p => exists d, snd p = VDouble d) pv.

  Lemma tsv_titles pv s : pv <> [] -> all_doubles pv ->
    run_vars (tsv_class fmt) (run_init (tsv_class fmt)) pv s =
    mkTsv (ts_out s ++ String.concat " " (map (fun p => padded (fst p)) pv))
          (ts_len s + list_sum (map (fun p => Nat.max (String.length (fst p)) WIDTH + 1)%nat pv)) 0.
  Proof.
    revert s. induction pv as [|(x, v) pv IH]; intros s Hne Hd; [congruence|]. inversion Hd as [|? ? (d & Ed) Hd']; subst.
    simpl in Ed. subst v. destruct pv as [|(y, w) pv].
    - cbn [run_vars tsv_class run_init put ts_out ts_len ts_width map list_sum String.concat fst].
      unfold padded, list_sum. cbn [fold_right]. unfold put. cbn [ts_out ts_len ts_width]. f_equal. lia.
    - rewrite run_vars_cons2.
      rewrite IH by (congruence || assumption).
      cbn [tsv_class run_init flush_value_write]. unfold put. cbn [ts_out ts_len ts_width].
      rewrite !sapp_assoc. f_equal.
      { cbn [map fst String.concat]. unfold padded. rewrite !sapp_assoc. reflexivity. }
      unfold list_sum. cbn [map fst fold_right]. lia.
  Qed.

  Lemma tsv_values pv s : all_doubles pv -> ts_width s = 0%nat ->
    run_vars (tsv_class fmt) (run_ser (tsv_class fmt)) pv s =
    mkTsv (ts_out s ++ String.concat " " (map (fun p => value_text fmt (Some (snd p))) pv)) (ts_len s) 0.
  Proof.
    revert s. induction pv as [|(x, v) pv IH]; intros s Hd Hw.
    { simpl. rewrite sapp_nil_r. destruct s; simpl in *; subst; reflexivity. }
    inversion Hd as [|? ? (d & Ed) Hd']; subst.
    simpl in Ed. subst v. destruct pv as [|(y, w) pv].
    - cbn [run_vars tsv_class run_ser put map]. unfold put. rewrite Hw. reflexivity.
    - rewrite run_vars_cons2. rewrite IH by (assumption || reflexivity).
      cbn [tsv_class run_ser flush_value_write]. unfold put. cbn [ts_out ts_len ts_width]. rewrite Hw. cbn [Nat.sub repeat_char append].
      rewrite !sapp_assoc. reflexivity.
  Qed.

  Definition tsv_line (past : steps_t) (req : list string) : string :=
    String.concat " " (map (fun x => value_text fmt (latest past x)) req).
  Fixpoint tsv_text (req : list string) (past steps : steps_t) : string :=
    match steps with
    | [] => ""
    | (t, out) :: steps' => tsv_line (past ++ [(t, out)])%list req ++ newline ++ tsv_text req (past ++ [(t, out)])%list steps'
    end.

  (** Requested variables are doubles at every instant. *)
  Definition doubles (req : list string) (past steps : steps_t) : Prop :=
    forall x k, In x req -> (k < List.length steps)%nat -> exists d, latest (past ++ firstn (Datatypes.S k) steps)%list x = Some (VDouble d).
  Lemma doubles_cons req past t out steps : doubles req past ((t, out) :: steps) ->
    (forall x, In x req -> exists d, latest (past ++ [(t, out)])%list x = Some (VDouble d)) /\ doubles req (past ++ [(t, out)])%list steps.
  Proof.
    intros H. split.
    - intros x Hx. destruct (H x 0%nat Hx) as (d & E); [simpl; lia|]. exists d. exact E.
    - intros x k Hx Hk. destruct (H x (Datatypes.S k) Hx) as (d & E); [simpl; lia|]. exists d. rewrite <- app_assoc. exact E.
  Qed.
  Lemma fetch_doubles f l : (forall x, In x l -> exists d, f x = Some (@VDouble D G d)) -> all_doubles (fetch f l) /\ (forall x, In x l -> f x <> None).
  Proof.
    intros H. split.
    - unfold all_doubles, fetch. induction l as [|x l IH]; [constructor|]. cbn [flat_map]. destruct (H x (or_introl eq_refl)) as (d & ->).
      cbn [app]. constructor; [exists d; reflexivity|]. apply IH. intros; apply H; right; assumption.
    - intros x Hx. destruct (H x Hx) as (d & ->). discriminate.
  Qed.

  Lemma tsv_states_after req past steps s : doubles req past steps -> ts_width s = 0%nat ->
    states_after (tsv_class fmt) req past steps s = mkTsv (ts_out s ++ tsv_text req past steps) (ts_len s) 0.
  Proof.
    revert past s. induction steps as [|(t, out) steps IH]; intros past s H Hw; simpl.
    { rewrite sapp_nil_r. destruct s; simpl in *; subst; reflexivity. }
    apply doubles_cons in H as (H1 & H2). destruct (fetch_doubles _ _ H1) as (Ad & Nn).
    rewrite IH; [|exact H2|rewrite tsv_values by assumption; reflexivity].
    rewrite tsv_values by assumption. cbn [endl ts_out ts_len ts_width].
    rewrite (fetch_map (fun _ v => value_text fmt v)) by exact Nn.
    unfold tsv_line. rewrite !sapp_assoc. reflexivity.
  Qed.

  Lemma tsv_lines req past steps : (forall d, has_char nl (fmt d) = false) ->
    exists data, lines (tsv_text req past steps) = (data ++ [""])%list /\ List.length data = List.length steps
      /\ forall k line, nth_error data k = Some line -> line = tsv_line (past ++ firstn (Datatypes.S k) steps)%list req.
  Proof.
    intros Hf. revert past. induction steps as [|(t, out) steps IH]; intros past.
    - exists []. repeat split. intros [|k]; discriminate.
    - destruct (IH (past ++ [(t, out)])%list) as (data & A & B & C). cbn [tsv_text]. rewrite lines_cons.
      2:{ apply has_char_concat; [reflexivity|]. apply forallb_forall. intros x Hx. apply in_map_iff in Hx as (y & <- & _).
          apply negb_true_iff. unfold value_text. destruct (latest _ y) as [[d|g]|]; auto. }
      rewrite A. exists (tsv_line (past ++ [(t, out)])%list req :: data). split; [reflexivity|]. split; [simpl; congruence|].
      intros [|k] line Hk.
      + injection Hk as <-. reflexivity.
      + apply C in Hk. rewrite Hk, <- app_assoc. reflexivity.
  Qed.

  Lemma has_char_repeat c d n : Ascii.eqb d c = false -> has_char c (repeat_char d n) = false.
  Proof. intros H. induction n; simpl; [reflexivity|]. rewrite H, IHn. reflexivity. Qed.
  Lemma slength_repeat c n : String.length (repeat_char c n) = n.
  Proof. induction n; simpl; congruence. Qed.
  Lemma padded_length x : String.length (padded x) = Nat.max (String.length x) WIDTH.
  Proof. unfold padded. rewrite slength_app, slength_repeat. lia. Qed.
  Lemma concat_length l : l <> [] -> String.length (String.concat " " l) = (list_sum (map (fun x => String.length x + 1) l) - 1)%nat.
  Proof.
    induction l as [|a l IH]; [congruence|]. intros _. destruct l as [|b l].
    - simpl. lia.
    - change (String.concat " " (a :: b :: l)) with (a ++ " " ++ String.concat " " (b :: l)).
      rewrite !slength_app, IH by congruence. simpl. lia.
  Qed.

  Lemma words_app_blank a b : words (String " " b) = words b /\ (has_char " " a = false -> a <> "" -> words (a ++ String " " b) = a :: words b).
  Proof.
    split; [reflexivity|]. intros H Hne. unfold words. rewrite split_on_app by exact H. simpl.
    destruct (String.eqb a "") eqn:E; [apply String.eqb_eq in E; contradiction|]. reflexivity.
  Qed.
  Lemma words_blanks n b : words (repeat_char " " n ++ b) = words b.
  Proof. induction n; [reflexivity|]. simpl append. rewrite <- IHn. reflexivity. Qed.
  Lemma words_one a : has_char " " a = false -> a <> "" -> words a = [a].
  Proof.
    intros H Hne. unfold words. rewrite split_on_no_char by exact H. simpl.
    destruct (String.eqb a "") eqn:E; [apply String.eqb_eq in E; contradiction|]. reflexivity.
  Qed.
  (** A list of blank-free words, each preceded by any number of blanks. *)
  Lemma words_concat {A} (f g : A -> string) l : (forall x b, In x l -> words (f x ++ b) = words (g x ++ b)) ->
    (forall x, In x l -> has_char " " (g x) = false /\ g x <> "") ->
    words (String.concat " " (map f l)) = map g l.
  Proof.
    intros Hfg Hg. induction l as [|a l IH]; [reflexivity|].
    destruct (Hg a (or_introl eq_refl)) as (H1 & H2).
    destruct l as [|b l].
    - simpl. rewrite <- (sapp_nil_r (f a)), Hfg by (left; reflexivity). rewrite sapp_nil_r. apply words_one; assumption.
    - change (String.concat " " (map f (a :: b :: l))) with (f a ++ String " " (String.concat " " (map f (b :: l)))).
      rewrite Hfg by (left; reflexivity). rewrite (proj2 (words_app_blank _ _)) by assumption.
      rewrite IH. reflexivity. all: intros; (apply Hfg || apply Hg); right; assumption.
  Qed.
  Lemma padded_words x b : words (padded x ++ b) = words (x ++ b).
  Proof. unfold padded. rewrite sapp_assoc. apply words_blanks. Qed.
  Lemma padded_nl x : has_char nl x = false -> has_char nl (padded x) = false.
  Proof. intros H. unfold padded. rewrite has_char_app, H, has_char_repeat by reflexivity. reflexivity. Qed.
End Tsv.
