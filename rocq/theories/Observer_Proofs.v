(** Proofs about the observers. *)
From Coq Require Import ZArith NArith List Bool Lia String Ascii.
From Verif Require Import Observer_Model Observer_Spec.
Import ListNotations.
Open Scope string_scope.

(** ** Strings *)
Lemma sapp_nil_r s : s ++ "" = s.
Proof. induction s; simpl; congruence. Qed.
Lemma sapp_assoc a b c : (a ++ b) ++ c = a ++ b ++ c.
Proof. induction a; simpl; congruence. Qed.
Lemma slength_app a b : String.length (a ++ b) = (String.length a + String.length b)%nat.
Proof. induction a; simpl; congruence. Qed.
Lemma has_char_app c a b : has_char c (a ++ b) = orb (has_char c a) (has_char c b).
Proof. induction a; simpl; [reflexivity|]. rewrite IHa. apply orb_assoc. Qed.

Lemma split_on_no_char c s : has_char c s = false -> split_on c s = [s].
Proof.
  induction s; simpl; intros H; [reflexivity|]. apply orb_false_iff in H as (A & B). rewrite A, IHs by assumption. reflexivity.
Qed.
Lemma split_on_app c a b : has_char c a = false -> split_on c (a ++ String c b) = a :: split_on c b.
Proof.
  induction a; simpl; intros H. { rewrite Ascii.eqb_refl. reflexivity. }
  apply orb_false_iff in H as (A & B). rewrite A, IHa by assumption. reflexivity.
Qed.
Definition sep1 (c : ascii) : string := String c "".
Lemma split_on_concat c l : l <> [] -> forallb (fun s => negb (has_char c s)) l = true -> split_on c (String.concat (sep1 c) l) = l.
Proof.
  induction l as [|a l IH]; [congruence|]. intros _ H. simpl in H. apply andb_true_iff in H as (A & B).
  apply negb_true_iff in A. destruct l as [|b l].
  - simpl. apply split_on_no_char, A.
  - change (String.concat (sep1 c) (a :: b :: l)) with (a ++ sep1 c ++ String.concat (sep1 c) (b :: l)).
    change (sep1 c ++ String.concat (sep1 c) (b :: l)) with (String c (String.concat (sep1 c) (b :: l))).
    rewrite split_on_app by exact A. rewrite IH by (congruence || exact B). reflexivity.
Qed.
Lemma has_char_concat c s l : has_char c s = false -> forallb (fun x => negb (has_char c x)) l = true ->
  has_char c (String.concat s l) = false.
Proof.
  intros Hs. induction l as [|a l IH]; [reflexivity|]. intros H. simpl in H. apply andb_true_iff in H as (A & B).
  apply negb_true_iff in A. destruct l as [|b l]; [exact A|].
  change (String.concat s (a :: b :: l)) with (a ++ s ++ String.concat s (b :: l)).
  rewrite !has_char_app, A, Hs, IH by exact B. reflexivity.
Qed.
Lemma replace_commas_no_comma s : has_char "," (replace_commas s) = false.
Proof.
  induction s; simpl; [reflexivity|]. rewrite IHs, orb_false_r.
  destruct (Ascii.eqb a ",") eqn:E; [reflexivity|exact E].
Qed.
Lemma replace_commas_nl s : has_char nl s = false -> has_char nl (replace_commas s) = false.
Proof.
  induction s; simpl; [reflexivity|]. intros H. apply orb_false_iff in H as (A & B). rewrite IHs by assumption.
  destruct (Ascii.eqb a ",") eqn:E; [reflexivity|]. rewrite A. reflexivity.
Qed.
Lemma lines_cons a b : has_char nl a = false -> lines (a ++ newline ++ b) = a :: lines b.
Proof. intros H. apply split_on_app, H. Qed.

(** ** Maps *)
Lemma scompare_refl s : String.compare s s = Eq.
Proof. induction s as [|a s IH]; [reflexivity|]. simpl. unfold Ascii.compare. rewrite N.compare_refl. exact IH. Qed.
Lemma smap_find_set {V} k (v : V) m x : smap_find x (smap_set k v m) = if String.eqb x k then Some v else smap_find x m.
Proof.
  induction m as [|(k', v') m IH]; simpl. { reflexivity. }
  destruct (String.compare k k') eqn:C.
  - apply String.compare_eq_iff in C as <-. simpl. destruct (String.eqb x k); reflexivity.
  - simpl. reflexivity.
  - simpl. rewrite IH. destruct (String.eqb x k') eqn:E, (String.eqb x k) eqn:F; try reflexivity.
    apply String.eqb_eq in E, F. subst. rewrite scompare_refl in C. discriminate.
Qed.
Lemma smap_find_app {V} (a b : list (string * V)) x :
  smap_find x (a ++ b)%list = match smap_find x a with Some v => Some v | None => smap_find x b end.
Proof. induction a as [|(k, v) a IH]; simpl; [reflexivity|]. destruct (String.eqb x k); [reflexivity|exact IH]. Qed.
Lemma smap_find_in {V} (m : list (string * V)) x v : smap_find x m = Some v -> In (x, v) m.
Proof.
  induction m as [|(k, w) m IH]; simpl; [discriminate|]. destruct (String.eqb x k) eqn:E.
  - apply String.eqb_eq in E. intros [= ->]. left. congruence.
  - right. auto.
Qed.
Lemma smap_find_none {V} (m : list (string * V)) x : smap_find x m = None <-> ~ In x (map fst m).
Proof.
  induction m as [|(k, w) m IH]; simpl; [tauto|]. destruct (String.eqb x k) eqn:E.
  - apply String.eqb_eq in E. split; [discriminate|]. intros H. exfalso. apply H. auto.
  - apply String.eqb_neq in E. rewrite IH. split; [intros H [?|?]; [congruence|tauto]|tauto].
Qed.
Lemma smap_set_nonempty {V} k (v : V) m : smap_set k v m <> [].
Proof. destruct m as [|(k', v') m]; simpl; [discriminate|]. destruct (String.compare k k'); discriminate. Qed.
Lemma smap_set_forall {V} (P : string * V -> Prop) k v m : P (k, v) -> Forall P m -> Forall P (smap_set k v m).
Proof.
  intros Hk. induction 1 as [|(k', v') m Hm HF IH]; simpl; [auto|]. destruct (String.compare k k'); auto.
Qed.

(** ** The generic observer *)
Section Generic.
  Context {D G S : Type} (c : obs_class D G S).
  Notation obs := (observer D G S).

  (** Both maps give the latest value. *)
  Lemma write_all_find t outputs (o : obs) (steps : list (D * list (string * value D G))) :
    (forall x, smap_find x (o_serialize o) = latest steps x /\ smap_find x (o_initialize o) = latest steps x) ->
    let o' := write_all t outputs o in
    (forall x, smap_find x (o_serialize o') = latest (steps ++ [(t, outputs)])%list x
               /\ smap_find x (o_initialize o') = latest (steps ++ [(t, outputs)])%list x)
    /\ o_initialized o' = o_initialized o /\ o_requested o' = o_requested o /\ o_st o' = o_st o.
  Proof.
    intros H. unfold latest, writes. rewrite flat_map_app. simpl. rewrite app_nil_r.
    assert (forall pre (o1 : obs), (forall x, smap_find x (o_serialize o1) = smap_find x (rev pre) /\ smap_find x (o_initialize o1) = smap_find x (rev pre)) ->
      forall l, let o2 := fold_left (fun o p => write (snd p) (fst p) o) l o1 in
      (forall x, smap_find x (o_serialize o2) = smap_find x (rev (pre ++ l)%list) /\ smap_find x (o_initialize o2) = smap_find x (rev (pre ++ l)%list))
      /\ o_initialized o2 = o_initialized o1 /\ o_requested o2 = o_requested o1 /\ o_st o2 = o_st o1) as K.
    { clear. intros pre o1 H l. revert pre o1 H. induction l as [|(k, v) l IH]; intros pre o1 H; simpl.
      - rewrite app_nil_r. auto.
      - destruct (IH (pre ++ [(k, v)])%list (write v k o1)) as (A & B & C & E).
        + intros x. simpl. rewrite !smap_find_set, rev_app_distr. simpl. destruct (H x) as (<- & H2). rewrite H2.
          split; reflexivity.
        + rewrite <- app_assoc in A. simpl in A. auto. }
    pose proof (K (flat_map (fun p => ("t", VDouble (fst p)) :: snd p) steps) o H (("t", VDouble t) :: outputs)) as K'.
    simpl in K'. exact K'.
  Qed.

  (** A loop over found variables: the text is a fold of runs and separators. *)
  Fixpoint run_vars (run : value D G -> string -> S -> S) (l : list (string * value D G)) (s : S) : S :=
    match l with
    | [] => s
    | [(x, v)] => run v x s
    | (x, v) :: l' => run_vars run l' (flush_value_write c (run v x s))
    end.

  Lemma run_vars_cons2 run x v p pv s :
    run_vars run ((x, v) :: p :: pv) s = run_vars run (p :: pv) (flush_value_write c (run v x s)).
  Proof. reflexivity. Qed.
  (** The requested variables that have a value, with it. *)
  Definition fetch (find : string -> option (value D G)) (l : list string) : list (string * value D G) :=
    flat_map (fun x => match find x with Some v => [(x, v)] | None => [] end) l.

  Lemma loop_found run m l i n s : (i + List.length l = n)%nat ->
    (forall x, In x l -> smap_find x m <> None) ->
    loop c run m n i l s = Done (run_vars run (fetch (fun x => smap_find x m) l) s).
  Proof.
    revert i s. induction l as [|x l IH]; intros i s Hn Hf; [reflexivity|].
    cbn [loop fetch flat_map]. destruct (smap_find x m) as [v|] eqn:E; [|exfalso; exact (Hf x (or_introl eq_refl) E)].
    cbn [app]. destruct l as [|y l].
    - replace (Nat.ltb i (n - 1)) with false by (symmetry; apply Nat.ltb_ge; cbn in Hn; lia). reflexivity.
    - replace (Nat.ltb i (n - 1)) with true by (symmetry; apply Nat.ltb_lt; cbn in Hn; lia).
      rewrite IH by (cbn in *; solve [lia | intros; apply Hf; right; assumption]).
      cbn [fetch flat_map]. destruct (smap_find y m) as [w|] eqn:E2; [reflexivity|].
      exfalso. exact (Hf y (or_intror (or_introl eq_refl)) E2).
  Qed.
  Lemma fetch_ext f g l : (forall x, f x = g x) -> fetch f l = fetch g l.
  Proof. intros H. unfold fetch. induction l; simpl; [reflexivity|]. rewrite H, IHl. reflexivity. Qed.

  (** The first variable that is not found stops the loop. *)
  Lemma loop_missing run m n (P : S -> Prop) : (forall s, P s -> P (flush_value_write c s)) ->
    forall l i s, (forall v x s, In x l -> P s -> P (run v x s)) -> P s -> (exists x, In x l /\ smap_find x m = None) ->
    exists s' x pre post, loop c run m n i l s = Fail s' x /\ P s' /\ l = (pre ++ x :: post)%list /\ smap_find x m = None
      /\ (forall y, In y pre -> smap_find y m <> None).
  Proof.
    intros Pf. induction l as [|y l IH]; intros i s Pr Ps (x & Hin & Hx); [contradiction|].
    simpl. destruct (smap_find y m) as [v|] eqn:E.
    - destruct Hin as [->|Hin]; [congruence|].
      destruct (IH (i + 1)%nat (if Nat.ltb i (n - 1) then flush_value_write c (run v y s) else run v y s)) as (s' & z & pre & post & A & B & C & F & H); eauto.
      { intros. apply Pr; [right|]; assumption. }
      { destruct (Nat.ltb i (n - 1)); [apply Pf|]; apply Pr; auto; left; reflexivity. }
      exists s', z, (y :: pre), post. subst l. repeat split; auto. intros y' [<-|?]; [congruence|auto].
    - exists s, y, [], l. repeat split; auto. 
  Qed.

  (** *** Complete behaviour *)
  Lemma latest_mono (steps more : list (D * list (string * value D G))) x : latest steps x <> None -> latest (steps ++ more)%list x <> None.
  Proof.
    unfold latest, writes. rewrite flat_map_app, rev_app_distr, smap_find_app. intros H.
    destruct (smap_find x (rev (flat_map _ more))); [discriminate|exact H].
  Qed.

  Definition known (o : obs) (steps : list (D * list (string * value D G))) : Prop :=
    forall x, smap_find x (o_serialize o) = latest steps x /\ smap_find x (o_initialize o) = latest steps x.

  (** An observation by an initialised observer. *)
  Lemma observe_initialized t out (o : obs) past : known o past -> o_initialized o = true ->
    (forall x, In x (o_requested o) -> latest (past ++ [(t, out)])%list x <> None) ->
    exists o', observe c t out o = Done o' /\ known o' (past ++ [(t, out)])%list /\ o_initialized o' = true
      /\ o_requested o' = o_requested o
      /\ o_st o' = flush_after_write c (run_vars (run_ser c) (fetch (latest (past ++ [(t, out)])%list) (o_requested o)) (o_st o)).
  Proof.
    intros K I F. destruct (write_all_find t out o past K) as (K' & I' & R' & S').
    unfold observe, initialize_serialization_of_requested_variables, serialize_requested_variables.
    rewrite I', I. cbn [bindR set_initialized o_requested o_serialize o_st].
    rewrite loop_found; [|lia|intros x Hx; rewrite (proj1 (K' x)); apply F; rewrite <- R'; exact Hx].
    cbn [bindR]. eexists. split; [reflexivity|]. cbn. repeat split; try apply K'; try assumption.
    rewrite R', S'. f_equal. f_equal. apply fetch_ext. intros x. apply K'.
  Qed.

  (** The first observation. *)
  Lemma observe_first t out (o : obs) past : known o past -> o_initialized o = false ->
    (forall x, In x (o_requested o) -> latest (past ++ [(t, out)])%list x <> None) ->
    let vals := fetch (latest (past ++ [(t, out)])%list) (o_requested o) in
    match flush_after_init c (run_vars (run_init c) vals (o_st o)) with
    | Fail s w => exists o', observe c t out o = Fail o' w /\ o_st o' = s
    | Done s => exists o', observe c t out o = Done o' /\ known o' (past ++ [(t, out)])%list /\ o_initialized o' = true
      /\ o_requested o' = o_requested o /\ o_st o' = flush_after_write c (run_vars (run_ser c) vals s)
    end.
  Proof.
    intros K I F. destruct (write_all_find t out o past K) as (K' & I' & R' & S'). cbv zeta.
    unfold observe, initialize_serialization_of_requested_variables, serialize_requested_variables.
    rewrite I', I.
    rewrite loop_found; [|lia|intros x Hx; rewrite (proj2 (K' x)); apply F; rewrite <- R'; exact Hx].
    cbn [bindR]. rewrite (fetch_ext _ _ _ (fun x => proj2 (K' x))), R', S'.
    destruct (flush_after_init c _) as [s|s w]; cbn [bindR].
    - cbn [set_initialized set_st o_requested o_serialize o_st].
      rewrite loop_found; [|lia|intros x Hx; rewrite (proj1 (K' x)); apply F; rewrite <- R'; exact Hx].
      cbn [bindR]. eexists. split; [reflexivity|]. cbn. repeat split; try apply K'; try assumption.
      rewrite R'. f_equal. f_equal. apply fetch_ext. intros x. apply K'.
    - eexists. split; reflexivity.
  Qed.

  Lemma observe_missing t out (o : obs) past (P : S -> Prop) : known o past -> o_initialized o = false ->
    (forall v x s, In x (o_requested o) -> P s -> P (run_init c v x s)) -> (forall s, P s -> P (flush_value_write c s)) -> P (o_st o) ->
    (exists x, In x (o_requested o) /\ latest (past ++ [(t, out)])%list x = None) ->
    exists o' x pre post, observe c t out o = Fail o' x /\ P (o_st o') /\ o_requested o = (pre ++ x :: post)%list
      /\ latest (past ++ [(t, out)])%list x = None /\ (forall y, In y pre -> latest (past ++ [(t, out)])%list y <> None).
  Proof.
    intros K I Pr Pf P0 (x & Hx & Hn). destruct (write_all_find t out o past K) as (K' & I' & R' & S').
    unfold observe, initialize_serialization_of_requested_variables. rewrite I', I.
    destruct (loop_missing (run_init c) (o_initialize (write_all t out o)) (List.length (o_requested (write_all t out o))) P Pf
                (o_requested (write_all t out o)) 0%nat (o_st (write_all t out o))) as (s' & z & pre & post & A & B & C & E & F).
    { intros v y s Hy. apply Pr. rewrite <- R'. exact Hy. }
    { rewrite S'. exact P0. }
    { exists x. rewrite R', (proj2 (K' x)). auto. }
    rewrite A. cbn [bindR]. eexists _, z, pre, post. split; [reflexivity|]. cbn. rewrite <- R'.
    rewrite (proj2 (K' z)) in E. repeat split; auto. intros y Hy. rewrite <- (proj2 (K' y)). auto.
  Qed.

  (** All the observations of a simulation: state after [k] of them. *)
  Fixpoint states_after (req : list string) (past : list (D * list (string * value D G))) (steps : list (D * list (string * value D G))) (s : S) : S :=
    match steps with
    | [] => s
    | (t, out) :: steps' =>
        let past' := (past ++ [(t, out)])%list in
        states_after req past' steps' (flush_after_write c (run_vars (run_ser c) (fetch (latest past') req) s))
    end.

  Lemma observe_all_initialized steps (o : obs) past : known o past -> o_initialized o = true ->
    (forall x, In x (o_requested o) -> latest past x <> None) ->
    exists o', observe_all c steps o = Done o' /\ o_st o' = states_after (o_requested o) past steps (o_st o)
      /\ known o' (past ++ steps)%list.
  Proof.
    revert o past. induction steps as [|(t, out) steps IH]; intros o past K I F.
    - exists o. rewrite app_nil_r. auto.
    - destruct (observe_initialized t out o past K I) as (o' & E & K' & I' & R' & S').
      { intros x Hx. apply latest_mono, F, Hx. }
      cbn [observe_all]. rewrite E. cbn [bindR].
      destruct (IH o' (past ++ [(t, out)])%list K' I') as (o2 & E2 & S2 & K2).
      { intros x Hx. apply latest_mono, F. rewrite <- R'. exact Hx. }
      exists o2. split; [exact E2|]. rewrite S2, S', R'. cbn [states_after]. split; [reflexivity|].
      rewrite <- app_assoc in K2. exact K2.
  Qed.

  Lemma observe_all_ok req s0 t out steps s1 :
    (forall x, In x req -> latest [(t, out)] x <> None) ->
    flush_after_init c (run_vars (run_init c) (fetch (latest [(t, out)]) req) s0) = Done s1 ->
    exists o', observe_all c ((t, out) :: steps) (new_observer req s0) = Done o'
      /\ o_st o' = states_after req [] ((t, out) :: steps) s1.
  Proof.
    intros F E. assert (known (new_observer req s0) []) as K by (intros x; split; reflexivity).
    pose proof (observe_first t out (new_observer req s0) [] K eq_refl F) as H. cbv zeta in H. cbn [o_requested new_observer o_st app] in H.
    rewrite E in H. destruct H as (o' & A & K' & I' & R' & S'). cbn [observe_all]. rewrite A. cbn [bindR].
    destruct (observe_all_initialized steps o' [(t, out)] K' I') as (o2 & E2 & S2 & _).
    { rewrite R'. exact F. }
    exists o2. split; [exact E2|]. rewrite S2, S', R'. reflexivity.
  Qed.
End Generic.
