(** Proofs about the in-memory observers. *)
From Coq Require Import ZArith NArith List Bool Lia String Ascii Sorted.
From Verif Require Import Observer_Model Observer_Spec Observer_Proofs Observer_Text_Proofs.
Import ListNotations.
Open Scope string_scope.

(** ** Sorted maps *)
Lemma scompare_trans a b c : String.compare a b = Lt -> String.compare b c = Lt -> String.compare a c = Lt.
Proof.
  revert b c. induction a as [|x a IH]; intros [|y b] [|z c]; cbn; try congruence.
  unfold Ascii.compare. destruct (N.compare_spec (N_of_ascii x) (N_of_ascii y)) as [E1|E1|E1]; try congruence;
  destruct (N.compare_spec (N_of_ascii y) (N_of_ascii z)) as [E2|E2|E2]; try congruence.
  - intros A B. rewrite E1, E2, N.compare_refl. eapply IH; eauto.
  - intros _ _. rewrite E1. apply N.compare_lt_iff in E2. rewrite E2. reflexivity.
  - intros _ _. rewrite <- E2. apply N.compare_lt_iff in E1. rewrite E1. reflexivity.
  - intros _ _. assert (N_of_ascii x < N_of_ascii z)%N as E by lia. apply N.compare_lt_iff in E. rewrite E. reflexivity.
Qed.
Definition slt (a b : string) : Prop := String.compare a b = Lt.
Definition sorted {V} (m : list (string * V)) : Prop := StronglySorted slt (map fst m).
Lemma scompare_gt a b : String.compare a b = Gt -> slt b a.
Proof. unfold slt. rewrite String.compare_antisym. destruct (String.compare b a); cbn; congruence. Qed.
Lemma smap_set_keys {V} k (v : V) m x : In x (map fst (smap_set k v m)) -> x = k \/ In x (map fst m).
Proof.
  induction m as [|(k', v') m IH]; cbn; [intuition|]. destruct (String.compare k k') eqn:E; cbn.
  - apply String.compare_eq_iff in E. subst. intuition.
  - intuition.
  - intuition.
Qed.
Lemma smap_set_sorted {V} k (v : V) m : sorted m -> sorted (smap_set k v m).
Proof.
  unfold sorted. induction m as [|(k', v') m IH]; cbn; intros H. { repeat constructor. }
  inversion H as [|? ? H1 H2]; subst. destruct (String.compare k k') eqn:E; cbn.
  - apply String.compare_eq_iff in E. subst. assumption.
  - constructor; [exact H|]. constructor; [exact E|]. eapply Forall_impl; [|exact H2]. intros a Ha. eapply scompare_trans; eauto.
  - constructor; [apply IH, H1|]. apply Forall_forall. intros x Hx. apply smap_set_keys in Hx as [->|Hx].
    + apply scompare_gt, E.
    + rewrite Forall_forall in H2. apply H2, Hx.
Qed.
Lemma sorted_nodup {V} (m : list (string * V)) : sorted m -> NoDup (map fst m).
Proof.
  unfold sorted. induction 1 as [|a l H IH HF]; constructor; [|exact IH]. intros Hin. rewrite Forall_forall in HF. specialize (HF _ Hin).
  unfold slt in HF. rewrite scompare_refl in HF. discriminate.
Qed.
Lemma in_smap_find {V} (m : list (string * V)) k v : NoDup (map fst m) -> In (k, v) m -> smap_find k m = Some v.
Proof.
  induction m as [|(k', v') m IH]; cbn; [tauto|]. intros ND [[= -> ->]|H]; [rewrite String.eqb_refl; reflexivity|].
  inversion ND as [|? ? N1 N2]; subst. destruct (String.eqb k k') eqn:E; [|auto]. apply String.eqb_eq in E. subst.
  exfalso. apply N1. apply in_map_iff. exists (k', v). auto.
Qed.

(** ** Series of a MapObserver *)
Section Series.
  Context {D G : Type}.
  Notation cls := (@map_class D G).
  Notation steps_t := (list (D * list (string * value D G))).
  Notation M := (list (string * list D)).

  Lemma run_vars_fold run pv (s : M) : run_vars cls run pv s = fold_left (fun s p => run (snd p) (fst p) s) pv s.
  Proof.
    revert s. induction pv as [|(x, v) pv IH]; intros s; [reflexivity|]. destruct pv; [reflexivity|].
    rewrite run_vars_cons2, IH. reflexivity.
  Qed.

  (** Titles: the series of the doubles are emptied, the others untouched. *)
  Lemma init_series find l (m : M) x : (forall y, In y l -> find y <> None) ->
    smap_find x (run_vars cls (run_init cls) (fetch find l) m) =
    match find x with Some (VDouble _) => if in_dec string_dec x l then Some [] else smap_find x m | _ => smap_find x m end
    /\ (sorted m -> sorted (run_vars cls (run_init cls) (fetch find l) m)).
  Proof.
    rewrite run_vars_fold. revert m. induction l as [|y l IH] using rev_ind; intros m Hf.
    - cbn. split; [destruct (find x) as [[]|]; reflexivity|auto].
    - unfold fetch. rewrite flat_map_app, fold_left_app. fold (fetch find l). destruct (IH m) as (A & B). { intros; apply Hf, in_or_app; auto. }
      clear IH. set (m1 := fold_left _ (fetch find l) m) in *. cbn [flat_map]. destruct (find y) as [v|] eqn:Ey.
      2:{ exfalso. apply (Hf y); [apply in_or_app; right; left; reflexivity|exact Ey]. }
      cbn [app fold_left fst snd map_class run_init]. destruct v as [d|g].
      + split; [|intros Hs; apply smap_set_sorted, B, Hs]. rewrite smap_find_set. destruct (String.eqb x y) eqn:E.
        * apply String.eqb_eq in E. subst. rewrite Ey. destruct (in_dec string_dec y (l ++ [y])) as [|N]; [reflexivity|].
          exfalso. apply N, in_or_app. right. left. reflexivity.
        * apply String.eqb_neq in E. rewrite A. destruct (find x) as [[]|]; try reflexivity.
          destruct (in_dec string_dec x l) as [I|N], (in_dec string_dec x (l ++ [y])) as [I'|N']; try reflexivity.
          -- exfalso. apply N', in_or_app. auto.
          -- apply in_app_or in I' as [|[|[]]]; congruence.
      + split; [|exact B]. rewrite A. destruct (find x) as [[d|]|] eqn:Ex; try reflexivity.
        destruct (in_dec string_dec x l) as [I|N], (in_dec string_dec x (l ++ [y])) as [I'|N']; try reflexivity.
        * exfalso. apply N', in_or_app. auto.
        * apply in_app_or in I' as [|[->|[]]]; congruence.
  Qed.

  (** Values: each double is appended once. *)
  Lemma push_series find l (m : M) x : NoDup l -> (forall y, In y l -> find y <> None) ->
    smap_find x (run_vars cls (run_ser cls) (fetch find l) m) =
    match find x with
    | Some (VDouble d) => if in_dec string_dec x l then Some (match smap_find x m with Some s => s | None => [] end ++ [d])%list else smap_find x m
    | _ => smap_find x m
    end
    /\ (sorted m -> sorted (run_vars cls (run_ser cls) (fetch find l) m)).
  Proof.
    rewrite run_vars_fold. revert m. induction l as [|y l IH] using rev_ind; intros m ND Hf.
    - cbn. split; [destruct (find x) as [[]|]; reflexivity|auto].
    - apply NoDup_remove in ND as (ND & NI). rewrite app_nil_r in *.
      unfold fetch. rewrite flat_map_app, fold_left_app. fold (fetch find l). destruct (IH m ND) as (A & B). { intros; apply Hf, in_or_app; auto. }
      clear IH. set (m1 := fold_left _ (fetch find l) m) in *. cbn [flat_map]. destruct (find y) as [v|] eqn:Ey.
      2:{ exfalso. apply (Hf y); [apply in_or_app; right; left; reflexivity|exact Ey]. }
      cbn [app fold_left fst snd map_class run_ser]. destruct v as [d|g].
      + split; [|intros Hs; apply smap_set_sorted, B, Hs]. unfold map_push. rewrite smap_find_set. destruct (String.eqb x y) eqn:E.
        * apply String.eqb_eq in E. subst. rewrite A, Ey. destruct (in_dec string_dec y l) as [|_]; [contradiction|].
          destruct (in_dec string_dec y (l ++ [y])) as [|N]; [reflexivity|]. exfalso. apply N, in_or_app. right. left. reflexivity.
        * apply String.eqb_neq in E. rewrite A. destruct (find x) as [[]|]; try reflexivity.
          destruct (in_dec string_dec x l) as [I|N], (in_dec string_dec x (l ++ [y])) as [I'|N']; try reflexivity.
          -- exfalso. apply N', in_or_app. auto.
          -- apply in_app_or in I' as [|[|[]]]; congruence.
      + split; [|exact B]. rewrite A. destruct (find x) as [[d|]|] eqn:Ex; try reflexivity.
        destruct (in_dec string_dec x l) as [I|N], (in_dec string_dec x (l ++ [y])) as [I'|N']; try reflexivity.
        * exfalso. apply N', in_or_app. auto.
        * apply in_app_or in I' as [|[->|[]]]; congruence.
  Qed.

  Lemma map_states_after req past steps (m : M) x vs : NoDup req -> In x req ->
    (forall y, In y req -> latest past y <> None) \/ (forall y t out steps', steps = (t, out) :: steps' -> In y req -> latest (past ++ [(t, out)])%list y <> None) ->
    (forall k, (k < List.length steps)%nat -> exists d, latest (past ++ firstn (Datatypes.S k) steps)%list x = Some (VDouble d)) ->
    smap_find x m = Some vs ->
    exists more, smap_find x (states_after cls req past steps m) = Some (vs ++ more)%list /\ List.length more = List.length steps
      /\ forall k d, latest (past ++ firstn (Datatypes.S k) steps)%list x = Some (VDouble d) -> (k < List.length steps)%nat -> nth_error more k = Some d.
  Proof.
    intros ND Hx. revert past m vs. induction steps as [|(t, out) steps IH]; intros past m vs Hp Hd Hm; cbn [states_after].
    - exists []. rewrite app_nil_r. repeat split; [exact Hm|]. cbn. intros. lia.
    - assert (forall y, In y req -> latest (past ++ [(t, out)])%list y <> None) as Hp'.
      { intros y Hy. destruct Hp as [Hp|Hp]; [apply latest_mono, Hp, Hy|]. exact (Hp y t out steps eq_refl Hy). }
      cbn [map_class flush_after_write].
      destruct (push_series (latest (past ++ [(t, out)])%list) req m x ND Hp') as (A & _).
      destruct (Hd 0%nat) as (d & Ed); [cbn; lia|]. cbn [firstn] in Ed. rewrite Ed in A.
      destruct (in_dec string_dec x req) as [_|]; [|contradiction]. rewrite Hm in A.
      destruct (IH (past ++ [(t, out)])%list (run_vars cls (run_ser cls) (fetch (latest (past ++ [(t, out)])%list) req) m) (vs ++ [d])%list (or_introl Hp')) as (more & B & C & E).
      { intros k Hk. destruct (Hd (Datatypes.S k)) as (d' & Ed'); [cbn; lia|]. exists d'. rewrite <- app_assoc. exact Ed'. }
      { exact A. }
      exists (d :: more). rewrite <- app_assoc in B. split; [exact B|]. split; [cbn; congruence|].
      intros [|k] d' Hd' Hk; [cbn in *; congruence|]. cbn in Hk. apply E; [|lia]. rewrite <- app_assoc. exact Hd'.
  Qed.
End Series.

(** ** EverythingObserver *)
Section Everything.
  Context {D G : Type} (zero : D).
  Notation cls := (@map_class D G).
  Notation steps_t := (list (D * list (string * value D G))).
  Notation M := (list (string * list D)).
  Notation obs := (observer D G M).

  (** What a result says about a variable. *)
  Definition reported (body var : string) (r : result D) : option D :=
    if String.eqb var "t" then Some (r_t r)
    else match find_state state_names body var 0 with
         | Some k => nth_error (r_x r) k
         | None => smap_find var (r_extra r)
         end.

  Lemma find_state_inj body a b k : find_state state_names body a 0 = Some k -> find_state state_names body b 0 = Some k -> a = b /\ (k < 13)%nat.
  Proof.
    assert (forall names i v, find_state names body v i = Some k -> exists s, nth_error names (k - i) = Some s /\ v = s ++ "(" ++ body ++ ")" /\ (i <= k < i + List.length names)%nat) as H.
    { induction names as [|s names IH]; intros i v; cbn [find_state]; [discriminate|]. destruct (String.eqb v (s ++ "(" ++ body ++ ")")) eqn:E.
      - intros [= <-]. apply String.eqb_eq in E. exists s. rewrite Nat.sub_diag. cbn. repeat split; auto; lia.
      - intros F. apply IH in F as (s' & A & B & C). exists s'. replace (k - i)%nat with (Datatypes.S (k - (i + 1))) by lia. cbn. repeat split; auto; lia. }
    intros A B. apply H in A as (s1 & A1 & A2 & A3). apply H in B as (s2 & B1 & B2 & _). cbn in A3. split; [congruence|lia].
  Qed.
  Lemma nth_error_set_nth_nat {A} (l : list A) i a j :
    nth_error (set_nth_nat l i a) j = if Nat.eqb i j then (match nth_error l j with Some _ => Some a | None => None end) else nth_error l j.
  Proof.
    revert i j. induction l as [|x l IH]; intros i j; cbn. { destruct i, j; cbn; try reflexivity. destruct (Nat.eqb i j); reflexivity. }
    destruct i, j; cbn; try reflexivity. apply IH.
  Qed.
  Lemma set_nth_nat_length {A} (l : list A) i a : List.length (set_nth_nat l i a) = List.length l.
  Proof. revert i. induction l; intros [|i]; cbn; auto. Qed.
  Lemma resize_length {A} n (a : A) l : List.length (resize n a l) = n.
  Proof. unfold resize. rewrite app_length, repeat_length, firstn_length. lia. Qed.
  Lemma resize_nth {A} n (a : A) l k v : (List.length l <= n)%nat -> nth_error l k = Some v -> nth_error (resize n a l) k = Some v.
  Proof.
    intros H E. unfold resize. rewrite firstn_all2 by exact H. rewrite nth_error_app1; [exact E|]. apply nth_error_Some. congruence.
  Qed.

  Definition okr (r : result D) : Prop := (List.length (r_x r) <= 13)%nat.
  Lemma insert_reported body var v r : okr r -> reported body var (insert_value zero body var v r) = Some v /\ okr (insert_value zero body var v r).
  Proof.
    intros Ho. unfold reported, insert_value, okr. destruct (String.eqb var "t") eqn:Et; [split; [reflexivity|exact Ho]|].
    destruct (find_state state_names body var 0) as [k|] eqn:E; cbn [r_t r_x r_extra].
    - rewrite set_nth_nat_length, resize_length. split; [|lia]. rewrite nth_error_set_nth_nat, Nat.eqb_refl.
      destruct (find_state_inj body var var k E E) as (_ & Hk). pose proof (resize_length 13 zero (r_x r)) as L.
      destruct (nth_error (resize 13 zero (r_x r)) k) eqn:F; [reflexivity|]. apply nth_error_None in F. lia.
    - rewrite smap_find_set, String.eqb_refl. split; [reflexivity|exact Ho].
  Qed.
  Lemma insert_other body var var' v r x : okr r -> var <> var' -> reported body var' r = Some x ->
    reported body var' (insert_value zero body var v r) = Some x.
  Proof.
    intros Ho N. unfold reported, insert_value. destruct (String.eqb var' "t") eqn:Et'.
    - apply String.eqb_eq in Et'. destruct (String.eqb var "t") eqn:Et; [apply String.eqb_eq in Et; congruence|].
      destruct (find_state state_names body var 0); auto.
    - destruct (String.eqb var "t") eqn:Et; [auto|].
      destruct (find_state state_names body var' 0) as [k'|] eqn:E', (find_state state_names body var 0) as [k|] eqn:E; cbn [r_t r_x r_extra]; auto.
      + intros Hx. rewrite nth_error_set_nth_nat. destruct (Nat.eqb k k') eqn:Ek.
        * apply Nat.eqb_eq in Ek. subst. destruct (find_state_inj body var var' k' E E'). contradiction.
        * apply resize_nth; assumption.
      + intros Hx. rewrite smap_find_set. destruct (String.eqb var' var) eqn:Ev; [apply String.eqb_eq in Ev; congruence|exact Hx].
  Qed.

  Lemma nth_error_add_from body var values (res : list (result D)) i :
    nth_error (add_from zero body var values res) i =
    match nth_error values i, nth_error res i with Some v, Some r => Some (insert_value zero body var v r) | _, o => o end.
  Proof.
    revert res i. induction values as [|v values IH]; intros [|r res] [|i]; cbn; try reflexivity.
    - destruct (nth_error values i); reflexivity.
    - apply IH.
  Qed.
  Lemma add_from_length body var values (res : list (result D)) : List.length (add_from zero body var values res) = List.length res.
  Proof. revert res. induction values; intros [|r res]; cbn; auto. Qed.

  (** All the series are copied into the results. *)
  Lemma fold_add body n (m : M) (res : list (result D)) : (0 < n)%nat -> (forall k vs, In (k, vs) m -> List.length vs = n) -> NoDup (map fst m) ->
    (List.length res <= n)%nat -> Forall okr res -> m <> [] \/ List.length res = n ->
    let res' := fold_left (fun res kv => add zero body (fst kv) (snd kv) res) m res in
    List.length res' = n /\ Forall okr res'
    /\ (forall k vs i, In (k, vs) m -> (i < n)%nat -> exists r v, nth_error res' i = Some r /\ nth_error vs i = Some v /\ reported body k r = Some v)
    /\ (forall k r i v, ~ In k (map fst m) -> nth_error res i = Some r -> reported body k r = Some v ->
          exists r', nth_error res' i = Some r' /\ reported body k r' = Some v).
  Proof.
    intros Hn. revert res. induction m as [|(k0, vs0) m IH]; intros res Hlen ND Hr Hok Hne; cbv zeta.
    - cbn. destruct Hne as [Hne|Hne]; [congruence|]. repeat split; auto; [contradiction|eauto].
    - cbn [fold_left fst snd]. inversion ND as [|? ? N1 N2]; subst.
      assert (List.length vs0 = n) as L0 by (eapply Hlen; left; reflexivity).
      set (res1 := add zero body k0 vs0 res).
      set (base := if Nat.ltb (List.length res) n then resize n (mkResult zero [] []) res else res).
      assert (List.length base = n) as Lb.
      { unfold base. destruct (Nat.ltb (List.length res) n) eqn:E; [apply resize_length|]. apply Nat.ltb_ge in E. lia. }
      assert (Forall okr base) as Okb.
      { unfold base. destruct (Nat.ltb (List.length res) n); [|exact Hok]. unfold resize. apply Forall_app. split.
        - apply Forall_forall. intros r Hin. rewrite Forall_forall in Hok. apply Hok. rewrite <- (firstn_skipn n res). apply in_or_app. auto.
        - apply Forall_forall. intros r Hin. apply repeat_spec in Hin. subst. unfold okr. cbn. lia. }
      assert (res1 = add_from zero body k0 vs0 base) as E1.
      { unfold res1, add. destruct vs0; [cbn in L0; lia|]. rewrite L0. reflexivity. }
      assert (List.length res1 = n) as L1 by (rewrite E1, add_from_length; exact Lb).
      assert (Forall okr res1) as Ok1.
      { apply Forall_forall. intros r Hin. apply In_nth_error in Hin as (i & Hi). rewrite E1, nth_error_add_from in Hi.
        rewrite Forall_forall in Okb. destruct (nth_error base i) as [r0|] eqn:Eb.
        - apply nth_error_In in Eb. apply Okb in Eb. destruct (nth_error vs0 i) as [v|]; injection Hi as <-; [apply insert_reported, Eb|exact Eb].
        - destruct (nth_error vs0 i); discriminate. }
      destruct (IH res1) as (A & B & C & E); try assumption; try lia.
      { intros k vs Hin. eapply Hlen. right. exact Hin. }
      cbv zeta in *. split; [exact A|]. split; [exact B|]. split.
      + intros k vs i [[= <- <-]|Hin] Hi; [|apply C; assumption].
        assert (exists v, nth_error vs0 i = Some v) as (v & Ev). { destruct (nth_error vs0 i) eqn:F; [eauto|]. apply nth_error_None in F. lia. }
        assert (exists r, nth_error base i = Some r) as (r & Er). { destruct (nth_error base i) eqn:F; [eauto|]. apply nth_error_None in F. lia. }
        assert (nth_error res1 i = Some (insert_value zero body k0 v r)) as Er1 by (rewrite E1, nth_error_add_from, Ev, Er; reflexivity).
        assert (okr r) as Or by (rewrite Forall_forall in Okb; eapply Okb, nth_error_In; eauto).
        destruct (E k0 _ i v N1 Er1) as (r' & R1 & R2). { apply insert_reported, Or. }
        exists r', v. auto.
      + intros k r i v Hk Hi Hrep. cbn in Hk.
        assert (nth_error base i = Some r) as Eb.
        { unfold base. destruct (Nat.ltb (List.length res) n); [|exact Hi]. apply resize_nth; assumption. }
        assert (okr r) as Or by (rewrite Forall_forall in Okb; eapply Okb, nth_error_In; eauto).
        assert (exists r1, nth_error res1 i = Some r1 /\ reported body k r1 = Some v) as (r1 & R1 & R2).
        { rewrite E1, nth_error_add_from, Eb. destruct (nth_error vs0 i) as [w|]; [|eauto].
          exists (insert_value zero body k0 w r). split; [reflexivity|]. apply insert_other; auto. }
        apply (E k r1 i v); auto.
  Qed.

  Lemma write_all_sorted t out (o : obs) : sorted (o_initialize o) -> sorted (o_initialize (write_all t out o)).
  Proof.
    intros H. unfold write_all. assert (sorted (o_initialize (write (VDouble t) "t" o))) as H1 by (cbn; apply smap_set_sorted, H).
    revert H1. generalize (write (VDouble t) "t" o). induction out as [|(k, v) out IH]; intros o1 H1; cbn [fold_left]; [exact H1|].
    apply IH. cbn. apply smap_set_sorted, H1.
  Qed.

  (** Values of a variable at the successive instants. *)
  Definition ser (past : steps_t) (x : string) : list D :=
    flat_map (fun k => match latest (firstn (Datatypes.S k) past) x with Some (VDouble d) => [d] | _ => [] end) (seq 0 (List.length past)).
  Lemma ser_snoc past s x d : latest (past ++ [s])%list x = Some (VDouble d) -> ser (past ++ [s])%list x = (ser past x ++ [d])%list.
  Proof.
    intros H. unfold ser. rewrite app_length. cbn [List.length]. rewrite seq_app, flat_map_app. f_equal.
    - assert (forall l, (forall k, In k l -> (k < List.length past)%nat) ->
        flat_map (fun k => match latest (firstn (Datatypes.S k) (past ++ [s])%list) x with Some (VDouble d) => [d] | _ => [] end) l =
        flat_map (fun k => match latest (firstn (Datatypes.S k) past) x with Some (VDouble d) => [d] | _ => [] end) l) as K.
      { induction l as [|k l IH]; intros Hl; [reflexivity|]. cbn [flat_map]. rewrite IH by (intros; apply Hl; right; assumption).
        f_equal. rewrite firstn_app. replace (Datatypes.S k - List.length past)%nat with 0%nat by (specialize (Hl k (or_introl eq_refl)); lia).
        cbn [firstn]. rewrite app_nil_r. reflexivity. }
      apply K. intros k Hk. apply in_seq in Hk. lia.
    - cbn [seq flat_map Nat.add]. rewrite firstn_all2 by (rewrite app_length; cbn; lia). rewrite H. reflexivity.
  Qed.
  Lemma ser_length past x : (forall k, (k < List.length past)%nat -> exists d, latest (firstn (Datatypes.S k) past) x = Some (VDouble d)) ->
    List.length (ser past x) = List.length past /\ forall k d, (k < List.length past)%nat -> latest (firstn (Datatypes.S k) past) x = Some (VDouble d) -> nth_error (ser past x) k = Some d.
  Proof.
    induction past as [|s past IH] using rev_ind; intros H.
    - cbn. split; [reflexivity|lia].
    - assert (forall k, (k < List.length past)%nat -> firstn (Datatypes.S k) (past ++ [s])%list = firstn (Datatypes.S k) past) as FE.
      { intros k Hk. rewrite firstn_app. replace (Datatypes.S k - List.length past)%nat with 0%nat by lia. cbn [firstn]. apply app_nil_r. }
      rewrite app_length in *. cbn [List.length] in *.
      destruct IH as (L & N). { intros k Hk. rewrite <- FE by exact Hk. apply H. lia. }
      destruct (H (List.length past)) as (d & Ed); [lia|]. rewrite firstn_all2 in Ed by (rewrite app_length; cbn; lia).
      rewrite (ser_snoc _ _ _ _ Ed), app_length. cbn [List.length]. split; [lia|]. intros k d' Hk Hd'.
      destruct (Nat.eq_dec k (List.length past)) as [->|Nk].
      + rewrite nth_error_app2 by lia. rewrite L, Nat.sub_diag. cbn. rewrite firstn_all2 in Hd' by (rewrite app_length; cbn; lia). congruence.
      + rewrite nth_error_app1 by lia. apply N; [lia|]. rewrite <- FE by lia. exact Hd'.
  Qed.

  (** [names]: the variables written at every instant, as numbers. *)
  Definition regular (names : list string) (steps : steps_t) : Prop :=
    Forall (fun p => map fst (snd p) = names /\ Forall (fun q => exists d, snd q = VDouble d) (snd p)) steps.
  Lemma regular_latest names steps x : regular names steps -> steps <> [] ->
    (x = "t" \/ In x names <-> latest steps x <> None) /\ (forall v, latest steps x = Some v -> exists d, v = VDouble d).
  Proof.
    intros HR Hne. unfold latest, writes.
    assert (forall v, smap_find x (rev (flat_map (fun p => ("t", VDouble (fst p)) :: snd p) steps)) = Some v -> (exists d, v = VDouble d) /\ (x = "t" \/ In x names)) as K.
    { intros v Hv. apply smap_find_in in Hv. rewrite <- in_rev in Hv. apply in_flat_map in Hv as ((t, out) & Hin & Hv).
      unfold regular in HR. rewrite Forall_forall in HR. destruct (HR _ Hin) as (A & B). cbn [fst snd] in *. destruct Hv as [[= <- <-]|Hv]; [eauto|].
      rewrite Forall_forall in B. destruct (B _ Hv) as (d & E). cbn in E. split; [eauto|]. right. rewrite <- A. apply in_map_iff. exists (x, v). auto. }
    split; [split|].
    - intros Hx N. apply smap_find_none in N. apply N. rewrite map_rev, <- in_rev. destruct steps as [|(t, out) steps]; [congruence|].
      cbn [flat_map fst snd map app]. destruct Hx as [->|Hx]; [left; reflexivity|]. right.
      inversion HR as [|? ? (A & _) _]; subst. cbn in Hx. rewrite map_app. apply in_or_app. left. exact Hx.
    - destruct (smap_find x _) as [v|] eqn:E; [intros _; apply (K v eq_refl)|congruence].
    - intros v Hv. apply K, Hv.
  Qed.

  Record einv (body : string) (names : list string) (past : steps_t) (s : obs * list (result D)) : Prop := mkEinv {
    ei_known : known (fst s) past;
    ei_sorted : sorted (o_initialize (fst s));
    ei_init : o_initialized (fst s) = match past with [] => false | _ => true end;
    ei_msorted : sorted (o_st (fst s));
    ei_m : forall x, smap_find x (o_st (fst s)) = match past with [] => None | _ => match latest past x with Some _ => Some (ser past x) | None => None end end;
    ei_len : List.length (snd s) = List.length past;
    ei_ok : Forall okr (snd s);
    ei_res : forall x k r d, nth_error (snd s) k = Some r -> latest past x <> None -> latest (firstn (Datatypes.S k) past) x = Some (VDouble d) -> reported body x r = Some d
  }.

  Lemma regular_prefix names past k : regular names past -> regular names (firstn k past).
  Proof. intros H. unfold regular in *. rewrite Forall_forall in *. intros p Hp. apply H. rewrite <- (firstn_skipn k past). apply in_or_app. auto. Qed.

  Lemma loop_done_all (run : value D G -> string -> M -> M) (m : list (string * value D G)) (st : M) :
    loop cls run m (List.length (map fst m)) 0 (map fst m) st = Done (run_vars cls run (fetch (fun x => smap_find x m) (map fst m)) st).
  Proof.
    apply loop_found; [reflexivity|]. intros x Hx N. apply smap_find_none in N. contradiction.
  Qed.

  Lemma everything_step body names past s t out : einv body names past s -> regular names (past ++ [(t, out)])%list ->
    exists s', everything_observe zero body t out s = Some s' /\ einv body names (past ++ [(t, out)])%list s'.
  Proof.
    intros HI HR. destruct s as (o, res). destruct HI as [K So Hinit Sm Hm Hlen Hok Hres]. cbn [fst snd] in *.
    set (past' := (past ++ [(t, out)])%list) in *.
    assert (past' <> []) as Ne by (unfold past'; destruct past; discriminate).
    destruct (write_all_find t out o past K) as (K' & I' & R' & S'). cbv zeta in *. fold past' in K'.
    pose proof (write_all_sorted t out o So) as So'.
    set (o1 := write_all t out o) in *. set (vars := map fst (o_initialize o1)).
    assert (NoDup vars) as ND by (apply sorted_nodup, So').
    assert (forall x, In x vars <-> latest past' x <> None) as Iv.
    { intros x. rewrite <- (proj2 (K' x)). unfold vars. split.
      - intros Hin N. apply smap_find_none in N. contradiction.
      - intros H. destruct (in_dec string_dec x (map fst (o_initialize o1))) as [|N]; [assumption|]. apply smap_find_none in N. contradiction. }
    assert (forall x v, latest past' x = Some v -> exists d, v = VDouble d) as Dbl by (intros x; apply (regular_latest names past' x HR Ne)).
    assert (regular names past) as HRp by (unfold past', regular in *; apply Forall_app in HR; apply HR).
    assert (forall x, past <> [] -> latest past x = None -> ser past x = []) as HZ.
    { intros x Hp El. assert (~ (x = "t" \/ In x names)) as Nx.
      { intros Hx. destruct (regular_latest names past x HRp) as ((A & _) & _); [congruence|]. apply A in Hx. contradiction. }
      unfold ser.
      assert (forall l, flat_map (fun k => match latest (firstn (Datatypes.S k) past) x with Some (VDouble d) => [d] | _ => [] end) l = []) as Z.
      { induction l as [|k l IHl]; [reflexivity|]. cbn [flat_map]. rewrite IHl, app_nil_r.
        assert (latest (firstn (Datatypes.S k) past) x = None) as ->.
        { destruct (latest (firstn (Datatypes.S k) past) x) eqn:F; [|reflexivity]. exfalso. apply Nx.
          destruct (regular_latest names (firstn (Datatypes.S k) past) x) as ((_ & A) & _); [apply regular_prefix, HRp|destruct past; [congruence|discriminate]|].
          apply A. congruence. }
        reflexivity. }
      apply Z. }
    (* the series before the values are pushed *)
    assert (exists st0, initialize_serialization_of_requested_variables cls vars o1 = Done (set_initialized (set_st o1 st0)) /\ sorted st0 /\
      forall x, match smap_find x st0 with Some l => l | None => [] end = ser past x /\ (latest past' x = None -> smap_find x st0 = None)) as (st0 & E0 & Ss0 & H0).
    { unfold initialize_serialization_of_requested_variables. rewrite I', Hinit. destruct past as [|p past0] eqn:Ep.
      - rewrite (loop_done_all (run_init cls) (o_initialize o1)). cbn [bindR map_class flush_after_init]. fold vars.
        eexists. split; [reflexivity|].
        split; [apply (init_series (fun x => smap_find x (o_initialize o1)) vars (o_st o1) ""); [intros y Hy; cbv beta; rewrite (proj2 (K' y)); apply Iv, Hy|rewrite S'; exact Sm]|].
        intros x. fold cls. rewrite (proj1 (init_series (fun x => smap_find x (o_initialize o1)) vars (o_st o1) x ltac:(intros y Hy; cbv beta; rewrite (proj2 (K' y)); apply Iv, Hy))).
        rewrite S', (Hm x), (proj2 (K' x)). split.
        + destruct (latest past' x) as [[d|g]|]; try reflexivity. destruct (in_dec string_dec x vars); reflexivity.
        + intros ->. reflexivity.
      - exists (o_st o). split; [|split; [exact Sm|]].
        + f_equal. unfold set_initialized, set_st. cbn. rewrite <- S'. destruct o1; reflexivity.
        + intros x. rewrite (Hm x). rewrite <- Ep in *. destruct (latest past x) as [v|] eqn:El.
          * split; [reflexivity|]. intros N. exfalso. revert N. apply latest_mono. congruence.
          * split; [|reflexivity]. symmetry. apply HZ; [congruence|exact El]. }
    unfold everything_observe, observe_everything. cbn [fst snd]. fold o1 vars. rewrite E0. cbn [bindR].
    unfold serialize_requested_variables. cbn [set_initialized set_st o_serialize o_st].
    assert (forall st, loop cls (run_ser cls) (o_serialize o1) (List.length vars) 0 vars st = Done (run_vars cls (run_ser cls) (fetch (latest past') vars) st)) as LL.
    { intros st. rewrite loop_found.
      - f_equal. f_equal. apply fetch_ext. intros x. apply K'.
      - reflexivity.
      - intros x Hx. rewrite (proj1 (K' x)). apply Iv, Hx. }
    rewrite LL. cbn [bindR map_class flush_after_write].
    set (st1 := run_vars cls (run_ser cls) (fetch (latest past') vars) st0).
    assert (sorted st1) as Ss1 by (apply (push_series (latest past') vars st0 "" ND); [intros y Hy; apply Iv, Hy|exact Ss0]).
    assert (forall x, smap_find x st1 = match latest past' x with Some _ => Some (ser past' x) | None => None end) as H1.
    { intros x. unfold st1. rewrite (proj1 (push_series (latest past') vars st0 x ND (fun y Hy => proj1 (Iv y) Hy))).
      destruct (latest past' x) as [v|] eqn:El; [|apply H0, El]. destruct (Dbl _ _ El) as (d & ->).
      destruct (in_dec string_dec x vars) as [_|N]; [|exfalso; apply N, Iv; congruence].
      rewrite (proj1 (H0 x)). unfold past'. rewrite (ser_snoc past (t, out) x d) by exact El. reflexivity. }
    assert (forall x, latest past' x <> None -> forall k, (k < List.length past')%nat -> exists d, latest (firstn (Datatypes.S k) past') x = Some (VDouble d)) as AllD.
    { intros x Hx k Hk. apply (regular_latest names past' x HR Ne) in Hx.
      destruct (regular_latest names (firstn (Datatypes.S k) past') x (regular_prefix _ _ _ HR)) as ((A & _) & B).
      { destruct past'; [congruence|discriminate]. }
      apply A in Hx. destruct (latest (firstn (Datatypes.S k) past') x) as [v|]; [|congruence]. destruct (B v eq_refl) as (d & ->). eauto. }
    assert (List.length past' = Datatypes.S (List.length past)) as Lp by (unfold past'; rewrite app_length; cbn; lia).
    destruct (fold_add body (List.length past') st1 res) as (A & B & C & _).
    { lia. }
    { intros k vs Hin. apply in_smap_find in Hin; [|apply sorted_nodup, Ss1]. rewrite H1 in Hin. destruct (latest past' k) eqn:El; [|discriminate].
      injection Hin as <-. apply ser_length. apply AllD. congruence. }
    { apply sorted_nodup, Ss1. }
    { lia. }
    { exact Hok. }
    { left. intros N. pose proof (H1 "t") as Ht. rewrite N in Ht. cbn in Ht. destruct (latest past' "t") eqn:El; [discriminate|].
      revert El. apply (regular_latest names past' "t" HR Ne). auto. }
    cbv zeta in *. eexists. split; [reflexivity|].
    constructor; cbn [fst snd o_initialize o_initialized o_st o_serialize set_st set_initialized]; try assumption.
    - destruct past'; [congruence|reflexivity].
    - intros x. rewrite H1. destruct past'; [congruence|reflexivity].
    - intros x k r d Hk Hx Hd. assert (k < List.length past')%nat as Hk' by (rewrite <- A; apply nth_error_Some; congruence).
      destruct (C x (ser past' x) k) as (r' & v & R1 & R2 & R3).
      { apply smap_find_in. rewrite H1. destruct (latest past' x); [reflexivity|congruence]. }
      { exact Hk'. }
      rewrite Hk in R1. injection R1 as <-. rewrite R3. f_equal.
      destruct (ser_length past' x (AllD x Hx)) as (_ & N). rewrite (N k d Hk' Hd) in R2. congruence.
  Qed.

  Lemma everything_run body names past steps s : einv body names past s -> regular names (past ++ steps)%list ->
    exists s', everything_all zero body steps s = Some s' /\ einv body names (past ++ steps)%list s'.
  Proof.
    revert past s. induction steps as [|(t, out) steps IH]; intros past s HI HR; cbn [everything_all].
    - exists s. rewrite app_nil_r. auto.
    - replace (past ++ (t, out) :: steps)%list with ((past ++ [(t, out)]) ++ steps)%list in * by (rewrite <- app_assoc; reflexivity).
      destruct (everything_step body names past s t out HI) as (s1 & E1 & I1). { unfold regular in *. apply Forall_app in HR. apply HR. }
      rewrite E1. apply IH; assumption.
  Qed.
End Everything.
