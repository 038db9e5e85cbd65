(** The evaluation of the expressions of a maneuvering model by need: monotone in the depth, stable from the number of names. *)
From Coq Require Import Reals List Bool String Ascii ZArith Lia Lra.
From Verif Require Import Common Man_Model Man_Spec Man_Proofs Man_Props Man_System_Model Man_System_Spec.
Import ListNotations.
Open Scope R_scope.

Lemma text_eqb_eq a b : text_eqb a b = true <-> a = b.
Proof. unfold text_eqb. destruct (list_eq_dec ascii_dec a b); split; intros; congruence. Qed.
Lemma text_eqb_refl a : text_eqb a a = true.
Proof. apply text_eqb_eq. reflexivity. Qed.
Lemma assoc_in {A} (l : list (text * A)) k a : assoc l k = Some a -> In (k, a) l.
Proof.
  induction l as [|(k', b) l IH]; cbn [assoc]; [discriminate|]. destruct (text_eqb k' k) eqn:E; intros H.
  - apply text_eqb_eq in E. injection H as ->. left. congruence.
  - right. apply IH, H.
Qed.
Lemma assoc_none {A} (l : list (text * A)) k : assoc l k = None -> forall a, ~ In (k, a) l.
Proof.
  induction l as [|(k', b) l IH]; cbn [assoc]; intros H a I; [destruct I|]. destruct (text_eqb k' k) eqn:E; [discriminate|].
  destruct I as [I|I]; [injection I as -> ->; rewrite text_eqb_refl in E; discriminate|]. exact (IH H a I).
Qed.
Lemma in_assoc {A} (l : list (text * A)) k a : NoDup (map fst l) -> In (k, a) l -> assoc l k = Some a.
Proof.
  induction l as [|(k', b) l IH]; intros N I; [destruct I|]. cbn [assoc map fst] in *. inversion N as [|? ? N1 N2]; subst.
  destruct (text_eqb k' k) eqn:E.
  - apply text_eqb_eq in E. subst. destruct I as [I|I]; [injection I as <-; reflexivity|]. exfalso. apply N1. apply (in_map fst) in I. exact I.
  - destruct I as [I|I]; [injection I as -> ->; rewrite text_eqb_refl in E; discriminate|]. apply IH; assumption.
Qed.

Section System.
  Variable pow : R -> R -> R.
  Variable state : state_type -> R -> R.
  Variable sets : list (text * R).
  Variable m : list (text * node).
  Variable t : R.
  Notation E := (ds_get pow state sets m t).
  Notation nget := (node_get pow state t).

  Fixpoint idents (n : node) : list text :=
    match n with
    | Constant _ | NaN | Time => [] | UnknownIdentifier k => [k] | Unary _ a | State _ a => idents a | Binary _ a b => idents a ++ idents b
    end.
  Definition ok {A} (o : outcome A) : bool := match o with Ok _ => true | _ => false end.
  Lemma nget_ext f g n : (forall k, In k (idents n) -> f k = g k) -> nget f n = nget g n.
  Proof.
    induction n as [x| | |k|u a IH|b a IHa c IHc|s a IH]; intros H; cbn [node_get idents] in *; try reflexivity.
    - apply H. left. reflexivity.
    - rewrite IH by assumption. reflexivity.
    - rewrite IHa, IHc by (intros k I; apply H, in_or_app; auto). reflexivity.
    - rewrite IH by assumption. reflexivity.
  Qed.
  Lemma nget_ok f n : ok (nget f n) = true <-> forall k, In k (idents n) -> ok (f k) = true.
  Proof.
    induction n as [x| | |k|u a IH|b a IHa c IHc|s a IH]; cbn [node_get idents].
    1-3: split; [intros _ k []|reflexivity].
    - split; [intros H k' [<-|[]]; exact H|intros H; apply H; left; reflexivity].
    - rewrite <- IH. destruct (nget f a); reflexivity.
    - split.
      + intros H k I. destruct (nget f a) eqn:Ea; [|discriminate|discriminate]. destruct (nget f c) eqn:Ec; [|discriminate|discriminate].
        apply in_app_or in I as [I|I]; [apply IHa|apply IHc]; auto.
      + intros H. assert (Ha : ok (nget f a) = true) by (apply IHa; intros k I; apply H, in_or_app; auto).
        assert (Hc : ok (nget f c) = true) by (apply IHc; intros k I; apply H, in_or_app; auto).
        destruct (nget f a); [|discriminate|discriminate]. destruct (nget f c); [reflexivity|discriminate|discriminate].
    - rewrite <- IH. destruct (nget f a); reflexivity.
  Qed.
  Lemma nget_not_ub f n : (forall k, f k <> UB) -> nget f n <> UB.
  Proof.
    intros H. induction n as [x| | |k|u a IH|b a IHa c IHc|s a IH]; cbn [node_get]; try discriminate; try (apply H).
    - destruct (nget f a); [discriminate|discriminate|congruence].
    - destruct (nget f a); [|discriminate|congruence]. cbn [bindO]. destruct (nget f c); [discriminate|discriminate|congruence].
    - destruct (nget f a); [discriminate|discriminate|congruence].
  Qed.
  Lemma get_not_ub d : forall k, E d k <> UB.
  Proof.
    induction d as [|d IH]; intros k; cbn [ds_get]; destruct (assoc sets k); try discriminate; destruct (assoc m k); try discriminate. apply nget_not_ub, IH.
  Qed.
  Lemma mono d : forall k o, E d k = Ok o -> E (S d) k = Ok o.
  Proof.
    induction d as [|d IH]; intros k o H.
    - cbn [ds_get] in H. cbn [ds_get]. destruct (assoc sets k); [exact H|]. destruct (assoc m k); discriminate.
    - cbn [ds_get] in H. change (E (S (S d)) k) with (match assoc sets k with Some x => Ok (Some x) | None => match assoc m k with None => Throw | Some n => nget (E (S d)) n end end).
      destruct (assoc sets k); [exact H|]. destruct (assoc m k) as [n|]; [|exact H]. rewrite <- H. symmetry. apply nget_ext.
      intros k' I. assert (Q : ok (nget (E d) n) = true) by (rewrite H; reflexivity). rewrite nget_ok in Q. specialize (Q k' I).
      destruct (E d k') as [v| |] eqn:Ek; [|discriminate|discriminate]. symmetry. apply IH, Ek.
  Qed.
  Lemma mono_le d d' k o : (d <= d')%nat -> E d k = Ok o -> E d' k = Ok o.
  Proof. intros L H. induction L as [|d' L IH]; [exact H|apply mono, IH]. Qed.
  Definition names := map fst m.
  Definition known_at (d : nat) (k : text) : bool := ok (E d k).
  Lemma stable d : (forall k, In k names -> known_at (S d) k = true -> known_at d k = true) -> forall d' k, known_at d' k = true -> known_at d k = true.
  Proof.
    intros H. induction d' as [|d' IH]; intros k K.
    - unfold known_at in *. cbn [ds_get] in K. destruct d; cbn [ds_get]; destruct (assoc sets k); try reflexivity; destruct (assoc m k); discriminate.
    - unfold known_at in K. cbn [ds_get] in K. destruct (assoc sets k) as [x|] eqn:A; [unfold known_at; destruct d; cbn [ds_get]; rewrite A; reflexivity|].
      destruct (assoc m k) as [n|] eqn:B; [|discriminate]. apply H.
      + apply assoc_in in B. apply (in_map fst) in B. exact B.
      + unfold known_at. cbn [ds_get]. rewrite A, B. apply nget_ok. intros k' I. apply IH. rewrite nget_ok in K. apply K, I.
  Qed.
  Definition count (d : nat) : nat := List.length (filter (known_at d) names).
  Lemma filter_grows (f g : text -> bool) l : (forall k, f k = true -> g k = true) -> (List.length (filter f l) <= List.length (filter g l))%nat.
  Proof.
    intros H. induction l as [|a l IH]; cbn [filter]; [lia|]. destruct (f a) eqn:F; [rewrite (H a F); cbn [List.length]; lia|]. destruct (g a); cbn [List.length]; lia.
  Qed.
  Lemma filter_strict (f g : text -> bool) l : (forall k, f k = true -> g k = true) -> (exists k, In k l /\ g k = true /\ f k = false) ->
    (List.length (filter f l) < List.length (filter g l))%nat.
  Proof.
    intros H. induction l as [|a l IH]; intros (k & I & G & F); [destruct I|]. cbn [filter].
    destruct I as [->|I].
    - rewrite F, G. cbn [List.length]. pose proof (filter_grows f g l H). lia.
    - specialize (IH (ex_intro _ k (conj I (conj G F)))). destruct (f a) eqn:Fa; [rewrite (H a Fa); cbn [List.length]; lia|]. destruct (g a); cbn [List.length]; lia.
  Qed.
  Lemma known_mono d k : known_at d k = true -> known_at (S d) k = true.
  Proof. unfold known_at. destruct (E d k) eqn:K; [|discriminate|discriminate]. intros _. rewrite (mono d k _ K). reflexivity. Qed.
  Lemma stable_or_grows : forall d, (exists d0, (d0 < d)%nat /\ forall k, In k names -> known_at (S d0) k = true -> known_at d0 k = true) \/ (d <= count d)%nat.
  Proof.
    induction d as [|d [(d0 & L & H)|IH]]; [right; lia|left; exists d0; split; [lia|exact H]|].
    destruct (existsb (fun k => known_at (S d) k && negb (known_at d k)) names) eqn:X.
    - right. apply existsb_exists in X as (k & I & X). apply andb_prop in X as (X1 & X2). apply negb_true_iff in X2.
      assert (count d < count (S d))%nat by (apply filter_strict; [apply known_mono|eauto]). lia.
    - left. exists d. split; [lia|]. intros k I K. destruct (known_at d k) eqn:K'; [reflexivity|]. exfalso.
      rewrite <- not_true_iff_false in X. apply X, existsb_exists. exists k. rewrite K, K'. split; [exact I|reflexivity].
  Qed.
  Lemma filter_short (f : text -> bool) l : (List.length (filter f l) <= List.length l)%nat.
  Proof. induction l as [|a l IH]; cbn [filter List.length]; [lia|]. destruct (f a); cbn [List.length]; lia. Qed.
  (** As many turns as there are names are enough. *)
  Lemma enough d k o : E d k = Ok o -> E (S (List.length m)) k = Ok o.
  Proof.
    intros H. destruct (stable_or_grows (S (List.length m))) as [(d0 & L & St)|C].
    - assert (K : known_at d0 k = true) by (apply (stable d0 St d); unfold known_at; rewrite H; reflexivity).
      unfold known_at in K. destruct (E d0 k) as [o'| |] eqn:Q; [|discriminate|discriminate].
      assert (o' = o).
      { destruct (Nat.le_ge_cases d d0) as [Le|Ge]; [apply (mono_le d d0) in H; [congruence|exact Le]|apply (mono_le d0 d) in Q; [congruence|exact Ge]]. }
      subst. apply (mono_le d0); [lia|exact Q].
    - exfalso. unfold count in C. pose proof (filter_short (known_at (S (List.length m))) names) as B.
      unfold names in B at 2. rewrite map_length in B. lia.
  Qed.
  Lemma nget_value var n : (forall k, In k (idents n) -> True) -> nget (fun k => Ok (Some (var k))) n = Ok (node_value pow var state t n).
  Proof.
    intros _. induction n as [x| | |k|u a IH|b a IHa c IHc|s a IH]; cbn [node_get node_value]; try reflexivity.
    - rewrite IH. reflexivity.
    - rewrite IHa, IHc. reflexivity.
    - rewrite IH. reflexivity.
  Qed.
End System.
