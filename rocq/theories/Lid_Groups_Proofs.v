(** Groups of edges that are disjoint directed closed lines. *)
From Coq Require Import Reals List Bool Arith Lra Lia Permutation.
From Verif Require Import Common Geometry Hull_Model Hull_Spec Mesh_Model Mesh_Spec Mesh_Proofs Closing_Model Closing_Spec Closing_Graph_Proofs Closing_Group_Props Closing_Contour_Proofs Closing_Contour_Props.
Import ListNotations.
Open Scope nat_scope.

Lemma nodup_concat_same : forall {A} (g : list (list A)) l l' x, NoDup (concat g) -> In l g -> In l' g -> In x l -> In x l' -> l = l'.
Proof.
  induction g as [|k g IH]; intros l l' x ND H H' I I'; [destruct H|]. cbn [concat] in ND.
  assert (D : forall y, In y k -> In y (concat g) -> False).
  { clear - ND. induction k as [|a k IH]; intros y Hy C; [destruct Hy|]. inversion ND; subst. destruct Hy as [<-|Hy]; [apply H1, in_or_app; auto|eapply IH; eassumption]. }
  assert (ND' : NoDup (concat g)) by (clear - ND; induction k as [|a k IH]; [exact ND|inversion ND; auto]).
  destruct H as [<-|H], H' as [<-|H']; [reflexivity| | |eapply IH; eassumption].
  - exfalso. apply (D x I). apply in_concat. exists l'. auto.
  - exfalso. apply (D x I'). apply in_concat. exists l. auto.
Qed.
Lemma nodup_concat_each : forall {A} (g : list (list A)) l, NoDup (concat g) -> In l g -> NoDup l.
Proof.
  induction g as [|k g IH]; intros l ND H; [destruct H|]. cbn [concat] in ND. destruct H as [<-|H].
  - clear - ND. induction k as [|a k IH]; [constructor|]. inversion ND; subst. constructor; [intros C; apply H1, in_or_app; auto|auto].
  - apply IH; [|exact H]. clear - ND. induction k as [|a k IH]; [exact ND|inversion ND; auto].
Qed.

Lemma combine_fst : forall {A B} (l : list A) (k : list B), length l = length k -> map fst (combine l k) = l.
Proof. induction l as [|u l IH]; intros [|v k] H; try discriminate H; [reflexivity|]. cbn. rewrite IH by (cbn in H; lia). reflexivity. Qed.
Lemma combine_snd : forall {A B} (l : list A) (k : list B), length l = length k -> map snd (combine l k) = k.
Proof. induction l as [|u l IH]; intros [|v k] H; try discriminate H; [reflexivity|]. cbn. rewrite IH by (cbn in H; lia). reflexivity. Qed.
Lemma cyclic_fst' : forall {A} (l : list A), map fst (cyclic_pairs l) = l.
Proof. intros A [|a t]; [reflexivity|]. apply combine_fst. rewrite app_length. cbn. lia. Qed.
Lemma cyclic_snd' : forall {A} (l : list A), map snd (cyclic_pairs l) = match l with [] => [] | a :: t => t ++ [a] end.
Proof. intros A [|a t]; [reflexivity|]. apply combine_snd. rewrite app_length. cbn. lia. Qed.
Lemma flat_cyclic_fst : forall {A} (lines : list (list A)), map fst (flat_map cyclic_pairs lines) = concat lines.
Proof. intros A. induction lines as [|l lines IH]; [reflexivity|]. cbn [flat_map concat]. rewrite map_app, cyclic_fst', IH. reflexivity. Qed.
Lemma flat_cyclic_snd : forall {A} (lines : list (list A)), Permutation (map snd (flat_map cyclic_pairs lines)) (concat lines).
Proof.
  intros A. induction lines as [|l lines IH]; [apply Permutation_refl|]. cbn [flat_map concat]. rewrite map_app, cyclic_snd'. apply Permutation_app; [|exact IH].
  destruct l as [|a t]; [apply Permutation_refl|]. apply Permutation_sym, Permutation_cons_append.
Qed.
Lemma cyclic_perm : forall {A} (l l' : list A), rotated l l' -> Permutation (cyclic_pairs l) (cyclic_pairs l').
Proof.
  intros A l l' (a & b & -> & ->). rewrite (cyclic_rotate a b). rewrite <- (firstn_skipn (length a) (cyclic_pairs (a ++ b))) at 1. apply Permutation_app_comm.
Qed.

(** Walking along a closed line. *)
Lemma along : forall {A} (Q : A * A -> Prop) l y0 y, (forall e f, In e (combine (y0 :: l) (l ++ [y])) -> In f (combine (y0 :: l) (l ++ [y])) -> snd e = fst f -> Q e -> Q f) ->
  Q (y0, match l with [] => y | x :: _ => x end) -> forall e, In e (combine (y0 :: l) (l ++ [y])) -> Q e.
Proof.
  intros A Q. induction l as [|x l IH]; intros y0 y ST B e He; cbn [app combine] in *.
  - destruct He as [<-|[]]. exact B.
  - destruct He as [<-|He]; [exact B|]. apply (IH x y); [|apply (ST (y0, x)); [left; reflexivity| |reflexivity|exact B]|exact He].
    + intros e' f H1 H2. apply ST; right; assumption.
    + right. destruct l as [|x' l]; left; reflexivity.
Qed.
Lemma along_cycle : forall {A} (Q : A * A -> Prop) l, (forall e f, In e (cyclic_pairs l) -> In f (cyclic_pairs l) -> snd e = fst f -> Q e -> Q f) ->
  forall e0, In e0 (cyclic_pairs l) -> Q e0 -> forall e, In e (cyclic_pairs l) -> Q e.
Proof.
  intros A Q l ST e0 H0 Q0 e He. apply In_nth_error in H0 as [i Hi]. assert (L : i < length l) by (rewrite <- cyclic_length; apply nth_error_Some; congruence).
  assert (RT : rotated l (skipn i l ++ firstn i l)) by (exists (firstn i l), (skipn i l); split; [symmetry; apply firstn_skipn|reflexivity]).
  pose proof (cyclic_in_iff _ _ RT) as IFF.
  destruct (skipn i l) as [|a t] eqn:ES. { pose proof (f_equal (@length A) ES) as K. rewrite skipn_length in K. cbn in K. lia. }
  cbn [app] in RT, IFF. set (t' := t ++ firstn i l) in *.
  assert (E0 : e0 = (a, match t' with [] => a | x :: _ => x end)).
  { assert (C : cyclic_pairs (skipn i l ++ firstn i l) = skipn i (cyclic_pairs l) ++ firstn i (cyclic_pairs l)).
    { pose proof (cyclic_rotate (firstn i l) (skipn i l)) as C. rewrite firstn_skipn, firstn_length, Nat.min_l in C by lia. exact C. }
    rewrite ES in C. cbn [app] in C. fold t' in C. destruct (skipn i (cyclic_pairs l)) as [|e1 r] eqn:EC.
    { pose proof (f_equal (@length _) EC) as K. rewrite skipn_length, cyclic_length in K. cbn in K. lia. }
    assert (e1 = e0). { rewrite <- (firstn_skipn i (cyclic_pairs l)), EC, nth_error_app2 in Hi by (rewrite firstn_length, cyclic_length; lia).
      rewrite firstn_length, cyclic_length, Nat.min_l, Nat.sub_diag in Hi by lia. injection Hi as ->. reflexivity. }
    subst e1. unfold cyclic_pairs in C. cbn [app] in C. destruct t' as [|x t'']; cbn [app combine] in C; injection C as C _; congruence. }
  apply (along Q t' a a).
  - intros e1 f H1 H2. apply ST; apply IFF; assumption.
  - rewrite <- E0. exact Q0.
  - change (In e (cyclic_pairs (a :: t'))). apply IFF. exact He.
Qed.

Section Groups.
  Variables (E C : list (nat * nat)) (lines : list (list nat)).
  Let es := E ++ C.
  Let idx := seq (length E) (length C).
  Hypothesis PC : Permutation C (flat_map cyclic_pairs lines).
  Hypothesis ND : NoDup (concat lines).

  Lemma closing_nodup : NoDup C.
  Proof.
    apply (Permutation_NoDup (Permutation_sym PC)). apply (NoDup_map_inv fst). rewrite flat_cyclic_fst. exact ND.
  Qed.
  Lemma idx_nth : forall k, In k idx -> exists e, nth_error es k = Some e /\ In e C /\ nth_error C (k - length E) = Some e.
  Proof.
    intros k H. unfold idx in H. apply in_seq in H. destruct (nth_error C (k - length E)) as [e|] eqn:N.
    - exists e. split; [unfold es; rewrite nth_error_app2 by lia; exact N|]. split; [apply nth_error_In in N; exact N|reflexivity].
    - apply nth_error_None in N. lia.
  Qed.
  Lemma closing_idx : forall e, In e C -> exists k, In k idx /\ nth_error es k = Some e.
  Proof.
    intros e H. apply In_nth_error in H as [i H]. exists (length E + i). split.
    - unfold idx. apply in_seq. assert (i < length C) by (apply nth_error_Some; congruence). lia.
    - unfold es. rewrite nth_error_app2 by lia. replace (length E + i - length E) with i by lia. exact H.
  Qed.
  Lemma on_line : forall e, In e C -> exists ns, In ns lines /\ In e (cyclic_pairs ns).
  Proof. intros e H. apply (Permutation_in _ PC) in H. apply in_flat_map in H. exact H. Qed.
  Lemma cyclic_nodes : forall (l : list nat) e, In e (cyclic_pairs l) -> In (fst e) l /\ In (snd e) l.
  Proof.
    intros l e H. split.
    - rewrite <- (cyclic_fst' l). apply in_map. exact H.
    - apply (in_map snd) in H. rewrite cyclic_snd' in H. destruct l as [|a t]; [destruct H|]. apply in_app_or in H as [H|[H|[]]]; [right; exact H|left; exact H].
  Qed.
  Lemma touch_same_line : forall e f ns, In ns lines -> In e (cyclic_pairs ns) -> In f C -> touch e f -> In f (cyclic_pairs ns).
  Proof.
    intros e f ns Hn He Hf T. destruct (on_line f Hf) as (ns' & Hn' & Hf'). apply cyclic_nodes in He as [A1 A2]. pose proof (cyclic_nodes _ _ Hf') as [B1 B2].
    assert (ns = ns'); [|subst; exact Hf'].
    destruct T as [T|[T|[T|T]]]; [apply (nodup_concat_same lines _ _ (fst e))|apply (nodup_concat_same lines _ _ (fst e))|apply (nodup_concat_same lines _ _ (snd e))|apply (nodup_concat_same lines _ _ (snd e))];
      try assumption; rewrite T; assumption.
  Qed.
  Lemma linked_line : forall i j ns e, In ns lines -> nth_error es i = Some e -> In e (cyclic_pairs ns) -> linked es idx i j -> exists f, nth_error es j = Some f /\ In f (cyclic_pairs ns).
  Proof.
    intros i j ns e Hn Hi He L. induction L as [i Hi'|i j k e' f L IH Hk Hj Hk' T].
    - exists e. auto.
    - destruct (IH Hi) as (g & G1 & G2). rewrite Hj in G1. injection G1 as <-. exists f. split; [exact Hk'|].
      destruct (idx_nth k Hk) as (f' & F1 & F2 & _). rewrite Hk' in F1. injection F1 as <-. apply (touch_same_line e'); assumption.
  Qed.
  Lemma line_linked : forall i ns e, In ns lines -> In i idx -> nth_error es i = Some e -> In e (cyclic_pairs ns) ->
    forall f, In f (cyclic_pairs ns) -> forall j, In j idx -> nth_error es j = Some f -> linked es idx i j.
  Proof.
    intros i ns e Hn Hi Ei He. assert (IC : forall f, In f (cyclic_pairs ns) -> In f C).
    { intros f Hf. apply (Permutation_in _ (Permutation_sym PC)). apply in_flat_map. exists ns. auto. }
    apply (along_cycle (fun f => forall j, In j idx -> nth_error es j = Some f -> linked es idx i j) ns) with (e0 := e); [|exact He|].
    - intros g f Hg Hf T Qg j Hj Ej. destruct (closing_idx g (IC g Hg)) as (k & Hk & Ek). apply (linked_step _ _ i k j g f); [apply Qg; assumption|exact Hj|exact Ek|exact Ej|].
      right. right. left. exact T.
    - intros j Hj Ej. assert (i = j); [|subst; apply linked_refl; exact Hj].
      destruct (idx_nth i Hi) as (e1 & _ & _ & N1). destruct (idx_nth j Hj) as (e2 & E2 & _ & N2). destruct (idx_nth i Hi) as (e1' & E1 & _ & N1').
      assert (e1' = e) by congruence. assert (e2 = e) by congruence. subst e1' e2. unfold idx in Hi, Hj. apply in_seq in Hi. apply in_seq in Hj.
      assert (i - length E = j - length E); [|lia]. apply (proj1 (NoDup_nth_error C) closing_nodup); [lia|congruence].
  Qed.

  (** The groups are the lines. *)
  Lemma groups_lines : C <> [] -> exists g, group_connected_edges es idx = Ok g /\ Permutation (concat g) idx /\
    forall l, In l g -> (forall i, In i l -> In i idx) /\ exists ns, In ns lines /\ Permutation (chosen_edges es l) (cyclic_pairs ns).
  Proof.
    intros NC. assert (NI : idx <> []) by (unfold idx; destruct C; [congruence|discriminate]).
    destruct (groups_are_connected_components es idx) as (g & EG & PG & NG & LG).
    - unfold es. destruct C; [congruence|]. destruct E; discriminate.
    - apply seq_NoDup.
    - intros i Hi. unfold idx in Hi. apply in_seq in Hi. unfold es. rewrite app_length. lia.
    - cbv zeta in PG, LG. fold idx in EG. assert (RI : match idx with [] => seq 0 (length es) | _ => idx end = idx) by (destruct idx; [congruence|reflexivity]).
      rewrite RI in PG, LG. exists g. split; [exact EG|]. split; [exact PG|]. intros l Hl.
      assert (NDG : NoDup (concat g)) by (apply (Permutation_NoDup (Permutation_sym PG)), seq_NoDup).
      assert (IL : forall i, In i l -> In i idx) by (intros i Hi; apply (Permutation_in _ PG), in_concat; exists l; auto). split; [exact IL|].
      destruct l as [|i0 l0] eqn:EL; [exfalso; exact (NG [] Hl eq_refl)|]. rewrite <- EL in *. assert (H0 : In i0 l) by (rewrite EL; left; reflexivity). clear EL.
      destruct (idx_nth i0 (IL i0 H0)) as (e0 & E0 & C0 & _). destruct (on_line e0 C0) as (ns & Hn & He0). exists ns. split; [exact Hn|].
      assert (ML : forall j, In j idx -> (In j l <-> linked es idx i0 j)).
      { intros j Hj. split.
        - intros Hjl. apply (LG i0 j (IL i0 H0) Hj). exists l. auto.
        - intros Lk. apply (LG i0 j (IL i0 H0) Hj) in Lk as (l' & Hl' & A & B). assert (l = l') by (apply (nodup_concat_same g _ _ i0); assumption). subst. exact B. }
      assert (NCH : forall i e, nth_error es i = Some e -> nth i es (0, 0) = e) by (intros i e H; apply nth_error_nth; exact H).
      apply NoDup_Permutation.
      + unfold chosen_edges. assert (NDl : NoDup l) by (apply (nodup_concat_each g); assumption).
        assert (INJ : forall i j, In i l -> In j l -> nth i es (0, 0) = nth j es (0, 0) -> i = j).
        { intros i j Hi Hj EQ. destruct (idx_nth i (IL i Hi)) as (e & A1 & A2 & A3). destruct (idx_nth j (IL j Hj)) as (f & B1 & B2 & B3).
          rewrite (NCH _ _ A1), (NCH _ _ B1) in EQ. subst f. pose proof (IL i Hi) as Q1. pose proof (IL j Hj) as Q2. unfold idx in Q1, Q2. apply in_seq in Q1. apply in_seq in Q2.
          assert (i - length E = j - length E); [|lia]. apply (proj1 (NoDup_nth_error C) closing_nodup); [lia|congruence]. }
        clear - NDl INJ. induction l as [|a l IH]; [constructor|]. inversion NDl; subst. cbn [map]. constructor.
        * intros H. apply in_map_iff in H as (b & Eb & Hb). assert (b = a) by (apply INJ; [right; exact Hb|left; reflexivity|exact Eb]). subst. contradiction.
        * apply IH; [assumption|]. intros i j Hi Hj. apply INJ; right; assumption.
      + apply (NoDup_map_inv fst). rewrite cyclic_fst'. apply (nodup_concat_each lines); assumption.
      + intros e. unfold chosen_edges. rewrite in_map_iff. split.
        * intros (j & <- & Hj). pose proof (proj1 (ML j (IL j Hj)) Hj) as Lk. destruct (linked_line i0 j ns e0 Hn E0 He0 Lk) as (f & F1 & F2). rewrite (NCH _ _ F1). exact F2.
        * intros He. assert (IC : In e C) by (apply (Permutation_in _ (Permutation_sym PC)), in_flat_map; exists ns; auto).
          destruct (closing_idx e IC) as (j & Hj & Ej). exists j. split; [apply NCH; exact Ej|]. apply (ML j Hj). apply (line_linked i0 ns e0 Hn (IL i0 H0) E0 He0 e He j Hj Ej).
  Qed.
End Groups.
