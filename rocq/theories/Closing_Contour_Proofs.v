(** Proofs about the contour of a closed line of edges. *)
From Coq Require Import Reals List Bool Arith Lia Permutation FinFun.
From Verif Require Import Common Geometry Sim_Model Mesh_Model Mesh_Spec Closing_Model Closing_Spec Closing_Graph_Proofs.
Import ListNotations.
Open Scope nat_scope.

(** ** Cyclic lists *)
Definition swapn (e : nat * nat) : nat * nat := (snd e, fst e).
Lemma cyclic_length : forall {A} (l : list A), length (cyclic_pairs l) = length l.
Proof. intros A [|a t]; [reflexivity|]. unfold cyclic_pairs. rewrite combine_length, app_length. cbn [length]. lia. Qed.
Lemma combine_app' : forall {A B} (l1 l2 : list A) (k1 k2 : list B), length l1 = length k1 -> combine (l1 ++ l2) (k1 ++ k2) = combine l1 k1 ++ combine l2 k2.
Proof. intros A B l1. induction l1 as [|a l1 IH]; intros l2 [|b k1] k2 H; try discriminate H; [reflexivity|]. cbn. rewrite IH by (cbn in H; lia). reflexivity. Qed.
Lemma combine_rev' : forall {A B} (l : list A) (k : list B), length l = length k -> combine (rev l) (rev k) = rev (combine l k).
Proof.
  intros A B l. induction l as [|a l IH]; intros [|b k] H; try discriminate H; [reflexivity|]. cbn [rev combine]. rewrite combine_app' by (rewrite !rev_length; cbn in H; lia).
  rewrite IH by (cbn in H; lia). reflexivity.
Qed.
Lemma combine_swap : forall {A} (l k : list A), map (fun e => (snd e, fst e)) (combine l k) = combine k l.
Proof. intros A l. induction l as [|a l IH]; intros [|b k]; try reflexivity. cbn. rewrite IH. reflexivity. Qed.
Lemma cyclic_rotate1 : forall {A} (a b : A) t, cyclic_pairs (b :: t ++ [a]) = combine (b :: t) (t ++ [a]) ++ [(a, b)] /\ cyclic_pairs (a :: b :: t) = (a, b) :: combine (b :: t) (t ++ [a]).
Proof.
  intros A a b t. split; [|reflexivity]. unfold cyclic_pairs.
  change (b :: t ++ [a]) with ((b :: t) ++ [a]). rewrite combine_app' by (rewrite app_length; cbn; lia). reflexivity.
Qed.
Lemma cyclic_rev : forall {A} (a : A) t, cyclic_pairs (a :: rev t) = rev (map (fun e => (snd e, fst e)) (cyclic_pairs (a :: t))).
Proof.
  intros A a t. unfold cyclic_pairs. rewrite combine_swap, <- combine_rev' by (rewrite app_length; cbn; lia). rewrite rev_app_distr. reflexivity.
Qed.
Lemma cyclic_nth : forall (l : list nat) j x y, nth_error (cyclic_pairs l) j = Some (x, y) ->
  nth_error l j = Some x /\ nth_error l (if S j =? length l then 0 else S j) = Some y.
Proof.
  intros [|a t] j x y H; [destruct j; discriminate H|]. unfold cyclic_pairs in H.
  assert (G : forall (l k : list nat) j x y, nth_error (combine l k) j = Some (x, y) -> nth_error l j = Some x /\ nth_error k j = Some y).
  { clear. induction l as [|u l IH]; intros [|v k] [|j] x y H; try discriminate H; [injection H as -> ->; auto|]. cbn [nth_error combine] in *. apply IH. exact H. }
  destruct (G _ _ _ _ _ H) as [H1 H2]. split; [exact H1|]. assert (L : j < length (a :: t)) by (apply nth_error_Some; congruence). cbn [length] in *.
  destruct (S j =? S (length t)) eqn:E.
  - apply Nat.eqb_eq in E. injection E as ->. rewrite nth_error_app2, Nat.sub_diag in H2 by lia. exact H2.
  - apply Nat.eqb_neq in E. rewrite nth_error_app1 in H2 by lia. exact H2.
Qed.
Lemma cyclic_no_back : forall (l : list nat) x y, 3 <= length l -> NoDup l -> In (x, y) (cyclic_pairs l) -> In (y, x) (cyclic_pairs l) -> False.
Proof.
  intros l x y L D H H'. apply In_nth_error in H as [i H]. apply In_nth_error in H' as [j H']. apply cyclic_nth in H as [A B]. apply cyclic_nth in H' as [C E].
  assert (K : forall i j (z : nat), nth_error l i = Some z -> nth_error l j = Some z -> i = j).
  { intros u v z U V. apply (NoDup_nth_error l); [exact D|apply nth_error_Some; congruence|congruence]. }
  pose proof (K _ _ _ A E) as E1. pose proof (K _ _ _ B C) as E2. assert (i < length l) by (apply nth_error_Some; congruence). assert (j < length l) by (apply nth_error_Some; congruence).
  destruct (Nat.eqb_spec (S i) (length l)); destruct (Nat.eqb_spec (S j) (length l)); lia.
Qed.
Lemma cyclic_distinct : forall (l : list nat) x y, 2 <= length l -> NoDup l -> In (x, y) (cyclic_pairs l) -> x <> y.
Proof.
  intros l x y L D H E. subst y. apply In_nth_error in H as [i H]. apply cyclic_nth in H as [A B].
  assert (i = (if S i =? length l then 0 else S i)). { apply (NoDup_nth_error l); [exact D|apply nth_error_Some; congruence|congruence]. }
  assert (i < length l) by (apply nth_error_Some; congruence). destruct (Nat.eqb_spec (S i) (length l)); lia.
Qed.
Lemma cyclic_fst : forall (l : list nat), map fst (cyclic_pairs l) = l.
Proof.
  intros [|a t]; [reflexivity|]. unfold cyclic_pairs. assert (G : forall (l k : list nat), length l = length k -> map fst (combine l k) = l).
  { induction l as [|u l IH]; intros [|v k] H; try discriminate H; [reflexivity|]. cbn. rewrite IH by (cbn in H; lia). reflexivity. }
  apply G. rewrite app_length. cbn. lia.
Qed.
Lemma cyclic_snd : forall (l : list nat), NoDup l -> NoDup (map snd (cyclic_pairs l)).
Proof.
  intros [|a t] D; [constructor|]. unfold cyclic_pairs. assert (G : forall (l k : list nat), length l = length k -> map snd (combine l k) = k).
  { induction l as [|u l IH]; intros [|v k] H; try discriminate H; [reflexivity|]. cbn. rewrite IH by (cbn in H; lia). reflexivity. }
  rewrite G by (rewrite app_length; cbn; lia). inversion D; subst. apply NoDup_rev in H2. rewrite <- (rev_involutive (t ++ [a])), rev_app_distr. apply NoDup_rev.
  cbn. constructor; [rewrite <- in_rev; assumption|assumption].
Qed.
Lemma NoDup_map_inj : forall {A B} (f : A -> B) l x y, NoDup (map f l) -> In x l -> In y l -> f x = f y -> x = y.
Proof.
  intros A B f l. induction l as [|a l IH]; intros x y D Hx Hy E; [destruct Hx|]. cbn in D. inversion D as [|? ? N D']; subst.
  destruct Hx as [<-|Hx]; destruct Hy as [<-|Hy]; [reflexivity| | |apply IH; assumption].
  - exfalso. apply N. rewrite E. apply in_map. exact Hy.
  - exfalso. apply N. rewrite <- E. apply in_map. exact Hx.
Qed.

(** ** Rings: the edges with their numbers, in the order of the line *)
Definition oriented (es : edge_list) (o : nat * bool) : option (nat * nat) :=
  match nth_error es (fst o) with Some e => Some (if snd o then swapn e else e) | None => None end.
Record ring (es : edge_list) (k : contour) (ns : list nat) : Prop := {
  rg_three : 3 <= length ns;
  rg_nodup : NoDup ns;
  rg_perm : Permutation (map fst k) (seq 0 (length es));
  rg_ends : map (oriented es) k = map Some (cyclic_pairs ns) }.
Definition flipb (er : nat * bool) : nat * bool := (fst er, negb (snd er)).
Lemma oriented_flip : forall es er e, oriented es er = Some e -> oriented es (flipb er) = Some (swapn e).
Proof. intros es [i r] e H. unfold oriented, flipb in *. cbn [fst snd] in *. destruct (nth_error es i) as [[a b]|]; [|discriminate H]. injection H as <-. destruct r; reflexivity. Qed.
Lemma ring_flip : forall es k a t, ring es k (a :: t) -> ring es (flip_contour k) (a :: rev t).
Proof.
  intros es k a t [L D P E]. constructor.
  - cbn [length] in *. rewrite rev_length. exact L.
  - inversion D; subst. constructor; [rewrite <- in_rev; assumption|apply NoDup_rev; assumption].
  - unfold flip_contour. rewrite map_rev, map_map. cbn [fst]. apply (Permutation_trans (Permutation_sym (Permutation_rev _))). exact P.
  - unfold flip_contour. rewrite map_rev, cyclic_rev, map_rev. f_equal. rewrite map_map.
    clear - E. revert E. generalize (cyclic_pairs (a :: t)). induction k as [|er k IH]; intros [|p l] H; try discriminate H; [reflexivity|].
    cbn [map] in *. injection H as H1 H2. f_equal; [|apply IH; exact H2]. apply (oriented_flip es er p H1).
Qed.
Lemma ring_length : forall es k ns, ring es k ns -> length k = length ns /\ length es = length ns.
Proof.
  intros es k ns [L D P E]. apply (f_equal (@length _)) in E. rewrite !map_length, cyclic_length in E. apply Permutation_length in P. rewrite map_length, seq_length in P. lia.
Qed.
Lemma cyclic_step : forall {A} (a : A) t, cyclic_pairs (t ++ [a]) = tl (cyclic_pairs (a :: t)) ++ firstn 1 (cyclic_pairs (a :: t)).
Proof. intros A a [|b t]; [reflexivity|]. destruct (cyclic_rotate1 a b t) as [E1 E2]. cbn [app]. rewrite E1, E2. reflexivity. Qed.
Lemma cyclic_rotate : forall {A} (a b : list A), cyclic_pairs (b ++ a) = skipn (length a) (cyclic_pairs (a ++ b)) ++ firstn (length a) (cyclic_pairs (a ++ b)).
Proof.
  intros A a. induction a as [|x a IH]; intros b; [cbn [length skipn firstn app]; rewrite !app_nil_r; reflexivity|].
  replace (b ++ x :: a) with ((b ++ [x]) ++ a) by (rewrite <- app_assoc; reflexivity). rewrite IH, app_assoc, cyclic_step. cbn [app].
  pose proof (cyclic_length (x :: a ++ b)) as L. destruct (cyclic_pairs (x :: a ++ b)) as [|h P]; [discriminate L|]. cbn [tl firstn length skipn] in *.
  rewrite app_length in L. rewrite skipn_app, firstn_app. replace (length a - length P) with 0 by lia. cbn [skipn firstn]. rewrite app_nil_r, <- app_assoc. reflexivity.
Qed.
Lemma ring_rotate : forall es k1 k2 ns, ring es (k1 ++ k2) ns -> exists a b, ns = a ++ b /\ ring es (k2 ++ k1) (b ++ a).
Proof.
  intros es k1 k2 ns R. destruct (ring_length _ _ _ R) as [L1 L2]. destruct R as [L D P E]. rewrite app_length in L1.
  exists (firstn (length k1) ns), (skipn (length k1) ns). assert (N : ns = firstn (length k1) ns ++ skipn (length k1) ns) by (symmetry; apply firstn_skipn).
  assert (LF : length (firstn (length k1) ns) = length k1) by (rewrite firstn_length; lia).
  split; [exact N|]. set (a := firstn (length k1) ns) in *. set (b := skipn (length k1) ns) in *. constructor.
  - rewrite N, app_length in L. rewrite app_length. lia.
  - apply (Permutation_NoDup (l := ns)); [rewrite N at 1; apply Permutation_app_comm|exact D].
  - rewrite map_app in *. apply (Permutation_trans (Permutation_app_comm _ _)). exact P.
  - rewrite cyclic_rotate, <- N, LF, !map_app, <- firstn_map, <- skipn_map, <- E, map_app.
    rewrite skipn_app, firstn_app, !map_length, Nat.sub_diag. rewrite skipn_all2, firstn_all2 by (rewrite map_length; lia). cbn [skipn firstn app]. rewrite app_nil_r. reflexivity.
Qed.
(** Every closed line is a ring that starts from any of its edges, in the direction of that edge. *)
Lemma closed_line_ring : forall es ns, closed_line es ns -> exists k, ring es k ns.
Proof.
  intros es ns (L & D & es' & P & F). apply Permutation_nth_error in P as (LE & f & INJ & N).
  assert (LN : length es' = length ns). { clear - F. rewrite <- (cyclic_length ns). induction F; cbn; congruence. }
  set (flag := fun j => match nth_error es (f j), nth_error (cyclic_pairs ns) j with Some e, Some p => negb ((fst e =? fst p) && (snd e =? snd p)) | _, _ => false end).
  exists (map (fun j => (f j, flag j)) (seq 0 (length ns))). constructor; [exact L|exact D| |].
  - rewrite map_map. cbn [fst]. apply NoDup_Permutation_bis.
    + apply Injective_map_NoDup; [exact INJ|apply seq_NoDup].
    + rewrite map_length, !seq_length. lia.
    + intros i H. apply in_map_iff in H as (j & <- & H). apply in_seq in H. apply in_seq. split; [lia|]. cbn. apply nth_error_Some. rewrite <- N. apply nth_error_Some. lia.
  - rewrite map_map. apply (nth_ext _ _ None None); [rewrite !map_length, seq_length, cyclic_length; reflexivity|]. intros j Hj. rewrite map_length, seq_length in Hj.
    set (g := fun j => oriented es (f j, flag j)). rewrite (nth_indep (map g (seq 0 (length ns))) None (g 0)) by (rewrite map_length, seq_length; exact Hj). rewrite map_nth, seq_nth by exact Hj. cbn [Nat.add].
    destruct (nth_error (cyclic_pairs ns) j) as [p|] eqn:EP; [|apply nth_error_None in EP; rewrite cyclic_length in EP; lia].
    rewrite (nth_indep _ None (Some p)) by (rewrite map_length, cyclic_length; exact Hj). rewrite map_nth, (nth_error_nth _ _ p EP).
    destruct (nth_error es' j) as [e|] eqn:EE; [|apply nth_error_None in EE; lia].
    assert (SE : same_edge e p). { clear - F EE EP. revert j EE EP. induction F as [|x y l k H F IH]; intros [|j] A B; try discriminate A; [injection A as <-; injection B as <-; exact H|apply (IH j); assumption]. }
    rewrite N in EE. unfold g, oriented, flag. cbn [fst snd]. rewrite EP, EE. destruct e as [a b]. destruct p as [c d]. unfold swapn. cbn [fst snd].
    destruct SE as [SE|SE]; cbn [fst snd] in SE; injection SE as -> ->.
    + rewrite !Nat.eqb_refl. reflexivity.
    + destruct (Nat.eqb_spec d c); [subst; rewrite Nat.eqb_refl; reflexivity|reflexivity].
Qed.
Lemma rotated_trans : forall {A} (l l' l'' : list A), rotated l l' -> rotated l' l'' -> rotated l l''.
Proof.
  intros A l l' l'' (a & b & -> & ->) (c & d & E & ->). apply app_eq_app in E as (e & [[-> ->]|[-> ->]]).
  - exists (a ++ c), e. rewrite <- !app_assoc. auto.
  - exists e, (d ++ b). rewrite <- !app_assoc. auto.
Qed.
Lemma rotated_rev : forall {A} (l l' : list A), rotated l l' -> rotated (rev l) (rev l').
Proof. intros A l l' (a & b & -> & ->). exists (rev b), (rev a). rewrite !rev_app_distr. auto. Qed.
Lemma rotated_refl : forall {A} (l : list A), rotated l l.
Proof. intros A l. exists [], l. rewrite app_nil_r. auto. Qed.
Lemma rotated_rev_cons : forall {A} (a : A) t, rotated (rev (a :: t)) (a :: rev t).
Proof. intros A a t. exists (rev t), [a]. auto. Qed.
Lemma same_polygon_rotated : forall {A} (l l' l'' : list A), same_polygon l l' -> rotated l' l'' -> same_polygon l l''.
Proof. intros A l l' l'' [H|H] R; [left|right]; eapply rotated_trans; eassumption. Qed.
Lemma same_polygon_rev : forall {A} (l l' : list A), same_polygon l l' -> same_polygon l (rev l').
Proof. intros A l l' [H|H]; [right|left]; apply rotated_rev in H; [exact H|rewrite rev_involutive in H; exact H]. Qed.
Lemma ring_from : forall es ns e, closed_line es ns -> e < length es -> exists k ns', same_polygon ns ns' /\ ring es ((e, false) :: k) ns'.
Proof.
  intros es ns e C H. destruct (closed_line_ring es ns C) as [k R]. assert (I : In e (map fst k)). { apply (Permutation_in e (Permutation_sym (rg_perm _ _ _ R))). apply in_seq. lia. }
  apply in_map_iff in I as ([e' r] & E & I). cbn in E. subst e'. apply in_split in I as (k1 & k2 & ->). destruct (ring_rotate _ _ _ _ R) as (a & b & N & R').
  assert (RO : same_polygon ns (b ++ a)) by (left; exists a, b; auto).
  destruct r.
  - cbn [app] in R'. destruct (ring_length _ _ _ R') as [L _]. destruct (b ++ a) as [|n t]; [discriminate L|]. apply ring_flip in R'. unfold flip_contour in R'. cbn [map rev flipb fst snd negb] in R'.
    destruct (ring_rotate _ _ _ _ R') as (a' & b' & N' & R''). cbn [app] in R''. eexists _, (b' ++ a'). split; [|exact R''].
    apply (same_polygon_rotated _ (n :: rev t)); [|exists a', b'; auto]. apply (same_polygon_rotated _ (rev (n :: t))); [apply same_polygon_rev; exact RO|apply rotated_rev_cons].
  - cbn [app] in R'. exists (k2 ++ k1), (b ++ a). split; [exact RO|exact R'].
Qed.
