(** C98: the edges lying on the free surface are grouped by connected components. *)
From Coq Require Import Reals List Bool Arith Lia Permutation.
From Verif Require Import Common Geometry Mesh_Model Mesh_Spec Closing_Model Closing_Spec Closing_Graph_Proofs.
Import ListNotations.
Open Scope nat_scope.

Lemma max_fold : forall l a, a <= fold_left Nat.max l a /\ forall x, In x l -> x <= fold_left Nat.max l a.
Proof.
  induction l as [|y l IH]; intros a; cbn [fold_left]; [split; [lia|intros x []]|]. destruct (IH (Nat.max a y)) as [A B].
  split; [lia|]. intros x [<-|H]; [lia|apply B; exact H].
Qed.
Definition comp_at (comp : list nat) (n : nat) : nat := nth n comp 0.
Lemma nth_map_seq : forall (f : nat -> nat) n i, i < n -> nth i (map f (seq 0 n)) 0 = f i.
Proof. intros f n i H. rewrite (nth_indep _ 0 (f 0)) by (rewrite map_length, seq_length; exact H). rewrite map_nth, seq_nth by exact H. reflexivity. Qed.
Lemma components_spec : forall es, es <> [] -> exists nb comp, get_connected_components es = Ok (nb, comp) /\
  (forall e, In e es -> fst e < length comp /\ snd e < length comp) /\
  (forall n, n < length comp -> comp_at comp n < nb) /\
  (forall e, In e es -> comp_at comp (fst e) = comp_at comp (snd e)) /\
  (forall k, k < nb -> exists e, In e es /\ comp_at comp (fst e) = k) /\
  (forall i j e f, nth_error es i = Some e -> nth_error es j = Some f -> (comp_at comp (fst e) = comp_at comp (fst f) <-> linked es (seq 0 (length es)) i j)).
Proof.
  intros es NE. unfold get_connected_components. set (nodes := extract_nodes es). destruct (extract_nodes_spec es) as [ND NI]. fold nodes in ND, NI.
  set (R := map (fun e : nat * nat => (rank (fst e) nodes, rank (snd e) nodes)) es).
  assert (IN : forall e, In e es -> In (fst e) nodes /\ In (snd e) nodes) by (intros e H; split; apply NI; exists e; auto).
  assert (W : within (length nodes) R). { intros r H. apply in_map_iff in H as (e & <- & H). destruct (IN e H). cbn. split; apply rank_lt; assumption. }
  pose proof (boost_spec (length nodes) R W) as BS. destruct (boost_components (length nodes) R) as [nb bc]. destruct BS as (L & B & I & SJ).
  set (mx := fold_left Nat.max nodes 0). set (comp := map (fun x => if mem x nodes then nth (rank x nodes) bc 0 else 0) (seq 0 (S mx))).
  assert (LT : forall x, In x nodes -> x < S mx). { intros x H. pose proof (proj2 (max_fold nodes 0) x H). unfold mx. lia. }
  assert (C : forall x, In x nodes -> comp_at comp x = nth (rank x nodes) bc 0).
  { intros x H. unfold comp_at, comp. rewrite nth_map_seq by (apply LT; exact H). apply mem_In in H. rewrite H. reflexivity. }
  assert (LC : length comp = S mx) by (unfold comp; rewrite map_length, seq_length; reflexivity).
  exists nb, comp. split; [destruct es; [congruence|reflexivity]|].
  split; [intros e H; destruct (IN e H); rewrite LC; split; apply LT; assumption|].
  split. { intros n H. unfold comp_at, comp. rewrite LC in H. rewrite nth_map_seq by exact H. destruct (mem n nodes) eqn:M.
    - apply mem_In in M. apply B, rank_lt, M.
    - destruct es as [|e es']; [congruence|]. destruct (IN e (or_introl eq_refl)) as [H1 _]. pose proof (B _ (rank_lt _ _ H1)). lia. }
  assert (AD : forall e, In e es -> comp_at comp (fst e) = comp_at comp (snd e)).
  { intros e H. destruct (IN e H) as [H1 H2]. rewrite !C by assumption. apply I; try (apply rank_lt; assumption).
    apply (j_edge _ _ _ (rank (fst e) nodes)); [apply j_refl, rank_lt, H1|]. left. unfold R. apply in_map_iff. exists e. auto. }
  split; [exact AD|]. split.
  { intros k H. destruct (SJ k H) as (u & Hu & E). destruct (nth_error nodes u) as [x|] eqn:EX; [|apply nth_error_None in EX; lia].
    pose proof (nth_error_In _ _ EX) as XI. pose proof XI as XI'. apply NI in XI' as (e & He & D). exists e. split; [exact He|].
    assert (CX : comp_at comp x = k). { rewrite C by exact XI. rewrite (rank_of_nth nodes u x ND EX). exact E. }
    destruct D as [<-|<-]; [exact CX|]. rewrite (AD e He). exact CX. }
  intros i j e f Hi Hj. pose proof (nth_error_In _ _ Hi) as Ie. pose proof (nth_error_In _ _ Hj) as If. destruct (IN e Ie) as [E1 E2]. destruct (IN f If) as [F1 F2].
  assert (IS : forall k (g : nat * nat), nth_error es k = Some g -> In k (seq 0 (length es))). { intros k g H. apply in_seq. split; [lia|]. cbn. apply nth_error_Some. congruence. }
  rewrite !C by assumption. rewrite (I _ _ (rank_lt _ _ E1) (rank_lt _ _ F1)). split.
  - intros J. assert (G : forall u v, joined (length nodes) R u v -> u = rank (fst e) nodes ->
      forall k g, nth_error es k = Some g -> rank (fst g) nodes = v \/ rank (snd g) nodes = v -> linked es (seq 0 (length es)) i k).
    { clear J. intros u v J U. induction J as [u Hu|u v w J IH H]; intros k g Hk Hv.
      - subst u. apply (linked_step _ _ i i k e g); [apply linked_refl; eapply IS; exact Hi|eapply IS; exact Hk|exact Hi|exact Hk|].
        destruct (IN g (nth_error_In _ _ Hk)). unfold touch. destruct Hv as [Hv|Hv]; apply rank_inj in Hv; auto.
      - specialize (IH U). assert (X : exists h, In h es /\ ((rank (fst h) nodes = v /\ rank (snd h) nodes = w) \/ (rank (fst h) nodes = w /\ rank (snd h) nodes = v))).
        { destruct H as [H|H]; apply in_map_iff in H as (h & E & H); injection E as A1 A2; exists h; tauto. }
        destruct X as (h & Hh & X). destruct (In_nth_error _ _ Hh) as [q Hq]. assert (LQ : linked es (seq 0 (length es)) i q) by (eapply IH; [exact Hq|tauto]).
        apply (linked_step _ _ i q k h g LQ); [eapply IS; exact Hk|exact Hq|exact Hk|].
        destruct (IN g (nth_error_In _ _ Hk)). destruct (IN h Hh). unfold touch.
        destruct Hv as [Hv|Hv]; destruct X as [[X1 X2]|[X1 X2]].
        + rewrite <- X2 in Hv. apply rank_inj in Hv; auto.
        + rewrite <- X1 in Hv. apply rank_inj in Hv; auto.
        + rewrite <- X2 in Hv. apply rank_inj in Hv; auto.
        + rewrite <- X1 in Hv. apply rank_inj in Hv; auto. }
    apply (G _ _ J eq_refl j f Hj). auto.
  - intros LK. assert (G : forall g, nth_error es j = Some g -> joined (length nodes) R (rank (fst e) nodes) (rank (fst g) nodes) /\ joined (length nodes) R (rank (fst e) nodes) (rank (snd g) nodes)).
    { clear f Hj If F1 F2. induction LK as [i Hin|i j k e' f' LK IH Hk Hj Hk' T].
      - intros g Hg. rewrite Hi in Hg. injection Hg as <-. split; [apply j_refl, rank_lt, E1|]. apply (j_edge _ _ _ (rank (fst e) nodes)); [apply j_refl, rank_lt, E1|].
        left. unfold R. apply in_map_iff. exists e. auto.
      - intros g Hg. rewrite Hk' in Hg. injection Hg as <-. destruct (IH Hi e' Hj) as [J1 J2].
        assert (R' : In (rank (fst f') nodes, rank (snd f') nodes) R). { unfold R. apply in_map_iff. exists f'. split; [reflexivity|]. eapply nth_error_In; exact Hk'. }
        destruct T as [T|[T|[T|T]]]; rewrite T in *.
        + split; [exact J1|eapply j_edge; [exact J1|auto]].
        + split; [eapply j_edge; [exact J1|auto]|exact J1].
        + split; [exact J2|eapply j_edge; [exact J2|auto]].
        + split; [eapply j_edge; [exact J2|auto]|exact J2]. }
    apply G. exact Hj.
Qed.

(** The sets of edges *)
Lemma update_at_spec : forall {A} (l : list A) i f, i < length l -> exists l', update_at l i f = Ok l' /\ length l' = length l /\
  forall k d, nth k l' d = if k =? i then (if k <? length l then f (nth k l d) else d) else nth k l d.
Proof.
  intros A l. induction l as [|a l IH]; intros i f H; [cbn in H; lia|]. destruct i as [|i]; cbn [update_at].
  - exists (f a :: l). split; [reflexivity|]. split; [reflexivity|]. intros [|k] d; reflexivity.
  - cbn in H. destruct (IH i f) as (l' & E & L & N); [lia|]. rewrite E. cbn [bindO]. exists (a :: l'). split; [reflexivity|]. split; [cbn; congruence|].
    intros [|k] d; [reflexivity|]. cbn [nth]. rewrite N. cbn [Nat.eqb]. destruct (k =? i); [|reflexivity]. cbn [length]. destruct (k <? length l) eqn:Q.
    + apply Nat.ltb_lt in Q. destruct (S k <? S (length l)) eqn:Q'; [reflexivity|]. apply Nat.ltb_ge in Q'. lia.
    + apply Nat.ltb_ge in Q. destruct (S k <? S (length l)) eqn:Q'; [|reflexivity]. apply Nat.ltb_lt in Q'. lia.
Qed.
Lemma per_component_spec : forall es nb comp, (forall n, n < length comp -> comp_at comp n < nb) ->
  exists g, get_edges_per_component (nb, comp) es = Ok g /\ length g = nb /\
  forall k, k < nb -> increasing (nth k g []) /\ forall i, In i (nth k g []) <-> exists n, n < length comp /\ comp_at comp n = k /\ In i (edges_of n es).
Proof.
  intros es nb comp B. unfold get_edges_per_component. cbn [fst snd].
  set (F := fun facets n => do f <- at_ub comp n; update_at facets f (fun s => fold_left (fun s i => set_insert i s) (match nm_find n (node_to_connected_edges es) with Some l => l | None => [] end) s)).
  assert (G : forall l g0, (forall n, In n l -> n < length comp) -> length g0 = nb -> (forall k, k < nb -> increasing (nth k g0 [])) ->
    exists g, foldO F l g0 = Ok g /\ length g = nb /\ forall k, k < nb -> increasing (nth k g []) /\
      forall i, In i (nth k g []) <-> In i (nth k g0 []) \/ exists n, In n l /\ comp_at comp n = k /\ In i (edges_of n es)).
  { induction l as [|n l IH]; intros g0 Hl L S0; cbn [foldO].
    - exists g0. split; [reflexivity|]. split; [exact L|]. intros k Hk. split; [apply S0; exact Hk|]. intros i. split; [auto|]. intros [H|(n & [] & _)]. exact H.
    - assert (Hn : n < length comp) by (apply Hl; left; reflexivity). 
      assert (EF : F g0 n = update_at g0 (comp_at comp n) (fun s => fold_left (fun s i => set_insert i s) (edges_of n es) s)).
      { unfold F, at_ub. rewrite (nth_error_nth' comp 0 Hn). cbn [bindO]. fold (looked n (node_to_connected_edges es)). rewrite looked_spec. reflexivity. }
      destruct (update_at_spec g0 (comp_at comp n) (fun s => fold_left (fun s i => set_insert i s) (edges_of n es) s)) as (g1 & E & L1 & N1); [rewrite L; apply B; exact Hn|].
      rewrite EF, E. cbn [bindO].
      assert (S1 : forall k, k < nb -> increasing (nth k g1 []) /\ forall i, In i (nth k g1 []) <-> In i (nth k g0 []) \/ (comp_at comp n = k /\ In i (edges_of n es))).
      { intros k Hk. rewrite N1. destruct (k =? comp_at comp n) eqn:Q.
        - apply Nat.eqb_eq in Q. subst k. destruct (comp_at comp n <? length g0) eqn:Q; [|apply Nat.ltb_ge in Q; lia].
          destruct (fold_insert (edges_of n es) _ (S0 _ Hk)) as [A1 A2]. split; [exact A1|]. intros i. rewrite A2. intuition.
        - apply Nat.eqb_neq in Q. split; [apply S0; exact Hk|]. intros i. intuition congruence. }
      destruct (IH g1) as (g & E' & L' & S'); [intros; apply Hl; right; assumption|congruence|intros k Hk; apply S1; exact Hk|].
      exists g. split; [exact E'|]. split; [exact L'|]. intros k Hk. destruct (S' k Hk) as [P1 P2]. split; [exact P1|]. intros i. rewrite P2, (proj2 (S1 k Hk)). cbn [In]. split.
      + intros [[H|[H1 H2]]|(q & H1 & H2)]; [auto|right; exists n; auto|right; exists q; auto].
      + intros [H|(q & [<-|H1] & H2)]; [auto|left; right; exact H2|right; exists q; auto]. }
  destruct (G (seq 0 (length comp)) (repeat [] nb)) as (g & E & L & S').
  - intros n H. apply in_seq in H. lia.
  - apply repeat_length.
  - intros k Hk. rewrite nth_repeat. constructor.
  - exists g. split; [exact E|]. split; [exact L|]. intros k Hk. destruct (S' k Hk) as [P1 P2]. split; [exact P1|]. intros i. rewrite P2, nth_repeat. cbn [In]. split.
    + intros [[]|(n & H1 & H2)]. exists n. apply in_seq in H1. split; [lia|exact H2].
    + intros (n & H1 & H2). right. exists n. rewrite in_seq. split; [lia|exact H2].
Qed.

Lemma concat_filter_perm : forall (f : nat -> nat) (l : list nat) nb, (forall x, In x l -> f x < nb) ->
  Permutation (concat (map (fun k => filter (fun x => f x =? k) l) (seq 0 nb))) l.
Proof.
  intros f l nb H. induction l as [|x l IH].
  - cbn [filter]. replace (concat (map (fun _ => []) (seq 0 nb))) with (@nil nat); [constructor|]. clear. generalize 0. induction nb as [|n IH]; intros a; [reflexivity|]. cbn. apply IH.
  - specialize (IH (fun y Hy => H y (or_intror Hy))). assert (Hx : f x < nb) by (apply H; left; reflexivity).
    assert (SP : seq 0 nb = seq 0 (f x) ++ f x :: seq (S (f x)) (nb - S (f x))). { replace nb with (f x + S (nb - S (f x))) at 1 by lia. rewrite seq_app. reflexivity. }
    assert (OUT : forall s, ~ In (f x) s -> map (fun k => filter (fun y => f y =? k) (x :: l)) s = map (fun k => filter (fun y => f y =? k) l) s).
    { intros s N. apply map_ext_in. intros k Hk. cbn [filter]. destruct (f x =? k) eqn:E; [apply Nat.eqb_eq in E; subst; contradiction|reflexivity]. }
    rewrite SP in *. rewrite map_app, concat_app in *. cbn [map concat] in *. rewrite !OUT by (rewrite in_seq; lia). cbn [filter]. rewrite Nat.eqb_refl. cbn [app].
    apply Permutation_sym, Permutation_cons_app, Permutation_sym. exact IH.
Qed.
Lemma Forall2_at : forall (es : edge_list) idx rel, Forall2 (fun i e => at_throw es i = Ok e) idx rel -> forall p i, nth_error idx p = Some i -> nth_error rel p = nth_error es i.
Proof.
  intros es idx rel F. induction F as [|i e idx rel H F IH]; intros [|p] k Hp; try discriminate Hp.
  - injection Hp as <-. unfold at_throw in H. cbn. destruct (nth_error es i); congruence.
  - apply IH. exact Hp.
Qed.

(** C98: for every list of edges and every choice of distinct edges among them (none: all of them), the groups are a partition of the chosen edges, none of them is empty and
    two edges are in the same group exactly when one can go from one to the other along the chosen edges. *)
Theorem groups_are_connected_components : forall es idx, es <> [] -> NoDup idx -> (forall i, In i idx -> i < length es) ->
  let chosen := match idx with [] => seq 0 (length es) | _ => idx end in
  exists g, group_connected_edges es idx = Ok g /\ Permutation (concat g) chosen /\ (forall l, In l g -> l <> []) /\
    forall i j, In i chosen -> In j chosen -> ((exists l, In l g /\ In i l /\ In j l) <-> linked es chosen i j).
Proof.
  intros es idx0 NE ND0 LT0. cbv zeta. fold (relevant es idx0). unfold group_connected_edges. set (idx := relevant es idx0).
  assert (ND : NoDup idx). { unfold idx, relevant. destruct idx0; [apply seq_NoDup|exact ND0]. }
  assert (LT : forall i, In i idx -> i < length es). { unfold idx, relevant. destruct idx0; [intros i H; apply in_seq in H; lia|exact LT0]. }
  assert (NI : idx <> []). { unfold idx, relevant. destruct idx0; [destruct es; [congruence|discriminate]|discriminate]. }
  clearbody idx. clear idx0 ND0 LT0.
  assert (EO : exists rel, mapO_list (at_throw es) idx = Ok rel).
  { exists (map (fun i => nth i es (0, 0)) idx). apply mapO_ok. intros i H. unfold at_throw. rewrite (nth_error_nth' es (0, 0) (LT i H)). reflexivity. }
  destruct EO as [rel EO]. rewrite EO. cbn [bindO]. apply mapO_inv in EO. pose proof (Forall2_at _ _ _ EO) as AT.
  assert (LR : length rel = length idx) by (clear - EO; induction EO; cbn; congruence).
  assert (NR : rel <> []) by (destruct rel; [destruct idx; [congruence|discriminate LR]|discriminate]).
  destruct (components_spec rel NR) as (nb & comp & E & C1 & C2 & C3 & C4 & C5). rewrite E. cbn [bindO].
  destruct (per_component_spec rel nb comp C2) as (v & E' & LV & V). rewrite E'. cbn [bindO].
  set (cf := fun p => comp_at comp (fst (nth p rel (0, 0)))).
  assert (VE : v = map (fun k => filter (fun p => cf p =? k) (seq 0 (length rel))) (seq 0 nb)).
  { apply (nth_ext _ _ [] []); [rewrite map_length, seq_length; exact LV|]. intros k Hk. rewrite LV in Hk.
    set (F := fun k => filter (fun p => cf p =? k) (seq 0 (length rel))). rewrite (nth_indep (map F (seq 0 nb)) [] (F 0)) by (rewrite map_length, seq_length; exact Hk).
    rewrite map_nth, seq_nth by exact Hk. cbn [Nat.add]. destruct (V k Hk) as [S1 S2]. apply increasing_ext; [exact S1|apply increasing_filter, increasing_seq|].
    intros p. rewrite S2. unfold F. rewrite filter_In, in_seq, Nat.eqb_eq. unfold cf. split.
    - intros (n & Hn & Ck & Hp). apply edges_of_In in Hp as (e & Hp & D). assert (p < length rel) by (apply nth_error_Some; congruence). split; [lia|].
      rewrite (nth_error_nth rel p (0, 0) Hp). destruct D as [<-|<-]; [exact Ck|]. rewrite C3 by (eapply nth_error_In; exact Hp). exact Ck.
    - intros [[_ Hp] Ck]. cbn in Hp. pose proof (nth_error_nth' rel (0, 0) Hp) as Q. exists (fst (nth p rel (0, 0))). split; [apply C1; eapply nth_error_In; exact Q|].
      split; [exact Ck|]. apply edges_of_In. exists (nth p rel (0, 0)). auto. }
  assert (CV : mapO_list (mapO_list (at_ub idx)) v = Ok (map (map (fun p => nth p idx 0)) v)).
  { apply mapO_ok. intros l Hl. apply mapO_ok. intros p Hp. rewrite VE in Hl. apply in_map_iff in Hl as (k & <- & _). apply filter_In in Hp as [Hp _]. apply in_seq in Hp.
    unfold at_ub. rewrite (nth_error_nth' idx 0) by lia. reflexivity. }
  exists (map (map (fun p => nth p idx 0)) v). split; [exact CV|].
  assert (PV : Permutation (concat v) (seq 0 (length idx))).
  { rewrite VE, <- LR. apply concat_filter_perm. intros p Hp. apply in_seq in Hp. unfold cf. apply C2, C1. apply nth_In. lia. }
  split. { rewrite <- concat_map. apply (Permutation_trans (Permutation_map (fun p => nth p idx 0) PV)). clear.
    replace (map (fun p => nth p idx 0) (seq 0 (length idx))) with idx; [apply Permutation_refl|]. symmetry. apply (nth_ext _ _ 0 0).
    - rewrite map_length, seq_length. reflexivity.
    - intros i Hi. rewrite map_length, seq_length in Hi. apply (nth_map_seq (fun p => nth p idx 0)). exact Hi. }
  split. { intros l Hl. apply in_map_iff in Hl as (l' & <- & Hl). rewrite VE in Hl. apply in_map_iff in Hl as (k & <- & Hk). apply in_seq in Hk.
    destruct (C4 k) as (e & He & Ck); [lia|]. destruct (In_nth_error _ _ He) as [p Hp]. assert (p < length rel) by (apply nth_error_Some; congruence).
    assert (IP : In p (filter (fun p => cf p =? k) (seq 0 (length rel)))). { apply filter_In. rewrite in_seq. split; [lia|]. unfold cf. rewrite (nth_error_nth rel p (0, 0) Hp). apply Nat.eqb_eq. exact Ck. }
    destruct (filter _ _); [destruct IP|discriminate]. }
  intros i j Hi Hj. destruct (In_nth_error _ _ Hi) as [p Hp]. destruct (In_nth_error _ _ Hj) as [q Hq].
  assert (Lp : p < length rel) by (rewrite LR; apply nth_error_Some; congruence). assert (Lq : q < length rel) by (rewrite LR; apply nth_error_Some; congruence).
  pose proof (nth_error_nth' rel (0, 0) Lp) as Rp. pose proof (nth_error_nth' rel (0, 0) Lq) as Rq.
  assert (POS : forall p i, nth_error idx p = Some i -> forall p', p' < length idx -> nth p' idx 0 = i -> p' = p).
  { intros a x Ha b Lb Hb. apply (NoDup_nth_error idx); [exact ND|exact Lb|]. rewrite Ha. rewrite (nth_error_nth' idx 0 Lb). congruence. }
  assert (LL : linked es idx i j <-> linked rel (seq 0 (length rel)) p q).
  { assert (IS : forall k (g : nat * nat), nth_error rel k = Some g -> In k (seq 0 (length rel))). { intros k g H. apply in_seq. split; [lia|]. cbn. apply nth_error_Some. congruence. }
    split; intros LK.
    - clear Rq Lq Hj. revert q Hq. induction LK as [i Hin|i j k e f LK IH Hk Hj Hk' T]; intros q Hq.
      + assert (q = p) as ->. { apply (POS p i Hp); [apply nth_error_Some; congruence|]. apply nth_error_nth with (d := 0) in Hq. exact Hq. }
        apply linked_refl. eapply IS. exact Rp.
      + destruct (In_nth_error idx j) as [r Hr].
        { clear - LK. inversion LK; subst; assumption. }
        apply (linked_step _ _ p r q e f).
        * apply IH; assumption.
        * eapply IS. rewrite (AT q k Hq). exact Hk'.
        * rewrite (AT r j Hr). exact Hj.
        * rewrite (AT q k Hq). exact Hk'.
        * exact T.
    - clear Hj Rq Lq. revert j Hq. induction LK as [p Hin|p r q e f LK IH Hk Hj Hk' T]; intros j Hq.
      + replace j with i by congruence. apply linked_refl. exact Hi.
      + assert (Lr : r < length idx) by (rewrite <- LR; apply nth_error_Some; congruence). pose proof (nth_error_nth' idx 0 Lr) as Hr.
        apply (linked_step _ _ i (nth r idx 0) j e f).
        * apply IH; assumption.
        * eapply nth_error_In. exact Hq.
        * rewrite <- (AT _ _ Hr). exact Hj.
        * rewrite <- (AT _ _ Hq). exact Hk'.
        * exact T. }
  rewrite LL, <- (C5 p q _ _ Rp Rq). fold (cf p) (cf q). split.
  - intros (l & Hl & Ai & Aj). apply in_map_iff in Hl as (l' & <- & Hl). rewrite VE in Hl. apply in_map_iff in Hl as (k & <- & _).
    apply in_map_iff in Ai as (p' & Ep & Ai). apply in_map_iff in Aj as (q' & Eq & Aj). apply filter_In in Ai as [A1 A2]. apply filter_In in Aj as [A3 A4].
    apply in_seq in A1. apply in_seq in A3. apply Nat.eqb_eq in A2. apply Nat.eqb_eq in A4.
    rewrite <- (POS p i Hp p') by (try assumption; lia). rewrite <- (POS q j Hq q') by (try assumption; lia). congruence.
  - intros EQ. assert (CB : cf p < nb). { unfold cf. apply C2, C1. eapply nth_error_In. exact Rp. }
    exists (map (fun p => nth p idx 0) (filter (fun x => cf x =? cf p) (seq 0 (length rel)))). split.
    + apply in_map. rewrite VE. apply in_map_iff. exists (cf p). split; [reflexivity|]. apply in_seq. lia.
    + split; apply in_map_iff; [exists p|exists q]; (split; [apply (nth_error_nth idx); assumption|]); apply filter_In; rewrite in_seq, Nat.eqb_eq; (split; [lia|congruence]).
Qed.
Print Assumptions groups_are_connected_components.

(** Two triangles that do not touch, and an edge that is not chosen between them *)
Definition two_triangles : edge_list := [(7, 3); (10, 12); (3, 10); (5, 7); (12, 11); (5, 3); (11, 10)].
Example groups_witness : group_connected_edges two_triangles [0; 1; 3; 4; 5; 6] = Ok [[0; 3; 5]; [1; 4; 6]].
Proof. reflexivity. Qed.
(** Without any edge the function reads the element 0 of an empty vector: every caller has to check that there is one. *)
Theorem groups_of_no_edges_refuted : group_connected_edges [] [] = UB.
Proof. reflexivity. Qed.
Print Assumptions groups_of_no_edges_refuted.
