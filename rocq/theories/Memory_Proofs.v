(** The result of an update of the intersection with the free surface does not depend on the previous ones. The columns of the table of nodes
    that are not in use keep the values of the previous updates: two states that differ by them only are twins. *)
From Coq Require Import Reals List Bool Arith ZArith Lra Lia.
From Verif Require Import Common Geometry Sim_Model Hull_Model Blocked_Model Blocked_Proofs Mesh_Model Mesh_Spec Mesh_Proofs Cut_Proofs Triangle_Proofs Cut_Loop_Proofs.
Import ListNotations.
Open Scope R_scope.

(** ** Two runs side by side *)
Definition lift {A B} (P : A -> B -> Prop) (x : outcome A) (y : outcome B) : Prop :=
  match x, y with Ok a, Ok b => P a b | Throw, Throw => True | UB, UB => True | _, _ => False end.
Lemma lift_bind : forall {A B C D} (P : A -> B -> Prop) (Q : C -> D -> Prop) x y f g, lift P x y -> (forall a b, P a b -> lift Q (f a) (g b)) -> lift Q (bindO x f) (bindO y g).
Proof. intros A B C D P Q [a| |] [b| |] f g H K; cbn in *; try contradiction; auto. Qed.
Lemma lift_refl : forall {A} (x : outcome A), lift eq x x.
Proof. intros A [a| |]; cbn; auto. Qed.
Lemma lift_mono : forall {A B} (P Q : A -> B -> Prop) x y, lift P x y -> (forall a b, P a b -> Q a b) -> lift Q x y.
Proof. intros A B P Q [a| |] [b| |]; cbn; auto. Qed.
Lemma lift_at_ub : forall {A} (l : list A) i, lift (fun a b => a = b /\ nth_error l i = Some a) (at_ub l i) (at_ub l i).
Proof. intros. unfold at_ub. destruct (nth_error l i); cbn; auto. Qed.
Lemma lift_foldO : forall {A B C} (P : A -> B -> Prop) (f : A -> C -> outcome A) g l a b, P a b ->
  (forall a b x, In x l -> P a b -> lift P (f a x) (g b x)) -> lift P (foldO f l a) (foldO g l b).
Proof.
  intros A B C P f g l. induction l as [|x l IH]; intros a b H K; [exact H|]. cbn [foldO]. apply (lift_bind P); [apply K; [left; reflexivity|exact H]|].
  intros a' b' H'. apply IH; [exact H'|]. intros. apply K; [right; assumption|assumption].
Qed.
Lemma lift_mapO : forall {A B} (P : A -> B -> Prop) {C} (f : C -> outcome A) g l, (forall x, In x l -> lift P (f x) (g x)) -> lift (Forall2 P) (mapO_list f l) (mapO_list g l).
Proof.
  intros A B P C f g l. induction l as [|x l IH]; intros K; [apply Forall2_nil|]. cbn [mapO_list]. apply (lift_bind P); [apply K; left; reflexivity|].
  intros a b H. apply (lift_bind (Forall2 P)); [apply IH; intros; apply K; right; assumption|]. intros a' b' H'. apply Forall2_cons; assumption.
Qed.
Lemma Forall2_eq : forall {A} (l k : list A), Forall2 eq l k -> l = k.
Proof. intros A l k H. induction H; congruence. Qed.

(** ** Tables *)
Lemma set_ub_eq : forall {A} (l : list A) n p, set_ub l n p = if (n <? length l)%nat then Ok (firstn n l ++ p :: skipn (S n) l) else UB.
Proof.
  induction l as [|a l IH]; intros [|n] p; cbn [set_ub length]; try reflexivity. rewrite IH. change (S n <? S (length l))%nat with (n <? length l)%nat.
  destruct (n <? length l)%nat; reflexivity.
Qed.

(** Two meshes that differ only by the columns of the table of nodes that are not in use; the edges and the facets only use those in use. *)
Record twin (a b : mesh) : Prop := {
  tw_edges : m_edges b = m_edges a; tw_facets : m_facets b = m_facets a; tw_fpe : m_fpe b = m_fpe a; tw_oef : m_oef b = m_oef a;
  tw_counts : m_nnodes b = m_nnodes a /\ m_nedges b = m_nedges a /\ m_nfacets b = m_nfacets a;
  tw_total : m_total b = m_total a; tw_orientation : m_orientation b = m_orientation a;
  tw_length : length (m_all b) = length (m_all a);
  tw_all : firstn (m_total a) (m_all b) = firstn (m_total a) (m_all a);
  tw_ends : forall e, In e (m_edges a) -> (fst e < m_total a /\ snd e < m_total a)%nat;
  tw_vertices : forall f v, In f (m_facets a) -> In v (mf_vertices f) -> (v < m_total a)%nat
}.
Lemma twin_nth : forall a b i, twin a b -> (i < m_total a)%nat -> nth_error (m_all b) i = nth_error (m_all a) i.
Proof. intros a b i T H. rewrite <- (nth_error_firstn (m_all b) _ _ H), <- (nth_error_firstn (m_all a) _ _ H), (tw_all _ _ T). reflexivity. Qed.
Lemma twin_at : forall a b i, twin a b -> (i < m_total a)%nat -> at_ub (m_all b) i = at_ub (m_all a) i.
Proof. intros a b i T H. unfold at_ub. rewrite (twin_nth a b i T H). reflexivity. Qed.

Lemma twin_add_edge : forall a b x y, twin a b -> (x < m_total a)%nat -> (y < m_total a)%nat ->
  twin (fst (add_edge a x y)) (fst (add_edge b x y)) /\ snd (add_edge b x y) = snd (add_edge a x y) /\ m_total (fst (add_edge a x y)) = m_total a.
Proof.
  intros a b x y [E F P O (C1 & C2 & C3) T R L A N V] Hx Hy. unfold add_edge. cbn [fst snd]. split; [|split; [congruence|reflexivity]].
  constructor; cbn; try assumption; try congruence; auto.
  intros e He. apply in_app_iff in He as [He|[<-|[]]]; [apply N; exact He|cbn; auto].
Qed.
Lemma twin_add_vertex : forall a b p, twin a b ->
  lift (fun x y => twin (fst x) (fst y) /\ snd x = m_total a /\ snd y = m_total a /\ m_total (fst x) = S (m_total a)) (add_vertex a p) (add_vertex b p).
Proof.
  intros a b p T. unfold add_vertex. rewrite !set_ub_eq, (tw_total _ _ T), (tw_length _ _ T). destruct (Nat.ltb_spec (m_total a) (length (m_all a))) as [H|H]; [|exact I].
  cbn [bindO lift fst snd]. destruct T as [E F P O (C1 & C2 & C3) T R L A N V]. repeat split; cbn [m_edges m_facets m_fpe m_oef m_nnodes m_nedges m_nfacets m_total m_orientation m_all fst snd]; auto; try congruence.
  - rewrite !app_length. cbn [length]. rewrite !skipn_length, !firstn_length. lia.
  - assert (G : forall (l : list vec3) q, (m_total a < length l)%nat -> firstn (S (m_total a)) (firstn (m_total a) l ++ p :: q) = firstn (m_total a) l ++ [p]).
    { intros l q Hl. replace (S (m_total a)) with (length (firstn (m_total a) l) + 1)%nat at 1 by (rewrite firstn_length; lia). rewrite firstn_app_2. reflexivity. }
    rewrite !G by lia. rewrite A. reflexivity.
  - destruct (N _ H0). lia.
  - destruct (N _ H0). lia.
  - intros f v Hf Hv. specialize (V f v Hf Hv). lia.
Qed.
(** Vertices read in the table of edges *)
Lemma vertex_list_in : forall edges l seen vs k, vertex_list edges l seen = Ok (vs, k) -> forall v, In v vs -> exists e, In e edges /\ (v = O \/ v = fst e \/ v = snd e).
Proof.
  intros edges l. induction l as [|o l IH]; intros seen vs k H v Hv; cbn [vertex_list] in H; [injection H as <- <-; destruct Hv|].
  unfold second_vertex, at_ub in H. destruct (nth_error edges (edge_index o)) as [e|] eqn:Ee; [|discriminate H]. cbn [bindO] in H.
  destruct (existsb _ seen).
  - destruct (vertex_list edges l seen) as [[vs' k']| |] eqn:Er; try discriminate H. cbn [bindO] in H. injection H as <- <-.
    destruct Hv as [<-|Hv]; [exists e; split; [eapply nth_error_In; exact Ee|auto]|exact (IH _ _ _ Er v Hv)].
  - destruct (vertex_list edges l (_ :: seen)) as [[vs' k']| |] eqn:Er; try discriminate H. cbn [bindO] in H. injection H as <- <-.
    destruct Hv as [<-|Hv]; [exists e; split; [eapply nth_error_In; exact Ee|destruct (is_reversed o); auto]|exact (IH _ _ _ Er v Hv)].
Qed.
Lemma firstn_In : forall {A} n (l : list A) x, In x (firstn n l) -> In x l.
Proof. intros A n l x H. rewrite <- (firstn_skipn n l). apply in_app_iff. left. exact H. Qed.
Lemma twin_create : forall a b l n, twin a b ->
  lift (fun x y => twin (fst x) (fst y) /\ snd x = snd y /\ m_total (fst x) = m_total a) (create_facet_from_edges a l n) (create_facet_from_edges b l n).
Proof.
  intros a b l n T. unfold create_facet_from_edges. rewrite (tw_edges _ _ T). destruct (vertex_list (m_edges a) l []) as [[vs k]| |] eqn:EV; cbn [bindO lift]; auto.
  assert (BD : forall v, In v (firstn k vs) -> (v < m_total a)%nat).
  { intros v Hv. apply firstn_In in Hv. destruct (vertex_list_in _ _ _ _ _ EV v Hv) as (e & He & K). destruct (tw_ends _ _ T e He). destruct K as [-> | [-> | ->]]; lia. }
  destruct (firstn k vs) as [|w ws] eqn:EF; [exact I|]. rewrite <- EF in *.
  assert (EM : mapO_list (at_ub (m_all b)) (firstn k vs) = mapO_list (at_ub (m_all a)) (firstn k vs)).
  { revert BD. generalize (firstn k vs). clear - T. induction l as [|v l IH]; intros BD; [reflexivity|]. cbn [mapO_list]. rewrite (twin_at a b v T) by (apply BD; left; reflexivity).
    rewrite IH by (intros; apply BD; right; assumption). reflexivity. }
  rewrite EM. destruct (mapO_list (at_ub (m_all a)) (firstn k vs)) as [pts| |]; cbn [bindO lift]; auto. cbn [fst snd].
  destruct T as [E F P O (C1 & C2 & C3) T R L A N V]. repeat split; cbn; auto; try congruence.
  - apply N; assumption.
  - apply N; assumption.
  - intros f v Hf Hv. apply in_app_iff in Hf as [Hf|[<-|[]]]; [exact (V f v Hf Hv)|]. cbn in Hv. apply BD. exact Hv.
Qed.

(** ** Intersectors *)
Record alike (a b : inter) : Prop := {
  al_mesh : twin (i_mesh a) (i_mesh b);
  al_lists : i_rel b = i_rel a /\ i_waves b = i_waves a /\ i_emerged b = i_emerged a /\ i_immersed b = i_immersed a /\ i_surface b = i_surface a /\ i_on b = i_on a;
  al_rel : length (i_rel a) = m_total (i_mesh a);
  al_waves : length (i_waves a) = m_total (i_mesh a)
}.
Ltac lists := repeat match goal with H : alike _ _ |- _ => let R' := fresh "R" in let W := fresh "W" in destruct H as [? (R' & W & ? & ? & ? & ?) ? ?] end.

Lemma alike_split_edge : forall a b st e, alike a b ->
  lift (fun x y => alike (fst (fst x)) (fst (fst y)) /\ snd (fst x) = snd (fst y) /\ snd x = snd y) (split_partially_immersed_edge a st e) (split_partially_immersed_edge b st e).
Proof.
  intros a b st e AL. destruct AL as [T (R' & W & E1' & E2 & E3 & E4) LR LW]. unfold split_partially_immersed_edge. rewrite (tw_edges _ _ T), R', W.
  eapply lift_bind; [apply lift_at_ub|]. intros [x y] ? [<- Hxy]. apply nth_error_In in Hxy. destruct (tw_ends _ _ T _ Hxy) as [Hx Hy]. cbn [fst snd] in Hx, Hy.
  rewrite (twin_at _ _ x T Hx), (twin_at _ _ y T Hy).
  eapply lift_bind; [apply lift_refl|]. intros A ? <-. eapply lift_bind; [apply lift_refl|]. intros B ? <-.
  eapply lift_bind; [apply lift_refl|]. intros dA ? <-. eapply lift_bind; [apply lift_refl|]. intros dB ? <-.
  eapply lift_bind; [apply lift_refl|]. intros zA ? <-. eapply lift_bind; [apply lift_refl|]. intros zB ? <-.
  eapply lift_bind; [apply (twin_add_vertex _ _ _ T)|]. intros [m1 c] [m1' c'] (T1 & Q1 & Q2 & TT). cbn [fst snd] in T1, TT, Q1, Q2. subst c c'.
  destruct (twin_add_edge m1 m1' x (m_total (i_mesh a)) T1 ltac:(lia) ltac:(lia)) as (T2 & S2 & TT2).
  destruct (add_edge m1 x (m_total (i_mesh a))) as [m2 h] eqn:E5. destruct (add_edge m1' x (m_total (i_mesh a))) as [m2' h'] eqn:E6. cbn [fst snd] in T2, S2, TT2. subst h'.
  destruct (twin_add_edge m2 m2' (m_total (i_mesh a)) y T2 ltac:(lia) ltac:(lia)) as (T3 & S3 & TT3).
  destruct (add_edge m2 (m_total (i_mesh a)) y) as [m3 h3] eqn:E7. destruct (add_edge m2' (m_total (i_mesh a)) y) as [m3' h3'] eqn:E8. cbn [fst snd] in T3, S3, TT3. subst h3'.
  eapply lift_bind; [apply lift_refl|]. intros s ? <-. cbn [lift fst snd]. split; [|auto].
  constructor; cbn [i_mesh i_rel i_waves i_emerged i_immersed i_surface i_on]; [assumption|auto 10|rewrite app_length; cbn [length]; lia..].
Qed.

Lemma alike_scan_edge : forall a b e, alike (s_inter a) (s_inter b) -> s_split b = s_split a -> s_status b = s_status a -> s_flags b = s_flags a ->
  lift (fun x y => alike (s_inter x) (s_inter y) /\ s_split y = s_split x /\ s_status y = s_status x /\ s_flags y = s_flags x) (scan_edge a e) (scan_edge b e).
Proof.
  intros a b e AL P1 P2 P3. pose proof AL as [T (R' & W & E1' & E2 & E3 & E4) LR LW]. unfold scan_edge. rewrite (tw_edges _ _ T), R', P1, P2, P3.
  eapply lift_bind; [apply lift_refl|]. intros ab ? <-. eapply lift_bind; [apply lift_refl|]. intros z0 ? <-. eapply lift_bind; [apply lift_refl|]. intros z1 ? <-.
  eapply lift_bind; [apply lift_refl|]. intros st ? <-.
  eapply (lift_bind (fun x y => alike (fst (fst x)) (fst (fst y)) /\ snd (fst x) = snd (fst y) /\ snd x = snd y)).
  - destruct (crosses _); [|cbn; auto]. eapply lift_bind; [apply (alike_split_edge _ _ _ _ AL)|]. intros [[I1 s1] f1] [[I2 s2] f2] (A1 & A2 & A3). cbn [fst snd] in A1, A2, A3. subst s2 f2.
    eapply lift_bind; [apply lift_refl|]. intros x ? <-. cbn. auto.
  - intros [[I1 s1] f1] [[I2 s2] f2] (A1 & A2 & A3). cbn [fst snd] in A1, A2, A3. subst s2 f2. rewrite (tw_fpe _ _ (al_mesh _ _ A1)).
    eapply lift_bind; [apply lift_refl|]. intros fl ? <-. cbn. auto.
Qed.
Lemma alike_split_facet : forall status split a b f, alike a b -> lift alike (split_facet status split a f) (split_facet status split b f).
Proof.
  intros status split a b f AL. pose proof AL as [T (R' & W & E1' & E2 & E3 & E4) LR LW]. unfold split_facet. cbv zeta. rewrite (tw_oef _ _ T), R', W, E1', E2, E3, E4.
  eapply lift_bind; [apply lift_refl|]. intros oes ? <-. eapply lift_bind; [apply lift_refl|]. intros w ? <-.
  destruct (length (w_em w) <=? 1)%nat; [cbn; constructor; cbn; auto 10|]. destruct (length (w_im w) <=? 1)%nat; [cbn; constructor; cbn; auto 10|].
  rewrite (tw_edges _ _ T).
  eapply lift_bind; [apply lift_refl|]. intros oi ? <-.
  assert (FV : forall o, lift (fun x y => x = y /\ (x < m_total (i_mesh a))%nat) (first_vertex (m_edges (i_mesh a)) o) (first_vertex (m_edges (i_mesh a)) o)).
  { intros o. unfold first_vertex. eapply lift_bind; [apply lift_at_ub|]. intros e ? [<- He]. cbn. split; [reflexivity|]. apply nth_error_In in He. destruct (tw_ends _ _ T e He).
    destruct (is_reversed o); assumption. }
  eapply lift_bind; [apply FV|]. intros x ? [<- Hx]. eapply lift_bind; [apply lift_refl|]. intros oe ? <-. eapply lift_bind; [apply FV|]. intros y ? [<- Hy].
  destruct (twin_add_edge _ _ x y T Hx Hy) as (T1 & S1 & TT1). destruct (add_edge (i_mesh a) x y) as [m1 c] eqn:EA. destruct (add_edge (i_mesh b) x y) as [m1' c'] eqn:EB.
  cbn [fst snd] in T1, S1, TT1. subst c'.
  eapply lift_bind; [apply lift_refl|]. intros im ? <-. eapply lift_bind; [apply lift_refl|]. intros em ? <-.
  rewrite (tw_facets _ _ T1). eapply lift_bind; [apply lift_refl|]. intros fct ? <-.
  eapply lift_bind; [apply (twin_create _ _ _ _ T1)|]. intros [m2 fe] [m2' fe'] (T2 & S2 & TT2). cbn [fst snd] in T2, S2, TT2. subst fe'.
  eapply lift_bind; [apply (twin_create _ _ _ _ T2)|]. intros [m3 fi] [m3' fi'] (T3 & S3 & TT3). cbn [fst snd] in T3, S3, TT3. subst fi'.
  cbn [lift]. constructor; cbn [i_mesh i_rel i_waves i_emerged i_immersed i_surface i_on]; [assumption|auto 10|lia..].
Qed.
Lemma alike_classify : forall status a b f, alike a b -> lift alike (classify_facet status a f) (classify_facet status b f).
Proof.
  intros status a b f AL. pose proof AL as [T (R' & W & E1' & E2 & E3 & E4) LR LW]. unfold classify_facet. rewrite (tw_oef _ _ T), R', W, E1', E2, E3, E4.
  eapply lift_bind; [apply lift_refl|]. intros oes ? <-. eapply lift_bind; [apply lift_refl|]. intros o ? <-. eapply lift_bind; [apply lift_refl|]. intros s ? <-.
  destruct (is_emerged s); cbn; constructor; cbn; auto 10.
Qed.

(** Two states with the same static mesh, updated with the same immersions. *)
Theorem update_alike : forall I J rel waves, well_formed (i_mesh I) -> (forall f v, In f (firstn (m_nfacets (i_mesh I)) (m_facets (i_mesh I))) -> In v (mf_vertices f) -> (v < m_nnodes (i_mesh I))%nat) ->
  same_static (i_mesh I) (i_mesh J) -> length rel = m_nnodes (i_mesh I) -> length waves = m_nnodes (i_mesh I) ->
  lift (fun a b => alike a b /\ i_abs b = i_abs a /\ i_closing b = i_closing a) (update_intersection I rel waves) (update_intersection J rel waves).
Proof.
  intros I J rel waves WF VS [(A1 & A2 & A3) (B1 & B2 & B3) SN SE SF (L1 & L2 & L3)] HR HW. unfold update_intersection.
  set (I0 := reset_dynamic_members _). set (J0 := reset_dynamic_members (mkI (i_mesh J) rel waves _ _ _ _ _ _)).
  assert (AL : alike I0 J0).
  { constructor; cbn; auto 10. constructor; cbn; auto 10.
    - rewrite A3. exact SF.
    - unfold static_nodes in SN. rewrite A1 in SN. exact SN.
    - intros [x y] He. apply In_nth_error in He as (e & He). exact (wf_ends _ WF e x y He). }
  assert (EN : m_nedges (i_mesh J0) = m_nedges (i_mesh I0)) by exact A2. assert (EF : m_nfacets (i_mesh J0) = m_nfacets (i_mesh I0)) by exact A3.
  rewrite EN, EF.
  eapply (lift_bind (fun x y => alike (s_inter x) (s_inter y) /\ s_split y = s_split x /\ s_status y = s_status x /\ s_flags y = s_flags x)).
  - unfold find_intersection. cbn [s_inter]. rewrite EN. apply lift_foldO; [cbn; auto|]. intros x y e _ (H1 & H2 & H3 & H4). apply alike_scan_edge; assumption.
  - intros s s' (H1 & H2 & H3 & H4).
    eapply (lift_bind alike).
    + unfold classify_or_split. rewrite H2, H3, H4. destruct (tw_counts _ _ (al_mesh _ _ H1)) as (_ & _ & ->). apply lift_foldO; [exact H1|]. intros x y f _ Hxy.
      eapply lift_bind; [apply lift_refl|]. intros [|] ? <-; [apply alike_split_facet|apply alike_classify]; assumption.
    + intros x y Hxy. pose proof Hxy as [T (R' & W & E1' & E2 & E3 & E4) LR LW]. rewrite R', W. eapply lift_bind; [apply lift_refl|]. intros abs ? <-.
      cbn [lift]. split; [|auto]. constructor; cbn; auto 10.
Qed.
