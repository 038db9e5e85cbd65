(** Proofs: [contour] goes around a closed line. *)
From Coq Require Import Reals List Bool Arith Lia Permutation.
From Verif Require Import Common Geometry Sim_Model Force_Model Mesh_Model Mesh_Spec Closing_Model Closing_Spec Closing_Graph_Proofs Closing_Contour_Proofs.
Import ListNotations.
Open Scope nat_scope.

Record ready (c : computer) : Prop := {
  rd_connected : c_connected c = node_to_connected_edges (c_edges c);
  rd_nodes : c_nodes c = extract_nodes (c_edges c);
  rd_bounds : forall e, In e (c_edges c) -> fst e < length (c_mesh c) /\ snd e < length (c_mesh c) }.
Lemma at_ub_lt' : forall {A} (l : list A) i, i < length l -> exists a, at_ub l i = Ok a /\ nth_error l i = Some a.
Proof. intros A l i H. unfold at_ub. destruct (nth_error l i) as [a|] eqn:E; [exists a; auto|apply nth_error_None in E; lia]. Qed.
Lemma singleton : forall (l : list nat) a, NoDup l -> (forall i, In i l <-> i = a) -> l = [a].
Proof.
  intros [|x l] a D H; [exfalso; exact (proj2 (H a) eq_refl)|]. pose proof (proj1 (H x) (or_introl eq_refl)) as ->. f_equal. destruct l as [|y l]; [reflexivity|].
  pose proof (proj1 (H y) (or_intror (or_introl eq_refl))) as ->. inversion D; subst. exfalso. apply H2. left. reflexivity.
Qed.
Lemma ring_nodup : forall es k ns, ring es k ns -> NoDup (map fst k) /\ NoDup (map (oriented es) k) /\ (forall er, In er k -> exists p, oriented es er = Some p /\ In p (cyclic_pairs ns)).
Proof.
  intros es k ns [L D P E]. split; [|split].
  - apply (Permutation_NoDup (Permutation_sym P)). apply seq_NoDup.
  - rewrite E. apply FinFun.Injective_map_NoDup; [intros a b H; congruence|]. apply (NoDup_map_inv fst). rewrite cyclic_fst. exact D.
  - intros er H. apply (in_map (oriented es)) in H. rewrite E in H. apply in_map_iff in H as (p & H1 & H2). exists p. auto.
Qed.
Lemma ring_adjacent : forall es a b l ns, ring es (a :: b :: l) ns -> exists x y z, oriented es a = Some (x, y) /\ oriented es b = Some (y, z) /\ x <> y /\ y <> z /\ x <> z.
Proof.
  intros es a b l ns [L D P E]. destruct ns as [|x [|y t]]; cbn [length] in L; try lia. cbn [cyclic_pairs app combine map] in E.
  destruct t as [|z t]; cbn [length] in L; try lia. cbn [app combine map] in E. injection E as E1 E2 _. exists x, y, z. repeat split; [exact E1|exact E2| | |].
  - inversion D as [|? ? N _]; subst. intros ->. apply N. left. reflexivity.
  - inversion D as [|? ? _ D']; subst. inversion D' as [|? ? N _]; subst. intros ->. apply N. left. reflexivity.
  - inversion D as [|? ? N _]; subst. intros ->. apply N. right. left. reflexivity.
Qed.
Lemma oriented_inv : forall es er x y, oriented es er = Some (x, y) -> nth_error es (fst er) = Some (if snd er then (y, x) else (x, y)).
Proof. intros es [i r] x y H. unfold oriented in H. cbn [fst snd] in *. destruct (nth_error es i) as [[a b]|]; [|discriminate H]. destruct r; injection H as <- <-; reflexivity. Qed.
Lemma oriented_ends : forall es er x y, oriented es er = Some (x, y) -> exists e, nth_error es (fst er) = Some e /\ (if snd er then fst e else snd e) = y.
Proof. intros es er x y H. apply oriented_inv in H. eexists. split; [exact H|]. destruct (snd er); reflexivity. Qed.

Lemma ring_step : forall c a b l ns, ready c -> ring (c_edges c) (a :: b :: l) ns ->
  next_edge c (fst a) (snd a) = Ok (Some (fst b)) /\ need_to_reverse c (fst a) (fst b) (snd a) = Ok (snd b).
Proof.
  intros c a b l ns [RC _ RB] R. set (es := c_edges c) in *. destruct (ring_adjacent _ _ _ _ _ R) as (x & y & z & A & B & XY & YZ & XZ).
  destruct (ring_nodup _ _ _ R) as (N1 & N2 & IN). pose proof (oriented_inv _ _ _ _ A) as EA. pose proof (oriented_inv _ _ _ _ B) as EB.
  assert (AB : fst b <> fst a). { inversion N1 as [|? ? H _]; subst. intros E. apply H. left. exact E. }
  split.
  - unfold next_edge, edges_connected_to. fold es. rewrite EA, RC, connected_spec. fold es. replace (if snd a then fst (if snd a then (y, x) else (x, y)) else snd (if snd a then (y, x) else (x, y))) with y by (destruct (snd a); reflexivity).
    assert (F : filter (fun i => negb (i =? fst a)) (edges_of y es) = [fst b]).
    { apply singleton; [apply NoDup_filter, increasing_NoDup, increasing_filter, increasing_seq|]. intros i. rewrite filter_In, edges_of_In, negb_true_iff, Nat.eqb_neq. split.
      - intros [(e & Hi & D) NE]. assert (I : In i (map fst (a :: b :: l))). { apply (Permutation_in i (Permutation_sym (rg_perm _ _ _ R))). apply in_seq. split; [lia|]. cbn. apply nth_error_Some. congruence. }
        apply in_map_iff in I as (er & <- & I). destruct (IN er I) as ([u v] & O & PI). pose proof (oriented_inv _ _ _ _ O) as EO. rewrite Hi in EO.
        assert (UV : u = y \/ v = y). { destruct (snd er); injection EO as ->; cbn in D; tauto. }
        destruct (IN a (or_introl eq_refl)) as (pa & OA & PA). rewrite A in OA. injection OA as <-.
        destruct (IN b (or_intror (or_introl eq_refl))) as (pb & OB & PB). rewrite B in OB. injection OB as <-.
        destruct UV as [->| ->].
        + assert ((y, v) = (y, z)) as E. { apply (NoDup_map_inj fst (cyclic_pairs ns)); [rewrite cyclic_fst; apply R|exact PI|exact PB|reflexivity]. }
          rewrite E, <- B in O. f_equal. apply (NoDup_map_inj (oriented es) (a :: b :: l)); [exact N2|exact I|right; left; reflexivity|exact O].
        + assert ((u, y) = (x, y)) as E. { apply (NoDup_map_inj snd (cyclic_pairs ns)); [apply cyclic_snd; apply R|exact PI|exact PA|reflexivity]. }
          rewrite E, <- A in O. exfalso. apply NE. f_equal. apply (NoDup_map_inj (oriented es) (a :: b :: l)); [exact N2|exact I|left; reflexivity|exact O].
      - intros ->. split; [|exact AB]. exists (if snd b then (z, y) else (y, z)). split; [exact EB|]. destruct (snd b); cbn; auto. }
    assert (NE : edges_of y es <> []) by (intros E; rewrite E in F; discriminate F).
    destruct (edges_of y es) as [|e0 el] eqn:EE; [congruence|]. rewrite F.
    assert (AT : at_throw es (fst a) = Ok (if snd a then (y, x) else (x, y))) by (unfold at_throw; rewrite EA; reflexivity). rewrite AT. cbn [bindO].
    pose proof (RB _ (nth_error_In _ _ EA)) as BA. pose proof (RB _ (nth_error_In _ _ EB)) as BB.
    assert (BND : x < length (c_mesh c) /\ y < length (c_mesh c) /\ z < length (c_mesh c)). { destruct (snd a), (snd b); cbn [fst snd] in BA, BB; lia. }
    destruct BND as (B1 & B2 & B3). destruct (at_ub_lt' (c_mesh c) x B1) as (X & EX & _). destruct (at_ub_lt' (c_mesh c) y B2) as (Y & EY & _). destruct (at_ub_lt' (c_mesh c) z B3) as (Z & EZ & _).
    replace (if snd a then fst (if snd a then (y, x) else (x, y)) else snd (if snd a then (y, x) else (x, y))) with y by (destruct (snd a); reflexivity). rewrite EY. cbn [bindO angles_of].
    assert (TW : two_edges es (fst a) (fst b) (snd a) = Some (if snd a then y else x, if snd a then x else y, z)).
    { apply Nat.eqb_neq in XY as Q1. apply Nat.eqb_neq in YZ as Q2. apply Nat.eqb_neq in XZ as Q3. pose proof Q1 as Q1'. pose proof Q2 as Q2'. pose proof Q3 as Q3'.
      rewrite Nat.eqb_sym in Q1', Q2', Q3'. unfold two_edges. rewrite EA, EB.
      destruct (snd a), (snd b); rewrite ?Q1, ?Q2, ?Q3, ?Q1', ?Q2', ?Q3', ?Nat.eqb_refl; cbn [app]; rewrite ?Q1, ?Q2, ?Q3, ?Q1', ?Q2', ?Q3', ?Nat.eqb_refl; reflexivity. }
    assert (AN : exists r, angle_between_edges c (fst a) (fst b) (snd a) = Ok (Some r)).
    { unfold angle_between_edges. fold es. rewrite TW. destruct (snd a); rewrite EX, EY, EZ; cbn [bindO]; eexists; reflexivity. }
    destruct AN as (r & ->). cbn [bindE bindO]. cbn [length seq combine fold_left]. reflexivity.
  - unfold need_to_reverse, at_throw. fold es. rewrite EA, EB. cbn [bindO]. apply Nat.eqb_neq in YZ.
    destruct (snd a), (snd b); cbn [fst snd]; rewrite ?Nat.eqb_refl, ?YZ; reflexivity.
Qed.

Lemma loop_ring : forall c front rest pre prev ns, ready c -> ring (c_edges c) (pre ++ prev :: rest) ns -> hd_error (pre ++ [prev]) = Some front ->
  contour_loop (length rest) c (fst front) (fst (hd front rest)) (fst prev) (snd prev) (pre ++ [prev]) = Ok (Some (pre ++ prev :: rest)).
Proof.
  intros c front rest. induction rest as [|er rest IH]; intros pre prev ns RD R H; cbn [length contour_loop]; [reflexivity|]. cbn [hd].
  destruct (ring_nodup _ _ _ R) as (N & _).
  assert (NE : fst er <> fst front).
  { assert (F : exists t, pre ++ prev :: er :: rest = front :: t /\ In er t).
    { destruct pre as [|p pre]; cbn in H; injection H as ->; [exists (er :: rest); split; [reflexivity|left; reflexivity]|].
      exists (pre ++ prev :: er :: rest). split; [reflexivity|]. apply in_app_iff. right. right. left. reflexivity. }
    destruct F as (t & E & I). rewrite E in N. cbn in N. inversion N as [|? ? X _]; subst. intros Q. apply X. rewrite <- Q. apply in_map. exact I. }
  apply Nat.eqb_neq in NE. rewrite NE. destruct (ring_rotate _ _ _ _ R) as (a & b & E1 & R1). cbn [app] in R1. destruct (ring_step c _ _ _ _ RD R1) as [_ RV]. rewrite RV. cbn [bindO].
  assert (R2 : exists ns2, ring (c_edges c) (er :: (rest ++ pre) ++ [prev]) ns2).
  { change (prev :: er :: rest ++ pre) with ([prev] ++ (er :: rest ++ pre)) in R1. destruct (ring_rotate _ _ _ _ R1) as (a' & b' & _ & R2). eexists. exact R2. }
  destruct R2 as (ns2 & R2). assert (NX : next_edge c (fst er) (snd er) = Ok (Some (fst (hd front rest)))).
  { destruct rest as [|er' rest].
    - cbn [hd app] in *. destruct pre as [|p pre]; cbn in H; injection H as ->.
      + cbn [app] in R2. exact (proj1 (ring_step c _ _ _ _ RD R2)).
      + cbn [app] in R2. exact (proj1 (ring_step c _ _ _ _ RD R2)).
    - cbn [app hd] in *. exact (proj1 (ring_step c _ _ _ _ RD R2)). }
  rewrite NX. cbn [bindE bindO]. replace (er) with (fst er, snd er) at 3 by (destruct er; reflexivity).
  assert (EQ : pre ++ prev :: er :: rest = (pre ++ [prev]) ++ er :: rest) by (rewrite <- app_assoc; reflexivity). rewrite EQ in *.
  rewrite <- (IH (pre ++ [prev]) er ns RD R).
  - destruct er as [i r]. reflexivity.
  - destruct pre; cbn in *; exact H.
Qed.

Lemma orientation_ok : forall c er k, ready c -> (forall x, In x (er :: k) -> exists p, oriented (c_edges c) x = Some p) -> k <> [] -> exists d, direct_orientation c (er :: k) = Ok d.
Proof.
  intros c er k RD H NE.
  assert (V : forall x, In x (er :: k) -> forall r, exists v, edge_vector c (fst x, r) = Ok v).
  { intros x I r. destruct (H x I) as [p O]. unfold oriented in O. destruct (nth_error (c_edges c) (fst x)) as [e|] eqn:E; [|discriminate O].
    destruct (rd_bounds c RD e (nth_error_In _ _ E)) as [B1 B2]. unfold edge_vector, at_throw. cbn [fst snd]. rewrite E. cbn [bindO].
    destruct (at_ub_lt' (c_mesh c) (fst e) B1) as (P & -> & _) || idtac. destruct r.
    - destruct (at_ub_lt' (c_mesh c) (snd e) B2) as (Q & -> & _). cbn [bindO]. destruct (at_ub_lt' (c_mesh c) (fst e) B1) as (P' & -> & _). eexists. reflexivity.
    - destruct (at_ub_lt' (c_mesh c) (fst e) B1) as (P' & -> & _). cbn [bindO]. destruct (at_ub_lt' (c_mesh c) (snd e) B2) as (Q & -> & _). eexists. reflexivity. }
  unfold direct_orientation. destruct (V er (or_introl eq_refl) false) as (AB & ->). cbn [bindO].
  assert (T : exists z, first_turn c AB k = Ok z).
  { assert (V' : forall x, In x k -> exists v, edge_vector c x = Ok v). { intros x I. destruct (V x (or_intror I) (snd x)) as [v E]. exists v. destruct x. exact E. }
    clear H V. induction k as [|x k IH]; [congruence|]. cbn [first_turn]. destruct (V' x (or_introl eq_refl)) as (v & ->). cbn [bindO].
    destruct k as [|y k]; [eexists; reflexivity|]. destruct (Rltb _ _); [|eexists; reflexivity]. apply IH; [discriminate|]. intros; apply V'; right; assumption. }
  destruct T as (z & ->). eexists. reflexivity.
Qed.

Lemma contour_from_ring : forall c e k ns, ready c -> ring (c_edges c) ((e, false) :: k) ns ->
  exists d, direct_orientation c ((e, false) :: k) = Ok d /\ contour_from c e = Ok (if d then (e, false) :: k else flip_contour ((e, false) :: k)).
Proof.
  intros c e k ns RD R. destruct (ring_length _ _ _ R) as [L1 L2]. pose proof (rg_three _ _ _ R) as L3. cbn [length] in L1.
  assert (NE : k <> []) by (intros ->; cbn in L1; lia).
  destruct (orientation_ok c (e, false) k RD) as (d & Hd); [|exact NE|].
  { intros x I. destruct (ring_nodup _ _ _ R) as (_ & _ & IN). destruct (IN x I) as (p & O & _). exists p. exact O. }
  exists d. split; [exact Hd|]. unfold contour_from. destruct k as [|b l]; [congruence|]. destruct (ring_step c _ _ _ _ RD R) as [NX _]. cbn [fst snd] in NX. rewrite NX. cbn [bindE bindO].
  replace (length (c_edges c) - 1) with (length (b :: l)) by (cbn [length] in *; lia).
  pose proof (loop_ring c (e, false) (b :: l) [] (e, false) ns RD R eq_refl) as LR. cbn [app fst snd hd] in LR. rewrite LR. cbn [bindO]. rewrite Hd. reflexivity.
Qed.

(** ** Extreme edges *)
Lemma extreme_edge_ok : forall c n, ready c -> In n (c_nodes c) -> exists e, extreme_edge c n = Ok (Some e) /\ e < length (c_edges c).
Proof.
  intros c n RD H. rewrite (rd_nodes c RD) in H. apply extract_nodes_spec in H as (e & He & D). destruct (In_nth_error _ _ He) as [i Hi].
  assert (LE : 0 < length (c_edges c)) by (destruct (c_edges c); [destruct He|cbn; lia]).
  destruct (rd_bounds c RD e He) as [B1 B2]. assert (BN : n < length (c_mesh c)) by (destruct D; lia).
  unfold extreme_edge. rewrite (rd_connected c RD), connected_spec. assert (IN : In i (edges_of n (c_edges c))) by (apply edges_of_In; exists e; auto).
  assert (AL : forall j, j < length (c_edges c) -> exists a, extreme_angle c n j = Ok a).
  { intros j Hj. unfold extreme_angle. destruct (at_ub_lt' _ _ BN) as (A & -> & _). cbn [bindO]. unfold at_throw. destruct (nth_error (c_edges c) j) as [f|] eqn:F; [|apply nth_error_None in F; lia].
    cbn [bindO]. destruct (rd_bounds c RD f (nth_error_In _ _ F)) as [F1 F2]. assert (BB : (if fst f =? n then snd f else fst f) < length (c_mesh c)) by (destruct (fst f =? n); assumption).
    destruct (at_ub_lt' _ _ BB) as (B & -> & _). eexists. reflexivity. }
  assert (CL : forall j, In j (edges_of n (c_edges c)) -> j < length (c_edges c)). { intros j Hj. apply edges_of_In in Hj as (f & Hf & _). apply nth_error_Some. congruence. }
  destruct (edges_of n (c_edges c)) as [|e0 el] eqn:EE; [destruct IN|]. destruct (at_ub_lt' _ _ BN) as (A & -> & _). cbn [bindO]. destruct (AL 0 LE) as (a0 & ->). cbn [bindO].
  set (F := fun '(ret, angle) i => _). assert (G : forall l r, (forall j, In j l -> j < length (c_edges c)) -> fst r < length (c_edges c) -> exists r', foldO F l r = Ok r' /\ fst r' < length (c_edges c)).
  { induction l as [|j l IH]; intros [r a] Hl Hr; cbn [foldO]; [eexists; split; [reflexivity|exact Hr]|].
    assert (EF : exists r', F (r, a) j = Ok r' /\ fst r' < length (c_edges c)).
    { unfold F. destruct (AL j (Hl j (or_introl eq_refl))) as (a' & ->). cbn [bindO]. eexists. split; [reflexivity|]. destruct (if keep_lowest_angle _ _ _ _ then _ else _); [apply Hl; left; reflexivity|exact Hr]. }
    destruct EF as (r' & -> & Hr'). cbn [bindO]. apply IH; [intros; apply Hl; right; assumption|exact Hr']. }
  destruct (G (e0 :: el) (0, a0) CL LE) as (r' & -> & Hr'). cbn [bindO]. exists (fst r'). auto.
Qed.
Lemma extreme_edges_ok : forall c, ready c -> c_edges c <> [] -> exists e1 e2, extreme_edges c = Ok (Some (e1, e2)) /\ e1 < length (c_edges c) /\ e2 < length (c_edges c).
Proof.
  intros c RD NE. assert (LN : 0 < length (c_nodes c)).
  { rewrite (rd_nodes c RD). destruct (c_edges c) as [|e es] eqn:E; [congruence|]. assert (I : In (fst e) (extract_nodes (e :: es))) by (apply extract_nodes_spec; exists e; split; [left; reflexivity|auto]).
    destruct (extract_nodes (e :: es)); [destruct I|cbn; lia]. }
  assert (NB : forall i n, nth_error (c_nodes c) i = Some n -> n < length (c_mesh c)).
  { intros i n H. apply nth_error_In in H. rewrite (rd_nodes c RD) in H. apply extract_nodes_spec in H as (e & He & D). destruct (rd_bounds c RD e He). destruct D; lia. }
  assert (LM : 0 < length (c_mesh c)). { destruct (c_edges c) as [|e es] eqn:E; [congruence|]. destruct (rd_bounds c RD e) as [B _]; [rewrite E; left; reflexivity|]. lia. }
  assert (FX : exists a b, find_extreme_nodes c = Ok (a, b) /\ In a (c_nodes c) /\ In b (c_nodes c)).
  { unfold find_extreme_nodes. destruct (at_ub_lt' _ _ LM) as (p0 & -> & _). cbn [bindO]. set (F := fun '(ix, xmin, iy, ymax) i => _).
    assert (G : forall l ix x iy y, (forall j, In j l -> j < length (c_nodes c)) -> ix < length (c_nodes c) -> iy < length (c_nodes c) ->
      exists ix' x' iy' y', foldO F l (ix, x, iy, y) = Ok (ix', x', iy', y') /\ ix' < length (c_nodes c) /\ iy' < length (c_nodes c)).
    { induction l as [|j l IH]; intros ix x iy y Hl H1 H2; cbn [foldO]; [exists ix, x, iy, y; auto|].
      assert (Hj : j < length (c_nodes c)) by (apply Hl; left; reflexivity).
      assert (EF : exists ix' x' iy' y', F (ix, x, iy, y) j = Ok (ix', x', iy', y') /\ ix' < length (c_nodes c) /\ iy' < length (c_nodes c)).
      { unfold F. unfold at_throw. destruct (nth_error (c_nodes c) j) as [n|] eqn:E; [|apply nth_error_None in E; lia]. cbn [bindO].
        destruct (at_ub_lt' _ _ (NB j n E)) as (p & -> & _). cbn [bindO]. destruct (Rltb (vx p) x); destruct (Rltb y (vy p)); do 4 eexists; (split; [reflexivity|auto]). }
      destruct EF as (ix' & x' & iy' & y' & -> & H1' & H2'). cbn [bindO]. apply IH; auto. intros; apply Hl; right; assumption. }
    destruct (G (seq 1 (length (c_nodes c) - 1)) 0 (vx p0) 0 (vx p0)) as (ix & x & iy & y & -> & H1 & H2); [intros j Hj; apply in_seq in Hj; lia|exact LN|exact LN|]. cbn [bindO].
    unfold at_throw. destruct (nth_error (c_nodes c) ix) as [a|] eqn:E1; [|apply nth_error_None in E1; lia]. destruct (nth_error (c_nodes c) iy) as [b|] eqn:E2; [|apply nth_error_None in E2; lia].
    cbn [bindO]. exists a, b. split; [reflexivity|]. split; eapply nth_error_In; eassumption. }
  destruct FX as (a & b & FX & IA & IB). unfold extreme_edges. rewrite FX. cbn [bindO fst snd]. destruct (extreme_edge_ok c a RD IA) as (e1 & -> & L1). cbn [bindE bindO].
  destruct (extreme_edge_ok c b RD IB) as (e2 & -> & L2). cbn [bindE bindO]. exists e1, e2. auto.
Qed.
