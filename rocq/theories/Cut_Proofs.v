(** Cutting a mesh of triangles by the free surface: the scan of the edges. *)
From Coq Require Import Reals List Bool Arith ZArith Lra Lia.
From Verif Require Import Common Geometry Sim_Model Hull_Model Hull_Proofs Blocked_Model Blocked_Proofs Mesh_Model Mesh_Spec Mesh_Proofs Mesh_Props.
Import ListNotations.
Open Scope R_scope.

(** The static part of a mesh of triangles with three distinct vertices each. *)
Record well_formed (m : mesh) : Prop := {
  wf_edges : (m_nedges m <= length (m_edges m))%nat;
  wf_all : length (m_all m) = (m_nnodes m + m_nedges m)%nat;
  wf_facets : (m_nfacets m <= length (m_facets m))%nat;
  wf_oef : length (m_oef m) = m_nfacets m;
  wf_fpe : length (m_fpe m) = m_nedges m;
  wf_ends : forall e a b, nth_error (static_edges m) e = Some (a, b) -> (a < m_nnodes m /\ b < m_nnodes m)%nat;
  wf_fpe_in : forall e l f, nth_error (m_fpe m) e = Some l -> In f l -> (f < m_nfacets m)%nat;
  wf_fpe_has : forall f oes o, nth_error (m_oef m) f = Some oes -> In o oes -> exists l, nth_error (m_fpe m) (Nat.div2 o) = Some l /\ In f l;
  wf_tri : forall f oes fc, nth_error (m_oef m) f = Some oes -> nth_error (m_facets m) f = Some fc ->
    exists a b c, mf_vertices fc = [a; b; c] /\ a <> b /\ b <> c /\ c <> a /\ map (ends (static_edges m)) oes = [Some (a, b); Some (b, c); Some (c, a)]
}.

(** ** Lists *)
Lemma at_ub_app1 : forall {A} (l k : list A) i x, nth_error l i = Some x -> at_ub (l ++ k) i = Ok x.
Proof. intros. unfold at_ub. rewrite (nth_error_mono _ _ _ _ H). reflexivity. Qed.
Lemma at_ub_nth : forall {A} (l : list A) i x, nth_error l i = Some x -> at_ub l i = Ok x.
Proof. intros. unfold at_ub. rewrite H. reflexivity. Qed.
Lemma set_ub_mid : forall {A} (l1 : list A) x l2 v, set_ub (l1 ++ x :: l2) (length l1) v = Ok (l1 ++ v :: l2).
Proof. induction l1 as [|a l1 IH]; intros; cbn; [reflexivity|]. rewrite IH. reflexivity. Qed.
Lemma seq_snoc : forall k, seq 0 (S k) = seq 0 k ++ [k].
Proof. intros. rewrite seq_S. reflexivity. Qed.
Lemma flat_pairs_length : forall {A B} (f g : A -> B) l, length (flat_map (fun e => [f e; g e]) l) = (2 * length l)%nat.
Proof. induction l; cbn in *; lia. Qed.
Lemma flat_pairs_first : forall {A B} (f g : A -> B) l i e, nth_error l i = Some e -> nth_error (flat_map (fun e => [f e; g e]) l) (2 * i) = Some (f e).
Proof.
  induction l as [|a l IH]; intros [|i] e H; try discriminate H.
  - injection H as ->. reflexivity.
  - replace (2 * S i)%nat with (S (S (2 * i))) by lia. cbn [flat_map app nth_error]. apply IH. exact H.
Qed.
Lemma flat_pairs_second : forall {A B} (f g : A -> B) l i e, nth_error l i = Some e -> nth_error (flat_map (fun e => [f e; g e]) l) (S (2 * i)) = Some (g e).
Proof.
  induction l as [|a l IH]; intros [|i] e H; try discriminate H.
  - injection H as ->. reflexivity.
  - replace (2 * S i)%nat with (S (S (2 * i))) by lia. cbn [flat_map app nth_error]. apply IH. exact H.
Qed.
Lemma nth_error_seq0 : forall n i, (i < n)%nat -> nth_error (seq 0 n) i = Some i.
Proof.
  intros. rewrite (nth_error_nth' (seq 0 n) O) by (rewrite seq_length; assumption). rewrite seq_nth by assumption. reflexivity.
Qed.
Lemma nth_error_some : forall {A} (l : list A) i d, (i < length l)%nat -> nth_error l i = Some (nth i l d).
Proof. intros. apply nth_error_nth'. assumption. Qed.

(** ** Statuses *)
Lemma status_cases : forall z0 z1,
  (z0 = 0 /\ z1 = 0 /\ immersion_status z0 z1 = 0%nat) \/ (0 < z0 /\ z1 = 0 /\ immersion_status z0 z1 = 1%nat) \/
  (z0 = 0 /\ 0 < z1 /\ immersion_status z0 z1 = 2%nat) \/ (0 < z0 /\ 0 < z1 /\ immersion_status z0 z1 = 3%nat) \/
  (z0 < 0 /\ z1 = 0 /\ immersion_status z0 z1 = 4%nat) \/ (z0 < 0 /\ 0 < z1 /\ immersion_status z0 z1 = 6%nat) \/
  (z0 = 0 /\ z1 < 0 /\ immersion_status z0 z1 = 8%nat) \/ (0 < z0 /\ z1 < 0 /\ immersion_status z0 z1 = 9%nat) \/
  (z0 < 0 /\ z1 < 0 /\ immersion_status z0 z1 = 12%nat).
Proof.
  intros. unfold immersion_status.
  destruct (Rltb_dec 0 z0) as [[-> ?]|[-> ?]]; destruct (Rltb_dec 0 z1) as [[-> ?]|[-> ?]];
  destruct (Rltb_dec z0 0) as [[-> ?]|[-> ?]]; destruct (Rltb_dec z1 0) as [[-> ?]|[-> ?]]; try (exfalso; lra); cbn;
  repeat first [ left; split; [lra|split; [lra|reflexivity]] | right ]; (split; [lra|split; [lra|reflexivity]]).
Qed.
Lemma crosses_iff : forall z0 z1, crosses (immersion_status z0 z1) = true <-> z0 * z1 < 0.
Proof.
  intros. destruct (status_cases z0 z1) as [H|[H|[H|[H|[H|[H|[H|[H|H]]]]]]]]; destruct H as (A & B & ->); cbn; split; intros; try discriminate; try reflexivity; try nra.
Qed.

Section Scan.
  Variables (m0 : mesh) (rel0 waves0 : list R).
  Let nn := m_nnodes m0.
  Let ne := m_nedges m0.
  Let E0 := static_edges m0.
  Let N0 := static_nodes m0.

  Definition za (i : nat) : R := nth i rel0 0.
  Definition wa (i : nat) : R := nth i waves0 0.
  Definition pa (i : nat) : vec3 := nth i N0 v0.
  Definition edge0 (e : nat) : nat * nat := nth e E0 (O, O).
  Definition est (e : nat) : nat := immersion_status (za (fst (edge0 e))) (za (snd (edge0 e))).
  Definition crossing (e : nat) : bool := crosses (est e).
  Definition cl (k : nat) : list nat := filter crossing (seq 0 k).
  Definition rank (e : nat) : nat := length (cl e).
  Definition mid (e : nat) : nat := (nn + rank e)%nat.
  Definition midpt (e : nat) : vec3 := edge_intersection (pa (fst (edge0 e))) (za (fst (edge0 e))) (pa (snd (edge0 e))) (za (snd (edge0 e))).
  Definition midw (e : nat) : R :=
    wa (fst (edge0 e)) + za (fst (edge0 e)) / (za (fst (edge0 e)) - za (snd (edge0 e))) * (wa (snd (edge0 e)) - wa (fst (edge0 e))).
  Definition sub1 (e : nat) : nat := Nat.lor (Nat.land (est e) 1 * 3) 4.
  Definition sub2 (e : nat) : nat := Nat.lor (Nat.div2 (Nat.land (est e) 2) * 3) 4.
  Definition E1 (k : nat) : list (nat * nat) := E0 ++ flat_map (fun e => [(fst (edge0 e), mid e); (mid e, snd (edge0 e))]) (cl k).
  Definition status1 (k : nat) : list nat := map est (seq 0 k) ++ repeat O (ne - k) ++ flat_map (fun e => [sub1 e; sub2 e]) (cl k).
  Definition split1 (k : nat) : list nat := map (fun e => if crossing e then (ne + 2 * rank e)%nat else O) (seq 0 k) ++ repeat O (ne - k).
  Definition touching (e : nat) : bool := crosses (est e) || both_ends_touch (est e) || one_end_touches (est e).

  Lemma cl_succ : forall k, cl (S k) = cl k ++ (if crossing k then [k] else []).
  Proof. intros. unfold cl. rewrite seq_snoc, filter_app. reflexivity. Qed.
  Lemma rank_succ : forall k, rank (S k) = (rank k + (if crossing k then 1 else 0))%nat.
  Proof. intros. unfold rank. rewrite cl_succ, app_length. destruct (crossing k); reflexivity. Qed.
  Lemma rank_le : forall k, (rank k <= k)%nat.
  Proof. induction k; [reflexivity|]. rewrite rank_succ. destruct (crossing k); lia. Qed.
  Lemma rank_mono : forall e k, (e <= k)%nat -> (rank e <= rank k)%nat.
  Proof. intros e k H. induction H; [lia|]. rewrite rank_succ. lia. Qed.
  Lemma rank_lt : forall e k, (e < k)%nat -> crossing e = true -> (rank e < rank k)%nat.
  Proof. intros e k H C. pose proof (rank_mono (S e) k H) as R'. rewrite rank_succ, C in R'. lia. Qed.
  Lemma nth_cl : forall k e, (e < k)%nat -> crossing e = true -> nth_error (cl k) (rank e) = Some e.
  Proof.
    induction k as [|k IH]; intros e H C; [lia|]. rewrite cl_succ. destruct (Nat.eq_dec e k) as [->|N].
    - rewrite C. unfold rank. rewrite nth_error_app2, Nat.sub_diag by lia. reflexivity.
    - apply nth_error_mono. apply IH; [lia|exact C].
  Qed.
  Lemma mid_inj : forall e e', (e < ne)%nat -> (e' < ne)%nat -> crossing e = true -> crossing e' = true -> mid e = mid e' -> e = e'.
  Proof.
    intros e e' H H' C C' M. unfold mid in M. destruct (Nat.lt_trichotomy e e') as [L|[L|L]]; [|exact L|].
    - pose proof (rank_lt e e' L C). lia.
    - pose proof (rank_lt e' e L C'). lia.
  Qed.

  (** The state of the scan once the first [k] edges have been examined. *)
  Record sinv (k : nat) (s : scan) : Prop := {
    v_edges : m_edges (i_mesh (s_inter s)) = E1 k;
    v_facets : m_facets (i_mesh (s_inter s)) = firstn (m_nfacets m0) (m_facets m0);
    v_fpe : m_fpe (i_mesh (s_inter s)) = m_fpe m0;
    v_oef : m_oef (i_mesh (s_inter s)) = m_oef m0;
    v_counts : m_nnodes (i_mesh (s_inter s)) = nn /\ m_nedges (i_mesh (s_inter s)) = ne /\ m_nfacets (i_mesh (s_inter s)) = m_nfacets m0;
    v_all : length (m_all (i_mesh (s_inter s))) = (nn + ne)%nat /\ firstn (nn + rank k) (m_all (i_mesh (s_inter s))) = N0 ++ map midpt (cl k);
    v_total : m_total (i_mesh (s_inter s)) = (nn + rank k)%nat;
    v_orientation : m_orientation (i_mesh (s_inter s)) = m_orientation m0;
    v_rel : i_rel (s_inter s) = rel0 ++ map (fun _ => 0) (cl k);
    v_waves : i_waves (s_inter s) = waves0 ++ map midw (cl k);
    v_lists : i_emerged (s_inter s) = [] /\ i_immersed (s_inter s) = [] /\ i_on (s_inter s) = [] /\ i_surface (s_inter s) = [];
    v_status : s_status s = status1 k;
    v_split : s_split s = split1 k;
    v_flags : length (s_flags s) = m_nfacets m0;
    v_flagged : forall e l f, (e < k)%nat -> touching e = true -> nth_error (m_fpe m0) e = Some l -> In f l -> nth_error (s_flags s) f = Some true
  }.

  Hypothesis WF : well_formed m0.
  Hypothesis HR : length rel0 = nn.
  Hypothesis HW : length waves0 = nn.

  Lemma E0_length : length E0 = ne. Proof. unfold E0, static_edges. rewrite firstn_length. pose proof (wf_edges _ WF). lia. Qed.
  Lemma N0_length : length N0 = nn. Proof. unfold N0, static_nodes. rewrite firstn_length. pose proof (wf_all _ WF). unfold nn. lia. Qed.
  Lemma E0_nth : forall e, (e < ne)%nat -> nth_error E0 e = Some (edge0 e).
  Proof. intros. apply nth_error_some. rewrite E0_length. assumption. Qed.
  Lemma E1_at : forall k e, (e < ne)%nat -> at_ub (E1 k) e = Ok (edge0 e).
  Proof. intros. unfold E1. apply at_ub_app1. apply E0_nth. assumption. Qed.
  Lemma edge0_ends : forall e, (e < ne)%nat -> (fst (edge0 e) < nn /\ snd (edge0 e) < nn)%nat.
  Proof. intros e H. apply (wf_ends _ WF e). rewrite <- surjective_pairing. apply E0_nth. exact H. Qed.

  Lemma flags_set : forall fs fl, (forall f, In f fs -> (f < length fl)%nat) -> exists fl', foldO (fun fl f => set_ub fl f true) fs fl = Ok fl' /\ length fl' = length fl /\
    (forall f, In f fs -> nth_error fl' f = Some true) /\ (forall f, nth_error fl f = Some true -> nth_error fl' f = Some true).
  Proof.
    induction fs as [|f fs IH]; intros fl H; cbn [foldO].
    - exists fl. repeat split; auto. intros f [].
    - destruct (set_ub_ok fl f true (H f (or_introl eq_refl))) as (fl1 & E). rewrite E. cbn [bindO].
      pose proof (set_ub_spec _ _ _ _ E) as (L & Sf & O).
      destruct (IH fl1) as (fl' & E' & L' & A & B). { intros g Hg. rewrite L. apply H. right. exact Hg. }
      exists fl'. split; [exact E'|]. split; [congruence|].
      assert (K : forall g, nth_error fl g = Some true -> nth_error fl1 g = Some true).
      { intros g Hg. destruct (Nat.eq_dec g f) as [->|N]; [exact Sf|]. rewrite O by congruence. exact Hg. }
      split; [|intros g Hg; apply B, K; exact Hg].
      intros g [<-|Hg]; [apply B; exact Sf|apply A; exact Hg].
  Qed.

  Lemma scan_step : forall k s, sinv k s -> (k < ne)%nat -> exists s', scan_edge s k = Ok s' /\ sinv (S k) s'.
  Proof.
    intros k s V K. destruct V as [V1 V2 V3 V4 V5 V6 V7 V8 V9 V10 V11 V12 V13 V14 V15].
    destruct (edge0_ends k K) as [Ha Hb]. unfold scan_edge. rewrite V1.
    rewrite (E1_at k k K). cbn [bindO]. rewrite V9.
    assert (RZ : forall i, (i < nn)%nat -> nth_error rel0 i = Some (za i)) by (intros; apply nth_error_some; lia).
    assert (RW : forall i, (i < nn)%nat -> nth_error waves0 i = Some (wa i)) by (intros; apply nth_error_some; lia).
    rewrite (at_ub_app1 rel0 _ _ _ (RZ _ Ha)). cbn [bindO]. rewrite (at_ub_app1 rel0 _ _ _ (RZ _ Hb)). cbn [bindO].
    change (immersion_status (za (fst (edge0 k))) (za (snd (edge0 k)))) with (est k).
    assert (LS : length (map est (seq 0 k)) = k) by (rewrite map_length, seq_length; reflexivity).
    assert (RE : repeat O (ne - k) = O :: repeat O (ne - S k)) by (replace (ne - k)%nat with (S (ne - S k)) by lia; reflexivity).
    assert (S1 : set_ub (s_status s) k (est k) = Ok (map est (seq 0 (S k)) ++ repeat O (ne - S k) ++ flat_map (fun e => [sub1 e; sub2 e]) (cl k))).
    { rewrite V12. unfold status1. rewrite RE. cbn [app].
      pose proof (set_ub_mid (map est (seq 0 k)) O (repeat O (ne - S k) ++ flat_map (fun e => [sub1 e; sub2 e]) (cl k)) (est k)) as SM. rewrite LS in SM. rewrite SM.
      f_equal. rewrite seq_snoc, map_app, <- app_assoc. reflexivity. }
    rewrite S1. cbn [bindO].
    assert (LP : length (map (fun e => if crossing e then (ne + 2 * rank e)%nat else O) (seq 0 k)) = k) by (rewrite map_length, seq_length; reflexivity).
    assert (SPL : forall x, set_ub (s_split s) k x = Ok (map (fun e => if crossing e then (ne + 2 * rank e)%nat else O) (seq 0 k) ++ x :: repeat O (ne - S k))).
    { intros x. rewrite V13. unfold split1. rewrite RE.
      pose proof (set_ub_mid (map (fun e => if crossing e then (ne + 2 * rank e)%nat else O) (seq 0 k)) O (repeat O (ne - S k)) x) as SM. rewrite LP in SM. exact SM. }
    destruct (nth_error (m_fpe m0) k) as [fs|] eqn:EF.
    2:{ apply nth_error_None in EF. rewrite (wf_fpe _ WF) in EF. fold ne in EF. lia. }
    destruct (flags_set fs (s_flags s)) as (fl' & EFL & LFL & FA & FB).
    { intros f Hf. rewrite V14. exact (wf_fpe_in _ WF _ _ _ EF Hf). }
    assert (FLAGS : exists fl, (if crosses (est k) || both_ends_touch (est k) || one_end_touches (est k)
               then do fs <- at_ub (m_fpe m0) k; foldO (fun fl f => set_ub fl f true) fs (s_flags s)
               else Ok (s_flags s)) = Ok fl /\ length fl = m_nfacets m0 /\
               (forall e l f, (e < S k)%nat -> touching e = true -> nth_error (m_fpe m0) e = Some l -> In f l -> nth_error fl f = Some true)).
    { fold (touching k). destruct (touching k) eqn:T.
      - rewrite (at_ub_nth _ _ _ EF). cbn [bindO]. exists fl'. split; [exact EFL|]. split; [congruence|].
        intros e l f He Te El Hf. destruct (Nat.eq_dec e k) as [->|N].
        + rewrite EF in El. injection El as <-. apply FA. exact Hf.
        + apply FB. apply (V15 e l f); auto. lia.
      - exists (s_flags s). split; [reflexivity|]. split; [exact V14|]. intros e l f He Te El Hf. apply (V15 e l f); auto.
        destruct (Nat.eq_dec e k) as [->|N]; [congruence|lia]. }
    destruct FLAGS as (fl & FL1 & FL2 & FL3).
    change (crosses (est k)) with (crossing k) at 1.
    destruct (crossing k) eqn:C.
    - (* the edge is cut *)
      unfold split_partially_immersed_edge. rewrite V1, (E1_at k k K). cbn [bindO].
      destruct (edge0 k) as [a b] eqn:Eab. cbn [fst snd] in *.
      destruct V6 as [V6a V6b].
      assert (PT : forall i, (i < nn)%nat -> nth_error (m_all (i_mesh (s_inter s))) i = Some (pa i)).
      { intros i Hi. rewrite <- (firstn_skipn (nn + rank k) (m_all (i_mesh (s_inter s)))), V6b, <- app_assoc. apply nth_error_mono.
        apply nth_error_some. rewrite N0_length. exact Hi. }
      rewrite (at_ub_nth _ _ _ (PT a Ha)). cbn [bindO]. rewrite (at_ub_nth _ _ _ (PT b Hb)). cbn [bindO].
      rewrite V9, (at_ub_app1 rel0 _ _ _ (RZ _ Ha)). cbn [bindO]. rewrite (at_ub_app1 rel0 _ _ _ (RZ _ Hb)). cbn [bindO].
      rewrite V10, (at_ub_app1 waves0 _ _ _ (RW _ Ha)). cbn [bindO]. rewrite (at_ub_app1 waves0 _ _ _ (RW _ Hb)). cbn [bindO].
      unfold add_vertex. rewrite V7.
      pose proof (rank_le k) as RL.
      destruct (set_ub_ok (m_all (i_mesh (s_inter s))) (nn + rank k) (edge_intersection (pa a) (za a) (pa b) (za b))) as (all & EA). { rewrite V6a. lia. }
      rewrite EA. cbn [bindO add_edge m_edges m_facets m_fpe m_oef m_nnodes m_nedges m_nfacets m_all m_total m_orientation].
      assert (NS : nth_error (map est (seq 0 (S k)) ++ repeat O (ne - S k) ++ flat_map (fun e => [sub1 e; sub2 e]) (cl k)) k = Some (est k)).
      { apply nth_error_mono. rewrite (map_nth_error est k (seq 0 (S k)) (d := k)); [reflexivity|]. apply nth_error_seq0. lia. }
      rewrite (at_ub_nth _ _ _ NS). cbn [bindO]. rewrite SPL. cbn [bindO]. cbn [i_mesh m_fpe]. rewrite V3, FL1. cbn [bindO].
      eexists. split; [reflexivity|]. pose proof (set_ub_firstn _ _ _ _ EA) as FN. pose proof (set_ub_spec _ _ _ _ EA) as (LA & _ & _).
      assert (RS : rank (S k) = S (rank k)) by (rewrite rank_succ, C; lia).
      assert (CS : cl (S k) = cl k ++ [k]) by (rewrite cl_succ, C; reflexivity).
      constructor; cbn [s_inter s_split s_status s_flags i_mesh i_rel i_waves i_emerged i_immersed i_on i_surface m_edges m_facets m_fpe m_oef m_nnodes m_nedges m_nfacets m_all m_total m_orientation]; try assumption.
      + rewrite V1. unfold E1. rewrite CS, flat_map_app. cbn [flat_map app]. rewrite Eab. cbn [fst snd]. unfold mid. rewrite <- !app_assoc. reflexivity.
      + reflexivity.
      + split; [congruence|]. rewrite RS. replace (nn + S (rank k))%nat with (S (nn + rank k)) by lia. rewrite FN, V6b, CS, map_app, <- app_assoc.
        cbn [map]. unfold midpt. rewrite Eab. reflexivity.
      + rewrite RS. lia.
      + rewrite CS, map_app, <- app_assoc. reflexivity.
      + rewrite CS, map_app, <- app_assoc. cbn [map]. unfold midw. rewrite Eab. reflexivity.
      + unfold status1. rewrite CS, flat_map_app. cbn [flat_map app]. unfold sub1, sub2. rewrite <- !app_assoc. reflexivity.
      + unfold split1. rewrite seq_snoc, map_app, <- app_assoc. cbn [map app]. rewrite C. do 2 f_equal.
        rewrite V1. unfold E1. rewrite app_length, flat_pairs_length, E0_length. reflexivity.
    - cbn [bindO]. rewrite V3, FL1. cbn [bindO]. eexists. split; [reflexivity|].
      assert (RS : rank (S k) = rank k) by (rewrite rank_succ, C; lia).
      assert (CS : cl (S k) = cl k) by (rewrite cl_succ, C, app_nil_r; reflexivity).
      constructor; cbn [s_inter s_split s_status s_flags]; rewrite ?RS, ?CS; try assumption.
      + unfold E1. rewrite CS. exact V1.
      + unfold status1. rewrite CS. reflexivity.
      + rewrite V13. unfold split1. rewrite seq_snoc, map_app, <- app_assoc. cbn [map app]. rewrite C, RE. reflexivity.
  Qed.

  Lemma scan_all : forall j k s, sinv k s -> (k + j = ne)%nat -> exists s', foldO scan_edge (seq k j) s = Ok s' /\ sinv ne s'.
  Proof.
    induction j as [|j IH]; intros k s V H; cbn [seq foldO].
    - exists s. split; [reflexivity|]. replace ne with k by lia. exact V.
    - destruct (scan_step k s V) as (s1 & E & V1); [lia|]. rewrite E. cbn [bindO]. apply (IH (S k) s1 V1). lia.
  Qed.

  (** What the scan leaves for an oriented edge running from [a] to [b]. *)
  Definition sub_first (o : nat) : nat := oriented_id (if Nat.odd o then S (ne + 2 * rank (Nat.div2 o)) else (ne + 2 * rank (Nat.div2 o)))%nat (Nat.odd o).
  Definition sub_second (o : nat) : nat := oriented_id (if Nat.odd o then (ne + 2 * rank (Nat.div2 o)) else S (ne + 2 * rank (Nat.div2 o)))%nat (Nat.odd o).
  Definition omid (o : nat) : nat := mid (Nat.div2 o).

  Lemma oriented_edge0 : forall o a b, ends E0 o = Some (a, b) -> (Nat.div2 o < ne)%nat /\ edge0 (Nat.div2 o) = if Nat.odd o then (b, a) else (a, b).
  Proof.
    intros o a b H. unfold ends in H. destruct (nth_error E0 (Nat.div2 o)) as [[x y]|] eqn:E; [|discriminate].
    assert (L : (Nat.div2 o < ne)%nat) by (rewrite <- E0_length; apply nth_error_Some; congruence).
    split; [exact L|]. rewrite (E0_nth _ L) in E. injection E as ->. destruct (Nat.odd o); injection H as -> ->; reflexivity.
  Qed.
  Lemma status_at : forall e, (e < ne)%nat -> at_ub (status1 ne) e = Ok (est e).
  Proof.
    intros. unfold status1. apply at_ub_app1. rewrite (map_nth_error est e (seq 0 ne) (d := e)); [reflexivity|]. apply nth_error_seq0. assumption.
  Qed.
  Lemma substatus_at : forall e, (e < ne)%nat -> crossing e = true ->
    at_ub (status1 ne) (ne + 2 * rank e) = Ok (sub1 e) /\ at_ub (status1 ne) (S (ne + 2 * rank e)) = Ok (sub2 e).
  Proof.
    intros e H C. unfold status1. rewrite Nat.sub_diag. cbn [repeat app].
    assert (L : length (map est (seq 0 ne)) = ne) by (rewrite map_length, seq_length; reflexivity).
    split; apply at_ub_nth; rewrite nth_error_app2 by lia; rewrite L.
    - replace (ne + 2 * rank e - ne)%nat with (2 * rank e)%nat by lia. apply flat_pairs_first. apply nth_cl; assumption.
    - replace (S (ne + 2 * rank e) - ne)%nat with (S (2 * rank e)) by lia. apply flat_pairs_second. apply nth_cl; assumption.
  Qed.
  Lemma split_at : forall e, (e < ne)%nat -> crossing e = true -> at_ub (split1 ne) e = Ok (ne + 2 * rank e)%nat.
  Proof.
    intros e H C. unfold split1. apply at_ub_app1. rewrite (map_nth_error _ e (seq 0 ne) (d := e)); [rewrite C; reflexivity|]. apply nth_error_seq0. assumption.
  Qed.
  Lemma ends_sub : forall o a b, ends E0 o = Some (a, b) -> crossing (Nat.div2 o) = true ->
    ends (E1 ne) (sub_first o) = Some (a, omid o) /\ ends (E1 ne) (sub_second o) = Some (omid o, b).
  Proof.
    intros o a b H C. destruct (oriented_edge0 o a b H) as [L Ee].
    assert (N1 : nth_error (E1 ne) (ne + 2 * rank (Nat.div2 o)) = Some (fst (edge0 (Nat.div2 o)), mid (Nat.div2 o))).
    { unfold E1. rewrite nth_error_app2 by (rewrite E0_length; lia). rewrite E0_length. replace (ne + 2 * rank (Nat.div2 o) - ne)%nat with (2 * rank (Nat.div2 o))%nat by lia.
      apply (flat_pairs_first (fun e => (fst (edge0 e), mid e)) (fun e => (mid e, snd (edge0 e)))). apply nth_cl; assumption. }
    assert (N2 : nth_error (E1 ne) (S (ne + 2 * rank (Nat.div2 o))) = Some (mid (Nat.div2 o), snd (edge0 (Nat.div2 o)))).
    { unfold E1. rewrite nth_error_app2 by (rewrite E0_length; lia). rewrite E0_length. replace (S (ne + 2 * rank (Nat.div2 o)) - ne)%nat with (S (2 * rank (Nat.div2 o))) by lia.
      apply (flat_pairs_second (fun e => (fst (edge0 e), mid e)) (fun e => (mid e, snd (edge0 e)))). apply nth_cl; assumption. }
    unfold ends, sub_first, sub_second, omid. rewrite !oriented_div2, !oriented_odd. destruct (Nat.odd o); rewrite N1, N2, Ee; split; reflexivity.
  Qed.
  Lemma oriented_status : forall o a b, ends E0 o = Some (a, b) -> est (Nat.div2 o) = if Nat.odd o then immersion_status (za b) (za a) else immersion_status (za a) (za b).
  Proof. intros o a b H. destruct (oriented_edge0 o a b H) as [L Ee]. unfold est. rewrite Ee. destruct (Nat.odd o); reflexivity. Qed.
  Lemma oriented_crossing : forall o a b, ends E0 o = Some (a, b) -> za a * za b < 0 -> crossing (Nat.div2 o) = true.
  Proof. intros o a b H X. unfold crossing. rewrite (oriented_status o a b H). destruct (Nat.odd o); apply crosses_iff; lra. Qed.
  Lemma omid_cut : forall o a b, ends E0 o = Some (a, b) -> za a * za b < 0 -> midpt (Nat.div2 o) = cut (pa a, za a) (pa b, za b).
  Proof.
    intros o a b H X. destruct (oriented_edge0 o a b H) as [L Ee]. unfold midpt. rewrite Ee. unfold cut, edge_intersection.
    destruct (Nat.odd o); cbn [fst snd]; destruct (pa a) as [a1 a2 a3], (pa b) as [b1 b2 b3]; unfold vadd, vscale, vsub; cbn [vx vy vz]; [|reflexivity].
    assert (za b - za a <> 0) by nra. assert (za a - za b <> 0) by nra. f_equal; field; split; assumption.
  Qed.

  Definition zero_zero (a b : nat) := za a = 0 /\ za b = 0.
  Definition up_up (a b : nat) := za a <= 0 /\ za b <= 0 /\ (za a < 0 \/ za b < 0).
  Definition down_down (a b : nat) := 0 <= za a /\ 0 <= za b /\ (0 < za a \/ 0 < za b).
  Definition down_up (a b : nat) := 0 < za a /\ za b < 0.
  Definition up_down (a b : nat) := za a < 0 /\ 0 < za b.

  Lemma walk_zero : forall o a b w, ends E0 o = Some (a, b) -> zero_zero a b ->
    walk_step (status1 ne) (split1 ne) w o =
    Ok (mkW (w_em w ++ [o]) (w_im w ++ [o]) (if (w_st w =? 3)%Z then length (w_em w ++ [o]) else w_fe w)
            (if (w_st w =? 0)%Z then length (w_im w ++ [o]) else w_fi w) (w_st w) (set_insert (Nat.div2 o) (w_on w))).
  Proof.
    intros o a b w H [Za Zb]. destruct (oriented_edge0 o a b H) as [L _]. unfold walk_step, edge_index. rewrite (status_at _ L). cbn [bindO].
    rewrite (oriented_status o a b H). assert (X : (if Nat.odd o then immersion_status (za b) (za a) else immersion_status (za a) (za b)) = O).
    { destruct (Nat.odd o); [destruct (status_cases (za b) (za a)) as [C|[C|[C|[C|[C|[C|[C|[C|C]]]]]]]]|destruct (status_cases (za a) (za b)) as [C|[C|[C|[C|[C|[C|[C|[C|C]]]]]]]]]; destruct C as (A & B & ->); try reflexivity; exfalso; lra. }
    rewrite X. reflexivity.
  Qed.
  Lemma walk_em : forall o a b w, ends E0 o = Some (a, b) -> up_up a b ->
    walk_step (status1 ne) (split1 ne) w o =
    Ok (mkW (w_em w ++ [o]) (w_im w) (if (w_st w =? 3)%Z then length (w_em w) else w_fe w) (w_fi w) 0%Z (w_on w)).
  Proof.
    intros o a b w H (Za & Zb & Zc). destruct (oriented_edge0 o a b H) as [L _]. unfold walk_step, edge_index. rewrite (status_at _ L). cbn [bindO].
    rewrite (oriented_status o a b H).
    assert (X : both_ends_touch (if Nat.odd o then immersion_status (za b) (za a) else immersion_status (za a) (za b)) = false /\
                is_emerged (if Nat.odd o then immersion_status (za b) (za a) else immersion_status (za a) (za b)) = true).
    { destruct (Nat.odd o); [destruct (status_cases (za b) (za a)) as [C|[C|[C|[C|[C|[C|[C|[C|C]]]]]]]]|destruct (status_cases (za a) (za b)) as [C|[C|[C|[C|[C|[C|[C|[C|C]]]]]]]]]; destruct C as (A & B & ->); try (split; reflexivity); exfalso; lra. }
    destruct X as [-> ->]. reflexivity.
  Qed.
  Lemma walk_im : forall o a b w, ends E0 o = Some (a, b) -> down_down a b ->
    walk_step (status1 ne) (split1 ne) w o =
    Ok (mkW (w_em w) (w_im w ++ [o]) (w_fe w) (if (w_st w =? 0)%Z then length (w_im w) else w_fi w) 3%Z (w_on w)).
  Proof.
    intros o a b w H (Za & Zb & Zc). destruct (oriented_edge0 o a b H) as [L _]. unfold walk_step, edge_index. rewrite (status_at _ L). cbn [bindO].
    rewrite (oriented_status o a b H).
    assert (X : both_ends_touch (if Nat.odd o then immersion_status (za b) (za a) else immersion_status (za a) (za b)) = false /\
                is_emerged (if Nat.odd o then immersion_status (za b) (za a) else immersion_status (za a) (za b)) = false /\
                is_immersed (if Nat.odd o then immersion_status (za b) (za a) else immersion_status (za a) (za b)) = true).
    { destruct (Nat.odd o); [destruct (status_cases (za b) (za a)) as [C|[C|[C|[C|[C|[C|[C|[C|C]]]]]]]]|destruct (status_cases (za a) (za b)) as [C|[C|[C|[C|[C|[C|[C|[C|C]]]]]]]]]; destruct C as (A & B & ->); try (repeat split; reflexivity); exfalso; lra. }
    destruct X as (-> & -> & ->). reflexivity.
  Qed.
  Lemma walk_cross : forall o a b w, ends E0 o = Some (a, b) -> za a * za b < 0 ->
    walk_step (status1 ne) (split1 ne) w o =
    if Rlt_dec (za a) 0
    then Ok (mkW (w_em w ++ [sub_first o]) (w_im w ++ [sub_second o]) (w_fe w) (length (w_im w)) 3%Z (w_on w))
    else Ok (mkW (w_em w ++ [sub_second o]) (w_im w ++ [sub_first o]) (length (w_em w)) (w_fi w) 0%Z (w_on w)).
  Proof.
    intros o a b w H X. destruct (oriented_edge0 o a b H) as [L _]. pose proof (oriented_crossing o a b H X) as C.
    unfold walk_step, edge_index, is_reversed, sub_first, sub_second. rewrite (status_at _ L). cbn [bindO]. rewrite (split_at _ L C). cbn [bindO].
    destruct (substatus_at _ L C) as [S1 S2]. unfold crossing in C.
    assert (CC : est (Nat.div2 o) = (if Rlt_dec (za a) 0 then if Nat.odd o then 9 else 6 else if Nat.odd o then 6 else 9)%nat).
    { rewrite (oriented_status o a b H). destruct (Nat.odd o).
      - destruct (status_cases (za b) (za a)) as [D|[D|[D|[D|[D|[D|[D|[D|D]]]]]]]]; destruct D as (A & B & ->); destruct (Rlt_dec (za a) 0); try reflexivity; exfalso; nra.
      - destruct (status_cases (za a) (za b)) as [D|[D|[D|[D|[D|[D|[D|[D|D]]]]]]]]; destruct D as (A & B & ->); destruct (Rlt_dec (za a) 0); try reflexivity; exfalso; nra. }
    destruct (Nat.odd o).
    - rewrite S2. unfold sub2. rewrite CC. destruct (Rlt_dec (za a) 0); reflexivity.
    - rewrite S1. unfold sub1. rewrite CC. destruct (Rlt_dec (za a) 0); reflexivity.
  Qed.
  Lemma walk_down : forall o a b w, ends E0 o = Some (a, b) -> down_up a b ->
    walk_step (status1 ne) (split1 ne) w o = Ok (mkW (w_em w ++ [sub_second o]) (w_im w ++ [sub_first o]) (length (w_em w)) (w_fi w) 0%Z (w_on w)).
  Proof. intros o a b w H [A B]. rewrite (walk_cross o a b w H) by nra. destruct (Rlt_dec (za a) 0); [exfalso; lra|reflexivity]. Qed.
  Lemma walk_up : forall o a b w, ends E0 o = Some (a, b) -> up_down a b ->
    walk_step (status1 ne) (split1 ne) w o = Ok (mkW (w_em w ++ [sub_first o]) (w_im w ++ [sub_second o]) (w_fe w) (length (w_im w)) 3%Z (w_on w)).
  Proof. intros o a b w H [A B]. rewrite (walk_cross o a b w H) by nra. destruct (Rlt_dec (za a) 0); [reflexivity|exfalso; lra]. Qed.
End Scan.

(** ** Facets made of oriented edges *)
Lemma vertices_of_ends : forall edges o a b, ends edges o = Some (a, b) -> first_vertex edges o = Ok a /\ second_vertex edges o = Ok b.
Proof.
  intros edges o a b H. unfold ends in H. unfold first_vertex, second_vertex, edge_index, is_reversed, at_ub.
  destruct (nth_error edges (Nat.div2 o)) as [[x y]|]; [|discriminate]. cbn [bindO fst snd]. destruct (Nat.odd o); injection H as -> ->; split; reflexivity.
Qed.
(** The list of the second vertices, with 0 for those that have been seen. *)
Fixpoint dedup (vs seen : list nat) : list nat * nat :=
  match vs with
  | [] => ([], O)
  | v :: vs => if existsb (Nat.eqb v) seen then let (r, n) := dedup vs seen in (O :: r, n) else let (r, n) := dedup vs (v :: seen) in (v :: r, S n)
  end.
Lemma vertex_list_dedup : forall edges os ps seen, map (ends edges) os = map Some ps -> vertex_list edges os seen = Ok (dedup (map snd ps) seen).
Proof.
  intros edges. induction os as [|o os IH]; intros [|[a b] ps] seen H; try discriminate H; [reflexivity|].
  cbn [map] in H. injection H as H1 H2. cbn [vertex_list map snd dedup]. rewrite (proj2 (vertices_of_ends _ _ _ _ H1)). cbn [bindO].
  destruct (existsb (Nat.eqb b) seen).
  - rewrite (IH ps seen H2). cbn [bindO]. destruct (dedup (map snd ps) seen). reflexivity.
  - rewrite (IH ps (b :: seen) H2). cbn [bindO]. destruct (dedup (map snd ps) (b :: seen)). reflexivity.
Qed.
Lemma map_nodes : forall (all : list vec3) vs pts, has_points all vs pts -> mapO_list (at_ub all) vs = Ok pts.
Proof.
  intros all. unfold has_points. induction vs as [|i vs IH]; intros [|p pts] H; try discriminate H; [reflexivity|].
  cbn [map] in H. injection H as H1 H2. cbn [mapO_list]. rewrite (at_ub_nth _ _ _ H1). cbn [bindO]. rewrite (IH _ H2). reflexivity.
Qed.
Definition with_facet (m : mesh) (f : mfacet) : mesh :=
  mkMesh (m_edges m) (m_facets m ++ [f]) (m_fpe m) (m_oef m) (m_nnodes m) (m_nedges m) (m_nfacets m) (m_all m) (m_total m) (m_orientation m).
Lemma create_facet : forall m os ps n v vs k pts, map (ends (m_edges m)) os = map Some ps -> dedup (map snd ps) [] = (vs, k) -> firstn k vs = v ->
  v <> [] -> has_points (m_all m) v pts ->
  create_facet_from_edges m os n = Ok (with_facet m (mkMF v n (centre_of_gravity pts) (area pts)), length (m_facets m)).
Proof.
  intros m os ps n v vs k pts H D F NE P. unfold create_facet_from_edges. rewrite (vertex_list_dedup _ _ ps [] H). cbn [bindO]. rewrite D, F.
  destruct v as [|x v]; [congruence|]. rewrite (map_nodes _ _ _ P). reflexivity.
Qed.
