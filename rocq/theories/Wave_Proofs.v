(** Proofs about the wave models. *)
From Coq Require Import Reals List Bool ZArith Lra Lia Sorted Permutation.
From Verif Require Import Common Wave_Model Wave_Spec.
Import ListNotations.
Open Scope R_scope.

(** ** Booleans *)
Lemma Rleb_true : forall x y, Rleb x y = true <-> x <= y.
Proof. intros. unfold Rleb. destruct (Rle_dec x y); split; intros; auto; try discriminate; contradiction. Qed.
Lemma Rleb_false : forall x y, Rleb x y = false <-> y < x.
Proof. intros. unfold Rleb. destruct (Rle_dec x y); split; intros; auto; try discriminate; lra. Qed.
Lemma Rltb_true : forall x y, Rltb x y = true <-> x < y.
Proof. intros. unfold Rltb. destruct (Rlt_dec x y); split; intros; auto; try discriminate; contradiction. Qed.
Lemma Rltb_false : forall x y, Rltb x y = false <-> y <= x.
Proof. intros. unfold Rltb. destruct (Rlt_dec x y); split; intros; auto; try discriminate; lra. Qed.
Lemma Reqb_true : forall x y, Reqb x y = true <-> x = y.
Proof. intros. unfold Reqb. destruct (Req_EM_T x y); split; intros; auto; try discriminate; contradiction. Qed.
Lemma Reqb_false : forall x y, Reqb x y = false <-> x <> y.
Proof. intros. unfold Reqb. destruct (Req_EM_T x y); split; intros; auto; try discriminate; contradiction. Qed.
Ltac rb := repeat match goal with
  | H : Rleb _ _ = true |- _ => apply Rleb_true in H
  | H : Rleb _ _ = false |- _ => apply Rleb_false in H
  | H : Rltb _ _ = true |- _ => apply Rltb_true in H
  | H : Rltb _ _ = false |- _ => apply Rltb_false in H
  | H : Reqb _ _ = true |- _ => apply Reqb_true in H
  | H : Reqb _ _ = false |- _ => apply Reqb_false in H
  end.
Lemma Rleb_t : forall x y, x <= y -> Rleb x y = true. Proof. intros. now apply Rleb_true. Qed.
Lemma Rleb_f : forall x y, y < x -> Rleb x y = false. Proof. intros. now apply Rleb_false. Qed.
Lemma Rltb_t : forall x y, x < y -> Rltb x y = true. Proof. intros. now apply Rltb_true. Qed.
Lemma Rltb_f : forall x y, y <= x -> Rltb x y = false. Proof. intros. now apply Rltb_false. Qed.
Lemma Reqb_t : forall x y, x = y -> Reqb x y = true. Proof. intros. now apply Reqb_true. Qed.
Lemma Reqb_f : forall x y, x <> y -> Reqb x y = false. Proof. intros. now apply Reqb_false. Qed.

(** ** Loops *)
Lemma mapM_cons : forall (A B : Type) (f : A -> outcome B) a l, mapM f (a :: l) = (do b <- f a; do bs <- mapM f l; Ok (b :: bs)).
Proof. reflexivity. Qed.
Lemma mapM_ok : forall (A B : Type) (f : A -> outcome B) (g : A -> B) l,
  (forall a, In a l -> f a = Ok (g a)) -> mapM f l = Ok (map g l).
Proof.
  intros A B f g. induction l as [|a l IH]; intros H; [reflexivity|]. rewrite mapM_cons, (H a) by (left; reflexivity). cbn [bindO].
  rewrite IH; [reflexivity|]. intros b Hb. apply H. right. exact Hb.
Qed.
Lemma mapM_inv : forall (A B : Type) (f : A -> outcome B) l r, mapM f l = Ok r -> Forall2 (fun a b => f a = Ok b) l r.
Proof.
  intros A B f. induction l as [|a l IH]; intros r H; [cbn in H; injection H as <-; constructor|]. rewrite mapM_cons in H.
  destruct (f a) as [b| |] eqn:E; try discriminate. cbn [bindO] in H.
  destruct (mapM f l) as [bs| |]; try discriminate. injection H as <-. constructor; auto.
Qed.
Lemma mapM_of_Forall2 : forall (A B : Type) (f : A -> outcome B) l r, Forall2 (fun a b => f a = Ok b) l r -> mapM f l = Ok r.
Proof. intros A B f l r H. induction H; [reflexivity|]. rewrite mapM_cons, H, IHForall2. reflexivity. Qed.
Lemma mapM_length : forall (A B : Type) (f : A -> outcome B) l r, mapM f l = Ok r -> List.length r = List.length l.
Proof. intros A B f l r H. apply mapM_inv in H. induction H; simpl; congruence. Qed.
Lemma mapM_throw : forall (A B : Type) (f : A -> outcome B) l, (forall a, In a l -> f a <> UB) -> (exists a, In a l /\ f a = Throw) -> mapM f l = Throw.
Proof.
  intros A B f. induction l as [|a l IH]; intros N (x & [] & E).
  - subst. rewrite mapM_cons, E. reflexivity.
  - rewrite mapM_cons. destruct (f a) as [b| |] eqn:Ea; cbn [bindO].
    + rewrite IH; [reflexivity| |exists x; auto]. intros y Hy. apply N. right. exact Hy.
    + reflexivity.
    + exfalso. apply (N a); [left; reflexivity|exact Ea].
Qed.
Lemma accM_cons : forall (A : Type) (f : A -> outcome R) s a l, accM f s (a :: l) = (do b <- f a; accM f (s + b) l).
Proof. reflexivity. Qed.
Lemma accM_ok : forall (A : Type) (f : A -> outcome R) (g : A -> R) l s,
  (forall a, In a l -> f a = Ok (g a)) -> accM f s l = Ok (s + Rsum (map g l)).
Proof.
  intros A f g. induction l as [|a l IH]; intros s H; [cbn; f_equal; lra|].
  rewrite accM_cons, (H a) by (left; reflexivity). cbn [bindO]. rewrite IH by (intros b Hb; apply H; right; exact Hb).
  f_equal. simpl. lra.
Qed.
Lemma accM_inv : forall (A : Type) (f : A -> outcome R) l s r, accM f s l = Ok r ->
  exists bs, Forall2 (fun a b => f a = Ok b) l bs /\ r = s + Rsum bs.
Proof.
  intros A f. induction l as [|a l IH]; intros s r H.
  - cbn in H. injection H as <-. exists []. split; [constructor|simpl; lra].
  - rewrite accM_cons in H. destruct (f a) as [b| |] eqn:E; try discriminate. cbn [bindO] in H.
    destruct (IH _ _ H) as (bs & Hf & ->). exists (b :: bs). split; [constructor; auto|simpl; lra].
Qed.

Lemma at_ub_ok : forall (A : Type) (l : list A) i d, (i < List.length l)%nat -> at_ub l i = Ok (nth i l d).
Proof. intros A l i d H. unfold at_ub. rewrite (nth_error_nth' l d H). reflexivity. Qed.
Lemma at_throw_ok : forall (A : Type) (l : list A) i d, (i < List.length l)%nat -> at_throw l i = Ok (nth i l d).
Proof. intros A l i d H. unfold at_throw. rewrite (nth_error_nth' l d H). reflexivity. Qed.
Lemma at_ub_out : forall (A : Type) (l : list A) i, (List.length l <= i)%nat -> at_ub l i = UB.
Proof. intros A l i H. unfold at_ub. apply nth_error_None in H. rewrite H. reflexivity. Qed.
Lemma at_throw_out : forall (A : Type) (l : list A) i, (List.length l <= i)%nat -> at_throw l i = Throw.
Proof. intros A l i H. unfold at_throw. apply nth_error_None in H. rewrite H. reflexivity. Qed.

(** ** Sums *)
Lemma Rsum_app : forall a b, Rsum (a ++ b) = Rsum a + Rsum b.
Proof. induction a; intros b; simpl; [lra|]. rewrite IHa. lra. Qed.
Lemma Rsum_ext : forall (A : Type) (f g : A -> R) l, (forall a, In a l -> f a = g a) -> Rsum (map f l) = Rsum (map g l).
Proof. induction l as [|a l IH]; intros H; simpl; [reflexivity|]. rewrite (H a) by (left; reflexivity). rewrite IH; [reflexivity|]. intros. apply H. right. assumption. Qed.
Lemma Rsum_scale : forall (A : Type) (f : A -> R) c l, Rsum (map (fun a => c * f a) l) = c * Rsum (map f l).
Proof. induction l; simpl; [lra|]. rewrite IHl. lra. Qed.
Lemma Rsum_plus : forall (A : Type) (f g : A -> R) l, Rsum (map (fun a => f a + g a) l) = Rsum (map f l) + Rsum (map g l).
Proof. induction l; simpl; [lra|]. rewrite IHl. lra. Qed.
Lemma Rsum_abs : forall (A : Type) (f g : A -> R) l, (forall a, In a l -> Rabs (f a) <= g a) -> Rabs (Rsum (map f l)) <= Rsum (map g l).
Proof.
  induction l as [|a l IH]; intros H; simpl; [rewrite Rabs_R0; lra|].
  eapply Rle_trans; [apply Rabs_triang|]. apply Rplus_le_compat; [apply H; left; reflexivity|]. apply IH. intros. apply H. right. assumption.
Qed.
Lemma Rsum_nonneg : forall l, (forall x, In x l -> 0 <= x) -> 0 <= Rsum l.
Proof. induction l; intros H; simpl; [lra|]. assert (0 <= a) by (apply H; left; reflexivity). assert (0 <= Rsum l) by (apply IHl; intros; apply H; right; assumption). lra. Qed.
Lemma Rsum_perm : forall a b, Permutation a b -> Rsum a = Rsum b.
Proof. induction 1; simpl; lra. Qed.
Lemma Rsum_prod : forall (A B : Type) (f : A -> R) (g : B -> R) la lb,
  Rsum (map (fun ij => f (fst ij) * g (snd ij)) (list_prod la lb)) = Rsum (map f la) * Rsum (map g lb).
Proof.
  induction la as [|a la IH]; intros lb; simpl; [lra|]. rewrite map_app, Rsum_app, IH, map_map. cbn [fst snd]. rewrite Rsum_scale. lra.
Qed.
Lemma map_seq_nth : forall (A : Type) (l : list A) d, map (fun i => nth i l d) (seq 0 (List.length l)) = l.
Proof.
  intros A l d. induction l as [|a l IH]; [reflexivity|]. cbn [List.length seq map nth]. f_equal. rewrite <- seq_shift, map_map. exact IH.
Qed.
Lemma map_seq_nth_f : forall (A B : Type) (f : A -> B) (l : list A) d, map (fun i => f (nth i l d)) (seq 0 (List.length l)) = map f l.
Proof. intros. rewrite <- (map_map (fun i => nth i l d) f). rewrite map_seq_nth. reflexivity. Qed.

(** Index (i,j) of the double loop. *)
Lemma list_prod_nth : forall n p i j, (i < n)%nat -> (j < p)%nat -> nth_error (list_prod (seq 0 n) (seq 0 p)) (i * p + j) = Some (i, j).
Proof.
  intros n p. enough (forall s i j, (i < n)%nat -> (j < p)%nat -> nth_error (list_prod (seq s n) (seq 0 p)) (i * p + j) = Some ((s + i)%nat, j)) as H by (intros; apply (H 0%nat); auto).
  induction n as [|n IH]; intros s i j Hi Hj; [lia|]. cbn [seq list_prod].
  destruct i as [|i].
  - rewrite nth_error_app1 by (rewrite map_length, seq_length; lia). cbn [Nat.mul Nat.add].
    rewrite nth_error_map. rewrite (nth_error_nth' (seq 0 p) 0%nat) by (rewrite seq_length; lia). rewrite seq_nth by lia. cbn. f_equal. f_equal. lia.
  - rewrite nth_error_app2 by (rewrite map_length, seq_length; nia). rewrite map_length, seq_length.
    replace (S i * p + j - p)%nat with (i * p + j)%nat by nia. rewrite IH by lia. f_equal. f_equal. lia.
Qed.
Lemma list_prod_len : forall n p, List.length (list_prod (seq 0 n) (seq 0 p)) = (n * p)%nat.
Proof. intros. rewrite prod_length, !seq_length. reflexivity. Qed.

(** ** Frequency grid *)
Lemma strongly_sorted_map_seq : forall (f : nat -> R) n s, (forall i j, (s <= i)%nat -> (i < j)%nat -> (j < s + n)%nat -> f i < f j) -> StronglySorted Rlt (map f (seq s n)).
Proof.
  intros f. induction n as [|n IH]; intros s H; cbn [seq map]; [constructor|]. constructor.
  - apply IH. intros i j H1 H2 H3. apply H; lia.
  - apply Forall_forall. intros y Hy. apply in_map_iff in Hy. destruct Hy as (j & <- & Hj). apply in_seq in Hj. apply H; lia.
Qed.
Lemma nth_error_map_seq : forall (A : Type) (f : nat -> A) s n i, (i < n)%nat -> nth_error (map f (seq s n)) i = Some (f (s + i)%nat).
Proof. intros A f s n i H. rewrite nth_error_map, (nth_error_nth' (seq s n) 0%nat) by (rewrite seq_length; lia). rewrite seq_nth by lia. reflexivity. Qed.
Lemma nth_map_seq : forall (A : Type) (f : nat -> A) s n i d, (i < n)%nat -> nth i (map f (seq s n)) d = f (s + i)%nat.
Proof. intros A f s n i d H. apply nth_error_nth. apply nth_error_map_seq. exact H. Qed.
Lemma INR_pos : forall n, (0 < n)%nat -> 0 < INR n.
Proof. intros n H. apply lt_0_INR. exact H. Qed.

Definition omega_grid (lo hi : R) (n : nat) : list R := map (fun i => lo + INR (i - 1) / INR (n - 1) * (hi - lo)) (seq 1 n).
Lemma base_grid_ok : forall lo hi n, 0 < lo -> lo < hi -> (2 <= n)%nat -> base_angular_frequencies lo hi n = Ok (omega_grid lo hi n).
Proof.
  intros lo hi n H1 H2 Hn. unfold base_angular_frequencies. rewrite Rleb_f by lra. rewrite Rleb_f by lra. rewrite Rltb_f by lra.
  replace (Nat.eqb n 0) with false by (symmetry; apply Nat.eqb_neq; lia). replace (Nat.eqb n 1) with false by (symmetry; apply Nat.eqb_neq; lia).
  rewrite Reqb_f by lra. reflexivity.
Qed.
Lemma base_grid_single : forall w, 0 < w -> base_angular_frequencies w w 1 = Ok [w].
Proof. intros w H. unfold base_angular_frequencies. rewrite Rleb_f by lra. rewrite Rltb_f by lra. cbn. rewrite Reqb_t by reflexivity. reflexivity. Qed.
Lemma base_grid_cases : forall lo hi n, (base_angular_frequencies lo hi n = Throw /\ ~ (0 < lo /\ lo < hi /\ (2 <= n)%nat) /\ ~ (0 < lo /\ lo = hi /\ n = 1%nat)) \/
  (base_angular_frequencies lo hi n = Ok (omega_grid lo hi n) /\ 0 < lo /\ lo < hi /\ (2 <= n)%nat) \/
  (base_angular_frequencies lo hi n = Ok [lo] /\ 0 < lo /\ lo = hi /\ n = 1%nat).
Proof.
  intros lo hi n. unfold base_angular_frequencies. destruct (Rleb lo 0) eqn:E1; rb; [left; repeat split; intros H; try lra; destruct H; lra|].
  destruct (Rleb hi 0) eqn:E2; rb; [left; repeat split; intros (A & B & C); lra|].
  destruct (Rltb hi lo) eqn:E3; rb; [left; repeat split; intros (A & B & C); lra|].
  destruct (Nat.eqb n 0) eqn:E4; [apply Nat.eqb_eq in E4; left; repeat split; intros (A & B & C); lia|]. apply Nat.eqb_neq in E4.
  destruct (Nat.eqb n 1) eqn:E5.
  - apply Nat.eqb_eq in E5. destruct (Reqb lo hi) eqn:E6; rb; cbn [negb].
    + right. right. repeat split; auto.
    + left. repeat split; intros (A & B & C); [lia|contradiction].
  - apply Nat.eqb_neq in E5. destruct (Reqb lo hi) eqn:E6; rb.
    + left. repeat split; intros (A & B & C); [lra|lia].
    + right. left. repeat split; try lra; try lia; auto.
Qed.
Lemma omega_grid_increasing : forall lo hi n, lo < hi -> (2 <= n)%nat -> strictly_increasing (omega_grid lo hi n).
Proof.
  intros lo hi n H Hn. apply strongly_sorted_map_seq. intros i j H1 H2 H3.
  assert (0 < INR (n - 1)) by (apply INR_pos; lia). assert (INR (i - 1) < INR (j - 1)) by (apply lt_INR; lia).
  apply Rplus_lt_compat_l. apply Rmult_lt_compat_r; [lra|]. unfold Rdiv. apply Rmult_lt_compat_r; [apply Rinv_0_lt_compat|]; assumption.
Qed.
Lemma omega_grid_nth : forall lo hi n i d, (i < n)%nat -> nth i (omega_grid lo hi n) d = lo + INR i / INR (n - 1) * (hi - lo).
Proof. intros lo hi n i d H. unfold omega_grid. rewrite nth_map_seq by exact H. replace (1 + i - 1)%nat with i by lia. reflexivity. Qed.
Lemma omega_grid_length : forall lo hi n, List.length (omega_grid lo hi n) = n.
Proof. intros. unfold omega_grid. rewrite map_length, seq_length. reflexivity. Qed.
Lemma omega_grid_ge : forall lo hi n x, lo < hi -> In x (omega_grid lo hi n) -> lo <= x.
Proof.
  intros lo hi n x H Hx. unfold omega_grid in Hx. apply in_map_iff in Hx. destruct Hx as (i & <- & Hi). apply in_seq in Hi.
  assert (0 <= INR (i - 1) / INR (n - 1)). { destruct (Nat.eq_dec n 1) as [->|N]. - cbn [Nat.sub INR]. unfold Rdiv. replace (i-1)%nat with 0%nat by lia. simpl. lra.
    - apply Rmult_le_pos; [apply pos_INR|]. apply Rlt_le, Rinv_0_lt_compat, INR_pos. lia. }
  nra.
Qed.

(** [std::set] *)
Lemma set_insert_in : forall x l y, In y (set_insert x l) <-> y = x \/ In y l.
Proof.
  induction l as [|a l IH]; intros y; simpl; [intuition|]. destruct (Rltb x a) eqn:E1; [simpl; intuition|].
  destruct (Rltb a x) eqn:E2; simpl; [rewrite IH; intuition|]. rb. assert (a = x) by lra. subst. intuition.
Qed.
Lemma set_insert_sorted : forall x l, StronglySorted Rlt l -> StronglySorted Rlt (set_insert x l).
Proof.
  induction l as [|a l IH]; intros H; simpl; [repeat constructor|]. inversion H as [|? ? Hs Hf]; subst.
  destruct (Rltb x a) eqn:E1; rb.
  - constructor; [assumption|]. constructor; [assumption|]. eapply Forall_impl; [|exact Hf]. intros. simpl in *. lra.
  - destruct (Rltb a x) eqn:E2; rb; [|assumption]. constructor; [apply IH; assumption|]. apply Forall_forall. intros y Hy.
    apply set_insert_in in Hy. destruct Hy as [->|Hy]; [assumption|]. rewrite Forall_forall in Hf. apply Hf. exact Hy.
Qed.
Lemma set_inserts_in : forall xs l y, In y (set_inserts xs l) <-> In y xs \/ In y l.
Proof. unfold set_inserts. induction xs as [|x xs IH]; intros l y; simpl; [tauto|]. rewrite IH, set_insert_in. intuition. Qed.
Lemma set_inserts_sorted : forall xs l, StronglySorted Rlt l -> StronglySorted Rlt (set_inserts xs l).
Proof. unfold set_inserts. induction xs as [|x xs IH]; intros l H; simpl; [assumption|]. apply IH, set_insert_sorted, H. Qed.

(** Induction on spectra with the nested lists. *)
Fixpoint spectrum_ind' (P : spectrum -> Prop)
  (Hd : forall w H, P (DiracSpectralDensity w H)) (Hb : forall H T, P (BretschneiderSpectrum H T))
  (Hj : forall H T g, P (JonswapSpectrum H T g)) (Hp : forall H T, P (PiersonMoskowitzSpectrum H T))
  (Hs : forall ts, Forall P ts -> P (SumOfWaveSpectralDensities ts)) (S : spectrum) : P S :=
  match S with
  | DiracSpectralDensity w H => Hd w H
  | BretschneiderSpectrum H T => Hb H T
  | JonswapSpectrum H T g => Hj H T g
  | PiersonMoskowitzSpectrum H T => Hp H T
  | SumOfWaveSpectralDensities ts => Hs ts ((fix go (l : list spectrum) : Forall P l :=
      match l with [] => Forall_nil P | t :: l' => Forall_cons t (spectrum_ind' P Hd Hb Hj Hp Hs t) (go l') end) ts)
  end.
Fixpoint spreading_ind' (P : spreading -> Prop)
  (Hd : forall w, P (DiracDirectionalSpreading w)) (Hc : forall p s F, P (Cos2sDirectionalSpreading p s F))
  (Hs : forall ts, Forall P ts -> P (SumOfWaveDirectionalSpreadings ts)) (D : spreading) : P D :=
  match D with
  | DiracDirectionalSpreading w => Hd w
  | Cos2sDirectionalSpreading p s F => Hc p s F
  | SumOfWaveDirectionalSpreadings ts => Hs ts ((fix go (l : list spreading) : Forall P l :=
      match l with [] => Forall_nil P | t :: l' => Forall_cons t (spreading_ind' P Hd Hc Hs t) (go l') end) ts)
  end.

Definition sum_frequencies (lo hi : R) (n : nat) : list spectrum -> list R -> outcome (list R) :=
  fix go (ts : list spectrum) (s : list R) : outcome (list R) :=
         match ts with
         | [] => Ok s
         | t :: ts' => do f <- angular_frequencies t lo hi n; go ts' (set_inserts f s)
         end.
Lemma angular_frequencies_sum : forall ts lo hi n, angular_frequencies (SumOfWaveSpectralDensities ts) lo hi n = sum_frequencies lo hi n ts [].
Proof. reflexivity. Qed.
Lemma sum_frequencies_spec : forall lo hi n ts s l, sum_frequencies lo hi n ts s = Ok l -> StronglySorted Rlt s ->
  StronglySorted Rlt l /\ (forall w, In w l <-> In w s \/ exists t f, In t ts /\ angular_frequencies t lo hi n = Ok f /\ In w f).
Proof.
  induction ts as [|t ts IH]; intros s l H Hs.
  - cbn in H. injection H as <-. split; [assumption|]. intros w. split; [tauto|]. intros [?|(t & f & [] & _)]; assumption.
  - cbn [sum_frequencies] in H. destruct (angular_frequencies t lo hi n) as [f| |] eqn:E; try discriminate. cbn [bindO] in H.
    fold (sum_frequencies lo hi n) in H. destruct (IH _ _ H (set_inserts_sorted f s Hs)) as [S1 S2]. split; [exact S1|].
    intros w. rewrite S2, set_inserts_in. split.
    + intros [[Hf|Hw]|(t' & f' & Ht & Ef & Hf)]; [right; exists t, f; simpl; auto|left; exact Hw|right; exists t', f'; simpl; auto].
    + intros [Hw|(t' & f' & [<-|Ht] & Ef & Hf)]; [tauto| |right; exists t', f'; auto].
      left. left. rewrite E in Ef. injection Ef as <-. exact Hf.
Qed.

Lemma angular_frequencies_sorted : forall S lo hi n l, angular_frequencies S lo hi n = Ok l -> strictly_increasing l.
Proof.
  assert (forall lo hi n l, base_angular_frequencies lo hi n = Ok l -> strictly_increasing l) as B.
  { intros lo hi n l H. destruct (base_grid_cases lo hi n) as [(E & _)|[(E & H1 & H2 & H3)|(E & _)]]; rewrite E in H; try discriminate; injection H as <-.
    - apply omega_grid_increasing; assumption.
    - repeat constructor. }
  intros S lo hi n. destruct S; intros l Hl; try (apply (B lo hi n); exact Hl).
  - injection Hl as <-. repeat constructor.
  - rewrite angular_frequencies_sum in Hl. apply (sum_frequencies_spec lo hi n terms [] l Hl). constructor.
Qed.
Lemma angular_frequencies_pos : forall S lo hi n l, spectrum_ctor_ok S = true -> angular_frequencies S lo hi n = Ok l -> forall w, In w l -> 0 < w.
Proof.
  assert (forall lo hi n l, base_angular_frequencies lo hi n = Ok l -> forall w, In w l -> 0 < w) as B.
  { intros lo hi n l H. destruct (base_grid_cases lo hi n) as [(E & _)|[(E & H1 & H2 & H3)|(E & H1 & _)]]; rewrite E in H; try discriminate; injection H as <-; intros w Hw.
    - apply omega_grid_ge in Hw; lra.
    - destruct Hw as [<-|[]]; assumption. }
  intros S lo hi n. induction S as [w H|H T|H T g|H T|ts IH] using spectrum_ind'; intros l Hc Hl; try (apply (B lo hi n); exact Hl).
  - injection Hl as <-. intros x [<-|[]]. cbn in Hc. apply andb_true_iff in Hc. destruct Hc as [_ Hc]. apply negb_true_iff in Hc. rb. assumption.
  - rewrite angular_frequencies_sum in Hl. destruct (sum_frequencies_spec lo hi n ts [] l Hl (SSorted_nil _)) as [_ S2].
    intros w Hw. apply S2 in Hw. destruct Hw as [[]|(t & f & Ht & Ef & Hf)]. rewrite Forall_forall in IH. cbn in Hc. rewrite forallb_forall in Hc.
    apply (IH t Ht f (Hc t Ht) Ef w Hf).
Qed.
Lemma angular_frequencies_not_UB : forall S lo hi n, angular_frequencies S lo hi n <> UB.
Proof.
  assert (forall lo hi n, base_angular_frequencies lo hi n <> UB) as B.
  { intros lo hi n. destruct (base_grid_cases lo hi n) as [(E & _)|[(E & _)|(E & _)]]; rewrite E; discriminate. }
  intros S lo hi n. induction S as [w H|H T|H T g|H T|ts IH] using spectrum_ind'; try apply B; [discriminate|].
  rewrite angular_frequencies_sum. assert (forall s, sum_frequencies lo hi n ts s <> UB) as G; [|apply G].
  induction IH as [|t ts Ht IH IH2]; intros s; [discriminate|]. cbn [sum_frequencies].
  destruct (angular_frequencies t lo hi n); cbn [bindO]; [apply IH2|discriminate|contradiction].
Qed.

(** The density is defined on the whole grid. *)
Lemma density_ok : forall S w, 0 < w -> exists s, density S w = Ok s.
Proof.
  intros S w Hw. assert (Rleb w 0 = false) as E by (apply Rleb_f; exact Hw).
  induction S as [w0 H|H T|H T g|H T|ts IH] using spectrum_ind'; cbn [density]; unfold jonswap; try rewrite E; eauto.
  - destruct (Rltb _ _); eauto.
  - assert (forall s, exists r, accM (fun t => density t w) s ts = Ok r) as G; [|apply G].
    induction IH as [|t ts (v & Ht) IH IH2]; intros s; [exists s; reflexivity|]. rewrite accM_cons, Ht. cbn [bindO]. apply IH2.
Qed.
