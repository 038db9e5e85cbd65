From Coq Require Import ZArith List Bool Lia Sorted Reals Lra.
From Coquelicot Require Import Coquelicot.
From Verif Require Import Common History_Model History_Order_Proofs History_Real_Proofs.
Import ListNotations.
Open Scope R_scope.

Definition trap (a b : R * R) : R := (fst b - fst a) * (snd a + snd b) / 2.
Fixpoint trapsum (l : list (R * R)) : R :=
  match l with
  | a :: ((b :: _) as l') => trap a b + trapsum l'
  | _ => 0
  end.

Lemma lastdef : forall X (l : list X) d d', l <> [] -> last l d = last l d'.
Proof. induction l as [|a l IH]; intros; [congruence|]. destruct l; [reflexivity|]. change (last (x :: l) d = last (x :: l) d'). apply IH. discriminate. Qed.

Lemma exists_last_or_nil : forall X (l : list X), l = [] \/ exists l' x, l = l' ++ [x].
Proof. intros X l. destruct l as [|a l]; [left; reflexivity|right]. destruct (@exists_last X (a :: l)) as (l' & x & E); [discriminate|]. eauto. Qed.

Section R.
Variable aeqR : Z -> R -> R -> bool.
Hypothesis aeqR_refl : forall n x, aeqR n x x = true.
Notation A := (Rarith aeqR).
Notation sorted := (StronglySorted (before A)).

Lemma integrate_trapsum : forall (l : list (R * R)) idx, (idx < length l)%nat -> integrate A l idx = Ok (trapsum (skipn idx l)).
Proof.
  intros l idx H. unfold integrate. change (num A) with R in *.
  assert (forall n idx acc, (idx + S n = length l)%nat ->
     fold_left (fun acc i => do ret <- acc ; do a <- at_throw l i ; do b <- at_throw l (i + 1) ;
        Ok (add A ret (trapeze A (fst a) (snd a) (fst b) (snd b)))) (seq idx n) (Ok acc) = Ok (acc + trapsum (skipn idx l))) as G.
  { clear. induction n; intros idx acc H.
    - simpl. destruct (nth_error l idx) as [a|] eqn:E; [|apply nth_error_None in E; lia].
      assert (skipn idx l = [a]) as ->.
      { assert (length (skipn idx l) = 1%nat) as Ls by (rewrite skipn_length; lia).
        replace idx with (idx + 0)%nat in E by lia. rewrite <- skipnth in E. destruct (skipn idx l) as [|b [|c r]]; simpl in *; try lia.
        injection E as ->. reflexivity. }
      simpl. f_equal. change (acc = acc + 0). rlra.
    - cbn [seq fold_left]. destruct (nth_error l idx) as [a|] eqn:Ea; [|apply nth_error_None in Ea; lia].
      destruct (nth_error l (idx + 1)) as [b|] eqn:Eb; [|apply nth_error_None in Eb; lia].
      assert (at_throw l idx = Ok a) as Aa by (unfold at_throw; rewrite Ea; reflexivity).
      assert (at_throw l (idx + 1) = Ok b) as Ab by (unfold at_throw; rewrite Eb; reflexivity).
      cbn [bindO]. rewrite Aa. cbn [bindO]. rewrite Ab. cbn [bindO].
      rewrite IHn by lia. f_equal.
      assert (skipn idx l = a :: skipn (S idx) l) as ->.
      { clear - Ea. revert l Ea. induction idx; intros l Ea; destruct l; simpl in *; try discriminate; [congruence|]. apply IHidx. exact Ea. }
      assert (skipn (S idx) l = b :: skipn (S (S idx)) l) as ->.
      { replace (idx + 1)%nat with (S idx) in Eb by lia. clear - Eb. revert Eb. generalize (S idx) as i. intros i. revert l.
        induction i; intros l Ea; destruct l; simpl in *; try discriminate; [congruence|]. apply IHi. exact Ea. }
      cbn [trapsum]. unfold trapeze, trap. simpl. change (num A) with R in *. lra. }
  rewrite (G (length l - 1 - idx)%nat idx) by lia. f_equal. change (0 + trapsum (skipn idx l) = trapsum (skipn idx l)). rlra.
Qed.

Lemma trapsum_bounds : forall m M (l : list (R * R)) (p : R * R), sorted (p :: l) ->
  (forall q, In q (p :: l) -> m <= snd q <= M) ->
  m * (fst (last (p :: l) p) - fst p) <= trapsum (p :: l) <= M * (fst (last (p :: l) p) - fst p).
Proof.
  induction l as [|q l IH]; intros p S H.
  - simpl. change (num A) with R in *. split; lra.
  - apply StronglySorted_inv in S. destruct S as [S F].
    specialize (IH q S ltac:(intros r Hr; apply H; right; exact Hr)).
    apply Forall_inv in F. unfold before in F. simpl in F. apply Rltb_true in F.
    assert (last (p :: q :: l) p = last (q :: l) q) as ->.
    { change (last (p :: q :: l) p) with (last (q :: l) p). apply lastdef. discriminate. }
    change (trapsum (p :: q :: l)) with (trap p q + trapsum (q :: l)). unfold trap.
    pose proof (H p (or_introl eq_refl)) as Hp. pose proof (H q (or_intror (or_introl eq_refl))) as Hq.
    change (num A) with R in *. set (w := fst q - fst p) in *. assert (0 < w) by (unfold w; lra).
    assert (m * w <= w * (snd p + snd q) / 2 <= M * w) by (split; nra).
    replace (fst (last (q :: l) q) - fst p) with ((fst (last (q :: l) q) - fst q) + w) by (unfold w; lra). lra.
Qed.

Definition affine (a b : R * R) (t : R) : R := snd a + (t - fst a) / (fst b - fst a) * (snd b - snd a).

Lemma is_RInt_affine : forall a b u v, fst a <> fst b ->
  is_RInt (affine a b) u v ((v - u) * (affine a b u + affine a b v) / 2).
Proof.
  intros a b u v H.
  set (F := fun x => snd a * x + (x - fst a) ^ 2 / 2 / (fst b - fst a) * (snd b - snd a)).
  replace ((v - u) * (affine a b u + affine a b v) / 2) with (F v - F u) by (unfold F, affine; field; lra).
  apply (is_RInt_derive F (affine a b)).
  - intros x _. unfold F, affine. auto_derive; [auto|]. field. lra.
  - intros x _. apply (ex_derive_continuous (affine a b)). unfold affine. auto_derive. auto.
Qed.

Lemma consecutive_index : forall X (l : list X) a b, consecutive l a b ->
  exists i, nth_error l i = Some a /\ nth_error l (S i) = Some b.
Proof.
  intros X l a b (u & v & ->). exists (length u). split.
  - rewrite nth_error_app2, Nat.sub_diag by lia. reflexivity.
  - rewrite nth_error_app2 by lia. replace (S (length u) - length u)%nat with 1%nat by lia. reflexivity.
Qed.

Lemma interp_unique_seg : forall (l : list (R * R)) a b t y, sorted l -> consecutive l a b -> fst a <= t <= fst b ->
  interp l t y -> y = affine a b t.
Proof.
  intros l a b t y S C Ht [->|(c & d & C2 & Ht2 & ->)].
  { destruct C as (u & v & E). destruct u as [|? [|? u]]; simpl in E; try discriminate. }
  pose proof (consecutive_sorted aeqR l a b S C) as AB. pose proof (consecutive_sorted aeqR l c d S C2) as CD.
  destruct (consecutive_index _ _ _ _ C) as (i & Ia & Ib). destruct (consecutive_index _ _ _ _ C2) as (j & Jc & Jd).
  assert (forall i j p q, (i < j)%nat -> nth_error l i = Some p -> nth_error l j = Some q -> fst p < fst q) as SN.
  { intros i' j' p q H1 H2 H3. apply Rltb_true. exact (sorted_nth A l S i' j' p q H1 H2 H3). }
  unfold affine. destruct (lt_eq_lt_dec i j) as [[G|G]|G].
  - (* b <= c *)
    destruct (Nat.eq_dec (Datatypes.S i) j) as [E|E].
    + rewrite <- E, Ib in Jc. injection Jc as <-. assert (t = fst b) as -> by lra. field. lra.
    + pose proof (SN (Datatypes.S i) j b c ltac:(lia) Ib Jc). lra.
  - subst j. rewrite Ia in Jc. injection Jc as <-. rewrite Ib in Jd. injection Jd as <-. reflexivity.
  - destruct (Nat.eq_dec (Datatypes.S j) i) as [E|E].
    + rewrite <- E, Jd in Ia. injection Ia as <-. assert (t = fst d) as -> by lra. field. lra.
    + pose proof (SN (Datatypes.S j) i d a ltac:(lia) Jd Ia). lra.
Qed.

Lemma interp_at_point : forall (l : list (R * R)) t v y, sorted l -> In (t, v) l -> interp l t y -> y = v.
Proof.
  intros l t v y S Hin [->|(a & b & C & Ht & ->)].
  { destruct Hin as [[= ->]|[]]. reflexivity. }
  pose proof (consecutive_sorted aeqR l a b S C) as AB.
  assert (forall i j p q, (i < j)%nat -> nth_error l i = Some p -> nth_error l j = Some q -> fst p < fst q) as SN.
  { intros i' j' p q H1 H2 H3. apply Rltb_true. exact (sorted_nth A l S i' j' p q H1 H2 H3). }
  destruct (consecutive_index _ _ _ _ C) as (i & Ia & Ib). apply In_nth_error in Hin. destruct Hin as (j & Ij).
  destruct (lt_eq_lt_dec i j) as [[G|G]|G].
  - destruct (Nat.eq_dec (Datatypes.S i) j) as [E|E].
    + rewrite <- E, Ib in Ij. injection Ij as ->. simpl in *. field. lra.
    + pose proof (SN (Datatypes.S i) j b (t, v) ltac:(lia) Ib Ij). simpl in *. lra.
  - subst j. rewrite Ia in Ij. injection Ij as ->. simpl in *. field. lra.
  - pose proof (SN j i (t, v) a G Ij Ia). simpl in *. lra.
Qed.

Lemma interp_of_point : forall (l : list (R * R)) t v, sorted l -> In (t, v) l -> interp l t v.
Proof.
  intros l t v S Hin. apply in_split in Hin. destruct Hin as (u & w & ->).
  destruct w as [|b w].
  - destruct (exists_last_or_nil _ u) as [->|(u' & a & ->)]; [left; reflexivity|].
    right. exists a, (t, v). assert (consecutive ((u' ++ [a]) ++ [(t, v)]) a (t, v)) as C by (exists u', []; rewrite <- app_assoc; reflexivity).
    split; [exact C|]. pose proof (consecutive_sorted aeqR _ _ _ S C). simpl in *. split; [lra|]. field. lra.
  - right. exists (t, v), b. assert (consecutive (u ++ (t, v) :: b :: w) (t, v) b) as C by (exists u, w; reflexivity).
    split; [exact C|]. pose proof (consecutive_sorted aeqR _ _ _ S C). simpl in *. split; [lra|]. field. lra.
Qed.

(** a function that follows the piecewise-linear interpolation of the points *)
Definition follows (f : R -> R) (l : list (R * R)) : Prop :=
  forall p q t, nth_error l 0 = Some p -> q = last l p -> fst p <= t <= fst q -> interp l t (f t).

Lemma is_RInt_seg : forall f (l : list (R * R)) a b u v, sorted l -> consecutive l a b ->
  (forall t, fst a <= t <= fst b -> interp l t (f t)) -> fst a <= u -> u <= v -> v <= fst b ->
  is_RInt f u v ((v - u) * (f u + f v) / 2).
Proof.
  intros f l a b u v S C Hf H1 H2 H3.
  pose proof (consecutive_sorted aeqR l a b S C) as AB.
  assert (forall t, fst a <= t <= fst b -> f t = affine a b t) as E.
  { intros t Ht. apply (interp_unique_seg l); auto. }
  rewrite (E u), (E v) by lra.
  apply is_RInt_ext with (affine a b).
  - intros x Hx. rewrite Rmin_left, Rmax_right in Hx by lra. symmetry. apply E. lra.
  - apply is_RInt_affine. lra.
Qed.

Lemma sorted_le_last : forall (p : R * R) (l : list (R * R)) (q : R * R), sorted (p :: l) -> In q (p :: l) -> fst q <= fst (last (p :: l) p).
Proof.
  intros p l. revert p. induction l as [|r l IH]; intros p q S H.
  - destruct H as [<-|[]]. simpl. change (num A) with R. lra.
  - change (last (p :: r :: l) p) with (last (r :: l) p). rewrite (lastdef _ (r :: l) p r) by discriminate.
    apply StronglySorted_inv in S. destruct S as [S F].
    destruct H as [<-|H]; [|apply IH; auto].
    specialize (IH r r S (or_introl eq_refl)). apply Forall_inv in F. unfold before in F. simpl in F. apply Rltb_true in F.
    change (num A) with R in *. lra.
Qed.

Lemma is_RInt_trapsum : forall f pre (l : list (R * R)) (p : R * R), sorted (pre ++ p :: l) ->
  (forall t, fst p <= t <= fst (last (p :: l) p) -> interp (pre ++ p :: l) t (f t)) ->
  is_RInt f (fst p) (fst (last (p :: l) p)) (trapsum (p :: l)).
Proof.
  intros f pre l. revert pre. induction l as [|q l IH]; intros pre p S Hf.
  - simpl. change (num A) with R. apply (is_RInt_point (V := R_NormedModule) f (fst p)).
  - assert (last (p :: q :: l) p = last (q :: l) q) as E.
    { change (last (p :: q :: l) p) with (last (q :: l) p). apply lastdef. discriminate. }
    rewrite E in *.
    assert (consecutive (pre ++ p :: q :: l) p q) as C by (exists pre, l; reflexivity).
    pose proof (consecutive_sorted aeqR _ _ _ S C) as PQ.
    assert (sorted (q :: l)) as Sq.
    { clear - S. induction pre; simpl in S; apply StronglySorted_inv in S; destruct S as [S _]; auto. }
    pose proof (sorted_le_last q l q Sq (or_introl eq_refl)) as QL.
    change (trapsum (p :: q :: l)) with (trap p q + trapsum (q :: l)).
    apply (is_RInt_Chasles (V := R_NormedModule) f (fst p) (fst q) _ (trap p q) (trapsum (q :: l))).
    + assert (is_RInt f (fst p) (fst q) ((fst q - fst p) * (f (fst p) + f (fst q)) / 2)) as I.
      { apply (is_RInt_seg f (pre ++ p :: q :: l) p q); auto; try lra. intros t Ht. apply Hf.
        change (num A) with R in *. lra. }
      assert (f (fst p) = snd p) as Fp.
      { rewrite (interp_unique_seg (pre ++ p :: q :: l) p q (fst p) (f (fst p))); auto; [unfold affine; field; lra|lra|].
        apply Hf. change (num A) with R in *. lra. }
      assert (f (fst q) = snd q) as Fq.
      { rewrite (interp_unique_seg (pre ++ p :: q :: l) p q (fst q) (f (fst q))); auto; [unfold affine; field; lra|lra|].
        apply Hf. change (num A) with R in *. lra. }
      rewrite Fp, Fq in I. exact I.
    + replace (pre ++ p :: q :: l) with ((pre ++ [p]) ++ q :: l) in * by (rewrite <- app_assoc; reflexivity).
      apply (IH (pre ++ [p]) q S). intros t Ht. apply Hf. change (num A) with R in *. lra.
Qed.

(** ** [average] unfolded *)
Definition duration (l : list (R * R)) : R := match l with [] => 0 | p :: _ => fst (last l p) - fst p end.

Lemma average_unfold : forall (h : hist A) (p0 p1 : R * R) (r : list (R * R)) T0, inv A h -> L h = p0 :: p1 :: r -> 0 <= T0 ->
  let l := p0 :: p1 :: r in
  let T := Rmin T0 (duration l) in
  let t := fst (last l p0) - T in
  exists idx fv b,
    is_bracket A l t idx /\ nth_error l idx = Some b /\ fst p0 <= t <= fst b /\ 0 <= T /\
    interpolate_value_in_interval A l idx t = Ok fv /\
    average A h T0 = Ok (if Rltb 0 T then (trap (t, fv) b + trapsum (skipn idx l)) / T else snd (last l p0)).
Proof.
  intros h p0 p1 r T0 I E HT l T t. destruct I as (S & _ & _). rewrite E in S. fold l in S.
  assert (fst p0 < fst (last l p0)) as PL.
  { assert (fst p0 < fst p1) by (apply (consecutive_sorted aeqR l p0 p1 S); exists [], r; reflexivity).
    pose proof (sorted_le_last p0 (p1 :: r) p1 S (or_intror (or_introl eq_refl))) as Q. fold l in Q.
    change (num A) with R in *. lra. }
  assert (0 <= T) as T0'.
  { unfold T, duration, l. fold l. apply Rmin_glb; [exact HT|]. change (num A) with R in *. lra. }
  assert (T <= duration l) as Td by apply Rmin_r. unfold duration, l in Td. fold l in Td.
  destruct (find_correct A (R_laws aeqR aeqR_refl) l t S) as (idx & Ei & B).
  pose proof (last_nth_error A l p0 ltac:(discriminate)) as Ln.
  assert (idx < length l)%nat as Il.
  { destruct B as (B0 & B1 & _). destruct (le_lt_dec (length l) idx) as [G|G]; auto. exfalso.
    assert (lt A (fst (last l p0)) t = true) as Q by (apply (B1 (length l - 1)%nat); [unfold l in *; simpl in *; lia|exact Ln]).
    change (Rltb (fst (last l p0)) t = true) in Q. apply Rltb_true in Q. unfold t in Q. lra. }
  destruct (nth_error l idx) as [b|] eqn:Eb; [|apply nth_error_None in Eb; lia].
  destruct (interpolate_bounds aeqR l idx t S ltac:(discriminate) B) as (fv & Ef & _).
  exists idx, fv, b.
  assert (t <= fst b) as Tb by (destruct B as (_ & _ & B); specialize (B b Eb); simpl in B; apply Rltb_false in B; exact B).
  assert (fst p0 <= t) as Pt by (unfold t; change (num A) with R in *; lra).
  split; [exact B|]. split; [exact Eb|]. split; [split; assumption|]. split; [exact T0'|]. split; [exact Ef|].
  unfold average. rewrite E. fold l. change (lt A T0 (zero A)) with (Rltb T0 0).
  replace (Rltb T0 0) with false by (symmetry; apply Rltb_false; exact HT).
  assert (minn A T0 (get_duration A h) = T) as ->.
  { unfold minn, get_duration. rewrite E. fold l. change (lt A) with Rltb. change (sub A) with Rminus. unfold T, Rmin, duration, l. fold l. unfold Rltb.
    change (num A) with R.
    destruct (Rlt_dec (fst (last l p0) - fst p0) T0); destruct (Rle_dec T0 (fst (last l p0) - fst p0)); auto; lra. }
  assert (sub A (get_current_time A h) T = t) as ->.
  { unfold get_current_time. rewrite E. reflexivity. }
  cbv zeta. rewrite Ei. cbn [bindO]. rewrite Ef. cbn [bindO]. unfold at_throw. change (num A) with R. rewrite Eb. cbn [bindO].
  rewrite integrate_trapsum by exact Il. cbn [bindO].
  unfold eqn. simpl. change (num A) with R in *. unfold Rltb at 1 2.
  destruct (Rlt_dec T 0); [lra|]. unfold Rltb. destruct (Rlt_dec 0 T); cbn [negb andb]; reflexivity.
Qed.

Lemma skipn_cons_nth : forall X (l : list X) i b, nth_error l i = Some b -> skipn i l = b :: skipn (S i) l.
Proof. intros X l i. revert l. induction i; intros l b E; destruct l; simpl in *; try discriminate; [congruence|]. apply IHi. exact E. Qed.

Lemma last_skipn : forall (l : list (R * R)) i b d, nth_error l i = Some b -> last (b :: skipn (S i) l) b = last l d.
Proof.
  intros l i b d E. rewrite <- (skipn_cons_nth _ l i b E). rewrite <- (firstn_skipn i l) at 2.
  rewrite (skipn_cons_nth _ l i b E). generalize (firstn i l) as u. generalize (skipn (S i) l) as w. clear. intros w u.
  rewrite (lastdef _ (b :: w) b d) by discriminate.
  induction u as [|a u IH]; [reflexivity|]. simpl app. rewrite IH. destruct (u ++ b :: w) eqn:E; [destruct u; discriminate|reflexivity].
Qed.

Lemma average_bounds_lemma : forall (h : hist A) T0 m M, inv A h -> L h <> [] -> 0 <= T0 ->
  (forall p, In p (L h) -> m <= snd p <= M) ->
  exists y, average A h T0 = Ok y /\ m <= y <= M.
Proof.
  intros h T0 m M I NE HT Hb. destruct (L h) as [|p0 [|p1 r]] eqn:E; [congruence| |].
  { unfold average. rewrite E. exists (snd p0). split; [reflexivity|]. apply Hb. left. reflexivity. }
  destruct (average_unfold h p0 p1 r T0 I E HT) as (idx & fv & b & B & Eb & Ht & T0' & Ef & Ea).
  change (num A) with R in *. set (l := p0 :: p1 :: r) in *. set (T := Rmin T0 (duration l)) in *. set (t := fst (last l p0) - T) in *.
  rewrite Ea. destruct I as (S & _ & _). rewrite E in S. fold l in S.
  unfold Rltb. destruct (Rlt_dec 0 T) as [Tp|Tp].
  2:{ eexists. split; [reflexivity|]. apply Hb. pose proof (last_nth_error A l p0 ltac:(discriminate)) as Q. eapply nth_error_In. exact Q. }
  eexists. split; [reflexivity|].
  rewrite (skipn_cons_nth _ l idx b Eb).
  assert (sorted (b :: skipn (Datatypes.S idx) l)) as Sb by (rewrite <- (skipn_cons_nth _ l idx b Eb); apply sorted_skipn; exact S).
  pose proof (trapsum_bounds m M (skipn (Datatypes.S idx) l) b Sb) as TB.
  assert (forall q, In q (b :: skipn (Datatypes.S idx) l) -> m <= snd q <= M) as Hq.
  { intros q Hq. apply Hb. rewrite <- (skipn_cons_nth _ l idx b Eb) in Hq. apply (in_skipn A l idx q). exact Hq. }
  specialize (TB Hq). change (num A) with R in *. rewrite (last_skipn l idx b p0 Eb) in TB.
  assert (m <= fv <= M) as Hfv.
  { destruct (interpolate_bounds aeqR l idx t S ltac:(discriminate) B) as (y & Ey & D). rewrite Ef in Ey. injection Ey as <-.
    destruct D as [(p & Hp & ->)|(a & c & C & _ & Hy)].
    - apply Hb. eapply nth_error_In. exact Hp.
    - destruct C as (u & v & El). assert (m <= snd a <= M) by (apply Hb; rewrite El; apply in_or_app; right; left; reflexivity).
      assert (m <= snd c <= M) by (apply Hb; rewrite El; apply in_or_app; right; right; left; reflexivity).
      pose proof (Rmin_glb (snd a) (snd c) m). pose proof (Rmax_lub (snd a) (snd c) M). lra. }
  pose proof (Hb b (nth_error_In _ _ Eb)) as Hbb.
  set (e := fst (last l p0)) in *.
  assert (m * T <= trap (t, fv) b + trapsum (b :: skipn (Datatypes.S idx) l) <= M * T) as [B1 B2].
  { unfold trap. simpl fst. simpl snd. set (w := fst b - t) in *. assert (0 <= w) by (unfold w; lra).
    replace T with (w + (e - fst b)) by (unfold w, t; lra).
    assert (m * w <= w * (fv + snd b) / 2 <= M * w) by (split; nra). lra. }
  split.
  - apply Rmult_le_reg_r with T; [exact Tp|]. unfold Rdiv. rewrite Rmult_assoc, Rinv_l by lra. lra.
  - apply Rmult_le_reg_r with T; [exact Tp|]. unfold Rdiv. rewrite Rmult_assoc, Rinv_l by lra. lra.
Qed.

Lemma average_integral_lemma : forall (h : hist A) (p0 p1 : R * R) (r : list (R * R)) T0 f, inv A h -> L h = p0 :: p1 :: r -> 0 < T0 ->
  (forall t, fst p0 <= t <= fst (last (L h) p0) -> interp (L h) t (f t)) ->
  let T := Rmin T0 (duration (L h)) in
  let e := fst (last (L h) p0) in
  resolved (L h) (e - T) ->
  exists y, average A h T0 = Ok y /\ is_RInt f (e - T) e (y * T) /\ 0 < T.
Proof.
  intros h p0 p1 r T0 f I E HT Hf.
  destruct (average_unfold h p0 p1 r T0 I E ltac:(lra)) as (idx & fv & b & B & Eb & Ht & T0' & Ef & Ea).
  rewrite E in *. change (num A) with R in *. set (l := p0 :: p1 :: r) in *. intros T e Hr. fold T in B, Ht, T0', Ef, Ea. fold e in B, Ht, Ef, Ea.
  set (t := e - T) in *. destruct I as (S & _ & _). rewrite E in S. fold l in S.
  assert (0 < T) as Tp.
  { unfold T. apply Rmin_glb_lt; [exact HT|]. unfold duration, l. fold l.
    assert (fst p0 < fst p1) by (apply (consecutive_sorted aeqR l p0 p1 S); exists [], r; reflexivity).
    pose proof (sorted_le_last p0 (p1 :: r) p1 S (or_intror (or_introl eq_refl))) as Q. fold l in Q.
    change (num A) with R in *. lra. }
  rewrite Ea. unfold Rltb. destruct (Rlt_dec 0 T); [|lra]. eexists. split; [reflexivity|]. split; [|exact Tp].
  unfold Rdiv. rewrite Rmult_assoc, Rinv_l, Rmult_1_r by lra.
  assert (idx < length l)%nat as Il by (apply nth_error_Some; congruence).
  destruct (interpolate_exact aeqR l idx t S ltac:(discriminate) B) as (y & Ey & Iy).
  { intros p Hp. simpl in Hp. injection Hp as <-. lra. }
  { exact Il. }
  { exact Hr. }
  rewrite Ef in Ey. injection Ey as <-.
  pose proof (skipn_cons_nth _ l idx b Eb) as Sk.
  assert (l = firstn idx l ++ b :: skipn (Datatypes.S idx) l) as Ls by (rewrite <- Sk; symmetry; apply firstn_skipn).
  pose proof (last_skipn l idx b p0 Eb) as Lb. fold e in Lb.
  assert (fst b <= e) as Be.
  { pose proof (sorted_le_last p0 (p1 :: r) b S (nth_error_In _ _ Eb)) as Q. exact Q. }
  apply (is_RInt_Chasles (V := R_NormedModule) f t (fst b) e (trap (t, fv) b) (trapsum (skipn idx l))).
  - (* first, partial, interval *)
    destruct (Req_dec t (fst b)) as [Et|Et].
    { unfold trap. simpl. rewrite <- Et. replace ((t - t) * (fv + snd b) / 2) with 0 by lra. apply (is_RInt_point (V := R_NormedModule) f t). }
    assert (exists i a, idx = Datatypes.S i /\ nth_error l i = Some a /\ fst a < t) as (i & a & -> & Ia & At).
    { destruct idx as [|i].
      - simpl in Eb. injection Eb as <-. lra.
      - destruct (nth_error l i) as [a|] eqn:Ia; [|apply nth_error_None in Ia; lia]. exists i, a.
        split; [reflexivity|]. split; [exact Ia|]. destruct B as (_ & B & _). apply Rltb_true. apply (B i a); [lia|exact Ia]. }
    assert (consecutive l a b) as C by (apply (consecutive_nth _ l i); auto).
    assert (fst p0 <= fst a) as Pa.
    { destruct i; [simpl in Ia; injection Ia as <-; lra|]. left. apply Rltb_true.
      apply (sorted_nth A l S 0 (Datatypes.S i) p0 a); [lia|reflexivity|exact Ia]. }
    assert (f t = fv) as Ft.
    { rewrite (interp_unique_seg l a b t (f t)), (interp_unique_seg l a b t fv); auto; try lra. apply Hf. fold e. lra. }
    pose proof (consecutive_sorted aeqR l a b S C) as AB.
    assert (f (fst b) = snd b) as Fb.
    { rewrite (interp_unique_seg l a b (fst b) (f (fst b))); auto; [unfold affine; field; lra|lra|].
      apply Hf. fold e. lra. }
    unfold trap. simpl. rewrite <- Ft, <- Fb at 1.
    replace ((fst b - t) * (f t + snd b) / 2) with ((fst b - t) * (f t + f (fst b)) / 2) by (rewrite Fb; reflexivity).
    apply (is_RInt_seg f l a b); auto; try lra. intros u Hu. apply Hf. fold e. lra.
  - rewrite Sk. change (num A) with R in *. replace e with (fst (last (b :: skipn (Datatypes.S idx) l) b)) by (unfold e; rewrite Lb; reflexivity). apply (is_RInt_trapsum f (firstn idx l)).
    + rewrite <- Ls. exact S.
    + intros u Hu. rewrite <- Ls. apply Hf. change (num A) with R in *. rewrite Lb in Hu. fold e. fold e in Hu. lra.
Qed.
End R.
