(** Proofs about the discretised spectra: flattening, phases, filtering. *)
From Coq Require Import Reals List Bool ZArith Lra Lia Sorted Permutation.
From Verif Require Import Common Wave_Model Wave_Spec Wave_Proofs.
Import ListNotations.
Open Scope R_scope.

(** ** Widths *)
Definition wd (grid : list R) (i : nat) : R :=
  let n := List.length grid in
  if Nat.ltb 1 n then
    (if Nat.eqb i 0 then 0 else (nth i grid 0 - nth (i - 1) grid 0) / 2) +
    (if Nat.eqb i (n - 1) then 0 else (nth (i + 1) grid 0 - nth i grid 0) / 2)
  else 1.
Lemma width_ok : forall grid i, (i < List.length grid)%nat -> width grid i = Ok (wd grid i).
Proof.
  intros grid i H. unfold width, wd. destruct (Nat.ltb 1 (List.length grid)) eqn:E; [|reflexivity]. apply Nat.ltb_lt in E.
  destruct (Nat.eqb i 0) eqn:E0.
  - apply Nat.eqb_eq in E0. subst i. rewrite (at_throw_ok _ grid 1 0), (at_throw_ok _ grid 0 0) by lia. cbn [bindO].
    replace (Nat.eqb 0 (List.length grid - 1)) with false by (symmetry; apply Nat.eqb_neq; lia). f_equal. cbn [Nat.add]. lra.
  - apply Nat.eqb_neq in E0. destruct (Nat.eqb i (List.length grid - 1)) eqn:E1.
    + apply Nat.eqb_eq in E1. rewrite (at_throw_ok _ grid (List.length grid - 1) 0), (at_throw_ok _ grid (List.length grid - 2) 0) by lia. cbn [bindO].
      f_equal. subst i. replace (List.length grid - 1 - 1)%nat with (List.length grid - 2)%nat by lia. lra.
    + apply Nat.eqb_neq in E1. rewrite (at_throw_ok _ grid i 0), (at_throw_ok _ grid (i-1) 0), (at_throw_ok _ grid (i+1) 0) by lia. cbn [bindO]. f_equal.
Qed.
Lemma sorted_nth : forall l i j, nondecreasing l -> (i <= j)%nat -> (j < List.length l)%nat -> nth i l 0 <= nth j l 0.
Proof.
  induction l as [|a l IH]; intros i j H Hij Hj; [simpl in Hj; lia|]. inversion H as [|? ? Hs Hf]; subst.
  destruct i as [|i], j as [|j]; simpl; try lra; try lia.
  - simpl in Hj. rewrite Forall_forall in Hf. apply Hf, nth_In. lia.
  - simpl in Hj. apply IH; [assumption|lia|lia].
Qed.
Lemma wd_nonneg : forall grid i, nondecreasing grid -> (i < List.length grid)%nat -> 0 <= wd grid i.
Proof.
  intros grid i H Hi. unfold wd. destruct (Nat.ltb 1 (List.length grid)); [|lra].
  assert (i <> 0%nat -> nth (i - 1) grid 0 <= nth i grid 0) by (intros; apply sorted_nth; auto; lia).
  assert (i <> (List.length grid - 1)%nat -> nth i grid 0 <= nth (i + 1) grid 0) by (intros; apply sorted_nth; auto; lia).
  destruct (Nat.eqb_spec i 0), (Nat.eqb_spec i (List.length grid - 1)); repeat match goal with HH : ?P -> _, H' : ?P |- _ => specialize (HH H') end; lra.
Qed.

(** Both halves of the widths, summed separately, give the trapezoidal rule. *)
Definition left_half (grid fs : list R) (i : nat) : R := (if Nat.eqb i 0 then 0 else (nth i grid 0 - nth (i - 1) grid 0) / 2) * nth i fs 0.
Definition right_half (grid fs : list R) (i : nat) : R := (if Nat.eqb i (List.length grid - 1) then 0 else (nth (i + 1) grid 0 - nth i grid 0) / 2) * nth i fs 0.
Lemma left_sum : forall grid fs, List.length fs = List.length grid ->
  Rsum (map (left_half grid fs) (seq 0 (List.length grid))) = Rsum (map (fun i => (nth (S i) grid 0 - nth i grid 0) / 2 * nth (S i) fs 0) (seq 0 (List.length grid - 1))).
Proof.
  intros grid fs H. destruct grid as [|x grid]; [reflexivity|]. cbn [List.length]. cbn [seq map Rsum fold_right]. unfold left_half at 1. cbn [Nat.eqb].
  rewrite <- seq_shift, map_map. replace (S (List.length grid) - 1)%nat with (List.length grid) by lia.
  fold (Rsum (map (fun i => left_half (x :: grid) fs (S i)) (seq 0 (List.length grid)))). rewrite Rmult_0_l, Rplus_0_l. apply Rsum_ext.
  intros i _. unfold left_half. cbn [Nat.eqb]. replace (S i - 1)%nat with i by lia. reflexivity.
Qed.
Lemma right_sum : forall grid fs, List.length fs = List.length grid ->
  Rsum (map (right_half grid fs) (seq 0 (List.length grid))) = Rsum (map (fun i => (nth (S i) grid 0 - nth i grid 0) / 2 * nth i fs 0) (seq 0 (List.length grid - 1))).
Proof.
  intros grid fs H. destruct grid as [|x grid]; [reflexivity|]. set (n := List.length grid). assert (List.length (x :: grid) = (n + 1)%nat) as L by (cbn; unfold n; lia).
  rewrite L. rewrite seq_app, map_app, Rsum_app. cbn [seq map Rsum fold_right]. unfold right_half at 2. rewrite L. replace (n + 1 - 1)%nat with n by lia.
  cbn [Nat.add]. rewrite Nat.eqb_refl. rewrite Rmult_0_l, !Rplus_0_r. apply Rsum_ext. intros i Hi. apply in_seq in Hi. unfold right_half. rewrite L.
  replace (Nat.eqb i (n + 1 - 1)) with false by (symmetry; apply Nat.eqb_neq; lia). replace (i + 1)%nat with (S i) by lia. reflexivity.
Qed.
Lemma trapz_sum : forall xs fs, List.length fs = List.length xs ->
  trapz xs fs = Rsum (map (fun i => (nth (S i) xs 0 - nth i xs 0) * (nth i fs 0 + nth (S i) fs 0) / 2) (seq 0 (List.length xs - 1))).
Proof.
  induction xs as [|x xs IH]; intros fs H; [reflexivity|]. destruct fs as [|f fs]; [discriminate|]. cbn [List.length] in H. injection H as H.
  destruct xs as [|x2 xs]; [destruct fs; reflexivity|]. destruct fs as [|f2 fs]; [discriminate|].
  cbn [trapz]. change (match xs with [] => _ | _ => _ end) with (trapz (x2 :: xs) (f2 :: fs)).
  replace (List.length (x :: x2 :: xs) - 1)%nat with (S (List.length xs)) by (cbn; lia). cbn [seq map Rsum fold_right]. cbn [nth].
  f_equal. rewrite <- seq_shift, map_map. change (match xs with [] => 0 | _ => _ end) with (trapz (x2 :: xs) (f2 :: fs)). rewrite IH by exact H.
  replace (List.length (x2 :: xs) - 1)%nat with (List.length xs) by (cbn; lia). reflexivity.
Qed.
Lemma wd_integral : forall grid fs, List.length fs = List.length grid -> (1 <= List.length grid)%nat ->
  Rsum (map (fun i => nth i fs 0 * wd grid i) (seq 0 (List.length grid))) = integral grid fs.
Proof.
  intros grid fs H Hn. unfold wd. destruct (Nat.ltb 1 (List.length grid)) eqn:E.
  - apply Nat.ltb_lt in E. assert (integral grid fs = trapz grid fs) as ->. { destruct fs as [|f [|f2 fs]]; simpl in *; try lia; reflexivity. }
    rewrite (Rsum_ext _ _ (fun i => left_half grid fs i + right_half grid fs i)) by (intros; unfold left_half, right_half; lra).
    rewrite Rsum_plus, left_sum, right_sum, trapz_sum by assumption. rewrite <- Rsum_plus. apply Rsum_ext. intros. lra.
  - apply Nat.ltb_ge in E. destruct grid as [|g [|]]; simpl in *; try lia. destruct fs as [|f [|]]; simpl in *; try lia. lra.
Qed.

(** ** Flattening *)
Record sized (sp : discrete) (n p : nat) : Prop := {
  sz_Si : List.length (d_Si sp) = n; sz_omega : List.length (d_omega sp) = n; sz_k : List.length (d_k sp) = n;
  sz_Dj : List.length (d_Dj sp) = p; sz_psi : List.length (d_psi sp) = p }.
Record phased (sp : discrete) (n p : nat) : Prop := {
  ph_rows : List.length (d_phase sp) = n; ph_row : forall r, In r (d_phase sp) -> (p <= List.length r)%nat }.

Definition amplitude (sp : discrete) (i j : nat) : fnum :=
  fsqrt (fmul (fmul (fmul (Some 2) (fmul (Some (nth i (d_Si sp) 0)) (nth j (d_Dj sp) None))) (Some (wd (d_omega sp) i))) (Some (wd (d_psi sp) j))).
Definition comp_of (sp : discrete) (i j : nat) : component fnum :=
  mkComp (amplitude sp i j) (nth i (d_omega sp) 0) (nth j (d_psi sp) 0) (nth i (d_k sp) 0) (nth j (nth i (d_phase sp) []) 0).
Lemma flatten_component_ok : forall sp n p i j, sized sp n p -> phased sp n p -> (i < n)%nat -> (j < p)%nat ->
  flatten_component sp i j = Ok (comp_of sp i j).
Proof.
  intros sp n p i j [] [] Hi Hj. unfold flatten_component. rewrite !width_ok by lia. cbn [bindO].
  rewrite (at_ub_ok _ (d_k sp) i 0), (at_ub_ok _ (d_omega sp) i 0), (at_ub_ok _ (d_psi sp) j 0), (at_ub_ok _ (d_Si sp) i 0), (at_ub_ok _ (d_Dj sp) j None) by lia.
  cbn [bindO]. rewrite (at_throw_ok _ (d_phase sp) i []) by lia. cbn [bindO].
  rewrite (at_throw_ok _ _ j 0). { reflexivity. } eapply Nat.lt_le_trans; [exact Hj|]. apply ph_row0, nth_In. lia.
Qed.
Definition comps (sp : discrete) : list (component fnum) :=
  map (fun ij => comp_of sp (fst ij) (snd ij)) (list_prod (seq 0 (List.length (d_omega sp))) (seq 0 (List.length (d_psi sp)))).
Definition flat_of {A} (cs : list (component A)) (pd ps : R -> R -> R -> R) : flat A :=
  mkFlat (map c_a cs) (map c_omega cs) (map c_psi cs) (map (fun c => cos (c_psi c)) cs) (map (fun c => sin (c_psi c)) cs)
             (map c_k cs) (map c_phase cs) pd ps.
Lemma flatten_ok : forall sp n p, sized sp n p -> phased sp n p -> flatten sp = Ok (flat_of (comps sp) (d_pdyn sp) (d_pdyn_sh sp)).
Proof.
  intros sp n p Hs Hp. unfold flatten. rewrite (mapM_ok _ _ _ (fun ij => comp_of sp (fst ij) (snd ij))); [reflexivity|].
  intros [i j] H. apply in_prod_iff in H. rewrite !in_seq in H. cbn [fst snd]. destruct Hs. apply (flatten_component_ok sp n p); [constructor|..]; auto; lia.
Qed.
Lemma comps_nth : forall sp n p i j, sized sp n p -> (i < n)%nat -> (j < p)%nat -> nth_error (comps sp) (i * p + j) = Some (comp_of sp i j).
Proof. intros sp n p i j [] Hi Hj. unfold comps. rewrite nth_error_map, sz_omega0, sz_psi0, list_prod_nth by assumption. reflexivity. Qed.
Lemma comps_length : forall sp n p, sized sp n p -> List.length (comps sp) = (n * p)%nat.
Proof. intros sp n p []. unfold comps. rewrite map_length, list_prod_len. congruence. Qed.

(** The discretised spectra built by [discretize] are consistent. *)
Lemma discretize_inf_sized : forall S D lo hi n st sp, discretize_inf S D lo hi n st = Ok sp ->
  sized sp (List.length (d_omega sp)) (List.length (d_psi sp)) /\ d_phase sp = [] /\ angular_frequencies S lo hi n = Ok (d_omega sp) /\
  d_psi sp = directions D n /\ Forall2 (fun w s => density S w = Ok s) (d_omega sp) (d_Si sp) /\ d_Dj sp = map (spread D) (d_psi sp) /\
  d_k sp = map wave_number_inf (d_omega sp) /\ d_pdyn sp = dynamic_pressure_factor_inf st /\ d_pdyn_sh sp = dynamic_pressure_factor_inf st.
Proof.
  intros S D lo hi n st sp H. unfold discretize_inf in H. destruct (angular_frequencies S lo hi n) as [w| |] eqn:E; try discriminate. cbn [bindO] in H.
  destruct (mapM (density S) w) as [Si| |] eqn:E2; try discriminate. cbn [bindO] in H. injection H as <-. cbn.
  split; [|split; [reflexivity|split; [reflexivity|split; [reflexivity|split; [apply mapM_inv; exact E2|auto]]]]].
  apply mapM_length in E2. constructor; cbn; rewrite ?map_length; auto.
Qed.
Lemma discretize_h_sized : forall hal S D lo hi n h st sp, discretize_h hal S D lo hi n h st = Ok sp ->
  sized sp (List.length (d_omega sp)) (List.length (d_psi sp)) /\ d_phase sp = [] /\ angular_frequencies S lo hi n = Ok (d_omega sp) /\
  d_psi sp = directions D n /\ Forall2 (fun w s => density S w = Ok s) (d_omega sp) (d_Si sp) /\ d_Dj sp = map (spread D) (d_psi sp) /\
  Forall2 (fun w k => wave_number hal w h = Ok k /\ PI / 10 <= k * h) (d_omega sp) (d_k sp) /\
  d_pdyn sp = dynamic_pressure_factor h st /\ d_pdyn_sh sp = dynamic_pressure_factor_sh h st.
Proof.
  intros hal S D lo hi n h st sp H. unfold discretize_h in H. destruct (angular_frequencies S lo hi n) as [w| |] eqn:E; try discriminate. cbn [bindO] in H.
  destruct (mapM (density S) w) as [Si| |] eqn:E2; try discriminate. cbn [bindO] in H.
  destruct (mapM (fun w => wave_number hal w h) w) as [k| |] eqn:E3; try discriminate. cbn [bindO] in H.
  destruct (existsb _ k) eqn:E4; [discriminate|]. injection H as <-. cbn.
  split; [|split; [reflexivity|split; [reflexivity|split; [reflexivity|split; [apply mapM_inv; exact E2|]]]]].
  - apply mapM_length in E2. apply mapM_length in E3. constructor; cbn; rewrite ?map_length; auto.
  - split; [reflexivity|]. split; [|auto]. apply mapM_inv in E3.
    assert (forall x, In x k -> PI / 10 <= x * h) as G. { intros x Hx. destruct (Rltb (x * h) (PI / 10)) eqn:Ex; rb; [|assumption].
      exfalso. assert (existsb (fun ki => Rltb (ki * h) (PI / 10)) k = true); [|congruence]. apply existsb_exists. exists x. split; [assumption|apply Rltb_t; assumption]. }
    clear - E3 G. induction E3; constructor; [split; [assumption|apply G; left; reflexivity]|]. apply IHE3. intros. apply G. right. assumption.
Qed.

(** Phases *)
Lemma add_random_sized : forall sp draw n p, sized sp n p -> sized (add_random_phases sp draw) n p.
Proof. intros sp draw n p []. unfold add_random_phases. destruct (Nat.ltb _ _); constructor; auto. Qed.
Lemma add_constant_sized : forall sp c n p, sized sp n p -> sized (add_constant_phases sp c) n p.
Proof. intros sp c n p []. unfold add_constant_phases. destruct (Nat.ltb _ _); constructor; auto. Qed.
Lemma add_random_phased : forall sp draw n p, sized sp n p -> (0 < n * p)%nat -> phased (add_random_phases sp draw) n p.
Proof.
  intros sp draw n p [] Hp. unfold add_random_phases. rewrite sz_Si0, sz_Dj0. replace (Nat.ltb 0 (n * p)) with true by (symmetry; apply Nat.ltb_lt; lia).
  constructor; cbn; [rewrite map_length, seq_length; reflexivity|]. intros r Hr. apply in_map_iff in Hr. destruct Hr as (i & <- & _). rewrite map_length, seq_length. lia.
Qed.
Lemma add_constant_phased : forall sp c n p, sized sp n p -> (0 < n * p)%nat -> (p <= n)%nat -> phased (add_constant_phases sp c) n p.
Proof.
  intros sp c n p [] Hp Hle. unfold add_constant_phases. rewrite sz_Si0, sz_Dj0. replace (Nat.ltb 0 (n * p)) with true by (symmetry; apply Nat.ltb_lt; lia).
  constructor; cbn; [apply repeat_length|]. intros r Hr. apply repeat_spec in Hr. subst r. rewrite repeat_length. lia.
Qed.
Lemma flatten_not_UB : forall sp n p, sized sp n p -> flatten sp <> UB.
Proof.
  intros sp n p Hs. unfold flatten. assert (forall l, (forall ij, In ij l -> fst ij < n /\ snd ij < p)%nat -> mapM (fun ij => flatten_component sp (fst ij) (snd ij)) l <> UB) as G.
  { induction l as [|[i j] l IH]; intros Hl; [discriminate|]. rewrite mapM_cons. cbn [fst snd].
    destruct (Hl (i, j) (or_introl eq_refl)) as [Hi Hj]. cbn [fst snd] in Hi, Hj.
    assert (flatten_component sp i j <> UB) as N.
    { destruct Hs. unfold flatten_component. rewrite !width_ok by lia. cbn [bindO].
      rewrite (at_ub_ok _ (d_k sp) i 0), (at_ub_ok _ (d_omega sp) i 0), (at_ub_ok _ (d_psi sp) j 0), (at_ub_ok _ (d_Si sp) i 0), (at_ub_ok _ (d_Dj sp) j None) by lia.
      cbn [bindO]. unfold at_throw. destruct (nth_error (d_phase sp) i); cbn [bindO]; [|discriminate]. destruct (nth_error l0 j); discriminate. }
    destruct (flatten_component sp i j); cbn [bindO]; [|discriminate|contradiction].
    specialize (IH (fun ij H => Hl ij (or_intror H))). destruct (mapM _ l); cbn [bindO]; try discriminate. contradiction. }
  specialize (G (list_prod (seq 0 (List.length (d_omega sp))) (seq 0 (List.length (d_psi sp))))).
  destruct (mapM _ _); cbn [bindO]; try discriminate. intros _. apply G; [|reflexivity]. intros [i j] H. apply in_prod_iff in H. rewrite !in_seq in H. destruct Hs. cbn. lia.
Qed.

(** ** Amplitudes *)
Lemma all_numbers_spec : forall l r, all_numbers l = Some r <-> l = map Some r.
Proof.
  induction l as [|[x|] l IH]; intros r; simpl.
  - split; [intros H; injection H as <-; reflexivity|destruct r; [reflexivity|discriminate]].
  - destruct (all_numbers l) as [xs|] eqn:E.
    + split; [intros H; injection H as <-; cbn; f_equal; apply IH; reflexivity|]. intros H. destruct r as [|y r]; [discriminate|]. cbn in H. injection H as -> H.
      apply IH in H. congruence.
    + split; [discriminate|]. intros H. destruct r as [|y r]; [discriminate|]. cbn in H. injection H as -> H. apply IH in H. discriminate.
  - split; [discriminate|]. destruct r; discriminate.
Qed.
Lemma all_numbers_nan : forall l, all_numbers l = None <-> In None l.
Proof.
  induction l as [|[x|] l IH]; simpl; [split; [discriminate|intros []]| |split; auto].
  destruct (all_numbers l) eqn:E; [split; [discriminate|]|split; auto]. intros [H|H]; [discriminate|]. apply IH in H. discriminate. intros _. right. apply IH. reflexivity.
Qed.
Lemma amplitude_number : forall sp i j si dj, nth i (d_Si sp) 0 = si -> nth j (d_Dj sp) None = Some dj ->
  0 <= 2 * (si * dj) * wd (d_omega sp) i * wd (d_psi sp) j ->
  amplitude sp i j = Some (sqrt (2 * (si * dj) * wd (d_omega sp) i * wd (d_psi sp) j)).
Proof. intros sp i j si dj H1 H2 H. unfold amplitude. rewrite H1, H2. cbn [fmul fsqrt]. rewrite Rltb_f by exact H. reflexivity. Qed.

(** ** Filtering *)
Lemma insert_desc_perm : forall v l, Permutation (v :: l) (insert_desc v l).
Proof.
  induction l as [|w l IH]; simpl; [constructor; constructor|]. destruct (Rltb (fst w) (fst v)); [reflexivity|].
  eapply perm_trans; [apply perm_swap|]. constructor. exact IH.
Qed.
Definition desc (v w : R * nat) : Prop := fst w <= fst v.
Lemma insert_desc_sorted : forall v l, StronglySorted desc l -> StronglySorted desc (insert_desc v l).
Proof.
  induction l as [|w l IH]; intros H; simpl; [repeat constructor|]. inversion H as [|? ? Hs Hf]; subst.
  destruct (Rltb (fst w) (fst v)) eqn:E; rb.
  - constructor; [assumption|]. constructor; [unfold desc; lra|]. eapply Forall_impl; [|exact Hf]. unfold desc. intros. lra.
  - constructor; [apply IH; assumption|]. apply Forall_forall. intros y Hy. apply (Permutation_in y (Permutation_sym (insert_desc_perm v l))) in Hy.
    destruct Hy as [<-|Hy]; [exact E|]. rewrite Forall_forall in Hf. apply Hf. exact Hy.
Qed.
Lemma sort_desc_perm : forall l, Permutation l (sort_desc l).
Proof.
  intros l. unfold sort_desc. enough (forall l s, Permutation (l ++ s) (fold_left (fun s v => insert_desc v s) l s)) as H by (rewrite <- (app_nil_r l) at 1; apply H).
  induction l0 as [|v l0 IH]; intros s; simpl; [reflexivity|]. eapply perm_trans; [|apply IH]. eapply perm_trans; [apply Permutation_middle|].
  apply Permutation_app_head. apply insert_desc_perm.
Qed.
Lemma sort_desc_sorted : forall l, StronglySorted desc (sort_desc l).
Proof.
  intros l. unfold sort_desc. enough (forall l s, StronglySorted desc s -> StronglySorted desc (fold_left (fun s v => insert_desc v s) l s)) as H by (apply H; constructor).
  induction l0 as [|v l0 IH]; intros s H; simpl; [assumption|]. apply IH, insert_desc_sorted, H.
Qed.
Lemma filter_loop_spec : forall E l c, exists m, filter_loop E c l = map snd (firstn m l) /\ (m <= List.length l)%nat /\
  (forall q, (q < m)%nat -> c + Rsum (map fst (firstn q l)) < E) /\ (m = List.length l \/ E <= c + Rsum (map fst (firstn m l))).
Proof.
  induction l as [|v l IH]; intros c.
  - exists 0%nat. simpl. repeat split; auto; try (intros q Hq; lia).
  - simpl. destruct (Rleb E c) eqn:Ec; rb.
    + exists 0%nat. simpl. repeat split; try lia; try (intros q Hq; lia). right. lra.
    + destruct (IH (c + fst v)) as (m & H1 & H2 & H3 & H4). exists (S m). simpl. rewrite H1. repeat split; [lia| |].
      * intros q Hq. destruct q as [|q]; simpl; [lra|]. specialize (H3 q ltac:(lia)). lra.
      * destruct H4 as [H4|H4]; [left; lia|right; lra].
Qed.
Lemma fold_total : forall (l : list (R * nat)) s, fold_left (fun s v => s + fst v) l s = s + Rsum (map fst l).
Proof. induction l as [|v l IH]; intros s; simpl; [lra|]. rewrite IH. lra. Qed.
Lemma NoDup_app_l : forall (A : Type) (a b : list A), NoDup (a ++ b) -> NoDup a.
Proof.
  induction a as [|x a IH]; intros b H; [constructor|]. cbn in H. inversion H as [|? ? N1 N2]; subst. constructor; [|eapply IH; exact N2].
  intros Hx. apply N1. apply in_or_app. left. exact Hx.
Qed.
