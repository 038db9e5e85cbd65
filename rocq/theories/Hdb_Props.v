(** Properties C46 (axes of the Aquaplus matrices), C47 (RAO tables), C48 (mirror of the RAO), C81 (matrices of the HDB file) and C82 (diffraction force). *)
From Coq Require Import Reals List Bool Lra Lia Sorted ZArith String Ascii.
From Verif Require Import Common Geometry Sim_Model Force_Model Force_Spec Force_Props Wave_Model Wave_Proofs Hdb_Model.
Import ListNotations.
Open Scope R_scope.

(** ** C46 *)
(** Half-turn about the longitudinal axis, on the six components of a velocity or of a force: y and z change sign. *)
Definition half_turn (v : nat -> R) : nat -> R := fun i => match i with 0 | 3 => v i | _ => - v i end%nat.
(** The converted matrix gives in xdyn's axes the force that the original gives in Aquaplus' axes. *)
Theorem aquaplus_conversion_is_a_half_turn : forall M v i, (i < 6)%nat -> mul6 (convert_matrix M) v i = half_turn (mul6 M (half_turn v)) i.
Proof.
  intros M v i Hi. do 6 (destruct i as [|i]; [unfold mul6, sum6, half_turn, convert_matrix; cbn; ring|]). lia.
Qed.
Print Assumptions aquaplus_conversion_is_a_half_turn.
Lemma six : forall (P : nat -> Prop), P 0%nat -> P 1%nat -> P 2%nat -> P 3%nat -> P 4%nat -> P 5%nat -> forall i, (i < 6)%nat -> P i.
Proof. intros P H0 H1 H2 H3 H4 H5 i Hi. do 6 (destruct i as [|i]; [assumption|]). lia. Qed.
Theorem aquaplus_conversion_involutive : forall M i j, convert_matrix (convert_matrix M) i j = M i j.
Proof. intros M i j. unfold convert_matrix. destruct (existsb _ _); ring. Qed.
Print Assumptions aquaplus_conversion_involutive.
Theorem aquaplus_conversion_preserves : forall M,
  (forall i, (i < 6)%nat -> convert_matrix M i i = M i i) /\
  ((forall i j, (i < 6)%nat -> (j < 6)%nat -> M i j = M j i) -> forall i j, (i < 6)%nat -> (j < 6)%nat -> convert_matrix M i j = convert_matrix M j i) /\
  (forall v, form6 (convert_matrix M) v = form6 M (half_turn v)) /\
  (positive_semi_definite M -> positive_semi_definite (convert_matrix M)).
Proof.
  intros M. assert (forall v, form6 (convert_matrix M) v = form6 M (half_turn v)) as F by (intros v; unfold form6, dot6, mul6, sum6, half_turn, convert_matrix; cbn; ring).
  split; [apply six; unfold convert_matrix; cbn; reflexivity|]. split.
  - intros S i j Hi Hj. assert (existsb (fun p => Nat.eqb (fst p) i && Nat.eqb (snd p) j) flipped = existsb (fun p => Nat.eqb (fst p) j && Nat.eqb (snd p) i) flipped) as E.
    { revert j Hj. pattern i. revert i Hi. apply six; apply six; reflexivity. }
    unfold convert_matrix. rewrite E, (S i j Hi Hj). reflexivity.
  - split; [exact F|]. intros H v. rewrite F. apply H.
Qed.
Print Assumptions aquaplus_conversion_preserves.
Example aquaplus_conversion_example : let M := fun i j => INR (10 * i + j) in convert_matrix M 0%nat 2%nat = -2 /\ convert_matrix M 1%nat 2%nat = 12 /\ convert_matrix M 0%nat 3%nat = 3.
Proof. unfold convert_matrix. cbn. repeat split; lra. Qed.
(** The diffraction force is converted by the opposite half-turn: x changes sign, y and z do not. *)

(** ** C81: matrices of the HDB file *)
(** The last section of the file with the name of line i *)
Definition section_of (name : string) (i : nat) (sections : list (string * list line)) : option (list line) :=
  option_map snd (find (fun s => String.eqb (fst s) (line_name name i)) (rev sections)).
Definition sign (i j : nat) : R := half_turn (fun _ => 1) i * half_turn (fun _ => 1) j.

Lemma ascii_inj : forall i j, (i < 6)%nat -> (j < 6)%nat -> ascii_of_nat (49 + i) = ascii_of_nat (49 + j) -> i = j.
Proof. intros i j Hi Hj E. apply (f_equal nat_of_ascii) in E. rewrite !nat_ascii_embedding in E by lia. lia. Qed.
Lemma append_inj : forall a b c, (a ++ b = a ++ c)%string -> b = c.
Proof. induction a as [|x a IH]; intros b c H; [exact H|]. injection H as H. apply IH. exact H. Qed.
Lemma line_name_inj : forall n i j, (i < 6)%nat -> (j < 6)%nat -> line_name n i = line_name n j -> i = j.
Proof. intros n i j Hi Hj E. unfold line_name in E. apply append_inj in E. apply append_inj in E. apply ascii_inj; [assumption|assumption|]. exact (f_equal (fun s => match s with String a _ => a | EmptyString => Ascii.zero end) E). Qed.
Lemma line_of_spec : forall n h i, line_of n h = Some i <-> (i < 6)%nat /\ h = line_name n i.
Proof.
  intros n h i. split.
  - intros H. unfold line_of in H. apply find_some in H. destruct H as [H1 H2]. apply in_seq in H1. apply String.eqb_eq in H2. split; [lia|exact H2].
  - intros [Hi ->]. unfold line_of. destruct (find _ (seq 0 6)) as [k|] eqn:E.
    + apply find_some in E. destruct E as [E1 E2]. apply in_seq in E1. apply String.eqb_eq in E2. f_equal. symmetry. apply (line_name_inj n); [lia|lia|exact E2].
    + exfalso. pose proof (find_none _ _ E i ltac:(apply in_seq; lia)) as H. cbv beta in H. rewrite String.eqb_refl in H. discriminate.
Qed.
Lemma section_of_app : forall n i l h V, (i < 6)%nat ->
  section_of n i (l ++ [(h, V)]) = if String.eqb h (line_name n i) then Some V else section_of n i l.
Proof. intros. unfold section_of. rewrite rev_app_distr. cbn [rev app find fst]. destruct (String.eqb h _); reflexivity. Qed.

Lemma fill_loop_spec : forall i V ret r, List.length V = List.length ret -> fill_loop i V ret = Ok r ->
  List.length r = List.length V /\ map fst r = map fst V /\
  forall k T v m, nth_error V k = Some (T, v) -> nth_error ret k = Some m -> (6 <= List.length v)%nat /\ nth_error r k = Some (T, set_row i v (snd m)).
Proof.
  intros i V. induction V as [|[T v] V IH]; intros [|m ret] r HL H; try discriminate HL; cbn [fill_loop] in H.
  - injection H as <-. split; [reflexivity|]. split; [reflexivity|]. intros [|k]; discriminate.
  - destruct (Nat.ltb _ 6) eqn:E; [discriminate|]. apply Nat.ltb_ge in E. destruct (fill_loop i V ret) as [r'| |] eqn:F; try discriminate H. cbn [bindO] in H. injection H as <-.
    injection HL as HL. destruct (IH ret r' HL F) as (L & Pf & Hk). split; [cbn; rewrite L; reflexivity|]. split; [cbn; rewrite Pf; reflexivity|].
    intros [|k] T' v' m' Hv Hm; cbn [nth_error] in *.
    + injection Hv as <- <-. injection Hm as <-. split; [exact E|reflexivity].
    + apply Hk; assumption.
Qed.

Definition loaded (name : string) (done : list (string * list line)) (ret : timestamped) (found : list nat) : Prop :=
  (forall i, existsb (Nat.eqb i) found = true -> (i < 6)%nat /\ exists V, section_of name i done = Some V) /\
  (forall i V, (i < 6)%nat -> section_of name i done = Some V -> existsb (Nat.eqb i) found = true /\ ret <> [] /\ List.length V = List.length ret /\
     forall k T v, nth_error V k = Some (T, v) -> (6 <= List.length v)%nat /\ exists T' m, nth_error ret k = Some (T', m) /\ forall j, m i j = nth j v 0).
Lemma matrix_loop_spec : forall name sections done ret found r, (forall h V, In (h, V) sections -> V <> []) ->
  loaded name done ret found -> matrix_loop name sections ret found = Ok r -> loaded name (done ++ sections) (fst r) (snd r).
Proof.
  intros name sections. induction sections as [|[h V] sections IH]; intros done ret found r NE HL H; cbn [matrix_loop] in H.
  - injection H as <-. rewrite app_nil_r. exact HL.
  - replace (done ++ (h, V) :: sections) with ((done ++ [(h, V)]) ++ sections) by (rewrite <- app_assoc; reflexivity).
    assert (V <> []) as NV by (apply (NE h); left; reflexivity).
    destruct (line_of name h) as [i|] eqn:E.
    + destruct (fill ret i V) as [ret'| |] eqn:F; try discriminate H. cbn [bindO] in H.
      apply IH with (ret := ret') (found := i :: found); [intros h' V' HV; apply (NE h'); right; exact HV| |exact H]. clear IH H NE.
      apply line_of_spec in E. destruct E as [Hi ->]. destruct HL as [L1 L2]. unfold fill in F.
      set (ret0 := match ret with [] => repeat (0, fun _ _ => 0) (List.length V) | _ => ret end) in F.
      destruct (Nat.eqb (List.length V) (List.length ret0)) eqn:EL; [|discriminate F]. apply Nat.eqb_eq in EL.
      destruct (fill_loop_spec i V ret0 ret' EL F) as (Lr & _ & Hk).
      assert (ret' <> []) as NR by (intros ->; apply NV; destruct V; [reflexivity|discriminate Lr]).
      split.
      * intros i' Hf. cbn [existsb] in Hf. apply orb_true_iff in Hf. destruct Hf as [Hf|Hf].
        { apply Nat.eqb_eq in Hf. subst i'. split; [exact Hi|]. exists V. rewrite section_of_app by exact Hi. rewrite String.eqb_refl. reflexivity. }
        destruct (L1 i' Hf) as [Hi' [V' HV']]. split; [exact Hi'|]. rewrite section_of_app by exact Hi'. destruct (String.eqb _ _); [exists V; reflexivity|exists V'; exact HV'].
      * intros i' V' Hi' HV'. rewrite section_of_app in HV' by exact Hi'. destruct (String.eqb (line_name name i) (line_name name i')) eqn:EE.
        { apply String.eqb_eq in EE. apply line_name_inj in EE; [|exact Hi|exact Hi']. subst i'. injection HV' as <-. split; [cbn [existsb]; rewrite Nat.eqb_refl; reflexivity|].
          split; [exact NR|]. split; [symmetry; exact Lr|]. intros k T v Hv.
          destruct (nth_error ret0 k) as [m|] eqn:Em; [|exfalso; apply nth_error_None in Em; assert (k < List.length V)%nat as LV by (apply nth_error_Some; congruence); rewrite EL in LV; apply (Nat.lt_irrefl k); eapply Nat.lt_le_trans; [exact LV|exact Em]].
          destruct (Hk k T v m Hv Em) as [Hl Hr]. split; [exact Hl|]. exists T, (set_row i v (snd m)). split; [exact Hr|]. intros j. unfold set_row. rewrite Nat.eqb_refl. reflexivity. }
        destruct (L2 i' V' Hi' HV') as (F1 & F2 & F3 & F4). split; [cbn [existsb]; rewrite F1; apply orb_true_r|]. split; [exact NR|].
        assert (ret0 = ret) as E0 by (unfold ret0; destruct ret; [congruence|reflexivity]). rewrite E0 in EL, Hk. assert (List.length V' = List.length V) as LV by (etransitivity; [exact F3|symmetry; exact EL]). split; [rewrite LV; symmetry; exact Lr|].
        intros k T v Hv. destruct (F4 k T v Hv) as (Hl & T' & m & Hm & Hj). split; [exact Hl|].
        destruct (nth_error V k) as [[T2 v2]|] eqn:Ev; [|exfalso; apply nth_error_None in Ev; assert (k < List.length V')%nat by (apply nth_error_Some; congruence); lia].
        destruct (Hk k T2 v2 (T', m) Ev Hm) as [_ Hr]. exists T2, (set_row i v2 m). split; [exact Hr|]. intros j. unfold set_row.
        replace (Nat.eqb i' i) with false; [apply Hj|]. symmetry. apply Nat.eqb_neq. intros ->. rewrite String.eqb_refl in EE. discriminate.
    + apply IH with (ret := ret) (found := found); [intros h' V' HV; apply (NE h'); right; exact HV| |exact H]. clear IH H NE.
      destruct HL as [L1 L2].
      assert (forall i, (i < 6)%nat -> section_of name i (done ++ [(h, V)]) = section_of name i done) as ES.
      { intros i Hi. rewrite section_of_app by exact Hi. destruct (String.eqb h (line_name name i)) eqn:X; [|reflexivity]. apply String.eqb_eq in X.
        assert (line_of name h = Some i) by (apply line_of_spec; split; assumption). congruence. }
      split; [intros i Hf; destruct (L1 i Hf) as [Hi HV]; split; [exact Hi|]; rewrite ES by exact Hi; exact HV|].
      intros i V' Hi HV. rewrite ES in HV by exact Hi. apply L2; assumption.
Qed.
Lemma convert_sign : forall M i j, (i < 6)%nat -> (j < 6)%nat -> convert_matrix M i j = sign i j * M i j.
Proof.
  intros M i j Hi. revert j. pattern i. revert i Hi. apply six; apply six; unfold convert_matrix, sign, half_turn; cbn; ring.
Qed.
(** When a file is accepted, line i of every matrix is the line of the section of that name, with the change of axes. The sections are never empty (grammar of the file). *)
Theorem hdb_matrix_values : forall name sections ms, (forall h V, In (h, V) sections -> V <> []) -> get_matrix name sections = Ok ms ->
  forall i, (i < 6)%nat -> exists V, section_of name i sections = Some V /\ List.length V = List.length ms /\
    forall k T v, nth_error V k = Some (T, v) -> (6 <= List.length v)%nat /\
      exists T' m, nth_error ms k = Some (T', m) /\ forall j, (j < 6)%nat -> m i j = sign i j * nth j v 0.
Proof.
  intros name sections ms NE H i Hi. unfold get_matrix in H. destruct (matrix_loop name sections [] []) as [[ret found]| |] eqn:E; try discriminate H. cbn [bindO fst snd] in H.
  assert (loaded name [] [] []) as L0 by (split; [intros k Hk; discriminate Hk|intros k V Hk HV; discriminate HV]).
  pose proof (matrix_loop_spec name sections [] [] [] _ NE L0 E) as [L1 L2]. cbn [app fst snd] in *.
  destruct (forallb _ (seq 0 6)) eqn:Fa; [|discriminate H]. injection H as <-. rewrite forallb_forall in Fa.
  destruct (L1 i (Fa i ltac:(apply in_seq; lia))) as [_ [V HV]]. exists V. split; [exact HV|].
  destruct (L2 i V Hi HV) as (_ & _ & LV & Hk). unfold convert_matrices_from_aquaplus_to_xdyn_frame. rewrite map_length. split; [exact LV|].
  intros k T v Hv. destruct (Hk k T v Hv) as (Hl & T' & m & Hm & Hj). split; [exact Hl|]. exists T', (convert_matrix m).
  split; [rewrite nth_error_map, Hm; reflexivity|]. intros j Hj'. rewrite convert_sign by assumption. rewrite Hj. reflexivity.
Qed.
Print Assumptions hdb_matrix_values.
(** A file in which one of the six lines is missing is refused. *)
Theorem hdb_matrix_missing_line : forall name sections i, (forall h V, In (h, V) sections -> V <> []) -> (i < 6)%nat -> section_of name i sections = None -> forall ms, get_matrix name sections <> Ok ms.
Proof.
  intros name sections i NE Hi HN ms H. destruct (hdb_matrix_values name sections ms NE H i Hi) as (V & HV & _). congruence.
Qed.
Print Assumptions hdb_matrix_missing_line.

(** The periods are those of all the lines, provided the six lines have the same periods... *)
Lemma matrix_loop_periods : forall name sections ret found r Ts, (forall h V, In (h, V) sections -> V <> [] /\ map fst V = Ts) ->
  (ret = [] /\ found = [] \/ map fst ret = Ts) -> matrix_loop name sections ret found = Ok r -> fst r = [] /\ snd r = [] \/ map fst (fst r) = Ts.
Proof.
  intros name sections. induction sections as [|[h V] sections IH]; intros ret found r Ts HV H0 H; cbn [matrix_loop] in H.
  - injection H as <-. exact H0.
  - destruct (line_of name h) as [i|].
    + destruct (fill ret i V) as [ret'| |] eqn:F; try discriminate H. cbn [bindO] in H. apply IH with (Ts := Ts) in H; [exact H|intros h' V' Hin; apply (HV h'); right; exact Hin|].
      right. unfold fill in F. destruct (Nat.eqb _ _) eqn:EL; [|discriminate F]. apply Nat.eqb_eq in EL. destruct (fill_loop_spec _ _ _ _ EL F) as (_ & Pf & _). rewrite Pf.
      apply (HV h). left. reflexivity.
    + apply IH with (Ts := Ts) in H; [exact H|intros h' V' Hin; apply (HV h'); right; exact Hin|exact H0].
Qed.
Theorem hdb_periods_partial : forall name sections ms Ts, (forall h V, In (h, V) sections -> V <> [] /\ map fst V = Ts) -> get_matrix name sections = Ok ms -> get_Tp ms = Ts.
Proof.
  intros name sections ms Ts HV H. unfold get_matrix in H. destruct (matrix_loop name sections [] []) as [[ret found]| |] eqn:E; try discriminate H. cbn [bindO fst snd] in H.
  apply matrix_loop_periods with (Ts := Ts) in E; [|exact HV|left; split; reflexivity]. cbn [fst snd] in E.
  destruct (forallb _ (seq 0 6)) eqn:Fa; [|discriminate H]. injection H as <-. destruct E as [[-> ->]|E]; [discriminate Fa|].
  unfold get_Tp, convert_matrices_from_aquaplus_to_xdyn_frame. rewrite map_map. cbn [fst]. exact E.
Qed.
Print Assumptions hdb_periods_partial.
(** ... refuted otherwise: lines given for different periods are mixed without any error, all with the periods of the last one. *)
Definition uniform_lines (x : R) (T : R) : list line := [(T, [x; x; x; x; x; x])].
Theorem hdb_mixed_periods_refuted : exists sections ms, get_matrix "M" sections = Ok ms /\ section_of "M" 0 sections = Some (uniform_lines 1 10) /\
  section_of "M" 5 sections = Some (uniform_lines 1 20) /\ get_Tp ms = [20].
Proof.
  exists [("M_1", uniform_lines 1 10); ("M_2", uniform_lines 1 10); ("M_3", uniform_lines 1 10); ("M_4", uniform_lines 1 10); ("M_5", uniform_lines 1 10); ("M_6", uniform_lines 1 20)]%string.
  eexists. split; [reflexivity|]. split; [reflexivity|]. split; reflexivity.
Qed.
Print Assumptions hdb_mixed_periods_refuted.

(** The damping coefficients come with their frequency, in the reverse order of the file: increasing frequencies when the periods of the file increase. *)
Theorem radiation_damping_pairs : forall Br omegas i j k w, radiation_damping_angular_frequencies Br = Ok omegas -> nth_error omegas k = Some w ->
  exists T m, nth_error (rev Br) k = Some (T, m) /\ T <> 0 /\ w = 2 * PI / T /\ nth_error (radiation_damping_coeff Br i j) k = Some (m i j).
Proof.
  intros Br omegas i j k w H Hw. unfold timestamped, matrix in *. unfold radiation_damping_angular_frequencies in H. apply mapM_inv in H. unfold get_Tp in H. rewrite <- map_rev in H.
  unfold radiation_damping_coeff, get_Mij. rewrite <- map_rev, nth_error_map.
  revert k Hw. unfold matrix in *. change (@rev (R * (nat -> nat -> R)) Br) with (rev Br : list (R * (nat -> nat -> R))) in *. set (B0 := rev Br : list (R * (nat -> nat -> R))) in *. remember (map fst B0) as l eqn:El. revert El. clearbody B0. revert B0. induction H as [|T w0 l omegas E H IH]; intros B El k Hw; [destruct k; discriminate Hw|].
  destruct B as [|[T0 m] B]; [discriminate El|]. cbn [map fst] in El. injection El as <- El. destruct k as [|k]; cbn [nth_error] in *.
  - injection Hw as <-. destruct (Req_EM_T T 0); [discriminate E|]. injection E as <-. exists T, m. split; [reflexivity|]. split; [assumption|]. split; reflexivity.
  - apply IH; assumption.
Qed.
Print Assumptions radiation_damping_pairs.
Theorem radiation_damping_frequencies_increase : forall Br omegas, StronglySorted Rlt (get_Tp Br) -> Forall (fun T => 0 < T) (get_Tp Br) ->
  radiation_damping_angular_frequencies Br = Ok omegas -> StronglySorted Rlt omegas.
Proof.
  intros Br omegas S P H. unfold radiation_damping_angular_frequencies in H. apply mapM_inv in H.
  assert (forall l, StronglySorted Rlt l -> StronglySorted Rgt (rev l)) as SR.
  { clear. induction l as [|a l IH]; intros S; [constructor|]. apply StronglySorted_inv in S. destruct S as [S F]. cbn [rev].
    specialize (IH S). assert (Forall (fun x => x > a) (rev l)) as Fr by (apply Forall_rev; exact F). clear - IH Fr. induction (rev l) as [|b r IHr]; [constructor; [constructor|constructor]|].
    apply StronglySorted_inv in IH. destruct IH as [I1 I2]. inversion Fr; subst. cbn [app]. constructor; [apply IHr; assumption|]. apply Forall_app. split; [exact I2|constructor; [assumption|constructor]]. }
  apply SR in S. apply Forall_rev in P. remember (rev (get_Tp Br)) as l. clear Heql. induction H as [|T w l ws E H IH]; [constructor|].
  apply StronglySorted_inv in S. destruct S as [S F]. inversion P; subst. constructor; [apply IH; assumption|].
  destruct (Req_EM_T T 0); [lra|]. injection E as <-. clear IH S P. induction H as [|T' w' l ws E' H IH]; [constructor|]. inversion F; subst. match goal with Hp : Forall _ (T' :: l) |- _ => inversion Hp; subst end.
  constructor; [|apply IH; assumption]. destruct (Req_EM_T T' 0); [lra|]. injection E' as <-. apply Rmult_lt_compat_l; [pose proof PI_RGT_0; lra|]. apply Rinv_lt_contravar; [apply Rmult_lt_0_compat; lra|lra].
Qed.
Print Assumptions radiation_damping_frequencies_increase.
Example radiation_damping_example : radiation_damping_angular_frequencies [(1, fun _ _ => 7); (2, fun _ _ => 8)] = Ok [2 * PI / 2; 2 * PI / 1] /\
  radiation_damping_coeff [(1, fun _ _ => 7); (2, fun _ _ => 8)] 0 0 = [8; 7].
Proof. split; [|reflexivity]. unfold radiation_damping_angular_frequencies. cbn. destruct (Req_EM_T 2 0); [lra|]. cbn. destruct (Req_EM_T 1 0); [lra|]. reflexivity. Qed.

(** ** C47: tables of the response amplitude operators *)
Lemma insert_in : forall l x, StronglySorted Rlt l -> In x l -> insert x l = l.
Proof.
  induction l as [|y l IH]; intros x S H; [destruct H|]. apply StronglySorted_inv in S. destruct S as [S F]. cbn [insert]. destruct H as [->|H].
  - rewrite !Rltb_f by lra. reflexivity.
  - rewrite Forall_forall in F. specialize (F x H). rewrite Rltb_f by lra. rewrite Rltb_t by exact F. rewrite IH by assumption. reflexivity.
Qed.
Lemma insert_end : forall l x, Forall (fun y => y < x) l -> insert x l = l ++ [x].
Proof.
  induction l as [|y l IH]; intros x F; [reflexivity|]. inversion F; subst. cbn [insert app]. rewrite Rltb_f by lra. rewrite Rltb_t by lra. rewrite IH by assumption. reflexivity.
Qed.
Lemma sorted_app_inv : forall l1 l2, StronglySorted Rlt (l1 ++ l2) -> StronglySorted Rlt l1 /\ forall x y, In x l1 -> In y l2 -> x < y.
Proof.
  induction l1 as [|a l1 IH]; intros l2 H; [split; [constructor|intros x y []]|]. cbn [app] in H. apply StronglySorted_inv in H. destruct H as [H F].
  destruct (IH l2 H) as [S1 S2]. rewrite Forall_forall in F. split; [constructor; [exact S1|apply Forall_forall; intros x Hx; apply F, in_or_app; left; exact Hx]|].
  intros x y [<-|Hx] Hy; [apply F, in_or_app; right; exact Hy|apply S2; assumption].
Qed.
Lemma insert_sorted : forall l s, StronglySorted Rlt (s ++ l) -> fold_left (fun s x => insert x s) l s = s ++ l.
Proof.
  induction l as [|x l IH]; intros s H; [rewrite app_nil_r; reflexivity|]. cbn [fold_left]. rewrite insert_end.
  - rewrite IH by (rewrite <- app_assoc; exact H). rewrite <- app_assoc. reflexivity.
  - apply sorted_app_inv in H. apply Forall_forall. intros y Hy. apply H; [exact Hy|left; reflexivity].
Qed.
Lemma insert_again : forall l s, StronglySorted Rlt s -> incl l s -> fold_left (fun s x => insert x s) l s = s.
Proof.
  induction l as [|x l IH]; intros s Hs H; [reflexivity|]. cbn [fold_left]. rewrite insert_in by (auto; apply H; left; reflexivity). apply IH; [exact Hs|]. intros y Hy. apply H. right. exact Hy.
Qed.
Lemma set_at_end : forall (l : list R) x, set_at (pad (S (List.length l)) l) (List.length l) x = l ++ [x].
Proof.
  intros l x. unfold pad. replace (S (List.length l) - List.length l)%nat with 1%nat by lia. cbn [repeat]. induction l as [|a l IH]; [reflexivity|]. cbn. rewrite IH. reflexivity.
Qed.
Lemma rao_lines_spec : forall j k V t, Forall (fun l => (j < List.length (snd l))%nat) V -> (t = [] /\ k = 0%nat \/ List.length t = List.length V) -> Forall (fun r => List.length r = k) t ->
  exists t', rao_lines j k V t = Ok t' /\ List.length t' = List.length V /\ Forall (fun r => List.length r = S k) t' /\
    forall p T v, nth_error V p = Some (T, v) -> nth p t' [] = nth p t [] ++ [nth j v 0].
Proof.
  intros j k V. induction V as [|[T v] V IH]; intros t HV Ht Hr; cbn [rao_lines].
  - exists t. split; [reflexivity|]. destruct Ht as [[-> ->]|Ht].
    + split; [reflexivity|]. split; [constructor|]. intros [|p]; discriminate.
    + destruct t; [|discriminate Ht]. split; [reflexivity|]. split; [constructor|]. intros [|p]; discriminate.
  - inversion HV; subst. cbn [snd] in *.
    destruct t as [|row t].
    + destruct Ht as [[_ ->]|Ht]; [|discriminate Ht]. destruct (IH [] ltac:(assumption) ltac:(left; split; reflexivity) ltac:(constructor)) as (t' & E & L & F & N).
      rewrite (at_throw_ok _ v j 0) by assumption. cbn [bindO]. rewrite E. cbn [bindO]. eexists. split; [reflexivity|]. split; [cbn; rewrite L; reflexivity|].
      split; [constructor; [reflexivity|exact F]|]. intros [|p] T' v' Hp; cbn [nth_error] in Hp; [injection Hp as <- <-; reflexivity|]. cbn [nth]. rewrite (N p T' v' Hp). destruct p; reflexivity.
    + inversion Hr; subst. destruct Ht as [[Ht _]|Ht]; [discriminate Ht|]. injection Ht as Ht.
      destruct (IH t ltac:(assumption) ltac:(right; exact Ht) ltac:(assumption)) as (t' & E & L & F & N).
      rewrite (at_throw_ok _ v j 0) by assumption. cbn [bindO]. rewrite E. cbn [bindO]. rewrite set_at_end. eexists. split; [reflexivity|]. split; [cbn; rewrite L; reflexivity|].
      split; [constructor; [rewrite app_length; cbn; lia|exact F]|]. intros [|p] T' v' Hp; cbn [nth_error] in Hp; [injection Hp as <- <-; reflexivity|]. cbn [nth]. apply (N p T' v' Hp).
Qed.
Lemma rao_sections_spec : forall j n ss k t, Forall (fun s => List.length (snd s) = n /\ Forall (fun l => (j < List.length (snd l))%nat) (snd s)) ss ->
  (t = [] /\ k = 0%nat \/ List.length t = n) -> Forall (fun r => List.length r = k) t ->
  exists t', rao_sections j k ss t = Ok t' /\ (List.length t' = n \/ ss = [] /\ t' = t) /\ (forall p i, (i < k)%nat -> nth i (nth p t' []) 0 = nth i (nth p t []) 0) /\
    forall i s p T v, nth_error ss i = Some s -> nth_error (snd s) p = Some (T, v) -> nth (k + i) (nth p t' []) 0 = nth j v 0.
Proof.
  intros j n ss. induction ss as [|[id V] ss IH]; intros k t HS Ht Hr; cbn [rao_sections].
  - exists t. split; [reflexivity|]. split; [right; split; reflexivity|]. split; [reflexivity|]. intros [|i]; discriminate.
  - inversion HS as [|? ? [LV FV] HS']; subst. cbn [snd] in *.
    destruct (rao_lines_spec j k V t FV Ht Hr) as (t1 & E1 & L1 & F1 & N1). rewrite E1. cbn [bindO].
    destruct (IH (S k) t1 HS' ltac:(right; exact L1) F1) as (t2 & E2 & L2 & P2 & N2). rewrite E2. exists t2. split; [reflexivity|].
    assert (forall p, (p < List.length V)%nat -> exists v, nth p t1 [] = nth p t [] ++ [nth j v 0] /\ List.length (nth p t []) = k) as ROW.
    { intros p Hp. destruct (nth_error V p) as [[T v]|] eqn:Ev; [|apply nth_error_None in Ev; lia]. exists v. split; [apply (N1 p T v Ev)|].
      destruct Ht as [[-> ->]|Ht]; [destruct p; reflexivity|]. rewrite Forall_forall in Hr. apply Hr. apply nth_In. lia. }
    split; [left; destruct L2 as [L2|[_ ->]]; assumption|]. split.
    + intros p i Hi. rewrite P2 by lia. destruct (Nat.lt_ge_cases p (List.length V)) as [Hp|Hp].
      * destruct (ROW p Hp) as (v & -> & Lk). rewrite app_nth1 by lia. reflexivity.
      * rewrite (nth_overflow t1) by lia. destruct Ht as [[-> ->]|Ht]; [lia|]. rewrite (nth_overflow t) by lia. reflexivity.
    + intros [|i] s p T v Hi Hp; cbn [nth_error] in Hi.
      * injection Hi as <-. cbn [snd] in Hp. rewrite Nat.add_0_r, P2 by lia. rewrite (N1 p T v Hp).
        assert (p < List.length V)%nat as Hlt by (apply nth_error_Some; congruence). destruct (ROW p Hlt) as (_ & _ & Lk). rewrite app_nth2 by lia. replace (k - List.length (nth p t []))%nat with 0%nat by lia. reflexivity.
      * replace (k + S i)%nat with (S k + i)%nat by lia. apply (N2 i s p T v Hi Hp).
Qed.
(** Sections sorted by incidence, with the same sorted periods, and six values at least per line: the value read in the table for the period number p and the incidence number k
    is the one of the file for that period and that incidence. *)
Theorem rao_table_partial : forall ss Ts, ss <> [] -> StronglySorted Rlt (map fst ss) -> StronglySorted Rlt Ts ->
  Forall (fun s => map fst (snd s) = Ts /\ Forall (fun l => (6 <= List.length (snd l))%nat) (snd s)) ss ->
  exists r, get_rao [ss] = Ok r /\ rao_periods r = Ts /\ rao_psi r = map (fun s => fst s * PI / 180) ss /\
    forall k s p T v j, nth_error ss k = Some s -> nth_error (snd s) p = Some (T, v) -> (j < 6)%nat ->
      nth p (rao_periods r) 0 = T /\ nth k (rao_psi r) 0 = fst s * PI / 180 /\ nth k (nth p (rao_values r j) []) 0 = nth j v 0.
Proof.
  intros ss Ts NE S1 S2 HS.
  assert (forall j, (j < 6)%nat -> exists t, rao_lists j [ss] [] = Ok t /\ forall k s p T v, nth_error ss k = Some s -> nth_error (snd s) p = Some (T, v) -> nth k (nth p t []) 0 = nth j v 0) as HT.
  { intros j Hj. destruct (rao_sections_spec j (List.length Ts) ss 0 []) as (t & E & _ & _ & N).
    - eapply Forall_impl; [|exact HS]. intros s [E1 E2]. split; [rewrite <- E1, map_length; reflexivity|]. eapply Forall_impl; [|exact E2]. intros l Hl. cbv beta in *. lia.
    - left. split; reflexivity.
    - constructor.
    - exists t. cbn [rao_lists]. rewrite E. split; [reflexivity|]. intros k s p T v Hk Hp. apply (N k s p T v Hk Hp). }
  destruct (HT 0%nat ltac:(lia)) as (t0 & E0 & N0). destruct (HT 1%nat ltac:(lia)) as (t1 & E1 & N1). destruct (HT 2%nat ltac:(lia)) as (t2 & E2 & N2).
  destruct (HT 3%nat ltac:(lia)) as (t3 & E3 & N3). destruct (HT 4%nat ltac:(lia)) as (t4 & E4 & N4). destruct (HT 5%nat ltac:(lia)) as (t5 & E5 & N5).
  unfold get_rao. rewrite E0, E1, E2, E3, E4, E5. cbn [bindO List.concat]. rewrite app_nil_r.
  assert (fold_left (fun s x => insert x s) (List.concat (map (fun s => map fst (snd s)) ss)) [] = Ts) as EP.
  { destruct ss as [|s ss]; [congruence|]. inversion HS as [|? ? [Es _] HS']; subst. cbn [map List.concat]. rewrite fold_left_app, (insert_sorted (map fst (snd s)) []) by exact S2. cbn [app].
    apply insert_again; [exact S2|]. intros x Hx. apply in_concat in Hx. destruct Hx as (l & Hl & Hx). apply in_map_iff in Hl. destruct Hl as (s' & <- & Hs'). rewrite Forall_forall in HS'. destruct (HS' s' Hs') as [<- _]. exact Hx. }
  assert (fold_left (fun s x => insert x s) (map (fun s => fst s * PI / 180) ss) [] = map (fun s => fst s * PI / 180) ss) as EPsi.
  { rewrite insert_sorted; [reflexivity|]. cbn [app]. clear - S1. induction ss as [|s ss IH]; [constructor|]. cbn [map] in *. apply StronglySorted_inv in S1. destruct S1 as [S1 F].
    constructor; [apply IH; exact S1|]. rewrite Forall_forall in *. intros x Hx. apply in_map_iff in Hx. destruct Hx as (s' & <- & Hs'). pose proof PI_RGT_0. assert (fst s < fst s') by (apply F, in_map; exact Hs'). nra. }
  exists (mkRAO Ts (map (fun s => fst s * PI / 180) ss) (fun j => nth j [t0; t1; t2; t3; t4; t5] [])). split.
  { transitivity (Ok (mkRAO (fold_left (fun s x => insert x s) (List.concat (map (fun s => map fst (snd s)) ss)) []) (fold_left (fun s x => insert x s) (map (fun s => fst s * PI / 180) ss) [])
      (fun j => nth j [t0; t1; t2; t3; t4; t5] []))); [destruct ss; [congruence|reflexivity]|]. rewrite EP, EPsi. reflexivity. }
  cbn [rao_periods rao_psi rao_values]. split; [reflexivity|]. split; [reflexivity|]. intros k s p T v j Hk Hp Hj. split.
  - rewrite Forall_forall in HS. destruct (HS s (nth_error_In _ _ Hk)) as [<- _]. apply nth_error_nth. rewrite nth_error_map, Hp. reflexivity.
  - split; [apply nth_error_nth; rewrite nth_error_map, Hk; reflexivity|]. do 6 (destruct j as [|j]; [cbn [nth]; eauto|]). lia.
Qed.
Print Assumptions rao_table_partial.
Example rao_table_example : let ss := [(0, [(4, [1; 0; 0; 0; 0; 0]); (8, [2; 0; 0; 0; 0; 0])]); (180, [(4, [3; 0; 0; 0; 0; 0]); (8, [4; 0; 0; 0; 0; 0])])] in
  ss <> [] /\ StronglySorted Rlt (map fst ss) /\ StronglySorted Rlt [4; 8] /\ Forall (fun s => map fst (snd s) = [4; 8] /\ Forall (fun l => (6 <= List.length (snd l))%nat) (snd s)) ss.
Proof. cbn. split; [discriminate|]. repeat (constructor; cbn; try lra; try lia; try reflexivity). Qed.
(** Refuted for a file whose incidences are not sorted: the incidences are sorted but not the columns. *)
Theorem rao_table_unsorted_refuted : exists ss r, get_rao [ss] = Ok r /\ ss = [(180, [(4, [1; 0; 0; 0; 0; 0])]); (0, [(4, [2; 0; 0; 0; 0; 0])])] /\
  nth 0 (rao_psi r) 0 = 0 * PI / 180 /\ nth 0 (nth 0 (rao_values r 0%nat) []) 0 = 1.
Proof.
  eexists. eexists. split; [|split; [reflexivity|]]; [reflexivity|]. cbn [rao_psi rao_values map fst fold_left insert]. pose proof PI_RGT_0.
  rewrite (Rltb_t (0 * PI / 180)) by lra. split; reflexivity.
Qed.
Print Assumptions rao_table_unsorted_refuted.
(** Refuted for two lists of sections with the same name: the second one overwrites the columns of the first one. *)
Theorem rao_table_two_lists_refuted : exists l1 l2 r, get_rao [l1; l2] = Ok r /\ l1 = [(0, [(4, [1; 0; 0; 0; 0; 0])])] /\ l2 = [(180, [(4, [2; 0; 0; 0; 0; 0])])] /\
  List.length (rao_psi r) = 2%nat /\ rao_values r 0%nat = [[2]].
Proof.
  eexists. eexists. eexists. split; [|split; [reflexivity|split; [reflexivity|]]]; [reflexivity|]. cbn [rao_psi rao_values map fst fold_left insert List.concat app]. pose proof PI_RGT_0.
  rewrite Rltb_f by lra. rewrite (Rltb_t (0 * PI / 180)) by lra. split; reflexivity.
Qed.
Print Assumptions rao_table_two_lists_refuted.
