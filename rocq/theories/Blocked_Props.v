(** Properties C14-C16: states imposed by the user. *)
From Coq Require Import ZArith List Bool Lia String.
From Verif Require Import Common Blocked_Model Blocked_Spec Blocked_Proofs.
Import ListNotations.

(** ** C14. Forcing changes exactly the declared states whose table covers the date, to the value of their interpolator;
    every other number of the state vector, of this body and of the others, is left alone. *)
Theorem forced_states_touch_only_what_is_blocked :
  forall D (lt : D -> D -> bool) Itp build (itp_f : Itp -> D -> outcome D) read_csv, strict_weak_order lt ->
  forall tables body b x t x',
  make_blocked lt build read_csv (mkInput tables []) body = Ok b -> force_states lt itp_f b x t = Ok x' ->
  List.length x' = List.length x /\
  (forall i, (forall y, In y tables -> covers lt (t_dates y) t -> i <> slot body (t_state y)) -> nth_error x' i = nth_error x i) /\
  (forall y, In y tables -> covers lt (t_dates y) t ->
     exists itp v, build (t_kind y) (t_dates y) (t_values y) = Ok itp /\ itp_f itp t = Ok v /\
       nth_error x' (slot body (t_state y)) = Some v).
Proof.
  intros D lt Itp build itp_f read_csv SWO tables body b x t x' H F.
  destruct (make_blocked_inv D lt SWO Itp build read_csv _ _ _ H) as (ts & E & ND & I & A).
  rewrite build_tables_yaml in E. injection E as <-. unfold declared_states in ND. simpl in ND. rewrite app_nil_r in ND.
  subst body. apply (acts_force D lt Itp build itp_f tables b x t x' (A ND) F).
Qed.
Print Assumptions forced_states_touch_only_what_is_blocked.

(** The same for the derivatives. *)
Theorem forced_derivatives_touch_only_what_is_blocked :
  forall D (lt : D -> D -> bool) Itp build (itp_df : Itp -> D -> outcome D) read_csv, strict_weak_order lt ->
  forall tables body b dx t dx',
  make_blocked lt build read_csv (mkInput tables []) body = Ok b -> force_state_derivatives lt itp_df b dx t = Ok dx' ->
  List.length dx' = List.length dx /\
  (forall i, (forall y, In y tables -> covers lt (t_dates y) t -> i <> slot body (t_state y)) -> nth_error dx' i = nth_error dx i) /\
  (forall y, In y tables -> covers lt (t_dates y) t ->
     exists itp v, build (t_kind y) (t_dates y) (t_values y) = Ok itp /\ itp_df itp t = Ok v /\
       nth_error dx' (slot body (t_state y)) = Some v).
Proof.
  intros D lt Itp build itp_df read_csv SWO tables body b x t x' H F.
  exact (forced_states_touch_only_what_is_blocked D lt Itp build itp_df read_csv SWO tables body b x t x' H F).
Qed.
Print Assumptions forced_derivatives_touch_only_what_is_blocked.

(** Forcing does not fail: if the interpolators of the tables that cover the date give a value there, and the state vector
    has room for the body, a vector is returned. *)
Theorem forcing_succeeds :
  forall D (lt : D -> D -> bool) Itp build (itp_f : Itp -> D -> outcome D) read_csv, strict_weak_order lt ->
  forall tables body b x t,
  make_blocked lt build read_csv (mkInput tables []) body = Ok b -> 13 * (body + 1) <= List.length x ->
  (forall y itp, In y tables -> covers lt (t_dates y) t -> build (t_kind y) (t_dates y) (t_values y) = Ok itp ->
     exists v, itp_f itp t = Ok v) ->
  exists x', force_states lt itp_f b x t = Ok x'.
Proof.
  intros D lt Itp build itp_f read_csv SWO tables body b x t H Lx He.
  destruct (make_blocked_inv D lt SWO Itp build read_csv _ _ _ H) as (ts & E & ND & I & A).
  rewrite build_tables_yaml in E. injection E as <-. unfold declared_states in ND. simpl in ND. rewrite app_nil_r in ND.
  destruct (A ND) as (A1 & A2). apply force_loop_ok.
  - intros s j Ej Bl. destruct (in_dec bstate_eq_dec s (map t_state tables)) as [Hs|Hs]; [|rewrite A1 in Ej by exact Hs; discriminate].
    apply in_map_iff in Hs as (y & <- & Hy). destruct (A2 y Hy) as (i & B & Ei & C). assert (i = j) by congruence. subst i.
    apply (He y j Hy); [apply C; exact Bl|exact B].
  - intros s. rewrite slot_state_index, I. unfold slot, rank. destruct s; lia.
Qed.
Print Assumptions forcing_succeeds.

(** A concrete instance: natural numbers, piecewise-constant tables; the "interpolator" is the table itself. *)
Definition natlt (a b : nat) : bool := Nat.ltb a b.
Lemma natlt_swo : strict_weak_order natlt.
Proof.
  unfold natlt. constructor.
  - intros a. apply Nat.ltb_irrefl.
  - intros a b c. rewrite !Nat.ltb_lt. lia.
  - intros a b c. rewrite !Nat.ltb_lt. lia.
Qed.
Definition nbuild (_ : ikind) (ts vs : list nat) : outcome (list (nat * nat)) :=
  if Nat.eqb (List.length ts) (List.length vs) then Ok (combine ts vs) else Throw.
Definition nf (i : list (nat * nat)) (t : nat) : outcome nat :=
  match filter (fun p => fst p <=? t) i with [] => Throw | l => Ok (snd (last l (0, 0))) end.
Definition ncsv (f : string) : outcome (list (string * list nat)) :=
  if String.eqb f "a.csv" then Ok [("t", [0; 5]); ("speed", [3; 4])]%string else Throw.
Definition tab_u := mkTable SU [1; 4; 8] [10; 40; 80] PIECEWISE_CONSTANT.
Definition tab_r := mkTable SR [5; 3] [7; 9] PIECEWISE_CONSTANT.
(** Two tables on body 1; at date 2 only the first one covers the date. *)
Example forced_states_witness : exists b,
  make_blocked natlt nbuild ncsv (mkInput [tab_u; tab_r] []) 1 = Ok b /\
  force_states natlt nf b (seq 100 26) 2 = Ok (seq 100 16 ++ 10 :: seq 117 9)%list /\
  force_states natlt nf b (seq 100 26) 4 = Ok (seq 100 16 ++ 40 :: seq 117 4 ++ 9 :: seq 122 4)%list /\
  force_states natlt nf b (seq 100 26) 9 = Ok (seq 100 26).
Proof. eexists. split; [reflexivity|]. repeat split. Qed.

(** ** C15 is violated: a state declared in a CSV file is not the state that gets forced. Whatever state is declared, it is
    the surge velocity u that is forced, and (unless it is u) the declared state is not. *)
Theorem csv_forces_the_declared_state_refuted :
  forall D (lt : D -> D -> bool) Itp build (itp_f : Itp -> D -> outcome D) read_csv, strict_weak_order lt ->
  forall y body b x t x', make_blocked lt build read_csv (mkInput [] [y]) body = Ok b -> force_states lt itp_f b x t = Ok x' ->
  (forall i, i <> slot body SU -> nth_error x' i = nth_error x i) /\
  (forall cols dates values itp,
     read_csv (c_file y) = Ok cols -> find_column cols (c_t y) = Ok dates -> find_column cols (c_value y) = Ok values ->
     build (c_kind y) dates values = Ok itp -> covers lt dates t ->
     exists v, itp_f itp t = Ok v /\ nth_error x' (slot body SU) = Some v).
Proof.
  intros D lt Itp build itp_f read_csv SWO y body b x t x' H F.
  destruct (make_blocked_inv D lt SWO Itp build read_csv _ _ _ H) as (ts & E & _ & I & A).
  unfold build_tables in E. simpl in E. unfold read_table_from_csv in E.
  destruct (read_csv (c_file y)) as [m| |] eqn:R; try discriminate. simpl in E.
  destruct (find_column m (c_t y)) as [d| |] eqn:Cd; try discriminate. simpl in E.
  destruct (find_column m (c_value y)) as [v| |] eqn:Cv; try discriminate. simpl in E. injection E as <-.
  specialize (A ltac:(simpl; repeat constructor; simpl; tauto)). subst body.
  destruct (acts_force D lt Itp build itp_f _ b x t x' A F) as (_ & O & S0). split.
  - intros i Hi. apply O. intros z [<-|[]] _. exact Hi.
  - intros cols dates values itp [= <-] E1 E2 B C. rewrite Cd in E1. rewrite Cv in E2. injection E1 as <-. injection E2 as <-.
    destruct (S0 _ (or_introl eq_refl) C) as (j & w & Bj & Ev & N). simpl in *. exists w. split; [congruence|exact N].
Qed.
Print Assumptions csv_forces_the_declared_state_refuted.
Definition csv_v := mkCsv SV "t" "speed" LINEAR "a.csv".
Definition csv_w := mkCsv SW "t" "speed" LINEAR "a.csv".
(** v is declared; u becomes 3 and v stays 104. *)
Example csv_refuted_witness : exists b,
  make_blocked natlt nbuild ncsv (mkInput [] [csv_v]) 0 = Ok b /\
  force_states natlt nf b (seq 100 13) 2 = Ok [100; 101; 102; 3; 104; 105; 106; 107; 108; 109; 110; 111; 112].
Proof. eexists. split; [reflexivity|]. reflexivity. Qed.

(** What does hold: when the declared state is u, it is forced as declared. *)
Theorem csv_forces_u_partial :
  forall D (lt : D -> D -> bool) Itp build (itp_f : Itp -> D -> outcome D) read_csv, strict_weak_order lt ->
  forall y ts vs cols body b x t x', c_state y = SU ->
  read_csv (c_file y) = Ok cols -> find_column cols (c_t y) = Ok ts -> find_column cols (c_value y) = Ok vs ->
  make_blocked lt build read_csv (mkInput [] [y]) body = Ok b -> force_states lt itp_f b x t = Ok x' ->
  exists b', make_blocked lt build read_csv (mkInput [mkTable (c_state y) ts vs (c_kind y)] []) body = Ok b' /\
    force_states lt itp_f b' x t = Ok x'.
Proof.
  intros D lt Itp build itp_f read_csv SWO [s ct cv ck cf] ts vs cols body b x t x' Es R Ct Cv H F. simpl in *. subst s.
  exists b. split; [|exact F]. rewrite <- H. unfold make_blocked, build_tables. simpl. unfold read_table_from_csv. simpl.
  rewrite R. simpl. rewrite Ct. simpl. rewrite Cv. reflexivity.
Qed.
Print Assumptions csv_forces_u_partial.

(** With two CSV files, the first one has no effect at all. *)
Theorem csv_last_one_wins_refuted :
  forall D (lt : D -> D -> bool) Itp build (itp_f : Itp -> D -> outcome D) read_csv,
  forall y1 y2 body b b2 x t, make_blocked lt build read_csv (mkInput [] [y1; y2]) body = Ok b ->
  make_blocked lt build read_csv (mkInput [] [y2]) body = Ok b2 ->
  force_states lt itp_f b x t = force_states lt itp_f b2 x t.
Proof.
  intros D lt Itp build itp_f read_csv y1 y2 body b b2 x t H1 H2. unfold make_blocked, build_tables in H1, H2.
  cbn [from_csv from_yaml read_tables app bindO] in H1, H2. unfold read_table_from_csv in H1, H2.
  destruct (read_csv (c_file y1)) as [m1| |]; try discriminate. cbn [bindO] in H1.
  destruct (find_column m1 (c_t y1)) as [d1| |]; try discriminate. cbn [bindO] in H1.
  destruct (find_column m1 (c_value y1)) as [v1| |]; try discriminate. cbn [bindO] in H1.
  destruct (read_csv (c_file y2)) as [m2| |]; try discriminate. cbn [bindO] in H1, H2.
  destruct (find_column m2 (c_t y2)) as [d2| |]; try discriminate. cbn [bindO] in H1, H2.
  destruct (find_column m2 (c_value y2)) as [v2| |]; try discriminate. cbn [bindO app] in H1, H2.
  destruct (check_states_are_not_defined_twice (mkInput [] [y1; y2])); try discriminate.
  destruct (check_states_are_not_defined_twice (mkInput [] [y2])); try discriminate.
  cbn [bindO get_forced_states get_bounds t_kind t_dates t_values t_state] in H1, H2.
  destruct (build (c_kind y1) _ _); try discriminate. cbn [bindO] in H1.
  destruct (build (c_kind y2) d2 v2); try discriminate. cbn [bindO] in H1, H2.
  destruct (min_element lt d1) as [n1| |]; try discriminate. cbn [bindO] in H1.
  destruct (min_element lt d2) as [n2| |]; try discriminate. cbn [bindO] in H1, H2.
  destruct (max_element lt d1) as [k1| |]; try discriminate. cbn [bindO] in H1.
  destruct (max_element lt d2) as [k2| |]; try discriminate. cbn [bindO] in H1, H2.
  injection H1 as <-. injection H2 as <-. unfold force_states, all_states. reflexivity.
Qed.
Print Assumptions csv_last_one_wins_refuted.
Example csv_last_one_wins_witness : exists b b2,
  make_blocked natlt nbuild ncsv (mkInput [] [csv_v; csv_w]) 0 = Ok b /\
  make_blocked natlt nbuild ncsv (mkInput [] [csv_w]) 0 = Ok b2.
Proof. eexists. eexists. split; reflexivity. Qed.

(** ** C16. Declaring a state twice is refused, wherever the declarations are (CSV files that cannot be read are refused too). *)
Lemma read_tables_no_ub : forall D (read_csv : string -> outcome (list (string * list D))), (forall f, read_csv f <> UB) ->
  forall l, read_tables read_csv l <> UB.
Proof.
  intros D read_csv H l. induction l as [|y r IH]; simpl; [discriminate|]. unfold read_table_from_csv, find_column.
  specialize (H (c_file y)). destruct (read_csv (c_file y)) as [m| |]; try congruence; [|discriminate]. simpl.
  destruct (find _ m); simpl; [|discriminate]. destruct (find _ m); simpl; [|discriminate].
  destruct (read_tables read_csv r); congruence || discriminate.
Qed.
Theorem state_forced_twice_is_refused :
  forall D (lt : D -> D -> bool) Itp (build : ikind -> list D -> list D -> outcome Itp) read_csv input body,
  (forall f, read_csv f <> UB) -> ~ NoDup (declared_states input) ->
  make_blocked lt build read_csv input body = Throw.
Proof.
  intros D lt Itp build read_csv input body U ND. unfold make_blocked, build_tables.
  pose proof (read_tables_no_ub D read_csv U (from_csv input)) as N.
  destruct (read_tables read_csv (from_csv input)) as [ts| |]; try congruence; [|reflexivity]. simpl.
  destruct (check_iff D input) as (_ & C). rewrite (C ND). reflexivity.
Qed.
Print Assumptions state_forced_twice_is_refused.
(** ... and distinct states are accepted, if the CSV columns exist, the interpolators accept the tables and no table is
    empty. *)
Theorem distinct_forced_states_are_accepted :
  forall D (lt : D -> D -> bool) Itp (build : ikind -> list D -> list D -> outcome Itp) read_csv input body,
  NoDup (declared_states input) ->
  (forall y, In y (from_yaml input) -> t_dates y <> [] /\ exists i, build (t_kind y) (t_dates y) (t_values y) = Ok i) ->
  (forall y, In y (from_csv input) -> exists cols ts vs i, read_csv (c_file y) = Ok cols /\
     find_column cols (c_t y) = Ok ts /\ find_column cols (c_value y) = Ok vs /\ ts <> [] /\ build (c_kind y) ts vs = Ok i) ->
  exists b, make_blocked lt build read_csv input body = Ok b.
Proof.
  intros D lt Itp build read_csv [ys cs] body ND Hy Hc. unfold make_blocked, build_tables. simpl in *.
  assert (exists ts, read_tables read_csv cs = Ok ts /\
    forall y, In y ts -> t_dates y <> [] /\ exists i, build (t_kind y) (t_dates y) (t_values y) = Ok i) as (ts & E & Ht).
  { clear ND. induction cs as [|y r IH]; simpl; [exists []; split; [reflexivity|]; intros y []|].
    destruct (Hc y (or_introl eq_refl)) as (cols & t0 & v0 & i & E1 & E2 & E3 & E4 & E5). unfold read_table_from_csv.
    rewrite E1. simpl. rewrite E2. simpl. rewrite E3. simpl.
    destruct IH as (ts & E & H). { intros z Hz. apply Hc. right. exact Hz. }
    rewrite E. simpl. eexists. split; [reflexivity|]. intros z [<-|Hz]; [simpl; eauto|apply H; exact Hz]. }
  rewrite E. simpl. destruct (check_iff D (mkInput ys cs)) as (C & _). rewrite (C ND). simpl. clear C ND Hc E cs.
  assert (forall y, In y (ys ++ ts) -> t_dates y <> [] /\ exists i, build (t_kind y) (t_dates y) (t_values y) = Ok i) as H.
  { intros y Hin. apply in_app_or in Hin as [?|?]; auto. }
  clear Hy Ht. generalize dependent (ys ++ ts). intros l H.
  assert (forall m, exists m', get_forced_states build l m = Ok m') as F0.
  { induction l as [|y r IH]; simpl; [eauto|]. intros m. destruct (H y (or_introl eq_refl)) as (_ & i & ->). simpl.
    apply IH. intros z Hz. apply H. right. exact Hz. }
  destruct (F0 mempty) as (m' & E). rewrite E. simpl. clear F0.
  assert (forall elt, (forall d, d <> [] -> exists v, elt d = Ok v) -> forall m : smap D, exists m', get_bounds elt l m = Ok m') as G.
  { intros elt He. clear E m'. induction l as [|y r IH]; simpl; [eauto|]. intros m.
    destruct (He (t_dates y)) as (v & ->); [apply H; left; reflexivity|]. simpl. apply IH. intros z Hz. apply H. right. exact Hz. }
  destruct (G (min_element lt)) with (m := @mempty D) as (mn & ->). { intros [|a d] Hd; [congruence|]. eexists. reflexivity. }
  simpl. destruct (G (max_element lt)) with (m := @mempty D) as (mx & ->). { intros [|a d] Hd; [congruence|]. eexists. reflexivity. }
  simpl. eauto.
Qed.
Print Assumptions distinct_forced_states_are_accepted.
Example forced_twice_witness :
  make_blocked natlt nbuild ncsv (mkInput [tab_u; tab_r; tab_u] []) 0 = Throw /\
  make_blocked natlt nbuild ncsv (mkInput [tab_u; tab_r] [mkCsv SR "t" "speed" LINEAR "a.csv"]) 0 = Throw /\
  (exists b, make_blocked natlt nbuild ncsv (mkInput [tab_r] [csv_v; csv_w]) 0 = Ok b).
Proof. repeat split; try reflexivity. eexists. reflexivity. Qed.

(** A table without dates, if the interpolator accepts it, makes the constructor dereference the end of an empty vector. *)
Theorem empty_forced_table_is_undefined :
  forall D (lt : D -> D -> bool) Itp (build : ikind -> list D -> list D -> outcome Itp) read_csv s k i body,
  build k [] [] = Ok i -> make_blocked lt build read_csv (mkInput [mkTable s [] [] k] []) body = UB.
Proof.
  intros. unfold make_blocked. rewrite build_tables_yaml. cbn [bindO].
  destruct (check_iff D (mkInput [mkTable s [] [] k] [])) as (C & _). rewrite C by (simpl; repeat constructor; simpl; tauto). simpl.
  rewrite H. reflexivity.
Qed.
Print Assumptions empty_forced_table_is_undefined.
Example empty_forced_table_witness : make_blocked natlt nbuild ncsv (mkInput [mkTable SW [] [] SPLINE] []) 0 = UB.
Proof. reflexivity. Qed.
