(** C132: which variables can be stored together in an HDF5 file. *)
From Coq Require Import ZArith List Bool Lia String Ascii.
From Verif Require Import Common Observer_Model Observer_Spec Observer_Proofs Hdf5_Model Hdf5_Spec Hdf5_Proofs Hdf5_File_Proofs Hdf5_Series_Proofs Hdf5_Observer_Proofs
  Hdf5_Clash_Proofs Hdf5_Names_Model Hdf5_Props.
Import ListNotations.
Open Scope string_scope.

(** ** Clashes: the simulation fails. *)
Lemma fetch_split {D G} (find : string -> option (value D G)) l1 x l2 v : find x = Some v ->
  fetch find (l1 ++ x :: l2) = (fetch find l1 ++ (x, v) :: fetch find l2)%list.
Proof. intros E. unfold fetch. rewrite flat_map_app. cbn [flat_map]. rewrite E. reflexivity. Qed.
Theorem hdf5_clash_throws : forall D (zero : D) f0 l1 x l2 y l3 a b d e t out steps,
  let req := (l1 ++ x :: l2 ++ y :: l3)%list in
  tree f0 -> clean_path a -> clean_path b -> ~ apart a b ->
  (forall z, In z req -> latest [(t, out)] z <> None) ->
  latest [(t, out)] x = Some (VDouble (a, d)) -> latest [(t, out)] y = Some (VDouble (b, e)) ->
  exists o, observe_all (h5_class zero) ((t, out) :: steps) (new_observer req (Ok (mkH5 f0 [] None))) = Done o /\ o_st o = Throw.
Proof.
  intros D zero f0 l1 x l2 y l3 a b d e t out steps req T Ca Cb A F X Y.
  destruct (observe_all_ok (h5_class zero) req (Ok (mkH5 f0 [] None)) t out steps Throw F) as (o & E & S).
  { cbn [h5_class flush_after_init]. fold (@h5_class D zero). f_equal. rewrite run_fold. unfold req.
    rewrite (fetch_split _ l1 x _ _ X), (fetch_split _ l2 y _ _ Y). apply init_fold_clash; assumption. }
  exists o. split; [exact E|]. rewrite S. apply states_after_throw.
Qed.
Print Assumptions hdf5_clash_throws.

(** ** Variables that never clash *)
Definition no_comma (s : string) : Prop := clean s /\ has_char "," s = false.
(** The time, the states, the efforts and the righting levers of the hydrostatic models *)
Definition plain (v : variable) : Prop :=
  match v with
  | Time => True
  | State body s => no_comma body /\ In s ["x"; "y"; "z"; "u"; "v"; "w"; "p"; "q"; "r"; "qr"; "qi"; "qj"; "qk"; "phi"; "theta"; "psi"]
  | Effort force body frame comp => no_comma force /\ no_comma body /\ no_comma frame /\ In comp ["Fx"; "Fy"; "Fz"; "Mx"; "My"; "Mz"]
  | GZ force body => no_comma force /\ no_comma body
  | _ => False
  end.

Ltac cases_in := repeat match goal with
  | H : In _ _ |- _ => cbn [In] in H
  | H : _ \/ _ |- _ => destruct H as [H|H]
  | H : False |- _ => contradiction
  end.
Lemma state_address s : In s ["x"; "y"; "z"; "u"; "v"; "w"; "p"; "q"; "r"; "qr"; "qi"; "qj"; "qk"; "phi"; "theta"; "psi"] ->
  exists l, assoc s state_table = Some l /\ l <> [] /\ Forall clean l.
Proof. intros H. cases_in; subst; (eexists; split; [reflexivity|]; split; [discriminate|repeat constructor; discriminate]). Qed.
Lemma state_apart s s' : In s ["x"; "y"; "z"; "u"; "v"; "w"; "p"; "q"; "r"; "qr"; "qi"; "qj"; "qk"; "phi"; "theta"; "psi"] ->
  In s' ["x"; "y"; "z"; "u"; "v"; "w"; "p"; "q"; "r"; "qr"; "qi"; "qj"; "qk"; "phi"; "theta"; "psi"] ->
  forall l l', assoc s state_table = Some l -> assoc s' state_table = Some l' -> prefix l l' -> s = s'.
Proof.
  intros H H'. cases_in; subst; cbn [assoc state_table String.eqb Ascii.eqb Bool.eqb]; intros l l' E E' (r & P);
    injection E as <-; injection E' as <-; first [reflexivity|discriminate P].
Qed.
Lemma address_clean v : plain v -> clean_path (address_of v).
Proof.
  assert (K : forall s : string, s <> "" /\ has_char "/" s = false -> clean s) by auto.
  destruct v; cbn [plain address_of]; try contradiction.
  - intros _. split; [discriminate|]. constructor; [split; [discriminate|reflexivity]|constructor].
  - intros ((B & _) & S). destruct (state_address s S) as (l & -> & N & F). split; [discriminate|].
    constructor; [split; [discriminate|reflexivity]|]. constructor; [exact B|exact F].
  - intros ((Fo & _) & (B & _) & (Fr & _) & C). split; [discriminate|]. constructor; [split; [discriminate|reflexivity]|].
    constructor; [exact B|]. constructor; [exact Fo|]. constructor; [exact Fr|]. constructor; [|constructor]. cases_in; subst; split; (discriminate || reflexivity).
  - intros ((Fo & _) & (B & _)). split; [discriminate|]. constructor; [split; [discriminate|reflexivity]|].
    constructor; [exact B|]. constructor; [exact Fo|]. constructor; [exact B|]. constructor; [|constructor]. split; (discriminate || reflexivity).
Qed.
Lemma prefix_cons x y (p q : path) : prefix (x :: p) (y :: q) <-> x = y /\ prefix p q.
Proof. split; [intros (r & E); injection E as -> ->; split; [reflexivity|exists r; reflexivity]|intros (-> & r & ->); exists r; reflexivity]. Qed.
Lemma plain_prefix v w : plain v -> plain w -> prefix (address_of v) (address_of w) -> v = w.
Proof.
  destruct v, w; cbn [plain address_of]; try contradiction; intros V W P; repeat rewrite prefix_cons in P; try reflexivity;
    repeat match goal with H : _ /\ _ |- _ => destruct H end; try discriminate; subst.
  all: try reflexivity; try (cases_in; subst; discriminate).
  - destruct (state_address s ltac:(assumption)) as (l & El & _). destruct (state_address s0 ltac:(assumption)) as (l' & El' & _). rewrite El, El' in *.
    f_equal. eapply state_apart; eauto.
Qed.
Theorem plain_addresses_are_apart : forall v w, plain v -> plain w -> v <> w -> apart ("outputs" :: address_of v) ("outputs" :: address_of w).
Proof.
  intros v w V W N. split; rewrite prefix_cons; intros (_ & P); apply N; [|symmetry]; apply plain_prefix; assumption.
Qed.
Print Assumptions plain_addresses_are_apart.

(** Their names are distinct too. *)
Lemma app_paren_inj (a b : string) : a ++ ")" = b ++ ")" -> a = b.
Proof.
  revert b. induction a as [|c a IH]; intros [|c' b] E; cbn in E; [reflexivity| | |].
  - injection E as _ E. destruct b; discriminate.
  - injection E as _ E. destruct a; discriminate.
  - injection E as -> E. f_equal. apply IH, E.
Qed.
Lemma app_char_inj c (a b x y : string) : has_char c a = false -> has_char c b = false -> a ++ String c x = b ++ String c y -> a = b /\ x = y.
Proof.
  revert b. induction a as [|d a IH]; intros b A B E.
  - destruct b as [|e b]; [cbn in E; injection E as ->; auto|]. cbn in E. injection E as -> _. cbn in B. rewrite Ascii.eqb_refl in B. discriminate.
  - destruct b as [|e b].
    + cbn in E. injection E as -> _. cbn in A. rewrite Ascii.eqb_refl in A. discriminate.
    + cbn in *. injection E as -> E. apply orb_false_elim in A, B. destruct (IH b (proj2 A) (proj2 B) E) as (-> & ->). auto.
Qed.
Lemma state_clean s : In s ["x"; "y"; "z"; "u"; "v"; "w"; "p"; "q"; "r"; "qr"; "qi"; "qj"; "qk"; "phi"; "theta"; "psi"] -> has_char "(" s = false /\ has_char "," s = false.
Proof. intros H. cases_in; subst; auto. Qed.
Lemma comp_clean s : In s ["Fx"; "Fy"; "Fz"; "Mx"; "My"; "Mz"] -> has_char "(" s = false /\ has_char "," s = false.
Proof. intros H. cases_in; subst; auto. Qed.
(** Number of commas *)
Lemma split_commas v : plain v -> split_on "," (name_of v) =
  match v with
  | Effort force body frame comp => [comp ++ "(" ++ force; body; frame ++ ")"]
  | GZ force body => ["GZ(" ++ force; body ++ ")"]
  | _ => [name_of v]
  end.
Proof.
  destruct v; cbn [plain name_of]; try contradiction.
  - reflexivity.
  - intros ((_ & B) & S). destruct (state_clean s S) as (_ & S2). apply split_on_no_char. rewrite !has_char_app, S2, B. reflexivity.
  - intros ((_ & Fo) & (_ & B) & (_ & Fr) & C). destruct (comp_clean comp C) as (_ & C2).
    replace (comp ++ "(" ++ force ++ "," ++ body ++ "," ++ frame ++ ")") with ((comp ++ "(" ++ force) ++ String "," (body ++ String "," (frame ++ ")"))).
    2:{ rewrite sapp_assoc. reflexivity. }
    rewrite split_on_app by (rewrite !has_char_app, C2, Fo; reflexivity). rewrite split_on_app by exact B.
    rewrite split_on_no_char by (rewrite has_char_app, Fr; reflexivity). reflexivity.
  - intros ((_ & Fo) & (_ & B)).
    change ("GZ(" ++ force ++ "," ++ body ++ ")") with (("GZ(" ++ (force ++ String "," (body ++ ")")))).
    replace ("GZ(" ++ force ++ String "," (body ++ ")")) with (("GZ(" ++ force) ++ String "," (body ++ ")")) by reflexivity.
    rewrite split_on_app by (rewrite has_char_app, Fo; reflexivity). rewrite split_on_no_char by (rewrite has_char_app, B; reflexivity). reflexivity.
Qed.
Lemma plain_names v w : plain v -> plain w -> name_of v = name_of w -> v = w.
Proof.
  intros V W E. pose proof (split_commas v V) as SV. pose proof (split_commas w W) as SW. rewrite E in SV. rewrite SV in SW. clear SV.
  destruct v, w; cbn [plain name_of] in *; try contradiction; try discriminate; try reflexivity.
  - exfalso. destruct W as (_ & S). cases_in; subst; discriminate.
  - exfalso. destruct V as (_ & S). cases_in; subst; discriminate.
  - destruct V as (_ & S), W as (_ & S'). apply state_clean in S, S'. apply app_char_inj in E; [|tauto|tauto]. destruct E as (-> & E). apply app_paren_inj in E. congruence.
  - destruct V as (_ & _ & _ & S), W as (_ & _ & _ & S'). apply comp_clean in S, S'. injection SW as E1 -> E2. apply app_char_inj in E1; [|tauto|tauto].
    apply app_paren_inj in E2. destruct E1. congruence.
  - injection SW as -> E1. apply app_paren_inj in E1. congruence.
Qed.

(** ** C132. All of them are stored when they are all requested. *)
Definition by_name (vars : list variable) (x : string) : option (list string) :=
  option_map address_of (List.find (fun v => String.eqb (name_of v) x) vars).
Lemma by_name_ok vars v : Forall plain vars -> In v vars -> by_name vars (name_of v) = Some (address_of v).
Proof.
  intros F H. unfold by_name. destruct (List.find _ vars) as [w|] eqn:E.
  - apply find_some in E as (W & E). apply String.eqb_eq in E. rewrite Forall_forall in F. rewrite (plain_names w v); auto.
  - pose proof (find_none _ _ E v H) as N. cbn in N. rewrite String.eqb_refl in N. discriminate.
Qed.
Theorem hdf5_stores_plain_variables : forall D (zero : D) vars f0 t out steps,
  let all : list ((list string * D) * list (string * @h5_value D)) := (t, out) :: steps in
  NoDup vars -> Forall plain vars ->
  tree f0 -> (lookup ["outputs"] f0 = None \/ lookup ["outputs"] f0 = Some Group) ->
  (forall h, In h ["t"; "states"; "efforts"] -> lookup ["outputs"; h] f0 = None) ->
  (forall v k, In v vars -> (k < List.length all)%nat -> exists d, latest (firstn (k + 1) all) (name_of v) = Some (VDouble (address_of v, d))) ->
  exists o s, observe_all (h5_class zero) all (new_observer (map name_of vars) (Ok (mkH5 f0 [] None))) = Done o /\ o_st o = Ok s
    /\ (forall v, In v vars -> exists values, series ("outputs" :: address_of v) values (h_file s) /\ List.length values = List.length all
         /\ forall k d, (k < List.length all)%nat -> latest (firstn (k + 1) all) (name_of v) = Some (VDouble (address_of v, d)) -> nth_error values k = Some d)
    /\ (forall p n, lookup p f0 = Some n -> lookup p (h_file s) = Some n).
Proof.
  intros D zero vars f0 t out steps all ND F T G0 H0 W. pose proof F as F'. rewrite Forall_forall in F'.
  assert (BN : forall x, In x (map name_of vars) -> exists v, x = name_of v /\ In v vars /\ by_name vars x = Some (address_of v)).
  { intros x X. apply in_map_iff in X as (v & <- & V). exists v. split; [reflexivity|]. split; [exact V|]. apply by_name_ok; assumption. }
  destruct (hdf5_series D zero (map name_of vars) (by_name vars) f0 1 1 t out steps) as (o & s & E & S & A & _ & P & _).
  - clear - ND F F'. induction vars as [|v vars IH]; [constructor|]. inversion ND; subst. inversion F; subst. cbn [map]. constructor.
    + intros H. apply in_map_iff in H as (w & E & Hw). apply plain_names in E; [subst; contradiction|apply F'; right; exact Hw|assumption].
    + apply IH; auto. intros x Hx. apply F'. right. exact Hx.
  - exact T.
  - intros x a X K. destruct (BN x X) as (v & -> & V & B). rewrite B in K. injection K as <-. apply address_clean, F', V.
  - intros x y p q X Y N Hp Hq. destruct (BN x X) as (v & -> & V & B). destruct (BN y Y) as (w & -> & W' & B'). unfold datasets in Hp, Hq. rewrite B in Hp. rewrite B' in Hq.
    destruct Hp as [<-|[]]. destruct Hq as [<-|[]]. apply plain_addresses_are_apart; [apply F', V|apply F', W'|congruence].
  - intros x p X Hp. destruct (BN x X) as (v & -> & V & B). unfold datasets in Hp. rewrite B in Hp. destruct Hp as [<-|[]].
    assert (HD : exists h l, address_of v = h :: l /\ In h ["t"; "states"; "efforts"]).
    { specialize (F' v V). destruct v; cbn [plain address_of] in *; try contradiction; eexists; eexists; (split; [reflexivity|cbn; auto]). }
    destruct HD as (h & l & Ea & Hh). rewrite Ea. specialize (H0 h Hh).
    assert (BL : forall l', lookup ("outputs" :: h :: l') f0 = None).
    { intros l'. destruct (lookup ("outputs" :: h :: l') f0) as [n|] eqn:L; [|reflexivity]. destruct l' as [|y l']; [congruence|].
      change ("outputs" :: h :: y :: l') with (["outputs"; h] ++ y :: l')%list in L. apply tree_prefix in L; [congruence|exact T|discriminate|discriminate]. }
    split; [apply BL|]. intros q r Eq Nq. destruct q as [|q0 q]; [congruence|]. injection Eq as <- Eq. destruct q as [|q1 q]; [exact G0|].
    injection Eq as <- _. left. apply BL.
  - intros x X K. destruct (BN x X) as (v & -> & V & B). congruence.
  - intros x k X K. destruct (BN x X) as (v & -> & V & B). unfold written_as. rewrite B. apply (W v k V K).
  - exists o, s. split; [exact E|]. split; [exact S|]. split; [|exact P]. intros v V. apply (A (name_of v) (address_of v)); [apply in_map, V|apply by_name_ok; assumption].
Qed.
Print Assumptions hdf5_stores_plain_variables.
(** Non-vacuity: a boat, two instants; the file holds the spectra already. *)
Definition boat_vars : list variable := [Time; State "boat" "x"; State "boat" "qr"; Effort "Kt(J) & Kq(J)" "boat" "NED" "Fx"; GZ "non-linear hydrostatic (fast)" "boat"].
Definition boat_step (t : nat) : (list string * nat) * list (string * @h5_value nat) :=
  ((["t"], t), map (fun v => (name_of v, VDouble (address_of v, t + 1)%nat)) (tl boat_vars)).
Example boat_meets_hypotheses :
  let f0 : @file nat := [(["outputs"; "spectra"], Group); (["outputs"], Group)] in
  NoDup boat_vars /\ Forall plain boat_vars /\ tree f0 /\ lookup ["outputs"] f0 = Some Group /\
  (forall h, In h ["t"; "states"; "efforts"] -> lookup ["outputs"; h] f0 = None) /\
  (forall v k, In v boat_vars -> (k < 2)%nat -> exists d, latest (firstn (k + 1) [boat_step 0; boat_step 1]) (name_of v) = Some (VDouble (address_of v, d))).
Proof.
  cbv zeta. split; [|split; [|split; [|split; [|split]]]].
  - repeat constructor; cbn [In]; intros H; cases_in; discriminate.
  - unfold boat_vars, plain, no_comma, clean. repeat (apply Forall_cons; [repeat split; try discriminate; cbn; auto 20|]). apply Forall_nil.
  - intros p n. cbn [lookup]. destruct (path_eqb_spec p ["outputs"; "spectra"]) as [->|]; [intros _; split; [discriminate|reflexivity]|].
    destruct (path_eqb_spec p ["outputs"]) as [->|]; [intros _; split; [discriminate|reflexivity]|]. discriminate.
  - reflexivity.
  - intros h H. cases_in; subst; reflexivity.
  - intros v k V K. assert (k = 0 \/ k = 1)%nat as [->| ->] by lia; unfold boat_vars in V; cases_in; subst; eexists; reflexivity.
Qed.

(** The other variables: the GM and the GZ of the "GM" force model go to the same dataset: whoever asks for both gets nothing. *)
Theorem hdf5_GM_and_GZ_refuted : forall D (zero : D) body f0 l1 l2 l3 d e t out steps x y,
  clean body -> tree f0 -> (x, y) = (name_of (GM body), name_of (GZ_of_GM body)) \/ (y, x) = (name_of (GM body), name_of (GZ_of_GM body)) ->
  let req := (l1 ++ x :: l2 ++ y :: l3)%list in
  (forall z, In z req -> latest [(t, out)] z <> None) ->
  latest [(t, out)] (name_of (GM body)) = Some (VDouble (address_of (GM body), d)) ->
  latest [(t, out)] (name_of (GZ_of_GM body)) = Some (VDouble (address_of (GZ_of_GM body), e)) ->
  exists o, observe_all (h5_class zero) ((t, out) :: steps) (new_observer req (Ok (mkH5 f0 [] None))) = Done o /\ o_st o = Throw.
Proof.
  intros D zero body f0 l1 l2 l3 d e t out steps x y C T XY req F X Y.
  assert (CP : clean_path (address_of (GM body))).
  { split; [discriminate|]. constructor; [split; [discriminate|reflexivity]|]. constructor; [exact C|].
    constructor; [split; [discriminate|reflexivity]|]. constructor; [split; [discriminate|reflexivity]|constructor]. }
  assert (NA : ~ apart (address_of (GM body)) (address_of (GM body))) by (intros (A & _); apply A; exists []; rewrite app_nil_r; reflexivity).
  destruct XY as [E|E]; injection E as -> ->.
  - exact (hdf5_clash_throws D zero f0 l1 _ l2 _ l3 _ _ d e t out steps T CP CP NA F X Y).
  - exact (hdf5_clash_throws D zero f0 l1 _ l2 _ l3 _ _ e d t out steps T CP CP NA F Y X).
Qed.
Print Assumptions hdf5_GM_and_GZ_refuted.
(** Variables of distinct objects that have the same name: only the last one written is seen, by any observer. *)
Theorem same_name_refuted :
  (forall force force' body body' axis, name_of (Buoyancy force body axis) = name_of (Buoyancy force' body' axis))
  /\ (forall force force' body observation, name_of (Extra force body observation) = name_of (Extra force' body observation))
  /\ (forall force body s, name_of (Extra force body s) = name_of (State body s))
  /\ (forall body, name_of (Extra "any" body "GM") = name_of (GM body))
  /\ (forall force body body' frame comp, name_of (Effort force (body ++ "," ++ body') frame comp) = name_of (Effort (force ++ "," ++ body) body' frame comp)).
Proof.
  repeat split; try reflexivity. intros force body body' frame comp. cbn [name_of append]. rewrite !sapp_assoc. reflexivity.
Qed.
Print Assumptions same_name_refuted.
(** A slash in the name of a body makes groups: "a/X" has its states inside the dataset of the x of "a", and the simulation fails. *)
Theorem slash_in_a_name_refuted :
  exists o, observe_all (h5_class 0%nat) [((["t"], 0%nat), [(name_of (State "a" "x"), VDouble (address_of (State "a" "x"), 1%nat)); (name_of (State "a/X" "x"), VDouble (address_of (State "a/X" "x"), 2%nat))])]
    (new_observer ["x(a)"; "x(a/X)"] (Ok (mkH5 [] [] None))) = Done o /\ o_st o = Throw.
Proof. eexists. split; vm_compute; reflexivity. Qed.
Print Assumptions slash_in_a_name_refuted.
