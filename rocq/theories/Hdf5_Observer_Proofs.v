(** The HDF5 observer over a whole simulation. *)
From Coq Require Import ZArith List Bool Lia String Ascii.
From Verif Require Import Common Observer_Model Observer_Spec Observer_Proofs Hdf5_Model Hdf5_Spec Hdf5_Proofs Hdf5_File_Proofs Hdf5_Series_Proofs.
Import ListNotations.
Open Scope string_scope.

Section Run.
Context {D : Type} (zero : D).
Notation file := (@file D).
Notation val := (@h5_value D).
Variables (req : list string) (kind : string -> option (list string)) (f0 : file) (nx ny : nat).

(** Where the variable [x] goes: [kind x] is its address, or None for the grid. *)
Definition targets (x : string) : list path := match kind x with Some a => ["outputs" :: a] | None => wave_paths end.
Hypothesis ND : NoDup req.
Hypothesis T0 : tree f0.
Hypothesis CLEAN : forall x a, In x req -> kind x = Some a -> clean_path a.
Hypothesis APART : forall x y p q, In x req -> In y req -> x <> y -> In p (targets x) -> In q (targets y) -> apart p q.
Hypothesis FREE : forall x p, In x req -> In p (targets x) -> free p f0.
Hypothesis NX : (0 < nx)%nat.
Hypothesis NY : (0 < ny)%nat.

(** The value of [x] at the instant k *)
Variable value_at : nat -> string -> option val.
Definition good (x : string) (v : option val) : Prop :=
  match v, kind x with
  | Some (VDouble (a, _)), Some b => a = b
  | Some (VGrid g), None => has_size nx ny g
  | _, _ => False
  end.
Definition doubles (n : nat) (x : string) : list D := flat_map (fun k => match value_at k x with Some (VDouble (_, d)) => [d] | _ => [] end) (seq 0 n).
Definition grids (n : nat) (x : string) : list hgrid := flat_map (fun k => match value_at k x with Some (VGrid g) => [g] | _ => [] end) (seq 0 n).

Lemma one_grid x y : In x req -> In y req -> kind x = None -> kind y = None -> x = y.
Proof.
  intros X Y Kx Ky. destruct (string_dec x y) as [|N]; [assumption|]. exfalso.
  assert (apart (waves_at ++ ["t"]) (waves_at ++ ["t"])) as A.
  { apply (APART x y); auto; unfold targets; rewrite ?Kx, ?Ky; left; reflexivity. }
  exact (apart_neq _ _ A eq_refl).
Qed.

Record inv (l : list string) (c : string -> nat) (s : @h5_state D) : Prop := mkInv {
  inv_tree : tree (h_file s);
  inv_double : forall x a, In x l -> kind x = Some a -> smap_find x (h_dataset s) = Some ("outputs" :: a) /\
    exists m, lookup ("outputs" :: a) (h_file s) = Some (Data [List.length (doubles (c x) x)] [None] m) /\ forall k d, nth_error (doubles (c x) x) k = Some d -> m [k] = EDouble d;
  inv_grid : forall x, In x l -> kind x = None -> exists w, h_waves s = Some w /\ wave_state nx ny (grids (c x) x) w /\ wave_arrays nx ny (grids (c x) x) (h_file s);
  inv_grown : grown (flat_map targets l) f0 (h_file s)
}.
Lemma inv_ext l c c' s : (forall x, In x l -> c x = c' x) -> inv l c s -> inv l c' s.
Proof.
  intros E [A B C G]. constructor; auto.
  - intros x a X K. rewrite <- E by exact X. auto.
  - intros x X K. rewrite <- E by exact X. auto.
Qed.

(** ** Creation of the datasets *)
Lemma init_one l s x v : inv l (fun _ => 0%nat) s -> incl l req -> In x req -> ~ In x l -> good x (Some v) ->
  exists s', h5_init zero v x s = Ok s' /\ inv (l ++ [x]) (fun _ => 0%nat) s'.
Proof.
  intros [T ID IG GR] L X N G.
  assert (FR : forall p, In p (targets x) -> free p (h_file s)).
  { intros p P. apply (free_grown p (flat_map targets l) f0); [eapply FREE; eauto| |exact GR].
    intros t Ht. apply in_flat_map in Ht as (y & Y & Ht). apply (APART x y); auto. intros ->. contradiction. }
  assert (FM : flat_map targets (l ++ [x]) = (flat_map targets l ++ targets x)%list).
  { rewrite flat_map_app. cbn [flat_map]. rewrite app_nil_r. reflexivity. }
  unfold good in G. destruct v as [[a d]|g]; destruct (kind x) as [b|] eqn:K; try contradiction.
  - subst a. unfold h5_init. rewrite full_address_text by (eapply CLEAN; eauto).
    assert (CP : clean_path ("outputs" :: b)).
    { destruct (CLEAN x b X K) as (_ & Fb). split; [discriminate|]. constructor; [split; [discriminate|reflexivity]|exact Fb]. }
    assert (FP : free ("outputs" :: b) (h_file s)) by (apply FR; unfold targets; rewrite K; left; reflexivity).
    destruct (create_data_set_ok zero ("outputs" :: b) (text ("outputs" :: b)) [0%nat] [None] (h_file s) T CP (names_text _ CP) FP) as (f1 & -> & T1 & M).
    cbn [bindO]. eexists. split; [reflexivity|]. pose proof (made_grown _ _ _ _ FP M) as GM.
    rewrite path_of_text by (apply CP).
    assert (PR : forall q n, lookup q (h_file s) = Some n -> lookup q f1 = Some n) by apply GM.
    constructor; cbn [h_file h_dataset h_waves].
    + exact T1.
    + intros y a Y Ky. rewrite smap_find_set. apply in_app_or in Y as [Y|[->|[]]].
      * destruct (String.eqb_spec y x) as [->|_]; [contradiction|]. destruct (ID y a Y Ky) as (I1 & m & I2 & I3). split; [exact I1|]. exists m. split; [apply PR, I2|exact I3].
      * rewrite String.eqb_refl. assert (a = b) as -> by congruence. split; [reflexivity|]. eexists. split; [apply (proj1 M)|]. intros [|k] e Hk; discriminate.
    + intros y Y Ky. apply in_app_or in Y as [Y|[->|[]]]; [|congruence]. destruct (IG y Y Ky) as (w & I1 & I2 & I3). exists w. split; [exact I1|]. split; [exact I2|].
      destruct I3 as (ct & cx & cy & cz & A & B & C & E & V). exists ct, cx, cy, cz. repeat (split; [apply PR; assumption|]). exact V.
    + rewrite FM. eapply grown_trans; [exact GR|]. unfold targets. rewrite K. exact GM.
  - unfold h5_init. destruct G as (Gx & Gy & G). rewrite Gx, Gy.
    destruct (new_writer zero nx ny (h_file s) NX NY T) as (f1 & w & -> & T1 & W & A & GM).
    { intros p P. apply FR. unfold targets. rewrite K. exact P. }
    cbn [bindO fst snd]. eexists. split; [reflexivity|]. constructor; cbn [h_file h_dataset h_waves].
    + exact T1.
    + intros y a Y Ky. apply in_app_or in Y as [Y|[->|[]]]; [|congruence]. destruct (ID y a Y Ky) as (I1 & m & I2 & I3).
      split; [exact I1|]. exists m. split; [apply GM, I2|exact I3].
    + intros y Y Ky. exists w. auto.
    + rewrite FM. eapply grown_trans; [exact GR|]. unfold targets. rewrite K. exact GM.
Qed.

Lemma run_fold (run : val -> string -> outcome (@h5_state D) -> outcome (@h5_state D)) pv s : run_vars (h5_class zero) run pv s = fold_left (fun s p => run (snd p) (fst p) s) pv s.
Proof.
  revert s. induction pv as [|(x, v) pv IH]; intros s; [reflexivity|]. destruct pv; [reflexivity|].
  rewrite run_vars_cons2, IH. reflexivity.
Qed.
Lemma init_all find : (forall x, In x req -> good x (find x)) -> forall l done s, (done ++ l)%list = req -> inv done (fun _ => 0%nat) s ->
  exists s', fold_left (fun s p => run_init (h5_class zero) (snd p) (fst p) s) (fetch find l) (Ok s) = Ok s' /\ inv req (fun _ => 0%nat) s'.
Proof.
  intros G. induction l as [|x l IH]; intros done s E I.
  - rewrite app_nil_r in E. subst. exists s. split; [reflexivity|exact I].
  - assert (X : In x req) by (rewrite <- E; apply in_or_app; right; left; reflexivity).
    assert (N : ~ In x done). { rewrite <- E in ND. apply NoDup_remove_2 in ND. intros H. apply ND, in_or_app. auto. }
    cbn [fetch flat_map]. pose proof (G x X) as Gx. destruct (find x) as [v|] eqn:Ex; [|contradiction]. cbn [app fold_left fst snd].
    assert (exists s1, run_init (h5_class zero) v x (Ok s) = Ok s1 /\ inv (done ++ [x]) (fun _ => 0%nat) s1) as (s1 & -> & I1).
    { cbn [h5_class run_init bindO]. apply init_one; auto. intros y Hy. rewrite <- E. apply in_or_app. auto. }
    apply (IH (done ++ [x])%list); [rewrite <- app_assoc; exact E|exact I1].
Qed.

(** ** Writing the values *)
Lemma doubles_S n x : doubles (S n) x = (doubles n x ++ match value_at n x with Some (VDouble (_, d)) => [d] | _ => [] end)%list.
Proof. unfold doubles. rewrite seq_S, flat_map_app. cbn [flat_map]. rewrite app_nil_r. reflexivity. Qed.
Lemma grids_S n x : grids (S n) x = (grids n x ++ match value_at n x with Some (VGrid g) => [g] | _ => [] end)%list.
Proof. unfold grids. rewrite seq_S, flat_map_app. cbn [flat_map]. rewrite app_nil_r. reflexivity. Qed.
Lemma grids_size n x : kind x = None -> (forall k, (k < n)%nat -> good x (value_at k x)) -> Forall (has_size nx ny) (grids n x).
Proof.
  intros K G. apply Forall_forall. intros g Hg. unfold grids in Hg. apply in_flat_map in Hg as (k & Hk & Hg). apply in_seq in Hk.
  specialize (G k ltac:(lia)). unfold good in G. rewrite K in G. destruct (value_at k x) as [[[a d]|h]|]; [destruct Hg| |destruct Hg].
  destruct Hg as [<-|[]]. exact G.
Qed.
Definition upd (c : string -> nat) (x : string) (n : nat) : string -> nat := fun y => if String.eqb y x then n else c y.
Lemma ser_one c s x v : inv req c s -> In x req -> value_at (c x) x = Some v -> (forall k, (k <= c x)%nat -> good x (value_at k x)) ->
  exists s', h5_ser zero v x s = Ok s' /\ inv req (upd c x (S (c x))) s'.
Proof.
  intros [T ID IG GR] X V G. pose proof (G (c x) (le_n _)) as Gx. rewrite V in Gx. unfold good in Gx.
  assert (other : forall y, In y req -> y <> x -> forall p q, In p (targets y) -> In q (targets x) -> p <> q).
  { intros y Y N p q P Q. apply apart_neq. apply (APART y x); auto. }
  assert (NF : forall p, In p (targets x) -> lookup p f0 = None) by (intros p P; apply (FREE x p X P)).
  assert (FI : forall p, In p (targets x) -> In p (flat_map targets req)) by (intros p P; apply in_flat_map; eauto).
  destruct v as [[a d]|g]; destruct (kind x) as [b|] eqn:K; try contradiction.
  - subst a. destruct (ID x b X K) as (I1 & m & I2 & I3). unfold h5_ser. rewrite I1, I2.
    assert (TX : In ("outputs" :: b) (targets x)) by (unfold targets; rewrite K; left; reflexivity).
    destruct (append_series zero ("outputs" :: b) (doubles (c x) x) d (h_file s)) as (f1 & f2 & m2 & E1 & E2 & U & S2).
    { exists [None], m. auto. } { eauto. }
    rewrite E1. cbn [bindO]. rewrite E2. cbn [bindO]. eexists. split; [reflexivity|]. constructor; cbn [h_file h_dataset h_waves].
    + eapply updated_tree; eauto.
    + intros y a Y Ky. unfold upd. destruct (String.eqb_spec y x) as [->|N].
      * assert (a = b) as -> by congruence. split; [exact I1|]. rewrite doubles_S, V. destruct S2 as (m3 & c3 & L3 & V3).
        exists c3. split; [|exact V3]. rewrite L3. f_equal. rewrite U in L3. destruct (path_eqb_spec ("outputs" :: b) ("outputs" :: b)); [|congruence]. injection L3 as _ <- _. reflexivity.
      * destruct (ID y a Y Ky) as (J1 & m' & J2 & J3). split; [exact J1|]. exists m'. split; [|exact J3].
        rewrite U. destruct (path_eqb_spec ("outputs" :: a) ("outputs" :: b)) as [E|_]; [|exact J2].
        exfalso. apply (other y Y N ("outputs" :: a) ("outputs" :: b)); auto. unfold targets. rewrite Ky. left. reflexivity.
    + intros y Y Ky. assert (N : y <> x) by congruence. unfold upd. destruct (String.eqb_spec y x); [congruence|].
      destruct (IG y Y Ky) as (w & W1 & W2 & W3). exists w. split; [exact W1|]. split; [exact W2|]. eapply wave_arrays_ext; [|exact W3].
      intros p P. rewrite U. destruct (path_eqb_spec p ("outputs" :: b)) as [E|_]; [|reflexivity]. exfalso.
      apply (other y Y N p ("outputs" :: b)); auto. unfold targets. rewrite Ky. exact P.
    + eapply updated_grown; eauto.
  - destruct (IG x X K) as (w & W1 & W2 & W3). unfold h5_ser. rewrite W1.
    assert (SZ : Forall (has_size nx ny) (grids (c x) x)) by (apply grids_size; [exact K|intros k Hk; apply G; lia]).
    destruct (append_grid zero nx ny (grids (c x) x) g w (h_file s) NX NY Gx SZ W2 W3) as (f1 & w1 & -> & S1 & A1 & O1 & O2).
    cbn [bindO fst snd]. eexists. split; [reflexivity|].
    assert (WN : forall q, In q wave_paths -> lookup q f0 = None) by (intros q Q; apply NF; unfold targets; rewrite K; exact Q).
    assert (WI : forall q, In q wave_paths -> In q (flat_map targets req)) by (intros q Q; apply FI; unfold targets; rewrite K; exact Q).
    assert (IN : forall q, In q wave_paths \/ ~ In q wave_paths) by (intros q; destruct (in_dec (list_eq_dec string_dec) q wave_paths); auto).
    constructor; cbn [h_file h_dataset h_waves].
    + intros q n L.
      assert (WD : forall q, In q wave_paths -> exists d m e, lookup q (h_file s) = Some (Data d m e)).
      { destruct W3 as (ct & cx & cy & cz & A & B & C & E & _). intros r R. unfold wave_paths in R. cbn [In] in R.
        destruct R as [<-|[<-|[<-|[<-|[]]]]]; eauto. }
      assert (M : forall r, is_group r (h_file s) = true -> is_group r f1 = true).
      { intros r Hr. destruct r as [|r0 r]; [reflexivity|]. apply is_group_iff in Hr; [|discriminate]. apply is_group_iff; [discriminate|].
        destruct (IN (r0 :: r)) as [R|R]; [|rewrite O1; assumption]. destruct (WD _ R) as (? & ? & ? & ?). congruence. }
      destruct (IN q) as [Q|Q].
      * destruct (WD q Q) as (d & m & e & Lq). destruct (T q _ Lq) as (Q1 & Q2). auto.
      * rewrite O1 in L by exact Q. destruct (T q n L) as (Q1 & Q2). auto.
    + intros y a Y Ky. assert (N : y <> x) by congruence. unfold upd. destruct (String.eqb_spec y x); [congruence|].
      destruct (ID y a Y Ky) as (J1 & m' & J2 & J3). split; [exact J1|]. exists m'. split; [|exact J3]. rewrite O1; [exact J2|].
      intros P. apply (other y Y N ("outputs" :: a) ("outputs" :: a)); [| |reflexivity].
      * unfold targets. rewrite Ky. left. reflexivity.
      * unfold targets. rewrite K. exact P.
    + intros y Y Ky. assert (y = x) as -> by (apply one_grid; assumption). unfold upd. rewrite String.eqb_refl, grids_S, V. eauto.
    + split.
      * intros q n L. destruct (IN q) as [Q|Q]; [rewrite (WN q Q) in L; discriminate|]. rewrite O1 by exact Q. apply GR. exact L.
      * intros q n L L'. destruct (IN q) as [Q|Q].
        -- split; [left; apply WI, Q|]. exists q. split; [apply WI, Q|]. exists []. rewrite app_nil_r. reflexivity.
        -- rewrite O1 in L' by exact Q. destruct GR as (_ & GR). eauto.
Qed.

Lemma ser_all k find : (forall x, In x req -> find x = value_at k x) -> (forall x j, In x req -> (j <= k)%nat -> good x (value_at j x)) ->
  forall l c s, NoDup l -> incl l req -> (forall x, In x l -> c x = k) -> inv req c s ->
  exists s', fold_left (fun s p => run_ser (h5_class zero) (snd p) (fst p) s) (fetch find l) (Ok s) = Ok s' /\
    inv req (fun y => if in_dec string_dec y l then S k else c y) s'.
Proof.
  intros F G. induction l as [|x l IH]; intros c s NL L C I.
  - exists s. split; [reflexivity|]. eapply inv_ext; [|exact I]. reflexivity.
  - assert (X : In x req) by (apply L; left; reflexivity). inversion NL as [|? ? Nx NL']; subst.
    assert (Cx : c x = k) by (apply C; left; reflexivity).
    pose proof (G x k X (le_n _)) as Gx. cbn [fetch flat_map]. rewrite F by exact X. destruct (value_at k x) as [v|] eqn:V; [|contradiction].
    cbn [app fold_left fst snd].
    assert (exists s1, run_ser (h5_class zero) v x (Ok s) = Ok s1 /\ inv req (upd c x (S k)) s1) as (s1 & -> & I1).
    { cbn [h5_class run_ser bindO]. rewrite <- Cx. apply ser_one; auto; [congruence|]. intros j Hj. rewrite Cx in Hj. apply G; assumption. }
    destruct (IH (upd c x (S k)) s1) as (s' & R & I'); auto.
    + intros y Hy. apply L. right. exact Hy.
    + intros y Hy. unfold upd. destruct (String.eqb_spec y x) as [->|]; [contradiction|]. apply C. right. exact Hy.
    + exists s'. split; [exact R|]. eapply inv_ext; [|exact I']. intros y _. cbv beta. unfold upd.
      destruct (in_dec string_dec y l) as [Hy|Hy], (in_dec string_dec y (x :: l)) as [Hy'|Hy']; try reflexivity.
      * exfalso. apply Hy'. right. exact Hy.
      * destruct (String.eqb_spec y x) as [|N]; [reflexivity|]. destruct Hy' as [|]; congruence.
      * destruct (String.eqb_spec y x) as [->|N]; [exfalso; apply Hy'; left; reflexivity|reflexivity].
Qed.

Lemma all_steps (all : list ((list string * D) * list (string * val))) :
  (forall k x, In x req -> value_at k x = latest (firstn (S k) all) x) ->
  (forall k x, (k < List.length all)%nat -> In x req -> good x (value_at k x)) ->
  forall steps past s, all = (past ++ steps)%list -> inv req (fun _ => List.length past) s ->
  exists s', states_after (h5_class zero) req past steps (Ok s) = Ok s' /\ inv req (fun _ => List.length all) s'.
Proof.
  intros F G. induction steps as [|(t, out) steps IH]; intros past s E I; cbn [states_after].
  - exists s. split; [reflexivity|]. rewrite E, app_nil_r. exact I.
  - cbn [h5_class flush_after_write]. fold (@h5_class D zero). rewrite run_fold.
    assert (K : (List.length past < List.length all)%nat) by (rewrite E, app_length; cbn; lia).
    destruct (ser_all (List.length past) (latest (past ++ [(t, out)])%list)) with (l := req) (c := fun _ : string => List.length past) (s := s) as (s1 & R & I1); auto.
    + intros x X. rewrite F by exact X. f_equal. rewrite E. rewrite firstn_app, firstn_all2 by lia.
      replace (S (List.length past) - List.length past)%nat with 1%nat by lia. reflexivity.
    + intros x j X J. apply G; [lia|exact X].
    + intros x X. exact X.
    + unfold h5_value in *. rewrite R. apply IH; [rewrite <- app_assoc; exact E|]. eapply inv_ext; [|exact I1]. intros y Y. cbv beta.
      destruct (in_dec string_dec y req); [|contradiction]. rewrite app_length. cbn. lia.
Qed.
End Run.
