(** C134: the wave spectra stored in the HDF5 file. *)
From Coq Require Import ZArith List Bool Lia String Ascii Reals Lra.
From Verif Require Import Common Wave_Model Wave_Spec Wave_Flat_Proofs Wave_Surface_Props Geometry Froude_Model Froude_Spec Froude_Props.
From Verif Require Import Observer_Model Observer_Spec Observer_Proofs Hdf5_Model Hdf5_Spec Hdf5_Proofs Hdf5_File_Proofs Hdf5_Series_Proofs Hdf5_Spectra_Proofs.
Import ListNotations.
Open Scope string_scope.

(** SurfaceElevationFromWaves.cpp lines 147-154: the arrays handed over *)
Definition to_hs (f : flat R) : @hspectrum R := mkHS (f_omega f) (f_a f) (f_psi f) (f_k f) (f_phase f).

Section Jobs.
Definition dir : string := "/outputs/spectra//".
Definition at_ (i : nat) (v : string) : path := ["outputs"; "spectra"; index_text i; v].
Definition col (i : nat) (v : string) (l : list R) : @job R :=
  mkJob ((dir ++ index_text i ++ "/") ++ String slash v) (at_ i v) [List.length l; 1%nat] (map EDouble l).
Definition spectrum_jobs (i : nat) (s : @hspectrum R) : list (@job R) :=
  [col i "omega" (hs_omega s); col i "a" (hs_a s); col i "gamma" (hs_psi s); col i "k" (hs_k s); col i "phase" (hs_phase s)].
Fixpoint all_jobs (i : nat) (s : list (@hspectrum R)) : list (@job R) := match s with [] => [] | x :: s => (spectrum_jobs i x ++ all_jobs (i + 1) s)%list end.
(** The formula documented with the spectra: the one of the elevation of airy waves (C34). *)
Definition formula : string :=
  "eta(x,y,t)=-\sum_{i=1}^{nfreq}a_{i}\sin(k_i \cdot(x \cdot \cos(\gamma_i)+ y \cdot \sin(\gamma_i)) - \omega_i \cdot t + \phi_{i})".
Definition title : @job R := mkJob "/outputs/spectra//elevation" ["outputs"; "spectra"; "elevation"] [1%nat] [EText formula].

Lemma last_is_clean a x : clean x -> last_is slash (a ++ x) = false.
Proof.
  intros (N & H). unfold last_is. rewrite slength_app. assert (L : (0 < String.length x)%nat) by (destruct x; [congruence|cbn; lia]).
  replace (String.length a + String.length x - 1)%nat with (String.length x - 1 + String.length a)%nat by lia. rewrite <- append_correct2.
  clear - H. generalize (String.length x - 1)%nat. induction x as [|c x IH]; intros n; [destruct n; reflexivity|]. cbn [has_char] in H. apply orb_false_elim in H as (H1 & H2).
  destruct n as [|n]; [exact H1|apply IH, H2].
Qed.
Lemma ends_dir i : starts_and_ends_with slash (dir ++ index_text i) = dir ++ index_text i ++ "/".
Proof.
  assert (E : starts_and_ends_with slash (dir ++ index_text i) = if last_is slash (dir ++ index_text i) then dir ++ index_text i else (dir ++ index_text i) ++ "/") by reflexivity.
  rewrite E, last_is_clean by apply index_clean. rewrite sapp_assoc. reflexivity.
Qed.
Lemma write_columns (f : @file R) dn (s : @hspectrum R) p1 p2 p3 p4 p5 :
  (do f <- write_column 0%R f (dn ++ "/omega") (hs_omega s); do f <- write_column 0%R f (dn ++ "/a") (hs_a s); do f <- write_column 0%R f (dn ++ "/gamma") (hs_psi s);
   do f <- write_column 0%R f (dn ++ "/k") (hs_k s); write_column 0%R f (dn ++ "/phase") (hs_phase s)) =
  run_jobs 0%R f [mkJob (dn ++ String slash "omega") p1 [List.length (hs_omega s); 1%nat] (map EDouble (hs_omega s));
                  mkJob (dn ++ String slash "a") p2 [List.length (hs_a s); 1%nat] (map EDouble (hs_a s));
                  mkJob (dn ++ String slash "gamma") p3 [List.length (hs_psi s); 1%nat] (map EDouble (hs_psi s));
                  mkJob (dn ++ String slash "k") p4 [List.length (hs_k s); 1%nat] (map EDouble (hs_k s));
                  mkJob (dn ++ String slash "phase") p5 [List.length (hs_phase s); 1%nat] (map EDouble (hs_phase s))].
Proof.
  unfold write_column. cbn [run_jobs]. unfold run_job. cbn [j_name j_dims j_values].
  generalize (write_whole (0%R)). intros w. change (String slash "omega") with "/omega". change (String slash "a") with "/a". change (String slash "gamma") with "/gamma".
  change (String slash "k") with "/k". change (String slash "phase") with "/phase".
  destruct (w f _ _ _) as [g1| |]; cbn [bindO]; [|reflexivity|reflexivity].
  destruct (w g1 _ _ _) as [g2| |]; cbn [bindO]; [|reflexivity|reflexivity]. destruct (w g2 _ _ _) as [g3| |]; cbn [bindO]; [|reflexivity|reflexivity].
  destruct (w g3 _ _ _) as [g4| |]; cbn [bindO]; [|reflexivity|reflexivity]. destruct (w g4 _ _ _) as [g5| |]; reflexivity.
Qed.
Lemma write_spectrum_jobs f i s : write_spectrum 0%R f (dir ++ index_text i) s = run_jobs 0%R f (spectrum_jobs i s).
Proof. unfold write_spectrum. rewrite ends_dir. cbv zeta. apply write_columns. Qed.
Lemma write_spectra_from_jobs : forall s f i, write_spectra_from 0%R f "/outputs/spectra/" i s = run_jobs 0%R f (all_jobs i s).
Proof.
  induction s as [|x s IH]; intros f i; [reflexivity|]. cbn [write_spectra_from all_jobs]. rewrite run_jobs_app.
  change ("/outputs/spectra/" ++ "/" ++ index_text i) with (dir ++ index_text i). rewrite write_spectrum_jobs.
  destruct (run_jobs 0%R f (spectrum_jobs i x)); cbn [bindO]; auto.
Qed.
Lemma write_before_jobs f s : write_before_simulation 0%R f s = run_jobs 0%R f (title :: all_jobs 0 s).
Proof.
  unfold write_before_simulation, write_spectra. change (starts_and_ends_with slash "/outputs/spectra") with "/outputs/spectra/". cbv zeta.
  cbn [run_jobs].
  assert (E : forall n x, x <> "" -> write_text 0%R f n x = write_whole 0%R f n [1%nat] [EText x]) by (intros n [|]; [congruence|reflexivity]).
  rewrite E by discriminate. change ("/outputs/spectra/" ++ "/elevation") with "/outputs/spectra//elevation". unfold run_job, title. cbn [j_name j_dims j_values].
  generalize (write_whole 0%R f). intros w. destruct (w _ _ _); cbn [bindO]; auto. apply write_spectra_from_jobs.
Qed.
Lemma in_jobs : forall s i j, In j (all_jobs i s) -> exists k x, nth_error s k = Some x /\ In j (spectrum_jobs (i + k) x).
Proof.
  induction s as [|x s IH]; intros i j H; [contradiction|]. cbn [all_jobs] in H. apply in_app_or in H as [H|H].
  - exists 0%nat, x. rewrite Nat.add_0_r. auto.
  - destruct (IH _ _ H) as (k & y & A & B). exists (S k), y. split; [exact A|]. replace (i + S k)%nat with (i + 1 + k)%nat by lia. exact B.
Qed.
Lemma jobs_in : forall s i k x j, nth_error s k = Some x -> In j (spectrum_jobs (i + k) x) -> In j (all_jobs i s).
Proof.
  induction s as [|y s IH]; intros i k x j E H; [destruct k; discriminate|]. cbn [all_jobs]. apply in_or_app. destruct k as [|k].
  - injection E as ->. rewrite Nat.add_0_r in H. auto.
  - right. apply (IH (i + 1)%nat k x j E). replace (i + 1 + k)%nat with (i + S k)%nat by lia. exact H.
Qed.
Lemma col_in i x j : In j (spectrum_jobs i x) -> exists v l, j = col i v l /\ In v ["omega"; "a"; "gamma"; "k"; "phase"].
Proof. unfold spectrum_jobs. cbn [In]. intros [<-|[<-|[<-|[<-|[<-|[]]]]]]; do 2 eexists; (split; [reflexivity|cbn; auto 10]). Qed.
Lemma col_fine i v l : In v ["omega"; "a"; "gamma"; "k"; "phase"] -> fine (col i v l).
Proof.
  intros V. split.
  - assert (C : clean v) by (cbn [In] in V; destruct V as [<-|[<-|[<-|[<-|[<-|[]]]]]]; split; (discriminate || reflexivity)).
    cbn [col j_name j_path]. unfold at_, dir.
    replace (("/outputs/spectra//" ++ index_text i ++ "/") ++ String slash v) with ("/outputs/spectra//" ++ index_text i ++ "/" ++ String slash v) by (rewrite !sapp_assoc; reflexivity).
    change ("/outputs/spectra//" ++ index_text i ++ "/" ++ String slash v) with (String slash ("outputs" ++ String slash ("spectra" ++ String slash (String slash (index_text i ++ String slash (String slash v)))))).
    apply slashed_skip, slashed_item; [split; [discriminate|reflexivity]|]. apply slashed_item; [split; [discriminate|reflexivity]|].
    apply slashed_skip, slashed_item; [apply index_clean|]. apply slashed_skip, slashed_last, C.
  - cbn [col j_dims j_values]. unfold size. cbn [fold_left]. rewrite map_length. lia.
Qed.
Lemma apart4 a b c d e c' e' : (c <> c' \/ e <> e') -> apart [a; b; c; e] ([a; b; c'; e'] : path) /\ d = d :> nat.
Proof.
  intros N. split; [|reflexivity]. split; intros (r & E); cbn [app] in E; injection E; intros; destruct N; congruence.
Qed.
Lemma cols_apart i v l i' v' l' : (i <> i' \/ v <> v') -> apart (j_path (col i v l)) (j_path (col i' v' l')).
Proof.
  intros N. cbn [col j_path]. unfold at_. apply (apart4 _ _ _ 0%nat). destruct N as [N|N]; [left; intros E; apply index_inj in E; congruence|right; exact N].
Qed.
Lemma all_apart : forall s i, ForallOrdPairs (fun j j' => apart (j_path j') (j_path j)) (all_jobs i s).
Proof.
  induction s as [|x s IH]; intros i; [constructor|]. cbn [all_jobs].
  assert (LATER : forall v l, Forall (fun j' => apart (j_path j') (j_path (col i v l))) (all_jobs (i + 1) s)).
  { intros v l. apply Forall_forall. intros j J. apply in_jobs in J as (k & y & _ & J). apply col_in in J as (v' & l' & -> & _). apply cols_apart. left. lia. }
  unfold spectrum_jobs. cbn [app].
  repeat (apply FOP_cons; [repeat (apply Forall_cons; [apply cols_apart; right; discriminate|]); apply LATER|]). apply IH.
Qed.
End Jobs.

(** ** Specification: reading the file and evaluating the formula that it holds *)
(** Line [j] of a column *)
Definition cell_of (p : path) (j : nat) (f : @file R) : R :=
  match lookup p f with Some (Data _ _ cell) => match cell [j; 0%nat] with EDouble d => d | _ => 0%R end | _ => 0%R end.
Definition lines_of (p : path) (f : @file R) : nat := match lookup p f with Some (Data (n :: _) _ _) => n | _ => 0%nat end.
(** eta(x,y,t) = - sum of a_i sin(k_i (x cos(gamma_i) + y sin(gamma_i)) - omega_i t + phase_i), added over the [n] groups 00, 01... *)
Definition documented_elevation (f : @file R) (n : nat) (x y t : R) : R :=
  Wave_Spec.Rsum (map (fun i =>
    let at_i v j := cell_of ["outputs"; "spectra"; index_text i; v] j f in
    (- Wave_Spec.Rsum (map (fun j => at_i "a" j * sin (at_i "k" j * (x * cos (at_i "gamma" j) + y * sin (at_i "gamma" j)) - at_i "omega" j * t + at_i "phase" j))
                          (seq 0 (lines_of ["outputs"; "spectra"; index_text i; "a"] f))))%R) (seq 0 n)).

Lemma column_of i v (l : list R) (f : @file R) : holds 0%R (col i v l) f -> column (at_ i v) l f.
Proof.
  intros (m & c & L & V). exists m, c. split; [exact L|]. intros k d E. cbn [col j_dims j_values] in V.
  assert (K : (k < List.length l)%nat) by (apply nth_error_Some; congruence). specialize (V [k; 0%nat]). cbn [within rank_of] in V.
  destruct (Nat.ltb_spec k (List.length l)) as [_|]; [|lia]. change (Nat.ltb 0 1) with true in V. rewrite V by reflexivity.
  replace (((0 * List.length l + k) * 1 + 0))%nat with k by lia. change (nth k (map EDouble l) (EDouble 0%R) = EDouble d).
  apply nth_error_nth. rewrite nth_error_map, E. reflexivity.
Qed.
Lemma cell_column p l (f : @file R) j : column p l f -> (j < List.length l)%nat -> cell_of p j f = nth j l 0%R.
Proof.
  intros (m & c & L & V) J. unfold cell_of. rewrite L. rewrite (V j (nth j l 0%R)); [reflexivity|]. apply nth_error_nth'. exact J.
Qed.
Lemma lines_column p l (f : @file R) : column p l f -> lines_of p f = List.length l.
Proof. intros (m & c & L & _). unfold lines_of. rewrite L. reflexivity. Qed.

Lemma same_lists {A} : forall l l' : list A, (forall i, nth_error l i = nth_error l' i) -> l = l'.
Proof.
  induction l as [|a l IH]; intros [|b l'] H; [reflexivity|specialize (H 0%nat); discriminate|specialize (H 0%nat); discriminate|].
  f_equal; [specialize (H 0%nat); injection H as ->; reflexivity|apply IH; intros i; exact (H (S i))].
Qed.
Lemma Rsum_opp (l : list R) : Wave_Spec.Rsum (map Ropp l) = (- Wave_Spec.Rsum l)%R.
Proof. unfold Wave_Spec.Rsum. induction l as [|a l IH]; cbn [map fold_right]; [ring|]. rewrite IH. ring. Qed.
Theorem hdf5_spectra_give_the_elevation : forall fs (f0 : @file R), regular_sea (Waves fs) -> tree f0 ->
  (lookup ["outputs"] f0 = None \/ lookup ["outputs"] f0 = Some Group) -> lookup ["outputs"; "spectra"] f0 = None ->
  exists f, write_before_simulation 0%R f0 (map to_hs fs) = Ok f /\ tree f
    (* the arrays of each spectrum *)
    /\ (forall i s, nth_error fs i = Some s ->
          column ["outputs"; "spectra"; index_text i; "omega"] (f_omega s) f /\ column ["outputs"; "spectra"; index_text i; "a"] (f_a s) f /\
          column ["outputs"; "spectra"; index_text i; "gamma"] (f_psi s) f /\ column ["outputs"; "spectra"; index_text i; "k"] (f_k s) f /\
          column ["outputs"; "spectra"; index_text i; "phase"] (f_phase s) f)
    (* the formula, and its value, which is the elevation that the simulator uses *)
    /\ (exists m cell, lookup ["outputs"; "spectra"; "elevation"] f = Some (Data [1%nat] m cell) /\ cell [0%nat] =
          EText "eta(x,y,t)=-\sum_{i=1}^{nfreq}a_{i}\sin(k_i \cdot(x \cdot \cos(\gamma_i)+ y \cdot \sin(\gamma_i)) - \omega_i \cdot t + \phi_{i})")
    /\ (forall t l, sea_height (Waves fs) (map vx l) (map vy l) t = Ok (map (fun p => documented_elevation f (List.length fs) (vx p) (vy p) t) l))
    (* nothing else changes *)
    /\ (forall p n, lookup p f0 = Some n -> lookup p f = Some n)
    /\ (forall p n, lookup p f0 = None -> lookup p f = Some n -> p = ["outputs"] \/ prefix ["outputs"; "spectra"] p).
Proof.
  intros fs f0 RS T G0 S0. rewrite write_before_jobs.
  assert (BL : forall l', lookup ("outputs" :: "spectra" :: l') f0 = None).
  { intros l'. destruct (lookup ("outputs" :: "spectra" :: l') f0) as [n|] eqn:L; [|reflexivity]. destruct l' as [|y l']; [congruence|].
    change ("outputs" :: "spectra" :: y :: l') with (["outputs"; "spectra"] ++ y :: l')%list in L. apply tree_prefix in L; [congruence|exact T|discriminate|discriminate]. }
  assert (SH : forall j, In j (title :: all_jobs 0 (map to_hs fs)) -> exists l, j_path j = "outputs" :: "spectra" :: l).
  { intros j [<-|J]; [eexists; reflexivity|]. apply in_jobs in J as (k & y & _ & J). apply col_in in J as (v & l & -> & _). eexists. reflexivity. }
  destruct (jobs_ok 0%R (title :: all_jobs 0 (map to_hs fs)) f0 T) as (f & E & TF & H & (GP & GN)).
  - constructor.
    + split; [|reflexivity]. change (j_name title) with (String slash ("outputs" ++ String slash ("spectra" ++ String slash (String slash "elevation")))).
      apply slashed_skip, slashed_item; [split; [discriminate|reflexivity]|]. apply slashed_item; [split; [discriminate|reflexivity]|].
      apply slashed_skip, slashed_last. split; [discriminate|reflexivity].
    + apply Forall_forall. intros j J. apply in_jobs in J as (k & y & _ & J). apply col_in in J as (v & l & -> & V). apply col_fine, V.
  - apply FOP_cons; [|apply all_apart]. apply Forall_forall. intros j J. apply in_jobs in J as (k & y & _ & J). apply col_in in J as (v & l & -> & V).
    split; intros (r & E); cbn [app col j_path at_ title] in E; injection E; intros; eapply index_not_elevation; eauto.
  - intros j J. destruct (SH j J) as (l & ->). split; [apply BL|]. intros q r Eq Nq. destruct q as [|q0 q]; [congruence|]. injection Eq as <- Eq. destruct q as [|q1 q]; [exact G0|].
    injection Eq as <- _. left. apply BL.
  - exists f. split; [exact E|]. split; [exact TF|].
    assert (COL : forall i s, nth_error fs i = Some s -> forall v l, In (col i v l) (spectrum_jobs i (to_hs s)) -> column ["outputs"; "spectra"; index_text i; v] l f).
    { intros i s N v l I. apply column_of, H. right. apply (jobs_in _ 0%nat i (to_hs s)); [rewrite nth_error_map, N; reflexivity|exact I]. }
    assert (ALL : forall i s, nth_error fs i = Some s ->
      column ["outputs"; "spectra"; index_text i; "omega"] (f_omega s) f /\ column ["outputs"; "spectra"; index_text i; "a"] (f_a s) f /\
      column ["outputs"; "spectra"; index_text i; "gamma"] (f_psi s) f /\ column ["outputs"; "spectra"; index_text i; "k"] (f_k s) f /\
      column ["outputs"; "spectra"; index_text i; "phase"] (f_phase s) f).
    { intros i s N. repeat split; apply (COL i s N); unfold spectrum_jobs; cbn [In to_hs hs_omega hs_a hs_psi hs_k hs_phase]; auto 10. }
    split; [exact ALL|]. split.
    { destruct (H title (or_introl eq_refl)) as (m & c & L & V). exists m, c. split; [exact L|]. rewrite V by reflexivity. reflexivity. }
    split; [|split; [exact GP|]].
    2:{ intros p n L L'. destruct (GN p n L L') as (_ & q & Q & P). apply in_map_iff in Q as (j & <- & J). destruct (SH j J) as (l & Ej). rewrite Ej in P.
        destruct P as (r & P). destruct p as [|p0 p].
        - exfalso. destruct (TF [] n L'). congruence.
        - injection P as <- P. destruct p as [|p1 p]; [left; reflexivity|]. injection P as <- _. right. exists p. reflexivity. }
    intros t l. rewrite sea_height_ok by exact RS. f_equal. apply map_ext. intros p. unfold elevation, over_waves, documented_elevation. f_equal.
    cbn in RS. rewrite Forall_forall in RS.
    apply same_lists. intros i. rewrite !nth_error_map. destruct (nth_error fs i) as [s|] eqn:N.
    + assert (i < List.length fs)%nat as Hi by (apply nth_error_Some; congruence).
      rewrite (nth_error_nth' (seq 0 (List.length fs)) 0%nat) by (rewrite seq_length; exact Hi). rewrite seq_nth by exact Hi. cbn [option_map plus]. f_equal. cbv zeta.
      destruct (ALL i s N) as (C1 & C2 & C3 & C4 & C5). rewrite (lines_column _ _ _ C2).
      assert (A : airy s) by (apply RS; eapply nth_error_In; exact N).
      destruct (airy_flat s A) as (cs & pd & ps & -> & _). unfold Wave_Flat_Proofs.flat_of. cbn [f_psi f_a f_omega f_k f_phase] in *. rewrite !map_length.
      rewrite <- Rsum_opp, map_map. f_equal. apply map_ext_in. intros j J. apply in_seq in J. unfold weta, wangle, wave_at. cbn [wa ww wk wpsi wph f_a f_omega f_k f_psi f_phase].
      rewrite (cell_column _ _ _ _ C1), (cell_column _ _ _ _ C2), (cell_column _ _ _ _ C3), (cell_column _ _ _ _ C4), (cell_column _ _ _ _ C5) by (unfold Wave_Flat_Proofs.flat_of; cbn; rewrite map_length; lia).
      unfold Wave_Flat_Proofs.flat_of; cbn [f_a f_omega f_k f_psi f_phase]. apply f_equal, f_equal2; [reflexivity|]. apply f_equal. ring.
    + apply nth_error_None in N. symmetry. rewrite (proj2 (nth_error_None _ _)) by (rewrite seq_length; exact N). reflexivity.
Qed.
Print Assumptions hdf5_spectra_give_the_elevation.

(** Non-vacuity: two spectra of one wave each, in a new file *)
Example spectra_witness : exists f, write_before_simulation 0%R [] (map to_hs [one_wave (fun _ _ _ => 0%R) (fun _ _ _ => 0%R) 1%R; one_wave (fun _ _ _ => 0%R) (fun _ _ _ => 0%R) 2%R]) = Ok f
  /\ column ["outputs"; "spectra"; "01"; "phase"] [2%R] f.
Proof.
  destruct (hdf5_spectra_give_the_elevation [one_wave (fun _ _ _ => 0%R) (fun _ _ _ => 0%R) 1%R; one_wave (fun _ _ _ => 0%R) (fun _ _ _ => 0%R) 2%R] []) as (f & E & _ & C & _).
  - cbn. repeat constructor; apply one_wave_airy.
  - intros p n H. discriminate.
  - left. reflexivity.
  - reflexivity.
  - exists f. split; [exact E|]. exact (proj2 (proj2 (proj2 (proj2 (C 1%nat _ eq_refl))))).
Qed.
