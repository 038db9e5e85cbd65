(** C127-C129: the Froude-Krylov force. *)
From Coq Require Import Reals List Bool Arith Lra Lia.
From Verif Require Import Common Wave_Model Wave_Spec Wave_Proofs Wave_Flat_Proofs Wave_Airy_Proofs Wave_Surface_Props Geometry Force_Model Hull_Model Hull_Proofs Hull_Force_Props Blocked_Model Mesh_Model Mesh_Spec Mesh_Proofs Mesh_Props Cut_Proofs Triangle_Proofs Cut_Loop_Proofs Cut_Props
  Cut_Area_Props Closing_Model Closing_Graph_Proofs Floating_Proofs Memory_Proofs Frame_Model Frame_Props Froude_Model Froude_Spec.
Import ListNotations.
Open Scope R_scope.

(** ** The sea *)
Lemma over_flat : forall cs pd ps (q : wave -> R), Wave_Spec.Rsum (map (fun i => q (wave_at (flat_of cs pd ps) i)) (seq 0 (length (f_psi (flat_of cs pd ps))))) = Wave_Spec.Rsum (map (fun c => q (wave_of c)) cs).
Proof.
  intros cs pd ps q. unfold flat_of, wave_at. cbn [f_a f_omega f_k f_psi f_phase]. rewrite map_length. rewrite <- (map_seq_nth_f _ _ (fun c => q (wave_of c)) cs dcomp).
  f_equal. apply map_ext_in. intros i Hi. apply in_seq in Hi. f_equal. unfold wave_of.
  assert (N : forall (h : component R -> R), nth i (map h cs) 0 = h (nth i cs dcomp)) by (intros h; rewrite (nth_indep _ 0 (h dcomp)) by (rewrite map_length; lia); apply map_nth).
  rewrite !N. reflexivity.
Qed.
Lemma elv_over : forall f x y t, airy f -> elv f x y t = Wave_Spec.Rsum (map (fun i => weta (wave_at f i) x y t) (seq 0 (length (f_psi f)))).
Proof. intros f x y t H. destruct (airy_flat f H) as (cs & pd & ps & -> & _). unfold elv. rewrite elevation1_ok. symmetry. apply (over_flat cs pd ps (fun W => weta W x y t)). Qed.
Lemma sea_height_ok : forall s t (l : list vec3), regular_sea s -> sea_height s (map vx l) (map vy l) t = Ok (map (elevation s t) l).
Proof.
  intros [h|fs] t l H; unfold sea_height, elevation.
  - rewrite !map_length, Nat.eqb_refl. cbn [negb]. f_equal. induction l as [|a l IH]; [reflexivity|]. cbn. f_equal. exact IH.
  - rewrite wave_height_ok by (try rewrite !map_length; auto). f_equal.
    assert (C : combine (map vx l) (map vy l) = map (fun p => (vx p, vy p)) l) by (induction l; cbn; congruence). rewrite C, map_map. apply map_ext. intros p. cbn [fst snd].
    unfold over_waves. f_equal. apply map_ext_in. intros f Hf. apply elv_over. cbn in H. rewrite Forall_forall in H. exact (H f Hf).
Qed.
Lemma get_pressure_ok : forall f rho g t (A : Type) (l : list A) (P : A -> vec3) (E : A -> R), airy f ->
  get_dynamic_pressure f rho g (map (fun a => vx (P a)) l) (map (fun a => vy (P a)) l) (map (fun a => vz (P a)) l) (map E l) t = Ok (map (fun a => dynamic_pressure (Waves [f]) rho g t (P a) (E a)) l).
Proof.
  intros f rho g t A l P E H. destruct (airy_flat f H) as (cs & pd & ps & -> & _). unfold get_dynamic_pressure. rewrite !map_length, Nat.eqb_refl. cbn [negb orb].
  assert (C : combine (combine (combine (map (fun a => vx (P a)) l) (map (fun a => vy (P a)) l)) (map (fun a => vz (P a)) l)) (map E l) = map (fun a => (vx (P a), vy (P a), vz (P a), E a)) l) by (induction l; cbn; congruence).
  rewrite C. assert (M : forall (B : Type) (h : A -> B) (k : B -> outcome R) r, (forall a, In a l -> k (h a) = Ok (r a)) -> mapM k (map h l) = Ok (map r l)).
  { clear. intros B h k r. induction l as [|a l IH]; intros H; [reflexivity|]. cbn [map mapM]. rewrite (H a) by (left; reflexivity). cbn [bindO]. rewrite IH by (intros; apply H; right; assumption). reflexivity. }
  apply M. intros a _. cbn [fst snd]. unfold dynamic_pressure, over_waves. destruct (Rlt_dec (vz (P a)) (E a)) as [L|L]; [apply dynamic_pressure1_air; exact L|].
  rewrite dynamic_pressure1_ok by lra. f_equal. f_equal. cbn [map]. unfold Wave_Spec.Rsum at 2. cbn [fold_right]. rewrite Rplus_0_r. symmetry.
  apply (over_flat cs pd ps (fun W => Wave_Spec.wa W * pd (Wave_Spec.wk W) (vz (P a)) (E a) * sin (wangle W (vx (P a)) (vy (P a)) t))).
Qed.
Lemma pressure_cons : forall f fs rho g t p e, dynamic_pressure (Waves (f :: fs)) rho g t p e = dynamic_pressure (Waves [f]) rho g t p e + dynamic_pressure (Waves fs) rho g t p e.
Proof. intros. unfold dynamic_pressure. destruct (Rlt_dec _ _); [lra|]. unfold over_waves, Wave_Spec.Rsum. cbn [map fold_right]. ring. Qed.
Lemma sea_pressure_ok : forall s rho g t (A : Type) (l : list A) (P : A -> vec3) (E : A -> R), regular_sea s ->
  sea_pressure s rho g (map (fun a => vx (P a)) l) (map (fun a => vy (P a)) l) (map (fun a => vz (P a)) l) (map E l) t = Ok (map (fun a => dynamic_pressure s rho g t (P a) (E a)) l).
Proof.
  intros [h|fs] rho g t A l P E H; unfold sea_pressure.
  - f_equal. rewrite map_length. unfold dynamic_pressure. clear. induction l as [|a l IH]; [reflexivity|]. cbn. f_equal. exact IH.
  - unfold surface_dynamic_pressure. rewrite map_length, repeat_map. cbn in H.
    assert (G : forall acc : A -> R, pressure_loop fs rho g (map (fun a => vx (P a)) l) (map (fun a => vy (P a)) l) (map (fun a => vz (P a)) l) (map E l) t (map acc l) =
      Ok (map (fun a => acc a + dynamic_pressure (Waves fs) rho g t (P a) (E a)) l)).
    { induction H as [|f fs Hf Hfs IH]; intros acc; cbn [pressure_loop].
      - f_equal. apply map_ext. intros a. unfold dynamic_pressure, over_waves. cbn. destruct (Rlt_dec _ _); ring.
      - rewrite (get_pressure_ok f rho g t A l P E Hf). cbn [bindO]. rewrite (mapM_ok _ _ _ (fun i => nth i (map acc l) 0 + nth i (map (fun a => dynamic_pressure (Waves [f]) rho g t (P a) (E a)) l) 0)).
        2: { intros i Hi. apply in_seq in Hi. rewrite (at_ub_ok _ (map acc l) i 0), (at_throw_ok _ (map (fun a => dynamic_pressure (Waves [f]) rho g t (P a) (E a)) l) i 0) by (rewrite !map_length in *; lia). reflexivity. }
        cbn [bindO]. assert (EQ : map (fun i => nth i (map acc l) 0 + nth i (map (fun a => dynamic_pressure (Waves [f]) rho g t (P a) (E a)) l) 0) (seq 0 (length (map acc l))) =
            map (fun a => acc a + dynamic_pressure (Waves [f]) rho g t (P a) (E a)) l).
        { rewrite map_length. set (h := fun a => dynamic_pressure (Waves [f]) rho g t (P a) (E a)). change (fun a => acc a + dynamic_pressure (Waves [f]) rho g t (P a) (E a)) with (fun a => acc a + h a). clearbody h. clear.
          assert (K : forall pre : list A, map (fun i => nth i (map acc (pre ++ l)) 0 + nth i (map h (pre ++ l)) 0) (seq (length pre) (length l)) = map (fun a => acc a + h a) l).
          { induction l as [|a l IH]; intros pre; [reflexivity|]. cbn [length seq map]. f_equal.
            - rewrite !map_app. cbn [map]. rewrite !app_nth2, !map_length, Nat.sub_diag by (rewrite map_length; lia). reflexivity.
            - specialize (IH (pre ++ [a])). rewrite <- app_assoc, app_length in IH. cbn [app length] in IH. rewrite Nat.add_1_r in IH. exact IH. }
          exact (K []). }
        rewrite EQ, IH. f_equal. apply map_ext. intros a. rewrite (pressure_cons f fs). ring. }
    specialize (G (fun _ => 0)). etransitivity; [exact G|]. f_equal. apply map_ext. intros a. ring.
Qed.
Lemma heights_ok : forall s T t stored P, regular_sea s -> P <> [] ->
  heights s T t stored P = Ok (map (fun p => elevation s t (tapply T p)) P, map (fun p => vz (tapply T p) - elevation s t (tapply T p)) P).
Proof.
  intros s T t stored P H NP. unfold heights. destruct P as [|p0 P0] eqn:EP; [contradiction|]. rewrite <- EP in *. clear NP EP p0 P0. cbv zeta.
  rewrite sea_height_ok by exact H. cbn [bindO]. rewrite (mapM_ok _ _ _ (fun i => nth i (map (fun p => vz p - elevation s t p) (map (tapply T) P)) 0)).
  - cbn [bindO]. rewrite !map_map. f_equal. f_equal.
    assert (K : forall l : list R, map (fun i => nth i l 0) (seq 0 (length l)) = l).
    { clear. intros l. assert (K : forall pre : list R, map (fun i => nth i (pre ++ l) 0) (seq (length pre) (length l)) = l).
      { induction l as [|a l IH]; intros pre; [reflexivity|]. cbn [length seq map]. f_equal.
        - rewrite app_nth2, Nat.sub_diag by lia. reflexivity.
        - specialize (IH (pre ++ [a])). rewrite <- app_assoc, app_length in IH. cbn [app length] in IH. rewrite Nat.add_1_r in IH. exact IH. }
      exact (K []). }
    specialize (K (map (fun p => vz (tapply T p) - elevation s t (tapply T p)) P)). rewrite map_length in K. rewrite map_length. exact K.
  - intros i Hi. apply in_seq in Hi. rewrite map_length in Hi. rewrite (at_ub_ok _ _ i v0) by (rewrite map_length; lia). cbn [bindO].
    rewrite (at_throw_ok _ _ i 0) by (rewrite !map_length; lia). cbn [bindO]. f_equal.
    rewrite (nth_indep (map (elevation s t) _) 0 (elevation s t v0)) by (rewrite !map_length; lia). rewrite map_nth.
    rewrite (nth_indep _ 0 ((fun p => vz p - elevation s t p) v0)) by (rewrite !map_length; lia). rewrite (map_nth (fun p => vz p - elevation s t p)). reflexivity.
Qed.

(** ** The wet facets *)
Lemma wet_area : forall A B C x y z pi, 0 < area3 A B C -> ((x < 0 \/ y < 0 \/ z < 0) <-> (0 < x \/ 0 < y \/ 0 < z)) ->
  rotated (clip 1 [(A, x); (B, y); (C, z)]) pi -> 0 < area pi.
Proof.
  intros A B C x y z pi HA IFF.
  assert (PA : A = pt A B C (0, 0)) by apply bary_A. assert (PB : B = pt A B C (1, 0)) by apply bary_B. assert (PC : C = pt A B C (0, 1)) by apply bary_C.
  rewrite !clip3.
  destruct (Rtotal_order x 0) as [X|[X|X]], (Rtotal_order y 0) as [Y|[Y|Y]], (Rtotal_order z 0) as [Z|[Z|Z]]; try (exfalso; lra); clear IFF;
  repeat first [ rewrite keep_im by lra | rewrite drop_im by lra | rewrite xing_yes by lra | rewrite xing_no by lra ]; cbn [app];
  rewrite ?(bary_AB A B C), ?(bary_BC A B C), ?(bary_CA A B C);
  repeat match goal with |- context [?a / (?a - ?b)] => let k := fresh "k" in let H := fresh "HK" in
    assert (H : 0 < a / (a - b) < 1) by (apply ratio; lra); set (k := a / (a - b)) in *; clearbody k end;
  repeat match goal with |- context [bary A B C ?a ?b] => change (bary A B C a b) with (pt A B C (a, b)) end; intros R1;
  match type of R1 with
  | rotated [?a; ?b; ?c] ?l => eassert (N : _) by (eapply (three' A B C a b c l); [exact R1|first [exact PA | exact PB | exact PC | reflexivity]..|unfold turn; cbn [fst snd]; nra])
  | rotated [?a; ?b; ?c; ?d] ?l => eassert (N : _) by (eapply (four' A B C a b c d l); [exact R1|first [exact PA | exact PB | exact PC | reflexivity]|first [exact PA | exact PB | exact PC | reflexivity]|first [exact PA | exact PB | exact PC | reflexivity]|first [exact PA | exact PB | exact PC | reflexivity]|unfold turn; cbn [fst snd]; nra..]) end;
  destruct N as [-> _]; apply Rmult_lt_0_compat; try exact HA; unfold turn; cbn [fst snd]; nra.
Qed.
Lemma positive_centroid : forall pts, 0 < area pts -> exists c, centre_of_gravity pts = Some c.
Proof. intros pts H. rewrite centre_of_gravity_eq. destruct (Mesh_Proofs.Rltb_dec 0 (area pts)) as [[-> _]|[-> N]]; [eauto|lra]. Qed.

Lemma hull_facts : forall v m, triangle_mesh v -> hull_mesh v m -> well_formed m /\ m_nfacets m = length (m_facets m) /\
  Forall2 (fun pts f => has_points (static_nodes m) (mf_vertices f) pts) v (m_facets m) /\
  Forall2 (fun pts f => unit_normal pts = Ok (mf_normal f) /\ mf_area f = area pts /\ mf_centroid f = centre_of_gravity pts) v (m_facets m).
Proof.
  intros v m T H. assert (FV : filter (fun l => negb (length l =? 0)%nat) v = v).
  { clear - T. induction v as [|l v IH]; [reflexivity|]. cbn [filter]. destruct (T l (or_introl eq_refl)) as (A & B & C & -> & _). cbn. f_equal. apply IH. intros k Hk. apply T. right. exact Hk. }
  destruct H as [(check & B)|(rot & p & w & HR & C & ->)].
  - destruct (mesh_tables_are_faithful check v m B) as [TF TG _ _ _ _ _ _ _]. destruct (build_mesh_shape _ _ _ B) as (S1 & S2 & S3 & S4). rewrite FV in TF, TG.
    split; [exact (built_well_formed check v m T B)|]. auto.
  - destruct (body_mesh_is_the_moved_mesh rot p w HR) as (K & _). destruct (K m C) as (m' & B & ST & [TF TG _ _ _ _ _ _ _]). rewrite FV in TF, TG.
    pose proof (built_well_formed true _ m' T B) as WF. pose proof (same_table_static _ _ WF ST) as SS. destruct (build_mesh_shape _ _ _ B) as (S1 & S2 & S3 & S4).
    split; [apply (same_static_well_formed m'); assumption|]. destruct ST as (L1 & L2 & L3 & L4 & L5 & L6 & L7 & _). split; [rewrite L7, L2; exact S2|]. auto.
Qed.
Lemma nonempty_nodes : forall v m, triangle_mesh v -> v <> [] -> hull_mesh v m -> static_nodes m <> [].
Proof.
  intros v m T NV H. destruct (hull_facts v m T H) as (_ & _ & TF & _). destruct v as [|l v]; [contradiction|]. destruct (T l (or_introl eq_refl)) as (A & B & C & -> & _).
  inversion TF as [|? f ? fs HP HT E1 E2]; subst. intros E. unfold has_points in HP. rewrite E in HP. destruct (mf_vertices f) as [|a [|b l]]; cbn in HP; try discriminate HP. destruct a; discriminate HP.
Qed.
Lemma wet_facets : forall v m rel waves I, triangle_mesh v -> hull_mesh v m -> (forall l, In l v -> 0 < area l) -> surface_cut m rel waves I ->
  forall i, In i (i_immersed I) -> exists f, nth_error (m_facets (i_mesh I)) i = Some f /\ 0 < mf_area f /\ mf_vertices f <> [] /\ exists c, mf_centroid f = Some c.
Proof.
  intros v m rel waves I T HM PO SC i Hi. destruct (hull_facts v m T HM) as (WF & NF & TF & TG).
  destruct (sc_static _ _ _ _ SC) as [(A1 & A2 & A3) _ SN _ SF _]. destruct (sc_facets _ _ _ _ SC) as (ims & ems & N1 & N2 & EI & EE & CA). set (facets := m_facets (i_mesh I)) in *.
  assert (FS : forall f fc, nth_error (m_facets m) f = Some fc -> nth_error facets f = Some fc).
  { intros f fc Hf. assert (Lf : (f < m_nfacets m)%nat) by (rewrite NF; apply nth_error_Some; congruence).
    rewrite <- (nth_error_firstn facets _ _ Lf), SF, (nth_error_firstn _ _ _ Lf). exact Hf. }
  assert (ALL : m_all (i_mesh I) = static_nodes m ++ skipn (m_nnodes m) (m_all (i_mesh I))).
  { rewrite <- SN. unfold static_nodes. rewrite A1. symmetry. apply firstn_skipn. }
  rewrite EI in Hi. apply in_concat in Hi as (im & Him & Hi). apply In_nth_error in Him as (k & Hk).
  assert (Lk : (k < m_nfacets m)%nat) by (rewrite <- N1; apply nth_error_Some; congruence).
  destruct (nth_error ems k) as [em|] eqn:Ek; [|apply nth_error_None in Ek; lia]. destruct (nth_error (m_facets m) k) as [fc|] eqn:Ef; [|apply nth_error_None in Ef; lia].
  pose proof (CA k im em Hk Ek) as (fc' & pts & F' & HP & CC). rewrite (FS _ _ Ef) in F'. injection F' as <-. cbv zeta in CC.
  assert (exists l, nth_error v k = Some l) as (l & Hl).
  { destruct (nth_error v k) eqn:E; [eauto|]. apply nth_error_None in E. rewrite (Forall2_length' _ _ _ TF) in E. lia. }
  pose proof (Cut_Props.Forall2_nth_l _ _ _ _ _ _ TF Hl Ef) as HP0. destruct (Cut_Props.Forall2_nth_l _ _ _ _ _ _ TG Hl Ef) as (_ & HA & HC). cbv beta in HP0.
  apply (has_points_mono _ (skipn (m_nnodes m) (m_all (i_mesh I)))) in HP0. rewrite <- ALL in HP0. pose proof (has_points_fun _ _ _ _ HP HP0) as ->.
  pose proof (PO l (nth_error_In _ _ Hl)) as PL. destruct (T l (nth_error_In _ _ Hl)) as (A & B & C & -> & _).
  destruct CC as [(_ & _ & -> & _)|[(_ & _ & -> & _)|(AB & i' & e & fi & fe & pi & pe & -> & -> & Fi & Fe & Pi & Pe & Ri & Re & _ & _ & Ai & Ae & Ci & Ce)]].
  - destruct Hi as [<-|[]]. exists fc. split; [exact (FS _ _ Ef)|]. rewrite HA, HC. split; [exact PL|]. split; [|apply positive_centroid; exact PL]. intros E. unfold has_points in HP0. rewrite E in HP0. discriminate HP0.
  - destruct Hi.
  - destruct Hi as [<-|[]]. exists fi. split; [exact Fi|]. rewrite Ai, Ci.
    unfold has_points in HP0. destruct (mf_vertices fc) as [|a [|b [|c [|]]]]; try discriminate HP0. cbn [map combine] in Ri. cbn [In] in AB.
    assert (PI' : 0 < area pi).
    { apply (wet_area A B C (nth a rel 0) (nth b rel 0) (nth c rel 0)); [rewrite <- area_3; exact PL| |exact Ri]. split; intros H.
      - destruct (proj1 AB) as (j & [<-|[<-|[<-|[]]]] & Hj); auto. destruct H as [H|[H|H]]; [exists a|exists b|exists c]; auto.
      - destruct (proj2 AB) as (j & [<-|[<-|[<-|[]]]] & Hj); auto. destruct H as [H|[H|H]]; [exists a|exists b|exists c]; auto. }
    split; [exact PI'|]. split; [|apply positive_centroid; exact PI']. intros E. unfold has_points in Pi. rewrite E in Pi. destruct pi; [|discriminate Pi]. unfold area in PI'. cbn in PI'. lra.
Qed.

(** ** C127: the force *)
Lemma fold_Rsum : forall l a, fold_left Rplus l a = a + Wave_Spec.Rsum l.
Proof. unfold Wave_Spec.Rsum. induction l as [|x l IH]; intros a; cbn [fold_left fold_right]; [ring|]. rewrite IH. ring. Qed.
Lemma froude_krylov_ok : forall s rho g T t G I fs, regular_sea s -> Forall2 (fun i f => nth_error (m_facets (i_mesh I)) i = Some f) (i_immersed I) fs ->
  (forall f v, In f fs -> In v (mf_vertices f) -> (v < length (i_waves I))%nat) ->
  froude_krylov s rho g T t G I = Ok (if forallb has_centroid fs then Some (vscale (m_orientation (i_mesh I)) (vsum (map (facet_force s rho g t T I) fs)),
    vscale (m_orientation (i_mesh I)) (vsum (map (fun f => cross (vsub (centroid_or_zero f) G) (facet_force s rho g t T I f)) fs))) else None).
Proof.
  intros s rho g T t G I fs HS HF HV. unfold froude_krylov.
  assert (E1 : facets_at I (i_immersed I) = Ok fs).
  { unfold facets_at. clear - HF. induction HF as [|i f is fs E H IH]; [reflexivity|]. cbn [mapO_list]. unfold at_throw at 1. rewrite E. cbn [bindO]. rewrite IH. reflexivity. }
  rewrite E1. cbn [bindO]. rewrite (mapO_ok _ (mean_elevation I)).
  2:{ intros f Hf. unfold facet_eta. rewrite (mapO_ok _ (fun v => nth v (i_waves I) 0)) by (intros v Hv; rewrite (at_throw_ok _ _ v 0) by (exact (HV f v Hf Hv)); reflexivity).
      cbn [bindO]. f_equal. rewrite fold_Rsum, Rplus_0_l. unfold mean_elevation. destruct (mf_vertices f); [cbn; unfold Rdiv; ring|reflexivity]. }
  cbn [bindO]. cbv zeta. rewrite !map_map.
  rewrite (sea_pressure_ok s rho g t mfacet fs (fun f => tapply T (centroid_or_zero f)) (mean_elevation I) HS). cbn [bindO].
  set (P := fun f => dynamic_pressure s rho g t (tapply T (centroid_or_zero f)) (mean_elevation I f)).
  assert (E2 : mapO_list (fun i => do f <- at_throw fs i; do p <- at_throw (map P fs) i; Ok (froude_krylov_dF f p)) (seq 0 (length fs)) = Ok (map (fun f => froude_krylov_dF f (P f)) fs)).
  { assert (K : forall l pre, mapO_list (fun i => do f <- at_throw (pre ++ l) i; do p <- at_throw (map P (pre ++ l)) i; Ok (froude_krylov_dF f p)) (seq (length pre) (length l)) = Ok (map (fun f => froude_krylov_dF f (P f)) l)).
    { clear. induction l as [|f l IH]; intros pre; [reflexivity|]. cbn [length seq mapO_list map]. unfold at_throw at 1. rewrite nth_error_app2, Nat.sub_diag by lia. cbn [nth_error bindO].
      unfold at_throw at 1. rewrite nth_error_map, nth_error_app2, Nat.sub_diag by lia. cbn [nth_error option_map bindO].
      specialize (IH (pre ++ [f])). rewrite <- app_assoc, app_length in IH. cbn [app length] in IH. rewrite Nat.add_1_r in IH. rewrite IH. reflexivity. }
    exact (K fs []). }
  rewrite E2. cbn [bindO]. destruct (forallb has_centroid fs); [|reflexivity]. rewrite surface_force_is_resultant, !map_map. f_equal. f_equal.
  assert (FF : forall f, vscale (- P f) (vscale (mf_area f) (mf_normal f)) = facet_force s rho g t T I f).
  { intros f. unfold facet_force. fold (P f). generalize (P f) (mf_area f) (mf_normal f). intros. apply vec_eq; vec; ring. }
  f_equal; f_equal; f_equal; apply map_ext; intros f; cbn [froude_krylov_dF fst snd]; rewrite FF; reflexivity.
Qed.
Lemma immersed_facets : forall m rel waves I, surface_cut m rel waves I -> forall v, triangle_mesh v -> hull_mesh v m -> (forall l, In l v -> 0 < area l) ->
  exists fs, Forall2 (fun i f => nth_error (m_facets (i_mesh I)) i = Some f) (i_immersed I) fs /\ (forall f, In f fs -> 0 < mf_area f /\ mf_vertices f <> [] /\ exists c, mf_centroid f = Some c).
Proof.
  intros m rel waves I SC v T HM PO. pose proof (wet_facets v m rel waves I T HM PO SC) as W. revert W. generalize (i_immersed I). induction l as [|i l IH]; intros W.
  - exists []. split; [apply Forall2_nil|intros f []].
  - destruct (W i (or_introl eq_refl)) as (f & E & H). destruct IH as (fs & F & K); [intros j Hj; apply W; right; exact Hj|]. exists (f :: fs). split; [apply Forall2_cons; assumption|].
    intros f' [<-|Hf]; auto.
Qed.
(** Whatever the hull (triangles that are not degenerate), its position, the sea state and the previous updates and queries: the update succeeds, the hull is cut by the surface
    whose elevations are those of the sea at the nodes, and the force is minus the sum over the wet facets of the dynamic pressure at the centroid times the area along the normal,
    the torque is about G. *)
Theorem froude_krylov_is_the_pressure_resultant : forall v m I s T rho g G t stored, triangle_mesh v -> v <> [] -> (forall l, In l v -> 0 < area l) -> hull_mesh v m -> used m I -> regular_sea s ->
  exists I' fs, immerse s T t stored I = Ok I' /\
    surface_cut m (map (fun p => vz (tapply T p) - elevation s t (tapply T p)) (static_nodes m)) (map (fun p => elevation s t (tapply T p)) (static_nodes m)) I' /\
    Forall2 (fun i f => nth_error (m_facets (i_mesh I')) i = Some f) (i_immersed I') fs /\
    (forall f, In f fs -> 0 < mf_area f /\ mf_centroid f = Some (centroid_or_zero f)) /\
    froude_krylov s rho g T t G I' = Ok (Some (vscale (m_orientation m) (vsum (map (facet_force s rho g t T I') fs)),
      vscale (m_orientation m) (vsum (map (fun f => cross (vsub (centroid_or_zero f) G) (facet_force s rho g t T I' f)) fs)))).
Proof.
  intros v m I s T rho g G t stored TM NV PO HM U HS. destruct (hull_facts v m TM HM) as (WF & NF & TF & TG). pose proof (used_static _ _ WF U) as SS.
  pose proof (nonempty_nodes v m TM NV HM) as NN. unfold immerse. rewrite (ss_nodes _ _ SS), (heights_ok s T t stored _ HS NN). cbn [bindO fst snd].
  assert (LN : length (static_nodes m) = m_nnodes m) by (unfold static_nodes; rewrite firstn_length; pose proof (wf_all _ WF); lia).
  set (rel := map (fun p => vz (tapply T p) - elevation s t (tapply T p)) (static_nodes m)). set (waves := map (fun p => elevation s t (tapply T p)) (static_nodes m)).
  assert (LR : length rel = m_nnodes m) by (unfold rel; rewrite map_length; exact LN). assert (LW : length waves = m_nnodes m) by (unfold waves; rewrite map_length; exact LN).
  destruct (cut_used m I rel waves WF SS LR LW) as (I' & EU & SC). destruct (immersed_facets m rel waves I' SC v TM HM PO) as (fs & F & K).
  destruct (cut_is_memoryless_general m m I I rel waves WF (same_static_refl _ WF) U U LR LW) as (I1 & I2 & E1 & E2 & SM). rewrite EU in E1, E2. injection E1 as <-. injection E2 as <-.
  exists I', fs. split; [exact EU|]. split; [exact SC|]. split; [exact F|]. split.
  { intros f Hf. destruct (K f Hf) as (K1 & _ & c & K2). split; [exact K1|]. unfold centroid_or_zero. rewrite K2. reflexivity. }
  destruct (ss_tables _ _ (sc_static _ _ _ _ SC)) as (_ & _ & OR). rewrite <- OR. rewrite (froude_krylov_ok s rho g T t G I' fs HS F).
  - replace (forallb has_centroid fs) with true; [reflexivity|]. symmetry. apply forallb_forall. intros f Hf. destruct (K f Hf) as (_ & _ & c & K2). unfold has_centroid. rewrite K2. reflexivity.
  - intros f u Hf Hu. destruct (sm_heights _ _ SM) as (_ & _ & _ & _ & LE). rewrite LE. apply (sm_vertices _ _ SM f u); [|exact Hu].
    clear - F Hf. induction F as [|i f' is fs E F IH]; [destruct Hf|]. destruct Hf as [<-|Hf]; [apply nth_error_In in E; exact E|apply IH; exact Hf].
Qed.
Print Assumptions froude_krylov_is_the_pressure_resultant.

(** Without waves there is no force (and the hull is cut by the plane of the calm sea). *)
Theorem froude_krylov_without_waves : forall v m I h T rho g G t stored, triangle_mesh v -> v <> [] -> (forall l, In l v -> 0 < area l) -> hull_mesh v m -> used m I ->
  exists I', immerse (Calm h) T t stored I = Ok I' /\ froude_krylov (Calm h) rho g T t G I' = Ok (Some (v0, v0)).
Proof.
  intros v m I h T rho g G t stored TM NV PO HM U. destruct (froude_krylov_is_the_pressure_resultant v m I (Calm h) T rho g G t stored TM NV PO HM U Logic.I) as (I' & fs & E & _ & _ & _ & F).
  exists I'. split; [exact E|]. rewrite F. f_equal. f_equal. unfold facet_force. cbn [dynamic_pressure].
  assert (Z : forall (h : mfacet -> vec3), (forall f, h f = v0) -> vscale (m_orientation m) (vsum (map h fs)) = v0).
  { clear. intros h H. replace (vsum (map h fs)) with v0; [apply vec_eq; vec; ring|]. symmetry. unfold vsum. induction fs as [|f fs IH]; [reflexivity|]. cbn [map fold_right]. rewrite IH, H. apply vec_eq; vec; ring. }
  f_equal; apply Z; intros f; apply vec_eq; vec; ring.
Qed.
Print Assumptions froude_krylov_without_waves.
(** A hull entirely above the surface is not pushed. *)
Theorem froude_krylov_in_the_air : forall v m I s T rho g G t stored, triangle_mesh v -> v <> [] -> (forall l, In l v -> 0 < area l) -> hull_mesh v m -> used m I -> regular_sea s ->
  (forall p, In p (static_nodes m) -> vz (tapply T p) < elevation s t (tapply T p)) ->
  exists I', immerse s T t stored I = Ok I' /\ froude_krylov s rho g T t G I' = Ok (Some (v0, v0)).
Proof.
  intros v m I s T rho g G t stored TM NV PO HM U HS AIR. destruct (froude_krylov_is_the_pressure_resultant v m I s T rho g G t stored TM NV PO HM U HS) as (I' & fs & E & SC & F2 & _ & F).
  exists I'. split; [exact E|]. destruct (hull_facts v m TM HM) as (WF & NF & TF & TG). assert (EM : i_immersed I' = []).
  { destruct (sc_facets _ _ _ _ SC) as (ims & ems & N1 & N2 & EI & EE & CA). rewrite EI. assert (A : forall im, In im ims -> im = []).
    { intros im Him. apply In_nth_error in Him as (k & Hk). assert (Lk : (k < m_nfacets m)%nat) by (rewrite <- N1; apply nth_error_Some; congruence).
      destruct (nth_error ems k) as [em|] eqn:Ek; [|apply nth_error_None in Ek; lia]. destruct (CA k im em Hk Ek) as (fc & pts & Fc & HP & CC). cbv zeta in CC.
      destruct (sc_static _ _ _ _ SC) as [(A1 & A2 & A3) _ SN _ SF _]. assert (In fc (firstn (m_nfacets m) (m_facets m))) as Hin.
      { rewrite <- SF. apply (nth_error_In _ k). rewrite nth_error_firstn by exact Lk. exact Fc. }
      assert (AB : forall i, In i (mf_vertices fc) -> nth i (map (fun p => vz (tapply T p) - elevation s t (tapply T p)) (static_nodes m)) 0 < 0).
      { intros i Hi. pose proof (static_vertices m WF fc i Hin Hi) as Li. assert (LN : length (static_nodes m) = m_nnodes m) by (unfold static_nodes; rewrite firstn_length; pose proof (wf_all _ WF); lia).
        rewrite (nth_indep _ 0 ((fun p => vz (tapply T p) - elevation s t (tapply T p)) v0)) by (rewrite map_length; lia). rewrite (map_nth (fun p => vz (tapply T p) - elevation s t (tapply T p))).
        assert (In (nth i (static_nodes m) v0) (static_nodes m)) by (apply nth_In; lia). specialize (AIR _ H). lra. }
      destruct CC as [((i & Hi & Z) & _)|[(_ & _ & -> & _)|(IFF & _)]]; [specialize (AB i Hi); lra|reflexivity|].
      destruct (mf_vertices fc) as [|a l] eqn:EV.
      - destruct (hull_facts v m TM HM) as (_ & _ & TF' & _). rewrite NF, firstn_all in Hin. apply In_nth_error in Hin as (j & Hj).
        destruct (nth_error v j) as [l|] eqn:El; [|apply nth_error_None in El; rewrite (Forall2_length' _ _ _ TF) in El; assert (j < length (m_facets m))%nat by (apply nth_error_Some; congruence); lia].
        pose proof (Cut_Props.Forall2_nth_l _ _ _ _ _ _ TF El Hj) as HP'. cbv beta in HP'. rewrite EV in HP'. destruct (TM l (nth_error_In _ _ El)) as (A & B & C & -> & _). discriminate HP'.
      - destruct (proj1 IFF) as (i & Hi & Z); [exists a; split; [left; reflexivity|apply AB; left; reflexivity]|]. specialize (AB i Hi). lra. }
    clear - A. induction ims as [|im ims IH]; [reflexivity|]. cbn [concat]. rewrite (A im (or_introl eq_refl)), IH; [reflexivity|]. intros. apply A. right. assumption. }
  rewrite EM in F2. inversion F2; subst. rewrite F. cbn. f_equal. f_equal. f_equal; apply vec_eq; vec; ring.
Qed.
Print Assumptions froude_krylov_in_the_air.

(** ** C128: the force depends on the hull, its position and the sea only *)
Lemma same_facets : forall I fs gs, Forall2 (fun i f => nth_error (m_facets (i_mesh I)) i = Some f) (i_immersed I) fs -> Forall2 (fun i f => nth_error (m_facets (i_mesh I)) i = Some f) (i_immersed I) gs -> fs = gs.
Proof. intros I. generalize (i_immersed I). induction l as [|i l IH]; intros fs gs F G; inversion F; inversion G; subst; [reflexivity|]. f_equal; [congruence|]. apply IH; assumption. Qed.
Lemma froude_krylov_general : forall v m I J s s' T rho g G t t' stored stored', triangle_mesh v -> v <> [] -> (forall l, In l v -> 0 < area l) -> hull_mesh v m -> used m I -> used m J ->
  regular_sea s -> regular_sea s' -> (forall p, elevation s' t' p = elevation s t p) -> (forall p e, dynamic_pressure s' rho g t' p e = dynamic_pressure s rho g t p e) ->
  exists I' J' F, immerse s T t stored I = Ok I' /\ immerse s' T t' stored' J = Ok J' /\ froude_krylov s rho g T t G I' = Ok (Some F) /\ froude_krylov s' rho g T t' G J' = Ok (Some F).
Proof.
  intros v m I J s s' T rho g G t t' stored stored' TM NV PO HM UI UJ HS HS' EQE EQP. destruct (hull_facts v m TM HM) as (WF & NF & TF & TG). pose proof (nonempty_nodes v m TM NV HM) as NN.
  destruct (froude_krylov_is_the_pressure_resultant v m I s T rho g G t stored TM NV PO HM UI HS) as (I' & fs & EI & _ & FI & _ & RI).
  destruct (froude_krylov_is_the_pressure_resultant v m J s' T rho g G t' stored' TM NV PO HM UJ HS') as (J' & gs & EJ & _ & FJ & _ & RJ).
  exists I', J'. eexists. split; [exact EI|]. split; [exact EJ|]. split; [exact RI|]. rewrite RJ.
  pose proof (used_static _ _ WF UI) as SI. pose proof (used_static _ _ WF UJ) as SJ.
  unfold immerse in EI, EJ. rewrite (ss_nodes _ _ SI), (heights_ok s T t stored _ HS NN) in EI. rewrite (ss_nodes _ _ SJ), (heights_ok s' T t' stored' _ HS' NN) in EJ. cbn [bindO fst snd] in EI, EJ.
  assert (LN : length (static_nodes m) = m_nnodes m) by (unfold static_nodes; rewrite firstn_length; pose proof (wf_all _ WF); lia).
  rewrite (map_ext _ (fun p => vz (tapply T p) - elevation s t (tapply T p))) in EJ by (intros; rewrite EQE; reflexivity). rewrite (map_ext (fun p => elevation s' t' (tapply T p)) (fun p => elevation s t (tapply T p))) in EJ by (intros; apply EQE).
  destruct (cut_is_memoryless_general m m I J (map (fun p => vz (tapply T p) - elevation s t (tapply T p)) (static_nodes m)) (map (fun p => elevation s t (tapply T p)) (static_nodes m)) WF (same_static_refl _ WF) UI UJ) as (I1 & J1 & E1 & E2 & SM); [rewrite map_length; exact LN..|].
  rewrite EI in E1. rewrite EJ in E2. injection E1 as <-. injection E2 as <-.
  destruct (sm_parts _ _ SM) as (P1 & _). destruct (sm_heights _ _ SM) as (_ & P2 & _). rewrite P1, (sm_facets _ _ SM) in FJ. pose proof (same_facets _ _ _ FI FJ) as <-.
  assert (FF : forall f, facet_force s' rho g t' T J' f = facet_force s rho g t T I' f) by (intros f; unfold facet_force, mean_elevation; rewrite P2, EQP; reflexivity).
  rewrite (map_ext _ _ FF). f_equal. f_equal. f_equal. f_equal. f_equal. apply map_ext. intros f. rewrite FF. reflexivity.
Qed.
Theorem froude_krylov_is_memoryless : forall v m I J s T rho g G t stored stored', triangle_mesh v -> v <> [] -> (forall l, In l v -> 0 < area l) -> hull_mesh v m -> used m I -> used m J -> regular_sea s ->
  exists I' J' F, immerse s T t stored I = Ok I' /\ immerse s T t stored' J = Ok J' /\ froude_krylov s rho g T t G I' = Ok (Some F) /\ froude_krylov s rho g T t G J' = Ok (Some F).
Proof. intros. eapply (froude_krylov_general v m); eauto. Qed.
Print Assumptions froude_krylov_is_memoryless.
(** A hull held at the same place in waves that all have the angular frequency [w] feels the same force after one period. *)
Theorem froude_krylov_is_periodic : forall v m I J fs w T rho g G t stored stored', triangle_mesh v -> v <> [] -> (forall l, In l v -> 0 < area l) -> hull_mesh v m -> used m I -> used m J -> regular_sea (Waves fs) ->
  w <> 0 -> (forall f w', In f fs -> In w' (f_omega f) -> w' = w) ->
  exists I' J' F, immerse (Waves fs) T t stored I = Ok I' /\ immerse (Waves fs) T (t + 2 * PI / w) stored' J = Ok J' /\
    froude_krylov (Waves fs) rho g T t G I' = Ok (Some F) /\ froude_krylov (Waves fs) rho g T (t + 2 * PI / w) G J' = Ok (Some F).
Proof.
  intros v m I J fs w T rho g G t stored stored' TM NV PO HM UI UJ HS NW HW.
  assert (SIN : forall f i x y, In f fs -> (i < length (f_psi f))%nat -> sin (wangle (wave_at f i) x y (t + 2 * PI / w)) = sin (wangle (wave_at f i) x y t)).
  { intros f i x y Hf Hi. cbn in HS. rewrite Forall_forall in HS. destruct (airy_flat f (HS f Hf)) as (cs & pd & ps & -> & _). unfold flat_of in Hi. cbn [f_psi] in Hi. rewrite map_length in Hi.
    assert (E : ww (wave_at (flat_of cs pd ps) i) = w). { apply (HW _ _ Hf). unfold wave_at. cbn [ww]. apply nth_In. unfold flat_of. cbn [f_omega]. rewrite map_length. exact Hi. }
    unfold wangle. rewrite E. replace (- (w * (t + 2 * PI / w))) with (- (w * t) - 2 * PI) by (field; exact NW).
    generalize (Wave_Spec.wk (wave_at (flat_of cs pd ps) i) * (x * cos (wpsi (wave_at (flat_of cs pd ps) i)) + y * sin (wpsi (wave_at (flat_of cs pd ps) i)))) (wph (wave_at (flat_of cs pd ps) i)). intros a b.
    replace (- (w * t) + a + b) with ((- (w * t) - 2 * PI + a + b) + 2 * INR 1 * PI) by (cbn; ring). symmetry. apply sin_period. }
  apply (froude_krylov_general v m); auto.
  - intros p. unfold elevation, over_waves. f_equal. apply map_ext_in. intros f Hf. f_equal. apply map_ext_in. intros i Hi. apply in_seq in Hi. unfold weta. rewrite SIN by (auto; lia). reflexivity.
  - intros p e. unfold dynamic_pressure. destruct (Rlt_dec _ _); [reflexivity|]. f_equal. unfold over_waves. f_equal. apply map_ext_in. intros f Hf. f_equal. apply map_ext_in. intros i Hi. apply in_seq in Hi. rewrite SIN by (auto; lia). reflexivity.
Qed.
Print Assumptions froude_krylov_is_periodic.
(** The queries about the volumes that the other models make between the update and the force do not change it. *)
Lemma add_lid_keeps : forall es I gp I', add_lid es I gp = Ok I' -> i_immersed I' = i_immersed I /\ i_waves I' = i_waves I /\ m_orientation (i_mesh I') = m_orientation (i_mesh I) /\ exists l, m_facets (i_mesh I') = m_facets (i_mesh I) ++ l.
Proof.
  intros es I gp I' H. unfold add_lid in H. destruct (make_computer _ es gp) as [c| |]; try discriminate H. cbn [bindO] in H. destruct (find_contour c) as [k| |]; try discriminate H. cbn [bindO] in H.
  destruct k as [|er k]; [injection H as <-; repeat split; exists []; rewrite app_nil_r; reflexivity|]. set (os := map _ (er :: k)) in H. clearbody os.
  unfold create_facet_from_edges in H. destruct (vertex_list _ os []) as [[vs n]| |]; try discriminate H. cbn [bindO] in H. destruct (firstn n vs) as [|u us]; [discriminate H|].
  destruct (mapO_list (at_ub (m_all (i_mesh I))) (u :: us)) as [pts| |]; try discriminate H. cbn [bindO] in H. injection H as <-. cbn. repeat split. eexists. reflexivity.
Qed.
Lemma closing_keeps : forall I I', update_closing I = Ok I' -> i_immersed I' = i_immersed I /\ i_waves I' = i_waves I /\ m_orientation (i_mesh I') = m_orientation (i_mesh I) /\ exists l, m_facets (i_mesh I') = m_facets (i_mesh I) ++ l.
Proof.
  intros I I' H. assert (Z : i_immersed I = i_immersed I /\ i_waves I = i_waves I /\ m_orientation (i_mesh I) = m_orientation (i_mesh I) /\ exists l, m_facets (i_mesh I) = m_facets (i_mesh I) ++ l) by (repeat split; exists []; rewrite app_nil_r; reflexivity).
  unfold update_closing in H. destruct (i_closing I); [|injection H as <-; exact Z].
  unfold build_closing_edge in H. destruct (i_on I) as [|i0 is]; [injection H as <-; exact Z|]. clear Z.
  destruct (group_connected_edges _ _) as [gs| |]; try discriminate H. cbn [bindO] in H. destruct (foldO _ gs I) as [J| |] eqn:E; try discriminate H. cbn [bindO] in H. injection H as <-. cbn [i_mesh i_immersed i_waves].
  set (es := m_edges (i_mesh I)) in E. clearbody es. revert I E. induction gs as [|gp gs IH]; intros I E; cbn [foldO] in E; [injection E as <-; repeat split; exists []; rewrite app_nil_r; reflexivity|].
  destruct (add_lid es I gp) as [K| |] eqn:EK; try discriminate E. cbn [bindO] in E. destruct (add_lid_keeps _ _ _ _ EK) as (A1 & A2 & A3 & l & A4). destruct (IH K E) as (B1 & B2 & B3 & k & B4).
  rewrite B1, B2, B3, B4, A1, A2, A3, A4. repeat split. exists (l ++ k). symmetry. apply app_assoc.
Qed.
Theorem froude_krylov_unaffected_by_queries : forall part lid I I' s rho g T t G F, (exists V, closed_volume part lid I = Ok (I', V)) \/ (exists r, center_of_mass_of part lid I = Ok (I', r)) ->
  froude_krylov s rho g T t G I = Ok F -> froude_krylov s rho g T t G I' = Ok F.
Proof.
  intros part lid I I' s rho g T t G F H E. assert (U : update_closing I = Ok I') by (destruct H as [(V & H)|(r & H)]; [apply closed_volume_state in H|apply center_state in H]; exact H).
  destruct (closing_keeps I I' U) as (A1 & A2 & A3 & l & A4). unfold froude_krylov in *. destruct (facets_at I (i_immersed I)) as [fs| |] eqn:EF; try discriminate E.
  assert (EF' : facets_at I' (i_immersed I') = Ok fs).
  { unfold facets_at in *. rewrite A1, A4. clear - EF. revert fs EF. generalize (i_immersed I). induction l0 as [|i is IH]; intros fs EF; [exact EF|]. cbn [mapO_list] in *.
    unfold at_throw at 1. unfold at_throw at 1 in EF. destruct (nth_error (m_facets (i_mesh I)) i) as [f|] eqn:Ei; [|discriminate EF]. rewrite (nth_error_mono _ _ _ _ Ei). cbn [bindO] in *.
    destruct (mapO_list _ is) as [fs'| |] eqn:E'; try discriminate EF. cbn [bindO] in EF. rewrite (IH _ eq_refl). exact EF. }
  rewrite EF'. cbn [bindO] in *. rewrite A3. unfold facet_eta in *. rewrite A2. exact E.
Qed.
Print Assumptions froude_krylov_unaffected_by_queries.

(** ** C129: degenerate triangles *)
(** With a degenerate triangle under the surface the force is not a number, even without waves: the centroid of that facet is NaN. *)
Theorem froude_krylov_of_degenerate_triangle : forall v m I s T rho g G t stored l, triangle_mesh v -> hull_mesh v m -> used m I -> regular_sea s ->
  In l v -> area l = 0 -> (forall p, In p l -> elevation s t (tapply T p) < vz (tapply T p)) ->
  exists I', immerse s T t stored I = Ok I' /\ froude_krylov s rho g T t G I' = Ok None.
Proof.
  intros v m I s T rho g G t stored l TM HM U HS Hl ZA WET. assert (NV : v <> []) by (intros ->; destruct Hl).
  destruct (hull_facts v m TM HM) as (WF & NF & TF & TG). pose proof (used_static _ _ WF U) as SS. pose proof (nonempty_nodes v m TM NV HM) as NN.
  unfold immerse. rewrite (ss_nodes _ _ SS), (heights_ok s T t stored _ HS NN). cbn [bindO fst snd].
  assert (LN : length (static_nodes m) = m_nnodes m) by (unfold static_nodes; rewrite firstn_length; pose proof (wf_all _ WF); lia).
  set (rel := map (fun p => vz (tapply T p) - elevation s t (tapply T p)) (static_nodes m)). set (waves := map (fun p => elevation s t (tapply T p)) (static_nodes m)).
  assert (LR : length rel = m_nnodes m) by (unfold rel; rewrite map_length; exact LN). assert (LW : length waves = m_nnodes m) by (unfold waves; rewrite map_length; exact LN).
  destruct (cut_used m I rel waves WF SS LR LW) as (I' & EU & SC). exists I'. split; [exact EU|].
  destruct (cut_is_memoryless_general m m I I rel waves WF (same_static_refl _ WF) U U LR LW) as (I1 & I2 & E1 & E2 & SM). rewrite EU in E1, E2. injection E1 as <-. injection E2 as <-.
  destruct (sc_static _ _ _ _ SC) as [(A1 & A2 & A3) _ SN _ SF _]. destruct (sc_facets _ _ _ _ SC) as (ims & ems & N1 & N2 & EI & EE & CA). set (facets := m_facets (i_mesh I')) in *.
  assert (FS : forall f fc, nth_error (m_facets m) f = Some fc -> nth_error facets f = Some fc).
  { intros f fc Hf. assert (Lf : (f < m_nfacets m)%nat) by (rewrite NF; apply nth_error_Some; congruence). rewrite <- (nth_error_firstn facets _ _ Lf), SF, (nth_error_firstn _ _ _ Lf). exact Hf. }
  (* every immersed index is a facet *)
  assert (ALL : forall i, In i (i_immersed I') -> exists f, nth_error facets i = Some f).
  { intros i Hi. rewrite EI in Hi. apply in_concat in Hi as (im & Him & Hi). apply In_nth_error in Him as (k & Hk). assert (Lk : (k < m_nfacets m)%nat) by (rewrite <- N1; apply nth_error_Some; congruence).
    destruct (nth_error ems k) as [em|] eqn:Ek; [|apply nth_error_None in Ek; lia]. destruct (CA k im em Hk Ek) as (fc & pts & Fc & HP & CC). cbv zeta in CC.
    destruct CC as [(_ & _ & -> & _)|[(_ & _ & -> & _)|(_ & i' & e & fi & fe & pi & pe & -> & _ & Fi & _)]]; [destruct Hi as [<-|[]]; eauto|destruct Hi|destruct Hi as [<-|[]]; eauto]. }
  assert (exists fs, Forall2 (fun i f => nth_error facets i = Some f) (i_immersed I') fs) as (fs & F).
  { revert ALL. generalize (i_immersed I'). induction l0 as [|i is IH]; intros A; [exists []; apply Forall2_nil|]. destruct (A i (or_introl eq_refl)) as (f & E). destruct IH as (fs & F); [intros; apply A; right; assumption|].
    exists (f :: fs). apply Forall2_cons; assumption. }
  rewrite (froude_krylov_ok s rho g T t G I' fs HS F).
  2:{ intros f u Hf Hu. destruct (sm_heights _ _ SM) as (_ & _ & _ & _ & LE). rewrite LE. apply (sm_vertices _ _ SM f u); [|exact Hu].
      clear - F Hf. unfold facets in F. induction F as [|i f' is fs E F IH]; [destruct Hf|]. destruct Hf as [<-|Hf]; [apply nth_error_In in E; exact E|apply IH; exact Hf]. }
  (* the degenerate triangle is one of them *)
  apply In_nth_error in Hl as (k & Hk). assert (Lk : (k < m_nfacets m)%nat) by (rewrite NF, <- (Forall2_length' _ _ _ TF); apply nth_error_Some; congruence).
  destruct (nth_error (m_facets m) k) as [fc|] eqn:Ef; [|apply nth_error_None in Ef; lia]. destruct (nth_error ims k) as [im|] eqn:Ei; [|apply nth_error_None in Ei; lia].
  destruct (nth_error ems k) as [em|] eqn:Ek; [|apply nth_error_None in Ek; lia]. pose proof (Cut_Props.Forall2_nth_l _ _ _ _ _ _ TF Hk Ef) as HP. destruct (Cut_Props.Forall2_nth_l _ _ _ _ _ _ TG Hk Ef) as (_ & _ & HC). cbv beta in HP.
  destruct (CA k im em Ei Ek) as (fc' & pts & Fc & _ & CC). rewrite (FS _ _ Ef) in Fc. injection Fc as <-. cbv zeta in CC.
  assert (BE : forall i, In i (mf_vertices fc) -> 0 < nth i rel 0).
  { intros i Hi. unfold has_points in HP. assert (In (nth_error (static_nodes m) i) (map Some l)) as Hin by (rewrite <- HP; apply (in_map (fun v => nth_error (static_nodes m) v)); exact Hi).
    apply in_map_iff in Hin as (p & Ep & Hp). symmetry in Ep. unfold rel. specialize (WET p Hp). assert (NE : nth_error rel i = Some (vz (tapply T p) - elevation s t (tapply T p))) by (unfold rel; rewrite nth_error_map, Ep; reflexivity).
    fold rel. rewrite (nth_error_nth rel i 0 NE). lra. }
  assert (NE : mf_vertices fc <> []).
  { intros E. unfold has_points in HP. rewrite E in HP. destruct (TM l (nth_error_In _ _ Hk)) as (A & B & C & -> & _). discriminate HP. }
  assert (IM : im = [k]).
  { destruct CC as [(_ & _ & -> & _)|[((i & Hi & Z) & _)|(IFF & _)]]; [reflexivity|specialize (BE i Hi); lra|].
    destruct (mf_vertices fc) as [|a r]; [contradiction|]. destruct (proj2 IFF) as (i & Hi & Z); [exists a; split; [left; reflexivity|apply BE; left; reflexivity]|]. specialize (BE i Hi). lra. }
  assert (In k (i_immersed I')) as Hki. { rewrite EI. apply in_concat. exists im. split; [apply (nth_error_In _ k); exact Ei|rewrite IM; left; reflexivity]. }
  replace (forallb has_centroid fs) with false; [reflexivity|]. symmetry. apply not_true_is_false. intros HB. rewrite forallb_forall in HB.
  assert (In fc fs) as Hfc. { clear - F Hki FS Ef. induction F as [|i f is fs E F IH]; [destruct Hki|]. destruct Hki as [->|H]; [left; rewrite (FS _ _ Ef) in E; congruence|right; apply IH; exact H]. }
  specialize (HB fc Hfc). unfold has_centroid in HB. rewrite HC, centre_of_gravity_eq in HB. rewrite ZA in HB. destruct (Mesh_Proofs.Rltb_dec 0 0) as [[_ L]|[E _]]; [lra|]. rewrite E in HB. discriminate HB.
Qed.
Print Assumptions froude_krylov_of_degenerate_triangle.
(** Refutation: three points of a line are a triangle for the mesh reader, and nothing refuses them. *)
Definition sliver : list (list vec3) := [[V3 0 0 1; V3 1 0 1; V3 2 0 1]].
Theorem froude_krylov_is_a_number_refuted : exists v m I, triangle_mesh v /\ hull_mesh v m /\ immerse (Calm 0) (mkT id3 v0) 0 ([], []) (intersector m) = Ok I /\
  forall rho g G, froude_krylov (Calm 0) rho g (mkT id3 v0) 0 G I = Ok None.
Proof.
  destruct (single_triangle_builds false [V3 0 0 1; V3 1 0 1; V3 2 0 1] eq_refl) as (m & E).
  assert (TM : triangle_mesh sliver).
  { intros l [<-|[]]. exists (V3 0 0 1), (V3 1 0 1), (V3 2 0 1). split; [reflexivity|]. repeat split; intros E'; injection E'; intros; lra. }
  assert (HM : hull_mesh sliver m) by (left; exists false; exact E).
  assert (AR : area [V3 0 0 1; V3 1 0 1; V3 2 0 1] = 0).
  { rewrite area_3, area3_norm. replace (cross _ _) with v0 by (apply vec_eq; vec; ring). unfold norm. replace (dot v0 v0) with 0 by (vec; ring). rewrite sqrt_0. lra. }
  assert (K : forall rho g G, exists I, immerse (Calm 0) (mkT id3 v0) 0 ([], []) (intersector m) = Ok I /\ froude_krylov (Calm 0) rho g (mkT id3 v0) 0 G I = Ok None).
  { intros rho g G. apply (froude_krylov_of_degenerate_triangle sliver m _ (Calm 0) (mkT id3 v0) rho g G 0 ([], []) _ TM HM (used_new m) Logic.I (or_introl eq_refl) AR).
    intros p Hp. unfold elevation, tapply. cbn [t_point t_rot]. rewrite mapply_id. destruct Hp as [<-|[<-|[<-|[]]]]; vec; lra. }
  destruct (K 0 0 v0) as (I & EI & _). exists sliver, m, I. split; [exact TM|]. split; [exact HM|]. split; [exact EI|]. intros rho g G. destruct (K rho g G) as (I' & EI' & F). rewrite EI in EI'. injection EI' as <-. exact F.
Qed.
Print Assumptions froude_krylov_is_a_number_refuted.
(** Example: a triangle one metre under a sea with one wave. *)
Example froude_krylov_example : exists m, triangle_mesh plate /\ (forall l, In l plate -> 0 < area l) /\ hull_mesh plate m /\ used m (intersector m) /\
  regular_sea (Waves [one_wave (fun _ _ _ => 1) (fun _ _ _ => 1) 0]) /\
  exists I F, immerse (Waves [one_wave (fun _ _ _ => 1) (fun _ _ _ => 1) 0]) (mkT id3 (V3 0 0 5)) 7 ([], []) (intersector m) = Ok I /\
    froude_krylov (Waves [one_wave (fun _ _ _ => 1) (fun _ _ _ => 1) 0]) 1000 10 (mkT id3 (V3 0 0 5)) 7 v0 I = Ok (Some F).
Proof.
  destruct (single_triangle_builds false [V3 0 0 0; V3 1 0 0; V3 0 1 0] eq_refl) as (m & E). exists m.
  assert (AR : forall l, In l plate -> 0 < area l).
  { intros l [<-|[]]. rewrite area_3, area3_norm. replace (cross _ _) with (V3 0 0 1) by (apply vec_eq; vec; ring). unfold norm. replace (dot _ _) with 1 by (vec; ring). rewrite sqrt_1. lra. }
  assert (HM : hull_mesh plate m) by (left; exists false; exact E). assert (HS : regular_sea (Waves [one_wave (fun _ _ _ => 1) (fun _ _ _ => 1) 0])) by (apply List.Forall_cons; [apply one_wave_airy|apply List.Forall_nil]).
  split; [exact plate_triangles|]. split; [exact AR|]. split; [exact HM|]. split; [apply used_new|]. split; [exact HS|].
  destruct (froude_krylov_is_the_pressure_resultant plate m _ _ (mkT id3 (V3 0 0 5)) 1000 10 v0 7 ([], []) plate_triangles ltac:(discriminate) AR HM (used_new m) HS) as (I & fs & EI & _ & _ & _ & F).
  exists I. eexists. split; [exact EI|exact F].
Qed.
