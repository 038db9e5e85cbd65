(** Properties C83 - C86: the waves of the model are solutions of linear wave theory, the dispersion relation, the choice of the depth. *)
From Coq Require Import Reals List Bool ZArith Lra Lia.
From Coquelicot Require Import Coquelicot.
From Verif Require Import Common Wave_Model Wave_Spec Wave_Proofs Wave_Flat_Proofs Wave_Airy_Proofs Wave_Flow_Spec Wave_Surface_Props Wave_Flow_Proofs.
Import ListNotations.
Open Scope R_scope.

(** ** What the constructors of the wave models return *)
(** A wave model, with the depth it was discretised for ([None]: infinite depth) and its stretching. *)
Record wave_model : Type := mkModel { wm_depth : option R; wm_stretching : stretching; wm_airy : flat R }.
(** It was built by [discretize] and then by one of the two constructors of Airy. *)
Definition built (halley : halley_t) (m : wave_model) : Prop :=
  exists S D lo hi n sp, spectrum_ctor_ok S = true /\ airy_of sp (wm_airy m) /\
    match wm_depth m with
    | None => discretize_inf S D lo hi n (wm_stretching m) = Ok sp
    | Some h => discretize_h halley S D lo hi n h (wm_stretching m) = Ok sp
    end.
(** [z] is above the sea bed of every model. *)
Definition above_sea_bed (ms : list wave_model) (z : R) : Prop := forall m h, In m ms -> wm_depth m = Some h -> z <= h.
Definition no_stretching (ms : list wave_model) : Prop := forall m, In m ms -> st_h (wm_stretching m) = 0.
Definition models (ms : list wave_model) : list (flat R) := map wm_airy ms.

(** ** Depth functions *)
Lemma lin_derive' : forall h z : R, is_derive (fun s : R => s * h) z h.
Proof. intros. auto_derive; [auto|ring]. Qed.
Lemma lin_derive : forall k h z : R, is_derive (fun s : R => k * (h - s)) z (- k).
Proof. intros. auto_derive; [auto|ring]. Qed.
Definition dF (d : option R) (k z : R) : R := match d with None => exp (- k * z) | Some h => cosh (k * (h - z)) / cosh (k * h) end.
Definition dG (d : option R) (k z : R) : R := match d with None => exp (- k * z) | Some h => sinh (k * (h - z)) / cosh (k * h) end.
Lemma dF_derive : forall (d : option R) (k z : R), is_derive (dF d k) z (- k * dG d k z).
Proof.
  intros [h|] k z; unfold dF, dG.
  - assert (cosh (k * h) <> 0) by (apply Rgt_not_eq, cosh_pos).
    apply (is_derive_ext (fun s => / cosh (k * h) * cosh (k * (h - s)))); [intros s; unfold Rdiv; apply Rmult_comm|].
    replace (- k * (sinh (k * (h - z)) / cosh (k * h))) with (/ cosh (k * h) * (- k * sinh (k * (h - z)))) by (field; assumption).
    apply (is_derive_scal (fun s => cosh (k * (h - s)))). apply (is_derive_comp cosh (fun s => k * (h - s)) z (sinh (k * (h - z))) (- k)); [apply is_derive_cosh|apply lin_derive].
  - auto_derive; [auto|ring].
Qed.
Lemma dG_derive : forall (d : option R) (k z : R), is_derive (dG d k) z (- k * dF d k z).
Proof.
  intros [h|] k z; unfold dF, dG.
  - assert (cosh (k * h) <> 0) by (apply Rgt_not_eq, cosh_pos).
    apply (is_derive_ext (fun s => / cosh (k * h) * sinh (k * (h - s)))); [intros s; unfold Rdiv; apply Rmult_comm|].
    replace (- k * (cosh (k * (h - z)) / cosh (k * h))) with (/ cosh (k * h) * (- k * cosh (k * (h - z)))) by (field; assumption).
    apply (is_derive_scal (fun s => sinh (k * (h - s)))). apply (is_derive_comp sinh (fun s => k * (h - s)) z (cosh (k * (h - z))) (- k)); [apply is_derive_sinh|apply lin_derive].
  - auto_derive; [auto|ring].
Qed.

(** ** The components of a model *)
Definition good (halley : halley_t) (d : option R) (c : component R) : Prop :=
  0 < c_omega c /\ match d with
                   | None => c_k c = c_omega c * c_omega c / (981 / 100)
                   | Some h => wave_number halley (c_omega c) h = Ok (c_k c) /\ PI / 10 <= c_k c * h
                   end.
Lemma built_inv : forall hal m, built hal m -> exists cs pd ps, wm_airy m = flat_of cs pd ps /\ cs <> [] /\ (forall c, In c cs -> good hal (wm_depth m) c) /\
  (forall k z, (forall h, wm_depth m = Some h -> z <= h) -> pd k z 0 = dF (wm_depth m) k z /\ ps k z 0 = dG (wm_depth m) k z) /\
  (forall k z eta, eta <= z -> (forall h, wm_depth m = Some h -> z <= h) -> st_h (wm_stretching m) = 0 -> pd k z eta = dF (wm_depth m) k z).
Proof.
  intros hal [d st f] (S & D & lo & hi & n & sp & HS & A & B). cbn [wm_depth wm_stretching wm_airy] in *. apply airy_of_inv in A. destruct A as (cs & E & N & C).
  exists cs, (d_pdyn sp), (d_pdyn_sh sp). split; [exact E|]. split; [exact N|]. destruct d as [h|].
  - apply discretize_h_sized in B. destruct B as (_ & _ & W & _ & _ & _ & K & Epd & Eps). rewrite Epd, Eps. split; [|split].
    + intros c Hc. destruct (C c Hc) as (i & j & _ & _ & Wi & Ki & _). split; [apply (angular_frequencies_pos S lo hi n (d_omega sp) HS W); eapply nth_error_In; exact Wi|].
      destruct (Forall2_nth_l _ _ _ _ _ i _ K Wi) as (k & Ek & Pk). rewrite Ki in Ek. injection Ek as <-. exact Pk.
    + intros k z Hz. specialize (Hz h eq_refl). unfold dynamic_pressure_factor, dynamic_pressure_factor_sh. rewrite Reqb_t by reflexivity. cbn [negb andb]. rewrite Rltb_f by exact Hz. rewrite rescaled_zero. auto.
    + intros k z eta He Hz Hs. specialize (Hz h eq_refl). unfold dynamic_pressure_factor. rewrite (Rltb_f z eta) by exact He. rewrite andb_false_r. rewrite Rltb_f by exact Hz. rewrite rescaled_none by exact Hs. reflexivity.
  - apply discretize_inf_sized in B. destruct B as (_ & _ & W & _ & _ & _ & K & Epd & Eps). rewrite Epd, Eps. split; [|split].
    + intros c Hc. destruct (C c Hc) as (i & j & _ & _ & Wi & Ki & _). split; [apply (angular_frequencies_pos S lo hi n (d_omega sp) HS W); eapply nth_error_In; exact Wi|].
      rewrite K, nth_error_map, Wi in Ki. cbn in Ki. injection Ki as <-. reflexivity.
    + intros k z _. unfold dynamic_pressure_factor_inf. rewrite Reqb_t by reflexivity. cbn [negb andb]. rewrite rescaled_zero. auto.
    + intros k z eta He _ Hs. unfold dynamic_pressure_factor_inf. rewrite (Rltb_f z eta) by exact He. rewrite andb_false_r. rewrite rescaled_none by exact Hs. reflexivity.
Qed.
Lemma built_airy : forall hal m, built hal m -> airy (wm_airy m).
Proof. intros hal m (S & D & lo & hi & n & sp & _ & A & _). exists sp. exact A. Qed.

(** ** Sums of fields *)
Definition fsum {A} (E : A -> field) (l : list A) : field := fun x y z t => Rsum (map (fun a => E a x y z t) l).
Lemma fsum_app : forall A (E : A -> field) l l' x y z t, fsum E (l ++ l') x y z t = fsum E l x y z t + fsum E l' x y z t.
Proof. intros. unfold fsum. rewrite map_app. apply Rsum_app. Qed.
Definition piece : Type := option R * component R.
Definition pu (g : R) (q : piece) : field := eu g (snd q) (dF (fst q) (c_k (snd q))).
Definition pv (g : R) (q : piece) : field := ev g (snd q) (dF (fst q) (c_k (snd q))).
Definition pw (g : R) (q : piece) : field := ew g (snd q) (dG (fst q) (c_k (snd q))).
Definition pp (g rho : R) (q : piece) : field := ep g rho (snd q) (dF (fst q) (c_k (snd q))).
Definition pe (q : piece) (x y t : R) : R := weta (wave_of (snd q)) x y t.

Lemma velocity_of_model : forall hal g m, built hal m -> exists L, (forall q, In q L -> good hal (fst q) (snd q) /\ fst q = wm_depth m) /\ L <> [] /\
  (forall x y z t eta, eta <= z -> (forall h, wm_depth m = Some h -> z <= h) ->
     get_orbital_velocity (wm_airy m) g [x] [y] [z] t [eta] = Ok [(fsum (pu g) L x y z t, fsum (pv g) L x y z t, fsum (pw g) L x y z t)]) /\
  (forall rho x y z t eta, eta <= z -> (forall h, wm_depth m = Some h -> z <= h) -> eta = 0 \/ st_h (wm_stretching m) = 0 ->
     get_dynamic_pressure (wm_airy m) rho g [x] [y] [z] [eta] t = Ok [fsum (pp g rho) L x y z t]) /\
  (forall x y t, get_elevation (wm_airy m) [x] [y] t = Ok [Rsum (map (fun q => pe q x y t) L)]).
Proof.
  intros hal g m H. apply built_inv in H. destruct H as (cs & pd & ps & E & N & C & F0 & Fe). exists (map (fun c => (wm_depth m, c)) cs).
  split; [intros q Hq; apply in_map_iff in Hq; destruct Hq as (c & <- & Hc); cbn [fst snd]; auto|].
  split; [destruct cs; [congruence|discriminate]|]. rewrite E. split; [|split].
  - intros x y z t eta He Hz. unfold get_orbital_velocity. cbn [List.length Nat.eqb negb orb combine]. rewrite mapM_cons. cbn [fst snd].
    rewrite orbital_velocity1_ok by exact He. cbn [bindO mapM]. unfold fsum. rewrite !map_map.
    unfold pu, pv, pw, eu, ev, ew, th. cbn [fst snd].
    rewrite <- !Rsum_scale. f_equal. f_equal. f_equal; [f_equal|]; apply Rsum_ext; intros c _; rewrite (proj1 (F0 (c_k c) z Hz)) || rewrite (proj2 (F0 (c_k c) z Hz)); ring.
  - intros rho x y z t eta He Hz Hs. unfold get_dynamic_pressure. cbn [List.length Nat.eqb negb orb combine]. rewrite mapM_cons. cbn [fst snd].
    rewrite dynamic_pressure1_ok by exact He. cbn [bindO mapM]. unfold fsum. rewrite !map_map. unfold pp, ep, th. cbn [fst snd]. rewrite <- !Rsum_scale. f_equal. f_equal. apply Rsum_ext. intros c _.
    replace (pd (c_k c) z eta) with (dF (wm_depth m) (c_k c) z); [ring|]. symmetry. destruct Hs as [->|Hs]; [apply F0; exact Hz|apply Fe; assumption].
  - intros x y t. rewrite get_elevation_ok by reflexivity. cbn [combine map fst snd]. rewrite map_map. reflexivity.
Qed.

Lemma flow_of : forall hal g ms, List.Forall (built hal) ms -> exists L, (forall q, In q L -> good hal (fst q) (snd q) /\ exists m, In m ms /\ fst q = wm_depth m) /\
  (forall x y z t eta, eta <= z -> above_sea_bed ms z -> surface_orbital_velocity (models ms) g [x] [y] [z] t [eta] = Ok [(fsum (pu g) L x y z t, fsum (pv g) L x y z t, fsum (pw g) L x y z t)]) /\
  (forall rho x y z t eta, eta <= z -> above_sea_bed ms z -> eta = 0 \/ no_stretching ms ->
     surface_dynamic_pressure (models ms) rho g [x] [y] [z] [eta] t = Ok [fsum (pp g rho) L x y z t]) /\
  (forall x y t, get_and_check_wave_height (models ms) [x] [y] t = Ok [Rsum (map (fun q => pe q x y t) L)]).
Proof.
  intros hal g ms H.
  assert (exists L, (forall q, In q L -> good hal (fst q) (snd q) /\ exists m, In m ms /\ fst q = wm_depth m) /\
  (forall x y z t eta a b c, eta <= z -> above_sea_bed ms z -> velocity_loop (models ms) g [x] [y] [z] t [eta] [(a, b, c)] = Ok [(a + fsum (pu g) L x y z t, b + fsum (pv g) L x y z t, c + fsum (pw g) L x y z t)]) /\
  (forall rho x y z t eta a, eta <= z -> above_sea_bed ms z -> eta = 0 \/ no_stretching ms ->
     pressure_loop (models ms) rho g [x] [y] [z] [eta] t [a] = Ok [a + fsum (pp g rho) L x y z t]) /\
  (forall x y t a, wave_height_loop (models ms) [x] [y] t [a] = Ok [a + Rsum (map (fun q => pe q x y t) L)])) as (L & A & B & C & D).
  { induction H as [|m ms Hm Hms IH].
    - exists []. unfold fsum. cbn [models map Rsum fold_right velocity_loop pressure_loop wave_height_loop]. split; [intros q []|]. repeat split; intros; rewrite !Rplus_0_r; reflexivity.
    - destruct IH as (L & A & B & C & D). destruct (velocity_of_model hal g m Hm) as (L1 & A1 & _ & B1 & C1 & D1). exists (L1 ++ L). split; [|split; [|split]].
      + intros q Hq. apply in_app_or in Hq. destruct Hq as [Hq|Hq].
        * destruct (A1 q Hq). split; [assumption|]. exists m. split; [left; reflexivity|assumption].
        * destruct (A q Hq) as (G & m' & I & E). split; [exact G|]. exists m'. split; [right; exact I|exact E].
      + intros x y z t eta a b c He Hz. cbn [models map velocity_loop]. rewrite B1; [|exact He|intros h Eh; apply (Hz m h); [left; reflexivity|exact Eh]].
        cbn [bindO List.length seq mapM at_ub nth_error fst snd]. fold (models ms). rewrite B; [|exact He|intros m' h I; apply Hz; right; exact I].
        rewrite !fsum_app. f_equal. f_equal. f_equal; [f_equal|]; apply Rplus_assoc.
      + intros rho x y z t eta a He Hz Hs. cbn [models map pressure_loop]. rewrite C1; [|exact He|intros h Eh; apply (Hz m h); [left; reflexivity|exact Eh]|destruct Hs as [Hs|Hs]; [left; exact Hs|right; apply Hs; left; reflexivity]].
        cbn [bindO List.length seq mapM at_ub at_throw nth_error]. fold (models ms). rewrite C; [|exact He|intros m' h I; apply Hz; right; exact I|destruct Hs as [Hs|Hs]; [left; exact Hs|right; intros m' I; apply Hs; right; exact I]].
        rewrite fsum_app. f_equal. f_equal. apply Rplus_assoc.
      + intros x y t a. cbn [models map wave_height_loop]. rewrite D1. cbn [bindO add_into]. fold (models ms). rewrite D. rewrite map_app, Rsum_app. f_equal. f_equal. apply Rplus_assoc. }
  exists L. split; [exact A|]. split; [|split].
  - intros. unfold surface_orbital_velocity. cbn [List.length repeat]. rewrite B by assumption. rewrite !Rplus_0_l. reflexivity.
  - intros. unfold surface_dynamic_pressure. cbn [List.length repeat]. rewrite C by assumption. rewrite !Rplus_0_l. reflexivity.
  - intros. unfold get_and_check_wave_height, wave_height. cbn [List.length Nat.eqb negb repeat]. rewrite D. rewrite Rplus_0_l. reflexivity.
Qed.

Lemma fsum_cons : forall A (E : A -> field) a l, fsum E (a :: l) = fplus (E a) (fsum E l).
Proof. reflexivity. Qed.
Section Sums.
Variables (hal : halley_t) (g rho : R).
Definition all_good (L : list piece) : Prop := forall q, In q L -> good hal (fst q) (snd q).
Lemma all_good_inv : forall q L, all_good (q :: L) -> c_omega (snd q) <> 0 /\ all_good L.
Proof. intros q L H. destruct (H q (or_introl eq_refl)) as (P & _). split; [lra|]. intros q' I. apply H. right. exact I. Qed.
Lemma pieces_divergence : forall L, divergence_free (fsum (pu g) L) (fsum (pv g) L) (fsum (pw g) L).
Proof.
  induction L as [|q L IH]; [apply divergence_free_zero|]. rewrite !fsum_cons. apply divergence_free_plus; [|exact IH].
  apply elementary_divergence. intros z. apply dG_derive.
Qed.
Lemma pieces_rotation : forall L, irrotational (fsum (pu g) L) (fsum (pv g) L) (fsum (pw g) L).
Proof.
  induction L as [|q L IH]; [apply irrotational_zero|]. rewrite !fsum_cons. apply irrotational_plus; [|exact IH].
  apply elementary_rotation. intros z. apply dF_derive.
Qed.
Lemma pieces_momentum : forall L, all_good L -> linear_momentum rho (fsum (pu g) L) (fsum (pv g) L) (fsum (pw g) L) (fsum (pp g rho) L).
Proof.
  induction L as [|q L IH]; intros H; [apply linear_momentum_zero|]. apply all_good_inv in H. destruct H as (W & H). rewrite !fsum_cons.
  apply linear_momentum_plus; [|apply IH; exact H]. apply elementary_momentum; [intros z; apply dF_derive|exact W].
Qed.
Lemma pieces_dynamic : forall L, (forall q, In q L -> dF (fst q) (c_k (snd q)) 0 = 1) -> dynamic_condition rho g (fsum (pp g rho) L) (fun x y t => Rsum (map (fun q => pe q x y t) L)).
Proof.
  intros L H x y t. unfold fsum. induction L as [|q L IH]; [cbn; ring|]. unfold Rsum in *. cbn [map fold_right]. rewrite IH by (intros; apply H; right; assumption).
  unfold pp, ep, th, pe, weta. rewrite (H q (or_introl eq_refl)). unfold wave_of. cbn [wa]. ring.
Qed.
Lemma pieces_kinematic : forall L, (forall q, In q L -> c_omega (snd q) <> 0 /\ c_omega (snd q) * c_omega (snd q) = g * c_k (snd q) * dG (fst q) (c_k (snd q)) 0) ->
  kinematic_condition (fsum (pw g) L) (fun x y t => Rsum (map (fun q => pe q x y t) L)).
Proof.
  induction L as [|q L IH]; intros H; [apply kinematic_zero|]. rewrite fsum_cons. destruct (H q (or_introl eq_refl)) as (W & E).
  apply (kinematic_plus (pw g q) (pe q) (fsum (pw g) L) (fun x y t => Rsum (map (fun q => pe q x y t) L))); [|apply IH; intros; apply H; right; assumption].
  unfold pw, pe. apply (elementary_kinematic g (snd q) (dG (fst q) (c_k (snd q))) W E).
Qed.
End Sums.
Lemma dF_surface : forall d k, dF d k 0 = 1.
Proof.
  intros [h|] k; unfold dF; [rewrite Rminus_0_r; apply Rinv_r; apply Rgt_not_eq, cosh_pos|]. rewrite Rmult_0_r. apply exp_0.
Qed.
Lemma dG_surface : forall d k, dG d k 0 = match d with None => 1 | Some h => tanh (k * h) end.
Proof. intros [h|] k; unfold dG; [rewrite Rminus_0_r; reflexivity|]. rewrite Rmult_0_r. apply exp_0. Qed.
Lemma dG_bed : forall h k, dG (Some h) k h = 0.
Proof. intros h k. unfold dG. replace (k * (h - h)) with 0 by ring. rewrite sinh_0. unfold Rdiv. apply Rmult_0_l. Qed.

(** ** C83: the flow returned is a linear potential flow *)
(** For every list of wave models, every gravity and every density there are three velocity fields and a pressure field such that
    the two functions of the API return their values at every point under water (the pressure: without stretching, or with eta = 0),
    mass is conserved, the flow is irrotational and the linearised Euler equation holds. *)
Theorem waves_are_a_potential_flow : forall hal ms g rho, List.Forall (built hal) ms -> exists u v w p : field,
  (forall x y z t eta, eta <= z -> above_sea_bed ms z -> surface_orbital_velocity (models ms) g [x] [y] [z] t [eta] = Ok [(u x y z t, v x y z t, w x y z t)]) /\
  (forall x y z t eta, eta <= z -> above_sea_bed ms z -> eta = 0 \/ no_stretching ms -> surface_dynamic_pressure (models ms) rho g [x] [y] [z] [eta] t = Ok [p x y z t]) /\
  divergence_free u v w /\ irrotational u v w /\ linear_momentum rho u v w p /\
  (forall h, (forall m, In m ms -> wm_depth m = Some h) -> forall x y t, w x y h t = 0).
Proof.
  intros hal ms g rho H. destruct (flow_of hal g ms H) as (L & A & B & C & D). exists (fsum (pu g) L), (fsum (pv g) L), (fsum (pw g) L), (fsum (pp g rho) L).
  assert (all_good hal L) as GL by (intros q Hq; apply A; exact Hq).
  split; [exact B|]. split; [exact (C rho)|]. split; [apply pieces_divergence|]. split; [apply pieces_rotation|]. split; [apply (pieces_momentum hal); exact GL|].
  intros h Hh x y t. unfold fsum. apply Rsum_zero. intros q Hq. destruct (A q Hq) as (_ & m & I & E). unfold pw, ew. rewrite E, (Hh m I), dG_bed. ring.
Qed.
Print Assumptions waves_are_a_potential_flow.

(** ** C85: dispersion relation *)
(** What is expected of the root finder: it stays in its bracket and finds a root if there is one. *)
Definition stays_in_bracket (halley : halley_t) : Prop := forall F guess lo hi k, halley F guess lo hi = Some k -> lo <= k <= hi.
Definition finds_roots (halley : halley_t) : Prop := forall h w guess lo hi k, halley (wave_number_functor h w) guess lo hi = Some k ->
  (exists r, lo <= r <= hi /\ fst (fst (wave_number_functor h w r)) = 0) -> fst (fst (wave_number_functor h w k)) = 0.
(** The relation between pulsation, wave number and depth, for the gravity of the model. *)
Definition dispersion (h w k : R) : Prop := w * w = 981 / 100 * k * tanh (k * h).

Definition disp (h w k : R) : R := 981 / 100 * k * tanh (k * h) - w * w.
Lemma functor_disp : forall h w k, fst (fst (wave_number_functor h w k)) = disp h w k.
Proof. reflexivity. Qed.
Lemma tanh_kh : forall h k : R, is_derive (fun s : R => tanh (s * h)) k ((1 - tanh (k * h) * tanh (k * h)) * h).
Proof.
  intros h k. replace ((1 - tanh (k * h) * tanh (k * h)) * h) with (h * (1 - tanh (k * h) * tanh (k * h))) by ring.
  apply (is_derive_comp tanh (fun s : R => s * h) k (1 - tanh (k * h) * tanh (k * h)) h); [apply is_derive_tanh|apply lin_derive'].
Qed.
(** The derivatives given to the root finder are those of the function whose root is searched. *)
Theorem dispersion_derivatives : forall h w k, 
  derivable_pt_lim (fun s => fst (fst (wave_number_functor h w s))) k (snd (fst (wave_number_functor h w k))) /\
  derivable_pt_lim (fun s => snd (fst (wave_number_functor h w s))) k (snd (wave_number_functor h w k)) /\
  (fst (fst (wave_number_functor h w k)) = 0 <-> dispersion h w k).
Proof.
  intros h w k. pose proof (tanh_kh h k) as T. assert (ex_derive (fun s : R => tanh (s * h)) k) as X by (eexists; exact T).
  unfold wave_number_functor. cbn [fst snd]. split; [|split].
  - apply is_derive_Reals. set (th := fun s : R => tanh (s * h)) in *. apply (is_derive_ext (fun s => 981 / 100 * s * th s - w * w)); [reflexivity|].
    auto_derive; [exact X|]. change (Derive (fun x : R => th x) k) with (Derive th k). rewrite (is_derive_unique _ _ _ T). unfold th. ring.
  - apply is_derive_Reals. set (th := fun s : R => tanh (s * h)) in *. apply (is_derive_ext (fun s => 981 / 100 * th s + 981 / 100 * s * (1 - th s * th s) * h)); [reflexivity|].
    auto_derive; [auto|]. change (Derive (fun x : R => th x) k) with (Derive th k). rewrite (is_derive_unique _ _ _ T). unfold th. ring.
  - unfold dispersion. split; intros E; lra.
Qed.
Print Assumptions dispersion_derivatives.
Lemma disp_continuous : forall h w, continuity (disp h w).
Proof.
  intros h w k. apply derivable_continuous_pt. eexists. destruct (dispersion_derivatives h w k) as (D & _). exact D.
Qed.
Lemma wave_number_bracket : forall hal w h k, stays_in_bracket hal -> 0 < w -> wave_number hal w h = Ok k ->
  w * w / (981 / 100) <= k <= 35 / 10 * (w * w / (981 / 100)) /\ hal (wave_number_functor h w) (w * w / (981 / 100)) (w * w / (981 / 100)) (35 / 10 * (w * w / (981 / 100))) = Some k.
Proof.
  intros hal w h k B Hw H. unfold wave_number in H. rewrite Reqb_f in H by lra. unfold wave_number_inf in H. destruct (hal _ _ _ _) as [k'|] eqn:E; [|discriminate]. injection H as ->.
  split; [apply (B _ _ _ _ _ E)|reflexivity].
Qed.
(** Every wave number of an accepted spectrum satisfies the dispersion relation. *)
Theorem dispersion_relation : forall hal S D lo hi n h st sp, stays_in_bracket hal -> finds_roots hal -> spectrum_ctor_ok S = true ->
  discretize_h hal S D lo hi n h st = Ok sp -> Forall2 (dispersion h) (d_omega sp) (d_k sp).
Proof.
  intros hal S D lo hi n h st sp B F HS H. apply discretize_h_sized in H. destruct H as (_ & _ & W & _ & _ & _ & K & _).
  assert (forall w, In w (d_omega sp) -> 0 < w) as P by (apply (angular_frequencies_pos S lo hi n); assumption).
  clear W. induction K as [|w k ws ks (E & C) K IH]; constructor; [|apply IH; intros; apply P; right; assumption].
  specialize (P w (or_introl eq_refl)). destruct (wave_number_bracket hal w h k B P E) as (I & Eh). set (k0 := w * w / (981 / 100)) in *.
    assert (0 < k0) as Hk0 by (unfold k0; nra). pose proof PI_gt_3. assert (0 < h) as Hh by nra.
    assert (3 / 10 <= 35 / 10 * k0 * h) as Hb by nra.
    assert (fst (fst (wave_number_functor h w k)) = 0) as Z; [|rewrite functor_disp in Z; unfold disp in Z; unfold dispersion; lra].
    apply (F _ _ _ _ _ _ Eh). assert (w * w = 981 / 100 * k0) as Ew by (unfold k0; field).
    destruct (IVT_cor (disp h w) k0 (35 / 10 * k0)) as (r & Ir & Er).
    + apply disp_continuous.
    + lra.
    + assert (disp h w k0 < 0) by (unfold disp; pose proof (tanh_lt_1 (k0 * h)); rewrite Ew; nra).
      assert (0 < disp h w (35 / 10 * k0)) by (unfold disp; pose proof (tanh_lower _ Hb); rewrite Ew; nra). nra.
    + exists r. split; [exact Ir|]. rewrite functor_disp. exact Er.
Qed.
Print Assumptions dispersion_relation.
