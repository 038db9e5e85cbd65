(** C181-C182: constants of the environment, wave field in the outputs. *)
From Coq Require Import ZArith Reals Lra Lia Psatz List String.
From Verif Require Import Common History_Model Blocked_Model Blocked_Proofs Sim_Model Sim_Spec Sim_Proofs Sim_Props Force_Model Wave_Model Wave_Spec Wave_Proofs Wave_Airy_Proofs Wave_Props Wave_Surface_Props
  Builder_Model Yaml_Model Yaml_Spec Yaml_Proofs Yaml_Props Yaml_Examples Sea_Examples Drift_Model Drift_Props Calm_Model Calm_Props Fall_Props Env_Model Force_Props Geometry.
Import ListNotations.
Open Scope R_scope.
Open Scope list_scope.

(** * C181 *)
Notation parse := (parse_simulator R 0 Rmult dblR int_of factorR).
(** The weight in the axes of NED. *)
Definition weight_in_NED (T : transform) (m g : R) : vec3 := mapply (t_rot T) (fst (gravity (inverse_transform T) m g)).
Lemma weight_is_vertical T m g : rotation (t_rot T) -> weight_in_NED T m g = V3 0 0 (m * g).
Proof. intros H. unfold weight_in_NED, gravity, inverse_transform. cbn [t_rot fst]. exact (rotation_inverse' _ _ H). Qed.

(** No value is refused: the test of the constructor is made before the values of the file are known. *)
Lemma environment_of {Wave} (c : constants R) (w : option Wave) : get_environment c (Ok w) = Ok (mkEnvironment w (ec_rho c) (ec_nu c) (ec_g c)).
Proof. unfold get_environment, new_environment. cbn [e_rho e_nu e_g e_w]. rewrite (Rltb_f 0 0) by lra. reflexivity. Qed.
Lemma entry_lacks n k v : entry n k v -> lacks n k -> False.
Proof. intros (a & b & -> & _) H. apply H. rewrite map_app. apply in_or_app. right. left. reflexivity. Qed.
(** The values of the file are those of the environment; a file without the section gives zero for the three of them, hence bodies without weight. *)
Theorem constants_of_the_file_partial : forall (Wave : Type) n i (w : option Wave) e, parse n = Ok i -> get_environment (i_constants i) (Ok w) = Ok e ->
  (forall s, entry n "environmental constants" s ->
     under s "g" (quantity R Rmult dblR factorR) (e_g e) /\ under s "rho" (quantity R Rmult dblR factorR) (e_rho e) /\ under s "nu" (quantity R Rmult dblR factorR) (e_nu e)) /\
  (lacks n "environmental constants" -> e_g e = 0 /\ e_rho e = 0 /\ e_nu e = 0 /\ forall T m, rotation (t_rot T) -> weight_in_NED T m (e_g e) = v0).
Proof.
  intros Wave n i w e P E. rewrite environment_of in E. injection E as <-. cbn [e_g e_rho e_nu]. apply input_file_reading in P as (C & _). split.
  - intros s Hs. destruct C as [(s' & Hs' & C)|(N & _)]; [|exfalso; exact (entry_lacks _ _ _ Hs N)].
    assert (s' = s) as -> by (apply find_ok in Hs, Hs'; congruence). exact C.
  - intros N. destruct C as [(s & Hs & _)|(_ & ->)]; [exfalso; exact (entry_lacks _ _ _ Hs N)|]. cbn [ec_g ec_rho ec_nu]. do 3 (split; [reflexivity|]).
    intros T m H. rewrite weight_is_vertical by exact H. unfold v0. f_equal. ring.
Qed.
Print Assumptions constants_of_the_file_partial.

(** The file of Yaml_Examples with other constants. *)
Definition file (g rho nu : string) : yaml :=
  Map [("environmental constants", Map [("g", q g "m/s^2"); ("nu", q nu "m^2/s"); ("rho", q rho "kg/m^3")]);
       ("rotations convention", Seq [Scalar "psi"; Scalar "theta'"; Scalar "phi''"])]%string.
Definition without_constants : yaml := Map [("rotations convention", Seq [Scalar "psi"; Scalar "theta'"; Scalar "phi''"])]%string.
(** Negative constants are not refused: for each of the three, a file with a negative value is read and gives an environment; with a negative
    gravity the weight is directed upwards for every mass and attitude. *)
Theorem negative_constants_are_refused_refuted :
  (exists i, parse (file "-9" "1025" "1") = Ok i /\ forall (Wave : Type) (w : option Wave), exists e, get_environment (i_constants i) (Ok w) = Ok e /\ e_g e = -9 /\
     forall T m, rotation (t_rot T) -> 0 < m -> vz (weight_in_NED T m (e_g e)) < 0) /\
  (exists i, parse (file "9" "-1025" "1") = Ok i /\ forall (Wave : Type) (w : option Wave), exists e, get_environment (i_constants i) (Ok w) = Ok e /\ e_rho e = -1025) /\
  (exists i, parse (file "9" "1025" "-1") = Ok i /\ forall (Wave : Type) (w : option Wave), exists e, get_environment (i_constants i) (Ok w) = Ok e /\ e_nu e = -1).
Proof.
  split; [|split].
  - assert (exists i, parse (file "-9" "1025" "1") = Ok i /\ ec_g (i_constants i) = (-9) * 1 /\ ec_rho (i_constants i) = 1025 * 1 /\ ec_nu (i_constants i) = 1 * 1) as H by (eexists; split; [cbv -[IZR Rmult]; reflexivity|repeat split; reflexivity]).
    destruct H as (i & P & Eg & _). exists i. split; [exact P|]. intros Wave w. eexists. split; [apply environment_of|]. cbn [e_g]. rewrite Eg. split; [ring|].
    intros T m H Hm. rewrite weight_is_vertical by exact H. cbn [vz]. lra.
  - assert (exists i, parse (file "9" "-1025" "1") = Ok i /\ ec_g (i_constants i) = 9 * 1 /\ ec_rho (i_constants i) = (-1025) * 1 /\ ec_nu (i_constants i) = 1 * 1) as H by (eexists; split; [cbv -[IZR Rmult]; reflexivity|repeat split; reflexivity]).
    destruct H as (i & P & _ & Er & _). exists i. split; [exact P|]. intros Wave w. eexists. split; [apply environment_of|]. cbn [e_rho]. rewrite Er. ring.
  - assert (exists i, parse (file "9" "1025" "-1") = Ok i /\ ec_g (i_constants i) = 9 * 1 /\ ec_rho (i_constants i) = 1025 * 1 /\ ec_nu (i_constants i) = (-1) * 1) as H by (eexists; split; [cbv -[IZR Rmult]; reflexivity|repeat split; reflexivity]).
    destruct H as (i & P & _ & _ & En). exists i. split; [exact P|]. intros Wave w. eexists. split; [apply environment_of|]. cbn [e_nu]. rewrite En. ring.
Qed.
Print Assumptions negative_constants_are_refused_refuted.
Example constants_witness : (exists i, parse without_constants = Ok i) /\ lacks without_constants "environmental constants" /\ (exists s, entry (file "9" "1025" "1") "environmental constants" s).
Proof.
  split; [eexists; cbn; reflexivity|]. split; [cbn; intros [H|[]]; discriminate|]. eexists. exists [], [("rotations convention", Seq [Scalar "psi"; Scalar "theta'"; Scalar "phi''"])%string]. split; [reflexivity|intros []].
Qed.

(** * C182 *)
(** Specification: what a frame name means when the bodies are where the states [y] say. The last body of a name counts, as in the code. *)
Inductive frame_is (names : list string) (y : list R) : string -> transform -> Prop :=
| frame_NED : frame_is names y "NED" (mkT id3 v0)
| frame_body i n : nth_error names i = Some n -> n <> "NED"%string -> frame_is names y n (placement y i)
| frame_local i n : nth_error names i = Some n -> frame_is names y ("NED(" ++ n ++ ")") (mkT id3 (V3 (state_of y i 0) (state_of y i 1) (state_of y i 2))).

Lemma kinematics_are_frames y : forall names idx n T, In (n, T) (update_kinematics names idx y) ->
  exists i, (i < List.length names)%nat /\ ((nth_error names i = Some n /\ T = placement y (idx + i)) \/
    exists b, nth_error names i = Some b /\ n = ("NED(" ++ b ++ ")")%string /\ T = mkT id3 (V3 (state_of y (idx + i) 0) (state_of y (idx + i) 1) (state_of y (idx + i) 2))).
Proof.
  induction names as [|b names IH]; intros idx n T H; [destruct H|]. cbn [update_kinematics frames_of app In] in H. destruct H as [H|[H|H]].
  - injection H as <- <-. exists 0%nat. split; [cbn; lia|]. left. rewrite Nat.add_0_r. auto.
  - injection H as <- <-. exists 0%nat. split; [cbn; lia|]. right. exists b. rewrite Nat.add_0_r. auto.
  - destruct (IH _ _ _ H) as (i & Hi & Q). exists (S i). split; [cbn; lia|]. replace (idx + S i)%nat with (S idx + i)%nat by lia. exact Q.
Qed.
Lemma to_NED_frame y names frame T : to_NED (fun _ => None) (update_kinematics names 0 y) frame = Ok T -> frame_is names y frame T.
Proof.
  unfold to_NED. destruct (String.eqb_spec frame "NED") as [->|N]; [intros H; injection H as <-; constructor|].
  destruct (find _ _) as [[n T']|] eqn:F; [|discriminate]. intros H. injection H as <-. apply find_some in F as (F & E). cbn [fst snd] in *. apply String.eqb_eq in E as ->.
  apply in_rev in F. apply kinematics_are_frames in F as (i & _ & [(B & ->)|(b & B & -> & ->)]); rewrite ?Nat.add_0_l; [apply frame_body|apply frame_local]; assumption.
Qed.
(** Elevation of the sea: what the API answers at a point. *)
Definition elevation_at (fs : list (flat R)) (p : vec3) (t z : R) : Prop := get_and_check_wave_height fs [vx p] [vy p] t = Ok [z].
Lemma grid_of_a_frame fs o T t : List.Forall airy fs -> xmin o <> xmax o -> ymin o <> ymax o -> (2 <= onx o)%nat -> (2 <= ony o)%nat ->
  exists gr, get_waves_on_mesh_as_a_grid (mkSurface fs (get_wave_mesh_size o) (make_wave_mesh o)) (fun p => triple (tapply T (point p))) t = Ok gr /\
    List.length (g_z gr) = ony o /\ forall i j, (i < onx o)%nat -> (j < ony o)%nat -> exists row z, nth_error (g_z gr) j = Some row /\ List.length row = onx o /\ nth_error row i = Some z /\
      elevation_at fs (tapply T (V3 (xmin o + INR i * ((xmax o - xmin o) / INR (onx o - 1))) (ymin o + INR j * ((ymax o - ymin o) / INR (ony o - 1))) 0)) t z.
Proof.
  intros H Hx Hy Nx Ny. set (T' := fun p : R * R * R => triple (tapply T (point p))).
  assert (get_wave_mesh_size o = (onx o, ony o)) as Es by (unfold get_wave_mesh_size; rewrite !mesh_count_regular by assumption; reflexivity).
  set (G := fun p : R * R * R => (fst (fst p), snd (fst p), Rsum (map (fun f => elv f (fst (fst p)) (snd (fst p)) t) fs))).
  set (res := map G (map T' (make_wave_mesh o))).
  set (P := fun i j => (xmin o + INR i * ((xmax o - xmin o) / INR (onx o - 1)), ymin o + INR j * ((ymax o - ymin o) / INR (ony o - 1)), 0)).
  assert (List.length res = (onx o * ony o)%nat) as Lr by (unfold res; rewrite !map_length, mesh_size, Es; reflexivity).
  assert (forall i j, (i < onx o)%nat -> (j < ony o)%nat -> at_ub res (j * onx o + i) = Ok (G (T' (P i j)))) as Hr.
  { intros i j Hi Hj. unfold at_ub, res. destruct (mesh_points o i j Hx Hy Nx Ny Hi Hj) as [_ E]. rewrite (nth_error_map_nth _ _ G _ _ _ (nth_error_map_nth _ _ T' _ _ _ E)). reflexivity. }
  assert (get_waves_on_mesh (mkSurface fs (get_wave_mesh_size o) (make_wave_mesh o)) T' t = Ok res) as Ew.
  { unfold get_waves_on_mesh. cbn [su_mesh su_spectra]. unfold res. destruct (make_wave_mesh o) as [|p0 m0]; [reflexivity|]. apply points_ok. exact H. }
  unfold get_waves_on_mesh_as_a_grid. rewrite Ew. cbn [bindO su_size]. rewrite Es. cbn [fst snd]. clear Ew.
  assert (forall (A : Type) (u v : A), match res with [] => u | _ :: _ => v end = v) as Dm by (intros A u v; destruct res; [cbn in Lr; nia|reflexivity]).
  rewrite Dm. rewrite Lr, Nat.eqb_refl. cbn [negb].
  rewrite (mapM_ok _ _ _ (fun i => fst (fst (G (T' (P i 0%nat)))))).
  2: { intros i Hi. apply in_seq in Hi. pose proof (Hr i 0%nat ltac:(lia) ltac:(lia)) as E. cbn [Nat.mul Nat.add] in E. rewrite E. reflexivity. }
  cbn [bindO]. rewrite (mapM_ok _ _ _ (fun j => snd (fst (G (T' (P 0%nat j)))))).
  2: { intros j Hj. apply in_seq in Hj. pose proof (Hr 0%nat j ltac:(lia) ltac:(lia)) as E. rewrite Nat.add_0_r in E. rewrite E. reflexivity. }
  cbn [bindO]. rewrite (mapM_ok _ _ _ (fun j => map (fun i => snd (G (T' (P i j)))) (seq 0 (onx o)))).
  2: { intros j Hj. apply in_seq in Hj. apply mapM_ok. intros i Hi. apply in_seq in Hi. rewrite (Hr i j) by lia. reflexivity. }
  cbn [bindO]. eexists. split; [reflexivity|]. cbn [g_z]. rewrite map_length, seq_length. split; [reflexivity|].
  intros i j Hi Hj. eexists. eexists. rewrite nth_error_map_seq by exact Hj. split; [reflexivity|]. rewrite map_length, seq_length. split; [reflexivity|]. rewrite nth_error_map_seq by exact Hi. split; [reflexivity|].
  unfold elevation_at. cbn [Nat.add]. rewrite wave_height_ok by auto. cbn [combine map fst snd]. reflexivity.
Qed.
(** The wave field written with the states [y] has, at each point of the mesh, the elevation of the sea where the frame of the mesh puts this point when the bodies are where [y] says. *)
Theorem wave_field_goes_with_the_states : forall Itp (itp_f : Itp -> R -> outcome R) aeq fs o frame bodies x t y g,
  List.Forall airy fs -> xmin o <> xmax o -> ymin o <> ymax o -> (2 <= onx o)%nat -> (2 <= ony o)%nat ->
  output itp_f aeq (fun _ => None) (Some (mkSurface fs (get_wave_mesh_size o) (make_wave_mesh o))) frame bodies x t = Ok (y, g) ->
  exists gr T, g = Some gr /\ frame_is (map fst bodies) y frame T /\ List.length (g_z gr) = ony o /\
    forall i j, (i < onx o)%nat -> (j < ony o)%nat -> exists row z, nth_error (g_z gr) j = Some row /\ List.length row = onx o /\ nth_error row i = Some z /\
      elevation_at fs (tapply T (V3 (xmin o + INR i * ((xmax o - xmin o) / INR (onx o - 1))) (ymin o + INR j * ((ymax o - ymin o) / INR (ony o - 1))) 0)) t z.
Proof.
  intros Itp itp_f aeq fs o frame bodies x t y g A Hx Hy Nx Ny H. unfold output in H. destruct (output_states _ _ _ _ _) as [y'| |]; try discriminate. cbn [bindO] in H. unfold feed in H.
  destruct (mesh_points o 0 0 Hx Hy Nx Ny) as [_ E0]; try lia. cbn [su_mesh] in H.
  destruct (make_wave_mesh o) as [|p0 m0] eqn:Em; [destruct (0 * onx o + 0)%nat; discriminate|]. rewrite <- Em in *.
  destruct (to_NED _ _ _) as [T| |] eqn:ET; try discriminate. cbn [bindO] in H. destruct (grid_of_a_frame fs o T t A Hx Hy Nx Ny) as (gr & Eg & L & Q). rewrite Eg in H. cbn [bindO] in H.
  destruct (g_z gr) as [|r0 rs] eqn:Ez; [cbn in L; lia|]. cbn [bindO] in H. injection H as <- <-. exists gr, T. split; [reflexivity|]. split; [apply to_NED_frame; exact ET|]. rewrite Ez. split; [exact L|exact Q].
Qed.
Print Assumptions wave_field_goes_with_the_states.
(** A frame that is none of those is an error, unless there is nothing to write. *)
Theorem unknown_frame_is_refused : forall Itp (itp_f : Itp -> R -> outcome R) aeq s frame bodies x t,
  su_mesh s <> [] -> frame <> "NED"%string -> (forall n, In n (map fst bodies) -> frame <> n /\ frame <> ("NED(" ++ n ++ ")")%string) ->
  (forall r, output itp_f aeq (fun _ => None) (Some s) frame bodies x t <> Ok r) /\
  (forall y, output_states itp_f aeq (map snd bodies) x t = Ok y -> output itp_f aeq (fun _ => None) (Some s) frame bodies x t = Throw).
Proof.
  intros Itp itp_f aeq s frame bodies x t Ms N U.
  assert (G : forall y, feed (fun _ => None) (Some s) frame (map fst bodies) y t = Throw).
  { intros y. unfold feed. destruct (su_mesh s) as [|p0 m0]; [contradiction|]. unfold to_NED. destruct (String.eqb_spec frame "NED") as [E|_]; [contradiction|].
    destruct (find _ _) as [[n T]|] eqn:F; [|reflexivity]. exfalso. apply find_some in F as (F & E). cbn [fst] in E. apply String.eqb_eq in E as ->. apply in_rev in F.
    apply kinematics_are_frames in F as (i & _ & [(B & _)|(b & B & E & _)]).
    - apply nth_error_In in B. exact (proj1 (U _ B) eq_refl).
    - apply nth_error_In in B. exact (proj2 (U _ B) E). }
  unfold output. split.
  - intros r. destruct (output_states _ _ _ _ _) as [y| |]; cbn [bindO]; try discriminate. rewrite G. discriminate.
  - intros y ->. cbn [bindO]. rewrite G. reflexivity.
Qed.
Print Assumptions unknown_frame_is_refused.
(** Without wave model, or with a mesh without points, nothing is written and nothing fails, whatever the frame. *)
Theorem no_field_without_waves_or_mesh : forall Itp (itp_f : Itp -> R -> outcome R) aeq w frame bodies x t y,
  (forall s, w = Some s -> su_mesh s = []) -> output_states itp_f aeq (map snd bodies) x t = Ok y -> output itp_f aeq (fun _ => None) w frame bodies x t = Ok (y, None).
Proof.
  intros Itp itp_f aeq w frame bodies x t y M H. unfold output. rewrite H. cbn [bindO]. unfold feed. destruct w as [s|]; [|reflexivity]. rewrite (M s eq_refl). cbn [bindO].
  unfold get_waves_on_mesh_as_a_grid, get_waves_on_mesh. rewrite (M s eq_refl). reflexivity.
Qed.
Print Assumptions no_field_without_waves_or_mesh.
(** The frames of the bodies are rigid, although the integrated quaternions drift (C175): the states written are normalised. *)
Theorem frames_of_the_field_are_rigid : forall Itp (itp_f : Itp -> R -> outcome R) aeq (bodies : list (string * Sim_Model.body Itp)) x t y xf frame T,
  (forall a b, aeq a b = true -> a = b) -> block_states_loop itp_f (map snd bodies) x [] t = Ok xf -> (forall i, (i < List.length bodies)%nat -> quaternion_norm xf i <> 0) ->
  output_states itp_f aeq (map snd bodies) x t = Ok y -> frame_is (map fst bodies) y frame T -> rotation (t_rot T).
Proof.
  intros Itp itp_f aeq bodies x t y xf frame T A B Nz H F. unfold output_states in H. rewrite B in H. cbn [bindO] in H. unfold normalize_quaternions in H. apply normalize_from_spec in H as (_ & _ & Q). rewrite map_length in Q.
  destruct F as [|i n F _|i n F]; [apply rotation_id| |apply rotation_id]. unfold placement. cbn [t_rot].
  assert (i < List.length bodies)%nat as Hi by (rewrite <- (map_length fst); apply nth_error_Some; congruence).
  apply unit_rotation. unfold quaternion2. pose proof (Nz i Hi) as N0.
  assert (S2 : quaternion_norm xf i * quaternion_norm xf i = state_of xf i 9 * state_of xf i 9 + state_of xf i 10 * state_of xf i 10 + state_of xf i 11 * state_of xf i 11 + state_of xf i 12 * state_of xf i 12).
  { unfold quaternion_norm, norm4. rewrite sqrt_sqrt; [ring|]. nra. }
  destruct (Q i ltac:(lia)) as [(E & V)|(_ & V)]; rewrite !V by lia.
  - apply A in E. rewrite E in S2. lra.
  - apply (Rmult_eq_reg_r (quaternion_norm xf i * quaternion_norm xf i)); [|intros Z; apply Rmult_integral in Z; tauto]. rewrite Rmult_1_l. rewrite S2 at 2. field. exact N0.
Qed.
Print Assumptions frames_of_the_field_are_rigid.
(** The hypotheses are met: a heeled ship, a mesh attached to it, one wave; and a frame that does not exist. *)
Definition fleet : list (string * Sim_Model.body R) := [("ship"%string, free_ship 0)].
Definition exact_equality (a b : R) : bool := if Req_EM_T a b then true else false.
Definition swell : surface := mkSurface [one_wave (fun _ _ _ => 1) (fun _ _ _ => 1) 0] (get_wave_mesh_size (Wave_Model.mkWaveOutput 0 10 3 (-5) 5 4)) (make_wave_mesh (Wave_Model.mkWaveOutput 0 10 3 (-5) 5 4)).
Example field_witness :
  block_states_loop rf (map snd fleet) released [] 2 = Ok released /\ quaternion_norm released 0 <> 0 /\
  (exists y g, output rf exact_equality (fun _ => None) (Some swell) "ship" fleet released 2 = Ok (y, g)) /\
  frame_is (map fst fleet) released "ship" (placement released 0) /\
  su_mesh swell <> [] /\ (forall n, In n (map fst fleet) -> "shp" <> n /\ "shp" <> ("NED(" ++ n ++ ")"))%string.
Proof.
  assert (B : block_states_loop rf (map snd fleet) released [] 2 = Ok released) by reflexivity.
  assert (M : su_mesh swell <> []).
  { intros E. destruct (mesh_points (Wave_Model.mkWaveOutput 0 10 3 (-5) 5 4) 0 0) as [_ E0]; cbn [xmin xmax ymin ymax onx ony]; try lra; try lia. unfold swell in E. cbn [su_mesh] in E. rewrite E in E0. discriminate. }
  split; [exact B|]. split; [|split; [|split; [|split]]].
  - unfold quaternion_norm, norm4, released, state_of. cbn [nth Nat.mul Nat.add]. rewrite sqrt_sqrt by lra. replace (_ + _ + 0 * 0 + 0 * 0) with 1 by lra. rewrite sqrt_1. lra.
  - destruct (normalisation_succeeds exact_equality 1 released) as (y & E); [cbn; lia|].
    unfold output, output_states. rewrite B. cbn [bindO]. cbn [map snd fleet List.length]. rewrite E. cbn [bindO]. unfold feed. destruct (su_mesh swell) as [|p0 m0]; [contradiction|].
    unfold to_NED. cbn [String.eqb Ascii.eqb Bool.eqb map fst fleet update_kinematics frames_of app rev find bindO snd append].
    destruct (grid_of_a_frame [one_wave (fun _ _ _ => 1) (fun _ _ _ => 1) 0] (Wave_Model.mkWaveOutput 0 10 3 (-5) 5 4) (placement y 0) 2) as (gr & G & _); cbn [xmin xmax ymin ymax onx ony]; try lra; try lia.
    + repeat constructor. apply one_wave_airy.
    + unfold swell. rewrite G. cbn [bindO]. destruct (g_z gr); cbn [bindO]; eauto.
  - apply frame_body; [reflexivity|discriminate].
  - exact M.
  - intros n [<-|[]]. split; discriminate.
Qed.
