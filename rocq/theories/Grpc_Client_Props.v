(** Properties C94-C97: forces and waves computed by distant (gRPC) servers. *)
From Coq Require Import ZArith List Bool Lia String.
From Verif Require Import Server_Spec.
From Coq Require Import Reals Lra.
From Verif Require Import Common History_Model History_Order_Proofs History_Real_Proofs History_Props Server_Model Server_Proofs Server_Props Grpc_Client_Model.
Import ListNotations.
Open Scope list_scope.

(** ** C94. An error of the distant server stops the simulation. The status codes of gRPC are 0 (success) to 16. *)
Theorem grpc_errors_are_reported : forall code, (1 <= code <= 16)%Z -> throw_if_invalid_status code = Throw.
Proof.
  intros code H. unfold throw_if_invalid_status.
  assert (code = 1 \/ code = 2 \/ code = 3 \/ code = 4 \/ code = 5 \/ code = 6 \/ code = 7 \/ code = 8 \/ code = 9 \/ code = 10 \/ code = 11 \/ code = 12 \/
    code = 13 \/ code = 14 \/ code = 15 \/ code = 16)%Z as C by lia.
  repeat (destruct C as [->|C]; [reflexivity|]). rewrite C. reflexivity.
Qed.
Print Assumptions grpc_errors_are_reported.
Theorem grpc_success_is_accepted : throw_if_invalid_status 0 = Ok tt.
Proof. reflexivity. Qed.
(** Any other code, however, is taken for a success. (Violation of C94.) *)
Theorem grpc_unknown_errors_refuted : forall code, (code < -1 \/ 16 < code)%Z -> throw_if_invalid_status code = Ok tt.
Proof.
  intros code H. unfold throw_if_invalid_status. destruct (Z.eqb code 0) eqn:E; [reflexivity|].
  replace (existsb (Z.eqb code) throwing_cases) with false; [reflexivity|]. symmetry. apply not_true_is_false. intros K. apply existsb_exists in K as (c & Hc & Ec).
  apply Z.eqb_eq in Ec. subst c. unfold throwing_cases in Hc. cbn in Hc. lia.
Qed.
Print Assumptions grpc_unknown_errors_refuted.
(** In particular no force and no wave is ever made of the response of a failed call. *)
Theorem grpc_failed_calls_give_nothing : forall A to_euler,
  (forall srv needs T name t s commands env r, force A to_euler srv needs T name t s commands env = Ok r ->
     exists rq, ~ (1 <= fst (srv_force srv rq) <= 16)%Z /\ r = (to_force A (snd (srv_force srv rq)), fs_extra (snd (srv_force srv rq)))) /\
  (forall srv x y t r, remote_elevations A srv x y t = Ok r -> ~ (1 <= fst (ws_elevations srv x y t) <= 16)%Z /\ r = snd (ws_elevations srv x y t)) /\
  (forall srv x y z t r, remote_pressures A srv x y z t = Ok r -> ~ (1 <= fst (ws_pressures srv x y z t) <= 16)%Z /\ r = snd (ws_pressures srv x y z t)) /\
  (forall srv x y z t r, remote_velocities A srv x y z t = Ok r -> ~ (1 <= fst (ws_velocities srv x y z t) <= 16)%Z) /\
  (forall srv x y t r, remote_spectra A srv x y t = Ok r -> ~ (1 <= fst (ws_spectra srv x y t) <= 16)%Z).
Proof.
  intros A te.
  split; [|split; [|split; [|split]]].
  - intros srv needs T name t s commands env r H. unfold force in H.
    repeat match type of H with bindO ?e _ = Ok _ => destruct e as [?| |] eqn:?; [cbn [bindO] in H|discriminate|discriminate] end.
    match type of H with context [srv_force srv ?q] => exists q; destruct (srv_force srv q) as [code response] eqn:E end. cbn [fst snd].
    destruct (throw_if_invalid_status code) eqn:Es; try discriminate. cbn in H. injection H as <-. split; [|reflexivity].
    intros K. rewrite (grpc_errors_are_reported code K) in Es. discriminate.
  - intros srv x y t r H. unfold remote_elevations in H. destruct (ws_elevations srv x y t) as [code z]. cbn [fst snd] in *.
    destruct (throw_if_invalid_status code) eqn:Es; try discriminate. cbn in H. injection H as <-. split; [|reflexivity]. intros K. rewrite (grpc_errors_are_reported code K) in Es. discriminate.
  - intros srv x y z t r H. unfold remote_pressures in H. destruct (ws_pressures srv x y z t) as [code p]. cbn [fst snd] in *.
    destruct (throw_if_invalid_status code) eqn:Es; try discriminate. cbn in H. injection H as <-. split; [|reflexivity]. intros K. rewrite (grpc_errors_are_reported code K) in Es. discriminate.
  - intros srv x y z t r H K. unfold remote_velocities in H. destruct (ws_velocities srv x y z t) as [code [[vx vy] vz]]. cbn [fst] in K.
    rewrite (grpc_errors_are_reported code K) in H. discriminate.
  - intros srv x y t r H K. unfold remote_spectra in H. destruct (ws_spectra srv x y t) as [code l]. cbn [fst] in K. rewrite (grpc_errors_are_reported code K) in H. discriminate.
Qed.
Print Assumptions grpc_failed_calls_give_nothing.

(** When a force is computed, the distant server got the states, the commands, its own name, and the waves it asked for, at the current position, if
    and only if it needs waves; neither of the two calls failed. *)
Theorem grpc_force_request : forall A to_euler srv needs T name t s commands env r,
  force A to_euler srv needs T name t s commands env = Ok r ->
  exists rq x y z, from_state A to_euler s T = Ok (fr_states rq) /\ fr_commands rq = commands /\ fr_name rq = name /\
    value_at A (s_x s) (zero A) = Ok x /\ value_at A (s_y s) (zero A) = Ok y /\ value_at A (s_z s) (zero A) = Ok z /\
    (needs = false -> fr_waves rq = mkWI (mkEl [] [] [] (zero A)) (mkPd [] [] [] [] (zero A)) (mkOv [] [] [] [] [] [] (zero A)) None None None) /\
    (needs = true -> ~ (1 <= fst (srv_required srv t x y z) <= 16)%Z /\
       from_wave_information A (to_wave_request A (snd (srv_required srv t x y z))) t env = Ok (fr_waves rq)) /\
    ~ (1 <= fst (srv_force srv rq) <= 16)%Z /\ r = (to_force A (snd (srv_force srv rq)), fs_extra (snd (srv_force srv rq))).
Proof.
  intros A te srv needs T name t s commands env r H. unfold force in H.
  destruct (from_state A te s T) as [st| |]; try discriminate H. cbn [bindO] in H. destruct (value_at A (s_x s) (zero A)) as [x| |]; try discriminate H. cbn [bindO] in H.
  destruct (value_at A (s_y s) (zero A)) as [y| |]; try discriminate H. cbn [bindO] in H. destruct (value_at A (s_z s) (zero A)) as [z| |]; try discriminate H. cbn [bindO] in H.
  destruct (get_wave_information A srv needs t x y z env) as [w| |] eqn:W; try discriminate H. cbn [bindO] in H.
  exists (mkFR st commands w name), x, y, z. cbn [fr_states fr_commands fr_waves fr_name]. repeat (split; [reflexivity|]).
  assert (N : forall code u, throw_if_invalid_status code = Ok u -> ~ (1 <= code <= 16)%Z).
  { intros code u E K. rewrite (grpc_errors_are_reported code K) in E. discriminate. }
  unfold get_wave_information, required_wave_information in W. destruct needs.
  - split; [discriminate|]. split.
    + intros _. destruct (srv_required srv t x y z) as [code resp]. cbn [fst snd]. destruct (throw_if_invalid_status code) as [u| |] eqn:E; try discriminate W.
      cbn [bindO] in W. split; [exact (N code u E)|exact W].
    + destruct (srv_force srv _) as [code resp]. cbn [fst snd]. destruct (throw_if_invalid_status code) as [u| |] eqn:E; try discriminate H. cbn [bindO] in H. injection H as <-.
      split; [exact (N code u E)|reflexivity].
  - injection W as <-. split; [reflexivity|]. split; [discriminate|]. destruct (srv_force srv _) as [code resp]. cbn [fst snd].
    destruct (throw_if_invalid_status code) as [u| |] eqn:E; try discriminate H. cbn [bindO] in H. injection H as <-. split; [exact (N code u E)|reflexivity].
Qed.
Print Assumptions grpc_force_request.

(** ** C95. What is sent to a distant force model. *)
Section Sent.
Variable aeqR : Z -> Rdefinitions.R -> Rdefinitions.R -> bool.
Notation A := (Rarith aeqR).
Notation num := Rdefinitions.R.
(** The thirteen histories of the body were recorded at the same dates. *)
Definition same_dates (s : state A) : Prop := forall c, map fst (L (get c s)) = map fst (L (s_x s)).
Definition recent (s : state A) (tmax : num) (p : num * num) : bool := negb (Rltb tmax (get_current_time A (s_x s) - fst p)).

Lemma euler_loop_spec : forall te n i (qr qi qj qk : list num), (forall l, In l [qr; qi; qj; qk] -> (i + n <= List.length l)%nat) ->
  exists e, euler_loop A te n i qr qi qj qk = Ok e /\ List.length e = n /\
    forall k, (k < n)%nat -> exists a b c d, nth_error qr (i + k) = Some a /\ nth_error qi (i + k) = Some b /\ nth_error qj (i + k) = Some c /\
      nth_error qk (i + k) = Some d /\ nth_error e k = Some (te (a, b, c, d)).
Proof.
  intros te. induction n as [|n IH]; intros i qr qi qj qk H.
  - exists []. split; [reflexivity|]. split; [reflexivity|]. intros; lia.
  - assert (forall l, In l [qr; qi; qj; qk] -> exists a, at_ub l i = Ok a /\ nth_error l i = Some a) as G.
    { intros l Hl. specialize (H l Hl). unfold at_ub. destruct (nth_error l i) eqn:E; [eauto|]. apply nth_error_None in E. lia. }
    destruct (G qr) as (a & Ea & Na); [cbn; tauto|]. destruct (G qi) as (b & Eb & Nb); [cbn; tauto|].
    destruct (G qj) as (c & Ec & Nc); [cbn; tauto|]. destruct (G qk) as (d & Ed & Nd); [cbn; tauto|].
    destruct (IH (S i) qr qi qj qk) as (e & Ee & Le & Ke); [intros l Hl; specialize (H l Hl); lia|].
    exists (te (a, b, c, d) :: e). cbn [euler_loop]. change (History_Model.num A) with num in *. rewrite Ea, Eb, Ec, Ed. cbn [bindO]. rewrite Ee. cbn [bindO]. split; [reflexivity|]. split; [cbn; lia|].
    intros [|k] Hk; [exists a, b, c, d; rewrite Nat.add_0_r; auto|]. destruct (Ke k ltac:(lia)) as (a' & b' & c' & d' & R1).
    rewrite <- Nat.add_succ_comm. exists a', b', c', d'. exact R1.
Qed.
Lemma now_same : forall s c, same_dates s -> L (s_x s) <> [] -> get_current_time A (get c s) = get_current_time A (s_x s).
Proof.
  intros s c Sd Ne. unfold get_current_time. specialize (Sd c). destruct (L (get c s)) as [|p l]; destruct (L (s_x s)) as [|q m]; try discriminate; [congruence|].
  apply last_fst; [exact Sd|]. injection Sd. auto.
Qed.
Lemma filter_same : forall (f : num -> bool) (l m : list (num * num)), map fst l = map fst m ->
  map fst (filter (fun p => f (fst p)) l) = map fst (filter (fun p => f (fst p)) m).
Proof.
  intros f. induction l as [|a l IH]; intros [|b m] E; try discriminate; [reflexivity|]. injection E as E1 E2. cbn [filter]. rewrite E1.
  destruct (f (fst b)); cbn [map]; rewrite ?E1, (IH m E2); reflexivity.
Qed.
Lemma combine_split_eq : forall (l : list (num * num)), combine (map fst l) (map snd l) = l.
Proof. induction l as [|[a b] l IH]; [reflexivity|]. cbn. rewrite IH. reflexivity. Qed.
Theorem grpc_force_request_contents : forall to_euler (s : state A) tmax, same_dates s -> L (s_x s) <> [] -> tmax <> 0%R ->
  exists st, from_state A to_euler s tmax = Ok st /\
    (forall c, combine (st_t st) (get c (st_val st)) = filter (recent s tmax) (L (get c s)) /\ List.length (get c (st_val st)) = List.length (st_t st)) /\
    List.length (st_phi st) = List.length (st_t st) /\ List.length (st_theta st) = List.length (st_t st) /\ List.length (st_psi st) = List.length (st_t st) /\
    forall k a b c d, nth_error (s_qr (st_val st)) k = Some a -> nth_error (s_qi (st_val st)) k = Some b ->
      nth_error (s_qj (st_val st)) k = Some c -> nth_error (s_qk (st_val st)) k = Some d ->
      exists phi theta psi, nth_error (st_phi st) k = Some phi /\ nth_error (st_theta st) k = Some theta /\ nth_error (st_psi st) k = Some psi /\
        to_euler (a, b, c, d) = (phi, theta, psi).
Proof.
  intros te s tmax Sd Ne N0.
  assert (eqn A tmax (zero A) = false) as Ez.
  { unfold eqn. cbn [lt Rarith zero]. destruct (Rtotal_order tmax 0) as [H|[H|H]]; [|congruence|].
    - rewrite (proj2 (Rltb_true tmax 0) H). reflexivity.
    - rewrite (proj2 (Rltb_true 0 tmax) H). rewrite andb_comm. reflexivity. }
  assert (forall c, get_values A (get c s) tmax = Ok (map snd (filter (recent s tmax) (L (get c s))))) as G.
  { intros c. unfold get_values. rewrite Ez. rewrite (now_same s c Sd Ne). reflexivity. }
  assert (get_dates A (s_x s) tmax = map fst (filter (recent s tmax) (L (s_x s)))) as Gd by (unfold get_dates; rewrite Ez; reflexivity).
  assert (forall c, map fst (filter (recent s tmax) (L (get c s))) = map fst (filter (recent s tmax) (L (s_x s)))) as Gf.
  { intros c. exact (filter_same (fun d => negb (Rltb tmax (get_current_time A (s_x s) - d))) _ _ (Sd c)). }
  assert (forall c, List.length (map snd (filter (recent s tmax) (L (get c s)))) = List.length (filter (recent s tmax) (L (s_x s)))) as Gl.
  { intros c. rewrite map_length, <- (map_length fst), Gf, map_length. reflexivity. }
  set (n := List.length (filter (recent s tmax) (L (s_x s)))) in *.
  set (col := fun c => map snd (filter (recent s tmax) (L (get c s)))).
  destruct (euler_loop_spec te n 0 (col QR) (col QI) (col QJ) (col QK)) as (e0 & Ee & Le & Ke).
  { intros l [<-|[<-|[<-|[<-|[]]]]]; unfold col; rewrite Gl; lia. }
  exists (mkWSt (A := A) (get_dates A (s_x s) tmax) (mkStates (col X) (col Y) (col Server_Spec.Z) (col U) (col V) (col W) (col P) (col Q) (col Server_Spec.R) (col QR) (col QI) (col QJ) (col QK))
        (map (fun a => fst (fst a)) e0) (map (fun a => snd (fst a)) e0) (map snd e0)).
  split; [|split].
  - unfold from_state.
    pose proof (G QR) as G1. pose proof (G QI) as G2. pose proof (G QJ) as G3. pose proof (G QK) as G4. cbn [get] in G1, G2, G3, G4. rewrite G1, G2, G3, G4. cbn [bindO].
    change (map snd (filter (recent s tmax) (L (s_qr s)))) with (col QR). change (map snd (filter (recent s tmax) (L (s_qi s)))) with (col QI).
    change (map snd (filter (recent s tmax) (L (s_qj s)))) with (col QJ). change (map snd (filter (recent s tmax) (L (s_qk s)))) with (col QK).
    assert (euler_loop A te (List.length (col QR)) 0 (col QR) (col QI) (col QJ) (col QK) = Ok e0) as Ee' by (rewrite <- Ee; f_equal; exact (Gl QR)).
    match goal with |- bindO ?e _ = _ => replace e with (Ok e0) by (symmetry; exact Ee') end. cbn [bindO].
    pose proof (G X) as C1. pose proof (G Y) as C2. pose proof (G Server_Spec.Z) as C3. pose proof (G U) as C4. pose proof (G V) as C5. pose proof (G W) as C6.
    pose proof (G P) as C7. pose proof (G Q) as C8. pose proof (G Server_Spec.R) as C9. cbn [get] in C1, C2, C3, C4, C5, C6, C7, C8, C9.
    rewrite C1, C2, C3, C4, C5, C6, C7, C8, C9. cbn [bindO]. reflexivity.
  - intros c. cbn [st_t st_val].
    assert (forall (f : Server_Spec.comp -> list num) c, get c (mkStates (f X) (f Y) (f Server_Spec.Z) (f U) (f V) (f W) (f P) (f Q) (f Server_Spec.R) (f QR) (f QI) (f QJ) (f QK)) = f c) as Gg by (intros f []; reflexivity).
    match goal with |- combine _ ?g = _ /\ _ => replace g with (col c) by (symmetry; exact (Gg col c)) end. rewrite Gd. unfold col. split; [|rewrite Gl, map_length; reflexivity]. rewrite <- (Gf c). apply combine_split_eq.
  - cbn [st_phi st_theta st_psi st_t st_val s_qr s_qi s_qj s_qk]. rewrite Gd, !map_length, Le. split; [reflexivity|]. split; [reflexivity|]. split; [reflexivity|].
    intros k a b c d Ha Hb Hc Hd. assert (k < n)%nat as Hk.
    { assert (nth_error (col QR) k <> None) as K by (intros K0; discriminate (eq_trans (eq_sym Ha) K0)). apply nth_error_Some in K. unfold col in K. rewrite Gl in K. exact K. }
    destruct (Ke k Hk) as (a' & b' & c' & d' & Ka & Kb & Kc & Kd & K). cbn [Nat.add] in *.
    assert (a = a') as <- by (injection (eq_trans (eq_sym Ha) Ka); auto). assert (b = b') as <- by (injection (eq_trans (eq_sym Hb) Kb); auto). assert (c = c') as <- by (injection (eq_trans (eq_sym Hc) Kc); auto). assert (d = d') as <- by (injection (eq_trans (eq_sym Hd) Kd); auto).
    exists (fst (fst (te (a, b, c, d)))), (snd (fst (te (a, b, c, d)))), (snd (te (a, b, c, d))). split; [|split; [|split; [|destruct (te (a, b, c, d)) as [[? ?] ?]; reflexivity]]].
    + exact (map_nth_error (fun a : num * num * num => fst (fst a)) k e0 K).
    + exact (map_nth_error (fun a : num * num * num => snd (fst a)) k e0 K).
    + exact (map_nth_error snd k e0 K).
Qed.
End Sent.
Print Assumptions grpc_force_request_contents.

(** The past must have the same dates for the thirteen states: true of everything the servers build, whatever the request. *)
Theorem grpc_server_states_have_the_same_dates : forall aeqR Dt T ys i, make_server_inputs (Rarith aeqR) Dt T ys = Ok i ->
  same_dates aeqR (full_history i).
Proof.
  intros aeqR Dt T ys i E c. destruct ys as [|back ys _] using rev_ind.
  - injection E as <-. destruct c; reflexivity.
  - rewrite make_inputs_cases in E. destruct (record_all _ _ ys) eqn:E1; try discriminate. cbn [bindO] in E.
    destruct (record_all _ _ (ys ++ [back])) as [s| |] eqn:E2; try discriminate. cbn [bindO] in E. injection E as <-. cbn [full_history].
    exact (proj2 (proj2 (record_all_synced _ _ _ _ (synced_new _ _) E2 c))).
Qed.
Print Assumptions grpc_server_states_have_the_same_dates.
(** The force is that of the answer, forces then torques; the distant server gets the commands and its own name. *)
Theorem grpc_force_is_the_answer : forall A to_euler srv needs T name t s commands env states x y z waves,
  from_state A to_euler s T = Ok states -> value_at A (s_x s) (zero A) = Ok x -> value_at A (s_y s) (zero A) = Ok y -> value_at A (s_z s) (zero A) = Ok z ->
  get_wave_information A srv needs t x y z env = Ok waves -> fst (srv_force srv (mkFR states commands waves name)) = 0%Z ->
  let answer := snd (srv_force srv (mkFR states commands waves name)) in
  force A to_euler srv needs T name t s commands env = Ok ([Fx answer; Fy answer; Fz answer; Mx answer; My answer; Mz answer], fs_extra answer).
Proof.
  intros A te srv needs T name t s commands env states x y z waves E1 Ex Ey Ez E2 E3 answer. unfold force. rewrite E1, Ex, Ey, Ez. cbn [bindO]. rewrite E2. cbn [bindO].
  subst answer. destruct (srv_force srv _) as [code answer]. cbn [fst snd] in *. subst code. reflexivity.
Qed.
Print Assumptions grpc_force_is_the_answer.

(** ** C96. The wave data sent to a distant force model is what it asked for. *)
(** Elevations (pressures, velocities) given with points and a date are true if they are those of the wave model there and then. *)
Definition true_elevations {A} (w : wave_model A) (e : elevations_t A) : Prop := wm_height w (el_x e) (el_y e) (el_t e) = Ok (el_z e).
Definition true_pressures {A} (w : wave_model A) rho g (p : pressures_t A) : Prop :=
  exists eta, wm_height w (pd_x p) (pd_y p) (pd_t p) = Ok eta /\ wm_pressure w rho g (pd_x p) (pd_y p) (pd_z p) eta (pd_t p) = Ok (pd_p p).
Definition true_velocities {A} (w : wave_model A) g (v : velocities_t A) : Prop :=
  exists eta, wm_height w (ov_x v) (ov_y v) (ov_t v) = Ok eta /\
    exists vel, wm_velocity w g (ov_x v) (ov_y v) (ov_z v) (ov_t v) eta = Ok vel /\
      ov_vx v = map (fun c => fst (fst c)) vel /\ ov_vy v = map (fun c => snd (fst c)) vel /\ ov_vz v = map snd vel.
Ltac binds H := repeat match type of H with bindO ?e _ = Ok _ => let x := fresh "x" in let E := fresh "E" in destruct e as [x| |] eqn:E; [cbn [bindO] in H|discriminate|discriminate] end.
Lemma check_height_inv : forall A (w : wave_model A) x y t r, check_height A w x y t = Ok r -> List.length x = List.length y /\ wm_height w x y t = Ok r.
Proof.
  intros A w x y t r H. unfold check_height, same_size in H. destruct (Nat.eqb (List.length x) (List.length y)) eqn:E; [|discriminate]. apply Nat.eqb_eq in E. auto.
Qed.
(** When it asks for the current date, and for no pressure. *)
Theorem grpc_wave_information_partial : forall A (r : wave_request A) t env info,
  g2_t (wr_elevations r) = t -> g3_t (wr_velocities r) = t -> g3_t (wr_pressures r) = t ->
  from_wave_information A (to_wave_request A r) t env = Ok info ->
  exists w, env_w env = Some w /\
  true_elevations w (wi_elevations info) /\ el_t (wi_elevations info) = t /\ el_x (wi_elevations info) = g2_x (wr_elevations r) /\ el_y (wi_elevations info) = g2_y (wr_elevations r) /\
  true_velocities w (env_g env) (wi_velocities info) /\ ov_t (wi_velocities info) = t /\ ov_x (wi_velocities info) = g3_x (wr_velocities r) /\
    ov_y (wi_velocities info) = g3_y (wr_velocities r) /\ ov_z (wi_velocities info) = g3_z (wr_velocities r) /\
  true_pressures w (env_rho env) (env_g env) (wi_pressures info) /\ pd_x (wi_pressures info) = g3_x (wr_pressures r) /\
  (wr_need_spectrum r = true -> exists s, wi_spectrum info = Some s /\ wm_spectra w (p_x (wr_spectrum r)) (p_y (wr_spectrum r)) (p_t (wr_spectrum r)) = Ok s) /\
  (wr_need_spectrum r = false -> wi_spectrum info = None).
Proof.
  intros A r t env info T1 T2 T3 H. unfold from_wave_information in H. destruct (env_w env) as [w|] eqn:Ew; [|discriminate]. exists w. split; [reflexivity|].
  cbn [to_wave_request wr_need_spectrum wr_spectrum wr_velocities wr_elevations wr_pressures g3_x g3_y g3_z g3_t] in H. binds H. injection H as <-.
  cbn [wi_elevations wi_velocities wi_pressures wi_spectrum el_x el_y el_t el_z ov_x ov_y ov_z ov_t pd_x].
  apply check_height_inv in E0 as [_ E0]. apply check_height_inv in E2 as [_ E2]. apply check_height_inv in E3 as [_ E3].
  unfold true_elevations, true_velocities, true_pressures. cbn [el_x el_y el_t el_z ov_x ov_y ov_z ov_t ov_vx ov_vy ov_vz pd_x pd_y pd_z pd_t pd_p].
  assert (wm_velocity w (env_g env) (g3_x (wr_velocities r)) (g3_y (wr_velocities r)) (g3_z (wr_velocities r)) t x0 = Ok x1) as Ev.
  { unfold check_velocity in E1. destruct (_ || _); [discriminate|exact E1]. }
  assert (wm_pressure w (env_rho env) (env_g env) (g3_x (wr_pressures r)) (g3_y (wr_pressures r)) [] x3 t = Ok x4) as Ep.
  { unfold check_pressure in E4. destruct (negb _); [discriminate|]. destruct (negb _); [discriminate|]. destruct (negb _); [discriminate|exact E4]. }
  rewrite <- T1 at 1. split; [exact E2|]. split; [reflexivity|]. split; [reflexivity|]. split; [reflexivity|].
  split; [exists x0; rewrite <- T2 at 1; split; [exact E0|]; exists x1; auto|].
  split; [reflexivity|]. split; [reflexivity|]. split; [reflexivity|]. split; [reflexivity|].
  split; [exists x3; rewrite <- T3 at 1; auto|]. split; [reflexivity|].
  split; intros En; rewrite En in E; [|congruence].
  destruct (wm_spectra w _ _ _) eqn:Es in E; try discriminate. cbn in E. injection E as <-. eauto.
Qed.
Print Assumptions grpc_wave_information_partial.
(** Without a wave model, the simulation stops. *)
Theorem grpc_waves_needed_but_absent : forall A r t rho g, from_wave_information A r t (mkEnv None rho g) = Throw.
Proof. reflexivity. Qed.
(** Dynamic pressures cannot be obtained: a force model that asks for the pressure at one point or more, whatever the points and
    the waves, never gets an answer. (Violation of C96.) *)
Theorem grpc_pressures_refuted : forall A (r : wave_request A) t env info, g3_x (wr_pressures r) <> [] ->
  from_wave_information A (to_wave_request A r) t env <> Ok info.
Proof.
  intros A r t env info Ne H. unfold from_wave_information in H. destruct (env_w env) as [w|]; [|discriminate].
  cbn [to_wave_request wr_need_spectrum wr_spectrum wr_velocities wr_elevations wr_pressures g3_x g3_y g3_z g3_t] in H. binds H.
  unfold check_pressure, same_size in E4. destruct (negb _); [discriminate|]. destruct (g3_x (wr_pressures r)); [congruence|]. cbn in E4. discriminate.
Qed.
Print Assumptions grpc_pressures_refuted.
(** Elevations asked for another date are those of that date, but are sent as those of the current date. (Violation of C96.) *)
Theorem grpc_elevation_dates_refuted : forall A (r : wave_request A) t w rho g info z z',
  wm_height w (g2_x (wr_elevations r)) (g2_y (wr_elevations r)) (g2_t (wr_elevations r)) = Ok z ->
  wm_height w (g2_x (wr_elevations r)) (g2_y (wr_elevations r)) t = Ok z' -> z <> z' ->
  from_wave_information A (to_wave_request A r) t (mkEnv (Some w) rho g) = Ok info ->
  el_t (wi_elevations info) = t /\ el_z (wi_elevations info) = z /\ ~ true_elevations w (wi_elevations info).
Proof.
  intros A r t w rho g info z z' Hz Hz' Ne H. unfold from_wave_information in H. cbn [env_w] in H.
  cbn [to_wave_request wr_need_spectrum wr_spectrum wr_velocities wr_elevations wr_pressures g3_x g3_y g3_z g3_t env_g env_rho] in H. binds H. injection H as <-.
  apply check_height_inv in E2 as [_ E2]. unfold true_elevations. cbn [wi_elevations el_x el_y el_t el_z]. split; [reflexivity|].
  assert (x2 = z) by congruence. subst x2. split; [reflexivity|]. rewrite Hz'. intros [= K]. congruence.
Qed.
Print Assumptions grpc_elevation_dates_refuted.
(** The frequencies and directions it asks for are never sent. (Violation of C96.) *)
Theorem grpc_rao_grids_refuted : forall A r t env info, from_wave_information A r t env = Ok info -> wi_frequencies info = None /\ wi_directions info = None.
Proof. intros A r t env info H. unfold from_wave_information in H. destruct (env_w env); [|discriminate]. binds H. injection H as <-. auto. Qed.
Print Assumptions grpc_rao_grids_refuted.
(** A case of each: waves that rise with time; elevations are asked at one point. *)
Definition rising aeqR : wave_model (Rarith aeqR) :=
  mkWM (A := Rarith aeqR) (fun x _ t => Ok (map (fun _ => t) x)) (fun _ _ x _ _ _ _ => Ok (map (fun _ => 0%R) x)) (fun _ x _ _ _ _ => Ok (map (fun _ => (0, 0, 0)%R) x)) (fun _ _ _ => Ok []).
Definition ask aeqR (date : Rdefinitions.R) : wave_request (Rarith aeqR) :=
  mkWR (A := Rarith aeqR) (mkXYT (A := Rarith aeqR) [1]%R [2]%R date) (mkXYZT (A := Rarith aeqR) [] [] [] date) (mkXYZT (A := Rarith aeqR) [3]%R [4]%R [5]%R date) (mkPoint (A := Rarith aeqR) 0 0 0)%R false false true.
Example an_answered_request : forall aeqR, exists info, from_wave_information (Rarith aeqR) (to_wave_request _ (ask aeqR 7%R)) 7%R (mkEnv (A := Rarith aeqR) (Some (rising aeqR)) 1025 9.81)%R = Ok info /\ el_z (wi_elevations info) = [7%R].
Proof. intros aeqR. eexists. split; reflexivity. Qed.
Example a_wrong_date : forall aeqR, exists info, from_wave_information (Rarith aeqR) (to_wave_request _ (ask aeqR 7%R)) 8%R (mkEnv (A := Rarith aeqR) (Some (rising aeqR)) 1025 9.81)%R = Ok info /\
  ~ true_elevations (rising aeqR) (wi_elevations info).
Proof.
  intros aeqR. eexists. split; [reflexivity|]. unfold true_elevations. cbn. intros [= K]. lra.
Qed.
(** ** C97. Waves computed by a distant server: the values of the answer, unchanged. *)
(** True of elevations and pressures ([grpc_failed_calls_give_nothing]) and of the spectra without phases. *)
Theorem grpc_remote_spectra_partial : forall A srv x y t, fst (ws_spectra srv x y t) = 0%Z ->
  (forall s, In s (snd (ws_spectra srv x y t)) -> ws_phase s = []) ->
  remote_spectra A srv x y t = Ok (snd (ws_spectra srv x y t)).
Proof.
  intros A srv x y t. unfold remote_spectra. destruct (ws_spectra srv x y t) as [code l]. cbn [fst snd]. intros -> H. cbn [throw_if_invalid_status Z.eqb bindO].
  assert (forall l', (forall s, In s l' -> ws_phase s = []) -> decode_all A l l' = Ok l') as G; [|apply G; exact H].
  induction l' as [|s l' IH]; intros H'; [reflexivity|]. cbn [decode_all]. unfold decode_one. rewrite (H' s (or_introl eq_refl)). cbn [List.length Nat.eqb bindO].
  rewrite IH by (intros s' Hs; apply H'; right; exact Hs). cbn [bindO]. pose proof (H' s (or_introl eq_refl)) as Es. destruct s as [a b c d e f]. cbn in Es. subst f. reflexivity.
Qed.
Print Assumptions grpc_remote_spectra_partial.
(** A spectrum with phases: the client reads outside of the answer when spectrum number k has more than k rows of phases, for every
    k; in particular for any answer made of one spectrum with phases. (Violation of C97.) *)
Lemma phase_loop_ub : forall A (spectra : list (wire_spectrum A)), (forall k s, nth_error spectra k = Some s -> (k < List.length (ws_phase s))%nat) ->
  forall fuel j phase, phase_loop A fuel j spectra phase = UB.
Proof.
  intros A spectra H. induction fuel as [|fuel IH]; intros j phase; [reflexivity|]. cbn [phase_loop]. unfold at_ub at 1.
  destruct (nth_error spectra j) as [s|] eqn:E; [|reflexivity]. cbn [bindO]. rewrite (proj2 (Nat.ltb_lt _ _) (H j s E)).
  unfold at_ub at 1. destruct (nth_error phase j); [|reflexivity]. cbn [bindO]. unfold at_ub. destruct (nth_error (ws_phase s) j); [|reflexivity]. cbn [bindO]. apply IH.
Qed.
Theorem grpc_remote_phases_refuted : forall A srv x y t, fst (ws_spectra srv x y t) = 0%Z -> snd (ws_spectra srv x y t) <> [] ->
  (forall k s, nth_error (snd (ws_spectra srv x y t)) k = Some s -> (k < List.length (ws_phase s))%nat) ->
  remote_spectra A srv x y t = UB.
Proof.
  intros A srv x y t. unfold remote_spectra. destruct (ws_spectra srv x y t) as [code l]. cbn [fst snd]. intros -> Ne H. cbn [throw_if_invalid_status Z.eqb bindO].
  destruct l as [|s l]; [congruence|]. cbn [decode_all]. unfold decode_one.
  pose proof (H 0%nat s eq_refl) as K. destruct (ws_phase s) as [|p ph] eqn:Ep; [cbn in K; lia|]. cbn [List.length Nat.eqb].
  rewrite <- Ep in *. rewrite (phase_loop_ub A (s :: l) H). reflexivity.
Qed.
Print Assumptions grpc_remote_phases_refuted.
(** Orbital velocities: with any number of points but one, the simulation stops. (Violation of C97.) *)
Theorem grpc_remote_velocities_partial : forall A srv x y z t vx vy vz, ws_velocities srv x y z t = (0%Z, ([vx], [vy], [vz])) ->
  remote_velocities A srv x y z t = Ok [(vx, vy, vz)].
Proof. intros A srv x y z t vx vy vz E. unfold remote_velocities. rewrite E. reflexivity. Qed.
Print Assumptions grpc_remote_velocities_partial.
Theorem grpc_remote_velocities_refuted : forall A srv x y z t, List.length (fst (fst (snd (ws_velocities srv x y z t)))) <> 1%nat ->
  remote_velocities A srv x y z t = Throw.
Proof.
  intros A srv x y z t H. unfold remote_velocities. destruct (ws_velocities srv x y z t) as [code [[vx vy] vz]]. cbn [fst snd] in H.
  destruct (throw_if_invalid_status code) as [u| |] eqn:E; [|reflexivity|]; [|unfold throw_if_invalid_status in E; destruct (Z.eqb code 0); [discriminate|]; destruct (existsb _ _); discriminate].
  cbn [bindO]. destruct vx as [|a [|b vx]]; cbn in H; [reflexivity|lia|reflexivity].
Qed.
Print Assumptions grpc_remote_velocities_refuted.
(** Consequence: with distant waves that return one velocity per point, a distant force model that needs waves gets an answer only if it asks for
    the velocity at exactly one point. *)
Theorem grpc_waves_and_force_refuted : forall A srv (r : wave_request A) t rho g info,
  (forall x y z t, List.length (fst (fst (snd (ws_velocities srv x y z t)))) = List.length x) ->
  from_wave_information A (to_wave_request A r) t (mkEnv (Some (remote_waves A srv)) rho g) = Ok info -> List.length (g3_x (wr_velocities r)) = 1%nat.
Proof.
  intros A srv r t rho g info Hs H. unfold from_wave_information in H. cbn [env_w] in H. cbn [to_wave_request wr_velocities] in H. binds H.
  destruct (Nat.eq_dec (List.length (g3_x (wr_velocities r))) 1) as [|N]; [assumption|]. exfalso.
  unfold check_velocity in E1. destruct (_ || _); [discriminate|]. cbn [remote_waves wm_velocity] in E1.
  rewrite grpc_remote_velocities_refuted in E1 by (rewrite Hs; exact N). discriminate.
Qed.
Print Assumptions grpc_waves_and_force_refuted.
(** A body with two recorded states: only the last one is within half a second. *)
Definition two_states aeqR : state (Rarith aeqR) :=
  let h := mkHist (A := Rarith aeqR) 10%R [(1, 5); (2, 6)]%R 1%R in mkStates h h h h h h h h h h h h h.
Example two_states_request : forall aeqR te, exists st, from_state (Rarith aeqR) te (two_states aeqR) (1/2)%R = Ok st /\
  combine (st_t st) (s_x (st_val st)) = [(2, 6)]%R.
Proof.
  intros aeqR te. destruct (grpc_force_request_contents aeqR te (two_states aeqR) (1/2)%R) as (st & E & H & _).
  - intros c. destruct c; reflexivity.
  - discriminate.
  - lra.
  - exists st. split; [exact E|]. destruct (H X) as [K _]. cbn [get] in K. rewrite K. unfold recent, two_states, get_current_time. cbn [s_x L filter last fst].
    replace (Rltb (1/2) (2 - 1)) with true by (symmetry; apply Rltb_true; lra). replace (Rltb (1/2) (2 - 2)) with false by (symmetry; apply Rltb_false; lra). reflexivity.
Qed.
