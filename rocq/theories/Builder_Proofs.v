(** Lemmas on the construction of a simulation. *)
From Coq Require Import Reals Lra List Arith Bool Lia String.
From Verif Require Import Common Geometry Blocked_Model Sim_Model Sim_Proofs Blocked_Proofs Matrix_Model Inertia_Model Builder_Model Builder_Spec Builder_Attitude_Proofs.
Import ListNotations.
Open Scope R_scope.

Section Proofs.
Context {Env Wave Mesh Dof Blocked : Type}.
Variable blocked_dof : Dof -> nat -> outcome Blocked.
Notation parser := (@parser Env).

(** ** Parsers *)
Lemma add_loop_absent : forall (ps : list parser) m L body env b, ~ In (ym_model m) (map p_name ps) -> add_loop ps m L body env b = Ok (L, b).
Proof.
  induction ps as [|p r IH]; intros m L body env b H; [reflexivity|]. cbn [add_loop]. unfold try_to_parse.
  destruct (String.eqb_spec (ym_model m) (p_name p)) as [E|E]; [exfalso; apply H; left; symmetry; exact E|]. cbn. apply IH. intros N. apply H. right. exact N.
Qed.
Lemma add_inv : forall (ps : list parser) m L body env L', NoDup (map p_name ps) -> add ps m L body env = Ok L' ->
  exists f, L' = (L ++ [f])%list /\ made_from ps env body m f.
Proof.
  intros ps m L body env L' D H. unfold add in H.
  assert (K : forall b, add_loop ps m L body env b = Ok (L, b) /\ ~ In (ym_model m) (map p_name ps) \/
     (In (ym_model m) (map p_name ps) /\ forall r, add_loop ps m L body env b = Ok r -> snd r = true /\ exists f, fst r = (L ++ [f])%list /\ made_from ps env body m f)).
  { clear H. induction ps as [|p r IH]; intros b; [left; split; [reflexivity|intros []]|]. cbn [map] in D. inversion D as [|? ? N D']; subst. specialize (IH D').
    cbn [add_loop]. unfold try_to_parse. destruct (String.eqb_spec (ym_model m) (p_name p)) as [E|E].
    - right. split; [left; symmetry; exact E|]. intros x Hx. destruct (p_build p env (ym_yaml m) body) as [[T s]| |] eqn:B; cbn in Hx; try discriminate.
      rewrite add_loop_absent in Hx by (rewrite E; exact N). injection Hx as <-. cbn. split; [reflexivity|]. eexists. split; [reflexivity|].
      repeat split. exists p. repeat split; [left; reflexivity|symmetry; exact E|exact B].
    - cbn. destruct (IH b) as [[F N2]|[I2 F]].
      + left. split; [exact F|]. intros [X|X]; [congruence|auto].
      + right. split; [right; exact I2|]. intros x Hx. destruct (F x Hx) as (A & f & B & C1 & C2 & C3 & q & C4 & C5). split; [exact A|]. exists f. split; [exact B|].
        repeat split; auto. exists q. split; [right; exact C4|exact C5]. }
  destruct (K false) as [[F _]|[_ F]].
  - rewrite F in H. discriminate.
  - destruct (add_loop ps m L body env false) as [r| |] eqn:E; cbn in H; try discriminate. destruct (F r eq_refl) as (A & f & B & C). rewrite A in H. injection H as <-.
    exists f. split; [exact B|exact C].
Qed.
Lemma add_ok : forall (ps : list parser) m L body env, NoDup (map p_name ps) -> acceptable ps env body m -> exists L', add ps m L body env = Ok L'.
Proof.
  intros ps m L body env D (p & T & s & I1 & N1 & B). unfold add.
  assert (K : forall b, exists L', add_loop ps m L body env b = Ok (L', true)).
  { induction ps as [|q r IH]; [destruct I1|]. intros b. cbn [map] in D. inversion D as [|? ? N D']; subst. cbn [add_loop]. unfold try_to_parse.
    destruct I1 as [->|I1].
    - rewrite <- N1, String.eqb_refl, B. cbn. rewrite add_loop_absent by (rewrite <- N1; exact N). eexists. reflexivity.
    - destruct (String.eqb_spec (ym_model m) (p_name q)) as [E|E].
      + exfalso. apply N. rewrite <- E, <- N1. apply in_map, I1.
      + cbn. apply IH; assumption. }
  destruct (K false) as [L' E]. rewrite E. cbn. eexists. reflexivity.
Qed.
Lemma add_unknown : forall (ps : list parser) m L body env, ~ In (ym_model m) (map p_name ps) -> add ps m L body env = Throw.
Proof. intros. unfold add. rewrite add_loop_absent by assumption. reflexivity. Qed.
Lemma forces_from_inv : forall (ps : list parser) body env, NoDup (map p_name ps) -> forall ms L L', forces_from ps ms L body env = Ok L' ->
  exists l, L' = (L ++ l)%list /\ Forall2 (made_from ps env body) ms l.
Proof.
  intros ps body env D. induction ms as [|m r IH]; intros L L' H; cbn [forces_from] in H.
  - injection H as <-. exists []. rewrite app_nil_r. split; [reflexivity|apply Forall2_nil].
  - destruct (add ps m L body env) as [L1| |] eqn:E; cbn in H; try discriminate. destruct (add_inv _ _ _ _ _ _ D E) as (f & -> & Hf).
    destruct (IH _ _ H) as (l & -> & Hl). exists (f :: l). rewrite <- app_assoc. split; [reflexivity|]. apply Forall2_cons; assumption.
Qed.
Lemma forces_from_ok : forall (ps : list parser) body env, NoDup (map p_name ps) -> forall ms L, (forall m, In m ms -> acceptable ps env body m) ->
  exists L', forces_from ps ms L body env = Ok L'.
Proof.
  intros ps body env D. induction ms as [|m r IH]; intros L H; cbn [forces_from]; [eexists; reflexivity|].
  destruct (add_ok ps m L body env D (H m (or_introl eq_refl))) as [L' E]. rewrite E. cbn. apply IH. intros. apply H. right. assumption.
Qed.
Lemma forces_from_unknown : forall (ps : list parser) body env ms m L L', In m ms -> ~ In (ym_model m) (map p_name ps) -> forces_from ps ms L body env <> Ok L'.
Proof.
  intros ps body env. induction ms as [|a r IH]; intros m L L' I1 N H; [destruct I1|]. cbn [forces_from] in H.
  destruct (add ps a L body env) as [L1| |] eqn:E; cbn in H; try discriminate. destruct I1 as [->|I1].
  - rewrite add_unknown in E by exact N. discriminate.
  - exact (IH m L1 L' I1 N H).
Qed.
(** Whatever the parsers, the forces of a body carry the name of the body. *)
Lemma add_loop_body : forall (ps : list parser) m L body env b r, add_loop ps m L body env b = Ok r -> Forall (fun f => f_body f = body) L -> Forall (fun f => f_body f = body) (fst r).
Proof.
  induction ps as [|p ps IH]; intros m L body env b r H F; cbn [add_loop] in H; [injection H as <-; exact F|]. unfold try_to_parse in H.
  destruct (String.eqb (ym_model m) (p_name p)); cbn in H.
  - destruct (p_build p env (ym_yaml m) body); cbn in H; try discriminate. eapply IH; [exact H|]. apply Forall_app. split; [exact F|]. apply Forall_cons; [reflexivity|apply Forall_nil].
  - eapply IH; eassumption.
Qed.
Lemma forces_from_body : forall (ps : list parser) body env ms L L', forces_from ps ms L body env = Ok L' -> Forall (fun f => f_body f = body) L -> Forall (fun f => f_body f = body) L'.
Proof.
  intros ps body env. induction ms as [|m r IH]; intros L L' H F; cbn [forces_from] in H; [injection H as <-; exact F|].
  unfold add in H. destruct (add_loop ps m L body env false) as [x| |] eqn:E; cbn in H; try discriminate. destruct (snd x); cbn in H; try discriminate.
  eapply IH; [exact H|]. eapply add_loop_body; eassumption.
Qed.
Notation yaml_body := (@yaml_body Mesh Dof).
Lemma get_forces_inv : forall (ps : list parser) (section : yaml_body -> list yaml_model) env bodies ls, get_forces ps section bodies env = Ok ls ->
  Forall2 (fun b l => forces_from ps (section b) [] (y_name b) env = Ok l) bodies ls.
Proof.
  intros ps section env. induction bodies as [|b r IH]; intros ls H; cbn [get_forces] in H; [injection H as <-; apply Forall2_nil|].
  destruct (forces_from ps (section b) [] (y_name b) env) as [l| |] eqn:E; cbn in H; try discriminate.
  destruct (get_forces ps section r env) as [l2| |] eqn:E2; cbn in H; try discriminate. injection H as <-. apply Forall2_cons; [exact E|apply IH; reflexivity].
Qed.
Lemma get_forces_ok : forall (ps : list parser) (section : yaml_body -> list yaml_model) env, NoDup (map p_name ps) -> forall bodies,
  (forall b m, In b bodies -> In m (section b) -> acceptable ps env (y_name b) m) -> exists ls, get_forces ps section bodies env = Ok ls.
Proof.
  intros ps section env D. induction bodies as [|b r IH]; intros H; cbn [get_forces]; [eexists; reflexivity|].
  destruct (forces_from_ok ps (y_name b) env D (section b) [] (fun m I1 => H b m (or_introl eq_refl) I1)) as [l E]. rewrite E. cbn.
  destruct IH as [ls E2]; [intros; eapply H; [right|]; eassumption|]. rewrite E2. cbn. eexists. reflexivity.
Qed.

(** ** Bodies *)
Lemma get_bodies_inv : forall c (bodies : list yaml_body) meshes surface history i bs, get_bodies blocked_dof c bodies meshes surface history i = Ok bs ->
  List.length bs = List.length bodies /\ forall k b, nth_error bodies k = Some b ->
  exists mesh s x, map_get meshes (y_name b) = Some mesh /\ nth_error surface (i + k) = Some s /\ nth_error bs k = Some x /\
    build_body blocked_dof b mesh (i + k) c (history_of history (y_name b)) s = Ok x.
Proof.
  intros c. induction bodies as [|b r IH]; intros meshes surface history i bs H; cbn [get_bodies] in H.
  - injection H as <-. split; [reflexivity|]. intros [|k] b' E; discriminate E.
  - destruct (map_get meshes (y_name b)) as [mesh|] eqn:M; [|discriminate]. unfold at_throw in H. destruct (nth_error surface i) as [s|] eqn:SU; cbn in H; [|discriminate].
    destruct (build_body blocked_dof b mesh i c (history_of history (y_name b)) s) as [x| |] eqn:B; cbn in H; try discriminate.
    destruct (get_bodies blocked_dof c r meshes surface history (i + 1)) as [xs| |] eqn:E; cbn in H; try discriminate. injection H as <-.
    destruct (IH _ _ _ _ _ E) as [Len IH']. split; [cbn; rewrite Len; reflexivity|]. intros [|k] b' Hk; cbn in Hk.
    + injection Hk as <-. exists mesh, s, x. rewrite Nat.add_0_r. repeat split; assumption.
    + destruct (IH' k b' Hk) as (m' & s' & x' & A & B' & C & D). exists m', s', x'. replace (i + S k)%nat with (i + 1 + k)%nat by lia. repeat split; assumption.
Qed.
Lemma build_body_inv : forall (b : yaml_body) mesh idx c T s x, build_body blocked_dof b mesh idx c T s = Ok x ->
  exists rot i bl, angle2matrix (y_mesh_angle b) c = Ok rot /\ add_inertia (y_inertia b) (y_added b) = Ok i /\ blocked_dof (y_blocked b) idx = Ok bl /\
  x = mkBuilt (y_name b) idx T mesh (mkT rot (y_mesh_position b)) i (y_velocity b) bl s.
Proof.
  intros b mesh idx c T s x H. unfold build_body in H. destruct (angle2matrix (y_mesh_angle b) c) as [rot| |]; cbn in H; try discriminate.
  destruct (add_inertia (y_inertia b) (y_added b)) as [i| |]; cbn in H; try discriminate. destruct (blocked_dof (y_blocked b) idx) as [bl| |]; cbn in H; try discriminate.
  injection H as <-. exists rot, i, bl. repeat split.
Qed.
Lemma get_bodies_names : forall c (bodies : list yaml_body) meshes surface history i bs, get_bodies blocked_dof c bodies meshes surface history i = Ok bs ->
  map b_name bs = map y_name bodies.
Proof.
  intros c. induction bodies as [|b r IH]; intros meshes surface history i bs H; cbn [get_bodies] in H; [injection H as <-; reflexivity|].
  destruct (map_get meshes (y_name b)) as [mesh|] eqn:M; [|discriminate]. unfold at_throw in H. destruct (nth_error surface i) as [s|] eqn:SU; cbn in H; [|discriminate].
  destruct (build_body blocked_dof b mesh i c (history_of history (y_name b)) s) as [x| |] eqn:B; cbn in H; try discriminate.
  destruct (get_bodies blocked_dof c r meshes surface history (i + 1)) as [xs| |] eqn:E; cbn in H; try discriminate. injection H as <-. cbn [map].
  rewrite (IH _ _ _ _ _ E). apply build_body_inv in B. destruct B as (? & ? & ? & _ & _ & _ & ->). reflexivity.
Qed.
Lemma get_bodies_ok : forall c (bodies : list yaml_body) meshes surface history i,
  (forall k b, nth_error bodies k = Some b -> exists mesh s, map_get meshes (y_name b) = Some mesh /\ nth_error surface (i + k) = Some s /\
     exists x, build_body blocked_dof b mesh (i + k) c (history_of history (y_name b)) s = Ok x) ->
  exists bs, get_bodies blocked_dof c bodies meshes surface history i = Ok bs.
Proof.
  intros c. induction bodies as [|b r IH]; intros meshes surface history i H; cbn [get_bodies]; [eexists; reflexivity|].
  destruct (H 0%nat b eq_refl) as (mesh & s & M & SU & x & B). rewrite Nat.add_0_r in SU, B. rewrite M. unfold at_throw. rewrite SU. cbn. rewrite B. cbn.
  destruct (IH meshes surface history (i + 1)%nat) as [xs E].
  - intros k b' Hk. replace (i + 1 + k)%nat with (i + S k)%nat by lia. apply (H (S k) b'). exact Hk.
  - rewrite E. cbn. eexists. reflexivity.
Qed.
(** ** Maps of forces *)
Fixpoint indexed (names : list string) (ls : list (list force)) (m : list (string * list force)) : list (string * list force) :=
  match names, ls with n :: ns, l :: r => indexed ns r (map_set m n l) | _, _ => m end.
Lemma index_forces_spec : forall (bodies : list (@built_body Mesh Blocked)) forces controlled i fs cs r, index_forces bodies forces controlled i (fs, cs) = Ok r ->
  (List.length bodies + i <= List.length forces)%nat /\ (List.length bodies + i <= List.length controlled)%nat \/ bodies = [] ->
  r = (indexed (map b_name bodies) (skipn i forces) fs, indexed (map b_name bodies) (skipn i controlled) cs).
Proof.
  induction bodies as [|b bs IH]; intros forces controlled i fs cs r H L; cbn [index_forces] in H.
  - injection H as <-. reflexivity.
  - unfold at_throw in H. destruct (nth_error forces i) as [f|] eqn:F; cbn in H; [|discriminate]. destruct (nth_error controlled i) as [c|] eqn:C; cbn in H; [|discriminate].
    assert (forall A (l : list A) k x, nth_error l k = Some x -> skipn k l = x :: skipn (k + 1) l) as SK.
    { intros A l. induction l as [|a l IHl]; intros [|k] x Hx; cbn in Hx; try discriminate; [injection Hx as ->; reflexivity|]. cbn. apply IHl. exact Hx. }
    rewrite (SK _ _ _ _ F), (SK _ _ _ _ C). cbn [map indexed]. apply IH; [exact H|]. destruct L as [L|L]; [|discriminate]. cbn in L. left. lia.
Qed.
Lemma index_forces_lengths : forall (bodies : list (@built_body Mesh Blocked)) forces controlled i p r, index_forces bodies forces controlled i p = Ok r ->
  (List.length bodies + i <= List.length forces)%nat /\ (List.length bodies + i <= List.length controlled)%nat \/ bodies = [].
Proof.
  induction bodies as [|b bs IH]; intros forces controlled i [fs cs] r H; [right; reflexivity|]. left. cbn [index_forces] in H. unfold at_throw in H.
  destruct (nth_error forces i) as [f|] eqn:F; cbn in H; [|discriminate]. destruct (nth_error controlled i) as [c|] eqn:C; cbn in H; [|discriminate].
  assert (i < List.length forces)%nat by (apply nth_error_Some; congruence). assert (i < List.length controlled)%nat by (apply nth_error_Some; congruence).
  destruct (IH _ _ _ _ _ H) as [K| ->]; cbn in *; lia.
Qed.
Lemma index_forces_ok : forall (bodies : list (@built_body Mesh Blocked)) forces controlled i p,
  (List.length bodies + i <= List.length forces)%nat -> (List.length bodies + i <= List.length controlled)%nat -> exists r, index_forces bodies forces controlled i p = Ok r.
Proof.
  induction bodies as [|b bs IH]; intros forces controlled i p A B; cbn [index_forces]; [eexists; reflexivity|]. cbn in A, B. unfold at_throw.
  destruct (nth_error forces i) as [f|] eqn:F; [|apply nth_error_None in F; lia]. destruct (nth_error controlled i) as [c|] eqn:C; [|apply nth_error_None in C; lia].
  cbn. apply IH; lia.
Qed.
Lemma map_get_set : forall {A} (m : list (string * A)) k v k', map_get (map_set m k v) k' = if string_dec k k' then Some v else map_get m k'.
Proof. reflexivity. Qed.
Lemma indexed_other : forall names ls m n, ~ In n names -> map_get (indexed names ls m) n = map_get m n.
Proof.
  induction names as [|a r IH]; intros ls m n H; [reflexivity|]. destruct ls as [|l ls]; [reflexivity|]. cbn [indexed]. rewrite IH by (intros X; apply H; right; exact X).
  rewrite map_get_set. destruct (string_dec a n) as [E|]; [exfalso; apply H; left; exact E|reflexivity].
Qed.
Lemma indexed_nth : forall names ls m k n l, NoDup names -> nth_error names k = Some n -> nth_error ls k = Some l -> map_get (indexed names ls m) n = Some l.
Proof.
  induction names as [|a r IH]; intros ls m k n l D Hn Hl; [destruct k; discriminate|]. destruct ls as [|x ls]; [destruct k; discriminate|].
  inversion D as [|? ? N D']; subst. cbn [indexed]. destruct k as [|k]; cbn in Hn, Hl.
  - injection Hn as ->. injection Hl as ->. rewrite indexed_other by exact N. rewrite map_get_set. destruct (string_dec n n); [reflexivity|congruence].
  - eapply IH; eassumption.
Qed.
(** ** History *)
Lemma std_max_l : forall a b, a <= std_max a b. Proof. intros. unfold std_max, Rltb. destruct (Rlt_dec a b); lra. Qed.
Lemma std_max_r : forall a b, b <= std_max a b. Proof. intros. unfold std_max, Rltb. destruct (Rlt_dec a b); lra. Qed.
Lemma std_max_either : forall a b, std_max a b = a \/ std_max a b = b. Proof. intros. unfold std_max. destruct (Rltb a b); auto. Qed.
Lemma fold_longest : forall forces T0, T0 <= fold_left (fun T f => std_max T (f_Tmax f)) forces T0 /\
  (forall f, In f forces -> f_Tmax f <= fold_left (fun T f => std_max T (f_Tmax f)) forces T0) /\
  (fold_left (fun T f => std_max T (f_Tmax f)) forces T0 = T0 \/ exists f, In f forces /\ fold_left (fun T f => std_max T (f_Tmax f)) forces T0 = f_Tmax f).
Proof.
  induction forces as [|f r IH]; intros T0; cbn [fold_left].
  - split; [lra|]. split; [intros ? []|left; reflexivity].
  - destruct (IH (std_max T0 (f_Tmax f))) as (A & B & C). pose proof (std_max_l T0 (f_Tmax f)). pose proof (std_max_r T0 (f_Tmax f)). split; [lra|]. split.
    + intros x [<-|Hx]; [lra|apply B; exact Hx].
    + destruct C as [C|(x & Hx & C)].
      * rewrite C. destruct (std_max_either T0 (f_Tmax f)) as [E|E]; [left; exact E|right; exists f; split; [left; reflexivity|exact E]].
      * right. exists x. split; [right; exact Hx|exact C].
Qed.
Lemma longest_bound : forall forces f, In f forces -> f_Tmax f <= longest forces. Proof. intros. apply fold_longest. assumption. Qed.
Lemma longest_nonneg : forall forces, 0 <= longest forces. Proof. intros. apply fold_longest. Qed.
Lemma longest_least : forall forces, longest forces = 0 \/ exists f, In f forces /\ longest forces = f_Tmax f. Proof. intros. apply fold_longest. Qed.

(** Lists of forces given to the bodies called [names], the last one for each name being kept; [ok T l] when the history T suffices for l. *)
Lemma history_external : forall names ls, Forall2 (fun n l => Forall (fun f => f_body f = n) l) names ls ->
  forall m h, (forall n f, In f (forces_on m n) -> f_Tmax f <= history_of h n) -> (forall n, 0 <= history_of h n) ->
  (forall n f, In f (forces_on (indexed names ls m) n) -> f_Tmax f <= history_of (fold_left record_external ls h) n) /\
  (forall n, 0 <= history_of (fold_left record_external ls h) n).
Proof.
  intros names ls H. induction H as [|n0 l names ls Hl _ IH]; intros m h A B; [split; assumption|]. cbn [indexed fold_left]. apply IH.
  - intros n f. unfold forces_on, history_of. rewrite map_get_set. unfold record_external. destruct l as [|g l].
    + destruct (string_dec n0 n); [intros []|]. intros Hf. apply (A n f). unfold forces_on. exact Hf.
    + inversion Hl as [|? ? Hg Hl']; subst. rewrite map_get_set. destruct (string_dec (f_body g) n) as [E|E].
      * intros Hf. apply longest_bound. exact Hf.
      * intros Hf. apply (A n f). exact Hf.
  - intros n. unfold record_external. destruct l as [|g l]; [apply B|]. unfold history_of. rewrite map_get_set. destruct (string_dec (f_body g) n); [apply longest_nonneg|apply B].
Qed.
Lemma controlled_mono : forall ls h n, history_of h n <= history_of (fold_left record_controlled ls h) n.
Proof.
  induction ls as [|l ls IH]; intros h n; cbn [fold_left]; [lra|]. eapply Rle_trans; [|apply IH]. unfold record_controlled. destruct l as [|g l]; [lra|].
  unfold history_of at 2. rewrite map_get_set. destruct (string_dec (f_body g) n) as [E|E]; [rewrite E; apply std_max_r|unfold history_of; lra].
Qed.
Lemma history_controlled : forall names ls, Forall2 (fun n l => Forall (fun f => f_body f = n) l) names ls ->
  forall m h, (forall n f, In f (forces_on m n) -> f_Tmax f <= history_of h n) ->
  (forall n f, In f (forces_on (indexed names ls m) n) -> f_Tmax f <= history_of (fold_left record_controlled ls h) n).
Proof.
  intros names ls H. induction H as [|n0 l names ls Hl _ IH]; intros m h A; [exact A|]. cbn [indexed fold_left]. apply IH.
  intros n f. unfold forces_on. rewrite map_get_set. unfold record_controlled. destruct l as [|g l].
  - destruct (string_dec n0 n); [intros []|]. intros Hf. apply (A n f). exact Hf.
  - inversion Hl as [|? ? Hg Hl']; subst. unfold history_of at 1. rewrite map_get_set. destruct (string_dec (f_body g) n) as [E|E]; intros Hf.
    + eapply Rle_trans; [apply longest_bound; exact Hf|apply std_max_l].
    + apply (A n f). exact Hf.
Qed.
End Proofs.
