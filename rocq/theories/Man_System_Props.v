(** Properties C149 (the equations of a maneuvering model are solved whatever their order) and C150 (commands of other models in the expressions). *)
From Coq Require Import Reals List Bool String Ascii ZArith Lia Lra Permutation.
From Verif Require Import Common Hdf5_Mesh_Model Yaml_Model Yaml_Spec Yaml_Proofs Man_Model Man_Spec Man_Proofs Man_Props Man_System_Model Man_System_Spec Man_System_Proofs.
Import ListNotations.
Open Scope R_scope.

Definition six : list string := ["X"; "Y"; "Z"; "K"; "M"; "N"]%string.
(** The values known before any equation: the commands, and t, rho, nu, g *)
Definition given (commands : list (list ascii * R)) (t rho nu g : R) : list (list ascii * R) :=
  (commands ++ [(txt "t", t); (txt "rho", rho); (txt "nu", nu); (txt "g", g)])%list.
(** The equations written in the section: all its keys but "name" and "model" are equations, in the usual notation;
    the commands of other models are written model(command). *)
Definition written (exprs : list (string * string)) (equations : list (list ascii * exp)) : Prop :=
  (forall k e, In (k, e) equations -> exists key value s b, In (key, value) exprs /\ k = txt key /\ txt value = (s ++ b)%list /\ (exists raw, sum_text s raw /\ e = resolve function_names raw) /\ blanks b /\ incl (calls e) function_names) /\
  (forall key value, In (key, value) exprs -> key = "name"%string \/ key = "model"%string \/ exists e, In (txt key, e) equations) /\
  (forall k e, In (k, e) equations -> ~ In (txt "name") (k :: variables e) /\ ~ In (txt "model") (k :: variables e)).

Lemma str_inj a b : str a = str b -> a = b.
Proof. unfold str. intros H. apply (f_equal string_of_list_ascii) in H. rewrite !string_of_list_ascii_of_string in H. exact H. Qed.
Lemma known_name f : In f function_names <-> known_function f.
Proof.
  split; intros H.
  - destruct (names_known (Call f (Num 0))) as ([K|(c & K)] & _); [|exact K|discriminate]. intros g [<-|[]]. exact H.
  - unfold known_function in H. destruct (find _ functions) as [g|] eqn:F; [|congruence]. apply find_some in F as (I & E). apply text_eqb_eq in E. rewrite <- E. apply (in_map fst) in I. exact I.
Qed.
Lemma long_name f c : text_eqb (full_name f c) (str "t") = false.
Proof.
  destruct (text_eqb _ _) eqn:E; [|reflexivity]. apply text_eqb_eq in E. apply (f_equal (@List.length ascii)) in E. unfold full_name in E. rewrite app_length in E. cbn in E. rewrite app_length in E. cbn in E. lia.
Qed.
Lemma resolved e : incl (calls (resolve function_names e)) function_names -> known e /\ comp e = comp (resolve function_names e).
Proof.
  induction e as [x|n|f a IH|o a IHa b IHb]; intros H; cbn [resolve calls known comp] in *; [split; [exact I|reflexivity]|split; [exact I|reflexivity]| |].
  - destruct (in_dec (list_eq_dec ascii_dec) f function_names) as [K|K].
    + cbn [calls] in H. destruct IH as (K1 & K2); [intros g G; apply H; right; exact G|]. split; [split; [left; apply known_name, K|exact K1]|].
      cbn [comp]. rewrite K2. apply call_known, known_name, K.
    + destruct a as [x|c|g a|o a b]; try (exfalso; apply K; apply H; left; reflexivity).
      split; [split; [right; eexists; reflexivity|exact I]|]. cbn [comp]. rewrite long_name. unfold call. destruct (find _ functions) as [g|] eqn:F; [|reflexivity].
      exfalso. apply K, known_name. unfold known_function. rewrite F. discriminate.
  - cbn [calls] in H. destruct IHa as (A1 & A2); [intros g G; apply H, in_or_app; left; exact G|]. destruct IHb as (B1 & B2); [intros g G; apply H, in_or_app; right; exact G|].
    split; [split; assumption|]. rewrite A2, B2. reflexivity.
Qed.
Lemma compile_comp fmt s raw e b : sum_text s raw -> e = resolve function_names raw -> blanks b -> incl (calls e) function_names -> compile fmt (s ++ b)%list = Ok (comp e).
Proof.
  intros H -> Hb Hc. destruct (resolved raw Hc) as (K & C). rewrite <- C. destruct (sum_spec fmt (S (List.length (s ++ b)%list)) s raw b H) as (x & E & Hx).
  - rewrite app_length. lia.
  - exact K.
  - unfold follows. rewrite <- (app_nil_r b), skip_blanks by exact Hb. exact I.
  - unfold compile, parse. rewrite E, Hx. reflexivity.
Qed.
Lemma compile_total fmt s : exists n, compile fmt s = Ok n.
Proof. unfold compile. destruct (parse s) as [[e r]|]; eexists; reflexivity. Qed.
Lemma compile_all_ok fmt exprs : exists m, compile_all fmt exprs = Ok m /\ Forall2 (fun x y => fst y = str (fst x) /\ compile fmt (str (snd x)) = Ok (snd y)) exprs m.
Proof.
  induction exprs as [|(k, s) l (m & Em & F)]; cbn [compile_all]; [exists []; split; [reflexivity|constructor]|].
  destruct (compile_total fmt (str s)) as (n & En). rewrite En, Em. cbn [bindO]. eexists. split; [reflexivity|]. apply Forall2_cons; [split; [reflexivity|exact En]|exact F].
Qed.
Lemma compiled_keys fmt exprs m : Forall2 (fun x y => fst y = str (fst x) /\ compile fmt (str (snd x)) = Ok (snd y)) exprs m -> map fst m = map (fun x => str (fst x)) exprs.
Proof. intros F. induction F as [|x y l m (A & _) F IH]; [reflexivity|]. cbn [map]. rewrite A, IH. reflexivity. Qed.
Lemma compiled_in fmt exprs m : Forall2 (fun x y => fst y = str (fst x) /\ compile fmt (str (snd x)) = Ok (snd y)) exprs m -> forall k s n, In (k, s) exprs -> compile fmt (str s) = Ok n -> In (str k, n) m.
Proof.
  intros F. induction F as [|x (y1, y2) l m (A & B) F IH]; intros k s n I C; [destruct I|]. destruct I as [-> |I]; [left|right; eapply IH; eassumption].
  cbn [fst snd] in *. subst. congruence.
Qed.
Lemma compiled_from fmt exprs m : Forall2 (fun x y => fst y = str (fst x) /\ compile fmt (str (snd x)) = Ok (snd y)) exprs m -> forall k n, In (k, n) m -> exists key s, In (key, s) exprs /\ k = str key /\ compile fmt (str s) = Ok n.
Proof.
  intros F. induction F as [|(x1, x2) y l m (A & B) F IH]; intros k n I; [destruct I|]. destruct I as [-> |I].
  - exists x1, x2. cbn [fst snd] in *. split; [left; reflexivity|]. split; assumption.
  - destruct (IH k n I) as (key & s & H1 & H2). exists key, s. split; [right; exact H1|exact H2].
Qed.
Lemma keys_nodup (exprs : list (string * string)) : NoDup (map fst exprs) -> NoDup (map (fun x => str (fst x)) exprs).
Proof.
  intros N. rewrite <- (map_map fst str). induction (map fst exprs) as [|a l IH]; [constructor|]. inversion N as [|? ? N1 N2]; subst. cbn [map]. constructor; [|apply IH, N2].
  intros I. apply in_map_iff in I as (b & E & I). apply str_inj in E. subst. apply N1, I.
Qed.
Lemma nodup_unique {A B} (l : list (A * B)) k b c : NoDup (map fst l) -> In (k, b) l -> In (k, c) l -> b = c.
Proof.
  induction l as [|(x, y) l IH]; intros N I J; [destruct I|]. cbn [map fst] in N. inversion N as [|? ? N1 N2]; subst.
  destruct I as [I|I], J as [J|J]; [congruence| | |apply IH; assumption].
  - injection I as -> ->. exfalso. apply N1. apply (in_map fst) in J. exact J.
  - injection J as -> ->. exfalso. apply N1. apply (in_map fst) in I. exact I.
Qed.
Lemma known_call_idents f p a : known_function f -> idents (call f p a) = idents a.
Proof.
  unfold known_function, call. destruct (find _ functions) as [g|] eqn:F; [|congruence]. intros _.
  apply find_some in F as (I & _). unfold functions in I. cbn [In] in I. repeat (destruct I as [<-|I]; [reflexivity|]). destruct I.
Qed.
Lemma comp_idents e : incl (calls e) function_names -> forall k, In k (idents (comp e)) <-> In k (variables e) /\ k <> txt "t".
Proof.
  induction e as [x|n|f a IH|o a IHa b IHb]; intros K k; cbn [comp variables calls] in *.
  - split; [intros []|intros ([] & _)].
  - destruct (text_eqb n (str "t")) eqn:E.
    + apply text_eqb_eq in E. split; [intros []|]. intros ([<-|[]] & H). exfalso. apply H, E.
    + split; [intros [<-|[]]; split; [left; reflexivity|]|intros ([<-|[]] & _); left; reflexivity]. intros ->. rewrite text_eqb_refl in E. discriminate.
  - rewrite known_call_idents by (apply known_name, K; left; reflexivity). apply IH. intros g G. apply K. right. exact G.
  - cbn [idents]. rewrite !in_app_iff, IHa, IHb by (intros g G; apply K, in_or_app; auto). tauto.
Qed.
Lemma value_ext pow f g fn e : (forall k, In k (variables e) -> f k = g k) -> value pow f fn e = value pow g fn e.
Proof.
  induction e as [x|n|h a IH|o a IHa b IHb]; intros H; cbn [value variables] in *; [reflexivity|apply H; left; reflexivity|rewrite IH by exact H; reflexivity|].
  rewrite IHa, IHb by (intros k I; apply H, in_or_app; auto). reflexivity.
Qed.
(** Two valuations that satisfy the equations give the same values. *)
Lemma solution_unique gv eqs pow fn var var' : solution gv eqs pow fn var -> solution gv eqs pow fn var' -> forall k, computable gv eqs k -> var' k = var k.
Proof.
  intros (A & B) (A' & B') k C. induction C as [k x I|k e I H IH].
  - rewrite (A k x I), (A' k x I). reflexivity.
  - assert (C : computable gv eqs k) by (eapply by_equation; eassumption). rewrite (B k e I C), (B' k e I C). apply value_ext. exact IH.
Qed.

Section Solve.
  Variables (pow : R -> R -> R) (state : state_type -> R -> R) (fmt : R -> Man_Model.text).
  Variables (exprs : list (string * string)) (eqs : list (Man_Model.text * exp)) (gv : list (Man_Model.text * R)) (t : R) (m : list (Man_Model.text * node)).
  Hypothesis nodup_gv : NoDup (map fst gv).
  Hypothesis time : In (txt "t", t) gv.
  Hypothesis nodup : NoDup (map fst exprs).
  Hypothesis nodup_eqs : NoDup (map fst eqs).
  Hypothesis apart : forall k, In k (map fst exprs) -> ~ In (txt k) (map fst gv).
  Hypothesis wr : written exprs eqs.
  Hypothesis compiled : Forall2 (fun x y => fst y = str (fst x) /\ compile fmt (str (snd x)) = Ok (snd y)) exprs m.
  Notation E := (ds_get pow state gv m t).
  Let D := S (List.length m).
  Lemma nodup_m : NoDup (map fst m).
  Proof. rewrite (compiled_keys _ _ _ compiled). apply keys_nodup, nodup. Qed.
  Lemma eq_assoc k e : In (k, e) eqs -> assoc m k = Some (comp e) /\ assoc gv k = None /\ incl (calls e) function_names.
  Proof.
    intros I. destruct wr as (W & _). destruct (W k e I) as (key & v & s & b & J & -> & T & (raw & S0 & S1) & S2 & S3).
    assert (C : compile fmt (str v) = Ok (comp e)) by (unfold str; unfold txt in T; rewrite T; apply (compile_comp fmt s raw); assumption).
    split; [apply in_assoc; [apply nodup_m|eapply compiled_in; eassumption]|]. split; [|exact S3].
    destruct (assoc gv (txt key)) as [x|] eqn:A; [|reflexivity]. exfalso. apply assoc_in in A. apply (apart key); [apply (in_map fst) in J; exact J|apply (in_map fst) in A; exact A].
  Qed.
  Lemma assoc_eq k n : k <> txt "name" -> k <> txt "model" -> assoc m k = Some n -> exists e, In (k, e) eqs /\ n = comp e.
  Proof.
    intros N1 N2 A. apply assoc_in in A as I. destruct (compiled_from _ _ _ compiled k n I) as (key & s & J & -> & C). destruct wr as (_ & W & _).
    destruct (W key s J) as [-> |[-> |(e & K)]]; [destruct N1; reflexivity|destruct N2; reflexivity|]. exists e. split; [exact K|]. destruct (eq_assoc _ _ K) as (X & _). unfold txt in X. unfold str in A. congruence.
  Qed.
  Lemma given_get d k x : In (k, x) gv -> E d k = Ok (Some x).
  Proof. intros I. pose proof (in_assoc _ _ _ nodup_gv I) as A. destruct d; cbn [ds_get]; rewrite A; reflexivity. Qed.
  Lemma depth_bound (P : nat -> Man_Model.text -> Prop) l : (forall d d' k, (d <= d')%nat -> P d k -> P d' k) -> (forall k, In k l -> exists d, P d k) -> exists d, forall k, In k l -> P d k.
  Proof.
    intros Mono. induction l as [|a l IH]; intros H; [exists O; intros k []|]. destruct (H a (or_introl eq_refl)) as (d1 & P1). destruct IH as (d2 & P2); [intros k I; apply H; right; exact I|].
    exists (max d1 d2). intros k [<-|I]; [apply (Mono d1); [lia|exact P1]|apply (Mono d2); [lia|apply P2, I]].
  Qed.
  Lemma nget_some f n : (forall k, In k (idents n) -> exists x, f k = Ok (Some x)) -> (exists e, n = comp e /\ incl (calls e) function_names) -> exists x, node_get pow state t f n = Ok (Some x).
  Proof.
    intros H (e & -> & C). set (var := fun k => match f k with Ok (Some x) => x | _ => 0 end).
    rewrite (nget_ext pow state t f (fun k => Ok (Some (var k)))).
    - rewrite nget_value by (intros; exact I). rewrite comp_value by exact C. eexists. reflexivity.
    - intros k I. destruct (H k I) as (x & Q). unfold var. rewrite Q. reflexivity.
  Qed.
  Lemma computable_get k : computable gv eqs k -> exists d x, E d k = Ok (Some x).
  Proof.
    intros C. induction C as [k x I|k e I H IH]; [exists O, x; apply given_get, I|].
    destruct (eq_assoc k e I) as (A1 & A2 & A3).
    destruct (depth_bound (fun d v => exists x, E d v = Ok (Some x)) (variables e)) as (d & Hd).
    { intros d d' v L (x & Q). exists x. eapply mono_le; eassumption. }
    { intros v V. apply IH, V. }
    destruct (nget_some (E d) (comp e)) as (x & Q); [|eexists; split; [reflexivity|exact A3]|].
    { intros v V. apply Hd. apply comp_idents in V as (V & _); [exact V|exact A3]. }
    exists (S d), x. cbn [ds_get]. rewrite A2, A1. exact Q.
  Qed.
  Lemma get_computable d : forall k o, k <> txt "name" -> k <> txt "model" -> E d k = Ok o -> computable gv eqs k.
  Proof.
    assert (Given : forall k x, assoc gv k = Some x -> computable gv eqs k) by (intros k x A; eapply by_value, assoc_in, A).
    induction d as [|d IH]; intros k o N1 N2 H; cbn [ds_get] in H; destruct (assoc gv k) as [x|] eqn:A; try (eapply Given; exact A); destruct (assoc m k) as [n|] eqn:B; try discriminate.
    destruct (assoc_eq k n N1 N2 B) as (e & I & ->). destruct (eq_assoc k e I) as (_ & _ & C).
    apply (by_equation _ _ k e I). intros v V. destruct (list_eq_dec ascii_dec v (txt "t")) as [-> |Nt]; [eapply by_value; exact time|].
    assert (K : ok (node_get pow state t (E d) (comp e)) = true) by (rewrite H; reflexivity). rewrite nget_ok in K.
    specialize (K v (proj2 (comp_idents e C v) (conj V Nt))). destruct (E d v) as [o'| |] eqn:Q; [|discriminate|discriminate].
    destruct wr as (_ & _ & W). destruct (W k e I) as (W1 & W2). eapply IH; [| |exact Q]; intros ->; [apply W1|apply W2]; right; exact V.
  Qed.
  Definition var (k : Man_Model.text) : R := match E D k with Ok (Some x) => x | _ => 0 end.
  Lemma computable_var k : computable gv eqs k -> E D k = Ok (Some (var k)).
  Proof. intros C. destruct (computable_get k C) as (d & x & Q). apply enough in Q. unfold var, D. rewrite Q. reflexivity. Qed.
  Lemma var_solution : solution gv eqs pow (apply_function state t) var.
  Proof.
    split.
    - intros k x I. unfold var. rewrite (given_get D k x I). reflexivity.
    - intros k e I C. destruct (eq_assoc k e I) as (A1 & A2 & A3).
      assert (V : forall v, In v (variables e) -> computable gv eqs v).
      { inversion C as [k' x J|k' e' J H]; subst; [|rewrite (nodup_unique eqs k e e' nodup_eqs I J); exact H].
        exfalso. apply (in_assoc _ _ _ nodup_gv) in J. congruence. }
      pose proof (computable_var k C) as Q. apply mono in Q. cbn [ds_get] in Q. rewrite A2, A1 in Q.
      rewrite (nget_ext pow state t (E D) (fun k => Ok (Some (var k)))) in Q.
      2:{ intros v J. apply comp_idents in J as (J & _); [|exact A3]. apply computable_var, V, J. }
      rewrite nget_value in Q by (intros; exact Logic.I). rewrite comp_value in Q by exact A3. injection Q as Q. rewrite <- Q. apply value_ext.
      intros v J. unfold variable. unfold same. destruct (list_eq_dec ascii_dec v (txt "t")) as [-> |_]; [|reflexivity]. unfold var. rewrite (given_get D _ _ time). reflexivity.
  Qed.
  Lemma get_or_throw k : E D k = Throw \/ exists o, E D k = Ok o.
  Proof. pose proof (get_not_ub pow state gv m t D k) as N. destruct (E D k); [right; eauto|left; reflexivity|congruence]. Qed.
End Solve.

Lemma force_given pow state g nu rho m t commands : get_force pow state g nu rho m t commands =
  (let get k := ds_get pow state (given commands t rho nu g) m t (S (List.length m)) (txt k) in
   do x <- get "X"%string; do y <- get "Y"%string; do z <- get "Z"%string; do k <- get "K"%string; do m <- get "M"%string; do n <- get "N"%string; Ok [x; y; z; k; m; n]).
Proof. reflexivity. Qed.
(** ** C149 *)
(** If the six components can be computed, in whatever order the equations are written, the force is made of their values in the solution of the equations, which is
    unique; otherwise (a name without equation or that depends on itself), the computation of the force throws. *)
Theorem maneuvering_system pow state fmt exprs equations commands t rho nu g :
  NoDup (map fst (given commands t rho nu g)) -> NoDup (map fst exprs) -> NoDup (map fst equations) ->
  (forall k, In k (map fst exprs) -> ~ In (txt k) (map fst (given commands t rho nu g))) -> written exprs equations ->
  exists m, compile_all fmt exprs = Ok m /\
    ((forall c, In c six -> computable (given commands t rho nu g) equations (txt c)) ->
       exists var, solution (given commands t rho nu g) equations pow (apply_function state t) var /\
         (forall var', solution (given commands t rho nu g) equations pow (apply_function state t) var' -> forall k, computable (given commands t rho nu g) equations k -> var' k = var k) /\
         get_force pow state g nu rho m t commands = Ok (map (fun c => Some (var (txt c))) six)) /\
    (~ (forall c, In c six -> computable (given commands t rho nu g) equations (txt c)) -> get_force pow state g nu rho m t commands = Throw).
Proof.
  intros N1 N2 N3 Ap Wr. destruct (compile_all_ok fmt exprs) as (m & Em & F). exists m. split; [exact Em|].
  assert (Time : In (txt "t", t) (given commands t rho nu g)) by (unfold given; apply in_or_app; right; left; reflexivity).
  split.
  - intros C. exists (var pow state (given commands t rho nu g) t m). split; [eapply var_solution; eassumption|]. split.
    { intros var' S' k Ck. eapply solution_unique; [eapply var_solution; eassumption|exact S'|exact Ck]. }
    rewrite force_given. cbv zeta beta.
    assert (G : forall c, In c six -> ds_get pow state (given commands t rho nu g) m t (S (List.length m)) (txt c) = Ok (Some (var pow state (given commands t rho nu g) t m (txt c)))).
    { intros c I. eapply computable_var; try eassumption. apply C, I. }
    rewrite !G by (cbn; tauto). reflexivity.
  - intros NC. rewrite force_given. cbv zeta beta.
    assert (T : forall c, ds_get pow state (given commands t rho nu g) m t (S (List.length m)) (txt c) = Throw \/ exists o, ds_get pow state (given commands t rho nu g) m t (S (List.length m)) (txt c) = Ok o)
      by (intros c; apply get_or_throw).
    assert (G : forall c, In c six -> forall o, ds_get pow state (given commands t rho nu g) m t (S (List.length m)) (txt c) = Ok o -> computable (given commands t rho nu g) equations (txt c)).
    { intros c I o Q. eapply (get_computable pow state fmt exprs equations _ t m); try eassumption; unfold six in I; cbn [In] in I; repeat (destruct I as [<-|I]; [discriminate|]); destruct I. }
    destruct (T "X"%string) as [-> |(o1 & E1)]; [reflexivity|]. rewrite E1.
    destruct (T "Y"%string) as [-> |(o2 & E2)]; [reflexivity|]. rewrite E2.
    destruct (T "Z"%string) as [-> |(o3 & E3)]; [reflexivity|]. rewrite E3.
    destruct (T "K"%string) as [-> |(o4 & E4)]; [reflexivity|]. rewrite E4.
    destruct (T "M"%string) as [-> |(o5 & E5)]; [reflexivity|]. rewrite E5.
    destruct (T "N"%string) as [-> |(o6 & E6)]; [reflexivity|].
    exfalso. apply NC. intros c I. unfold six in I. cbn [In] in I.
    destruct I as [<-|I]; [eapply G; [cbn; tauto|exact E1]|]. destruct I as [<-|I]; [eapply G; [cbn; tauto|exact E2]|]. destruct I as [<-|I]; [eapply G; [cbn; tauto|exact E3]|].
    destruct I as [<-|I]; [eapply G; [cbn; tauto|exact E4]|]. destruct I as [<-|I]; [eapply G; [cbn; tauto|exact E5]|]. destruct I as [<-|[]]. eapply G; [cbn; tauto|exact E6].
Qed.
Print Assumptions maneuvering_system.

(** ** The order of the equations and of the commands plays no part. *)
Lemma assoc_perm {A} (l l' : list (Man_Model.text * A)) k : NoDup (map fst l) -> Permutation l l' -> assoc l k = assoc l' k.
Proof.
  intros N P. assert (N' : NoDup (map fst l')) by (eapply Permutation_NoDup; [apply Permutation_map; exact P|exact N]).
  destruct (assoc l k) as [a|] eqn:E.
  - apply assoc_in in E. symmetry. apply in_assoc; [exact N'|]. eapply Permutation_in; eassumption.
  - destruct (assoc l' k) as [a|] eqn:E'; [|reflexivity]. exfalso. apply assoc_in in E'. eapply assoc_none; [exact E|]. eapply Permutation_in; [apply Permutation_sym; exact P|exact E'].
Qed.
Lemma ds_get_ext pow state t sets sets' m m' : (forall k, assoc sets k = assoc sets' k) -> (forall k, assoc m k = assoc m' k) -> forall d k, ds_get pow state sets m t d k = ds_get pow state sets' m' t d k.
Proof.
  intros H1 H2. induction d as [|d IH]; intros k; cbn [ds_get]; rewrite H1, H2; [reflexivity|]. destruct (assoc sets' k); [reflexivity|]. destruct (assoc m' k); [|reflexivity]. apply nget_ext. intros; apply IH.
Qed.
Lemma compile_all_perm fmt l l' m : Permutation l l' -> compile_all fmt l = Ok m -> exists m', compile_all fmt l' = Ok m' /\ Permutation m m'.
Proof.
  intros P. revert m. induction P as [|(k, s) l l' P IH|(k, s) (k', s') l|l l' l'' P1 IH1 P2 IH2]; intros m H.
  - injection H as <-. exists []. split; [reflexivity|constructor].
  - cbn [compile_all] in *. destruct (compile fmt (str s)) as [n| |]; try discriminate. cbn [bindO] in *. destruct (compile_all fmt l) as [r| |]; try discriminate. injection H as <-.
    destruct (IH r eq_refl) as (m' & -> & Q). exists ((str k, n) :: m'). split; [reflexivity|]. apply perm_skip, Q.
  - cbn [compile_all] in *. destruct (compile fmt (str s')) as [n'| |]; try discriminate. cbn [bindO] in *. destruct (compile fmt (str s)) as [n| |]; try discriminate. cbn [bindO] in *.
    destruct (compile_all fmt l) as [r| |]; try discriminate. cbn [bindO] in *. injection H as <-. eexists. split; [reflexivity|]. apply perm_swap.
  - destruct (IH1 m H) as (m1 & E1 & Q1). destruct (IH2 m1 E1) as (m2 & E2 & Q2). exists m2. split; [exact E2|]. eapply perm_trans; eassumption.
Qed.
Theorem maneuvering_order pow state fmt exprs exprs' commands commands' t rho nu g m m' :
  NoDup (map fst exprs) -> NoDup (map fst (given commands t rho nu g)) -> Permutation exprs exprs' -> Permutation commands commands' ->
  compile_all fmt exprs = Ok m -> compile_all fmt exprs' = Ok m' -> get_force pow state g nu rho m' t commands' = get_force pow state g nu rho m t commands.
Proof.
  intros N1 N2 P1 P2 C C'. destruct (compile_all_perm fmt exprs exprs' m P1 C) as (m1 & C1 & P). rewrite C' in C1. injection C1 as <-.
  assert (Nm : NoDup (map fst m)).
  { destruct (compile_all_ok fmt exprs) as (m1 & C1 & F). rewrite C in C1. injection C1 as <-. rewrite (compiled_keys _ _ _ F). apply keys_nodup, N1. }
  rewrite !force_given. cbv zeta beta. rewrite <- (Permutation_length P).
  assert (G : forall k, ds_get pow state (given commands' t rho nu g) m' t (S (List.length m)) k = ds_get pow state (given commands t rho nu g) m t (S (List.length m)) k).
  { intros k. apply ds_get_ext; intros k'; symmetry; apply assoc_perm; try assumption. unfold given. apply Permutation_app_tail, P2. }
  rewrite !G. reflexivity.
Qed.
Print Assumptions maneuvering_order.

(** ** Reading: all the keys but "commands" and "reference frame" are expressions, whatever their order. *)
Definition is_expression (e : string * yaml) : bool := negb (String.eqb (fst e) "commands") && negb (String.eqb (fst e) "reference frame").
Lemma keys_loop_ok int_of l : NoDup (map fst l) -> forall l2 l1 c ex c' ex', l = (l1 ++ l2)%list ->
  (keys_loop int_of (Map l) (map fst l2) c ex = Ok (c', ex') <->
   (exists new, ex' = (ex ++ new)%list /\ Forall2 (fun e x => fst x = fst e /\ Yaml_Spec.text (snd e) (snd x)) (filter is_expression l2) new) /\
   match find_entry l2 "commands" with Some v => Yaml_Spec.list_of int_of Yaml_Spec.text v c' | None => c' = c end).
Proof.
  intros N. induction l2 as [|(k, v) l2 IH]; intros l1 c ex c' ex' E; cbn [keys_loop map fst filter find_entry].
  - split.
    + intros H. injection H as <- <-. split; [exists []; rewrite app_nil_r; split; [reflexivity|constructor]|reflexivity].
    + intros ((new & -> & F) & ->). inversion F; subst. rewrite app_nil_r. reflexivity.
  - assert (G : get (Map l) k = Ok v).
    { apply get_ok. unfold entry. exists l1, l2. split; [f_equal; exact E|]. rewrite E, map_app in N. cbn [map fst] in N. apply NoDup_remove_2 in N. intros I. apply N, in_or_app. left. exact I. }
    assert (L2 : ~ In k (map fst l2)).
    { rewrite E, map_app in N. cbn [map fst] in N. apply NoDup_remove_2 in N. intros I. apply N, in_or_app. right. exact I. }
    assert (E' : l = ((l1 ++ [(k, v)]) ++ l2)%list) by (rewrite <- app_assoc; exact E).
    unfold is_expression at 1. cbn [fst]. destruct (String.eqb k "commands") eqn:K1; cbn [negb andb].
    + apply String.eqb_eq in K1. subst k. rewrite G. cbn [bindO].
      assert (NF : find_entry l2 "commands" = None) by (apply find_entry_none; exact L2).
      split.
      * intros H. apply bind_ok in H as (cs & H1 & H2). apply (IH _ _ _ _ _ E') in H2 as (H2 & H3). rewrite NF in H3. subst cs. split; [exact H2|].
        apply (vector_ok int_of read_string Yaml_Spec.text) in H1; [exact H1|]. intros. apply string_ok.
      * intros (H2 & H1). apply bind_ok. exists c'. split; [apply (vector_ok int_of read_string Yaml_Spec.text); [intros; apply string_ok|exact H1]|]. apply (IH _ _ _ _ _ E'). rewrite NF. split; [exact H2|reflexivity].
    + destruct (String.eqb k "reference frame") eqn:K2; cbn [negb].
      * apply (IH _ _ _ _ _ E').
      * unfold string_at. rewrite G. cbn [bindO]. split.
        -- intros H. apply bind_ok in H as (x & H1 & H2). apply (IH _ _ _ _ _ E') in H2 as ((new & -> & F) & H3). split; [|exact H3].
           exists ((k, x) :: new). split; [rewrite <- app_assoc; reflexivity|]. apply Forall2_cons; [split; [reflexivity|apply string_ok, H1]|exact F].
        -- intros ((new & -> & F) & H3). inversion F as [|? (k', x) ? new' (F1 & F2) F3]; subst. cbn [fst snd] in *. subst k'. apply bind_ok. exists x. split; [apply string_ok, F2|].
           apply (IH _ _ _ _ _ E'). split; [|exact H3]. exists new'. split; [rewrite <- app_assoc; reflexivity|exact F3].
Qed.
Theorem maneuvering_section_read D mul dbl int_of factor entries r : NoDup (map fst entries) ->
  (parse_maneuvering D mul dbl int_of factor (Map entries) = Ok r <->
   under (Map entries) "reference frame" (describes_position D mul dbl factor) (mn_frame r) /\ under (Map entries) "name" Yaml_Spec.text (mn_name r) /\
   optionally (Map entries) "commands" (Yaml_Spec.list_of int_of Yaml_Spec.text) [] (mn_commands r) /\
   Forall2 (fun e x => fst x = fst e /\ Yaml_Spec.text (snd e) (snd x)) (filter is_expression entries) (mn_exprs r)).
Proof.
  intros N. unfold parse_maneuvering.
  rewrite (step_under (Map entries) "reference frame" (read_position D mul dbl factor) (describes_position D mul dbl factor)) by (intros; apply position_ok).
  assert (Loop : forall c ex, keys_loop int_of (Map entries) (keys_of (Map entries)) [] [] = Ok (c, ex) <->
    Forall2 (fun e x => fst x = fst e /\ Yaml_Spec.text (snd e) (snd x)) (filter is_expression entries) ex /\ optionally (Map entries) "commands" (Yaml_Spec.list_of int_of Yaml_Spec.text) [] c).
  { intros c ex. cbn [keys_of]. rewrite (keys_loop_ok int_of entries N entries [] [] [] c ex eq_refl). cbn [app].
    assert (Opt : match find_entry entries "commands" with Some v => Yaml_Spec.list_of int_of Yaml_Spec.text v c | None => c = [] end <-> optionally (Map entries) "commands" (Yaml_Spec.list_of int_of Yaml_Spec.text) [] c).
    { rewrite <- (try_ok (Map entries) "commands" (read_vector int_of read_string) (Yaml_Spec.list_of int_of Yaml_Spec.text) [] c) by (intros; apply vector_ok; intros; apply string_ok).
      unfold try_to_parse. cbn [FindValue]. destruct (find_entry entries "commands") as [v|]; [symmetry; apply vector_ok; intros; apply string_ok|]. split; [intros ->; reflexivity|intros H; injection H as ->; reflexivity]. }
    rewrite Opt. split; [intros ((new & -> & F) & H); split; assumption|intros (F & H); split; [exists ex; split; [reflexivity|exact F]|exact H]]. }
  split.
  - intros (f & H1 & H). apply bind_ok in H as (nm & H2 & H). apply bind_ok in H as ((c, ex) & H3 & H). injection H as <-. cbn [fst snd mn_frame mn_name mn_commands mn_exprs].
    apply string_at_ok in H2. apply Loop in H3 as (H3 & H4). tauto.
  - intros (H1 & H2 & H3 & H4). exists (mn_frame r). split; [exact H1|]. apply bind_ok. exists (mn_name r). split; [apply string_at_ok, H2|]. apply bind_ok. exists (mn_commands r, mn_exprs r).
    split; [apply Loop; split; assumption|]. destruct r; reflexivity.
Qed.
Print Assumptions maneuvering_section_read.

(** ** C150 *)
(** A text that uses the commands of other models, written model(command) with plain names, has the value it has when these commands are variables. *)
Theorem maneuvering_foreign_command_partial fmt s raw b : sum_text s raw -> blanks b -> incl (calls (resolve function_names raw)) function_names ->
  exists n, compile fmt (s ++ b)%list = Ok n /\
    forall pow ident state t, node_value pow ident state t n = Some (value pow (variable ident t) (apply_function state t) (resolve function_names raw)).
Proof.
  intros H Hb Hc. exists (comp (resolve function_names raw)). split; [eapply compile_comp; [exact H|reflexivity|exact Hb|exact Hc]|]. intros. apply comp_value, Hc.
Qed.
Print Assumptions maneuvering_foreign_command_partial.
Definition only_surge (x : string) : list (string * string) := [("X", x); ("Y", "0"); ("Z", "0"); ("K", "0"); ("M", "0"); ("N", "0")]%string.
(** The pitch ratio of a propeller is the command "P/D": Prop(P/D) is read as the unknown name "Prop(P/(D))", and the computation of the force throws although the command
    has a value. The same for the command of a model whose name has blanks. *)
Theorem maneuvering_foreign_command_refuted pow state fmt t rho nu g x :
  (exists m, compile_all fmt (only_surge "Prop(P/D)") = Ok m /\ get_force pow state g nu rho m t [(txt "Prop(P/D)", x)] = Throw) /\
  (exists m, compile_all fmt (only_surge "port side propeller(rpm)") = Ok m /\ get_force pow state g nu rho m t [(txt "port side propeller(rpm)", x)] = Throw).
Proof.
  set (zeros := fun n : node => [(str "X", n); (str "Y", Man_Model.Constant (scaled false ["0"%char] 0)); (str "Z", Man_Model.Constant (scaled false ["0"%char] 0)); (str "K", Man_Model.Constant (scaled false ["0"%char] 0)); (str "M", Man_Model.Constant (scaled false ["0"%char] 0)); (str "N", Man_Model.Constant (scaled false ["0"%char] 0))]).
  split; [exists (zeros (UnknownIdentifier (str "Prop(P/(D))")))|exists (zeros (UnknownIdentifier (str "portsidepropeller(rpm)")))].
  - split; [lazy -[scaled]; reflexivity|]. lazy -[scaled]. reflexivity.
  - split; [lazy -[scaled]; reflexivity|]. lazy -[scaled]. reflexivity.
Qed.
Print Assumptions maneuvering_foreign_command_refuted.

(** ** Examples *)
(** The example of the documentation: 0.5*SBPropRudd(rpm)^2 *)
Lemma a_letter c k : (k < 26)%nat -> c = ascii_of_nat (97 + k) \/ c = ascii_of_nat (65 + k) -> letter c.
Proof. intros; exists k; split; assumption. Qed.
Ltac is_letter :=
  match goal with |- letter ?c =>
    let n := eval vm_compute in (nat_of_ascii c) in
    first [ let k := eval vm_compute in (n - 97)%nat in apply (a_letter c k); [lia|left; reflexivity] | let k := eval vm_compute in (n - 65)%nat in apply (a_letter c k); [lia|right; reflexivity] ] end.
Ltac is_name := split; [is_letter|repeat (apply Forall_cons; [left; is_letter|]); apply Forall_nil].
Lemma variable_text s : name s -> sum_text s (Var s).
Proof. intros H. apply sum_product, product_power, power_operand. apply (operand_variable [] s); [constructor|exact H]. Qed.
Definition doc_text : list ascii := txt "2*SBPropRudd(rpm)^2".
Definition doc_exp : exp := Bin Times (Num 2) (Bin Power (Call (txt "SBPropRudd") (Var (txt "rpm"))) (Num 2)).
Example doc_written : sum_text doc_text doc_exp.
Proof.
  apply sum_product. apply (product_times (txt "2") _ [] (txt "SBPropRudd(rpm)^2")); [|constructor|].
  - apply product_power, power_operand. apply (operand_number [] _ _); [constructor|]. apply no_exponent, mantissa_integer; [discriminate|exact digit2].
  - apply (power_power (txt "SBPropRudd(rpm)") _ [] (txt "2")); [|constructor|].
    + apply (operand_call [] (txt "SBPropRudd") [] (txt "rpm") _ []); [constructor|is_name|constructor|apply variable_text; is_name|constructor].
    + left. apply (operand_number [] _ _); [constructor|]. apply no_exponent, mantissa_integer; [discriminate|exact digit2].
Qed.
Example doc_resolved : resolve function_names doc_exp = Bin Times (Num 2) (Bin Power (Var (txt "SBPropRudd(rpm)")) (Num 2)) /\ incl (calls (resolve function_names doc_exp)) function_names.
Proof.
  assert (E : resolve function_names doc_exp = Bin Times (Num 2) (Bin Power (Var (txt "SBPropRudd(rpm)")) (Num 2))).
  { unfold doc_exp. cbn [resolve]. destruct (in_dec (list_eq_dec ascii_dec) (txt "SBPropRudd") function_names) as [I|I]; [exfalso|reflexivity].
    unfold function_names, meaning in I. cbn [map fst In] in I. repeat (destruct I as [I|I]; [discriminate I|]). destruct I. }
  rewrite E. split; [reflexivity|intros k []].
Qed.
(** A section whose equations are not in the order of their computation: X needs A, which needs the command Y1 and the position three seconds ago. *)
Definition section_exprs : list (string * string) :=
  [("name", "main hull"); ("model", "maneuvering"); ("X", "A"); ("Y", "X"); ("A", "2 * x(t-3) - Y1"); ("Z", "rho"); ("K", "Z"); ("M", "K"); ("N", "2*SBPropRudd(rpm)^2")]%string.
Definition section_equations : list (list ascii * exp) :=
  [(txt "X", Var (txt "A")); (txt "Y", Var (txt "X")); (txt "A", Bin Minus (Bin Times (Num 2) (Call (txt "x") (Bin Minus (Var (txt "t")) (Num 3)))) (Var (txt "Y1")));
   (txt "Z", Var (txt "rho")); (txt "K", Var (txt "Z")); (txt "M", Var (txt "K")); (txt "N", Bin Times (Num 2) (Bin Power (Var (txt "SBPropRudd(rpm)")) (Num 2)))].
Definition section_commands (a b : R) : list (list ascii * R) := [(txt "Y1", a); (txt "SBPropRudd(rpm)", b)].
Ltac distinct := repeat (constructor; [intros I; cbn in I; repeat (destruct I as [I|I]; [discriminate I|]); exact I|]); constructor.
Example section_written : written section_exprs section_equations.
Proof.
  split; [|split].
  - intros k e I. unfold section_equations in I. cbn [In] in I.
    assert (V : forall key v, In (key, v) section_exprs -> name (txt v) -> exists key' value s b, In (key', value) section_exprs /\ txt key = txt key' /\ txt value = (s ++ b)%list /\
              (exists raw, sum_text s raw /\ Var (txt v) = resolve function_names raw) /\ blanks b /\ incl (calls (Var (txt v))) function_names).
    { intros key v J Nm. exists key, v, (txt v), []. rewrite app_nil_r. split; [exact J|]. split; [reflexivity|]. split; [reflexivity|]. split; [exists (Var (txt v)); split; [apply variable_text, Nm|reflexivity]|].
      split; [constructor|intros g []]. }
    destruct I as [I|[I|[I|[I|[I|[I|[I|[]]]]]]]]; injection I as <- <-.
    + apply (V "X" "A")%string; [cbn; tauto|is_name].
    + apply (V "Y" "X")%string; [cbn; tauto|is_name].
    + exists "A"%string, "2 * x(t-3) - Y1"%string, (txt "2 * x(t-3) - Y1"), []. rewrite app_nil_r. split; [cbn; tauto|]. split; [reflexivity|]. split; [reflexivity|].
      split; [|split; [constructor|exact maneuvering_text_calls]]. eexists. split; [exact maneuvering_text|]. cbn [resolve].
      destruct (in_dec (list_eq_dec ascii_dec) (txt "x") function_names) as [J|J]; [reflexivity|]. exfalso. apply J. apply maneuvering_text_calls. left. reflexivity.
    + apply (V "Z" "rho")%string; [cbn; tauto|is_name].
    + apply (V "K" "Z")%string; [cbn; tauto|is_name].
    + apply (V "M" "K")%string; [cbn; tauto|is_name].
    + exists "N"%string, "2*SBPropRudd(rpm)^2"%string, (txt "2*SBPropRudd(rpm)^2"), []. rewrite app_nil_r. split; [cbn; tauto|]. split; [reflexivity|]. split; [reflexivity|].
      split; [exists doc_exp; split; [exact doc_written|symmetry; apply doc_resolved]|]. split; [constructor|intros g []].
  - intros key v I. unfold section_exprs in I. cbn [In] in I.
    repeat (destruct I as [I|I]; [injection I as <- <-; first [left; reflexivity | right; left; reflexivity | right; right; eexists; unfold section_equations; cbn [In]; (left; reflexivity) || (right; left; reflexivity) || (right; right; left; reflexivity) || (do 3 right; left; reflexivity) || (do 4 right; left; reflexivity) || (do 5 right; left; reflexivity) || (do 6 right; left; reflexivity)]|]). destruct I.
  - intros k e I. unfold section_equations in I. cbn [In] in I.
    repeat (destruct I as [I|I]; [injection I as <- <-; split; intros J; cbn in J; repeat (destruct J as [J|J]; [discriminate J|]); exact J|]). destruct I.
Qed.
Example section_names a b t rho nu g : NoDup (map fst section_exprs) /\ NoDup (map fst section_equations) /\ NoDup (map fst (given (section_commands a b) t rho nu g)) /\
  forall k, In k (map fst section_exprs) -> ~ In (txt k) (map fst (given (section_commands a b) t rho nu g)).
Proof.
  split; [distinct|]. split; [distinct|]. split; [distinct|]. intros k I J. cbn in J. cbn in I.
  repeat (destruct I as [<-|I]; [cbn in J; repeat (destruct J as [J|J]; [discriminate J|]); exact J|]). exact I.
Qed.
Example section_computable a b t rho nu g c : In c six -> computable (given (section_commands a b) t rho nu g) section_equations (txt c).
Proof.
  assert (G : forall k x, In (k, x) (given (section_commands a b) t rho nu g) -> computable (given (section_commands a b) t rho nu g) section_equations k) by (intros k x I; eapply by_value; exact I).
  assert (A : computable (given (section_commands a b) t rho nu g) section_equations (txt "A")).
  { eapply by_equation; [do 2 right; left; reflexivity|]. intros v J. cbn in J. destruct J as [<-|[<-|[]]]; [eapply (G (txt "t"))|eapply (G (txt "Y1"))]; cbn; [do 2 right; left; reflexivity|left; reflexivity]. }
  assert (X_ : computable (given (section_commands a b) t rho nu g) section_equations (txt "X")) by (eapply by_equation; [left; reflexivity|intros v [<-|[]]; exact A]).
  assert (Z_ : computable (given (section_commands a b) t rho nu g) section_equations (txt "Z")).
  { eapply by_equation; [do 3 right; left; reflexivity|]. intros v [<-|[]]. eapply (G (txt "rho")). cbn. do 3 right. left. reflexivity. }
  assert (K_ : computable (given (section_commands a b) t rho nu g) section_equations (txt "K")) by (eapply by_equation; [do 4 right; left; reflexivity|intros v [<-|[]]; exact Z_]).
  intros I. cbn [In six] in I. destruct I as [<-|[<-|[<-|[<-|[<-|[<-|[]]]]]]]; try assumption.
  - eapply by_equation; [right; left; reflexivity|intros v [<-|[]]; exact X_].
  - eapply by_equation; [do 5 right; left; reflexivity|intros v [<-|[]]; exact K_].
  - eapply by_equation; [do 6 right; left; reflexivity|]. intros v [<-|[]]. eapply (G (txt "SBPropRudd(rpm)")). cbn. right. left. reflexivity.
Qed.
(** The force of this section *)
Example section_force pow state fmt a b t rho nu g : exists m, compile_all fmt section_exprs = Ok m /\
  get_force pow state g nu rho m t (section_commands a b) = Ok (map Some [2 * state X 3 - a; 2 * state X 3 - a; rho; rho; rho; 2 * pow b 2]).
Proof.
  destruct (section_names a b t rho nu g) as (N1 & N2 & N3 & N4).
  destruct (maneuvering_system pow state fmt section_exprs section_equations (section_commands a b) t rho nu g N3 N1 N2 N4 section_written) as (m & C & H & _).
  exists m. split; [exact C|]. destruct (H (fun c => section_computable a b t rho nu g c)) as (var & (G & Eq) & _ & ->). cbn [six map].
  assert (S : forall c, In c six -> computable (given (section_commands a b) t rho nu g) section_equations (txt c)) by (intros c; apply section_computable).
  assert (A : computable (given (section_commands a b) t rho nu g) section_equations (txt "A")).
  { eapply by_equation; [do 2 right; left; reflexivity|]. intros v J. cbn in J. destruct J as [<-|[<-|[]]]; [eapply (by_value _ _ (txt "t"))|eapply (by_value _ _ (txt "Y1"))]; cbn; [do 2 right; left; reflexivity|left; reflexivity]. }
  rewrite (Eq (txt "Y") (Var (txt "X"))) by ((right; left; reflexivity) || (apply S; cbn; tauto)). cbn [value].
  rewrite (Eq (txt "X") (Var (txt "A"))) by ((left; reflexivity) || (apply S; cbn; tauto)). cbn [value].
  rewrite (Eq (txt "A") (Bin Minus (Bin Times (Num 2) (Call (txt "x") (Bin Minus (Var (txt "t")) (Num 3)))) (Var (txt "Y1")))) by (exact A || (do 2 right; left; reflexivity)).
  rewrite (Eq (txt "M") (Var (txt "K"))) by ((do 5 right; left; reflexivity) || (apply S; cbn; tauto)). cbn [value].
  rewrite (Eq (txt "K") (Var (txt "Z"))) by ((do 4 right; left; reflexivity) || (apply S; cbn; tauto)). cbn [value].
  rewrite (Eq (txt "Z") (Var (txt "rho"))) by ((do 3 right; left; reflexivity) || (apply S; cbn; tauto)). cbn [value].
  rewrite (Eq (txt "N") (Bin Times (Num 2) (Bin Power (Var (txt "SBPropRudd(rpm)")) (Num 2)))) by ((do 6 right; left; reflexivity) || (apply S; cbn; tauto)). cbn [value].
  rewrite (G (txt "rho") rho) by (do 3 right; left; reflexivity). rewrite (G (txt "t") t) by (do 2 right; left; reflexivity). rewrite (G (txt "Y1") a) by (left; reflexivity).
  rewrite (G (txt "SBPropRudd(rpm)") b) by (right; left; reflexivity).
  assert (F : apply_function state t (txt "x") (t - 3) = state X (t - (t - 3))) by reflexivity. rewrite F. replace (t - (t - 3)) with 3 by ring. reflexivity.
Qed.
