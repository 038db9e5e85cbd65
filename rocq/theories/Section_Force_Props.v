(** C152-C156: the forces that the sections give. *)
From Coq Require Import Reals List Arith Bool String ZArith Lra Lia.
From Verif Require Import Common Sim_Model Hdf5_Mesh_Model Yaml_Model Yaml_Spec Yaml_Proofs Yaml_Props Yaml_Examples Sea_Examples Geometry Force_Model Wave_Proofs Force_Props Section_Model Section_Spec Section_Props.
Import ListNotations.
Open Scope R_scope.

Section Forces.
Variable dbl : string -> option R.
Variable int_of : string -> option Z.
Variable factor : string -> option R.
Notation quantity := (quantity R Rmult dbl factor). Notation number := (number R dbl). Notation numbers := (list_of int_of number).

(** ** C152: the sense of rotation of the propellers *)
(** With one of the two documented words, the torque has the sign of this sense. *)
Theorem sense_of_rotation_partial : forall n i rho Kt Kq u rpm,
  parse_propeller dbl factor n = Ok i ->
  let force := propeller_force (propeller_from rho Kt Kq i) u rpm in
  let n2 := (rpm / (2 * PI)) * (rpm / (2 * PI)) in
  let J := (1 - pi_w i) * Rabs u / (rpm / (2 * PI)) / pi_D i in
  fst force = V3 ((1 - pi_t i) * rho * n2 * pi_D i ^ 4 * Kt J) 0 0 /\
  (under n "rotation" text "clockwise" -> snd force = V3 (- (pi_etaR i * rho * n2 * pi_D i ^ 5 * Kq J)) 0 0) /\
  (under n "rotation" text "anti-clockwise" -> snd force = V3 (pi_etaR i * rho * n2 * pi_D i ^ 5 * Kq J) 0 0).
Proof.
  intros n i rho Kt Kq u rpm H force n2 J. pose proof PI_RGT_0. assert (N : rpm * rpm / (4 * PI * PI) = n2) by (unfold n2; field; lra).
  assert (F : forall s t, under n "rotation" text s -> under n "rotation" text t -> s = t).
  { intros s t (v & E & T) (w & E' & T'). rewrite (entry_fun _ _ _ _ E E') in T. exact (text_fun _ _ _ T T'). }
  apply propeller_ok in H as ((rot & A & W) & _). subst force. unfold propeller_force, propeller_from, advance_ratio. cbn [pr_w pr_etaR pr_t pr_clockwise pr_D pr_rho pr_Kt pr_Kq fst snd].
  fold J. rewrite N. split; [f_equal; ring|]. split; intros C; rewrite <- (F _ _ C A) in W.
  - rewrite (proj2 W) by reflexivity. f_equal; ring.
  - destruct (pi_clockwise i); [discriminate (proj1 W eq_refl)|]. f_equal; ring.
Qed.
(** Any other word means anti-clockwise, without a message. *)
Theorem sense_of_rotation_refuted : forall n i rot, under n "rotation" text rot -> rot <> "clockwise"%string ->
  parse_propeller dbl factor n = Ok i -> pi_clockwise i = false.
Proof.
  intros n i rot (v & E & T) Ne H. apply propeller_ok in H as ((rot' & (v' & E' & T') & W) & _). rewrite (entry_fun _ _ _ _ E E') in T. rewrite <- (text_fun _ _ _ T T') in W.
  destruct (pi_clockwise i); [exfalso; apply Ne, W; reflexivity|reflexivity].
Qed.

(** ** C153: the damping matrices *)
Lemma row6_long a b c d e f l : row6 (a :: b :: c :: d :: e :: f :: l) = Ok [a; b; c; d; e; f].
Proof. reflexivity. Qed.
Lemma row6_short l : (List.length l < 6)%nat -> row6 l = UB.
Proof. intros H. do 6 (destruct l as [|? l]; [reflexivity|]). cbn in H. lia. Qed.
Lemma row6_cases l : (row6 l = UB /\ (List.length l < 6)%nat) \/ (row6 l = Ok (firstn 6 l) /\ (6 <= List.length l)%nat).
Proof.
  destruct (le_lt_dec 6 (List.length l)) as [H|H]; [right|left; split; [apply row6_short, H|exact H]]. split; [|exact H].
  do 6 (destruct l as [|? l]; [cbn in H; lia|]). reflexivity.
Qed.
Definition long (rows : list (list R)) : Prop := forall r, In r rows -> (6 <= List.length r)%nat.
Lemma nth_firstn6 l j : (j < 6)%nat -> nth j (firstn 6 l) 0 = nth j l 0.
Proof. revert j. generalize 6%nat as k. intros k. revert l. induction k as [|k IH]; intros l j H; [lia|]. destruct l as [|a l]; [destruct j; reflexivity|]. destruct j as [|j]; [reflexivity|]. cbn. apply IH. lia. Qed.
(** Six rows of at least six numbers (the following ones are ignored) *)
Theorem damping_section_partial : forall n rows, says_rows dbl int_of n rows -> long rows ->
  exists M, parse_damping dbl int_of n = Ok M /\ forall i j, (i < 6)%nat -> (j < 6)%nat -> M i j = nth j (nth i rows []) 0.
Proof.
  intros n rows (v & a & b & c & d & e & f & E & L & -> & A & B & C & D & G & F) Hl. unfold parse_damping. unfold damping_key in E. rewrite (proj2 (get_ok _ _ _) E). cbn [bindO].
  assert (M : parse_matrix6 R dbl int_of v false "" = Ok (mkMatrix6 false "" "" [a; b; c; d; e; f])).
  { apply matrix_ok. right. repeat split; try exact L. exists a, b, c, d, e, f. repeat split; assumption. }
  rewrite M. cbn [bindO m_rows].
  assert (S6 : forall r, In r [a; b; c; d; e; f] -> row6 r = Ok (firstn 6 r)).
  { intros r I. destruct (row6_cases r) as [(_ & H)|(H & _)]; [exfalso; specialize (Hl r I); lia|exact H]. }
  rewrite (S6 a), (S6 b), (S6 c), (S6 d), (S6 e), (S6 f) by (cbn; tauto). cbn [bindO]. eexists. split; [reflexivity|].
  intros i j Hi Hj. cbv beta. do 6 (destruct i as [|i]; [cbn [nth]; apply nth_firstn6, Hj|]). lia.
Qed.
(** A row that is too short is read beyond its end, and so are the six empty rows of a matrix [from hdb]; these are the only undefined behaviours. *)
Theorem damping_section_undefined : forall n,
  parse_damping dbl int_of n = UB <-> says_from_hdb n \/ exists rows r, says_rows dbl int_of n rows /\ In r rows /\ (List.length r < 6)%nat.
Proof.
  intros n. unfold parse_damping. split.
  - intros H. destruct (get n damping_key) as [v| |] eqn:E; unfold damping_key in E; rewrite E in H; cbn [bindO] in H; [|discriminate|exfalso; exact (get_ub _ _ E)].
    apply get_ok in E. destruct (parse_matrix6 R dbl int_of v false "") as [m| |] eqn:M; cbn [bindO] in H; [|discriminate|exfalso; exact (matrix_ub _ _ _ _ _ _ M)].
    apply matrix_ok in M as [(h & _ & _ & _ & l1 & l2 & l3 & l4 & l5 & l6)|(L & _ & _ & _ & a & b & c & d & e & f & Hr & A & B & C & D & G & F)].
    + left. exists v, (m_hdb m). repeat split; assumption.
    + right. rewrite Hr in H.
      assert (Rd : says_rows dbl int_of n [a; b; c; d; e; f]) by (exists v, a, b, c, d, e, f; repeat split; assumption).
      destruct (row6_cases a) as [(_ & S1)|(S1 & _)]; [exists [a; b; c; d; e; f], a; repeat split; [exact Rd|cbn; tauto|exact S1]|]. rewrite S1 in H. cbn [bindO] in H.
      destruct (row6_cases b) as [(_ & S2)|(S2 & _)]; [exists [a; b; c; d; e; f], b; repeat split; [exact Rd|cbn; tauto|exact S2]|]. rewrite S2 in H. cbn [bindO] in H.
      destruct (row6_cases c) as [(_ & S3)|(S3 & _)]; [exists [a; b; c; d; e; f], c; repeat split; [exact Rd|cbn; tauto|exact S3]|]. rewrite S3 in H. cbn [bindO] in H.
      destruct (row6_cases d) as [(_ & S4)|(S4 & _)]; [exists [a; b; c; d; e; f], d; repeat split; [exact Rd|cbn; tauto|exact S4]|]. rewrite S4 in H. cbn [bindO] in H.
      destruct (row6_cases e) as [(_ & S5)|(S5 & _)]; [exists [a; b; c; d; e; f], e; repeat split; [exact Rd|cbn; tauto|exact S5]|]. rewrite S5 in H. cbn [bindO] in H.
      destruct (row6_cases f) as [(_ & S6)|(S6 & _)]; [exists [a; b; c; d; e; f], f; repeat split; [exact Rd|cbn; tauto|exact S6]|]. rewrite S6 in H. cbn [bindO] in H. discriminate.
  - intros [(v & f & E & Hf & l1 & l2 & l3 & l4 & l5 & l6)|(rows & r & (v & a & b & c & d & e & f & E & L & -> & A & B & C & D & G & F) & I & Hs)].
    + unfold damping_key in E. rewrite (proj2 (get_ok _ _ _) E). cbn [bindO].
      assert (M : parse_matrix6 R dbl int_of v false "" = Ok (mkMatrix6 true f "" [[]; []; []; []; []; []])) by (apply matrix_ok; left; cbn; repeat split; assumption).
      rewrite M. reflexivity.
    + unfold damping_key in E. rewrite (proj2 (get_ok _ _ _) E). cbn [bindO].
      assert (M : parse_matrix6 R dbl int_of v false "" = Ok (mkMatrix6 false "" "" [a; b; c; d; e; f])).
      { apply matrix_ok. right. repeat split; try exact L. exists a, b, c, d, e, f. repeat split; assumption. }
      rewrite M. cbn [bindO m_rows]. pose proof (row6_short r Hs) as U. apply row6_short in Hs. cbn in I.
      destruct (row6_cases a) as [(S1 & _)|(S1 & _)]; rewrite S1; cbn [bindO]; [reflexivity|].
      destruct (row6_cases b) as [(S2 & _)|(S2 & _)]; rewrite S2; cbn [bindO]; [reflexivity|].
      destruct (row6_cases c) as [(S3 & _)|(S3 & _)]; rewrite S3; cbn [bindO]; [reflexivity|].
      destruct (row6_cases d) as [(S4 & _)|(S4 & _)]; rewrite S4; cbn [bindO]; [reflexivity|].
      destruct (row6_cases e) as [(S5 & _)|(S5 & _)]; rewrite S5; cbn [bindO]; [reflexivity|].
      destruct (row6_cases f) as [(S6 & _)|(S6 & _)]; rewrite S6; cbn [bindO]; [reflexivity|].
      exfalso. destruct I as [<-|[<-|[<-|[<-|[<-|[<-|[]]]]]]]; congruence.
Qed.
(** The force: each component is the opposite of the product of its row and of the velocities, or of their signed squares. *)
Fixpoint product (a b : list R) : R := match a, b with x :: a, y :: b => x * y + product a b | _, _ => 0 end.
Definition opposite_products (rows : list (list R)) (W : list R) (w : wrench) : Prop :=
  [vx (w_force w); vy (w_force w); vz (w_force w); vx (w_torque w); vy (w_torque w); vz (w_torque w)] = map (fun r => - product r W) rows.
Lemma product6 r W : (6 <= List.length r)%nat -> product r [W 0; W 1; W 2; W 3; W 4; W 5]%nat = sum6 (fun j => nth j r 0 * W j).
Proof. intros H. do 6 (destruct r as [|? r]; [cbn in H; lia|]). unfold sum6. cbn [product nth]. destruct r; cbn [product]; ring. Qed.
Theorem damping_of_the_section : forall n rows point u v w p q r, says_rows dbl int_of n rows -> long rows ->
  (exists F, damping_of dbl int_of linear_damping point (V3 u v w) (V3 p q r) n = Ok F /\ w_point F = point /\ opposite_products rows [u; v; w; p; q; r] F) /\
  (exists F, damping_of dbl int_of quadratic_damping point (V3 u v w) (V3 p q r) n = Ok F /\ w_point F = point /\
     opposite_products rows [Rabs u * u; Rabs v * v; Rabs w * w; Rabs p * p; Rabs q * q; Rabs r * r] F).
Proof.
  intros n rows point u v w p q r Hr Hl. destruct (damping_section_partial n rows Hr Hl) as (M & HM & HE). unfold damping_of. rewrite HM. cbn [bindO].
  destruct Hr as (y & a & b & c & d & e & f & _ & _ & -> & _).
  split; (eexists; split; [reflexivity|split; [reflexivity|]]); unfold opposite_products, damping, damping_wrench; cbn [w_force w_torque vx vy vz map].
  - set (W := states6 (V3 u v w) (V3 p q r)). change [u; v; w; p; q; r] with [W 0; W 1; W 2; W 3; W 4; W 5]%nat.
    repeat f_equal; unfold linear_damping; f_equal; rewrite product6 by (apply Hl; cbn; tauto); unfold mul6, sum6; rewrite !HE by lia; reflexivity.
  - set (W := fun j => Rabs (states6 (V3 u v w) (V3 p q r) j) * states6 (V3 u v w) (V3 p q r) j).
    change [Rabs u * u; Rabs v * v; Rabs w * w; Rabs p * p; Rabs q * q; Rabs r * r] with [W 0; W 1; W 2; W 3; W 4; W 5]%nat.
    repeat f_equal; unfold quadratic_damping; f_equal; fold W; rewrite product6 by (apply Hl; cbn; tauto); unfold mul6, sum6; rewrite !HE by lia; reflexivity.
Qed.

(** ** C154: the resistance curve, with a curve through the points of the table *)
Theorem resistance_force : forall spline n vs rs point, (forall xs ys f, spline xs ys = Ok f -> through xs ys f) ->
  says_resistance dbl int_of factor n (vs, rs) -> forall u F, resistance_of dbl int_of factor spline point u n = Ok F ->
  w_point F = point /\ vy (w_force F) = 0 /\ vz (w_force F) = 0 /\ w_torque F = V3 0 0 0 /\
  (forall i r, nth_error vs i = Some u -> nth_error rs i = Some r -> vx (w_force F) = - r).
Proof.
  intros spline n vs rs point Hs Hn u F H. unfold resistance_of, resistance_curve in H. rewrite (proj2 (proj1 (resistance_section dbl int_of factor n) _) Hn) in H. cbn [bindO fst snd] in H.
  destruct (spline vs rs) as [s| |] eqn:E; try discriminate. cbn [bindO] in H. destruct (at_ub vs 0); try discriminate. cbn [bindO] in H. injection H as <-. cbn.
  repeat (split; [reflexivity|]). intros i r Hu Hr. rewrite (Hs _ _ _ E i u r Hu Hr). reflexivity.
Qed.
(** A table without a speed is not refused unless the interpolator refuses it: its first element is then read. *)
Theorem resistance_undefined : forall spline n vs rs point u, says_resistance dbl int_of factor n (vs, rs) ->
  (resistance_of dbl int_of factor spline point u n = UB <-> spline vs rs = UB \/ (vs = [] /\ exists s, spline vs rs = Ok s)).
Proof.
  intros spline n vs rs point u Hn. unfold resistance_of, resistance_curve. rewrite (proj2 (proj1 (resistance_section dbl int_of factor n) _) Hn). cbn [bindO fst snd].
  destruct (spline vs rs) as [s| |]; cbn [bindO].
  - destruct vs as [|v vs]; cbn; split; intros H; try reflexivity; try discriminate; [right; eauto|destruct H as [H|(H & _)]; discriminate].
  - split; [discriminate|intros [H|(_ & s & H)]; discriminate].
  - split; [intros _; left; reflexivity|reflexivity].
Qed.

(** ** C155: the tabulated propeller *)
Theorem tabulated_propeller : forall spline n p js kts kqs rho u rpm, (forall xs ys f, spline xs ys = Ok f -> through_in_bounds xs ys f) ->
  says_ktkq dbl int_of factor n (p, js, kts, kqs) ->
  let n2 := (rpm / (2 * PI)) * (rpm / (2 * PI)) in
  let J := (1 - pi_w p) * Rabs u / (rpm / (2 * PI)) / pi_D p in
  (forall F, ktkq_force_of dbl int_of factor spline rho u rpm n = Ok F -> forall i kt kq,
     nth_error js i = Some J -> nth_error kts i = Some kt -> nth_error kqs i = Some kq ->
     F = (V3 ((1 - pi_t p) * rho * n2 * pi_D p ^ 4 * kt) 0 0, V3 ((if pi_clockwise p then -1 else 1) * pi_etaR p * rho * n2 * pi_D p ^ 5 * kq) 0 0)) /\
  ((forall j, In j js -> J < j) \/ (forall j, In j js -> j < J) -> forall F, ktkq_force_of dbl int_of factor spline rho u rpm n <> Ok F).
Proof.
  intros spline n p js kts kqs rho u rpm Hs Hn n2 J. unfold ktkq_force_of. rewrite (proj2 (ktkq_ok dbl int_of factor n _) Hn). cbn [bindO].
  assert (N : rpm * rpm / (4 * PI * PI) = n2) by (unfold n2; pose proof PI_RGT_0; field; lra).
  assert (HJ : advance_ratio (propeller_from rho (fun _ => 0) (fun _ => 0) p) u rpm = J) by reflexivity. rewrite HJ.
  destruct (spline js kts) as [f| |] eqn:E1; try (split; [intros F H|intros _ F H]; discriminate). cbn [bindO].
  destruct (spline js kqs) as [g| |] eqn:E2; try (split; [intros F H|intros _ F H]; discriminate). cbn [bindO].
  destruct (Hs _ _ _ E1) as (A1 & B1). destruct (Hs _ _ _ E2) as (A2 & B2). split.
  - intros F H i kt kq Hj Hkt Hkq. rewrite (A1 i J kt Hj Hkt), (A2 i J kq Hj Hkq) in H. cbn [bindO] in H. injection H as <-.
    unfold propeller_force, propeller_from. cbn [pr_w pr_etaR pr_t pr_clockwise pr_D pr_rho pr_Kt pr_Kq]. rewrite N. f_equal; f_equal; ring.
  - intros O F. rewrite (B1 J O). discriminate.
Qed.

(** ** C156: constant forces *)
(** For a frame that has the axes of the body: the force, and its moment about G from the point of application. (For the other frames see constant_force_refuted.) *)
Theorem constant_force_of_the_section : forall n i frames T G, says_constant dbl factor n i -> frames (cf_frame i) = Ok T -> t_rot T = id3 ->
  exists F, constant_force_of dbl factor frames G n = Ok F /\ fst F = cf_force i /\ snd F = vadd (cf_torque i) (cross (vsub (cf_point i) G) (cf_force i)).
Proof.
  intros n i frames T G H HT HI. unfold constant_force_of. rewrite (proj2 (proj1 (constant_force_section dbl factor n) i) H). cbn [bindO]. rewrite HT. cbn [bindO].
  eexists. split; [reflexivity|]. unfold constant_force. cbn [fst snd]. rewrite HI, !mapply_id. split; [reflexivity|]. f_equal. f_equal. apply vec_eq; vec; ring.
Qed.
(** An unknown frame is refused. *)
Theorem constant_force_unknown_frame : forall n i frames G, says_constant dbl factor n i -> frames (cf_frame i) = Throw -> constant_force_of dbl factor frames G n = Throw.
Proof. intros n i frames G H HT. unfold constant_force_of. rewrite (proj2 (proj1 (constant_force_section dbl factor n) i) H). cbn [bindO]. rewrite HT. reflexivity. Qed.
End Forces.

(** ** Sections that meet the hypotheses *)
Open Scope string_scope.
Definition rows_doc (last : string) (l : list yaml) : yaml :=
  let zeros := Seq [Scalar "0"; Scalar "0"; Scalar "0"; Scalar "0"; Scalar "0"; Scalar "0"] in
  Map [("damping matrix at the center of gravity projected in the body frame",
    Map [("row 1", Seq [Scalar "5"; Scalar "1"; Scalar "0"; Scalar "0"; Scalar "0"; Scalar "1"]); ("row 2", zeros); ("row 3", zeros); ("row 4", zeros); ("row 5", zeros); (last, Seq l)]);
    ("model", Scalar "linear damping")].
Definition propeller_doc (rot : string) : yaml :=
  Map [("J", Seq [Scalar "0"; Scalar "1"]); ("Kq", Seq [Scalar "1"; Scalar "1"]); ("Kt", Seq [Scalar "5"; Scalar "1"]);
   ("diameter", q "2" "m"); ("name", Scalar "port"); 
   ("position of propeller frame", Map [("frame", Scalar "ship"); ("phi", q "0" "rad"); ("psi", q "0" "rad"); ("theta", q "0" "rad"); ("x", q "-10" "m"); ("y", q "0" "m"); ("z", q "0" "m")]);
   ("relative rotative efficiency etaR", Scalar "1"); ("rotation", Scalar rot); ("thrust deduction factor t", Scalar "0"); ("wake coefficient w", Scalar "0")].
Close Scope string_scope.
(** C151, C152: the same propeller, with a capital letter: accepted, turning the other way. *)
Definition port (cw : bool) : propeller_input :=
  mkPropeller "port" (mkPosition "ship" (mkCoord (IZR (-10) * 1) (0 * 1) (0 * 1)) (mkAngle (0 * 1) (0 * 1) (0 * 1))) 0 1 0 cw (2 * 1).
Lemma port_read : parse_propeller dblR factorR (propeller_doc "clockwise") = Ok (port true) /\ parse_propeller dblR factorR (propeller_doc "Clockwise") = Ok (port false).
Proof. split; cbv -[IZR Rmult]; reflexivity. Qed.
Example capital_letter : forall rho Kt Kq u rpm i j,
  parse_propeller dblR factorR (propeller_doc "clockwise") = Ok i -> parse_propeller dblR factorR (propeller_doc "Clockwise") = Ok j ->
  snd (propeller_force (propeller_from rho Kt Kq j) u rpm) = vopp (snd (propeller_force (propeller_from rho Kt Kq i) u rpm)).
Proof.
  intros rho Kt Kq u rpm i j Hi Hj. rewrite (proj1 port_read) in Hi. rewrite (proj2 port_read) in Hj. injection Hi as <-. injection Hj as <-.
  unfold propeller_force, propeller_from, advance_ratio, port. cbn [pr_w pr_etaR pr_t pr_clockwise pr_D pr_rho pr_Kt pr_Kq fst snd pi_w pi_etaR pi_t pi_clockwise pi_D]. apply vec_eq; vec; ring.
Qed.
(** C153 *)
Definition few (k : nat) : list yaml := repeat (Scalar "7") k.
Lemma rows_read k : says_rows dblR int_of (rows_doc "row 6" (few k)) [[5; 1; 0; 0; 0; 1]; [0; 0; 0; 0; 0; 0]; [0; 0; 0; 0; 0; 0]; [0; 0; 0; 0; 0; 0]; [0; 0; 0; 0; 0; 0]; repeat 7 k].
Proof.
  eexists _, _, _, _, _, _, _. split; [apply find_ok; reflexivity|]. split; [apply find_none; reflexivity|]. split; [reflexivity|].
  repeat split; try (eexists; split; [apply find_ok; reflexivity|]; apply doubles_ok; cbv -[IZR]; reflexivity).
  eexists. split; [apply find_ok; reflexivity|]. exists (few k). split; [reflexivity|]. unfold few. induction k as [|k IH]; [constructor|]. cbn. constructor; [|exact IH].
  exists "7"%string. split; [left; reflexivity|reflexivity].
Qed.
Example damping_force : forall u v w p q r point, exists F, damping_of dblR int_of linear_damping point (V3 u v w) (V3 p q r) (rows_doc "row 6" (few 6)) = Ok F /\
  vx (w_force F) = - (5 * u + v + r) /\ vz (w_torque F) = - (7 * (u + v + w + p + q + r)).
Proof.
  intros u v w p q r point. destruct (proj1 (damping_of_the_section dblR int_of (rows_doc "row 6" (few 6)) _ point u v w p q r (rows_read 6) ltac:(intros x [<-|[<-|[<-|[<-|[<-|[<-|[]]]]]]]; cbn; lia))) as (F & HF & _ & HO).
  exists F. split; [exact HF|]. unfold opposite_products in HO. cbn [map product repeat] in HO. injection HO as H1 _ _ _ _ H6. rewrite H1, H6. split; ring.
Qed.
Theorem damping_section_refuted : exists n rows, says_rows dblR int_of n rows /\ List.length rows = 6%nat /\ parse_damping dblR int_of n = UB.
Proof.
  eexists _, _. split; [exact (rows_read 5)|]. split; [reflexivity|]. apply damping_section_undefined. right. eexists _, _. split; [exact (rows_read 5)|]. split; [right; right; right; right; right; left; reflexivity|]. cbn. lia.
Qed.
Example damping_from_hdb : parse_damping dblR int_of (Map [(damping_key, Map [("from hdb", Scalar "ship.hdb")])])%string = UB.
Proof. apply damping_section_undefined. left. exists (Map [("from hdb", Scalar "ship.hdb")])%string, "ship.hdb"%string. repeat split; try (apply find_none; reflexivity); [apply find_ok; reflexivity|]. eexists. split; [apply find_ok; reflexivity|left; reflexivity]. Qed.
(** C154, C155: the line through two points *)
Definition line (xs ys : list R) : outcome (R -> R) :=
  match xs, ys with [a; b], [c; d] => if Rltb a b then Ok (fun x => c + (x - a) / (b - a) * (d - c)) else Throw | _, _ => Throw end.
Lemma line_through xs ys f : line xs ys = Ok f -> through xs ys f.
Proof.
  intros H. destruct xs as [|a [|b [|]]], ys as [|c [|d [|]]]; try discriminate. cbn in H. destruct (Rltb a b) eqn:E; [|discriminate]. apply Rltb_true in E. injection H as <-.
  intros i x y Hx Hy. destruct i as [|[|i]]; cbn in Hx, Hy; [| |destruct i; discriminate]; injection Hx as <-; injection Hy as <-; field; lra.
Qed.
Definition bounded_line (xs ys : list R) : outcome (R -> outcome R) :=
  match line xs ys with
  | Ok f => Ok (fun x => if (Rltb x (hd 0 xs) || Rltb (nth 1 xs 0) x)%bool then Throw else Ok (f x))
  | _ => Throw
  end.
Lemma bounded_line_through xs ys f : bounded_line xs ys = Ok f -> through_in_bounds xs ys f.
Proof.
  unfold bounded_line. destruct (line xs ys) as [g| |] eqn:E; try discriminate. intros H. injection H as <-. pose proof (line_through _ _ _ E) as T.
  destruct xs as [|a [|b [|]]], ys as [|c [|d [|]]]; try discriminate. cbn in E. destruct (Rltb a b) eqn:L; [|discriminate]. apply Rltb_true in L. cbn [hd nth]. split.
  - intros i x y Hx Hy. rewrite (T i x y Hx Hy). destruct i as [|[|i]]; cbn in Hx; [| |destruct i; discriminate]; injection Hx as <-; rewrite !Rltb_f by lra; reflexivity.
  - intros x [O|O]; cbv beta; [pose proof (O a ltac:(cbn; tauto)); rewrite (Rltb_t x a) by lra; reflexivity|pose proof (O b ltac:(cbn; tauto)); rewrite (Rltb_t b x) by lra; rewrite orb_true_r; reflexivity].
Qed.
Definition resistance_doc : yaml :=
  Map [("resistance", Map [("unit", Scalar "km"); ("values", Seq [Scalar "0"; Scalar "3"])]); ("speed", Map [("unit", Scalar "m"); ("values", Seq [Scalar "0"; Scalar "5"])])]%string.
Example resistance_at_5 : forall point, exists F, resistance_of dblR int_of factorR line point 5 resistance_doc = Ok F /\ vx (w_force F) = - 3000.
Proof.
  intros point. assert (S : says_resistance dblR int_of factorR resistance_doc ([0 * 1; 5 * 1], [0 * 1000; 3 * 1000])) by (apply resistance_section; cbv -[IZR Rmult]; reflexivity).
  assert (E : exists F, resistance_of dblR int_of factorR line point 5 resistance_doc = Ok F).
  { unfold resistance_of, resistance_curve. rewrite (proj2 (proj1 (resistance_section dblR int_of factorR resistance_doc) _) S). cbn [bindO fst snd line]. rewrite Rltb_t by lra. cbn. eauto. }
  destruct E as (F & HF). exists F. split; [exact HF|].
  destruct (resistance_force dblR int_of factorR line resistance_doc _ _ point line_through S 5 F HF) as (_ & _ & _ & _ & H). rewrite (H 1%nat (3 * 1000)); [lra| |reflexivity].
  cbn. f_equal. lra.
Qed.
(** A propeller of 2 m at 4 m/s and two turns per second: the advance ratio is 1, the last one of the table; at 5 m/s it is out of the table. *)
Example tabulated_thrust :
  ktkq_force_of dblR int_of factorR bounded_line 1000 4 (4 * PI) (propeller_doc "clockwise") = Ok (V3 64000 0 0, V3 (- 128000) 0 0) /\
  (forall F, ktkq_force_of dblR int_of factorR bounded_line 1000 5 (4 * PI) (propeller_doc "clockwise") <> Ok F).
Proof.
  pose proof PI_RGT_0 as P.
  assert (S : says_ktkq dblR int_of factorR (propeller_doc "clockwise") (port true, [0; 1], [5; 1], [1; 1])) by (apply ktkq_ok; cbv -[IZR Rmult]; reflexivity).
  assert (J4 : forall u, (1 - pi_w (port true)) * u / (4 * PI / (2 * PI)) / pi_D (port true) = u / 4) by (intros u; unfold port; cbn [pi_w pi_D]; field; lra).
  split.
  - destruct (tabulated_propeller dblR int_of factorR bounded_line _ _ _ _ _ 1000 4 (4 * PI) bounded_line_through S) as (H & _). rewrite (Rabs_right 4), J4 in H by lra.
    assert (E : exists F, ktkq_force_of dblR int_of factorR bounded_line 1000 4 (4 * PI) (propeller_doc "clockwise") = Ok F).
    { unfold ktkq_force_of. rewrite (proj2 (ktkq_ok dblR int_of factorR _ _) S). cbn [bindO]. unfold bounded_line, line. rewrite (Rltb_t 0 1) by lra. cbn [bindO hd nth].
      unfold advance_ratio, propeller_from. cbn [pr_w pr_D]. rewrite (Rabs_right 4), J4 by lra. rewrite !Rltb_f by lra. cbn [orb bindO]. eauto. }
    destruct E as (F & HF). rewrite HF. f_equal. rewrite (H F HF 1%nat 1 1); [|cbn; f_equal; lra|reflexivity|reflexivity].
    unfold port. cbn [pi_w pi_D pi_t pi_etaR pi_clockwise]. f_equal; f_equal; field; lra.
  - destruct (tabulated_propeller dblR int_of factorR bounded_line _ _ _ _ _ 1000 5 (4 * PI) bounded_line_through S) as (_ & H). rewrite (Rabs_right 5), J4 in H by lra.
    apply H. right. intros j [<-|[<-|[]]]; lra.
Qed.
(** C156 *)
Definition constant_doc : yaml :=
  Map [("K", q "0" "m"); ("M", q "0" "m"); ("N", q "0" "m"); ("X", q "2" "km"); ("Y", q "0" "m"); ("Z", q "0" "m"); ("frame", Scalar "ship"); ("x", q "0" "m"); ("y", q "3" "m"); ("z", q "0" "m")]%string.
Example constant_force_example : exists F, constant_force_of dblR factorR (fun f => if String.eqb f "ship" then Ok (mkT id3 (V3 0 0 0)) else Throw) (V3 0 0 0) constant_doc = Ok F /\
  fst F = V3 2000 0 0 /\ vz (snd F) = -6000.
Proof.
  assert (S : says_constant dblR factorR constant_doc (mkConstant "ship" (V3 (0 * 1) (3 * 1) (0 * 1)) (V3 (2 * 1000) (0 * 1) (0 * 1)) (V3 (0 * 1) (0 * 1) (0 * 1)))).
  { apply constant_force_section. cbv -[IZR Rmult]. reflexivity. }
  destruct (constant_force_of_the_section dblR factorR constant_doc _ (fun f => if String.eqb f "ship" then Ok (mkT id3 (V3 0 0 0)) else Throw) (mkT id3 (V3 0 0 0)) (V3 0 0 0) S eq_refl eq_refl) as (F & HF & H1 & H2).
  exists F. split; [exact HF|]. rewrite H1, H2. cbn [cf_force cf_point cf_torque]. split; [apply vec_eq; cbn; lra|cbn; lra].
Qed.

Print Assumptions constant_force_section.
Print Assumptions heading_controller_section.
Print Assumptions station_keeping_section.
Print Assumptions linear_hydrostatic_section.
Print Assumptions gm_section.
Print Assumptions diffraction_section.
Print Assumptions radiation_section.
Print Assumptions resistance_section.
Print Assumptions propeller_section.
Print Assumptions wageningen_section_domain.
Print Assumptions ktkq_section.
Print Assumptions rudder_section.
Print Assumptions sense_of_rotation_partial.
Print Assumptions sense_of_rotation_refuted.
Print Assumptions damping_section_partial.
Print Assumptions damping_section_undefined.
Print Assumptions damping_of_the_section.
Print Assumptions damping_section_refuted.
Print Assumptions resistance_force.
Print Assumptions resistance_undefined.
Print Assumptions tabulated_propeller.
Print Assumptions constant_force_of_the_section.
Print Assumptions constant_force_unknown_frame.
