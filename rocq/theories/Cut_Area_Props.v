(** C43, C44: the two parts of a cut triangle make up the triangle, and the points added on its edges. *)
From Coq Require Import Reals List Bool Arith ZArith Lra Lia.
From Verif Require Import Common Geometry Sim_Model Hull_Model Hull_Spec Hull_Proofs Mesh_Model Mesh_Spec Mesh_Proofs Mesh_Props Cut_Proofs Triangle_Proofs Cut_Loop_Proofs Cut_Props.
Import ListNotations.
Open Scope R_scope.

(** ** Points in the plane of a triangle *)
Definition bary (A B C : vec3) (u v : R) : vec3 := vadd A (vadd (vscale u (vsub B A)) (vscale v (vsub C A))).
Lemma bary_area : forall A B C u1 v1 u2 v2 u3 v3,
  area3 (bary A B C u1 v1) (bary A B C u2 v2) (bary A B C u3 v3) = Rabs ((u2 - u1) * (v3 - v1) - (u3 - u1) * (v2 - v1)) * area3 A B C.
Proof.
  intros. rewrite !area3_norm.
  replace (cross (vsub (bary A B C u2 v2) (bary A B C u1 v1)) (vsub (bary A B C u3 v3) (bary A B C u1 v1)))
    with (vscale ((u2 - u1) * (v3 - v1) - (u3 - u1) * (v2 - v1)) (cross (vsub B A) (vsub C A))) by (unfold bary; vring).
  rewrite norm_scale. ring.
Qed.
Lemma bary_area_pos : forall A B C u1 v1 u2 v2 u3 v3, 0 <= (u2 - u1) * (v3 - v1) - (u3 - u1) * (v2 - v1) ->
  area3 (bary A B C u1 v1) (bary A B C u2 v2) (bary A B C u3 v3) = ((u2 - u1) * (v3 - v1) - (u3 - u1) * (v2 - v1)) * area3 A B C.
Proof. intros. rewrite bary_area, Rabs_right by lra. reflexivity. Qed.
Lemma bary_A : forall A B C, A = bary A B C 0 0. Proof. intros. unfold bary. vring. Qed.
Lemma bary_B : forall A B C, B = bary A B C 1 0. Proof. intros. unfold bary. vring. Qed.
Lemma bary_C : forall A B C, C = bary A B C 0 1. Proof. intros. unfold bary. vring. Qed.
Lemma bary_AB : forall A B C x y, cut (A, x) (B, y) = bary A B C (x / (x - y)) 0. Proof. intros. unfold cut. cbn [fst snd]. generalize (x / (x - y)). intros. unfold bary. vring. Qed.
Lemma bary_BC : forall A B C y z, cut (B, y) (C, z) = bary A B C (1 - y / (y - z)) (y / (y - z)). Proof. intros. unfold cut. cbn [fst snd]. generalize (y / (y - z)). intros. unfold bary. vring. Qed.
Lemma bary_CA : forall A B C z x, cut (C, z) (A, x) = bary A B C 0 (1 - z / (z - x)). Proof. intros. unfold cut. cbn [fst snd]. generalize (z / (z - x)). intros. unfold bary. vring. Qed.

Lemma area_3 : forall p q r, area [p; q; r] = area3 p q r. Proof. intros. unfold area. cbn. ring. Qed.
Lemma area_4 : forall p q r s, area [p; q; r; s] = area3 p q r + area3 p r s. Proof. intros. unfold area. cbn. ring. Qed.
Lemma moment_3 : forall p q r, first_moment [p; q; r] = vscale (area3 p q r / 3) (vadd (vadd p q) r). Proof. intros. unfold first_moment. cbn. vring. Qed.
Lemma moment_4 : forall p q r s, first_moment [p; q; r; s] = vadd (vscale (area3 p q r / 3) (vadd (vadd p q) r)) (vscale (area3 p r s / 3) (vadd (vadd p r) s)).
Proof. intros. unfold first_moment. cbn. generalize (area3 p q r) (area3 p r s). intros. vring. Qed.

Lemma ratio : forall x y, (0 < x /\ y < 0) \/ (x < 0 /\ 0 < y) -> 0 < x / (x - y) < 1.
Proof.
  intros x y [[H H']|[H H']].
  - assert (0 < / (x - y)) by (apply Rinv_0_lt_compat; lra). unfold Rdiv. split; [nra|]. apply Rmult_lt_reg_r with (x - y); [lra|]. rewrite Rmult_assoc, Rinv_l by lra. lra.
  - replace (x / (x - y)) with (- x / (y - x)) by (field; lra). assert (0 < / (y - x)) by (apply Rinv_0_lt_compat; lra). unfold Rdiv. split; [nra|].
    apply Rmult_lt_reg_r with (y - x); [lra|]. rewrite Rmult_assoc, Rinv_l by lra. lra.
Qed.

Lemma rotated_split : forall {A} (l l' : list A), rotated l l' -> exists k, (k <= length l)%nat /\ l' = skipn k l ++ firstn k l.
Proof.
  intros A l l' (a & b & -> & ->). exists (length a). split; [rewrite app_length; lia|].
  rewrite skipn_app, skipn_all, Nat.sub_diag, firstn_app, firstn_all, Nat.sub_diag. cbn. rewrite app_nil_r. reflexivity.
Qed.


(** ** Area and first moment of a triangle or a convex quadrangle of that plane, whatever its first vertex *)
Ltac vring' := apply vec_eq; vec; ring.
Section Plane.
  Variables A B C : vec3.
  Definition pt (p : R * R) : vec3 := bary A B C (fst p) (snd p).
  Definition turn (p q r : R * R) : R := (fst q - fst p) * (snd r - snd p) - (fst r - fst p) * (snd q - snd p).
  Definition tri_moment (p q r : R * R) : vec3 := vscale (turn p q r * area3 A B C / 3) (vadd (vadd (pt p) (pt q)) (pt r)).
  Lemma turn_area : forall p q r, 0 <= turn p q r -> area3 (pt p) (pt q) (pt r) = turn p q r * area3 A B C.
  Proof. intros [p1 p2] [q1 q2] [r1 r2] H. unfold pt, turn in *. cbn [fst snd] in *. apply bary_area_pos. exact H. Qed.
  Lemma three : forall p q r l, rotated [pt p; pt q; pt r] l -> 0 <= turn p q r ->
    area l = turn p q r * area3 A B C /\ first_moment l = tri_moment p q r.
  Proof.
    intros p q r l RO H. apply rotated_split in RO as (k & K & ->). cbn [length] in K.
    assert (T1 : turn q r p = turn p q r) by (unfold turn; ring). assert (T2 : turn r p q = turn p q r) by (unfold turn; ring).
    destruct k as [|[|[|[|k]]]]; [..|lia]; cbn [skipn firstn app]; rewrite area_3, moment_3, turn_area by lra; rewrite ?T1, ?T2; (split; [reflexivity|]);
    unfold tri_moment; try reflexivity; generalize (pt p) (pt q) (pt r) (turn p q r * area3 A B C / 3); intros; vring'.
  Qed.
  Definition comb (a b c : R) : vec3 := vadd (vscale a A) (vadd (vscale b (vsub B A)) (vscale c (vsub C A))).
  Lemma sum3 : forall k p q r, vscale k (vadd (vadd (pt p) (pt q)) (pt r)) = comb (3 * k) (k * (fst p + fst q + fst r)) (k * (snd p + snd q + snd r)).
  Proof. intros k [p1 p2] [q1 q2] [r1 r2]. unfold pt, bary, comb. cbn [fst snd]. generalize (vsub B A) (vsub C A). intros. vring'. Qed.
  Lemma comb_add : forall a b c a' b' c', vadd (comb a b c) (comb a' b' c') = comb (a + a') (b + b') (c + c').
  Proof. intros. unfold comb. generalize (vsub B A) (vsub C A). intros. vring'. Qed.
  Lemma four : forall p q r s l, rotated [pt p; pt q; pt r; pt s] l -> 0 <= turn p q r -> 0 <= turn p r s -> 0 <= turn q r s -> 0 <= turn q s p ->
    area l = (turn p q r + turn p r s) * area3 A B C /\ first_moment l = vadd (tri_moment p q r) (tri_moment p r s).
  Proof.
    intros p q r s l RO H1 H2 H3 H4. apply rotated_split in RO as (k & K & ->). cbn [length] in K.
    assert (T1 : turn r s p = turn p r s) by (unfold turn; ring). assert (T2 : turn r p q = turn p q r) by (unfold turn; ring).
    assert (T3 : turn s p q = turn q s p) by (unfold turn; ring). assert (T4 : turn s q r = turn q r s) by (unfold turn; ring).
    destruct k as [|[|[|[|[|k]]]]]; [..|lia]; cbn [skipn firstn app]; rewrite area_4, moment_4, !turn_area by lra;
    (split; [unfold turn; ring|]); unfold tri_moment; rewrite !sum3, !comb_add; f_equal; unfold turn; destruct p, q, r, s; cbn [fst snd]; generalize (area3 A B C); intros; field.
  Qed.
  Lemma three' : forall a b c l p q r, rotated [a; b; c] l -> a = pt p -> b = pt q -> c = pt r -> 0 <= turn p q r ->
    area l = turn p q r * area3 A B C /\ first_moment l = tri_moment p q r.
  Proof. intros a b c l p q r RO -> -> ->. apply three. exact RO. Qed.
  Lemma four' : forall a b c d l p q r s, rotated [a; b; c; d] l -> a = pt p -> b = pt q -> c = pt r -> d = pt s ->
    0 <= turn p q r -> 0 <= turn p r s -> 0 <= turn q r s -> 0 <= turn q s p ->
    area l = (turn p q r + turn p r s) * area3 A B C /\ first_moment l = vadd (tri_moment p q r) (tri_moment p r s).
  Proof. intros a b c d l p q r s RO -> -> -> ->. apply four. exact RO. Qed.
  Ltac eat H PA PB PC := let N := fresh in match type of H with
    | rotated [?a; ?b; ?c] ?l => eassert (N : _) by (eapply (three' a b c l); [exact H|first [exact PA | exact PB | exact PC | reflexivity]|first [exact PA | exact PB | exact PC | reflexivity]|first [exact PA | exact PB | exact PC | reflexivity]|unfold turn; cbn [fst snd]; nra])
    | rotated [?a; ?b; ?c; ?d] ?l => eassert (N : _) by (eapply (four' a b c d l); [exact H|first [exact PA | exact PB | exact PC | reflexivity]|first [exact PA | exact PB | exact PC | reflexivity]|first [exact PA | exact PB | exact PC | reflexivity]|first [exact PA | exact PB | exact PC | reflexivity]|unfold turn; cbn [fst snd]; nra..]) end;
    clear H; rename N into H.
  (** The parts of the triangle under and above the surface *)
  Theorem parts : forall x y z pi pe, (x < 0 \/ y < 0 \/ z < 0) -> (0 < x \/ 0 < y \/ 0 < z) ->
    rotated (clip 1 [(A, x); (B, y); (C, z)]) pi -> rotated (clip (-1) [(A, x); (B, y); (C, z)]) pe ->
    area pi + area pe = area3 A B C /\ vadd (first_moment pi) (first_moment pe) = vscale (area3 A B C / 3) (vadd (vadd A B) C).
  Proof.
    intros x y z pi pe NE PO.
    assert (PA : A = pt (0, 0)) by apply bary_A. assert (PB : B = pt (1, 0)) by apply bary_B. assert (PC : C = pt (0, 1)) by apply bary_C.
    rewrite !clip3.
    destruct (Rtotal_order x 0) as [X|[X|X]], (Rtotal_order y 0) as [Y|[Y|Y]], (Rtotal_order z 0) as [Z|[Z|Z]]; try (exfalso; lra);
    repeat first [ rewrite keep_im by lra | rewrite drop_im by lra | rewrite keep_em by lra | rewrite drop_em by lra | rewrite xing_yes by lra | rewrite xing_no by lra ]; cbn [app];
    rewrite ?(bary_AB A B C), ?(bary_BC A B C), ?(bary_CA A B C);
    repeat match goal with |- context [?a / (?a - ?b)] => let k := fresh "k" in let H := fresh "HK" in
      assert (H : 0 < a / (a - b) < 1) by (apply ratio; lra); set (k := a / (a - b)) in *; clearbody k end;
    repeat match goal with |- context [bary A B C ?a ?b] => change (bary A B C a b) with (pt (a, b)) end.
    all: intros R1 R2.
    all: assert (TS : vscale (area3 A B C / 3) (vadd (vadd A B) C) = tri_moment (0, 0) (1, 0) (0, 1)) by
           (unfold tri_moment; rewrite <- PA, <- PB, <- PC; f_equal; unfold turn; cbn [fst snd]; field); rewrite TS; clear TS.
    all: eat R1 PA PB PC. all: eat R2 PA PB PC.
    all: destruct R1 as [-> ->], R2 as [-> ->]; split; [unfold turn; cbn [fst snd]; ring|].
    all: unfold tri_moment; rewrite !sum3, !comb_add; f_equal; unfold turn; cbn [fst snd]; field.
  Qed.
End Plane.

(** ** C43: nothing is lost and nothing is counted twice *)
(** Sum of the areas of some facets, and of their areas times their centres. *)
Definition area_of (facets : list mfacet) (i : nat) : R := match nth_error facets i with Some fc => mf_area fc | None => 0 end.
Definition moment_of (facets : list mfacet) (i : nat) : vec3 :=
  match nth_error facets i with Some fc => match mf_centroid fc with Some c => vscale (mf_area fc) c | None => v0 end | None => v0 end.
Definition total_area (facets : list mfacet) (l : list nat) : R := Rsum (map (area_of facets) l).
Definition total_moment (facets : list mfacet) (l : list nat) : vec3 := vsum (map (moment_of facets) l).

Lemma area_zero_moment : forall l, ~ 0 < area l -> first_moment l = v0.
Proof.
  intros l H. assert (Z : forall t, In t (Hull_Spec.triangles l) -> (let '(p, q, r) := t in area3 p q r) = 0).
  { pose proof (area_nonneg l) as P. assert (S0 : area l = 0) by lra. rewrite area_sum in S0. revert S0. generalize (Hull_Spec.triangles l). clear.
    induction l as [|[[p q] r] l IH]; intros S0 t Ht; [destruct Ht|]; unfold Rsum in *; cbn [map fold_right] in S0; destruct Ht as [<-|Ht].
    - pose proof (area3_pos p q r). assert (0 <= Rsum (map (fun '(p, q, r) => area3 p q r) l)).
      { clear. unfold Rsum. induction l as [|[[a b] c] l IH]; cbn [map fold_right]; [lra|]. pose proof (area3_pos a b c). lra. } unfold Rsum in *. lra.
    - pose proof (area3_pos p q r). apply IH; [|exact Ht]. assert (0 <= Rsum (map (fun '(p, q, r) => area3 p q r) l)).
      { clear. unfold Rsum. induction l as [|[[a b] c] l IH]; cbn [map fold_right]; [lra|]. pose proof (area3_pos a b c). lra. } unfold Rsum in *. lra. }
  unfold first_moment. revert Z. generalize (Hull_Spec.triangles l). clear. induction l as [|[[p q] r] l IH]; intros Z; [reflexivity|].
  unfold vsum in *. cbn [map fold_right]. rewrite IH by (intros t Ht; apply Z; right; exact Ht). rewrite (Z (p, q, r) (or_introl eq_refl)). replace (0 / 3) with 0 by field. vring.
Qed.
Lemma moment_first : forall facets i fc pts, nth_error facets i = Some fc -> mf_area fc = area pts -> mf_centroid fc = centre_of_gravity pts -> moment_of facets i = first_moment pts.
Proof.
  intros facets i fc pts N HA HC. unfold moment_of. rewrite N, HC, HA, centre_of_gravity_eq.
  destruct (Mesh_Proofs.Rltb_dec 0 (area pts)) as [[-> P]|[-> P]].
  - generalize (first_moment pts). intros w. assert (area pts * / area pts = 1) by (field; lra). destruct w as [w1 w2 w3]. unfold vscale. cbn. apply vec_eq; cbn; rewrite <- Rmult_assoc, H; ring.
  - symmetry. apply area_zero_moment. lra.
Qed.

Lemma has_points_fun : forall nodes vs p q, has_points nodes vs p -> has_points nodes vs q -> p = q.
Proof.
  unfold has_points. intros nodes vs p q H1 H2. rewrite H1 in H2. clear H1. revert q H2. induction p as [|a p IH]; intros [|b q] H; try discriminate H; [reflexivity|].
  cbn in H. injection H as -> H. f_equal. apply IH. exact H.
Qed.
Lemma has_points_mono : forall a b vs p, has_points a vs p -> has_points (a ++ b) vs p.
Proof.
  unfold has_points. intros a b vs. induction vs as [|v vs IH]; intros [|q p] H; try discriminate H; [reflexivity|]. cbn in *. injection H as H1 H2.
  rewrite (nth_error_mono _ _ _ _ H1). f_equal. apply IH. exact H2.
Qed.

(** One facet *)
Lemma facet_adds_up : forall nodes facets z f im em fc A B C, cut_as nodes facets z f im em -> nth_error facets f = Some fc ->
  has_points nodes (mf_vertices fc) [A; B; C] -> mf_area fc = area [A; B; C] -> mf_centroid fc = centre_of_gravity [A; B; C] ->
  (exists i, In i (mf_vertices fc) /\ z i <> 0) ->
  total_area facets im + total_area facets em = area [A; B; C] /\ vadd (total_moment facets im) (total_moment facets em) = first_moment [A; B; C].
Proof.
  intros nodes facets z f im em fc A B C (fc' & pts & F & HP & H) F' HP' HA HC NZ. rewrite F' in F. injection F as <-.
  pose proof (has_points_fun _ _ _ _ HP HP') as ->. cbv zeta in H. unfold total_area, total_moment, Rsum, vsum.
  destruct H as [(_ & _ & -> & ->)|[(_ & _ & -> & ->)|(AB & i & e & fi & fe & pi & pe & -> & -> & Fi & Fe & Pi & Pe & Ri & Re & _ & _ & Ai & Ae & Ci & Ce)]]; cbn [map fold_right].
  - rewrite (moment_first _ _ _ _ F' HA HC). unfold area_of. rewrite F', HA. split; [ring|]. generalize (first_moment [A; B; C]). intros. vring.
  - rewrite (moment_first _ _ _ _ F' HA HC). unfold area_of. rewrite F', HA. split; [ring|]. generalize (first_moment [A; B; C]). intros. vring.
  - rewrite (moment_first _ _ _ _ Fi Ai Ci), (moment_first _ _ _ _ Fe Ae Ce). unfold area_of. rewrite Fi, Fe, Ai, Ae.
    unfold has_points in HP'. destruct (mf_vertices fc) as [|a [|b [|c [|]]]]; try discriminate HP'. cbn [map combine] in Ri, Re.
    assert (BE : (exists i, In i [a; b; c] /\ 0 < z i) <-> (0 < z a \/ 0 < z b \/ 0 < z c)).
    { cbn [In]. split; [intros (j & [<-|[<-|[<-|[]]]] & H); auto|intros [H|[H|H]]; [exists a|exists b|exists c]; auto]. }
    assert (AV : (exists i, In i [a; b; c] /\ z i < 0) <-> (z a < 0 \/ z b < 0 \/ z c < 0)).
    { cbn [In]. split; [intros (j & [<-|[<-|[<-|[]]]] & H); auto|intros [H|[H|H]]; [exists a|exists b|exists c]; auto]. }
    rewrite BE, AV in AB. assert (NZ' : z a <> 0 \/ z b <> 0 \/ z c <> 0) by (destruct NZ as (j & [<-|[<-|[<-|[]]]] & H); auto).
    destruct (parts A B C (z a) (z b) (z c) pi pe) as [P1 P2]; try assumption; [lra..|].
    rewrite area_3, moment_3. split; [lra|]. rewrite <- P2. generalize (first_moment pi) (first_moment pe). intros. vring.
Qed.

Lemma total_area_app : forall facets l k, total_area facets (l ++ k) = total_area facets l + total_area facets k.
Proof. intros. unfold total_area. rewrite map_app. apply Rsum_app. Qed.
Lemma total_moment_app : forall facets l k, total_moment facets (l ++ k) = vadd (total_moment facets l) (total_moment facets k).
Proof. intros. unfold total_moment. rewrite map_app. apply vsum_app. Qed.

(** C43: if no triangle is entirely on the surface, the areas of the immersed and emerged facets add up to the area of the mesh, and so do the areas
    times the centres. *)
Theorem immersed_and_emerged_add_up_partial : forall check v m I rel waves I', triangle_mesh v -> build_mesh check v = Ok m -> reachable m I ->
  length rel = m_nnodes m -> length waves = m_nnodes m ->
  (forall fc, In fc (m_facets m) -> exists i, In i (mf_vertices fc) /\ nth i rel 0 <> 0) ->
  update_intersection I rel waves = Ok I' ->
  total_area (m_facets (i_mesh I')) (i_immersed I') + total_area (m_facets (i_mesh I')) (i_emerged I') = Rsum (map area v) /\
  vadd (total_moment (m_facets (i_mesh I')) (i_immersed I')) (total_moment (m_facets (i_mesh I')) (i_emerged I')) = vsum (map first_moment v).
Proof.
  intros check v m I rel waves I' T B RE HR HW NZ U. destruct (free_surface_cut_partial check v m I rel waves T B RE HR HW) as (J & U' & SC). rewrite U in U'. injection U' as <-.
  pose proof (mesh_tables_are_faithful check v m B) as [TF TG _ _ _ _ _ _ _]. destruct (build_mesh_shape _ _ _ B) as (S1 & S2 & S3 & S4).
  assert (FV : filter (fun l => negb (length l =? 0)%nat) v = v).
  { clear - T. induction v as [|l v IH]; [reflexivity|]. cbn [filter]. destruct (T l (or_introl eq_refl)) as (A & B & C & -> & _). cbn. f_equal. apply IH. intros k Hk. apply T. right. exact Hk. }
  rewrite FV in TF, TG. destruct (sc_static _ _ _ _ SC) as [(A1 & A2 & A3) _ SN _ SF (L1 & _ & _)].
  destruct (sc_facets _ _ _ _ SC) as (ims & ems & N1 & N2 & -> & -> & CA). set (facets := m_facets (i_mesh I')) in *.
  assert (FS : forall f fc, nth_error (m_facets m) f = Some fc -> nth_error facets f = Some fc).
  { intros f fc Hf. assert (Lf : (f < m_nfacets m)%nat) by (rewrite S2; apply nth_error_Some; congruence).
    rewrite <- (nth_error_firstn facets _ _ Lf), SF, (nth_error_firstn _ _ _ Lf). exact Hf. }
  assert (ALL : m_all (i_mesh I') = static_nodes m ++ skipn (m_nnodes m) (m_all (i_mesh I'))).
  { rewrite <- SN. unfold static_nodes. rewrite A1. symmetry. apply firstn_skipn. }
  assert (PER : forall f pts im em, nth_error v f = Some pts -> nth_error ims f = Some im -> nth_error ems f = Some em ->
    total_area facets im + total_area facets em = area pts /\ vadd (total_moment facets im) (total_moment facets em) = first_moment pts).
  { intros f pts im em Hv Hi He. destruct (nth_error (m_facets m) f) as [fc|] eqn:Ef.
    2:{ apply nth_error_None in Ef. rewrite <- (Forall2_length' _ _ _ TF) in Ef. assert (f < length v)%nat by (apply nth_error_Some; congruence). lia. }
    pose proof (Forall2_nth_l _ _ _ _ _ _ TF Hv Ef) as HP. destruct (Forall2_nth_l _ _ _ _ _ _ TG Hv Ef) as (_ & HA & HC). cbv beta in HP.
    destruct (T _ (nth_error_In _ _ Hv)) as (A & B' & C & -> & _).
    apply (facet_adds_up (m_all (i_mesh I')) facets (fun i => nth i rel 0) f im em fc A B' C); auto.
    - rewrite ALL. apply has_points_mono. exact HP.
    - apply NZ. apply nth_error_In in Ef. exact Ef. }
  assert (LV : length v = m_nfacets m) by (rewrite S2; exact (Forall2_length' _ _ _ TF)).
  rewrite <- LV in N1, N2. clear - PER N1 N2. revert ims ems PER N1 N2. induction v as [|pts v IH]; intros [|im ims] [|em ems] PER N1 N2; try discriminate.
  - cbn. split; [lra|vring].
  - destruct (PER 0%nat pts im em eq_refl eq_refl eq_refl) as [P1 P2]. destruct (IH ims ems) as [Q1 Q2].
    + intros f pts' im' em'. exact (PER (S f) pts' im' em').
    + injection N1. auto.
    + injection N2. auto.
    + cbn [concat]. rewrite !total_area_app, !total_moment_app. unfold Rsum, vsum in *. cbn [map fold_right]. rewrite <- Q1, <- Q2, <- P1, <- P2. split; [ring|].
      generalize (total_moment facets im) (total_moment facets em) (total_moment facets (concat ims)) (total_moment facets (concat ems)). intros. vring.
Qed.
Print Assumptions immersed_and_emerged_add_up_partial.

(** C44: the point added on an edge that crosses the surface. *)
Definition distance (a b : vec3) : R := norm (vsub b a).
Theorem split_point_on_free_surface : forall check v m I rel waves, triangle_mesh v -> build_mesh check v = Ok m -> reachable m I ->
  length rel = m_nnodes m -> length waves = m_nnodes m ->
  exists I', update_intersection I rel waves = Ok I' /\
  (* a point on every edge whose ends are strictly on both sides, that cuts it in two edges *)
  (forall e a b, nth_error (static_edges m) e = Some (a, b) -> nth a rel 0 * nth b rel 0 < 0 ->
    exists c h A B P t, (m_nnodes m <= c)%nat /\
      nth_error (m_edges (i_mesh I')) h = Some (a, c) /\ nth_error (m_edges (i_mesh I')) (S h) = Some (c, b) /\
      nth_error (static_nodes m) a = Some A /\ nth_error (static_nodes m) b = Some B /\ nth_error (m_all (i_mesh I')) c = Some P /\
      P = vadd (vscale (1 - t) A) (vscale t B) /\ 0 < t < 1 /\
      (1 - t) * nth a rel 0 + t * nth b rel 0 = 0 /\ nth_error (i_rel I') c = Some 0 /\
      nth_error (i_waves I') c = Some ((1 - t) * nth a waves 0 + t * nth b waves 0) /\
      distance A P + distance P B = distance A B) /\
  (* and no other point *)
  (m_total (i_mesh I') = m_nnodes m + length (filter (fun e => if Rlt_dec (nth (fst e) rel 0 * nth (snd e) rel 0)%R 0%R then true else false) (static_edges m)))%nat.
Proof.
  intros check v m I rel waves T B RE HR HW. destruct (free_surface_cut_partial check v m I rel waves T B RE HR HW) as (I' & U & SC). exists I'. split; [exact U|].
  split; [|exact (proj2 (sc_nodes _ _ _ _ SC))].
  intros e a b He X. destruct (sc_halves _ _ _ _ SC e a b He X) as (c & h & Lc & E1' & E2' & NP & NR & NW). pose proof (built_well_formed check v m T B) as WF.
  destruct (wf_ends _ WF e a b He) as [La Lb].
  assert (LN : length (static_nodes m) = m_nnodes m) by (unfold static_nodes; rewrite firstn_length; pose proof (wf_all _ WF); lia).
  set (x := nth a rel 0) in *. set (y := nth b rel 0) in *. set (t := x / (x - y)) in *. set (A := nth a (static_nodes m) v0) in *. set (B' := nth b (static_nodes m) v0) in *.
  assert (SG : (0 < x /\ y < 0) \/ (x < 0 /\ 0 < y)) by (destruct (Rtotal_order x 0) as [?|[?|?]], (Rtotal_order y 0) as [?|[?|?]]; try (exfalso; nra); auto).
  pose proof (ratio x y SG) as HT. fold t in HT. assert (NXY : x - y <> 0) by lra.
  assert (TE : t * (x - y) = x) by (unfold t; field; exact NXY).
  exists c, h, A, B', (cut (A, x) (B', y)), t. split; [lia|]. split; [exact E1'|]. split; [exact E2'|].
  split; [apply nth_error_some; lia|]. split; [apply nth_error_some; lia|]. split; [exact NP|].
  assert (CE : cut (A, x) (B', y) = vadd (vscale (1 - t) A) (vscale t B')) by (unfold cut; cbn [fst snd]; fold t; clearbody t A B'; clear; vring).
  split; [exact CE|]. split; [exact HT|]. split; [lra|]. split; [exact NR|]. split; [rewrite NW; f_equal; ring|].
  rewrite CE. unfold distance. clearbody t A B'.
  replace (vsub (vadd (vscale (1 - t) A) (vscale t B')) A) with (vscale t (vsub B' A)) by (clear; vring).
  replace (vsub B' (vadd (vscale (1 - t) A) (vscale t B'))) with (vscale (1 - t) (vsub B' A)) by (clear; vring).
  rewrite !norm_scale, !Rabs_right by lra. ring.
Qed.
Print Assumptions split_point_on_free_surface.
