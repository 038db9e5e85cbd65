(** The wet part of a watertight hull of triangles, and the polygons inside its waterlines, enclose a volume. *)
From Coq Require Import Reals List Arith Lra Lia Permutation.
From Verif Require Import Geometry Hull_Spec Hull_Proofs Hull_Props Mesh_Spec Triangle_Proofs Lid_Groups_Proofs Floating_Spec.
Import ListNotations.
Open Scope R_scope.

Lemma cycle_pairs : forall l, cycle l = cyclic_pairs l.
Proof.
  intros [|p l]; [reflexivity|]. unfold cycle, cyclic_pairs. generalize p at 2 4. intros q. revert p. induction l as [|a l IH]; intros p; [reflexivity|]. cbn [path app combine]. f_equal. apply IH.
Qed.
Lemma edges_flat : forall m, edges m = flat_map cyclic_pairs m.
Proof. intros m. unfold edges. rewrite <- flat_map_concat_map. apply flat_map_ext. apply cycle_pairs. Qed.
Lemma cut_sym : forall a x b y, x <> y -> cut (a, x) (b, y) = cut (b, y) (a, x).
Proof. intros [a1 a2 a3] x [b1 b2 b3] y H. unfold cut, vadd, vscale, vsub. cbn. f_equal; field; lra. Qed.
Lemma flat_map_perm : forall {A B} (f : A -> list B) l l', Permutation l l' -> Permutation (flat_map f l) (flat_map f l').
Proof.
  intros A B f l l' P. induction P as [|x l l' _ IH|x y l|l l' l'' _ IH1 _ IH2]; cbn [flat_map]; [apply Permutation_refl|apply Permutation_app_head; exact IH| |exact (Permutation_trans IH1 IH2)].
  rewrite !app_assoc. apply Permutation_app_tail, Permutation_app_comm.
Qed.

Section Water.
  Variable im : vec3 -> R.
  (** The wet part of a directed edge *)
  Definition half (e : vec3 * vec3) : list (vec3 * vec3) :=
    let '(a, b) := e in
    if Rlt_dec 0 (im a) then (if Rlt_dec 0 (im b) then [(a, b)] else [(a, crossing_point im a b)])
    else (if Rlt_dec 0 (im b) then [(crossing_point im a b, b)] else []).
  Lemma half_swap : forall e, im (fst e) <> 0 -> im (snd e) <> 0 -> half (swap e) = map swap (half e).
  Proof.
    intros [a b] NA NB. cbn [fst snd] in *. unfold half, swap, crossing_point. cbn [fst snd]. destruct (Rlt_dec 0 (im a)), (Rlt_dec 0 (im b)); try reflexivity; cbn [map fst snd]; rewrite (cut_sym b) by lra; reflexivity.
  Qed.
  Lemma halves_swap : forall es, (forall e, In e es -> im (fst e) <> 0 /\ im (snd e) <> 0) -> flat_map half (map swap es) = map swap (flat_map half es).
  Proof.
    induction es as [|e es IH]; intros H; [reflexivity|]. cbn [map flat_map]. rewrite map_app, half_swap, IH; [reflexivity|intros f Hf; apply H; right; exact Hf|apply H; left; reflexivity|apply H; left; reflexivity].
  Qed.

  Lemma entry3 : forall A B C, entry_points im [A; B; C] =
    (if Rlt_dec (im A) 0 then if Rlt_dec 0 (im B) then [crossing_point im A B] else [] else []) ++
    (if Rlt_dec (im B) 0 then if Rlt_dec 0 (im C) then [crossing_point im B C] else [] else []) ++
    (if Rlt_dec (im C) 0 then if Rlt_dec 0 (im A) then [crossing_point im C A] else [] else []).
  Proof. intros. unfold entry_points. cbn [cyclic_pairs app combine flat_map]. rewrite app_nil_r. reflexivity. Qed.
  Lemma exit3 : forall A B C, exit_points im [A; B; C] =
    (if Rlt_dec 0 (im A) then if Rlt_dec (im B) 0 then [crossing_point im A B] else [] else []) ++
    (if Rlt_dec 0 (im B) then if Rlt_dec (im C) 0 then [crossing_point im B C] else [] else []) ++
    (if Rlt_dec 0 (im C) then if Rlt_dec (im A) 0 then [crossing_point im C A] else [] else []).
  Proof. intros. unfold exit_points. cbn [cyclic_pairs app combine flat_map]. rewrite app_nil_r. reflexivity. Qed.
  Lemma wet3 : forall A B C, wet im [A; B; C] = keep 1 A (im A) ++ xing A (im A) B (im B) ++ keep 1 B (im B) ++ xing B (im B) C (im C) ++ keep 1 C (im C) ++ xing C (im C) A (im A).
  Proof. intros. unfold wet. cbn [map]. rewrite clip3. reflexivity. Qed.

  Ltac signs := repeat match goal with |- context [Rlt_dec ?u ?v] => destruct (Rlt_dec u v); try (exfalso; lra) | |- context [Rle_dec ?u ?v] => destruct (Rle_dec u v); try (exfalso; lra) end.
  Ltac wets := repeat first [rewrite keep_im by lra|rewrite drop_im by lra|rewrite xing_no by lra|rewrite xing_yes by lra].
  Lemma wet_edges : forall A B C, im A <> 0 -> im B <> 0 -> im C <> 0 ->
    Permutation (cycle (wet im [A; B; C])) (flat_map half (cycle [A; B; C]) ++ map swap (segments im [A; B; C])).
  Proof.
    intros A B C NA NB NC. unfold segments. rewrite entry3, exit3, wet3. cbn [cycle path flat_map]. unfold half, crossing_point.
    assert (SA : im A < 0 \/ 0 < im A) by lra. assert (SB : im B < 0 \/ 0 < im B) by lra. assert (SC : im C < 0 \/ 0 < im C) by lra.
    destruct SA, SB, SC; wets; signs; cbn [app combine map cycle path swap fst snd].
    all: unfold swap; cbn [fst snd]; perm.
  Qed.

  (** [fs]: the wet parts of the triangles of the hull [v], from any of their vertices; [lids]: polygons around the waterlines. *)
  Lemma wet_closed : forall v fs lids, (forall l, In l v -> exists A B C, l = [A; B; C] /\ im A <> 0 /\ im B <> 0 /\ im C <> 0) -> closed v ->
    Permutation (edges fs) (edges (map (wet im) v)) -> Permutation (edges lids) (waterline im v) -> closed (fs ++ lids).
  Proof.
    intros v fs lids T CV PF PL. unfold closed. assert (EA : forall a b, edges (a ++ b) = edges a ++ edges b) by (intros; unfold edges; rewrite map_app, concat_app; reflexivity).
    rewrite EA. set (W := waterline im v) in *. set (H := flat_map half (edges v)).
    assert (PW : Permutation (edges (map (wet im) v)) (H ++ map swap W)).
    { unfold H, W. clear - T. induction v as [|l v IH]; [apply Permutation_refl|].
      assert (E1 : edges (map (wet im) (l :: v)) = cycle (wet im l) ++ edges (map (wet im) v)) by reflexivity. rewrite E1. clear E1.
      assert (E2 : edges (l :: v) = cycle l ++ edges v) by reflexivity. rewrite E2. clear E2.
      assert (E3 : waterline im (l :: v) = segments im l ++ waterline im v) by reflexivity. rewrite E3. clear E3. rewrite flat_map_app, map_app.
      destruct (T l (or_introl eq_refl)) as (A & B & C & -> & NA & NB & NC). pose proof (wet_edges A B C NA NB NC) as P. specialize (IH (fun l Hl => T l (or_intror Hl))).
      apply (Permutation_trans (Permutation_app P IH)). set (a := flat_map half (cycle [A; B; C])). set (b := map swap (segments im [A; B; C])). set (c := flat_map half (edges v)). set (d := map swap (waterline im v)).
      rewrite <- !app_assoc. apply Permutation_app_head. rewrite !app_assoc. apply Permutation_app_tail. apply Permutation_app_comm. }
    assert (PH : Permutation H (map swap H)).
    { unfold H. rewrite <- halves_swap; [apply flat_map_perm; exact CV|]. intros e He. unfold edges in He. apply in_concat in He as (c & Hc & He). apply in_map_iff in Hc as (l & <- & Hl).
      destruct (T l Hl) as (A & B & C & -> & NA & NB & NC). cbn in He. destruct He as [<-|[<-|[<-|[]]]]; cbn; auto. }
    assert (P1 : Permutation (edges fs ++ edges lids) ((H ++ map swap W) ++ W)) by (apply Permutation_app; [exact (Permutation_trans PF PW)|exact PL]).
    apply (Permutation_trans P1). apply Permutation_sym. apply (Permutation_trans (Permutation_map swap P1)). rewrite !map_app, map_map.
    rewrite (map_ext (fun x => swap (swap x)) (fun x => x)), map_id by (intros []; reflexivity). rewrite <- !app_assoc. apply Permutation_app; [apply Permutation_sym; exact PH|apply Permutation_app_comm].
  Qed.
End Water.
