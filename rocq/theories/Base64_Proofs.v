From Coq Require Import ZArith List Bool Lia Arith.
From Verif Require Import Common Base91_Model.
Import ListNotations.
Open Scope Z_scope.

Ltac Zdm := Z.to_euclidean_division_equations.

Lemma below_256 : forall (f : Z -> bool), forallb f (map Z.of_nat (seq 0 256)) = true ->
  forall x, 0 <= x < 256 -> f x = true.
Proof.
  intros f H x Hx. rewrite forallb_forall in H. apply H.
  apply in_map_iff. exists (Z.to_nat x). split; [lia|]. apply in_seq. lia.
Qed.

Lemma idx_facts : forall x, 0 <= x < 256 ->
  Z.shiftr (Z.land x 252) 2 = x / 4 /\ Z.shiftl (Z.land x 3) 4 = x mod 4 * 16 /\
  Z.shiftr (Z.land x 240) 4 = x / 16 /\ Z.shiftl (Z.land x 15) 2 = x mod 16 * 4 /\
  Z.shiftr (Z.land x 192) 6 = x / 64 /\ Z.land x 63 = x mod 64.
Proof.
  intros x Hx.
  pose proof (below_256 (fun x => (Z.shiftr (Z.land x 252) 2 =? x / 4) && (Z.shiftl (Z.land x 3) 4 =? x mod 4 * 16)
    && (Z.shiftr (Z.land x 240) 4 =? x / 16) && (Z.shiftl (Z.land x 15) 2 =? x mod 16 * 4)
    && (Z.shiftr (Z.land x 192) 6 =? x / 64) && (Z.land x 63 =? x mod 64))) as H.
  specialize (H eq_refl x Hx). cbv beta in H. rewrite !andb_true_iff, !Z.eqb_eq in H. tauto.
Qed.

Lemma bytes_facts : forall x, 0 <= x < 256 ->
  Z.shiftl x 2 = x * 4 /\ Z.shiftr (Z.land x 48) 4 = x mod 64 / 16 /\
  Z.shiftl (Z.land x 15) 4 = x mod 16 * 16 /\ Z.shiftr (Z.land x 60) 2 = x mod 64 / 4 /\
  Z.shiftl (Z.land x 3) 6 = x mod 4 * 64.
Proof.
  intros x Hx.
  pose proof (below_256 (fun x => (Z.shiftl x 2 =? x * 4) && (Z.shiftr (Z.land x 48) 4 =? x mod 64 / 16)
   && (Z.shiftl (Z.land x 15) 4 =? x mod 16 * 16) && (Z.shiftr (Z.land x 60) 2 =? x mod 64 / 4)
   && (Z.shiftl (Z.land x 3) 6 =? x mod 4 * 64))) as H.
  specialize (H eq_refl x Hx). cbv beta in H. rewrite !andb_true_iff, !Z.eqb_eq in H. tauto.
Qed.

Definition char_ok (i : Z) : bool :=
  match nth_error b64chars (Z.to_nat i) with
  | Some c => (0 <=? c) && (c <? 256) && b64_accepted c && (b64_find c =? i)
  | None => false end.

Lemma char_all : forallb char_ok (map Z.of_nat (seq 0 64)) = true.
Proof. vm_compute. reflexivity. Qed.

Lemma char_spec : forall i, 0 <= i < 64 -> exists c, b64char i = Ok c /\ b64_accepted c = true /\ b64_find c = i /\ is_byte c.
Proof.
  intros i Hi. pose proof char_all as H. rewrite forallb_forall in H.
  assert (In i (map Z.of_nat (seq 0 64))) as Hin.
  { apply in_map_iff. exists (Z.to_nat i). split; [lia|]. apply in_seq. lia. }
  specialize (H i Hin). unfold char_ok in H. unfold b64char, at_ub.
  destruct (nth_error b64chars (Z.to_nat i)) as [c|]; [|discriminate].
  exists c. rewrite !andb_true_iff in H. destruct H as [[[H1 H2] H3] H4]. unfold is_byte.
  repeat split; try assumption; lia.
Qed.

Lemma idx_range : forall a b c, is_byte a -> is_byte b -> is_byte c ->
  b64_idx a b c = (a / 4, a mod 4 * 16 + b / 16, b mod 16 * 4 + c / 64, c mod 64).
Proof.
  unfold is_byte. intros a b c Ha Hb Hc. unfold b64_idx.
  pose proof (idx_facts a Ha) as (A1 & A2 & _).
  pose proof (idx_facts b Hb) as (_ & _ & B3 & B4 & _ & _).
  pose proof (idx_facts c Hc) as (_ & _ & _ & _ & C5 & C6).
  rewrite A1, A2, B3, B4, C5, C6. reflexivity.
Qed.

Lemma bytes_val : forall i0 i1 i2 i3, 0 <= i0 < 256 -> 0 <= i1 < 256 -> 0 <= i2 < 256 -> 0 <= i3 < 256 ->
  b64_bytes i0 i1 i2 i3 = ((i0 * 4 + i1 mod 64 / 16) mod 256, (i1 mod 16 * 16 + i2 mod 64 / 4) mod 256, (i2 mod 4 * 64 + i3) mod 256).
Proof.
  intros i0 i1 i2 i3 H0 H1 H2 H3. unfold b64_bytes.
  pose proof (bytes_facts i0 H0) as (A1 & _).
  pose proof (bytes_facts i1 H1) as (_ & B2 & B3 & _ & _).
  pose proof (bytes_facts i2 H2) as (_ & _ & _ & C4 & C5).
  rewrite A1, B2, B3, C4, C5. reflexivity.
Qed.

Lemma find0 : b64_find 0 = 255. Proof. reflexivity. Qed.

(** strong induction on blocks of three *)
Lemma blocks3 : forall (P : list Z -> Prop), P [] -> (forall a, P [a]) -> (forall a b, P [a; b]) ->
  (forall a b c l, P l -> P (a :: b :: c :: l)) -> forall l, P l.
Proof.
  intros P H0 H1 H2 H3.
  assert (forall n l, (length l <= n)%nat -> P l) as H.
  { induction n as [|n IH]; intros [|a [|b [|c l]]] Hl; auto; cbn [length] in Hl; try lia.
    apply H3. apply IH. lia. }
  intros l. apply (H (length l)). lia.
Qed.

Lemma b64_roundtrip_lemma : forall data, Forall is_byte data ->
  exists t, b64_encode data = Ok t /\ b64_decode t = data /\ Z.of_nat (length t) = 4 * ((Z.of_nat (length data) + 2) / 3)
   /\ Forall (fun c => In c b64chars \/ c = 61) t.
Proof.
  assert (Hbyte0 : is_byte 0) by (unfold is_byte; lia).
  assert (Hin : forall i c, b64char i = Ok c -> In c b64chars).
  { unfold b64char, at_ub. intros i c H. destruct (nth_error b64chars (Z.to_nat i)) eqn:E; [|discriminate].
    inversion H; subst. eapply nth_error_In; eauto. }
  induction data as [|a|a b|a b c l IH] using blocks3; intros Hd.
  - exists []. repeat split; try reflexivity. constructor.
  - inversion Hd as [|? ? Ha _]; subst. cbn [b64_encode]. rewrite idx_range by assumption.
    unfold is_byte in *.
    destruct (char_spec (a / 4)) as (c0 & E0 & A0 & F0 & _); [Zdm; lia|].
    destruct (char_spec (a mod 4 * 16 + 0 / 16)) as (c1 & E1 & A1 & F1 & _); [Zdm; lia|].
    rewrite E0, E1. cbn [bindO]. eexists. split; [reflexivity|].
    split; [|split; [reflexivity|repeat (apply Forall_cons); eauto]].
    unfold b64_decode. cbn [b64_dec_loop]. rewrite A0. cbn [app]. cbn [b64_dec_loop]. rewrite A1. cbn [app b64_dec_loop].
    change (b64_accepted 61) with false. cbv iota. unfold b64_dec_tail. cbn [nth length firstn Nat.sub].
    rewrite F0, F1, find0. rewrite bytes_val by (Zdm; lia). cbn [firstn]. f_equal. Zdm; lia.
  - inversion Hd as [|? ? Ha Hd']; subst. inversion Hd' as [|? ? Hb _]; subst.
    cbn [b64_encode]. rewrite idx_range by assumption. unfold is_byte in *.
    destruct (char_spec (a / 4)) as (c0 & E0 & A0 & F0 & _); [Zdm; lia|].
    destruct (char_spec (a mod 4 * 16 + b / 16)) as (c1 & E1 & A1 & F1 & _); [Zdm; lia|].
    destruct (char_spec (b mod 16 * 4 + 0 / 64)) as (c2 & E2 & A2 & F2 & _); [Zdm; lia|].
    rewrite E0, E1, E2. cbn [bindO]. eexists. split; [reflexivity|].
    split; [|split; [reflexivity|repeat (apply Forall_cons); eauto]].
    unfold b64_decode. cbn [b64_dec_loop]. rewrite A0. cbn [app b64_dec_loop]. rewrite A1. cbn [app b64_dec_loop].
    rewrite A2. cbn [app b64_dec_loop].
    change (b64_accepted 61) with false. cbv iota. unfold b64_dec_tail. cbn [nth length firstn Nat.sub].
    rewrite F0, F1, F2, find0. rewrite bytes_val by (Zdm; lia). cbn [firstn]. f_equal; [Zdm; lia|]. f_equal. Zdm; lia.
  - inversion Hd as [|? ? Ha Hd1]; subst. inversion Hd1 as [|? ? Hb Hd2]; subst. inversion Hd2 as [|? ? Hc Hd3]; subst.
    destruct (IH Hd3) as (t & Et & Dt & Lt & At).
    cbn [b64_encode]. rewrite idx_range by assumption. unfold is_byte in *.
    destruct (char_spec (a / 4)) as (c0 & E0 & A0 & F0 & _); [Zdm; lia|].
    destruct (char_spec (a mod 4 * 16 + b / 16)) as (c1 & E1 & A1 & F1 & _); [Zdm; lia|].
    destruct (char_spec (b mod 16 * 4 + c / 64)) as (c2 & E2 & A2 & F2 & _); [Zdm; lia|].
    destruct (char_spec (c mod 64)) as (c3 & E3 & A3 & F3 & _); [Zdm; lia|].
    rewrite E0, E1, E2, E3. cbn [bindO]. rewrite Et. cbn [bindO]. eexists. split; [reflexivity|].
    split; [|split; [cbn [length]; Zdm; lia|repeat (apply Forall_cons); eauto]].
    unfold b64_decode. cbn [b64_dec_loop]. rewrite A0. cbn [app b64_dec_loop]. rewrite A1. cbn [app b64_dec_loop].
    rewrite A2. cbn [app b64_dec_loop]. rewrite A3. rewrite F0, F1, F2, F3. rewrite bytes_val by (Zdm; lia).
    fold (b64_decode t). rewrite Dt.
    f_equal; [Zdm; lia|]. f_equal; [Zdm; lia|]. f_equal. Zdm; lia.
Qed.
