From Coq Require Import ZArith List Bool Lia Arith.
From Verif Require Import Common Base91_Model.
Import ListNotations.
Open Scope Z_scope.

Ltac Zdm := Z.to_euclidean_division_equations.

Lemma lor_shiftl_add : forall a b n, 0 <= n -> 0 <= a < 2 ^ n -> 0 <= b ->
  Z.lor a (Z.shiftl b n) = a + b * 2 ^ n.
Proof.
  intros a b n Hn Ha Hb.
  rewrite <- Z.lxor_lor.
  - rewrite <- Z.add_nocarry_lxor.
    + rewrite Z.shiftl_mul_pow2 by lia. reflexivity.
    + apply Z.bits_inj'. intros i Hi. rewrite Z.land_spec, Z.bits_0, Z.shiftl_spec by lia.
      destruct (Z.ltb_spec i n).
      * rewrite (Z.testbit_neg_r b) by lia. apply andb_false_r.
      * assert (Z.testbit a i = false) as ->; [|reflexivity].
        destruct (Z.eq_dec a 0) as [->|]; [apply Z.bits_0|].
        apply Z.bits_above_log2; [lia|].
        apply Z.log2_lt_pow2; [lia|].
        eapply Z.lt_le_trans; [apply Ha|]. apply Z.pow_le_mono_r; lia.
  - apply Z.bits_inj'. intros i Hi. rewrite Z.land_spec, Z.bits_0, Z.shiftl_spec by lia.
    destruct (Z.ltb_spec i n).
    + rewrite (Z.testbit_neg_r b) by lia. apply andb_false_r.
    + assert (Z.testbit a i = false) as ->; [|reflexivity].
      destruct (Z.eq_dec a 0) as [->|]; [apply Z.bits_0|].
      apply Z.bits_above_log2; [lia|].
      apply Z.log2_lt_pow2; [lia|].
      eapply Z.lt_le_trans; [apply Ha|]. apply Z.pow_le_mono_r; lia.
Qed.

Lemma land_8191 : forall x, Z.land x 8191 = x mod 8192.
Proof. intros. change 8191 with (Z.ones 13). rewrite Z.land_ones by lia. reflexivity. Qed.
Lemma land_16383 : forall x, Z.land x 16383 = x mod 16384.
Proof. intros. change 16383 with (Z.ones 14). rewrite Z.land_ones by lia. reflexivity. Qed.

Lemma shl_int_ok : forall x n, 0 <= x -> 0 <= n -> x * 2 ^ n < 2 ^ 31 -> n < 32 ->
  shl_int x n = Ok (Z.shiftl x n).
Proof.
  intros. unfold shl_int.
  rewrite Z.shiftl_mul_pow2 by lia.
  destruct (Z.leb_spec 0 x), (Z.leb_spec 0 n), (Z.ltb_spec n 32), (Z.ltb_spec (x * 2 ^ n) (2 ^ 31)); simpl; try lia.
  reflexivity.
Qed.

(** table facts, by computation on the 91 entries *)
Definition tab_ok (i : Z) : bool :=
  match nth_error enctab (Z.to_nat i) with
  | Some c => (0 <=? c) && (c <? 256) &&
      match nth_error dectab (Z.to_nat c) with Some d => (d =? i) && negb (d =? 91) | None => false end
  | None => false
  end.

Lemma tab_all : forallb tab_ok (map Z.of_nat (seq 0 91)) = true.
Proof. vm_compute. reflexivity. Qed.

Lemma tab_spec : forall i, 0 <= i < 91 -> exists c, at_ub enctab (Z.to_nat i) = Ok c /\ is_byte c /\
  at_ub dectab (Z.to_nat c) = Ok i.
Proof.
  intros i Hi. pose proof tab_all as H. rewrite forallb_forall in H.
  assert (In i (map Z.of_nat (seq 0 91))) as Hin.
  { apply in_map_iff. exists (Z.to_nat i). split; [lia|]. apply in_seq. lia. }
  specialize (H i Hin). unfold tab_ok in H. unfold at_ub.
  destruct (nth_error enctab (Z.to_nat i)) as [c|]; [|discriminate].
  exists c. split; [reflexivity|].
  destruct (nth_error dectab (Z.to_nat c)) as [d|].
  - rewrite !andb_true_iff in H. destruct H as [[H1 H2] [H3 H4]].
    split; [unfold is_byte; lia|]. f_equal. lia.
  - rewrite andb_false_r in H. discriminate.
Qed.

(** little-endian value of a byte list *)
Fixpoint le (l : list Z) : Z := match l with [] => 0 | b :: l' => b + 256 * le l' end.

Lemma le_app : forall l b, le (l ++ [b]) = le l + 256 ^ Z.of_nat (length l) * b.
Proof.
  induction l as [|a l IH]; intros.
  - simpl le. change (Z.of_nat (length (@nil Z))) with 0. rewrite Z.pow_0_r. cbn [app le]. lia.
  - cbn [app le length]. rewrite IH. rewrite Nat2Z.inj_succ, Z.pow_succ_r by lia. ring.
Qed.

Lemma pow256 : forall n, 0 <= n -> 256 ^ n = 2 ^ (8 * n).
Proof. intros. change 256 with (2 ^ 8). rewrite <- Z.pow_mul_r by lia. reflexivity. Qed.

Definition INV (rem : list Z) (q d q0 e : Z) : Prop :=
  Forall is_byte rem /\ 0 <= d <= 7 /\ 0 <= e <= 13 /\
  0 <= q < 2 ^ d /\ 0 <= q0 < 2 ^ e /\ 8 * Z.of_nat (length rem) = d + e /\ le rem = q + 2 ^ d * q0.

Lemma dec_two : forall c1 c2 i1 i2 text q d, 
  at_ub dectab (Z.to_nat c1) = Ok i1 -> at_ub dectab (Z.to_nat c2) = Ok i2 ->
  0 <= i1 < 91 -> 0 <= i2 < 91 ->
  0 <= d <= 7 -> 0 <= q < 2 ^ d ->
  b91_dec_loop (c1 :: c2 :: text) q d None =
   let v := i1 + i2 * 91 in
   let nb := d + (if 88 <? v mod 8192 then 13 else 14) in
   bindO (b91_emit (Z.to_nat nb) (q + v * 2 ^ d) nb) (fun r =>
     let '(l, queue, nbits) := r in
     bindO (b91_dec_loop text queue nbits None) (fun rest => Ok (l ++ rest))).
Proof.
  intros * H1 H2 Hi1 Hi2 Hd Hq.
  assert (2 ^ d <= 2 ^ 7) by (apply Z.pow_le_mono_r; lia).
  assert (0 < 2 ^ d) by (apply Z.pow_pos_nonneg; lia).
  change (2 ^ 7) with 128 in *.
  cbn [b91_dec_loop]. rewrite H1. cbn [bindO].
  destruct (Z.eqb_spec i1 91); [lia|]. rewrite H2. cbn [bindO].
  destruct (Z.eqb_spec i2 91); [lia|].
  rewrite shl_int_ok.
  2,3: lia. 3: lia. 2:{ change (2^31) with 2147483648. nia. }
  cbn [bindO]. rewrite lor_shiftl_add by lia.
  rewrite land_8191.
  assert (u64 (q + (i1 + i2 * 91) * 2 ^ d) = q + (i1 + i2 * 91) * 2 ^ d) as ->.
  { unfold u64. apply Z.mod_small. change (2^64) with 18446744073709551616. nia. }
  reflexivity.
Qed.

(** the decoder's byte extraction, when the queue holds 1 or 2 whole bytes *)
Lemma emit1 : forall fuel Q nb, 8 <= nb <= 15 -> b91_emit (S fuel) Q nb = Ok ([Q mod 256], Q / 256, nb - 8).
Proof.
  intros. cbn [b91_emit]. rewrite Z.shiftr_div_pow2 by lia. change (2^8) with 256.
  destruct (Z.ltb_spec 7 (nb - 8)); [lia|]. reflexivity.
Qed.
Lemma emit2 : forall fuel Q nb, 16 <= nb <= 23 -> (2 <= fuel)%nat ->
  b91_emit fuel Q nb = Ok ([Q mod 256; Q / 256 mod 256], Q / 256 / 256, nb - 16).
Proof.
  intros. destruct fuel as [|fuel]; [lia|]. destruct fuel as [|fuel]; [lia|].
  cbn [b91_emit]. rewrite !Z.shiftr_div_pow2 by lia. change (2^8) with 256.
  destruct (Z.ltb_spec 7 (nb - 8)); [|lia].
  destruct (Z.ltb_spec 7 (nb - 8 - 8)); [lia|]. cbn [bindO]. replace (nb - 8 - 8) with (nb - 16) by lia. reflexivity.
Qed.

Ltac small_pow d H :=
  assert (d = 0 \/ d = 1 \/ d = 2 \/ d = 3 \/ d = 4 \/ d = 5 \/ d = 6 \/ d = 7 \/ d = 8 \/ d = 9 \/ d = 10 \/ d = 11 \/ d = 12 \/ d = 13) as H by lia.

Lemma le1 : forall b, le [b] = b. Proof. intros. simpl. lia. Qed.
Lemma le2 : forall a b, le [a; b] = a + 256 * b. Proof. intros. cbn [le]. lia. Qed.
Lemma le3 : forall a b c, le [a; b; c] = a + 256 * b + 65536 * c. Proof. intros. cbn [le]. lia. Qed.

(** one full group: encoder drops [k] bits, decoder gains them *)
Lemma group : forall rem q d Q nb val k,
  Forall is_byte rem -> 0 <= d <= 7 -> 0 <= q < 2 ^ d ->
  14 <= nb <= 21 -> 0 <= Q < 2 ^ nb -> 8 * Z.of_nat (length rem) = d + nb ->
  le rem = q + 2 ^ d * Q ->
  (k = 13 /\ val = Q mod 8192 /\ 88 < val \/ k = 14 /\ val = Q mod 16384 /\ Q mod 8192 <= 88) ->
  0 <= val < 8281 /\
  (if 88 <? val mod 8192 then 13 else 14) = k /\
  exists out rem', b91_emit (Z.to_nat (d + k)) (q + val * 2 ^ d) (d + k) =
     Ok (out, (q + val * 2 ^ d) / 2 ^ (8 * Z.of_nat (length out)), d + k - 8 * Z.of_nat (length out)) /\
     rem = out ++ rem' /\ INV rem' ((q + val * 2 ^ d) / 2 ^ (8 * Z.of_nat (length out))) (d + k - 8 * Z.of_nat (length out))
                          (Q / 2 ^ k) (nb - k).
Proof.
  intros * Hrem Hd Hq Hnb HQ Hlen Hle Hk.
  assert (0 < 2 ^ d) by (apply Z.pow_pos_nonneg; lia).
  assert (0 <= val < 8281) as Hval by (Zdm; lia).
  split; [exact Hval|].
  assert ((if 88 <? val mod 8192 then 13 else 14) = k) as Hk'.
  { destruct Hk as [(->&->&?)|(->&->&?)].
    - rewrite Z.mod_mod by lia. destruct (Z.ltb_spec 88 (Q mod 8192)); lia.
    - destruct (Z.ltb_spec 88 ((Q mod 16384) mod 8192)); [|lia]. Zdm; lia. }
  split; [exact Hk'|]. clear Hk'.
  (* Q = val + 2^k * Q' *)
  assert (exists Q', Q = val + 2 ^ k * Q' /\ 0 <= Q' /\ Q' = Q / 2 ^ k /\ val < 2 ^ k) as (Q' & HQ' & HQ'0 & HQ'e & Hvk).
  { exists (Q / 2 ^ k). assert (0 < 2 ^ k) by (apply Z.pow_pos_nonneg; lia).
    destruct Hk as [(->&->&_)|(->&->&_)]; change (2^13) with 8192 in *; change (2^14) with 16384 in *; repeat split; Zdm; lia. }
  rewrite <- HQ'e.
  assert (Hnb' : nb - k <= 13) by lia.
  assert (HQb : Q' < 2 ^ (nb - k)).
  { apply Z.mul_lt_mono_pos_l with (2 ^ k); [apply Z.pow_pos_nonneg; lia|].
    rewrite <- Z.pow_add_r by lia. replace (k + (nb - k)) with nb by lia. lia. }
  assert (Hq2 : q + val * 2 ^ d < 2 ^ (d + k)).
  { rewrite Z.pow_add_r by lia. nia. }
  assert (Hle' : le rem = (q + val * 2 ^ d) + 2 ^ (d + k) * Q').
  { rewrite Hle, HQ', Z.pow_add_r by lia. ring. }
  set (X := q + val * 2 ^ d) in *.
  assert (0 <= X) by nia.
  assert (length rem = 2%nat \/ length rem = 3%nat) as Hl by lia.
  destruct (Z.ltb_spec (d + k) 16) as [Hs|Hs].
  - (* one byte *)
    assert (exists f, Z.to_nat (d + k) = S f) as [f ->] by (exists (Z.to_nat (d+k-1)); lia).
    rewrite emit1 by lia.
    destruct rem as [|r0 rem']; [simpl in Hl; lia|].
    exists [r0], rem'. 
    pose proof (Forall_inv Hrem) as Hr0; pose proof (Forall_inv_tail Hrem) as Hrem'.
    cbn [le] in Hle'. cbn [length] in *. change (8 * Z.of_nat 1) with 8. change (2 ^ 8) with 256.
    assert (2 ^ (d + k) = 256 * 2 ^ (d + k - 8)) as Hp.
    { change 256 with (2 ^ 8). rewrite <- Z.pow_add_r by lia. f_equal. lia. }
    rewrite Hp in *. unfold is_byte in Hr0.
    assert (0 < 2 ^ (d + k - 8)) by (apply Z.pow_pos_nonneg; lia).
    assert (X mod 256 = r0).
    { symmetry. apply Z.mod_unique with (le rem' - 2 ^ (d + k - 8) * Q'); lia. }
    split; [congruence|]. split; [reflexivity|].
    unfold INV. split; [assumption|]. split; [lia|]. split; [lia|].
    split. { split; [apply Z.div_pos; lia|]. apply Z.div_lt_upper_bound; lia. }
    split; [lia|]. split; [lia|].
    pose proof (Z.div_mod X 256). lia.
  - (* two bytes *)
    rewrite emit2 by lia.
    destruct rem as [|r0 [|r1 rem']]; [simpl in Hl; lia|simpl in Hl; lia|].
    exists [r0; r1], rem'.
    pose proof (Forall_inv Hrem) as Hr0; pose proof (Forall_inv_tail Hrem) as Hrem1; pose proof (Forall_inv Hrem1) as Hr1; pose proof (Forall_inv_tail Hrem1) as Hrem'.
    cbn [le] in Hle'. cbn [length] in *. change (8 * Z.of_nat 2) with 16. change (2 ^ 16) with 65536.
    assert (2 ^ (d + k) = 65536 * 2 ^ (d + k - 16)) as Hp.
    { change 65536 with (2 ^ 16). rewrite <- Z.pow_add_r by lia. f_equal. lia. }
    rewrite Hp in *. unfold is_byte in Hr0, Hr1.
    assert (0 < 2 ^ (d + k - 16)) by (apply Z.pow_pos_nonneg; lia).
    set (P := 2 ^ (d + k - 16)) in *.
    assert (X mod 256 = r0).
    { symmetry. apply Z.mod_unique with (r1 + 256 * le rem' - 256 * P * Q'); lia. }
    assert (X / 256 = r1 + 256 * (le rem' - P * Q')) as HX1.
    { symmetry. apply Z.div_unique with r0; lia. }
    assert (X / 256 mod 256 = r1).
    { rewrite HX1. symmetry. apply Z.mod_unique with (le rem' - P * Q'); lia. }
    assert (X / 65536 = le rem' - P * Q') as HX2.
    { symmetry. apply Z.div_unique with (r0 + 256 * r1); lia. }
    split.
    { rewrite Z.div_div by lia. change (256 * 256) with 65536. subst r0 r1. reflexivity. }
    split; [reflexivity|].
    unfold INV. split; [assumption|]. split; [lia|]. split; [lia|].
    split. { rewrite HX2. split; [rewrite <- HX2; apply Z.div_pos; lia|].  
             rewrite <- HX2. apply Z.div_lt_upper_bound; lia. }
    split; [lia|]. split; [lia|]. fold P. lia.
Qed.

Lemma enc_step : forall b ib q e, is_byte b -> 0 <= e <= 13 -> 0 <= q < 2 ^ e ->
  b91_enc_loop (b :: ib) q e =
  let Q := q + b * 2 ^ e in
  if 13 <? e + 8 then
    let '(val, k) := if 88 <? Q mod 8192 then (Q mod 8192, 13) else (Q mod 16384, 14) in
    do c1 <- at_ub enctab (Z.to_nat (val mod 91));
    do c2 <- at_ub enctab (Z.to_nat (val / 91));
    do rest <- b91_enc_loop ib (Q / 2 ^ k) (e + 8 - k);
    Ok (c1 :: c2 :: rest)
  else b91_enc_loop ib Q (e + 8).
Proof.
  intros * Hb He Hq. unfold is_byte in Hb.
  assert (0 < 2 ^ e) by (apply Z.pow_pos_nonneg; lia).
  assert (2 ^ e <= 2 ^ 13) by (apply Z.pow_le_mono_r; lia). change (2^13) with 8192 in *.
  cbn [b91_enc_loop]. rewrite shl_int_ok; [|lia|lia| |lia].
  2:{ change (2^31) with 2147483648. nia. }
  cbn [bindO]. rewrite lor_shiftl_add by lia.
  assert (u64 (q + b * 2 ^ e) = q + b * 2 ^ e) as ->.
  { unfold u64. apply Z.mod_small. change (2^64) with 18446744073709551616. nia. }
  rewrite land_8191, land_16383.
  rewrite !Z.shiftr_div_pow2 by lia.
  cbv zeta.
  destruct (Z.ltb_spec 13 (e + 8)); [|reflexivity].
  destruct (Z.ltb_spec 88 ((q + b * 2 ^ e) mod 8192)); reflexivity.
Qed.

Lemma flush_dec : forall rem q d q0 e, INV rem q d q0 e ->
  exists t, b91_flush q0 e = Ok t /\ b91_dec_loop t q d None = Ok rem.
Proof.
  intros rem q d q0 e (Hrem & Hd & He & Hq & Hq0 & Hlen & Hle).
  assert (0 < 2 ^ d) by (apply Z.pow_pos_nonneg; lia).
  unfold b91_flush. destruct (Z.eqb_spec e 0) as [->|He0].
  - exists []. split; [reflexivity|]. destruct rem; [reflexivity|]. cbn [length] in Hlen. lia.
  - assert (2 ^ e <= 2 ^ 13) by (apply Z.pow_le_mono_r; lia). change (2 ^ 13) with 8192 in *.
    destruct (tab_spec (q0 mod 91)) as (c1 & Hc1 & Hb1 & Hd1); [Zdm; lia|].
    destruct (tab_spec (q0 / 91)) as (c2 & Hc2 & Hb2 & Hd2); [Zdm; lia|].
    rewrite Hc1. cbn [bindO].
    assert (Hsum : q0 mod 91 + q0 / 91 * 91 = q0) by (Zdm; lia).
    destruct (Z.ltb_spec 7 e) as [H7|H7]; [|destruct (Z.ltb_spec 90 q0) as [H90|H90]]; cbn [orb].
    + (* two characters, e > 7 *)
      rewrite Hc2. cbn [bindO]. eexists. split; [reflexivity|].
      rewrite (dec_two c1 c2 (q0 mod 91) (q0 / 91)) by (try assumption; Zdm; lia).
      rewrite Hsum. cbv zeta. rewrite (Z.mod_small q0 8192) by lia.
      assert (length rem = 1%nat \/ length rem = 2%nat) as [Hl|Hl] by lia.
      * destruct rem as [|r0 [|]]; try discriminate Hl. cbn [length] in Hlen.
        assert (d = 0 /\ e = 8) as [-> ->] by lia.
        change (2 ^ 0) with 1 in *. change (2 ^ 8) with 256 in *. rewrite le1 in Hle.
        inversion Hrem as [|? ? Hr0 _]; subst. unfold is_byte in Hr0.
        assert (exists f, Z.to_nat (0 + (if 88 <? q0 then 13 else 14)) = S f) as [f ->].
        { destruct (88 <? q0); eexists; reflexivity. }
        rewrite emit1 by (destruct (88 <? q0); lia). cbn [bindO b91_dec_loop app].
        f_equal. f_equal. rewrite Z.mod_small; lia.
      * destruct rem as [|r0 [|r1 [|]]]; try discriminate Hl. cbn [length] in Hlen.
        rewrite emit2 by (destruct (88 <? q0); lia). cbn [bindO b91_dec_loop app].
        rewrite le2 in Hle. inversion Hrem as [|? ? Hr0 Hrem1]; subst. inversion Hrem1 as [|? ? Hr1 _]; subst.
        unfold is_byte in *.
        replace (q + q0 * 2 ^ d) with (r0 + 256 * r1) by lia.
        f_equal. f_equal; [Zdm; lia|]. f_equal. Zdm; lia.
    + (* two characters, e <= 7, q0 > 90: then e = 7 and d = 1 *)
      rewrite Hc2. cbn [bindO]. eexists. split; [reflexivity|].
      rewrite (dec_two c1 c2 (q0 mod 91) (q0 / 91)) by (try assumption; Zdm; lia).
      rewrite Hsum. cbv zeta. rewrite (Z.mod_small q0 8192) by lia.
      assert (e = 7).
      { destruct (Z.eq_dec e 7); [assumption|]. assert (2 ^ e <= 2 ^ 6) by (apply Z.pow_le_mono_r; lia).
        change (2 ^ 6) with 64 in *. lia. }
      subst e. assert (length rem = 1%nat) as Hl by lia.
      destruct rem as [|r0 [|]]; try discriminate Hl. cbn [length] in Hlen. assert (d = 1) as -> by lia.
      destruct (Z.ltb_spec 88 q0); [|lia].
      rewrite (emit1 13) by lia. cbn [bindO b91_dec_loop app].
      rewrite le1 in Hle. inversion Hrem as [|? ? Hr0 _]; subst. unfold is_byte in Hr0.
      change (2 ^ 1) with 2 in *. f_equal. f_equal. rewrite Z.mod_small; lia.
    + (* one character *)
      eexists. split; [reflexivity|].
      cbn [b91_dec_loop]. rewrite Hd1. cbn [bindO].
      rewrite (Z.mod_small q0 91) by lia.
      destruct (Z.eqb_spec q0 91); [lia|].
      assert (2 ^ d <= 2 ^ 7) by (apply Z.pow_le_mono_r; lia). change (2 ^ 7) with 128 in *.
      rewrite shl_int_ok; [|lia|lia| |lia]. 2:{ change (2^31) with 2147483648. nia. }
      cbn [bindO]. rewrite lor_shiftl_add by lia.
      assert (length rem = 1%nat) as Hl by lia.
      destruct rem as [|r0 [|]]; try discriminate Hl. rewrite le1 in Hle.
      inversion Hrem as [|? ? Hr0 _]; subst. unfold is_byte in Hr0.
      f_equal. f_equal. rewrite Z.mod_small; lia.
Qed.

Lemma roundtrip_gen : forall ib, Forall is_byte ib -> forall rem q d q0 e, INV rem q d q0 e ->
  exists t, b91_enc_loop ib q0 e = Ok t /\ b91_dec_loop t q d None = Ok (rem ++ ib).
Proof.
  induction ib as [|b ib IH]; intros Hib rem q d q0 e Hinv.
  - rewrite app_nil_r. exact (flush_dec _ _ _ _ _ Hinv).
  - inversion Hib as [|? ? Hb Hib']; subst. specialize (IH Hib').
    destruct Hinv as (Hrem & Hd & He & Hq & Hq0 & Hlen & Hle).
    rewrite enc_step by assumption. cbv zeta.
    assert (0 < 2 ^ d) by (apply Z.pow_pos_nonneg; lia).
    assert (0 < 2 ^ e) by (apply Z.pow_pos_nonneg; lia).
    unfold is_byte in Hb.
    set (Q := q0 + b * 2 ^ e).
    assert (HQ : 0 <= Q < 2 ^ (e + 8)).
    { unfold Q. rewrite Z.pow_add_r by lia. change (2^8) with 256. nia. }
    assert (Hrem' : Forall is_byte (rem ++ [b])).
    { apply Forall_app. split; [assumption|]. constructor; [exact Hb|constructor]. }
    assert (Hlen' : 8 * Z.of_nat (length (rem ++ [b])) = d + (e + 8)).
    { rewrite app_length. cbn [length]. lia. }
    assert (Hle' : le (rem ++ [b]) = q + 2 ^ d * Q).
    { rewrite le_app, Hle, pow256 by lia. rewrite Hlen, Z.pow_add_r by lia. unfold Q. ring. }
    destruct (Z.ltb_spec 13 (e + 8)) as [H13|H13].
    + set (val := if 88 <? Q mod 8192 then Q mod 8192 else Q mod 16384).
      set (k := if 88 <? Q mod 8192 then 13 else 14).
      replace (if 88 <? Q mod 8192 then (Q mod 8192, 13) else (Q mod 16384, 14)) with (val, k)
        by (unfold val, k; destruct (88 <? Q mod 8192); reflexivity).
      assert (Hk : k = 13 /\ val = Q mod 8192 /\ 88 < val \/ k = 14 /\ val = Q mod 16384 /\ Q mod 8192 <= 88).
      { unfold k, val. destruct (Z.ltb_spec 88 (Q mod 8192)); [left|right]; repeat split; lia. }
      destruct (group (rem ++ [b]) q d Q (e + 8) val k) as (Hv & Hk' & out & rem' & Hemit & Hsplit & Hinv'); try assumption; try lia.
      destruct (tab_spec (val mod 91)) as (c1 & Hc1 & Hb1 & Hd1); [Zdm; lia|].
      destruct (tab_spec (val / 91)) as (c2 & Hc2 & Hb2 & Hd2); [Zdm; lia|].
      destruct (IH _ _ _ _ _ Hinv') as (t & Ht & Hdec).
      rewrite Hc1, Hc2. cbn [bindO]. rewrite Ht. cbn [bindO].
      eexists. split; [reflexivity|].
      rewrite (dec_two c1 c2 (val mod 91) (val / 91)) by (try assumption; Zdm; lia).
      assert (val mod 91 + val / 91 * 91 = val) as -> by (Zdm; lia).
      cbv zeta. rewrite Hk', Hemit. cbn [bindO]. rewrite Hdec. cbn [bindO].
      f_equal. rewrite app_assoc, <- Hsplit, <- app_assoc. reflexivity.
    + destruct (IH (rem ++ [b]) q d Q (e + 8)) as (t & Ht & Hdec).
      { unfold INV. repeat split; try assumption; lia. }
      exists t. split; [exact Ht|]. rewrite Hdec, <- app_assoc. reflexivity.
Qed.

Lemma b91_roundtrip_lemma : forall data, Forall is_byte data ->
  exists t, b91_encode data = Ok t /\ b91_decode t = Ok data.
Proof.
  intros. unfold b91_encode, b91_decode.
  apply (roundtrip_gen data H [] 0 0 0 0).
  unfold INV. repeat split; try (constructor); try lia; try reflexivity.
Qed.

(** alphabet *)
Lemma at_ub_in : forall (A : Type) (l : list A) i a, at_ub l i = Ok a -> In a l.
Proof. unfold at_ub. intros. destruct (nth_error l i) eqn:E; [|discriminate]. inversion H; subst. eapply nth_error_In; eauto. Qed.

Lemma b91_flush_alphabet : forall q e t, b91_flush q e = Ok t -> Forall (fun c => In c enctab) t.
Proof.
  intros * H. unfold b91_flush in H. destruct (e =? 0); [inversion H; constructor|].
  destruct (at_ub enctab (Z.to_nat (q mod 91))) eqn:E1; try discriminate. cbn [bindO] in H.
  apply at_ub_in in E1.
  destruct ((7 <? e) || (90 <? q)).
  - destruct (at_ub enctab (Z.to_nat (q / 91))) eqn:E2; try discriminate. apply at_ub_in in E2.
    inversion H; subst; repeat (apply Forall_cons; [assumption|]); apply Forall_nil.
  - inversion H; subst; repeat (apply Forall_cons; [assumption|]); apply Forall_nil.
Qed.

Lemma b91_alphabet_gen : forall ib q e t, b91_enc_loop ib q e = Ok t -> Forall (fun c => In c enctab) t.
Proof.
  induction ib as [|b ib IH]; intros q e t H; [eapply b91_flush_alphabet; exact H|].
  cbn [b91_enc_loop] in H. destruct (shl_int b e); try discriminate. cbn [bindO] in H.
  destruct (13 <? e + 8).
  2: eapply IH; exact H.
  match type of H with context [if ?c then (_,_,_) else _] => destruct c end.
  all: match type of H with bindO ?X _ = _ => destruct X eqn:E1; try discriminate; cbn [bindO] in H end.
  all: match type of H with bindO ?X _ = _ => destruct X eqn:E2; try discriminate; cbn [bindO] in H end.
  all: match type of H with bindO ?X _ = _ => destruct X eqn:E3; try discriminate; cbn [bindO] in H end.
  all: inversion H; subst; apply at_ub_in in E1, E2; constructor; [assumption|]; constructor; [assumption|].
  all: eapply IH; exact E3.
Qed.

(** length *)
Lemma b91_len_gen : forall ib q e t, 0 <= e <= 13 -> b91_enc_loop ib q e = Ok t ->
  13 * Z.of_nat (length t) <= 2 * (8 * Z.of_nat (length ib) + e) + 26 /\
  2 * (8 * Z.of_nat (length ib) + e) <= 14 * Z.of_nat (length t) + 13.
Proof.
  induction ib as [|b ib IH]; intros q e t He H.
  - cbn [b91_enc_loop] in H. unfold b91_flush in H.
    destruct (Z.eqb_spec e 0); [inversion H; subst; cbn [length]; lia|].
    destruct (at_ub enctab (Z.to_nat (q mod 91))); try discriminate. cbn [bindO] in H.
    destruct (Z.ltb_spec 7 e); cbn [orb] in H.
    + destruct (at_ub enctab (Z.to_nat (q / 91))); inversion H; subst; cbn [length]; lia.
    + destruct (90 <? q).
      * destruct (at_ub enctab (Z.to_nat (q / 91))); inversion H; subst; cbn [length]; lia.
      * inversion H; subst; cbn [length]; lia.
  - cbn [b91_enc_loop] in H. destruct (shl_int b e); try discriminate. cbn [bindO] in H.
    destruct (Z.ltb_spec 13 (e + 8)).
    + match type of H with context [if ?c then (_,_,_) else _] => destruct c end.
      all: match type of H with bindO ?X _ = _ => destruct X eqn:E1; try discriminate; cbn [bindO] in H end.
      all: match type of H with bindO ?X _ = _ => destruct X eqn:E2; try discriminate; cbn [bindO] in H end.
      all: match type of H with bindO ?X _ = _ => destruct X eqn:E3; try discriminate; cbn [bindO] in H end.
      all: apply IH in E3; [|lia].
      all: inversion H; subst; cbn [length] in *; lia.
    + apply IH in H; [|lia]. cbn [length]. lia.
Qed.

(** foreign characters *)
Definition in_alphabet (c : Z) : bool := existsb (Z.eqb c) enctab.

Lemma dec_foreign_tab : forallb (fun c => Bool.eqb (in_alphabet c)
    (match nth_error dectab (Z.to_nat c) with Some d => negb (d =? 91) | None => false end))
   (map Z.of_nat (seq 0 256)) = true.
Proof. vm_compute. reflexivity. Qed.

Lemma dec_foreign : forall c, is_byte c -> in_alphabet c = false -> at_ub dectab (Z.to_nat c) = Ok 91.
Proof.
  intros c Hc Ha. pose proof dec_foreign_tab as H. rewrite forallb_forall in H.
  assert (In c (map Z.of_nat (seq 0 256))) as Hin.
  { unfold is_byte in Hc. apply in_map_iff. exists (Z.to_nat c). split; [lia|]. apply in_seq. lia. }
  specialize (H c Hin). cbv beta in H. rewrite Ha in H. unfold at_ub.
  destruct (nth_error dectab (Z.to_nat c)) as [d|] eqn:E.
  - destruct (Z.eqb_spec d 91); [subst; reflexivity|]. cbn in H. discriminate.
  - exfalso. apply nth_error_None in E. unfold is_byte in Hc. cbn [dectab length] in E. lia.
Qed.

Lemma dec_filter : forall t q d v, Forall is_byte t ->
  b91_dec_loop t q d v = b91_dec_loop (filter in_alphabet t) q d v.
Proof.
  induction t as [|c t IH]; intros q d v Ht; [reflexivity|].
  inversion Ht as [|? ? Hc Ht']; subst. cbn [filter].
  destruct (in_alphabet c) eqn:E.
  - cbn [b91_dec_loop]. destruct (at_ub dectab (Z.to_nat c)); cbn [bindO]; try reflexivity.
    destruct (a =? 91); [apply IH; assumption|].
    destruct v as [v|]; [|apply IH; assumption].
    destruct (shl_int (v + a * 91) d); cbn [bindO]; try reflexivity.
    match goal with |- bindO ?X _ = _ => destruct X as [[[l q'] n']| |]; cbn [bindO]; try reflexivity end.
    rewrite IH by assumption. reflexivity.
  - cbn [b91_dec_loop]. rewrite dec_foreign by assumption. cbn [bindO]. change (91 =? 91) with true. cbv iota.
    apply IH. assumption.
Qed.
