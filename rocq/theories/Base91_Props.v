(** Properties C01-C04: the text encodings of binary buffers (base91x/base91.hpp).
    Buffers and texts are lists of byte values; [is_byte b] is [0 <= b < 256]. *)
From Coq Require Import ZArith List Bool Lia.
From Verif Require Import Common Base91_Model Base91_Proofs Base64_Proofs.
Import ListNotations.
Open Scope Z_scope.

(** ** C01: decoding what was encoded gives back the buffer; neither direction runs into undefined behaviour. *)
Theorem base91_round_trip : forall data, Forall is_byte data ->
  exists text, b91_encode data = Ok text /\ b91_decode text = Ok data.
Proof. exact b91_roundtrip_lemma. Qed.
Print Assumptions base91_round_trip.

(** concrete case: "test" followed by bytes exercising both group sizes *)
Example base91_round_trip_witness :
  Forall is_byte [116;101;115;116;0;0;255;88;0;17;200] /\
  b91_encode [116;101;115;116] = Ok [102;80;78;75;100] (* "fPNKd" *).
Proof. split; [repeat constructor; unfold is_byte; lia | vm_compute; reflexivity]. Qed.

(** Two different buffers never have the same text. *)
Theorem base91_injective : forall d1 d2 t, Forall is_byte d1 -> Forall is_byte d2 ->
  b91_encode d1 = Ok t -> b91_encode d2 = Ok t -> d1 = d2.
Proof.
  intros d1 d2 t H1 H2 E1 E2.
  destruct (b91_roundtrip_lemma d1 H1) as (t1 & F1 & G1).
  destruct (b91_roundtrip_lemma d2 H2) as (t2 & F2 & G2). congruence.
Qed.
Print Assumptions base91_injective.

(** The text takes at least 8/7 and at most 16/13 characters per byte (plus a constant). *)
Theorem base91_length : forall data text, b91_encode data = Ok text ->
  13 * Z.of_nat (length text) <= 16 * Z.of_nat (length data) + 26 /\
  16 * Z.of_nat (length data) <= 14 * Z.of_nat (length text) + 13.
Proof. intros data text H. apply b91_len_gen in H; lia. Qed.
Print Assumptions base91_length.
Example base91_length_witness : exists t, b91_encode (repeat 255 26) = Ok t /\ length t = 32%nat.
Proof. eexists. split; vm_compute; reflexivity. Qed.

(** ** C02: only printable ASCII characters other than space, single quote, minus sign and backslash are produced. *)
Definition printable_ascii (c : Z) : Prop := 33 <= c <= 126.
Theorem base91_alphabet : forall data text, b91_encode data = Ok text ->
  Forall (fun c => printable_ascii c /\ c <> 39 (* ' *) /\ c <> 92 (* \ *) /\ c <> 45 (* - *)) text.
Proof.
  intros data text H. apply b91_alphabet_gen in H. eapply Forall_impl; [|exact H].
  intros c Hc. unfold printable_ascii.
  assert (forallb (fun c => (33 <=? c) && (c <=? 126) && negb (c =? 39) && negb (c =? 92) && negb (c =? 45)) enctab = true) as Hall
    by (vm_compute; reflexivity).
  rewrite forallb_forall in Hall. specialize (Hall c Hc). cbv beta in Hall.
  rewrite !andb_true_iff, !negb_true_iff, !Z.eqb_neq in Hall. lia.
Qed.
Print Assumptions base91_alphabet.
Example base91_alphabet_witness : exists t, b91_encode [1;2;3;255;254] = Ok t /\ length t = 7%nat.
Proof. eexists. split; vm_compute; reflexivity. Qed.

(** The double quote, on the other hand, is part of the alphabet: a base-91 text cannot be put between double quotes
    (which is what JSON would require) without escaping. *)
Theorem base91_double_quote_free_refuted : exists data text,
  Forall is_byte data /\ b91_encode data = Ok text /\ In 34 text.
Proof.
  exists [90; 0; 0], [34; 65; 65; 65]. split; [repeat constructor; unfold is_byte; lia|].
  split; [vm_compute; reflexivity|]. simpl. tauto.
Qed.
Print Assumptions base91_double_quote_free_refuted.

(** ** C03: characters outside the alphabet are ignored by the decoder.
    The alphabet is the 91 printable ASCII characters other than space, single quote, minus and backslash. *)
Definition alphabet_char (c : Z) : bool :=
  (33 <=? c) && (c <=? 126) && negb (c =? 39) && negb (c =? 92) && negb (c =? 45).
Definition alphabet_part (text : list Z) : list Z := filter alphabet_char text.
Lemma alphabet_char_enctab : forall c, is_byte c -> alphabet_char c = existsb (Z.eqb c) enctab.
Proof.
  intros c Hc.
  assert (forallb (fun n => Bool.eqb (alphabet_char (Z.of_nat n)) (existsb (Z.eqb (Z.of_nat n)) enctab)) (seq 0 256) = true) as Hall
    by (vm_compute; reflexivity).
  rewrite forallb_forall in Hall. specialize (Hall (Z.to_nat c)).
  unfold is_byte in Hc. rewrite Z2Nat.id in Hall by lia.
  apply Bool.eqb_prop. apply Hall. apply in_seq. lia.
Qed.
Lemma alphabet_part_enctab : forall t, Forall is_byte t -> alphabet_part t = filter (fun c => existsb (Z.eqb c) enctab) t.
Proof.
  induction 1 as [|c t Hc Ht IH]; [reflexivity|]. simpl. rewrite alphabet_char_enctab by assumption. rewrite IH. reflexivity.
Qed.
Theorem base91_ignores_foreign_characters : forall t1 t2, Forall is_byte t1 -> Forall is_byte t2 ->
  alphabet_part t1 = alphabet_part t2 -> b91_decode t1 = b91_decode t2.
Proof.
  intros t1 t2 H1 H2 H. rewrite !alphabet_part_enctab in H by assumption.
  unfold b91_decode. rewrite (dec_filter t1), (dec_filter t2) by assumption.
  unfold in_alphabet. rewrite H. reflexivity.
Qed.
Print Assumptions base91_ignores_foreign_characters.
(** "fPNKd" and "f P\nN'Kd" *)
Example base91_ignores_witness : alphabet_part [102;80;78;75;100] = alphabet_part [102;32;80;10;78;39;75;100] /\
   b91_decode [102;32;80;10;78;39;75;100] = Ok [116;101;115;116].
Proof. split; vm_compute; reflexivity. Qed.

(** ** C04: base 64. *)
Theorem base64_round_trip : forall data, Forall is_byte data ->
  exists text, b64_encode data = Ok text /\ b64_decode text = data /\
    Z.of_nat (length text) = 4 * ((Z.of_nat (length data) + 2) / 3) /\
    Forall (fun c => In c b64chars \/ c = 61) text.
Proof. exact b64_roundtrip_lemma. Qed.
Print Assumptions base64_round_trip.
Example base64_witness : Forall is_byte [102;111;111;98] /\ b64_encode [102;111;111;98] = Ok [90;109;57;118;89;103;61;61].
Proof. split; [repeat constructor; unfold is_byte; lia | vm_compute; reflexivity]. Qed.
