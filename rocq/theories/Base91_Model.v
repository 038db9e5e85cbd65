(** Model of /repo/code/base91x/base91.hpp, namespace-level templates [base<91>] and [base<64>].
    Bytes and characters are integers (type [Z]); [std::string] is [list Z].
    The dictionary is the default one (USE_RLYEH_MODIFIED_DICT is not defined, base91.hpp:38). *)
From Coq Require Import ZArith List Bool.
From Verif Require Import Common.
Import ListNotations.
Open Scope Z_scope.

(** base91.hpp:58-68, [enctab] (ASCII codes of Henke's original table). *)
Definition enctab : list Z :=
  [65;66;67;68;69;70;71;72;73;74;75;76;77;
   78;79;80;81;82;83;84;85;86;87;88;89;90;
   97;98;99;100;101;102;103;104;105;106;107;108;109;
   110;111;112;113;114;115;116;117;118;119;120;121;122;
   48;49;50;51;52;53;54;55;56;57;33;35;36;
   37;38;40;41;42;43;44;46;47;58;59;60;61;
   62;63;64;91;93;94;95;96;123;124;125;126;34].

(** base91.hpp:124-143, [dectab]. *)
Definition dectab : list Z :=
  [91;91;91;91;91;91;91;91;91;91;91;91;91;91;91;91;
   91;91;91;91;91;91;91;91;91;91;91;91;91;91;91;91;
   91;62;90;63;64;65;66;91;67;68;69;70;71;91;72;73;
   52;53;54;55;56;57;58;59;60;61;74;75;76;77;78;79;
   80; 0; 1; 2; 3; 4; 5; 6; 7; 8; 9;10;11;12;13;14;
   15;16;17;18;19;20;21;22;23;24;25;81;91;82;83;84;
   85;26;27;28;29;30;31;32;33;34;35;36;37;38;39;40;
   41;42;43;44;45;46;47;48;49;50;51;86;87;88;89;91;
   91;91;91;91;91;91;91;91;91;91;91;91;91;91;91;91;
   91;91;91;91;91;91;91;91;91;91;91;91;91;91;91;91;
   91;91;91;91;91;91;91;91;91;91;91;91;91;91;91;91;
   91;91;91;91;91;91;91;91;91;91;91;91;91;91;91;91;
   91;91;91;91;91;91;91;91;91;91;91;91;91;91;91;91;
   91;91;91;91;91;91;91;91;91;91;91;91;91;91;91;91;
   91;91;91;91;91;91;91;91;91;91;91;91;91;91;91;91;
   91;91;91;91;91;91;91;91;91;91;91;91;91;91;91;91].

(** [x << n] computed on a (32-bit, signed) C++ [int], as in base91.hpp:87, 179 and 192:
    undefined if the count is out of range or the result does not fit. *)
Definition shl_int (x n : Z) : outcome Z :=
  if (0 <=? x) && (0 <=? n) && (n <? 32) && (Z.shiftl x n <? 2 ^ 31)
  then Ok (Z.shiftl x n) else UB.

(** 64-bit [unsigned long] wrap-around. *)
Definition u64 (x : Z) : Z := x mod 2 ^ 64.

(** base91.hpp:105-110: the last, partial group. *)
Definition b91_flush (queue nbits : Z) : outcome (list Z) :=
  if nbits =? 0 then Ok []
  else
    do c1 <- at_ub enctab (Z.to_nat (queue mod 91));
    if (7 <? nbits) || (90 <? queue) then
      do c2 <- at_ub enctab (Z.to_nat (queue / 91));
      Ok [c1; c2]
    else Ok [c1].

(** base91.hpp:85-103: main loop of [base<91>::encode]. [ob] is produced left to right. *)
Fixpoint b91_enc_loop (ib : list Z) (queue nbits : Z) : outcome (list Z) :=
  match ib with
  | [] => b91_flush queue nbits
  | b :: ib' =>
      do s <- shl_int b nbits;
      let queue := u64 (Z.lor queue s) in
      let nbits := nbits + 8 in
      if 13 <? nbits then
        let val := Z.land queue 8191 in
        let '(val, queue, nbits) :=
          if 88 <? val then (val, Z.shiftr queue 13, nbits - 13)
          else (Z.land queue 16383, Z.shiftr queue 14, nbits - 14) in
        do c1 <- at_ub enctab (Z.to_nat (val mod 91));
        do c2 <- at_ub enctab (Z.to_nat (val / 91));
        do rest <- b91_enc_loop ib' queue nbits;
        Ok (c1 :: c2 :: rest)
      else b91_enc_loop ib' queue nbits
  end.

(** base91.hpp:54-119, [base<91>::encode]. *)
Definition b91_encode (data : list Z) : outcome (list Z) := b91_enc_loop data 0 0.

(** base91.hpp:181-185, the [do ... while (nbits > 7)] loop: bytes emitted, queue and nbits after it.
    [fuel] bounds the number of iterations; running out of it would be non-termination. *)
Fixpoint b91_emit (fuel : nat) (queue nbits : Z) : outcome (list Z * Z * Z) :=
  match fuel with
  | O => UB
  | S fuel' =>
      let c := queue mod 256 in
      let queue := Z.shiftr queue 8 in
      let nbits := nbits - 8 in
      if 7 <? nbits then
        do r <- b91_emit fuel' queue nbits;
        let '(l, q, n) := r in Ok (c :: l, q, n)
      else Ok ([c], queue, nbits)
  end.

(** base91.hpp:167-192: main loop and epilogue of [base<91>::decode]; [val] = -1 is [None]. *)
Fixpoint b91_dec_loop (ib : list Z) (queue nbits : Z) (val : option Z) : outcome (list Z) :=
  match ib with
  | [] =>
      match val with
      | None => Ok []
      | Some v => do s <- shl_int v nbits; Ok [Z.lor queue s mod 256]
      end
  | c :: ib' =>
      do d <- at_ub dectab (Z.to_nat c);
      if d =? 91 then b91_dec_loop ib' queue nbits val
      else
        match val with
        | None => b91_dec_loop ib' queue nbits (Some d)
        | Some v =>
            let v := v + d * 91 in
            do s <- shl_int v nbits;
            let queue := u64 (Z.lor queue s) in
            let nbits := nbits + (if 88 <? Z.land v 8191 then 13 else 14) in
            do r <- b91_emit (Z.to_nat nbits) queue nbits;
            let '(l, queue, nbits) := r in
            do rest <- b91_dec_loop ib' queue nbits None;
            Ok (l ++ rest)
        end
  end.

(** base91.hpp:121-196, [base<91>::decode]. *)
Definition b91_decode (text : list Z) : outcome (list Z) := b91_dec_loop text 0 0 None.

(* ------------------------------------------------------------------ *)
(** ** base 64 *)

(** base91.hpp:203-206 / 257-260, [chars]. *)
Definition b64chars : list Z :=
  [65;66;67;68;69;70;71;72;73;74;75;76;77;78;79;80;81;82;83;84;85;86;87;88;89;90;
   97;98;99;100;101;102;103;104;105;106;107;108;109;110;111;112;113;114;115;116;117;118;119;120;121;122;
   48;49;50;51;52;53;54;55;56;57;43;47].

(** base91.hpp:219-222 / 234-237: four 6-bit indices from three bytes. *)
Definition b64_idx (a b c : Z) : Z * Z * Z * Z :=
  (Z.shiftr (Z.land a 252) 2,
   Z.shiftl (Z.land a 3) 4 + Z.shiftr (Z.land b 240) 4,
   Z.shiftl (Z.land b 15) 2 + Z.shiftr (Z.land c 192) 6,
   Z.land c 63).

Definition b64char (i : Z) : outcome Z := at_ub b64chars (Z.to_nat i).

(** base91.hpp:199-252, [base<64>::encode]: full blocks of three (216-228) and the epilogue (230-244),
    where missing bytes count as 0 and [3-i] characters '=' are appended. *)
Fixpoint b64_encode (data : list Z) : outcome (list Z) :=
  match data with
  | [] => Ok []
  | [a] =>
      let '(i0, i1, _, _) := b64_idx a 0 0 in
      do c0 <- b64char i0; do c1 <- b64char i1; Ok [c0; c1; 61; 61]
  | [a; b] =>
      let '(i0, i1, i2, _) := b64_idx a b 0 in
      do c0 <- b64char i0; do c1 <- b64char i1; do c2 <- b64char i2; Ok [c0; c1; c2; 61]
  | a :: b :: c :: rest =>
      let '(i0, i1, i2, i3) := b64_idx a b c in
      do c0 <- b64char i0; do c1 <- b64char i1; do c2 <- b64char i2; do c3 <- b64char i3;
      do r <- b64_encode rest;
      Ok (c0 :: c1 :: c2 :: c3 :: r)
  end.

(** [std::string::find(char)] truncated to [unsigned char]: [npos] becomes 255 (base91.hpp:274, 291). *)
Fixpoint find_from (c : Z) (l : list Z) (i : Z) : Z :=
  match l with
  | [] => 255
  | x :: l' => if x =? c then i else find_from c l' (i + 1)
  end.
Definition b64_find (c : Z) : Z := find_from c b64chars 0 mod 256.

(** base91.hpp:269-270: characters that do not stop the loop ('=' does; [isalnum] in the "C" locale). *)
Definition b64_accepted (c : Z) : bool :=
  negb (c =? 61) &&
  (((48 <=? c) && (c <=? 57)) || ((65 <=? c) && (c <=? 90)) || ((97 <=? c) && (c <=? 122))
   || (c =? 43) || (c =? 47)).

(** base91.hpp:276-278 / 293-295, three bytes ([unsigned char] arithmetic) from four 6-bit indices. *)
Definition b64_bytes (i0 i1 i2 i3 : Z) : Z * Z * Z :=
  ((Z.shiftl i0 2 + Z.shiftr (Z.land i1 48) 4) mod 256,
   (Z.shiftl (Z.land i1 15) 4 + Z.shiftr (Z.land i2 60) 2) mod 256,
   (Z.shiftl (Z.land i2 3) 6 + i3) mod 256).

(** base91.hpp:269-298, loop and epilogue of [base<64>::decode]. [acc] is [char_array_4[0..i)]. In the epilogue the
    unset entries are the character code 0, whose index is 255. [in_len] is an [int] (base91.hpp:262): texts of 2^31
    characters or more are outside the model. *)
Definition b64_dec_tail (acc : list Z) : list Z :=
  match acc with
  | [] => []
  | _ =>
      let g k := b64_find (nth k acc 0) in
      let '(o0, o1, o2) := b64_bytes (g 0%nat) (g 1%nat) (g 2%nat) (g 3%nat) in
      firstn (length acc - 1) [o0; o1; o2]
  end.

Fixpoint b64_dec_loop (text : list Z) (acc : list Z) : list Z :=
  match text with
  | [] => b64_dec_tail acc
  | c :: text' =>
      if b64_accepted c then
        match acc with
        | [c0; c1; c2] =>
            let '(o0, o1, o2) := b64_bytes (b64_find c0) (b64_find c1) (b64_find c2) (b64_find c) in
            o0 :: o1 :: o2 :: b64_dec_loop text' []
        | _ => b64_dec_loop text' (acc ++ [c])
        end
      else b64_dec_tail acc
  end.

(** base91.hpp:254-301, [base<64>::decode]. *)
Definition b64_decode (text : list Z) : list Z := b64_dec_loop text [].
