(** Decimals in BUFF chunks: C62, C63. *)
From Verif Require Import Base Xor F64 QuerySpec Buff BuffSpec BuffSummary DecimalSpec DecimalFloatProofs DecimalSummary.

(** ** C62: decimals with no more digits than the scale come back *)
(** Records that are decimals t / 10^digits with at most 15 significant digits: every
    value returned rounds to the same decimal. *)
Theorem C62_decimals_come_back :
  forall dbg lg scale f ts xs bytes, bits_of_digits (digits_of lg scale) = Some f ->
  Forall (fun t => (Z.abs t < 10 ^ 15)%Z) ts -> Forall2 (f64_of_decimal (digits_of lg scale)) ts xs ->
  xs <> [] -> N.of_nat (length xs) < 2 ^ 32 -> buff_chunk dbg lg scale xs bytes ->
  exists ys, fst (bf_decompress dbg (buff_reader xs bytes)) = Ok ys /\ Forall2 (rounds_to (digits_of lg scale)) ts ys.
Proof. exact c62. Qed.
Print Assumptions C62_decimals_come_back.
(** They can be stored. *)
Theorem C62_decimals_are_storable :
  forall dbg lg scale f ts xs, bits_of_digits (digits_of lg scale) = Some f ->
  Forall (fun t => (Z.abs t < 10 ^ 15)%Z) ts -> Forall2 (f64_of_decimal (digits_of lg scale)) ts xs ->
  xs <> [] -> N.of_nat (length xs) < 2 ^ 32 -> exists bytes, buff_chunk dbg lg scale xs bytes.
Proof. exact c62_stored. Qed.
Print Assumptions C62_decimals_are_storable.
(** Every such decimal has an f64: the quotient of t and 10^d. *)
Theorem C62_every_decimal_has_an_f64 :
  forall d t, d <= 12 -> (Z.abs t <= 2 ^ 53)%Z -> f64_of_decimal d t (to_bits (fdiv (of_Z t) (of_Z (10 ^ Z.of_N d)))).
Proof. exact nearest_quotient. Qed.
Print Assumptions C62_every_decimal_has_an_f64.
Example C62_example : Forall2 (f64_of_decimal 1) [32; -7]%Z [0x400999999999999a; 0xbfe6666666666666] /\
  on_buff_chunk true [0x400999999999999a; 0xbfe6666666666666] (fun r => fst (bf_decompress true r)) =
    Some (Ok (map (fixed_value 5) [102; -22]%Z)).
Proof. exact c62_sample. Qed.

(** ** C63: values read with precision n round to the originals at n digits *)
(** Proved for originals with at most n digits after the point, n at least 1 and no
    more than the digits of the scale, and integers t times 2^f / 10^n of at most 52
    bits.  Missing: originals with more digits, and n = 0; both are false (below). *)
Theorem C63_precision_keeps_decimals_partial :
  forall dbg lg scale f k g ts xs bytes, bits_of_digits (digits_of lg scale) = Some f -> bits_of_digits k = Some g ->
  0 < k -> k <= digits_of lg scale ->
  Forall (fun t => (Z.abs t < 10 ^ 15 /\ Z.abs t * 2 ^ Z.of_N f <= 2 ^ 52 * 10 ^ Z.of_N k)%Z) ts ->
  Forall2 (f64_of_decimal k) ts xs -> buff_storable dbg f xs -> buff_chunk dbg lg scale xs bytes ->
  exists ys, fst (bf_decompress dbg (bf_with_precision k (buff_reader xs bytes))) = Ok ys /\ Forall2 (rounds_to k) ts ys.
Proof. exact c63. Qed.
Print Assumptions C63_precision_keeps_decimals_partial.
(** Scale 100 read with one digit: 3.2 comes back as 817 / 256 = 3.19. *)
Example C63_example : Forall2 (f64_of_decimal 1) [32; -7]%Z [0x400999999999999a; 0xbfe6666666666666] /\
  Forall (fun t => (Z.abs t < 10 ^ 15 /\ Z.abs t * 2 ^ 8 <= 2 ^ 52 * 10 ^ 1)%Z) [32; -7]%Z /\
  on_scale_100 [0x400999999999999a; 0xbfe6666666666666] (fun r => fst (bf_decompress true (bf_with_precision 1 r))) =
    Some (Ok (map (fixed_value 8) [817; -179]%Z)).
Proof. exact c63_sample. Qed.
(** With precision 0 an integer becomes another: 200 is returned as 199 + 1/32. *)
Theorem C63_precision_zero_refuted : exists xs ys y,
  on_buff_chunk true xs (fun r => fst (bf_decompress true (bf_with_precision 0 r))) = Some (Ok ys) /\
  (exists x, nth_error xs 1 = Some x /\ f64_of_decimal 0 200 x) /\ nth_error ys 1 = Some y /\ rounds_to 0 199 y.
Proof. exact c63_integers_refuted. Qed.
Print Assumptions C63_precision_zero_refuted.
(** With precision 1 a record that rounds to 0.3 is returned as one that rounds to
    0.2. *)
Theorem C63_more_digits_refuted : exists xs ys x y,
  on_scale_100 xs (fun r => fst (bf_decompress true (bf_with_precision 1 r))) = Some (Ok ys) /\
  nth_error xs 1 = Some x /\ nth_error ys 1 = Some y /\ rounds_to 1 3 x /\ rounds_to 1 2 y.
Proof. exact c63_digits_refuted. Qed.
Print Assumptions C63_more_digits_refuted.
