(** Specification vocabulary for the classification and the matrix experiments. *)
From Verif Require Import Base Xor F64 Format File FileSpec Codecs CodecSpec Query QuerySpec DecimalSpec Expr ExprSpec Text TextSpec Tpch TpchSpec Ucr.
Local Open Scope N_scope.

(** Neither infinite nor NaN ([number] is the value times 2^1074). *)
Definition finite_value (x : N) : Prop := is_u64 x /\ exists v, number x = Some v /\ (Z.abs v < 2 ^ 52 * 2 ^ 2046)%Z.

(** [label] is the label of the vector of [train] nearest to [v]; the last one, if
    several are equally near.  The squared distance is computed in f64. *)
Definition nearest_label (neg : bool) (train : list (Z * list N)) (v : list N) (label : Z) : Prop :=
  exists i w, nth_error train i = Some (label, w) /\
    forall j l u, nth_error train j = Some (l, u) ->
      if (j <=? i)%nat then SFleb (squared_distance neg w v) (squared_distance neg u v) = true
      else SFltb (squared_distance neg w v) (squared_distance neg u v) = true.

(** Labelled vectors of [len] finite numbers each; at least one vector. *)
Definition vectors (len : nat) (data : list (Z * list N)) : Prop :=
  data <> [] /\ Forall (fun x => length (snd x) = len /\ Forall finite_value (snd x)) data.
Definition values (data : list (Z * list N)) : list N := concat (map snd data).

(** The file of the encoded values fits into memory. *)
Definition fits (P : platform) (c : config) (xs : list N) : Prop :=
  N.of_nat (length (written [] (fst (encode_column P c xs)))) < 2 ^ 63.

(** The same number; the zeros are not told apart. *)
Definition alike (x y : N) : Prop := x = y \/ (number x = Some 0%Z /\ number y = Some 0%Z).
Definition same (a b : f64) : Prop := a = b \/ exists s t, a = S754_zero s /\ b = S754_zero t.
(** What a configuration keeps, at least as a number: DeltaSprintz stores -0 as 0. *)
Definition keeps (log10 : f64 -> f64) (c : config) (x : N) : Prop :=
  storable log10 c x \/ (config_scheme c = SDeltaSprintz /\ x = 0x8000000000000000).
(** The f64 of t / 10^p: zero, or a decimal with at most p digits after the point and
    15 in all, of magnitude at least 1e-6 and below 1e9. *)
Definition decimal_value (p x : N) : Prop :=
  exists t, (Z.abs t < 10 ^ 15 /\ Z.abs t < 10 ^ 9 * 10 ^ Z.of_N p /\ (t = 0 \/ 10 ^ Z.of_N p <= Z.abs t * 10 ^ 6))%Z /\ f64_of_decimal p t x.
(** No vector of [len] values spans two chunks: there is only one chunk of 2^24 values,
    or a vector fits into it a whole number of times. *)
Definition fitting (len : nat) (total : N) : Prop := total <= 2 ^ 24 \/ 2 ^ 24 mod N.of_nat len = 0.

(** A number from 0 up to, but not including, 1. *)
Definition fraction (x : N) : Prop := is_u64 x /\ exists v, number x = Some v /\ (0 <= v < 2 ^ 1074)%Z.
(** [y] is the f64 of t / 10^8 where t is 8 (x - 1/2) 10^8 rounded: at most 3/4 away. *)
Definition matrix_entry (x y : N) : Prop :=
  exists v t, number x = Some v /\ f64_of_decimal 8 t y /\
    (4 * Z.abs (t * 2 ^ 1074 - (8 * v - 4 * 2 ^ 1074) * 10 ^ 8) <= 3 * 2 ^ 1074)%Z.
(** [rows] cuts the numbers into rows of [size]. *)
Definition in_rows (size : N) (xs : list N) (rows : list (list N)) : Prop :=
  xs = concat rows /\ Forall (fun row => N.of_nat (length row) = size) rows.

(** A line of a table of series that is read as written: [len] values of magnitude
    below 1e9 - 1, and below 2^49 in units of the p-th digit. *)
Definition series_line (parse : list N -> option N) (p : N) (len : nat) (r : series * bool) : Prop :=
  Forall well_formed (series_numerals (fst r)) /\ Forall (reads parse) (series_numerals (fst r)) /\ length (snd (fst r)) = len /\
  Forall (fun n => smaller p (2 ^ 49) n /\ smaller 0 (10 ^ 9 - 1) n) (snd (fst r)).
(** The loaded series, all but the first, as bit patterns. *)
Definition loaded_series (p : N) (rows : list (series * bool)) (data : list (Z * list N)) : Prop :=
  exists vs, data = map (fun x => (fst x, map to_bits (snd x))) vs /\ Forall2 (loaded p) (tl (map fst rows)) vs.
