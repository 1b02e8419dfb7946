(** The values for which Elf is shown to be exact. *)
From Verif Require Import Base Xor F64 QuerySpec.

(** 2^1074 times the f64 nearest to 1e-6, which is 4722366482869645 * 2^-72. *)
Definition micro : Z := (4722366482869645 * 2 ^ 1002)%Z.

(** Zero, an infinity, or a number of magnitude at least 1e-6 and below 1e9
    ([number] is the value times 2^1074). *)
Definition everyday (x : N) : Prop :=
  is_u64 x /\ exists v, number x = Some v /\
    (v = 0 \/ Z.abs v = 2 ^ 52 * 2 ^ 2046 \/ micro <= Z.abs v < 10 ^ 9 * 2 ^ 1074)%Z.

(** Zero, or of magnitude at least 1e-6 (infinities included). *)
Definition not_tiny (x : N) : Prop :=
  is_u64 x /\ exists v, number x = Some v /\ (v = 0 \/ micro <= Z.abs v)%Z.

(** What a platform's [log10] has to do on the finite numbers [v] (times 2^1074)
    from 1e9 on: give an f64 of at most 309, and compare correctly with the
    integers [k] up to 16 -- not below [k] at or above 10^k, and on the right side
    of [k] once the argument is more than 9e-15 away from 10^k, relatively.  A
    monotone logarithm that is exact at the powers of ten and otherwise wrong by
    at most two units in the last place does. *)
Definition log10_accurate (log10 : f64 -> f64) : Prop :=
  forall x v, is_u64 x -> number x = Some v -> (10 ^ 9 * 2 ^ 1074 <= v < 2 ^ 52 * 2 ^ 2046)%Z ->
  exists r, is_u64 r /\ log10 (of_bits x) = of_bits r /\
    fle (of_bits r) (of_Z 309) = true /\
    forall k, (9 <= k <= 16)%Z ->
      (k <= 15 -> 10 ^ k * 2 ^ 1074 <= v -> fle (of_Z k) (of_bits r) = true)%Z /\
      (v * 10 ^ 15 <= (10 ^ 15 - 9) * 10 ^ k * 2 ^ 1074 -> flt (of_bits r) (of_Z k) = true)%Z /\
      (k <= 15 -> (10 ^ 15 + 9) * 10 ^ k * 2 ^ 1074 <= v * 10 ^ 15 -> flt (of_Z k) (of_bits r) = true)%Z.
