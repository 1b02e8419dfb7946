(** Specification vocabulary for decimals: records that were decimal numbers before
    they became f64s. *)
From Verif Require Import Base Xor F64 QuerySpec.

(** [x] is the f64 for the decimal t / 10^d: no f64 is nearer to it.  Both sides are
    multiplied by 10^d and by the unit 2^1074 of [number]. *)
Definition f64_of_decimal (d : N) (t : Z) (x : N) : Prop :=
  is_u64 x /\ exists a, number x = Some a /\
  forall y b, is_u64 y -> number y = Some b ->
    (Z.abs (a * 10 ^ Z.of_N d - t * 2 ^ 1074) <= Z.abs (b * 10 ^ Z.of_N d - t * 2 ^ 1074))%Z.
(** Rounding [y] to d digits after the point gives t / 10^d: it is less than half a
    unit of the last digit away. *)
Definition rounds_to (d : N) (t : Z) (y : N) : Prop :=
  exists b, number y = Some b /\ (2 * Z.abs (b * 10 ^ Z.of_N d - t * 2 ^ 1074) < 2 ^ 1074)%Z.
