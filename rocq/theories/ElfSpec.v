(** Specification vocabulary for Elf. *)
From Verif Require Import Base F64 Elf.

(** For each value [last] of the encoder's precision register (nothing yet, or
    0..15), an erased mantissa is recovered from the precision [b] sent with it.
    Zeros and infinities are never erased. *)
Definition recoverable (log10 : f64 -> f64) (x : N) : Prop :=
  feq (of_bits x) (S754_zero false) || is_infinite (of_bits x) = false ->
  forall last b x', (last = 2147483647 \/ 0 <= last < 16)%Z ->
    elf_erase log10 last x = Some (b, x') -> (0 <= b)%Z /\ elf_recover log10 b x' = x.
