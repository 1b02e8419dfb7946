(** Specification vocabulary for the XOR codecs. *)
From Verif Require Import Base Xor.

(** The records before the first canonical NaN. *)
Fixpoint before_nan (xs : list N) : list N :=
  match xs with
  | [] => []
  | x :: xs' => if x =? nan_bits then [] else x :: before_nan xs'
  end.
