(** Vocabulary for exact sums. *)
From Coq Require Import ZArith List.
Local Open Scope Z_scope.

(** The sum of a list of integers, and the sum of their magnitudes. *)
Definition total (ks : list Z) : Z := fold_right Z.add 0 ks.
Definition weight (ks : list Z) : Z := fold_right (fun k s => Z.abs k + s) 0 ks.
