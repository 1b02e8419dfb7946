(** Specification vocabulary for the product on the GPU. *)
From Verif Require Import Base F64 Query.

(** Column [i] of a matrix with [rows] rows of [columns] entries that is stored row by
    row. *)
Definition row_major_column (xs : list N) (rows columns : N) (i : nat) : list N :=
  map (fun p => nth (p * N.to_nat columns + i) xs 0) (seq 0 (N.to_nat rows)).
(** Its columns, one after the other: the same matrix stored column by column. *)
Definition row_major_columns (xs : list N) (rows columns : N) : list (list N) :=
  map (row_major_column xs rows columns) (seq 0 (N.to_nat columns)).
(** A library that adds up the products in order, as the CPU does. *)
Definition in_order (neg : bool) (pairs : list (N * N)) : f64 :=
  iter_sum neg (map (fun '(b, a) => fmul (of_bits a) (of_bits b)) pairs).
