(** Model of the matrix experiment on the GPU (experimenter/src/matmul_cuda.rs). *)
From Verif Require Import Base Xor F64 Format File Query Expr Text Tpch Ucr Cuda.

(** experimenter/src/matmul_cuda.rs:20-140 [matrix_cuda_command], for one
    configuration: as [matrix_product], with [matmul_cuda] in place of [matmul]. *)
Definition matrix_cuda_product (P : platform) (acc : list (N * N) -> f64) (precision : N) (size : N) (c : config) (data target : list N) : res cuda_err (list f64) :=
  let data := map matrix_value data in
  let target := map matrix_value target in
  if size * size =? 0 then Panic
  else if negb (16777216 mod (size * size) =? 0) then Panic
  else
    do d <- lift (open_column P c data) ;
    let d := with_precision d (Some precision) in
    do _ <- lift (column_statistics P d) ;
    matmul_cuda (p_dbg P) acc d target (size, size) (size, size).
