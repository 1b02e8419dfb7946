(** Model of the matrix product on the GPU (feature "cuda"): cuda-binding/src/lib.rs
    and [matmul_cuda] of ebi/src/api/decoder.rs.  Opening the device is taken to
    succeed; the device buffers that [Context] keeps between calls are left out, as the
    calls of one [matmul_cuda] all have the same sizes. *)
From Verif Require Import Base Xor F64 Format File Query Expr Text.

(** cuda-binding/src/lib.rs:15-22 [CudaError::SizeError]; decoder.rs: the errors of the
    decoder. *)
Inductive cuda_err := CSize | CDecoder (e : derr).
Definition lift {A} (x : res derr A) : res cuda_err A :=
  match x with Ok a => Ok a | Err e => Err (CDecoder e) | Panic => Panic end.

(** cudarc's [GemmConfig] with both operands not transposed, alpha = 1, beta = 0 and
    [ldc = m]. *)
Record gemm_config := mkGC { g_m : Z; g_n : Z; g_k : Z; g_lda : Z; g_ldb : Z }.
(** [usize as i32]. *)
Definition i32_of (n : N) : Z := wrap_i32 (Z.of_N n).
(** cuda-binding/src/lib.rs:150-163 [config_matmul_column_major]. *)
Definition config_column_major (m n k : N) : gemm_config := mkGC (i32_of m) (i32_of n) (i32_of k) (i32_of m) (i32_of k).
(** cuda-binding/src/lib.rs:168-181 [config_matmul_row_major]. *)
Definition config_row_major (m n k : N) : gemm_config := mkGC (i32_of n) (i32_of m) (i32_of k) (i32_of n) (i32_of k).

Section Calls.
  Variable dbg : bool.
  (** How the library adds up the products of these pairs: order and fused operations
      are its own. *)
  Variable accumulate : list (N * N) -> f64.

  (** What cuBLAS computes: matrices are stored column by column, [lda] and [ldb]
      entries apart. *)
  Definition blas_gemm (cfg : gemm_config) (a b : list N) : list f64 :=
    let lda := Z.to_nat (g_lda cfg) in
    let ldb := Z.to_nat (g_ldb cfg) in
    flat_map (fun j =>
      map (fun i => accumulate (map (fun p => (nth (i + p * lda) a 0, nth (p + j * ldb) b 0)) (seq 0 (Z.to_nat (g_k cfg)))))
        (seq 0 (Z.to_nat (g_m cfg))))
      (seq 0 (Z.to_nat (g_n cfg))).

  (** i32 multiplication, and [i32 as usize]. *)
  Definition mul_i32 (a b : Z) : res cuda_err Z :=
    if (Z.leb (-2147483648) (a * b) && Z.leb (a * b) 2147483647)%Z then Ok (a * b)%Z
    else if dbg then Panic else Ok (wrap_i32 (a * b)).
  Definition usize_of_i32 (z : Z) : N := Z.to_N (z mod Z.of_N two64).

  (** cuda-binding/src/lib.rs:59-140 [gemm]; [c_len] is the length of the destination. *)
  Definition gemm (a b : list N) (c_len : N) (cfg : gemm_config) : res cuda_err (list f64) :=
    if ((g_m cfg <=? 0) || (g_n cfg <=? 0) || (g_k cfg <=? 0))%Z then Err CSize
    else
      do mk <- mul_i32 (g_m cfg) (g_k cfg) ;
      if negb (N.of_nat (length a) =? usize_of_i32 mk) then Err CSize
      else
        do kn <- mul_i32 (g_k cfg) (g_n cfg) ;
        if negb (N.of_nat (length b) =? usize_of_i32 kn) then Err CSize
        else
          do mn <- mul_i32 (g_m cfg) (g_n cfg) ;
          if negb (c_len =? usize_of_i32 mn) then Err CSize
          else Ok (blas_gemm cfg a b).

  (** decoder/chunk_reader.rs:262-280 [gemm]. *)
  Definition reader_gemm (ex : executor) (first size : N) (b : list N) (c_len : N) (swap : bool) (cfg : gemm_config)
      (r : rstate ex) : res cuda_err (list f64) * rstate ex :=
    let '(v, r) := ex_decompress ex r in
    match v with
    | Ok xs =>
        if N.of_nat (length xs) <? first + size then (Panic, r)
        else
          let a := firstn (N.to_nat size) (skipn (N.to_nat first) xs) in
          (if swap then gemm b a c_len cfg else gemm a b c_len cfg, r)
    | Err e => (Err (CDecoder e), r)
    | Panic => (Panic, r)
    end.

  (** api/decoder.rs:698-715, the loop over the matrices of the result. *)
  Fixpoint cuda_batch (d : decoder) (size c_len : N) (target : list N) (cfg : gemm_config) (batch chunk : nat) (offset : N)
      (r : rstate (d_ex d)) : res cuda_err (list f64) :=
    match batch with
    | O => if dbg && negb (is_last_chunk (d_meta d) chunk) then Panic else Ok []
    | S batch =>
        do n <- lift (chunk_records dbg (d_meta d) chunk) ;
        do x <-
          (if n <=? offset then
             do r <- lift (chunk_reader dbg (d_ex d) (d_meta d) (d_file d) (d_precision d) (S chunk)) ; Ok (S chunk, 0, r)
           else Ok (chunk, offset, r)) ;
        let '(chunk, offset, r) := x in
        let '(x, r) := reader_gemm (d_ex d) offset size target c_len true cfg r in
        do xs <- x ;
        do ys <- cuda_batch d size c_len target cfg batch chunk (offset + size) r ;
        Ok (xs ++ ys)
    end.
  (** api/decoder.rs:659-724 [matmul_cuda]. *)
  Definition matmul_cuda (d : decoder) (target : list N) (target_shape data_shape : N * N) : res cuda_err (list f64) :=
    let '(rows, columns) := data_shape in
    let '(target_rows, target_columns) := target_shape in
    let records := f_records (m_footer (d_meta d)) in
    do size <- lift (mul_usize dbg rows columns) ;
    if size =? 0 then Panic
    else
      do target_size <- lift (mul_usize dbg target_rows target_columns) ;
      if negb (columns =? target_rows) || negb (records mod size =? 0) || negb (target_size =? N.of_nat (length target))
      then Err (CDecoder EPreconditionsNotMet)
      else
        do c_len <- lift (mul_usize dbg rows target_columns) ;
        do capacity <- lift (mul_usize dbg (records / size) c_len) ;
        if isize_limit <=? 8 * capacity then Panic
        else
          do r <- lift (chunk_reader dbg (d_ex d) (d_meta d) (d_file d) (d_precision d) 0) ;
          if c_len =? 0 then Panic
          else cuda_batch d size c_len target (config_row_major rows target_columns columns) (N.to_nat (records / size)) 0 0 r.
End Calls.
