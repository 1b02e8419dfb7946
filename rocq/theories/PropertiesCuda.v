(** The property theorem C86: the matrix product on the GPU. *)
From Verif Require Import Base Xor F64 Format File FileSpec Codecs Query QuerySpec QuerySummary Readers ByteCodec Sprintz Buff BuffCodec Expr ExprSpec ExprSummary Text Cuda CudaSpec CudaSummary.

(** ** C86: the product on the GPU is the product on the CPU *)
(** What the GPU returns, for every file whose chunks hold whole matrices, every shape
    and every way [acc] in which the library adds up an entry: the entries row by row,
    where the target is read row by row.  Partial: this is not how [matmul] reads the
    target, see below; [acc] is the library's. *)
Theorem C86_cuda_product_partial : forall dbg acc d parts rows columns tc target rws,
  stored dbg (d_ex d) (d_meta d) (d_file d) (d_precision d) parts -> settles (d_ex d) -> parts <> [] ->
  0 < rows -> 0 < columns -> 0 < tc -> rows * columns < 2 ^ 31 -> columns * tc < 2 ^ 31 -> rows * tc < 2 ^ 31 ->
  N.of_nat (length (concat parts)) < 2 ^ 60 -> Forall (fun p => N.of_nat (length p) mod (rows * columns) = 0) parts ->
  grouped (N.to_nat columns) (concat parts) rws [] -> N.of_nat (length target) = columns * tc ->
  8 * (N.of_nat (length rws) * tc) < 2 ^ 63 ->
  matmul_cuda dbg acc d target (columns, tc) (rows, columns) =
    Ok (flat_map (fun row => map (fun column => acc (combine column row)) (row_major_columns target columns tc)) rws).
Proof. exact c86. Qed.
Print Assumptions C86_cuda_product_partial.
(** Sizes that do not fit into the library's 32-bit numbers: whatever the shapes, if
    there is an answer it is this product; what is too large is refused or panics. *)
Theorem C86_cuda_no_wrong_product_partial : forall dbg acc d parts rows columns target_rows tc target rws xs,
  stored dbg (d_ex d) (d_meta d) (d_file d) (d_precision d) parts -> settles (d_ex d) -> parts <> [] ->
  rows * columns < 2 ^ 64 -> target_rows * tc < 2 ^ 64 -> rows * tc < 2 ^ 64 ->
  N.of_nat (length (concat parts)) < 2 ^ 60 -> Forall (fun p => N.of_nat (length p) mod (rows * columns) = 0) parts ->
  grouped (N.to_nat columns) (concat parts) rws [] -> N.of_nat (length target) < 2 ^ 60 ->
  8 * (N.of_nat (length rws) * tc) < 2 ^ 63 ->
  matmul_cuda dbg acc d target (target_rows, tc) (rows, columns) = Ok xs ->
  target_rows = columns /\ N.of_nat (length target) = target_rows * tc /\
  xs = flat_map (fun row => map (fun column => acc (combine column row)) (row_major_columns target columns tc)) rws.
Proof. exact c86_right. Qed.
Print Assumptions C86_cuda_no_wrong_product_partial.
(** The readers of all the schemes qualify. *)
Theorem C86_all_schemes_partial : forall dbg simd neg tie log10 lib,
  (forall c ex, scheme_executor dbg neg tie log10 lib c = Some ex -> settles ex) /\
  settles (buff_executor dbg simd neg) /\ settles (sprintz_executor dbg neg tie).
Proof. exact all_settle. Qed.
Print Assumptions C86_all_schemes_partial.
(** With a library that adds up in the order of the CPU: the GPU returns, bit for bit,
    what [matmul] returns for the target with its entries rearranged. *)
Theorem C86_cuda_rearranged_partial : forall dbg neg tie log10 lib c d parts rows columns tc target rws,
  scheme_executor dbg neg tie log10 lib c = Some (d_ex d) ->
  stored dbg (d_ex d) (d_meta d) (d_file d) (d_precision d) parts -> parts <> [] ->
  0 < rows -> 0 < columns -> 0 < tc -> rows * columns < 2 ^ 31 -> columns * tc < 2 ^ 31 -> rows * tc < 2 ^ 31 ->
  N.of_nat (length (concat parts)) < 2 ^ 60 -> Forall (fun p => N.of_nat (length p) mod (rows * columns) = 0) parts ->
  grouped (N.to_nat columns) (concat parts) rws [] -> N.of_nat (length target) = columns * tc ->
  8 * (N.of_nat (length rws) * tc) < 2 ^ 63 ->
  exists xs, matmul_cuda dbg (in_order neg) d target (columns, tc) (rows, columns) = Ok xs /\
    matmul dbg d (concat (row_major_columns target columns tc)) (columns, tc) (rows, columns) = Ok xs.
Proof. exact c86_transposed. Qed.
Print Assumptions C86_cuda_rearranged_partial.
(** Refuted: with the same arguments the two products differ, although all the sums are
    exact, so not because of the order of addition. *)
Theorem C86_same_product_refuted : exists d parts,
  sample_decoder 4 cuda_records = Some d /\ stored false (d_ex d) (d_meta d) (d_file d) (d_precision d) parts /\ concat parts = cuda_records /\
  matmul false d cuda_target (2, 2) (2, 2) = Ok (map of_Z [21; 2100; 43; 4300; 65; 6500; 87; 8700]%Z) /\
  matmul_cuda false (in_order false) d cuda_target (2, 2) (2, 2) = Ok (map of_Z [201; 2010; 403; 4030; 605; 6050; 807; 8070]%Z).
Proof. exact c86_differs. Qed.
Print Assumptions C86_same_product_refuted.
(** Shapes that do not fit are refused, also a target of the wrong length, which
    [matmul] accepts (C49). *)
Theorem C86_shapes_refused_partial : forall dbg acc d target target_rows target_columns rows columns,
  0 < rows * columns < 2 ^ 64 -> target_rows * target_columns < 2 ^ 64 ->
  columns <> target_rows \/ f_records (m_footer (d_meta d)) mod (rows * columns) <> 0 \/ N.of_nat (length target) <> target_rows * target_columns ->
  matmul_cuda dbg acc d target (target_rows, target_columns) (rows, columns) = Err (CDecoder EPreconditionsNotMet).
Proof. exact c86_rejects. Qed.
Print Assumptions C86_shapes_refused_partial.
(** Refuted for shapes whose size overflows: a release build takes 2^63 + 1 rows of 2
    for a matrix of 2 and answers, although the file holds 8 records. *)
Theorem C86_overflowing_shape_refuted : exists d, sample_decoder 4 cuda_records = Some d /\ f_records (m_footer (d_meta d)) = 8 /\
  matmul_cuda false (in_order false) d cuda_target (2, 2) (2 ^ 63 + 1, 2) = Ok (map of_Z [201; 2010; 403; 4030; 605; 6050; 807; 8070]%Z) /\
  matmul_cuda true (in_order false) d cuda_target (2, 2) (2 ^ 63 + 1, 2) = Panic.
Proof. exact c86_wraps. Qed.
Print Assumptions C86_overflowing_shape_refuted.
Example C86_example :
  row_major_columns (map whole [1; 10; 100; 1000]%Z) 2 2 = [map whole [1; 100]%Z; map whole [10; 1000]%Z] /\
  in_order false (combine (map whole [1; 100]%Z) (map whole [1; 2]%Z)) = of_Z 201.
Proof. vm_compute. split; reflexivity. Qed.
Example C86_example_shapes : exists d, sample_decoder 4 cuda_records = Some d /\
  f_records (m_footer (d_meta d)) mod (2 * 2) = 0 /\ f_records (m_footer (d_meta d)) mod (3 * 2) <> 0 /\ N.of_nat (length cuda_target) = 2 * 2 /\
  Forall (fun p => N.of_nat (length p) mod (2 * 2) = 0) (map (map whole) [[1; 2; 3; 4]; [5; 6; 7; 8]]%Z) /\
  grouped 2 cuda_records (map (map whole) [[1; 2]; [3; 4]; [5; 6]; [7; 8]]%Z) [].
Proof.
  destruct c86_differs as (d & _ & SD & _). exists d. split; [exact SD|].
  assert (R : option_map (fun d => f_records (m_footer (d_meta d))) (sample_decoder 4 cuda_records) = Some 8) by (vm_compute; reflexivity).
  rewrite SD in R. injection R as R. rewrite R.
  split; [reflexivity|]. split; [discriminate|]. split; [reflexivity|]. split; [repeat constructor|]. split; [reflexivity|]. split; [repeat constructor|cbn; repeat constructor].
Qed.
