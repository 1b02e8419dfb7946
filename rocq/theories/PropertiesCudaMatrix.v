(** The property theorems C87: the matrix experiment on the GPU. *)
From Verif Require Import Base WordProofs Xor F64 Format FormatSpec File FileSpec Codecs CodecSpec Query QuerySpec DecimalSpec Expr ExprSpec ExprSummary
  Text TextSpec Tpch TpchSpec TpchSummary Ucr UcrSpec UcrSummary Cuda CudaSpec CudaMatrix CudaMatrixSpec CudaMatrixSummary.

(** ** C87: the matrix experiment on the GPU *)
(** For every scheme but BUFF and the sizes whose square divides 2^24: the products of
    the rounded numbers with the rounded target read row by row, up to the signs of
    zeros, for every library [acc] that does not tell the two zeros apart.  Missing:
    BUFF and other sizes, for which it is false (below). *)
Theorem C87_gpu_products_partial : forall P acc precision size data target,
  good_platform P -> zero_blind acc -> 0 < size -> 2 ^ 24 mod (size * size) = 0 -> N.of_nat (length data) = 40 * size * size -> N.of_nat (length target) = size * size ->
  Forall fraction data -> Forall fraction target ->
  exists xs rows ys, Forall2 matrix_entry data xs /\ in_rows size xs rows /\ Forall2 matrix_entry target ys /\
    forall c, In c (experiment_configs false (10 ^ 8)) -> config_scheme c <> SBuff -> fits P c xs ->
      exists out, matrix_cuda_product P acc precision size c data target = Ok out /\
        Forall2 same out (flat_map (fun row => map (fun column => acc (combine column row)) (row_major_columns ys size size)) rows).
Proof. exact c87. Qed.
Print Assumptions C87_gpu_products_partial.
(** Refuted: with the same random numbers the experiment on the CPU reports other
    products. *)
Theorem C87_gpu_differs_refuted : exists P precision size data target out out',
  good_platform P /\ 2 ^ 24 mod (size * size) = 0 /\ N.of_nat (length data) = 40 * size * size /\ N.of_nat (length target) = size * size /\
  Forall fraction data /\ Forall fraction target /\
  matrix_product P precision size (CUncompressed default_capacity) data target = Ok out /\
  matrix_cuda_product P (in_order (p_neg P)) precision size (CUncompressed default_capacity) data target = Ok out' /\ ~ Forall2 same out out'.
Proof. exact c87_differs. Qed.
Print Assumptions C87_gpu_differs_refuted.
(** Refuted for BUFF: it reports other products than the other schemes, on the GPU as on
    the CPU (C80). *)
Theorem C87_buff_refuted : exists P precision size data target out out',
  good_platform P /\ 2 ^ 24 mod (size * size) = 0 /\ N.of_nat (length data) = 40 * size * size /\ N.of_nat (length target) = size * size /\
  Forall fraction data /\ Forall fraction target /\
  matrix_cuda_product P (in_order (p_neg P)) precision size (CBuff (10 ^ 8)) data target = Ok out /\
  matrix_cuda_product P (in_order (p_neg P)) precision size (CUncompressed default_capacity) data target = Ok out' /\ ~ Forall2 same out out'.
Proof. exact c87_buff. Qed.
Print Assumptions C87_buff_refuted.
(** Other sizes panic. *)
Theorem C87_size_refuted : forall P acc precision size c data target,
  2 ^ 24 mod (size * size) <> 0 \/ size = 0 -> matrix_cuda_product P acc precision size c data target = Panic.
Proof. exact c87_size. Qed.
Print Assumptions C87_size_refuted.
Example C87_example : good_platform ucr_platform /\ zero_blind (in_order false) /\ 2 ^ 24 mod (2 * 2) = 0 /\
  N.of_nat (length gpu_data) = 40 * 2 * 2 /\ N.of_nat (length gpu_target) = 2 * 2 /\ Forall fraction gpu_data /\ Forall fraction gpu_target /\
  In (CUncompressed default_capacity) (experiment_configs false (10 ^ 8)) /\ fits ucr_platform (CUncompressed default_capacity) (map matrix_value gpu_data).
Proof.
  split; [exact ucr_good|]. split; [apply in_order_blind|]. split; [reflexivity|]. split; [reflexivity|]. split; [reflexivity|]. split; [apply gpu_fractions|]. split; [apply gpu_fractions|].
  split; [cbn; tauto|exact gpu_fits].
Qed.
