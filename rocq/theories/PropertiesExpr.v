(** C46-C49: expressions, aggregations, nearest neighbours and matrix products.
    Each theorem is followed by its assumptions and by an example. *)
From Verif Require Import Base Xor F64 Format File FileSpec Codecs CodecSpec Readers Uncompressed Query QuerySpec Sprintz SprintzSpec SprintzSummary
  Buff BuffCodec BuffSpec Expr ExprSpec AggregateProofs VectorProofs ExprSummary.

(** ** Files *)

(** What the encoder writes can be read by every call of this file: [holds] is met
    by the files of all schemes; for DeltaSprintz and BUFF, with the records these
    keep. *)
Theorem C46_written_files_hold :
  forall dbg neg tie log10 lib c cd ex o timer elapsed input xs,
  scheme_codec dbg log10 lib c = Some cd -> scheme_executor dbg neg tie log10 lib c = Some ex ->
  encodable log10 lib c o timer elapsed input xs -> xs <> [] ->
  exists parts, partition (records_per_chunk o) xs parts /\
  exists ops, encode dbg cd o c timer elapsed input = (ops, Ok tt) /\
  forall old, N.of_nat (length (written old ops)) < 2 ^ 63 ->
  exists m, open_file dbg (written old ops) = Ok m /\
    forall precision, holds dbg neg (mkDec ex m (written old ops) precision) parts.
Proof. exact encoded_holds. Qed.
Print Assumptions C46_written_files_hold.
Theorem C46_sprintz_files_hold :
  forall dbg neg tie capacity s o timer elapsed input xs,
  sprintz_encodable dbg capacity s o timer elapsed input xs -> xs <> [] ->
  exists ops parts, partition (records_per_chunk o) xs parts /\
    encode dbg (sprintz_codec dbg s) o (CDeltaSprintz capacity s) timer elapsed input = (ops, Ok tt) /\
  forall old, let file := written old ops in N.of_nat (length file) < 2 ^ 63 ->
  exists m vss, open_file dbg file = Ok m /\ Forall2 (Forall2 (SprintzSpec.decodes s)) parts vss /\
    forall precision, holds dbg neg (mkDec (sprintz_executor dbg neg tie) m file precision) vss.
Proof. exact sprintz_encoded_holds. Qed.
Print Assumptions C46_sprintz_files_hold.
Theorem C46_buff_files_hold :
  forall dbg simd neg lg scale f o timer elapsed input xs,
  buff_encodable dbg lg scale f o timer elapsed input xs -> xs <> [] ->
  exists ops parts, partition (records_per_chunk o) xs parts /\
    encode dbg (buff_codec dbg lg scale) o (CBuff scale) timer elapsed input = (ops, Ok tt) /\
  forall old, let file := written old ops in N.of_nat (length file) < 2 ^ 63 ->
  exists m, open_file dbg file = Ok m /\
    forall precision g, kept_bits f precision = Some g ->
    exists vss, Forall2 (Forall2 (truncated_to f g)) parts vss /\
      holds dbg neg (mkDec (buff_executor dbg simd neg) m file precision) vss.
Proof. exact buff_encoded_holds. Qed.
Print Assumptions C46_buff_files_hold.

(** ** C46: expression evaluation *)

(** Opening a chunk of every column of a table gives readers of these columns. *)
Theorem C46_columns_open :
  forall dbg neg ds chunks i rows, table dbg neg ds chunks -> nth_error chunks i = Some rows ->
  exists rs, open_all dbg i ds = Ok rs /\ length rs = length ds /\
    opened neg (N.of_nat (length (concat (firstn i chunks)))) rows rs.
Proof. exact c46_open. Qed.
Print Assumptions C46_columns_open.
(** An expression in which every operation has an operand that is not a literal is
    evaluated row by row on the rows of the mask; any other is rejected.  Either way
    the readers can be used again. *)
Theorem C46_expressions :
  forall neg mask first rows rs e, mask = None \/ first + N.of_nat (length rows) < 2 ^ 32 -> 8 * N.of_nat (length rows) < 2 ^ 63 ->
  opened neg first rows rs -> columns_below (length rs) e ->
  exists rs', length rs' = length rs /\ opened neg first rows rs' /\
    ((formula (length rs) e /\ exists ys, choose mask first rows ys /\ compute_chunk e mask rs = (Ok (map (fun row => value row e) ys), rs')) \/
     (~ formula (length rs) e /\ compute_chunk e mask rs = (Err EPreconditionsNotMet, rs'))).
Proof. exact c46. Qed.
Print Assumptions C46_expressions.
Example C46_example :
  (exists ds, length ds = 2%nat /\ table false false ds sample_rows) /\ formula 2 sample_expr /\
  on_sample_table (fun ds => match open_all false 1 ds with Ok rs => fst (compute_chunk sample_expr None rs) | _ => Panic end) =
    Some (Ok (map of_Z [83; -7]%Z)) /\
  on_sample_table (fun ds => match open_all false 1 ds with Ok rs => fst (compute_chunk sample_expr (Some [0; 3]) rs) | _ => Panic end) =
    Some (Ok (map of_Z [-7]%Z)) /\
  on_sample_table (fun ds => match open_all false 1 ds with
    | Ok rs => fst (compute_chunk (Binary Add (Index 0) (Binary Mul (Literal (whole 2)) (Literal (whole 3)))) None rs) | _ => Panic end) =
    Some (Err EPreconditionsNotMet).
Proof.
  split; [|split; [|split; [|split]]].
  - destruct sample_table as (d0 & d1 & _ & _ & T). exists [d0; d1]. split; [reflexivity|]. exact (plain_table_table _ _ _ _ _ T).
  - apply formula_right, formula_both; apply formula_index; auto.
  - vm_compute. reflexivity.
  - vm_compute. reflexivity.
  - vm_compute. reflexivity.
Qed.

(** ** C47: aggregations *)

(** [compute] aggregates the values of the expression over the rows of the mask
    (columns of the schemes that query decoded records; all kinds except [None] of a
    bare column). *)
Theorem C47_aggregation_partial :
  forall dbg neg tie ds chunks mask a, plain_table dbg neg tie ds chunks -> ds <> [] -> formula (length ds) (a_expr a) ->
  N.of_nat (length (concat chunks)) < 2 ^ 32 -> (is_index (a_expr a) -> a_kind a <> KNone) ->
  exists yss r, selected mask 0 chunks yss /\ compute dbg neg tie a ds mask = Ok r /\
    aggregated (a_kind a) (map (map (fun row => value row (a_expr a))) yss) r.
Proof. exact c47. Qed.
Print Assumptions C47_aggregation_partial.
(** Columns of any scheme, expressions with an operation. *)
Theorem C47_aggregation_of_operations :
  forall dbg neg tie mask ds chunks, table dbg neg ds chunks -> ds <> [] ->
  mask = None \/ N.of_nat (length (concat chunks)) < 2 ^ 32 -> N.of_nat (length (concat chunks)) < 2 ^ 60 ->
  forall a, formula (length ds) (a_expr a) -> ~ is_index (a_expr a) ->
  exists yss r, selected mask 0 chunks yss /\ compute dbg neg tie a ds mask = Ok r /\
    aggregated (a_kind a) (map (map (fun row => value row (a_expr a))) yss) r.
Proof. exact compute_ok. Qed.
Print Assumptions C47_aggregation_of_operations.
(** Computing several aggregations at once is computing each of them. *)
Theorem C47_multiple_is_separate :
  forall dbg neg tie mask ds chunks, table dbg neg ds chunks -> ds <> [] ->
  mask = None \/ N.of_nat (length (concat chunks)) < 2 ^ 32 -> N.of_nat (length (concat chunks)) < 2 ^ 60 ->
  forall aggs rs, Forall (fun a => formula (length ds) (a_expr a)) aggs ->
  (compute_multiple dbg neg tie aggs ds mask = Ok rs <-> Forall2 (fun a r => compute dbg neg tie a ds mask = Ok r) aggs rs).
Proof. exact multi_iff. Qed.
Print Assumptions C47_multiple_is_separate.
(** Aggregating nothing of a bare column panics. *)
Theorem C47_plain_column_refuted :
  forall dbg neg tie ds k d mask, nth_error ds k = Some d -> compute dbg neg tie (mkAgg KNone (Index k)) ds mask = Panic.
Proof. exact c47_none. Qed.
Print Assumptions C47_plain_column_refuted.
Example C47_example :
  (exists ds, length ds = 2%nat /\ plain_table false false sample_tie ds sample_rows) /\
  on_sample_table (fun ds => compute false false sample_tie (mkAgg KSum sample_expr) ds None) = Some (Ok (Scalar (of_Z 60))) /\
  on_sample_table (fun ds => compute false false sample_tie (mkAgg KMax sample_expr) ds (Some [1; 3; 4])) = Some (Ok (Scalar (of_Z 28))) /\
  on_sample_table (fun ds => compute false false sample_tie (mkAgg KMin (Index 1)) ds (Some [0; 1; 4])) = Some (Ok (Scalar (of_Z (-20)))) /\
  on_sample_table (fun ds => compute_multiple false false sample_tie [mkAgg KMin (Index 1); mkAgg KNone sample_expr; mkAgg KSum (Index 0)] ds None) =
    Some (Ok [Scalar (of_Z (-20)); Array (map of_Z [3; -47; 83; -7; 28]%Z); Scalar (of_Z 15)]).
Proof.
  split; [|split; [|split; [|split]]].
  - destruct sample_table as (d0 & d1 & _ & _ & T). exists [d0; d1]. split; [reflexivity|exact T].
  - vm_compute. reflexivity.
  - vm_compute. reflexivity.
  - vm_compute. reflexivity.
  - vm_compute. reflexivity.
Qed.

(** ** C48: nearest neighbour *)

(** If the chunks (but the last) hold whole vectors, [knn1] returns the last of the
    vectors nearest to the target. *)
Theorem C48_knn1_partial :
  forall dbg neg target, target <> [] -> forall d parts, holds dbg neg d parts -> aligned (length target) parts ->
  forall fuel vs rest, (length (concat parts) <= fuel)%nat -> grouped (length target) (concat parts) vs rest ->
  exists r, knn1 dbg fuel d target = Some (Ok r) /\ nearest neg vs target r.
Proof. exact knn1_ok. Qed.
Print Assumptions C48_knn1_partial.
(** If not, the answer may be the distance of no vector at all. *)
Theorem C48_split_vectors_refuted :
  exists d parts target vs r,
  holds false false d parts /\ grouped (length target) (concat parts) vs [] /\ knn1 false 10 d target = Some (Ok r) /\
  ~ nearest false vs target r /\ Forall (fun v => squared_distance false v target <> k_distance r) vs.
Proof. exact knn_refuted. Qed.
Print Assumptions C48_split_vectors_refuted.
(** An empty target is searched for ever: no amount of fuel suffices. *)
Theorem C48_empty_target_refuted :
  forall dbg neg d parts fuel, holds dbg neg d parts -> parts <> [] -> knn1 dbg fuel d [] = None.
Proof. exact knn1_empty_target. Qed.
Print Assumptions C48_empty_target_refuted.
Example C48_example :
  (exists d, sample_decoder 2 knn_records = Some d /\ holds false false d (map (map whole) [[0; 0]; [5; 5]; [9; 9]]%Z)) /\
  aligned 2 (map (map whole) [[0; 0]; [5; 5]; [9; 9]]%Z) /\
  option_map (fun d => knn1 false 10 d (map whole [5; 6]%Z)) (sample_decoder 2 knn_records) = Some (Some (Ok (mkKnn 1 (of_Z 1)))).
Proof.
  split; [|split].
  - apply knn_sample; [reflexivity|vm_compute; reflexivity|]. apply partition_check; [reflexivity|reflexivity|]. cbn [map]. cases_nth.
  - intros [|[|[|i]]] p E _; cbn in E; [injection E as <-|injection E as <-|injection E as <-|destruct i; discriminate E]; reflexivity.
  - vm_compute. reflexivity.
Qed.

(** ** C49: matrix product *)

(** If every chunk holds whole matrices, [matmul] returns the dot products of every
    row with every column of the target. *)
Theorem C49_matmul_partial :
  forall dbg neg d parts rows columns target_columns target rws cols, holds dbg neg d parts -> parts <> [] -> 0 < rows -> 0 < columns ->
  N.of_nat (length (concat parts)) < 2 ^ 60 -> Forall (fun p => N.of_nat (length p) mod (rows * columns) = 0) parts ->
  grouped (N.to_nat columns) (concat parts) rws [] -> grouped (N.to_nat columns) target cols [] -> N.of_nat (length cols) = target_columns ->
  8 * (N.of_nat (length rws) * target_columns) < 2 ^ 63 ->
  matmul dbg d target (columns, target_columns) (rows, columns) = Ok (flat_map (fun row => map (dot neg row) cols) rws).
Proof. exact matmul_ok. Qed.
Print Assumptions C49_matmul_partial.
(** Inner dimensions that differ and a number of records that is no multiple of the
    size of a matrix are rejected. *)
Theorem C49_shapes_rejected :
  forall dbg d target target_rows target_columns rows columns,
  0 < rows * columns < 2 ^ 64 -> columns <> target_rows \/ f_records (m_footer (d_meta d)) mod (rows * columns) <> 0 ->
  matmul dbg d target (target_rows, target_columns) (rows, columns) = Err EPreconditionsNotMet.
Proof. exact matmul_rejects. Qed.
Print Assumptions C49_shapes_rejected.
(** Empty matrices panic instead. *)
Theorem C49_empty_matrix_refuted :
  forall dbg d target target_shape rows columns, rows = 0 \/ columns = 0 ->
  matmul dbg d target target_shape (rows, columns) = Panic.
Proof. exact matmul_zero. Qed.
Print Assumptions C49_empty_matrix_refuted.
(** Rows that straddle chunks are cut off: [1 2 3 | 4 5 6] as rows of two, times
    (1 1), is (3 3 9) instead of (3 7 11). *)
Theorem C49_straddling_rows_refuted :
  exists d parts,
  holds false false d parts /\ concat parts = mat_records /\
  matmul false d (map whole [1; 1]%Z) (2, 1) (1, 2) = Ok (map of_Z [3; 3; 9]%Z) /\
  map (fun row => dot false row (map whole [1; 1]%Z)) (map (map whole) [[1; 2]; [3; 4]; [5; 6]]%Z) = map of_Z [3; 7; 11]%Z.
Proof. exact matmul_straddling_refuted. Qed.
Print Assumptions C49_straddling_rows_refuted.
(** A target shorter than its declared shape is accepted; the answer has three
    entries where the declared shapes call for six. *)
Theorem C49_target_shape_refuted :
  exists d parts,
  holds false false d parts /\ concat parts = mat_records /\
  matmul false d (map whole [1; 1; 1]%Z) (2, 2) (1, 2) = Ok (map of_Z [3; 7; 11]%Z).
Proof. exact matmul_target_refuted. Qed.
Print Assumptions C49_target_shape_refuted.
Example C49_example :
  (exists d, sample_decoder 2 mat_records = Some d /\ holds false false d (map (map whole) [[1; 2]; [3; 4]; [5; 6]]%Z)) /\
  option_map (fun d => matmul false d (map whole [1; 1; 2; -1]%Z) (2, 2) (1, 2)) (sample_decoder 2 mat_records) =
    Some (Ok (map of_Z [3; 0; 7; 2; 11; 4]%Z)).
Proof.
  split.
  - apply sample_holds; [discriminate|vm_compute; reflexivity|reflexivity|reflexivity|vm_compute; reflexivity|].
    apply partition_check; [reflexivity|reflexivity|]. cbn [map]. cases_nth.
  - vm_compute. reflexivity.
Qed.
