(** Properties of BUFF.  [fixed_point f x v]: v is x times 2^f truncated toward
    zero; [fixed_value f v]: the f64 returned for v; [number x]: the value of the
    f64 x in units of 2^-1074 (BuffSpec.v, QuerySpec.v).  [lg] stands for the
    decimal logarithm of the scale, which the code computes in f32.  No proofs
    here; see BuffSummary.v and BuffFileSummary.v. *)
From Verif Require Import Base BitIO Xor F64 Format FormatSpec File FileSpec Query QuerySpec Buff BuffSpec BuffCodec
  Codecs CodecSpec FileSummary QuerySummary BuffSimdProofs BuffSummary BuffFileSummary BuffSizeProofs.

(** ** C15: the fixed-point integers come back *)
Theorem C15_buff_returns_fixed_point_records :
  forall dbg lg scale f xs, bits_of_digits (digits_of lg scale) = Some f -> buff_storable dbg f xs ->
  (exists bytes, buff_chunk dbg lg scale xs bytes) /\
  forall bytes, buff_chunk dbg lg scale xs bytes ->
  exists ys, fst (bf_decompress dbg (buff_reader xs bytes)) = Ok ys /\
    Forall2 (fun x y => exists v, fixed_point f x v /\ y = fixed_value f v /\ number y = Some (v * step f)%Z) xs ys.
Proof. exact (fun dbg lg scale f xs D S => conj (c15_written dbg lg scale f xs D S) (fun b => c15 dbg lg scale f xs b D S)). Qed.
Print Assumptions C15_buff_returns_fixed_point_records.
(** More than 12 digits, or no records: panic. *)
Theorem C15_buff_more_than_twelve_digits_panics :
  forall dbg lg scale xs c, bits_of_digits (digits_of lg scale) = None -> bf_compress dbg lg scale c xs = Panic.
Proof. exact c15_digits. Qed.
Print Assumptions C15_buff_more_than_twelve_digits_panics.
Theorem C15_buff_no_records_panics : forall dbg lg scale c, bf_compress dbg lg scale c [] = Panic.
Proof. exact c15_empty. Qed.
Print Assumptions C15_buff_no_records_panics.
(** Out of range the property is false: a release build stores NaN as 1.5 and
    infinity as 1.0; a debug build panics. *)
Theorem C15_buff_nan_refuted :
  exists x y, is_u64 x /\ on_buff_chunk false [x] (fun r => fst (bf_decompress false r)) = Some (Ok [y]) /\
    (exists a, number y = Some a) /\ number x <> number y /\
    on_buff_chunk true [x] (fun r => fst (bf_decompress true r)) = None.
Proof. exact c15_refuted. Qed.
Print Assumptions C15_buff_nan_refuted.
Theorem C15_buff_infinity_refuted :
  exists x y, number x = Some (2 ^ 2098)%Z /\ on_buff_chunk false [x] (fun r => fst (bf_decompress false r)) = Some (Ok [y]) /\
    number y = Some (2 ^ 1074)%Z /\ on_buff_chunk true [x] (fun r => fst (bf_decompress true r)) = None.
Proof. exact c15_refuted_inf. Qed.
Print Assumptions C15_buff_infinity_refuted.
(** Scale 10: 3.14 = 100.48 / 32, -0.3 = -9.6 / 32 and 1e9 come back as 100 / 32,
    -9 / 32 and 1e9. *)
Example C15_example :
  on_buff_chunk true [0x40091eb851eb851f; 0xbfd3333333333333; 0x41cdcd6500000000] (fun r => fst (bf_decompress true r)) =
    Some (Ok [0x4009000000000000; 0xbfd2000000000000; 0x41cdcd6500000000]) /\
  map (fixed_value 5) [100; -9; 32000000000]%Z = [0x4009000000000000; 0xbfd2000000000000; 0x41cdcd6500000000].
Proof. vm_compute. split; reflexivity. Qed.

(** Whole files: the hypothesis [buff_stored] of the theorems below is met by
    every encoded file, and its metadata describe the chunks. *)
Theorem C15_encoded_buff_files_are_stored :
  forall dbg simd neg lg scale f o timer elapsed input xs,
  buff_encodable dbg lg scale f o timer elapsed input xs -> xs <> [] ->
  exists ops parts, partition (records_per_chunk o) xs parts /\
    encode dbg (buff_codec dbg lg scale) o (CBuff scale) timer elapsed input = (ops, Ok tt) /\
  forall old, let file := written old ops in N.of_nat (length file) < 2 ^ 63 ->
  exists m, open_file dbg file = Ok m /\
    forall precision, kept_bits f precision <> None -> exists vss, buff_stored dbg simd neg lg scale f m file precision parts vss.
Proof. exact buff_file. Qed.
Print Assumptions C15_encoded_buff_files_are_stored.
Theorem C20_C23_C24_buff_files :
  forall dbg lg scale f o timer elapsed input xs,
  buff_encodable dbg lg scale f o timer elapsed input xs -> xs <> [] ->
  exists ops parts, partition (records_per_chunk o) xs parts /\
    encode dbg (buff_codec dbg lg scale) o (CBuff scale) timer elapsed input = (ops, Ok tt) /\
    forall old, let file := written old ops in N.of_nat (length file) < 2 ^ 63 ->
    exists m, open_file dbg file = Ok m /\ f_records (m_footer m) = N.of_nat (length xs) /\ f_chunks (m_footer m) = N.of_nat (length parts) /\
      f_config (m_footer m) = CBuff scale /\ h_option (m_header m) = o /\
      forall i part, nth_error parts i = Some part -> chunk_records dbg m i = Ok (N.of_nat (length part)) /\
        exists bytes vs, buff_chunk dbg lg scale part bytes /\ chunk_size dbg m i = Ok (N.of_nat (length bytes)) /\
          read_chunk dbg (buff_codec dbg lg scale) m file i = Ok vs /\ Forall2 (truncated f) part vs.
Proof. exact buff_metadata. Qed.
Print Assumptions C20_C23_C24_buff_files.
(** The crash theorem of PropertiesFile.v for BUFF. *)
Theorem C27_buff_crash_partial :
  forall dbg lg scale f o timer elapsed input xs,
  buff_encodable dbg lg scale f o timer elapsed input xs -> xs <> [] ->
  exists ops parts, partition (records_per_chunk o) xs parts /\
    encode dbg (buff_codec dbg lg scale) o (CBuff scale) timer elapsed input = (ops, Ok tt) /\
    (N.of_nat (length (written [] ops)) < 2 ^ 63 -> forall x, cut ops x ->
      let file := written [] x in
      ((length file < 30)%nat -> open_file dbg file = Err EIO) /\
      (o = Full -> (30 <= length file)%nat -> offset_slot file = 0 -> open_file dbg file = Panic) /\
      ((30 <= length file)%nat -> exists j, j <= 8 /\ offset_slot file = offset_slot (written [] ops) mod 256 ^ j) /\
      ((30 <= length file)%nat -> offset_slot file = offset_slot (written [] ops) ->
       exists m, open_file dbg file = Ok m /\ f_records (m_footer m) = N.of_nat (length xs) /\
         f_chunks (m_footer m) = N.of_nat (length parts) /\
         forall i part, nth_error parts i = Some part ->
           exists vs, read_chunk dbg (buff_codec dbg lg scale) m file i = Ok vs /\ Forall2 (truncated f) part vs)).
Proof. exact buff_crash. Qed.
Print Assumptions C27_buff_crash_partial.

(** Seven records in three chunks: 10/32, 1.5, -2.5; 0, 10/32, 7; -3/32.  Scale 10,
    5 fractional bits. *)
Definition bf_records : list N := map (fixed_value 5) [10; 48; -80; 0; 10; 224; -3]%Z.
Example C15_file_example :
  buff_encodable true (fun _ => 1) 10 5 (RecordCount 3) (repeat 5 9) 77 [Data (bytes_of bf_records)] bf_records.
Proof. exact buff_sample. Qed.
Definition on_bf_sample {A} (q : executor -> metadata -> list N -> A) : option A :=
  let '(ops, _) := encode true (buff_codec true (fun _ => 1) 10) (RecordCount 3) (CBuff 10) (repeat 5 9) 77 [Data (bytes_of bf_records)] in
  match open_file true (written [] ops) with
  | Ok m => Some (q (buff_executor true true false) m (written [] ops))
  | _ => None
  end.

(** ** C45: the reported sizes are the sizes of the file *)
Theorem C45_size_accounting_buff :
  forall dbg lg scale f o timer elapsed input xs,
  buff_encodable dbg lg scale f o timer elapsed input xs -> xs <> [] ->
  exists ops, encode dbg (buff_codec dbg lg scale) o (CBuff scale) timer elapsed input = (ops, Ok tt) /\
  (N.of_nat (length (written [] ops)) < 2 ^ 63 ->
  exists m sizes, open_file dbg (written [] ops) = Ok m /\
    total_file_size m = N.of_nat (length (written [] ops)) /\
    map (chunk_size dbg m) (seq 0 (N.to_nat (f_chunks (m_footer m)))) = map Ok sizes /\
    total_chunk_size dbg m = Ok (fold_right N.add 0 sizes) /\
    total_file_size m = 30 + fold_right N.add 0 sizes + footer_size (m_footer m) /\
    f_records (m_footer m) = N.of_nat (length xs) /\ f_config (m_footer m) = CBuff scale).
Proof. exact buff_sizes. Qed.
Print Assumptions C45_size_accounting_buff.
Example C45_buff_example :
  buff_encodable true (fun _ => 1) 10 5 (RecordCount 3) (repeat 5 9) 77 [Data (bytes_of bf_sample_records)] bf_sample_records.
Proof. exact buff_sample. Qed.

(** ** C16: the error *)
Theorem C16_buff_truncation_error :
  forall dbg lg scale f xs bytes, bits_of_digits (digits_of lg scale) = Some f -> buff_storable dbg f xs ->
  buff_chunk dbg lg scale xs bytes ->
  exists ys, fst (bf_decompress dbg (buff_reader xs bytes)) = Ok ys /\
    Forall2 (fun x y => exists a b, number x = Some a /\ number y = Some b /\
      (Z.abs b <= Z.abs a)%Z /\ (Z.abs (a - b) < step f)%Z /\ (0 <= a * b)%Z) xs ys.
Proof. exact c16. Qed.
Print Assumptions C16_buff_truncation_error.
(** That is less than half a unit in the last of the decimal digits asked for. *)
Theorem C16_buff_error_in_decimal_digits :
  forall digits f, bits_of_digits digits = Some f -> 0 < digits -> (2 * step f * 10 ^ Z.of_N digits <= 2 ^ 1074)%Z.
Proof. exact c16_decimal. Qed.
Print Assumptions C16_buff_error_in_decimal_digits.
Example C16_example : buff_storable true 5 [0x40091eb851eb851f; 0xbfd3333333333333] /\ step 5 = (2 ^ 1069)%Z.
Proof. exact c16_sample. Qed.

(** ** C17: reduced precision *)
(** [k] digits of precision keep [g] bits of the fraction; with [g >= f] the value
    is exact ([w = v]). *)
Theorem C17_buff_reduced_precision :
  forall dbg lg scale f xs bytes, bits_of_digits (digits_of lg scale) = Some f -> buff_storable dbg f xs ->
  buff_chunk dbg lg scale xs bytes -> forall k g, bits_of_digits k = Some g ->
  exists ys, fst (bf_decompress dbg (bf_with_precision k (buff_reader xs bytes))) = Ok ys /\
    Forall2 (fun x y => exists v w, fixed_point f x v /\ y = fixed_value f w /\
      (w <= v < w + 2 ^ Z.of_N (f - g))%Z /\ ((Z.abs w <= 2 ^ 53)%Z -> number y = Some (w * step f)%Z)) xs ys.
Proof. exact c17. Qed.
Print Assumptions C17_buff_reduced_precision.
Theorem C17_buff_precision_above_twelve_panics :
  forall dbg lg scale f xs bytes, bits_of_digits (digits_of lg scale) = Some f -> buff_storable dbg f xs ->
  buff_chunk dbg lg scale xs bytes -> forall k, bits_of_digits k = None ->
  fst (bf_decompress dbg (bf_with_precision k (buff_reader xs bytes))) = Panic.
Proof. exact c17_panics. Qed.
Print Assumptions C17_buff_precision_above_twelve_panics.
(** Two records 2748 / 32 apart take 12 bits each; with precision 0 the lowest 4 of
    them are not read. *)
Example C17_example :
  on_buff_chunk true (map (fixed_value 5) [100; 2848]%Z) (fun r => fst (bf_decompress true (bf_with_precision 0 r))) =
    Some (Ok (map (fixed_value 5) [100; 2836]%Z)) /\
  on_buff_chunk true (map (fixed_value 5) [100; 2848]%Z) (fun r => fst (bf_decompress true (bf_with_precision 1 r))) =
    Some (Ok (map (fixed_value 5) [100; 2848]%Z)).
Proof. vm_compute. split; reflexivity. Qed.

(** ** C58: the precision of a reader may be changed at any time *)
Theorem C58_precision_may_change :
  forall dbg simd neg lg scale f xs bytes off, bits_of_digits (digits_of lg scale) = Some f -> buff_storable dbg f xs ->
  buff_chunk dbg lg scale xs bytes ->
  forall ops, Forall (fun o => match o with inl k => bits_of_digits k <> None | inr _ => True end) ops ->
  exists g ys, kept_bits f (last_precision ops None) = Some g /\
    fst (bf_decompress dbg (fold_left (precision_step dbg simd neg off) ops (buff_reader xs bytes))) = Ok ys /\
    Forall2 (truncated_to f g) xs ys.
Proof. exact c58. Qed.
Print Assumptions C58_precision_may_change.
Example C58_example :
  on_buff_chunk true (map (fixed_value 5) [100; 2848]%Z) (fun r =>
    fst (bf_decompress true (fold_left (precision_step true true false 0) [inl 0; inr QDecompress; inl 1; inr (QSum None)] r))) =
  Some (Ok (map (fixed_value 5) [100; 2848]%Z)).
Proof. vm_compute. reflexivity. Qed.

(** ** C59: multiples of 2^-f are stored losslessly *)
Theorem C59_fixed_grid_records_are_lossless :
  forall dbg lg scale f xs bytes, bits_of_digits (digits_of lg scale) = Some f -> buff_storable dbg f xs ->
  buff_chunk dbg lg scale xs bytes -> Forall (on_fixed_grid f) xs ->
  exists ys, fst (bf_decompress dbg (buff_reader xs bytes)) = Ok ys /\ Forall2 (fun x y => number y = number x) xs ys.
Proof. exact c59. Qed.
Print Assumptions C59_fixed_grid_records_are_lossless.
Example C59_example : Forall (on_fixed_grid 5) bf_records /\ ~ on_fixed_grid 5 0x40091eb851eb851f.
Proof. exact c59_sample. Qed.

(** ** C30: materialising *)
(** With respect to the records [vs] the file decodes to; [C30_buff_decoded]: they
    are the stored ones up to the precision. *)
Theorem C30_buff_materialize_is_exact :
  forall dbg simd neg lg scale f m file precision parts vss,
  buff_stored dbg simd neg lg scale f m file precision parts vss -> N.of_nat (length (concat parts)) < 2 ^ 32 ->
  forall cid first vs, scope vss cid first vs -> forall mask,
  exists ys, choose mask first vs ys /\
    dec_materialize dbg (buff_executor dbg simd neg) m file precision mask cid = (bytes_of ys, Ok tt).
Proof. exact file_materialize. Qed.
Print Assumptions C30_buff_materialize_is_exact.
Theorem C30_buff_decoded :
  forall dbg simd neg lg scale f m file precision parts vss,
  buff_stored dbg simd neg lg scale f m file precision parts vss ->
  forall cid first xs, scope parts cid first xs -> forall vs, scope vss cid first vs ->
  exists g, kept_bits f precision = Some g /\ Forall2 (truncated_to f g) xs vs.
Proof. exact decoded. Qed.
Print Assumptions C30_buff_decoded.
(** [filter_materialize] writes what [materialize] writes for the answer of
    [filter]. *)
Theorem C30_buff_filter_materialize :
  forall dbg simd neg lg scale f m file precision parts vss,
  buff_stored dbg simd neg lg scale f m file precision parts vss ->
  forall mask, mask_ok mask -> N.of_nat (length (concat parts)) < 2 ^ 32 ->
  forall cid first xs, scope parts cid first xs ->
  (forall off part, In (off, part) (looked_at parts cid) -> chunk_fits part) ->
  forall vs, scope vss cid first vs ->
  forall p, (forall off part, In (off, part) (looked_at parts cid) -> operands_fit dbg f p part /\ within_width f p part) ->
  exists bm zs, dec_filter dbg (buff_executor dbg simd neg) m file precision p mask cid = Ok bm /\
    choose (Some bm) first vs zs /\
    dec_filter_materialize dbg (buff_executor dbg simd neg) m file precision p mask cid = (bytes_of zs, Ok tt) /\
    dec_materialize dbg (buff_executor dbg simd neg) m file precision (Some bm) cid = (bytes_of zs, Ok tt).
Proof. exact (fun dbg simd neg => file_filter_materialize dbg simd neg (fun _ _ => true)). Qed.
Print Assumptions C30_buff_filter_materialize.
Example C30_buff_example :
  on_bf_sample (fun ex m file => dec_materialize true ex m file None None None) = Some (bytes_of bf_records, Ok tt) /\
  on_bf_sample (fun ex m file => dec_filter_materialize true ex m file None (PEq (fixed_value 5 10)) (Some [0; 1; 4; 6]) None) =
    Some (bytes_of (map (fixed_value 5) [10; 10]%Z), Ok tt).
Proof. vm_compute. split; reflexivity. Qed.

(** ** C37, C38: filters *)
(** One chunk: the records that match, each at most outside the mask when the
    answer is the whole chunk (see [mask_obeyed]). *)
Theorem C37_C38_buff_chunk_filter_partial :
  forall dbg simd lg scale f xs bytes, bits_of_digits (digits_of lg scale) = Some f -> buff_storable dbg f xs ->
  buff_chunk dbg lg scale xs bytes -> 7 * N.of_nat (length xs) < 2 ^ 32 ->
  forall mask off, mask_ok mask -> off + N.of_nat (length xs) < 2 ^ 32 ->
  forall p, operands_fit dbg f p xs -> within_width f p xs ->
  exists bm, fst (bf_filter dbg simd p mask off (buff_reader xs bytes)) = Ok bm /\ is_bitmap bm /\
    (forall i, In i bm -> matches f p off xs i) /\
    (forall i, in_mask mask i -> matches f p off xs i -> In i bm) /\
    (mask_obeyed f p mask xs -> forall i, In i bm -> in_mask mask i).
Proof. exact c_filter. Qed.
Print Assumptions C37_C38_buff_chunk_filter_partial.
(** Whole files, or one chunk of a file. *)
Theorem C37_C38_buff_filter_partial :
  forall dbg simd neg lg scale f m file precision parts vss,
  buff_stored dbg simd neg lg scale f m file precision parts vss ->
  forall mask, mask_ok mask -> N.of_nat (length (concat parts)) < 2 ^ 32 ->
  forall cid first xs, scope parts cid first xs ->
  (forall off part, In (off, part) (looked_at parts cid) -> chunk_fits part) ->
  forall p, (forall off part, In (off, part) (looked_at parts cid) -> operands_fit dbg f p part /\ within_width f p part) ->
  exists bm, dec_filter dbg (buff_executor dbg simd neg) m file precision p mask cid = Ok bm /\ is_bitmap bm /\
    (forall i, In i bm -> matches f p first xs i) /\
    (forall i, in_mask mask i -> matches f p first xs i -> In i bm) /\
    ((forall off part, In (off, part) (looked_at parts cid) -> mask_obeyed f p mask part) -> forall i, In i bm -> in_mask mask i).
Proof. exact (fun dbg simd neg => file_filter dbg simd neg (fun _ _ => true)). Qed.
Print Assumptions C37_C38_buff_filter_partial.
(** Operands that are multiples of 2^-f: to match is to satisfy the predicate,
    decoded at full precision. *)
Theorem C37_C38_matching_on_the_grid :
  forall dbg simd neg lg scale f m file parts vss,
  buff_stored dbg simd neg lg scale f m file None parts vss ->
  forall cid first xs, scope parts cid first xs -> forall vs, scope vss cid first vs ->
  forall p, Forall is_u64 (pred_operands p) -> Forall (on_fixed_grid f) (pred_operands p) ->
  forall i, matches f p first xs i <-> first <= i /\ exists y, nth_error vs (N.to_nat (i - first)) = Some y /\ satisfies p y.
Proof.
  exact (fun dbg simd neg lg scale f m file parts vss ST cid first xs SC vs SV p =>
    file_decoded_filter dbg simd neg lg scale f m file None parts vss ST cid first xs SC vs SV p eq_refl).
Qed.
Print Assumptions C37_C38_matching_on_the_grid.
(** The conditions are needed.  [= 8.0] selects the record 0.0 of a chunk of 8 bits
    per record. *)
Theorem C37_buff_equality_refuted :
  exists xs v bm, on_buff_chunk true xs (fun r => fst (bf_decompress true r)) = Some (Ok xs) /\
    on_buff_chunk true xs (fun r => fst (bf_filter true true (PEq v) None 0 r)) = Some (Ok bm) /\ In 0 bm /\
    on_fixed_grid 5 v /\ exists x, nth_error xs 0 = Some x /\ ~ satisfies (PEq v) x.
Proof. exact c37_width_refuted. Qed.
Print Assumptions C37_buff_equality_refuted.
(** On chunks whose records are all equal, equality ignores the mask. *)
Theorem C37_buff_equality_mask_refuted :
  exists xs v mask bm, on_buff_chunk true xs (fun r => fst (bf_decompress true r)) = Some (Ok xs) /\ is_bitmap mask /\
    on_buff_chunk true xs (fun r => fst (bf_filter true true (PEq v) (Some mask) 0 r)) = Some (Ok bm) /\ In 0 bm /\ ~ In 0 mask.
Proof. exact c37_mask_refuted. Qed.
Print Assumptions C37_buff_equality_mask_refuted.
(** Ranges that hold of the whole chunk ignore the mask. *)
Theorem C38_buff_range_mask_refuted :
  exists xs v mask bm, on_buff_chunk true xs (fun r => fst (bf_decompress true r)) = Some (Ok xs) /\ is_bitmap mask /\
    on_buff_chunk true xs (fun r => fst (bf_filter true true (PRange (Inclusive v) Unbounded) (Some mask) 0 r)) = Some (Ok bm) /\
    In 0 bm /\ ~ In 0 mask.
Proof. exact c38_mask_refuted. Qed.
Print Assumptions C38_buff_range_mask_refuted.
(** Operands off the grid: [>= 1.01] selects 1.0. *)
Theorem C38_buff_range_off_grid_refuted :
  exists xs v bm, on_buff_chunk true xs (fun r => fst (bf_decompress true r)) = Some (Ok xs) /\
    on_buff_chunk true xs (fun r => fst (bf_filter true true (PRange (Inclusive v) Unbounded) None 0 r)) = Some (Ok bm) /\ In 0 bm /\
    exists x, nth_error xs 0 = Some x /\ ~ satisfies (PRange (Inclusive v) Unbounded) x.
Proof. exact c38_off_grid_refuted. Qed.
Print Assumptions C38_buff_range_off_grid_refuted.
(** Operands out of range: [< +inf] selects nothing or panics, [>= NaN] selects. *)
Theorem C38_buff_range_infinite_refuted :
  exists xs v, on_buff_chunk true xs (fun r => fst (bf_decompress true r)) = Some (Ok xs) /\
    number v = Some (2 ^ 2098)%Z /\ Forall (satisfies (PRange Unbounded (Exclusive v))) xs /\
    on_buff_chunk false xs (fun r => fst (bf_filter false true (PRange Unbounded (Exclusive v)) None 0 r)) = Some (Ok []) /\
    on_buff_chunk true xs (fun r => fst (bf_filter true true (PRange Unbounded (Exclusive v)) None 0 r)) = Some Panic.
Proof. exact c38_infinite_refuted. Qed.
Print Assumptions C38_buff_range_infinite_refuted.
Theorem C38_buff_range_nan_refuted :
  exists xs bm, on_buff_chunk true xs (fun r => fst (bf_decompress true r)) = Some (Ok xs) /\
    on_buff_chunk false xs (fun r => fst (bf_filter false true (PRange (Inclusive nan_bits) Unbounded) None 0 r)) = Some (Ok bm) /\
    bm <> [] /\ Forall (fun x => ~ satisfies (PRange (Inclusive nan_bits) Unbounded) x) xs.
Proof. exact c38_nan_refuted. Qed.
Print Assumptions C38_buff_range_nan_refuted.
Example C37_C38_example :
  on_bf_sample (fun ex m file => dec_filter true ex m file None (PRange (Exclusive 0) (Inclusive 0x3ff8000000000000)) None None) =
    Some (Ok [0; 1; 4]) /\
  on_bf_sample (fun ex m file => dec_filter true ex m file (Some 0) (PNe (fixed_value 5 10)) (Some [0; 2; 3; 4; 9]) None) = Some (Ok [2; 3]) /\
  on_bf_sample (fun ex m file => dec_filter true ex m file None (PEq (fixed_value 5 10)) (Some [0; 3; 4]) (Some 1%nat)) = Some (Ok [4]).
Proof. vm_compute. repeat split; reflexivity. Qed.
Example C37_C38_hypotheses_example :
  operands_fit true 5 (PEq (fixed_value 5 10)) bf_records /\ within_width 5 (PEq (fixed_value 5 10)) (firstn 3 bf_records) /\
  mask_obeyed 5 (PEq (fixed_value 5 10)) (Some [0]) (firstn 3 bf_records).
Proof. exact c37_sample. Qed.

(** ** C39: least and greatest *)
Theorem C39_buff_chunk_extremes :
  forall dbg lg scale f xs bytes, bits_of_digits (digits_of lg scale) = Some f -> buff_storable dbg f xs ->
  buff_chunk dbg lg scale xs bytes -> 7 * N.of_nat (length xs) < 2 ^ 32 ->
  forall mask off, mask_ok mask -> off + N.of_nat (length xs) < 2 ^ 32 ->
  exists ys, choose mask off xs ys /\
    (ys <> [] -> exists lo hi, least_fixed f ys lo /\ greatest_fixed f ys hi /\
       fst (bf_min dbg mask off (buff_reader xs bytes)) = Ok (fixed_quotient f lo) /\
       fst (bf_max dbg mask off (buff_reader xs bytes)) = Ok (fixed_quotient f hi)) /\
    (ys = [] -> fst (bf_min dbg mask off (buff_reader xs bytes)) = Ok S754_nan /\
       fst (bf_max dbg mask off (buff_reader xs bytes)) = Ok S754_nan).
Proof. exact (fun dbg => c39 dbg true). Qed.
Print Assumptions C39_buff_chunk_extremes.
Theorem C39_buff_extremes :
  forall dbg simd neg tie lg scale f m file precision parts vss,
  buff_stored dbg simd neg lg scale f m file precision parts vss ->
  forall mask, mask_ok mask -> N.of_nat (length (concat parts)) < 2 ^ 32 ->
  forall cid first xs, scope parts cid first xs ->
  (forall off part, In (off, part) (looked_at parts cid) -> chunk_fits part) ->
  exists ys, choose mask first xs ys /\
    (ys = [] -> dec_min dbg tie (buff_executor dbg simd neg) m file precision mask cid = Ok (S754_infinity false) /\
                dec_max dbg tie (buff_executor dbg simd neg) m file precision mask cid = Ok (S754_infinity true)) /\
    (ys <> [] -> exists lo hi, least_fixed f ys lo /\ greatest_fixed f ys hi /\
       dec_min dbg tie (buff_executor dbg simd neg) m file precision mask cid = Ok (fixed_quotient f lo) /\
       dec_max dbg tie (buff_executor dbg simd neg) m file precision mask cid = Ok (fixed_quotient f hi)).
Proof. exact file_extremes. Qed.
Print Assumptions C39_buff_extremes.
Example C39_example :
  on_bf_sample (fun ex m file => dec_min true (fun _ _ => true) ex m file None None None) = Some (Ok (of_bits (fixed_value 5 (-80)))) /\
  on_bf_sample (fun ex m file => dec_max true (fun _ _ => true) ex m file None (Some [0; 2; 3; 9]) None) = Some (Ok (of_bits (fixed_value 5 10))) /\
  chunk_fits bf_records.
Proof. vm_compute. repeat split; reflexivity. Qed.

(** ** C40: sums *)
Theorem C40_buff_chunk_sum_partial :
  forall dbg lg scale f xs bytes, bits_of_digits (digits_of lg scale) = Some f -> buff_storable dbg f xs ->
  buff_chunk dbg lg scale xs bytes -> 7 * N.of_nat (length xs) < 2 ^ 32 ->
  forall mask off, mask_ok mask -> off + N.of_nat (length xs) < 2 ^ 32 ->
  sums_fit f xs -> mask = None \/ chunk_varies f xs ->
  exists ys t, choose mask off xs ys /\ fixed_sum f ys t /\
    fst (bf_sum dbg mask off (buff_reader xs bytes)) = Ok (fixed_quotient f t).
Proof. exact (fun dbg => c40 dbg true). Qed.
Print Assumptions C40_buff_chunk_sum_partial.
(** Over several chunks the quotients are added in floating point. *)
Theorem C40_buff_sum_partial :
  forall dbg simd neg lg scale f m file precision parts vss,
  buff_stored dbg simd neg lg scale f m file precision parts vss ->
  forall mask, mask_ok mask -> N.of_nat (length (concat parts)) < 2 ^ 32 ->
  forall cid first xs, scope parts cid first xs ->
  (forall off part, In (off, part) (looked_at parts cid) -> chunk_fits part) ->
  forall vs, scope vss cid first vs ->
  (forall off part, In (off, part) (looked_at parts cid) -> sums_fit f part /\ (mask = None \/ chunk_varies f part)) ->
  exists yss ts, Forall2 (fun '(off, part) ys => choose mask off part ys) (looked_at parts cid) yss /\
    Forall2 (fixed_sum f) (filter nonempty yss) ts /\
    dec_sum dbg (buff_executor dbg simd neg) m file precision mask cid = Ok (float_sum (map (fixed_quotient f) ts)).
Proof. exact (fun dbg simd neg => file_sum dbg simd neg (fun _ _ => true)). Qed.
Print Assumptions C40_buff_sum_partial.
(** On chunks whose records are all equal the mask is ignored. *)
Theorem C40_buff_sum_mask_refuted :
  exists xs mask t, on_buff_chunk true xs (fun r => fst (bf_decompress true r)) = Some (Ok xs) /\ is_bitmap mask /\
    on_buff_chunk true xs (fun r => fst (bf_sum true (Some mask) 0 r)) = Some (Ok t) /\
    exists ys, choose (Some mask) 0 xs ys /\ forall z, fixed_sum 5 ys z -> t <> fixed_quotient 5 z.
Proof. exact c40_refuted. Qed.
Print Assumptions C40_buff_sum_mask_refuted.
Example C40_example :
  on_bf_sample (fun ex m file => dec_sum true ex m file None None None) = Some (Ok (of_bits (fixed_value 5 209))) /\
  on_bf_sample (fun ex m file => dec_sum true ex m file None (Some [0; 2; 5]) None) = Some (Ok (of_bits (fixed_value 5 154))).
Proof. vm_compute. split; reflexivity. Qed.
Example C40_hypotheses_example :
  sums_fit 5 (firstn 3 bf_records) /\ chunk_varies 5 (firstn 3 bf_records).
Proof. exact c40_sample. Qed.

(** ** C41: SIMD and scalar code agree *)
(** Whole filters, on any bytes whose header states the number of records the
    file states. *)
Theorem C41_simd_filter_equals_scalar_filter :
  forall dbg p mask off n bytes, Forall is_byte bytes -> mask_ok mask -> off + n < 2 ^ 32 ->
  (forall h q, bf_header bytes = Ok (h, q) -> bh_records h = n) ->
  fst (bf_filter dbg true p mask off (bf_open n bytes)) = fst (bf_filter dbg false p mask off (bf_open n bytes)).
Proof. exact filter_simd. Qed.
Print Assumptions C41_simd_filter_equals_scalar_filter.
Theorem C41_simd_filter_equals_scalar_filter_written :
  forall dbg lg scale f xs bytes p mask off, bits_of_digits (digits_of lg scale) = Some f -> buff_storable dbg f xs ->
  buff_chunk dbg lg scale xs bytes -> mask_ok mask -> off + N.of_nat (length xs) < 2 ^ 32 ->
  fst (bf_filter dbg true p mask off (buff_reader xs bytes)) = fst (bf_filter dbg false p mask off (buff_reader xs bytes)).
Proof. exact c41_written. Qed.
Print Assumptions C41_simd_filter_equals_scalar_filter_written.
(** The column comparisons by themselves. *)
Theorem C41_simd_columns_equal_scalar_columns :
  forall dbg (greater : bool) col off pred mask n q, off + N.of_nat (length col) <= 2 ^ 32 -> Forall is_byte col -> is_byte pred ->
  Sorted.StronglySorted N.lt mask -> Forall (fun x => off <= x < off + N.of_nat (length col)) mask ->
  eq_column dbg true col pred off = eq_column dbg false col pred off /\
  cmp_column dbg true greater col off pred q = cmp_column dbg false greater col off pred q /\
  cmp_masked dbg true greater col n off pred mask q = cmp_masked dbg false greater col n off pred mask q.
Proof. exact c41. Qed.
Print Assumptions C41_simd_columns_equal_scalar_columns.
(** Ninety records, the first of them number 7: whole blocks of 32 and the
    head and tail around them. *)
Example C41_example :
  let xs := map (fun k => fixed_value 5 (Z.of_nat (k * 13 mod 300))) (seq 0 90) in
  let run (simd : bool) p := on_buff_chunk true xs (fun r => fst (bf_filter true simd p None 7 r)) in
  Forall (fun p => run true p = run false p /\ run true p <> Some (Ok []))
    [PEq (fixed_value 5 26); PRange (Inclusive (fixed_value 5 100)) (Exclusive (fixed_value 5 257)); PNe (fixed_value 5 26)].
Proof. exact c41_sample. Qed.

(** ** C42: histories *)
(** Any reader, any bytes. *)
Theorem C42_buff_history :
  forall dbg simd neg off (r : rstate (buff_executor dbg simd neg)) qs, let ex := buff_executor dbg simd neg in
  fst (q_run ex off r qs) = map (fun q => fst (q_step ex off r q)) qs.
Proof. exact c42_buff. Qed.
Print Assumptions C42_buff_history.
Example C42_buff_example :
  on_buff_chunk true [0x4009000000000000; 0x4020000000000000] (fun r =>
    fst (q_run (buff_executor true true false) 0 r [QSum None; QDecompress; QFilter (PEq 0x4020000000000000) None; QMin None])) =
  Some [RNumber (Ok (of_bits 0x4026400000000000)); RValues (Ok [0x4009000000000000; 0x4020000000000000]); RBitmap (Ok [1]); RNumber (Ok (of_bits 0x4009000000000000))].
Proof. vm_compute. reflexivity. Qed.

(** ** C43, C44: reuse and size *)
Theorem C43_buff_reuse : forall dbg lg scale c xs,
  match bf_compress dbg lg scale c xs, bf_compress dbg lg scale bf_new xs with
  | Ok a, Ok b => bf_buffers (bf_prepare a) = bf_buffers (bf_prepare b)
  | Err e, Err e' => e = e'
  | Panic, Panic => True
  | _, _ => False
  end.
Proof. exact buff_reuse. Qed.
Print Assumptions C43_buff_reuse.
Theorem C44_buff_size : forall c, bf_total_bytes_buffered c = N.of_nat (length (bf_buffers (bf_prepare c))).
Proof. exact buff_size. Qed.
Print Assumptions C44_buff_size.
(** The size of a chunk: [k] bits per record, the width of the greatest minus the
    least integer; whole bytes of it as columns, the rest packed. *)
Theorem C44_buff_chunk_length :
  forall dbg lg scale f xs bytes lo hi k, bits_of_digits (digits_of lg scale) = Some f -> buff_storable dbg f xs ->
  buff_chunk dbg lg scale xs bytes -> least_fixed f xs lo -> greatest_fixed f xs hi ->
  (hi - lo < 2 ^ Z.of_N k)%Z -> k = 0 \/ (2 ^ Z.of_N (k - 1) <= hi - lo)%Z ->
  N.of_nat (length bytes) = 20 + N.of_nat (length xs) * (k / 8) + (N.of_nat (length xs) * (k mod 8) + 7) / 8.
Proof. exact buff_length. Qed.
Print Assumptions C44_buff_chunk_length.
Example C44_buff_example :
  on_buff_chunk true (map (fixed_value 5) [100; 400; 1000]%Z) (fun r => length (br_bytes r)) = Some (20 + 3 + 1)%nat.
Proof. vm_compute. reflexivity. Qed.

(** ** C52: arbitrary bytes *)
(** False: a chunk shorter than its header panics. *)
Theorem C52_buff_short_chunk_panics :
  forall dbg n bs k, (length bs < 20)%nat ->
  fst (bf_decompress dbg (bf_open n bs)) = Panic /\ fst (bf_decompress dbg (bf_with_precision k (bf_open n bs))) = Panic.
Proof. exact short_header. Qed.
Print Assumptions C52_buff_short_chunk_panics.
Theorem C52_buff_total_refuted : exists bs, Forall is_byte bs /\ forall dbg, fst (bf_decompress dbg (bf_open 1 bs)) = Panic.
Proof. exact c52_buff_refuted. Qed.
Print Assumptions C52_buff_total_refuted.
