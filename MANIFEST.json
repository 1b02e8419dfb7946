{"claims": [
  {"property": "C01", "status": "proved", "theorems": ["C01_bit_roundtrip"], "note": ""},
  {"property": "C02", "status": "proved", "theorems": ["C02_writer_accounting"], "note": ""},
  {"property": "C03", "status": "proved", "theorems": ["C03_reader_end", "C03_reader_bit_end", "C03_reader_byte_end", "C03_reader_skip", "C03_reader_peak"], "note": ""},
  {"property": "C04", "status": "proved", "theorems": ["C04_gorilla_lossless"], "note": ""},
  {"property": "C05", "status": "proved", "theorems": ["C05_chimp_lossless"], "note": ""},
  {"property": "C06", "status": "proved", "theorems": ["C06_chimp128_lossless"], "note": ""},
  {"property": "C07", "status": "proved", "theorems": ["C07_elf_xor_lossless"], "note": ""},
  {"property": "C08", "status": "proved", "theorems": ["C08_elf_framing", "C08_elf_on_chimp_framing", "C08_every_value_recovered_refuted"], "note": "recovery itself is not exact for every f64: refuted by witness"},
  {"property": "C09", "status": "proved", "theorems": ["C09_nan_truncates", "C09_every_sequence_roundtrips_refuted", "C09_elf_nan_truncates"], "note": "the claim that every sequence round-trips is refuted"},
  {"property": "C10", "status": "proved", "theorems": ["C10_rle_lossless", "C10_rle_empty_chunk_refuted"], "note": "every non-empty chunk; an empty chunk panics (the encoder never passes one)"},
  {"property": "C11", "status": "proved", "theorems": ["C11_rle_history", "C11_rle_history_bytes"], "note": "all histories of compress/append_compress/rewind/prepare/reset against a list specification"},
  {"property": "C12", "status": "proved", "theorems": ["C12_uncompressed_history", "C12_uncompressed_lossless"], "note": ""},
  {"property": "C13", "status": "proved", "theorems": ["C13_sprintz_returns_quantised_records", "C13_sprintz_debug_overflow_panics", "C13_encoded_sprintz_files_are_stored"], "note": "Chunks and whole files; all records incl. NaN, infinities and out-of-range products. In debug builds a step between stored integers that does not fit an i64 panics instead, which is proved too."},
  {"property": "C14", "status": "partial", "theorems": ["C14_sprintz_decodes_with_low_bits_of_scale", "C14_scale_is_kept_refuted"], "note": "Refuted: the code violates it for scales of 2^32 and more; proved for every scale: decoding uses the low 32 bits."},
  {"property": "C15", "status": "proved", "theorems": ["C15_buff_returns_fixed_point_records", "C15_encoded_buff_files_are_stored", "C15_buff_more_than_twelve_digits_panics", "C15_buff_no_records_panics", "C15_buff_nan_refuted", "C15_buff_infinity_refuted"], "note": "All in-range records, every chunk and every file. Outside the range of the property: NaN and infinity are silently stored as other numbers in release builds (the two _refuted theorems); more than 12 digits and empty chunks panic."},
  {"property": "C16", "status": "proved", "theorems": ["C16_buff_truncation_error", "C16_buff_error_in_decimal_digits"], "note": "All in-range records, all precisions; also in decimal digits."},
  {"property": "C17", "status": "proved", "theorems": ["C17_buff_reduced_precision", "C17_buff_precision_above_twelve_panics"], "note": "All precisions 0..12; above 12 the reader panics."},
  {"property": "C18", "status": "proved", "theorems": ["C18_header_round_trip", "C18_header_rejection", "C18_header_outcomes"], "note": "Byte layout, round trip with anything following, the exact set of rejected headers and every outcome of reading one."},
  {"property": "C19", "status": "proved", "theorems": ["C19_footer_round_trip", "C19_config_round_trip", "C19_no_chunks_refuted"], "note": "Any positive number of chunks below 2^59, every scheme's configuration, both build modes. The excluded empty footer is C19_no_chunks_refuted."},
  {"property": "C20", "status": "proved", "theorems": ["C20_chunks_partition_the_records", "C20_C23_C24_buff_files"], "note": "For all thirteen schemes (zstd, gzip, snappy and ALP under the hypothesis that the library inverts itself; DeltaSprintz on the numbers of its grid, C57; BUFF in range) and every usable option; the partition is shown to be the only one."},
  {"property": "C21", "status": "proved", "theorems": ["C21_read_schedule_does_not_matter"], "note": "For any codec and option, both build modes; same operations on the output, same result."},
  {"property": "C22", "status": "partial", "theorems": ["C22_interrupted_read_loses_data_refuted", "C22_interrupted_read_partial"], "note": "Refuted: the code violates it for the options with a limit (an interruption truncates what was read to whole records). Proved for Full."},
  {"property": "C23", "status": "proved", "theorems": ["C23_chunk_index_is_contiguous", "C20_C23_C24_buff_files"], "note": "Contiguity from byte 30 to the footer, in bytes and records, with the sizes and counts the reader reports; number of chunks and records. Eleven schemes as for C20."},
  {"property": "C24", "status": "proved", "theorems": ["C24_whole_file_round_trip", "C24_materialize_everything", "C20_C23_C24_buff_files"], "note": "Every chunk read back through open and decompress, and materialize of everything writes the input, whatever the output held before and whatever precision is set. Eleven schemes as for C20, on the records those schemes keep (C04-C12, C57 say which)."},
  {"property": "C25", "status": "partial", "theorems": ["C25_empty_input_refuted"], "note": "Refuted: the code violates it for every scheme and option."},
  {"property": "C26", "status": "partial", "theorems": ["C26_zero_limit_refuted", "C26_wrapping_limit_refuted"], "note": "Refuted: the code violates it, for zero limits in both builds and for multiples of 2^61 records in release builds. Usable limits are C20 and C24."},
  {"property": "C27", "status": "partial", "theorems": ["C27_crash_partial", "C27_crash_detected_refuted", "C27_buff_crash_partial", "C27_torn_offset_refuted"], "note": "Refuted: the code violates it for options with a limit, and for every option when the write of the footer offset itself is torn (a witness each; the second opens and reads 5 of 37 records). Proved for all crash points, writes possibly torn, including BUFF: a torn header is an error, Full with the offset still zero panics, the offset left by a cut is always the low bytes of the final one, and once the whole offset is in place all data is there."},
  {"property": "C28", "status": "proved", "theorems": ["C28_predicates_compare_numbers"], "note": "All bit patterns and predicates, against numbers computed from the bits with integer arithmetic only."},
  {"property": "C29", "status": "proved", "theorems": ["C29_filter_is_exact", "encoded_files_are_stored"], "note": "Eleven schemes (all but BUFF and DeltaSprintz), any mask, all chunkings, all records or one chunk; encoded_files_are_stored shows that every encoded file meets the hypotheses."},
  {"property": "C30", "status": "proved", "theorems": ["C30_materialize_is_exact", "C30_sprintz_materialize_is_exact", "C30_buff_materialize_is_exact", "C30_buff_decoded", "C30_buff_filter_materialize"], "note": "Ten schemes as for C29; DeltaSprintz and BUFF w.r.t. the decoded records."},
  {"property": "C31", "status": "proved", "theorems": ["C31_min_max_are_exact"], "note": "Same scope as C29; which of two equal zeros is returned is left open, as in Rust."},
  {"property": "C32", "status": "proved", "theorems": ["C32_sum_is_chunkwise", "C32_sum_of_one_chunk", "C32_exact_sums"], "note": "Ten schemes that query decoded records; exact sums need magnitudes of at most 2^53 units."},
  {"property": "C33", "status": "proved", "theorems": ["C33_only_mask_bits_in_scope_matter", "C29_filter_is_exact", "C30_materialize_is_exact", "C31_min_max_are_exact", "C32_sum_of_one_chunk"], "note": "Chunk ids are covered by the scope of C29-C32; results only depend on mask bits of the selected records, for all six queries."},
  {"property": "C34", "status": "partial", "theorems": ["C34_record_numbers_wrap_refuted", "C34_numbers_modulo_partial"], "note": "Refuted: the code violates it, with a witness of 2^32+1 records. Proved for all files: the reported numbers are the right ones modulo 2^32."},
  {"property": "C35", "status": "partial", "theorems": ["C35_sprintz_filter_on_grid", "C35_sprintz_filter_rounds_operands", "C35_sprintz_filter_off_grid_refuted"], "note": "Refuted: the code violates it for operands off the grid and for NaN. Proved for operands on the grid and, for all operands, w.r.t. the rounded operand; stored integers below 2^51."},
  {"property": "C36", "status": "partial", "theorems": ["C36_sprintz_min_max_are_exact", "C36_sprintz_sum_of_integers", "C36_sprintz_min_after_decompress_refuted", "C36_sprintz_sum_of_nothing_refuted", "C36_sprintz_sum_overflow_refuted"], "note": "Refuted: the code violates it (min after decompress, sum under a mask that misses the chunk, sums beyond an i64). Proved for the file-level queries: min/max exact; sum is the integer sum over the scale, chunk by chunk, if it fits."},
  {"property": "C37", "status": "partial", "theorems": ["C37_C38_buff_chunk_filter_partial", "C37_C38_buff_filter_partial", "C37_C38_matching_on_the_grid", "C37_buff_equality_refuted", "C37_buff_equality_mask_refuted"], "note": "Refuted: the code violates it when constant - base exceeds the chunk's bit width, and ignores the mask on constant chunks. Proved for chunks and whole files outside these cases."},
  {"property": "C38", "status": "partial", "theorems": ["C37_C38_buff_chunk_filter_partial", "C37_C38_buff_filter_partial", "C37_C38_matching_on_the_grid", "C38_buff_range_mask_refuted", "C38_buff_range_off_grid_refuted", "C38_buff_range_infinite_refuted", "C38_buff_range_nan_refuted"], "note": "Refuted: the code violates it for masks when the range covers the whole chunk, and for infinite or NaN operands; operands off the grid are truncated. Proved for chunks and whole files outside these cases."},
  {"property": "C39", "status": "proved", "theorems": ["C39_buff_chunk_extremes", "C39_buff_extremes"], "note": "Chunks and whole files, all masks. On one chunk an empty selection gives NaN."},
  {"property": "C40", "status": "partial", "theorems": ["C40_buff_chunk_sum_partial", "C40_buff_sum_partial", "C40_buff_sum_mask_refuted", "C40_buff_exact_sums_partial"], "note": "Refuted: the code violates it for masks on constant chunks. Proved otherwise when the integer sums fit an i64; over several chunks the quotients are added in f64, which is exact when the magnitudes of the integers add up to at most 2^53."},
  {"property": "C41", "status": "proved", "theorems": ["C41_simd_filter_equals_scalar_filter", "C41_simd_filter_equals_scalar_filter_written", "C41_simd_columns_equal_scalar_columns"], "note": "Column comparisons, and whole filters on any bytes with a consistent record count."},
  {"property": "C42", "status": "partial", "theorems": ["C42_answers_do_not_depend_on_history_partial", "C42_sprintz_in_situ_partial", "C42_sprintz_history_refuted", "C42_buff_history"], "note": "Refuted: the code violates it for DeltaSprintz (decompress after an in-situ query). Proved for the eleven schemes with default queries on readable chunks, for DeltaSprintz queries answered in situ, and for BUFF on any bytes."},
  {"property": "C43", "status": "proved", "theorems": ["C43_xor_reuse", "C43_rle_reuse", "C43_uncompressed_reuse", "C43_sprintz_reuse", "C43_buff_reuse", "C43_elf_reuse", "C43_byte_codecs_reuse", "C43_alp_reuse"], "note": "All schemes."},
  {"property": "C44", "status": "proved", "theorems": ["C44_gorilla_size", "C44_chimp_size", "C44_chimp128_size", "C44_rle_size", "C44_uncompressed_size", "C44_sprintz_size", "C44_buff_size", "C44_buff_chunk_length", "C44_elf_size", "C44_elf_on_chimp_size", "C44_byte_codecs_size", "C44_alp_size"], "note": "All schemes; Gorilla, Chimp, Elf and ElfOnChimp over-report by at most one byte."},
  {"property": "C45", "status": "proved", "theorems": ["C45_size_accounting", "C45_size_accounting_buff"], "note": "Total file size, total chunk size, chunk sizes and footer size add up to the bytes written. Eleven schemes as for C20, and BUFF."},
  {"property": "C46", "status": "proved", "theorems": ["C46_expressions", "C46_columns_open", "C46_written_files_hold", "C46_sprintz_files_hold", "C46_buff_files_hold"], "note": "Also shown: the files written by the encoder with any of twelve schemes meet the hypothesis."},
  {"property": "C47", "status": "partial", "theorems": ["C47_aggregation_partial", "C47_aggregation_of_operations", "C47_multiple_is_separate", "C47_plain_column_refuted"], "note": "Refuted: the code violates it for kind None of a bare column (todo!). Proved otherwise; aggregates of bare columns for the eleven schemes that query decoded records (DeltaSprintz and BUFF: C35, C36, C39, C40)."},
  {"property": "C48", "status": "partial", "theorems": ["C48_knn1_partial", "C48_split_vectors_refuted", "C48_empty_target_refuted"], "note": "Refuted: the code violates it when a vector straddles chunks, and does not terminate on an empty target. Proved when the chunks hold whole vectors."},
  {"property": "C49", "status": "partial", "theorems": ["C49_matmul_partial", "C49_shapes_rejected", "C49_empty_matrix_refuted", "C49_straddling_rows_refuted", "C49_target_shape_refuted"], "note": "Refuted: the code violates it when matrices straddle chunks (wrong products), when the target is shorter than its declared shape (accepted) and for empty matrices (panic). Proved when every chunk holds whole matrices."},
  {"property": "C50", "status": "proved", "theorems": ["C50_times_round_trip", "C50_times_add", "C50_times_add_algebra", "C50_measurement"], "note": "Footer round trip, component-wise addition with its exact overflow condition, commutativity, associativity, neutral element, one measurement touches one segment."},
  {"property": "C51", "status": "proved", "theorems": ["C51_open_outcomes"], "note": "Every outcome of opening arbitrary bytes in both build modes; panics are characterised. Allocation failure below isize::MAX is not modelled."},
  {"property": "C52", "status": "partial", "theorems": ["C52_rle_total", "C52_rle_iterator_zero_run_refuted", "C52_sprintz_total", "C52_sprintz_debug_refuted", "C52_buff_short_chunk_panics", "C52_buff_total_refuted", "C52_gorilla_total", "C52_chimp_total", "C52_chimp128_total", "C52_elf_total", "C52_elf_on_chimp_total", "C52_uncompressed_total", "C52_uncompressed_iterator_total", "C52_zstd_total", "C52_gzip_snappy_total", "C52_gzip_snappy_debug_refuted"], "note": "Refuted: the code violates it for BUFF (chunks shorter than the header panic), for DeltaSprintz, Gzip and Snappy in debug builds and for the RLE iterator. Total: RLE, Uncompressed, Gorilla, Chimp, Chimp128, Elf, ElfOnChimp, DeltaSprintz (release builds), Zstd and, in release builds, Gzip and Snappy as far as their library is."},
  {"property": "C53", "status": "partial", "theorems": ["C53_magic_refuted"], "note": "Refuted: the code violates it. Every four bytes are accepted in place of the magic number; the checksum field is read and never compared (Format.v fetch_footer)."},
  {"property": "C54", "status": "partial", "theorems": ["C54_stray_bytes_refuted"], "note": "Refuted: the code violates it; the output is byte for byte the one without the stray bytes."},
  {"property": "C55", "status": "proved", "theorems": ["C55_encode_total"], "note": "All schedules, both build modes, the eleven schemes of C20 (DeltaSprintz in release builds only: in debug builds C13_sprintz_debug_overflow_panics)."},
  {"property": "C56", "status": "proved", "theorems": ["C56_write_cursor"], "note": "Any history, any position; the bits left in the last byte are cleared."},
  {"property": "C57", "status": "proved", "theorems": ["C57_grid_records_are_lossless", "C57_grid_records_are_storable"], "note": "Debug and release; C57_grid_records_are_storable makes C20, C23, C24 and C45 apply to whole files."},
  {"property": "C58", "status": "proved", "theorems": ["C58_precision_may_change"], "note": ""},
  {"property": "C59", "status": "proved", "theorems": ["C59_fixed_grid_records_are_lossless"], "note": ""},
  {"property": "C60", "status": "partial", "theorems": ["C60_counts_the_chunk", "C60_zstd_accumulates", "C60_buff_accumulates", "C60_zstd_reuse_refuted", "C60_rewind_refuted", "C11_rle_history"], "note": "Refuted: the code violates it for Zstd and BUFF compressors used again without reset, and for Uncompressed after rewind. Proved for the other schemes (RLE after rewind: C11)."},
  {"property": "C61", "status": "partial", "theorems": ["C61_elf_lossless_partial", "C61_elf_on_chimp_lossless_partial", "C61_storable_partial", "C08_every_value_recovered_refuted", "C61_elf_lossless_above_micro_partial", "C61_elf_on_chimp_lossless_above_micro_partial", "C61_storable_above_micro_partial", "C61_any_logarithm_refuted"], "note": "Refuted: the code violates it in general (6.893870092000001e-07 comes back changed). Proved for zeros, infinities and every number with 1e-6 <= |v| < 1e9, for every log10; and for every |v| >= 1e-6 up to the largest f64 under a stated accuracy hypothesis on log10 (the code calls it from 1e9 on; some hypothesis is shown to be needed). Missing: |v| < 1e-6, where some values are lost."},
  {"property": "C62", "status": "proved", "theorems": ["C62_decimals_come_back", "C62_decimals_are_storable", "C62_every_decimal_has_an_f64"], "note": "Decimals stated as nearest f64s, without any model helper; C62_every_decimal_has_an_f64 shows they exist and C62_decimals_are_storable that they can be stored."},
  {"property": "C63", "status": "partial", "theorems": ["C63_precision_keeps_decimals_partial", "C63_precision_zero_refuted", "C63_more_digits_refuted"], "note": "Refuted: the code violates it at precision 0 (200 becomes 199.03) and for originals with more digits than asked for (0.2539 becomes 0.2266). Proved for originals with at most n digits, 1 <= n <= digits of the scale, whose fixed-point integer has at most 52 bits."},
  {"property": "C64", "status": "partial", "theorems": ["C64_revenue_partial", "C64_process_partial", "C64_buff_refuted", "C64_null_refuted", "C64_run_partial", "C64_buff_low_refuted"], "note": "Refuted: the code violates it for BUFF (C64_buff_refuted: more than a quarter too high; C64_buff_low_refuted: at least 2% too low on every table whose chunks all have quantities on both sides of 24) and, when a discount is NULL, for Gorilla, Chimp, Chimp128, Elf and ElfOnChimp (C64_null_refuted). Proved for the other twelve schemes on tables without NULLs, run by run and for the whole process, which always ends without an error when 100 has two decimal digits (C64_run_partial); BUFF's answer there is the revenue of the amounts it keeps."},
  {"property": "C65", "status": "partial", "theorems": ["C65_q1_partial", "C65_simplified", "C65_order_refuted", "C65_run_partial", "C65_simplified_run"], "note": "Refuted: the code violates it: the averages come as price, quantity, discount, and the names beside them in yet another order (C65_order_refuted). Proved: which value stands where, for all schemes, BUFF's being those of the amounts it keeps; the whole runs end without an error."},
  {"property": "C66", "status": "proved", "theorems": ["C66_statistics", "C66_statistics_all"], "note": "All schemes; for BUFF if 100 has two decimal digits, as the code's logarithm is an oracle."},
  {"property": "C67", "status": "partial", "theorems": ["C67_exact_precision", "C67_upper_case_refuted"], "note": "Refuted for upper-case exponents, which the parser accepts (C67_upper_case_refuted); proved for all documents with lower-case ones."},
  {"property": "C68", "status": "proved", "theorems": ["C68_common_precision", "C68_default_configurations"], "note": ""},
  {"property": "C69", "status": "proved", "theorems": ["C69_text_through_sprintz", "C69_text_through_buff"], "note": "BUFF takes the f32 logarithm of the scale as given (lg (10^p) = p)."},
  {"property": "C70", "status": "partial", "theorems": ["C70_all_numbers", "C70_no_number", "C70_success_partial", "C70_success_refuted"], "note": "Refuted: the code violates it. When the disk is full at the end, the last bytes (up to 8192) are lost in the drop of the BufWriter although success is reported. Proved: complete output when there is room, failure and no file when a field is no number, and what success guarantees in general."},
  {"property": "C71", "status": "partial", "theorems": ["C71_loaded_series_partial", "C71_first_line_refuted", "C71_ten_digits_refuted"], "note": "Refuted: the code violates it. The first line of every file is dropped, and scales from 10^10 on are cut to an i32, so that values are rounded on a wrong grid. Proved for the other lines and up to 9 places."},
  {"property": "C72", "status": "partial", "theorems": ["C72_statistics_partial", "C72_nan_panics", "C72_long_data_refuted"], "note": "Refuted: the code violates it. The exponents are added in an i32, which overflows from about 2.1 million values on; a NaN panics. Proved for fewer than 2^21 values without NaN; averages and deviations of the values are not modelled."},
  {"property": "C73", "status": "partial", "theorems": ["C73_patch_partial", "C73_maxima_refuted"], "note": "Refuted: the code violates it for maxima and sums (AllOutputInner::clear keeps them): C73_maxima_refuted. Proved: everything else, and exactly which maxima and sums there are afterwards. The reading of the document to be patched is not modelled."},
  {"property": "C74", "status": "partial", "theorems": ["C74_never_resumes", "C74_resume_refuted"], "note": "Refuted: the code violates it. Proved for every run: saved files make no difference to the calls and results."},
  {"property": "C75", "status": "partial", "theorems": ["C75_ratio_partial", "C75_throughput", "C75_throughput_refuted", "C75_skipped_refuted"], "note": "Refuted: the code violates it for throughputs (divided by the number of runs once more) and for skipped data sets (NaN). Proved: ratios, for positive f64 ratios between 2^-100 and 2^100; what throughputs are instead."},
  {"property": "C76", "status": "partial", "theorems": ["C76_save_alone", "C76_old_files_stay", "C76_save_safely", "C76_race_refuted", "C76_crash_refuted"], "note": "Refuted: the code violates it for programs that choose a number at the same time and for a crash between creating and writing. Proved: alone, for files that were there, and for save_json_safely under every schedule."},
  {"property": "C77", "status": "partial", "theorems": ["C77_nonnegative_partial", "C77_negative_refuted", "C77_boundary_refuted", "C77_unscaled"], "note": "Refuted: the code violates it for negative values and for 2^63 itself. Proved for all values that are not negative, up to 2^63."},
  {"property": "C78", "status": "partial", "theorems": ["C78_filters", "C78_failure", "C78_infinite_refuted"], "note": "Refuted: the code violates it for infinite operands, and leaves old filters when a record is NaN. Proved for all data sets of finite numbers. That an operand is read back from JSON as the same f64 is assumed."},
  {"property": "C79", "status": "partial", "theorems": ["C79_accuracy_partial", "C79_decimals_partial", "C79_schemes_agree_partial", "C79_files_partial", "C79_buff_refuted"], "note": "Refuted: the code violates it for BUFF (0.5 and 0.1 are stored too small, so another vector is nearest to 0.3). Proved for all twelve other schemes: for any values they keep, for decimals of up to 9 digits (all report the same), and from the texts of the two files up to 6 digits, whose first lines are lost (C71). Vectors that span chunks are excluded."},
  {"property": "C80", "status": "partial", "theorems": ["C80_products_partial", "C80_size_refuted", "C80_buff_refuted"], "note": "Refuted: the code violates it for BUFF and panics for sizes whose square does not divide 2^24. Proved for the twelve other schemes and all other sizes; the sign of a zero entry may differ (DeltaSprintz stores -0 as 0)."},
  {"property": "C81", "status": "proved", "theorems": ["C81_by_scheme", "C81_aggregate"], "note": "For every table of results; the order in which a HashMap yields its values is that of insertion in the model."},
  {"property": "C82", "status": "partial", "theorems": ["C82_run_partial", "C82_command_partial", "C82_short_refuted", "C82_scale_refuted", "C82_places_refuted", "C82_special_places_partial", "C82_unlisted_refuted"], "note": "Refuted: the code violates it. A file shorter than one record ends the experiment, DeltaSprintz with 10 to 12 places gives other values, places are cut to 32 bits, and a data set without listed places ends the experiment (C82_unlisted_refuted). Proved otherwise, for records each scheme keeps (BUFF: values cut to its fractional bits), for one run and for the whole command. Times are not modelled. What infinite and NaN numbers of places do: C82_special_places_partial."},
  {"property": "C83", "status": "partial", "theorems": ["C83_iterates_decompressed_records", "C83_elf_iterates_decompressed_records", "C83_elf_no_record_after_the_end", "C83_ended_stays_partial", "C83_ends_on_any_bytes", "C83_rle_ends_in_release", "C83_truncated_chunk_refuted", "C83_short_chunk_refuted", "C83_elf_error_after_the_end_refuted"], "note": "Refuted: the code violates it: a cut-off chunk gives errors for ever (C83_truncated_chunk_refuted for every cut-off Uncompressed chunk, C83_short_chunk_refuted), and Elf and ElfOnChimp answer with an error after None on an undamaged chunk (C83_elf_error_after_the_end_refuted). Proved: the decompressed records followed by None for all the modelled iterators; None is final for all but the two Elf schemes, in any state; those return no record after it; RLE and DeltaSprintz end on any bytes. BUFF, Zstd, Gzip, Snappy and ALP iterate over the decompressed slice and are not modelled by calls."},
  {"property": "C84", "status": "partial", "theorems": ["C84_remaining_length_refuted", "C84_initial_length_partial"], "note": "Refuted: the code violates it: the announced length stays the number of records of the whole chunk (C84_remaining_length_refuted, for every chunk and position). Proved: right before the first call."},
  {"property": "C85", "status": "partial", "theorems": ["C85_uncompressed_second_iteration_refuted", "C85_xor_second_iteration_refuted"], "note": "Refuted: the code violates it: for every Uncompressed chunk and every number of records taken (C85_uncompressed_second_iteration_refuted), and silently for Gorilla, Chimp and Chimp128 (C85_xor_second_iteration_refuted). That nothing goes wrong without a previous iteration is C42 and C83."},
  {"property": "C86", "status": "partial", "theorems": ["C86_cuda_product_partial", "C86_all_schemes_partial", "C86_cuda_rearranged_partial", "C86_same_product_refuted", "C86_shapes_refused_partial", "C86_cuda_no_wrong_product_partial", "C86_overflowing_shape_refuted"], "note": "Refuted: the code violates it: matmul documents and reads its target column by column, matmul_cuda (which has no documentation of its own) reads it row by row, so the same call gives different products (C86_same_product_refuted); a release build also answers for a shape whose size overflows (C86_overflowing_shape_refuted). Proved: what matmul_cuda returns for every file, shape and target (C86_cuda_product_partial, for all schemes by C86_all_schemes_partial; C86_cuda_no_wrong_product_partial without the limits of the library's 32-bit sizes), that this is bit for bit the result of matmul for the rearranged target if the library adds in order (C86_cuda_rearranged_partial), and which shapes are refused (C86_shapes_refused_partial). The library's addition is a parameter; opening the device and its buffers are not modelled."},
  {"property": "C87", "status": "partial", "theorems": ["C87_gpu_products_partial", "C87_gpu_differs_refuted", "C87_size_refuted", "C87_buff_refuted"], "note": "Refuted: the code violates it: the target is read row by row on the GPU and column by column on the CPU, so the same random numbers give other products (C87_gpu_differs_refuted), BUFF differs from the other schemes (C87_buff_refuted) and sizes whose square does not divide 2^24 panic (C87_size_refuted). Proved: all schemes but BUFF compute the products with the target read row by row (C87_gpu_products_partial)."}
]}
