# Formal model of lemolatoon/ebi in Rocq (Coq 8.16.1)

This document says what is modelled, how each property of `properties.jsonl`
is stated and proved, and what has to be trusted.

## 1. Modelling conventions

* Machine words are `N` (bytes, `u32`, `u64`, `usize`, `f64` bit patterns) or
  `Z` (`i64`), with explicit `mod 2^k` where the Rust code can wrap.  A data
  `f64` is its 64-bit pattern (`f64::to_bits`); floating-point arithmetic and
  comparison go through `Coq.Floats.SpecFloat` (standard library, purely
  computational, no axioms; primitive floats are *not* used).
* `&mut self` methods return the new state.  `Result`/`Option` stay data.  A
  Rust panic is an explicit value `Panic`.
* Arithmetic is that of a release build (wrap-around, shift amounts masked)
  unless a function takes a parameter `dbg : bool`; with `dbg = true` an
  overflow is a `Panic`.
* Loops are structural recursion, folds, or recursion on fuel that returns an
  error value when exhausted; theorems show the fuel suffices.
* External code (zstd, gzip, snappy, ALP, the operating system's reader and
  writer, `log10`) enters as Section variables with stated hypotheses or as an
  explicit schedule argument; never as an axiom.

## 2. Layout of the development (`rocq/theories`)

| file | contents |
|------|----------|
| `Base.v`, `WordProofs.v` | words, little-endian codecs, leading/trailing zeros, result type |
| `BitIO.v`, `BitIOProofs.v`, `BitIOTotalProofs.v`, `CursorProofs.v` | `BufferedBitWriter`, `BufferedBitReader` |
| `Xor.v`, `Gorilla*.v`, `Chimp*.v`, `ChimpN*.v` | XOR codecs |
| `F64.v`, `F64Proofs.v`, `F64BitsProofs.v` | f64 as bit patterns and `SpecFloat` arithmetic |
| `F64Flocq.v`, `ExactSumProofs.v` | the same arithmetic as rounding of real numbers, through Flocq |
| `Elf*.v` | erase/recover arithmetic and the two Elf wrappers |
| `Rle*.v`, `Uncompressed*.v`, `Sprintz*.v`, `Buff*.v` | other codecs and in-situ queries |
| `Format*.v` | header, footer, configuration, timings |
| `File*.v` | encoder driver, decoder driver, crash states |
| `Codecs.v`, `CodecSpec.v`, `CodecProofs.v`, `CodecSummary.v` | each scheme as a codec of the driver; reuse, counters, arbitrary bytes (`XorTotalProofs.v`) |
| `Query*.v`, `Readers.v` | predicates, masks, default and chunk-wise queries |
| `Expr*.v`, `AggregateProofs.v`, `VectorProofs.v` | expressions, aggregations, knn1, matmul |
| `RelErrorProofs.v`, `Tpch*.v` | relative rounding errors of sums and products; the TPC-H experiment |
| `Text*.v`, `PrecisionProofs.v`, `CsvProofs.v`, `PipelineProofs.v`, `LoaderProofs.v`, `StatsProofs.v` | decimal text, its precision, the CSV converter, the data set loader, statistics |
| `Harness*.v` | the experiment runner: patching, resuming, averages, output files, generated filters, the check of scales |
| `Ucr*.v` | the classification and the matrix experiments |
| `Iter*.v` | the record iterators, call by call |
| `Cuda*.v` | the matrix product on the GPU |
| `Report*.v` | tables of results by scheme and the embedding experiment |
| `*Spec.v` | small model-independent specification vocabulary used in statements |
| `*Summary.v` | lemmas restated in the form of the properties; samples and witnesses |
| `Properties*.v` | only the property theorems, their non-vacuity examples and `Print Assumptions` |

Model files hold definitions (each citing the source lines), `*Proofs.v` hold
lemmas.

## 3. Plan per property

| id | modelled as | proof |
|----|-------------|-------|
| C01-C03 | writer/reader state machines over byte lists | refinement to lists of booleans, induction over operations |
| C04-C07 | encoder and decoder step functions over the bit writer / reader | per-step simulation relation between encoder and decoder state; induction over the sequence |
| C08 | Elf wrapper with erase/recover arithmetic as oracle; later with SpecFloat arithmetic | same simulation, oracle hypothesis pointwise |
| C61 | the erase/recover arithmetic in SpecFloat; `log10` any function below 1e9, an accurate one (`log10_accurate`) from there on | Flocq: the decimal found rounds to the value; the erased value stays in its decade and less than one unit below the decimal, so rounding up finds it; within 9e-15 of a power of ten and from 1e15 on at most 4 bits could go, so nothing is erased |
| C62 | decimals as nearest f64s (`f64_of_decimal`), BUFF chunk as in C15 | the two neighbours of a nearest f64 bound its error by half its spacing u; truncation errs by at most one step minus u, so the sum stays below half a digit |
| C63 | the same with `bf_with_precision` | as C62 for decimals of at most n digits (partial); computed counterexamples for precision 0 and for more digits |
| C09 | same model, no NaN hypothesis | decode (encode xs) = prefix of xs before the first canonical NaN |
| C10-C12 | run-length and raw compressor states | induction, abstraction function "records held" |
| C13, C14 | quantiser as SpecFloat, zigzag/delta over Z with wrap | round trip on integers; refutation by witness for wide scales |
| C15-C17 | fixed point as integer arithmetic on exponent/mantissa; sub-column layout | round trip per sub-column; inequality over Z |
| C18, C19, C51 | byte-level (de)serialisers | round trip; exhaustive case analysis of codes |
| C20-C23 | driver loop with the reader as a schedule | induction over the input/schedule |
| C24-C27 | file as byte list, seeks as list surgery | composition of C18-C23 and codec round trip; witnesses for the false ones |
| C28-C34 | query loops over chunks, bitmaps as sets of N | refinement to a flat record list |
| C35, C36 | integer in-situ queries and reader state machine | equivalence on the grid; witnesses |
| C37-C41 | sub-column scans over candidate sets | invariants over the sub-column loop; witnesses |
| C42, C43 | reader/compressor as state machines | induction over histories; witness for Sprintz |
| C44, C45 | size functions | equality/inequality with real lengths |
| C46, C47 | expression trees, aggregation loops | structural induction |
| C48, C49 | loops over chunks | refinement when aligned; witnesses otherwise |
| C58, C59 | BUFF reader with its cache and precision | invariant over histories; C15 on the grid |
| C52, C60 | readers on arbitrary bytes; byte counters | progress of every read call, induction on the bits left; witnesses |
| C64, C65 | `experimenter/src/tpch.rs`: from Parquet cells (hundredths) through extraction, encoding, filters and `compute_multiple` to the result lists | composition of the file, filter and aggregation theorems; selections are exact on the grid of hundredths; each rounding multiplies by 1 +- 2^-53, counted along sums, products and quotients (Flocq); BUFF keeps exactly floor(256 z / 100) of z hundredths, so its runs end and answer for these amounts; witnesses for BUFF, NULLs and the order |
| C67, C68 | the decimal scanner and the precision detection of `experimenter/src/lib.rs` on bytes, the documents it reads as a grammar | scanning inverts spelling; the f64 comparison of the two counts with 0.01 is exact below 2^46 (Flocq); witness for upper-case exponents |
| C69 | csv2bin, detection, file and query models together | composition: the nearest f64 of a decimal quantises to its integer, and the quotient is nearest again |
| C70 | csv2bin with a buffered writer before a disk of limited room | invariant: disk and buffer are the bytes so far; witness |
| C71 | `slurp_file` and the scale it gets | rounding by a scale is nearest (Flocq); witnesses |
| C72 | `compute_stats` | folds; below 2^21 values no sum of exponents overflows; witness with 2099203 zeros, by induction |
| C73, C74 | the loops of `all_patch_command` over data sets, configurations and repetitions, with numbered calls, compressed files and saved documents as state, serde documents as trees | invariants of the loops; simulation between a run with and one without saved files |
| C75 | the three averages in f64 | relative error of sums and quotients (Flocq); witness with ten runs |
| C76 | saving as steps of processes on a shared directory, under any schedule | inductive invariants over schedules; witnesses |
| C77 | the check before each configuration, the greatest value of the records | f64 product is monotone (Flocq); witnesses |
| C78 | sorting, percentiles, writing, reading back and removing filter files | sorting is a permutation into order; counting; witness |
| C79 | one data set with one configuration: loading, encoding, statistics, materializing, searching each test vector, counting | composition of C24, C30, C48, C71; decimals are kept by every scheme but BUFF (Flocq); witness for BUFF |
| C80 | mapping and rounding the random numbers, encoding, the product | rounding errors (Flocq); every entry is kept (the 198 smallest decimals of Elf by computation); composition with C49; witnesses |
| C81 | `transpose`, `aggregate_per_compression_method` on association lists | induction over the data sets and their results |
| C82 | one run (encode, open, sizes, materialize, first bytes), ten runs of every configuration, all data sets | composition of C24, C30, C45 for the three kinds of readers; rounding of the places; witnesses |
| C83 | one call of `next` of the iterators of the XOR schemes, Uncompressed, RLE and DeltaSprintz | induction over the collected records; sticky end flags; a measure that every call lowers; witnesses |
| C84 | `len` and `size_hint` of the XOR iterators | invariance of the announced length and C04-C06 |
| C85 | the cursor of a reader between two iterators | the cursor after k calls; witnesses |
| C86 | matmul_cuda, the gemm of a reader, the bindings' size checks and configurations; cuBLAS's sum of an entry is a parameter | invariant of the loop over the matrices of the chunks; entries of a column-major product of swapped operands |
| C87 | matrix_cuda_command for one configuration | C86 on the files of C80; one entry of a witness |
| C66 | sizes in the statistics of the same runs | C24 and C45 per column |
| C50 | records of nine durations | componentwise |

Properties that turn out false of the faithful model get a `..._refuted`
theorem with a concrete witness, plus the strongest positive statement found.

## 4. Trusted base

* Coq 8.16.1's kernel, with `vm_compute` (used for examples and witnesses).
* That the definitions of the model files say what the Rust code does.  Each
  cites the lines it models; nothing else links the two.
* For the schemes Zstd, Gzip, Snappy and ALP: the hypothesis `faithful_libraries`,
  that the library's decoder inverts its encoder.
* For Elf from 1e9 on: the hypothesis `log10_accurate` on `f64::log10`.
* `SpecFloat` as a description of IEEE 754 binary64 with round-to-nearest-even
  and one NaN.  Payloads of NaNs produced by arithmetic are not modelled: they
  are taken to be the canonical NaN.
* The axioms listed in section 5.

### Modelled

* `ebi/src/io/bit_write.rs`, `ebi/src/io/bit_read.rs`: the buffered writer and reader.
* `ebi/src/compressor/`: gorilla, chimp, chimp_n (Chimp128), elf (both
  wrappers), run_length, uncompressed, sprintz, buff; zstd/gzip/snappy/ffi_alp up to the library call.
* `ebi/src/decoder/chunk_reader/`: the readers of those schemes, with their queries.
* `ebi/src/format*`, `ebi/src/encoder.rs`, `ebi/src/api/encoder.rs`,
  `ebi/src/decoder.rs`, `ebi/src/api/decoder.rs`: header, footer, configuration,
  the write loop under any read schedule, opening, the queries over files.
* `ebi/src/decoder/expr.rs` and, in `ebi/src/api/decoder.rs`, aggregations, knn1 and matmul.
* `matmul_cuda` (`ebi/src/api/decoder.rs`), `gemm` of a reader, the size checks and configurations of `cuda-binding/src/lib.rs`; how the
  library adds up an entry is an arbitrary function. `matrix_cuda_command` (`experimenter/src/matmul_cuda.rs`) for one configuration.
* The iterators behind `decompress_iter`: Uncompressed, XOR, RLE and DeltaSprintz; the others iterate over the decompressed slice.
* `experimenter/src/tpch.rs` (the three queries) with `get_compress_statistics` and
  the default configurations of `experimenter/src/lib.rs`; Parquet batches enter as lists of decimal columns.
* `all_patch_command`, `process_experiment_for_*`, `create_config_command`, `save_output_json` (`experimenter/src/main.rs`),
  `embedding_command`, `ucr2018_command`, `matrix_command` for one data set and configuration (`experimenter/src/main.rs`),
  the averages, `AllOutputInner` and `save_json_safely` (`experimenter/src/lib.rs`); measured times are an oracle.
* `get_appropriate_scale`, `get_appropriate_precision`, `round_by_scale` (`experimenter/src/lib.rs`), the default
  configurations and `slurp_file` (`experimenter/src/main.rs`), `csv2bin.rs`, `compute_stats` of `collect-stats.rs`;
  text is a list of ASCII bytes and `str::parse::<f64>` a function that rounds correctly where a theorem says so.

### Not modelled

* The insides of the zstd, flate2, snap and ALP libraries (functions that invert each other where a theorem says so).
* The f32 logarithm by which BUFF turns a scale into digits (a function `lg`, arbitrary).
* Wall-clock timers (their values are arbitrary arguments), allocation and its
  failure, performance, thread safety, errors of the output.
* Roaring bitmaps are sorted lists without duplicates.
* `unsafe` code is modelled by its effect (transmute, uninitialised buffers that
  are filled before they are read).
* The rest of the command-line tools, the benchmarks, opening a GPU and its buffers; writing and reading JSON.

## 5. Assumptions of the theorems

<!-- assumptions -->
`Print Assumptions` stands under every theorem of the `Properties*.v` files.
210 of them report `Closed under the global context`.  The others:

Axioms `ClassicalDedekindReals.sig_forall_dec`, `ClassicalDedekindReals.sig_not_dec`, `Classical_Prop.classic`, `FunctionalExtensionality.functional_extensionality_dep` (all from the standard library, through `Reals`), for:
* `C15_buff_returns_fixed_point_records`
* `C15_encoded_buff_files_are_stored`
* `C20_C23_C24_buff_files`
* `C27_buff_crash_partial`
* `C45_size_accounting_buff`
* `C16_buff_truncation_error`
* `C17_buff_reduced_precision`
* `C58_precision_may_change`
* `C59_fixed_grid_records_are_lossless`
* `C37_C38_matching_on_the_grid`
* `C39_buff_extremes`
* `C40_buff_chunk_sum_partial`
* `C40_buff_sum_partial`
* `C87_gpu_products_partial`
* `C87_gpu_differs_refuted`
* `C62_decimals_come_back`
* `C62_every_decimal_has_an_f64`
* `C63_precision_keeps_decimals_partial`
* `C63_precision_zero_refuted`
* `C61_elf_lossless_partial`
* `C61_elf_on_chimp_lossless_partial`
* `C61_storable_partial`
* `C61_elf_lossless_above_micro_partial`
* `C61_elf_on_chimp_lossless_above_micro_partial`
* `C61_storable_above_micro_partial`
* `C46_sprintz_files_hold`
* `C46_buff_files_hold`
* `C75_ratio_partial`
* `C75_throughput`
* `C75_throughput_refuted`
* `C77_nonnegative_partial`
* `C82_run_partial`
* `C82_command_partial`
* `C13_sprintz_returns_quantised_records`
* `C13_sprintz_debug_overflow_panics`
* `C13_encoded_sprintz_files_are_stored`
* `C14_sprintz_decodes_with_low_bits_of_scale`
* `C14_scale_is_kept_refuted`
* `C57_grid_records_are_lossless`
* `C57_grid_records_are_storable`
* `C30_sprintz_materialize_is_exact`
* `C35_sprintz_filter_on_grid`
* `C35_sprintz_filter_rounds_operands`
* `C36_sprintz_min_max_are_exact`
* `C36_sprintz_sum_of_integers`
* `C32_exact_sums`
* `C40_buff_exact_sums_partial`
* `C67_exact_precision`
* `C68_common_precision`
* `C69_text_through_sprintz`
* `C69_text_through_buff`
* `C71_loaded_series_partial`
* `C71_first_line_refuted`
* `C71_ten_digits_refuted`
* `C72_statistics_partial`
* `C64_revenue_partial`
* `C64_process_partial`
* `C64_run_partial`
* `C64_buff_low_refuted`
* `C65_q1_partial`
* `C65_simplified`
* `C65_run_partial`
* `C65_simplified_run`
* `C66_statistics`
* `C66_statistics_all`
* `C79_accuracy_partial`
* `C79_decimals_partial`
* `C79_schemes_agree_partial`
* `C79_files_partial`
* `C79_buff_refuted`
* `C80_products_partial`
<!-- end -->
