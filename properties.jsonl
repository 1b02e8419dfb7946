{"id": "C01", "title": "Bit writer / bit reader round trip", "statement": "After any sequence of write_bit, write_byte and write_bits(v,n) (n<=64) calls on a fresh writer, a reader over the produced bytes that performs the same sequence of read_bit / read_byte / read_bits(n) gets back every bit, every byte and the low n bits of every v, in order.", "quantifier": "all finite sequences of write operations, all widths 0..64, all u64 values (including values with bits above n set)", "why_tests_cant": "Alignment of the cursor inside a byte depends on the entire history of widths; there are unboundedly many histories.", "anchors": ["ebi/src/io/bit_write.rs: BufferedBitWriter.write_bit/.write_byte/.write_bits", "ebi/src/io/bit_read.rs: BufferedBitReader.read_bit/.read_byte/.read_bits"]}
{"id": "C02", "title": "Bit writer accounting and padding", "statement": "After any sequence of writes number_of_bits_written equals the sum of the widths, the buffer has ceil(bits/8) bytes, and all padding bits after the last written bit are zero.", "quantifier": "all finite sequences of write operations", "why_tests_cant": "Needs an invariant over all histories, not a sample of them.", "anchors": ["ebi/src/io/bit_write.rs: BufferedBitWriter.number_of_bits_written/.as_slice"]}
{"id": "C03", "title": "Bit reader end-of-data behaviour", "statement": "read_bit/read_byte/read_bits(n) return a value exactly when at least that many bits are left and otherwise return nothing; a multi-bit read that reports exhaustion leaves the position unchanged; peak_bits never moves the position; skip_bits(n) followed by a read equals discarding n bits.", "quantifier": "all buffers, all cursor positions within the buffer, all n", "why_tests_cant": "Boundary conditions at every (byte position, bit position, width) combination.", "anchors": ["ebi/src/io/bit_read.rs: BufferedBitReader.read_bits/.read_byte/.peak_bits/.skip_bits"]}
{"id": "C04", "title": "Gorilla is lossless", "statement": "Compressing a chunk with Gorilla and decompressing the produced bytes returns the same sequence of f64 bit patterns, provided no element is the canonical NaN 0x7ff8000000000000.", "quantifier": "all non-empty sequences of 64-bit patterns without the canonical NaN, of any length", "why_tests_cant": "The window reuse decision depends on the full history of leading/trailing zero counts; 2^64 values per element.", "anchors": ["ebi/src/compressor/gorilla.rs", "ebi/src/decoder/chunk_reader/gorilla.rs", "ebi/src/compressor/general_xor.rs", "ebi/src/decoder/chunk_reader/general_xor.rs"]}
{"id": "C05", "title": "Chimp is lossless", "statement": "Compressing a chunk with Chimp and decompressing returns the same sequence of f64 bit patterns, provided no element is the canonical NaN.", "quantifier": "all non-empty sequences of 64-bit patterns without the canonical NaN", "why_tests_cant": "Same as Gorilla: stateful variable-length code over unbounded histories.", "anchors": ["ebi/src/compressor/chimp.rs", "ebi/src/decoder/chunk_reader/chimp.rs"]}
{"id": "C06", "title": "Chimp128 is lossless", "statement": "Compressing a chunk with Chimp128 and decompressing returns the same sequence of f64 bit patterns, provided no element is the canonical NaN.", "quantifier": "all non-empty sequences of 64-bit patterns without the canonical NaN, including those longer than the 128-entry window", "why_tests_cant": "The reference value comes from a 128-entry ring reached through a 2^14-entry index that may be stale; correctness is about all histories.", "anchors": ["ebi/src/compressor/chimp_n.rs", "ebi/src/decoder/chunk_reader/chimp_n.rs"]}
{"id": "C07", "title": "Elf XOR stage is lossless", "statement": "The Elf XOR bit code (the stage after erasure) decodes to exactly the sequence of patterns it was given when none is the canonical NaN (release build arithmetic).", "quantifier": "all non-empty sequences of 64-bit patterns without the canonical NaN", "why_tests_cant": "Stateful variable-length code over unbounded histories.", "anchors": ["ebi/src/compressor/elf.rs: ElfXorEncoder", "ebi/src/decoder/chunk_reader/elf.rs: ElfXorDecoder"]}
{"id": "C08", "title": "Elf / ElfOnChimp framing is lossless", "statement": "Compressing a chunk with Elf (or ElfOnChimp) and decompressing returns each value unchanged whenever the erase/recover arithmetic recovers each individually erased value; NaNs excluded.", "quantifier": "all non-empty sequences of patterns; all choices of erased value for which recovery is pointwise correct", "why_tests_cant": "The 0/10/11 flag protocol carries the last beta* across values; unbounded histories.", "anchors": ["ebi/src/compressor/elf.rs: ElfEncoderWrapper", "ebi/src/decoder/chunk_reader/elf.rs", "ebi/src/compression_common/elf.rs"]}
{"id": "C09", "title": "A canonical NaN truncates XOR-coded chunks at exactly that record", "statement": "For Gorilla, Chimp, Chimp128 (and the Elf XOR stage) decompression returns exactly the records before the first canonical NaN; so the claim 'every f64 sequence round-trips' is false for these schemes.", "quantifier": "all sequences of 64-bit patterns", "why_tests_cant": "Tests show one truncation; the characterisation ranges over all sequences.", "anchors": ["ebi/src/compressor/gorilla.rs: close", "ebi/src/decoder/chunk_reader/gorilla.rs", "ebi/src/decoder/chunk_reader/chimp.rs", "ebi/src/decoder/chunk_reader/chimp_n.rs"]}
{"id": "C10", "title": "RLE is lossless", "statement": "Compressing a non-empty chunk with RLE and decompressing gives back the same bit patterns (including NaNs and signed zeros); every stored run has length between 1 and 255, and adjacent runs hold different values unless the first is full.", "quantifier": "all non-empty sequences of 64-bit patterns of any length", "why_tests_cant": "Runs across the 255 boundary and arbitrary mixes; unbounded lengths.", "anchors": ["ebi/src/compressor/run_length.rs", "ebi/src/decoder/chunk_reader/run_length.rs"]}
{"id": "C11", "title": "RLE append and rewind", "statement": "append_compress after compress is equivalent to compressing the concatenation; rewind(n) on a compressor with an unclosed chunk of m records succeeds exactly when n <= m, in which case the compressor behaves as if only the first m-n records had been compressed, and otherwise leaves the contents unchanged; once the chunk is closed, or empty, rewind fails.", "quantifier": "all sequences of compress/append/rewind/prepare/reset calls, all records, all n", "why_tests_cant": "Interacts with run boundaries and the 255 limit for every n.", "anchors": ["ebi/src/compressor/run_length.rs: append_compress, rewind"]}
{"id": "C12", "title": "Uncompressed scheme is lossless; rewind drops records", "statement": "Uncompressed chunks decode to the same bit patterns, by decompress and by the iterator; rewind(n) drops exactly the last n records from what will be written, or answers false and drops nothing when there are fewer.", "quantifier": "all inputs; all histories of compress, append, rewind, prepare and reset", "why_tests_cant": "All inputs and histories.", "anchors": ["ebi/src/compressor/uncompressed.rs", "ebi/src/decoder/chunk_reader/uncompressed.rs"]}
{"id": "C13", "title": "DeltaSprintz stores the quantised integers exactly", "statement": "For every sequence of records, decompressing a DeltaSprintz chunk written with scale s < 2^32 yields, for each record x, (round(x*s) as i64) as f64 / s.", "quantifier": "all non-empty sequences of f64, all scales 1 <= s < 2^32, including wrap-around deltas", "why_tests_cant": "Bit width depends on the maximum zigzag delta of the entire chunk; i64 extremes.", "anchors": ["ebi/src/compressor/sprintz.rs", "ebi/src/decoder/chunk_reader/sprintz.rs"]}
{"id": "C14", "title": "DeltaSprintz scale field width", "statement": "The scale given in the configuration is the one used for decoding. (False for scales >= 2^32: only 32 bits are stored.)", "quantifier": "all u64 scales", "why_tests_cant": "Ranges over all scales.", "anchors": ["ebi/src/compressor/sprintz.rs: write_bits(scale, 32)"]}
{"id": "C15", "title": "BUFF stores the fixed-point integers exactly", "statement": "For every non-empty sequence of in-range values, decompressing a BUFF chunk yields, for each record, its fixed-point integer (value truncated toward zero to the configured number of fractional bits) divided by 2^fractional_bits.", "quantifier": "all non-empty sequences of values whose fixed-point representation fits; all precisions 0..12", "why_tests_cant": "Number and shape of sub-columns depends on the range of the entire chunk (0..63 bits).", "anchors": ["ebi/src/compressor/buff.rs", "ebi/src/compression_common/buff.rs", "ebi/src/decoder/chunk_reader/buff/decode.rs"]}
{"id": "C16", "title": "BUFF truncation error bound", "statement": "The fixed-point value of an in-range f64 never exceeds it in magnitude, has the same sign, and differs from it by less than 2^-fractional_bits.", "quantifier": "all finite f64 bit patterns in range, all fractional bit counts used", "why_tests_cant": "2^64 inputs.", "anchors": ["ebi/src/compression_common/buff.rs: into_fixed_representation"]}
{"id": "C17", "title": "BUFF controlled-precision decoding bound", "statement": "Decoding with a reduced precision p returns for each record a fixed-point value not larger than the exact one and smaller by less than 2^(fractional_bits - bits(p)); when p is at least the stored precision the result is the exact one.", "quantifier": "all chunks, all records, all p in the precision table", "why_tests_cant": "All bit lengths and all sub-column layouts.", "anchors": ["ebi/src/decoder/chunk_reader/buff/controlled_precision.rs", "ebi/src/decoder/chunk_reader/buff/decode.rs"]}
{"id": "C18", "title": "File header round trip", "statement": "Parsing the 30 serialised header bytes returns the same field type, scheme, chunk option, footer offset and version; every u8 that is not a known scheme/field-type/chunk-option code is rejected with the corresponding error.", "quantifier": "all headers; all 30-byte strings for the rejection half", "why_tests_cant": "All values of all fields.", "anchors": ["ebi/src/format.rs: FileHeader, FileConfig", "ebi/src/format/serialize.rs", "ebi/src/format/deserialize.rs"]}
{"id": "C19", "title": "File footer and compressor configuration round trip", "statement": "Parsing the serialised footer of a file with at least one chunk returns the same record count, chunk count, chunk offsets, compressor configuration, elapsed time and segmented times (a footer without chunks is C25).", "quantifier": "all footers with one or more chunks and any configuration of any scheme", "why_tests_cant": "Unbounded number of chunks.", "anchors": ["ebi/src/format.rs", "ebi/src/format/native.rs", "ebi/src/format/serialize.rs", "ebi/src/format/deserialize.rs", "ebi/src/compressor.rs: CompressorConfig"]}
{"id": "C20", "title": "Chunking partitions the input", "statement": "The chunks written are non-empty, their concatenation is exactly the input records (input bytes truncated to a multiple of 8), and each chunk respects the record limit of the chunk option (all but the last are full for RecordCount).", "quantifier": "all inputs, all chunk options with a positive limit", "why_tests_cant": "All lengths modulo all chunk sizes.", "anchors": ["ebi/src/encoder.rs: ChunkWriter::write, FileWriter", "ebi/src/api/encoder.rs: Encoder::encode"]}
{"id": "C21", "title": "Input delivery schedule does not matter", "statement": "The encoded chunks do not depend on how the input reader splits its data into short reads.", "quantifier": "all inputs, all schedules of short reads (each read returning any positive number of bytes)", "why_tests_cant": "Quantifies over schedules of the reader.", "anchors": ["ebi/src/encoder.rs: read_less_or_equal"]}
{"id": "C22", "title": "Interrupted reads do not lose data", "statement": "A read interrupted by a signal (ErrorKind::Interrupted) is retried without losing bytes. (False: bytes already read are truncated to a multiple of 8.)", "quantifier": "all schedules containing Interrupted errors", "why_tests_cant": "Depends on the point of the interrupt.", "anchors": ["ebi/src/encoder.rs: read_less_or_equal"]}
{"id": "C23", "title": "Chunk index is correct", "statement": "In the finished file, entry i of the chunk index holds the file position where chunk i starts and the number of records before it; the recorded number of records, number of chunks and footer offset equal the true ones, and consecutive chunks are contiguous from byte 30 to the footer.", "quantifier": "all inputs, chunk options and codecs", "why_tests_cant": "Unbounded number of chunks of data-dependent size.", "anchors": ["ebi/src/encoder.rs: FileContext, write_footer", "ebi/src/decoder.rs: GeneralChunkHandle"]}
{"id": "C24", "title": "Whole-file round trip", "statement": "Encoding any non-empty record sequence with a lossless scheme and then opening the file and materialising everything writes exactly the input bytes.", "quantifier": "all non-empty record sequences (NaN-free for XOR schemes), all positive chunk limits, all lossless schemes", "why_tests_cant": "End-to-end over all sizes and chunkings.", "anchors": ["ebi/src/api/encoder.rs: Encoder::encode", "ebi/src/api/decoder.rs: Decoder::new, materialize", "ebi/src/decoder.rs"]}
{"id": "C25", "title": "A file encoded from an empty input can be opened", "statement": "Decoder::new succeeds on every file Encoder::encode produced. (False: with zero chunks fetch_footer indexes an empty buffer and panics.)", "quantifier": "all inputs including the empty one", "why_tests_cant": "Edge case of a universally quantified claim.", "anchors": ["ebi/src/decoder.rs: fetch_footer"]}
{"id": "C26", "title": "A zero chunk limit loses no data", "statement": "Every chunk option either stores all records or reports an error. (False: RecordCount(0) and ByteSizeBestEffort(0) produce a file with no records and no error.)", "quantifier": "all chunk options, all inputs", "why_tests_cant": "Edge case of a universally quantified claim.", "anchors": ["ebi/src/encoder.rs: ChunkWriter::write"]}
{"id": "C27", "title": "Crash during encoding is detected when opening", "statement": "A file left by an encode that stopped before the footer offset was patched into the header is never opened as a valid file containing data. (False in general: the offset is 0 and the header itself is then parsed as a footer.)", "quantifier": "all crash points (prefixes of the write sequence)", "why_tests_cant": "Quantifies over crash points.", "anchors": ["ebi/src/api/encoder.rs: encode", "ebi/src/decoder.rs: seek_to_footer, fetch_footer"]}
{"id": "C28", "title": "Predicate semantics", "statement": "Predicate evaluation on f64 follows IEEE comparison: Eq(v)/Ne(v)/Range with inclusive, exclusive or missing bounds; NaN satisfies only Ne and the unbounded range, and no value other than via Ne/unbounded matches a NaN bound.", "quantifier": "all f64 pairs, all predicate shapes", "why_tests_cant": "2^128 pairs, including NaN, infinities and signed zeros.", "anchors": ["ebi/src/decoder/query.rs: PredicateImpl::eval, RangeImpl::eval"]}
{"id": "C29", "title": "Filter result is exact and independent of chunking", "statement": "For schemes using the default filter, filter(pred, mask) on a file with fewer than 2^32 records returns exactly the set of record numbers i such that mask allows i and the i-th value satisfies pred.", "quantifier": "all files, masks, predicates, chunkings", "why_tests_cant": "Record numbers are global while chunks are processed separately, chunks are skipped when the mask does not intersect them.", "anchors": ["ebi/src/api/decoder.rs: Decoder::filter", "ebi/src/decoder/query.rs: default_filter"]}
{"id": "C30", "title": "Materialize and filter_materialize are exact", "statement": "materialize(mask) writes exactly the selected values in record order; filter_materialize(pred, mask) writes the same bytes as materialize with the mask filter(pred, mask).", "quantifier": "all files, masks, predicates, chunkings", "why_tests_cant": "As for filter.", "anchors": ["ebi/src/api/decoder.rs: materialize, filter_materialize", "ebi/src/decoder/query.rs"]}
{"id": "C31", "title": "Min and max are exact", "statement": "For default-query schemes min(mask)/max(mask) of a file equals the minimum/maximum of the selected non-NaN values (+inf / -inf if there are none) regardless of chunking.", "quantifier": "all files, masks, chunkings", "why_tests_cant": "All value sequences including NaN and infinities.", "anchors": ["ebi/src/api/decoder.rs: min, max", "ebi/src/decoder/query.rs: default_min, default_max"]}
{"id": "C32", "title": "Sum is the chunk-wise IEEE sum", "statement": "sum(mask) equals adding, in chunk order, the left-to-right IEEE sum of the selected values of each chunk. With a single chunk it equals the plain left-to-right sum, and so it does over any number of chunks when the selected values are multiples of one power of two whose magnitudes add up to at most 2^53 of it; then it is the exact sum.", "quantifier": "all files, masks, chunkings", "why_tests_cant": "Floating-point addition is not associative; claim is about all sequences.", "anchors": ["ebi/src/api/decoder.rs: sum", "ebi/src/decoder/query.rs: default_sum"]}
{"id": "C33", "title": "Chunk selection and chunk skipping are sound", "statement": "Restricting a query to ChunkId k gives the result for exactly the records of chunk k (nothing if out of range), and skipping chunks that do not intersect the mask never changes a result.", "quantifier": "all files, masks, k", "why_tests_cant": "All combinations.", "anchors": ["ebi/src/api/decoder.rs", "ebi/src/decoder.rs: logical_record_range_u32"]}
{"id": "C34", "title": "Record numbers beyond 2^32", "statement": "Filters on files with more than 2^32 records report the right record numbers. (False: numbers are truncated to u32.)", "quantifier": "all record counts", "why_tests_cant": "Files too large to test.", "anchors": ["ebi/src/decoder/query.rs: record_offset as u32", "ebi/src/decoder.rs: logical_record_range_u32"]}
{"id": "C35", "title": "DeltaSprintz in-situ filter agrees with decoded values", "statement": "filter on a DeltaSprintz chunk selects the records whose decoded value satisfies the predicate. (False for predicate constants off the quantisation grid; true on it, within the exactly representable range.)", "quantifier": "all chunks, predicates, masks", "why_tests_cant": "All constants and chunks.", "anchors": ["ebi/src/decoder/chunk_reader/sprintz.rs: filter"]}
{"id": "C36", "title": "DeltaSprintz in-situ min/max/sum agree with decoded values", "statement": "min, max and sum computed on quantised integers agree with the quantised integers of the selected records, whatever was called on the reader before. (min is false once the chunk has been decompressed: it returns the max; sum returns NaN for a non-empty mask that misses the chunk.)", "quantifier": "all chunks, masks, call histories", "why_tests_cant": "Histories of calls.", "anchors": ["ebi/src/decoder/chunk_reader/sprintz.rs: min, max, sum"]}
{"id": "C37", "title": "BUFF in-situ equality filter", "statement": "filter Eq/Ne on a BUFF chunk selects exactly the masked records whose fixed-point integer equals that of the constant. (False when constant - base does not fit the chunk's bit width, and the mask is ignored on constant chunks.)", "quantifier": "all chunks, constants, masks", "why_tests_cant": "Layout depends on the chunk's range; constants range over f64.", "anchors": ["ebi/src/decoder/chunk_reader/buff/filter_eq.rs", "ebi/src/decoder/chunk_reader/buff/filter.rs"]}
{"id": "C38", "title": "BUFF in-situ range filter", "statement": "filter Range on a BUFF chunk selects exactly the masked records whose fixed-point integer satisfies the bounds mapped to fixed point. (False where the whole chunk qualifies: the mask is ignored.)", "quantifier": "all chunks, bounds, masks", "why_tests_cant": "As above.", "anchors": ["ebi/src/decoder/chunk_reader/buff/filter_cmp.rs"]}
{"id": "C39", "title": "BUFF in-situ min/max", "statement": "min/max on a BUFF chunk equal the min/max of the fixed-point integers of the masked records.", "quantifier": "all chunks, masks", "why_tests_cant": "Candidate-set pruning per sub-column; all layouts.", "anchors": ["ebi/src/decoder/chunk_reader/buff/min_max.rs"]}
{"id": "C40", "title": "BUFF in-situ sum", "statement": "sum on a BUFF chunk equals the integer sum of the masked records' fixed-point integers divided by 2^fractional_bits. (False on constant chunks with a mask.)", "quantifier": "all chunks, masks", "why_tests_cant": "As above.", "anchors": ["ebi/src/decoder/chunk_reader/buff/sum.rs"]}
{"id": "C41", "title": "BUFF SIMD path equals the scalar path", "statement": "Signed byte comparison of flipped bytes in aligned 32-byte blocks plus scalar head and tail selects the same records as the scalar comparison, for every chunk offset and length.", "quantifier": "all byte columns, offsets, lengths, comparison operators", "why_tests_cant": "All alignments.", "anchors": ["ebi/src/decoder/chunk_reader/buff/filter_eq.rs", "ebi/src/decoder/chunk_reader/buff/filter_cmp.rs", "ebi/src/compression_common/buff.rs: flip"]}
{"id": "C42", "title": "Query answers do not depend on reader history", "statement": "On one chunk reader any query returns the same answer whatever queries were made before. (True for readers that always go through the cached decompression; false for DeltaSprintz.)", "quantifier": "all finite sequences of queries", "why_tests_cant": "Unbounded histories.", "anchors": ["ebi/src/decoder/chunk_reader.rs: default_decompress", "ebi/src/decoder/chunk_reader/sprintz.rs"]}
{"id": "C43", "title": "Compressor reuse", "statement": "The bytes a compressor produces for a chunk depend only on that chunk, not on chunks compressed before with the same compressor object.", "quantifier": "all finite sequences of chunks, all schemes modelled", "why_tests_cant": "Unbounded histories of stateful compressors.", "anchors": ["ebi/src/compressor/*.rs: reset/compress", "ebi/src/api/encoder.rs"]}
{"id": "C44", "title": "Size estimate of buffered data", "statement": "total_bytes_buffered reported before a chunk is closed is the number of bytes the closed chunk will occupy (exact for Chimp128, Uncompressed, RLE; an upper bound by at most one byte for Gorilla, Chimp, Elf and ElfOnChimp).", "quantifier": "all sequences", "why_tests_cant": "All bit alignments.", "anchors": ["ebi/src/compressor/general_xor.rs: total_bytes_buffered, simulate_close", "ebi/src/compressor/chimp_n.rs"]}
{"id": "C45", "title": "Size accounting of an opened file", "statement": "total_file_size, total_chunk_size, per-chunk sizes and record counts reported by the decoder equal the real sizes of the encoded file and its parts.", "quantifier": "all encoded files", "why_tests_cant": "All inputs.", "anchors": ["ebi/src/api/decoder.rs: footer_size, total_file_size, total_chunk_size", "ebi/src/decoder.rs: chunk_size, number_of_records"]}
{"id": "C46", "title": "Expression evaluation", "statement": "Evaluating an expression on a chunk of several columns returns, for each selected row, the value of the expression on the column values of that row, provided every operation has an operand that is not a literal; every other expression over existing columns is rejected with an error. The readers can be used for further evaluations.", "quantifier": "all expressions, all tables, all masks, files of all schemes", "why_tests_cant": "Recursive over expression trees and reader histories.", "anchors": ["ebi/src/decoder/expr.rs: Expr::compute_chunk", "ebi/src/api/decoder.rs"]}
{"id": "C47", "title": "Aggregation semantics", "statement": "Aggregation::compute returns the values, the maximum, the minimum or the chunk-wise sum of the expression's values over the selected rows, and compute_multiple returns the same results as computing each aggregation separately. (False for kind None of a bare column, which panics.)", "quantifier": "all lists of aggregations, tables (files with the same chunking), masks", "why_tests_cant": "Lists of expressions and chunks.", "anchors": ["ebi/src/api/decoder.rs: Aggregation, AggregationResult"]}
{"id": "C48", "title": "knn1 returns a nearest vector", "statement": "knn1(target) returns the index of a vector at minimal squared distance. (True when chunk sizes are multiples of the vector length; false otherwise: the remainder of a vector split across chunks is re-read as the start of the next one.)", "quantifier": "all data, targets, chunkings", "why_tests_cant": "Depends on chunk/vector alignment.", "anchors": ["ebi/src/api/decoder.rs: knn1"]}
{"id": "C49", "title": "matmul is the matrix product", "statement": "matmul returns every dot product of every data row with every target column when every chunk holds whole matrices; shape mismatches are rejected. (False when matrices straddle chunks: silently truncated dot products.)", "quantifier": "all shapes, data, chunkings", "why_tests_cant": "Alignment of batches and chunks.", "anchors": ["ebi/src/api/decoder.rs: matmul"]}
{"id": "C50", "title": "Timing segments", "statement": "Segmented execution times survive being written to and read from the footer, and accumulating times is associative and commutative component-wise.", "quantifier": "all durations representable", "why_tests_cant": "All 128-bit nanosecond counts.", "anchors": ["ebi/src/time.rs"]}
{"id": "C51", "title": "Opening arbitrary bytes", "statement": "Decoder::new on arbitrary bytes returns either a decoder or an error, and parses only bytes inside the file; it panics only in the characterised cases.", "quantifier": "all byte strings", "why_tests_cant": "All byte strings.", "anchors": ["ebi/src/decoder.rs: fetch_header, fetch_footer", "ebi/src/format/deserialize.rs"]}
{"id": "C52", "title": "Decoding arbitrary chunk bytes", "statement": "Decoding any byte string as a chunk of a scheme returns records or an error: it terminates and does not panic (except in characterised cases).", "quantifier": "all byte strings, all schemes", "why_tests_cant": "Corrupted input space is unbounded; fuzzing only samples it.", "anchors": ["ebi/src/decoder/chunk_reader/*.rs: new, decompress, decompress_iter"]}
{"id": "C53", "title": "Foreign or damaged files are recognised", "statement": "Opening a file whose magic number or checksum is wrong is an error.", "quantifier": "all byte strings", "why_tests_cant": "All byte strings.", "anchors": ["ebi/src/decoder.rs: fetch_header, fetch_footer", "ebi/src/format/deserialize.rs"]}
{"id": "C54", "title": "An input that is not a whole number of records is reported", "statement": "Encoding an input whose length is not a multiple of eight bytes is an error. (False: one to seven stray bytes at the end are dropped silently.)", "quantifier": "all inputs, all chunk options, all schemes", "why_tests_cant": "Every input length and schedule.", "anchors": ["ebi/src/encoder.rs: read_less_or_equal, ChunkWriter::write"]}
{"id": "C55", "title": "Encoding ends for every behaviour of the input", "statement": "Whatever mixture of short reads, interruptions, errors and ends of file the input produces, Encoder::encode terminates, with success or an IO error, and does not panic.", "quantifier": "all finite read schedules including failures, all usable chunk options, all modelled schemes", "why_tests_cant": "Schedules are unbounded.", "anchors": ["ebi/src/api/encoder.rs: encode", "ebi/src/encoder.rs: ChunkWriter::write, read_less_or_equal"]}
{"id": "C56", "title": "Moving the write cursor", "statement": "Moving the write cursor of the bit writer to bit n keeps the first n bits written (zero bits are appended if there are fewer), drops everything after them, and later writes append at bit n.", "quantifier": "all write histories and all cursor positions", "why_tests_cant": "All sequences of writes and positions, at every bit alignment.", "anchors": ["ebi/src/io/bit_write.rs: BufferedBitWriter::set_cursor_at_in_bit"]}
{"id": "C57", "title": "DeltaSprintz keeps the numbers on its grid", "statement": "Under scale s < 2^32, DeltaSprintz returns bit for bit every record that is the quotient k / s of an integer |k| < 2^51 (for s a power of ten: every decimal number with that many digits after the point), chunk by chunk and through whole files.", "quantifier": "all sequences of such records, all scales 1 <= s < 2^32, debug and release builds", "why_tests_cant": "Rounding of x*s and of k/s must cancel for every k and s.", "anchors": ["ebi/src/compressor/sprintz.rs", "ebi/src/decoder/chunk_reader/sprintz.rs"]}
{"id": "C58", "title": "The precision of a BUFF reader may be changed at any time", "statement": "On one BUFF chunk reader, after any sequence of queries and changes of precision (0..12 digits), decompressing returns every record with at least the fractional bits of the precision set last.", "quantifier": "all in-range chunks, all finite sequences of queries and precision changes", "why_tests_cant": "The reader caches decoded records; whether the cache is stale depends on the whole history.", "anchors": ["ebi/src/decoder/chunk_reader/buff.rs: BUFFReader::with_controlled_precision, decompress", "ebi/src/decoder/query.rs"]}
{"id": "C59", "title": "BUFF is lossless on multiples of 2^-f", "statement": "Records that are multiples of 2^-f, f the fractional bits of the configured precision, come back equal as numbers.", "quantifier": "all non-empty in-range chunks of such records, all precisions, debug and release builds", "why_tests_cant": "Depends on the exact rounding of every f64 operation for every value.", "anchors": ["ebi/src/compressor/buff.rs", "ebi/src/decoder/chunk_reader/buff.rs"]}
{"id": "C60", "title": "Input byte accounting", "statement": "After compressing a chunk, total_bytes_in of the compressor is the size of that chunk (8 bytes per record), whatever the compressor was used for before; rewinding lowers it by the records dropped.", "quantifier": "all compressors, histories and chunks", "why_tests_cant": "Depends on the history of the compressor.", "anchors": ["ebi/src/compressor.rs: Compressor::total_bytes_in", "ebi/src/compressor/zstd.rs", "ebi/src/compressor/buff.rs", "ebi/src/compressor/uncompressed.rs: rewind"]}
{"id": "C61", "title": "Elf and ElfOnChimp lose no bit", "statement": "Compressing with Elf or ElfOnChimp and decompressing returns every chunk of values that are not NaN bit for bit, whatever the precision register held and whatever the values before were.", "quantifier": "all chunks of non-NaN f64 patterns, all encoder states, any log10", "why_tests_cant": "The erased mantissa bits depend on a decimal search in floating-point arithmetic; exactness has to hold for about 2^56 patterns and 17 register values each.", "anchors": ["ebi/src/compression_common/elf.rs: get_alpha_and_beta_star, get_significant_count, round_up", "ebi/src/compressor/elf.rs: add_value", "ebi/src/decoder/chunk_reader/elf.rs: recover_v_by_beta_star"]}
{"id": "C62", "title": "BUFF gives decimals back", "statement": "Records that are decimals with no more digits after the point than the scale asks for (and at most 15 significant digits) come back from a BUFF chunk as values that round to the same decimals.", "quantifier": "all scales with 0 to 12 digits, all non-empty chunks of such decimals, both builds, any logarithm of the scale", "why_tests_cant": "Truncation and binary rounding errors combine; whether their sum stays below half a digit must hold for 10^15 decimals at each of 13 scales.", "anchors": ["ebi/src/compression_common/buff.rs: precision map, fixed-point conversion", "ebi/src/compressor/buff.rs: compress", "ebi/src/decoder/chunk_reader/buff.rs: decompress"]}
{"id": "C63", "title": "Controlled precision rounds to the originals", "statement": "Values materialised with precision n, rounded to n decimal digits, equal the original values rounded to n decimal digits.", "quantifier": "all chunks, scales and precisions", "why_tests_cant": "The bits dropped depend on the smallest and largest record of the chunk.", "anchors": ["ebi/src/api/decoder.rs: Decoder::precision, with_precision", "ebi/src/decoder/chunk_reader/buff.rs: with_precision, decompress"]}
{"id": "C64", "title": "TPC-H query 6 reports the revenue", "statement": "For a lineitem table given as Parquet batches, the query 6 run of every compression scheme reports the sum of price times discount over the rows with a discount from 0.05 to 0.07 and a quantity below 24, up to the rounding errors of the additions (a relative error of at most 2^-27).", "quantifier": "all tables with at least one and fewer than 2^32 rows of non-negative hundredths up to 10^9 (discounts up to 100%), cut into batches in any way, columns in any order, all 13 schemes, both builds", "why_tests_cant": "Whether 0.05 as f64 passes a filter on decoded values, and how rounding errors accumulate, depends on every value, every chunk boundary and every scheme's in-situ filter.", "anchors": ["experimenter/src/tpch.rs: process_h06, get_h06_predicate, h06_aggregations, extract_columns", "ebi/src/api/decoder.rs: Aggregation::compute_multiple, Decoder::filter"]}
{"id": "C65", "title": "TPC-H query 1 reports its aggregates", "statement": "The query 1 run of every compression scheme reports the four sums, the three averages and the count of the table in the order of the SELECT list (sum_qty, sum_base_price, sum_disc_price, sum_charge, avg_qty, avg_price, avg_disc, count), each with a relative error of at most 2^-27, and names each average as it is; the simplified query likewise reports its two sums, three averages and the count.", "quantifier": "all tables as in C64, all 13 schemes", "why_tests_cant": "The positions are shuffled by pushes and swaps; the errors accumulate over all rows and chunks.", "anchors": ["experimenter/src/tpch.rs: process_h01, process_h01_simplified, h01_aggregations, h01_simplified_aggregations"]}
{"id": "C66", "title": "TPC-H statistics state the true sizes", "statement": "Every decimal column of the input is encoded exactly once; its statistics state eight bytes per row as uncompressed size, the length of the encoded file, and the length of the chunks (the file without header and footer).", "quantifier": "all tables as in C64, all schemes but BUFF, files below 2^63 bytes", "why_tests_cant": "Sizes come from the footer written at the end of the run; they must agree with what was written for every input.", "anchors": ["experimenter/src/tpch.rs: process_h06, process_h01", "experimenter/src/lib.rs: get_compress_statistics"]}
{"id": "C67", "title": "Exact precision detection loses no digit", "statement": "With exact precision, the detected precision p of a CSV document is sufficient (every number in it is an integer over 10^p) and not larger than needed (p is 0 or the number of decimal places of some number in it).", "quantifier": "all documents with lines ending in LF or CRLF, empty cells and blanks around numbers, separated by commas or tabs, numbers with optional sign, fraction and exponent (below 2^31)", "why_tests_cant": "The precision is taken from the text of every field by hand-written scanning; any combination of point, exponent, sign and blanks can occur.", "anchors": ["experimenter/src/lib.rs: get_appropriate_precision, get_decimal_precision"]}
{"id": "C68", "title": "The common precision fails for fewer than one value in a hundred", "statement": "Without exact precision, fewer than 1 % of the numbers have more decimal places than the detected precision, and no smaller precision will do (at least 1 % of the numbers have that many places, unless it is 0); the detected scale is that power of ten, or an error beyond 10^9; the generated default configurations contain DeltaSprintz and BUFF with exactly that scale when it fits in 64 bits.", "quantifier": "all documents as in C67", "why_tests_cant": "The decision compares an f64 quotient of two counts with 0.01; whether it is right at the boundary for all pairs of counts is arithmetic.", "anchors": ["experimenter/src/lib.rs: get_appropriate_precision, get_appropriate_scale", "experimenter/src/main.rs: create_default_compressor_config"]}
{"id": "C69", "title": "Decimal text survives conversion, encoding and decoding", "statement": "A CSV document converted to binary, encoded with the detected scale and read back with materialize gives for each number of the text the nearest f64 (DeltaSprintz, up to 9 places) or a value that rounds to the number (BUFF, up to 12 places), in order.", "quantifier": "all documents as in C67 with fewer than 2^32 numbers of bounded magnitude, all chunkings, all read schedules, debug and release", "why_tests_cant": "Detection, conversion, quantisation, chunking and decoding must fit together for every text.", "anchors": ["experimenter/src/lib.rs: get_appropriate_precision", "tools/src/csv2bin.rs: process_file", "ebi/src/api/encoder.rs: Encoder::encode", "ebi/src/api/decoder.rs: Decoder::materialize"]}
{"id": "C70", "title": "The CSV converter writes everything or reports failure", "statement": "csv2bin reports success exactly when all fields are numbers and its output file holds all of them (eight little-endian bytes each, in reading order); otherwise it reports failure and leaves no file.", "quantifier": "all documents, all disks that stop taking bytes at some point", "why_tests_cant": "Failures of the disk at every byte.", "anchors": ["tools/src/csv2bin.rs: process_file"]}
{"id": "C71", "title": "The data set loader loads every series", "statement": "Loading a UCR file gives, for each line, its label and its values rounded to the detected number of decimal places (less than one unit of the last place away, and unchanged if they have no more places).", "quantifier": "all tables of tab-separated numbers, all detected precisions", "why_tests_cant": "Scales pass through several integer types; any line and any precision.", "anchors": ["experimenter/src/main.rs: slurp_file, ucr2018_command"]}
{"id": "C72", "title": "Data set statistics are what they are called", "statement": "The statistics of a data set report its greatest and least value, the greatest, least and average exponent, the average number of leading and trailing zeros of the xor of neighbours, the ratio of repeated values and the number of values.", "quantifier": "all lists of f64 values", "why_tests_cant": "Sums over all values in fixed-width integers; NaN anywhere.", "anchors": ["tools/src/collect-stats.rs: compute_stats, xor_front_trail_stats, get_non_unique_value_ratio, mean_i32"]}
{"id": "C73", "title": "Patching measures what was asked for and touches nothing else", "statement": "Patching results for some data sets or compressors replaces exactly the results of those, by the asked number of new measurements made on the right data and configuration, and keeps all others. (False for maxima and sums: the old ones stay, and come twice if both reasons apply.)", "quantifier": "all experiment settings, earlier results, measurements, numbers of runs", "why_tests_cant": "Depends on the history of results and on which compressors and data sets overlap.", "anchors": ["experimenter/src/main.rs: all_patch_command, process_experiment_for_dataset, process_experiment_for_compressor", "experimenter/src/lib.rs: AllOutputInner::clear"]}
{"id": "C74", "title": "An interrupted experiment is resumed", "statement": "Results a run saved before it was interrupted are used by the next one, which measures only what is missing. (False: they are saved as one kind of document and read as another, so that every run starts over.)", "quantifier": "all settings, interruption points, saved files", "why_tests_cant": "Needs runs interrupted at every point.", "anchors": ["experimenter/src/main.rs: check_result_already_exist, process_experiment_for_compressor, all_patch_command"]}
{"id": "C75", "title": "Reported averages are the means of what was measured", "statement": "The average ratio and throughputs of a scheme are, up to rounding, the means over data sets of its ratios and speeds. (True of ratios; throughputs are divided by the number of runs once more; a data set for which the scheme was skipped makes all of them NaN.)", "quantifier": "all lists of results, up to a million runs of a million data sets", "why_tests_cant": "Rounding and division by counts over all lists.", "anchors": ["experimenter/src/lib.rs: average_compression_ratio, average_compression_throughput, average_decompression_throughput"]}
{"id": "C76", "title": "Saving results loses none", "statement": "Saving results never changes a file that was there; a program alone takes the least free number; programs saving under given names end with one complete file per name. (Two programs choosing numbered names at the same time can lose the results of one; a crash between creating and writing leaves an empty file that is never replaced.)", "quantifier": "all interleavings of any number of programs, all crash points, all directories", "why_tests_cant": "Races and crash points.", "anchors": ["experimenter/src/main.rs: save_output_json, write_output_json", "experimenter/src/lib.rs: save_json_safely"]}
{"id": "C77", "title": "No scheme is run on values it cannot scale", "statement": "A scheme with a scale is skipped for a data set unless every value times the scale is finite and fits a 64-bit integer. (True of values that are not negative up to 2^63 inclusive; negative values are not checked.)", "quantifier": "all data sets, scales, compressors", "why_tests_cant": "All float values and scales.", "anchors": ["experimenter/src/main.rs: process_experiment_for_dataset, process_experiment_for_compressor"]}
{"id": "C78", "title": "Generated filters select what their names say", "statement": "For data of finite values five filter files are written: greater than the value at 10, 50 and 90 percent of the sorted records, equal and unequal to the middle one; other files stay. Otherwise it fails and leaves no filter of other data. (The last part is false.)", "quantifier": "all data sets, all earlier contents of the directory", "why_tests_cant": "All distributions, ties and sizes.", "anchors": ["experimenter/src/main.rs: create_config_command"]}
{"id": "C79", "title": "The reported accuracy is that of the nearest neighbour", "statement": "The accuracy reported for a data set and a compressor is the share of test vectors whose label is that of the nearest training vector, so all compressors report the same. (True of all schemes but BUFF for decimal data whose vectors do not span chunks.)", "quantifier": "all tables of labelled series of equal length, all thirteen configurations, repetitions and precisions", "why_tests_cant": "A single vector whose distance changes in the last bit changes the result.", "anchors": ["experimenter/src/main.rs: ucr2018_command, slurp_file", "ebi/src/api/decoder.rs: Decoder::knn1"]}
{"id": "C80", "title": "All compressors multiply the same matrices", "statement": "The matrix experiment computes, for every compressor and size, the products of the generated matrices, rounded to eight digits, with the target matrix. (True of all schemes but BUFF for sizes whose square divides 2^24; other sizes panic.)", "quantifier": "all random numbers, sizes, configurations", "why_tests_cant": "All values of all generated matrices.", "anchors": ["experimenter/src/main.rs: matrix_command", "ebi/src/api/decoder.rs: Decoder::matmul"]}
{"id": "C81", "title": "Results by scheme are those of the data sets", "statement": "Regrouping the results of all data sets by compressor keeps every result exactly once, under its compressor and data set, and a figure computed by compressor is computed from exactly the results of that compressor.", "quantifier": "all tables of results, all compressors, all figures", "why_tests_cant": "A result lost or counted twice shows only in some tables.", "anchors": ["experimenter/src/lib.rs: AllOutput::transpose, aggregate_per_compression_method"]}
{"id": "C82", "title": "The embedding experiment reports sizes and output of every scheme", "statement": "For every data set of at least one record the embedding experiment reports, for each compressor that can hold its decimal places, ten runs with the true uncompressed and encoded sizes, the first bytes of the encoded file and the first bytes of what it decodes to. (False of files shorter than a record and of DeltaSprintz from 10 decimal places on.)", "quantifier": "all data sets, numbers of decimal places, configurations, trailing bytes", "why_tests_cant": "Every value of every data set and every scale matters.", "anchors": ["experimenter/src/main.rs: embedding_command"]}
{"id": "C83", "title": "Iterating over a chunk ends and stays ended", "statement": "The record iterator of a chunk returns the records that decompressing the chunk returns, then None, and None again on every later call; on damaged bytes it returns errors but still reaches None after finitely many calls.", "quantifier": "all chunk bytes, written or damaged, all record counts, any number of calls before and after the end", "why_tests_cant": "A test makes a few calls on a few chunks; here the calls are unbounded and the bytes arbitrary, and the failures are an endless run of errors or an error long after the end.", "anchors": ["ebi/src/decoder/chunk_reader/general_xor.rs:GeneralXorDecompressIterator", "ebi/src/decoder/chunk_reader/chimp_n.rs:ChimpNDecompressIterator", "ebi/src/decoder/chunk_reader/uncompressed.rs:UncompressedIterator", "ebi/src/decoder/chunk_reader/run_length.rs:RunLengthIterator", "ebi/src/decoder/chunk_reader/sprintz.rs:DeltaSprintzDecompressIterator", "ebi/src/decoder/chunk_reader/elf.rs:ElfDecoderWrapper::next_value"]}
{"id": "C84", "title": "The length an iterator announces is the number of records left", "statement": "At every moment the iterators of Gorilla, Chimp, Chimp128, Elf and ElfOnChimp announce by len and size_hint exactly the number of records still to come.", "quantifier": "all chunks without NaN and all numbers of records already taken", "why_tests_cant": "The announced length is checked only when a caller preallocates or counts after a partial iteration; a test fixes one position.", "anchors": ["ebi/src/decoder/chunk_reader/general_xor.rs:size_hint", "ebi/src/decoder/chunk_reader/chimp_n.rs:size_hint"]}
{"id": "C85", "title": "Iterating does not use a reader up", "statement": "After iterating over some or all records of a chunk reader, a new iterator of the same reader, or decompressing it, returns the records of the chunk again.", "quantifier": "all chunks and all numbers of records taken before", "why_tests_cant": "Depends on how far an earlier iteration went; with the XOR schemes the wrong answer is not an error but plausible values.", "anchors": ["ebi/src/decoder/chunk_reader/general_xor.rs:decompress_iter", "ebi/src/decoder/chunk_reader/chimp_n.rs:decompress_iter", "ebi/src/decoder/chunk_reader/uncompressed.rs:decompress_iter", "ebi/src/decoder/chunk_reader/run_length.rs:decompress_iter", "ebi/src/decoder/chunk_reader/sprintz.rs:decompress_iter"]}
{"id": "C86", "title": "The product on the GPU is the product on the CPU", "statement": "matmul_cuda and matmul, which take the same arguments, return the same products of the stored matrices with the target, entry by entry in the same order; shapes that do not fit are refused.", "quantifier": "all files whose chunks hold whole matrices, all shapes, all targets, all ways in which the library adds up an entry", "why_tests_cant": "Symmetric targets, and targets of one row or column, give the same result with both layouts; the result must be right for every number of matrices and every division into chunks.", "anchors": ["ebi/src/api/decoder.rs:matmul_cuda", "ebi/src/api/decoder.rs:matmul", "ebi/src/decoder/chunk_reader.rs:gemm", "cuda-binding/src/lib.rs:gemm", "cuda-binding/src/lib.rs:config_matmul_row_major"]}
{"id": "C87", "title": "The matrix experiments on the GPU and on the CPU report the same products", "statement": "The matrix experiment on the GPU computes, for every compressor and size, the products of the generated matrices, rounded to eight digits, with the target matrix that the experiment on the CPU computes.", "quantifier": "all random numbers, sizes, configurations and libraries", "why_tests_cant": "The two commands draw the same numbers, but their results are only compared by hand, and up to five entries are kept.", "anchors": ["experimenter/src/matmul_cuda.rs:matrix_cuda_command", "experimenter/src/main.rs:matrix_command", "ebi/src/api/decoder.rs:matmul_cuda"]}
