(** Model of ebi/src/format.rs, ebi/src/format/{serialize,deserialize,native}.rs,
    the configuration part of ebi/src/compressor.rs, ebi/src/time.rs, and the
    metadata part of ebi/src/decoder.rs.

    The machine is little-endian, so [to_le] is the identity and a packed struct
    viewed as bytes is the concatenation of its fields in little-endian order. *)
From Verif Require Import Base Xor.

(** ** Codes *)

(** format.rs:182-199 [CompressionScheme]. *)
Inductive scheme :=
| SUncompressed | SRle | SBuff | SGorilla | SChimp | SChimp128 | SElfOnChimp | SElf
| SDeltaSprintz | SZstd | SGzip | SSnappy | SAlp.

(** format.rs:186-198: the discriminants. *)
Definition scheme_code (s : scheme) : N :=
  match s with
  | SUncompressed => 0 | SRle => 1 | SBuff => 2 | SGorilla => 3 | SChimp => 4 | SChimp128 => 5
  | SElfOnChimp => 6 | SElf => 7 | SDeltaSprintz => 8 | SZstd => 9 | SGzip => 10 | SSnappy => 11
  | SAlp => 12
  end.

(** format/deserialize.rs:190-196 ([try_from_primitive] of the discriminants). *)
Definition scheme_of_code (b : N) : res derr scheme :=
  match b with
  | 0 => Ok SUncompressed | 1 => Ok SRle | 2 => Ok SBuff | 3 => Ok SGorilla | 4 => Ok SChimp
  | 5 => Ok SChimp128 | 6 => Ok SElfOnChimp | 7 => Ok SElf | 8 => Ok SDeltaSprintz
  | 9 => Ok SZstd | 10 => Ok SGzip | 11 => Ok SSnappy | 12 => Ok SAlp
  | _ => Err EConversion
  end.

(** encoder.rs:28-32 [ChunkOption]. *)
Inductive chunk_option := Full | RecordCount (n : N) | ByteSizeBestEffort (n : N).

(** encoder.rs:34-54: the (kind, value) pair stored for a chunk option. *)
Definition chunk_option_fields (o : chunk_option) : N * N :=
  match o with Full => (0, 0) | RecordCount n => (1, n) | ByteSizeBestEffort n => (2, n) end.

(** format/deserialize.rs:227-240 [ChunkOptionKind], then native.rs:51-60. *)
Definition chunk_option_of (kind value : N) : res derr chunk_option :=
  match kind with
  | 0 => Ok Full
  | 1 => Ok (RecordCount value)
  | 2 => Ok (ByteSizeBestEffort value)
  | _ => Err EConversion
  end.

(** ** Compressor configurations *)

(** compressor.rs:200-228 [CompressorConfig] with the fields of the per-scheme
    structs (uncompressed.rs:99, run_length.rs:225, chimp_n.rs:48,
    sprintz.rs:34-38, buff.rs:88-90, zstd.rs:23-25, gzip.rs:25-29, snappy.rs:24,
    ffi_alp.rs:25). *)
Inductive config :=
| CUncompressed (capacity : N) | CRle (capacity : N) | CGorilla (capacity : N)
| CBuff (scale : N) | CChimp (capacity : N) | CChimp128 (capacity : N)
| CElfOnChimp (capacity : N) | CElf (capacity : N)
| CDeltaSprintz (capacity scale : N) | CZstd (level : Z) | CGzip (level : N)
| CSnappy | CAlp.

(** compressor.rs:256-265. *)
Definition config_scheme (c : config) : scheme :=
  match c with
  | CUncompressed _ => SUncompressed | CRle _ => SRle | CGorilla _ => SGorilla | CBuff _ => SBuff
  | CChimp _ => SChimp | CChimp128 _ => SChimp128 | CElfOnChimp _ => SElfOnChimp | CElf _ => SElf
  | CDeltaSprintz _ _ => SDeltaSprintz | CZstd _ => SZstd | CGzip _ => SGzip
  | CSnappy => SSnappy | CAlp => SAlp
  end.

(** Two's complement of an i32 and back. *)
Definition i32_bits (z : Z) : N := Z.to_N (z mod 4294967296).
Definition i32_of_bits (n : N) : Z :=
  if n <? 2147483648 then Z.of_N n else (Z.of_N n - 4294967296)%Z.

(** format/serialize.rs:63-76 with the field lists of each configuration: the
    bytes of the packed struct. *)
Definition config_body (c : config) : list N :=
  match c with
  | CUncompressed n | CRle n | CGorilla n | CBuff n | CChimp n | CChimp128 n
  | CElfOnChimp n | CElf n => le_bytes 8 n
  | CDeltaSprintz n s => le_bytes 8 n ++ le_bytes 8 s
  | CZstd l => le_bytes 4 (i32_bits l)
  | CGzip l => le_bytes 4 l
  | CSnappy | CAlp => []
  end.

(** compressor.rs:331-365 [serialize]. *)
Definition config_bytes (c : config) : list N :=
  N.of_nat (length (config_body c)) mod 256 :: config_body c.

(** format/deserialize.rs:353-361 and compressor.rs:244-252 [serialized_size]. *)
Definition config_serialized_size (c : config) : N :=
  1 + match c with
      | CDeltaSprintz _ _ => 16
      | CZstd _ | CGzip _ => 4
      | CSnappy | CAlp => 0
      | _ => 8
      end.

(** format/deserialize.rs:343: one field of [k] bytes; the slice panics when the
    bytes run out. *)
Definition cfg_field (k : nat) (bs : list N) : res derr (N * list N) :=
  if (length bs <? k)%nat then Panic else Ok (le_val (firstn k bs), skipn k bs).

(** compressor.rs:367-402 [from_le_bytes] with format/deserialize.rs:328-351. *)
Definition parse_config (s : scheme) (bs : list N) : res derr config :=
  match s with
  | SUncompressed => do (n, _) <- cfg_field 8 bs ; Ok (CUncompressed n)
  | SRle => do (n, _) <- cfg_field 8 bs ; Ok (CRle n)
  | SBuff => do (n, _) <- cfg_field 8 bs ; Ok (CBuff n)
  | SGorilla => do (n, _) <- cfg_field 8 bs ; Ok (CGorilla n)
  | SChimp => do (n, _) <- cfg_field 8 bs ; Ok (CChimp n)
  | SChimp128 => do (n, _) <- cfg_field 8 bs ; Ok (CChimp128 n)
  | SElfOnChimp => do (n, _) <- cfg_field 8 bs ; Ok (CElfOnChimp n)
  | SElf => do (n, _) <- cfg_field 8 bs ; Ok (CElf n)
  | SDeltaSprintz =>
      do (n, bs) <- cfg_field 8 bs ; do (s, _) <- cfg_field 8 bs ; Ok (CDeltaSprintz n s)
  | SZstd => do (n, _) <- cfg_field 4 bs ; Ok (CZstd (i32_of_bits n))
  | SGzip => do (n, _) <- cfg_field 4 bs ; Ok (CGzip n)
  | SSnappy => Ok CSnappy
  | SAlp => Ok CAlp
  end.

(** compressor.rs:292-308 [set_scale] and 310-326 [scale]. *)
Definition set_scale (c : config) (s : N) : config :=
  match c with
  | CBuff _ => CBuff s
  | CDeltaSprintz n _ => CDeltaSprintz n s
  | c => c
  end.
Definition scale (c : config) : option N :=
  match c with CBuff s => Some s | CDeltaSprintz _ s => Some s | _ => None end.

(** ** Durations and segmented execution times *)

(** A [Duration] is its number of nanoseconds; it holds less than 2^64 seconds. *)
Definition billion : N := 1000000000.
Definition duration_limit : N := two64 * billion.

(** time.rs:12-22 [SegmentKind] and 30-40 [index]. *)
Inductive segment :=
| IORead | IOWrite | XorSeg | Delta | Quantization | BitPacking | CompareInsert | Sum | Decompression.
Definition segment_index (k : segment) : nat :=
  match k with
  | IORead => 0 | IOWrite => 1 | XorSeg => 2 | Delta => 3 | Quantization => 4 | BitPacking => 5
  | CompareInsert => 6 | Sum => 7 | Decompression => 8
  end%nat.

(** time.rs:79-83: nine durations. *)
Notation times := (list N) (only parsing).
(** time.rs:234-239 [new]. *)
Definition times_new : times := repeat 0 9.
(** time.rs:272-308: the accessors. *)
Definition time_of (t : times) (k : segment) : N := nth (segment_index k) t 0.

(** [Duration += Duration] panics on overflow. *)
Definition dur_add (a b : N) : res derr N :=
  if a + b <? duration_limit then Ok (a + b) else Panic.

(** time.rs:116-126 [add_assign]. *)
Fixpoint times_add (a b : times) : res derr times :=
  match a, b with
  | x :: a', y :: b' => do z <- dur_add x y ; do r <- times_add a' b' ; Ok (z :: r)
  | _, _ => Ok a
  end.

Fixpoint set_nth (i : nat) (x : N) (l : list N) : list N :=
  match l, i with
  | [], _ => []
  | _ :: l', O => x :: l'
  | y :: l', S i' => y :: set_nth i' x l'
  end.
(** time.rs:261-263 [update_at] and 265-269 [add_at]. *)
Definition times_update (t : times) (k : segment) (d : N) : times := set_nth (segment_index k) d t.
Definition times_add_at (t : times) (k : segment) (d : N) : res derr times :=
  do x <- dur_add (time_of t k) d ; Ok (set_nth (segment_index k) x t).

(** time.rs:180-194: nanoseconds as u128, in field order (128-141). *)
Definition times_bytes (t : times) : list N := flat_map (le_bytes 16) t.

(** time.rs:200-205 [u128_nanos_to_duration]: the seconds are truncated to u64. *)
Definition nanos_to_duration (n : N) : N := (n / billion) mod two64 * billion + n mod billion.

(** time.rs:154-178 and 196-225. *)
Fixpoint parse_nanos (k : nat) (bs : list N) : times :=
  match k with
  | O => []
  | S k' => nanos_to_duration (le_val (firstn 16 bs)) :: parse_nanos k' (skipn 16 bs)
  end.
Definition parse_times (bs : list N) : times := parse_nanos 9 bs.

(** ** Header *)

(** format/native.rs:14-24 and 45-49 [NativeFileHeader]; the only field type is
    F64 (format.rs:161-165). *)
Record header := mkHeader {
  h_magic : list N;
  h_scheme : scheme;
  h_option : chunk_option;
  h_footer_offset : N;
  h_version : list N
}.

(** encoder.rs:79 [MAGIC_NUMBER] = "EBI1"; encoder.rs:171-176 with the version
    0.1.14 of ebi/Cargo.toml. *)
Definition magic : list N := [69; 66; 73; 49].
Definition version : list N := [0; 1; 14].

(** format.rs:143-172 and format/serialize.rs:12-29: the 30 bytes of a header. *)
Definition header_bytes (h : header) : list N :=
  h_magic h ++ [0; scheme_code (h_scheme h); fst (chunk_option_fields (h_option h)); 0] ++
  le_bytes 8 (snd (chunk_option_fields (h_option h))) ++
  le_bytes 8 (h_footer_offset h) ++
  flat_map (le_bytes 2) (h_version h).

(** encoder.rs:169-190 [write_header]: the footer offset is left zero. *)
Definition write_header (c : config) (o : chunk_option) : list N :=
  header_bytes (mkHeader magic (config_scheme c) o 0 version).

(** [Read::read_exact] of [n] bytes from an in-memory or regular file. *)
Definition read_n (n : N) (bs : list N) : res derr (list N * list N) :=
  if N.of_nat (length bs) <? n then Err EIO
  else Ok (firstn (N.to_nat n) bs, skipn (N.to_nat n) bs).

(** Bytes from position [n] on ([Seek::seek] to [n] then reading; a position past
    the end reads nothing). *)
Definition drop_n (n : N) (bs : list N) : list N :=
  if N.of_nat (length bs) <? n then [] else skipn (N.to_nat n) bs.

Definition byte_at (i : nat) (bs : list N) : N := nth i bs 0.

(** format/deserialize.rs:117-240 on exactly 30 bytes: field type, scheme and
    chunk option kind are checked in this order; magic number, reserved byte and
    version are not. *)
Definition parse_header (bs : list N) : res derr header :=
  if negb (byte_at 4 bs =? 0) then Err EConversion
  else
    do s <- scheme_of_code (byte_at 5 bs) ;
    do o <- chunk_option_of (byte_at 6 bs) (le_val (firstn 8 (skipn 8 bs))) ;
    Ok (mkHeader (firstn 4 bs) s o (le_val (firstn 8 (skipn 16 bs)))
          [le_val (firstn 2 (skipn 24 bs)); le_val (firstn 2 (skipn 26 bs)); le_val (firstn 2 (skipn 28 bs))]).

(** decoder.rs:131-144 [fetch_header] at the start of the file. *)
Definition fetch_header (file : list N) : res derr header :=
  do (bs, _) <- read_n 30 file ; parse_header bs.

(** ** Footer *)

(** format.rs:250-258 [ChunkFooter]: physical offset, logical offset. *)
Record chunk_footer := mkCf { cf_physical : N; cf_logical : N }.
Definition cf_bytes (f : chunk_footer) : list N := le_bytes 8 (cf_physical f) ++ le_bytes 8 (cf_logical f).
(** format/deserialize.rs:294-324. *)
Definition parse_cf (bs : list N) : chunk_footer :=
  mkCf (le_val (firstn 8 bs)) (le_val (firstn 8 (skipn 8 bs))).
Fixpoint parse_cfs (k : nat) (bs : list N) : list chunk_footer :=
  match k with
  | O => []
  | S k' => parse_cf bs :: parse_cfs k' (skipn 16 bs)
  end.

(** format/native.rs:70-84 [NativeFileFooter]. *)
Record footer := mkFooter {
  f_records : N;
  f_chunks : N;
  f_index : list chunk_footer;
  f_config : config;
  f_elapsed : N;      (* compression_elapsed_time_nano_secs : u128 *)
  f_times : times;
  f_crc : N
}.

(** format.rs:219-248: FileFooter0, chunk footers, configuration, FileFooter3. *)
Definition footer_bytes (f : footer) : list N :=
  le_bytes 8 (f_records f) ++ le_bytes 8 (f_chunks f) ++
  flat_map cf_bytes (f_index f) ++ config_bytes (f_config f) ++
  le_bytes 16 (f_elapsed f) ++ times_bytes (f_times f) ++ le_bytes 4 (f_crc f).

(** format/native.rs:110-115 [size]. *)
Definition footer_size (f : footer) : N :=
  16 + 16 * N.of_nat (length (f_index f)) + config_serialized_size (f_config f) + 164.

(** format/native.rs:125-130 [compression_elapsed_time]. *)
Definition footer_elapsed (f : footer) : N := nanos_to_duration (f_elapsed f).

Definition isize_limit : N := 9223372036854775808.

(** decoder.rs:174-220 [fetch_footer] with the input positioned on the footer.
    [16 * n_chunks] wraps in release builds; a buffer over [isize::MAX] bytes is a
    capacity overflow; a smaller buffer is assumed to be allocated.  Line 199
    slices the buffer that held the chunk footers, so it panics when there is no
    chunk. *)
Definition fetch_footer (dbg : bool) (s : scheme) (bs : list N) : res derr footer :=
  do (f0, bs) <- read_n 16 bs ;
  let records := le_val (firstn 8 f0) in
  let n := le_val (skipn 8 f0) in
  if dbg && (two64 <=? 16 * n) then Panic
  else
    let size := (16 * n) mod two64 in
    if isize_limit <=? size then Panic
    else
      do (cfs, bs) <- read_n size bs ;
      if size =? 0 then Panic
      else
        do (b, bs) <- read_n 1 bs ;
        do (cb, bs) <- read_n (byte_at 0 b) bs ;
        do c <- parse_config s cb ;
        do (f3, _) <- read_n 164 bs ;
        Ok (mkFooter records n (parse_cfs (Nat.div (length cfs) 16) cfs) c
              (le_val (firstn 16 f3)) (parse_times (skipn 16 f3)) (le_val (skipn 160 f3))).

(** An opened file: api/decoder.rs:121-133 [Decoder], without the input. *)
Record metadata := mkMeta { m_header : header; m_footer : footer }.

(** api/decoder.rs:136-156 [Decoder::new] and decoder.rs:157-164
    [seek_to_footer].  The chunk handles are the numbers below
    [number_of_chunks]; collecting them (145-147) is a capacity overflow when
    their 16 bytes each exceed [isize::MAX], and otherwise assumed to have enough
    memory. *)
Definition open_file (dbg : bool) (file : list N) : res derr metadata :=
  do h <- fetch_header file ;
  do f <- fetch_footer dbg (h_scheme h) (drop_n (h_footer_offset h) file) ;
  if isize_limit <=? 16 * f_chunks f then Panic else Ok (mkMeta h f).

(** ** Chunk handles (decoder.rs:244-376) *)

(** decoder.rs:302-308 [next_physical_offset] and 310-316 [next_logical_offset]. *)
Definition next_physical (m : metadata) (i : nat) : N :=
  match nth_error (f_index (m_footer m)) (S i) with
  | Some f => cf_physical f
  | None => h_footer_offset (m_header m)
  end.
Definition next_logical (m : metadata) (i : nat) : N :=
  match nth_error (f_index (m_footer m)) (S i) with
  | Some f => cf_logical f
  | None => f_records (m_footer m)
  end.

(** u64 subtraction: panics on underflow in debug builds, wraps in release. *)
Definition sub_u64 (dbg : bool) (a b : N) : res derr N :=
  if a <? b then (if dbg then Panic else Ok (wsub64 a b)) else Ok (a - b).

(** decoder.rs:283-292 [chunk_size]; indexing panics for a chunk that is not in
    the index. *)
Definition chunk_size (dbg : bool) (m : metadata) (i : nat) : res derr N :=
  match nth_error (f_index (m_footer m)) i with
  | None => Panic
  | Some f => sub_u64 dbg (next_physical m i) (cf_physical f)
  end.

(** decoder.rs:318-328 [number_of_records]. *)
Definition chunk_records (dbg : bool) (m : metadata) (i : nat) : res derr N :=
  match nth_error (f_index (m_footer m)) i with
  | None => Panic
  | Some f => sub_u64 dbg (next_logical m i) (cf_logical f)
  end.

(** decoder.rs:342-352 [logical_record_range_u32]. *)
Definition chunk_range_u32 (m : metadata) (i : nat) : res derr (N * N) :=
  match nth_error (f_index (m_footer m)) i with
  | None => Panic
  | Some f => Ok (cf_logical f mod two32, next_logical m i mod two32)
  end.

(** decoder.rs:263-265 [is_last_chunk]. *)
Definition is_last_chunk (m : metadata) (i : nat) : bool := N.of_nat i + 1 =? f_chunks (m_footer m).

(** api/decoder.rs:168-185. *)
Definition total_file_size (m : metadata) : N := h_footer_offset (m_header m) + footer_size (m_footer m).
Definition total_chunk_size (dbg : bool) (m : metadata) : res derr N :=
  let head := match f_index (m_footer m) with
              | f :: _ => cf_physical f
              | [] => h_footer_offset (m_header m)
              end in
  sub_u64 dbg (h_footer_offset (m_header m)) head.
