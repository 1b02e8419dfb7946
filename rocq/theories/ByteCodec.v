(** The Zstd, Gzip and Snappy schemes: records as little-endian bytes through an
    external compression library. *)
From Verif Require Import Base Xor Rle Uncompressed File.

Section ByteCodec.
  (** The libraries: [zstd::encode_all] / [zstd::stream::copy_decode],
      [flate2::GzBuilder] / [GzDecoder], [snap::read::FrameEncoder] /
      [FrameDecoder]. *)
  Variable pack : list N -> res derr (list N).
  Variable unpack : list N -> res derr (list N).

  (** compressor/zstd.rs:14-19, gzip.rs, snappy.rs: the same three fields (the
      level is part of [pack]). *)
  Record bcomp := mkBc { bc_in : N; bc_out : option (list N) }.

  (** [From<..Config>]: zstd.rs:39-47, gzip.rs:42-50, snappy.rs:34-41. *)
  Definition bc_new : bcomp := mkBc 0 None.

  (** [reset]: zstd.rs:80-83, gzip.rs:86-89, snappy.rs:76-79. *)
  Definition bc_reset (c : bcomp) : bcomp := mkBc 0 None.

  (** zstd.rs:50-59 [compress]: no reset.  A failing library call returns after
      the counter was increased; that state is not observed further here. *)
  Definition zstd_compress (c : bcomp) (xs : list N) : res derr bcomp :=
    let bytes := flat_map (le_bytes 8) xs in
    do out <- pack bytes ;
    Ok (mkBc (bc_in c + N.of_nat (length bytes)) (Some out)).

  (** gzip.rs:53-69 and snappy.rs:44-58 [compress]: reset first. *)
  Definition gz_compress (c : bcomp) (xs : list N) : res derr bcomp := zstd_compress (bc_reset c) xs.

  (** [prepare] does nothing; [buffers] (zstd.rs:73-78, gzip.rs:79-84,
      snappy.rs:69-74). *)
  Definition bc_prepare (c : bcomp) : bcomp := c.
  Definition bc_buffers (c : bcomp) : list N := match bc_out c with Some b => b | None => [] end.

  (** [total_bytes_buffered]: zstd.rs:65-67. *)
  Definition bc_total_bytes_buffered (c : bcomp) : N :=
    match bc_out c with Some b => N.of_nat (length b) | None => 0 end.

  (** chunk_reader/zstd.rs:41-64 [decompress]: the decoded bytes are copied into a
      zeroed buffer of [n] records; too many of them is an error, missing ones
      stay zero. *)
  Definition zstd_decode (n : N) (bs : list N) : res derr (list N) :=
    do out <- unpack bs ;
    if 8 * n <? N.of_nat (length out) then Err EIO
    else Ok (f64s_of_bytes (N.to_nat n) (out ++ repeat 0 (8 * N.to_nat n - length out))).

  (** chunk_reader/gzip.rs:42-70, snappy.rs:41-69 [decompress]: exactly [8 * n]
      bytes are read; left-over bytes are ignored in release builds and fail an
      assertion in debug builds. *)
  Definition gz_decode (dbg : bool) (n : N) (bs : list N) : res derr (list N) :=
    do out <- unpack bs ;
    if N.of_nat (length out) <? 8 * n then Err EIO
    else if dbg && (8 * n <? N.of_nat (length out)) then Panic
    else Ok (f64s_of_bytes (N.to_nat n) out).

  Definition zstd_codec : codec :=
    mkCodec bcomp bc_new bc_reset zstd_compress bc_in bc_prepare bc_buffers zstd_decode false.
  Definition gz_codec (dbg : bool) : codec :=
    mkCodec bcomp bc_new bc_reset gz_compress bc_in bc_prepare bc_buffers (gz_decode dbg) false.
End ByteCodec.
