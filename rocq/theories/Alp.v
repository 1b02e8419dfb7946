(** The Alp scheme: records through the ALP C++ library (alp-binding/src/lib.rs,
    ebi/src/compressor/ffi_alp.rs, ebi/src/decoder/chunk_reader/ffi_alp.rs). *)
From Verif Require Import Base Xor File.

Section Alp.
  (** [AlpCompressorDouble::compress] with [get_size]: the bytes written for the
      records; [AlpDecompressorDouble::decompress]: the records written into the
      buffer for that many records and those bytes.  What the library does outside
      its buffers is not modelled. *)
  Variable pack : list N -> list N.
  Variable unpack : N -> list N -> list N.

  (** alp-binding/src/lib.rs:22-37 [worst_case_compression_size_double]. *)
  Definition alp_worst_case (n : N) : N :=
    let aligned := (n + 1023) / 1024 * 1024 in
    let vectors := aligned / 1024 in
    let exceptions := vectors * 1024 * 8 + 2 + vectors * 2 in
    let size := aligned * 8 + exceptions in
    if n <? 1024 then size * 2 else size.

  (** compressor/ffi_alp.rs:14-19; [is_compressed] is never read. *)
  Record alp := mkAlp { alp_in : N; alp_out : list N }.
  (** 35-43 [From<FFIAlpCompressorConfig>]. *)
  Definition alp_new : alp := mkAlp 0 [].
  (** 74-78 [reset]. *)
  Definition alp_reset (c : alp) : alp := mkAlp 0 [].
  (** 46-55 [compress], with [compress_double] (alp-binding/src/lib.rs:47-72): the
      size is checked in debug builds. *)
  Definition alp_compress (dbg : bool) (c : alp) (xs : list N) : res derr alp :=
    let out := pack xs in
    if dbg && (alp_worst_case (N.of_nat (length xs)) <? N.of_nat (length out)) then Panic
    else Ok (mkAlp (8 * N.of_nat (length xs)) out).
  (** 65 [prepare], 67-72 [buffers], 61-63 [total_bytes_buffered]. *)
  Definition alp_prepare (c : alp) : alp := c.
  Definition alp_buffers (c : alp) : list N := alp_out c.
  Definition alp_total_bytes_buffered (c : alp) : N := N.of_nat (length (alp_out c)).

  (** chunk_reader/ffi_alp.rs:43-67 [decompress] of a chunk of [n] records, with
      [decompress_double] (alp-binding/src/lib.rs:84-103). *)
  Definition alp_decode (n : N) (bs : list N) : res derr (list N) := Ok (unpack n bs).

  Definition alp_codec (dbg : bool) : codec :=
    mkCodec alp alp_new alp_reset (alp_compress dbg) alp_in alp_prepare alp_buffers alp_decode false.
End Alp.
