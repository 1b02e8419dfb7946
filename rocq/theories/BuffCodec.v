(** BUFF as a codec of the file format (File.v). *)
From Verif Require Import Base Xor F64 Format File Query Buff.

(** compressor.rs:215-247 [build] for BUFF with chunk_reader/buff.rs:36-54, 85-100;
    the scale comes from the configuration and opening unwraps (44). *)
Definition buff_codec (dbg : bool) (lg : N -> N) (scale : N) : codec :=
  mkCodec buff bf_new bf_reset (bf_compress dbg lg scale) bf_in bf_prepare bf_buffers
    (fun n bs => fst (bf_decompress dbg (bf_open n bs))) true.
