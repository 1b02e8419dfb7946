(** The chunk reader of each scheme: chunk_reader.rs:287-345
    [GeneralChunkReaderInner::new] with its query methods. *)
From Verif Require Import Base BitIO Xor Gorilla Chimp ChimpN F64 ElfXor Elf RawSpec Rle Uncompressed
  Format File ByteCodec Alp Codecs Query.

Section Readers.
  Variable dbg : bool.
  Variable neg : bool.
  Variable tie : f64 -> f64 -> bool.

  (** chunk_reader/general_xor.rs:99, chunk_reader/chimp_n.rs:90. *)
  Definition x_executor (D : Type) (d_init : D) (d_next : D -> breader -> drd (option N * D)) : executor :=
    default_executor neg tie xreader (fun _ bs => Ok (xr_new bs)) (x_decompress D d_init d_next).

  (** chunk_reader/uncompressed.rs:126. *)
  Definition uncompressed_executor : executor :=
    default_executor neg tie unreader (fun n bs => Ok (unc_open n bs)) unc_decompress.
  (** chunk_reader/run_length.rs:160. *)
  Definition rle_executor : executor :=
    default_executor neg tie rlreader (fun _ bs => rle_open bs) rle_decompress.

  (** chunk_reader/zstd.rs:13-18, gzip.rs, snappy.rs, ffi_alp.rs:10-17: the reader.  A second attempt
      after a failed one would read the bytes that follow the chunk; here it
      fails in the same way. *)
  Record byreader := mkByr { by_records : N; by_bytes : list N; by_cache : option (list N) }.
  Definition by_open (n : N) (bs : list N) : byreader := mkByr n bs None.
  (** chunk_reader/zstd.rs:41-64, gzip.rs:42-70, snappy.rs:41-69, ffi_alp.rs:43-66. *)
  Definition by_decompress (decode : N -> list N -> res derr (list N)) (r : byreader) : res derr (list N) * byreader :=
    match by_cache r with
    | Some vs => (Ok vs, r)
    | None =>
        match decode (by_records r) (by_bytes r) with
        | Ok vs => (Ok vs, mkByr (by_records r) (by_bytes r) (Some vs))
        | e => (e, r)
        end
    end.
  (** chunk_reader/zstd.rs:97, gzip.rs:105, snappy.rs:103, ffi_alp.rs:100. *)
  Definition by_executor (decode : N -> list N -> res derr (list N)) : executor :=
    default_executor neg tie byreader (fun n bs => Ok (by_open n bs)) (by_decompress decode).

  (** chunk_reader.rs:287-345; no executor here for BUFF and DeltaSprintz, whose queries
      (Buff.v, Sprintz.v) are not the default ones. *)
  Definition scheme_executor (log10 : f64 -> f64) (lib : libraries) (c : config) : option executor :=
    match c with
    | CUncompressed _ => Some uncompressed_executor
    | CRle _ => Some rle_executor
    | CGorilla _ => Some (x_executor gdec gd_init gd_next)
    | CChimp _ => Some (x_executor cdec cd_init cd_next)
    | CChimp128 _ => Some (x_executor ndec nd_init nd_next)
    | CElf _ => Some (x_executor (wdec ldec) (wd_init ldec ld_init) (wd_next (elf_recover log10) ldec ld_next))
    | CElfOnChimp _ => Some (x_executor (wdec cdec) (wd_init cdec cd_init) (wd_next (elf_recover log10) cdec cd_next))
    | CZstd _ => Some (by_executor (zstd_decode (snd (lib c))))
    | CGzip _ | CSnappy => Some (by_executor (gz_decode (snd (lib c)) dbg))
    | CAlp => Some (by_executor (alp_decode (snd (lib_alp lib))))
    | CBuff _ | CDeltaSprintz _ _ => None
    end.
End Readers.
