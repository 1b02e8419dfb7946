(** The schemes as codecs: compressor.rs:88-105 [GenericCompressor] (forwarding
    macro 107-164) with chunk_reader.rs:287-345 [GeneralChunkReaderInner::new]
    and the [decompress] method of each reader. *)
From Verif Require Import Base BitIO Xor Gorilla Chimp ChimpN F64 ElfXor Elf RawSpec Rle Uncompressed
  Format File ByteCodec Alp Query Sprintz.

Definition x_codec (E D : Type) (e_init : E) (e_step : E -> bwriter -> N -> E * bwriter)
    (e_close : E -> bwriter -> E * bwriter) (d_init : D) (d_next : D -> breader -> drd (option N * D)) : codec :=
  mkCodec (xcomp E) (x_new E e_init) (x_reset E e_init)
    (fun c xs => Ok (x_compress E e_init e_step c xs)) xin (x_prepare E e_close) x_buffers
    (fun _ bs => fst (x_decompress D d_init d_next (xr_new bs))) false.

Definition uncompressed_codec : codec :=
  mkCodec unc unc_new unc_reset (fun c xs => Ok (unc_compress c xs)) un_in unc_prepare unc_buffers
    (fun n bs => fst (unc_decompress (unc_open n bs))) false.
Definition rle_codec : codec :=
  mkCodec rle rle_new rle_reset rle_compress rl_in rle_prepare rle_buffers
    (fun _ bs => do r <- rle_open bs ; fst (rle_decompress r)) false.
Definition gorilla_codec : codec := x_codec genc gdec ge_init ge_step ge_close gd_init gd_next.
Definition chimp_codec : codec := x_codec cenc cdec ce_init ce_step ce_close cd_init cd_next.
Definition chimp128_codec : codec := x_codec nenc ndec ne_init ne_step ne_close nd_init nd_next.
Definition elf_codec (log10 : f64 -> f64) : codec :=
  x_codec (wenc lenc) (wdec ldec) (we_init lenc le_init) (we_step (elf_erase log10) lenc le_step) (we_close lenc le_close)
    (wd_init ldec ld_init) (wd_next (elf_recover log10) ldec ld_next).
Definition elf_on_chimp_codec (log10 : f64 -> f64) : codec :=
  x_codec (wenc cenc) (wdec cdec) (we_init cenc ce_init) (we_step (elf_erase log10) cenc ce_step) (we_close cenc ce_close)
    (wd_init cdec cd_init) (wd_next (elf_recover log10) cdec cd_next).

(** The scale comes from the configuration (compressor/sprintz.rs:56-63) and no
    method changes it: the state is the rest of the compressor. *)
Definition sprintz_codec (dbg : bool) (scale : N) : codec :=
  let into (st : bwriter * N) := mkSp (fst st) scale (snd st) in
  let out (c : sprintz) := (sp_w c, sp_in c) in
  mkCodec (bwriter * N) (out (sp_new scale)) (fun st => out (sp_reset (into st)))
    (fun st xs => do c <- sp_compress dbg (into st) xs ; Ok (out c)) snd (fun st => out (sp_prepare (into st)))
    (fun st => sp_buffers (into st)) (fun n bs => fst (sp_decompress dbg (sp_open n bs))) false.

(** The external compression libraries.  One is chosen by configuration (scheme
    and level): [fst] compresses, [snd] decompresses.  ALP works on records and is
    told their number (Alp.v). *)
Record libraries := mkLibraries {
  lib_of :> config -> (list N -> res derr (list N)) * (list N -> res derr (list N));
  lib_alp : (list N -> list N) * (N -> list N -> list N)
}.

(** compressor.rs:215-247 [CompressorConfig::build] with the reader chosen by the
    header (chunk_reader.rs:287-345).  BUFF has a model of its own (Buff.v). *)
Definition scheme_codec (dbg : bool) (log10 : f64 -> f64) (lib : libraries) (c : config) : option codec :=
  match c with
  | CUncompressed _ => Some uncompressed_codec
  | CRle _ => Some rle_codec
  | CGorilla _ => Some gorilla_codec
  | CChimp _ => Some chimp_codec
  | CChimp128 _ => Some chimp128_codec
  | CElf _ => Some (elf_codec log10)
  | CElfOnChimp _ => Some (elf_on_chimp_codec log10)
  | CZstd _ => Some (zstd_codec (fst (lib c)) (snd (lib c)))
  | CGzip _ | CSnappy => Some (gz_codec (fst (lib c)) (snd (lib c)) dbg)
  | CDeltaSprintz _ scale => Some (sprintz_codec dbg scale)
  | CAlp => Some (alp_codec (fst (lib_alp lib)) (snd (lib_alp lib)) dbg)
  | CBuff _ => None
  end.
