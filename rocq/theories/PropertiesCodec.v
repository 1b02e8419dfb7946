(** C43 (Elf, Zstd, Gzip, Snappy, Alp), C44 (Elf, Alp), C52 (XOR schemes, Elf, Uncompressed,
    Zstd, Gzip, Snappy) and C60.  [log10] is the platform's logarithm, [pack] and
    [unpack] the external compression library; nothing is assumed about them.
    Proofs: ElfSizeProofs.v, XorTotalProofs.v, CodecSummary.v. *)
From Verif Require Import Base BitIO Xor Gorilla Chimp ChimpN F64 ElfXor Elf RawSpec Rle Uncompressed ByteCodec Alp
  Sprintz Buff ElfSizeProofs XorTotalProofs CodecSummary.

(** ** C43: the bytes of a chunk do not depend on the history of the compressor *)
Theorem C43_elf_reuse : forall log10 c cc xs,
  x_buffers (elf_prepare (elf_compress log10 c xs)) =
  x_buffers (elf_prepare (elf_compress log10 (x_new (wenc lenc) (we_init lenc le_init)) xs)) /\
  x_buffers (elfc_prepare (elfc_compress log10 cc xs)) =
  x_buffers (elfc_prepare (elfc_compress log10 (x_new (wenc cenc) (we_init cenc ce_init)) xs)).
Proof. intros. split; reflexivity. Qed.
Print Assumptions C43_elf_reuse.

Definition packed_bytes (c : res derr bcomp) : res derr (list N) := do c <- c ; Ok (bc_buffers (bc_prepare c)).
Theorem C43_byte_codecs_reuse : forall pack c xs,
  packed_bytes (zstd_compress pack c xs) = packed_bytes (zstd_compress pack bc_new xs) /\
  packed_bytes (gz_compress pack c xs) = packed_bytes (gz_compress pack bc_new xs).
Proof. intros. unfold packed_bytes, gz_compress, zstd_compress. destruct (pack _); split; reflexivity. Qed.
Print Assumptions C43_byte_codecs_reuse.
Theorem C43_alp_reuse : forall pack dbg c xs,
  alp_compress pack dbg c xs = alp_compress pack dbg alp_new xs /\
  (forall c', alp_compress pack dbg c xs = Ok c' -> alp_buffers (alp_prepare c') = pack xs) /\
  alp_in (alp_reset c) = 0 /\ alp_total_bytes_buffered (alp_reset c) = 0 /\ alp_buffers (alp_prepare (alp_reset c)) = [].
Proof. intros. split; [reflexivity|]. split; [|repeat split]. intros c'. unfold alp_compress. destruct (_ && _); [discriminate|]. intros H. now injection H as <-. Qed.
Print Assumptions C43_alp_reuse.
(** An Elf compressor left in the middle of a chunk whose last value was erased. *)
Example C43_elf_example : forall log10,
  let used := elf_compress log10 (x_new (wenc lenc) (we_init lenc le_init)) [0x3fb999999999999a; 0x40091eb851eb851f] in
  we_last (xe used) = 3%Z /\
  x_buffers (elf_prepare (elf_compress log10 used [0x3fb999999999999a])) =
  x_buffers (elf_prepare (elf_compress log10 (x_new (wenc lenc) (we_init lenc le_init)) [0x3fb999999999999a])).
Proof. intros. vm_compute. split; reflexivity. Qed.

(** ** C44: the size reported before closing *)
Theorem C44_alp_size : forall c, alp_total_bytes_buffered c = N.of_nat (length (alp_buffers (alp_prepare c))).
Proof. reflexivity. Qed.
Print Assumptions C44_alp_size.
Theorem C44_elf_size : forall log10 c xs, Forall is_u64 xs ->
  let c1 := elf_compress log10 c xs in
  let real := N.of_nat (length (x_buffers (elf_prepare c1))) in
  real <= elf_total_bytes_buffered c1 <= real + 1.
Proof. exact elf_size. Qed.
Print Assumptions C44_elf_size.
Theorem C44_elf_on_chimp_size : forall log10 c xs, Forall is_u64 xs ->
  let c1 := elfc_compress log10 c xs in
  let real := N.of_nat (length (x_buffers (elfc_prepare c1))) in
  real <= elfc_total_bytes_buffered c1 <= real + 1.
Proof. exact elfc_size. Qed.
Print Assumptions C44_elf_on_chimp_size.
(** The byte codecs: exact once a chunk has been compressed. *)
Theorem C44_byte_codecs_size : forall c, bc_total_bytes_buffered c = N.of_nat (length (bc_buffers (bc_prepare c))).
Proof. intros [n [b|]]; reflexivity. Qed.
Print Assumptions C44_byte_codecs_size.
(** Both ends of the range occur. *)
Example C44_elf_example : forall log10,
  let est xs := elf_total_bytes_buffered (elf_compress log10 (x_new (wenc lenc) (we_init lenc le_init)) xs) in
  let real xs := N.of_nat (length (x_buffers (elf_prepare (elf_compress log10 (x_new (wenc lenc) (we_init lenc le_init)) xs)))) in
  (est [0x3fb999999999999a] = real [0x3fb999999999999a]) /\ est [0x3fb999999999999a; 0x40091eb851eb851f] = real [0x3fb999999999999a; 0x40091eb851eb851f] + 1.
Proof. intros. vm_compute. split; reflexivity. Qed.

(** ** C52: any bytes decode to records or to an error, in bounded time *)
(** The fuel of the model is one more than the number of bits, and running out of
    it would be a third kind of answer.  At most one record per bit. *)
Theorem C52_gorilla_total : forall bs, Forall is_byte bs ->
  (exists vs, fst (gorilla_decompress (xr_new bs)) = Ok vs /\ Forall is_u64 vs /\ (length vs <= 8 * length bs)%nat) \/
  fst (gorilla_decompress (xr_new bs)) = Err EUnexpectedEndOfChunk.
Proof. exact gorilla_total. Qed.
Print Assumptions C52_gorilla_total.
Theorem C52_chimp_total : forall bs, Forall is_byte bs ->
  (exists vs, fst (chimp_decompress (xr_new bs)) = Ok vs /\ Forall is_u64 vs /\ (length vs <= 8 * length bs)%nat) \/
  fst (chimp_decompress (xr_new bs)) = Err EUnexpectedEndOfChunk.
Proof. exact chimp_total. Qed.
Print Assumptions C52_chimp_total.
Theorem C52_chimp128_total : forall bs, Forall is_byte bs ->
  (exists vs, fst (chimp128_decompress (xr_new bs)) = Ok vs /\ Forall is_u64 vs /\ (length vs <= 8 * length bs)%nat) \/
  fst (chimp128_decompress (xr_new bs)) = Err EUnexpectedEndOfChunk.
Proof. exact chimp128_total. Qed.
Print Assumptions C52_chimp128_total.
Theorem C52_elf_total : forall log10 bs, Forall is_byte bs ->
  (exists vs, fst (elf_decompress log10 (xr_new bs)) = Ok vs /\ (length vs <= 8 * length bs)%nat) \/
  fst (elf_decompress log10 (xr_new bs)) = Err EUnexpectedEndOfChunk.
Proof. exact elf_total. Qed.
Print Assumptions C52_elf_total.
Theorem C52_elf_on_chimp_total : forall log10 bs, Forall is_byte bs ->
  (exists vs, fst (elfc_decompress log10 (xr_new bs)) = Ok vs /\ (length vs <= 8 * length bs)%nat) \/
  fst (elfc_decompress log10 (xr_new bs)) = Err EUnexpectedEndOfChunk.
Proof. exact elfc_total. Qed.
Print Assumptions C52_elf_on_chimp_total.
(** No chunk: both ways of decoding some made-up bytes. *)
Example C52_xor_example :
  fst (gorilla_decompress (xr_new [255; 0; 255; 0; 255; 0; 255; 0; 171; 205])) = Err EUnexpectedEndOfChunk /\
  fst (chimp_decompress (xr_new [127; 248; 0; 0; 0; 0; 0; 0])) = Ok [] /\
  fst (chimp128_decompress (xr_new (repeat 1 8 ++ [0; 128; 16; 255; 192; 0; 0; 0; 0; 0; 0; 0; 0]))) = Err EUnexpectedEndOfChunk.
Proof. vm_compute. repeat split. Qed.

(** As many records as the chunk is said to have, or an I/O error when bytes are
    missing; the same for the iterator. *)
Theorem C52_uncompressed_total : forall n bs,
  match fst (unc_decompress (unc_open n bs)) with
  | Ok vs => N.of_nat (length vs) = n /\ 8 * n <= N.of_nat (length bs)
  | Err e => e = EIO /\ N.of_nat (length bs) < 8 * n
  | Panic => False
  end.
Proof. exact uncompressed_total. Qed.
Print Assumptions C52_uncompressed_total.
Theorem C52_uncompressed_iterator_total : forall n bs,
  match unc_iter (unc_open n bs) with
  | Ok vs => N.of_nat (length vs) = n /\ 8 * n <= N.of_nat (length bs)
  | Err e => e = EIO /\ N.of_nat (length bs) < 8 * n
  | Panic => False
  end.
Proof. exact uncompressed_iter_total. Qed.
Print Assumptions C52_uncompressed_iterator_total.

(** Zstd, Gzip, Snappy: whatever the library makes of the bytes; the scheme adds a
    panic only in debug builds of Gzip and Snappy, for a chunk holding more
    records than the footer says. *)
Theorem C52_zstd_total : forall unpack n bs,
  match unpack bs, zstd_decode unpack n bs with
  | Ok out, Ok vs => N.of_nat (length out) <= 8 * n /\ N.of_nat (length vs) = n
  | Ok out, Err e => e = EIO /\ 8 * n < N.of_nat (length out)
  | Err e, Err e' => e = e'
  | Panic, Panic => True
  | _, _ => False
  end.
Proof. exact zstd_total. Qed.
Print Assumptions C52_zstd_total.
Theorem C52_gzip_snappy_total : forall unpack dbg n bs,
  match unpack bs, gz_decode unpack dbg n bs with
  | Ok out, Ok vs => 8 * n <= N.of_nat (length out) /\ N.of_nat (length vs) = n
  | Ok out, Err e => e = EIO /\ N.of_nat (length out) < 8 * n
  | Ok out, Panic => dbg = true /\ 8 * n < N.of_nat (length out)
  | Err e, Err e' => e = e'
  | Panic, Panic => True
  | _, _ => False
  end.
Proof. exact gz_total. Qed.
Print Assumptions C52_gzip_snappy_total.
Theorem C52_gzip_snappy_debug_refuted : exists n bs,
  gz_decode (fun b => Ok b) true n bs = Panic /\ exists vs, gz_decode (fun b => Ok b) false n bs = Ok vs.
Proof. exists 0, [1]. split; [reflexivity|]. exists []. reflexivity. Qed.
Print Assumptions C52_gzip_snappy_debug_refuted.

(** ** C60: the number of input bytes a compressor reports *)
(** After [compress], the bytes of the records just given, whatever the compressor
    was used for before. *)
Theorem C60_counts_the_chunk :
  (forall c xs, xin (gorilla_compress c xs) = 8 * N.of_nat (length xs)) /\
  (forall c xs, xin (chimp_compress c xs) = 8 * N.of_nat (length xs)) /\
  (forall c xs, xin (chimp128_compress c xs) = 8 * N.of_nat (length xs)) /\
  (forall log10 c xs, xin (elf_compress log10 c xs) = 8 * N.of_nat (length xs)) /\
  (forall log10 c xs, xin (elfc_compress log10 c xs) = 8 * N.of_nat (length xs)) /\
  (forall c xs, un_in (unc_compress c xs) = 8 * N.of_nat (length xs)) /\
  (forall c xs c', rle_compress c xs = Ok c' -> rl_in c' = 8 * N.of_nat (length xs)) /\
  (forall dbg c xs c', sp_compress dbg c xs = Ok c' -> sp_in c' = 8 * N.of_nat (length xs)) /\
  (forall pack c xs c', gz_compress pack c xs = Ok c' -> bc_in c' = 8 * N.of_nat (length xs)) /\
  (forall pack dbg c xs c', alp_compress pack dbg c xs = Ok c' -> alp_in c' = 8 * N.of_nat (length xs)).
Proof.
  repeat split; intros; try apply xor_counts; eauto using rle_counts, sprintz_counts, gz_counts, alp_counts.
Qed.
Print Assumptions C60_counts_the_chunk.
(** Zstd and BUFF do not reset before compressing: the counts of all chunks since
    the last [reset] add up. *)
Theorem C60_zstd_accumulates : forall pack c xs c', zstd_compress pack c xs = Ok c' ->
  bc_in c' = bc_in c + 8 * N.of_nat (length xs).
Proof.
  intros pack c xs c'. unfold zstd_compress. destruct (pack _); [|discriminate|discriminate].
  intros H. injection H as <-. cbn [bc_in]. rewrite length_bytes_of. f_equal. now rewrite Nnat.Nat2N.inj_mul.
Qed.
Print Assumptions C60_zstd_accumulates.
Theorem C60_buff_accumulates : forall dbg lg scale c xs c', bf_compress dbg lg scale c xs = Ok c' ->
  bf_in c' = bf_in c + 8 * N.of_nat (length xs).
Proof.
  intros dbg lg scale c xs c'. unfold bf_compress. destruct (bf_encode _ _ _ _); [|discriminate|discriminate].
  intros H. injection H as <-. reflexivity.
Qed.
Print Assumptions C60_buff_accumulates.
Theorem C60_zstd_reuse_refuted : exists c c', zstd_compress (fun b => Ok b) bc_new [1] = Ok c /\
  zstd_compress (fun b => Ok b) c [2] = Ok c' /\ bc_in c' = 16.
Proof. do 2 eexists. split; [reflexivity|]. split; reflexivity. Qed.
Print Assumptions C60_zstd_reuse_refuted.
(** Rewinding an Uncompressed compressor does not lower the count. *)
Theorem C60_rewind_refuted : exists calls, Forall op_u64 calls /\
  un_in (fst (unc_run unc_new calls)) <> 8 * N.of_nat (length (fst (raw_run [] calls))).
Proof.
  exists [OCompress [1; 2]; ORewind 1]. split; [repeat constructor; vm_compute; reflexivity|].
  vm_compute. discriminate.
Qed.
Print Assumptions C60_rewind_refuted.
