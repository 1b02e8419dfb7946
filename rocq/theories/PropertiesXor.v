(** C04-C06, C09 and the XOR-codec parts of C43 and C44: Gorilla, Chimp and
    Chimp128.  A record is a 64-bit pattern ([f64::to_bits]); [nan_bits] is the
    pattern of [f64::NAN].  Specification vocabulary: XorSpec.v. *)
From Verif Require Import Base BitIO Xor XorSpec XorProofs XorSummary
  Gorilla GorillaProofs Chimp ChimpProofs ChimpN ChimpNProofs.

(** The chunk used by the examples: repeated values, a sign flip, an infinity, a
    subnormal, a non-canonical NaN. *)
Definition xor_sample : list N :=
  [0x3ff0000000000000; 0x3ff0000000000000; 0xbff0000000000000; 0x7ff0000000000000;
   1; 0x3ff0000000000001; 0x7ff8000000000001; 0; 0x4059000000000000].

Example xor_sample_ok : Forall is_u64 xor_sample /\ ~ In nan_bits xor_sample.
Proof. split; [repeat constructor|]. vm_compute. intuition discriminate. Qed.

(** C04: Gorilla returns every chunk unchanged, whatever the compressor [c] did
    before and whatever bytes follow the chunk. *)
Theorem C04_gorilla_lossless : forall c xs after,
  Forall is_u64 xs -> ~ In nan_bits xs -> Forall is_byte after ->
  let bytes := x_buffers (gorilla_prepare (gorilla_compress c xs)) in
  fst (gorilla_decompress (xr_new (bytes ++ after))) = Ok xs.
Proof. exact gorilla_lossless. Qed.
Print Assumptions C04_gorilla_lossless.

Example C04_example :
  let bytes := x_buffers (gorilla_prepare (gorilla_compress (x_new genc ge_init) xor_sample)) in
  fst (gorilla_decompress (xr_new bytes)) = Ok xor_sample /\ (length bytes < 72)%nat.
Proof. vm_compute. split; [reflexivity|lia]. Qed.

(** C05: Chimp returns every chunk unchanged, whatever the compressor [c] did
    before and whatever bytes follow the chunk. *)
Theorem C05_chimp_lossless : forall c xs after,
  Forall is_u64 xs -> ~ In nan_bits xs -> Forall is_byte after ->
  let bytes := x_buffers (chimp_prepare (chimp_compress c xs)) in
  fst (chimp_decompress (xr_new (bytes ++ after))) = Ok xs.
Proof. exact chimp_lossless. Qed.
Print Assumptions C05_chimp_lossless.

Example C05_example :
  let bytes := x_buffers (chimp_prepare (chimp_compress (x_new cenc ce_init) xor_sample)) in
  fst (chimp_decompress (xr_new bytes)) = Ok xor_sample /\ (length bytes < 72)%nat.
Proof. vm_compute. split; [reflexivity|lia]. Qed.

(** C06: Chimp128 returns every chunk unchanged, whatever the compressor [c] did
    before and whatever bytes follow the chunk. *)
Theorem C06_chimp128_lossless : forall c xs after,
  Forall is_u64 xs -> ~ In nan_bits xs -> Forall is_byte after ->
  let bytes := x_buffers (chimp128_prepare (chimp128_compress c xs)) in
  fst (chimp128_decompress (xr_new (bytes ++ after))) = Ok xs.
Proof. exact chimp128_lossless. Qed.
Print Assumptions C06_chimp128_lossless.

Example C06_example :
  let bytes := x_buffers (chimp128_prepare (chimp128_compress (x_new nenc ne_init) xor_sample)) in
  fst (chimp128_decompress (xr_new bytes)) = Ok xor_sample /\ (length bytes < 72)%nat.
Proof. vm_compute. split; [reflexivity|lia]. Qed.

(** C09: decompression returns exactly the records before the first canonical
    NaN. *)
Definition truncates_at_nan (decompressed : list N -> res derr (list N)) : Prop :=
  forall kept lost, Forall is_u64 (kept ++ nan_bits :: lost) -> ~ In nan_bits kept ->
  decompressed (kept ++ nan_bits :: lost) = Ok kept.

Theorem C09_nan_truncates : forall cg cc cn,
  truncates_at_nan (fun xs =>
    fst (gorilla_decompress (xr_new (x_buffers (gorilla_prepare (gorilla_compress cg xs)))))) /\
  truncates_at_nan (fun xs =>
    fst (chimp_decompress (xr_new (x_buffers (chimp_prepare (chimp_compress cc xs)))))) /\
  truncates_at_nan (fun xs =>
    fst (chimp128_decompress (xr_new (x_buffers (chimp128_prepare (chimp128_compress cn xs)))))).
Proof. exact nan_truncates. Qed.
Print Assumptions C09_nan_truncates.

(** So the claim that every sequence round-trips is false for each of them. *)
Theorem C09_every_sequence_roundtrips_refuted : exists xs, Forall is_u64 xs /\
  fst (gorilla_decompress (xr_new (x_buffers (gorilla_prepare
    (gorilla_compress (x_new genc ge_init) xs))))) <> Ok xs /\
  fst (chimp_decompress (xr_new (x_buffers (chimp_prepare
    (chimp_compress (x_new cenc ce_init) xs))))) <> Ok xs /\
  fst (chimp128_decompress (xr_new (x_buffers (chimp128_prepare
    (chimp128_compress (x_new nenc ne_init) xs))))) <> Ok xs.
Proof. exact every_sequence_roundtrips_refuted. Qed.
Print Assumptions C09_every_sequence_roundtrips_refuted.

(** C43 (XOR codecs): the bytes of a chunk are those a new compressor produces,
    after any history of compressed chunks, each closed or not. *)
Definition history {C} (compress : C -> list N -> C) (prepare : C -> C)
    (c : C) (h : list (list N * bool)) : C :=
  fold_left (fun c '(xs, closed) => if closed : bool then prepare (compress c xs) else compress c xs) h c.

Theorem C43_xor_reuse : forall h xs,
  x_buffers (gorilla_prepare (gorilla_compress
    (history gorilla_compress gorilla_prepare (x_new genc ge_init) h) xs)) =
  x_buffers (gorilla_prepare (gorilla_compress (x_new genc ge_init) xs)) /\
  x_buffers (chimp_prepare (chimp_compress
    (history chimp_compress chimp_prepare (x_new cenc ce_init) h) xs)) =
  x_buffers (chimp_prepare (chimp_compress (x_new cenc ce_init) xs)) /\
  x_buffers (chimp128_prepare (chimp128_compress
    (history chimp128_compress chimp128_prepare (x_new nenc ne_init) h) xs)) =
  x_buffers (chimp128_prepare (chimp128_compress (x_new nenc ne_init) xs)).
Proof. intros. repeat split. Qed.
Print Assumptions C43_xor_reuse.

(** C44 (XOR codecs): the size reported before closing against the size of the
    closed chunk; for Chimp128 the chunk must be shorter than 2^32 bits, because
    its size counter is a u32. *)
Theorem C44_gorilla_size : forall c xs, Forall is_u64 xs ->
  let c1 := gorilla_compress c xs in
  let real := N.of_nat (length (x_buffers (gorilla_prepare c1))) in
  real <= gorilla_total_bytes_buffered c1 <= real + 1.
Proof. exact gorilla_size. Qed.
Print Assumptions C44_gorilla_size.

Theorem C44_chimp_size : forall c xs, Forall is_u64 xs ->
  let c1 := chimp_compress c xs in
  let real := N.of_nat (length (x_buffers (chimp_prepare c1))) in
  real <= chimp_total_bytes_buffered c1 <= real + 1.
Proof. exact chimp_size. Qed.
Print Assumptions C44_chimp_size.

Theorem C44_chimp128_size : forall c xs, Forall is_u64 xs ->
  let c1 := chimp128_compress c xs in
  let c2 := chimp128_prepare c1 in
  number_of_bits_written (xw c2) < two32 ->
  chimp128_total_bytes_buffered c1 = N.of_nat (length (x_buffers c2)).
Proof. exact chimp128_size. Qed.
Print Assumptions C44_chimp128_size.

(** The estimate is one byte too large on the first chunk and exact on the second. *)
Example C44_example :
  let est xs := gorilla_total_bytes_buffered (gorilla_compress (x_new genc ge_init) xs) in
  let real xs := N.of_nat (length (x_buffers (gorilla_prepare (gorilla_compress (x_new genc ge_init) xs)))) in
  let a := [1; 1; 1] in
  (est a = real a + 1 /\ est [1; 2] = real [1; 2]) /\
  chimp128_total_bytes_buffered (chimp128_compress (x_new nenc ne_init) xor_sample) = 43.
Proof. vm_compute. repeat split. Qed.
