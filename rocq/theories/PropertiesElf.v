(** C07, C08 and the Elf part of C09, C43 and C44.  [log10] is the platform's
    logarithm; nothing is assumed about it. *)
From Verif Require Import Base BitIO Xor XorSpec Chimp ElfXor F64 Elf ElfSpec ElfProofs ElfSummary.

(** C07: the XOR stage of Elf returns every chunk unchanged. *)
Theorem C07_elf_xor_lossless : forall c xs after,
  Forall is_u64 xs -> ~ In nan_bits xs -> Forall is_byte after ->
  let bytes := x_buffers (x_prepare lenc le_close (x_compress lenc le_init le_step c xs)) in
  fst (x_decompress ldec ld_init ld_next (xr_new (bytes ++ after))) = Ok xs.
Proof. exact elfxor_lossless. Qed.
Print Assumptions C07_elf_xor_lossless.

Example C07_example :
  let xs := [0x8000000000000000; 0; 0; 0x8000000000000000; 0x3ff0000000000000; 0x3ff0000000000001; 1] in
  fst (x_decompress ldec ld_init ld_next (xr_new (x_buffers (x_prepare lenc le_close
    (x_compress lenc le_init le_step (x_new lenc le_init) xs))))) = Ok xs.
Proof. vm_compute. reflexivity. Qed.

(** C08: a chunk without NaNs comes back unchanged from Elf and from ElfOnChimp
    if each of its values is [recoverable] (ElfSpec.v). *)
Theorem C08_elf_framing : forall log10 c xs after,
  Forall is_u64 xs -> Forall (fun x => is_nan (of_bits x) = false) xs ->
  Forall (recoverable log10) xs -> Forall is_byte after ->
  fst (elf_decompress log10 (xr_new (x_buffers (elf_prepare (elf_compress log10 c xs)) ++ after))) = Ok xs.
Proof. exact elf_lossless. Qed.
Print Assumptions C08_elf_framing.

Theorem C08_elf_on_chimp_framing : forall log10 c xs after,
  Forall is_u64 xs -> Forall (fun x => is_nan (of_bits x) = false) xs ->
  Forall (recoverable log10) xs -> Forall is_byte after ->
  fst (elfc_decompress log10 (xr_new (x_buffers (elfc_prepare (elfc_compress log10 c xs)) ++ after))) = Ok xs.
Proof. exact elfc_lossless. Qed.
Print Assumptions C08_elf_on_chimp_framing.

(** 0.1, 3.14, -2.718281, 100.5, infinity, 0, 1e-3, 3.14: erased and recovered. *)
Definition elf_sample : list N :=
  [0x3fb999999999999a; 0x40091eb851eb851f; 0xc005bf0995aaf790; 0x4059200000000000;
   0x7ff0000000000000; 0; 0x3f50624dd2f1a9fc; 0x40091eb851eb851f].

Example C08_example : forall log10,
  let c := x_new (wenc lenc) (we_init lenc le_init) in
  let bytes := x_buffers (elf_prepare (elf_compress log10 c elf_sample)) in
  fst (elf_decompress log10 (xr_new bytes)) = Ok elf_sample /\
  elf_erase log10 2147483647 0x40091eb851eb851f = Some (3%Z, 4614236885403828224) /\
  (length bytes = 39)%nat.
Proof. intros. vm_compute. repeat split. Qed.

(** Recovery is not exact for every value: 6.893870092000001e-07 comes back as
    6.893870092e-07 from both schemes, whatever [log10] computes. *)
Theorem C08_every_value_recovered_refuted : exists x y, x <> y /\
  is_u64 x /\ is_nan (of_bits x) = false /\ forall log10,
  fst (elf_decompress log10 (xr_new (x_buffers (elf_prepare
    (elf_compress log10 (x_new (wenc lenc) (we_init lenc le_init)) [x]))))) = Ok [y] /\
  fst (elfc_decompress log10 (xr_new (x_buffers (elfc_prepare
    (elfc_compress log10 (x_new (wenc cenc) (we_init cenc ce_init)) [x]))))) = Ok [y].
Proof.
  exists 0x3ea721ca10b7e8e8, 0x3ea721ca10b7e8e7. split; [discriminate|].
  split; [reflexivity|]. split; [reflexivity|]. intros. vm_compute. split; reflexivity.
Qed.
Print Assumptions C08_every_value_recovered_refuted.

(** C09 (Elf): every NaN, not only the canonical one, ends the decoded chunk. *)
Theorem C09_elf_nan_truncates : forall log10 c cc kept x lost,
  Forall is_u64 (kept ++ x :: lost) -> is_nan (of_bits x) = true ->
  Forall (fun y => is_nan (of_bits y) = false) kept ->
  Forall (fun y => is_nan (of_bits y) = true \/ recoverable log10 y) (kept ++ x :: lost) ->
  fst (elf_decompress log10 (xr_new (x_buffers (elf_prepare (elf_compress log10 c (kept ++ x :: lost))) ++ []))) = Ok kept /\
  fst (elfc_decompress log10 (xr_new (x_buffers (elfc_prepare (elfc_compress log10 cc (kept ++ x :: lost))) ++ []))) = Ok kept.
Proof.
  intros log10 c cc kept x lost HX Hx HK HU. split.
  - rewrite elf_roundtrip by auto. rewrite before_any_nan; auto.
  - rewrite elfc_roundtrip by auto. rewrite before_any_nan; auto.
Qed.
Print Assumptions C09_elf_nan_truncates.
