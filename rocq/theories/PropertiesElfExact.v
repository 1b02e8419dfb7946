(** C61: Elf loses no bit. *)
From Verif Require Import Base BitIO Xor XorSpec Chimp ElfXor F64 Elf ElfSpec Format Codecs CodecSpec ElfRangeSpec ElfRangeSummary.

(** C61 in full: every chunk without NaNs comes back bit for bit.  That is false
    ([C08_every_value_recovered_refuted]: 6.89e-7 does not); proved here: zeros, infinities and all numbers from 1e-6 up to 1e9 in magnitude
    ([everyday], ElfRangeSpec.v) come back bit for bit from Elf and from
    ElfOnChimp, in any number, order and mixture.
    No hypothesis on the platform's logarithm [log10].
    Missing: magnitudes below 1e-6, some of which are lost, and from 1e9 on, where
    the code calls [log10] (next theorems). *)
Theorem C61_elf_lossless_partial : forall log10 c xs after,
  Forall everyday xs -> Forall is_byte after ->
  fst (elf_decompress log10 (xr_new (x_buffers (elf_prepare (elf_compress log10 c xs)) ++ after))) = Ok xs.
Proof. exact elf_everyday. Qed.
Print Assumptions C61_elf_lossless_partial.

Theorem C61_elf_on_chimp_lossless_partial : forall log10 c xs after,
  Forall everyday xs -> Forall is_byte after ->
  fst (elfc_decompress log10 (xr_new (x_buffers (elfc_prepare (elfc_compress log10 c xs)) ++ after))) = Ok xs.
Proof. exact elfc_everyday. Qed.
Print Assumptions C61_elf_on_chimp_lossless_partial.

(** Such values are therefore among those the file round trip (C01) returns. *)
Theorem C61_storable_partial : forall log10 u x, everyday x ->
  storable log10 (CElf u) x /\ storable log10 (CElfOnChimp u) x.
Proof. exact everyday_storable. Qed.
Print Assumptions C61_storable_partial.

(** 1e-6, -0.1, 1/3, 999999999.999, -0, infinity, 2.5 are such values. *)
Example C61_example : Forall everyday everyday_sample.
Proof. exact everyday_sample_ok. Qed.

(** C61 for all magnitudes from 1e-6 on, up to the largest f64, if [log10] is
    accurate from 1e9 on ([log10_accurate], ElfRangeSpec.v).  Missing: magnitudes
    below 1e-6, some of which are lost. *)
Theorem C61_elf_lossless_above_micro_partial : forall log10 c xs after,
  log10_accurate log10 -> Forall not_tiny xs -> Forall is_byte after ->
  fst (elf_decompress log10 (xr_new (x_buffers (elf_prepare (elf_compress log10 c xs)) ++ after))) = Ok xs.
Proof. exact elf_not_tiny. Qed.
Print Assumptions C61_elf_lossless_above_micro_partial.

Theorem C61_elf_on_chimp_lossless_above_micro_partial : forall log10 c xs after,
  log10_accurate log10 -> Forall not_tiny xs -> Forall is_byte after ->
  fst (elfc_decompress log10 (xr_new (x_buffers (elfc_prepare (elfc_compress log10 c xs)) ++ after))) = Ok xs.
Proof. exact elfc_not_tiny. Qed.
Print Assumptions C61_elf_on_chimp_lossless_above_micro_partial.

Theorem C61_storable_above_micro_partial : forall log10 u x, log10_accurate log10 -> not_tiny x ->
  storable log10 (CElf u) x /\ storable log10 (CElfOnChimp u) x.
Proof. exact not_tiny_storable. Qed.
Print Assumptions C61_storable_above_micro_partial.

(** Logarithms that accurate exist, and the values are many. *)
Example C61_log10_example : log10_accurate step_log10.
Proof. exact step_log10_accurate. Qed.
Example C61_above_micro_example : Forall not_tiny not_tiny_sample.
Proof. exact not_tiny_sample_ok. Qed.

(** Some hypothesis on [log10] is needed: with one that only gives integers,
    1000000000.1 comes back changed. *)
Theorem C61_any_logarithm_refuted : exists log10 x, not_tiny x /\
  fst (elf_decompress log10 (xr_new (x_buffers (elf_prepare (elf_compress log10 (x_new _ (we_init lenc le_init)) [x]))))) <> Ok [x].
Proof. exact bad_log10_loses. Qed.
Print Assumptions C61_any_logarithm_refuted.
