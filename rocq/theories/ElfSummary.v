(** Corollaries of the Elf round trips, in the form of PropertiesElf.v. *)
From Verif Require Import Base BitIO BitIOProofs WordProofs Xor XorSpec XorProofs XorSummary
  GorillaProofs Chimp ChimpProofs ElfXor ElfXorProofs F64 Elf ElfProofs.

(** The XOR stage alone, driven like any other codec. *)
Lemma elfxor_roundtrip c xs junk : Forall is_u64 xs -> Forall is_byte junk ->
  fst (x_decompress ldec ld_init ld_next
    (xr_new (x_buffers (x_prepare lenc le_close (x_compress lenc le_init le_step c xs)) ++ junk)))
  = Ok (before_nan xs).
Proof.
  intros HX HJ.
  apply (x_roundtrip lenc ldec le_init ld_init le_step le_close ld_next le_inv l_sim is_u64); auto.
  - split; cbn; [reflexivity|lia].
  - repeat split; cbn; auto; intros; try discriminate; lia.
  - intros e x HE Hx. destruct (l_step e x HE Hx) as (bs & e' & H1 & H2 & [H3 _] & H4). eauto 10.
  - intros e HE. destruct (l_close e HE) as (bs & e' & H1 & _ & H2). eauto.
  - apply nan_u64.
Qed.

Lemma elfxor_lossless c xs after : Forall is_u64 xs -> ~ In nan_bits xs -> Forall is_byte after ->
  let bytes := x_buffers (x_prepare lenc le_close (x_compress lenc le_init le_step c xs)) in
  fst (x_decompress ldec ld_init ld_next (xr_new (bytes ++ after))) = Ok xs.
Proof. intros HX HN HA bytes. subst bytes. rewrite elfxor_roundtrip, before_nan_id; auto. Qed.

Lemma map_canon_id xs : Forall (fun x => nan_pattern x = false) xs -> map canon xs = xs.
Proof.
  induction 1 as [|x xs Hx HX IH]; cbn [map]; auto. rewrite IH. unfold canon. rewrite Hx. auto.
Qed.

Lemma no_nan_before xs : Forall (fun x => nan_pattern x = false) xs -> before_nan (map canon xs) = xs.
Proof.
  intros H. rewrite map_canon_id by auto. apply before_nan_id. intros HI.
  rewrite Forall_forall in H. specialize (H _ HI). vm_compute in H. discriminate.
Qed.

Lemma before_any_nan kept x lost : Forall (fun x => nan_pattern x = false) kept -> nan_pattern x = true ->
  before_nan (map canon (kept ++ x :: lost)) = kept.
Proof.
  intros HK Hx. rewrite map_app. cbn [map]. rewrite map_canon_id by auto. unfold canon at 1. rewrite Hx.
  apply before_nan_app. intros HI. rewrite Forall_forall in HK. specialize (HK _ HI). vm_compute in HK. discriminate.
Qed.

Lemma elf_lossless log10 c xs after : Forall is_u64 xs -> Forall (fun x => nan_pattern x = false) xs ->
  Forall (undone (elf_erase log10) (elf_recover log10)) xs -> Forall is_byte after ->
  fst (elf_decompress log10 (xr_new (x_buffers (elf_prepare (elf_compress log10 c xs)) ++ after))) = Ok xs.
Proof.
  intros HX HN HU HA. rewrite elf_roundtrip; auto; [rewrite no_nan_before; auto|].
  eapply Forall_impl; [|exact HU]. auto.
Qed.

Lemma elfc_lossless log10 c xs after : Forall is_u64 xs -> Forall (fun x => nan_pattern x = false) xs ->
  Forall (undone (elf_erase log10) (elf_recover log10)) xs -> Forall is_byte after ->
  fst (elfc_decompress log10 (xr_new (x_buffers (elfc_prepare (elfc_compress log10 c xs)) ++ after))) = Ok xs.
Proof.
  intros HX HN HU HA. rewrite elfc_roundtrip; auto; [rewrite no_nan_before; auto|].
  eapply Forall_impl; [|exact HU]. auto.
Qed.
