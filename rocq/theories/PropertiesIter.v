(** C83 and C84: the record iterators of a chunk.  [call next s k] is what call
    number k of [next] returns, [yields], [ends] and [stays_finished] are in
    IterSpec.v.  [log10] is the platform's logarithm.  No proofs here; see
    IterSummary.v. *)
From Verif Require Import Base BitIO Xor F64 Gorilla Chimp ChimpN Elf ElfXor Uncompressed Rle Sprintz Iter IterSpec IterSummary.

(** ** C83: iterating ends and stays ended *)
(** Whatever the bytes are: when the chunk can be decompressed, iterating returns
    those records and then [None] for ever. *)
Theorem C83_iterates_decompressed_records : forall bytes n vs,
  (fst (gorilla_decompress (xr_new bytes)) = Ok vs -> yields (xi_next gd_next) (xi_start gd_init bytes n) vs) /\
  (fst (chimp_decompress (xr_new bytes)) = Ok vs -> yields (xi_next cd_next) (xi_start cd_init bytes n) vs) /\
  (fst (chimp128_decompress (xr_new bytes)) = Ok vs -> yields (xi_next nd_next) (xi_start nd_init bytes n) vs) /\
  (fst (unc_decompress (mkUnr n bytes None)) = Ok vs -> yields ui_next (ui_start n bytes) vs) /\
  (forall dbg, fst (sp_decompress dbg (sp_open n bytes)) = Ok vs ->
     exists s, si_start (r_new bytes) n = Ok s /\ yields (si_next dbg) s vs) /\
  (forall dbg r, rle_open bytes = Ok r -> rle_iter dbg r = Ok vs -> yields (ri_next dbg) (ri_start r) vs).
Proof. exact c83_iterates_decompressed. Qed.
Print Assumptions C83_iterates_decompressed_records.
(** Elf and ElfOnChimp: the records, then [None] once; no record after that. *)
Theorem C83_elf_iterates_decompressed_records : forall log10 bytes n vs,
  (fst (elf_decompress log10 (xr_new bytes)) = Ok vs -> forall k, (k <= length vs)%nat ->
     call (xi_next (wd_next (elf_recover log10) ldec ld_next)) (xi_start (wd_init ldec ld_init) bytes n) k =
     match nth_error vs k with Some v => Value v | None => Finished end) /\
  (fst (elfc_decompress log10 (xr_new bytes)) = Ok vs -> forall k, (k <= length vs)%nat ->
     call (xi_next (wd_next (elf_recover log10) cdec cd_next)) (xi_start (wd_init cdec cd_init) bytes n) k =
     match nth_error vs k with Some v => Value v | None => Finished end).
Proof. exact c83_elf_iterates_decompressed. Qed.
Print Assumptions C83_elf_iterates_decompressed_records.
Theorem C83_elf_no_record_after_the_end : forall log10 j k v, (j <= k)%nat ->
  (forall s, call (xi_next (wd_next (elf_recover log10) ldec ld_next)) s j = Finished ->
     call (xi_next (wd_next (elf_recover log10) ldec ld_next)) s k <> Value v) /\
  (forall s, call (xi_next (wd_next (elf_recover log10) cdec cd_next)) s j = Finished ->
     call (xi_next (wd_next (elf_recover log10) cdec cd_next)) s k <> Value v).
Proof. exact c83_elf_no_more. Qed.
Print Assumptions C83_elf_no_record_after_the_end.
(** In any state, so also on damaged bytes and after errors: [None] is final.
    Missing: Elf and ElfOnChimp, of which it is false. *)
Theorem C83_ended_stays_partial :
  (forall s, stays_finished (xi_next gd_next) s) /\ (forall s, stays_finished (xi_next cd_next) s) /\
  (forall s, stays_finished (xi_next nd_next) s) /\ (forall s, stays_finished ui_next s) /\
  (forall dbg s, stays_finished (ri_next dbg) s) /\ (forall dbg s, stays_finished (si_next dbg) s).
Proof. exact c83_stays_finished. Qed.
Print Assumptions C83_ended_stays_partial.
(** The iterators of RLE and DeltaSprintz end on any bytes, unless they panic. *)
Theorem C83_ends_on_any_bytes : forall bytes n dbg, Forall is_byte bytes ->
  (forall r, rle_open bytes = Ok r -> (exists k, call (ri_next dbg) (ri_start r) k = Panicked) \/ ends (ri_next dbg) (ri_start r)) /\
  (forall s, si_start (r_new bytes) n = Ok s -> (exists k, call (si_next dbg) s k = Panicked) \/ ends (si_next dbg) s).
Proof. exact c83_ends. Qed.
Print Assumptions C83_ends_on_any_bytes.
Theorem C83_rle_ends_in_release : forall bytes r, Forall is_byte bytes -> rle_open bytes = Ok r -> ends (ri_next false) (ri_start r).
Proof. exact c83_rle_release_ends. Qed.
Print Assumptions C83_rle_ends_in_release.

(** Refuted: a loop that skips errors never ends on a cut-off chunk. *)
Theorem C83_truncated_chunk_refuted : forall bytes n k, N.of_nat (length bytes) < 8 * n -> call ui_next (ui_start n bytes) k <> Finished.
Proof. exact c83_truncated. Qed.
Print Assumptions C83_truncated_chunk_refuted.
Theorem C83_short_chunk_refuted : forall bytes n k, (length bytes < 8)%nat ->
  call (xi_next gd_next) (xi_start gd_init bytes n) k = Failed /\ call (xi_next cd_next) (xi_start cd_init bytes n) k = Failed /\
  call (xi_next nd_next) (xi_start nd_init bytes n) k = Failed.
Proof. exact c83_short. Qed.
Print Assumptions C83_short_chunk_refuted.
(** Refuted: on an undamaged chunk, [None] from Elf and ElfOnChimp is followed by
    an error. *)
Theorem C83_elf_error_after_the_end_refuted : exists xs, forall log10,
  (let bytes := x_buffers (elf_prepare (elf_compress log10 (x_new (wenc lenc) (we_init lenc le_init)) xs)) in
   fst (elf_decompress log10 (xr_new bytes)) = Ok xs /\
   exists j k, (j < k)%nat /\
     let calls := call (xi_next (wd_next (elf_recover log10) ldec ld_next)) (xi_start (wd_init ldec ld_init) bytes (N.of_nat (length xs))) in
     calls j = Finished /\ calls k = Failed) /\
  (let bytes := x_buffers (elfc_prepare (elfc_compress log10 (x_new (wenc cenc) (we_init cenc ce_init)) xs)) in
   fst (elfc_decompress log10 (xr_new bytes)) = Ok xs /\
   exists j k, (j < k)%nat /\
     let calls := call (xi_next (wd_next (elf_recover log10) cdec cd_next)) (xi_start (wd_init cdec cd_init) bytes (N.of_nat (length xs))) in
     calls j = Finished /\ calls k = Failed).
Proof.
  exists [0x3fb999999999999a; 0x3fb999999999999a; 0x40091eb851eb851f]. intros.
  split; (split; [vm_compute; reflexivity|]); exists 3%nat, 12%nat; (split; [lia|vm_compute; split; reflexivity]).
Qed.
Print Assumptions C83_elf_error_after_the_end_refuted.

(** Two values with Gorilla, a run with RLE, two values with DeltaSprintz, and a
    chunk of two records cut to 12 bytes. *)
Example C83_example :
  let bytes := x_buffers (gorilla_prepare (gorilla_compress (x_new genc ge_init) [1; 0x3ff0000000000000])) in
  map (call (xi_next gd_next) (xi_start gd_init bytes 2)) [0; 1; 2; 3]%nat = [Value 1; Value 0x3ff0000000000000; Finished; Finished] /\
  (exists r, rle_open (le_bytes 8 1 ++ 2 :: le_bytes 8 7) = Ok r /\
     map (call (ri_next true) (ri_start r)) [0; 1; 2; 3]%nat = [Value 7; Value 7; Finished; Finished]) /\
  match (do c <- sp_compress true (sp_new 10) [0x3fd5c28f5c28f5c3; 0x4059000000000000] ; si_start (r_new (sp_buffers c)) 2) with
  | Ok s => map (call (si_next true) s) [0; 1; 2; 3]%nat = [Value 0x3fd3333333333333; Value 0x4059000000000000; Finished; Finished]
  | _ => False
  end /\
  map (call ui_next (ui_start 2 (le_bytes 8 5 ++ [1; 2; 3; 4]))) [0; 1; 2; 3]%nat = [Value 5; Failed; Failed; Failed].
Proof.
  split; [vm_compute; reflexivity|]. split; [eexists; split; [vm_compute; reflexivity|vm_compute; reflexivity]|].
  split; vm_compute; reflexivity.
Qed.

(** ** C84: the length an iterator announces *)
(** Refuted: after k records have been taken, [len] and [size_hint] still announce
    all the records of the chunk although k fewer follow. *)
Theorem C84_remaining_length_refuted : forall cg cc cn xs rest k,
  Forall is_u64 xs -> ~ In nan_bits xs -> Forall is_byte rest ->
  (let s := xi_start gd_init (x_buffers (gorilla_prepare (gorilla_compress cg xs)) ++ rest) (N.of_nat (length xs)) in
   yields (xi_next gd_next) (after (xi_next gd_next) k s) (skipn k xs) /\ xi_len (after (xi_next gd_next) k s) = N.of_nat (length xs)) /\
  (let s := xi_start cd_init (x_buffers (chimp_prepare (chimp_compress cc xs)) ++ rest) (N.of_nat (length xs)) in
   yields (xi_next cd_next) (after (xi_next cd_next) k s) (skipn k xs) /\ xi_len (after (xi_next cd_next) k s) = N.of_nat (length xs)) /\
  (let s := xi_start nd_init (x_buffers (chimp128_prepare (chimp128_compress cn xs)) ++ rest) (N.of_nat (length xs)) in
   yields (xi_next nd_next) (after (xi_next nd_next) k s) (skipn k xs) /\ xi_len (after (xi_next nd_next) k s) = N.of_nat (length xs)).
Proof. intros. split; [now apply c84_gorilla|split; [now apply c84_chimp|now apply c84_chimp128]]. Qed.
Print Assumptions C84_remaining_length_refuted.
(** Right before the first call. *)
Theorem C84_initial_length_partial : forall c xs rest, Forall is_u64 xs -> ~ In nan_bits xs -> Forall is_byte rest ->
  let s := xi_start gd_init (x_buffers (gorilla_prepare (gorilla_compress c xs)) ++ rest) (N.of_nat (length xs)) in
  forall vs, yields (xi_next gd_next) s vs -> xi_len s = N.of_nat (length vs).
Proof. exact c84_initial. Qed.
Print Assumptions C84_initial_length_partial.
Example C84_example :
  let bytes := x_buffers (chimp_prepare (chimp_compress (x_new cenc ce_init) [1; 0x3ff0000000000000])) in
  let s := after (xi_next cd_next) 2 (xi_start cd_init bytes 2) in
  call (xi_next cd_next) s 0 = Finished /\ xi_len s = 2.
Proof. vm_compute. split; reflexivity. Qed.

(** ** C85: iterating does not use a reader up *)
(** Refuted: a second iterator goes on where the first one stopped.  Uncompressed,
    every chunk, after k records: it returns the records after those and then errors
    for ever, and the chunk can no longer be decompressed. *)
Theorem C85_uncompressed_second_iteration_refuted : forall c xs k, Forall is_u64 xs -> (0 < k <= length xs)%nat ->
  let n := N.of_nat (length xs) in
  let r := after ui_next k (ui_start n (unc_buffers (unc_prepare (unc_compress c xs)))) in
  (forall j, call ui_next (ui_start n (ui_cursor r)) j = match nth_error (skipn k xs) j with Some v => Value v | None => Failed end) /\
  exists e, fst (unc_decompress (mkUnr n (ui_cursor r) None)) = Err e.
Proof. exact c85_uncompressed. Qed.
Print Assumptions C85_uncompressed_second_iteration_refuted.
(** Gorilla, Chimp and Chimp128: after one record, the second iterator returns, as if
    nothing were wrong, a value that is not in the chunk. *)
Theorem C85_xor_second_iteration_refuted : exists xs, Forall is_u64 xs /\ ~ In nan_bits xs /\
  let wrong (first : item) := exists v, first = Value v /\ ~ In v xs in
  let n := N.of_nat (length xs) in
  (let r := xi_r (after (xi_next gd_next) 1 (xi_start gd_init (x_buffers (gorilla_prepare (gorilla_compress (x_new genc ge_init) xs))) n)) in
   wrong (call (xi_next gd_next) (mkXI gd_init r n) 0)) /\
  (let r := xi_r (after (xi_next cd_next) 1 (xi_start cd_init (x_buffers (chimp_prepare (chimp_compress (x_new cenc ce_init) xs))) n)) in
   wrong (call (xi_next cd_next) (mkXI cd_init r n) 0)) /\
  (let r := xi_r (after (xi_next nd_next) 1 (xi_start nd_init (x_buffers (chimp128_prepare (chimp128_compress (x_new nenc ne_init) xs))) n)) in
   wrong (call (xi_next nd_next) (mkXI nd_init r n) 0)).
Proof.
  exists [0x3ff0000000000000; 0x4009249249249249; 0x4019249249249243; 0xc009249249249247; 0x4009249249249249].
  split; [repeat constructor|]. split; [vm_compute; intuition discriminate|]. vm_compute.
  split; [|split]; (eexists; split; [reflexivity|intuition discriminate]).
Qed.
Print Assumptions C85_xor_second_iteration_refuted.
Example C85_example :
  let r := after ui_next 1 (ui_start 3 (unc_buffers (unc_prepare (unc_compress unc_new [5; 6; 7])))) in
  map (call ui_next (ui_start 3 (ui_cursor r))) [0; 1; 2; 3]%nat = [Value 6; Value 7; Failed; Failed].
Proof. vm_compute. reflexivity. Qed.
