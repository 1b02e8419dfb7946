(** Elf and ElfOnChimp on everyday values. *)
From Verif Require Import Base BitIO Xor XorSpec Chimp ElfXor F64 F64Proofs Elf ElfSpec QuerySpec QueryProofs ElfProofs ElfSummary Format Codecs CodecSpec ElfRangeSpec ElfRangeProofs ElfLargeProofs.

Lemma everyday_parts log10 xs : Forall everyday xs ->
  Forall is_u64 xs /\ Forall (fun x => is_nan (of_bits x) = false) xs /\ Forall (recoverable log10) xs.
Proof.
  intros F. split; [|split]; (eapply Forall_impl; [|exact F]); intros x E; [apply E|apply (everyday_recoverable log10 x E)..].
Qed.
Theorem elf_everyday log10 c xs after : Forall everyday xs -> Forall is_byte after ->
  fst (elf_decompress log10 (xr_new (x_buffers (elf_prepare (elf_compress log10 c xs)) ++ after))) = Ok xs.
Proof. intros F A. destruct (everyday_parts log10 xs F) as (U&N&R). now apply elf_lossless. Qed.
Theorem elfc_everyday log10 c xs after : Forall everyday xs -> Forall is_byte after ->
  fst (elfc_decompress log10 (xr_new (x_buffers (elfc_prepare (elfc_compress log10 c xs)) ++ after))) = Ok xs.
Proof. intros F A. destruct (everyday_parts log10 xs F) as (U&N&R). now apply elfc_lossless. Qed.
Theorem everyday_storable log10 u x : everyday x -> storable log10 (CElf u) x /\ storable log10 (CElfOnChimp u) x.
Proof. intros E. split; exact (everyday_recoverable log10 x E). Qed.

(** 1e-6, -0.1, 1/3, 999999999.999, -0, infinity, 2.5. *)
Definition everyday_sample : list N :=
  [0x3eb0c6f7a0b5ed8d; 0xbfb999999999999a; 0x3fd5555555555555; 0x41cdcd64ffffdf3b; 0x8000000000000000; 0x7ff0000000000000; 0x4004000000000000].
Lemma everyday_sample_ok : Forall everyday everyday_sample.
Proof.
  repeat constructor; (eexists; split; [vm_compute; reflexivity|]);
  first [left; reflexivity|right; left; reflexivity|right; right; split; vm_compute; [discriminate|reflexivity]].
Qed.

(** ** With an accurate logarithm *)
Lemma not_tiny_parts log10 xs : log10_accurate log10 -> Forall not_tiny xs ->
  Forall is_u64 xs /\ Forall (fun x => is_nan (of_bits x) = false) xs /\ Forall (recoverable log10) xs.
Proof.
  intros LA F. split; [|split]; (eapply Forall_impl; [|exact F]); intros x E; [apply E|apply (not_tiny_recoverable log10 x LA E)..].
Qed.
Theorem elf_not_tiny log10 c xs after : log10_accurate log10 -> Forall not_tiny xs -> Forall is_byte after ->
  fst (elf_decompress log10 (xr_new (x_buffers (elf_prepare (elf_compress log10 c xs)) ++ after))) = Ok xs.
Proof. intros LA F A. destruct (not_tiny_parts log10 xs LA F) as (U&N&R). now apply elf_lossless. Qed.
Theorem elfc_not_tiny log10 c xs after : log10_accurate log10 -> Forall not_tiny xs -> Forall is_byte after ->
  fst (elfc_decompress log10 (xr_new (x_buffers (elfc_prepare (elfc_compress log10 c xs)) ++ after))) = Ok xs.
Proof. intros LA F A. destruct (not_tiny_parts log10 xs LA F) as (U&N&R). now apply elfc_lossless. Qed.
Theorem not_tiny_storable log10 u x : log10_accurate log10 -> not_tiny x -> storable log10 (CElf u) x /\ storable log10 (CElfOnChimp u) x.
Proof. intros LA E. split; exact (not_tiny_recoverable log10 x LA E). Qed.

(** A crude logarithm that is accurate in this sense: [k] at 10^k, [k + 1/2]
    above it, with [k] from 9 to 16. *)
Definition step_index (a : f64) : Z :=
  fold_left (fun k j => if fle (pow10 j) a then Z.of_N j else k) [10; 11; 12; 13; 14; 15; 16] 9%Z.
Definition step_log10 (a : f64) : f64 :=
  let k := step_index a in
  if feq a (pow10 (Z.to_N k)) then of_Z k else fadd (of_Z k) (of_bits 0x3fe0000000000000).

Definition nine_to_16 : list Z := [9; 10; 11; 12; 13; 14; 15; 16]%Z.
Lemma in_9_16 k : (9 <= k <= 16)%Z -> In k nine_to_16.
Proof. unfold nine_to_16. cbn [In]. lia. Qed.
Definition step_ok (k : Z) : bool :=
  let e := of_Z k in let h := fadd (of_Z k) (of_bits 0x3fe0000000000000) in
  (to_bits e <? two64) && (to_bits h <? two64) && feq (of_bits (to_bits e)) e && feq (of_bits (to_bits h)) h &&
  fle e (of_Z 309) && fle h (of_Z 309) &&
  forallb (fun j => Bool.eqb (fle (of_Z j) e) (j <=? k)%Z && Bool.eqb (flt e (of_Z j)) (k <? j)%Z && Bool.eqb (flt (of_Z j) e) (j <? k)%Z &&
    Bool.eqb (fle (of_Z j) h) (j <=? k)%Z && Bool.eqb (flt h (of_Z j)) (k <? j)%Z && Bool.eqb (flt (of_Z j) h) (j <=? k)%Z) nine_to_16.
Lemma steps_ok k : (9 <= k <= 16)%Z -> step_ok k = true.
Proof.
  intros H. assert (G : forallb step_ok nine_to_16 = true) by (vm_compute; reflexivity).
  rewrite forallb_forall in G. apply G, in_9_16, H.
Qed.
Lemma steps_bits k : (9 <= k <= 16)%Z -> of_bits (to_bits (of_Z k)) = of_Z k /\
  of_bits (to_bits (fadd (of_Z k) (of_bits 0x3fe0000000000000))) = fadd (of_Z k) (of_bits 0x3fe0000000000000).
Proof.
  intros H. pose proof (in_9_16 k H) as I. unfold nine_to_16 in I. cbn [In] in I.
  repeat (destruct I as [<-|I]; [split; vm_compute; reflexivity|]). destruct I.
Qed.
Lemma pow10_number j : (9 <= j <= 16)%N -> canonical (pow10 j) /\ scaled (pow10 j) = Some (10 ^ Z.of_N j * 2 ^ 1074)%Z.
Proof.
  intros H. assert (I : In j [9; 10; 11; 12; 13; 14; 15; 16]) by (cbn [In]; lia). cbn [In] in I.
  repeat (destruct I as [<-|I]; [split; [vm_compute; right; repeat split; discriminate|vm_compute; reflexivity]|]). destruct I.
Qed.
Lemma step_index_ok x v : is_u64 x -> number x = Some v -> (10 ^ 9 * 2 ^ 1074 <= v)%Z ->
  (9 <= step_index (of_bits x) <= 16)%Z /\ (10 ^ step_index (of_bits x) * 2 ^ 1074 <= v)%Z /\
  (step_index (of_bits x) < 16 -> v < 10 ^ (step_index (of_bits x) + 1) * 2 ^ 1074)%Z.
Proof.
  intros HX N V. pose proof (of_bits_canonical x HX) as C. rewrite (number_scaled x HX) in N.
  assert (G : forall j, (9 <= j <= 16)%N -> fle (pow10 j) (of_bits x) = (10 ^ Z.of_N j * 2 ^ 1074 <=? v)%Z).
  { intros j J. destruct (pow10_number j J) as [CJ SJ]. rewrite fle_scaled, SJ, N by assumption. reflexivity. }
  unfold step_index. cbn [fold_left]. rewrite !G by lia. clear G C N.
  change (Z.of_N 10) with 10%Z. change (Z.of_N 11) with 11%Z. change (Z.of_N 12) with 12%Z. change (Z.of_N 13) with 13%Z.
  change (Z.of_N 14) with 14%Z. change (Z.of_N 15) with 15%Z. change (Z.of_N 16) with 16%Z.
  assert (U : (0 < 2 ^ 1074)%Z) by (apply Z.pow_pos_nonneg; lia). revert V U. generalize (2 ^ 1074)%Z. intros U V UP.
  change (10 ^ 9)%Z with 1000000000%Z in *. change (10 ^ 10)%Z with 10000000000%Z. change (10 ^ 11)%Z with 100000000000%Z.
  change (10 ^ 12)%Z with 1000000000000%Z. change (10 ^ 13)%Z with 10000000000000%Z. change (10 ^ 14)%Z with 100000000000000%Z.
  change (10 ^ 15)%Z with 1000000000000000%Z. change (10 ^ 16)%Z with 10000000000000000%Z.
  destruct (Z.leb_spec (10000000000 * U) v), (Z.leb_spec (100000000000 * U) v), (Z.leb_spec (1000000000000 * U) v), (Z.leb_spec (10000000000000 * U) v),
    (Z.leb_spec (100000000000000 * U) v), (Z.leb_spec (1000000000000000 * U) v), (Z.leb_spec (10000000000000000 * U) v); try lia;
  (split; [lia|split; [try exact V; try assumption|intros ?; try lia; try assumption]]).
Qed.
Theorem step_log10_accurate : log10_accurate step_log10.
Proof.
  intros x v HX N V. destruct (step_index_ok x v HX N (proj1 V)) as (K&K1&K2).
  set (k := step_index (of_bits x)) in *. pose proof (steps_ok k K) as S. destruct (steps_bits k K) as [BE BH].
  unfold step_ok in S. cbv zeta in S. rewrite !andb_true_iff, !N.ltb_lt in S. destruct S as ((((((S1&S2)&_)&_)&S3)&S4)&S5). rewrite forallb_forall in S5.
  assert (PE : feq (of_bits x) (pow10 (Z.to_N k)) = (v =? 10 ^ k * 2 ^ 1074)%Z).
  { destruct (pow10_number (Z.to_N k) ltac:(lia)) as [CJ SJ]. rewrite Z2N.id in SJ by lia.
    rewrite (number_scaled x HX) in N. rewrite feq_scaled, SJ, N by (assumption || apply (of_bits_canonical x HX)). reflexivity. }
  assert (M : forall i j, (0 <= i < j)%Z -> (10 * 10 ^ i <= 10 ^ j)%Z).
  { intros i j H. replace (10 * 10 ^ i)%Z with (10 ^ (i + 1))%Z by (rewrite Z.pow_add_r by lia; ring). apply Z.pow_le_mono_r; lia. }
  assert (P : forall i, (9 <= i)%Z -> (0 < 10 ^ i)%Z) by (intros i H; apply Z.pow_pos_nonneg; lia).
  assert (U : (0 < 2 ^ 1074)%Z) by (apply Z.pow_pos_nonneg; lia). clear N HX.
  unfold step_log10. fold k. rewrite PE. clear PE. destruct V as [V _]. revert K1 K2 U V. generalize (2 ^ 1074)%Z. intros U K1 K2 UP V.
  change (10 ^ 15)%Z with 1000000000000000%Z.
  destruct (Z.eqb_spec v (10 ^ k * U)) as [E|E].
  - exists (to_bits (of_Z k)). rewrite BE. split; [exact S1|]. split; [reflexivity|]. split; [exact S3|].
    intros j J. specialize (S5 j (in_9_16 j J)). rewrite !andb_true_iff, !Bool.eqb_true_iff in S5. destruct S5 as (((((Q1&Q2)&Q3)&_)&_)&_).
    rewrite Q1, Q2, Q3. rewrite Z.leb_le, !Z.ltb_lt. specialize (P j ltac:(lia)) as Pj. specialize (P k ltac:(lia)) as Pk.
    destruct (Z.lt_trichotomy j k) as [T|[T|T]].
    + specialize (M j k ltac:(lia)). split; [lia|]. split; [intros H; exfalso; nia|lia].
    + subst j. split; [lia|]. split; intros; exfalso; nia.
    + specialize (M k j ltac:(lia)). split; [intros _ H; exfalso; nia|]. split; [lia|intros _ H; exfalso; nia].
  - exists (to_bits (fadd (of_Z k) (of_bits 0x3fe0000000000000))). rewrite BH. split; [exact S2|]. split; [reflexivity|]. split; [exact S4|].
    intros j J. specialize (S5 j (in_9_16 j J)). rewrite !andb_true_iff, !Bool.eqb_true_iff in S5. destruct S5 as (((((_&_)&_)&Q1)&Q2)&Q3).
    rewrite Q1, Q2, Q3. rewrite !Z.leb_le, !Z.ltb_lt. specialize (P j ltac:(lia)) as Pj. specialize (P k ltac:(lia)) as Pk.
    destruct (Z.le_gt_cases j k) as [T|T].
    + assert (L : (10 ^ j <= 10 ^ k)%Z) by (apply Z.pow_le_mono_r; lia). split; [lia|]. split; [intros H; exfalso; nia|lia].
    + specialize (K2 ltac:(lia)). assert (L : (10 ^ (k + 1) <= 10 ^ j)%Z) by (apply Z.pow_le_mono_r; lia).
      split; [intros _ H; exfalso; nia|]. split; [lia|intros _ H; exfalso; nia].
Qed.

(** 1e-6, 999999999.999, 1000000000.1, 9999999999.99, 1e14 + 1/64, 1e15, 2^53 + 2, 1e300, the largest f64. *)
Definition not_tiny_sample : list N :=
  [0x3eb0c6f7a0b5ed8d; 0x41cdcd64ffffdf3b; 0x41cdcd650000cccd; 0x4202a05f1fffd70a; 0x42d6bcc41e900001; 0xc30c6bf526340000; 0x4340000000000001; 0x7e37e43c8800759c; 0x7fefffffffffffff].
Lemma not_tiny_sample_ok : Forall not_tiny not_tiny_sample.
Proof.
  repeat (apply Forall_cons; [split; [reflexivity|eexists; split; [vm_compute; reflexivity|right; vm_compute; discriminate]]|]). apply Forall_nil.
Qed.

(** A logarithm of integer values loses 1000000000.1. *)
Theorem bad_log10_loses : exists log10 x, not_tiny x /\
  fst (elf_decompress log10 (xr_new (x_buffers (elf_prepare (elf_compress log10 (x_new _ (we_init lenc le_init)) [x]))))) <> Ok [x].
Proof.
  exists (fun _ => of_Z 9), 0x41cdcd650000cccd. split.
  - split; [reflexivity|]. eexists. split; [vm_compute; reflexivity|right; vm_compute; discriminate].
  - vm_compute. discriminate.
Qed.
