(** What is claimed about averages and about the check of scales, derived; samples and
    witnesses. *)
From Coq Require Import Reals Lra Psatz String.
From Flocq Require Import Core BinarySingleNaN.
From Verif Require Import Base Xor F64 F64Proofs F64BitsProofs F64Flocq Format Query QuerySpec Harness HarnessSpec HarnessProofs HarnessMeanSpec HarnessMeanProofs HarnessGuardProofs.
Local Open Scope R_scope.

(** ** Averages *)

Lemma map_same {A B} (f g : A -> B) P l : Forall P l -> (forall x, P x -> f x = g x) -> map f l = map g l.
Proof. induction 1 as [|x l H F IH]; intros E; [reflexivity|]. cbn [map]. rewrite (E x H), IH by exact E. reflexivity. Qed.
Lemma c75_throughput n os : million n -> million (length os) -> Forall (runs_of n) os ->
  Forall (fun o => Forall quantity (map r_uncompressed (i_compress o)) /\ Forall quantity (map r_elapsed (i_compress o)) /\ Forall quantity (map r_elapsed (i_materialize o))) os ->
  about (mean (map compression_speed os) / INR n) (average_compression_throughput os) /\
  about (mean (map decompression_speed os) / INR n) (average_decompression_throughput os).
Proof.
  intros N M L Q. assert (H : Forall (fun o => runs_of n o /\ (Forall quantity (map r_uncompressed (i_compress o)) /\ Forall quantity (map r_elapsed (i_compress o)) /\ Forall quantity (map r_elapsed (i_materialize o)))) os).
  { rewrite Forall_forall in *. intros o I. split; [now apply L|now apply Q]. }
  split.
  - rewrite <- mean_scale. rewrite (map_same (fun o => compression_speed o / INR n) (fun o => compression_speed o / INR (length (i_compress o))) _ _ L).
    + apply compression_about; [exact M|]. revert H. apply Forall_impl. intros o ((-> & _) & A & B & _). split; [exact N|]. now split.
    + intros o (-> & _). reflexivity.
  - rewrite <- mean_scale. rewrite (map_same (fun o => decompression_speed o / INR n) (fun o => decompression_speed o / INR (length (i_compress o))) _ _ L).
    + apply decompression_about; [exact M|]. revert H. apply Forall_impl. intros o ((-> & ->) & A & _ & B). split; [exact N|]. split; [exact N|]. now split.
    + intros o (-> & _). reflexivity.
Qed.

(** Ten runs of one data set: 800 bytes in 800 nanoseconds each, to a quarter of the size. *)
Definition ten_runs : inner :=
  let r k := mkResult 0 k (CGorilla 100) 800 800 (of_bits 0x3fd0000000000000) in
  mkInner (repeat (r (Compress "a" (CGorilla 100))) 10) [] (repeat (r (Materialize "a")) 10) [] [].
Lemma ten_runs_total : total (repeat 800%N 10) = 8000.
Proof. unfold total. cbn [repeat map rsum fold_right]. change (Z.of_N 800) with 800%Z. lra. Qed.
Lemma ten_million : million 10 /\ million 1.
Proof. unfold million. split; split; lia. Qed.
Lemma eight_hundred : quantity 800.
Proof. unfold quantity. change (Z.of_N 800) with 800%Z. change (2 ^ 64)%Z with 18446744073709551616%Z. lia. Qed.
Lemma quarter_moderate : moderate_ratio (of_bits 0x3fd0000000000000).
Proof.
  assert (R : real (of_bits 0x3fd0000000000000) = bpow radix2 (-2)).
  { change (of_bits 0x3fd0000000000000) with (S754_finite false 4503599627370496 (-54)). unfold real, BinarySingleNaN.SF2R. cbn [cond_Zopp]. change 4503599627370496%positive with (2 ^ 52)%positive.
    unfold F2R. cbn [Fnum Fexp]. change (Z.pos (2 ^ 52)) with (radix_val radix2 ^ 52)%Z. rewrite IZR_Zpower by lia. rewrite <- bpow_plus. reflexivity. }
  split; [apply of_bits_canonical; vm_compute; reflexivity|]. split; [reflexivity|]. rewrite R. split; apply bpow_le; lia.
Qed.
Lemma c75_sample : million 10 /\ million (length [ten_runs]) /\ Forall (runs_of 10) [ten_runs] /\
  Forall (fun o => Forall quantity (map r_uncompressed (i_compress o)) /\ Forall quantity (map r_elapsed (i_compress o)) /\ Forall quantity (map r_elapsed (i_materialize o))) [ten_runs] /\
  Forall (fun o => million (length (i_compress o)) /\ Forall moderate_ratio (map r_ratio (i_compress o))) [ten_runs] /\
  mean (map compression_speed [ten_runs]) = 1 /\ mean (map decompression_speed [ten_runs]) = 1.
Proof.
  split; [apply ten_million|]. split; [apply ten_million|]. split; [repeat constructor|].
  split; [constructor; [|constructor]; split; [|split]; repeat (constructor; [exact eight_hundred|]); constructor|].
  split; [constructor; [|constructor]; split; [apply ten_million|]; repeat (constructor; [exact quarter_moderate|]); constructor|].
  assert (S1 : compression_speed ten_runs = 1).
  { unfold compression_speed. change (map r_uncompressed (i_compress ten_runs)) with (repeat 800%N 10). change (map r_elapsed (i_compress ten_runs)) with (repeat 800%N 10). rewrite ten_runs_total. lra. }
  assert (S2 : decompression_speed ten_runs = 1).
  { unfold decompression_speed. change (map r_uncompressed (i_compress ten_runs)) with (repeat 800%N 10). change (map r_elapsed (i_materialize ten_runs)) with (repeat 800%N 10). rewrite ten_runs_total. lra. }
  unfold mean. cbn [map length rsum fold_right INR]. rewrite S1, S2. split; lra.
Qed.
Lemma c75_refuted : exists os, os <> [] /\ Forall (runs_of 10) os /\
  Forall (fun o => Forall quantity (map r_uncompressed (i_compress o)) /\ Forall quantity (map r_elapsed (i_compress o)) /\ Forall quantity (map r_elapsed (i_materialize o))) os /\
  ~ about (mean (map compression_speed os)) (average_compression_throughput os) /\
  ~ about (mean (map decompression_speed os)) (average_decompression_throughput os).
Proof.
  exists [ten_runs]. destruct c75_sample as (A & B & C & D & _ & S1 & S2). split; [discriminate|]. split; [exact C|]. split; [exact D|].
  destruct (c75_throughput 10 [ten_runs] A B C D) as ((_ & H1) & (_ & H2)). rewrite S1 in *. rewrite S2 in *.
  change (INR 10) with (1 + 1 + 1 + 1 + 1 + 1 + 1 + 1 + 1 + 1) in H1, H2.
  assert (X : forall x, Rabs (x - 1 / (1 + 1 + 1 + 1 + 1 + 1 + 1 + 1 + 1 + 1)) <= 1 / (1 + 1 + 1 + 1 + 1 + 1 + 1 + 1 + 1 + 1) / 1000000 -> ~ Rabs (x - 1) <= 1 / 1000000).
  { intros x H K. apply Rabs_le_inv in H. apply Rabs_le_inv in K. lra. }
  split; intros (_ & K); [exact (X _ H1 K)|exact (X _ H2 K)].
Qed.

(** ** The check of scales *)
Lemma c77 tie lg64 c s xs x a : Forall is_u64 xs -> (s < 2 ^ 64)%N -> c = CBuff s \/ (exists k, c = CDeltaSprintz k s) ->
  skipped lg64 c (greatest_value tie xs) = false -> In x xs -> number x = Some a -> (0 <= a)%Z ->
  finite (fmul (of_bits x) (of_Z (Z.of_N s))) /\ 0 <= real (fmul (of_bits x) (of_Z (Z.of_N s))) <= bpow radix2 63.
Proof.
  intros U S C. apply guard_nonnegative; [exact U|exact S|]. destruct C as [->|(k & ->)]; reflexivity.
Qed.
Lemma c77_unscaled lg64 c m : (forall s, c <> CBuff s) -> (forall k s, c <> CDeltaSprintz k s) -> skipped lg64 c m = false.
Proof. intros B D. destruct c; try reflexivity; exfalso; [eapply B|eapply D]; reflexivity. Qed.
Definition first_tie (x y : f64) : bool := true.
Definition lg_sample (s : N) : N := if (s =? 1000)%N then 3%N else 0%N.
(** 123.456 and 0. *)
Lemma c77_sample : Forall is_u64 [0x405edd2f1a9fbe77; 0]%N /\ skipped lg_sample (CBuff 1000) (greatest_value first_tie [0x405edd2f1a9fbe77; 0]%N) = false /\
  exists a, number 0x405edd2f1a9fbe77 = Some a /\ (0 <= a)%Z.
Proof.
  split; [repeat constructor|]. split; [vm_compute; reflexivity|]. eexists. split; [vm_compute; reflexivity|]. apply Z.leb_le. vm_compute. reflexivity.
Qed.
(** -1e300 and 2^63. *)
Lemma c77_refuted : exists xs x, Forall ordinary xs /\ In x xs /\ forall tie, skipped lg_sample (CBuff 1000) (greatest_value tie xs) = false /\
  flt (fmul (of_bits x) (of_Z 1000)) (of_bits 0xc3e0000000000000) = true.
Proof.
  exists [0xfe37e43c8800759c]%N, 0xfe37e43c8800759c%N. split.
  { constructor; [|constructor]. split; [reflexivity|]. eexists. split; [vm_compute; reflexivity|]. apply Z.ltb_lt. vm_compute. reflexivity. }
  split; [now left|]. intros tie. split; [|vm_compute; reflexivity].
  unfold greatest_value. cbn [fold_left]. assert (E : fmax tie (S754_zero false) (of_bits 0xfe37e43c8800759c) = S754_zero false) by (vm_compute; reflexivity).
  rewrite E. vm_compute. reflexivity.
Qed.
Lemma c77_boundary_refuted : exists xs x, Forall ordinary xs /\ In x xs /\ forall tie, skipped lg_sample (CDeltaSprintz 100 1) (greatest_value tie xs) = false /\
  fmul (of_bits x) (of_Z 1) = of_Z (2 ^ 63).
Proof.
  exists [0x43e0000000000000]%N, 0x43e0000000000000%N. split.
  { constructor; [|constructor]. split; [reflexivity|]. eexists. split; [vm_compute; reflexivity|]. apply Z.ltb_lt. vm_compute. reflexivity. }
  split; [now left|]. intros tie. split; [|vm_compute; reflexivity].
  unfold greatest_value. cbn [fold_left]. assert (E : fmax tie (S754_zero false) (of_bits 0x43e0000000000000) = of_bits 0x43e0000000000000) by (vm_compute; reflexivity).
  rewrite E. vm_compute. reflexivity.
Qed.
