(** Proofs about the check made before a quantizing scheme is measured. *)
From Coq Require Import Reals Lra.
From Flocq Require Import Core BinarySingleNaN.
From Verif Require Import Base WordProofs Xor F64 F64Proofs F64BitsProofs F64Flocq Format Query QuerySpec QueryProofs Harness HarnessSpec.
Local Open Scope R_scope.

Lemma greatest_spec tie xs : Forall is_u64 xs -> exists z, canonical (greatest_value tie xs) /\ scaled (greatest_value tie xs) = Some z /\ (0 <= z)%Z /\
  (forall x a, In x xs -> number x = Some a -> (a <= z)%Z).
Proof.
  intros U. assert (H : forall l vs a za, Forall is_u64 vs -> Forall is_u64 l -> extreme true vs a za ->
    exists z, extreme true (vs ++ l) (fold_left (fun m x => fmax tie m (of_bits x)) l a) z).
  { induction l as [|v l IH]; intros vs a za UV UL EA; cbn [fold_left]; [rewrite app_nil_r; eauto|].
    inversion UL as [|? ? U1 U2]; subst. destruct (extreme_add true tie vs a za v UV U1 EA) as (z & EZ).
    edestruct (IH (vs ++ [v])) as (z' & E'); [apply Forall_app; split; [exact UV|constructor; [exact U1|constructor]]|exact U2|exact EZ|].
    rewrite <- app_assoc in E'. cbn [app] in E'. eauto. }
  assert (E0 : extreme true [0%N] (S754_zero false) 0).
  { unfold extreme. split; [exact Logic.I|]. split; [reflexivity|]. split; [reflexivity|]. split.
    - assert (0 < top)%Z by (apply Z.pow_pos_nonneg; lia). set (t := top) in *. clearbody t. lia.
    - split; [|right; exists 0%N; split; [apply in_eq|split; reflexivity]].
      intros w b [<-|[]] E. change (number 0%N) with (Some 0%Z) in E. apply some_eq in E. subst b. apply Z.le_refl. }
  destruct (H xs [0%N] (S754_zero false) 0%Z) as (z & C & S & _ & _ & B & _); [constructor; [reflexivity|constructor]|exact U|exact E0|].
  exists z. split; [exact C|]. split; [exact S|]. split.
  - apply (B 0%N 0%Z); [apply in_eq|reflexivity].
  - intros x a I E. apply (B x a); [now right|exact E].
Qed.

Lemma fmul_finite x y : canonical x -> canonical y -> finite x -> finite y -> finite (fmul x y) -> Rabs (rnd (real x * real y)) < bpow radix2 femax.
Proof.
  intros Cx Cy Fx Fy FM. destruct (Rlt_or_le (Rabs (rnd (real x * real y))) (bpow radix2 femax)) as [L|L]; [exact L|exfalso].
  revert FM. rewrite <- (B2SF_B x Cx), <- (B2SF_B y Cy), fmul_eq.
  pose proof (Bmult_correct fprec femax _ _ mode_NE (B x Cx) (B y Cy)) as H.
  rewrite !B_real in H. change (round_mode mode_NE) with ZnearestE in H. fold (rnd (real x * real y)) in H.
  rewrite Rlt_bool_false in H by exact L. rewrite H. unfold binary_overflow. cbn. exact (fun x => x).
Qed.
Lemma fmul_finite_args x y : finite (fmul x y) -> finite x /\ finite y.
Proof. destruct x as [[]|[]| |[]], y as [[]|[]| |[]]; cbn; tauto. Qed.
Lemma finite_is x : Harness.is_finite x = true <-> finite x.
Proof. destruct x; cbn; intuition discriminate. Qed.

Lemma fabs_finite x : finite x -> finite (fabs x).
Proof. destruct x; exact (fun H => H). Qed.
Lemma fabs_canonical x : canonical x -> canonical (fabs x).
Proof. destruct x; exact (fun H => H). Qed.
Lemma fabs_real x : 0 <= real x -> real x <= real (fabs x).
Proof.
  destruct x as [|[]| |[] m e]; intros G; try (apply Rle_refl).
  unfold real, SF2R, fabs, SFabs, F2R in *. cbn [Fnum Fexp cond_Zopp] in *. pose proof (bpow_gt_0 radix2 e).
  assert (IZR (Zneg m) < 0) by (apply IZR_lt; reflexivity). assert (0 < IZR (Zpos m)) by (apply IZR_lt; reflexivity).
  change (- Zpos m)%Z with (Zneg m) in *. nra.
Qed.

(** What a passed check means for values that are not negative. *)
Definition product (x : N) (s : N) : f64 := fmul (of_bits x) (of_Z (Z.of_N s)).
Lemma guard_nonnegative tie lg64 c s xs x a : Forall is_u64 xs -> (s < 2 ^ 64)%N -> scale_of c = Some s ->
  skipped lg64 c (greatest_value tie xs) = false -> In x xs -> number x = Some a -> (0 <= a)%Z ->
  finite (product x s) /\ 0 <= real (product x s) <= bpow radix2 63.
Proof.
  intros U SB SC SK I E A. destruct (greatest_spec tie xs U) as (z & CM & SM & Z0 & B). set (m := greatest_value tie xs) in *. clearbody m.
  specialize (B x a I E). assert (UX : is_u64 x) by (rewrite Forall_forall in U; now apply U).
  unfold skipped in SK. rewrite SC in SK. apply orb_false_iff in SK. destruct SK as [SK _]. apply orb_false_iff in SK. destruct SK as [S1 S2].
  apply negb_false_iff, finite_is in S1. set (q := of_Z (Z.of_N s)) in *.
  destruct (of_Z_real (Z.of_N s)) as (_ & FQ & CQ). { apply Z.le_trans with (2 ^ 64)%Z; [lia|apply Z.pow_le_mono_r; lia]. } fold q in FQ, CQ.
  destruct (fmul_finite_args _ _ S1) as [FM _]. pose proof (fmul_finite _ _ CM CQ FM FQ S1) as L.
  destruct (fmul_real m q CM CQ FM FQ L) as (RM & _ & CMQ).
  pose proof (scaled_real m z CM FM SM) as RZ.
  assert (CX : canonical (of_bits x)) by now apply of_bits_canonical.
  assert (SX : scaled (of_bits x) = Some a) by (rewrite <- number_scaled by exact UX; exact E).
  assert (FX : finite (of_bits x)).
  { destruct (of_bits x) as [|sg| |] eqn:BX; try exact Logic.I; [|discriminate].
    exfalso. cbn [scaled] in SX. apply some_eq in SX.
    assert (LT : (z < top)%Z).
    { clear - CM FM SM. assert (LE := scaled_real m z CM FM SM). destruct (Z.lt_ge_cases z top) as [X|X]; [exact X|exfalso].
      assert (BD : real m < bpow radix2 1024).
      { rewrite <- (B_real m CM). eapply Rle_lt_trans; [apply Rle_abs|]. apply (abs_B2R_lt_emax fprec femax). }
      apply IZR_le in X. rewrite <- LE in X. change (IZR top) with (bpow radix2 2098) in X.
      assert (bpow radix2 2098 = bpow radix2 1024 * bpow radix2 1074) as EB by (rewrite <- bpow_plus; reflexivity). rewrite EB in X.
      apply Rmult_le_reg_r in X; [lra|apply bpow_gt_0]. }
    change (2 ^ 2098)%Z with top in SX. assert (T : (0 < top)%Z) by (apply Z.pow_pos_nonneg; lia). clear - SX A B LT T.
    set (t := top) in *. clearbody t. destruct sg; cbn [signed] in SX; lia. }
  pose proof (scaled_real _ a CX FX SX) as RA. pose proof (bpow_gt_0 radix2 1074) as P.
  assert (X0 : 0 <= real (of_bits x)).
  { apply Rmult_le_reg_r with (bpow radix2 1074); [exact P|]. rewrite Rmult_0_l, RA. exact (IZR_le _ _ A). }
  assert (XM : real (of_bits x) <= real m).
  { apply Rmult_le_reg_r with (bpow radix2 1074); [exact P|]. rewrite RA, RZ. exact (IZR_le _ _ B). }
  assert (Q0 : 0 <= real q).
  { unfold q. destruct (of_Z_real (Z.of_N s)) as (RQ & _). { apply Z.le_trans with (2 ^ 64)%Z; [lia|apply Z.pow_le_mono_r; lia]. }
    rewrite RQ, <- rnd_0. apply rnd_mono. apply IZR_le. lia. }
  assert (R0 : 0 <= rnd (real (of_bits x) * real q)) by (rewrite <- rnd_0; apply rnd_mono; apply Rmult_le_pos; [exact X0|exact Q0]).
  assert (R1 : rnd (real (of_bits x) * real q) <= rnd (real m * real q)) by (apply rnd_mono; apply Rmult_le_compat_r; [exact Q0|exact XM]).
  destruct (fmul_real (of_bits x) q CX CQ FX FQ) as (RX & FP & _).
  { rewrite Rabs_pos_eq by exact R0. apply (Rle_lt_trans _ _ _ R1). apply (Rle_lt_trans _ _ _ (Rle_abs _) L). }
  unfold product. fold q. split; [exact FP|]. rewrite RX. split; [exact R0|]. apply (Rle_trans _ _ _ R1). rewrite <- RM.
  pose proof (fabs_finite _ S1) as FA. pose proof (fabs_canonical _ CMQ) as CA.
  assert (RAB : real (fmul m q) <= real (fabs (fmul m q))) by (apply fabs_real; rewrite RM; exact (Rle_trans _ _ _ R0 R1)).
  apply (Rle_trans _ _ _ RAB).
  destruct (Rlt_or_le (bpow radix2 63) (real (fabs (fmul m q)))) as [LT|LE]; [exfalso|exact LE].
  assert (T63 : canonical (of_bits 0x43e0000000000000) /\ finite (of_bits 0x43e0000000000000) /\ real (of_bits 0x43e0000000000000) = bpow radix2 63).
  { split; [apply of_bits_canonical; reflexivity|]. split; [exact Logic.I|].
    replace (of_bits 0x43e0000000000000) with (S754_finite false 4503599627370496 11) by (vm_compute; reflexivity).
    unfold real, SF2R, F2R. cbn [Fnum Fexp cond_Zopp]. change (IZR 4503599627370496) with (bpow radix2 52). rewrite <- bpow_plus. reflexivity. }
  destruct T63 as (C63 & F63 & R63). rewrite <- R63 in LT. apply (flt_real _ _ C63 CA F63 FA) in LT. congruence.
Qed.
