(** Every decimal has a nearest f64: the quotient of two f64s. *)
From Coq Require Import Reals Lra.
From Flocq Require Import Core BinarySingleNaN.
From Verif Require Import Base Xor F64 F64Proofs F64BitsProofs F64Flocq QuerySpec QueryProofs DecimalSpec.
Local Open Scope Z_scope.

Lemma unit_inverse : (bpow radix2 1074 * bpow radix2 (-1074) = 1)%R.
Proof. rewrite <- bpow_plus. reflexivity. Qed.
Lemma real_of_number y b : is_u64 y -> number y = Some b -> generic_format radix2 fexp64 (IZR b * bpow radix2 (-1074))%R.
Proof.
  intros U E. rewrite (number_scaled y U) in E. pose proof (of_bits_canonical y U) as C.
  assert (X : forall z, canonical z -> finite z -> scaled z = Some b -> generic_format radix2 fexp64 (IZR b * bpow radix2 (-1074))%R).
  { intros z Cz Fz Ez. pose proof (scaled_real z b Cz Fz Ez) as R. replace (IZR b * bpow radix2 (-1074))%R with (real z); [exact (real_format z Cz)|].
    rewrite <- R, Rmult_assoc, unit_inverse, Rmult_1_r. reflexivity. }
  destruct (of_bits y) as [s|s| |s p e]; [apply (X (S754_zero s)); auto; exact I| |discriminate E|apply (X (S754_finite s p e)); auto; exact I].
  assert (G : generic_format radix2 fexp64 (IZR (2 ^ 2098) * bpow radix2 (-1074))%R).
  { replace (IZR (2 ^ 2098)) with (bpow radix2 2098) by (symmetry; apply (IZR_Zpower radix2 2098); clear; lia). rewrite <- bpow_plus. apply format_bpow. clear. lia. }
  destruct s; cbn [scaled signed] in E; injection E as <-; [|exact G].
  change (IZR (Z.neg _)) with (IZR (- 2 ^ 2098)). rewrite opp_IZR, Ropp_mult_distr_l_reverse. apply generic_format_opp. exact G.
Qed.

Lemma nearest_quotient d t : (d <= 12)%N -> Z.abs t <= 2 ^ 53 -> f64_of_decimal d t (to_bits (fdiv (of_Z t) (of_Z (10 ^ Z.of_N d)))).
Proof.
  intros D T. set (q := 10 ^ Z.of_N d). assert (Q : 1 <= q <= 10 ^ 12) by (split; [change 1 with (10 ^ 0)|]; apply Z.pow_le_mono_r; lia).
  assert (Q53 : Z.abs q <= 2 ^ 53) by (change (2 ^ 53) with 9007199254740992; change (10 ^ 12) with 1000000000000 in Q; lia).
  assert (BIG : 2 ^ 53 <= 2 ^ 1000) by (apply Z.pow_le_mono_r; lia).
  pose proof (of_Z_exact t T) as RT. pose proof (of_Z_exact q Q53) as RQ.
  destruct (of_Z_real t ltac:(lia)) as (_ & FT & CT). destruct (of_Z_real q ltac:(lia)) as (_ & FQ & CQ).
  assert (q0 : (0 < IZR q)%R) by (apply IZR_lt; lia). assert (q1 : (1 <= IZR q)%R) by (apply IZR_le; lia).
  assert (SM : (Rabs (rnd (IZR t / IZR q)) <= bpow radix2 53)%R).
  { apply rnd_abs_le; [apply format_bpow; clear; lia|]. unfold Rdiv. rewrite Rabs_mult, (Rabs_pos_eq (/ IZR q)) by (left; now apply Rinv_0_lt_compat).
    rewrite <- abs_IZR. apply Rle_trans with (IZR (Z.abs t) * 1)%R.
    - apply Rmult_le_compat_l; [apply IZR_le; lia|]. rewrite <- Rinv_1. apply Rinv_le; lra.
    - rewrite Rmult_1_r. replace (bpow radix2 53) with (IZR (2 ^ 53)) by (apply (IZR_Zpower radix2 53); clear; lia). now apply IZR_le. }
  destruct (fdiv_real (of_Z t) (of_Z q) CT CQ FT) as (R & F & C).
  { rewrite RQ. lra. }
  { rewrite RT, RQ. apply Rle_lt_trans with (1 := SM). apply bpow_lt. reflexivity. }
  rewrite RT, RQ in R. set (z := fdiv (of_Z t) (of_Z q)) in *. clearbody z.
  pose proof (to_bits_bound z C) as UZ. split; [exact UZ|].
  assert (EA : exists a, scaled z = Some a) by (destruct z; cbn in *; try tauto; eauto). destruct EA as [a EA].
  exists a. split; [rewrite (number_scaled _ UZ), (of_to_bits z C); exact EA|]. pose proof (scaled_real z a C F EA) as RA. rewrite R in RA.
  intros y b UY NY. pose proof (real_of_number y b UY NY) as G. set (r := (IZR t / IZR q)%R) in *.
  destruct (round_N_pt radix2 fexp64 (fun n => negb (Z.even n)) r) as [_ M]. specialize (M _ G).
  change (round radix2 fexp64 ZnearestE r) with (rnd r) in M.
  set (P := bpow radix2 1074) in *. assert (P0 : (0 < P)%R) by apply bpow_gt_0.
  assert (PI : (bpow radix2 (-1074) * P = 1)%R) by (rewrite Rmult_comm; exact unit_inverse).
  assert (EP : IZR (2 ^ 1074) = P) by (symmetry; apply (IZR_Zpower radix2 1074); clear; lia).
  assert (X : forall w c, IZR c = (w * P)%R -> IZR (Z.abs (c * q - t * 2 ^ 1074)) = (Rabs (w - r) * (P * IZR q))%R).
  { intros w c H. rewrite abs_IZR, minus_IZR, !mult_IZR, H, EP. rewrite <- (Rabs_pos_eq (P * IZR q)) by (apply Rmult_le_pos; lra). rewrite <- Rabs_mult. f_equal.
    unfold r. field. lra. }
  fold q. apply le_IZR. rewrite (X (rnd r) a (eq_sym RA)). rewrite (X (IZR b * bpow radix2 (-1074))%R b).
  - apply Rmult_le_compat_r; [apply Rmult_le_pos; lra|]. exact M.
  - rewrite Rmult_assoc, PI. ring.
Qed.
