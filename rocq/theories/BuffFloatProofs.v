From Coq Require Import Reals Lra.
From Flocq Require Import Core BinarySingleNaN.
From Verif Require Import Base WordProofs F64 F64Proofs F64BitsProofs F64Flocq QuerySpec QueryProofs Sprintz SprintzProofs Buff.
Local Open Scope Z_scope.

(** Numbers with at most 53 significant bits. *)
Definition short (z : Z) : Prop := exists m e, Z.abs m <= 2 ^ 53 /\ 0 <= e /\ z = m * 2 ^ e.
Lemma short_rnd z : short z -> rnd (IZR z) = IZR z.
Proof.
  intros (m & e & M & E & ->). apply rnd_id.
  replace (IZR (m * 2 ^ e)) with (F2R (Float radix2 m e)); [apply format_Z; lia|].
  unfold F2R. cbn [Fnum Fexp]. rewrite mult_IZR. f_equal. symmetry. exact (IZR_Zpower radix2 e E).
Qed.
Lemma small_short z : Z.abs z <= 2 ^ 53 -> short z.
Proof. intros H. exists z, 0. rewrite Z.mul_1_r. repeat split; [assumption|lia]. Qed.

Lemma rnd_scale x e : x = 0%R \/ (1 <= Rabs x)%R -> -1000 <= e <= 0 -> rnd (x * bpow radix2 e) = (rnd x * bpow radix2 e)%R.
Proof.
  intros H E. destruct (Req_dec x 0) as [->|NZ]; [rewrite Rmult_0_l, rnd_0; ring|]. destruct H as [H|H]; [contradiction|].
  assert (M : 1 <= mag radix2 x). { apply mag_ge_bpow. cbn [bpow Z.sub Z.opp]. replace (1 - 1) with 0 by lia. exact H. }
  unfold rnd, round, scaled_mantissa, cexp. rewrite (mag_mult_bpow radix2 x e NZ).
  unfold SpecFloat.fexp, SpecFloat.emin. unfold fprec, femax. rewrite !Z.max_l by lia.
  replace (mag radix2 x + e - 53) with (mag radix2 x - 53 + e) by lia.
  unfold F2R. cbn [Fnum Fexp]. rewrite bpow_plus, <- !Rmult_assoc. do 2 f_equal. f_equal. f_equal.
  rewrite Rmult_assoc, <- bpow_plus. do 2 f_equal. lia.
Qed.

Section Fraction.
  Variable f : N.
  Hypothesis F : (f <= 50)%N.
  Let k := Z.of_N f.
  Lemma pow2i_eq : pow2i f = of_Z (2 ^ k).
  Proof using F.
    unfold pow2i. replace (f <? 2147483648)%N with true by lia. fold k. replace (0 <=? k) with true by (unfold k; lia). now replace (k <=? 1023) with true by (unfold k; lia).
  Qed.
  Lemma pow2_pos_ : 0 < 2 ^ k.
  Proof using. clear. apply Z.pow_pos_nonneg; unfold k; lia. Qed.
  Lemma pow2i_real : real (pow2i f) = bpow radix2 k /\ finite (pow2i f) /\ canonical (pow2i f).
  Proof using F.
    rewrite pow2i_eq. assert (B : Z.abs (2 ^ k) <= 2 ^ 50) by (pose proof pow2_pos_; rewrite Z.abs_eq by lia; apply Z.pow_le_mono_r; unfold k; lia).
    split.
    - rewrite of_Z_exact; [|eapply Z.le_trans; [exact B|]; now apply Z.pow_le_mono_r]. apply (IZR_Zpower radix2). unfold k. lia.
    - apply of_Z_real. eapply Z.le_trans; [exact B|]. now apply Z.pow_le_mono_r.
  Qed.
  Lemma int_big z : IZR z = 0%R \/ (1 <= Rabs (IZR z))%R.
  Proof using. clear. destruct (Z.eq_dec z 0) as [->|N]; [now left|]. right. rewrite <- abs_IZR. apply IZR_le. lia. Qed.
  Lemma rnd_big x : x = 0%R \/ (1 <= Rabs x)%R -> rnd x = 0%R \/ (1 <= Rabs (rnd x))%R.
  Proof using.
    clear. intros [->|H]; [left; apply rnd_0|]. right. unfold rnd. apply abs_round_ge_generic; try typeclasses eauto; [|exact H].
    change 1%R with (bpow radix2 0). now apply format_bpow.
  Qed.
  Lemma unfix_real z : Z.abs z <= 2 ^ 100 ->
    real (unfix f z) = (rnd (IZR z) * bpow radix2 (- k))%R /\ finite (unfix f z) /\ canonical (unfix f z).
  Proof using F.
    intros B. destruct pow2i_real as (P1 & P2 & P3). assert (K : 0 <= k <= 50) by (unfold k; lia).
    destruct (of_Z_real z) as (Z1 & Z2 & Z3). { eapply Z.le_trans; [exact B|]. now apply Z.pow_le_mono_r. }
    assert (EQ : (real (of_Z z) / real (pow2i f))%R = (rnd (IZR z) * bpow radix2 (- k))%R) by (rewrite Z1, P1, bpow_opp; reflexivity).
    assert (SC : rnd (rnd (IZR z) * bpow radix2 (- k)) = (rnd (IZR z) * bpow radix2 (- k))%R).
    { rewrite rnd_scale; [|apply rnd_big, int_big|lia]. f_equal. apply rnd_id. apply generic_format_round; typeclasses eauto. }
    destruct (fdiv_real (of_Z z) (pow2i f) Z3 P3 Z2) as (D1 & D2 & D3).
    - rewrite P1. apply Rgt_not_eq, bpow_gt_0.
    - rewrite EQ, SC. rewrite Rabs_mult, (Rabs_pos_eq (bpow _ _)) by apply bpow_ge_0.
      apply Rle_lt_trans with (bpow radix2 100 * bpow radix2 0)%R; [|rewrite <- bpow_plus; now apply bpow_lt].
      apply Rmult_le_compat; [apply Rabs_pos|apply bpow_ge_0|now apply rnd_Z_bound|apply bpow_le; lia].
    - unfold unfix. rewrite EQ, SC in D1. auto.
  Qed.
  Lemma unfix_canonical z : Z.abs z <= 2 ^ 100 -> canonical (unfix f z).
  Proof using F. intros B. now apply unfix_real. Qed.

  Lemma scaled_of_real x a : canonical x -> finite x -> (real x * bpow radix2 1074)%R = IZR a -> scaled x = Some a.
  Proof using.
    clear. intros C Fx E. destruct (scaled x) as [b|] eqn:S; [|destruct x; cbn in *; try contradiction; discriminate].
    f_equal. apply eq_IZR. rewrite <- E. symmetry. now apply scaled_real.
  Qed.
  Lemma unfix_scaled z : Z.abs z <= 2 ^ 100 -> rnd (IZR z) = IZR z -> scaled (unfix f z) = Some (z * 2 ^ (1074 - k)).
  Proof using F.
    intros B E. destruct (unfix_real z B) as (R & Fi & C). apply scaled_of_real; [assumption|assumption|].
    rewrite R, E, Rmult_assoc, <- bpow_plus, mult_IZR. f_equal. replace (- k + 1074) with (1074 - k) by lia.
    symmetry. apply (IZR_Zpower radix2). unfold k. lia.
  Qed.
  Lemma i64_100 z : i64 z -> Z.abs z <= 2 ^ 100.
  Proof using. clear. unfold i64. intros H. apply Z.le_trans with (2 ^ 63); [lia|]. now apply Z.pow_le_mono_r. Qed.
  Lemma unfix_number z : i64 z -> short z -> number (to_bits (unfix f z)) = Some (z * 2 ^ (1074 - k)).
  Proof using F.
    intros I S. pose proof (unfix_canonical z (i64_100 z I)) as C. rewrite number_scaled by now apply to_bits_bound. rewrite of_to_bits by exact C.
    apply unfix_scaled; [now apply i64_100|now apply short_rnd].
  Qed.
  (** In general the quotient is rounded, which keeps the order. *)
  Lemma unfix_mono z1 z2 a1 a2 : i64 z1 -> i64 z2 -> z1 <= z2 -> number (to_bits (unfix f z1)) = Some a1 -> number (to_bits (unfix f z2)) = Some a2 -> a1 <= a2.
  Proof using F.
    intros I1 I2 L N1 N2. destruct (unfix_real z1 (i64_100 z1 I1)) as (R1 & F1 & C1). destruct (unfix_real z2 (i64_100 z2 I2)) as (R2 & F2 & C2).
    rewrite number_scaled, of_to_bits in N1 by (try apply to_bits_bound; exact C1). rewrite number_scaled, of_to_bits in N2 by (try apply to_bits_bound; exact C2).
    apply le_IZR. rewrite <- (scaled_real _ _ C1 F1 N1), <- (scaled_real _ _ C2 F2 N2), R1, R2.
    apply Rmult_le_compat_r; [apply bpow_ge_0|]. apply Rmult_le_compat_r; [apply bpow_ge_0|]. apply rnd_mono. now apply IZR_le.
  Qed.
  Lemma unfix_zero : unfix f 0 = S754_zero false.
  Proof using F.
    unfold unfix. destruct pow2i_real as (P1 & P2 & P3). pose proof (bpow_gt_0 radix2 k) as G. change (of_Z 0) with (S754_zero false).
    destruct (pow2i f) as [s|s| |s p e] eqn:E; cbn [finite] in P2; try contradiction.
    - exfalso. unfold real in P1. cbn in P1. lra.
    - destruct s; [|reflexivity]. exfalso. unfold real in P1. cbn [SF2R cond_Zopp] in P1. pose proof (F2R_lt_0 radix2 (Float radix2 (Z.neg p) e) ltac:(reflexivity)) as H. change (Z.neg p) with (- Z.pos p) in H. rewrite P1 in H. lra.
  Qed.
  Lemma unfix_bits_zero z : i64 z -> number (to_bits (unfix f z)) = Some 0 -> z = 0 /\ to_bits (unfix f z) = 0%N.
  Proof using F.
    intros I E. destruct (unfix_real z (i64_100 z I)) as (R & Fi & C). rewrite number_scaled, of_to_bits in E by (try apply to_bits_bound; exact C).
    pose proof (scaled_real _ _ C Fi E) as S. rewrite R in S. pose proof (bpow_gt_0 radix2 (- k)) as G1. pose proof (bpow_gt_0 radix2 1074) as G2.
    assert (RZ : rnd (IZR z) = 0%R). { apply Rmult_integral in S as [S|S]; [|lra]. apply Rmult_integral in S as [S|S]; [assumption|lra]. }
    destruct (rnd_big _ (int_big z)) as [_|H]; [|rewrite RZ, Rabs_R0 in H; lra].
    assert (Z0 : z = 0). { destruct (int_big z) as [H|H]; [now apply eq_IZR|]. exfalso. assert (Q : (1 <= Rabs (rnd (IZR z)))%R).
      { unfold rnd. apply abs_round_ge_generic; try typeclasses eauto; [|exact H]. change 1%R with (bpow radix2 0). now apply format_bpow. }
      rewrite RZ, Rabs_R0 in Q. lra. }
    split; [exact Z0|]. rewrite Z0, unfix_zero. reflexivity.
  Qed.
  (** n equal records. *)
  Lemma unfix_times z n : i64 z -> short z -> 1 <= n < 2 ^ 32 -> fmul (unfix f z) (of_Z n) = unfix f (z * n).
  Proof using F.
    intros I S N. assert (N1 : Z.abs n <= 2 ^ 53) by (change (2 ^ 53) with 9007199254740992; change (2 ^ 32) with 4294967296 in N; lia).
    pose proof (of_Z_exact n N1) as E. destruct (of_Z_real n) as (_ & Fi & C); [eapply Z.le_trans; [exact N1|]; now apply Z.pow_le_mono_r|].
    destruct (Z.eq_dec z 0) as [->|NZ].
    { rewrite Z.mul_0_l, unfix_zero.
      destruct (of_Z n) as [s|s| |s p e] eqn:EN; cbn [finite] in Fi; try contradiction.
      - exfalso. unfold real in E. cbn in E. change 0%R with (IZR 0) in E. apply eq_IZR in E. lia.
      - destruct s; [|reflexivity]. exfalso. unfold real in E. cbn [SF2R cond_Zopp] in E.
        pose proof (F2R_lt_0 radix2 (Float radix2 (Z.neg p) e) ltac:(reflexivity)) as H. change (Z.neg p) with (- Z.pos p) in H. rewrite E in H. apply lt_IZR in H. lia. }
    assert (B : Z.abs (z * n) <= 2 ^ 100).
    { rewrite Z.abs_mul. apply Z.le_trans with (2 ^ 63 * 2 ^ 32); [|now rewrite <- Z.pow_add_r by lia; apply Z.pow_le_mono_r].
      apply Z.mul_le_mono_nonneg; unfold i64 in I; lia. }
    destruct (unfix_real z (i64_100 z I)) as (R1 & F1 & C1). destruct (unfix_real (z * n) B) as (R2 & F2 & C2). rewrite (short_rnd z S) in R1.
    assert (EQ : (real (unfix f z) * real (of_Z n))%R = (IZR (z * n) * bpow radix2 (- k))%R) by (rewrite R1, E, mult_IZR; ring).
    assert (SC : rnd (IZR (z * n) * bpow radix2 (- k)) = (rnd (IZR (z * n)) * bpow radix2 (- k))%R) by (apply rnd_scale; [apply int_big|unfold k; lia]).
    destruct (fmul_real (unfix f z) (of_Z n) C1 C F1 Fi) as (M1 & M2 & M3).
    { rewrite EQ, SC. rewrite Rabs_mult, (Rabs_pos_eq (bpow _ _)) by apply bpow_ge_0.
      apply Rle_lt_trans with (bpow radix2 100 * bpow radix2 0)%R; [|rewrite <- bpow_plus; now apply bpow_lt].
      apply Rmult_le_compat; [apply Rabs_pos|apply bpow_ge_0|now apply rnd_Z_bound|apply bpow_le; unfold k; lia]. }
    rewrite EQ, SC in M1. apply real_inj; try assumption; [now rewrite M1, R2|]. rewrite M1.
    apply Rmult_integral_contrapositive_currified; [|apply Rgt_not_eq, bpow_gt_0].
    destruct (int_big (z * n)) as [H|H]; [change 0%R with (IZR 0) in H; apply eq_IZR in H; nia|].
    destruct (rnd_big (IZR (z * n)) (or_intror H)) as [Q|Q]; [|intros X; rewrite X, Rabs_R0 in Q; lra].
    intros _. assert (W : (1 <= Rabs (rnd (IZR (z * n))))%R).
    { unfold rnd. apply abs_round_ge_generic; try typeclasses eauto; [|exact H]. change 1%R with (bpow radix2 0). now apply format_bpow. }
    rewrite Q, Rabs_R0 in W. lra.
  Qed.
End Fraction.

(** Fixed-point numbers of f64 values are short. *)
Lemma fixed_short x a f : (x < two64)%N -> number x = Some a -> Z.abs a < 2 ^ 2098 -> (f <= 50)%N -> short (Z.quot (a * 2 ^ Z.of_N f) (2 ^ 1074)).
Proof.
  intros X E A F. rewrite number_scaled in E by exact X. pose proof (of_bits_canonical x X) as C.
  destruct (of_bits x) as [s|s| |s p e]; cbn [scaled] in E; try discriminate.
  - apply some_eq in E. subst a. exists 0, 0. rewrite Z.mul_0_l. split; [now apply Z.pow_nonneg|]. split; [lia|]. rewrite Z.mul_0_l. apply Z.quot_0_l. apply Z.pow_nonzero; discriminate.
  - exfalso. apply some_eq in E. subst a. clear C. assert (0 < 2 ^ 2098) by now apply Z.pow_pos_nonneg. set (t := 2 ^ 2098) in *. clearbody t. destruct s; cbn [signed] in A; lia.
  - apply some_eq in E. pose proof (canonical_exp _ _ _ C) as E1.
    assert (P : Zpos p < 2 ^ 53). { cbn [canonical] in C. change (2 ^ 53) with 9007199254740992 in *. change (2 ^ 52) with 4503599627370496 in *. lia. }
    assert (exists t, t = 1074) as (t & Et) by eauto. rewrite <- Et in *. set (k := Z.of_N f). assert (K : 0 <= k) by (unfold k; lia). clear A.
    assert (Q : exists m q, 0 <= m <= 2 ^ 53 /\ 0 <= q /\ Z.quot (Zpos p * 2 ^ (e + t) * 2 ^ k) (2 ^ t) = m * 2 ^ q).
    { destruct (Z_le_gt_dec 0 (e + k)) as [L|L].
      - exists (Zpos p), (e + k). split; [lia|]. split; [lia|]. rewrite <- Z.mul_assoc, <- Z.pow_add_r by lia.
        replace (e + t + k) with (e + k + t) by lia. rewrite Z.pow_add_r, Z.mul_assoc by lia. apply Z.quot_mul. apply Z.pow_nonzero; lia.
      - exists (Zpos p / 2 ^ (- (e + k))), 0. assert (U : 0 < 2 ^ (- (e + k))) by (apply Z.pow_pos_nonneg; lia). split.
        + clear Et E1 L C. split; [apply Z.div_pos; lia|]. apply Z.div_le_upper_bound; [assumption|]. apply Z.le_trans with (1 * 2 ^ 53); [lia|]. apply Z.mul_le_mono_nonneg_r; lia.
        + split; [lia|]. rewrite Z.mul_1_r, <- Z.mul_assoc, <- Z.pow_add_r by lia. set (u := e + t + k) in *.
          replace t with (- (e + k) + u) by (unfold u; lia). rewrite Z.pow_add_r by (unfold u; lia).
          assert (0 < 2 ^ u) by (apply Z.pow_pos_nonneg; unfold u; lia). rewrite Z.quot_mul_cancel_r by (apply Z.pow_nonzero; unfold u; lia).
          apply Z.quot_div_nonneg; lia. }
    destruct Q as (m & q & M & Q0 & Q). subst a. exists (if s then - m else m), q. split; [destruct s; lia|]. split; [assumption|].
    destruct s; cbn [signed]; [|exact Q]. rewrite Z.mul_opp_l, Z.quot_opp_l by (apply Z.pow_nonzero; lia). rewrite Q. ring.
Qed.
