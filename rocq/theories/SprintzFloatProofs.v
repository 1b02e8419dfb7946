From Coq Require Import Reals Lra.
From Flocq Require Import Core BinarySingleNaN.
From Verif Require Import Base WordProofs F64 F64Proofs F64BitsProofs F64Flocq Sprintz SprintzProofs.
Local Open Scope Z_scope.

Definition scale_ok (s : N) : Prop := 1 <= Z.of_N s < 2 ^ 32.

Section Scale.
  Variable s : N.
  Hypothesis S : scale_ok s.

  Lemma scale_real : real (of_Z (Z.of_N s)) = IZR (Z.of_N s) /\ finite (of_Z (Z.of_N s)) /\ canonical (of_Z (Z.of_N s)).
  Proof using S.
    unfold scale_ok in S. split.
    - apply of_Z_exact. rewrite Z.abs_eq by lia. lia.
    - apply of_Z_real. rewrite Z.abs_eq by lia. apply Z.le_trans with (2 ^ 32); [lia|]. now apply Z.pow_le_mono_r.
  Qed.
  Lemma scale_pos : (1 <= IZR (Z.of_N s))%R.
  Proof using S. unfold scale_ok in S. apply IZR_le. lia. Qed.
  Lemma scale_lt : (IZR (Z.of_N s) < bpow radix2 32)%R.
  Proof using S. unfold scale_ok in S. change (bpow radix2 32) with (IZR (2 ^ 32)). apply IZR_lt. lia. Qed.

  Lemma i64_abs q : i64 q -> Z.abs q <= 2 ^ 63.
  Proof using. unfold i64. lia. Qed.
  Lemma big63 : 2 ^ 63 <= 2 ^ 1000.
  Proof using. now apply Z.pow_le_mono_r. Qed.

  Lemma unq_real q : i64 q ->
    real (unquantize s q) = rnd (rnd (IZR q) / IZR (Z.of_N s)) /\ finite (unquantize s q) /\ canonical (unquantize s q).
  Proof using S.
    intros Q. destruct scale_real as (S1 & S2 & S3). pose proof scale_pos as SP.
    destruct (of_Z_real q) as (Q1 & Q2 & Q3); [pose proof (i64_abs q Q); pose proof big63; lia|].
    unfold unquantize. rewrite <- S1, <- Q1. apply fdiv_real; auto.
    - rewrite S1. lra.
    - rewrite Q1, S1. apply Rle_lt_trans with (bpow radix2 63); [|now apply bpow_lt].
      apply rnd_abs_le; [apply format_bpow; lia|].
      pose proof (rnd_Z_bound q 63 ltac:(lia) (i64_abs q Q)) as B.
      unfold Rdiv. rewrite Rabs_mult, Rabs_inv, (Rabs_pos_eq (IZR _)) by lra.
      rewrite <- (Rmult_1_r (bpow radix2 63)). apply Rmult_le_compat; auto using Rabs_pos.
      + left. apply Rinv_0_lt_compat. lra.
      + rewrite <- Rinv_1. apply Rinv_le; lra.
  Qed.
  Lemma unq_mono q1 q2 : i64 q1 -> i64 q2 -> q1 <= q2 -> (real (unquantize s q1) <= real (unquantize s q2))%R.
  Proof using S.
    intros H1 H2 L. destruct (unq_real q1 H1) as (-> & _). destruct (unq_real q2 H2) as (-> & _).
    pose proof scale_pos. apply rnd_mono. unfold Rdiv. apply Rmult_le_compat_r.
    - left. apply Rinv_0_lt_compat. lra.
    - apply rnd_mono. now apply IZR_le.
  Qed.

  (** Values on the grid come back. *)
  Lemma grid_near q : Z.abs q < 2 ^ 51 ->
    let y := fmul (unquantize s q) (of_Z (Z.of_N s)) in
    finite y /\ canonical y /\ (Rabs (real y - IZR q) < / 2)%R.
  Proof using S.
    intros Q y. destruct scale_real as (S1 & S2 & S3). pose proof scale_pos as SP. pose proof scale_lt as SL.
    assert (I : i64 q) by (unfold i64; change (2 ^ 51) with 2251799813685248 in Q; change (2 ^ 63) with 9223372036854775808; lia).
    destruct (unq_real q I) as (U1 & U2 & U3).
    assert (QE : rnd (IZR q) = IZR q).
    { apply rnd_id. rewrite <- F2R_0e. apply format_Z; [|lia]. change (2 ^ 53) with 9007199254740992. change (2 ^ 51) with 2251799813685248 in Q. lia. }
    rewrite QE in U1. clear QE.
    set (t := IZR (Z.of_N s)) in *. set (r := IZR q) in *.
    assert (AR : (Rabs r <= bpow radix2 51 - 1)%R).
    { unfold r. rewrite <- abs_IZR. change (bpow radix2 51) with (IZR (2 ^ 51)). rewrite <- minus_IZR. apply IZR_le. lia. }
    destruct (Z.eq_dec q 0) as [E0|E0].
    { subst q. assert (r = 0%R) by reflexivity. rewrite H in *. clear H.
      assert (Z0 : real (unquantize s 0) = 0%R) by (rewrite U1; unfold Rdiv; rewrite Rmult_0_l; apply rnd_0).
      destruct (fmul_real (unquantize s 0) (of_Z (Z.of_N s)) U3 S3 U2 S2) as (Y1 & Y2 & Y3).
      - rewrite Z0, Rmult_0_l, rnd_0, Rabs_R0. apply bpow_gt_0.
      - split; [exact Y2|]. split; [exact Y3|]. unfold y. rewrite Y1, Z0, Rmult_0_l, rnd_0, Rminus_0_r, Rabs_R0. lra. }
    assert (AR1 : (1 <= Rabs r)%R).
    { unfold r. rewrite <- abs_IZR. apply IZR_le. lia. }
    assert (UH : (ulp_half = / 9007199254740992)%R).
    { unfold ulp_half. change (bpow radix2 (-52)) with (/ IZR 4503599627370496)%R. lra. }
    assert (B51 : (bpow radix2 51 = 2251799813685248)%R) by reflexivity.
    assert (B32 : (bpow radix2 32 = 4294967296)%R) by reflexivity.
    assert (SI : (/ 4294967296 < / t <= 1)%R).
    { split; [apply Rinv_lt_contravar; [|lra]; apply Rmult_lt_0_compat; lra|]. rewrite <- Rinv_1. apply Rinv_le; lra. }
    assert (SMALL : (bpow radix2 (-1022) <= / 8589934592)%R).
    { change (/ 8589934592)%R with (bpow radix2 (-33)). now apply bpow_le. }
    destruct (rnd_rel (r / t)) as (e1 & H1 & R1).
    { unfold Rdiv. rewrite Rabs_mult, (Rabs_pos_eq (/ t)) by lra. apply Rle_trans with (1 := SMALL).
      apply Rle_trans with (1 * / t)%R; [lra|]. apply Rmult_le_compat_r; lra. }
    rewrite R1 in U1.
    assert (P : (real (unquantize s q) * real (of_Z (Z.of_N s)) = r * (1 + e1))%R).
    { rewrite U1, S1. fold t. field. lra. }
    rewrite UH in H1. apply Rabs_le_inv in H1.
    assert (A1 : (Rabs (r * (1 + e1)) <= 2251799813685248)%R).
    { rewrite Rabs_mult, (Rabs_pos_eq (1 + e1)) by lra. rewrite B51 in AR. nra. }
    assert (A2 : (/ 2 <= Rabs (r * (1 + e1)))%R).
    { rewrite Rabs_mult, (Rabs_pos_eq (1 + e1)) by lra. nra. }
    destruct (rnd_rel (r * (1 + e1))) as (e2 & H2 & R2).
    { apply Rle_trans with (1 := SMALL). lra. }
    rewrite UH in H2. apply Rabs_le_inv in H2.
    destruct (fmul_real (unquantize s q) (of_Z (Z.of_N s)) U3 S3 U2 S2) as (Y1 & Y2 & Y3).
    { rewrite P. apply Rle_lt_trans with (bpow radix2 51); [|now apply bpow_lt].
      apply rnd_abs_le; [apply format_bpow; lia|]. rewrite B51. exact A1. }
    split; [exact Y2|]. split; [exact Y3|]. unfold y. rewrite Y1, P, R2.
    replace (r * (1 + e1) * (1 + e2) - r)%R with (r * (e1 + e2 + e1 * e2))%R by ring.
    rewrite Rabs_mult. rewrite B51 in AR.
    assert (EE : (Rabs (e1 + e2 + e1 * e2) <= 2 * / 9007199254740992 + / 9007199254740992 * / 9007199254740992)%R).
    { apply Rabs_le. nra. }
    pose proof (Rabs_pos (e1 + e2 + e1 * e2)).
    apply Rle_lt_trans with ((2251799813685248 - 1) * (2 * / 9007199254740992 + / 9007199254740992 * / 9007199254740992))%R.
    - apply Rmult_le_compat; auto using Rabs_pos.
    - lra.
  Qed.
  Lemma grid_back q : Z.abs q < 2 ^ 51 -> quantize s (to_bits (unquantize s q)) = q.
  Proof using S.
    intros Q. destruct (grid_near q Q) as (F & C & N).
    assert (I : i64 q) by (unfold i64; change (2 ^ 51) with 2251799813685248 in Q; change (2 ^ 63) with 9223372036854775808; lia).
    unfold quantize. rewrite of_to_bits by apply (unq_real q I).
    set (y := fmul _ _) in *. pose proof (round_near y q C F N) as T.
    assert (FF : finite (fround y)).
    { destruct (scaled y) as [a|] eqn:E; [apply (fround_int y a C F E)|]. destruct y; cbn in *; try tauto; discriminate. }
    rewrite as_i64_finite by exact FF. rewrite T. unfold i64 in I. lia.
  Qed.
  Lemma grid_strict q1 q2 : Z.abs q1 < 2 ^ 51 -> Z.abs q2 < 2 ^ 51 -> q1 < q2 -> (real (unquantize s q1) < real (unquantize s q2))%R.
  Proof using S.
    intros H1 H2 L.
    assert (I : forall q, Z.abs q < 2 ^ 51 -> i64 q) by (intros q; unfold i64; change (2 ^ 51) with 2251799813685248; change (2 ^ 63) with 9223372036854775808; lia).
    destruct (unq_mono q1 q2 (I _ H1) (I _ H2) ltac:(lia)) as [M|M]; [exact M|exfalso].
    (* equal reals give equal products, hence equal integers *)
    destruct (grid_near q1 H1) as (F1 & C1 & N1). destruct (grid_near q2 H2) as (F2 & C2 & N2).
    destruct scale_real as (S1 & S2 & S3).
    destruct (unq_real q1 (I _ H1)) as (_ & V2 & V3). destruct (unq_real q2 (I _ H2)) as (_ & W2 & W3).
    assert (BD : forall q, Z.abs q < 2 ^ 51 -> (Rabs (rnd (real (unquantize s q) * real (of_Z (Z.of_N s)))) < bpow radix2 femax)%R).
    { intros q HQ. destruct (unq_real q (I _ HQ)) as (X1 & _ & _). pose proof scale_pos. pose proof scale_lt.
      apply Rle_lt_trans with (bpow radix2 (63 + 32)); [|now apply bpow_lt].
      apply rnd_abs_le; [apply format_bpow; lia|]. rewrite Rabs_mult, bpow_plus. apply Rmult_le_compat; auto using Rabs_pos.
      - rewrite X1. apply rnd_abs_le; [apply format_bpow; lia|].
        pose proof (rnd_Z_bound q 63 ltac:(lia) (i64_abs q (I _ HQ))).
        unfold Rdiv. rewrite Rabs_mult, Rabs_inv, (Rabs_pos_eq (IZR _)) by lra.
        rewrite <- (Rmult_1_r (bpow radix2 63)). apply Rmult_le_compat; auto using Rabs_pos.
        + left. apply Rinv_0_lt_compat. lra.
        + rewrite <- Rinv_1. apply Rinv_le; lra.
      - rewrite S1, Rabs_pos_eq; lra. }
    destruct (fmul_real _ _ V3 S3 V2 S2 (BD q1 H1)) as (P1 & _). destruct (fmul_real _ _ W3 S3 W2 S2 (BD q2 H2)) as (P2 & _).
    rewrite P1 in N1. rewrite P2 in N2. rewrite M in N1.
    assert (D : (Rabs (IZR q2 - IZR q1) < 1)%R).
    { set (v := rnd _) in *. replace (IZR q2 - IZR q1)%R with ((v - IZR q1) - (v - IZR q2))%R by ring.
      eapply Rle_lt_trans; [apply Rabs_triang|]. rewrite Rabs_Ropp. lra. }
    rewrite <- minus_IZR, <- abs_IZR in D. apply lt_IZR in D. lia.
  Qed.
End Scale.
