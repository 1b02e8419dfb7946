(** Decimals with up to six digits after the point: every scheme but BUFF keeps them. *)
From Coq Require Import Reals Lra Znumtheory Zpow_facts.
From Flocq Require Import Core BinarySingleNaN.
From Verif Require Import Base WordProofs Xor F64 F64Proofs F64BitsProofs F64Flocq Format FormatSpec File FileSpec Codecs CodecSpec Query QuerySpec QueryProofs
  DecimalSpec DecimalFloatProofs Sprintz SprintzSpec SprintzFloatProofs SprintzSummary ElfRangeSpec ElfRangeSummary PipelineProofs Tpch TpchSpec Ucr UcrSpec UcrDistanceProofs.
Local Open Scope Z_scope.

(** A decimal that fits into 53 bits is never half-way between two f64s. *)
Lemma five_divides d t m : 0 <= d -> t * 2 * 2 ^ 1074 = m * 10 ^ d -> (5 ^ d | t).
Proof.
  intros D E. assert (R : rel_prime (5 ^ d) (2 ^ 1075)). { apply rel_prime_Zpower; [exact D|lia|]. apply Zgcd_1_rel_prime. reflexivity. }
  apply Gauss with (2 ^ 1075); [|exact R]. exists (m * 2 ^ d). change 10 with (2 * 5) in E. rewrite Z.pow_mul_l in E.
  change (2 ^ 1075) with (2 ^ (1 + 1074)). rewrite Z.pow_add_r by lia. rewrite Z.pow_1_r. generalize dependent (2 ^ 1074). intros u E. 
  rewrite Z.mul_comm. rewrite Z.mul_assoc. rewrite E. ring.
Qed.
Lemma decimal_exact d t x : (d <= 12)%N -> Z.abs t <= 2 ^ 53 -> f64_of_decimal d t x ->
  finite (of_bits x) /\ real (of_bits x) = rnd (IZR t / IZR (10 ^ Z.of_N d)).
Proof.
  intros D T F. destruct (nearest_decimal_real d t x D T F) as [FX L]. split; [exact FX|]. destruct F as (U & a & E & _).
  pose proof (of_bits_canonical x U) as C. rewrite (number_scaled x U) in E. pose proof (scaled_real _ a C FX E) as RA. pose proof (pow10_pos d) as PP.
  set (q := 10 ^ Z.of_N d) in *. set (r := (IZR t / IZR q)%R) in *. set (v := real (of_bits x)) in *.
  assert (q0 : (0 < IZR q)%R) by (exact (IZR_lt 0 q PP)). assert (RQ : (r * IZR q = IZR t)%R) by (clear - q0; unfold r; field; lra).
  pose proof (round_N_pt radix2 fexp64 (fun x => negb (Z.even x)) r) as [GF NR]. fold (rnd r) in GF, NR. specialize (NR v (real_format _ C)).
  assert (EQ : Rabs (v - r) = Rabs (rnd r - r)) by (apply Rle_antisym; [exact L|exact NR]).
  destruct (Req_dec v (rnd r)) as [H|H]; [exact H|]. exfalso. assert (S : (v + rnd r = 2 * r)%R).
  { unfold Rabs in EQ. clear - EQ H. destruct (Rcase_abs (v - r)), (Rcase_abs (rnd r - r)); lra. }
  assert (FR : exists b, (rnd r * bpow radix2 1074 = IZR b)%R).
  { exists (Ztrunc (scaled_mantissa radix2 fexp64 (rnd r)) * 2 ^ (cexp radix2 fexp64 (rnd r) + 1074)).
    assert (X : -1074 <= cexp radix2 fexp64 (rnd r)) by (unfold cexp, fexp64, SpecFloat.fexp, SpecFloat.emin, fprec, femax; lia).
    rewrite mult_IZR. replace (IZR (2 ^ (cexp radix2 fexp64 (rnd r) + 1074))) with (bpow radix2 (cexp radix2 fexp64 (rnd r) + 1074)) by (symmetry; apply (IZR_Zpower radix2); lia).
    rewrite GF at 1. unfold F2R. cbn [Fnum Fexp]. rewrite bpow_plus. ring. }
  destruct FR as [b RB]. assert (INT : t * 2 * 2 ^ 1074 = (a + b) * q).
  { apply eq_IZR. rewrite !mult_IZR, plus_IZR, <- RA, <- RB, <- RQ. change (IZR (2 ^ 1074)) with (bpow radix2 1074). rewrite <- Rmult_plus_distr_r, S. ring. }
  apply five_divides in INT; [|lia]. destruct INT as [k K].
  assert (RK : r = F2R (Float radix2 k (- Z.of_N d))).
  { apply Rmult_eq_reg_r with (IZR q); [|lra]. rewrite RQ, K. unfold F2R. cbn [Fnum Fexp]. unfold q. change 10 with (2 * 5). rewrite Z.pow_mul_l, !mult_IZR.
    replace (IZR (2 ^ Z.of_N d)) with (bpow radix2 (Z.of_N d)) by (symmetry; apply (IZR_Zpower radix2); apply N2Z.is_nonneg). rewrite bpow_opp. clear. field. apply Rgt_not_eq, bpow_gt_0. }
  apply H. symmetry. assert (RR : rnd r = r).
  { apply rnd_id. rewrite RK. apply format_Z; [|lia]. assert (P5 : 1 <= 5 ^ Z.of_N d) by (change 1 with (5 ^ 0) at 1; apply Z.pow_le_mono_r; lia).
    rewrite K, Z.abs_mul in T. rewrite (Z.abs_eq (5 ^ _)) in T by lia. nia. }
  rewrite RR in *. lra.
Qed.

Lemma micro_rounded : rnd (/ 1000000) = (IZR 4722366482869645 * bpow radix2 (-72))%R.
Proof.
  destruct (fdiv_real (of_Z 1) (of_Z 1000000)) as (R & _).
  - apply of_Z_real. vm_compute. discriminate.
  - apply of_Z_real. vm_compute. discriminate.
  - apply of_Z_real. vm_compute. discriminate.
  - rewrite of_Z_exact by (vm_compute; discriminate). lra.
  - rewrite !of_Z_exact by (vm_compute; discriminate). apply Rle_lt_trans with (bpow radix2 0); [|apply bpow_lt; reflexivity].
    apply rnd_abs_le; [apply format_bpow; lia|]. cbn [bpow]. rewrite Rabs_pos_eq; lra.
  - rewrite !of_Z_exact in R by (vm_compute; discriminate). replace (/ 1000000)%R with (1 / 1000000)%R by lra. rewrite <- R.
    replace (fdiv (of_Z 1) (of_Z 1000000)) with (S754_finite false 4722366482869645 (-72)) by (vm_compute; reflexivity). reflexivity.
Qed.

(** Two such f64s of one decimal differ at most in the sign of zero. *)
Lemma decimal_grid p t x : (p <= 9)%N -> Z.abs t < 2 ^ 51 -> f64_of_decimal p t x -> x = 0x8000000000000000%N \/ grid_value (10 ^ p) t = x.
Proof.
  intros Hp T F. assert (T53 : Z.abs t <= 2 ^ 53) by (change (2 ^ 51) with 2251799813685248 in T; change (2 ^ 53) with 9007199254740992; lia).
  assert (GN : f64_of_decimal p t (grid_value (10 ^ p) t)). { unfold grid_value. rewrite (proj2 (pow10_scale p Hp)). apply nearest_quotient; [lia|exact T53]. }
  destruct (decimal_exact p t (grid_value (10 ^ p) t)) as [FG RG]; [lia|exact T53|exact GN|].
  destruct (decimal_exact p t x) as [FX R]; [lia|exact T53|exact F|]. assert (U : is_u64 x) by apply F. assert (UG : is_u64 (grid_value (10 ^ p) t)) by apply GN.
  pose proof (of_bits_canonical _ U) as C. pose proof (of_bits_canonical _ UG) as CG. set (q := 10 ^ Z.of_N p) in *.
  assert (Q : 1 <= q <= 10 ^ 9) by (split; [change 1 with (10 ^ 0)|]; apply Z.pow_le_mono_r; lia). clear F GN.
  destruct (Z.eq_dec t 0) as [Z|NZ].
  - assert (R0 : real (of_bits x) = 0%R) by (rewrite R, Z; unfold Rdiv; rewrite Rmult_0_l; exact rnd_0).
    assert (TB : to_bits (of_bits x) = x) by (apply to_of_bits; [exact U|]; destruct (of_bits x); try contradiction; reflexivity).
    clear R RG FG CG. destruct (of_bits x) as [s|s| |s m e]; cbn [finite] in FX; try contradiction.
    + destruct s; [left; symmetry; exact TB|right]. rewrite Z. transitivity 0%N; [|exact TB].
      assert (PC : (p = 0 \/ p = 1 \/ p = 2 \/ p = 3 \/ p = 4 \/ p = 5 \/ p = 6 \/ p = 7 \/ p = 8 \/ p = 9)%N) by (clear - Hp; lia).
      clear - PC. destruct PC as [->|[->|[->|[->|[->|[->|[->|[->|[->| ->]]]]]]]]]; vm_compute; reflexivity.
    + exfalso. unfold real in R0. cbn [SF2R] in R0. apply eq_0_F2R in R0. destruct s; discriminate R0.
  - right. assert (NR : rnd (IZR t / IZR q) <> 0%R).
    { intros E. assert (q0 : (0 < IZR q)%R) by (apply IZR_lt; lia). assert (q9 : (IZR q <= 1000000000)%R) by (apply (IZR_le q 1000000000); apply Q).
      assert (B : (bpow radix2 (-30) <= Rabs (IZR t / IZR q))%R).
      { unfold Rdiv. rewrite Rabs_mult, <- abs_IZR, (Rabs_pos_eq (/ IZR q)) by (left; exact (Rinv_0_lt_compat _ q0)). assert (T1 : (1 <= IZR (Z.abs t))%R) by (apply IZR_le; lia).
        change (bpow radix2 (-30)) with (/ 1073741824)%R. apply Rle_trans with (/ IZR q)%R; [apply Rinv_le; lra|]. rewrite <- (Rmult_1_l (/ IZR q)) at 1. apply Rmult_le_compat_r; [left; exact (Rinv_0_lt_compat _ q0)|exact T1]. }
      assert (P30 : (0 < bpow radix2 (-30))%R) by apply bpow_gt_0. pose proof (rnd_id _ (format_bpow (-30) ltac:(lia))) as RI.
      unfold Rabs in B. destruct (Rcase_abs (IZR t / IZR q)) as [L|L].
      - apply rnd_mono in B. rewrite rnd_opp, RI, E in B. lra.
      - apply rnd_mono in B. rewrite RI, E in B. lra. }
    assert (E : of_bits x = of_bits (grid_value (10 ^ p) t)) by (apply real_inj; [exact C|exact CG|exact FX|exact FG|rewrite R, RG; reflexivity|rewrite R; exact NR]).
    apply (f_equal to_bits) in E. rewrite to_of_bits in E; [|exact U|destruct (of_bits x); try contradiction; reflexivity].
    rewrite to_of_bits in E; [symmetry; exact E|exact UG|destruct (of_bits (grid_value _ _)); try contradiction; reflexivity].
Qed.

Section Decimal.
  Variables (p x : N) (t : Z).
  Hypothesis Hp : (p <= 9)%N.
  Hypothesis T15 : Z.abs t < 10 ^ 15.
  Hypothesis T : Z.abs t < 10 ^ 9 * 10 ^ Z.of_N p.
  Hypothesis TL : t = 0 \/ 10 ^ Z.of_N p <= Z.abs t * 10 ^ 6.
  Hypothesis F : f64_of_decimal p t x.
  Let q := 10 ^ Z.of_N p.

  Lemma q_bounds : 1 <= q <= 10 ^ 9.
  Proof using All. split; [change 1 with (10 ^ 0)|]; apply Z.pow_le_mono_r; lia. Qed.
  Lemma t_53 : Z.abs t <= 2 ^ 53.
  Proof using All. pose proof T15 as H. change (10 ^ 15) with 1000000000000000 in H. change (2 ^ 53) with 9007199254740992. lia. Qed.
  Lemma t_51 : Z.abs t < 2 ^ 51.
  Proof using All. pose proof T15 as H. change (10 ^ 15) with 1000000000000000 in H. change (2 ^ 51) with 2251799813685248. lia. Qed.
  Lemma value_real : finite (of_bits x) /\ canonical (of_bits x) /\ real (of_bits x) = rnd (IZR t / IZR q).
  Proof using All. destruct (decimal_exact p t x) as [A B]; [lia|exact t_53|exact F|]. split; [exact A|]. split; [apply of_bits_canonical, F|exact B]. Qed.

  Lemma magnitude : t <> 0 -> (IZR 4722366482869645 * bpow radix2 (-72) <= Rabs (rnd (IZR t / IZR q)) <= IZR (1000000000 * 2 ^ 23 - 1) * bpow radix2 (-23))%R.
  Proof using All.
    intros NZ. pose proof q_bounds as Q. assert (q0 : (0 < IZR q)%R) by (apply IZR_lt; lia).
    assert (RA : Rabs (IZR t / IZR q) = (IZR (Z.abs t) / IZR q)%R). { unfold Rdiv. rewrite Rabs_mult, <- abs_IZR. f_equal. apply Rabs_pos_eq. left. now apply Rinv_0_lt_compat. }
    assert (RB : (Rabs (rnd (IZR t / IZR q)) = rnd (IZR (Z.abs t) / IZR q))%R).
    { rewrite <- RA. unfold Rabs at 2. destruct (Rcase_abs (IZR t / IZR q)) as [L|L].
      - rewrite rnd_opp. rewrite Rabs_left1; [reflexivity|]. rewrite <- rnd_0. apply rnd_mono. lra.
      - apply Rabs_pos_eq. rewrite <- rnd_0. apply rnd_mono. lra. }
    rewrite RB. assert (T1 : (IZR q <= IZR (Z.abs t) * 1000000)%R). { rewrite <- (mult_IZR (Z.abs t) 1000000). apply IZR_le. destruct TL as [E|L]; [now destruct NZ|exact L]. }
    split.
    - apply Rle_trans with (rnd (/ 1000000)).
      + assert (X : rnd (IZR 4722366482869645 * bpow radix2 (-72)) = (IZR 4722366482869645 * bpow radix2 (-72))%R).
        { apply rnd_id. apply (format_Z 4722366482869645 (-72)); [vm_compute; discriminate|lia]. }
        rewrite <- X. assert (Y : rnd (/ 1000000) = rnd (IZR 4722366482869645 * bpow radix2 (-72))); [|rewrite Y; apply Rle_refl].
        rewrite X. apply micro_rounded.
      + apply rnd_mono. apply Rmult_le_reg_r with (IZR q); [exact q0|]. unfold Rdiv. rewrite (Rmult_assoc (IZR (Z.abs t))), Rinv_l, Rmult_1_r by lra. lra.
    - assert (X : rnd (IZR (1000000000 * 2 ^ 23 - 1) * bpow radix2 (-23)) = (IZR (1000000000 * 2 ^ 23 - 1) * bpow radix2 (-23))%R).
      { apply rnd_id. apply (format_Z (1000000000 * 2 ^ 23 - 1) (-23)); [vm_compute; discriminate|lia]. }
      rewrite <- X. apply rnd_mono. assert (TT : (IZR (Z.abs t) * 8388608 <= 8388607999999999 * IZR q)%R).
      { rewrite <- (mult_IZR _ 8388608), <- (mult_IZR 8388607999999999). apply IZR_le. fold q in T. change (10 ^ 9) with 1000000000 in T. pose proof T15 as T2. change (10 ^ 15) with 1000000000000000 in T2.
        destruct (Z.le_gt_cases q 8388608); lia. }
      apply Rmult_le_reg_r with (IZR q); [exact q0|]. unfold Rdiv. rewrite Rmult_assoc, Rinv_l, Rmult_1_r by lra.
      change (IZR (1000000000 * 2 ^ 23 - 1)) with (8388607999999999%R). change (bpow radix2 (-23)) with (/ 8388608)%R. lra.
  Qed.

  Lemma value_number : exists a, number x = Some a /\ IZR a = (real (of_bits x) * bpow radix2 1074)%R.
  Proof using All.
    destruct value_real as (FX & C & _). destruct F as (U & a & E & _). exists a. split; [exact E|]. rewrite (number_scaled x U) in E. symmetry. exact (scaled_real _ a C FX E).
  Qed.
  Lemma zero_rnd : t = 0 -> rnd (IZR t / IZR q) = 0%R.
  Proof using Type. clear. intros ->. unfold Rdiv. rewrite Rmult_0_l. exact rnd_0. Qed.
  Lemma abs_number a : IZR a = (real (of_bits x) * bpow radix2 1074)%R -> t <> 0 -> micro <= Z.abs a < 10 ^ 9 * 2 ^ 1074.
  Proof using All.
    intros E NZ. destruct (magnitude NZ) as [M1 M2]. destruct value_real as (_ & _ & R). rewrite <- R in M1, M2. pose proof (bpow_gt_0 radix2 1074) as P.
    assert (AE : (IZR (Z.abs a) = Rabs (real (of_bits x)) * bpow radix2 1074)%R).
    { rewrite abs_IZR, E, Rabs_mult. f_equal. apply Rabs_pos_eq. left. exact P. }
    split.
    - apply le_IZR. rewrite AE. unfold micro. rewrite mult_IZR. change (IZR (2 ^ 1002)) with (bpow radix2 1002).
      replace (bpow radix2 1074) with (bpow radix2 72 * bpow radix2 1002)%R by (rewrite <- bpow_plus; reflexivity).
      rewrite <- Rmult_assoc. apply Rmult_le_compat_r; [left; apply bpow_gt_0|].
      replace (IZR 4722366482869645) with (IZR 4722366482869645 * bpow radix2 (-72) * bpow radix2 72)%R by (rewrite Rmult_assoc, <- bpow_plus; change (-72 + 72) with 0; cbn [bpow]; apply Rmult_1_r).
      apply Rmult_le_compat_r; [left; apply bpow_gt_0|exact M1].
    - apply lt_IZR. rewrite AE, mult_IZR. change (IZR (2 ^ 1074)) with (bpow radix2 1074). apply Rmult_lt_compat_r; [exact P|]. eapply Rle_lt_trans; [exact M2|].
      change (IZR (10 ^ 9)) with 1000000000%R. change (IZR (1000000000 * 2 ^ 23 - 1)) with (8388607999999999%R). change (bpow radix2 (-23)) with (/ 8388608)%R. lra.
  Qed.
  Lemma decimal_everyday : everyday x.
  Proof using All.
    split; [apply F|]. destruct value_number as (a & N & E). exists a. split; [exact N|]. destruct (Z.eq_dec t 0) as [Z|NZ].
    - left. destruct value_real as (_ & _ & R). rewrite (zero_rnd Z) in R. rewrite R, Rmult_0_l in E. exact (eq_IZR a 0 E).
    - right. right. exact (abs_number a E NZ).
  Qed.
  Lemma decimal_finite : finite_value x.
  Proof using All.
    split; [apply F|]. destruct value_number as (a & N & E). exists a. split; [exact N|]. 
    assert (L : 10 ^ 9 * 2 ^ 1074 < 2 ^ 52 * 2 ^ 2046).
    { rewrite <- Z.pow_add_r by lia. apply Z.lt_le_trans with (2 ^ 30 * 2 ^ 1074); [apply Z.mul_lt_mono_pos_r; [apply unit_pos|reflexivity]|]. rewrite <- Z.pow_add_r by lia. apply Z.pow_le_mono_r; lia. }
    destruct (Z.eq_dec t 0) as [Z|NZ].
    - destruct value_real as (_ & _ & R). rewrite (zero_rnd Z) in R. rewrite R, Rmult_0_l in E. apply (eq_IZR a 0) in E. rewrite E.
      change (Z.abs 0) with 0. eapply Z.le_lt_trans; [|exact L]. apply Z.mul_nonneg_nonneg; [lia|apply Z.lt_le_incl, unit_pos].
    - eapply Z.lt_trans; [exact (proj2 (abs_number a E NZ))|exact L].
  Qed.
  Lemma decimal_not_nan : x <> nan_bits.
  Proof using All. intros E. destruct value_number as (a & N & _). rewrite E in N. vm_compute in N. discriminate N. Qed.
End Decimal.

Lemma scale_bounded p : (p <= 9)%N -> (1 <= 10 ^ p < 2 ^ 32)%N.
Proof.
  intros Hp. split; [change 1%N with (10 ^ 0)%N; apply N.pow_le_mono_r; lia|]. apply N.le_lt_trans with (10 ^ 9)%N; [apply N.pow_le_mono_r; lia|reflexivity].
Qed.
Theorem decimals_kept log10 p c x : (p <= 9)%N -> decimal_value p x -> In c (experiment_configs false (10 ^ p)) -> config_scheme c <> SBuff -> keeps log10 c x.
Proof.
  intros Hp (t & (T15 & T & TL) & F) I NB. pose proof (decimal_everyday p x t Hp T15 T TL F) as EV. pose proof (decimal_not_nan p x t Hp T15 T TL F) as NN.
  destruct (everyday_storable log10 default_capacity x EV) as [E1 E2].
  cbn [experiment_configs In] in I.
  repeat (destruct I as [<-|I]; [first [now destruct NB|left; first [exact Logic.I|exact NN|exact E1|exact E2]|idtac]|]); [|destruct I].
  destruct (decimal_grid p t x Hp (t_51 p x t Hp T15 T TL F) F) as [->|E]; [right; split; reflexivity|left].
  apply grid_storable; [exact (scale_bounded p Hp)|]. exists t. split; [exact (t_51 p x t Hp T15 T TL F)|symmetry; exact E].
Qed.
Theorem decimals_finite p x : (p <= 9)%N -> decimal_value p x -> finite_value x.
Proof. intros Hp (t & (T15 & T & TL) & F). exact (decimal_finite p x t Hp T15 T TL F). Qed.
