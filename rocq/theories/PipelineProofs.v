(** From decimal text to compressed files: facts about decimals and f64s. *)
From Coq Require Import Reals Lra QArith Qabs Qpower.
From Flocq Require Import Core BinarySingleNaN.
From Verif Require Import Base WordProofs Xor F64 F64Proofs F64BitsProofs F64Flocq QuerySpec QueryProofs DecimalSpec DecimalFloatProofs
  Sprintz SprintzProofs SprintzFloatProofs Text TextSpec TextProofs.
Local Open Scope Z_scope.

(** ** Nearest in Q and in Z *)
Lemma pow10_pos p : 0 < 10 ^ Z.of_N p.
Proof. apply Z.pow_pos_nonneg; lia. Qed.
Lemma unit_pos : 0 < 2 ^ 1074.
Proof. apply Z.pow_pos_nonneg; lia. Qed.
Lemma inject_pos z : 0 < z -> (0 < inject_Z z)%Q.
Proof. intros H. change 0%Q with (inject_Z 0). now rewrite <- Zlt_Qlt. Qed.
Lemma inject_abs z : (Qabs (inject_Z z) == inject_Z (Z.abs z))%Q.
Proof. reflexivity. Qed.

Lemma distance_scaled U p t q a : 0 < U -> is_decimal p t q ->
  (Qabs (inject_Z a / inject_Z U - q) * inject_Z (U * 10 ^ Z.of_N p) == inject_Z (Z.abs (a * 10 ^ Z.of_N p - t * U)))%Q.
Proof.
  intros UP D. pose proof (inject_pos _ UP) as QU. pose proof (pow10_pos p) as PP. set (E := 10 ^ Z.of_N p) in *. unfold is_decimal in D. fold E in D.
  rewrite <- inject_abs. setoid_replace (inject_Z (U * E)) with (Qabs (inject_Z (U * E))) using relation Qeq.
  2:{ rewrite inject_abs. rewrite Z.abs_eq; [reflexivity|nia]. }
  rewrite <- Qabs_Qmult. apply Qabs_wd. unfold Z.sub. rewrite inject_Z_plus, inject_Z_opp, !inject_Z_mult, <- D. field. intros H. rewrite H in QU. now apply Qlt_irrefl in QU.
Qed.
Lemma distance_le U p t q a b : 0 < U -> is_decimal p t q ->
  (Qabs (inject_Z a / inject_Z U - q) <= Qabs (inject_Z b / inject_Z U - q))%Q <->
  Z.abs (a * 10 ^ Z.of_N p - t * U) <= Z.abs (b * 10 ^ Z.of_N p - t * U).
Proof.
  intros UP D. pose proof (distance_scaled U p t q a UP D) as A. pose proof (distance_scaled U p t q b UP D) as B. pose proof (pow10_pos p) as PP.
  assert (S : (0 < inject_Z (U * 10 ^ Z.of_N p))%Q) by (apply inject_pos; nia).
  rewrite <- (Qmult_le_r _ _ _ S), A, B, <- Zle_Qle. reflexivity.
Qed.
Lemma nearest_decimal p t q x : is_decimal p t q -> nearest_f64 q x <-> f64_of_decimal p t x.
Proof.
  intros D. pose proof unit_pos as UP. unfold nearest_f64, f64_of_decimal, rational. generalize dependent (2 ^ 1074). intros U UP.
  split; intros (I & a & E & M); (split; [exact I|]); exists a; (split; [exact E|]); intros y b IY EY; specialize (M y b IY EY); now apply (distance_le U p t q a b UP D).
Qed.

(** ** Values of numerals *)
Lemma value_decimal p n : (digits_needed n <= p)%N -> exists t, is_decimal p t (value n).
Proof.
  unfold digits_needed. intros H. exists (signed (n_sign n) (natural (n_whole n ++ fraction_digits n)) * 10 ^ (Z.of_N p - places n)). unfold is_decimal, value.
  set (m := signed _ _). set (k := places n) in *. assert (K : k <= Z.of_N p) by lia.
  rewrite <- Qmult_assoc, inject_Z_mult. setoid_replace (inject_Z (10 ^ Z.of_N p)) with (Qpower (10 # 1) (Z.of_N p)) using relation Qeq.
  2:{ rewrite Zpower_Qpower by lia. reflexivity. }
  rewrite <- Qpower_plus by discriminate. replace (- k + Z.of_N p) with (Z.of_N p - k) by lia. rewrite Zpower_Qpower by lia. reflexivity.
Qed.

(** ** The integer Sprintz stores for the f64 of a decimal *)
Lemma nearest_decimal_real d t x : (d <= 12)%N -> Z.abs t <= 2 ^ 53 -> f64_of_decimal d t x ->
  finite (of_bits x) /\ (Rabs (real (of_bits x) - IZR t / IZR (10 ^ Z.of_N d)) <= Rabs (rnd (IZR t / IZR (10 ^ Z.of_N d)) - IZR t / IZR (10 ^ Z.of_N d)))%R.
Proof.
  intros D T (U & a & E & M). pose proof (nearest_quotient d t D T) as (UG & g & EG & _).
  set (q := 10 ^ Z.of_N d) in *. assert (Q : 1 <= q <= 10 ^ 12) by (split; [change 1 with (10 ^ 0)|]; apply Z.pow_le_mono_r; lia).
  assert (Q53 : Z.abs q <= 2 ^ 53) by (change (2 ^ 53) with 9007199254740992; change (10 ^ 12) with 1000000000000 in Q; lia).
  assert (BIG : 2 ^ 53 <= 2 ^ 1000) by (apply Z.pow_le_mono_r; lia).
  pose proof (of_Z_exact t T) as RT. pose proof (of_Z_exact q Q53) as RQ.
  destruct (of_Z_real t ltac:(lia)) as (_ & FT & CT). destruct (of_Z_real q ltac:(lia)) as (_ & FQ & CQ).
  assert (q0 : (0 < IZR q)%R) by (apply IZR_lt; lia). assert (q1 : (1 <= IZR q)%R) by (apply IZR_le; lia).
  assert (SM : (Rabs (rnd (IZR t / IZR q)) <= bpow radix2 53)%R).
  { apply rnd_abs_le; [apply format_bpow; clear; lia|]. unfold Rdiv. rewrite Rabs_mult, (Rabs_pos_eq (/ IZR q)) by (left; now apply Rinv_0_lt_compat).
    rewrite <- abs_IZR. apply Rle_trans with (IZR (Z.abs t) * 1)%R.
    - apply Rmult_le_compat_l; [apply IZR_le; lia|]. rewrite <- Rinv_1. apply Rinv_le; lra.
    - rewrite Rmult_1_r. replace (bpow radix2 53) with (IZR (2 ^ 53)) by (apply (IZR_Zpower radix2 53); clear; lia). now apply IZR_le. }
  destruct (fdiv_real (of_Z t) (of_Z q) CT CQ FT) as (R & F & C).
  { rewrite RQ. lra. }
  { rewrite RT, RQ. apply Rle_lt_trans with (1 := SM). apply bpow_lt. reflexivity. }
  rewrite RT, RQ in R. rewrite <- R. set (z := fdiv (of_Z t) (of_Z q)) in *. clearbody z.
  rewrite (number_scaled _ UG), (of_to_bits z C) in EG. pose proof (scaled_real z g C F EG) as RG.
  specialize (M (to_bits z) g UG). rewrite (number_scaled _ UG), (of_to_bits z C) in M. specialize (M EG).
  pose proof (of_bits_canonical x U) as CX. rewrite (number_scaled x U) in E.
  set (P := bpow radix2 1074) in *. assert (P0 : (0 < P)%R) by apply bpow_gt_0.
  assert (EP : IZR (2 ^ 1074) = P) by (symmetry; apply (IZR_Zpower radix2 1074); clear; lia).
  set (r := (IZR t / IZR q)%R) in *.
  assert (X : forall w c, IZR c = (w * P)%R -> IZR (Z.abs (c * q - t * 2 ^ 1074)) = (Rabs (w - r) * (P * IZR q))%R).
  { intros w c H. rewrite abs_IZR, minus_IZR, !mult_IZR, H, EP. rewrite <- (Rabs_pos_eq (P * IZR q)) by (apply Rmult_le_pos; lra). rewrite <- Rabs_mult. f_equal.
    unfold r. field. lra. }
  assert (FX : finite (of_bits x)).
  { destruct (of_bits x) as [s|s| |s m e]; [exact I| |discriminate E|exact I]. exfalso. rewrite R in RG.
    assert (A : Z.abs a = 2 ^ 2098) by (destruct s; injection E as <-; reflexivity).
    assert (AG : Z.abs g <= 2 ^ 53 * 2 ^ 1074).
    { apply le_IZR. rewrite abs_IZR, <- RG, mult_IZR, EP, Rabs_mult, (Rabs_pos_eq P) by lra. apply Rmult_le_compat_r; [lra|].
      replace (IZR (2 ^ 53)) with (bpow radix2 53) by (symmetry; apply (IZR_Zpower radix2 53); clear; lia). exact SM. }
    assert (K1 : Z.abs (g * q) <= 10 ^ 12 * (2 ^ 53 * 2 ^ 1074)) by (rewrite Z.abs_mul; clear - AG Q; generalize dependent (2 ^ 53 * 2 ^ 1074); intros; nia).
    assert (K2 : Z.abs (t * 2 ^ 1074) <= 2 ^ 53 * 2 ^ 1074).
    { rewrite Z.abs_mul, (Z.abs_eq (2 ^ 1074)) by (apply Z.pow_nonneg; lia). apply Z.mul_le_mono_nonneg_r; [apply Z.pow_nonneg; lia|exact T]. }
    assert (K3 : 2 ^ 2098 <= Z.abs (a * q)) by (rewrite Z.abs_mul, A; clear - Q; assert (0 < 2 ^ 2098) by reflexivity; generalize dependent (2 ^ 2098); intros; nia).
    assert (K4 : 10 ^ 12 * (2 ^ 53 * 2 ^ 1074) + 2 * (2 ^ 53 * 2 ^ 1074) < 2 ^ 2098) by reflexivity.
    clear - M K1 K2 K3 K4. generalize dependent (10 ^ 12 * (2 ^ 53 * 2 ^ 1074)). generalize dependent (2 ^ 53 * 2 ^ 1074). generalize dependent (2 ^ 2098). generalize dependent (2 ^ 1074).
    intros. lia. }
  split; [exact FX|]. pose proof (scaled_real (of_bits x) a CX FX E) as RA.
  apply IZR_le in M. rewrite (X _ a (eq_sym RA)), (X _ g (eq_sym RG)) in M.
  apply Rmult_le_reg_r in M; [exact M|]. apply Rmult_lt_0_compat; lra.
Qed.

Lemma near_product s q u : scale_ok s -> Z.abs q < 2 ^ 51 -> finite u -> canonical u ->
  (Rabs (real u - IZR q / IZR (Z.of_N s)) <= Rabs (rnd (IZR q / IZR (Z.of_N s)) - IZR q / IZR (Z.of_N s)))%R ->
  let y := fmul u (of_Z (Z.of_N s)) in finite y /\ canonical y /\ (Rabs (real y - IZR q) < / 2)%R.
Proof.
  intros S Q FU CU NU y. destruct (scale_real s S) as (S1 & S2 & S3). pose proof (scale_pos s S) as SP. pose proof (scale_lt s S) as SL.
  set (t := IZR (Z.of_N s)) in *. set (r := IZR q) in *.
  assert (AR : (Rabs r <= bpow radix2 51 - 1)%R).
  { unfold r. rewrite <- abs_IZR. change (bpow radix2 51) with (IZR (2 ^ 51)). rewrite <- minus_IZR. apply IZR_le. lia. }
  destruct (Z.eq_dec q 0) as [E0|E0].
  { assert (r = 0%R) by (unfold r; now rewrite E0). rewrite H in *. clear H.
    assert (Z0 : real u = 0%R).
    { unfold Rdiv in NU. rewrite Rmult_0_l, rnd_0, !Rminus_0_r, Rabs_R0 in NU. pose proof (Rabs_pos (real u)). destruct (Req_dec (real u) 0) as [|NE]; [assumption|]. apply Rabs_no_R0 in NE. lra. }
    destruct (fmul_real u (of_Z (Z.of_N s)) CU S3 FU S2) as (Y1 & Y2 & Y3).
    - rewrite Z0, Rmult_0_l, rnd_0, Rabs_R0. apply bpow_gt_0.
    - split; [exact Y2|]. split; [exact Y3|]. unfold y. rewrite Y1, Z0, Rmult_0_l, rnd_0, Rminus_0_r, Rabs_R0. lra. }
  assert (AR1 : (1 <= Rabs r)%R).
  { unfold r. rewrite <- abs_IZR. apply IZR_le. lia. }
  assert (UH : (ulp_half = / 9007199254740992)%R).
  { unfold ulp_half. change (bpow radix2 (-52)) with (/ IZR 4503599627370496)%R. lra. }
  assert (B51 : (bpow radix2 51 = 2251799813685248)%R) by reflexivity.
  assert (B32 : (bpow radix2 32 = 4294967296)%R) by reflexivity.
  assert (SI : (/ 4294967296 < / t <= 1)%R).
  { split; [apply Rinv_lt_contravar; [|lra]; apply Rmult_lt_0_compat; lra|]. rewrite <- Rinv_1. apply Rinv_le; lra. }
  assert (SMALL : (bpow radix2 (-1022) <= / 8589934592)%R).
  { change (/ 8589934592)%R with (bpow radix2 (-33)). now apply bpow_le. }
  destruct (rnd_rel (r / t)) as (e0 & H0 & R0).
  { unfold Rdiv. rewrite Rabs_mult, (Rabs_pos_eq (/ t)) by lra. apply Rle_trans with (1 := SMALL).
    apply Rle_trans with (1 * / t)%R; [lra|]. apply Rmult_le_compat_r; lra. }
  rewrite R0 in NU. replace (r / t * (1 + e0) - r / t)%R with (r / t * e0)%R in NU by ring.
  assert (RN : (r <> 0)%R) by (intros Z; rewrite Z, Rabs_R0 in AR1; lra).
  assert (E1 : exists e1, (Rabs e1 <= ulp_half)%R /\ real u = (r / t * (1 + e1))%R).
  { exists ((real u - r / t) / (r / t))%R. split.
    - unfold Rdiv at 1. rewrite Rabs_mult, Rabs_inv. rewrite Rabs_mult in NU. apply Rle_trans with (Rabs e0); [|exact H0].
      assert (N0 : (0 < Rabs (r / t))%R) by (apply Rabs_pos_lt; unfold Rdiv; apply Rmult_integral_contrapositive; split; [exact RN|apply Rinv_neq_0_compat; lra]).
      apply Rmult_le_reg_r with (Rabs (r / t)); [exact N0|]. rewrite Rmult_assoc, Rinv_l, Rmult_1_r by lra. lra.
    - field. split; [lra|exact RN]. }
  destruct E1 as (e1 & H1 & U1).
  assert (P : (real u * real (of_Z (Z.of_N s)) = r * (1 + e1))%R).
  { rewrite U1, S1. field. lra. }
  rewrite UH in H1. apply Rabs_le_inv in H1.
  assert (A1 : (Rabs (r * (1 + e1)) <= 2251799813685248)%R).
  { rewrite Rabs_mult, (Rabs_pos_eq (1 + e1)) by lra. rewrite B51 in AR. nra. }
  assert (A2 : (/ 2 <= Rabs (r * (1 + e1)))%R).
  { rewrite Rabs_mult, (Rabs_pos_eq (1 + e1)) by lra. nra. }
  destruct (rnd_rel (r * (1 + e1))) as (e2 & H2 & R2).
  { apply Rle_trans with (1 := SMALL). lra. }
  rewrite UH in H2. apply Rabs_le_inv in H2.
  destruct (fmul_real u (of_Z (Z.of_N s)) CU S3 FU S2) as (Y1 & Y2 & Y3).
  { rewrite P. apply Rle_lt_trans with (bpow radix2 51); [|now apply bpow_lt].
    apply rnd_abs_le; [apply format_bpow; lia|]. rewrite B51. exact A1. }
  split; [exact Y2|]. split; [exact Y3|]. unfold y. rewrite Y1, P, R2.
  replace (r * (1 + e1) * (1 + e2) - r)%R with (r * (e1 + e2 + e1 * e2))%R by ring.
  rewrite Rabs_mult. rewrite B51 in AR.
  assert (EE : (Rabs (e1 + e2 + e1 * e2) <= 2 * / 9007199254740992 + / 9007199254740992 * / 9007199254740992)%R).
  { apply Rabs_le. nra. }
  pose proof (Rabs_pos (e1 + e2 + e1 * e2)).
  apply Rle_lt_trans with ((2251799813685248 - 1) * (2 * / 9007199254740992 + / 9007199254740992 * / 9007199254740992))%R.
  - apply Rmult_le_compat; auto using Rabs_pos.
  - lra.
Qed.
Lemma pow10_scale d : (d <= 9)%N -> scale_ok (10 ^ d) /\ Z.of_N (10 ^ d) = 10 ^ Z.of_N d.
Proof.
  intros D. assert (E : Z.of_N (10 ^ d) = 10 ^ Z.of_N d) by now rewrite N2Z.inj_pow. split; [|exact E]. unfold scale_ok. rewrite E.
  assert (1 <= 10 ^ Z.of_N d <= 10 ^ 9) by (split; [change 1 with (10 ^ 0)|]; apply Z.pow_le_mono_r; lia).
  change (10 ^ 9) with 1000000000 in *. change (2 ^ 32) with 4294967296. lia.
Qed.
Lemma decimal_product d t x : (d <= 9)%N -> Z.abs t < 2 ^ 51 -> f64_of_decimal d t x ->
  let y := fmul (of_bits x) (of_Z (Z.of_N (10 ^ d))) in finite y /\ canonical y /\ (Rabs (real y - IZR t) < / 2)%R.
Proof.
  intros D T N. destruct (pow10_scale d D) as [S E]. destruct (nearest_decimal_real d t x) as [F R]; [lia| |exact N|].
  - change (2 ^ 51) with 2251799813685248 in T. change (2 ^ 53) with 9007199254740992. lia.
  - apply (near_product (10 ^ d) t (of_bits x) S T F); [exact (of_bits_canonical x (proj1 N))|]. rewrite E. exact R.
Qed.
Lemma finite_round y : canonical y -> finite y -> finite (fround y).
Proof. intros C F. destruct (scaled y) as [a|] eqn:E; [apply (fround_int y a C F E)|]. destruct y; cbn in *; try tauto; discriminate. Qed.
Lemma decimal_quantize d t x : (d <= 9)%N -> Z.abs t < 2 ^ 51 -> f64_of_decimal d t x -> quantize (10 ^ d) x = t.
Proof.
  intros D T N. destruct (decimal_product d t x D T N) as (F & C & R). unfold quantize. set (y := fmul _ _) in *.
  pose proof (round_near y t C F R) as TR. rewrite as_i64_finite by exact (finite_round y C F). rewrite TR.
  change (2 ^ 51) with 2251799813685248 in T. lia.
Qed.

(** ** Rounding to a scale *)
Lemma of_mag_real s z : 0 <= z <= 2 ^ 53 -> canonical (of_mag s z) /\ real (of_mag s z) = IZR (if s then - z else z).
Proof.
  intros H. destruct z as [|p|p]; [now destruct s| |lia].
  assert (X : real (of_Z (Zpos p)) = IZR (Zpos p)) by (apply (of_Z_exact (Zpos p)); lia).
  assert (Y : finite (of_Z (Zpos p)) /\ canonical (of_Z (Zpos p))).
  { assert (K : Z.abs (Zpos p) <= 2 ^ 1000) by (eapply Z.le_trans; [|apply (Z.pow_le_mono_r 2 53 1000); lia]; lia). destruct (of_Z_real (Zpos p) K) as (_ & F & C). split; assumption. }
  cbn [of_mag]. change (fnorm (Zpos p) 0 false) with (of_Z (Zpos p)). destruct Y as [F C]. destruct s; [|split; assumption].
  destruct (of_Z (Zpos p)) as [s|s| |s q e]; cbn [finite SFopp] in *; try tauto.
  - split; [exact I|]. unfold real in *. cbn [SF2R] in *. rewrite opp_IZR, <- X. lra.
  - split; [exact C|]. unfold real in *. cbn [SF2R] in *. rewrite opp_IZR, <- X, <- F2R_Zopp. f_equal. f_equal. now destruct s.
Qed.
Lemma fround_exact y : canonical y -> finite y ->
  canonical (fround y) /\ finite (fround y) /\ real (fround y) = IZR (ftruncZ (fround y)) /\ (Rabs (real y - IZR (ftruncZ (fround y))) <= / 2)%R.
Proof.
  intros C F. assert (EA : exists a, scaled y = Some a) by (destruct y; cbn in *; try tauto; eauto). destruct EA as [a EA].
  destruct (fround_int y a C F EA) as [FF NR].
  assert (CR : canonical (fround y) /\ real (fround y) = IZR (ftruncZ (fround y))).
  { clear NR FF EA. destruct y as [s|s| |s p e]; cbn [finite] in F; [split; [exact I|reflexivity]|destruct F|destruct F|].
    - cbn [fround]. destruct (Z.leb_spec 0 e) as [L|L].
      + split; [exact C|]. unfold ftruncZ. replace (0 <=? e) with true by lia. rewrite Z.shiftl_mul_pow2 by assumption.
        unfold real. cbn [SF2R]. unfold F2R. cbn [Fnum Fexp]. rewrite <- (IZR_Zpower radix2 e) by lia. rewrite <- mult_IZR. f_equal. cbn [radix_val radix2].
        destruct s; cbn [cond_Zopp]; [|reflexivity]. change (Z.neg p) with (- Zpos p). ring.
      + pose proof (canonical_exp _ _ _ C) as E1. set (k := - e). assert (K : 0 < k <= 1074) by lia. rewrite Z.shiftl_mul_pow2, Z.mul_1_l by lia.
        rewrite Z.shiftr_div_pow2 by lia.
        assert (P : Zpos p < 2 ^ 53). { cbn [canonical] in C. change (2 ^ 53) with 9007199254740992 in *. change (2 ^ 52) with 4503599627370496 in *. lia. }
        replace (- e - 1) with (k - 1) by lia. fold k.
        assert (D : 2 ^ k = 2 * 2 ^ (k - 1)) by (rewrite <- Z.pow_succ_r by lia; f_equal; lia).
        assert (HP : 0 < 2 ^ (k - 1)) by (apply Z.pow_pos_nonneg; lia).
        set (h := 2 ^ (k - 1)) in *. set (z := (Zpos p + h) / 2 ^ k).
        assert (Z1 : 2 ^ k * z <= Zpos p + h).
        { unfold z. apply Z.mul_div_le. lia. }
        assert (ZR : 0 <= z <= 2 ^ 53).
        { split; [unfold z; apply Z.div_pos; lia|]. rewrite D in Z1. nia. }
        destruct (of_mag_trunc s z ZR) as [_ T]. rewrite T. apply of_mag_real. exact ZR. }
  destruct CR as [CR RR]. split; [exact CR|]. split; [exact FF|]. split; [exact RR|].
  pose proof (scaled_real y a C F EA) as RA. set (z := ftruncZ (fround y)) in *. clearbody z. clear RR CR FF EA.
  assert (NZ : 2 * Z.abs (a - z * 2 ^ 1074) <= 2 ^ 1074) by (destruct NR as [H|[H _]]; [apply Z.lt_le_incl; exact H|rewrite H; apply Z.le_refl]). clear NR.
  apply IZR_le in NZ. rewrite mult_IZR, abs_IZR, minus_IZR, mult_IZR, <- RA in NZ.
  assert (EP : IZR (2 ^ 1074) = bpow radix2 1074) by (symmetry; apply (IZR_Zpower radix2 1074); clear; lia). rewrite EP in NZ.
  pose proof (bpow_gt_0 radix2 1074) as P. set (u := bpow radix2 1074) in *. clearbody u. clear EP RA.
  replace (real y * u - IZR z * u)%R with ((real y - IZR z) * u)%R in NZ by ring. rewrite Rabs_mult, (Rabs_pos_eq u) in NZ by lra.
  apply Rmult_le_reg_r with u; [exact P|]. lra.
Qed.

Lemma finite_scaled z : finite z -> exists a, scaled z = Some a.
Proof. destruct z as [s|s| |s p e]; cbn [finite]; intros F; [eexists; reflexivity|destruct F|destruct F|eexists; reflexivity]. Qed.
Lemma number_of_real z x : canonical z -> finite z -> is_u64 x -> finite (of_bits x) -> real z = real (of_bits x) -> number (to_bits z) = number x.
Proof.
  intros C F U FX E. pose proof (to_bits_bound z C) as UZ. rewrite (number_scaled _ UZ), (of_to_bits z C), (number_scaled x U).
  pose proof (of_bits_canonical x U) as CX.
  destruct (finite_scaled z F) as [a EA]. destruct (finite_scaled _ FX) as [b EB].
  rewrite EA, EB. f_equal. apply eq_IZR. rewrite <- (scaled_real z a C F EA), <- (scaled_real _ b CX FX EB). rewrite E. reflexivity.
Qed.
(** Integer floats divided by the scale. *)
Lemma quotient_nearest d t z : (d <= 12)%N -> Z.abs t <= 2 ^ 53 -> canonical z -> finite z -> real z = IZR t ->
  f64_of_decimal d t (to_bits (fdiv z (of_Z (10 ^ Z.of_N d)))).
Proof.
  intros D T C F R. pose proof (nearest_quotient d t D T) as (U & a & E & M).
  assert (BIG : 2 ^ 53 <= 2 ^ 1000) by (apply Z.pow_le_mono_r; lia).
  set (q := 10 ^ Z.of_N d) in *. assert (Q : 1 <= q <= 10 ^ 12) by (split; [change 1 with (10 ^ 0)|]; apply Z.pow_le_mono_r; lia).
  assert (Q53 : Z.abs q <= 2 ^ 53) by (change (2 ^ 53) with 9007199254740992; change (10 ^ 12) with 1000000000000 in Q; lia).
  pose proof (of_Z_exact t T) as RT. pose proof (of_Z_exact q Q53) as RQ.
  destruct (of_Z_real t ltac:(lia)) as (_ & FT & CT). destruct (of_Z_real q ltac:(lia)) as (_ & FQ & CQ).
  assert (q0 : (0 < IZR q)%R) by (apply IZR_lt; lia). assert (q1 : (1 <= IZR q)%R) by (apply IZR_le; lia).
  assert (SM : (Rabs (rnd (IZR t / IZR q)) < bpow radix2 femax)%R).
  { apply Rle_lt_trans with (bpow radix2 53); [|apply bpow_lt; reflexivity].
    apply rnd_abs_le; [apply format_bpow; clear; lia|]. unfold Rdiv. rewrite Rabs_mult, (Rabs_pos_eq (/ IZR q)) by (left; now apply Rinv_0_lt_compat).
    rewrite <- abs_IZR. apply Rle_trans with (IZR (Z.abs t) * 1)%R.
    - apply Rmult_le_compat_l; [apply IZR_le; lia|]. rewrite <- Rinv_1. apply Rinv_le; lra.
    - rewrite Rmult_1_r. replace (bpow radix2 53) with (IZR (2 ^ 53)) by (apply (IZR_Zpower radix2 53); clear; lia). now apply IZR_le. }
  destruct (fdiv_real (of_Z t) (of_Z q) CT CQ FT) as (R1 & F1 & C1); [rewrite RQ; lra|rewrite RT, RQ; exact SM|].
  destruct (fdiv_real z (of_Z q) C CQ F) as (R2 & F2 & C2); [rewrite RQ; lra|rewrite R, RQ; exact SM|].
  split; [exact (to_bits_bound _ C2)|]. exists a. split; [|exact M]. rewrite <- E. 
  apply number_of_real; [exact C2|exact F2|exact (to_bits_bound _ C1)|rewrite (of_to_bits _ C1); exact F1|].
  rewrite (of_to_bits _ C1), R1, R2, RT, R. reflexivity.
Qed.
Lemma round_by_scale_nearest d x t : (d <= 9)%N -> 
  let y := fmul x (of_Z (Z.of_N (10 ^ d))) in finite y -> canonical y -> ftruncZ (fround y) = t -> Z.abs t <= 2 ^ 53 ->
  f64_of_decimal d t (to_bits (round_by_scale x (10 ^ d))).
Proof.
  intros D y F C E T. destruct (fround_exact y C F) as (CR & FR & RR & _). unfold round_by_scale. fold y. rewrite (proj2 (pow10_scale d D)).
  apply quotient_nearest; [lia|exact T|exact CR|exact FR|]. rewrite RR, E. reflexivity.
Qed.
(** Values with at most d digits are kept. *)
Lemma round_by_scale_keeps d x t : (d <= 9)%N -> Z.abs t < 2 ^ 51 -> f64_of_decimal d t x -> f64_of_decimal d t (to_bits (round_by_scale (of_bits x) (10 ^ d))).
Proof.
  intros D T N. destruct (decimal_product d t x D T N) as (F & C & R). apply round_by_scale_nearest; [exact D|exact F|exact C|exact (round_near _ t C F R)|].
  change (2 ^ 51) with 2251799813685248 in T. change (2 ^ 53) with 9007199254740992. lia.
Qed.
(** Others become a neighbouring one. *)
Lemma round_by_scale_near d x a : (d <= 9)%N -> is_u64 x -> number x = Some a -> Z.abs a * 10 ^ Z.of_N d < 2 ^ 50 * 2 ^ 1074 ->
  exists t, f64_of_decimal d t (to_bits (round_by_scale (of_bits x) (10 ^ d))) /\ 4 * Z.abs (a * 10 ^ Z.of_N d - t * 2 ^ 1074) <= 3 * 2 ^ 1074.
Proof.
  intros D U E B. destruct (pow10_scale d D) as [S ES]. destruct (scale_real _ S) as (S1 & S2 & S3). pose proof (scale_pos _ S) as SP. pose proof (scale_lt _ S) as SL. rewrite ES in *.
  set (q := 10 ^ Z.of_N d) in *. pose proof (of_bits_canonical x U) as C. rewrite (number_scaled x U) in E.
  assert (F : finite (of_bits x)).
  { destruct (of_bits x) as [s|s| |s m e]; [exact I| |discriminate E|exact I]. exfalso.
    assert (A : Z.abs a = 2 ^ 2098) by (destruct s; injection E as <-; reflexivity). rewrite A in B. unfold scale_ok in S. rewrite ES in S. clear - B S.
    assert (K : 0 < 2 ^ 50 * 2 ^ 1074 < 2 ^ 2098) by (split; reflexivity). clearbody q. generalize dependent (2 ^ 50 * 2 ^ 1074). generalize dependent (2 ^ 2098). intros. nia. }
  pose proof (scaled_real _ a C F E) as RA.
  assert (EP : IZR (2 ^ 1074) = bpow radix2 1074) by (symmetry; apply (IZR_Zpower radix2 1074); clear; lia).
  pose proof (bpow_gt_0 radix2 1074) as P0.
  assert (BR : (Rabs (real (of_bits x) * IZR q) < 1125899906842624)%R).
  { apply IZR_lt in B. rewrite !mult_IZR, abs_IZR, <- RA, EP in B. change (IZR (2 ^ 50)) with 1125899906842624%R in B.
    rewrite Rabs_mult, (Rabs_pos_eq (bpow radix2 1074)) in B by lra. rewrite Rabs_mult, (Rabs_pos_eq (IZR q)) by lra.
    apply Rmult_lt_reg_r with (bpow radix2 1074); [exact P0|]. lra. }
  destruct (fmul_real (of_bits x) (of_Z q) C S3 F S2) as (Y1 & Y2 & Y3).
  { rewrite S1. apply Rle_lt_trans with (bpow radix2 50); [|apply bpow_lt; reflexivity]. apply rnd_abs_le; [apply format_bpow; clear; lia|]. change (bpow radix2 50) with 1125899906842624%R. lra. }
  rewrite S1 in Y1. set (w := (real (of_bits x) * IZR q)%R) in *.
  assert (W : (Rabs (real (fmul (of_bits x) (of_Z q)) - w) <= / 4)%R).
  { rewrite Y1. destruct (Rle_or_lt (bpow radix2 (-1022)) (Rabs w)) as [L|L].
    - destruct (rnd_rel w L) as (e & HE & RE). rewrite RE. replace (w * (1 + e) - w)%R with (w * e)%R by ring. rewrite Rabs_mult.
      assert (UH : (ulp_half = / 9007199254740992)%R) by (unfold ulp_half; change (bpow radix2 (-52)) with (/ IZR 4503599627370496)%R; lra). rewrite UH in HE.
      pose proof (Rabs_pos w). pose proof (Rabs_pos e). apply Rle_trans with (1125899906842624 * / 9007199254740992)%R; [apply Rmult_le_compat; lra|lra].
    - assert (SMALL : (bpow radix2 (-1022) <= / 16)%R) by (change (/ 16)%R with (bpow radix2 (-4)); apply bpow_le; discriminate).
      assert (R1 : (Rabs (rnd w) <= / 16)%R) by (apply rnd_abs_le; [change (/ 16)%R with (bpow radix2 (-4)); apply format_bpow; clear; lia|lra]).
      apply Rabs_le. apply Rabs_le_inv in R1. assert (R2 : (Rabs w <= / 16)%R) by lra. apply Rabs_le_inv in R2. lra. }
  destruct (fround_exact _ Y3 Y2) as (CR & FR & RR & NR). set (y := fmul (of_bits x) (of_Z q)) in *. set (t := ftruncZ (fround y)) in *.
  assert (D3 : (Rabs (w - IZR t) <= 3 * / 4)%R).
  { apply Rabs_le. apply Rabs_le_inv in W, NR. lra. }
  exists t. split.
  - apply round_by_scale_nearest; [exact D|rewrite ES; exact Y2|rewrite ES; exact Y3|rewrite ES; reflexivity|].
    apply Z.lt_le_incl, lt_IZR. rewrite abs_IZR. change (IZR (2 ^ 53)) with 9007199254740992%R. apply Rabs_lt. apply Rabs_le_inv in D3. apply Rabs_lt_inv in BR. lra.
  - apply le_IZR. rewrite !mult_IZR, abs_IZR, minus_IZR, !mult_IZR, <- RA, EP.
    replace (real (of_bits x) * bpow radix2 1074 * IZR q - IZR t * bpow radix2 1074)%R with ((w - IZR t) * bpow radix2 1074)%R by (unfold w; ring).
    rewrite Rabs_mult, (Rabs_pos_eq (bpow radix2 1074)) by lra. set (u := bpow radix2 1074) in *. pose proof (Rmult_le_compat_r u _ _ (Rlt_le _ _ P0) D3) as K. lra.
Qed.

(** The same for decimals with any number of digits. *)
Lemma nearest_any d t x : f64_of_decimal d t x -> (Rabs (IZR t / IZR (10 ^ Z.of_N d)) <= bpow radix2 60)%R ->
  finite (of_bits x) /\ (Rabs (real (of_bits x) - IZR t / IZR (10 ^ Z.of_N d)) <= Rabs (rnd (IZR t / IZR (10 ^ Z.of_N d)) - IZR t / IZR (10 ^ Z.of_N d)))%R.
Proof.
  intros (U & a & E & M) B. pose proof (pow10_pos d) as Q. set (q := 10 ^ Z.of_N d) in *. clearbody q.
  assert (q0 : (0 < IZR q)%R) by (apply IZR_lt; exact Q). set (r := (IZR t / IZR q)%R) in *.
  assert (SM : (Rabs (rnd r) <= bpow radix2 60)%R) by (apply rnd_abs_le; [apply format_bpow; clear; lia|exact B]).
  assert (B60 : (4 * bpow radix2 60 < bpow radix2 1024)%R).
  { change 4%R with (bpow radix2 2). rewrite <- bpow_plus. apply bpow_lt. reflexivity. }
  assert (G : generic_format radix2 fexp64 (rnd r)) by (apply generic_format_round; typeclasses eauto).
  set (m := Ztrunc (scaled_mantissa radix2 fexp64 (rnd r))). set (e := cexp radix2 fexp64 (rnd r)).
  assert (EF : rnd r = F2R (Float radix2 m e)) by exact G.
  assert (RI : rnd (F2R (Float radix2 m e)) = rnd r) by (rewrite <- EF; apply rnd_id; exact G).
  destruct (fnorm_real m e false) as (R & F & C).
  { rewrite RI. pose proof (bpow_gt_0 radix2 60). change femax with 1024%Z. lra. }
  rewrite RI in R. rewrite <- R. set (z := fnorm m e false) in *. clearbody z.
  destruct (finite_scaled z F) as [g EG]. pose proof (scaled_real z g C F EG) as RG. pose proof (to_bits_bound z C) as UG.
  specialize (M (to_bits z) g UG). rewrite (number_scaled _ UG), (of_to_bits z C) in M. specialize (M EG).
  pose proof (of_bits_canonical x U) as CX. rewrite (number_scaled x U) in E.
  set (P := bpow radix2 1074) in *. assert (P0 : (0 < P)%R) by apply bpow_gt_0.
  assert (EP : IZR (2 ^ 1074) = P) by (symmetry; apply (IZR_Zpower radix2 1074); clear; lia).
  assert (X : forall w c, IZR c = (w * P)%R -> IZR (Z.abs (c * q - t * 2 ^ 1074)) = (Rabs (w - r) * (P * IZR q))%R).
  { intros w c H. rewrite abs_IZR, minus_IZR, !mult_IZR, H, EP. rewrite <- (Rabs_pos_eq (P * IZR q)) by (apply Rmult_le_pos; lra). rewrite <- Rabs_mult. f_equal.
    unfold r. field. lra. }
  assert (Y : forall w, IZR a = (w * P)%R -> (Rabs (w - r) <= Rabs (real z - r))%R).
  { intros w H. apply IZR_le in M. rewrite (X w a H), (X _ g (eq_sym RG)) in M. apply Rmult_le_reg_r in M; [exact M|]. apply Rmult_lt_0_compat; lra. }
  assert (FX : finite (of_bits x)).
  { destruct (of_bits x) as [s|s| |s n k]; [exact I| |discriminate E|exact I]. exfalso.
    assert (A : Rabs (IZR a) = (bpow radix2 1024 * P)%R).
    { unfold P. rewrite <- bpow_plus. rewrite <- abs_IZR. replace (Z.abs a) with (2 ^ 2098) by (destruct s; injection E as <-; reflexivity). apply (IZR_Zpower radix2 2098). discriminate. }
    specialize (Y (IZR a / P)%R ltac:(field; lra)).
    assert (A2 : Rabs (IZR a / P) = bpow radix2 1024).
    { unfold Rdiv. rewrite Rabs_mult, Rabs_inv, A, (Rabs_pos_eq P) by lra. field. lra. }
    assert (D : (Rabs (IZR a / P) <= Rabs (IZR a / P - r) + Rabs r)%R).
    { replace (IZR a / P)%R with ((IZR a / P - r) + r)%R at 1 by ring. apply Rabs_triang. }
    assert (D2 : (Rabs (real z - r) <= Rabs (real z) + Rabs r)%R).
    { unfold Rminus. eapply Rle_trans; [apply Rabs_triang|]. rewrite Rabs_Ropp. apply Rle_refl. }
    rewrite R in D2. rewrite A2 in D. rewrite R in Y. pose proof (bpow_gt_0 radix2 60). lra. }
  split; [exact FX|]. apply Y. symmetry. exact (scaled_real _ a CX FX E).
Qed.
Lemma rounding_small r : (Rabs r <= bpow radix2 60)%R -> (Rabs (rnd r - r) <= Rabs r * / 9007199254740992 + / 1099511627776)%R.
Proof.
  intros _. pose proof (Rabs_pos r) as AR. assert (AI : (0 <= Rabs r * / 9007199254740992)%R) by lra. destruct (Rle_or_lt (bpow radix2 (-1022)) (Rabs r)) as [L|L].
  - destruct (rnd_rel r L) as (e & HE & RE). rewrite RE. replace (r * (1 + e) - r)%R with (r * e)%R by ring. rewrite Rabs_mult.
    assert (UH : (ulp_half = / 9007199254740992)%R) by (unfold ulp_half; change (bpow radix2 (-52)) with (/ IZR 4503599627370496)%R; lra). rewrite UH in HE.
    assert (K : (Rabs r * Rabs e <= Rabs r * / 9007199254740992)%R) by (apply Rmult_le_compat_l; lra). lra.
  - assert (SMALL : (bpow radix2 (-1022) <= / 2199023255552)%R) by (change (/ 2199023255552)%R with (bpow radix2 (-41)); apply bpow_le; discriminate).
    assert (R1 : (Rabs (rnd r) <= / 2199023255552)%R) by (apply rnd_abs_le; [change (/ 2199023255552)%R with (bpow radix2 (-41)); apply format_bpow; clear; lia|lra]).
    assert (T : (Rabs (rnd r - r) <= Rabs (rnd r) + Rabs r)%R) by (unfold Rminus; eapply Rle_trans; [apply Rabs_triang|]; rewrite Rabs_Ropp; apply Rle_refl). lra.
Qed.

(** A pixel: rounded at p digits, it is the f64 of a decimal less than one unit of
    the last digit away. *)
Lemma fits_real P t p b q : is_decimal P t q -> (Qabs q * inject_Z (10 ^ Z.of_N p) < inject_Z b)%Q -> (Rabs (IZR t / IZR (10 ^ Z.of_N P)) * IZR (10 ^ Z.of_N p) < IZR b)%R.
Proof.
  intros D F. pose proof (pow10_pos P) as E1. pose proof (pow10_pos p) as E2. set (e1 := 10 ^ Z.of_N P) in *. set (e2 := 10 ^ Z.of_N p) in *. unfold is_decimal in D. fold e1 in D.
  assert (Z1 : Z.abs t * e2 < b * e1).
  { rewrite Zlt_Qlt, !inject_Z_mult, <- inject_abs, <- D, Qabs_Qmult, (inject_abs e1), (Z.abs_eq e1) by lia.
    rewrite <- Qmult_assoc, (Qmult_comm (inject_Z e1)), Qmult_assoc. apply Qmult_lt_compat_r; [now apply inject_pos|exact F]. }
  clear D F. apply IZR_lt in Z1. rewrite !mult_IZR, abs_IZR in Z1. assert (R1 : (0 < IZR e1)%R) by (apply IZR_lt; exact E1).
  unfold Rdiv. rewrite Rabs_mult, Rabs_inv, (Rabs_pos_eq (IZR e1)) by lra. apply Rmult_lt_reg_r with (IZR e1); [exact R1|].
  replace (Rabs (IZR t) * / IZR e1 * IZR e2 * IZR e1)%R with (Rabs (IZR t) * IZR e2)%R by (field; lra). exact Z1.
Qed.
Lemma pixel_near p n x : (p <= 9)%N -> nearest_f64 (value n) x -> (Qabs (value n) * inject_Z (10 ^ Z.of_N p) < inject_Z (2 ^ 49))%Q ->
  exists t, f64_of_decimal p t (to_bits (round_by_scale (of_bits x) (10 ^ p))) /\ (Qabs (value n * inject_Z (10 ^ Z.of_N p) - inject_Z t) < 1)%Q.
Proof.
  intros Hp N F. destruct (value_decimal (digits_needed n) n (N.le_refl _)) as [t0 D0]. set (P := digits_needed n) in *. clearbody P.
  apply (nearest_decimal _ _ _ _ D0) in N. pose proof (fits_real _ _ _ _ _ D0 F) as FR. set (r := (IZR t0 / IZR (10 ^ Z.of_N P))%R) in *.
  destruct (pow10_scale p Hp) as [S ES]. pose proof (scale_pos _ S) as SP. pose proof (scale_lt _ S) as SL. rewrite ES in SP, SL. set (q := IZR (10 ^ Z.of_N p)) in *.
  change (IZR (2 ^ 49)) with 562949953421312%R in FR. pose proof (Rabs_pos r) as AR.
  assert (R49 : (Rabs r < 562949953421312)%R) by nra.
  assert (B60 : (Rabs r <= bpow radix2 60)%R) by (change (bpow radix2 60) with 1152921504606846976%R; lra).
  destruct (nearest_any P t0 x N B60) as [FX NX]. fold r in NX. pose proof (rounding_small r B60) as RS.
  set (v := real (of_bits x)) in *. assert (B32 : (bpow radix2 32 = 4294967296)%R) by reflexivity.
  assert (VR : (Rabs (v - r) * q <= / 8)%R).
  { assert (K1 : (Rabs (v - r) <= Rabs r * / 9007199254740992 + / 1099511627776)%R) by lra. pose proof (Rabs_pos (v - r)).
    apply Rle_trans with ((Rabs r * / 9007199254740992 + / 1099511627776) * q)%R; [apply Rmult_le_compat_r; lra|]. rewrite Rmult_plus_distr_r.
    replace (Rabs r * / 9007199254740992 * q)%R with (Rabs r * q * / 9007199254740992)%R by ring.
    assert (/ 1099511627776 * q <= / 1099511627776 * 4294967296)%R by (apply Rmult_le_compat_l; lra). lra. }
  pose proof N as (U & a & E & _). pose proof E as E'. rewrite (number_scaled x U) in E'. pose proof (scaled_real _ a (of_bits_canonical x U) FX E') as RA. fold v in RA.
  assert (EP : IZR (2 ^ 1074) = bpow radix2 1074) by (symmetry; apply (IZR_Zpower radix2 1074); clear; lia). pose proof (bpow_gt_0 radix2 1074) as P0.
  destruct (round_by_scale_near p x a Hp U E) as (t & T1 & T2).
  { apply lt_IZR. rewrite !mult_IZR, abs_IZR, <- RA, EP. fold q. change (IZR (2 ^ 50)) with 1125899906842624%R. rewrite Rabs_mult, (Rabs_pos_eq (bpow radix2 1074)) by lra.
    assert (K : (Rabs v <= Rabs (v - r) + Rabs r)%R) by (replace v with ((v - r) + r)%R at 1 by ring; apply Rabs_triang).
    replace (Rabs v * bpow radix2 1074 * q)%R with (Rabs v * q * bpow radix2 1074)%R by ring. apply Rmult_lt_compat_r; [exact P0|].
    apply Rle_lt_trans with ((Rabs (v - r) + Rabs r) * q)%R; [apply Rmult_le_compat_r; lra|]. lra. }
  exists t. split; [exact T1|]. clear T1.
  assert (T3 : (Rabs (v * q - IZR t) <= 3 * / 4)%R).
  { apply IZR_le in T2. rewrite !mult_IZR, abs_IZR, minus_IZR, !mult_IZR, <- RA, EP in T2. fold q in T2.
    replace (v * bpow radix2 1074 * q - IZR t * bpow radix2 1074)%R with ((v * q - IZR t) * bpow radix2 1074)%R in T2 by ring. rewrite Rabs_mult, (Rabs_pos_eq (bpow radix2 1074)) in T2 by lra.
    apply Rmult_le_reg_r with (bpow radix2 1074); [exact P0|]. lra. }
  assert (T4 : (Rabs (r * q - IZR t) < 1)%R).
  { replace (r * q - IZR t)%R with (- ((v - r) * q) + (v * q - IZR t))%R by ring. eapply Rle_lt_trans; [apply Rabs_triang|]. rewrite Rabs_Ropp, Rabs_mult, (Rabs_pos_eq q) by lra. lra. }
  (* back to the rationals *)
  pose proof (pow10_pos P) as E1. unfold is_decimal in D0. assert (R1 : (0 < IZR (10 ^ Z.of_N P))%R) by (apply IZR_lt; exact E1).
  assert (ZZ : Z.abs (t0 * 10 ^ Z.of_N p - t * 10 ^ Z.of_N P) < 10 ^ Z.of_N P).
  { apply lt_IZR. rewrite abs_IZR, minus_IZR, !mult_IZR. fold q.
    replace (IZR t0 * q - IZR t * IZR (10 ^ Z.of_N P))%R with ((r * q - IZR t) * IZR (10 ^ Z.of_N P))%R by (unfold r; field; lra).
    rewrite Rabs_mult, (Rabs_pos_eq (IZR (10 ^ Z.of_N P))) by lra. rewrite <- (Rmult_1_l (IZR (10 ^ Z.of_N P))) at 2. apply Rmult_lt_compat_r; [exact R1|exact T4]. }
  clear - D0 ZZ E1. set (e1 := 10 ^ Z.of_N P) in *. set (e2 := 10 ^ Z.of_N p) in *. clearbody e1 e2.
  rewrite <- (Qmult_lt_r _ _ (inject_Z e1)) by now apply inject_pos. rewrite Qmult_1_l.
  setoid_replace (Qabs (value n * inject_Z e2 - inject_Z t) * inject_Z e1)%Q with (inject_Z (Z.abs (t0 * e2 - t * e1))).
  - now rewrite <- Zlt_Qlt.
  - rewrite <- (inject_abs (t0 * e2 - t * e1)). rewrite <- (Z.abs_eq e1) at 1 by lia. rewrite <- inject_abs, <- Qabs_Qmult. apply Qabs_wd.
    unfold Z.sub. rewrite inject_Z_plus, inject_Z_opp, !inject_Z_mult, <- D0. ring.
Qed.

(** Differences of counts. *)
Lemma sub_self x : finite x -> fsub x x = S754_zero false.
Proof. destruct x as [s|s| |s p e]; cbn [finite]; intros F; [now destruct s|destruct F|destruct F|]. unfold fsub, SFsub. rewrite Z.sub_diag. reflexivity. Qed.
Lemma sub_counts n d : 0 <= d <= n -> n <= 2 ^ 53 -> fsub (of_Z n) (of_Z d) = of_Z (n - d).
Proof.
  intros D B. assert (BIG : 2 ^ 53 <= 2 ^ 1000) by (apply Z.pow_le_mono_r; lia).
  destruct (of_Z_real n ltac:(lia)) as (_ & FN & CN). destruct (of_Z_real d ltac:(lia)) as (_ & FD & CD). destruct (of_Z_real (n - d) ltac:(lia)) as (_ & FZ & CZ). clear BIG.
  destruct (Z.eq_dec d n) as [->|NE]; [rewrite Z.sub_diag; exact (sub_self _ FN)|].
  pose proof (of_Z_exact n ltac:(lia)) as RN. pose proof (of_Z_exact d ltac:(lia)) as RD. pose proof (of_Z_exact (n - d) ltac:(lia)) as RZ.
  assert (E : rnd (IZR n - IZR d) = IZR (n - d)).
  { rewrite <- minus_IZR. apply rnd_id. rewrite <- F2R_0e. apply format_Z; [|lia]. lia. }
  destruct (fsub_real (of_Z n) (of_Z d) CN CD FN FD) as (R & F & C).
  { rewrite RN, RD, E. rewrite <- abs_IZR. apply Rle_lt_trans with (bpow radix2 53); [|apply bpow_lt; reflexivity].
    replace (bpow radix2 53) with (IZR (2 ^ 53)) by (apply (IZR_Zpower radix2 53); clear; lia). apply IZR_le. lia. }
  rewrite RN, RD, E in R. apply real_inj; [exact C|exact CZ|exact F|exact FZ|rewrite R, RZ; reflexivity|]. rewrite R. intros H. apply eq_IZR in H. lia.
Qed.
