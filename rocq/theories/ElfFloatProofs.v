(** Floating-point facts used by Elf: powers of ten, [floor] and [ceil] over the
    real numbers. *)
From Coq Require Import Reals Lra.
From Flocq Require Import Core BinarySingleNaN.
From Verif Require Import Base WordProofs F64 F64Proofs F64Flocq.
Local Open Scope Z_scope.

(** ** [floor] and [ceil] *)
Lemma sfopp_real x : real (SFopp x) = (- real x)%R.
Proof.
  destruct x as [s|s| |s p e]; unfold real; cbn [SF2R SFopp]; try lra.
  destruct s; cbn [cond_Zopp negb]; change (Z.neg p) with (- Zpos p); rewrite F2R_Zopp; ring.
Qed.
Lemma sfopp_finite x : finite (SFopp x) <-> finite x.
Proof. now destruct x. Qed.
Lemma sfopp_canonical x : canonical x -> canonical (SFopp x).
Proof. now destruct x. Qed.
Lemma sfabs_real x : real (SFabs x) = Rabs (real x).
Proof.
  destruct x as [s|s| |s p e]; unfold real; cbn [SF2R SFabs]; try (now rewrite Rabs_R0).
  rewrite <- F2R_Zabs. f_equal. now destruct s.
Qed.
Lemma sfabs_finite x : finite (SFabs x) <-> finite x.
Proof. now destruct x. Qed.
Lemma sfabs_canonical x : canonical x -> canonical (SFabs x).
Proof. now destruct x. Qed.

Lemma of_mag_real s z : 0 <= z <= 2 ^ 53 ->
  real (of_mag s z) = IZR (if s then - z else z) /\ finite (of_mag s z) /\ canonical (of_mag s z).
Proof.
  intros H. destruct z as [|p|p]; [|cbn [of_mag]|lia].
  - unfold real. now destruct s.
  - destruct (of_Z_real (Zpos p)) as (R&F&C).
    { eapply Z.le_trans; [|apply (Z.pow_le_mono_r 2 53 1000); lia]. lia. }
    pose proof (of_Z_exact (Zpos p) ltac:(lia)) as E. change (fnorm (Zpos p) 0 false) with (of_Z (Zpos p)).
    destruct s; [|auto]. rewrite sfopp_real, E, opp_IZR. split; [reflexivity|]. split; [now apply sfopp_finite|now apply sfopp_canonical].
Qed.
Lemma frac_floor p e : e < 0 -> Zfloor (F2R (Float radix2 (Zpos p) e)) = int_part p e.
Proof.
  intros L. unfold int_part, F2R. cbn [Fnum Fexp]. rewrite Z.shiftr_div_pow2 by lia.
  replace e with (- (- e)) at 1 by lia. rewrite bpow_opp, <- (IZR_Zpower radix2 (- e)) by lia.
  apply (Zfloor_div (Zpos p) (2 ^ (- e))). pose proof (Z.pow_pos_nonneg 2 (- e)). lia.
Qed.
Lemma frac_ceil p e : e < 0 -> Zceil (F2R (Float radix2 (Zpos p) e)) = int_part p e + if has_frac p e then 1 else 0.
Proof.
  intros L. pose proof (frac_floor p e L) as FL. unfold has_frac.
  assert (P : 0 < 2 ^ (- e)) by (apply Z.pow_pos_nonneg; lia).
  assert (R : F2R (Float radix2 (Zpos p) e) = (IZR (Zpos p) / IZR (2 ^ (- e)))%R).
  { unfold F2R. cbn [Fnum Fexp]. replace e with (- (- e)) at 1 by lia. rewrite bpow_opp, <- (IZR_Zpower radix2 (- e)) by lia. reflexivity. }
  assert (D : int_part p e = Zpos p / 2 ^ (- e)) by (unfold int_part; now rewrite Z.shiftr_div_pow2 by lia).
  rewrite Z.shiftl_mul_pow2 by lia. destruct (Z.eqb_spec (int_part p e * 2 ^ (- e)) (Zpos p)) as [E|E]; cbn [negb].
  - rewrite Z.add_0_r, R, <- E, mult_IZR. unfold Rdiv. rewrite Rmult_assoc, Rinv_r, Rmult_1_r by (apply not_0_IZR; lia).
    apply Zceil_IZR.
  - rewrite Zceil_floor_neq; [now rewrite FL|]. rewrite FL, R. intros X. apply E.
    apply eq_IZR. rewrite mult_IZR, X. field. apply not_0_IZR. lia.
Qed.
Lemma int_part_bound s p e : canonical (S754_finite s p e) -> e < 0 -> 0 <= int_part p e < 2 ^ 53.
Proof.
  intros C L. unfold int_part. rewrite Z.shiftr_div_pow2 by lia. assert (P : 0 < 2 ^ (- e)) by (apply Z.pow_pos_nonneg; lia).
  split; [apply Z.div_pos; lia|]. cbn [canonical] in C. apply Z.div_lt_upper_bound; [lia|].
  assert (Zpos p < 2 ^ 53). { change (2 ^ 53) with (2 * 2 ^ 52). change (2 ^ 53) with (2 * 2 ^ 52) in C. lia. }
  nia.
Qed.
Lemma pos_int_finite s p e : 0 <= e -> real (S754_finite s p e) = IZR (if s then - (Zpos p * 2 ^ e) else Zpos p * 2 ^ e).
Proof.
  intros L. unfold real. cbn [SF2R]. unfold F2R. cbn [Fnum Fexp]. rewrite <- (IZR_Zpower radix2 e L), <- mult_IZR. f_equal.
  cbn [radix_val radix2]. destruct s; cbn [cond_Zopp]; [|reflexivity]. change (Z.neg p) with (- Zpos p). ring.
Qed.
Lemma fceil_real x : canonical x -> finite x ->
  real (fceil x) = IZR (Zceil (real x)) /\ finite (fceil x) /\ canonical (fceil x).
Proof.
  destruct x as [s|s| |s p e]; cbn [finite]; try tauto; intros C _.
  - unfold real. cbn. rewrite Zceil_IZR. split; [reflexivity|]. split; exact I.
  - cbn [fceil]. destruct (Z.leb_spec 0 e) as [L|L].
    + rewrite pos_int_finite, Zceil_IZR by assumption. split; [reflexivity|]. split; [exact I|exact C].
    + pose proof (int_part_bound s p e C L) as B. unfold real at 2. cbn [SF2R].
      assert (X : Zceil (F2R (Float radix2 (cond_Zopp s (Zpos p)) e)) =
                  if s then - int_part p e else int_part p e + if has_frac p e then 1 else 0).
      { destruct s; cbn [cond_Zopp]; [|now apply frac_ceil]. change (Z.neg p) with (- Zpos p). rewrite F2R_Zopp. unfold Zceil.
        now rewrite Ropp_involutive, frac_floor. }
      rewrite X. clear X. destruct s; cbn [negb andb].
      * rewrite Z.add_0_r. destruct (of_mag_real true (int_part p e) ltac:(lia)) as (H1&H2&H3). auto.
      * destruct (of_mag_real false (int_part p e + if has_frac p e then 1 else 0)) as (H1&H2&H3); [destruct (has_frac p e); lia|]. auto.
Qed.
Lemma ffloor_real x : canonical x -> finite x ->
  real (ffloor x) = IZR (Zfloor (real x)) /\ finite (ffloor x) /\ canonical (ffloor x).
Proof.
  intros C F.
  assert (E : real (ffloor x) = (- real (fceil (SFopp x)))%R /\ finite (ffloor x) /\ canonical (ffloor x)).
  { destruct x as [s|s| |s p e]; cbn [finite] in F; try tauto; cbn [SFopp].
    - unfold real. cbn. split; [lra|]. split; exact I.
    - cbn [ffloor fceil]. destruct (Z.leb_spec 0 e) as [L|L].
      + split; [|split; [exact I|exact C]]. rewrite <- sfopp_real. cbn [SFopp]. now rewrite negb_involutive.
      + pose proof (int_part_bound s p e C L) as B. rewrite negb_involutive.
        set (z := int_part p e + (if s && has_frac p e then 1 else 0)).
        assert (Z : 0 <= z <= 2 ^ 53) by (unfold z; destruct (s && has_frac p e); lia).
        destruct (of_mag_real s z Z) as (H1&H2&H3). destruct (of_mag_real (negb s) z Z) as (H4&_).
        split; [|auto]. rewrite H1, H4. rewrite <- opp_IZR. f_equal. destruct s; cbn [negb]; lia. }
  destruct E as (E&E2&E3). split; [|auto]. rewrite E.
  destruct (fceil_real (SFopp x)) as (H&_); [now apply sfopp_canonical|now apply sfopp_finite|].
  rewrite H, sfopp_real. unfold Zceil. rewrite Ropp_involutive, opp_IZR. ring.
Qed.

(** ** Rounding with a known exponent *)
Lemma rnd_at m e x : -1074 <= e -> (bpow radix2 (e + 52) <= x < bpow radix2 (e + 53))%R ->
  (Rabs (x * bpow radix2 (- e) - IZR m) < / 2)%R -> rnd x = (IZR m * bpow radix2 e)%R.
Proof.
  intros E H M. unfold rnd, round. unfold F2R. cbn [Fnum Fexp].
  assert (CE : cexp radix2 fexp64 x = e).
  { unfold cexp. rewrite (mag_unique radix2 x (e + 53)).
    - unfold fexp, SpecFloat.emin, fprec, femax. lia.
    - replace (e + 53 - 1) with (e + 52) by lia. rewrite Rabs_pos_eq; [exact H|]. pose proof (bpow_ge_0 radix2 (e + 52)). lra. }
  rewrite CE. f_equal. f_equal. unfold scaled_mantissa. rewrite CE. now apply Znearest_imp.
Qed.
(** ** Powers of ten *)
Lemma pow10_real i : (i <= 22)%N -> real (pow10 i) = IZR (10 ^ Z.of_N i) /\ finite (pow10 i) /\ canonical (pow10 i).
Proof.
  intros H. unfold pow10. destruct (N.ltb_spec 400 i) as [L|_]; [lia|].
  assert (B : 0 < 10 ^ Z.of_N i <= 10 ^ 22) by (split; [apply Z.pow_pos_nonneg; lia|apply Z.pow_le_mono_r; lia]).
  assert (G : rnd (IZR (10 ^ Z.of_N i)) = IZR (10 ^ Z.of_N i)).
  { apply rnd_id. replace (IZR (10 ^ Z.of_N i)) with (F2R (Float radix2 (5 ^ Z.of_N i) (Z.of_N i))).
    - apply format_Z; [|lia]. rewrite Z.abs_eq by (apply Z.pow_nonneg; lia).
      apply Z.le_trans with (5 ^ 22); [apply Z.pow_le_mono_r; lia|]. vm_compute. discriminate.
    - unfold F2R. cbn [Fnum Fexp]. rewrite <- (IZR_Zpower radix2) by lia. rewrite <- mult_IZR. f_equal.
      cbn [radix_val radix2]. rewrite <- Z.pow_mul_l. reflexivity. }
  destruct (of_Z_real (10 ^ Z.of_N i)) as (R&F&C).
  - rewrite Z.abs_eq by lia. apply Z.le_trans with (10 ^ 22); [lia|]. vm_compute. discriminate.
  - rewrite G in R. auto.
Qed.
(** 10^-j to nearest, with its integer mantissa and exponent. *)
Lemma inv10_rnd j m k : 0 <= j -> 0 <= k <= 1074 -> 2 ^ 52 * 10 ^ j <= 2 ^ k < 2 ^ 53 * 10 ^ j -> 2 * Z.abs (2 ^ k - m * 10 ^ j) < 10 ^ j ->
  rnd (/ IZR (10 ^ j)) = (IZR m * bpow radix2 (- k))%R.
Proof.
  intros J K [H1 H2] H. assert (P : 0 < 10 ^ j) by (apply Z.pow_pos_nonneg; lia). assert (Q : 0 < 2 ^ k) by (apply Z.pow_pos_nonneg; lia).
  assert (T : bpow radix2 k = IZR (2 ^ k)) by (rewrite <- (IZR_Zpower radix2) by lia; reflexivity).
  assert (P' : (0 < IZR (10 ^ j))%R) by now apply IZR_lt. assert (Q' : (0 < IZR (2 ^ k))%R) by now apply IZR_lt.
  apply rnd_at; [lia| |].
  - apply IZR_le in H1. apply IZR_lt in H2. rewrite mult_IZR in H1, H2.
    rewrite !bpow_plus, bpow_opp, T. change (bpow radix2 52) with (IZR (2 ^ 52)). change (bpow radix2 53) with (IZR (2 ^ 53)).
    split.
    + apply Rmult_le_reg_r with (IZR (10 ^ j)); [assumption|]. rewrite Rinv_l by lra.
      apply Rmult_le_reg_l with (IZR (2 ^ k)); [assumption|]. rewrite Rmult_1_r.
      replace (IZR (2 ^ k) * (/ IZR (2 ^ k) * IZR (2 ^ 52) * IZR (10 ^ j)))%R with (IZR (2 ^ 52) * IZR (10 ^ j))%R by (field; lra). exact H1.
    + apply Rmult_lt_reg_r with (IZR (10 ^ j)); [assumption|]. rewrite Rinv_l by lra.
      apply Rmult_lt_reg_l with (IZR (2 ^ k)); [assumption|]. rewrite Rmult_1_r.
      replace (IZR (2 ^ k) * (/ IZR (2 ^ k) * IZR (2 ^ 53) * IZR (10 ^ j)))%R with (IZR (2 ^ 53) * IZR (10 ^ j))%R by (field; lra). exact H2.
  - rewrite Z.opp_involutive, T. apply IZR_lt in H. rewrite mult_IZR, abs_IZR, minus_IZR, mult_IZR in H.
    apply Rmult_lt_reg_r with (IZR (10 ^ j)); [assumption|].
    rewrite <- (Rabs_pos_eq (IZR (10 ^ j))) at 2 by lra. rewrite <- Rabs_mult.
    replace ((/ IZR (10 ^ j) * IZR (2 ^ k) - IZR m) * IZR (10 ^ j))%R with (IZR (2 ^ k) - IZR m * IZR (10 ^ j))%R by (field; lra).
    lra.
Qed.
