(** The operations of F64.v over the real numbers, through Flocq (whose results
    rest on the standard library's real numbers). *)
From Coq Require Import Reals Lra.
From Flocq Require Import Core Relative BinarySingleNaN.
From Verif Require Import Base F64 F64Proofs.
Local Open Scope Z_scope.

#[global] Instance fprec_pos : Prec_gt_0 fprec.
Proof. reflexivity. Qed.
#[global] Instance fprec_lt : Prec_lt_emax fprec femax.
Proof. reflexivity. Qed.

Notation bf := (binary_float fprec femax).
Notation fexp64 := (SpecFloat.fexp fprec femax).

Lemma digits2_bounds p : 2 ^ (Zpos (SpecFloat.digits2_pos p) - 1) <= Zpos p < 2 ^ Zpos (SpecFloat.digits2_pos p).
Proof.
  rewrite (Digits.Zpos_digits2_pos p : _). pose proof (Digits.Zdigits_correct radix2 (Zpos p)) as H. rewrite Z.abs_eq in H by lia. exact H.
Qed.

Lemma canonical_valid x : canonical x <-> valid_binary fprec femax x = true.
Proof.
  destruct x as [s|s| |s p e]; try (cbn; tauto). cbn [canonical valid_binary].
  unfold bounded, canonical_mantissa. rewrite andb_true_iff, Z.leb_le.
  rewrite <- Zeq_is_eq_bool. unfold fexp, SpecFloat.emin. change (femax - fprec) with 971. change (3 - femax - fprec) with (-1074).
  pose proof (digits2_bounds p) as [B1 B2]. set (d := Zpos (SpecFloat.digits2_pos p)) in *. assert (D : 1 <= d) by (unfold d; lia). clearbody d.
  unfold fprec. split.
  - intros [[E H]|[E [H1 H2]]].
    + assert (d <= 52). { destruct (Z_le_gt_dec d 52); [assumption|]. pose proof (Z.pow_le_mono_r 2 52 (d - 1) ltac:(lia) ltac:(lia)). lia. }
      lia.
    + assert (d = 53).
      { destruct (Z_lt_le_dec d 53).
        - pose proof (Z.pow_le_mono_r 2 d 52 ltac:(lia) ltac:(lia)). lia.
        - destruct (Z_lt_le_dec 53 d); [|lia]. pose proof (Z.pow_le_mono_r 2 53 (d - 1) ltac:(lia) ltac:(lia)). lia. }
      lia.
  - intros [E H]. destruct (Z_le_gt_dec d 52).
    + left. pose proof (Z.pow_le_mono_r 2 d 52 ltac:(lia) ltac:(lia)). lia.
    + right. assert (d = 53) by lia. subst d. change (53 - 1) with 52 in *. lia.
Qed.

Definition B (x : f64) (H : canonical x) : bf := SF2B x (proj1 (canonical_valid x) H).
Lemma B2SF_B x H : B2SF (B x H) = x.
Proof. apply B2SF_SF2B. Qed.
Lemma B2SF_canonical (b : bf) : canonical (B2SF b).
Proof. apply canonical_valid, valid_binary_B2SF. Qed.

(** The equivalences of Flocq's PrimFloat.v, stated without primitive floats. *)
Lemma round_nearest_even_eq s m l : round_nearest_even m l = choice_mode mode_NE s m l.
Proof. destruct l as [|c]; [reflexivity|]. destruct c; [|reflexivity..]. cbn. unfold Round.cond_incr. now destruct (Z.even m). Qed.
Lemma binary_round_aux_eq s m e l : SpecFloat.binary_round_aux fprec femax s m e l = BinarySingleNaN.binary_round_aux fprec femax mode_NE s m e l.
Proof.
  unfold SpecFloat.binary_round_aux, BinarySingleNaN.binary_round_aux, binary_fit_aux.
  set (mrse' := shr_fexp _ _ _ _ _). destruct mrse' as [mrs' e'].
  now rewrite (round_nearest_even_eq s).
Qed.
Lemma binary_round_eq s m e : SpecFloat.binary_round fprec femax s m e = BinarySingleNaN.binary_round fprec femax mode_NE s m e.
Proof.
  unfold SpecFloat.binary_round, BinarySingleNaN.binary_round, shl_align_fexp. set (mez := shl_align _ _ _). destruct mez.
  apply binary_round_aux_eq.
Qed.
Lemma fnorm_eq m e s : fnorm m e s = B2SF (BinarySingleNaN.binary_normalize fprec femax _ _ mode_NE m e s).
Proof.
  unfold fnorm. destruct m as [|p|p]; [reflexivity| |]; cbn; rewrite B2SF_SF2B; apply binary_round_eq.
Qed.
Lemma fmul_eq (x y : bf) : fmul (B2SF x) (B2SF y) = B2SF (Bmult mode_NE x y).
Proof.
  destruct x, y; try reflexivity. cbn. rewrite B2SF_SF2B. apply binary_round_aux_eq.
Qed.
Lemma fdiv_eq (x y : bf) : fdiv (B2SF x) (B2SF y) = B2SF (Bdiv mode_NE x y).
Proof.
  destruct x as [| | |sx mx ex Hx], y as [| | |sy my ey Hy]; try reflexivity. unfold fdiv. cbn [B2SF SFdiv Bdiv]. rewrite B2SF_SF2B.
  destruct (SFdiv_core_binary _ _ _ _ _ _) as [[mz ez] lz]. apply binary_round_aux_eq.
Qed.
Lemma fadd_eq (x y : bf) : fadd (B2SF x) (B2SF y) = B2SF (Bplus mode_NE x y).
Proof.
  destruct x as [[]|[]| |sx mx ex Hx], y as [[]|[]| |sy my ey Hy]; try reflexivity; apply fnorm_eq.
Qed.
Lemma fsub_eq (x y : bf) : fsub (B2SF x) (B2SF y) = B2SF (Bminus mode_NE x y).
Proof.
  destruct x as [[]|[]| |sx mx ex Hx], y as [[]|[]| |sy my ey Hy]; try reflexivity;
  unfold fsub; cbn [B2SF SFsub Bminus]; unfold Zminus; rewrite <- cond_Zopp_negb; apply fnorm_eq.
Qed.

(** ** Real values *)

Definition real (x : f64) : R := SF2R radix2 x.
Definition finite (x : f64) : Prop := match x with S754_zero _ | S754_finite _ _ _ => True | _ => False end.
Definition rnd (r : R) : R := round radix2 fexp64 ZnearestE r.

Lemma finite_iff x : finite x <-> is_finite_SF x = true.
Proof. destruct x; cbn; intuition discriminate. Qed.
Lemma B_real x H : B2R (B x H) = real x.
Proof. unfold B. apply B2R_SF2B. Qed.
Lemma B_finite x H : is_finite (B x H) = is_finite_SF x.
Proof. unfold B. apply is_finite_SF2B. Qed.
Lemma B2SF_real (b : bf) : real (B2SF b) = B2R b.
Proof. apply SF2R_B2SF. Qed.
Lemma B2SF_finite (b : bf) : finite (B2SF b) <-> is_finite b = true.
Proof. rewrite finite_iff. now destruct b. Qed.

Lemma fmul_real x y : canonical x -> canonical y -> finite x -> finite y ->
  (Rabs (rnd (real x * real y)) < bpow radix2 femax)%R ->
  real (fmul x y) = rnd (real x * real y) /\ finite (fmul x y) /\ canonical (fmul x y).
Proof.
  intros Cx Cy Fx Fy L. rewrite <- (B2SF_B x Cx), <- (B2SF_B y Cy), fmul_eq.
  pose proof (Bmult_correct fprec femax _ _ mode_NE (B x Cx) (B y Cy)) as H.
  rewrite !B_real in H. change (round_mode mode_NE) with ZnearestE in H. fold (rnd (real x * real y)) in H.
  rewrite Rlt_bool_true in H by exact L. destruct H as (H1 & H2 & _).
  rewrite !B2SF_B, B2SF_real, H1. split; [reflexivity|]. split; [|apply B2SF_canonical].
  apply B2SF_finite. rewrite H2, !B_finite. apply finite_iff in Fx, Fy. now rewrite Fx, Fy.
Qed.
Lemma fdiv_real x y : canonical x -> canonical y -> finite x -> real y <> 0%R ->
  (Rabs (rnd (real x / real y)) < bpow radix2 femax)%R ->
  real (fdiv x y) = rnd (real x / real y) /\ finite (fdiv x y) /\ canonical (fdiv x y).
Proof.
  intros Cx Cy Fx Fy L. rewrite <- (B2SF_B x Cx), <- (B2SF_B y Cy), fdiv_eq.
  pose proof (Bdiv_correct fprec femax _ _ mode_NE (B x Cx) (B y Cy)) as H.
  rewrite !B_real in H. specialize (H Fy). change (round_mode mode_NE) with ZnearestE in H. fold (rnd (real x / real y)) in H.
  rewrite Rlt_bool_true in H by exact L. destruct H as (H1 & H2 & _).
  rewrite !B2SF_B, B2SF_real, H1. split; [reflexivity|]. split; [|apply B2SF_canonical].
  apply B2SF_finite. rewrite H2, !B_finite. now apply finite_iff in Fx.
Qed.
Lemma fadd_real x y : canonical x -> canonical y -> finite x -> finite y ->
  (Rabs (rnd (real x + real y)) < bpow radix2 femax)%R ->
  real (fadd x y) = rnd (real x + real y) /\ finite (fadd x y) /\ canonical (fadd x y).
Proof.
  intros Cx Cy Fx Fy L. rewrite <- (B2SF_B x Cx), <- (B2SF_B y Cy), fadd_eq.
  apply finite_iff in Fx, Fy.
  pose proof (Bplus_correct fprec femax _ _ mode_NE (B x Cx) (B y Cy)) as H.
  rewrite !B_real, !B_finite in H. specialize (H Fx Fy). change (round_mode mode_NE) with ZnearestE in H. fold (rnd (real x + real y)) in H.
  rewrite Rlt_bool_true in H by exact L. destruct H as (H1 & H2 & _).
  rewrite !B2SF_B, B2SF_real, H1. split; [reflexivity|]. split; [|apply B2SF_canonical].
  now apply B2SF_finite.
Qed.
Lemma fsub_real x y : canonical x -> canonical y -> finite x -> finite y ->
  (Rabs (rnd (real x - real y)) < bpow radix2 femax)%R ->
  real (fsub x y) = rnd (real x - real y) /\ finite (fsub x y) /\ canonical (fsub x y).
Proof.
  intros Cx Cy Fx Fy L. rewrite <- (B2SF_B x Cx), <- (B2SF_B y Cy), fsub_eq.
  apply finite_iff in Fx, Fy.
  pose proof (Bminus_correct fprec femax _ _ mode_NE (B x Cx) (B y Cy)) as H.
  rewrite !B_real, !B_finite in H. specialize (H Fx Fy). change (round_mode mode_NE) with ZnearestE in H. fold (rnd (real x - real y)) in H.
  rewrite Rlt_bool_true in H by exact L. destruct H as (H1 & H2 & _).
  rewrite !B2SF_B, B2SF_real, H1. split; [reflexivity|]. split; [|apply B2SF_canonical].
  now apply B2SF_finite.
Qed.
Lemma fnorm_real m e s : (Rabs (rnd (F2R (Float radix2 m e))) < bpow radix2 femax)%R ->
  real (fnorm m e s) = rnd (F2R (Float radix2 m e)) /\ finite (fnorm m e s) /\ canonical (fnorm m e s).
Proof.
  intros L. rewrite fnorm_eq.
  pose proof (binary_normalize_correct fprec femax _ _ mode_NE m e s) as H. cbv zeta in H.
  change (round_mode mode_NE) with ZnearestE in H. fold (rnd (F2R (Float radix2 m e))) in H.
  rewrite Rlt_bool_true in H by exact L. destruct H as (H1 & H2 & _).
  rewrite B2SF_real, H1. split; [reflexivity|]. split; [|apply B2SF_canonical]. now apply B2SF_finite.
Qed.

(** Results are always canonical. *)
Lemma fmul_canonical x y : canonical x -> canonical y -> canonical (fmul x y).
Proof. intros Cx Cy. rewrite <- (B2SF_B x Cx), <- (B2SF_B y Cy), fmul_eq. apply B2SF_canonical. Qed.
Lemma fdiv_canonical x y : canonical x -> canonical y -> canonical (fdiv x y).
Proof. intros Cx Cy. rewrite <- (B2SF_B x Cx), <- (B2SF_B y Cy), fdiv_eq. apply B2SF_canonical. Qed.
Lemma fadd_canonical x y : canonical x -> canonical y -> canonical (fadd x y).
Proof. intros Cx Cy. rewrite <- (B2SF_B x Cx), <- (B2SF_B y Cy), fadd_eq. apply B2SF_canonical. Qed.
Lemma fsub_canonical x y : canonical x -> canonical y -> canonical (fsub x y).
Proof. intros Cx Cy. rewrite <- (B2SF_B x Cx), <- (B2SF_B y Cy), fsub_eq. apply B2SF_canonical. Qed.
Lemma fnorm_canonical m e s : canonical (fnorm m e s).
Proof. rewrite fnorm_eq. apply B2SF_canonical. Qed.

(** ** Rounding *)

#[global] Instance fexp64_valid : Valid_exp fexp64.
Proof. apply (FLT_exp_valid (3 - femax - fprec) fprec). Qed.
Lemma rnd_mono a b : (a <= b)%R -> (rnd a <= rnd b)%R.
Proof. apply round_le; typeclasses eauto. Qed.
Lemma rnd_opp a : rnd (- a) = (- rnd a)%R.
Proof. apply round_NE_opp. Qed.
Lemma rnd_0 : rnd 0 = 0%R.
Proof. apply round_0. typeclasses eauto. Qed.
Lemma rnd_id r : generic_format radix2 fexp64 r -> rnd r = r.
Proof. apply round_generic. typeclasses eauto. Qed.
Lemma real_format x : canonical x -> generic_format radix2 fexp64 (real x).
Proof. intros C. rewrite <- (B_real x C). apply generic_format_B2R. Qed.
Lemma format_bpow e : -1074 <= e -> generic_format radix2 fexp64 (bpow radix2 e).
Proof. intros H. apply generic_format_bpow. unfold fexp, SpecFloat.emin, fprec, femax. lia. Qed.
Lemma format_Z m e : Z.abs m <= 2 ^ 53 -> -1074 <= e -> generic_format radix2 fexp64 (F2R (Float radix2 m e)).
Proof.
  intros H E. destruct (Z.eq_dec (Z.abs m) (2 ^ 53)) as [K|K].
  - assert (G : generic_format radix2 fexp64 (bpow radix2 (53 + e))) by (apply format_bpow; lia).
    rewrite bpow_plus in G. change (bpow radix2 53) with (IZR (2 ^ 53)) in G.
    unfold F2R. cbn [Fnum Fexp]. destruct (Z.abs_eq_or_opp m) as [A|A].
    + replace m with (2 ^ 53) by lia. exact G.
    + replace m with (- 2 ^ 53) by lia. rewrite opp_IZR, Ropp_mult_distr_l_reverse. now apply generic_format_opp.
  - apply generic_format_FLT. exists (Float radix2 m e); [reflexivity| |].
    + cbn [Fnum]. change (radix2 ^ fprec)%Z with (2 ^ 53). lia.
    + exact E.
Qed.
Lemma rnd_abs_le a b : generic_format radix2 fexp64 b -> (Rabs a <= b)%R -> (Rabs (rnd a) <= b)%R.
Proof. intros G H. apply abs_round_le_generic; auto. all: typeclasses eauto. Qed.

(** ** Integers *)

Lemma F2R_0e m : F2R (Float radix2 m 0) = IZR m.
Proof. unfold F2R. cbn [Fnum Fexp bpow]. apply Rmult_1_r. Qed.
Lemma rnd_Z_bound z k : 0 <= k -> Z.abs z <= 2 ^ k -> (Rabs (rnd (IZR z)) <= bpow radix2 k)%R.
Proof.
  intros K H. apply rnd_abs_le; [apply format_bpow; lia|]. rewrite <- abs_IZR.
  replace (bpow radix2 k) with (IZR (2 ^ k)) by (rewrite <- (IZR_Zpower radix2 k K); reflexivity). now apply IZR_le.
Qed.
Lemma of_Z_real z : Z.abs z <= 2 ^ 1000 -> real (of_Z z) = rnd (IZR z) /\ finite (of_Z z) /\ canonical (of_Z z).
Proof.
  intros H. unfold of_Z. pose proof (fnorm_real z 0 false) as F. rewrite F2R_0e in F. apply F.
  apply Rle_lt_trans with (bpow radix2 1000); [now apply rnd_Z_bound|]. now apply bpow_lt.
Qed.
Lemma of_Z_exact z : Z.abs z <= 2 ^ 53 -> real (of_Z z) = IZR z.
Proof.
  intros H. destruct (of_Z_real z) as [E _].
  - eapply Z.le_trans; [exact H|]. now apply Z.pow_le_mono_r.
  - rewrite E. apply rnd_id. rewrite <- F2R_0e. now apply format_Z.
Qed.

Lemma ftruncZ_real x : finite x -> ftruncZ x = Ztrunc (real x).
Proof.
  destruct x as [s|s| |s p e]; cbn [finite]; try tauto; intros _.
  - unfold ftruncZ, real. cbn. now rewrite Ztrunc_IZR.
  - unfold real. cbn [SF2R]. unfold ftruncZ.
    assert (A : (if 0 <=? e then Z.shiftl (Zpos p) e else int_part p e) = Ztrunc (F2R (Float radix2 (Zpos p) e))).
    { destruct (Z.leb_spec 0 e) as [L|L].
      - rewrite Z.shiftl_mul_pow2 by assumption. unfold F2R. cbn [Fnum Fexp].
        rewrite <- (IZR_Zpower radix2 e L), <- mult_IZR, Ztrunc_IZR. reflexivity.
      - unfold int_part. rewrite Z.shiftr_div_pow2 by lia. unfold F2R. cbn [Fnum Fexp].
        rewrite Ztrunc_floor by (apply Rmult_le_pos; [now apply IZR_le|apply bpow_ge_0]).
        replace e with (- (- e)) at 2 by lia. rewrite bpow_opp, <- (IZR_Zpower radix2 (- e)) by lia.
        symmetry. apply Zfloor_div. pose proof (Z.pow_pos_nonneg 2 (- e)). cbn [radix_val radix2]. lia. }
    rewrite A. destruct s; cbn [cond_Zopp].
    + change (Z.neg p) with (- Zpos p). rewrite F2R_Zopp, Ztrunc_opp. reflexivity.
    + reflexivity.
Qed.

Lemma of_mag_trunc s z : 0 <= z <= 2 ^ 53 -> finite (of_mag s z) /\ ftruncZ (of_mag s z) = if s then - z else z.
Proof.
  intros H. destruct z as [|p|p]; [now destruct s| |lia].
  assert (X : real (fnorm (Zpos p) 0 false) = IZR (Zpos p)) by (apply (of_Z_exact (Zpos p)); lia).
  assert (Y : finite (fnorm (Zpos p) 0 false)).
  { apply of_Z_real. eapply Z.le_trans; [|apply (Z.pow_le_mono_r 2 53 1000); lia]. lia. }
  cbn [of_mag]. assert (T : ftruncZ (fnorm (Zpos p) 0 false) = Zpos p) by (rewrite ftruncZ_real, X, Ztrunc_IZR by exact Y; reflexivity).
  destruct s; [|auto]. revert Y T. destruct (fnorm _ _ _) as [s|s| |s q e]; cbn [finite SFopp]; try tauto.
  - intros _. cbn. lia.
  - intros _. unfold ftruncZ. set (w := if (0 <=? e)%Z then _ else _). destruct s; cbn [negb]; lia.
Qed.

(** [f64::round]: the nearest integer, halves away from zero; [u] is the unit the
    numerator [a] is measured in. *)
Definition nearest (a u z : Z) : Prop :=
  2 * Z.abs (a - z * u) < u \/ (2 * Z.abs (a - z * u) = u /\ Z.abs a < Z.abs z * u).

Lemma nearest_unique a u z1 z2 : 0 < u -> nearest a u z1 -> nearest a u z2 -> z1 = z2.
Proof.
  intros U H1 H2. destruct (Z.lt_trichotomy z1 z2) as [L|[E|L]]; [exfalso| exact E|exfalso].
  - assert (u <= (z2 - z1) * u) by nia. unfold nearest in *.
    destruct H1 as [H1|[H1 K1]], H2 as [H2|[H2 K2]]; try nia.
  - assert (u <= (z1 - z2) * u) by nia. unfold nearest in *.
    destruct H1 as [H1|[H1 K1]], H2 as [H2|[H2 K2]]; try nia.
Qed.

Lemma fround_int x a : canonical x -> finite x -> scaled x = Some a ->
  finite (fround x) /\ nearest a (2 ^ 1074) (ftruncZ (fround x)).
Proof.
  destruct x as [s|s| |s p e]; cbn [finite]; try tauto; intros C _ E.
  - split; [exact I|]. apply some_eq in E. subst a. left. cbn. reflexivity.
  - cbn [scaled] in E. apply some_eq in E. subst a. cbn [fround].
    pose proof (canonical_exp _ _ _ C) as E1.
    destruct (Z.leb_spec 0 e) as [L|L].
    + split; [exact I|]. left. unfold ftruncZ. replace (0 <=? e) with true by lia.
      rewrite Z.shiftl_mul_pow2 by assumption. rewrite Z.pow_add_r by lia.
      assert (U : 0 < 2 ^ 1074) by now apply Z.pow_pos_nonneg. set (u := 2 ^ 1074) in *. clearbody u.
      replace (signed s (Zpos p * (2 ^ e * u)) - (if s then - (Zpos p * 2 ^ e) else Zpos p * 2 ^ e) * u) with 0 by (destruct s; cbn [signed]; ring).
      exact U.
    + set (k := - e). assert (K : 0 < k <= 1074) by lia. rewrite Z.shiftl_mul_pow2, Z.mul_1_l by lia.
      rewrite Z.shiftr_div_pow2 by lia.
      assert (P : Zpos p < 2 ^ 53). { cbn [canonical] in C. change (2 ^ 53) with 9007199254740992 in *. change (2 ^ 52) with 4503599627370496 in *. lia. }
      replace (- e - 1) with (k - 1) by lia. fold k.
      assert (D : 2 ^ k = 2 * 2 ^ (k - 1)) by (rewrite <- Z.pow_succ_r by lia; f_equal; lia).
      assert (HP : 0 < 2 ^ (k - 1)) by (apply Z.pow_pos_nonneg; lia).
      set (h := 2 ^ (k - 1)) in *. set (z := (Zpos p + h) / 2 ^ k).
      assert (Z1 : 2 ^ k * z <= Zpos p + h < 2 ^ k * (z + 1)).
      { unfold z. pose proof (Z.div_mod (Zpos p + h) (2 ^ k) ltac:(lia)). pose proof (Z.mod_pos_bound (Zpos p + h) (2 ^ k) ltac:(lia)). lia. }
      assert (ZR : 0 <= z <= 2 ^ 53).
      { split; [unfold z; apply Z.div_pos; lia|]. rewrite D in Z1. nia. }
      destruct (of_mag_trunc s z ZR) as [F T]. split; [exact F|]. rewrite T.
      assert (U : 2 ^ 1074 = 2 ^ k * 2 ^ (e + 1074)) by (rewrite <- Z.pow_add_r by lia; f_equal; lia).
      assert (UP : 0 < 2 ^ (e + 1074)) by (apply Z.pow_pos_nonneg; lia).
      rewrite U, D in *. set (u := 2 ^ (e + 1074)) in *. clearbody u h z. clear U D C.
      unfold nearest.
      replace (signed s (Zpos p * u) - (if s then - z else z) * (2 * h * u)) with (signed s ((Zpos p - 2 * h * z) * u)) by (destruct s; cbn [signed]; ring).
      assert (A : Z.abs (signed s ((Zpos p - 2 * h * z) * u)) = Z.abs (Zpos p - 2 * h * z) * u).
      { destruct s; cbn [signed]; rewrite ?Z.abs_opp, Z.abs_mul, (Z.abs_eq u) by lia; reflexivity. }
      rewrite A. destruct (Z.eq_dec (Zpos p + h) (2 * h * z)) as [TE|TE].
      * right. replace (Zpos p - 2 * h * z) with (- h) by lia. rewrite Z.abs_opp, (Z.abs_eq h) by lia.
        split; [ring|]. replace (Z.abs (signed s (Zpos p * u))) with (Zpos p * u) by (destruct s; cbn [signed]; rewrite ?Z.abs_opp, Z.abs_eq by lia; reflexivity).
        replace (Z.abs (if s then - z else z)) with z by (destruct s; lia).
        replace (z * (2 * h * u)) with (2 * h * z * u) by ring. rewrite <- TE. nia.
      * left. assert (Z.abs (Zpos p - 2 * h * z) < h) by lia. nia.
Qed.

(** Half-unit characterisation over the reals. *)
Lemma scaled_real x a : canonical x -> finite x -> scaled x = Some a -> (real x * bpow radix2 1074 = IZR a)%R.
Proof.
  destruct x as [s|s| |s p e]; cbn [finite]; try tauto; intros C _ E.
  - apply some_eq in E. subst a. unfold real. cbn [SF2R]. lra.
  - cbn [scaled] in E. apply some_eq in E. subst a. pose proof (canonical_exp _ _ _ C) as E1.
    unfold real. cbn [SF2R]. unfold F2R. cbn [Fnum Fexp]. rewrite Rmult_assoc, <- bpow_plus.
    rewrite <- (IZR_Zpower radix2 (e + 1074)) by lia. rewrite <- mult_IZR. f_equal. cbn [radix_val radix2].
    destruct s; cbn [cond_Zopp signed]; [|reflexivity]. change (Z.neg p) with (- Zpos p). ring.
Qed.
Lemma nearest_real x a k : canonical x -> finite x -> scaled x = Some a -> (Rabs (real x - IZR k) < / 2)%R -> nearest a (2 ^ 1074) k.
Proof.
  intros C F E H. left. apply lt_IZR. rewrite mult_IZR, abs_IZR, minus_IZR, mult_IZR.
  assert (U : IZR (2 ^ 1074) = bpow radix2 1074) by (rewrite <- (IZR_Zpower radix2 1074) by lia; reflexivity).
  rewrite U, <- (scaled_real x a C F E).
  pose proof (bpow_gt_0 radix2 1074) as P. set (u := bpow radix2 1074) in *. clearbody u.
  replace (real x * u - IZR k * u)%R with ((real x - IZR k) * u)%R by ring.
  rewrite Rabs_mult, (Rabs_pos_eq u) by lra. nra.
Qed.
Lemma as_i64_finite x : finite x -> as_i64 x = Z.max (- 2 ^ 63) (Z.min (2 ^ 63 - 1) (ftruncZ x)).
Proof. destruct x; cbn [finite]; try tauto; reflexivity. Qed.
Lemma round_near x k : canonical x -> finite x -> (Rabs (real x - IZR k) < / 2)%R -> ftruncZ (fround x) = k.
Proof.
  intros C F H. destruct (scaled x) as [a|] eqn:E.
  - destruct (fround_int x a C F E) as [_ N]. apply (nearest_unique a (2 ^ 1074)); [now apply Z.pow_pos_nonneg|exact N|].
    now apply (nearest_real x).
  - destruct x; cbn [finite scaled] in *; try tauto; discriminate.
Qed.

(** ** Relative error *)

Definition ulp_half : R := (/ 2 * bpow radix2 (-52))%R.
Lemma rnd_rel r : (bpow radix2 (-1022) <= Rabs r)%R ->
  exists eps, (Rabs eps <= ulp_half)%R /\ rnd r = (r * (1 + eps))%R.
Proof.
  intros H. apply (relative_error_N_FLT_ex radix2 (-1074) 53 ltac:(reflexivity) (fun z => negb (Z.even z))). exact H.
Qed.

(** ** Comparisons *)
Lemma finite_scaled x : finite x -> exists a, scaled x = Some a.
Proof. destruct x; cbn; try tauto; eauto. Qed.
Lemma scaled_compare x y a b : canonical x -> canonical y -> finite x -> finite y -> scaled x = Some a -> scaled y = Some b ->
  ((a < b <-> (real x < real y)%R) /\ (a = b <-> real x = real y)).
Proof.
  intros Cx Cy Fx Fy A B. pose proof (scaled_real x a Cx Fx A) as RA. pose proof (scaled_real y b Cy Fy B) as RB.
  pose proof (bpow_gt_0 radix2 1074) as P. split; split; intros H.
  - apply IZR_lt in H. rewrite <- RA, <- RB in H. now apply Rmult_lt_reg_r in H.
  - apply lt_IZR. rewrite <- RA, <- RB. now apply Rmult_lt_compat_r.
  - subst b. rewrite <- RB in RA. apply Rmult_eq_reg_r in RA; [assumption|]. now apply Rgt_not_eq.
  - apply eq_IZR. rewrite <- RA, <- RB. now rewrite H.
Qed.
Lemma flt_real x y : canonical x -> canonical y -> finite x -> finite y -> (flt x y = true <-> (real x < real y)%R).
Proof.
  intros Cx Cy Fx Fy. destruct (finite_scaled x Fx) as [a A]. destruct (finite_scaled y Fy) as [b B].
  rewrite flt_scaled, A, B by assumption. rewrite Z.ltb_lt. now apply scaled_compare.
Qed.
Lemma feq_real x y : canonical x -> canonical y -> finite x -> finite y -> (feq x y = true <-> real x = real y).
Proof.
  intros Cx Cy Fx Fy. destruct (finite_scaled x Fx) as [a A]. destruct (finite_scaled y Fy) as [b B].
  rewrite feq_scaled, A, B by assumption. rewrite Z.eqb_eq. now apply (scaled_compare x y a b).
Qed.
Lemma fle_real x y : canonical x -> canonical y -> finite x -> finite y -> (fle x y = true <-> (real x <= real y)%R).
Proof.
  intros Cx Cy Fx Fy. destruct (finite_scaled x Fx) as [a A]. destruct (finite_scaled y Fy) as [b B].
  rewrite fle_scaled, A, B by assumption. rewrite Z.leb_le.
  destruct (scaled_compare x y a b Cx Cy Fx Fy A B) as [L E]. rewrite Z.lt_eq_cases, L, E. unfold Rle. tauto.
Qed.
Lemma real_inj x y : canonical x -> canonical y -> finite x -> finite y -> real x = real y -> real x <> 0%R -> x = y.
Proof.
  intros Cx Cy Fx Fy E NZ. rewrite <- (B2SF_B x Cx), <- (B2SF_B y Cy). f_equal.
  assert (S : forall z C, finite z -> real z <> 0%R -> is_finite_strict (B z C) = true).
  { intros z C F N. unfold B. rewrite is_finite_strict_SF2B. destruct z; cbn in *; try tauto. }
  apply B2R_inj; [now apply S|apply S; congruence|]. now rewrite !B_real.
Qed.
