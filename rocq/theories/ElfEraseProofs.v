(** Erasing mantissa bits, and recovering the value. *)
From Coq Require Import Reals Lra.
From Flocq Require Import Core BinarySingleNaN.
From Verif Require Import Base WordProofs BitIO Xor F64 F64Proofs F64BitsProofs F64Flocq ElfFloatProofs Elf ElfSpec ElfArithProofs.
Local Open Scope Z_scope.

(** ** Bit patterns *)
Section Mask.
  Local Open Scope N_scope.
  Lemma all_fields x : x < two64 -> exists s e f, e < 2048 /\ f < 4503599627370496 /\ x = fields s e f.
  Proof.
    intros H. exists (negb (x / 9223372036854775808 =? 0)), ((x / 4503599627370496) mod 2048), (x mod 4503599627370496).
    split; [apply N.mod_lt; discriminate|]. split; [apply N.mod_lt; discriminate|].
    unfold fields, sgn. pose proof (N.div_mod x 4503599627370496 ltac:(lia)) as D1.
    pose proof (N.div_mod (x / 4503599627370496) 2048 ltac:(lia)) as D2.
    rewrite N.div_div in D2 by lia. change (4503599627370496 * 2048) with 9223372036854775808 in D2.
    assert (Q : x / 9223372036854775808 < 2) by (apply N.div_lt_upper_bound; [lia|]; exact H).
    set (q := x / 9223372036854775808) in *. set (y := x / 4503599627370496) in *.
    set (b := y mod 2048) in *. set (c := x mod 4503599627370496) in *. clearbody q y b c.
    destruct (N.eqb_spec q 0); cbn [negb]; lia.
  Qed.
  Lemma mask_value k : k < 64 -> wsub64 0 (shl64m 1 k) = N.shiftl (N.ones (64 - k)) k.
  Proof.
    intros K. assert (P : 2 ^ k <= 2 ^ 63) by (apply N.pow_le_mono_r; lia). assert (P0 : 0 < 2 ^ k) by (apply N.neq_0_lt_0, N.pow_nonzero; discriminate).
    change (2 ^ 63) with 9223372036854775808 in P.
    rewrite N.shiftl_mul_pow2, N.ones_equiv, <- N.sub_1_r, N.mul_sub_distr_r, <- N.pow_add_r, N.mul_1_l.
    replace (64 - k + k) with 64 by lia. unfold wsub64, shl64m, shl64. rewrite (N.mod_small k 64) by lia.
    rewrite N.shiftl_1_l. unfold two64 in *. rewrite (N.mod_small (2 ^ k)) by lia. change (2 ^ 64) with 18446744073709551616 in *.
    rewrite N.mod_small; lia.
  Qed.
  Lemma mask_bit k i : k < 64 -> N.testbit (N.shiftl (N.ones (64 - k)) k) i = (k <=? i) && (i <? 64).
  Proof.
    intros K. destruct (N.leb_spec k i) as [L|L]; [|now rewrite N.shiftl_spec_low].
    rewrite N.shiftl_spec_high' by assumption. cbn [andb]. destruct (N.ltb_spec i 64).
    - apply N.ones_spec_low. lia.
    - apply N.ones_spec_high. lia.
  Qed.
  Lemma high_bits x i : x < two64 -> 64 <= i -> N.testbit x i = false.
  Proof. intros X I. rewrite <- (N.mod_small x (2 ^ 64)) by exact X. now apply N.mod_pow2_bits_high. Qed.
  Lemma mask_land k x : k < 64 -> x < two64 -> N.land (N.shiftl (N.ones (64 - k)) k) x = x - x mod 2 ^ k.
  Proof.
    intros K X. transitivity (N.shiftl (N.shiftr x k) k).
    - apply N.bits_inj. intros i. rewrite N.land_spec, mask_bit by assumption. destruct (N.leb_spec k i) as [L|L]; cbn [andb].
      + rewrite N.shiftl_spec_high' by assumption. rewrite N.shiftr_spec'. replace (i - k + k) with i by lia.
        destruct (N.ltb_spec i 64) as [M|M]; cbn [andb]; [reflexivity|]. symmetry. now apply high_bits.
      + now rewrite N.shiftl_spec_low.
    - rewrite N.shiftl_mul_pow2, N.shiftr_div_pow2. pose proof (N.div_mod x (2 ^ k) ltac:(now apply N.pow_nonzero)) as D.
      set (q := x / 2 ^ k) in *. set (r := x mod 2 ^ k) in *. set (p := 2 ^ k) in *. clearbody q r p. rewrite (N.mul_comm q p). lia.
  Qed.
  Lemma mask_ldiff k x : k < 64 -> x < two64 -> N.ldiff x (N.shiftl (N.ones (64 - k)) k) = x mod 2 ^ k.
  Proof.
    intros K X. apply N.bits_inj. intros i. rewrite N.ldiff_spec, mask_bit by assumption. destruct (N.leb_spec k i) as [L|L]; cbn [andb].
    - rewrite N.mod_pow2_bits_high by assumption. destruct (N.ltb_spec i 64) as [M|M]; cbn [negb]; [apply andb_false_r|].
      now rewrite high_bits.
    - rewrite N.mod_pow2_bits_low by assumption. apply andb_true_r.
  Qed.
  Lemma fields_mod s e f k : k <= 52 -> fields s e f mod 2 ^ k = f mod 2 ^ k.
  Proof.
    intros K. unfold fields. assert (P : 4503599627370496 = 2 ^ (52 - k) * 2 ^ k).
    { rewrite <- N.pow_add_r. replace (52 - k + k) with 52 by lia. reflexivity. }
    assert (S : exists q, sgn s + e * 4503599627370496 = q * 4503599627370496).
    { exists ((if s then 2048 else 0) + e). unfold sgn. destruct s; lia. }
    destruct S as (q&S). rewrite N.add_assoc, S, P, N.mul_assoc, N.add_comm. apply N.mod_add. now apply N.pow_nonzero.
  Qed.
  Lemma fields_exp s e f : e < 2048 -> f < 4503599627370496 -> N.land (N.shiftr (fields s e f) 52) 2047 = e.
  Proof.
    intros HE HF. destruct (bits_fields _ (fields_bound s e f HE HF)) as (EE & _). rewrite EE.
    replace (fields s e f / 2 ^ 52) with ((if s then 2048 else 0) + e).
    2:{ apply N.div_unique with f; change (2 ^ 52) with 4503599627370496; [assumption|]. unfold fields, sgn. destruct s; lia. }
    change (2 ^ 11) with 2048. symmetry. apply N.mod_unique with (if s then 1 else 0); [assumption|]. destruct s; lia.
  Qed.
  Lemma fields_erase s e f k : e < 2048 -> f < 4503599627370496 -> k <= 52 ->
    N.land (wsub64 0 (shl64m 1 k)) (fields s e f) = fields s e (f - f mod 2 ^ k) /\
    N.ldiff (fields s e f) (wsub64 0 (shl64m 1 k)) = f mod 2 ^ k.
  Proof.
    intros HE HF K. pose proof (fields_bound s e f HE HF) as B. rewrite mask_value, mask_land, mask_ldiff, fields_mod by (auto; lia).
    split; [|reflexivity]. pose proof (N.mod_le f (2 ^ k) ltac:(now apply N.pow_nonzero)). unfold fields. lia.
  Qed.
End Mask.

(** ** The number of bits kept *)
Definition kept (alpha : Z) : Z := Z.of_N (get_f_alpha (Z.to_N alpha)).
Lemma kept_table alpha : 1 <= alpha <= 22 -> 1024 * 10 ^ alpha <= 1000 * 2 ^ kept alpha /\ 0 <= kept alpha <= 74.
Proof.
  intros H.
  assert (C : forallb (fun a => (1024 * 10 ^ a <=? 1000 * 2 ^ kept a) && (0 <=? kept a) && (kept a <=? 74))
    [1; 2; 3; 4; 5; 6; 7; 8; 9; 10; 11; 12; 13; 14; 15; 16; 17; 18; 19; 20; 21; 22] = true) by (vm_compute; reflexivity).
  rewrite forallb_forall in C. assert (I : In alpha [1; 2; 3; 4; 5; 6; 7; 8; 9; 10; 11; 12; 13; 14; 15; 16; 17; 18; 19; 20; 21; 22]).
  { cbn [In]. lia. }
  specialize (C alpha I). rewrite !andb_true_iff, !Z.leb_le in C. lia.
Qed.
Lemma kept_0 : kept 0 = 0.
Proof. reflexivity. Qed.
Lemma erase_bits_eq s e f alpha : (e < 2048)%N -> (f < 4503599627370496)%N -> 0 <= alpha <= 22 -> 1023 <= kept alpha + Z.of_N e ->
  erase_bits (fields s e f) (Z.to_N alpha) = 1075 - kept alpha - Z.of_N e.
Proof.
  intros HE HF A K.
  assert (B : 0 <= kept alpha <= 74) by (destruct (Z.eq_dec alpha 0) as [->|N]; [rewrite kept_0; lia|apply kept_table; lia]).
  unfold erase_bits. rewrite fields_exp by assumption. unfold kept in *. set (g := get_f_alpha (Z.to_N alpha)) in *. clearbody g.
  unfold wsub32, two32. rewrite (N.mod_small (g + e)) by lia. rewrite (N.mod_small 1023) by lia.
  replace ((g + e + 4294967296 - 1023) mod 4294967296)%N with (g + e - 1023)%N.
  2:{ apply N.mod_unique with 1%N; lia. }
  destruct (N.leb_spec 2147483648 (g + e - 1023)) as [L|L]; [lia|].
  set (z := 52 - Z.of_N (g + e - 1023)). cbn zeta. destruct (Z_lt_le_dec z 0) as [Q|Q].
  - replace (z mod 4294967296) with (z + 4294967296) by (apply Z.mod_unique with (-1); unfold z in *; lia).
    destruct (Z.leb_spec 2147483648 (z + 4294967296)); unfold z in *; lia.
  - rewrite Z.mod_small by (unfold z in *; lia). destruct (Z.leb_spec 2147483648 z); unfold z in *; lia.
Qed.

(** ** The value of a pattern *)
Definition mant (f : N) : Z := 2 ^ 52 + Z.of_N f.
Lemma fields_real s e f : (1 <= e <= 2046)%N -> (f < 4503599627370496)%N ->
  real (of_bits (fields s e f)) = ((if s then -1 else 1) * (IZR (mant f) * bpow radix2 (Z.of_N e - 1075)))%R /\
  finite (of_bits (fields s e f)) /\ canonical (of_bits (fields s e f)) /\
  fabs (of_bits (fields s e f)) = of_bits (fields false e f) /\ flt (of_bits (fields s e f)) (S754_zero false) = s.
Proof.
  intros HE HF. pose proof (of_bits_canonical (fields s e f) (fields_bound s e f ltac:(lia) HF)) as C. revert C.
  rewrite !of_fields by lia. destruct (N.eqb_spec e 0); [lia|]. destruct (N.eqb_spec e 2047); [lia|].
  assert (M : mant f = Z.of_N (f + 4503599627370496)) by (unfold mant; change (2 ^ 52) with 4503599627370496; lia).
  rewrite M. destruct (f + 4503599627370496)%N as [|p] eqn:P; [lia|]. intros C. split; [|split; [exact I|split; [exact C|split; [reflexivity|]]]].
  - unfold real. cbn [SF2R]. unfold F2R. cbn [Fnum Fexp]. change (Z.of_N (Npos p)) with (Zpos p). destruct s; cbn [cond_Zopp].
    + change (Z.neg p) with (- Zpos p). rewrite opp_IZR. ring.
    + ring.
  - destruct s; reflexivity.
Qed.

Section Value.
  Variables (e f : N).
  Hypothesis HE : (1 <= e <= 2046)%N.
  Hypothesis HF : (f < 4503599627370496)%N.
  Definition val (f : N) : R := (IZR (mant f) * bpow radix2 (Z.of_N e - 1075))%R.
  Definition ulpv : R := bpow radix2 (Z.of_N e - 1075).

  Lemma mant_bounds : (IZR (2 ^ 52) <= IZR (mant f) <= IZR (2 ^ 53) - 1)%R.
  Proof using HE HF.
    unfold mant. change (2 ^ 52) with 4503599627370496 in *. change (2 ^ 53) with 9007199254740992 in *. rewrite <- minus_IZR.
    split; apply IZR_le; lia.
  Qed.
  Lemma val_bounds : (bpow radix2 (Z.of_N e - 1023) <= val f <= bpow radix2 (Z.of_N e - 1022) - ulpv)%R.
  Proof using HE HF.
    pose proof mant_bounds as [B1 B2]. unfold val, ulpv. replace (Z.of_N e - 1023) with (52 + (Z.of_N e - 1075)) by lia.
    replace (Z.of_N e - 1022) with (53 + (Z.of_N e - 1075)) by lia. rewrite !bpow_plus.
    change (bpow radix2 52) with (IZR (2 ^ 52)). change (bpow radix2 53) with (IZR (2 ^ 53)).
    pose proof (bpow_gt_0 radix2 (Z.of_N e - 1075)). nra.
  Qed.
  Lemma val_ulp : ulp radix2 fexp64 (val f) = ulpv.
  Proof using HE HF.
    pose proof val_bounds as [B1 B2]. pose proof (bpow_gt_0 radix2 (Z.of_N e - 1023)) as P.
    assert (U : (0 < ulpv)%R) by apply bpow_gt_0. rewrite ulp_neq_0 by lra. unfold cexp.
    rewrite (mag_unique radix2 (val f) (Z.of_N e - 1022)).
    - unfold ulpv. f_equal. unfold fexp, SpecFloat.emin, fprec, femax. lia.
    - replace (Z.of_N e - 1022 - 1) with (Z.of_N e - 1023) by lia. rewrite Rabs_pos_eq by lra. lra.
  Qed.
  Lemma val_round q : val f = rnd q -> (Rabs (val f - q) <= / 2 * ulpv)%R.
  Proof using HE HF.
    intros E. rewrite <- val_ulp, E. apply error_le_half_ulp_round; try typeclasses eauto.
  Qed.
  (** Integers have no bits below the unit. *)
  Lemma val_int z k : 0 <= k <= 52 -> k <= 1075 - Z.of_N e -> val f = IZR z -> (f mod 2 ^ Z.to_N k = 0)%N.
  Proof using HE HF.
    intros K KE E. unfold val in E.
    assert (M : mant f = z * 2 ^ (1075 - Z.of_N e)).
    { apply eq_IZR. rewrite mult_IZR, <- E. assert (X : IZR (2 ^ (1075 - Z.of_N e)) = bpow radix2 (1075 - Z.of_N e)) by (rewrite <- (IZR_Zpower radix2) by lia; reflexivity).
      rewrite X, Rmult_assoc, <- bpow_plus. replace (Z.of_N e - 1075 + (1075 - Z.of_N e)) with 0 by lia. cbn [bpow]. ring. }
    assert (P : 2 ^ (1075 - Z.of_N e) = 2 ^ (1075 - Z.of_N e - k) * 2 ^ k) by (rewrite <- Z.pow_add_r by lia; f_equal; lia).
    assert (P2 : 2 ^ 52 = 2 ^ (52 - k) * 2 ^ k) by (rewrite <- Z.pow_add_r by lia; f_equal; lia).
    assert (R : Z.of_N f = (z * 2 ^ (1075 - Z.of_N e - k) - 2 ^ (52 - k)) * 2 ^ k).
    { unfold mant in M. rewrite P2, P in M. lia. }
    apply N2Z.inj. rewrite N2Z.inj_mod, N2Z.inj_pow, Z2N.id by lia. rewrite R. apply Z.mod_mul.
    apply Z.pow_nonzero; lia.
  Qed.
End Value.

(** ** The decimal is found again after erasing *)
Section Recover.
  Variables (e f : N) (d alpha t : Z).
  Hypothesis HE : (1 <= e <= 2046)%N.
  Hypothesis HF : (f < 4503599627370496)%N.
  Hypothesis D : -6 <= d <= 14.
  Hypothesis AL : 0 <= alpha <= 22.
  Hypothesis T : 0 < t.
  Hypothesis AD : (dec d <= val e f < dec (d + 1))%R.
  Hypothesis Q : val e f = rnd (IZR t / IZR (10 ^ alpha)).

  Lemma P10 : (0 < IZR (10 ^ alpha))%R.
  Proof using HE HF D AL T AD Q. apply IZR_lt, Z.pow_pos_nonneg; lia. Qed.

  Lemma quotient_lt : (IZR t / IZR (10 ^ alpha) < p10 (d + 1))%R.
  Proof using HE HF D AL T AD Q. pose proof P10 as PP.
    apply Rnot_le_lt. intros H. apply rnd_mono in H. change (rnd (p10 (d + 1))) with (dec (d + 1)) in H. lra.
  Qed.
  Lemma count_pos : 1 <= d + alpha + 1.
  Proof using HE HF D AL T AD Q. pose proof P10 as PP.
    destruct (Z_le_gt_dec 1 (d + alpha + 1)) as [L|L]; [exact L|exfalso]. pose proof quotient_lt as H.
    assert (X : (p10 (d + 1) <= p10 (- alpha))%R).
    { destruct (Z.eq_dec (d + 1) (- alpha)) as [->|N]; [lra|]. apply Rlt_le, p10_lt. lia. }
    assert (Y : p10 (- alpha) = (/ IZR (10 ^ alpha))%R).
    { unfold p10. destruct (Z.leb_spec 0 (- alpha)) as [L2|L2].
      - replace alpha with 0 by lia. change (- 0) with 0. change (10 ^ 0) with 1. lra.
      - now rewrite Z.opp_involutive. }
    assert (1 <= IZR t)%R by (apply IZR_le; lia). pose proof (Rinv_0_lt_compat _ PP). unfold Rdiv in H. nra.
  Qed.
  Lemma p10_scale : (p10 (d + 1) * IZR (10 ^ alpha) = IZR (10 ^ (d + alpha + 1)))%R.
  Proof using HE HF D AL T AD Q. pose proof P10 as PP.
    pose proof count_pos as C. rewrite <- p10_add by lia. unfold p10. replace (d + 1 + alpha) with (d + alpha + 1) by lia.
    destruct (Z.leb_spec 0 (d + alpha + 1)); [reflexivity|lia].
  Qed.
  Lemma t_small : t < 10 ^ (d + alpha + 1).
  Proof using HE HF D AL T AD Q. pose proof P10 as PP.
    apply lt_IZR. rewrite <- p10_scale. pose proof quotient_lt as H. apply (Rmult_lt_compat_r (IZR (10 ^ alpha))) in H; [|exact PP].
    unfold Rdiv in H. rewrite Rmult_assoc, Rinv_l in H by lra. lra.
  Qed.

  Lemma kept_bounds : 0 <= kept alpha <= 74 /\ (/ IZR (10 ^ alpha) >= bpow radix2 (- kept alpha))%R.
  Proof using HE HF D AL T AD Q. pose proof P10 as PP.
    destruct (Z.eq_dec alpha 0) as [->|N].
    - rewrite kept_0. cbn [bpow Z.opp]. change (10 ^ 0) with 1. split; [lia|lra].
    - destruct (kept_table alpha ltac:(lia)) as [K1 K2]. split; [exact K2|].
      assert (X : bpow radix2 (- kept alpha) = (/ IZR (2 ^ kept alpha))%R) by (rewrite bpow_opp, <- (IZR_Zpower radix2) by lia; reflexivity).
      rewrite X. apply Rle_ge, Rinv_le; [exact PP|]. apply IZR_le. lia.
  Qed.
  Lemma kept_exp : 1023 <= kept alpha + Z.of_N e.
  Proof using HE HF D AL T AD Q. pose proof P10 as PP.
    destruct kept_bounds as [K1 K2]. assert (T1 : (1 <= IZR t)%R) by (apply IZR_le; lia).
    assert (X : (bpow radix2 (- kept alpha) <= val e f)%R).
    { rewrite Q, <- (rnd_id (bpow radix2 (- kept alpha))) by (apply format_bpow; clear -K1; lia). apply rnd_mono.
      pose proof (Rinv_0_lt_compat _ PP). unfold Rdiv. nra. }
    pose proof (val_bounds e f HE HF) as [_ V]. pose proof (bpow_gt_0 radix2 (Z.of_N e - 1075)) as U. unfold ulpv in V.
    assert (L : (bpow radix2 (- kept alpha) < bpow radix2 (Z.of_N e - 1022))%R) by lra. apply lt_bpow in L. lia.
  Qed.

  Definition er : Z := 1075 - kept alpha - Z.of_N e.
  Lemma integers : alpha = 0 \/ (0 <= d /\ val e f = dec d) -> exists z, val e f = IZR z.
  Proof using HE HF D AL T AD Q. pose proof P10 as PP.
    intros [E0|[N E]].
    - exists t. pose proof t_small as TS. rewrite Q. rewrite E0 in TS |- *. change (10 ^ 0) with 1. replace (IZR t / 1)%R with (IZR t) by lra.
      apply rnd_id. rewrite <- F2R_0e. apply format_Z; [|lia].
      assert (10 ^ (d + 0 + 1) <= 10 ^ 15) by (apply Z.pow_le_mono_r; lia). change (10 ^ 15) with 1000000000000000 in *.
      change (2 ^ 53) with 9007199254740992. lia.
    - exists (10 ^ d). rewrite E. apply dec_pos. lia.
  Qed.
  Lemma nothing_erased : 4 < er -> alpha = 0 \/ (0 <= d /\ val e f = dec d) -> (f mod 2 ^ Z.to_N er = 0)%N.
  Proof using HE HF D AL T AD Q. pose proof P10 as PP.
    intros E H. destruct (integers H) as [z V]. pose proof kept_exp as K. destruct kept_bounds as [KB _].
    apply (val_int e f HE HF z); [unfold er in *; lia..|exact V].
  Qed.

  Section Erased.
    Hypothesis E4 : 4 < er.
    Hypothesis A1 : 1 <= alpha.
    Hypothesis ND : val e f <> dec d.
    Hypothesis NZ : (f mod 2 ^ Z.to_N er <> 0)%N.
    Definition fe : N := (f - f mod 2 ^ Z.to_N er)%N.

    Lemma er_pow : (0 < 2 ^ Z.to_N er)%N.
    Proof using HE HF D AL T AD Q E4 A1 ND NZ. pose proof P10 as PP. apply N.neq_0_lt_0, N.pow_nonzero. discriminate. Qed.
    Lemma fe_le : (fe <= f)%N.
    Proof using HE HF D AL T AD Q E4 A1 ND NZ. pose proof P10 as PP. unfold fe. lia. Qed.
    (** The erased value lies below the decimal, by less than a unit of its last digit. *)
    Lemma erased_val : (val e f - bpow radix2 (- kept alpha) + ulpv e <= val e fe < val e f)%R.
    Proof using HE HF D AL T AD Q E4 A1 ND NZ. pose proof P10 as PP.
      assert (M : mant fe = mant f - Z.of_N (f mod 2 ^ Z.to_N er)).
      { unfold mant, fe. pose proof (N.mod_le f (2 ^ Z.to_N er)). pose proof er_pow. lia. }
      assert (B : bpow radix2 (- kept alpha) = (IZR (2 ^ er) * ulpv e)%R).
      { assert (X : IZR (2 ^ er) = bpow radix2 er) by (rewrite <- (IZR_Zpower radix2) by lia; reflexivity).
        rewrite X. unfold ulpv. rewrite <- bpow_plus. f_equal. unfold er. lia. }
      assert (R : 1 <= Z.of_N (f mod 2 ^ Z.to_N er) <= 2 ^ er - 1).
      { pose proof (N.mod_lt f (2 ^ Z.to_N er) ltac:(pose proof er_pow; lia)) as L. split; [lia|].
        apply N2Z.inj_lt in L. rewrite N2Z.inj_pow, Z2N.id in L by lia. change (Z.of_N 2) with 2 in L. lia. }
      set (r := Z.of_N (f mod 2 ^ Z.to_N er)) in *. rewrite B. unfold val, ulpv. rewrite M, minus_IZR.
      pose proof (bpow_gt_0 radix2 (Z.of_N e - 1075)) as U. destruct R as [R1 R2]. apply IZR_le in R1, R2. rewrite minus_IZR in R2.
      split; nra.
    Qed.
    Lemma erased_format : rnd (val e fe) = val e fe.
    Proof using HE HF D AL T AD Q E4 A1 ND NZ. pose proof P10 as PP.
      apply rnd_id. unfold val. apply (format_Z (mant fe) (Z.of_N e - 1075)); [|lia]. pose proof fe_le. unfold mant.
      change (2 ^ 52) with 4503599627370496. change (2 ^ 53) with 9007199254740992. lia.
    Qed.
    Lemma erased_scaled : (IZR t - 1000 / 1024 < val e fe * IZR (10 ^ alpha) < IZR t)%R.
    Proof using HE HF D AL T AD Q E4 A1 ND NZ. pose proof P10 as PP.
      destruct erased_val as [L1 L2]. split.
      - pose proof (val_round e f HE HF _ Q) as RR. apply Rabs_le_inv in RR. pose proof (bpow_gt_0 radix2 (Z.of_N e - 1075)) as U. fold (ulpv e) in U.
        assert (G : (IZR t / IZR (10 ^ alpha) - bpow radix2 (- kept alpha) < val e fe)%R) by lra.
        destruct (kept_table alpha ltac:(lia)) as [K1 K2].
        assert (K : (bpow radix2 (- kept alpha) * IZR (10 ^ alpha) <= 1000 / 1024)%R).
        { assert (X : bpow radix2 (- kept alpha) = (/ IZR (2 ^ kept alpha))%R) by (rewrite bpow_opp, <- (IZR_Zpower radix2) by lia; reflexivity).
          rewrite X. apply IZR_le in K1. rewrite !mult_IZR in K1.
          assert (W : (0 < IZR (2 ^ kept alpha))%R) by (apply IZR_lt, Z.pow_pos_nonneg; lia).
          apply (Rmult_le_reg_l (IZR (2 ^ kept alpha))); [exact W|]. rewrite <- Rmult_assoc, Rinv_r by lra. lra. }
        apply (Rmult_lt_compat_r _ _ _ PP) in G. rewrite Rmult_minus_distr_r in G.
        replace (IZR t / IZR (10 ^ alpha) * IZR (10 ^ alpha))%R with (IZR t) in G by (field; lra). lra.
      - apply Rnot_le_lt. intros H. assert (G : (IZR t / IZR (10 ^ alpha) <= val e fe)%R).
        { apply (Rmult_le_reg_r (IZR (10 ^ alpha))); [exact PP|]. replace (IZR t / IZR (10 ^ alpha) * IZR (10 ^ alpha))%R with (IZR t) by (field; lra). exact H. }
        apply rnd_mono in G. rewrite <- Q, erased_format in G. lra.
    Qed.
    Lemma erased_decade : (dec d <= val e fe < dec (d + 1))%R.
    Proof using HE HF D AL T AD Q E4 A1 ND NZ. pose proof P10 as PP.
      destruct erased_val as [L1 L2]. split; [|lra]. rewrite <- erased_format. apply rnd_mono.
      assert (QD : (p10 d < IZR t / IZR (10 ^ alpha))%R).
      { apply Rnot_le_lt. intros H. apply rnd_mono in H. rewrite <- Q in H. change (rnd (p10 d)) with (dec d) in H. lra. }
      pose proof count_pos as CP. assert (PD : (p10 d * IZR (10 ^ alpha) = IZR (10 ^ (d + alpha)))%R).
      { rewrite <- p10_add by lia. unfold p10. destruct (Z.leb_spec 0 (d + alpha)); [reflexivity|lia]. }
      apply (Rmult_lt_compat_r _ _ _ PP) in QD. replace (IZR t / IZR (10 ^ alpha) * IZR (10 ^ alpha))%R with (IZR t) in QD by (field; lra).
      rewrite PD in QD. apply lt_IZR in QD. assert (T1 : (IZR (10 ^ (d + alpha)) + 1 <= IZR t)%R) by (rewrite <- plus_IZR; apply IZR_le; lia).
      destruct erased_scaled as [S1 _]. apply (Rmult_le_reg_r (IZR (10 ^ alpha))); [exact PP|]. rewrite PD. lra.
    Qed.
    Lemma t_48 : (IZR t < IZR (2 ^ 48))%R.
    Proof using HE HF D AL T AD Q E4 A1 ND NZ. pose proof P10 as PP.
      pose proof (val_round e f HE HF _ Q) as RR. apply Rabs_le_inv in RR. pose proof (bpow_gt_0 radix2 (Z.of_N e - 1075)) as U. fold (ulpv e) in U.
      pose proof (val_bounds e f HE HF) as [_ V]. destruct (kept_table alpha ltac:(lia)) as [K1 K2].
      assert (G : (IZR t / IZR (10 ^ alpha) < bpow radix2 (48 - kept alpha))%R).
      { apply Rlt_le_trans with (bpow radix2 (Z.of_N e - 1022)); [lra|]. apply bpow_le. unfold er in E4. lia. }
      apply (Rmult_lt_compat_r _ _ _ PP) in G. replace (IZR t / IZR (10 ^ alpha) * IZR (10 ^ alpha))%R with (IZR t) in G by (field; lra).
      apply Rlt_le_trans with (1 := G). unfold Zminus. rewrite bpow_plus. change (bpow radix2 48) with (IZR (2 ^ 48)).
      assert (X : bpow radix2 (- kept alpha) = (/ IZR (2 ^ kept alpha))%R) by (rewrite bpow_opp, <- (IZR_Zpower radix2) by lia; reflexivity).
      rewrite X. assert (W : (0 < IZR (2 ^ kept alpha))%R) by (apply IZR_lt, Z.pow_pos_nonneg; lia).
      assert (Y : (/ IZR (2 ^ kept alpha) * IZR (10 ^ alpha) <= 1)%R).
      { apply (Rmult_le_reg_l (IZR (2 ^ kept alpha))); [exact W|]. rewrite <- Rmult_assoc, Rinv_r by lra. rewrite Rmult_1_l, Rmult_1_r. apply IZR_le. lia. }
      assert (0 < IZR (2 ^ 48))%R by (apply IZR_lt; reflexivity). rewrite Rmult_assoc. nra.
    Qed.
    Lemma rounded_up : (IZR t - 1 < rnd (val e fe * IZR (10 ^ alpha)) <= IZR t)%R.
    Proof using HE HF D AL T AD Q E4 A1 ND NZ. pose proof P10 as PP.
      destruct erased_scaled as [S1 S2]. set (y := (val e fe * IZR (10 ^ alpha))%R) in *. pose proof t_48 as T48.
      assert (T1 : (1 <= IZR t)%R) by (apply IZR_le; lia). split.
      - assert (U : (ulp radix2 fexp64 y <= bpow radix2 (-5))%R).
        { rewrite ulp_neq_0 by lra. apply bpow_le. unfold cexp. assert (M : mag radix2 y <= 48).
          { apply mag_le_bpow; [lra|]. rewrite Rabs_pos_eq by lra. change (bpow radix2 48) with (IZR (2 ^ 48)). lra. }
          unfold fexp, SpecFloat.emin, fprec, femax. lia. }
        pose proof (error_le_half_ulp radix2 fexp64 (fun x => negb (Z.even x)) y) as HU. change (round radix2 fexp64 (Znearest (fun x => negb (Z.even x))) y) with (rnd y) in HU.
        apply Rabs_le_inv in HU. change (bpow radix2 (-5)) with (/ IZR (2 ^ 5))%R in U. change (2 ^ 5) with 32 in U. lra.
      - apply Rle_trans with (rnd (IZR t)); [apply rnd_mono; lra|]. right. apply rnd_id. rewrite <- F2R_0e. apply format_Z; [|lia].
        apply lt_IZR in T48. change (2 ^ 48) with 281474976710656 in T48. change (2 ^ 53) with 9007199254740992. lia.
    Qed.
    Lemma erased_ceil : Zceil (rnd (val e fe * IZR (10 ^ alpha))) = t.
    Proof using HE HF D AL T AD Q E4 A1 ND NZ. pose proof P10 as PP. apply Zceil_imp. rewrite minus_IZR. apply rounded_up. Qed.

    Lemma recovered s log10 : get_sp log10 (of_bits (fields false e fe)) = d -> elf_recover log10 (d + alpha + 1) (fields s e fe) = fields s e f.
    Proof using HE HF D AL T AD Q E4 A1 ND NZ. pose proof P10 as PP. intros SP.
      assert (HFE : (fe < 4503599627370496)%N) by (pose proof fe_le; lia).
      destruct (fields_real s e fe HE HFE) as (R&F&C&AB&SG). destruct (fields_real false e fe HE HFE) as (RA&FA&CA&_&_). fold (val e fe) in R, RA.
      destruct (fields_real s e f HE HF) as (R0&F0&C0&_&_). fold (val e f) in R0.
      rewrite Rmult_1_l in RA.
      unfold elf_recover. cbv zeta. rewrite AB, SP. destruct (Z.eqb_spec (d + alpha + 1) 0) as [Z0|_]; [pose proof count_pos; lia|].
      replace (d + alpha + 1 - d - 1) with alpha by lia. rewrite i32_small by (change (2 ^ 31) with 2147483648; lia).
      unfold round_up, get_10i_p. rewrite SG. destruct (pow10_real (Z.to_N alpha) ltac:(lia)) as (PR&PF&PC). rewrite Z2N.id in PR by lia.
      set (x := of_bits (fields s e fe)) in *. set (p := pow10 (Z.to_N alpha)) in *.
      assert (T48 := t_48).
      assert (BIG : (IZR (2 ^ 48) < bpow radix2 femax)%R) by (change (IZR (2 ^ 48)) with (bpow radix2 48); apply bpow_lt; reflexivity).
      destruct rounded_up as [RU1 RU2]. assert (T1 : (1 <= IZR t)%R) by (apply IZR_le; lia).
      set (w := rnd (val e fe * IZR (10 ^ alpha))) in *.
      assert (Y : real (fmul x p) = ((if s then -1 else 1) * w)%R /\ finite (fmul x p) /\ canonical (fmul x p)).
      { assert (E : rnd (real x * real p) = ((if s then -1 else 1) * w)%R).
        { rewrite R, PR. unfold w. destruct s; [|rewrite !Rmult_1_l; reflexivity].
          replace (-1 * val e fe * IZR (10 ^ alpha))%R with (- (val e fe * IZR (10 ^ alpha)))%R by ring. rewrite rnd_opp. ring. }
        rewrite <- E. apply fmul_real; try assumption. rewrite E. rewrite Rabs_mult.
        assert (Rabs (if s then -1 else 1) = 1)%R as -> by (destruct s; [rewrite Rabs_left; lra|rewrite Rabs_pos_eq; lra]).
        rewrite Rabs_pos_eq by lra. lra. }
      destruct Y as (Y1&Y2&Y3). set (y := fmul x p) in *. clearbody y.
      assert (G : forall z, real z = ((if s then -1 else 1) * IZR t)%R -> finite z -> canonical z -> to_bits (fdiv z p) = fields s e f).
      { intros z Z1 Z2 Z3.
        assert (E : rnd (real z / real p) = ((if s then -1 else 1) * val e f)%R).
        { rewrite Z1, PR, Q. destruct s; [|rewrite !Rmult_1_l; reflexivity].
          replace (-1 * IZR t / IZR (10 ^ alpha))%R with (- (IZR t / IZR (10 ^ alpha)))%R by (field; lra). rewrite rnd_opp. ring. }
        assert (VP : (0 < val e f)%R) by (pose proof (val_bounds e f HE HF) as [VB _]; pose proof (bpow_gt_0 radix2 (Z.of_N e - 1023)); lra).
        destruct (fdiv_real z p Z3 PC Z2) as (W1&W2&W3).
        - rewrite PR. lra.
        - rewrite E, Rabs_mult.
          assert (Rabs (if s then -1 else 1) = 1)%R as -> by (destruct s; [rewrite Rabs_left; lra|rewrite Rabs_pos_eq; lra]).
          rewrite Rabs_pos_eq by lra. pose proof (val_bounds e f HE HF) as [_ VB]. pose proof (bpow_gt_0 radix2 (Z.of_N e - 1075)) as U. fold (ulpv e) in U.
          apply Rlt_le_trans with (bpow radix2 (Z.of_N e - 1022)); [lra|]. apply bpow_le. unfold femax. lia.
        - rewrite E in W1. rewrite (real_inj (fdiv z p) (of_bits (fields s e f)) W3 C0 W2 F0).
          + apply to_of_bits; [apply fields_bound; lia|]. destruct (of_bits (fields s e f)); cbn [finite] in F0; try tauto; reflexivity.
          + congruence.
          + rewrite W1. destruct s; lra. }
      assert (CE : Zceil w = t) by apply erased_ceil.
      destruct s.
      - destruct (ffloor_real y Y3 Y2) as (Z1&Z2&Z3). apply G; [|exact Z2|exact Z3]. rewrite Z1, Y1.
        replace (-1 * w)%R with (- w)%R by ring. unfold Zceil in CE. rewrite <- (Z.opp_involutive (Zfloor (- w))), CE, opp_IZR. ring.
      - destruct (fceil_real y Y3 Y2) as (Z1&Z2&Z3). apply G; [|exact Z2|exact Z3]. rewrite Z1, Y1, !Rmult_1_l. f_equal. exact CE.
    Qed.
  End Erased.
End Recover.
