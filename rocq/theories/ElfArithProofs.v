(** Erasing and recovering mantissas is exact for every number between 10^-6 and
    10^9 in magnitude. *)
From Coq Require Import Reals Lra.
From Flocq Require Import Core BinarySingleNaN.
From Verif Require Import Base WordProofs F64 F64Proofs F64BitsProofs F64Flocq ElfFloatProofs Elf ElfSpec.
Local Open Scope Z_scope.

(** ** Decades *)
Definition p10 (d : Z) : R := if 0 <=? d then IZR (10 ^ d) else / IZR (10 ^ (- d)).
Definition dec (d : Z) : R := rnd (p10 d).

Lemma p10_pos d : (0 < p10 d)%R.
Proof.
  unfold p10. destruct (Z.leb_spec 0 d) as [L|L]; [|apply Rinv_0_lt_compat]; apply IZR_lt; apply Z.pow_pos_nonneg; lia.
Qed.
Lemma p10_succ d : p10 (d + 1) = (10 * p10 d)%R.
Proof.
  unfold p10. destruct (Z.leb_spec 0 d), (Z.leb_spec 0 (d + 1)); try lia.
  - rewrite Z.pow_add_r by lia. rewrite mult_IZR. change (10 ^ 1) with 10. ring.
  - assert (d = -1) by lia. subst d. change (- (-1)) with 1. change (-1 + 1) with 0. change (10 ^ 1) with 10. change (10 ^ 0) with 1. lra.
  - replace (- d) with (- (d + 1) + 1) by lia. rewrite (Z.pow_add_r 10 (- (d + 1))) by lia. rewrite mult_IZR. change (10 ^ 1) with 10.
    rewrite Rinv_mult. field. apply not_0_IZR. pose proof (Z.pow_pos_nonneg 10 (- (d + 1))). lia.
Qed.
Lemma p10_add d n : 0 <= n -> p10 (d + n) = (p10 d * IZR (10 ^ n))%R.
Proof.
  intros H. pattern n. apply natlike_ind; [|intros x X IH|exact H].
  - rewrite Z.add_0_r. change (10 ^ 0) with 1. lra.
  - unfold Z.succ. replace (d + (x + 1)) with (d + x + 1) by lia. rewrite p10_succ, IH, Z.pow_add_r, mult_IZR by lia.
    change (10 ^ 1) with 10. ring.
Qed.
Lemma p10_lt d1 d2 : d1 < d2 -> (p10 d1 < p10 d2)%R.
Proof.
  intros H. replace d2 with (d1 + (d2 - d1)) by lia. rewrite p10_add by lia. pose proof (p10_pos d1) as P.
  assert (1 < IZR (10 ^ (d2 - d1)))%R. { apply IZR_lt. apply Z.pow_gt_1; lia. } nra.
Qed.
Lemma dec_mono d1 d2 : d1 <= d2 -> (dec d1 <= dec d2)%R.
Proof. intros H. apply rnd_mono. destruct (Z.eq_dec d1 d2) as [->|N]; [lra|]. apply Rlt_le, p10_lt. lia. Qed.
Lemma dec_pos d : 0 <= d <= 22 -> dec d = IZR (10 ^ d) /\ real (pow10 (Z.to_N d)) = dec d.
Proof.
  intros H. destruct (pow10_real (Z.to_N d) ltac:(lia)) as (R&F&C). rewrite Z2N.id in R by lia.
  assert (X : dec d = IZR (10 ^ d)).
  { unfold dec, p10. destruct (Z.leb_spec 0 d); [|lia]. rewrite <- R. apply rnd_id. now apply real_format. }
  rewrite X. auto.
Qed.
Lemma npow10_dec j : (1 <= j <= 7)%N -> real (npow10 j) = dec (- Z.of_N j) /\ finite (npow10 j) /\ canonical (npow10 j).
Proof.
  intros H.
  assert (G : forall m k, npow10 j = S754_finite false m (- k) -> 0 <= k <= 1074 ->
    2 ^ 52 * 10 ^ Z.of_N j <= 2 ^ k < 2 ^ 53 * 10 ^ Z.of_N j -> 2 * Z.abs (2 ^ k - Zpos m * 10 ^ Z.of_N j) < 10 ^ Z.of_N j ->
    real (npow10 j) = dec (- Z.of_N j) /\ finite (npow10 j) /\ canonical (npow10 j)).
  { intros m k E K H1 H2. split; [|split; [rewrite E; exact I|]].
    - rewrite E. unfold dec, p10. destruct (Z.leb_spec 0 (- Z.of_N j)); [lia|]. rewrite Z.opp_involutive.
      rewrite (inv10_rnd (Z.of_N j) (Zpos m) k) by lia. reflexivity.
    - unfold npow10. destruct (j =? 0)%N; [|destruct (350 <? j)%N]; [|exact I|]; apply fnorm_canonical. }
  assert (C : (j = 1 \/ j = 2 \/ j = 3 \/ j = 4 \/ j = 5 \/ j = 6 \/ j = 7)%N) by lia.
  destruct C as [->|[->|[->|[->|[->|[->| ->]]]]]].
  - apply (G 7205759403792794%positive 56); [vm_compute; reflexivity|lia|vm_compute; split; [discriminate|reflexivity]|vm_compute; reflexivity].
  - apply (G 5764607523034235%positive 59); [vm_compute; reflexivity|lia|vm_compute; split; [discriminate|reflexivity]|vm_compute; reflexivity].
  - apply (G 4611686018427388%positive 62); [vm_compute; reflexivity|lia|vm_compute; split; [discriminate|reflexivity]|vm_compute; reflexivity].
  - apply (G 7378697629483821%positive 66); [vm_compute; reflexivity|lia|vm_compute; split; [discriminate|reflexivity]|vm_compute; reflexivity].
  - apply (G 5902958103587057%positive 69); [vm_compute; reflexivity|lia|vm_compute; split; [discriminate|reflexivity]|vm_compute; reflexivity].
  - apply (G 4722366482869645%positive 72); [vm_compute; reflexivity|lia|vm_compute; split; [discriminate|reflexivity]|vm_compute; reflexivity].
  - apply (G 7555786372591432%positive 76); [vm_compute; reflexivity|lia|vm_compute; split; [discriminate|reflexivity]|vm_compute; reflexivity].
Qed.

(** The order of magnitude found by the table searches. *)
Section Decade.
  Variable a : f64.
  Hypothesis CA : canonical a.
  Hypothesis FA : finite a.

  Lemma lt_pow i : (i <= 22)%N -> flt a (pow10 i) = true <-> (real a < dec (Z.of_N i))%R.
  Proof using CA FA.
    intros H. destruct (pow10_real i H) as (R&F&C). rewrite flt_real by assumption.
    destruct (dec_pos (Z.of_N i) ltac:(lia)) as (_&D). rewrite N2Z.id in D. rewrite D. reflexivity.
  Qed.
  Lemma ge_npow j : (1 <= j <= 7)%N -> fle (npow10 j) a = true <-> (dec (- Z.of_N j) <= real a)%R.
  Proof using CA FA. intros H. destruct (npow10_dec j H) as (R&F&C). rewrite fle_real, R by assumption. reflexivity. Qed.
  Lemma ge_one : fle (of_Z 1) a = true <-> (dec 0 <= real a)%R.
  Proof using CA FA.
    destruct (of_Z_real 1) as (R&F&C); [vm_compute; discriminate|]. rewrite fle_real by assumption.
    rewrite (of_Z_exact 1) by (vm_compute; discriminate). destruct (dec_pos 0) as (-> & _); [lia|]. reflexivity.
  Qed.

  Lemma search_ge1 d : 0 <= d <= 8 -> (dec d <= real a < dec (d + 1))%R -> sp_search_ge1 a = Some (Z.to_N d).
  Proof using CA FA.
    intros D [H1 H2].
    assert (LT : forall i, (i <= 8)%N -> flt a (map_sp_greater_1 (i + 1)) = (d <=? Z.of_N i)).
    { intros i I. unfold map_sp_greater_1. destruct (Z.leb_spec d (Z.of_N i)) as [L|L].
      - apply lt_pow; [lia|]. apply Rlt_le_trans with (1 := H2). apply dec_mono. lia.
      - apply not_true_is_false. intros X. apply lt_pow in X; [|lia]. apply (Rlt_irrefl (real a)).
        apply Rlt_le_trans with (1 := X). apply Rle_trans with (2 := H1). apply dec_mono. lia. }
    unfold sp_search_ge1. cbn [find]. rewrite !LT by lia.
    assert (C : d = 0 \/ d = 1 \/ d = 2 \/ d = 3 \/ d = 4 \/ d = 5 \/ d = 6 \/ d = 7 \/ d = 8) by lia.
    destruct C as [->|[->|[->|[->|[->|[->|[->|[->| ->]]]]]]]]; reflexivity.
  Qed.
  Lemma search_lt1 d : -7 <= d <= -1 -> (dec d <= real a < dec (d + 1))%R -> sp_search_lt1 a = Some (Z.to_N (- d)).
  Proof using CA FA.
    intros D [H1 H2].
    assert (GE : forall j, (1 <= j <= 7)%N -> fle (map_sp_less_1 j) a = (- d <=? Z.of_N j)).
    { intros j J. unfold map_sp_less_1. destruct (Z.leb_spec (- d) (Z.of_N j)) as [L|L].
      - apply ge_npow; [lia|]. apply Rle_trans with (2 := H1). apply dec_mono. lia.
      - apply not_true_is_false. intros X. apply ge_npow in X; [|lia]. apply (Rlt_irrefl (real a)).
        apply Rlt_le_trans with (1 := H2). apply Rle_trans with (2 := X). apply dec_mono. lia. }
    assert (C : d = -1 \/ d = -2 \/ d = -3 \/ d = -4 \/ d = -5 \/ d = -6 \/ d = -7) by lia.
    unfold sp_search_lt1. cbn [find].
    destruct C as [->|[->|[->|[->|[->|[->| ->]]]]]]; rewrite !GE by lia; reflexivity.
  Qed.
  Lemma sp_decade (log10 : f64 -> f64) d : -7 <= d <= 8 -> (dec d <= real a < dec (d + 1))%R ->
    get_sp log10 a = d /\ exists flag, get_sp_flag log10 a = (d, flag) /\ (flag = true -> d < 0 /\ real a = dec d) /\
      (d < 0 -> real a = dec d -> flag = true).
  Proof using CA FA.
    intros D H. unfold get_sp, get_sp_flag. destruct (Z_lt_le_dec d 0) as [L|L].
    - assert (F : fle (of_Z 1) a = false).
      { apply not_true_is_false. intros X. apply ge_one in X. apply (Rlt_irrefl (real a)).
        apply Rlt_le_trans with (1 := proj2 H). apply Rle_trans with (2 := X). apply dec_mono. lia. }
      rewrite F, (search_lt1 d) by (auto; lia). cbn [option_map]. rewrite Z2N.id by lia. rewrite Z.opp_involutive.
      split; [reflexivity|]. exists (feq a (map_sp_less_1 (Z.to_N (- d)))). split; [reflexivity|].
      destruct (npow10_dec (Z.to_N (- d)) ltac:(lia)) as (R&FN&CN). unfold map_sp_less_1. rewrite Z2N.id, Z.opp_involutive in R by lia.
      rewrite feq_real, R by assumption. split; auto.
    - assert (F : fle (of_Z 1) a = true). { apply ge_one. apply Rle_trans with (2 := proj1 H). now apply dec_mono. }
      rewrite F, (search_ge1 d) by (auto; lia). cbn [option_map]. rewrite Z2N.id by lia. split; [reflexivity|].
      exists false. split; [reflexivity|]. split; [discriminate|lia].
  Qed.
  Lemma find_decade : (dec (-6) <= real a < dec 9)%R -> exists d, -6 <= d <= 8 /\ (dec d <= real a < dec (d + 1))%R.
  Proof using.
    clear. intros H.
    assert (G : forall n : nat, (n <= 15)%nat -> (real a < dec (-6 + Z.of_nat n))%R ->
      exists d, -6 <= d <= 8 /\ (dec d <= real a < dec (d + 1))%R).
    { induction n as [|n IH]; intros N X.
      - exfalso. change (-6 + Z.of_nat 0) with (-6) in X. lra.
      - destruct (Rlt_le_dec (real a) (dec (-6 + Z.of_nat n))) as [Y|Y]; [apply IH; [lia|exact Y]|].
        exists (-6 + Z.of_nat n). split; [lia|]. split; [exact Y|]. replace (-6 + Z.of_nat n + 1) with (-6 + Z.of_nat (S n)) by lia. exact X. }
    apply (G 15%nat); [lia|]. exact (proj2 H).
  Qed.
End Decade.

(** ** The decimal found for a value *)
Lemma rnd_near x : (bpow radix2 (-1022) <= x)%R -> (999 / 1000 * x <= rnd x <= 1001 / 1000 * x)%R.
Proof.
  intros H. pose proof (bpow_gt_0 radix2 (-1022)) as P. destruct (rnd_rel x) as (eps&E&->); [rewrite Rabs_pos_eq; lra|].
  assert (U : (ulp_half <= 1 / 1000)%R). { unfold ulp_half. assert (B : (bpow radix2 (-52) <= bpow radix2 (-10))%R) by (apply bpow_le; lia). change (bpow radix2 (-10)) with (/ IZR (2 ^ 10))%R in B. change (2 ^ 10) with 1024 in B. lra. }
  assert (Q : (-(1/1000) <= eps <= 1 / 1000)%R). { apply Rabs_le_inv. lra. } nra.
Qed.
Lemma small_bpow : (bpow radix2 (-1022) <= / 10000000000)%R.
Proof. apply Rle_trans with (bpow radix2 (-40)); [apply bpow_le; lia|]. change (bpow radix2 (-40)) with (/ IZR (2 ^ 40))%R. change (2 ^ 40) with 1099511627776. lra. Qed.
Lemma dec_near d : -7 <= d -> (999 / 1000 * p10 d <= dec d <= 1001 / 1000 * p10 d)%R.
Proof.
  intros H. apply rnd_near. apply Rle_trans with (1 := small_bpow).
  apply Rle_trans with (p10 (-7)). { unfold p10. change (0 <=? -7) with false. change (- (-7)) with 7. change (10 ^ 7) with 10000000. cbn [negb]. lra. }
  destruct (Z.eq_dec (-7) d) as [<-|N]; [lra|]. apply Rlt_le, p10_lt. lia.
Qed.

Lemma large_int x : canonical x -> finite x -> (IZR (2 ^ 53) <= real x)%R -> real x = IZR (Ztrunc (real x)).
Proof.
  intros C F H. destruct x as [s|s| |s p e]; cbn [finite] in F; try tauto.
  - exfalso. unfold real in H. cbn [SF2R] in H. apply le_IZR in H. vm_compute in H. now destruct H.
  - destruct (Z_lt_le_dec e 0) as [L|L]; [exfalso|].
    + assert (P : Zpos p < 2 ^ 53). { cbn [canonical] in C. change (2 ^ 53) with (2 * 2 ^ 52) in *. lia. }
      revert H. apply Rlt_not_le. unfold real. cbn [SF2R]. apply Rle_lt_trans with (F2R (Float radix2 (Zpos p) e)).
      * apply F2R_le. destruct s; cbn [cond_Zopp]; lia.
      * unfold F2R. cbn [Fnum Fexp]. apply IZR_lt in P. assert (B : (bpow radix2 e <= bpow radix2 0)%R) by (apply bpow_le; lia).
        cbn [bpow] in B. pose proof (bpow_gt_0 radix2 e) as B0. assert (0 < IZR (Zpos p))%R by now apply IZR_lt. nra.
    + rewrite pos_int_finite by assumption. now rewrite Ztrunc_IZR.
Qed.
(** [of_Z (as_i64 x) = x] tests whether [x] is an integer. *)
Lemma int_test x : canonical x -> finite x -> (0 <= real x < IZR (2 ^ 62))%R ->
  (feq (of_Z (as_i64 x)) x = true -> real x = IZR (as_i64 x)) /\
  ((IZR (2 ^ 53) <= real x)%R -> feq (of_Z (as_i64 x)) x = true).
Proof.
  intros C F [H1 H2].
  assert (T : as_i64 x = Ztrunc (real x) /\ 0 <= Ztrunc (real x) <= 2 ^ 62).
  { assert (B : 0 <= Ztrunc (real x) <= 2 ^ 62).
    { rewrite Ztrunc_floor by assumption. split.
      - apply (Zfloor_le 0) in H1. rewrite Zfloor_IZR in H1. exact H1.
      - rewrite <- (Zfloor_IZR (2 ^ 62)). apply Zfloor_le. lra. }
    rewrite as_i64_finite, ftruncZ_real by assumption. change (2 ^ 62) with 4611686018427387904 in *. change (2 ^ 63) with 9223372036854775808. lia. }
  destruct T as [T B]. rewrite T. set (t := Ztrunc (real x)) in *.
  destruct (of_Z_real t) as (R&Fz&Cz).
  { rewrite Z.abs_eq by lia. eapply Z.le_trans; [apply (proj2 B)|]. now apply Z.pow_le_mono_r. }
  split.
  - intros E. apply feq_real in E; auto. destruct (Rle_lt_dec (IZR (2 ^ 53)) (real x)) as [L|L].
    + now apply large_int.
    + rewrite <- E. apply of_Z_exact. rewrite Z.abs_eq by lia. apply le_IZR. unfold t.
      rewrite Ztrunc_floor by assumption. pose proof (Zfloor_lb (real x)). lra.
  - intros L. apply feq_real; auto. rewrite R. pose proof (large_int x C F L) as E. fold t in E. rewrite <- E.
    apply rnd_id. now apply real_format.
Qed.

Lemma i32_small i : 0 <= i < 2 ^ 31 -> i32_as_u32 i = Z.to_N i.
Proof. intros H. unfold i32_as_u32. rewrite Z.mod_small by (change (2 ^ 31) with 2147483648 in H; lia). reflexivity. Qed.

Section Count.
  Variable a : f64.
  Hypothesis CA : canonical a.
  Hypothesis FA : finite a.
  Variable d : Z.
  Hypothesis D : -6 <= d <= 14.
  Hypothesis AD : (dec d <= real a < dec (d + 1))%R.

  Lemma a_bounds : (999 / 1000 * p10 d <= real a <= 1001 / 1000 * p10 (d + 1))%R.
  Proof using D AD. pose proof (dec_near d ltac:(lia)). pose proof (dec_near (d + 1) ltac:(lia)). lra. Qed.
  Lemma a_low : (999 / 1000 * / 1000000 <= real a)%R.
  Proof using D AD.
    pose proof a_bounds as [H _]. assert (X : (p10 (-6) <= p10 d)%R). { destruct (Z.eq_dec (-6) d) as [<-|N]; [lra|]. apply Rlt_le, p10_lt. lia. }
    unfold p10 at 1 in X. change (0 <=? -6) with false in X. change (- (-6)) with 6 in X. change (10 ^ 6) with 1000000 in X. lra.
  Qed.
  Lemma a_scaled i n : 0 <= i -> d + 1 + i <= n -> 0 <= n -> (real a * IZR (10 ^ i) <= 1001 / 1000 * IZR (10 ^ n))%R.
  Proof using D AD.
    intros I H N. pose proof a_bounds as [_ B]. assert (P : (0 < IZR (10 ^ i))%R) by (apply IZR_lt, Z.pow_pos_nonneg; lia).
    apply Rle_trans with (1001 / 1000 * p10 (d + 1) * IZR (10 ^ i))%R; [apply Rmult_le_compat_r; lra|].
    rewrite Rmult_assoc, <- p10_add by lia. apply Rmult_le_compat_l; [lra|].
    assert (X : p10 n = IZR (10 ^ n)) by (unfold p10; destruct (Z.leb_spec 0 n); [reflexivity|lia]). rewrite <- X.
    destruct (Z.eq_dec (d + 1 + i) n) as [<-|NE]; [lra|]. apply Rlt_le, p10_lt. lia.
  Qed.
  Definition fits (i : Z) : Prop := (real a * IZR (10 ^ i) <= 2 * IZR (10 ^ 17))%R.
  Lemma temp_real i : 1 <= i <= 22 -> fits i ->
    real (fmul a (pow10 (Z.to_N i))) = rnd (real a * IZR (10 ^ i)) /\ finite (fmul a (pow10 (Z.to_N i))) /\
    canonical (fmul a (pow10 (Z.to_N i))) /\ (0 < rnd (real a * IZR (10 ^ i)) < IZR (2 ^ 62))%R.
  Proof using CA FA D AD.
    intros H FI. destruct (pow10_real (Z.to_N i) ltac:(lia)) as (R&F&C). rewrite Z2N.id in R by lia.
    pose proof a_low as AL. assert (P : (10 <= IZR (10 ^ i))%R) by (apply IZR_le; change 10 with (10 ^ 1) at 1; apply Z.pow_le_mono_r; lia).
    assert (N : (999 / 1000 * (real a * IZR (10 ^ i)) <= rnd (real a * IZR (10 ^ i)) <= 1001 / 1000 * (real a * IZR (10 ^ i)))%R).
    { apply rnd_near. apply Rle_trans with (1 := small_bpow). nra. }
    unfold fits in FI. change (10 ^ 17) with 100000000000000000 in FI.
    assert (B : (0 < rnd (real a * IZR (10 ^ i)) < IZR (2 ^ 62))%R).
    { change (2 ^ 62) with 4611686018427387904. split; [nra|lra]. }
    destruct (fmul_real a (pow10 (Z.to_N i)) CA C FA F) as (X1&X2&X3).
    - rewrite R. rewrite Rabs_pos_eq by lra. apply Rlt_trans with (1 := proj2 B).
      change (IZR (2 ^ 62)) with (bpow radix2 62). apply bpow_lt. reflexivity.
    - rewrite R in X1. auto.
  Qed.
  Lemma count_search_ok fuel : forall i j ti, 1 <= i <= 22 -> fits i ->
    count_search fuel a i (fmul a (pow10 (Z.to_N i))) = Some (j, ti) ->
    1 <= j <= 22 /\ real (fmul a (pow10 (Z.to_N j))) = IZR ti /\ 0 < ti < 2 ^ 62.
  Proof using CA FA D AD.
    induction fuel as [|fuel IH]; intros i j ti I FI; cbn [count_search]; destruct (temp_real i I FI) as (R&F&C&B);
      set (temp := fmul a (pow10 (Z.to_N i))) in *; rewrite <- R in B; destruct (int_test temp C F ltac:(lra)) as [T1 T2];
      destruct (feq (of_Z (as_i64 temp)) temp) eqn:E.
    - intros X. injection X as <- <-. split; [assumption|]. fold temp. specialize (T1 eq_refl). split; [assumption|].
      split; apply lt_IZR; rewrite <- T1; lra.
    - discriminate.
    - intros X. injection X as <- <-. split; [assumption|]. fold temp. specialize (T1 eq_refl). split; [assumption|].
      split; apply lt_IZR; rewrite <- T1; lra.
    - rewrite i32_small by (change (2 ^ 31) with 2147483648; lia). change (get_10i_p (Z.to_N (i + 1))) with (pow10 (Z.to_N (i + 1))).
      destruct (is_infinite _); [discriminate|].
      assert (L : (real a * IZR (10 ^ i) < IZR (2 ^ 53))%R).
      { destruct (Rlt_le_dec (real a * IZR (10 ^ i)) (IZR (2 ^ 53))) as [L|L]; [assumption|]. exfalso.
        assert (X : (IZR (2 ^ 53) <= real temp)%R).
        { rewrite R. rewrite <- (rnd_id (IZR (2 ^ 53))); [now apply rnd_mono|]. change (IZR (2 ^ 53)) with (bpow radix2 53). now apply format_bpow. }
        specialize (T2 X). discriminate T2. }
      change (2 ^ 53) with 9007199254740992 in L. apply IH.
      + destruct (Z.eq_dec i 22) as [->|N]; [exfalso|lia]. pose proof a_low. change (10 ^ 22) with 10000000000000000000000 in L. lra.
      + unfold fits. rewrite Z.pow_add_r, mult_IZR by lia. change (10 ^ 1) with 10. change (10 ^ 17) with 100000000000000000. lra.
  Qed.
  Lemma strip_ok fuel : forall i ti, 0 <= i -> 0 < ti -> exists t, 0 <= strip_zeros fuel i ti <= i /\ 0 < t /\ ti = t * 10 ^ (i - strip_zeros fuel i ti).
  Proof using.
    clear. induction fuel as [|fuel IH]; intros i ti I T; cbn [strip_zeros].
    - exists ti. rewrite Z.sub_diag. change (10 ^ 0) with 1. lia.
    - destruct (Z.ltb_spec 0 i) as [L|L]; cbn [andb]; [|exists ti; rewrite Z.sub_diag; change (10 ^ 0) with 1; lia].
      destruct (Z.eqb_spec (Z.rem ti 10) 0) as [E|E]; [|exists ti; rewrite Z.sub_diag; change (10 ^ 0) with 1; lia].
      pose proof (Z.quot_rem ti 10 ltac:(lia)) as Q. rewrite E, Z.add_0_r in Q.
      destruct (IH (i - 1) (Z.quot ti 10) ltac:(lia) ltac:(lia)) as (t&H1&H2&H3). exists t. split; [lia|]. split; [lia|].
      set (r := strip_zeros fuel (i - 1) (Z.quot ti 10)) in *. replace (i - r) with (Z.succ (i - 1 - r)) by lia.
      rewrite Z.pow_succ_r by lia. rewrite Q, H3 at 1. ring.
  Qed.
  (** The decade the code takes [d] for. *)
  Variable sp : Z.
  Hypothesis SP : sp = d \/ (sp = d + 1 /\ 8 <= d).
  Lemma start_ok last : last = 2147483647 \/ 0 <= last < 16 -> 1 <= count_start sp last <= 22 /\ fits (count_start sp last).
  Proof using D SP AD.
    intros L. unfold count_start, i32_max.
    assert (G : forall i, 1 <= i <= 22 -> d + 1 + i <= 17 -> 1 <= i <= 22 /\ fits i).
    { intros i I H. split; [assumption|]. unfold fits. pose proof (a_scaled i 17 ltac:(lia) H ltac:(lia)) as X.
      assert (0 < IZR (10 ^ 17))%R by (apply IZR_lt; reflexivity). lra. }
    destruct (Z.eqb_spec last 2147483647) as [->|N]; cbn [negb andb].
    - apply G; lia.
    - destruct (Z.eqb_spec last 0) as [->|N0]; cbn [negb andb].
      + destruct (Z.leb_spec 0 sp); apply G; lia.
      + apply G; lia.
  Qed.
  (** [A] is the float nearest to a decimal with [alpha] places. *)
  Lemma count_ok last : last = 2147483647 \/ 0 <= last < 16 ->
    significant_count a sp last = 17 \/
    exists alpha t, significant_count a sp last = sp + alpha + 1 /\ 0 <= alpha <= 22 /\ 0 < t /\
      real a = rnd (IZR t / IZR (10 ^ alpha)).
  Proof using CA FA D SP AD.
    intros L. destruct (start_ok last L) as [I FI]. unfold significant_count. set (i := count_start sp last) in *.
    rewrite i32_small by (change (2 ^ 31) with 2147483648; lia). change (get_10i_p (Z.to_N i)) with (pow10 (Z.to_N i)).
    destruct (count_search 400 a i _) as [[j ti]|] eqn:E; [|now left].
    destruct (count_search_ok 400 i j ti I FI E) as (J&R&T). rewrite i32_small by (change (2 ^ 31) with 2147483648; lia).
    change (get_10i_p (Z.to_N j)) with (pow10 (Z.to_N j)). set (temp := fmul a (pow10 (Z.to_N j))) in *.
    destruct (feq (fdiv temp (pow10 (Z.to_N j))) a) eqn:Q; cbn [negb]; [right|now left].
    destruct (strip_ok (Z.to_nat j) j ti ltac:(lia) (proj1 T)) as (t&H1&H2&H3). set (alpha := strip_zeros (Z.to_nat j) j ti) in *.
    exists alpha, t. split; [reflexivity|]. split; [lia|]. split; [assumption|].
    destruct (pow10_real (Z.to_N j) ltac:(lia)) as (RP&FP&CP). rewrite Z2N.id in RP by lia.
    assert (PJ : 0 < 10 ^ j) by (apply Z.pow_pos_nonneg; lia). assert (PA : 0 < 10 ^ alpha) by (apply Z.pow_pos_nonneg; lia).
    assert (PD : 0 < 10 ^ (j - alpha)) by (apply Z.pow_pos_nonneg; lia).
    assert (X : (IZR ti / IZR (10 ^ j) = IZR t / IZR (10 ^ alpha))%R).
    { replace (10 ^ j) with (10 ^ alpha * 10 ^ (j - alpha)) by (rewrite <- Z.pow_add_r by lia; f_equal; lia).
      rewrite H3, !mult_IZR. field. split; apply not_0_IZR; lia. }
    assert (CT : canonical temp) by now apply fmul_canonical.
    assert (TN : (1 <= IZR ti)%R) by (apply IZR_le; lia).
    assert (FT : finite temp).
    { destruct temp as [s|s| |s p e]; try exact Logic.I; exfalso; unfold real in R; cbn [SF2R] in R; lra. }
    assert (TB : (Rabs (rnd (real temp / real (pow10 (Z.to_N j)))) < bpow radix2 femax)%R).
    { apply Rle_lt_trans with (bpow radix2 63); [|apply bpow_lt; reflexivity]. apply rnd_abs_le; [apply format_bpow; clear; lia|].
      rewrite R, RP. assert (1 <= IZR (10 ^ j))%R by (apply IZR_le; lia).
      assert (0 < / IZR (10 ^ j) <= 1)%R. { split; [apply Rinv_0_lt_compat; lra|]. rewrite <- Rinv_1. apply Rinv_le; lra. }
      assert (TI : (IZR ti <= bpow radix2 63)%R) by (change (bpow radix2 63) with (IZR (2 ^ 63)); apply IZR_le; change (2 ^ 62) with 4611686018427387904 in T; change (2 ^ 63) with 9223372036854775808; lia).
      unfold Rdiv. rewrite Rabs_pos_eq by nra. nra. }
    destruct (fdiv_real temp (pow10 (Z.to_N j)) CT CP FT) as (DR&DF&DC); [rewrite RP; apply not_0_IZR; lia|exact TB|].
    apply feq_real in Q; auto. rewrite <- Q, DR, R, RP, X. reflexivity.
  Qed.
End Count.
