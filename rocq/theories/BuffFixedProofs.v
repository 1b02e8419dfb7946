From Verif Require Import Base WordProofs BitIO Xor F64 Query QuerySpec Sprintz SprintzProofs Buff BuffBitsProofs.

(** ** The fixed representation *)
Lemma quot_shift (m amount t : N) : Z.quot (Z.of_N m * 2 ^ Z.of_N t) (2 ^ (Z.of_N amount + Z.of_N t)) = Z.of_N (m / 2 ^ amount).
Proof.
  rewrite Z.pow_add_r by lia. rewrite Z.quot_mul_cancel_r; [|apply Z.pow_nonzero; lia|apply Z.pow_nonzero; lia].
  rewrite N2Z.inj_div, N2Z.inj_pow. apply Z.quot_div_nonneg; [lia|]. apply Z.pow_pos_nonneg; lia.
Qed.
Lemma mantissa_eq x : x < 2 ^ 64 -> N.lor (shl64 x 11) 9223372036854775808 = (2 ^ 52 + x mod 2 ^ 52) * 2 ^ 11.
Proof.
  intros H. unfold shl64. change two64 with (2 ^ 64). change 9223372036854775808 with (N.shiftl 1 63).
  rewrite N.mul_add_distr_r, N.add_comm. replace (2 ^ 52 * 2 ^ 11) with (2 ^ 63 * 1) by reflexivity.
  assert (L : x mod 2 ^ 52 * 2 ^ 11 < 2 ^ 63).
  { pose proof (N.mod_lt x (2 ^ 52) ltac:(discriminate)). change (2 ^ 63) with (2 ^ 52 * 2 ^ 11). apply N.mul_lt_mono_pos_r; [reflexivity|assumption]. }
  rewrite lor_add by exact L. bits_eq. rewrite !N.lor_spec, mod_bit, <- N.shiftl_mul_pow2.
  destruct (N.ltb_spec j 63).
  - replace (j <? 64) with true by lia. cbn [andb]. rewrite (N.shiftl_spec_low 1) by lia. rewrite !orb_false_r.
    destruct (N.ltb_spec j 11).
    + now rewrite !N.shiftl_spec_low by lia.
    + rewrite !N.shiftl_spec_high' by lia. rewrite mod_bit. replace (j - 11 <? 52) with true by lia. reflexivity.
  - rewrite (N.shiftl_spec_high' 1) by lia. destruct (N.eq_dec j 63) as [->|]; [now rewrite !orb_true_r|].
    replace (j <? 64) with false by lia. cbn [andb]. rewrite N.shiftl_spec_high', mod_bit by lia. now replace (j - 11 <? 52) with false by lia.
Qed.

Lemma fixed_neg n : 1 <= n < 2 ^ 63 -> bits_i64 (18446744073709551615 - wsub64 n 1) = (- Z.of_N n)%Z.
Proof.
  intros H. change (2 ^ 63) with 9223372036854775808 in H.
  assert (E : wsub64 n 1 = n - 1).
  { unfold wsub64. change two64 with 18446744073709551616. change (1 mod 18446744073709551616) with 1.
    replace (n + 18446744073709551616 - 1) with (n - 1 + 1 * 18446744073709551616) by lia.
    rewrite N.mod_add by discriminate. apply N.mod_small. lia. }
  rewrite E. unfold bits_i64. rewrite (wrap_unique _ (-1)); unfold i64; lia.
Qed.

(** Truncation towards zero to a multiple of 2^-fraction. *)
Lemma fixed_of_ok dbg x fraction a : x < 2 ^ 64 -> number x = Some a -> fraction <= 50 ->
  (Z.abs a * 2 ^ Z.of_N fraction < 2 ^ 63 * 2 ^ 1074)%Z ->
  fixed_of dbg x fraction = Ok (Z.quot (a * 2 ^ Z.of_N fraction) (2 ^ 1074)).
Proof.
  intros HX NX HF HB.
  assert (exists k, k = 1074%Z) as (k & K) by eauto. rewrite <- K in *.
  unfold number in NX. set (e := (x / 2 ^ 52) mod 2 ^ 11) in *. set (f := x mod 2 ^ 52) in *.
  assert (HE : e < 2 ^ 11) by (apply N.mod_lt; discriminate). assert (HFR : f < 2 ^ 52) by (apply N.mod_lt; discriminate).
  destruct ((e =? 2047) && negb (f =? 0)); [discriminate|]. apply (f_equal (fun o => match o with Some z => z | None => 0%Z end)) in NX.
  cbv beta iota in NX.
  set (m := if e =? 0 then f else (2 ^ 52 + f) * 2 ^ (e - 1)) in *.
  assert (SG : (x / 2 ^ 63 =? 0) = negb (9223372036854775808 <=? x)).
  { destruct (N.leb_spec 9223372036854775808 x) as [L|L]; cbn [negb].
    - apply N.eqb_neq. intros D. apply N.div_small_iff in D; [|discriminate]. change (2 ^ 63) with 9223372036854775808 in D. lia.
    - apply N.eqb_eq, N.div_small. exact L. }
  rewrite SG in NX.
  assert (AB : Z.abs a = Z.of_N m) by (rewrite <- NX; destruct (negb _); lia).
  assert (Q : Z.quot (a * 2 ^ Z.of_N fraction) (2 ^ k) =
     if 9223372036854775808 <=? x then (- Z.quot (Z.of_N m * 2 ^ Z.of_N fraction) (2 ^ k))%Z else Z.quot (Z.of_N m * 2 ^ Z.of_N fraction) (2 ^ k)).
  { rewrite <- NX. destruct (9223372036854775808 <=? x); cbn [negb]; [|reflexivity]. rewrite Z.mul_opp_l. apply Z.quot_opp_l. apply Z.pow_nonzero; lia. }
  rewrite Q. clear Q. rewrite AB in HB. unfold fixed_of.
  rewrite N.shiftr_div_pow2. change 2048 with (2 ^ 11). fold e. change (2 ^ 11) with 2048 in HE.
  assert (MB : m < 2 ^ (52 + e)).
  { unfold m. destruct (N.eqb_spec e 0) as [->|NE]; [exact HFR|].
    replace (52 + e) with (53 + (e - 1)) by lia. rewrite N.pow_add_r. apply N.mul_lt_mono_pos_r; [apply pow2_pos|].
    change (2 ^ 53) with (2 ^ 52 + 2 ^ 52). lia. }
  destruct (Z.ltb_spec (Z.of_N e - 1023) (- Z.of_N fraction)) as [L|L].
  - assert (Q0 : Z.quot (Z.of_N m * 2 ^ Z.of_N fraction) (2 ^ k) = 0%Z).
    { apply Z.quot_small. split; [apply Z.mul_nonneg_nonneg; [lia|apply Z.pow_nonneg; lia]|].
      apply Z.lt_le_trans with (2 ^ Z.of_N (52 + e) * 2 ^ Z.of_N fraction)%Z.
      - apply Z.mul_lt_mono_pos_r; [apply Z.pow_pos_nonneg; lia|]. change 2%Z with (Z.of_N 2). rewrite <- N2Z.inj_pow. lia.
      - rewrite <- Z.pow_add_r by lia. apply Z.pow_le_mono_r; lia. }
    rewrite Q0. now destruct (_ <=? _).
  - assert (NE : (e =? 0) = false) by (apply N.eqb_neq; lia). unfold m in *. rewrite NE in *. clear m NE AB.
    assert (EU : (Z.of_N e + Z.of_N fraction <= 1085)%Z).
    { apply Z.nlt_ge. intros G. apply (Z.lt_irrefl (2 ^ 63 * 2 ^ k)). apply Z.le_lt_trans with (2 := HB).
      apply Z.le_trans with (Z.of_N (2 ^ 52 * 2 ^ (e - 1)) * 2 ^ Z.of_N fraction)%Z.
      - rewrite N2Z.inj_mul, !N2Z.inj_pow, N2Z.inj_sub by lia. change (Z.of_N 2) with 2%Z. rewrite <- !Z.pow_add_r by lia.
        apply Z.pow_le_mono_r; lia.
      - apply Z.mul_le_mono_nonneg_r; [apply Z.pow_nonneg; lia|]. apply N2Z.inj_le. apply N.mul_le_mono_r. lia. }
    set (amount := 1086 - e - fraction).
    replace (63 - (Z.of_N e - 1023) - Z.of_N fraction)%Z with (Z.of_N amount) by lia.
    replace (64 <=? Z.of_N amount)%Z with false by lia. replace (Z.of_N amount <? 0)%Z with false by lia. cbn [rbind].
    rewrite N2Z.id, mantissa_eq, N.shiftr_div_pow2 by assumption. fold f.
    assert (QE : Z.quot (Z.of_N ((2 ^ 52 + f) * 2 ^ (e - 1)) * 2 ^ Z.of_N fraction) (2 ^ k) = Z.of_N ((2 ^ 52 + f) * 2 ^ 11 / 2 ^ amount)).
    { rewrite <- (quot_shift _ amount (e + fraction - 12)). replace (Z.of_N amount + Z.of_N (e + fraction - 12))%Z with k by lia. f_equal.
      rewrite !N2Z.inj_mul, !N2Z.inj_pow. change (Z.of_N 2) with 2%Z. rewrite <- !Z.mul_assoc. f_equal. rewrite <- !Z.pow_add_r by lia. f_equal. lia. }
    rewrite QE. set (q := (2 ^ 52 + f) * 2 ^ 11 / 2 ^ amount).
    assert (QB : 1 <= q < 2 ^ 63).
    { assert (AM : 1 <= amount <= 63) by (subst amount; clear - EU L; lia). clear - AM HFR. subst q. clearbody amount f. split.
      - apply N.div_le_lower_bound; [apply N.pow_nonzero; discriminate|]. rewrite N.mul_1_r.
        apply N.le_trans with (2 ^ 63); [apply N.pow_le_mono_r; lia|]. change (2 ^ 63) with (2 ^ 52 * 2 ^ 11). apply N.mul_le_mono_r. apply N.le_add_r.
      - apply N.div_lt_upper_bound; [apply N.pow_nonzero; discriminate|].
        apply N.lt_le_trans with (2 ^ 1 * 2 ^ 63); [|apply N.mul_le_mono_r, N.pow_le_mono_r; lia].
        change (2 ^ 1 * 2 ^ 63) with ((2 ^ 52 + 2 ^ 52) * 2 ^ 11). apply N.mul_lt_mono_pos_r; [reflexivity|]. now apply N.add_lt_mono_l. }
    clearbody q. replace (q =? 0) with false by lia. cbn [andb].
    destruct (9223372036854775808 <=? x).
    + now rewrite fixed_neg.
    + f_equal. unfold bits_i64. apply wrap_id. unfold i64. change (2 ^ 63)%N with 9223372036854775808 in QB. lia.
Qed.
