From Coq Require Import Reals Lra.
From Flocq Require Import Core BinarySingleNaN.
From Verif Require Import Base WordProofs Xor F64 F64Proofs F64BitsProofs F64Flocq Query QuerySpec QueryProofs Sprintz SprintzProofs
  SprintzFloatProofs SprintzQueryProofs SprintzSpec.
Local Open Scope Z_scope.

(** ** The stored integer *)
Lemma of_Z_canonical z : canonical (of_Z z).
Proof. apply fnorm_canonical. Qed.
Lemma nearest_is a z : nearest_integer a z <-> nearest a (2 ^ 1074) z.
Proof. reflexivity. Qed.

Lemma scaled_inf : scaled (S754_infinity false) = Some (2 ^ 2098) /\ scaled (S754_infinity true) = Some (- 2 ^ 2098).
Proof. split; reflexivity. Qed.

Lemma unit_pos : 0 < 2 ^ 1074.
Proof. now apply Z.pow_pos_nonneg. Qed.

Lemma nearest_total a : exists z, nearest_integer a z.
Proof.
  unfold nearest_integer. pose proof unit_pos as U. set (u := 2 ^ 1074) in *. clearbody u.
  assert (D := Z.div_mod a u ltac:(lia)). pose proof (Z.mod_pos_bound a u U) as M.
  set (d := a / u) in *. set (r := a mod u) in *. clearbody d r.
  destruct (Z_lt_le_dec (2 * r) u) as [L|L]; [exists d; left; nia|].
  destruct (Z.eq_dec (2 * r) u) as [E|E]; [|exists (d + 1); left; nia].
  destruct (Z_lt_le_dec d 0) as [N|N]; [exists d|exists (d + 1)]; right; split; nia.
Qed.

Lemma nearest_mult u k z : 0 < u -> (nearest (k * u) u z <-> z = k).
Proof.
  intros U. assert (N : nearest (k * u) u k) by (left; rewrite Z.sub_diag; exact U). split; [|now intros ->].
  intros N'. exact (nearest_unique _ _ _ _ U N' N).
Qed.
Lemma top_mult : 2 ^ 2098 = 2 ^ 1024 * 2 ^ 1074.
Proof. rewrite <- Z.pow_add_r; [reflexivity|discriminate|discriminate]. Qed.
Lemma nearest_inf z : nearest_integer (2 ^ 2098) z <-> z = 2 ^ 1024.
Proof. rewrite top_mult. apply nearest_mult, unit_pos. Qed.
Lemma nearest_neg_inf z : nearest_integer (- 2 ^ 2098) z <-> z = - 2 ^ 1024.
Proof. rewrite top_mult, <- Z.mul_opp_l. apply nearest_mult, unit_pos. Qed.
Lemma inf_clamp_pos : Z.max (- 2 ^ 63) (Z.min (2 ^ 63 - 1) (2 ^ 1024)) = 2 ^ 63 - 1.
Proof. reflexivity. Qed.
Lemma inf_clamp_neg : Z.max (- 2 ^ 63) (Z.min (2 ^ 63 - 1) (- 2 ^ 1024)) = - 2 ^ 63.
Proof. reflexivity. Qed.

Lemma as_i64_spec y q : canonical y ->
  (match scaled y with
   | None => q = 0
   | Some a => exists z, nearest_integer a z /\ q = Z.max (- 2 ^ 63) (Z.min (2 ^ 63 - 1) z)
   end <-> as_i64 (fround y) = q).
Proof.
  intros C. destruct y as [s|s| |s m e].
  - cbn [scaled fround]. change (as_i64 (S754_zero s)) with 0. split.
    + intros (z & N & ->). assert (z = 0) as ->; [|reflexivity]. apply (nearest_unique 0 (2 ^ 1074)); [apply unit_pos|exact N|].
      left. rewrite Z.mul_0_l. cbn [Z.abs Z.sub]. apply unit_pos.
    + intros <-. exists 0. split; [|reflexivity]. left. rewrite Z.mul_0_l. change (2 * Z.abs (0 - 0)) with 0. apply unit_pos.
  - destruct scaled_inf as [SI SJ]. destruct s; cbn [fround].
    + rewrite SJ. change (as_i64 (S754_infinity true)) with (- 2 ^ 63). rewrite <- inf_clamp_neg. split.
      * intros (z & N & ->). apply nearest_neg_inf in N. now subst z.
      * intros <-. exists (- 2 ^ 1024). split; [now apply nearest_neg_inf|reflexivity].
    + rewrite SI. change (as_i64 (S754_infinity false)) with (2 ^ 63 - 1). rewrite <- inf_clamp_pos. split.
      * intros (z & N & ->). apply nearest_inf in N. now subst z.
      * intros <-. exists (2 ^ 1024). split; [now apply nearest_inf|reflexivity].
  - cbn [scaled fround]. change (as_i64 S754_nan) with 0. split; congruence.
  - destruct (finite_scaled (S754_finite s m e) I) as [a A]. rewrite A.
    destruct (fround_int _ a C I A) as [F N]. rewrite as_i64_finite by exact F. split.
    + intros (z & N' & ->). now rewrite (nearest_unique a (2 ^ 1074) z _ unit_pos N' N).
    + intros <-. exists (ftruncZ (fround (S754_finite s m e))). split; [exact N|reflexivity].
Qed.

Lemma stored_quantize s x q : is_u64 x -> (stored_integer s x q <-> quantize s x = q).
Proof.
  intros U. unfold stored_integer, quantize.
  assert (C : canonical (fmul (of_bits x) (of_Z (Z.of_N s)))) by (apply fmul_canonical; [now apply of_bits_canonical|apply of_Z_canonical]).
  rewrite number_scaled by (apply to_bits_bound, C). rewrite of_to_bits by exact C. exact (as_i64_spec _ q C).
Qed.

(** ** Order *)
Section Order.
  Variable s : N.
  Hypothesis S : scale_ok s.

  Lemma unq_small q : i64 q -> q <> 0 -> real (unquantize s q) <> 0%R.
  Proof using S.
    intros Q NZ. destruct (unq_real s S q Q) as (-> & _). pose proof (scale_pos s S) as SP. pose proof (scale_lt s S) as SL.
    assert (A : (bpow radix2 (-32) <= Rabs (rnd (IZR q) / IZR (Z.of_N s)))%R).
    { assert (R1 : (1 <= Rabs (rnd (IZR q)))%R).
      { apply abs_round_ge_generic; [apply FLT_exp_valid; reflexivity|apply valid_rnd_N|exact (format_bpow 0 ltac:(lia))|].
        rewrite <- abs_IZR. change 1%R with (IZR 1). apply IZR_le. lia. }
      unfold Rdiv. rewrite Rabs_mult, Rabs_inv, (Rabs_pos_eq (IZR (Z.of_N s))) by lra.
      rewrite <- (Rmult_1_l (bpow radix2 (-32))). apply Rmult_le_compat; [lra|apply bpow_ge_0|exact R1|].
      change (-32) with (- (32)). rewrite bpow_opp. apply Rinv_le; [lra|now left]. }
    assert (B : (bpow radix2 (-32) <= Rabs (rnd (rnd (IZR q) / IZR (Z.of_N s))))%R).
    { apply abs_round_ge_generic; [apply FLT_exp_valid; reflexivity|apply valid_rnd_N|apply format_bpow; lia|exact A]. }
    intros E. rewrite E, Rabs_R0 in B. pose proof (bpow_gt_0 radix2 (-32)). lra.
  Qed.
  Lemma unq_zero : real (unquantize s 0) = 0%R.
  Proof using S.
    destruct (unq_real s S 0) as (-> & _); [unfold i64; lia|]. rewrite rnd_0. unfold Rdiv. rewrite Rmult_0_l. apply rnd_0.
  Qed.
  Lemma unq_inj a b : i64 a -> i64 b -> real (unquantize s a) = real (unquantize s b) -> unquantize s a = unquantize s b.
  Proof using S.
    intros A B E. destruct (Z.eq_dec a 0) as [->|NA]; [destruct (Z.eq_dec b 0) as [->|NB]; [reflexivity|]|].
    - rewrite unq_zero in E. symmetry in E. now apply unq_small in E.
    - destruct (unq_real s S a A) as (_ & F1 & C1). destruct (unq_real s S b B) as (_ & F2 & C2).
      apply real_inj; auto. now apply unq_small.
  Qed.

  Lemma finite_not_nan x : finite x -> is_nan x = false.
  Proof using. destruct x; cbn; tauto. Qed.
  Lemma unq_flt a b : i64 a -> i64 b -> (flt (unquantize s a) (unquantize s b) = true -> a < b) /\
    (flt (unquantize s a) (unquantize s b) = false -> a < b -> unquantize s a = unquantize s b).
  Proof using S.
    intros A B. destruct (unq_real s S a A) as (_ & F1 & C1). destruct (unq_real s S b B) as (_ & F2 & C2).
    pose proof (flt_real _ _ C1 C2 F1 F2) as L. split.
    - intros T. apply L in T. destruct (Z_lt_le_dec a b) as [|G]; [assumption|]. pose proof (unq_mono s S b a B A G). lra.
    - intros T G. apply unq_inj; auto. pose proof (unq_mono s S a b A B ltac:(lia)) as [M|M]; [|assumption].
      apply L in M. congruence.
  Qed.
  Lemma fmin_unq tie a b : i64 a -> i64 b -> fmin tie (unquantize s a) (unquantize s b) = unquantize s (Z.min a b).
  Proof using S.
    intros A B. unfold fmin.
    rewrite !finite_not_nan by (apply (unq_real s S); assumption).
    destruct (unq_flt a b A B) as [P1 P2]. destruct (unq_flt b a B A) as [Q1 Q2].
    destruct (flt (unquantize s a) (unquantize s b)).
    - rewrite Z.min_l by (specialize (P1 eq_refl); lia). reflexivity.
    - destruct (flt (unquantize s b) (unquantize s a)).
      + rewrite Z.min_r by (specialize (Q1 eq_refl); lia). reflexivity.
      + assert (E : unquantize s a = unquantize s b).
        { destruct (Z.lt_trichotomy a b) as [L|[->|L]]; [now apply P2|reflexivity|symmetry; now apply Q2]. }
        rewrite E. destruct (Z.min_spec a b) as [[_ ->]|[_ ->]]; rewrite ?E; now destruct (tie _ _).
  Qed.
  Lemma fmax_unq tie a b : i64 a -> i64 b -> fmax tie (unquantize s a) (unquantize s b) = unquantize s (Z.max a b).
  Proof using S.
    intros A B. unfold fmax.
    rewrite !finite_not_nan by (apply (unq_real s S); assumption).
    destruct (unq_flt a b A B) as [P1 P2]. destruct (unq_flt b a B A) as [Q1 Q2].
    destruct (flt (unquantize s b) (unquantize s a)).
    - rewrite Z.max_l by (specialize (Q1 eq_refl); lia). reflexivity.
    - destruct (flt (unquantize s a) (unquantize s b)).
      + rewrite Z.max_r by (specialize (P1 eq_refl); lia). reflexivity.
      + assert (E : unquantize s a = unquantize s b).
        { destruct (Z.lt_trichotomy a b) as [L|[->|L]]; [now apply P2|reflexivity|symmetry; now apply Q2]. }
        rewrite E. destruct (Z.max_spec a b) as [[_ ->]|[_ ->]]; rewrite ?E; now destruct (tie _ _).
  Qed.

  Definition dec (q : Z) : N := to_bits (unquantize s q).
  Lemma of_dec q : i64 q -> of_bits (dec q) = unquantize s q.
  Proof using S. intros Q. apply of_to_bits, (unq_real s S q Q). Qed.

  Lemma i64_min_ a b : i64 a -> i64 b -> i64 (Z.min a b).
  Proof using. unfold i64. lia. Qed.
  Lemma i64_max_ a b : i64 a -> i64 b -> i64 (Z.max a b).
  Proof using. unfold i64. lia. Qed.
  Lemma fold_fmin tie : forall (l : list (N * Z)) q, i64 q -> Forall i64 (map snd l) ->
    fold_left (fun acc '((_, v) : N * N) => fmin tie acc (of_bits v)) (map (fun '(i, q) => (i, dec q)) l) (unquantize s q) =
    unquantize s (fold_left Z.min (map snd l) q).
  Proof using S.
    induction l as [|[i p] l IH]; intros q Q F; [reflexivity|]. cbn [map fold_left snd] in *. inversion_clear F.
    rewrite of_dec, fmin_unq by assumption. apply IH; [now apply i64_min_|assumption].
  Qed.
  Lemma fold_fmax tie : forall (l : list (N * Z)) q, i64 q -> Forall i64 (map snd l) ->
    fold_left (fun acc '((_, v) : N * N) => fmax tie acc (of_bits v)) (map (fun '(i, q) => (i, dec q)) l) (unquantize s q) =
    unquantize s (fold_left Z.max (map snd l) q).
  Proof using S.
    induction l as [|[i p] l IH]; intros q Q F; [reflexivity|]. cbn [map fold_left snd] in *. inversion_clear F.
    rewrite of_dec, fmax_unq by assumption. apply IH; [now apply i64_max_|assumption].
  Qed.
  Lemma flt_inf x : canonical x -> finite x -> flt (f_inf false) x = false /\ flt x (f_inf false) = true /\
    flt x (f_inf true) = false /\ flt (f_inf true) x = true.
  Proof using. intros _ F. destruct x as [b|b| |b m e]; cbn in F; try tauto; destruct b; auto. Qed.
  Lemma fold_min_first tie : forall (l : list (N * Z)), l <> [] -> Forall i64 (map snd l) ->
    fold_left (fun acc '((_, v) : N * N) => fmin tie acc (of_bits v)) (map (fun '(i, q) => (i, dec q)) l) (f_inf false) =
    unquantize s (fold_left Z.min (map snd l) i64_max).
  Proof using S.
    intros [|[i p] l] NE F; [congruence|]. cbn [map fold_left snd] in *. inversion_clear F as [|? ? F1 F2].
    rewrite of_dec by assumption. destruct (unq_real s S p F1) as (_ & FI & CA). destruct (flt_inf _ CA FI) as (I1 & I2 & _).
    assert (fmin tie (f_inf false) (unquantize s p) = unquantize s p) as ->.
    { unfold fmin. rewrite (finite_not_nan _ FI), I1, I2. reflexivity. }
    rewrite Z.min_r by (unfold i64, i64_max in *; lia). now apply fold_fmin.
  Qed.
  Lemma fold_max_first tie : forall (l : list (N * Z)), l <> [] -> Forall i64 (map snd l) ->
    fold_left (fun acc '((_, v) : N * N) => fmax tie acc (of_bits v)) (map (fun '(i, q) => (i, dec q)) l) (f_inf true) =
    unquantize s (fold_left Z.max (map snd l) i64_min).
  Proof using S.
    intros [|[i p] l] NE F; [congruence|]. cbn [map fold_left snd] in *. inversion_clear F as [|? ? F1 F2].
    rewrite of_dec by assumption. destruct (unq_real s S p F1) as (_ & FI & CA). destruct (flt_inf _ CA FI) as (_ & _ & I1 & I2).
    assert (fmax tie (f_inf true) (unquantize s p) = unquantize s p) as ->.
    { unfold fmax. rewrite (finite_not_nan _ FI), I1, I2. reflexivity. }
    rewrite Z.max_r by (unfold i64, i64_min in *; lia). now apply fold_fmax.
  Qed.

  (** ** Predicates *)
  Definition small (q : Z) : Prop := Z.abs q < 2 ^ 51.
  Lemma small_i64 q : small q -> i64 q.
  Proof using. unfold small, i64. change (2 ^ 51) with 2251799813685248. change (2 ^ 63) with 9223372036854775808. lia. Qed.

  Lemma operand_compare q v : small q -> grid_operand s v ->
    (feq (unquantize s q) (of_bits v) = Z.eqb q (quantize s v)) /\
    (flt (unquantize s q) (of_bits v) = Z.ltb q (quantize s v)) /\
    (fle (unquantize s q) (of_bits v) = Z.leb q (quantize s v)) /\
    (flt (of_bits v) (unquantize s q) = Z.ltb (quantize s v) q) /\
    (fle (of_bits v) (unquantize s q) = Z.leb (quantize s v) q).
  Proof using S.
    intros Q [(k & K & E)|I].
    - change (v = dec k) in E. subst v.
      rewrite of_dec by now apply small_i64. unfold dec. rewrite (grid_back s S k K).
      destruct (unq_real s S q (small_i64 q Q)) as (_ & F1 & C1). destruct (unq_real s S k (small_i64 k K)) as (_ & F2 & C2).
      assert (T : forall a b, small a -> small b -> ((real (unquantize s a) < real (unquantize s b))%R <-> a < b) /\
         (real (unquantize s a) = real (unquantize s b) <-> a = b)).
      { intros a b A B. destruct (Z.lt_trichotomy a b) as [L|[->|L]].
        - pose proof (grid_strict s S a b A B L). split; split; intros; try lra; try lia.
        - split; split; intros; try lra; try lia.
        - pose proof (grid_strict s S b a B A L). split; split; intros; try lra; try lia. }
      destruct (T q k Q K) as [L1 E1]. destruct (T k q K Q) as [L2 _].
      split; [|split; [|split; [|split]]]; apply Bool.eq_true_iff_eq.
      + rewrite feq_real by assumption. now rewrite E1, Z.eqb_eq.
      + rewrite flt_real by assumption. now rewrite L1, Z.ltb_lt.
      + rewrite fle_real by assumption. rewrite Z.leb_le, Z.lt_eq_cases, <- L1, <- E1. unfold Rle. tauto.
      + rewrite flt_real by assumption. now rewrite L2, Z.ltb_lt.
      + rewrite fle_real by assumption. destruct (T k q K Q) as [_ E2]. rewrite Z.leb_le, Z.lt_eq_cases, <- L2, <- E2. unfold Rle. tauto.
    - destruct (unq_real s S q (small_i64 q Q)) as (_ & F1 & C1). unfold small in Q. change (2 ^ 51) with 2251799813685248 in Q.
      assert (SC : exists m e, of_Z (Z.of_N s) = S754_finite false m e).
      { destruct (scale_real s S) as (R & FS & _). pose proof (scale_pos s S) as SP. rewrite <- R in SP.
        destruct (of_Z (Z.of_N s)) as [b|b| |b m e]; cbn in FS; try tauto.
        - unfold real in SP. cbn in SP. lra.
        - destruct b; [|eauto]. exfalso. unfold real in SP. cbn [SF2R] in SP. change (cond_Zopp true (Z.pos m)) with (Z.neg m) in SP.
          pose proof (F2R_lt_0 radix2 (Float radix2 (Z.neg m) e) ltac:(cbn; lia)). lra. }
      destruct SC as (m & e & SC).
      assert (QV : quantize s v = (if match of_bits v with S754_infinity b => b | _ => false end then - 2 ^ 63 else 2 ^ 63 - 1) /\
        exists b, of_bits v = S754_infinity b).
      { unfold quantize. rewrite SC. destruct I as [-> | ->]; split; try (eexists; reflexivity); reflexivity. }
      destruct QV as [-> [b EB]]. rewrite EB. change (2 ^ 63) with 9223372036854775808.
      clear - F1 Q. destruct (unquantize s q) as [c|c| |c mm ee]; cbn in F1; try tauto;
        destruct b; try destruct c; cbn [feq flt fle]; (split; [|split; [|split; [|split]]]); symmetry; 
        (apply Z.eqb_neq || apply Z.ltb_lt || apply Z.ltb_ge || apply Z.leb_le || apply Z.leb_gt || idtac); try lia.
  Qed.

  Lemma pred_agrees p q : small q -> Forall (grid_operand s) (pred_operands p) ->
    pred_eval Z Z.eqb Z.leb Z.ltb (pred_map (quantize s) p) q = fpred_eval p (dec q).
  Proof using S.
    intros Q F. unfold fpred_eval. rewrite of_dec by now apply small_i64.
    destruct p as [v|v|lo hi]; cbn [pred_map pred_eval pred_operands] in *.
    - inversion_clear F. symmetry. now apply operand_compare.
    - inversion_clear F. f_equal. symmetry. now apply operand_compare.
    - apply Forall_app in F. destruct F as [FL FH]. unfold range_eval. f_equal.
      + destruct lo; cbn [bound_map]; try (inversion_clear FL); [symmetry; now apply operand_compare..|reflexivity].
      + destruct hi; cbn [bound_map]; try (inversion_clear FH); [symmetry; now apply operand_compare..|reflexivity].
  Qed.
End Order.
