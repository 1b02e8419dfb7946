(** The values BUFF keeps of a number of hundredths: 256ths, rounded down. *)
From Coq Require Import Reals Lra.
From Flocq Require Import Core BinarySingleNaN.
From Verif Require Import Base Xor F64 F64Proofs F64BitsProofs F64Flocq Query QuerySpec QueryProofs Sprintz SprintzSpec
  Buff BuffFoldProofs BuffFloatProofs BuffSpec BuffQueryProofs RelErrorProofs TpchGridProofs TpchSpec.
Local Open Scope Z_scope.

Lemma kept_bounds z : amount z -> 0 <= kept_amount z <= 2560000000 /\ kept_amount z * 100 <= z * 256 < kept_amount z * 100 + 100.
Proof.
  unfold amount, kept_amount. change (10 ^ 9) with 1000000000. intros A. pose proof (Z.div_mod (z * 256) 100 ltac:(lia)). pose proof (Z.mod_pos_bound (z * 256) 100 ltac:(lia)). lia.
Qed.
Lemma format_256 n : Z.abs n <= 2 ^ 53 -> generic_format radix2 fexp64 (IZR n * / 256).
Proof. intros N. replace (IZR n * / 256)%R with (F2R (Float radix2 n (-8))) by (unfold F2R; cbn; reflexivity). apply format_Z; [exact N|lia]. Qed.
Lemma real_bounds z : amount z -> (IZR (kept_amount z) * / 256 <= real (of_bits (grid_value 100 z)) < IZR (kept_amount z + 1) * / 256)%R.
Proof.
  intros A. destruct (kept_bounds z A) as (B1 & B2). destruct (near_grid z A) as (C & F & [_ H]). rewrite pow_1 in H. unfold amount in A. change (10 ^ 9) with 1000000000 in A.
  assert (Z0 : (0 <= IZR z)%R) by (apply IZR_le; lia). assert (Z1 : (IZR z <= 1000000000)%R) by (apply IZR_le; lia).
  assert (KL : (IZR (kept_amount z) * 100 <= IZR z * 256)%R) by (rewrite <- !mult_IZR; apply IZR_le; lia).
  split.
  - rewrite of_grid in *. assert (E100 : real (of_Z 100) = 100%R) by (apply (of_Z_exact 100); lia). assert (EZ : real (of_Z z) = IZR z) by (apply of_Z_exact; lia).
    destruct (of_Z_real z) as (_ & FZ & CZ). { apply Z.le_trans with (2 ^ 53); [lia|apply Z.pow_le_mono_r; lia]. }
    destruct (of_Z_real 100) as (_ & F1 & C1). { apply Z.le_trans with (2 ^ 53); [lia|apply Z.pow_le_mono_r; lia]. }
    assert (RB : (IZR (kept_amount z) * / 256 <= rnd (IZR z / 100))%R).
    { rewrite <- (rnd_id _ (format_256 (kept_amount z) ltac:(lia))). apply round_le; [typeclasses eauto..|]. lra. }
    destruct (fdiv_real (of_Z z) (of_Z 100) CZ C1 FZ ltac:(rewrite E100; lra)) as (E & _ & _).
    + rewrite EZ, E100. apply Rle_lt_trans with (bpow radix2 30); [|apply bpow_lt; unfold femax; lia].
      apply rnd_abs_le; [apply format_bpow; lia|]. rewrite Rabs_pos_eq by (unfold Rdiv; nra). change (bpow radix2 30) with 1073741824%R. lra.
    + rewrite E, EZ, E100. exact RB.
  - eapply Rle_lt_trans; [exact H|]. rewrite plus_IZR. assert (KU : (IZR z * 256 + 1 <= IZR (kept_amount z) * 100 + 100)%R).
    { rewrite <- !mult_IZR, <- !plus_IZR. apply IZR_le. lia. }
    pose proof u_pos. assert (US : (u * 1000000000000 <= 1)%R).
    { rewrite u_eq. apply Rle_trans with (bpow radix2 (-53) * bpow radix2 53)%R; [|rewrite <- bpow_plus; cbn; lra]. apply Rmult_le_compat_l; [apply bpow_ge_0|]. change (bpow radix2 53) with 9007199254740992%R. lra. }
    assert (XU : (IZR z * u <= 1000000000 * u)%R) by (apply Rmult_le_compat_r; lra). nra.
Qed.
Lemma fx_cell z : amount z -> fx 8 (grid_value 100 z) = kept_amount z.
Proof.
  intros A. destruct (grid_number z A) as (a & E & EA). destruct (real_bounds z A) as [L H]. destruct (kept_bounds z A) as (B1 & _).
  unfold fx. rewrite E. change (2 ^ Z.of_N 8) with 256. pose proof (bpow_gt_0 radix2 1074) as P. change (bpow radix2 1074) with (IZR (2 ^ 1074)) in *.
  revert EA P. generalize (2 ^ 1074). intros p EA P. assert (PZ : 0 < p) by (apply lt_IZR; exact P).
  assert (X1 : kept_amount z * p <= a * 256). { apply le_IZR. rewrite !mult_IZR, EA. nra. }
  assert (X2 : a * 256 < (kept_amount z + 1) * p). { apply lt_IZR. rewrite !mult_IZR, EA. nra. }
  assert (A0 : 0 <= a * 256) by nia. rewrite Z.quot_div_nonneg by lia. symmetry. apply Z.div_unique with (a * 256 - p * kept_amount z); lia.
Qed.
(** The value a cell decodes to. *)
Definition tcell (z : Z) : N := fixed_value 8 (fx 8 (grid_value 100 z)).
Lemma near_fixed v : 0 <= v <= 2 ^ 53 -> near 0 (IZR v * / 256) (fixed_quotient 8 v).
Proof.
  intros V. rewrite quotient_unfix by lia. destruct (unfix_real 8 ltac:(lia) v) as (R & F & C). { apply Z.le_trans with (2 ^ 53); [lia|apply Z.pow_le_mono_r; lia]. }
  assert (RV : rnd (IZR v) = IZR v). { apply short_rnd. exists v, 0. lia. }
  split; [exact C|]. split; [exact F|]. rewrite R, RV. change (bpow radix2 (- Z.of_N 8)) with (/ 256)%R. unfold bounds. cbn [pow]. lra.
Qed.
Lemma near_tcell z : amount z -> near 0 (IZR (kept_amount z) * / 256) (of_bits (tcell z)).
Proof.
  intros A. destruct (kept_bounds z A) as (B & _). pose proof (near_fixed (kept_amount z) ltac:(lia)) as N. unfold tcell, fixed_value. rewrite (fx_cell z A). rewrite of_to_bits by apply N. exact N.
Qed.
Lemma q256 : (bpow radix2 (-100) <= / 256 <= 1)%R.
Proof. split; [|lra]. apply Rle_trans with (bpow radix2 (-8)); [apply bpow_le; lia|]. cbn. lra. Qed.
Lemma q65536 : (bpow radix2 (-100) <= / 65536 <= 1)%R.
Proof. split; [|lra]. apply Rle_trans with (bpow radix2 (-16)); [apply bpow_le; lia|]. cbn. lra. Qed.
Lemma q16777216 : (bpow radix2 (-100) <= / 16777216 <= 1)%R.
Proof. split; [|lra]. apply Rle_trans with (bpow radix2 (-24)); [apply bpow_le; lia|]. cbn. lra. Qed.
Lemma kept_percent z : 0 <= z <= 100 -> 0 <= kept_amount z <= 256.
Proof. intros Z. unfold kept_amount. split; [apply Z.div_pos; lia|]. apply Z.div_le_upper_bound; lia. Qed.
Lemma near_tcomplement z : 0 <= z <= 100 -> near 1 (IZR (256 - kept_amount z) * / 256) (fsub f_one (of_bits (tcell z))).
Proof.
  intros Z. pose proof (kept_percent z Z) as K. assert (A : amount z) by (unfold amount; lia). destruct (near_tcell z A) as (C & F & B). destruct f_one_exact as (C1 & F1 & B1).
  unfold bounds in B, B1. cbn [pow] in B, B1.
  assert (R : bounds 0 (IZR (256 - kept_amount z) * / 256) (real f_one - real (of_bits (tcell z)))) by (unfold bounds; cbn [pow]; rewrite minus_IZR; lra).
  assert (M : mid (IZR (256 - kept_amount z) * / 256)) by (apply (tame_mid (/ 256)); [exact q256|]; exists (256 - kept_amount z); split; [lia|reflexivity]).
  destruct (round_bounds 0 _ _ ltac:(unfold few; lia) M R) as [L N]. destruct (fsub_real _ _ C1 C F1 F L) as (E & Fz & Cz).
  split; [exact Cz|]. split; [exact Fz|]. rewrite E. exact N.
Qed.
Lemma near_tplus z : amount z -> near 1 (IZR (256 + kept_amount z) * / 256) (fadd f_one (of_bits (tcell z))).
Proof.
  intros A. destruct (kept_bounds z A) as (K & _). assert (Z0 : (0 <= IZR (kept_amount z))%R) by (apply IZR_le; lia).
  replace (IZR (256 + kept_amount z) * / 256)%R with (1 + IZR (kept_amount z) * / 256)%R by (rewrite plus_IZR; lra).
  apply near_add; [unfold few; lia|lra|lra| |exact f_one_exact|now apply near_tcell].
  apply (tame_mid (/ 256)); [exact q256|]. exists (256 + kept_amount z). split; [lia|]. rewrite plus_IZR. lra.
Qed.
(** Which cells the predicates select. *)
Lemma kept_between z : amount z -> (12 <= kept_amount z <= 17 <-> 5 <= z <= 7).
Proof. intros A. destruct (kept_bounds z A) as (_ & B). lia. Qed.
Lemma kept_below z : amount z -> (kept_amount z < 6144 <-> z < 2400).
Proof. intros A. destruct (kept_bounds z A) as (_ & B). lia. Qed.
Lemma fixed_cell z v : amount z -> (fixed_point 8 (grid_value 100 z) v <-> v = kept_amount z).
Proof.
  intros A. rewrite fixed_fx by lia. rewrite (fx_cell z A). destruct (grid_number z A) as (a & E & _). rewrite E. split; [tauto|]. intros ->. split; [discriminate|reflexivity].
Qed.
Lemma near_integer v : 0 <= v <= 2 ^ 100 -> near 1 (IZR v * / 256) (fixed_quotient 8 v).
Proof.
  intros V. rewrite quotient_unfix by lia. destruct (unfix_real 8 ltac:(lia) v) as (R & F & C); [rewrite Z.abs_eq; apply V|].
  assert (M : mid (IZR v)) by (apply (tame_mid 1); [split; [apply (bpow_le radix2 (-100) 0); lia|lra]|]; exists v; split; [split; [apply V|apply Z.le_trans with (2 ^ 100); [apply V|apply Z.pow_le_mono_r; lia]]|lra]).
  assert (B : bounds 0 (IZR v) (IZR v)) by (unfold bounds; cbn [pow]; lra). destruct (round_bounds 0 _ _ ltac:(unfold few; lia) M B) as [_ [N1 N2]].
  split; [exact C|]. split; [exact F|]. rewrite R. change (bpow radix2 (- Z.of_N 8)) with (/ 256)%R. unfold bounds. lra.
Qed.
(** Sums of the integers of cells. *)
Lemma fixed_sum_cells zs t : Forall amount zs -> fixed_sum 8 (map (grid_value 100) zs) t -> t = fold_right Z.add 0 (map kept_amount zs).
Proof.
  revert t. induction zs as [|z zs IH]; intros t A S; cbn [map] in S; inversion S as [|? ? v t' FP S']; subst; [reflexivity|]. inversion A as [|? ? AZ AS]; subst. cbn [map fold_right].
  apply (fixed_cell z v AZ) in FP. rewrite FP, (IH t' AS S'). reflexivity.
Qed.
(** The predicates of query 6 on the integers. *)
Lemma discount_truncated z v : amount z -> fixed_point 8 (grid_value 100 z) v ->
  (truncated_satisfies 8 (PRange (Inclusive (grid_value 100 5)) (Inclusive (grid_value 100 7))) v <-> 5 <= z <= 7).
Proof.
  intros A F. apply (fixed_cell z v A) in F. subst v. rewrite <- (kept_between z A). unfold truncated_satisfies.
  assert (A5 : amount 5) by (unfold amount; lia). assert (A7 : amount 7) by (unfold amount; lia). split.
  - intros [(w & F5 & B5) (w' & F7 & B7)]. apply (fixed_cell 5 w A5) in F5. apply (fixed_cell 7 w' A7) in F7. change (kept_amount 5) with 12 in F5. change (kept_amount 7) with 17 in F7. lia.
  - intros B. split; [exists 12|exists 17]; (split; [apply fixed_cell; [assumption|reflexivity]|lia]).
Qed.
Lemma quantity_truncated z v : amount z -> fixed_point 8 (grid_value 100 z) v ->
  (truncated_satisfies 8 (PRange Unbounded (Exclusive (grid_value 100 2400))) v <-> z < 2400).
Proof.
  intros A F. apply (fixed_cell z v A) in F. subst v. rewrite <- (kept_below z A). unfold truncated_satisfies. assert (A24 : amount 2400) by (unfold amount; lia). split.
  - intros [_ (w & FW & B)]. apply (fixed_cell 2400 w A24) in FW. change (kept_amount 2400) with 6144 in FW. lia.
  - intros B. split; [exact Logic.I|]. exists 6144. split; [apply fixed_cell; [assumption|reflexivity]|lia].
Qed.
Lemma mixed_obeyed zs mask z w : Forall amount zs -> In z zs -> In w zs -> z < 2400 -> 2400 <= w ->
  mask_obeyed 8 (PRange Unbounded (Exclusive (grid_value 100 2400))) mask (map (grid_value 100) zs).
Proof.
  intros A IZ IW LZ LW. assert (AZ : amount z) by (rewrite Forall_forall in A; auto). assert (AW : amount w) by (rewrite Forall_forall in A; auto).
  pose proof (proj2 (kept_below z AZ) LZ) as KZ. assert (KW : 6144 <= kept_amount w) by (destruct (Z.le_gt_cases 6144 (kept_amount w)) as [G|G]; [exact G|]; apply (kept_below w AW) in G; lia).
  assert (FZ : fixed_point 8 (grid_value 100 z) (kept_amount z)) by (apply fixed_cell; [assumption|reflexivity]).
  assert (FW : fixed_point 8 (grid_value 100 w) (kept_amount w)) by (apply fixed_cell; [assumption|reflexivity]).
  right. split.
  - exists (grid_value 100 z), (grid_value 100 w), (kept_amount z), (kept_amount w). repeat split; try (apply in_map; assumption); try assumption. lia.
  - intros u v U FU. cbn [pred_operands app In] in U. destruct U as [<-|[]]. apply fixed_cell in FU; [|unfold amount; lia]. change (kept_amount 2400) with 6144 in FU. subst v.
    exists (grid_value 100 z), (grid_value 100 w), (kept_amount z), (kept_amount w). repeat split; try (apply in_map; assumption); try assumption; lia.
Qed.
