(** The squared distance of finite vectors is never NaN. *)
From Coq Require Import Reals Lra.
From Flocq Require Import Core BinarySingleNaN.
From Verif Require Import Base Xor F64 F64Proofs F64BitsProofs F64Flocq Query QuerySpec QueryProofs Expr ExprSpec UcrSpec.
Local Open Scope N_scope.

Definition nonneg (x : f64) : Prop :=
  match x with S754_zero _ => True | S754_infinity s | S754_finite s _ _ => s = false | S754_nan => False end.
Definition number_like (x : f64) : Prop := x <> S754_nan.

Lemma finite_value_finite x : finite_value x -> canonical (of_bits x) /\ finite (of_bits x).
Proof.
  intros (U & v & E & B). split; [now apply of_bits_canonical|]. rewrite (number_scaled x U) in E.
  destruct (of_bits x) as [s|s| |s p e]; cbn [scaled finite] in *; [exact Logic.I| |discriminate E|exact Logic.I].
  apply (f_equal (fun o => match o with Some z => z | None => 0%Z end)) in E. cbv beta iota in E. rewrite <- E in B. assert (X : Z.abs (signed s (2 ^ 2098)) = (2 ^ 52 * 2 ^ 2046)%Z).
  { rewrite <- Z.pow_add_r by lia. change (52 + 2046)%Z with 2098%Z. destruct s; cbn [signed]; [rewrite Z.abs_opp|]; apply Z.abs_eq, Z.pow_nonneg; lia. }
  rewrite X in B. exfalso. revert B. apply Z.lt_irrefl.
Qed.

Lemma finite_nonneg x : finite x -> (0 <= real x)%R -> nonneg x.
Proof.
  intros F R. destruct x as [s|s| |s p e]; cbn [finite nonneg] in *; try contradiction; [exact Logic.I|]. destruct s; [|reflexivity]. exfalso.
  unfold real in R. cbn [SF2R cond_Zopp] in R. assert (F2R (Float radix2 (Z.opp (Zpos p)) e) < 0)%R by (apply F2R_lt_0; reflexivity). lra.
Qed.
Lemma nonneg_real x : nonneg x -> finite x -> (0 <= real x)%R.
Proof.
  intros N F. destruct x as [s|s| |s p e]; cbn [finite nonneg] in *; try contradiction; [apply Rle_refl|]. subst s.
  unfold real. cbn [SF2R cond_Zopp]. apply F2R_ge_0. cbn. discriminate.
Qed.

Lemma fsub_number x y : canonical x -> canonical y -> finite x -> finite y -> number_like (fsub x y).
Proof.
  intros Cx Cy Fx Fy. destruct (Rlt_or_le (Rabs (rnd (real x - real y))) (bpow radix2 femax)) as [L|L].
  - destruct (fsub_real x y Cx Cy Fx Fy L) as (_ & F & _). destruct (fsub x y); try contradiction; discriminate.
  - rewrite <- (B2SF_B x Cx), <- (B2SF_B y Cy), fsub_eq. apply finite_iff in Fx, Fy.
    pose proof (Bminus_correct fprec femax _ _ mode_NE (B x Cx) (B y Cy)) as H. rewrite !B_real, !B_finite in H. specialize (H Fx Fy).
    change (round_mode mode_NE) with ZnearestE in H. fold (rnd (real x - real y)) in H. rewrite Rlt_bool_false in H by exact L. destruct H as [H _].
    unfold number_like. rewrite H. unfold binary_overflow. cbn. discriminate.
Qed.
Lemma fadd_nonneg x y : canonical x -> canonical y -> nonneg x -> nonneg y -> nonneg (fadd x y).
Proof.
  intros Cx Cy Nx Ny.
  assert (D : (finite x /\ finite y) \/ (x = S754_infinity false /\ (exists y', fadd x y = S754_infinity y' /\ y' = false)) \/ (exists y', fadd x y = S754_infinity y' /\ y' = false)).
  { destruct x as [sx|sx| |sx px ex], y as [sy|sy| |sy py ey]; cbn [nonneg] in Nx, Ny; try contradiction; subst;
      try (left; split; exact Logic.I); right; right; eexists; split; try reflexivity; reflexivity. }
  destruct D as [[Fx Fy]|[(_ & s & E & ->)|(s & E & ->)]]; [|rewrite E; reflexivity|rewrite E; reflexivity].
  assert (RN : (0 <= real x + real y)%R) by (pose proof (nonneg_real x Nx Fx); pose proof (nonneg_real y Ny Fy); lra).
  destruct (Rlt_or_le (Rabs (rnd (real x + real y))) (bpow radix2 femax)) as [L|L].
  - destruct (fadd_real x y Cx Cy Fx Fy L) as (R & F & _). apply finite_nonneg; [exact F|]. rewrite R, <- rnd_0. now apply rnd_mono.
  - rewrite <- (B2SF_B x Cx), <- (B2SF_B y Cy), fadd_eq. pose proof Fx as Fx'. pose proof Fy as Fy'. apply finite_iff in Fx', Fy'.
    pose proof (Bplus_correct fprec femax _ _ mode_NE (B x Cx) (B y Cy)) as H. rewrite !B_real, !B_finite in H. specialize (H Fx' Fy').
    change (round_mode mode_NE) with ZnearestE in H. fold (rnd (real x + real y)) in H. rewrite Rlt_bool_false in H by exact L. destruct H as [H HS].
    rewrite H. unfold binary_overflow. cbn [overflow_to_inf nonneg].
    destruct x as [sx|sx| |sx px ex], y as [sy|sy| |sy py ey]; cbn [nonneg finite] in Nx, Ny, Fx, Fy; try contradiction; subst; cbn [B SF2B Bsign] in *;
      try reflexivity; try (now destruct sx); try (now destruct sy); cbn in HS; try congruence.
    exfalso. unfold real in L. cbn in L. rewrite Rplus_0_l, rnd_0, Rabs_R0 in L. pose proof (bpow_gt_0 radix2 femax). lra.
Qed.
Lemma square_nonneg x : canonical x -> number_like x -> nonneg (fmul x x).
Proof.
  intros Cx NX. destruct (match x with S754_infinity _ => true | _ => false end) eqn:I.
  - destruct x; try discriminate I. cbn. now destruct s.
  - assert (F : finite x) by (destruct x; try discriminate I; try exact Logic.I; now destruct NX).
    destruct (Rlt_or_le (Rabs (rnd (real x * real x))) (bpow radix2 femax)) as [L|L].
    + destruct (fmul_real x x Cx Cx F F L) as (R & F' & _). apply finite_nonneg; [exact F'|]. rewrite R, <- rnd_0. apply rnd_mono. apply Rle_0_sqr.
    + rewrite <- (B2SF_B x Cx), fmul_eq. pose proof (Bmult_correct fprec femax _ _ mode_NE (B x Cx) (B x Cx)) as H. rewrite !B_real in H.
      change (round_mode mode_NE) with ZnearestE in H. fold (rnd (real x * real x)) in H. rewrite Rlt_bool_false in H by exact L. rewrite H, xorb_nilpotent. reflexivity.
Qed.
Lemma nonneg_canonical_sum vs : Forall (fun v => canonical v /\ nonneg v) vs -> forall a, canonical a -> nonneg a ->
  canonical (fold_left fadd vs a) /\ nonneg (fold_left fadd vs a).
Proof.
  induction 1 as [|v vs [C N] F IH]; intros a CA NA; cbn [fold_left]; [auto|]. apply IH; [now apply fadd_canonical|now apply fadd_nonneg].
Qed.
Theorem distance_number neg v w : Forall finite_value v -> Forall finite_value w -> squared_distance neg v w <> S754_nan.
Proof.
  intros FV FW E. assert (X : nonneg (squared_distance neg v w)); [|rewrite E in X; exact X]. unfold squared_distance, iter_sum.
  apply nonneg_canonical_sum; [|exact Logic.I|exact Logic.I]. apply Forall_map, Forall_forall. intros [a b] I.
  rewrite Forall_forall in FV, FW. destruct (finite_value_finite a (FV a (in_combine_l _ _ _ _ I))) as [CA FA].
  destruct (finite_value_finite b (FW b (in_combine_r _ _ _ _ I))) as [CB FB].
  pose proof (fsub_canonical _ _ CA CB) as CS. cbv beta iota. split; [exact (fmul_canonical _ _ CS CS)|]. exact (square_nonneg _ CS (fsub_number _ _ CA CB FA FB)).
Qed.
