From Verif Require Import Base WordProofs F64 F64Proofs.

(** ** A sum that starts from 0.0 is never -0.0 *)
Definition low (x : f64) : Prop := match x with S754_finite _ _ e => (-1074 <= e)%Z | _ => True end.
Definition not_nz (x : f64) : Prop := x <> S754_zero true.

Lemma shr_1_m mrs : (0 <= shr_m mrs)%Z -> shr_m (shr_1 mrs) = (shr_m mrs / 2)%Z.
Proof.
  destruct mrs as [m r s]. cbn [shr_m shr_1]. destruct m as [|[p|p|]|p]; cbn [shr_m]; intros H; try reflexivity; try lia.
Qed.
Lemma iter_shr p : forall mrs, (0 <= shr_m mrs)%Z -> shr_m (iter_pos shr_1 p mrs) = (shr_m mrs / 2 ^ Zpos p)%Z.
Proof.
  induction p as [p IH|p IH|]; intros mrs H; cbn [iter_pos].
  - pose proof (shr_1_m mrs H) as E1.
    assert (H1 : (0 <= shr_m (shr_1 mrs))%Z) by (rewrite E1; apply Z.div_pos; lia).
    pose proof (IH _ H1) as E2.
    assert (H2 : (0 <= shr_m (iter_pos shr_1 p (shr_1 mrs)))%Z) by (rewrite E2; apply Z.div_pos; lia).
    rewrite (IH _ H2), E2, E1. rewrite !Z.div_div by lia. f_equal.
    replace (Zpos p~1) with (1 + Zpos p + Zpos p)%Z by lia. rewrite !Z.pow_add_r by lia. change (2 ^ 1)%Z with 2%Z; ring.
  - pose proof (IH _ H) as E2.
    assert (H2 : (0 <= shr_m (iter_pos shr_1 p mrs))%Z) by (rewrite E2; apply Z.div_pos; lia).
    rewrite (IH _ H2), E2. rewrite !Z.div_div by lia. f_equal.
    replace (Zpos p~0) with (Zpos p + Zpos p)%Z by lia. rewrite !Z.pow_add_r by lia. reflexivity.
  - now apply shr_1_m.
Qed.
Lemma digits_low p : (2 ^ (Zpos (digits2_pos p) - 1) <= Zpos p)%Z.
Proof.
  induction p as [p IH|p IH|]; cbn [digits2_pos]; [| |reflexivity];
    rewrite Pos2Z.inj_succ; replace (Z.succ (Zpos (digits2_pos p)) - 1)%Z with (Z.succ (Zpos (digits2_pos p) - 1)) by lia;
    rewrite Z.pow_succ_r by lia; lia.
Qed.
Lemma shr_fexp_pos p e l mrs e' : (-1074 <= e)%Z -> shr_fexp fprec femax (Zpos p) e l = (mrs, e') ->
  (0 < shr_m mrs)%Z /\ (-1074 <= e')%Z.
Proof.
  intros H E. unfold shr_fexp, shr in E.
  assert (M : shr_m (shr_record_of_loc (Zpos p) l) = Zpos p) by (destruct l as [|[]]; reflexivity).
  assert (F : (fexp fprec femax (Zdigits2 (Zpos p) + e) - e)%Z = (Z.max (Zpos (digits2_pos p) + e - 53) (-1074) - e)%Z) by reflexivity.
  destruct (fexp fprec femax (Zdigits2 (Zpos p) + e) - e)%Z as [|n|n] eqn:N.
  - injection E as <- <-. rewrite M. lia.
  - injection E as <- <-. rewrite iter_shr by (rewrite M; lia). rewrite M. split; [|lia].
    assert (Zpos n = Zpos (digits2_pos p) - 53)%Z as -> by lia.
    apply Z.div_str_pos. split; [apply Z.pow_pos_nonneg; lia|].
    apply Z.le_trans with (2 ^ (Zpos (digits2_pos p) - 1))%Z; [|apply digits_low]. apply Z.pow_le_mono_r; lia.
  - injection E as <- <-. rewrite M. lia.
Qed.
Lemma round_aux_low s p e l : (-1074 <= e)%Z -> let r := binary_round_aux fprec femax s (Zpos p) e l in low r /\ not_nz r.
Proof.
  intros H. cbn zeta. unfold binary_round_aux.
  destruct (shr_fexp fprec femax (Zpos p) e l) as [m1 e1] eqn:E1.
  destruct (shr_fexp_pos _ _ _ _ _ H E1) as [P1 L1].
  assert (P : (0 < round_nearest_even (shr_m m1) (loc_of_shr_record m1))%Z).
  { unfold round_nearest_even. destruct (loc_of_shr_record m1) as [|[]]; try lia. destruct (Z.even _); lia. }
  destruct (round_nearest_even (shr_m m1) (loc_of_shr_record m1)) as [|q|q]; try lia.
  destruct (shr_fexp fprec femax (Zpos q) e1 loc_Exact) as [m2 e2] eqn:E2.
  destruct (shr_fexp_pos _ _ _ _ _ L1 E2) as [P2 L2].
  destruct (shr_m m2) as [|k|k]; try lia. destruct (Zle_bool e2 (femax - fprec)); split; try exact I; try discriminate. exact L2.
Qed.
Lemma round_low s p e : (-1074 <= e)%Z -> let r := binary_round fprec femax s p e in low r /\ not_nz r.
Proof.
  intros H. cbn zeta. unfold binary_round, shl_align.
  assert (F : fexp fprec femax (Zpos (digits2_pos p) + e) = Z.max (Zpos (digits2_pos p) + e - 53) (-1074)) by reflexivity.
  destruct (fexp fprec femax (Zpos (digits2_pos p) + e) - e)%Z eqn:E; apply round_aux_low; lia.
Qed.
Lemma fadd_low x y : low x -> low y -> not_nz x -> low (fadd x y) /\ not_nz (fadd x y).
Proof.
  unfold fadd. destruct x as [sx|sx| |sx mx ex], y as [sy|sy| |sy my ey]; cbn [SFadd low]; intros LX LY NX;
    try (split; [exact I|discriminate]); try (split; [assumption|discriminate]); try (split; assumption).
  - destruct sx; [now destruct NX|]. destruct sy; split; try exact I; discriminate.
  - destruct (Bool.eqb sx sy); split; try exact I; discriminate.
  - assert (LM : (-1074 <= Z.min ex ey)%Z) by lia. unfold binary_normalize.
    destruct (_ + _)%Z; [split; [exact I|discriminate]| |]; now apply round_low.
Qed.
Lemma low_of_bits x : x < two64 -> low (of_bits x).
Proof. intros H. pose proof (of_bits_canonical x H) as C. destruct (of_bits x); try exact I. cbn in *. lia. Qed.
Lemma fold_fadd_low l : forall a, Forall low l -> low a -> not_nz a -> low (fold_left fadd l a) /\ not_nz (fold_left fadd l a).
Proof.
  induction l as [|y l IH]; intros a F LA NA; cbn [fold_left]; [auto|]. inversion_clear F.
  destruct (fadd_low a y) as [LX NX]; auto.
Qed.
Lemma fadd_zero_l x : not_nz x -> fadd (S754_zero false) x = x.
Proof. unfold fadd. destruct x as [[]| | |]; cbn; try reflexivity. intros H. now destruct H. Qed.
