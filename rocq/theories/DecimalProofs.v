(** Proofs about decimals. *)
From Verif Require Import Base Xor F64 F64Proofs F64BitsProofs QuerySpec QueryProofs Buff BuffSpec DecimalSpec.
Local Open Scope Z_scope.

(** The neighbours of a finite number are f64s. *)
Lemma number_of z : canonical z -> is_u64 (to_bits z) /\ number (to_bits z) = scaled z.
Proof.
  intros C. pose proof (to_bits_bound z C) as B. split; [exact B|]. rewrite number_scaled by exact B. now rewrite of_to_bits.
Qed.
Lemma up_neighbour s p e : canonical (S754_finite s p e) -> e < 971 ->
  exists y, is_u64 y /\ number y = Some (signed s ((Zpos p + 1) * 2 ^ (e + 1074))).
Proof.
  intros C E. cbn [canonical] in C. destruct (Z.eq_dec (Zpos p + 1) (2 ^ 53)) as [T|T].
  - assert (K : canonical (S754_finite s (2 ^ 52) (e + 1))) by (cbn [canonical]; change (Zpos (2 ^ 52)) with (2 ^ 52); right; lia).
    destruct (number_of _ K) as [U V]. eexists. split; [exact U|]. rewrite V. cbn [scaled]. do 2 f_equal. rewrite T.
    replace (e + 1 + 1074) with (1 + (e + 1074)) by lia. rewrite Z.pow_add_r by lia. change (Zpos (2 ^ 52)) with (2 ^ 52). change (2 ^ 53) with (2 ^ 52 * 2 ^ 1). ring.
  - assert (K : canonical (S754_finite s (p + 1) e)) by (cbn [canonical]; lia).
    destruct (number_of _ K) as [U V]. eexists. split; [exact U|]. rewrite V. cbn [scaled]. do 2 f_equal.
Qed.
Lemma down_neighbour s p e : canonical (S754_finite s p e) ->
  exists y, is_u64 y /\ number y = Some (signed s ((Zpos p - 1) * 2 ^ (e + 1074))).
Proof.
  intros C. cbn [canonical] in C. destruct (Pos.eq_dec p 1) as [->|P1].
  - destruct (number_of (S754_zero false) I) as [U V]. eexists. split; [exact U|]. rewrite V. cbn [scaled]. f_equal. now destruct s.
  - assert (PS : Zpos (p - 1) = Zpos p - 1) by (apply Pos2Z.inj_sub; clear - P1; lia). destruct (Z.eq_dec (Zpos p) (2 ^ 52)) as [T|T]; [destruct (Z.eq_dec e (-1074)) as [E|E]|].
    + assert (K : canonical (S754_finite s (p - 1) e)) by (cbn [canonical]; rewrite PS; change (2 ^ 52) with 4503599627370496 in *; change (2 ^ 53) with 9007199254740992 in *; lia).
      destruct (number_of _ K) as [U V]. eexists. split; [exact U|]. rewrite V. cbn [scaled]. now rewrite PS.
    + assert (K : canonical (S754_finite s (2 * (p - 1)) (e - 1))) by (cbn [canonical]; right; rewrite Pos2Z.inj_mul, PS, T; change (2 ^ 53) with (2 * 2 ^ 52); change (2 ^ 52) with 4503599627370496; lia).
      destruct (number_of _ K) as [U V]. eexists. split; [exact U|]. rewrite V. cbn [scaled]. do 2 f_equal.
      assert (EE : 0 <= e - 1 + 1074) by (clear - C E; lia). replace (e + 1074) with (1 + (e - 1 + 1074)) by lia. rewrite (Z.pow_add_r 2 1) by (clear - EE; lia). rewrite Pos2Z.inj_mul, PS. ring.
    + assert (K : canonical (S754_finite s (p - 1) e)) by (cbn [canonical]; rewrite PS; change (2 ^ 52) with 4503599627370496 in *; change (2 ^ 53) with 9007199254740992 in *; lia).
      destruct (number_of _ K) as [U V]. eexists. split; [exact U|]. rewrite V. cbn [scaled]. now rewrite PS.
Qed.

(** Pure arithmetic: if a*q is at least as near to T as (a + u)*q and (a - u)*q then
    it is within half of u*q. *)
Lemma half_unit a u q T : 0 < u -> 0 < q -> Z.abs (a * q - T) <= Z.abs ((a + u) * q - T) ->
  Z.abs (a * q - T) <= Z.abs ((a - u) * q - T) -> 2 * Z.abs (a * q - T) <= u * q.
Proof. intros U Q. rewrite Z.mul_add_distr_r, Z.mul_sub_distr_r. assert (0 < u * q) by nia. generalize dependent (u * q). generalize (a * q). clear. intros. lia. Qed.

(** What a nearest f64 satisfies: it is a multiple of some power of two [u] and off
    by at most half of it, and [u] is small beside it. *)
Definition near (q T a : Z) : Prop := exists k, 0 <= k /\ (2 ^ k | a) /\ 2 * Z.abs (a * q - T) <= 2 ^ k * q /\ (k = 0 \/ 2 ^ 52 * 2 ^ k <= Z.abs a).

Lemma nearest_near d t x : (d <= 12)%N -> Z.abs t < 10 ^ 15 -> f64_of_decimal d t x ->
  exists a, number x = Some a /\ near (10 ^ Z.of_N d) (t * 2 ^ 1074) a.
Proof.
  intros D B (U & a & E & M). exists a. split; [exact E|].
  assert (Q : 1 <= 10 ^ Z.of_N d <= 10 ^ 12) by (split; [change 1 with (10 ^ 0)|]; apply Z.pow_le_mono_r; lia).
  set (q := 10 ^ Z.of_N d) in *. 
  assert (TB : Z.abs (t * 2 ^ 1074) < 2 ^ 1124).
  { rewrite Z.abs_mul, (Z.abs_eq (2 ^ 1074)) by (apply Z.pow_nonneg; lia). change 1124 with (50 + 1074). rewrite Z.pow_add_r by lia.
    assert (S : 0 < 2 ^ 1074) by (apply Z.pow_pos_nonneg; lia). generalize dependent (2 ^ 1074). intros. change (2 ^ 50) with 1125899906842624. change (10 ^ 15) with 1000000000000000 in B. nia. }
  generalize dependent (t * 2 ^ 1074). intros T M TB. clear t B.
  (* the numbers 0 and 1 (scaled) are candidates too *)
  assert (Z0 : Z.abs (a * q - T) <= Z.abs T).
  { destruct (number_of (S754_zero false) I) as [U0 V0]. specialize (M _ _ U0 V0). cbn in M. replace (0 - T) with (- T) in M by lia. now rewrite Z.abs_opp in M. }
  pose proof (of_bits_canonical x U) as C. rewrite (number_scaled x U) in E. destruct (of_bits x) as [s|s| |s p e].
  - injection E as <-. exists 0. rewrite Z.mul_0_l in *. split; [lia|]. split; [apply Z.divide_0_r|]. split; [|now left].
    assert (K1 : canonical (S754_finite false 1 (-1074))) by (cbn; lia). destruct (number_of _ K1) as [U1 V1].
    assert (K2 : canonical (S754_finite true 1 (-1074))) by (cbn; lia). destruct (number_of _ K2) as [U2 V2].
    cbn in V1, V2. pose proof (M _ _ U1 V1) as M1. pose proof (M _ _ U2 V2) as M2. clear - M1 M2 Q. change (2 ^ 0) with 1. lia.
  - exfalso. assert (A : Z.abs a = 2 ^ 2098) by (destruct s; injection E as <-; reflexivity). clear M E.
    assert (2 ^ 2098 <= Z.abs (a * q)) by (rewrite Z.abs_mul, A; nia).
    assert (2 * 2 ^ 1124 < 2 ^ 2098) by reflexivity. lia.
  - discriminate E.
  - cbn [scaled] in E. assert (EA : a = signed s (Zpos p * 2 ^ (e + 1074))) by congruence. clear E.
    assert (KE : 0 <= e + 1074) by (cbn in C; lia). assert (UP : 0 < 2 ^ (e + 1074)) by (apply Z.pow_pos_nonneg; lia).
    assert (E9 : e < 971).
    { destruct (Z_lt_ge_dec e 971) as [L|G]; [exact L|exfalso]. assert (PB : 2 ^ 52 <= Zpos p) by (cbn in C; lia).
      assert (P2 : 2 ^ 2045 <= 2 ^ (e + 1074)) by (apply Z.pow_le_mono_r; lia).
      assert (AB : 2 ^ 2045 <= Z.abs (a * q)). { rewrite Z.abs_mul. assert (Z.abs a = Zpos p * 2 ^ (e + 1074)) as -> by (subst a; destruct s; cbn [signed]; rewrite ?Z.abs_opp; apply Z.abs_eq; nia). clear - P2 PB Q UP. change (2 ^ 52) with 4503599627370496 in PB. rewrite (Z.abs_eq q) by lia. generalize dependent (2 ^ 2045). generalize dependent (2 ^ (e + 1074)). intros u UP w WU. assert (u <= Zpos p * u) by nia. assert (Zpos p * u <= Zpos p * u * q) by nia. lia. }
      clear - AB Z0 TB. assert (2 * 2 ^ 1124 < 2 ^ 2045) by reflexivity. lia. }
    destruct (up_neighbour s p e C E9) as (y1 & U1 & V1). destruct (down_neighbour s p e C) as (y2 & U2 & V2).
    pose proof (M _ _ U1 V1) as M1. pose proof (M _ _ U2 V2) as M2. exists (e + 1074). split; [exact KE|].
    split; [subst a; exists (signed s (Zpos p)); destruct s; cbn [signed]; ring|]. split.
    + clear M V1 V2 Z0 TB. subst a. generalize dependent (2 ^ (e + 1074)). intros u UP M2 M1. destruct s; cbn [signed] in *.
      * apply half_unit; [exact UP|lia| |].
        -- replace (- (Zpos p * u) + u) with (- ((Zpos p - 1) * u)) by ring. exact M2.
        -- replace (- (Zpos p * u) - u) with (- ((Zpos p + 1) * u)) by ring. exact M1.
      * apply half_unit; [exact UP|lia| |].
        -- replace (Zpos p * u + u) with ((Zpos p + 1) * u) by ring. exact M1.
        -- replace (Zpos p * u - u) with ((Zpos p - 1) * u) by ring. exact M2.
    + cbn [canonical] in C. destruct C as [[-> _]|[_ [C _]]]; [left; reflexivity|right].
      replace (Z.abs a) with (Zpos p * 2 ^ (e + 1074)) by (subst a; destruct s; cbn [signed]; rewrite ?Z.abs_opp; symmetry; apply Z.abs_eq; nia).
      apply Z.mul_le_mono_nonneg_r; lia.
Qed.

Lemma divide_gap m n : 0 < m -> forall z, (m | z) -> (m | n) -> Z.abs z < n -> Z.abs z <= n - m.
Proof. intros M z [i ->] [j ->]. rewrite Z.abs_mul, (Z.abs_eq m) by lia. intros. assert (Z.abs i < j) by nia. nia. Qed.
Lemma pow2_divide i j : 0 <= i <= j -> (2 ^ i | 2 ^ j).
Proof. intros H. exists (2 ^ (j - i)). rewrite <- Z.pow_add_r by lia. f_equal. lia. Qed.

(** The spacing of a nearest f64 is small when t has at most 15 digits. *)
Lemma spacing q t P k a : 1 <= q <= 10 ^ 12 -> 0 < P -> 2 ^ 50 <= P -> Z.abs t < 10 ^ 15 -> 0 <= k ->
  2 * Z.abs (a * q - t * P) <= 2 ^ k * q -> k = 0 \/ 2 ^ 52 * 2 ^ k <= Z.abs a -> 1000 * (2 ^ k * q) <= 223 * P.
Proof.
  intros Q PP P50 B K H [->|L].
  - change (2 ^ 0) with 1. change (2 ^ 50) with 1125899906842624 in P50. change (10 ^ 12) with 1000000000000 in Q. lia.
  - assert (UP : 0 < 2 ^ k) by (apply Z.pow_pos_nonneg; lia). generalize dependent (2 ^ k). intros u H L UP.
    assert (A : Z.abs a * q <= Z.abs t * P + Z.abs (a * q - t * P)).
    { replace (Z.abs a * q) with (Z.abs (a * q)) by (rewrite Z.abs_mul; lia). replace (Z.abs t * P) with (Z.abs (t * P)) by (rewrite Z.abs_mul; lia). lia. }
    assert (B1 : 2 ^ 52 * (u * q) <= Z.abs a * q) by nia. assert (B2 : Z.abs t * P <= 10 ^ 15 * P) by nia.
    change (2 ^ 52) with 4503599627370496 in B1. change (10 ^ 15) with 1000000000000000 in B2. lia.
Qed.

(** *** Truncation to the grid of step S, with an error below G *)
Lemma kept_below q t P k a b S G : 1 <= q <= 10 ^ 12 -> 2 ^ 50 <= P -> Z.abs t < 10 ^ 15 -> 0 <= k -> 2 * G * q <= P ->
  (2 ^ k | a) -> 2 * Z.abs (a * q - t * P) <= 2 ^ k * q -> (2 ^ k | S) -> (S | b) -> (2 ^ k | G) -> Z.abs (a - b) < G ->
  2 * Z.abs (b * q - t * P) < P.
Proof.
  intros Q PP B K GP DA H DS DB DG L. assert (UP : 0 < 2 ^ k) by (apply Z.pow_pos_nonneg; lia). 
  assert (D : (2 ^ k | a - b)) by (apply Z.divide_sub_r; [exact DA|exact (Z.divide_trans _ _ _ DS DB)]).
  pose proof (divide_gap (2 ^ k) G UP (a - b) D DG L) as W. clear DA DS DB DG D L.
  generalize dependent (2 ^ k). intros u UP H W.
  assert (E : Z.abs (b * q - t * P) <= Z.abs (a - b) * q + Z.abs (a * q - t * P)).
  { replace (Z.abs (a - b) * q) with (Z.abs ((a - b) * q)) by (rewrite Z.abs_mul; lia). rewrite Z.mul_sub_distr_r. lia. }
  assert (Z.abs (a - b) * q <= (G - u) * q) by nia. assert (0 < u * q) by nia. nia.
Qed.
Lemma kept_above q t P k a b S : 1 <= q <= 10 ^ 12 -> 2 ^ 50 <= P -> Z.abs t < 10 ^ 15 -> 0 <= k -> 0 < S ->
  (S | 2 ^ k) -> (2 ^ k | a) -> 2 * Z.abs (a * q - t * P) <= 2 ^ k * q -> k = 0 \/ 2 ^ 52 * 2 ^ k <= Z.abs a ->
  (S | b) -> Z.abs (a - b) < S -> b = a /\ 2 * Z.abs (b * q - t * P) < P.
Proof.
  intros Q PP B K SP DS DA H L DB AB. assert (P0 : 0 < P) by (apply Z.lt_le_trans with (2 ^ 50); [reflexivity|exact PP]).
  pose proof (spacing q t P k a Q P0 PP B K H L) as SPC.
  assert (D : (S | a - b)) by (apply Z.divide_sub_r; [exact (Z.divide_trans _ _ _ DS DA)|exact DB]).
  pose proof (divide_gap S S SP (a - b) D (Z.divide_refl _) AB). assert (b = a) as -> by lia. split; [reflexivity|].
  clear - H SPC P0. lia.
Qed.

Lemma step_split f : (f <= 50)%N -> 2 ^ 1074 = step f * 2 ^ Z.of_N f.
Proof. intros F. unfold step. rewrite <- Z.pow_add_r by lia. f_equal. lia. Qed.
Lemma step_pos' f : (f <= 50)%N -> 0 < step f.
Proof. intros F. apply Z.pow_pos_nonneg; lia. Qed.
Lemma step_le f g : (g <= f)%N -> (f <= 50)%N -> step g = step f * 2 ^ Z.of_N (f - g).
Proof. intros. unfold step. rewrite <- Z.pow_add_r by lia. f_equal. lia. Qed.

(** The table of digits and bits. *)
Lemma digits_12 d f : bits_of_digits d = Some f -> (d <= 12)%N.
Proof.
  intros E. assert (L : (N.to_nat d < 13)%nat).
  { apply (proj1 (nth_error_Some [0; 5; 8; 11; 15; 18; 21; 25; 28; 31; 35; 38; 50]%N (N.to_nat d))). unfold bits_of_digits in E. rewrite E. discriminate. }
  lia.
Qed.
Lemma digits_case (Q : N -> N -> bool) d f : bits_of_digits d = Some f ->
  forallb (fun k => match bits_of_digits k with Some g => Q k g | None => true end) [0;1;2;3;4;5;6;7;8;9;10;11;12]%N = true -> Q d f = true.
Proof.
  intros E H. rewrite forallb_forall in H. pose proof (digits_12 _ _ E) as L. specialize (H d).
  assert (I : In d [0;1;2;3;4;5;6;7;8;9;10;11;12]%N) by (cbn; lia). specialize (H I). now rewrite E in H.
Qed.
Lemma digits_50 d f : bits_of_digits d = Some f -> (f <= 50)%N.
Proof. intros E. apply N.leb_le. apply (digits_case (fun _ f => (f <=? 50)%N) d f E). reflexivity. Qed.
Lemma digits_room d f : bits_of_digits d = Some f -> 10 ^ 15 * 2 ^ Z.of_N f + 2 ^ Z.of_N f < 2 ^ 62 * 10 ^ Z.of_N d.
Proof. intros E. apply Z.ltb_lt. apply (digits_case (fun d f => (10 ^ 15 * 2 ^ Z.of_N f + 2 ^ Z.of_N f <? 2 ^ 62 * 10 ^ Z.of_N d)%Z) d f E). reflexivity. Qed.
Lemma digits_q d f : bits_of_digits d = Some f -> 1 <= 10 ^ Z.of_N d <= 10 ^ 12.
Proof. intros E. apply digits_12 in E. split; [change 1 with (10 ^ 0)|]; apply Z.pow_le_mono_r; lia. Qed.

(** A decimal of 15 digits is in range of its fixed-point format. *)
Lemma decimal_size d f t x : bits_of_digits d = Some f -> Z.abs t < 10 ^ 15 -> f64_of_decimal d t x ->
  exists a, number x = Some a /\ Z.abs a < 2 ^ 62 * step f.
Proof.
  intros E B N. pose proof (digits_12 _ _ E) as D. pose proof (digits_50 _ _ E) as F. pose proof (digits_room _ _ E) as RM. pose proof (digits_q _ _ E) as Q.
  destruct (nearest_near d t x D B N) as (a & EA & k & K & _ & H & L). exists a. split; [exact EA|]. clear EA N.
  set (q := 10 ^ Z.of_N d) in *. assert (P50 : 2 ^ 50 <= 2 ^ 1074) by (apply Z.pow_le_mono_r; lia).
  assert (P0 : 0 < 2 ^ 1074) by (apply Z.pow_pos_nonneg; lia).
  pose proof (spacing q t _ k a Q P0 P50 B K H L) as SPC. rewrite (step_split f F) in *. pose proof (step_pos' f F) as S0.
  assert (W0 : 0 < 2 ^ Z.of_N f) by (apply Z.pow_pos_nonneg; lia). clear L P50 K E D F. 
  generalize dependent (step f). generalize dependent (2 ^ Z.of_N f). generalize dependent (2 ^ k). intros u W RM W0 S P0 H SPC S0.
  change (10 ^ 15) with 1000000000000000 in *. change (2 ^ 62) with 4611686018427387904 in *.
  assert (A : Z.abs a * q <= Z.abs t * (S * W) + Z.abs (a * q - t * (S * W))).
  { replace (Z.abs a * q) with (Z.abs (a * q)) by (rewrite Z.abs_mul; lia). replace (Z.abs t * (S * W)) with (Z.abs (t * (S * W))) by (rewrite Z.abs_mul; lia). lia. }
  assert (A2 : Z.abs t * (S * W) <= 1000000000000000 * (S * W)) by nia.
  assert (A3 : Z.abs a * q < (1000000000000000 * W + W) * S) by nia.
  assert (A4 : (1000000000000000 * W + W) * S < 4611686018427387904 * q * S) by nia.
  clear - A3 A4 Q S0. nia.
Qed.
