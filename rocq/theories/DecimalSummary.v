(** Corollaries about decimals in BUFF chunks, and samples. *)
From Verif Require Import Base Xor F64 F64Proofs F64BitsProofs Format FormatSpec File FileSpec Query QuerySpec QueryProofs SprintzProofs Buff BuffFixedProofs BuffSpec BuffFloatProofs
  BuffQueryProofs BuffSummary DecimalSpec DecimalProofs DecimalFloatProofs.
Local Open Scope Z_scope.

Lemma big : 2 ^ 50 <= 2 ^ 1074. Proof. apply Z.pow_le_mono_r; lia. Qed.

Lemma decimal_range d f t x : bits_of_digits d = Some f -> Z.abs t < 10 ^ 15 -> f64_of_decimal d t x -> in_range f x.
Proof.
  intros E B N. destruct (decimal_size d f t x E B N) as (a & EA & L). exists a. split; [exact EA|].
  pose proof (step_pos' f (digits_50 _ _ E)). change (2 ^ 63) with (2 * 2 ^ 62). lia.
Qed.
Lemma decimal_fixed d f t x v : bits_of_digits d = Some f -> Z.abs t < 10 ^ 15 -> f64_of_decimal d t x -> fixed_point f x v -> Z.abs v < 2 ^ 62.
Proof.
  intros E B N (a & EA & V & _). destruct (decimal_size d f t x E B N) as (a' & EA' & L). rewrite EA in EA'. injection EA' as <-.
  pose proof (step_pos' f (digits_50 _ _ E)). nia.
Qed.
Lemma decimals_storable dbg d f ts xs : bits_of_digits d = Some f -> Forall (fun t => Z.abs t < 10 ^ 15) ts -> Forall2 (f64_of_decimal d) ts xs ->
  xs <> [] -> (N.of_nat (length xs) < 2 ^ 32)%N -> buff_storable dbg f xs.
Proof.
  intros E B FA NE L. assert (H : forall x, In x xs -> exists t, Z.abs t < 10 ^ 15 /\ f64_of_decimal d t x).
  { clear NE L. induction FA as [|t x ts xs H FA IH]; [intros x []|]. inversion B; subst. intros y [<-|I]; [eauto|auto]. }
  split; [exact NE|]. split; [exact L|]. split; [|split].
  - apply Forall_forall. intros x I. destruct (H x I) as (t & _ & U & _). exact U.
  - apply Forall_forall. intros x I. destruct (H x I) as (t & T & N). exact (decimal_range d f t x E T N).
  - intros _ x y v w IX IY VX VY. destruct (H x IX) as (t & T & N). destruct (H y IY) as (t' & T' & N').
    pose proof (decimal_fixed d f t x v E T N VX). pose proof (decimal_fixed d f t' y w E T' N' VY). change (2 ^ 63) with (2 * 2 ^ 62). lia.
Qed.

(** One record at full precision. *)
Lemma integer_exact t x : Z.abs t < 10 ^ 15 -> f64_of_decimal 0 t x -> number x = Some (t * 2 ^ 1074).
Proof.
  intros B (U & a & EA & M). assert (I : i64 t) by (unfold i64; rewrite two63; change (10 ^ 15) with 1000000000000000 in B; lia).
  assert (SH : short t) by (apply small_short; change (2 ^ 53) with 9007199254740992; change (10 ^ 15) with 1000000000000000 in B; lia).
  pose proof (shown_number 0 t ltac:(lia) I SH) as V. change (step 0) with (2 ^ 1074) in V.
  specialize (M _ _ (shown_u64 0 t ltac:(lia) I) V). change (10 ^ Z.of_N 0) with 1 in M. rewrite EA. f_equal. generalize dependent (2 ^ 1074). intros. lia.
Qed.
Lemma fixed_distance f a v : 0 < step f -> Z.abs v * step f <= Z.abs a < (Z.abs v + 1) * step f -> 0 <= v * a ->
  (0 <= a /\ v * step f <= a < (v + 1) * step f) \/ (a < 0 /\ (v - 1) * step f < a <= v * step f).
Proof.
  intros S B G. destruct (Z_lt_le_dec a 0) as [A|A]; [right|left]; (split; [exact A|]).
  - assert (v <= 0) by nia. rewrite (Z.abs_neq a), (Z.abs_neq v) in B by lia. nia.
  - assert (V : 0 <= v \/ a = 0) by nia. rewrite (Z.abs_eq a) in B by lia. destruct V as [V|V]; [rewrite (Z.abs_eq v) in B by lia; lia|]. assert (v = 0) by nia. subst. lia.
Qed.
Lemma decimal_kept d f t x v : bits_of_digits d = Some f -> Z.abs t < 10 ^ 15 -> f64_of_decimal d t x -> fixed_point f x v ->
  2 * Z.abs (v * step f * 10 ^ Z.of_N d - t * 2 ^ 1074) < 2 ^ 1074.
Proof.
  intros E B N (a & EA & V & SG). pose proof (digits_50 _ _ E) as F. pose proof (step_pos' f F) as S0. destruct (N.eq_dec d 0) as [->|D0].
  - injection E as <-. rewrite (integer_exact t x B N) in EA. assert (EA1 : a = t * 2 ^ 1074) by congruence. clear EA. subst a. change (step 0) with (2 ^ 1074) in *. change (10 ^ Z.of_N 0) with 1.
    assert (P0 : 0 < 2 ^ 1074) by (apply Z.pow_pos_nonneg; lia). clear N F S0. revert V SG P0. generalize (2 ^ 1074). intros P V SG P0. assert (Z.abs v = Z.abs t) by (rewrite Z.abs_mul, (Z.abs_eq P) in V by lia; nia).
    assert (v = t) by nia. subst. rewrite Z.mul_1_r, Z.sub_diag. lia.
  - destruct (nearest_near d t x (digits_12 _ _ E) B N) as (a' & EA' & k & K & DA & H & L). rewrite EA in EA'. injection EA' as <-.
    assert (AB : Z.abs (a - v * step f) < step f) by (destruct (fixed_distance f a v S0 V SG); lia).
    destruct (Z_le_gt_dec k (1074 - Z.of_N f)) as [KS|KS].
    + apply (kept_below _ t _ k a (v * step f) (step f) (step f)); auto.
      * exact (digits_q _ _ E).
      * exact big.
      * apply (c16_decimal d f E). lia.
      * apply pow2_divide. lia.
      * apply Z.divide_factor_r.
      * apply pow2_divide. lia.
    + apply (kept_above _ t _ k a (v * step f) (step f)); auto.
      * exact (digits_q _ _ E).
      * exact big.
      * apply pow2_divide. lia.
      * apply Z.divide_factor_r.
Qed.
(** One record with fewer bits: it has at most [k] decimal digits and its
    fixed-point integer at most 52 bits. *)
Lemma decimal_kept_reduced k g f t x v w : bits_of_digits k = Some g -> (0 < k)%N -> (g <= f <= 50)%N -> Z.abs t < 10 ^ 15 ->
  Z.abs t * 2 ^ Z.of_N f <= 2 ^ 52 * 10 ^ Z.of_N k -> f64_of_decimal k t x -> fixed_point f x v -> w <= v < w + 2 ^ Z.of_N (f - g) ->
  Z.abs w <= 2 ^ 53 /\ 2 * Z.abs (w * step f * 10 ^ Z.of_N k - t * 2 ^ 1074) < 2 ^ 1074.
Proof.
  intros E K0 [GF F] B TB N (a & EA & V & SG) W. pose proof (step_pos' f F) as S0. pose proof (digits_q _ _ E) as Q.
  destruct (nearest_near k t x (digits_12 _ _ E) B N) as (a' & EA' & j & J & DA & H & L). rewrite EA in EA'. injection EA' as <-. clear EA N.
  assert (A : 2 * (Z.abs a * 10 ^ Z.of_N k) <= 2 * (2 ^ 52 * 10 ^ Z.of_N k * step f) + 2 ^ j * 10 ^ Z.of_N k).
  { rewrite (step_split f F) in H. set (q := 10 ^ Z.of_N k) in *. clearbody q. assert (P0 : 0 <= 2 ^ Z.of_N f) by (apply Z.pow_nonneg; lia). generalize dependent (2 ^ Z.of_N f). intros P TB H P0.
    assert (Z.abs a * q <= Z.abs (t * (step f * P)) + Z.abs (a * q - t * (step f * P))).
    { replace (Z.abs a * q) with (Z.abs (a * q)) by (rewrite Z.abs_mul; lia). lia. }
    assert (Z.abs (t * (step f * P)) <= 2 ^ 52 * q * step f).
    { rewrite !Z.abs_mul, (Z.abs_eq P), (Z.abs_eq (step f)) by lia. replace (Z.abs t * (step f * P)) with (Z.abs t * P * step f) by ring. apply Z.mul_le_mono_nonneg_r; lia. }
    lia. }
  assert (JS : j <= 1074 - Z.of_N f).
  { destruct L as [->|L]; [lia|]. destruct (Z_le_gt_dec j (1074 - Z.of_N f)) as [J'|J']; [exact J'|exfalso].
    assert (U2 : 2 * step f <= 2 ^ j) by (unfold step; rewrite <- (Z.pow_succ_r 2) by lia; apply Z.pow_le_mono_r; lia).
    clear - A L U2 S0 Q. generalize dependent (2 ^ j). intros u A L U2. set (q := 10 ^ Z.of_N k) in *. clearbody q. change (2 ^ 52) with 4503599627370496 in *.
    assert (M1 : 4503599627370496 * u * q <= Z.abs a * q) by (apply Z.mul_le_mono_nonneg_r; lia).
    assert (M2 : 2 * step f * q <= u * q) by (apply Z.mul_le_mono_nonneg_r; lia).
    assert (M3 : 0 < step f * q) by (apply Z.mul_pos_pos; lia). lia. }
  assert (US : 2 ^ j <= step f) by (apply Z.pow_le_mono_r; lia).
  assert (AV : Z.abs v <= 2 ^ 52).
  { clear - A US V S0 Q. generalize dependent (2 ^ j). intros u A US. set (q := 10 ^ Z.of_N k) in *. clearbody q. change (2 ^ 52) with 4503599627370496 in *.
    assert (M1 : u * q <= step f * q) by (apply Z.mul_le_mono_nonneg_r; lia).
    assert (M2 : Z.abs v * step f * q <= Z.abs a * q) by (apply Z.mul_le_mono_nonneg_r; lia).
    assert (M3 : 2 * (Z.abs v * (step f * q)) <= (2 * 4503599627370496 + 1) * (step f * q)) by lia.
    assert (M4 : 0 < step f * q) by (apply Z.mul_pos_pos; lia). nia. }
  assert (R50 : 0 < 2 ^ Z.of_N (f - g) <= 2 ^ 50) by (split; [apply Z.pow_pos_nonneg; lia|apply Z.pow_le_mono_r; lia]).
  split; [change (2 ^ 53) with 9007199254740992; change (2 ^ 52) with 4503599627370496 in *; change (2 ^ 50) with 1125899906842624 in *; lia|].
  apply (kept_below _ t _ j a (w * step f) (step f) (step g)); auto.
  - exact big.
  - apply (c16_decimal k g E). lia.
  - apply pow2_divide. lia.
  - apply Z.divide_factor_r.
  - apply pow2_divide. lia.
  - rewrite (step_le f g GF F). generalize dependent (2 ^ Z.of_N (f - g)). intros R W [R0 _]. clear - V SG W R0 S0.
    destruct (fixed_distance f a v S0 V SG) as [[_ D]|[_ D]]; generalize dependent (step f); intros S S0 V D; nia.
Qed.

(** *** Chunks *)
Lemma Forall2_pair {A B} (P : A -> Prop) (Q : A -> B -> Prop) l m : Forall P l -> Forall2 Q l m -> Forall2 (fun a b => P a /\ Q a b) l m.
Proof. intros H FA. induction FA; constructor; inversion H; auto. Qed.
Lemma Forall2_comp {A B C} (P : A -> B -> Prop) (Q : B -> C -> Prop) (R : A -> C -> Prop) l m n :
  (forall a b c, P a b -> Q b c -> R a c) -> Forall2 P l m -> Forall2 Q m n -> Forall2 R l n.
Proof. intros H FA. revert n. induction FA; intros n FB; inversion FB; subst; constructor; eauto. Qed.

Lemma c62 dbg lg scale f ts xs bytes : bits_of_digits (digits_of lg scale) = Some f -> Forall (fun t => Z.abs t < 10 ^ 15) ts ->
  Forall2 (f64_of_decimal (digits_of lg scale)) ts xs -> xs <> [] -> (N.of_nat (length xs) < 2 ^ 32)%N ->
  buff_chunk dbg lg scale xs bytes ->
  exists ys, fst (bf_decompress dbg (buff_reader xs bytes)) = Ok ys /\ Forall2 (rounds_to (digits_of lg scale)) ts ys.
Proof.
  intros E B FA NE L CK. pose proof (decimals_storable dbg _ f ts xs E B FA NE L) as OK.
  destruct (c15 dbg lg scale f xs bytes E OK CK) as (ys & EY & FY). exists ys. split; [exact EY|].
  refine (Forall2_comp _ _ _ _ _ _ _ (Forall2_pair _ _ _ _ B FA) FY). intros t x y [T N] (v & V & _ & NY). exists (v * step f). split; [exact NY|].
  exact (decimal_kept _ f t x v E T N V).
Qed.
Lemma c62_stored dbg lg scale f ts xs : bits_of_digits (digits_of lg scale) = Some f -> Forall (fun t => Z.abs t < 10 ^ 15) ts ->
  Forall2 (f64_of_decimal (digits_of lg scale)) ts xs -> xs <> [] -> (N.of_nat (length xs) < 2 ^ 32)%N ->
  exists bytes, buff_chunk dbg lg scale xs bytes.
Proof. intros E B FA NE L. exact (c15_written dbg lg scale f xs E (decimals_storable dbg _ f ts xs E B FA NE L)). Qed.

Lemma c63 dbg lg scale f k g ts xs bytes : bits_of_digits (digits_of lg scale) = Some f -> bits_of_digits k = Some g ->
  (0 < k)%N -> (k <= digits_of lg scale)%N -> Forall (fun t => Z.abs t < 10 ^ 15 /\ Z.abs t * 2 ^ Z.of_N f <= 2 ^ 52 * 10 ^ Z.of_N k) ts ->
  Forall2 (f64_of_decimal k) ts xs -> buff_storable dbg f xs -> buff_chunk dbg lg scale xs bytes ->
  exists ys, fst (bf_decompress dbg (bf_with_precision k (buff_reader xs bytes))) = Ok ys /\ Forall2 (rounds_to k) ts ys.
Proof.
  intros E EK K0 KD B FA OK CK. destruct (c17 dbg lg scale f xs bytes E OK CK k g EK) as (ys & EY & FY). exists ys. split; [exact EY|].
  assert (GF : (g <= f <= 50)%N).
  { split; [|exact (digits_50 _ _ E)]. apply N.leb_le. generalize dependent (digits_of lg scale). clear - EK. intros d E KD.
    assert (X : forallb (fun d => match bits_of_digits d with Some f => forallb (fun k => match bits_of_digits k with Some g => implb (k <=? d)%N (g <=? f)%N | None => true end) [0;1;2;3;4;5;6;7;8;9;10;11;12]%N | None => true end) [0;1;2;3;4;5;6;7;8;9;10;11;12]%N = true) by reflexivity.
    pose proof (digits_case (fun d f => forallb (fun k => match bits_of_digits k with Some g => implb (k <=? d)%N (g <=? f)%N | None => true end) [0;1;2;3;4;5;6;7;8;9;10;11;12]%N) d f E X) as Y.
    pose proof (digits_case (fun k g => implb (k <=? d)%N (g <=? f)%N) k g EK Y) as Z. cbv beta in Z. apply N.leb_le in KD. now rewrite KD in Z. }
  refine (Forall2_comp _ _ _ _ _ _ _ (Forall2_pair _ _ _ _ B FA) FY). intros t x y [[T1 T2] N] (v & w & V & _ & W & NY).
  destruct (decimal_kept_reduced k g f t x v w EK K0 GF T1 T2 N V W) as [W53 R]. exists (w * step f). split; [exact (NY W53)|exact R].
Qed.

(** *** Samples *)
(** 3.2 and -0.7. *)
Definition sample_decimals : list Z := [32; -7].
Definition sample_f64s : list N := [0x400999999999999a; 0xbfe6666666666666]%N.
Lemma sample_nearest : Forall2 (f64_of_decimal 1) sample_decimals sample_f64s.
Proof.
  apply Forall2_cons; [|apply Forall2_cons; [|constructor]].
  - assert (E : to_bits (fdiv (of_Z 32) (of_Z (10 ^ Z.of_N 1))) = 0x400999999999999a%N) by (vm_compute; reflexivity). rewrite <- E. apply nearest_quotient; [lia|discriminate].
  - assert (E : to_bits (fdiv (of_Z (-7)) (of_Z (10 ^ Z.of_N 1))) = 0xbfe6666666666666%N) by (vm_compute; reflexivity). rewrite <- E. apply nearest_quotient; [lia|discriminate].
Qed.
Lemma c62_sample : Forall2 (f64_of_decimal 1) sample_decimals sample_f64s /\
  on_buff_chunk true sample_f64s (fun r => fst (bf_decompress true r)) = Some (Ok (map (fixed_value 5) [102; -22])).
Proof. split; [exact sample_nearest|vm_compute; reflexivity]. Qed.
(** Scale 100 (two digits, 8 bits), read with one digit (5 bits). *)
Definition on_scale_100 {A} (xs : list N) (q : buffreader -> A) : option A :=
  match bf_compress true (fun _ => 2)%N 100 bf_new xs with Ok c => Some (q (buff_reader xs (bf_buffers c))) | _ => None end.
Lemma c63_sample : Forall2 (f64_of_decimal 1) sample_decimals sample_f64s /\
  Forall (fun t => Z.abs t < 10 ^ 15 /\ Z.abs t * 2 ^ 8 <= 2 ^ 52 * 10 ^ 1) sample_decimals /\
  on_scale_100 sample_f64s (fun r => fst (bf_decompress true (bf_with_precision 1 r))) = Some (Ok (map (fixed_value 8) [817; -179])).
Proof. split; [exact sample_nearest|]. split; [apply Forall_cons; [split; [reflexivity|discriminate]|apply Forall_cons; [split; [reflexivity|discriminate]|apply Forall_nil]]|vm_compute; reflexivity]. Qed.

(** *** Refutations *)
(** Precision 0: the integer 200 beside 1/32 is returned as 199 + 1/32, which rounds
    to 199. *)
Lemma c63_integers_refuted : exists xs ys y,
  on_buff_chunk true xs (fun r => fst (bf_decompress true (bf_with_precision 0 r))) = Some (Ok ys) /\
  (exists x, nth_error xs 1 = Some x /\ f64_of_decimal 0 200 x) /\ nth_error ys 1 = Some y /\ rounds_to 0 199 y.
Proof.
  exists (map (fixed_value 5) [1; 6400]), (map (fixed_value 5) [1; 6369]), (fixed_value 5 6369). split; [vm_compute; reflexivity|]. split.
  - exists 0x4069000000000000%N. split; [vm_compute; reflexivity|].
    assert (E : to_bits (fdiv (of_Z 200) (of_Z (10 ^ Z.of_N 0))) = 0x4069000000000000%N) by (vm_compute; reflexivity). rewrite <- E. apply nearest_quotient; [lia|discriminate].
  - split; [reflexivity|]. eexists. split; [vm_compute; reflexivity|]. reflexivity.
Qed.
(** More digits than asked for: 65/256 = 0.2539 (0.3 to one digit) read with one digit of
    precision is returned as 58/256 = 0.2265 (0.2 to one digit). *)
Lemma c63_digits_refuted : exists xs ys x y,
  on_scale_100 xs (fun r => fst (bf_decompress true (bf_with_precision 1 r))) = Some (Ok ys) /\
  nth_error xs 1 = Some x /\ nth_error ys 1 = Some y /\ rounds_to 1 3 x /\ rounds_to 1 2 y.
Proof.
  exists (map (fixed_value 8) [2; 65; 1026]), (map (fixed_value 8) [2; 58; 1026]), (fixed_value 8 65), (fixed_value 8 58).
  split; [vm_compute; reflexivity|]. split; [reflexivity|]. split; [reflexivity|]. split; (eexists; split; [vm_compute; reflexivity|reflexivity]).
Qed.
