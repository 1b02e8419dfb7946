From Verif Require Import Base WordProofs F64.

(** ** Comparison is comparison of numbers *)

(** A float with the exponent IEEE 754 prescribes for its mantissa. *)
Definition canonical (x : f64) : Prop :=
  match x with
  | S754_finite _ p e =>
      (e = -1074 /\ Zpos p < 2 ^ 52 \/ -1074 <= e <= 971 /\ 2 ^ 52 <= Zpos p < 2 ^ 53)%Z
  | _ => True
  end.
Definition signed (s : bool) (z : Z) : Z := if s then (- z)%Z else z.
Definition scaled (x : f64) : option Z :=
  match x with
  | S754_zero _ => Some 0%Z
  | S754_infinity s => Some (signed s (2 ^ 2098))
  | S754_nan => None
  | S754_finite s p e => Some (signed s (Zpos p * 2 ^ (e + 1074)))
  end.

Lemma lex_less p1 e1 p2 e2 : canonical (S754_finite false p1 e1) -> canonical (S754_finite false p2 e2) ->
  (e1 < e2)%Z -> (Zpos p1 * 2 ^ (e1 + 1074) < Zpos p2 * 2 ^ (e2 + 1074))%Z.
Proof.
  cbn [canonical]. intros C1 C2 H.
  assert (P1 : (Zpos p1 < 2 ^ 53)%Z) by (change (2 ^ 53)%Z with 9007199254740992%Z in *; change (2 ^ 52)%Z with 4503599627370496%Z in *; lia).
  assert (P2 : (2 ^ 52 <= Zpos p2)%Z) by lia.
  assert (E1 : (0 <= e1 + 1074)%Z) by lia.
  assert (K : (2 ^ (e2 + 1074) = 2 ^ (e1 + 1074) * 2 ^ (e2 - e1))%Z).
  { rewrite <- Z.pow_add_r by lia. f_equal. lia. }
  assert (K2 : (2 <= 2 ^ (e2 - e1))%Z).
  { change 2%Z with (2 ^ 1)%Z at 1. apply Z.pow_le_mono_r; lia. }
  pose proof (Z.pow_pos_nonneg 2 (e1 + 1074) ltac:(lia) E1).
  rewrite K. set (a := (2 ^ (e1 + 1074))%Z) in *. set (b := (2 ^ (e2 - e1))%Z) in *. clearbody a b.
  change (2 ^ 53)%Z with 9007199254740992%Z in *; change (2 ^ 52)%Z with 4503599627370496%Z in *. nia.
Qed.
Lemma mag_pos p e : (-1074 <= e)%Z -> (0 < Zpos p * 2 ^ (e + 1074))%Z.
Proof. intros H. apply Z.mul_pos_pos; [lia|]. apply Z.pow_pos_nonneg; lia. Qed.
Lemma mag_inf p e : canonical (S754_finite false p e) -> (Zpos p * 2 ^ (e + 1074) < 2 ^ 2098)%Z.
Proof.
  cbn [canonical]. intros C.
  assert (P1 : (Zpos p < 2 ^ 53)%Z) by (change (2 ^ 53)%Z with 9007199254740992%Z in *; change (2 ^ 52)%Z with 4503599627370496%Z in *; lia).
  assert (E : (0 <= e + 1074 <= 2045)%Z) by lia.
  replace 2098%Z with (53 + 2045)%Z by lia. rewrite (Z.pow_add_r 2 53 2045) by lia.
  pose proof (Z.pow_le_mono_r 2 (e + 1074) 2045 ltac:(lia) (proj2 E)).
  pose proof (Z.pow_pos_nonneg 2 (e + 1074) ltac:(lia) (proj1 E)).
  set (a := (2 ^ (e + 1074))%Z) in *. set (b := (2 ^ 2045)%Z) in *. clearbody a b.
  apply Z.lt_le_trans with (2 ^ 53 * a)%Z.
  - now apply Z.mul_lt_mono_pos_r.
  - apply Z.mul_le_mono_nonneg_l; [lia|assumption].
Qed.
Lemma canonical_abs s p e : canonical (S754_finite s p e) -> canonical (S754_finite false p e).
Proof. exact (fun H => H). Qed.
Lemma canonical_exp s p e : canonical (S754_finite s p e) -> (-1074 <= e)%Z.
Proof. cbn. lia. Qed.
Lemma mag_compare p1 e1 p2 e2 : canonical (S754_finite false p1 e1) -> canonical (S754_finite false p2 e2) ->
  (Zpos p1 * 2 ^ (e1 + 1074) ?= Zpos p2 * 2 ^ (e2 + 1074))%Z =
  match Z.compare e1 e2 with Eq => Pos.compare_cont Eq p1 p2 | c => c end.
Proof.
  intros C1 C2. destruct (Z.compare_spec e1 e2) as [E|L|L].
  - subst e2. apply canonical_exp in C1.
    change (Pos.compare_cont Eq p1 p2) with (Z.compare (Zpos p1) (Zpos p2)).
    rewrite (Z.mul_comm (Zpos p1)), (Z.mul_comm (Zpos p2)). symmetry. apply Zmult_compare_compat_l.
    apply Z.lt_gt. apply Z.pow_pos_nonneg; lia.
  - apply Z.compare_lt_iff. now apply lex_less.
  - apply Z.compare_gt_iff. now apply lex_less.
Qed.

Lemma some_eq {A} (x y : A) : Some x = Some y -> y = x.
Proof. congruence. Qed.
Lemma compare_scaled a b za zb : canonical a -> canonical b -> scaled a = Some za -> scaled b = Some zb ->
  SFcompare a b = Some (za ?= zb)%Z.
Proof.
  assert (IP : (0 < 2 ^ 2098)%Z) by (apply Z.pow_pos_nonneg; lia).
  assert (TR : forall x y : Z, ((x < y)%Z -> (x ?= y)%Z = Lt) /\ ((y < x)%Z -> (x ?= y)%Z = Gt) /\ (x = y -> (x ?= y)%Z = Eq)).
  { intros x y. split; [apply Z.compare_lt_iff|]. split; [apply Z.compare_gt_iff|]. apply Z.compare_eq_iff. }
  intros CA CB EA EB.
  destruct a as [sa|sa| |sa pa ea]; try discriminate EA; cbn [scaled] in EA; apply some_eq in EA; subst za;
    destruct b as [sb|sb| |sb pb eb]; try discriminate EB; cbn [scaled] in EB; apply some_eq in EB; subst zb; cbn [SFcompare].
  all: try (pose proof (mag_pos pa ea (canonical_exp _ _ _ CA)); pose proof (mag_inf pa ea CA)).
  all: try (pose proof (mag_pos pb eb (canonical_exp _ _ _ CB)); pose proof (mag_inf pb eb CB)).
  9: { pose proof (mag_compare pa ea pb eb CA CB) as MC.
       set (ma := (Zpos pa * 2 ^ (ea + 1074))%Z) in *. set (mb := (Zpos pb * 2 ^ (eb + 1074))%Z) in *.
       clearbody ma mb. unfold signed. destruct sa, sb.
       - rewrite Z.compare_opp, (Z.compare_antisym ma mb), MC. now destruct (Z.compare ea eb).
       - f_equal. symmetry. apply TR. lia.
       - f_equal. symmetry. apply TR. lia.
       - rewrite MC. now destruct (Z.compare ea eb). }
  all: repeat match goal with |- context [(Zpos ?p * 2 ^ (?e + 1074))%Z] =>
    set ((Zpos p * 2 ^ (e + 1074))%Z) in *; clearbody z || idtac end.
  all: try (set (inf := (2 ^ 2098)%Z) in *; clearbody inf).
  all: unfold signed; repeat match goal with s : bool |- _ => destruct s end; try reflexivity;
    f_equal; symmetry; apply TR; lia.
Qed.
Lemma scaled_none x : scaled x = None <-> is_nan x = true.
Proof. destruct x; cbn; split; congruence. Qed.
Lemma compare_nan a b : scaled a = None \/ scaled b = None -> SFcompare a b = None.
Proof. destruct a, b; cbn; intros [H|H]; congruence. Qed.

Lemma feq_scaled a b : canonical a -> canonical b ->
  feq a b = match scaled a, scaled b with Some x, Some y => (x =? y)%Z | _, _ => false end.
Proof.
  intros CA CB. unfold feq, SFeqb. destruct (scaled a) as [za|] eqn:EA, (scaled b) as [zb|] eqn:EB;
    try (rewrite compare_nan by auto; reflexivity).
  rewrite (compare_scaled a b za zb) by auto. rewrite Z.eqb_compare. now destruct (za ?= zb)%Z.
Qed.
Lemma flt_scaled a b : canonical a -> canonical b ->
  flt a b = match scaled a, scaled b with Some x, Some y => (x <? y)%Z | _, _ => false end.
Proof.
  intros CA CB. unfold flt, SFltb. destruct (scaled a) as [za|] eqn:EA, (scaled b) as [zb|] eqn:EB;
    try (rewrite compare_nan by auto; reflexivity).
  rewrite (compare_scaled a b za zb) by auto. rewrite Z.ltb_compare. now destruct (za ?= zb)%Z.
Qed.
Lemma fle_scaled a b : canonical a -> canonical b ->
  fle a b = match scaled a, scaled b with Some x, Some y => (x <=? y)%Z | _, _ => false end.
Proof.
  intros CA CB. unfold fle, SFleb. destruct (scaled a) as [za|] eqn:EA, (scaled b) as [zb|] eqn:EB;
    try (rewrite compare_nan by auto; reflexivity).
  rewrite (compare_scaled a b za zb) by auto. rewrite Z.leb_compare. now destruct (za ?= zb)%Z.
Qed.

(** ** Bit patterns *)
Lemma bits_fields x : x < two64 ->
  N.land (N.shiftr x 52) 2047 = (x / 2 ^ 52) mod 2 ^ 11 /\
  N.land x 4503599627370495 = x mod 2 ^ 52 /\
  N.testbit x 63 = negb (x / 2 ^ 63 =? 0).
Proof.
  intros H. split; [|split].
  - rewrite N.shiftr_div_pow2. change 2047 with (N.ones 11). apply N.land_ones.
  - change 4503599627370495 with (N.ones 52). apply N.land_ones.
  - rewrite N.testbit_eqb. assert (x / 2 ^ 63 < 2).
    { apply N.div_lt_upper_bound; [discriminate|]. exact H. }
    set (q := x / 2 ^ 63) in *. clearbody q.
    assert (q = 0 \/ q = 1) as [->| ->] by lia; reflexivity.
Qed.
Lemma of_bits_canonical x : x < two64 -> canonical (of_bits x).
Proof.
  intros H. unfold of_bits. destruct (bits_fields x H) as (EE&EM&_). rewrite EE, EM.
  assert (e_lt : (x / 2 ^ 52) mod 2 ^ 11 < 2048) by (apply N.mod_lt; discriminate).
  assert (m_lt : x mod 2 ^ 52 < 4503599627370496) by (apply N.mod_lt; discriminate).
  set (e := (x / 2 ^ 52) mod 2 ^ 11) in *. set (f := x mod 2 ^ 52) in *. clearbody e f.
  change (2 ^ 52)%Z with 4503599627370496%Z. change (2 ^ 53)%Z with 9007199254740992%Z.
  destruct (N.eqb_spec e 0); [destruct f; cbn; [exact I|lia]|].
  destruct (N.eqb_spec e 2047); [destruct f; exact I|].
  destruct (f + 4503599627370496) eqn:EF; [exact I|]. cbn. lia.
Qed.
