(** Rust's [f64]: bit patterns and arithmetic.

    Arithmetic and comparison are those of [Coq.Floats.SpecFloat] (standard
    library) at precision 53, exponent 1024, i.e. IEEE 754 binary64 with
    rounding to nearest even; a NaN produced by an operation is given the
    pattern of [f64::NAN].  What Rust adds on top (casts, [floor], [ceil],
    [round], decimal literals) is defined here. *)
From Coq Require Export Floats.SpecFloat.
From Verif Require Import Base.

Definition f64 := spec_float.
Definition fprec : Z := 53.
Definition femax : Z := 1024.

(** [f64::from_bits]; the payload of a NaN is dropped. *)
Definition of_bits (n : N) : f64 :=
  let s := N.testbit n 63 in
  let e := N.land (N.shiftr n 52) 2047 in
  let m := N.land n 4503599627370495 in
  if e =? 0 then
    match m with N0 => S754_zero s | Npos p => S754_finite s p (-1074) end
  else if e =? 2047 then
    match m with N0 => S754_infinity s | Npos _ => S754_nan end
  else
    match m + 4503599627370496 with
    | N0 => S754_nan (* unreachable *)
    | Npos p => S754_finite s p (Z.of_N e - 1075)
    end.

(** The sign bit. *)
Definition sgn (s : bool) : N := if s then 9223372036854775808 else 0.

(** [f64::to_bits]. *)
Definition to_bits (x : f64) : N :=
  match x with
  | S754_zero s => sgn s
  | S754_infinity s => sgn s + 9218868437227405312
  | S754_nan => 9221120237041090560
  | S754_finite s m e =>
      if Npos m <? 4503599627370496 then sgn s + Npos m
      else sgn s + (Z.to_N (e + 1075) * 4503599627370496 + (Npos m - 4503599627370496))
  end.

Definition fadd : f64 -> f64 -> f64 := SFadd fprec femax.
Definition fsub : f64 -> f64 -> f64 := SFsub fprec femax.
Definition fmul : f64 -> f64 -> f64 := SFmul fprec femax.
Definition fdiv : f64 -> f64 -> f64 := SFdiv fprec femax.
Definition fneg : f64 -> f64 := SFopp.
Definition fabs : f64 -> f64 := SFabs.
Definition feq : f64 -> f64 -> bool := SFeqb.
Definition flt : f64 -> f64 -> bool := SFltb.
Definition fle : f64 -> f64 -> bool := SFleb.

Definition is_nan (x : f64) : bool := match x with S754_nan => true | _ => false end.
Definition is_infinite (x : f64) : bool := match x with S754_infinity _ => true | _ => false end.

(** The float nearest to [m * 2^e]; zero has the given sign. *)
Definition fnorm (m e : Z) (szero : bool) : f64 := binary_normalize fprec femax m e szero.

(** Integer to float ([i as f64]). *)
Definition of_Z (z : Z) : f64 := fnorm z 0 false.

(** A finite positive mantissa [m * 2^e], [e < 0]: integer part, and whether a
    fraction is left. *)
Definition int_part (m : positive) (e : Z) : Z := Z.shiftr (Zpos m) (- e).
Definition has_frac (m : positive) (e : Z) : bool :=
  negb (Z.shiftl (int_part m e) (- e) =? Zpos m)%Z.

(** Rebuild a float from an integer magnitude and a sign ([-0.0] possible). *)
Definition of_mag (s : bool) (z : Z) : f64 :=
  match z with
  | Zpos p => let x := fnorm (Zpos p) 0 false in if s then SFopp x else x
  | _ => S754_zero s
  end.

(** [f64::floor], [f64::ceil], [f64::round] (half away from zero), [f64::trunc]. *)
Definition ffloor (x : f64) : f64 :=
  match x with
  | S754_finite s m e =>
      if (0 <=? e)%Z then x
      else of_mag s (int_part m e + if s && has_frac m e then 1 else 0)
  | _ => x
  end.
Definition fceil (x : f64) : f64 :=
  match x with
  | S754_finite s m e =>
      if (0 <=? e)%Z then x
      else of_mag s (int_part m e + if negb s && has_frac m e then 1 else 0)
  | _ => x
  end.
Definition fround (x : f64) : f64 :=
  match x with
  | S754_finite s m e =>
      if (0 <=? e)%Z then x
      else of_mag s (Z.shiftr (Zpos m + Z.shiftl 1 (- e - 1)) (- e))
  | _ => x
  end.

(** Truncation of a finite float towards zero. *)
Definition ftruncZ (x : f64) : Z :=
  match x with
  | S754_finite s m e =>
      let z := if (0 <=? e)%Z then Z.shiftl (Zpos m) e else int_part m e in
      if s then - z else z
  | _ => 0
  end%Z.

(** Saturating casts [x as i64], [x as i32], [x as u32], [x as u64]: NaN gives 0. *)
Definition as_int (lo hi : Z) (x : f64) : Z :=
  match x with
  | S754_nan => 0
  | S754_infinity s => if s then lo else hi
  | _ => Z.max lo (Z.min hi (ftruncZ x))
  end%Z.
Definition as_i64 : f64 -> Z := as_int (-9223372036854775808) 9223372036854775807.
Definition as_i32 : f64 -> Z := as_int (-2147483648) 2147483647.
Definition as_u32 : f64 -> Z := as_int 0 4294967295.
Definition as_u64 : f64 -> Z := as_int 0 18446744073709551615.

(** The float nearest to [10^i]: the literal [1.0Ei], or ["1.0Ei".parse()]. *)
Definition pow10 (i : N) : f64 :=
  if 400 <? i then S754_infinity false else fnorm (10 ^ Z.of_N i) 0 false.

(** The float nearest to [10^-i].  [2^1300 / 10^i] keeps far more than 53 bits
    for [i <= 350], and the final 1 bit records an inexact quotient, so rounding
    this number to nearest is rounding [10^-i]; beyond that the result is 0. *)
Definition npow10 (i : N) : f64 :=
  if i =? 0 then of_Z 1
  else if 350 <? i then S754_zero false
  else fnorm (2 * (2 ^ 1300 / 10 ^ Z.of_N i) + 1) (-1301) false.
