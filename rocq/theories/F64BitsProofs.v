From Verif Require Import Base WordProofs F64 F64Proofs.

(** A pattern from its three fields. *)
Definition fields (s : bool) (e f : N) : N := sgn s + (e * 4503599627370496 + f).
Lemma fields_bound s e f : e < 2048 -> f < 4503599627370496 -> fields s e f < two64.
Proof. unfold fields, sgn, two64. destruct s; lia. Qed.
Lemma of_fields s e f : e < 2048 -> f < 4503599627370496 ->
  of_bits (fields s e f) =
  if e =? 0 then match f with N0 => S754_zero s | Npos p => S754_finite s p (-1074) end
  else if e =? 2047 then match f with N0 => S754_infinity s | Npos _ => S754_nan end
  else match f + 4503599627370496 with N0 => S754_nan | Npos p => S754_finite s p (Z.of_N e - 1075) end.
Proof.
  intros HE HF. unfold of_bits. destruct (bits_fields _ (fields_bound s e f HE HF)) as (EE & EM & ES).
  rewrite EE, EM, ES.
  assert (S : fields s e f / 2 ^ 63 = if s then 1 else 0).
  { symmetry. change (2 ^ 63) with 9223372036854775808. unfold fields, sgn. destruct s.
    - apply N.div_unique with (e * 4503599627370496 + f); lia.
    - apply N.div_unique with (e * 4503599627370496 + f); lia. }
  assert (M : fields s e f mod 2 ^ 52 = f).
  { symmetry. change (2 ^ 52) with 4503599627370496. apply N.mod_unique with ((if s then 2048 else 0) + e).
    - assumption.
    - unfold fields, sgn. destruct s; lia. }
  assert (E : (fields s e f / 2 ^ 52) mod 2 ^ 11 = e).
  { replace (fields s e f / 2 ^ 52) with ((if s then 2048 else 0) + e).
    2:{ apply N.div_unique with f; change (2 ^ 52) with 4503599627370496; [assumption|]. unfold fields, sgn. destruct s; lia. }
    change (2 ^ 11) with 2048. symmetry. apply N.mod_unique with (if s then 1 else 0); [assumption|]. destruct s; lia. }
  rewrite S, M, E. destruct s; reflexivity.
Qed.

Lemma to_bits_fields x : canonical x -> exists s e f, e < 2048 /\ f < 4503599627370496 /\ to_bits x = fields s e f.
Proof.
  intros C. destruct x as [s|s| |s p e].
  - exists s, 0, 0. repeat split; try reflexivity. cbn. unfold fields. lia.
  - exists s, 2047, 0. repeat split; reflexivity.
  - exists false, 2047, 2251799813685248. repeat split; reflexivity.
  - cbn [to_bits]. cbn [canonical] in C. change (2 ^ 52)%Z with 4503599627370496%Z in C. change (2 ^ 53)%Z with 9007199254740992%Z in C.
    destruct (N.ltb_spec (Npos p) 4503599627370496) as [L|L].
    + exists s, 0, (Npos p). repeat split; try lia.
    + exists s, (Z.to_N (e + 1075)), (Npos p - 4503599627370496). repeat split; try lia.
Qed.
Lemma to_bits_bound x : canonical x -> to_bits x < two64.
Proof. intros C. destruct (to_bits_fields x C) as (s & e & f & HE & HF & ->). now apply fields_bound. Qed.
Lemma of_to_bits x : canonical x -> of_bits (to_bits x) = x.
Proof.
  intros C. destruct x as [s|s| |s p e].
  - destruct s; reflexivity.
  - destruct s; reflexivity.
  - reflexivity.
  - cbn [to_bits]. cbn [canonical] in C. change (2 ^ 52)%Z with 4503599627370496%Z in C. change (2 ^ 53)%Z with 9007199254740992%Z in C.
    destruct (N.ltb_spec (Npos p) 4503599627370496) as [L|L].
    + replace (sgn s + Npos p) with (fields s 0 (Npos p)) by (unfold fields; lia).
      rewrite of_fields by lia. cbn [N.eqb]. assert (e = -1074)%Z by lia. now subst e.
    + change (of_bits (fields s (Z.to_N (e + 1075)) (Npos p - 4503599627370496)) = S754_finite s p e).
      rewrite of_fields by lia.
      destruct (N.eqb_spec (Z.to_N (e + 1075)) 0); [lia|]. destruct (N.eqb_spec (Z.to_N (e + 1075)) 2047); [lia|].
      replace (Npos p - 4503599627370496 + 4503599627370496) with (Npos p) by lia.
      f_equal. lia.
Qed.
(** Every pattern but those of the other NaNs is kept. *)
Lemma to_of_bits x : x < two64 -> is_nan (of_bits x) = false -> to_bits (of_bits x) = x.
Proof.
  intros H NN.
  assert (X : x = fields (negb (x / 2 ^ 63 =? 0)) ((x / 2 ^ 52) mod 2 ^ 11) (x mod 2 ^ 52)).
  { unfold fields, sgn. change (2 ^ 63) with 9223372036854775808. change (2 ^ 52) with 4503599627370496. change (2 ^ 11) with 2048.
    pose proof (N.div_mod x 4503599627370496 ltac:(lia)) as D1.
    pose proof (N.div_mod (x / 4503599627370496) 2048 ltac:(lia)) as D2.
    rewrite N.div_div in D2 by lia. change (4503599627370496 * 2048) with 9223372036854775808 in D2.
    assert (Q : x / 9223372036854775808 < 2) by (apply N.div_lt_upper_bound; [lia|]; exact H).
    set (q := x / 9223372036854775808) in *. set (a := x / 4503599627370496) in *.
    set (b := a mod 2048) in *. set (c := x mod 4503599627370496) in *. clearbody q a b c.
    destruct (N.eqb_spec q 0); cbn [negb]; lia. }
  set (s := negb _) in X. set (e := (x / 2 ^ 52) mod 2 ^ 11) in X. set (f := x mod 2 ^ 52) in X.
  assert (HE : e < 2048) by (apply N.mod_lt; discriminate). assert (HF : f < 4503599627370496) by (apply N.mod_lt; discriminate).
  clearbody s e f. subst x. rewrite of_fields in * by assumption.
  destruct (N.eqb_spec e 0) as [->|E0].
  - destruct f as [|p]; cbn [to_bits]; [unfold fields; lia|]. replace (_ <? _) with true by lia. unfold fields. lia.
  - destruct (N.eqb_spec e 2047) as [->|E1].
    + destruct f; [reflexivity|discriminate].
    + destruct (f + 4503599627370496) as [|p] eqn:EF; [discriminate|]. cbn [to_bits].
      replace (_ <? _) with false by lia. unfold fields. rewrite <- EF.
      replace (Z.to_N (Z.of_N e - 1075 + 1075)) with e by lia. lia.
Qed.
