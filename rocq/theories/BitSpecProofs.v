(** Facts about bit strings. *)
From Verif Require Import Base BitSpec.

Lemma bits_of_S m v : bits_of (S m) v = N.testbit v (N.of_nat m) :: bits_of m v.
Proof. reflexivity. Qed.
Lemma bits_of_0 v : bits_of 0 v = [].
Proof. reflexivity. Qed.

Lemma bits_of_length n v : length (bits_of n v) = n.
Proof. induction n; rewrite ?bits_of_S, ?bits_of_0; cbn; auto. Qed.

Lemma bits_of_app a b v : bits_of (a + b) v = bits_of a (N.shiftr v (N.of_nat b)) ++ bits_of b v.
Proof.
  induction a as [|a IH]; cbn [Nat.add]; rewrite ?bits_of_0; auto.
  rewrite !bits_of_S, IH. cbn [app]. f_equal. rewrite N.shiftr_spec by lia. f_equal. lia.
Qed.

Lemma bits_of_split n k v : (k <= n)%nat ->
  bits_of n v = bits_of (n - k) (N.shiftr v (N.of_nat k)) ++ bits_of k v.
Proof. intros H. rewrite <- bits_of_app. f_equal. lia. Qed.

Lemma bits_of_ext n a b :
  (forall i, (i < n)%nat -> N.testbit a (N.of_nat i) = N.testbit b (N.of_nat i)) ->
  bits_of n a = bits_of n b.
Proof.
  induction n as [|n IH]; intros H; rewrite ?bits_of_S; auto. f_equal; [apply H; lia | apply IH; intros; apply H; lia].
Qed.

Lemma bits_of_zero n : bits_of n 0 = repeat false n.
Proof. induction n as [|n IH]; cbn; auto. rewrite bits_of_S, N.bits_0, IH; auto. Qed.

Lemma bits_of_mod n v k : (n <= k)%nat -> bits_of n (v mod 2 ^ N.of_nat k) = bits_of n v.
Proof. intros H. apply bits_of_ext; intros i Hi. apply N.mod_pow2_bits_low. lia. Qed.

Lemma small_testbit v n i : v < 2 ^ n -> n <= i -> N.testbit v i = false.
Proof.
  intros Hv Hi. destruct (N.eq_dec v 0) as [->|Hz]; [apply N.bits_0|].
  apply N.bits_above_log2. apply N.log2_lt_pow2 in Hv; lia.
Qed.

Lemma bits_of_inj n a b : a < 2 ^ N.of_nat n -> b < 2 ^ N.of_nat n -> bits_of n a = bits_of n b -> a = b.
Proof.
  intros Ha Hb H. apply N.bits_inj. intros i.
  destruct (N.lt_ge_cases i (N.of_nat n)) as [Hi|Hi].
  - clear Ha Hb. revert H. induction n as [|n IH]; [lia|]. rewrite !bits_of_S. intros E. injection E as E1 E2.
    destruct (N.eq_dec i (N.of_nat n)) as [->|]; auto. apply IH; auto. lia.
  - rewrite (small_testbit a _ i Ha Hi), (small_testbit b _ i Hb Hi); auto.
Qed.

(** Padding with leading zeros. *)
Lemma bits_of_high n k v : v < 2 ^ N.of_nat k -> (k <= n)%nat ->
  bits_of n v = repeat false (n - k) ++ bits_of k v.
Proof.
  intros Hv Hk. rewrite (bits_of_split n k) by auto. f_equal.
  rewrite <- bits_of_zero. apply bits_of_ext; intros i Hi. rewrite N.shiftr_spec by lia.
  rewrite N.bits_0. eapply small_testbit; eauto. lia.
Qed.

(** Values *)
Lemma fold_val bs acc :
  fold_left (fun acc b => 2 * acc + N.b2n b) bs acc = acc * 2 ^ N.of_nat (length bs) + val_of bs.
Proof.
  unfold val_of. revert acc. induction bs as [|b bs IH]; intros acc.
  - cbn. rewrite N.pow_0_r. lia.
  - cbn [fold_left length]. rewrite IH, (IH (2 * 0 + _)).
    rewrite Nat2N.inj_succ, N.pow_succ_r'. lia.
Qed.

Lemma val_of_cons b bs : val_of (b :: bs) = N.b2n b * 2 ^ N.of_nat (length bs) + val_of bs.
Proof. unfold val_of at 1. cbn [fold_left]. rewrite fold_val. reflexivity. Qed.

Lemma val_of_app a b : val_of (a ++ b) = val_of a * 2 ^ N.of_nat (length b) + val_of b.
Proof. unfold val_of at 1. rewrite fold_left_app, fold_val. reflexivity. Qed.

Lemma val_of_bound bs : val_of bs < 2 ^ N.of_nat (length bs).
Proof.
  induction bs as [|b bs IH]; [reflexivity|]. rewrite val_of_cons. cbn [length].
  rewrite Nat2N.inj_succ, N.pow_succ_r'. destruct b; cbn; lia.
Qed.

Lemma val_of_bits_of n v : v < 2 ^ N.of_nat n -> val_of (bits_of n v) = v.
Proof.
  revert v. induction n as [|n IH]; intros v Hv.
  - rewrite N.pow_0_r in Hv. change (val_of (bits_of 0 v)) with 0. lia.
  - rewrite bits_of_S. rewrite val_of_cons, bits_of_length.
    rewrite <- (bits_of_mod n v n) by auto.
    rewrite IH by (apply N.mod_lt; apply N.pow_nonzero; lia).
    rewrite Nat2N.inj_succ, N.pow_succ_r' in Hv.
    assert (Hp : 2 ^ N.of_nat n <> 0) by (apply N.pow_nonzero; lia).
    assert (Hd : v / 2 ^ N.of_nat n < 2) by (apply N.div_lt_upper_bound; lia).
    pose proof (N.div_mod v (2 ^ N.of_nat n) Hp) as E.
    rewrite N.testbit_eqb.
    rewrite (N.mod_small (v / 2 ^ N.of_nat n)) by lia.
    destruct (N.eqb_spec (v / 2 ^ N.of_nat n) 1) as [E1|E1]; cbn [N.b2n].
    + rewrite E1, N.mul_1_r in E. rewrite N.mul_1_l. symmetry. exact E.
    + assert (E0 : v / 2 ^ N.of_nat n = 0) by (clear - Hd E1; revert Hd E1; generalize (v / 2 ^ N.of_nat n); intros; lia). rewrite E0, N.mul_0_r in E. rewrite N.mul_0_l. symmetry. exact E.
Qed.

Lemma bits_of_val bs : bits_of (length bs) (val_of bs) = bs.
Proof.
  induction bs as [|b bs IH]; auto.
  cbn [length]; rewrite bits_of_S. rewrite val_of_cons. f_equal.
  - rewrite N.testbit_eqb, N.add_comm, N.div_add by (apply N.pow_nonzero; lia).
    rewrite N.div_small by apply val_of_bound. destruct b; reflexivity.
  - transitivity (bits_of (length bs) (val_of bs)); [|exact IH]. apply bits_of_ext. intros i Hi.
    rewrite <- (N.mod_pow2_bits_low _ (N.of_nat (length bs))) by lia.
    rewrite N.add_comm, N.mod_add by (apply N.pow_nonzero; lia).
    rewrite N.mod_small by apply val_of_bound. auto.
Qed.

Lemma bytes_bits_app a b : bytes_bits (a ++ b) = bytes_bits a ++ bytes_bits b.
Proof. unfold bytes_bits. apply flat_map_app. Qed.

Lemma bytes_bits_length bs : length (bytes_bits bs) = (8 * length bs)%nat.
Proof.
  induction bs as [|y bs IH]; auto.
  change (bytes_bits (y :: bs)) with (bits_of 8 y ++ bytes_bits bs).
  rewrite app_length, bits_of_length. cbn [length]. lia.
Qed.

(** Two byte strings with the same bits are equal. *)
Lemma bytes_bits_inj a b : Forall is_byte a -> Forall is_byte b -> bytes_bits a = bytes_bits b -> a = b.
Proof.
  revert b. induction a as [|x a IH]; intros b Ha Hb E.
  - destruct b; auto. discriminate E.
  - destruct b as [|y b]; [discriminate E|].
    inversion_clear Ha. inversion_clear Hb.
    change (bits_of 8 x ++ bytes_bits a = bits_of 8 y ++ bytes_bits b) in E.
    assert (E1 : bits_of 8 x = bits_of 8 y).
    { apply (f_equal (firstn 8)) in E. rewrite !firstn_app, !bits_of_length in E.
      rewrite !firstn_all2 in E by (rewrite bits_of_length; auto).
      cbn [Nat.sub firstn] in E. rewrite !app_nil_r in E. auto. }
    rewrite E1 in E. apply app_inv_head in E.
    f_equal; [eapply (bits_of_inj 8); eauto | auto].
Qed.

Lemma lt_pow2_testbit v n : (forall i, n <= i -> N.testbit v i = false) -> v < 2 ^ n.
Proof.
  intros H. destruct (N.eq_dec v 0) as [->|Hz].
  - apply N.neq_0_lt_0, N.pow_nonzero. lia.
  - apply N.log2_lt_pow2; [lia|].
    destruct (N.lt_ge_cases (N.log2 v) n) as [|Hge]; auto.
    specialize (H _ Hge). rewrite N.bit_log2 in H by auto. discriminate.
Qed.

Lemma lor_bound a b n : a < 2 ^ n -> b < 2 ^ n -> N.lor a b < 2 ^ n.
Proof.
  intros Ha Hb. apply lt_pow2_testbit. intros i Hi. rewrite N.lor_spec.
  rewrite (small_testbit a n i), (small_testbit b n i); auto.
Qed.

Lemma lxor_bound a b n : a < 2 ^ n -> b < 2 ^ n -> N.lxor a b < 2 ^ n.
Proof.
  intros Ha Hb. apply lt_pow2_testbit. intros i Hi. rewrite N.lxor_spec.
  rewrite (small_testbit a n i), (small_testbit b n i); auto.
Qed.

Lemma land_bound_l a b n : a < 2 ^ n -> N.land a b < 2 ^ n.
Proof.
  intros Ha. apply lt_pow2_testbit. intros i Hi. rewrite N.land_spec.
  rewrite (small_testbit a n i); auto.
Qed.

Lemma shiftr_bound v n k : v < 2 ^ (n + k) -> N.shiftr v k < 2 ^ n.
Proof.
  intros H. rewrite N.shiftr_div_pow2. apply N.div_lt_upper_bound; [apply N.pow_nonzero; lia|].
  rewrite <- N.pow_add_r, N.add_comm. auto.
Qed.

Lemma skipn_skipn {A} a b (l : list A) : skipn a (skipn b l) = skipn (a + b) l.
Proof.
  revert l. induction b as [|b IH]; intros l.
  - cbn [skipn]. rewrite Nat.add_0_r. auto.
  - destruct l as [|x l]; [rewrite !skipn_nil; auto|].
    rewrite Nat.add_succ_r. cbn [skipn]. apply IH.
Qed.
