(** Facts about leading/trailing zero counts, xor and shifts of 64-bit words. *)
From Verif Require Import Base BitSpec BitSpecProofs.

Lemma two64_pow : two64 = 2 ^ 64. Proof. reflexivity. Qed.
Lemma two32_pow : two32 = 2 ^ 32. Proof. reflexivity. Qed.

Lemma pow2_pos n : 0 < 2 ^ n.
Proof. apply N.neq_0_lt_0, N.pow_nonzero. lia. Qed.

Lemma size_le_64 x : is_u64 x -> N.size x <= 64.
Proof.
  unfold is_u64. rewrite two64_pow. intros H. destruct (N.eq_dec x 0) as [->|Hz]; [cbn; lia|].
  rewrite N.size_log2 by auto. apply N.log2_lt_pow2 in H; lia.
Qed.

Lemma lt_pow_size x : x < 2 ^ N.size x.
Proof. apply N.size_gt. Qed.

Lemma clz_bound x l : is_u64 x -> l <= clz64 x -> x < 2 ^ (64 - l).
Proof.
  intros Hx Hl. pose proof (size_le_64 x Hx). unfold clz64 in Hl.
  eapply N.lt_le_trans; [apply lt_pow_size|]. apply N.pow_le_mono_r; lia.
Qed.

Lemma clz_le x : clz64 x <= 64. Proof. unfold clz64. lia. Qed.

Lemma pos_ctz_spec p : exists q, Npos p = q * 2 ^ pos_ctz p /\ N.odd q = true.
Proof.
  induction p as [p IH|p IH|].
  - exists (Npos p~1). cbn [pos_ctz]. rewrite N.pow_0_r. split; [lia|reflexivity].
  - destruct IH as (q & E & Ho). exists q. split; auto. cbn [pos_ctz].
    rewrite N.add_1_l, N.pow_succ_r'. lia.
  - exists 1. split; reflexivity.
Qed.

Lemma ctz_exact x k : k <= ctz64 x -> x <> 0 -> N.shiftl (N.shiftr x k) k = x.
Proof.
  intros Hk Hx. destruct x as [|p]; [lia|]. cbn [ctz64] in Hk.
  destruct (pos_ctz_spec p) as (q & E & _). rewrite E.
  replace (2 ^ pos_ctz p) with (2 ^ (pos_ctz p - k) * 2 ^ k) by (rewrite <- N.pow_add_r; f_equal; lia).
  rewrite N.mul_assoc, <- !N.shiftl_mul_pow2.
  rewrite N.shiftr_shiftl_l by lia. rewrite N.sub_diag, N.shiftl_0_r. auto.
Qed.

Lemma ctz_odd x : x <> 0 -> N.odd (N.shiftr x (ctz64 x)) = true.
Proof.
  intros Hx. destruct x as [|p]; [lia|]. cbn [ctz64].
  destruct (pos_ctz_spec p) as (q & E & Ho). rewrite E.
  rewrite <- N.shiftl_mul_pow2, N.shiftr_shiftl_l by lia. rewrite N.sub_diag, N.shiftl_0_r. auto.
Qed.

Lemma clz_ctz_lt x : x <> 0 -> is_u64 x -> clz64 x + ctz64 x < 64.
Proof.
  intros Hx H. destruct x as [|p]; [lia|].
  assert (HL : ctz64 (Npos p) < N.size (Npos p)).
  { cbn [ctz64]. destruct (pos_ctz_spec p) as (q & E & Ho).
    assert (Hq : q <> 0) by (intros ->; discriminate Ho).
    rewrite N.size_log2 by lia. apply N.lt_succ_r.
    rewrite E. rewrite N.log2_mul_pow2; lia. }
  pose proof (size_le_64 _ H). unfold clz64. lia.
Qed.

Lemma ctz_lt x : x <> 0 -> is_u64 x -> ctz64 x < 64.
Proof. intros Hx H. pose proof (clz_ctz_lt x Hx H). lia. Qed.

(** The window of [x] between [l] leading and [t] trailing zero bits. *)
Lemma window_bound x l t : is_u64 x -> l <= clz64 x -> l + t <= 64 ->
  N.shiftr x t < 2 ^ (64 - l - t).
Proof.
  intros Hx Hl Ht. apply shiftr_bound. replace (64 - l - t + t) with (64 - l) by lia. apply clz_bound; auto.
Qed.

Lemma window_exact x t : x <> 0 -> is_u64 x -> t <= ctz64 x -> shl64 (N.shiftr x t) t = x.
Proof.
  intros Hz Hx Ht. unfold shl64. rewrite ctz_exact by auto. apply N.mod_small. exact Hx.
Qed.

Lemma is_u64_lxor a b : is_u64 a -> is_u64 b -> is_u64 (N.lxor a b).
Proof. unfold is_u64. rewrite two64_pow. apply lxor_bound. Qed.

Lemma lxor_eq_0 a b : N.lxor a b = 0 <-> a = b.
Proof. split; [apply N.lxor_eq | intros ->; apply N.lxor_nilpotent]. Qed.

Lemma lxor_cancel a b : N.lxor a (N.lxor b a) = b.
Proof. rewrite (N.lxor_comm b a), <- N.lxor_assoc, N.lxor_nilpotent, N.lxor_0_l. auto. Qed.
Lemma lxor_cancel' a b : N.lxor a (N.lxor a b) = b.
Proof. rewrite <- N.lxor_assoc, N.lxor_nilpotent, N.lxor_0_l. auto. Qed.

(** Little-endian bytes. *)
Lemma le_bytes_length k v : length (le_bytes k v) = k.
Proof. revert v; induction k as [|k IH]; intros v; cbn; auto. Qed.

Lemma le_bytes_byte k v : Forall is_byte (le_bytes k v).
Proof.
  revert v; induction k as [|k IH]; intros v; cbn; constructor; auto. apply N.mod_lt. lia.
Qed.

Lemma le_val_bytes k v : v < 256 ^ N.of_nat k -> le_val (le_bytes k v) = v.
Proof.
  revert v; induction k as [|k IH]; intros v H.
  - change (256 ^ N.of_nat 0) with 1 in H. cbn. lia.
  - cbn [le_bytes le_val]. rewrite IH.
    + rewrite N.add_comm, <- N.div_mod by lia. auto.
    + rewrite Nat2N.inj_succ, N.pow_succ_r' in H. apply N.div_lt_upper_bound; lia.
Qed.

Lemma le_val_bytes_mod k v : le_val (le_bytes k v) = v mod 256 ^ N.of_nat k.
Proof.
  revert v; induction k as [|k IH]; intros v.
  - change (256 ^ N.of_nat 0) with 1. rewrite N.mod_1_r. reflexivity.
  - cbn [le_bytes le_val]. rewrite IH, Nat2N.inj_succ, N.pow_succ_r'.
    rewrite N.mod_mul_r; [auto|lia|apply N.pow_nonzero; lia].
Qed.

Lemma le_bytes_val bs : Forall is_byte bs -> le_bytes (length bs) (le_val bs) = bs.
Proof.
  induction 1 as [|b bs Hb HF IH]; auto. cbn [length le_bytes le_val].
  unfold is_byte in Hb. f_equal.
  - rewrite N.mul_comm, N.mod_add by lia. apply N.mod_small. auto.
  - rewrite N.mul_comm, N.div_add by lia. rewrite N.div_small by auto. rewrite N.add_0_l. auto.
Qed.

Lemma le_val_bound bs : Forall is_byte bs -> le_val bs < 256 ^ N.of_nat (length bs).
Proof.
  induction 1 as [|b bs Hb HF IH]; [reflexivity|]. cbn [length le_val]. unfold is_byte in Hb.
  rewrite Nat2N.inj_succ, N.pow_succ_r'. lia.
Qed.
