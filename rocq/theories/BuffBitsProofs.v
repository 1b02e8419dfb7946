From Verif Require Import Base WordProofs BitIO Xor F64 Query Sprintz Buff.

(** ** Little-endian numbers, bit by bit *)
Definition bytes_ok (l : list N) : Prop := Forall is_byte l.
Lemma testbit_high a n j : a < 2 ^ n -> n <= j -> N.testbit a j = false.
Proof.
  intros H L. destruct (N.eq_dec a 0) as [->|NZ]; [apply N.bits_0|].
  apply N.bits_above_log2. apply N.log2_lt_pow2 in H; lia.
Qed.
Lemma lor_add a b n : a < 2 ^ n -> a + 2 ^ n * b = N.lor a (N.shiftl b n).
Proof.
  intros H. rewrite N.shiftl_mul_pow2, (N.mul_comm b). symmetry. rewrite <- N.lxor_lor, <- N.add_nocarry_lxor; [reflexivity| |].
  all: apply N.bits_inj; intros j; rewrite N.land_spec, N.bits_0, N.mul_comm, <- N.shiftl_mul_pow2.
  all: destruct (N.ltb_spec j n); [rewrite N.shiftl_spec_low by assumption; apply Bool.andb_false_r|].
  all: rewrite (testbit_high a n j) by assumption; reflexivity.
Qed.
Lemma le_cons_bit b bs j : is_byte b ->
  N.testbit (le_val (b :: bs)) j = if j <? 8 then N.testbit b j else N.testbit (le_val bs) (j - 8).
Proof.
  intros H. cbn [le_val]. change 256 with (2 ^ 8). rewrite lor_add by exact H. rewrite N.lor_spec.
  destruct (N.ltb_spec j 8).
  - rewrite N.shiftl_spec_low by assumption. apply Bool.orb_false_r.
  - rewrite N.shiftl_spec_high' by assumption. rewrite (testbit_high b 8 j) by assumption. reflexivity.
Qed.
Lemma le_app_bit a : forall b j, bytes_ok a ->
  N.testbit (le_val (a ++ b)) j = if j <? 8 * N.of_nat (length a) then N.testbit (le_val a) j else N.testbit (le_val b) (j - 8 * N.of_nat (length a)).
Proof.
  induction a as [|x a IH]; intros b j H; cbn [app length].
  - replace (j <? 8 * N.of_nat 0) with false by lia. now replace (j - 8 * N.of_nat 0) with j by lia.
  - inversion H as [|? ? HX HA]; subst. rewrite !le_cons_bit by assumption. rewrite IH by assumption.
    destruct (N.ltb_spec j 8).
    + now replace (j <? 8 * N.of_nat (S (length a))) with true by lia.
    + replace (j <? 8 * N.of_nat (S (length a))) with (j - 8 <? 8 * N.of_nat (length a)) by lia.
      now replace (j - 8 * N.of_nat (S (length a))) with (j - 8 - 8 * N.of_nat (length a)) by lia.
Qed.
Lemma le_bit_high a j : bytes_ok a -> 8 * N.of_nat (length a) <= j -> N.testbit (le_val a) j = false.
Proof.
  intros H L. apply testbit_high with (8 * N.of_nat (length a)); [|assumption].
  rewrite N.pow_mul_r. apply le_val_bound, H.
Qed.
Lemma le_inj a b : bytes_ok a -> bytes_ok b -> length a = length b -> le_val a = le_val b -> a = b.
Proof. intros A B L E. rewrite <- (le_bytes_val a A), <- (le_bytes_val b B). congruence. Qed.
Lemma le_zeros n : le_val (repeat 0 n) = 0.
Proof. induction n; cbn [repeat le_val]; lia. Qed.
Lemma le_app_zeros a n : le_val (a ++ repeat 0 n) = le_val a.
Proof. induction a as [|x a IH]; cbn [app le_val]; [apply le_zeros|]. now rewrite IH. Qed.

(** [k] bits from bit [pos] on. *)
Definition window (v pos k : N) : N := N.shiftr v pos mod 2 ^ k.
Lemma mod_bit a k j : N.testbit (a mod 2 ^ k) j = (j <? k) && N.testbit a j.
Proof.
  destruct (N.ltb_spec j k); [now rewrite N.mod_pow2_bits_low|now rewrite N.mod_pow2_bits_high].
Qed.
Lemma window_bit v pos k j : N.testbit (window v pos k) j = (j <? k) && N.testbit v (j + pos).
Proof. unfold window. rewrite mod_bit. now rewrite N.shiftr_spec'. Qed.
Lemma nth_window l : forall i b, bytes_ok l -> nth_error l i = Some b -> b = window (le_val l) (8 * N.of_nat i) 8.
Proof.
  intros i b H E. apply N.bits_inj. intros j. rewrite window_bit.
  destruct (nth_error_split _ _ E) as (l1 & l2 & -> & <-). apply Forall_app in H. destruct H as [H1 H2]. inversion H2 as [|? ? HB H3]; subst.
  rewrite le_app_bit by assumption. replace (j + 8 * N.of_nat (length l1) <? 8 * N.of_nat (length l1)) with false by lia.
  replace (j + 8 * N.of_nat (length l1) - 8 * N.of_nat (length l1)) with j by lia.
  rewrite le_cons_bit by assumption. destruct (N.ltb_spec j 8); [reflexivity|]. now apply testbit_high with 8.
Qed.
Lemma window_bound v pos k : window v pos k < 2 ^ k.
Proof. apply N.mod_lt, N.pow_nonzero. discriminate. Qed.

Ltac bits_eq := apply N.bits_inj; intros ?j.

(** ** Reading *)
(** The position of a cursor; after [read_bits] 8 bits of a byte may be used. *)
Definition at_bit (p : bpos) (pos : N) : Prop := 8 * fst p + snd p = pos /\ snd p <= 8.

Lemma read_bits_ok bytes k p pos : bytes_ok bytes -> 1 <= k <= 8 -> at_bit p pos ->
  pos + k <= 8 * N.of_nat (length bytes) ->
  exists p', bp_read_bits bytes k p = Ok (window (le_val bytes) pos k, p') /\ at_bit p' (pos + k).
Proof.
  intros HB HK [EP HU] L. destruct p as [c u]. cbn [fst snd] in *. unfold bp_read_bits. cbn [fst snd].
  replace (N.of_nat (length bytes) * 8 <? c * 8 + u + k) with false by lia.
  set (V := le_val bytes).
  assert (SM : window V pos k mod 256 = window V pos k).
  { apply N.mod_small. apply N.lt_le_trans with (2 ^ k); [apply window_bound|]. change 256 with (2 ^ 8). apply N.pow_le_mono_r; lia. }
  assert (NB : forall i, i < N.of_nat (length bytes) -> nth_error bytes (N.to_nat i) = Some (window V (8 * i) 8)).
  { intros i HI. destruct (nth_error bytes (N.to_nat i)) as [b|] eqn:E; [|apply nth_error_None in E; lia].
    pose proof (nth_window _ _ _ HB E) as W. rewrite N2Nat.id in W. now rewrite W. }
  cbn [bp_read_loop]. rewrite NB by lia.
  destruct (N.leb_spec k (8 - u)).
  - exists (c, u + k). split; [|split; cbn [fst snd]; lia]. cbn [rbind]. f_equal. f_equal.
    transitivity (window V pos k mod 256); [|exact SM]. f_equal.
    bits_eq. rewrite N.lor_spec, N.bits_0, N.shiftl_0_r, N.land_spec, N.shiftr_spec', !window_bit. cbn [orb].
    destruct (N.ltb_spec j k).
    + rewrite N.ones_spec_low by assumption. replace (j + u <? 8) with true by lia. cbn [andb]. rewrite Bool.andb_true_r. f_equal. lia.
    + rewrite N.ones_spec_high by assumption. apply Bool.andb_false_r.
  - rewrite NB by lia. replace (k - (8 - u) <=? 8 - 0) with true by lia.
    exists (c + 1, 0 + (k - (8 - u))). split; [|split; cbn [fst snd]; lia]. cbn [rbind]. f_equal. f_equal.
    transitivity (window V pos k mod 256); [|exact SM]. f_equal.
    bits_eq. rewrite !N.lor_spec, N.bits_0, N.shiftl_0_r, N.land_spec, N.shiftr_spec', !window_bit. cbn [orb].
    rewrite N.add_0_l.
    destruct (N.ltb_spec j (8 - u)).
    + rewrite N.ones_spec_low by assumption. rewrite N.shiftl_spec_low by lia. replace (j + u <? 8) with true by lia.
      replace (j <? k) with true by lia. cbn [andb]. rewrite Bool.andb_true_r, Bool.orb_false_r. f_equal. lia.
    + rewrite N.ones_spec_high by assumption. rewrite Bool.andb_false_r. cbn [orb]. rewrite N.shiftl_spec_high' by lia.
      rewrite N.land_spec, N.shiftr_spec', window_bit.
      destruct (N.ltb_spec j k).
      * rewrite N.ones_spec_low by lia. replace (j - (8 - u) + 0 <? 8) with true by lia. cbn [andb]. rewrite Bool.andb_true_r. f_equal. lia.
      * rewrite N.ones_spec_high by lia. apply Bool.andb_false_r.
Qed.
Lemma skip_ok bytes k p pos : at_bit p pos -> pos + k <= 8 * N.of_nat (length bytes) ->
  exists p', bp_skip bytes k p = Ok p' /\ at_bit p' (pos + k).
Proof.
  intros [EP HU] L. destruct p as [c u]. cbn [fst snd] in *. unfold bp_skip. cbn [fst snd].
  destruct (N.eqb_spec k 0) as [->|NZ]; [exists (c, u); split; [reflexivity|split; cbn [fst snd]; lia]|].
  replace (N.of_nat (length bytes) * 8 <? c * 8 + u + k) with false by lia.
  eexists. split; [reflexivity|]. split; cbn [fst snd].
  - pose proof (N.div_mod' k 8). pose proof (N.div_mod' (u + k mod 8) 8). lia.
  - pose proof (N.mod_lt (u + k mod 8) 8). lia.
Qed.

(** ** Writing *)
Lemma or_at_ok l : forall i v, bytes_ok l -> is_byte v -> (i < length l)%nat ->
  exists l', or_at i v l = Some l' /\ length l' = length l /\ bytes_ok l' /\
    le_val l' = N.lor (le_val l) (N.shiftl v (8 * N.of_nat i)).
Proof.
  induction l as [|b l IH]; intros i v HL HV HI; [cbn [length] in HI; lia|].
  inversion HL as [|? ? HB HT]; subst. destruct i as [|i]; cbn [or_at].
  - assert (HO : is_byte (N.lor b v)).
    { unfold is_byte in *. change 256 with (2 ^ 8) in *. destruct (N.eq_dec (N.lor b v) 0) as [->|NZ]; [reflexivity|].
      apply N.log2_lt_pow2; [lia|]. rewrite N.log2_lor. apply N.max_lub_lt.
      - destruct (N.eq_dec b 0) as [->|]; [reflexivity|]. apply N.log2_lt_pow2; lia.
      - destruct (N.eq_dec v 0) as [->|]; [reflexivity|]. apply N.log2_lt_pow2; lia. }
    eexists. split; [reflexivity|]. split; [reflexivity|]. split; [now constructor|].
    bits_eq. rewrite N.lor_spec, !le_cons_bit by assumption. rewrite N.shiftl_0_r, N.lor_spec.
    destruct (N.ltb_spec j 8); [reflexivity|]. rewrite (testbit_high v 8 j) by assumption. now rewrite Bool.orb_false_r.
  - cbn [length] in HI. destruct (IH i v HT HV ltac:(lia)) as (l' & E & EL & HL' & EV). rewrite E.
    eexists. split; [reflexivity|]. split; [cbn [length]; lia|]. split; [now constructor|].
    bits_eq. rewrite N.lor_spec, !le_cons_bit by assumption. rewrite EV, N.lor_spec.
    destruct (N.ltb_spec j 8).
    + rewrite N.shiftl_spec_low by lia. now rewrite Bool.orb_false_r.
    + f_equal. destruct (N.ltb_spec j (8 * N.of_nat (S i))).
      * rewrite !N.shiftl_spec_low by lia. reflexivity.
      * rewrite !N.shiftl_spec_high' by lia. f_equal. lia.
Qed.

Definition bp_pos (p : bpack) : N := 8 * bp_cursor p + bp_bits p.
Definition bp_ok (p : bpack) : Prop := bytes_ok (bp_buf p) /\ bp_bits p < 8 /\ bp_pos p <= 8 * N.of_nat (length (bp_buf p)).

Lemma shl8_small v k u : v < 2 ^ k -> k + u <= 8 -> shl8 v u = N.shiftl v u /\ is_byte (N.shiftl v u).
Proof.
  intros H L. assert (B : N.shiftl v u < 256).
  { rewrite N.shiftl_mul_pow2. apply N.lt_le_trans with (2 ^ k * 2 ^ u).
    - apply N.mul_lt_mono_pos_r; [apply pow2_pos|assumption].
    - rewrite <- N.pow_add_r. change 256 with (2 ^ 8). apply N.pow_le_mono_r; lia. }
  split; [|exact B]. unfold shl8. now apply N.mod_small.
Qed.

Lemma write_loop_ok fuel : forall value k p, bp_ok p -> value < 2 ^ k -> 1 <= k -> (N.to_nat k < fuel)%nat ->
  bp_pos p + k <= 8 * N.of_nat (length (bp_buf p)) ->
  exists p', bp_write_loop fuel value k p = Ok p' /\ bp_ok p' /\ bp_pos p' = bp_pos p + k /\
    length (bp_buf p') = length (bp_buf p) /\ le_val (bp_buf p') = N.lor (le_val (bp_buf p)) (N.shiftl value (bp_pos p)).
Proof.
  induction fuel as [|fuel IH]; intros value k p (HB & HU & HP) HV HK HF L; [lia|].
  cbn [bp_write_loop]. unfold bp_pos in *. destruct p as [buf c u]. cbn [bp_buf bp_cursor bp_bits] in *.
  destruct (N.leb_spec k (8 - u)).
  - destruct (shl8_small value k u HV ltac:(lia)) as [E1 E2].
    assert (E3 : value mod 256 = value).
    { apply N.mod_small. apply N.lt_le_trans with (2 ^ k); [assumption|]. change 256 with (2 ^ 8). apply N.pow_le_mono_r; lia. }
    rewrite E3, E1. destruct (or_at_ok buf (N.to_nat c) _ HB E2 ltac:(lia)) as (buf' & E & EL & HB' & EV). rewrite E.
    rewrite N2Nat.id, N.shiftl_shiftl in EV.
    eexists. split; [reflexivity|].
    destruct (N.leb_spec 8 (u + k)); unfold bp_ok, bp_pos; cbn [bp_buf bp_cursor bp_bits]; rewrite EL, EV;
      (split; [split; [assumption|lia]|]); (split; [lia|]); (split; [reflexivity|]); f_equal; f_equal; lia.
  - set (bb := N.land value (N.ones (8 - u))).
    assert (HBB : bb < 2 ^ (8 - u)) by (unfold bb; rewrite N.land_ones; apply window_bound with (pos := 0) (v := value)).
    assert (E3 : bb mod 256 = bb).
    { apply N.mod_small. apply N.lt_le_trans with (2 ^ (8 - u)); [assumption|]. change 256 with (2 ^ 8). apply N.pow_le_mono_r; lia. }
    destruct (shl8_small bb (8 - u) u HBB ltac:(lia)) as [E1 E2].
    rewrite E3, E1. destruct (or_at_ok buf (N.to_nat c) _ HB E2 ltac:(lia)) as (buf' & E & EL & HB' & EV). rewrite E.
    rewrite N2Nat.id, N.shiftl_shiftl in EV.
    destruct (IH (N.shiftr value (8 - u)) (k - (8 - u)) (mkBp buf' (c + 1) 0)) as (p' & EP & OP & PP & LP & VP).
    + split; [assumption|]. split; cbn [bp_bits bp_cursor bp_buf]; unfold bp_pos; cbn [bp_bits bp_cursor bp_buf]; lia.
    + rewrite N.shiftr_div_pow2. apply N.div_lt_upper_bound; [apply N.pow_nonzero; discriminate|].
      rewrite <- N.pow_add_r. now replace (8 - u + (k - (8 - u))) with k by lia.
    + lia.
    + lia.
    + unfold bp_pos. cbn [bp_bits bp_cursor bp_buf]. lia.
    + exists p'. unfold bp_pos in PP, VP. cbn [bp_bits bp_cursor bp_buf] in PP, LP, VP.
      split; [exact EP|]. split; [exact OP|]. split; [lia|]. split; [lia|].
      rewrite VP, EV. rewrite <- N.lor_assoc. f_equal.
      bits_eq. rewrite N.lor_spec. unfold bb.
      destruct (N.ltb_spec j (8 * c + u)).
      { rewrite !N.shiftl_spec_low by lia. reflexivity. }
      rewrite (N.shiftl_spec_high' value) by lia. rewrite (N.shiftl_spec_high' (N.land _ _)) by lia. rewrite N.land_spec.
      replace (j - (u + 8 * c)) with (j - (8 * c + u)) by lia.
      destruct (N.ltb_spec j (8 * (c + 1))).
      * rewrite N.shiftl_spec_low by lia. rewrite N.ones_spec_low by lia. now rewrite Bool.andb_true_r, Bool.orb_false_r.
      * rewrite N.shiftl_spec_high' by lia. rewrite N.ones_spec_high by lia. rewrite Bool.andb_false_r, N.shiftr_spec'. cbn [orb]. f_equal. lia.
Qed.

Definition bytes_for (bits : N) : N := (bits + 7) / 8.
Lemma bytes_for_mono a b : a <= b -> bytes_for a <= bytes_for b.
Proof. intros H. unfold bytes_for. apply N.div_le_mono; lia. Qed.
Lemma bytes_for_spec a : a <= 8 * bytes_for a < a + 8.
Proof. unfold bytes_for. pose proof (N.div_mod' (a + 7) 8). pose proof (N.mod_lt (a + 7) 8). lia. Qed.

Lemma bp_write_ok v k p : bp_ok p -> 1 <= k ->
  exists p', bp_write v k p = Ok p' /\ bp_ok p' /\ bp_pos p' = bp_pos p + k /\
    N.of_nat (length (bp_buf p')) = N.max (N.of_nat (length (bp_buf p))) (bytes_for (bp_pos p + k)) /\
    le_val (bp_buf p') = N.lor (le_val (bp_buf p)) (N.shiftl (v mod 2 ^ k) (bp_pos p)).
Proof.
  intros (HB & HU & HP) HK. unfold bp_write.
  set (len := N.of_nat (length (bp_buf p))). set (e := bp_cursor p * 8 + bp_bits p + k).
  set (buf := if len * 8 <=? e then _ else _).
  assert (E : e = bp_pos p + k) by (unfold e, bp_pos; lia).
  assert (BL : N.of_nat (length buf) = N.max len (bytes_for (bp_pos p + k))).
  { rewrite <- E. pose proof (bytes_for_spec e). unfold buf. destruct (N.leb_spec (len * 8) e).
    - rewrite app_length, repeat_length. pose proof (bytes_for_spec (e - len * 8)). fold (bytes_for (e - len * 8)).
      rewrite Nat2N.inj_add, N2Nat.id. fold len. lia.
    - fold len. lia. }
  assert (BB : bytes_ok buf).
  { unfold buf. destruct (len * 8 <=? e); [|assumption]. apply Forall_app. split; [assumption|].
    apply Forall_forall. intros x X. apply repeat_spec in X. subst. reflexivity. }
  assert (BV : le_val buf = le_val (bp_buf p)).
  { unfold buf. destruct (len * 8 <=? e); [apply le_app_zeros|reflexivity]. }
  pose proof (bytes_for_spec (bp_pos p + k)). clearbody buf.
  assert (PQ : bp_pos (mkBp buf (bp_cursor p) (bp_bits p)) = bp_pos p) by reflexivity.
  destruct (write_loop_ok (S (N.to_nat k)) (v mod 2 ^ k) k (mkBp buf (bp_cursor p) (bp_bits p))) as (p' & EP & OP & PP & LP & VP).
  - split; [assumption|]. split; [assumption|]. rewrite PQ. cbn [bp_buf]. lia.
  - apply N.mod_lt, N.pow_nonzero. discriminate.
  - assumption.
  - lia.
  - rewrite PQ. cbn [bp_buf]. lia.
  - exists p'. rewrite PQ in PP, VP. cbn [bp_buf] in LP, VP. split; [exact EP|]. split; [exact OP|]. split; [exact PP|].
    split; [now rewrite LP, BL|]. now rewrite VP, BV.
Qed.

(** The number made of [k]-bit pieces. *)
Fixpoint packed (k : N) (vs : list N) : N :=
  match vs with [] => 0 | v :: vs' => N.lor (v mod 2 ^ k) (N.shiftl (packed k vs') k) end.
Lemma packed_window k vs : forall i v, nth_error vs i = Some v -> window (packed k vs) (N.of_nat i * k) k = v mod 2 ^ k.
Proof.
  induction vs as [|x vs IH]; intros i v E; [destruct i; discriminate|]. destruct i as [|i]; cbn [nth_error packed] in *.
  - injection E as ->. bits_eq. rewrite window_bit, N.lor_spec, !mod_bit. change (N.of_nat 0 * k) with 0. rewrite N.add_0_r.
    destruct (N.ltb_spec j k); cbn [andb]; [|reflexivity]. rewrite N.shiftl_spec_low by assumption. now rewrite Bool.orb_false_r.
  - rewrite <- (IH i v E). bits_eq. rewrite !window_bit, N.lor_spec, mod_bit. destruct (N.ltb_spec j k); cbn [andb]; [|reflexivity].
    rewrite Nat2N.inj_succ, N.mul_succ_l. replace (j + (N.of_nat i * k + k) <? k) with false by lia. cbn [andb orb].
    rewrite N.shiftl_spec_high' by lia. f_equal. lia.
Qed.
Lemma bp_writes_ok k vs : forall p, bp_ok p -> 1 <= k ->
  exists p', bp_writes vs k p = Ok p' /\ bp_ok p' /\
    N.of_nat (length (bp_buf p')) = N.max (N.of_nat (length (bp_buf p))) (bytes_for (bp_pos p + N.of_nat (length vs) * k)) /\
    le_val (bp_buf p') = N.lor (le_val (bp_buf p)) (N.shiftl (packed k vs) (bp_pos p)).
Proof.
  induction vs as [|v vs IH]; intros p OP HK; cbn [bp_writes packed length].
  - exists p. split; [reflexivity|]. split; [assumption|]. rewrite N.shiftl_0_l, N.lor_0_r. split; [|reflexivity].
    destruct OP as (_ & _ & HP). pose proof (bytes_for_spec (bp_pos p + N.of_nat 0 * k)). lia.
  - destruct (bp_write_ok v k p OP HK) as (p1 & E1 & O1 & P1 & L1 & V1). rewrite E1. cbn [rbind].
    destruct (IH p1 O1 HK) as (p2 & E2 & O2 & L2 & V2). exists p2. split; [exact E2|]. split; [exact O2|]. split.
    + rewrite L2, L1, P1. replace (bp_pos p + k + N.of_nat (length vs) * k) with (bp_pos p + N.of_nat (S (length vs)) * k) by lia.
      rewrite <- N.max_assoc. f_equal. apply N.max_r. apply bytes_for_mono. lia.
    + rewrite V2, V1, P1. rewrite <- N.lor_assoc. f_equal. rewrite N.shiftl_lor. f_equal. rewrite N.shiftl_shiftl. f_equal. lia.
Qed.

(** A buffer that was extended: the old bytes, then the new number. *)
Lemma split_buffer buf l x : bytes_ok buf -> bytes_ok l -> (length buf <= length l)%nat ->
  le_val l = N.lor (le_val buf) (N.shiftl x (8 * N.of_nat (length buf))) ->
  exists tail, l = buf ++ tail /\ le_val tail = x /\ bytes_ok tail.
Proof.
  intros HB HL LE EV. exists (skipn (length buf) l).
  assert (S : l = firstn (length buf) l ++ skipn (length buf) l) by (symmetry; apply firstn_skipn).
  assert (HF : bytes_ok (firstn (length buf) l) /\ bytes_ok (skipn (length buf) l)) by (rewrite S in HL; now apply Forall_app in HL).
  destruct HF as [HF HS].
  assert (FL : length (firstn (length buf) l) = length buf) by (rewrite firstn_length; lia).
  assert (B : forall j, N.testbit (le_val (firstn (length buf) l ++ skipn (length buf) l)) j = N.testbit (N.lor (le_val buf) (N.shiftl x (8 * N.of_nat (length buf)))) j)
    by (intros j; now rewrite <- S, EV).
  split; [|split; [|assumption]].
  - rewrite S at 1. f_equal. apply le_inj; try assumption. bits_eq. specialize (B j). rewrite le_app_bit, FL, N.lor_spec in B by assumption.
    destruct (N.ltb_spec j (8 * N.of_nat (length buf))).
    + rewrite N.shiftl_spec_low in B by assumption. now rewrite Bool.orb_false_r in B.
    + rewrite !le_bit_high by (try assumption; lia). reflexivity.
  - bits_eq. specialize (B (j + 8 * N.of_nat (length buf))). rewrite le_app_bit, FL, N.lor_spec in B by assumption.
    replace (j + 8 * N.of_nat (length buf) <? 8 * N.of_nat (length buf)) with false in B by lia.
    rewrite (le_bit_high buf) in B by (try assumption; lia). rewrite N.shiftl_spec_high' in B by lia. cbn [orb] in B.
    replace (j + 8 * N.of_nat (length buf) - 8 * N.of_nat (length buf)) with j in B by lia. exact B.
Qed.
Lemma write_word buf v : bytes_ok buf -> v < 2 ^ 32 ->
  bp_write v 32 (mkBp buf (N.of_nat (length buf)) 0) = Ok (mkBp (buf ++ le_bytes 4 v) (N.of_nat (length (buf ++ le_bytes 4 v))) 0).
Proof.
  intros HB HV. destruct (bp_write_ok v 32 (mkBp buf (N.of_nat (length buf)) 0)) as (p' & E & (OB & OU & OP) & PP & LP & VP).
  - split; [assumption|]. unfold bp_pos. cbn [bp_bits bp_cursor bp_buf]. lia.
  - lia.
  - unfold bp_pos in PP, LP, VP. cbn [bp_bits bp_cursor bp_buf] in PP, LP, VP.
    rewrite N.add_0_r in VP. rewrite N.mod_small in VP by assumption.
    assert (L4 : N.of_nat (length (bp_buf p')) = N.of_nat (length buf) + 4).
    { rewrite LP. pose proof (bytes_for_spec (8 * N.of_nat (length buf) + 0 + 32)). lia. }
    destruct (split_buffer buf (bp_buf p') v HB OB ltac:(lia) VP) as (tail & ET & EV & HT).
    assert (TL : length tail = 4%nat) by (rewrite ET, app_length in L4; lia).
    assert (TE : tail = le_bytes 4 v) by (rewrite <- TL, <- EV; symmetry; now apply le_bytes_val).
    rewrite E. f_equal. destruct p' as [b c u]. cbn [bp_buf bp_cursor bp_bits] in *. subst b tail. f_equal.
    + rewrite L4. lia.
    + lia.
Qed.
