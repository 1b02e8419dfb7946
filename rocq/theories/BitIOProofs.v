(** The writer refines "append bits", the reader refines "consume bits". *)
From Verif Require Import Base BitSpec BitSpecProofs BitIO.

(** [wrep w bs]: the writer holds exactly the bits [bs], padded with zeros. *)
Definition wrep (w : bwriter) (bs : list bool) : Prop :=
  Forall is_byte (wbuf w) /\ 1 <= wpos w <= 8 /\
  bytes_bits (wbuf w) = bs ++ repeat false (N.to_nat (8 - wpos w)).

Lemma wrep_length w bs : wrep w bs ->
  (8 * length (wbuf w) = length bs + N.to_nat (8 - wpos w))%nat.
Proof.
  intros (_ & _ & H). apply (f_equal (@length bool)) in H.
  rewrite bytes_bits_length, app_length, repeat_length in H. exact H.
Qed.

Lemma wrep_new : wrep w_new [].
Proof. repeat split; cbn; try lia; auto. Qed.

Lemma wrep_unique w1 w2 bs : wrep w1 bs -> wrep w2 bs -> w1 = w2.
Proof.
  intros H1 H2. pose proof (wrep_length _ _ H1). pose proof (wrep_length _ _ H2).
  destruct H1 as (F1 & P1 & E1), H2 as (F2 & P2 & E2).
  assert (wpos w1 = wpos w2) by lia.
  destruct w1 as [b1 p1], w2 as [b2 p2]; cbn in *. subst p2. f_equal.
  apply bytes_bits_inj; auto. congruence.
Qed.

Lemma or_last_app l y v : or_last (l ++ [y]) v = l ++ [N.lor y v].
Proof. unfold or_last. rewrite removelast_last, last_last; auto. Qed.

Lemma is_byte_lor a b : is_byte a -> is_byte b -> is_byte (N.lor a b).
Proof. unfold is_byte. change 256 with (2 ^ 8). apply lor_bound. Qed.

Definition zip_or (a b : list bool) : list bool := map (fun p => orb (fst p) (snd p)) (combine a b).

Lemma bits_of_lor n a b : bits_of n (N.lor a b) = zip_or (bits_of n a) (bits_of n b).
Proof.
  unfold zip_or. induction n as [|n IH]; rewrite ?bits_of_S; cbn; auto. rewrite N.lor_spec, IH. auto.
Qed.

Lemma zip_or_app a b c d : length a = length c -> zip_or (a ++ b) (c ++ d) = zip_or a c ++ zip_or b d.
Proof.
  unfold zip_or. revert c. induction a as [|x a IH]; intros [|y c] H; cbn in *; try discriminate; auto.
  rewrite IH by lia. auto.
Qed.

Lemma zip_or_false_r a n : length a = n -> zip_or a (repeat false n) = a.
Proof.
  unfold zip_or. revert n. induction a as [|x a IH]; intros [|n] H; cbn in *; try discriminate; auto.
  rewrite IH by lia. rewrite orb_false_r. auto.
Qed.

Lemma zip_or_false_l a n : length a = n -> zip_or (repeat false n) a = a.
Proof.
  unfold zip_or. revert n. induction a as [|x a IH]; intros [|n] H; cbn in *; try discriminate; auto.
  rewrite IH by lia. auto.
Qed.

Lemma bits_of_shl n k v m : (k <= n)%nat -> (n <= m)%nat ->
  bits_of n (N.shiftl v (N.of_nat k) mod 2 ^ N.of_nat m) = bits_of (n - k) v ++ repeat false k.
Proof.
  intros Hk Hm. rewrite bits_of_mod by auto. rewrite (bits_of_split n k) by auto. f_equal.
  - f_equal. rewrite N.shiftr_shiftl_l by lia. rewrite N.sub_diag, N.shiftl_0_r. auto.
  - rewrite <- bits_of_zero. apply bits_of_ext. intros i Hi. rewrite N.shiftl_spec_low by lia.
    rewrite N.bits_0; auto.
Qed.

Lemma app_inv_tail_len {A} (a b c d : list A) : length b = length d -> a ++ b = c ++ d -> a = c /\ b = d.
Proof.
  revert c. induction a as [|x a IH]; intros [|y c] Hl E; cbn in *; auto.
  - exfalso. subst b. cbn in Hl. rewrite app_length in Hl. lia.
  - exfalso. subst d. cbn in Hl. rewrite app_length in Hl. lia.
  - injection E as -> E. destruct (IH c Hl E) as [-> ->]. auto.
Qed.

(** Shape of a partially filled writer: the last byte carries the tail. *)
Lemma wrep_last w bs : wrep w bs -> wpos w <> 8 ->
  exists l y p q, wbuf w = l ++ [y] /\ bs = p ++ q /\ length q = N.to_nat (wpos w) /\
    bytes_bits l = p /\ bits_of 8 y = q ++ repeat false (N.to_nat (8 - wpos w)) /\ is_byte y /\ Forall is_byte l.
Proof.
  intros H Hp. pose proof (wrep_length _ _ H) as HL. destruct H as (HF & HP & HE).
  destruct (list_eq_dec N.eq_dec (wbuf w) []) as [E|E]; [rewrite E in HL; cbn in HL; lia|].
  pose proof (app_removelast_last 0 E) as E'.
  set (l := removelast (wbuf w)) in *. set (y := last (wbuf w) 0) in *.
  rewrite E' in HE, HF, HL. rewrite bytes_bits_app in HE.
  rewrite app_length in HL. cbn [length] in HL.
  exists l, y, (firstn (8 * length l) bs), (skipn (8 * length l) bs).
  rewrite <- (firstn_skipn (8 * length l) bs) in HE. rewrite <- app_assoc in HE.
  apply app_inv_tail_len in HE.
  2:{ rewrite bytes_bits_length, app_length, skipn_length, repeat_length. cbn [length]. lia. }
  destruct HE as [HE1 HE2]. unfold bytes_bits in HE2. cbn [flat_map] in HE2. rewrite app_nil_r in HE2.
  apply Forall_app in HF. destruct HF as [HF1 HF2]. inversion_clear HF2.
  repeat split; auto.
  - symmetry. apply firstn_skipn.
  - rewrite skipn_length. lia.
Qed.

Lemma bytes_bits_one y : bytes_bits [y] = bits_of 8 y.
Proof. unfold bytes_bits. cbn [flat_map]. apply app_nil_r. Qed.

Lemma bits_of_single k : (k < 8)%nat ->
  bits_of 8 (N.shiftl 1 (N.of_nat k)) = repeat false (7 - k) ++ true :: repeat false k.
Proof. intros H. do 8 (destruct k as [|k]; [reflexivity|]). lia. Qed.

(** [write_bit] appends one bit. *)
Lemma write_bit_rep w bs b : wrep w bs -> wrep (write_bit w b) (bs ++ [b]).
Proof.
  intros H. unfold write_bit. destruct (N.eqb_spec (wpos w) 8) as [E|E].
  - destruct H as (HF & HP & HE). rewrite E in HE. cbn in HE. rewrite app_nil_r in HE.
    unfold wrep. cbn [wbuf wpos]. split; [|split; [lia|]].
    + destruct b; [rewrite or_last_app|]; apply Forall_app; split; auto; repeat constructor.
    + change (N.to_nat (8 - (0 + 1))) with 7%nat.
      destruct b; [rewrite or_last_app|]; rewrite bytes_bits_app, bytes_bits_one, HE, <- app_assoc; reflexivity.
  - destruct (wrep_last w bs H E) as (l & y & p & q & Hb & -> & Hq & Hp & Hy & By & Bl).
    destruct H as (HF & HP & HE). rewrite Hb.
    assert (HL : N.to_nat (8 - wpos w) = S (N.to_nat (8 - (wpos w + 1)))) by lia.
    unfold wrep. cbn [wbuf wpos]. split; [|split; [lia|]].
    + destruct b; [rewrite or_last_app|]; apply Forall_app; split; auto; repeat constructor; auto.
      apply is_byte_lor; auto. unfold is_byte. rewrite N.shiftl_1_l.
      change 256 with (2 ^ 8). apply N.pow_lt_mono_r; lia.
    + destruct b.
      * rewrite or_last_app, bytes_bits_app, bytes_bits_one, Hp, <- !app_assoc. f_equal.
        rewrite bits_of_lor, Hy.
        replace (7 - wpos w) with (N.of_nat (N.to_nat (8 - (wpos w + 1)))) by lia.
        rewrite bits_of_single by lia.
        rewrite zip_or_app by (rewrite repeat_length, Hq; lia).
        rewrite zip_or_false_r by (rewrite Hq; lia).
        rewrite HL. cbn [repeat]. f_equal. unfold zip_or. cbn. f_equal.
        change (map _ _) with (zip_or (repeat false (N.to_nat (8 - (wpos w + 1)))) (repeat false (N.to_nat (8 - (wpos w + 1))))).
        apply zip_or_false_r. apply repeat_length.
      * rewrite bytes_bits_app, bytes_bits_one, Hp, Hy, HL, <- !app_assoc. reflexivity.
Qed.

(** [write_byte] appends eight bits. *)
Lemma write_byte_rep w bs y : wrep w bs -> is_byte y -> wrep (write_byte w y) (bs ++ bits_of 8 y).
Proof.
  intros H Hy. unfold write_byte. destruct (N.eqb_spec (wpos w) 8) as [E|E].
  - destruct H as (HF & HP & HE). rewrite E in HE |- *. cbn in HE. rewrite app_nil_r in HE.
    unfold wrep. cbn [wbuf wpos]. split; [|split; [lia|]].
    + apply Forall_app; auto.
    + rewrite bytes_bits_app, bytes_bits_one, HE. change (N.to_nat (8 - 8)) with 0%nat. cbn [repeat].
      rewrite app_nil_r; auto.
  - destruct (wrep_last w bs H E) as (l & z & p & q & Hb & -> & Hq & Hp & Hz & Bz & Bl).
    destruct H as (HF & HP & HE). rewrite Hb.
    assert (Hsh : is_byte (N.shiftr y (wpos w))).
    { unfold is_byte in *. rewrite N.shiftr_div_pow2. eapply N.le_lt_trans; [apply N.div_le_upper_bound with (q := y)|eauto].
      - apply N.pow_nonzero; lia.
      - rewrite <- (N.mul_1_l y) at 1. apply N.mul_le_mono_r. apply N.lt_pred_le. apply N.neq_0_lt_0. apply N.pow_nonzero. lia. }
    unfold wrep. cbn [wbuf wpos]. split; [|split; [lia|]].
    + rewrite or_last_app. repeat (apply Forall_app; split; auto).
      * repeat constructor. apply is_byte_lor; auto.
      * repeat constructor. unfold is_byte, shl8. apply N.mod_lt. lia.
    + rewrite or_last_app, !bytes_bits_app, !bytes_bits_one, Hp, <- !app_assoc. f_equal.
      set (k := N.to_nat (wpos w)).
      assert (Hk : (k <= 8)%nat) by (unfold k; lia).
      rewrite bits_of_lor, Hz.
      replace (N.to_nat (8 - wpos w)) with (8 - k)%nat by (unfold k; lia).
      rewrite (bits_of_high 8 (8 - k) (N.shiftr y (wpos w))).
      2:{ rewrite N.shiftr_div_pow2. apply N.div_lt_upper_bound; [apply N.pow_nonzero; lia|].
          rewrite <- N.pow_add_r. replace (wpos w + N.of_nat (8 - k)) with 8 by (unfold k; lia). exact Hy. }
      2:{ lia. }
      replace (8 - (8 - k))%nat with k by lia.
      rewrite zip_or_app by (rewrite repeat_length; auto).
      rewrite zip_or_false_r by auto.
      rewrite zip_or_false_l by apply bits_of_length.
      rewrite <- app_assoc. f_equal.
      unfold shl8. change 256 with (2 ^ N.of_nat 8).
      replace (8 - wpos w) with (N.of_nat (8 - k)) by (unfold k; lia).
      rewrite bits_of_shl by lia.
      replace (8 - (8 - k))%nat with k by lia.
      rewrite (bits_of_split 8 k) by lia.
      rewrite app_assoc. f_equal. f_equal. f_equal. f_equal. unfold k. lia.
Qed.

Lemma write_full_rep fuel w bs v rem : wrep w bs -> (N.to_nat rem <= fuel)%nat ->
  exists w' rem', write_full fuel w v rem = (w', rem') /\ rem' < 8 /\ rem' <= rem /\
    wrep w' (bs ++ bits_of (N.to_nat (rem - rem')) (N.shiftr v rem')).
Proof.
  revert w bs rem. induction fuel as [|f IH]; intros w bs rem H Hf; cbn [write_full].
  - exists w, rem. split; [reflexivity|split; [lia|split; [lia|]]]. replace (N.to_nat (rem - rem)) with 0%nat by lia. rewrite bits_of_0, app_nil_r; auto.
  - destruct (N.leb_spec 8 rem) as [H8|H8].
    + destruct (IH (write_byte w (N.shiftr v (rem - 8) mod 256)) (bs ++ bits_of 8 (N.shiftr v (rem - 8) mod 256)) (rem - 8))
        as (w' & rem' & E1 & E2 & E3 & E4).
      * apply write_byte_rep; auto. unfold is_byte. apply N.mod_lt. lia.
      * lia.
      * exists w', rem'. rewrite E1. split; [reflexivity|split; [lia|split; [lia|]]].
        rewrite <- app_assoc in E4.
        change 256 with (2 ^ N.of_nat 8) in E4. rewrite bits_of_mod in E4 by auto.
        replace (N.to_nat (rem - rem')) with (8 + N.to_nat (rem - 8 - rem'))%nat by lia.
        rewrite bits_of_app.
        rewrite N.shiftr_shiftr. replace (rem' + N.of_nat (N.to_nat (rem - 8 - rem'))) with (rem - 8) by lia.
        exact E4.
    + exists w, rem. split; [reflexivity|split; [lia|split; [lia|]]]. replace (N.to_nat (rem - rem)) with 0%nat by lia. rewrite bits_of_0, app_nil_r; auto.
Qed.

Lemma land_shift_bit v j : negb (N.land (N.shiftr v j) 1 =? 0) = N.testbit v j.
Proof.
  rewrite <- (N.add_0_l j) at 2. rewrite <- N.shiftr_spec by lia.
  change 1 with (N.ones 1). rewrite N.land_ones. change (2 ^ 1) with 2.
  rewrite N.testbit_eqb. rewrite N.pow_0_r, N.div_1_r.
  pose proof (N.mod_lt (N.shiftr v j) 2). destruct (N.eqb_spec (N.shiftr v j mod 2) 0) as [->|]; auto.
  destruct (N.eqb_spec (N.shiftr v j mod 2) 1); auto. exfalso.
  revert H n n0. generalize (N.shiftr v j mod 2). intros; lia.
Qed.

Lemma write_rest_rep i w bs v : wrep w bs -> wrep (write_rest i w v) (bs ++ bits_of i v).
Proof.
  revert w bs. induction i as [|i IH]; intros w bs H; cbn [write_rest]; rewrite ?bits_of_S, ?bits_of_0.
  - rewrite app_nil_r; auto.
  - rewrite land_shift_bit. change (N.testbit v (N.of_nat i) :: bits_of i v) with ([N.testbit v (N.of_nat i)] ++ bits_of i v).
    rewrite app_assoc. apply IH. apply write_bit_rep; auto.
Qed.

(** [write_bits v n] appends the low [n] bits of [v]. *)
Theorem write_bits_rep w bs v n : wrep w bs -> wrep (write_bits w v n) (bs ++ bits_of (N.to_nat n) v).
Proof.
  intros H. unfold write_bits.
  destruct (write_full_rep (N.to_nat n) w bs v n H (Nat.le_refl _)) as (w' & rem' & E1 & E2 & E3 & E4).
  rewrite E1. rewrite (bits_of_split (N.to_nat n) (N.to_nat rem')) by lia.
  rewrite <- N2Nat.inj_sub, N2Nat.id, app_assoc.
  destruct (N.ltb_spec 0 rem') as [Hr|Hr].
  - replace (bits_of (N.to_nat rem') v) with (bits_of (N.to_nat rem') (N.land v (N.shiftl 1 rem' - 1))).
    + apply write_rest_rep; auto.
    + rewrite N.shiftl_1_l, N.sub_1_r. change (N.pred (2 ^ rem')) with (N.pred (2 ^ rem')).
      rewrite <- N.ones_equiv, N.land_ones. rewrite <- (N2Nat.id rem') at 2. apply bits_of_mod. lia.
  - replace (N.to_nat rem') with 0%nat by lia. rewrite ?bits_of_S, ?bits_of_0. rewrite app_nil_r; auto.
Qed.

Lemma number_of_bits_written_rep w bs : wrep w bs -> number_of_bits_written w = N.of_nat (length bs).
Proof.
  intros H. pose proof (wrep_length _ _ H). destruct H as (_ & HP & _). unfold number_of_bits_written. lia.
Qed.

(** ---- reader ---- *)

(** A reader whose cursor is inside (or exactly at the end of) its buffer. *)
Definition rwf (r : breader) : Prop :=
  Forall is_byte (rbuf r) /\ rbit r < 8 /\ rbyte r * 8 + rbit r <= rlen r * 8.

Definition rpos (r : breader) : N := rbyte r * 8 + rbit r.

(** The bits not consumed yet. *)
Definition rrem (r : breader) : list bool := skipn (N.to_nat (rpos r)) (bytes_bits (rbuf r)).

Lemma rwf_new buf : Forall is_byte buf -> rwf (r_new buf).
Proof. intros H. repeat split; auto; cbn; lia. Qed.
Lemma rrem_new buf : rrem (r_new buf) = bytes_bits buf.
Proof. reflexivity. Qed.

Lemma rrem_length r : rwf r -> length (rrem r) = N.to_nat (rlen r * 8 - rpos r).
Proof.
  intros (_ & H & H'). unfold rrem, rpos, rlen in *. rewrite skipn_length, bytes_bits_length. lia.
Qed.

Lemma skipn_bytes_bits buf i : skipn (8 * i) (bytes_bits buf) = bytes_bits (skipn i buf).
Proof.
  revert i. induction buf as [|y buf IH]; intros i.
  - destruct i; reflexivity.
  - destruct i as [|i]; auto. cbn [skipn].
    change (bytes_bits (y :: buf)) with (bits_of 8 y ++ bytes_bits buf).
    replace (8 * S i)%nat with (8 + 8 * i)%nat by lia.
    rewrite (Nat.add_comm 8), <- skipn_skipn.
    rewrite skipn_app, bits_of_length.
    replace (skipn 8 (bits_of 8 y)) with (@nil bool) by (symmetry; apply skipn_all2; rewrite bits_of_length; auto).
    cbn [Nat.sub app skipn]. apply IH.
Qed.

Lemma skipn_nth (buf : list N) i : (i < length buf)%nat -> skipn i buf = nth i buf 0 :: skipn (S i) buf.
Proof.
  revert i. induction buf as [|y buf IH]; intros i H; cbn in *; [lia|].
  destruct i as [|i]; auto. apply IH. lia.
Qed.

Lemma rrem_expand r : rwf r -> rbyte r < rlen r ->
  rrem r = skipn (N.to_nat (rbit r)) (bits_of 8 (byte_at (rbuf r) (rbyte r))) ++ bytes_bits (skipn (S (N.to_nat (rbyte r))) (rbuf r)).
Proof.
  intros (HF & H & H') Hb. unfold rrem, rpos, rlen in *.
  replace (N.to_nat (rbyte r * 8 + rbit r)) with (N.to_nat (rbit r) + 8 * N.to_nat (rbyte r))%nat by lia.
  rewrite <- skipn_skipn, skipn_bytes_bits. rewrite skipn_nth by lia.
  change (bytes_bits (?a :: ?b)) with (bits_of 8 a ++ bytes_bits b).
  rewrite skipn_app, bits_of_length. replace (N.to_nat (rbit r) - 8)%nat with 0%nat by lia. reflexivity.
Qed.

Lemma bits_of_firstn_skipn n k v : (k <= n)%nat ->
  firstn (n - k) (bits_of n v) = bits_of (n - k) (N.shiftr v (N.of_nat k)) /\ skipn (n - k) (bits_of n v) = bits_of k v.
Proof.
  intros H. rewrite (bits_of_split n k) by auto. split.
  - rewrite firstn_app, bits_of_length, Nat.sub_diag, firstn_all2 by (rewrite bits_of_length; auto). cbn. apply app_nil_r.
  - rewrite skipn_app, bits_of_length, Nat.sub_diag, skipn_all2 by (rewrite bits_of_length; auto). reflexivity.
Qed.

Lemma nth_byte buf i : Forall is_byte buf -> is_byte (byte_at buf i).
Proof.
  intros H. unfold byte_at. destruct (Nat.lt_ge_cases (N.to_nat i) (length buf)) as [Hl|Hl].
  - eapply Forall_forall; [exact H|]. apply nth_In; auto.
  - rewrite nth_overflow by auto. reflexivity.
Qed.

Lemma read_bit_unchecked_rep r : rwf r -> rbyte r < rlen r ->
  exists b r', read_bit_unchecked r = Some (b, r') /\ rwf r' /\ rrem r = b :: rrem r' /\ rbuf r' = rbuf r /\ rpos r' = rpos r + 1.
Proof.
  intros Hw Hb. pose proof Hw as (HF & H & H'). unfold read_bit_unchecked.
  destruct (N.leb_spec (rlen r) (rbyte r)) as [?|_]; [lia|].
  rewrite land_shift_bit. do 2 eexists. split; [reflexivity|].
  assert (Hsk : skipn (N.to_nat (rbit r)) (bits_of 8 (byte_at (rbuf r) (rbyte r))) =
          N.testbit (byte_at (rbuf r) (rbyte r)) (7 - rbit r) :: skipn (S (N.to_nat (rbit r))) (bits_of 8 (byte_at (rbuf r) (rbyte r)))).
  { replace (N.to_nat (rbit r)) with (8 - (8 - N.to_nat (rbit r)))%nat by lia.
    rewrite (proj2 (bits_of_firstn_skipn 8 (8 - N.to_nat (rbit r)) _ ltac:(lia))).
    replace (S (8 - (8 - N.to_nat (rbit r))))%nat with (8 - (7 - N.to_nat (rbit r)))%nat by lia.
    rewrite (proj2 (bits_of_firstn_skipn 8 (7 - N.to_nat (rbit r)) _ ltac:(lia))).
    replace (8 - N.to_nat (rbit r))%nat with (S (7 - N.to_nat (rbit r))) by lia. rewrite ?bits_of_S, ?bits_of_0.
    f_equal. f_equal. lia. }
  pose proof (rrem_expand r Hw Hb) as HR. rewrite Hsk in HR.
  destruct (N.eqb_spec (rbit r + 1) 8) as [E|E].
  - split; [|split; [|split]].
    + unfold rwf, rlen in *. cbn. repeat split; auto; lia.
    + rewrite HR. cbn [app]. f_equal.
      unfold rrem at 1, rpos. cbn [rbuf rbyte rbit].
      replace (N.to_nat ((rbyte r + 1) * 8 + 0)) with (8 * S (N.to_nat (rbyte r)))%nat by lia.
      rewrite skipn_bytes_bits.
      rewrite skipn_all2 by (rewrite bits_of_length; lia). reflexivity.
    + reflexivity.
    + unfold rpos; cbn. lia.
  - assert (Hw' : rwf (mkR (rbuf r) (rbyte r) (rbit r + 1))).
    { unfold rwf, rlen in *. cbn. repeat split; auto; lia. }
    split; [auto|split; [|split]].
    + rewrite HR. cbn [app]. f_equal. rewrite (rrem_expand _ Hw') by (unfold rlen in *; cbn; lia).
      cbn [rbit rbyte rbuf]. replace (N.to_nat (rbit r + 1)) with (S (N.to_nat (rbit r))) by lia. auto.
    + reflexivity.
    + unfold rpos; cbn. lia.
Qed.

Lemma lor_disjoint_val p q (k : nat) : (k <= 8)%nat -> p < 2 ^ N.of_nat (8 - k) -> q < 2 ^ N.of_nat k ->
  bits_of 8 (N.lor (N.shiftl p (N.of_nat k)) q) = bits_of (8 - k) p ++ bits_of k q.
Proof.
  intros Hk Hp Hq. rewrite bits_of_lor.
  rewrite <- (bits_of_mod 8 (N.shiftl p (N.of_nat k)) 8) by lia.
  rewrite bits_of_shl by lia. rewrite (bits_of_high 8 k q) by auto.
  rewrite zip_or_app by (rewrite repeat_length, bits_of_length; auto).
  rewrite zip_or_false_r by apply bits_of_length. rewrite zip_or_false_l by apply bits_of_length. auto.
Qed.

(** Reading eight bits that are all present. *)
Lemma read_byte_unchecked_rep r : rwf r -> rpos r + 8 <= rlen r * 8 ->
  exists y r', read_byte_unchecked r = Some (y, r') /\ is_byte y /\ rwf r' /\ rrem r = bits_of 8 y ++ rrem r' /\
    rbuf r' = rbuf r /\ rpos r' = rpos r + 8.
Proof.
  intros Hw Hp. pose proof Hw as (HF & H & H'). unfold rpos in Hp. unfold read_byte_unchecked.
  destruct (N.leb_spec (rlen r) (rbyte r)) as [?|_]; [lia|].
  assert (Hb : rbyte r < rlen r) by lia.
  pose proof (rrem_expand r Hw Hb) as HR.
  destruct (N.eqb_spec (rbit r) 0) as [E|E].
  - do 2 eexists. split; [reflexivity|]. split; [apply nth_byte; auto|].
    split; [|split; [|split]].
    + unfold rwf, rlen in *; cbn; repeat split; auto; lia.
    + rewrite HR, E. cbn [N.to_nat skipn]. change (N.to_nat 0) with 0%nat. cbn [skipn]. f_equal.
      unfold rrem, rpos. cbn [rbuf rbyte rbit].
      replace (N.to_nat ((rbyte r + 1) * 8 + 0)) with (8 * S (N.to_nat (rbyte r)))%nat by lia.
      rewrite skipn_bytes_bits. auto.
    + auto.
    + unfold rpos; cbn; lia.
  - destruct (N.ltb_spec (rbyte r + 1) (rlen r)) as [Hl|Hl]; [|lia].
    do 2 eexists. split; [reflexivity|].
    set (k := N.to_nat (rbit r)).
    assert (Hw' : rwf (mkR (rbuf r) (rbyte r + 1) (rbit r))).
    { unfold rwf, rlen in *; cbn; repeat split; auto; lia. }
    assert (Hlo : N.shiftr (byte_at (rbuf r) (rbyte r + 1)) (8 - rbit r) < 2 ^ N.of_nat k).
    { rewrite N.shiftr_div_pow2. apply N.div_lt_upper_bound; [apply N.pow_nonzero; lia|].
      rewrite <- N.pow_add_r. replace (8 - rbit r + N.of_nat k) with 8 by (unfold k; lia). apply nth_byte; auto. }
    split; [|split; [|split; [|split]]].
    + apply is_byte_lor.
      * unfold is_byte, shl8. apply N.mod_lt. lia.
      * unfold is_byte. eapply N.lt_le_trans; [exact Hlo|]. change 256 with (2 ^ 8). apply N.pow_le_mono_r; lia.
    + auto.
    + rewrite HR.
      rewrite (rrem_expand _ Hw') by (unfold rlen in *; cbn; lia).
      cbn [rbit rbyte rbuf]. fold k.
      replace (N.to_nat (rbyte r + 1)) with (S (N.to_nat (rbyte r))) by lia.
      rewrite (skipn_nth (rbuf r) (S (N.to_nat (rbyte r)))) by (unfold rlen in *; lia).
      change (bytes_bits (?a :: ?b)) with (bits_of 8 a ++ bytes_bits b).
      rewrite app_assoc, (app_assoc (bits_of 8 _)). f_equal.
      replace (nth (S (N.to_nat (rbyte r))) (rbuf r) 0) with (byte_at (rbuf r) (rbyte r + 1)) by (unfold byte_at; f_equal; lia).
      set (y1 := byte_at (rbuf r) (rbyte r)). set (y2 := byte_at (rbuf r) (rbyte r + 1)).
      rewrite bits_of_lor. unfold shl8. change 256 with (2 ^ N.of_nat 8).
      replace (rbit r) with (N.of_nat k) at 1 by (unfold k; lia).
      rewrite bits_of_shl by (unfold k; lia).
      rewrite (bits_of_high 8 k (N.shiftr y2 (8 - rbit r))); [|exact Hlo|unfold k; lia].
      rewrite zip_or_app by (rewrite repeat_length, bits_of_length; auto).
      rewrite zip_or_false_r by apply bits_of_length. rewrite zip_or_false_l by apply bits_of_length.
      replace k with (8 - (8 - k))%nat at 1 by (unfold k; lia).
      rewrite (proj2 (bits_of_firstn_skipn 8 (8 - k) y1 ltac:(lia))).
      rewrite <- app_assoc. f_equal.
      assert (Hsk : skipn k (bits_of 8 y2) = bits_of (8 - k) y2).
      { replace k with (8 - (8 - k))%nat at 1 by (unfold k; lia).
        apply (bits_of_firstn_skipn 8 (8 - k) y2). lia. }
      rewrite Hsk. rewrite (bits_of_split 8 (8 - k) y2) at 1 by lia.
      f_equal. replace (8 - (8 - k))%nat with k by (unfold k; lia). f_equal. f_equal. unfold k; lia.
    + auto.
    + unfold rpos; cbn; lia.
Qed.

Lemma shl64_small acc n k : acc < 2 ^ n -> n + k <= 64 -> shl64 acc k = acc * 2 ^ k /\ acc * 2 ^ k < 2 ^ (n + k).
Proof.
  intros Ha Hn. rewrite N.pow_add_r.
  assert (Hlt : acc * 2 ^ k < 2 ^ n * 2 ^ k).
  { apply N.mul_lt_mono_pos_r; auto. apply N.neq_0_lt_0, N.pow_nonzero. lia. }
  split; auto. unfold shl64. rewrite N.shiftl_mul_pow2. apply N.mod_small.
  eapply N.lt_le_trans; [exact Hlt|]. rewrite <- N.pow_add_r. change two64 with (2 ^ 64). apply N.pow_le_mono_r; lia.
Qed.

Lemma lor_low_add a k y : y < 2 ^ k -> N.lor (a * 2 ^ k) y = a * 2 ^ k + y.
Proof.
  intros Hy. symmetry. rewrite <- N.lxor_lor.
  - apply N.add_nocarry_lxor. apply N.bits_inj. intros i. rewrite N.land_spec, N.bits_0.
    rewrite <- N.shiftl_mul_pow2.
    destruct (N.lt_ge_cases i k).
    + rewrite N.shiftl_spec_low by auto. auto.
    + rewrite (small_testbit y k i) by auto. apply andb_false_r.
  - apply N.bits_inj. intros i. rewrite N.land_spec, N.bits_0.
    rewrite <- N.shiftl_mul_pow2.
    destruct (N.lt_ge_cases i k).
    + rewrite N.shiftl_spec_low by auto. auto.
    + rewrite (small_testbit y k i) by auto. apply andb_false_r.
Qed.

Lemma firstn_app_len {A} (a b : list A) n : n = length a -> firstn n (a ++ b) = a.
Proof. intros ->. rewrite firstn_app, Nat.sub_diag, firstn_all. cbn. apply app_nil_r. Qed.
Lemma skipn_app_len {A} (a b : list A) n : n = length a -> skipn n (a ++ b) = b.
Proof. intros ->. rewrite skipn_app, Nat.sub_diag, skipn_all. reflexivity. Qed.

(** [pre]: bits read so far by the call. *)
Lemma read_full_rep fuel r pre rem : rwf r -> (N.to_nat rem <= fuel)%nat ->
  N.of_nat (length pre) + rem <= 64 -> rpos r + rem <= rlen r * 8 ->
  exists q rem' r', read_full fuel r (val_of pre) rem = Some (val_of (pre ++ q), rem', r') /\
    rem' < 8 /\ N.of_nat (length q) + rem' = rem /\ rwf r' /\ rrem r = q ++ rrem r' /\ rbuf r' = rbuf r /\
    rpos r' + rem' = rpos r + rem.
Proof.
  revert r pre rem. induction fuel as [|f IH]; intros r pre rem Hw Hf H64 Hp; cbn [read_full].
  - exists [], rem, r. rewrite app_nil_r. split; auto. repeat split; auto; try lia; apply Hw.
  - destruct (N.leb_spec 8 rem) as [H8|H8].
    2:{ exists [], rem, r. rewrite app_nil_r. split; auto. repeat split; auto; try lia; apply Hw. }
    destruct (read_byte_unchecked_rep r Hw) as (y & r1 & E & By & Hw1 & HR & HB & HP); [lia|].
    rewrite E.
    assert (Ev : N.lor (shl64 (val_of pre) 8) y = val_of (pre ++ bits_of 8 y)).
    { rewrite val_of_app, bits_of_length, val_of_bits_of by exact By.
      destruct (shl64_small (val_of pre) (N.of_nat (length pre)) 8) as [-> _]; [apply val_of_bound|lia|].
      apply lor_low_add. exact By. }
    rewrite Ev.
    destruct (IH r1 (pre ++ bits_of 8 y) (rem - 8)) as (q & rem' & r' & E1 & E2 & E3 & E4 & E5 & E6 & E7); auto.
    + lia.
    + rewrite app_length, bits_of_length. lia.
    + unfold rlen in *. rewrite HB. lia.
    + exists (bits_of 8 y ++ q), rem', r'. rewrite E1, <- app_assoc. split; auto.
      repeat split; auto; try apply E4.
      * rewrite app_length, bits_of_length. lia.
      * rewrite HR, E5, <- app_assoc. auto.
      * congruence.
      * lia.
Qed.

Lemma read_rest_rep n r pre : rwf r -> (length pre + n <= 64)%nat -> rpos r + N.of_nat n <= rlen r * 8 ->
  exists q r', read_rest n r (val_of pre) = Some (val_of (pre ++ q), r') /\ length q = n /\ rwf r' /\
    rrem r = q ++ rrem r' /\ rbuf r' = rbuf r /\ rpos r' = rpos r + N.of_nat n.
Proof.
  revert r pre. induction n as [|n IH]; intros r pre Hw H64 Hp; cbn [read_rest].
  - exists [], r. rewrite app_nil_r. split; auto. repeat split; auto; try apply Hw. lia.
  - destruct (read_bit_unchecked_rep r Hw) as (b & r1 & E & Hw1 & HR & HB & HP).
    { unfold rpos in Hp. lia. }
    rewrite E.
    assert (Ev : (if b then N.lor (shl64 (val_of pre) 1) 1 else shl64 (val_of pre) 1) = val_of (pre ++ [b])).
    { rewrite val_of_app. destruct (shl64_small (val_of pre) (N.of_nat (length pre)) 1) as [-> _]; [apply val_of_bound|lia|].
      cbn [length]. change (N.of_nat 1) with 1. destruct b.
      - rewrite lor_low_add by reflexivity. reflexivity.
      - change (val_of [false]) with 0. lia. }
    rewrite Ev.
    destruct (IH r1 (pre ++ [b])) as (q & r' & E1 & E2 & E3 & E4 & E5 & E6); auto.
    + rewrite app_length. cbn. lia.
    + unfold rlen in *. rewrite HB. lia.
    + exists (b :: q), r'. rewrite E1, <- app_assoc. split; auto. repeat split; try apply E3; cbn; auto.
      * rewrite HR, E4. auto.
      * congruence.
      * lia.
Qed.

(** [read_bits] either returns the next [n] bits or reports the end and stays put. *)
Theorem read_bits_rep r n : rwf r -> n <= 64 ->
  (n <= N.of_nat (length (rrem r)) ->
     exists r', read_bits r n = Got (val_of (firstn (N.to_nat n) (rrem r))) r' /\ rwf r' /\
       rrem r' = skipn (N.to_nat n) (rrem r) /\ rbuf r' = rbuf r /\ rpos r' = rpos r + n) /\
  (N.of_nat (length (rrem r)) < n -> read_bits r n = End_ r).
Proof.
  intros Hw Hn. rewrite (rrem_length r Hw).
  pose proof Hw as (HF & H & H'). unfold read_bits.
  destruct (N.ltb_spec (rlen r) (rbyte r)) as [?|_]; [lia|].
  destruct (N.ltb_spec ((rlen r - rbyte r) * 8) (rbit r)) as [?|_]; [lia|]. cbn [orb].
  split; intros Hl.
  - destruct (N.ltb_spec ((rlen r - rbyte r) * 8 - rbit r) n) as [?|_]; [unfold rpos in *; lia|].
    destruct (read_full_rep (N.to_nat n) r [] n) as (q & rem' & r1 & E1 & E2 & E3 & E4 & E5 & E6 & E7); auto.
    { unfold rpos in *; lia. }
    change (val_of []) with 0 in E1. rewrite E1. cbn [app].
    destruct (read_rest_rep (N.to_nat rem') r1 q) as (q2 & r2 & F1 & F2 & F3 & F4 & F5 & F6); auto.
    { lia. } { unfold rlen, rpos in *. rewrite E6. lia. }
    rewrite F1. exists r2.
    assert (HR : rrem r = (q ++ q2) ++ rrem r2) by (rewrite E5, F4, app_assoc; auto).
    assert (HL : N.to_nat n = length (q ++ q2)) by (rewrite app_length; lia).
    split.
    + rewrite HR, firstn_app_len; auto.
    + repeat split; try apply F3.
      * rewrite HR, skipn_app_len; auto.
      * congruence.
      * lia.
  - destruct (N.ltb_spec ((rlen r - rbyte r) * 8 - rbit r) n) as [?|?]; [auto|unfold rpos in *; lia].
Qed.

(** Reading back a field that is known to come next. *)
Corollary read_bits_field r n v rest : rwf r -> n <= 64 ->
  rrem r = bits_of (N.to_nat n) v ++ rest ->
  exists r', read_bits r n = Got (v mod 2 ^ n) r' /\ rwf r' /\ rrem r' = rest.
Proof.
  intros Hw Hn HR. destruct (read_bits_rep r n Hw Hn) as [H1 _].
  destruct H1 as (r' & E & Hw' & HR' & _ & _).
  { rewrite HR, app_length, bits_of_length. lia. }
  exists r'. rewrite HR in E, HR'.
  rewrite firstn_app_len in E by (rewrite bits_of_length; auto).
  rewrite skipn_app_len in HR' by (rewrite bits_of_length; auto).
  rewrite <- (bits_of_mod _ v (N.to_nat n)) in E by auto. rewrite N2Nat.id in E.
  rewrite val_of_bits_of in E; [auto|]. rewrite N2Nat.id. apply N.mod_lt. apply N.pow_nonzero. lia.
Qed.

Corollary read_bits_val r n v rest : rwf r -> n <= 64 -> v < 2 ^ n ->
  rrem r = bits_of (N.to_nat n) v ++ rest ->
  exists r', read_bits r n = Got v r' /\ rwf r' /\ rrem r' = rest.
Proof.
  intros Hw Hn Hv HR. destruct (read_bits_field r n v rest Hw Hn HR) as (r' & E & H).
  rewrite N.mod_small in E by auto. eauto.
Qed.

Theorem read_bit_rep r : rwf r ->
  match rrem r with
  | [] => read_bit r = End_ r
  | b :: rest => exists r', read_bit r = Got b r' /\ rwf r' /\ rrem r' = rest /\ rbuf r' = rbuf r /\ rpos r' = rpos r + 1
  end.
Proof.
  intros Hw. pose proof (rrem_length r Hw) as HL. pose proof Hw as (HF & H & H').
  unfold read_bit. destruct (N.leb_spec (rlen r) (rbyte r)) as [Hb|Hb].
  - destruct (rrem r); auto. cbn in HL. unfold rpos in HL. lia.
  - destruct (read_bit_unchecked_rep r Hw Hb) as (b & r1 & E & Hw1 & HR & HB & HP).
    rewrite HR, E. eauto 10.
Qed.

Corollary read_bit_cons r b rest : rwf r -> rrem r = b :: rest ->
  exists r', read_bit r = Got b r' /\ rwf r' /\ rrem r' = rest.
Proof.
  intros Hw HR. pose proof (read_bit_rep r Hw) as H. rewrite HR in H.
  destruct H as (r' & E & H1 & H2 & _). eauto.
Qed.

Theorem read_byte_rep r : rwf r ->
  ((8 <= length (rrem r))%nat -> exists y r', read_byte r = Got y r' /\ is_byte y /\ rwf r' /\
      rrem r = bits_of 8 y ++ rrem r' /\ rbuf r' = rbuf r /\ rpos r' = rpos r + 8) /\
  ((length (rrem r) < 8)%nat -> read_byte r = End_ r).
Proof.
  intros Hw. pose proof (rrem_length r Hw) as HL. pose proof Hw as (HF & H & H'). unfold rpos in HL.
  unfold read_byte. split; intros HX.
  - destruct (N.leb_spec (rlen r) (rbyte r)) as [?|_]; [lia|].
    destruct (N.leb_spec (rlen r) (rbyte r + 1)); cbn [andb].
    + destruct (N.eqb_spec (rbit r) 0); cbn [negb]; [|lia].
      destruct (read_byte_unchecked_rep r Hw) as (y & r1 & E & E2); [unfold rpos; lia|].
      rewrite E. exists y, r1. tauto.
    + destruct (read_byte_unchecked_rep r Hw) as (y & r1 & E & E2); [unfold rpos; lia|].
      rewrite E. exists y, r1. tauto.
  - destruct (N.leb_spec (rlen r) (rbyte r)) as [?|?]; auto.
    destruct (N.leb_spec (rlen r) (rbyte r + 1)); cbn [andb]; [|lia].
    destruct (N.eqb_spec (rbit r) 0); cbn [negb]; auto. lia.
Qed.

Theorem skip_bits_rep r n : rwf r -> n <= N.of_nat (length (rrem r)) ->
  rwf (skip_bits r n) /\ rrem (skip_bits r n) = skipn (N.to_nat n) (rrem r).
Proof.
  intros Hw Hn. pose proof (rrem_length r Hw) as HL. pose proof Hw as (HF & H & H').
  assert (HP : rpos (skip_bits r n) = rpos r + n).
  { unfold rpos, skip_bits. cbn. pose proof (N.div_mod (n + rbit r) 8). lia. }
  split.
  - unfold rwf. change (rbuf (skip_bits r n)) with (rbuf r). change (rlen (skip_bits r n)) with (rlen r).
    split; auto. split; [cbn; apply N.mod_lt; lia|]. unfold rpos in *. lia.
  - unfold rrem. rewrite HP. change (rbuf (skip_bits r n)) with (rbuf r).
    rewrite skipn_skipn. f_equal. lia.
Qed.

Lemma peak_bits_spec r n : rwf r -> n <= 64 ->
  peak_bits r n = match read_bits r n with Got v _ => Got v r | End_ _ => End_ r | RPanic => RPanic end.
Proof.
  intros Hw Hn. unfold peak_bits. destruct (read_bits_rep r n Hw Hn) as [H1 H2].
  destruct (N.le_gt_cases n (N.of_nat (length (rrem r)))) as [Hl|Hl].
  - destruct (H1 Hl) as (r' & -> & _ & _ & HB & _). rewrite HB. destruct r; reflexivity.
  - rewrite (H2 Hl). destruct r; reflexivity.
Qed.
