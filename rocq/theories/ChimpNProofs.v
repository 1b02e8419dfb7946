From Verif Require Import Base BitSpec BitSpecProofs BitIO BitIOProofs WordProofs
  Xor XorSpec XorProofs Gorilla GorillaProofs Chimp ChimpProofs ChimpN.

Lemma bits_of_concat a b h l : l < 2 ^ N.of_nat b ->
  bits_of (a + b) (h * 2 ^ N.of_nat b + l) = bits_of a h ++ bits_of b l.
Proof.
  intros Hl. rewrite bits_of_app. f_equal.
  - f_equal. rewrite N.shiftr_div_pow2. rewrite N.div_add_l by (apply N.pow_nonzero; lia).
    rewrite N.div_small by auto. lia.
  - rewrite <- (bits_of_mod b _ b) by auto. f_equal.
    rewrite N.add_comm, N.mod_add by (apply N.pow_nonzero; lia). apply N.mod_small. auto.
Qed.

Lemma land_mask_mod v k : N.land v (2 ^ k - 1) = v mod 2 ^ k.
Proof. rewrite <- N.land_ones, N.ones_equiv, N.sub_1_r. reflexivity. Qed.

Lemma flag_fields p q s : p < 128 -> q < 8 -> s < 64 ->
  let t := 512 * p + 64 * q + s in
  t < 2 ^ 16 /\ N.land (N.shiftr t 9) 127 = p /\ N.land (N.shiftr t 6) 7 = q /\ N.land (N.shiftr t 0) 63 = s.
Proof.
  intros Hp Hq Hs t.
  assert (E9 : t / 2 ^ 9 = p).
  { symmetry. apply N.div_unique with (r := 64 * q + s); change (2 ^ 9) with 512; unfold t; lia. }
  assert (E6 : t / 2 ^ 6 = 8 * p + q).
  { symmetry. apply N.div_unique with (r := s); change (2 ^ 6) with 64; unfold t; lia. }
  split; [change (2 ^ 16) with 65536; unfold t; lia|].
  rewrite !N.shiftr_div_pow2, E9, E6. change (2 ^ 0) with 1. rewrite N.div_1_r.
  split; [|split].
  - etransitivity; [apply (land_mask_mod _ 7)|]. apply N.mod_small. exact Hp.
  - etransitivity; [apply (land_mask_mod _ 3)|]. change (2 ^ 3) with 8.
    rewrite N.mul_comm, N.add_comm, N.mod_add by lia. apply N.mod_small. lia.
  - etransitivity; [apply (land_mask_mod _ 6)|]. change (2 ^ 6) with 64.
    unfold t. replace (512 * p + 64 * q + s) with (s + (8 * p + q) * 64) by lia.
    rewrite N.mod_add by lia. apply N.mod_small. lia.
Qed.

Definition ne_inv (e : nenc) : Prop :=
  (forall i, is_u64 (ne_vals e i)) /\ ne_current e = ne_index e mod cn_n /\
  (forall k, ne_indices e k <= ne_index e).

Definition n_sim (e : nenc) (d : ndec) : Prop :=
  nd_eos d = false /\ nd_first d = ne_first e /\ nd_current d = ne_current e /\
  (forall i, nd_vals d i = ne_vals e i) /\
  (forall i, ne_vals e i <> nan_bits) /\
  (ne_first e = false -> nd_val d = ne_vals e (ne_current e)) /\
  (ne_lz e <= 24 -> nd_lz d = ne_lz e).

Lemma upd_same f k v : upd f k v k = v.
Proof. unfold upd. rewrite N.eqb_refl. auto. Qed.
Lemma upd_u64 f k v : (forall i, is_u64 (f i)) -> is_u64 v -> forall i, is_u64 (upd f k v i).
Proof. intros Hf Hv i. unfold upd. destruct (i =? k); auto. Qed.
Lemma upd_ext f g k v : (forall i, f i = g i) -> forall i, upd f k v i = upd g k v i.
Proof. intros H i. unfold upd. destruct (i =? k); auto. Qed.
Lemma upd_neq f k v c : (forall i, f i <> c) -> v <> c -> forall i, upd f k v i <> c.
Proof. intros H Hv i. unfold upd. destruct (i =? k); auto. Qed.

Lemma succ_mod n : (n mod cn_n + 1) mod cn_n = (n + 1) mod cn_n.
Proof. rewrite N.add_mod_idemp_l by (unfold cn_n; lia). reflexivity. Qed.

Lemma ne_choose_spec e v prev xor tz : ne_inv e -> is_u64 v -> ne_choose e v = (prev, xor, tz) ->
  prev < 128 /\ xor = N.lxor v (ne_vals e prev) /\
  ((cn_threshold < tz /\ tz = ctz64 xor) \/ (tz <= cn_threshold /\ prev = ne_current e)).
Proof.
  intros (HU & HC & HI) Hv. unfold ne_choose.
  assert (HM : forall n, n mod cn_n < 128) by (intros n; apply N.mod_lt; unfold cn_n; lia).
  destruct (ne_index e - _ <? cn_n).
  - destruct (N.ltb_spec cn_threshold (ctz64 (N.lxor v (ne_vals e (ne_indices e (N.land v cn_set_lsb) mod cn_n)))));
      intros E; inversion E; subst; clear E.
    + repeat split; auto.
    + rewrite (N.lxor_comm v). repeat split; auto.
  - intros E; inversion E; subst; clear E. rewrite (N.lxor_comm v). repeat split; auto.
    right. split; auto. unfold cn_threshold. lia.
Qed.

(** [c] is the state a record [x] leads to, up to the size and leading-zero fields. *)
Definition ne_next (e : nenc) (x lz size : N) : nenc :=
  let current := (ne_current e + 1) mod cn_n in
  mkNE lz (upd (ne_vals e) current x) false size
    (upd (ne_indices e) (N.land x cn_set_lsb) (ne_index e + 1)) (ne_index e + 1) current.

Lemma ne_next_inv e x lz size : ne_inv e -> is_u64 x -> ne_inv (ne_next e x lz size).
Proof.
  intros (HU & HC & HI) Hx. split; [|split]; cbn.
  - apply upd_u64; auto.
  - rewrite HC. apply succ_mod.
  - intros k. unfold upd. destruct (k =? _); [lia|]. specialize (HI k). lia.
Qed.

Lemma nd_store_sim e d x lz tz size elz : n_sim e d -> x <> nan_bits -> ne_first e = false ->
  (elz <= 24 -> lz = elz) ->
  nd_eos (nd_store d lz tz x) = false /\ nd_val (nd_store d lz tz x) = x /\
  n_sim (ne_next e x elz size) (nd_store d lz tz x).
Proof.
  intros (S1 & S2 & S3 & S4 & S5 & S6 & S7) Hn Hf Hl. unfold nd_store.
  destruct (N.eqb_spec x nan_bits) as [?|_]; [contradiction|].
  cbn [nd_eos nd_val]. split; [exact S1|]. split; auto.
  unfold n_sim. cbn [nd_eos nd_first nd_current nd_vals nd_val nd_lz ne_first ne_current ne_vals ne_lz ne_next].
  rewrite S1, S2, S3. repeat split; auto.
  - apply upd_ext; auto.
  - apply upd_neq; auto.
  - rewrite upd_same. auto.
Qed.

Lemma nd_store_nan d lz tz : nd_eos (nd_store d lz tz nan_bits) = true.
Proof. unfold nd_store. rewrite N.eqb_refl. reflexivity. Qed.

Lemma n_step e x : ne_inv e -> is_u64 x -> exists bs e',
  ne_inv e' /\ emits (fun e w => ne_step e w x) e e' bs /\
  ((1 <= length bs)%nat /\ ne_size e' = add32 (ne_size e) (N.of_nat (length bs)) /\
    ne_first e' = false /\
    ne_simulate e x = if ne_first e then 64 else ne_size e') /\
  forall d r rest, n_sim e d -> rwf r -> rrem r = bs ++ rest ->
    exists d' r', nd_next d r = DOk (if x =? nan_bits then None else Some x, d') r' /\
      rwf r' /\ rrem r' = rest /\ (x <> nan_bits -> n_sim e' d').
Proof.
  intros HE Hx. pose proof HE as (HU & HC & HI).
  unfold ne_step, ne_simulate. destruct (ne_first e) eqn:Hfirst.
  - eexists (bits_of 64 x), _.
    split; [|split; [|split]].
    2:{ intros w pre HW. rewrite Hfirst. unfold ne_write_first. eexists. split; [reflexivity|].
        change 64%nat with (N.to_nat 64). emit. }
    { split; [|split]; cbn; auto.
      - apply upd_u64; auto.
      - intros k. unfold upd. destruct (k =? _); [lia|apply HI]. }
    { rewrite bits_of_length. cbn. auto with arith. }
    intros d r rest (S1 & S2 & S3 & S4 & S5 & S6 & S7) HW HR. unfold nd_next. rewrite S1, S2, Hfirst.
    destruct (read_next r 64 x rest HW HR) as (r' & E & HW' & HR'); [lia|exact Hx|].
    rewrite E. cbn [dbind nd_eos nd_val]. destruct (N.eqb_spec x nan_bits) as [Hn|Hn].
    + eexists _, r'. split; [reflexivity|]. tauto.
    + eexists _, r'. split; [reflexivity|]. split; auto. split; auto. intros _.
      unfold n_sim. cbn. rewrite S3. repeat split; auto.
      * apply upd_ext; auto.
      * apply upd_neq; auto.
      * rewrite upd_same. auto.
  - destruct (ne_choose e x) as [[prev xor] tz] eqn:HCh.
    destruct (ne_choose_spec e x prev xor tz HE Hx HCh) as (Hp & Hxor & Htz).
    assert (Hxu : is_u64 xor) by (subst xor; apply is_u64_lxor; auto).
    assert (Hvx : N.lxor (ne_vals e prev) xor = x) by (subst xor; apply lxor_cancel).
    destruct (N.eqb_spec xor 0) as [H0|H0].
    + (* flag 00: a value of the window *)
      assert (Hxe : x = ne_vals e prev) by (apply lxor_eq_0; congruence).
      exists (bits_of (2 + 7) (0 * 2 ^ N.of_nat 7 + prev)),
             (ne_next e x 65 (add32 (ne_size e) cn_flag_zero)).
      split; [apply ne_next_inv; auto|]. split; [|split].
      { intros w pre HW. rewrite Hfirst. unfold ne_compress. rewrite HCh, H0, N.eqb_refl.
        rewrite Hfirst. eexists. split; [reflexivity|]. rewrite N.mul_0_l, N.add_0_l.
        change (2 + 7)%nat with (N.to_nat cn_flag_zero). emit. }
      { rewrite bits_of_length. cbn. auto with arith. }
      intros d r rest HS HW HR. pose proof HS as (S1 & S2 & S3 & S4 & S5 & S6 & S7).
      rewrite bits_of_concat in HR by (change (2 ^ N.of_nat 7) with 128; auto).
      rewrite <- !app_assoc in HR.
      unfold nd_next. rewrite S1, S2, Hfirst. unfold nd_next_value.
      destruct (read_next r 2 0 _ HW HR) as (r1 & E1 & HW1 & HR1); [lia|reflexivity|]. rewrite E1.
      destruct (read_next r1 7 prev _ HW1 HR1) as (r2 & E2 & HW2 & HR2); [lia|exact Hp|]. rewrite E2.
      cbn [dbind nd_eos nd_val]. rewrite S1, S4, <- Hxe.
      assert (Hn : x <> nan_bits) by (rewrite Hxe; apply S5).
      destruct (N.eqb_spec x nan_bits) as [?|_]; [contradiction|].
      eexists _, r2. split; [reflexivity|]. split; auto. split; auto. intros _.
      unfold n_sim. cbn. rewrite S2, S3. repeat split; auto; try lia.
      * apply upd_ext; auto.
      * apply upd_neq; auto.
      * rewrite upd_same. auto.
    + assert (Hne : N.eqb xor 0 = false) by (apply N.eqb_neq; auto).
      assert (Hsum : clz64 xor + ctz64 xor < 64) by (apply clz_ctz_lt; auto).
      destruct (ch_tables (clz64 xor)) as (T1 & T2 & T3 & T4); [lia|].
      set (lz := ch_round (clz64 xor)) in *.
      destruct (cn_threshold <? tz) eqn:Ht.
      * (* flag 01 *)
        assert (Ht' : cn_threshold < tz) by (apply N.ltb_lt; exact Ht).
        destruct Htz as [[_ Htz]|[? _]]; [|lia]. unfold cn_threshold in Ht'.
        set (sig := 64 - lz - tz).
        assert (Hsig : 0 < sig < 64) by (unfold sig; lia).
        exists (bits_of (2 + 16) (1 * 2 ^ N.of_nat 16 + (512 * prev + 64 * ch_repr lz + sig))
                ++ bits_of (N.to_nat sig) (N.shiftr xor tz)),
               (ne_next e x 65 (add32 (ne_size e) (sig + cn_flag_one))).
        split; [apply ne_next_inv; auto|]. split; [|split].
        { intros w pre HW. rewrite Hfirst. unfold ne_compress. rewrite HCh, Hne, Ht, Hfirst.
          fold lz. fold sig. eexists. split; [reflexivity|].
          change (2 + 16)%nat with (N.to_nat cn_flag_one).
          replace (1 * 2 ^ N.of_nat 16 + (512 * prev + 64 * ch_repr lz + sig))
            with (512 * (cn_n + prev) + 64 * ch_repr lz + sig)
            by (change (2 ^ N.of_nat 16) with 65536; unfold cn_n; lia).
          emit. }
        { rewrite !app_length, !bits_of_length. cbn [ne_size ne_next ne_first].
          split; [lia|]. split; [f_equal; unfold cn_flag_one; lia|]. split; auto. }
        destruct (flag_fields prev (ch_repr lz) sig) as (Q1 & Q2 & Q3 & Q4); auto; try lia.
        set (t := 512 * prev + 64 * ch_repr lz + sig) in *.
        intros d r rest HS HW HR. pose proof HS as (S1 & S2 & S3 & S4 & S5 & S6 & S7).
        rewrite bits_of_concat in HR by exact Q1. rewrite <- !app_assoc in HR.
        unfold nd_next. rewrite S1, S2, Hfirst. unfold nd_next_value.
        destruct (read_next r 2 1 _ HW HR) as (r1 & E1 & HW1 & HR1); [lia|reflexivity|]. rewrite E1.
        destruct (read_next r1 16 t _ HW1 HR1) as (r2 & E2 & HW2 & HR2); [lia|exact Q1|]. rewrite E2.
        rewrite Q2, Q3, Q4, T4. destruct (N.eqb_spec sig 0) as [?|_]; [lia|].
        rewrite (wsub32_sub 64 lz), (wsub32_sub 64 sig) by (unfold two32; lia).
        rewrite (wsub32_sub (64 - sig) lz) by (unfold sig, two32; lia).
        replace (64 - sig - lz) with tz by (unfold sig; lia).
        rewrite sub32_u8_sub by lia. fold sig.
        destruct (read_next r2 sig (N.shiftr xor tz) _ HW2 HR2) as (r3 & E3 & HW3 & HR3).
        { lia. } { apply window_bound; auto; lia. }
        rewrite E3. unfold shl64m. rewrite (N.mod_small tz 64) by lia. rewrite window_exact by (auto; lia).
        rewrite S4, Hvx. cbn [dbind].
        destruct (N.eqb_spec x nan_bits) as [Hn|Hn].
        -- rewrite Hn, nd_store_nan. eexists _, r3. split; [reflexivity|]. tauto.
        -- destruct (nd_store_sim e d x lz tz (add32 (ne_size e) (sig + cn_flag_one)) 65 HS Hn Hfirst)
             as (Y1 & Y2 & Y3); [lia|].
           rewrite Y1, Y2. eexists _, r3. split; [reflexivity|]. auto.
      * assert (Ht' : tz <= cn_threshold) by (apply N.ltb_ge; exact Ht).
        destruct Htz as [[? _]|[_ Hpc]]; [lia|].
        assert (Hbx : xor < 2 ^ (64 - lz)) by (apply clz_bound; auto).
        assert (Hwid : nd_width lz = 64 - lz).
        { unfold nd_width. rewrite N.mod_small by lia. apply wsub8_sub; lia. }
        destruct (N.eqb_spec lz (ne_lz e)) as [Hl|Hl].
        -- (* flag 10 *)
          exists (bits_of (N.to_nat 2) 2 ++ bits_of (N.to_nat (64 - lz)) xor),
                 (ne_next e x (ne_lz e) (add32 (ne_size e) (2 + (64 - lz)))).
          split; [apply ne_next_inv; auto|]. split; [|split].
          { intros w pre HW. rewrite Hfirst. unfold ne_compress. rewrite HCh, Hne, Ht, Hfirst. fold lz.
            rewrite (proj2 (N.eqb_eq lz (ne_lz e)) Hl).
            eexists. split; [reflexivity|]. emit. }
          { rewrite !app_length, !bits_of_length. cbn [ne_size ne_next ne_first].
            split; [lia|]. split; [f_equal; lia|]. split; auto. }
          intros d r rest HS HW HR. pose proof HS as (S1 & S2 & S3 & S4 & S5 & S6 & S7).
          rewrite <- !app_assoc in HR.
          unfold nd_next. rewrite S1, S2, Hfirst. unfold nd_next_value.
          destruct (read_next r 2 2 _ HW HR) as (r1 & E1 & HW1 & HR1); [lia|reflexivity|]. rewrite E1.
          rewrite S7 by lia. rewrite <- Hl, Hwid.
          destruct (read_next r1 (64 - lz) xor _ HW1 HR1) as (r2 & E2 & HW2 & HR2); [lia|auto|]. rewrite E2.
          rewrite (S6 Hfirst), <- Hpc, Hvx. cbn [dbind].
          destruct (N.eqb_spec x nan_bits) as [Hn|Hn].
          ++ rewrite Hn, nd_store_nan. eexists _, r2. split; [reflexivity|]. tauto.
          ++ destruct (nd_store_sim e d x lz (nd_tz d) (add32 (ne_size e) (2 + (64 - lz))) lz HS Hn Hfirst)
               as (Y1 & Y2 & Y3); [auto|].
             rewrite Y1, Y2. eexists _, r2. split; [reflexivity|]. auto.
        -- (* flag 11 *)
          exists (bits_of (2 + 3) (3 * 2 ^ N.of_nat 3 + ch_repr lz) ++ bits_of (N.to_nat (64 - lz)) xor),
                 (ne_next e x lz (add32 (ne_size e) (5 + (64 - lz)))).
          split; [apply ne_next_inv; auto|]. split; [|split].
          { intros w pre HW. rewrite Hfirst. unfold ne_compress. rewrite HCh, Hne, Ht, Hfirst. fold lz.
            rewrite (proj2 (N.eqb_neq lz (ne_lz e)) Hl).
            eexists. split; [reflexivity|]. change (2 + 3)%nat with (N.to_nat 5).
            change (3 * 2 ^ N.of_nat 3) with 24. emit. }
          { rewrite !app_length, !bits_of_length. cbn [ne_size ne_next ne_first].
            split; [lia|]. split; [f_equal; lia|]. split; auto. }
          intros d r rest HS HW HR. pose proof HS as (S1 & S2 & S3 & S4 & S5 & S6 & S7).
          rewrite bits_of_concat in HR by (change (2 ^ N.of_nat 3) with 8; auto). rewrite <- !app_assoc in HR.
          unfold nd_next. rewrite S1, S2, Hfirst. unfold nd_next_value.
          destruct (read_next r 2 3 _ HW HR) as (r1 & E1 & HW1 & HR1); [lia|reflexivity|]. rewrite E1.
          destruct (read_next r1 3 (ch_repr lz) _ HW1 HR1) as (r2 & E2 & HW2 & HR2); [lia|exact T3|]. rewrite E2.
          rewrite T4, Hwid.
          destruct (read_next r2 (64 - lz) xor _ HW2 HR2) as (r3 & E3 & HW3 & HR3); [lia|auto|]. rewrite E3.
          rewrite (S6 Hfirst), <- Hpc, Hvx. cbn [dbind].
          destruct (N.eqb_spec x nan_bits) as [Hn|Hn].
          ++ rewrite Hn, nd_store_nan. eexists _, r3. split; [reflexivity|]. tauto.
          ++ destruct (nd_store_sim e d x lz (nd_tz d) (add32 (ne_size e) (5 + (64 - lz))) lz HS Hn Hfirst)
               as (Y1 & Y2 & Y3); [auto|].
             rewrite Y1, Y2. eexists _, r3. split; [reflexivity|]. auto.
Qed.

Lemma n_close e : ne_inv e -> exists bs e',
  emits ne_close e e' bs /\
  forall d r rest, n_sim e d -> rwf r -> rrem r = bs ++ rest ->
    exists d' r', nd_next d r = DOk (None, d') r' /\ rwf r'.
Proof.
  intros HE. destruct (n_step e nan_bits HE nan_u64) as (bs & e' & HE' & Em & _ & Dc).
  exists (bs ++ [false]), e'. split.
  - intros w pre HW. destruct (Em w pre HW) as (w1 & S1 & W1). unfold ne_close. rewrite S1.
    eexists. split; [reflexivity|]. rewrite app_assoc. apply write_bit_rep. auto.
  - intros d r rest HS HW HR. rewrite <- app_assoc in HR.
    destruct (Dc d r _ HS HW HR) as (d' & r' & E & HW' & _). rewrite N.eqb_refl in E. eauto.
Qed.

Lemma ne_init_inv : ne_inv ne_init.
Proof. repeat split; cbn; intros; lia. Qed.

Theorem chimp128_roundtrip c xs junk : Forall is_u64 xs -> Forall is_byte junk ->
  fst (chimp128_decompress (xr_new (x_buffers (chimp128_prepare (chimp128_compress c xs)) ++ junk)))
  = Ok (before_nan xs).
Proof.
  intros HX HJ. unfold chimp128_decompress, chimp128_prepare, chimp128_compress.
  apply (x_roundtrip nenc ndec ne_init nd_init ne_step ne_close nd_next ne_inv n_sim is_u64); auto.
  - apply ne_init_inv.
  - unfold n_sim. cbn. repeat split; auto; try lia. intros _. discriminate.
  - intros e x HE Hx. destruct (n_step e x HE Hx) as (bs & e' & H1 & H2 & [H3 _] & H4). eauto 10.
  - intros e HE. destruct (n_close e HE) as (bs & e' & H1 & H2). eauto.
  - apply nan_u64.
Qed.

(** The size estimate of Chimp128 is exact while the bit count fits a u32. *)
Lemma n_steps_size xs : forall e, ne_inv e -> Forall is_u64 xs ->
  exists bs e', ne_inv e' /\ emits (fun e w => x_steps nenc ne_step e w xs) e e' bs /\
    (ne_size e < two32 -> ne_size e' = add32 (ne_size e) (N.of_nat (length bs))) /\
    (xs = [] /\ e' = e \/ ne_first e' = false).
Proof.
  induction xs as [|x xs IH]; intros e HE HX.
  - exists [], e. split; auto. split; [|split; auto].
    + intros w pre HW. exists w. rewrite app_nil_r. auto.
    + intros HS. cbn. unfold add32. rewrite N.add_0_r, N.mod_small; auto.
  - inversion HX as [|? ? Hx HX']; subst.
    destruct (n_step e x HE Hx) as (b1 & e1 & HE1 & Em1 & (L1 & Sz1 & F1 & _) & _).
    destruct (IH e1 HE1 HX') as (b2 & e2 & HE2 & Em2 & Sz2 & F2).
    exists (b1 ++ b2), e2. split; auto. split; [|split].
    + intros w pre HW. destruct (Em1 w pre HW) as (w1 & S1 & W1).
      destruct (Em2 w1 _ W1) as (w2 & S2 & W2). exists w2. rewrite app_assoc. split; auto.
      unfold x_steps in *. cbn [fold_left]. rewrite S1. exact S2.
    + intros HS. rewrite Sz2.
      * rewrite Sz1, app_length, Nat2N.inj_add. unfold add32.
        rewrite N.add_mod_idemp_l by (unfold two32; lia). f_equal. lia.
      * rewrite Sz1. unfold add32. apply N.mod_lt. unfold two32. lia.
    + right. destruct F2 as [[-> ->]|F2]; auto.
Qed.

Theorem chimp128_size c xs : Forall is_u64 xs ->
  let c1 := chimp128_compress c xs in
  let c2 := chimp128_prepare c1 in
  number_of_bits_written (xw c2) < two32 ->
  chimp128_total_bytes_buffered c1 = N.of_nat (length (x_buffers c2)).
Proof.
  intros HX c1 c2.
  destruct (n_steps_size xs ne_init ne_init_inv HX) as (b1 & e1 & HE1 & Em1 & Sz1 & F1).
  destruct (Em1 w_new [] wrep_new) as (w1 & S1 & W1). cbn [app] in W1.
  destruct (n_step e1 nan_bits HE1 nan_u64) as (b2 & e2 & HE2 & Em2 & (L2 & Sz2 & F2 & Sim2) & _).
  destruct (Em2 w1 _ W1) as (w2 & S2 & W2).
  assert (C1 : c1 = mkXC w1 e1 (0 + 8 * N.of_nat (length xs))).
  { unfold c1, chimp128_compress, x_compress, x_reset. cbn [xe xw xin].
    change (w_reset (xw c)) with w_new. rewrite S1. reflexivity. }
  assert (C2 : xw c2 = write_bit w2 false).
  { unfold c2, chimp128_prepare, x_prepare. rewrite C1. cbn [xe xw]. unfold ne_close. rewrite S2. reflexivity. }
  unfold x_buffers. rewrite C2. pose proof (write_bit_rep _ _ false W2) as W3.
  rewrite (number_of_bits_written_rep _ _ W3). intros HB.
  pose proof (wrep_length _ _ W3) as HL. destruct W3 as (_ & HP & _).
  unfold chimp128_total_bytes_buffered. rewrite C1. cbn [xe]. rewrite Sim2.
  rewrite !app_length in *. cbn [length] in *.
  assert (HS : (if ne_first e1 then 64 else ne_size e2) = N.of_nat (length b1 + length b2)).
  { destruct F1 as [[-> ->]|F1].
    - cbn [ne_first ne_init]. unfold ne_init in Sz2.
      assert (b1 = []) as ->.
      { unfold emits, x_steps in Em1. destruct (Em1 w_new [] wrep_new) as (w' & E1 & W').
        cbn in E1. inversion E1; subst. pose proof (wrep_length _ _ W') as HH. cbn in HH.
        destruct b1; auto. cbn in HH. lia. }
      unfold emits in Em2. destruct (Em2 w_new [] wrep_new) as (w' & E1 & W').
      cbn in E1. inversion E1; subst. cbn [app] in W'.
      pose proof (write_bits_rep w_new [] nan_bits 64 wrep_new) as W''.
      apply number_of_bits_written_rep in W'. apply number_of_bits_written_rep in W''.
      rewrite W' in W''. cbn [length Nat.add]. symmetry. exact W''.
    - rewrite F1, Sz2, Sz1 by reflexivity. unfold add32. cbn [ne_size ne_init].
      rewrite N.add_0_l, N.add_mod_idemp_l by (unfold two32; lia).
      rewrite N.mod_small by lia. lia. }
  rewrite HS. unfold add32. rewrite N.mod_small by lia.
  symmetry. apply N.div_unique with (r := N.of_nat (length b1 + length b2) + 1 + 7 - 8 * N.of_nat (length (wbuf (write_bit w2 false)))); lia.
Qed.
