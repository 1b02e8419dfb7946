From Verif Require Import Base BitSpec BitSpecProofs BitIO BitIOProofs WordProofs
  Xor XorSpec XorProofs Gorilla.

Lemma nan_u64 : is_u64 nan_bits. Proof. reflexivity. Qed.

Definition ge_inv (e : genc) : Prop :=
  is_u64 (ge_val e) /\
  ((ge_lz e = 64 /\ ge_tz e = 64) \/ (ge_lz e <= 31 /\ ge_lz e + ge_tz e < 64)).

Definition g_sim (e : genc) (d : gdec) : Prop :=
  gd_done d = false /\ gd_first d = ge_first e /\
  (ge_first e = false -> gd_val d = ge_val e) /\
  ((ge_lz e = 64 /\ ge_tz e = 64) \/ (gd_lz d = ge_lz e /\ gd_tz d = ge_tz e)).

Lemma ge_lead_le x : ge_lead x <= clz64 x.
Proof. unfold ge_lead. destruct (N.leb_spec 32 (clz64 x)); lia. Qed.
Lemma ge_lead_31 x : ge_lead x <= 31.
Proof. unfold ge_lead. destruct (N.leb_spec 32 (clz64 x)); lia. Qed.

Ltac emit := rewrite ?app_assoc; repeat first [apply write_bits_rep | apply write_bit_rep]; assumption.

Lemma wsub8_sub a b : a < 256 -> b <= a -> wsub8 a b = a - b.
Proof.
  intros Ha Hb. unfold wsub8. rewrite (N.mod_small b) by lia.
  replace (a + 256 - b) with ((a - b) + 1 * 256) by lia. rewrite N.mod_add by lia. apply N.mod_small. lia.
Qed.

(** Reading a window of [64 - l - t] bits holding [xor >> t] restores [v]. *)
Lemma gd_window_ok d l t v xor r rest :
  is_u64 xor -> xor <> 0 -> l <= clz64 xor -> t <= ctz64 xor -> l + t < 64 ->
  N.lxor (gd_val d) xor = v -> rwf r ->
  rrem r = bits_of (N.to_nat (64 - l - t)) (N.shiftr xor t) ++ rest ->
  exists r', gd_read_window d l t r = DOk (v, mkGD v l t (gd_first d) (gd_done d)) r' /\
    rwf r' /\ rrem r' = rest.
Proof.
  intros Hu Hz Hl Ht Hlt Hv HW HR. unfold gd_read_window.
  rewrite (wsub8_sub 64 l), wsub8_sub by lia.
  destruct (read_bits_val r (64 - l - t) (N.shiftr xor t) rest HW) as (r' & E & HW' & HR'); auto.
  { lia. } { apply window_bound; auto; lia. }
  rewrite E. exists r'. split; auto. unfold shl64m. rewrite N.mod_small by lia.
  rewrite window_exact by auto. rewrite Hv. reflexivity.
Qed.

Lemma g_step e x : ge_inv e -> is_u64 x -> exists bs e',
  ge_inv e' /\ emits (fun e w => ge_step e w x) e e' bs /\
  ((1 <= length bs)%nat /\ N.of_nat (length bs) = ge_simulate e x) /\
  forall d r rest, g_sim e d -> rwf r -> rrem r = bs ++ rest ->
    exists d' r', gd_next d r = DOk (if x =? nan_bits then None else Some x, d') r' /\
      rwf r' /\ rrem r' = rest /\ (x <> nan_bits -> g_sim e' d').
Proof.
  intros [Hval Hlt] Hx. unfold ge_step, ge_simulate. destruct (ge_first e) eqn:Hfirst.
  - (* first value *)
    exists (bits_of 64 x), (mkGE x (ge_lz e) (ge_tz e) false).
    split; [split; cbn; auto|]. split; [|split].
    { intros w pre HW. rewrite Hfirst. unfold ge_write_first. eexists. split; [reflexivity|].
      change 64%nat with (N.to_nat 64). emit. }
    { rewrite bits_of_length. split; lia. }
    intros d r rest (Hd & Hf & _ & Hz) HW HR. unfold gd_next. rewrite Hd, Hf, Hfirst.
    unfold gd_read_first.
    destruct (read_bits_val r 64 x rest HW) as (r' & E & HW' & HR'); auto; [lia|].
    rewrite E. cbn [dbind]. destruct (N.eqb_spec x nan_bits) as [Hn|Hn].
    + eexists _, r'. split; [reflexivity|]. tauto.
    + eexists _, r'. split; [reflexivity|]. split; auto. split; auto. intros _.
      repeat split; cbn; auto.
  - set (xor := N.lxor x (ge_val e)).
    assert (Hxu : is_u64 xor) by (apply is_u64_lxor; auto).
    destruct (N.eqb_spec xor 0) as [H0|H0].
    + (* repeated value *)
      assert (Hxe : x = ge_val e) by (apply lxor_eq_0; exact H0).
      exists [false], (mkGE x (ge_lz e) (ge_tz e) (ge_first e)).
      split; [split; cbn; auto|]. split; [|split].
      { intros w pre HW. rewrite Hfirst. unfold ge_write_next. fold xor. rewrite H0, N.eqb_refl.
        rewrite Hfirst. eexists. split; [reflexivity|]. emit. }
      { cbn [length]. split; lia. }
      intros d r rest (Hd & Hf & Hv & Hz) HW HR. unfold gd_next. rewrite Hd, Hf, Hfirst.
      unfold gd_read_next.
      destruct (read_bit_cons r false rest HW HR) as (r' & E & HW' & HR').
      rewrite E. cbn [negb dbind]. rewrite (Hv Hfirst), <- Hxe.
      destruct (N.eqb_spec x nan_bits) as [Hn|Hn].
      * eexists _, r'. split; [reflexivity|]. tauto.
      * eexists _, r'. split; [reflexivity|]. split; auto. split; auto. intros _.
        repeat split; cbn; auto; try congruence. rewrite (Hv Hfirst); auto.
    + assert (Hne : N.eqb xor 0 = false) by (apply N.eqb_neq; auto).
      set (lz := ge_lead xor) in *. set (tz := ctz64 xor) in *.
      assert (Hsum : clz64 xor + tz < 64) by (apply clz_ctz_lt; auto).
      assert (Hlz : lz <= clz64 xor) by apply ge_lead_le.
      assert (Hlz31 : lz <= 31) by apply ge_lead_31.
      assert (Hvx : N.lxor (ge_val e) xor = x) by apply lxor_cancel.
      destruct ((ge_lz e <=? lz) && (ge_tz e <=? tz)) eqn:Hc.
      * (* inside the previous window *)
        apply andb_prop in Hc as Hc'. destruct Hc' as [Hc1 Hc2]. apply N.leb_le in Hc1, Hc2.
        destruct Hlt as [[? ?]|Hlt]; [lia|].
        exists ([true] ++ [false] ++ bits_of (N.to_nat (64 - ge_lz e - ge_tz e)) (N.shiftr xor (ge_tz e))),
               (mkGE x (ge_lz e) (ge_tz e) (ge_first e)).
        split; [split; cbn; auto|]. split; [|split].
        { intros w pre HW. rewrite Hfirst. unfold ge_write_next. fold xor lz tz. rewrite Hne, Hc, Hfirst.
          eexists. split; [reflexivity|]. emit. }
        { rewrite !app_length, bits_of_length. cbn [length]. split; lia. }
        intros d r rest (Hd & Hf & Hv & Hz) HW HR. unfold gd_next. rewrite Hd, Hf, Hfirst.
        destruct Hz as [[? ?]|[Hz1 Hz2]]; [lia|].
        unfold gd_read_next. rewrite <- !app_assoc in HR.
        destruct (read_bit_cons r true _ HW HR) as (r1 & E1 & HW1 & HR1). rewrite E1.
        destruct (read_bit_cons r1 false _ HW1 HR1) as (r2 & E2 & HW2 & HR2). cbn [negb]. rewrite E2.
        rewrite Hz1, Hz2.
        destruct (gd_window_ok d (ge_lz e) (ge_tz e) x xor r2 rest) as (r3 & E3 & HW3 & HR3); auto; try lia.
        { rewrite (Hv Hfirst). auto. }
        rewrite E3. cbn [dbind]. destruct (N.eqb_spec x nan_bits) as [Hn|Hn].
        -- eexists _, r3. split; [reflexivity|]. tauto.
        -- eexists _, r3. split; [reflexivity|]. split; auto. split; auto. intros _.
           repeat split; cbn; auto; try congruence.
      * (* new window *)
        set (sig := 64 - lz - tz).
        exists ([true] ++ [true] ++ bits_of (N.to_nat 5) lz ++ bits_of (N.to_nat 6) (sig - 1)
                ++ bits_of (N.to_nat sig) (N.shiftr xor tz)),
               (mkGE x lz tz (ge_first e)).
        split; [split; cbn; auto; right; lia|]. split; [|split].
        { intros w pre HW. rewrite Hfirst. unfold ge_write_next. fold xor lz tz. rewrite Hne, Hc, Hfirst.
          eexists. split; [reflexivity|]. emit. }
        { rewrite !app_length, !bits_of_length. cbn [length]. unfold sig. split; lia. }
        intros d r rest (Hd & Hf & Hv & Hz) HW HR. unfold gd_next. rewrite Hd, Hf, Hfirst.
        unfold gd_read_next. rewrite <- !app_assoc in HR.
        destruct (read_bit_cons r true _ HW HR) as (r1 & E1 & HW1 & HR1). rewrite E1.
        destruct (read_bit_cons r1 true _ HW1 HR1) as (r2 & E2 & HW2 & HR2). cbn [negb]. rewrite E2.
        destruct (read_next r2 5 lz _ HW2 HR2) as (r3 & E3 & HW3 & HR3); [lia| |].
        { change (2 ^ 5) with 32. lia. }
        rewrite E3.
        destruct (read_next r3 6 (sig - 1) _ HW3 HR3) as (r4 & E4 & HW4 & HR4); [lia| |].
        { change (2 ^ 6) with 64. unfold sig. lia. }
        rewrite E4. replace (sig - 1 + 1) with sig by (unfold sig; lia).
        rewrite (N.mod_small sig 256) by (unfold sig; lia).
        replace (wsub8 (wsub8 64 lz) sig) with tz.
        2:{ rewrite (wsub8_sub 64 lz), wsub8_sub by (unfold sig; lia). unfold sig. lia. }
        destruct (gd_window_ok d lz tz x xor r4 rest) as (r5 & E5 & HW5 & HR5); auto; try lia.
        { rewrite (Hv Hfirst). auto. }
        rewrite E5. cbn [dbind]. destruct (N.eqb_spec x nan_bits) as [Hn|Hn].
        -- eexists _, r5. split; [reflexivity|]. tauto.
        -- eexists _, r5. split; [reflexivity|]. split; auto. split; auto. intros _.
           repeat split; cbn; auto; try congruence.
Qed.

Lemma g_close e : ge_inv e -> exists bs e',
  emits ge_close e e' bs /\ N.of_nat (length bs) = ge_simclose e /\
  forall d r rest, g_sim e d -> rwf r -> rrem r = bs ++ rest ->
    exists d' r', gd_next d r = DOk (None, d') r' /\ rwf r'.
Proof.
  intros HE. destruct (g_step e nan_bits HE nan_u64) as (bs & e' & HE' & Em & [L1 L2] & Dc).
  exists (bs ++ [false]), e'. split; [|split].
  - intros w pre HW. destruct (Em w pre HW) as (w1 & S1 & W1). unfold ge_close. rewrite S1.
    eexists. split; [reflexivity|]. rewrite app_assoc. apply write_bit_rep. auto.
  - rewrite app_length. cbn [length]. unfold ge_simclose. lia.
  - intros d r rest HS HW HR. rewrite <- app_assoc in HR.
    destruct (Dc d r _ HS HW HR) as (d' & r' & E & HW' & _). rewrite N.eqb_refl in E. eauto.
Qed.


Theorem gorilla_roundtrip c xs junk : Forall is_u64 xs -> Forall is_byte junk ->
  fst (gorilla_decompress (xr_new (x_buffers (gorilla_prepare (gorilla_compress c xs)) ++ junk)))
  = Ok (before_nan xs).
Proof.
  intros HX HJ. unfold gorilla_decompress, gorilla_prepare, gorilla_compress.
  apply (x_roundtrip genc gdec ge_init gd_init ge_step ge_close gd_next ge_inv g_sim is_u64); auto.
  - split; cbn; auto. reflexivity.
  - repeat split; cbn; auto.
  - intros e x HE Hx. destruct (g_step e x HE Hx) as (bs & e' & H1 & H2 & [H3 _] & H4). eauto 10.
  - intros e HE. destruct (g_close e HE) as (bs & e' & H1 & _ & H2). eauto.
  - apply nan_u64.
Qed.

Theorem gorilla_size c xs : Forall is_u64 xs ->
  let c1 := gorilla_compress c xs in
  let real := N.of_nat (length (x_buffers (gorilla_prepare c1))) in
  real <= gorilla_total_bytes_buffered c1 <= real + 1.
Proof.
  intros HX. apply (x_size_estimate genc gdec ge_init ge_step ge_close ge_simclose gd_next ge_inv g_sim is_u64); auto.
  - split; cbn; auto. reflexivity.
  - intros e x HE Hx. destruct (g_step e x HE Hx) as (bs & e' & H1 & H2 & [H3 _] & H4). eauto 10.
  - intros e HE. destruct (g_close e HE) as (bs & e' & H1 & H2 & _). eauto.
Qed.
