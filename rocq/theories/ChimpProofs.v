From Verif Require Import Base BitSpec BitSpecProofs BitIO BitIOProofs WordProofs
  Xor XorSpec XorProofs Gorilla GorillaProofs Chimp.

(** The finite table facts, checked over the whole index range 0..63. *)
Lemma below64 (f : N -> bool) :
  forallb f (map N.of_nat (seq 0 64)) = true -> forall z, z < 64 -> f z = true.
Proof.
  intros H z Hz. rewrite forallb_forall in H. apply H.
  apply in_map_iff. exists (N.to_nat z). split; [lia|]. apply in_seq. lia.
Qed.

Lemma ch_tables z : z < 64 ->
  ch_round z <= z /\ ch_round z <= 24 /\ ch_repr (ch_round z) < 8 /\ chd_lead (ch_repr (ch_round z)) = ch_round z.
Proof.
  intros Hz.
  pose proof (below64 (fun z => (ch_round z <=? z) && (ch_round z <=? 24) &&
    (ch_repr (ch_round z) <? 8) && (chd_lead (ch_repr (ch_round z)) =? ch_round z)) eq_refl z Hz) as H.
  cbn beta in H. repeat (apply andb_prop in H; destruct H as [H ?]).
  rewrite N.leb_le in *. rewrite N.ltb_lt, N.eqb_eq in *. auto.
Qed.

Lemma chd_lead_le i : chd_lead i <= 24.
Proof.
  unfold chd_lead. destruct (nth_in_or_default (N.to_nat i) chd_tbl 0) as [H|H]; [|rewrite H; lia].
  revert H. generalize (nth (N.to_nat i) chd_tbl 0). intros v H. cbn [chd_tbl In] in H. lia.
Qed.

Lemma wsub32_sub a b : a < two32 -> b <= a -> wsub32 a b = a - b.
Proof.
  intros Ha Hb. unfold wsub32. unfold two32 in *. rewrite (N.mod_small b) by lia.
  replace (a + 4294967296 - b) with ((a - b) + 1 * 4294967296) by lia. rewrite N.mod_add by lia.
  apply N.mod_small. lia.
Qed.

Lemma sub32_u8_sub a b : a < 256 -> b <= a -> sub32_u8 a b = a - b.
Proof.
  intros Ha Hb. unfold sub32_u8. rewrite wsub32_sub by (unfold two32; lia). apply N.mod_small. lia.
Qed.

Definition ce_inv (e : cenc) : Prop := is_u64 (ce_val e).

Definition c_sim (e : cenc) (d : cdec) : Prop :=
  cd_eos d = false /\ cd_first d = ce_first e /\
  (ce_first e = false -> cd_val d = ce_val e) /\
  (ce_lz e <= 24 -> cd_lz d = ce_lz e).

(** Bits written by a step from the size bookkeeping. *)
Lemma c_step e x : ce_inv e -> is_u64 x -> exists bs e',
  ce_inv e' /\ emits (fun e w => ce_step e w x) e e' bs /\
  ((1 <= length bs)%nat /\ ce_size e + N.of_nat (length bs) = ce_simulate e x /\
    ce_size e' = ce_size e + N.of_nat (length bs)) /\
  forall d r rest, c_sim e d -> rwf r -> rrem r = bs ++ rest ->
    exists d' r', cd_next d r = DOk (if x =? nan_bits then None else Some x, d') r' /\
      rwf r' /\ rrem r' = rest /\ (x <> nan_bits -> c_sim e' d').
Proof.
  intros Hval Hx. unfold ce_inv in *. unfold ce_step, ce_simulate. destruct (ce_first e) eqn:Hfirst.
  - exists (bits_of 64 x), (mkCE (ce_lz e) x false (ce_size e + 64)).
    split; [cbn; auto|]. split; [|split].
    { intros w pre HW. rewrite Hfirst. unfold ce_write_first. eexists. split; [reflexivity|].
      change 64%nat with (N.to_nat 64). emit. }
    { rewrite bits_of_length. cbn. lia. }
    intros d r rest (Hd & Hf & _ & Hz) HW HR. unfold cd_next. rewrite Hd, Hf, Hfirst.
    destruct (read_next r 64 x rest HW HR) as (r' & E & HW' & HR'); [lia|exact Hx|].
    rewrite E. cbn [dbind cd_eos cd_val]. destruct (N.eqb_spec x nan_bits) as [Hn|Hn].
    + eexists _, r'. split; [reflexivity|]. tauto.
    + eexists _, r'. split; [reflexivity|]. split; auto. split; auto. intros _.
      repeat split; cbn; auto.
  - set (xor := N.lxor (ce_val e) x).
    assert (Hxu : is_u64 xor) by (apply is_u64_lxor; auto).
    assert (Hvx : N.lxor (ce_val e) xor = x) by apply lxor_cancel'.
    destruct (N.eqb_spec xor 0) as [H0|H0].
    + assert (Hxe : x = ce_val e) by (symmetry; apply lxor_eq_0; exact H0).
      exists ([false] ++ [false]), (mkCE 65 x false (ce_size e + 2)).
      split; [cbn; auto|]. split; [|split].
      { intros w pre HW. rewrite Hfirst. unfold ce_compress. fold xor. rewrite H0, N.eqb_refl.
        rewrite Hfirst. eexists. split; [reflexivity|]. emit. }
      { cbn. lia. }
      intros d r rest (Hd & Hf & Hv & Hz) HW HR. unfold cd_next. rewrite Hd, Hf, Hfirst.
      unfold cd_next_value.
      destruct (read_next r 2 0 rest HW HR) as (r' & E & HW' & HR'); [lia|reflexivity|].
      rewrite E. rewrite (Hv Hfirst), <- Hxe. cbn [dbind cd_eos cd_val]. rewrite Hd.
      destruct (N.eqb_spec x nan_bits) as [Hn|Hn].
      * eexists _, r'. split; [reflexivity|]. tauto.
      * eexists _, r'. split; [reflexivity|]. split; auto. split; auto. intros _.
        repeat split; cbn; auto; try congruence; lia.
    + assert (Hne : N.eqb xor 0 = false) by (apply N.eqb_neq; auto).
      assert (Hsum : clz64 xor + ctz64 xor < 64) by (apply clz_ctz_lt; auto).
      destruct (ch_tables (clz64 xor)) as (T1 & T2 & T3 & T4); [lia|].
      set (lz := ch_round (clz64 xor)) in *. set (tz := ctz64 xor) in *.
      destruct (ch_threshold <? tz) eqn:Ht.
      * (* 01 *)
        assert (Ht' : 6 < tz) by (apply N.ltb_lt; exact Ht).
        set (sig := 64 - lz - tz).
        exists ([false] ++ [true] ++ bits_of (N.to_nat 3) (ch_repr lz) ++ bits_of (N.to_nat 6) sig
                ++ bits_of (N.to_nat sig) (N.shiftr xor tz)),
               (mkCE 65 x false (ce_size e + (11 + sig))).
        split; [cbn; auto|]. split; [|split].
        { intros w pre HW. rewrite Hfirst. unfold ce_compress. fold xor lz tz. rewrite Hne, Ht, Hfirst.
          eexists. split; [reflexivity|]. emit. }
        { rewrite !app_length, !bits_of_length. cbn [length ce_size]. fold sig. lia. }
        intros d r rest (Hd & Hf & Hv & Hz) HW HR. unfold cd_next. rewrite Hd, Hf, Hfirst.
        unfold cd_next_value. rewrite <- !app_assoc in HR.
        destruct (read_next r 2 1 _ HW HR) as (r1 & E1 & HW1 & HR1); [lia|reflexivity|]. rewrite E1.
        destruct (read_next r1 3 (ch_repr lz) _ HW1 HR1) as (r2 & E2 & HW2 & HR2); [lia|exact T3|]. rewrite E2.
        destruct (read_next r2 6 sig _ HW2 HR2) as (r3 & E3 & HW3 & HR3); [lia| |].
        { change (2 ^ 6) with 64. unfold sig. lia. }
        rewrite E3. rewrite T4.
        destruct (N.eqb_spec sig 0) as [?|_]; [unfold sig in *; lia|].
        rewrite (wsub32_sub 64 lz), (wsub32_sub 64 sig) by (unfold sig, two32; lia).
        rewrite (wsub32_sub (64 - sig) lz) by (unfold sig, two32; lia).
        replace (64 - sig - lz) with tz by (unfold sig; lia).
        rewrite sub32_u8_sub by lia. fold sig.
        destruct (read_next r3 sig (N.shiftr xor tz) _ HW3 HR3) as (r4 & E4 & HW4 & HR4).
        { unfold sig; lia. } { apply window_bound; auto; lia. }
        rewrite E4. unfold shl64m. rewrite (N.mod_small tz 64) by lia. rewrite window_exact by (auto; lia).
        rewrite (Hv Hfirst), Hvx. cbn [dbind cd_eos cd_val].
        destruct (N.eqb_spec x nan_bits) as [Hn|Hn].
        -- eexists _, r4. split; [reflexivity|]. tauto.
        -- rewrite Hd. eexists _, r4. split; [reflexivity|]. split; auto. split; auto. intros _.
           repeat split; cbn; auto; try congruence; lia.
      * assert (Hbx : xor < 2 ^ (64 - lz)) by (apply clz_bound; auto).
        destruct (N.eqb_spec lz (ce_lz e)) as [Hl|Hl].
        -- (* 10 *)
          exists ([true] ++ [false] ++ bits_of (N.to_nat (64 - lz)) xor),
                 (mkCE (ce_lz e) x false (ce_size e + (2 + (64 - lz)))).
          split; [cbn; auto|]. split; [|split].
          { intros w pre HW. rewrite Hfirst. unfold ce_compress. fold xor lz tz. rewrite Hne, Ht.
            rewrite (proj2 (N.eqb_eq lz (ce_lz e)) Hl), Hfirst.
            eexists. split; [reflexivity|]. emit. }
          { rewrite !app_length, !bits_of_length. cbn [length ce_size]. lia. }
          intros d r rest (Hd & Hf & Hv & Hz) HW HR. unfold cd_next. rewrite Hd, Hf, Hfirst.
          unfold cd_next_value. rewrite <- !app_assoc in HR.
          destruct (read_next r 2 2 _ HW HR) as (r1 & E1 & HW1 & HR1); [lia|reflexivity|]. rewrite E1.
          rewrite Hz by lia. rewrite <- Hl. rewrite sub32_u8_sub by lia.
          destruct (read_next r1 (64 - lz) xor _ HW1 HR1) as (r2 & E2 & HW2 & HR2); [lia|auto|]. rewrite E2.
          rewrite (Hv Hfirst), Hvx. cbn [dbind cd_eos cd_val].
          destruct (N.eqb_spec x nan_bits) as [Hn|Hn].
          ++ eexists _, r2. split; [reflexivity|]. tauto.
          ++ rewrite Hd. eexists _, r2. split; [reflexivity|]. split; auto. split; auto. intros _.
             repeat split; cbn; auto; try congruence; lia.
        -- (* 11 *)
          exists ([true] ++ [true] ++ bits_of (N.to_nat 3) (ch_repr lz) ++ bits_of (N.to_nat (64 - lz)) xor),
                 (mkCE lz x false (ce_size e + (5 + (64 - lz)))).
          split; [cbn; auto|]. split; [|split].
          { intros w pre HW. rewrite Hfirst. unfold ce_compress. fold xor lz tz. rewrite Hne, Ht.
            rewrite (proj2 (N.eqb_neq lz (ce_lz e)) Hl), Hfirst.
            eexists. split; [reflexivity|]. emit. }
          { rewrite !app_length, !bits_of_length. cbn [length ce_size]. lia. }
          intros d r rest (Hd & Hf & Hv & Hz) HW HR. unfold cd_next. rewrite Hd, Hf, Hfirst.
          unfold cd_next_value. rewrite <- !app_assoc in HR.
          destruct (read_next r 2 3 _ HW HR) as (r1 & E1 & HW1 & HR1); [lia|reflexivity|]. rewrite E1.
          destruct (read_next r1 3 (ch_repr lz) _ HW1 HR1) as (r2 & E2 & HW2 & HR2); [lia|exact T3|]. rewrite E2.
          rewrite T4. rewrite sub32_u8_sub by lia.
          destruct (read_next r2 (64 - lz) xor _ HW2 HR2) as (r3 & E3 & HW3 & HR3); [lia|auto|]. rewrite E3.
          rewrite (Hv Hfirst), Hvx. cbn [dbind cd_eos cd_val].
          destruct (N.eqb_spec x nan_bits) as [Hn|Hn].
          ++ eexists _, r3. split; [reflexivity|]. tauto.
          ++ rewrite Hd. eexists _, r3. split; [reflexivity|]. split; auto. split; auto. intros _.
             repeat split; cbn; auto; try congruence; lia.
Qed.

Lemma c_close e : ce_inv e -> exists bs e',
  emits ce_close e e' bs /\ N.of_nat (length bs) = ce_simclose e /\
  forall d r rest, c_sim e d -> rwf r -> rrem r = bs ++ rest ->
    exists d' r', cd_next d r = DOk (None, d') r' /\ rwf r'.
Proof.
  intros HE. destruct (c_step e nan_bits HE nan_u64) as (bs & e' & HE' & Em & (L1 & L2 & _) & Dc).
  exists (bs ++ [false]), e'. split; [|split].
  - intros w pre HW. destruct (Em w pre HW) as (w1 & S1 & W1). unfold ce_close. rewrite S1.
    eexists. split; [reflexivity|]. rewrite app_assoc. apply write_bit_rep. auto.
  - rewrite app_length. cbn [length]. unfold ce_simclose. lia.
  - intros d r rest HS HW HR. rewrite <- app_assoc in HR.
    destruct (Dc d r _ HS HW HR) as (d' & r' & E & HW' & _). rewrite N.eqb_refl in E. eauto.
Qed.

Theorem chimp_roundtrip c xs junk : Forall is_u64 xs -> Forall is_byte junk ->
  fst (chimp_decompress (xr_new (x_buffers (chimp_prepare (chimp_compress c xs)) ++ junk)))
  = Ok (before_nan xs).
Proof.
  intros HX HJ. unfold chimp_decompress, chimp_prepare, chimp_compress.
  apply (x_roundtrip cenc cdec ce_init cd_init ce_step ce_close cd_next ce_inv c_sim is_u64); auto.
  - reflexivity.
  - repeat split; cbn; auto; lia.
  - intros e x HE Hx. destruct (c_step e x HE Hx) as (bs & e' & H1 & H2 & [H3 _] & H4). eauto 10.
  - intros e HE. destruct (c_close e HE) as (bs & e' & H1 & _ & H2). eauto.
  - apply nan_u64.
Qed.

Theorem chimp_size c xs : Forall is_u64 xs ->
  let c1 := chimp_compress c xs in
  let real := N.of_nat (length (x_buffers (chimp_prepare c1))) in
  real <= chimp_total_bytes_buffered c1 <= real + 1.
Proof.
  intros HX. apply (x_size_estimate cenc cdec ce_init ce_step ce_close ce_simclose cd_next ce_inv c_sim is_u64); auto.
  - reflexivity.
  - intros e x HE Hx. destruct (c_step e x HE Hx) as (bs & e' & H1 & H2 & [H3 _] & H4). eauto 10.
  - intros e HE. destruct (c_close e HE) as (bs & e' & H1 & H2 & _). eauto.
Qed.
