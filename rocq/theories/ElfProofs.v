(** The Elf framing is lossless when erasure is undone pointwise. *)
From Verif Require Import Base BitSpec BitSpecProofs BitIO BitIOProofs WordProofs
  Xor XorSpec XorProofs Gorilla GorillaProofs Chimp ChimpProofs ElfXor ElfXorProofs F64 Elf.

(** Values of [last_beta_star] that occur. *)
Definition last_ok (last : Z) : Prop := (last = i32_max \/ (0 <= last < 16))%Z.

(** A NaN, any payload. *)
Definition nan_pattern (x : N) : bool := is_nan (of_bits x).

(** What the encoder substitutes for a NaN. *)
Definition canon (x : N) : N := if nan_pattern x then nan_bits else x.

Section Wrap.
  Variable erase : Z -> N -> option (Z * N).
  Variable recover : Z -> N -> N.
  Variables (E D : Type) (e_init : E) (d_init : D).
  Variable e_step : E -> bwriter -> N -> E * bwriter.
  Variable e_close : E -> bwriter -> E * bwriter.
  Variable e_simclose : E -> N.
  Variable d_next : D -> breader -> drd (option N * D).
  Variable EInv : E -> Prop.
  Variable Sim : E -> D -> Prop.

  Hypothesis Hinit : EInv e_init.
  Hypothesis Hsim0 : Sim e_init d_init.
  Hypothesis Hstep : forall e x, EInv e -> is_u64 x -> exists bs e',
    EInv e' /\ emits (fun e w => e_step e w x) e e' bs /\
    (1 <= length bs)%nat /\
    forall d r rest, Sim e d -> rwf r -> rrem r = bs ++ rest ->
      exists d' r', d_next d r = DOk (if x =? nan_bits then None else Some x, d') r' /\
        rwf r' /\ rrem r' = rest /\ (x <> nan_bits -> Sim e' d').
  Hypothesis Hclose : forall e, EInv e -> exists bs e',
    emits e_close e e' bs /\ N.of_nat (length bs) = e_simclose e /\
    forall d r rest, Sim e d -> rwf r -> rrem r = bs ++ rest ->
      exists d' r', d_next d r = DOk (None, d') r' /\ rwf r'.
  Hypothesis Herase : forall last x b v', last_ok last -> is_u64 x -> nan_pattern x = false ->
    erase last x = Some (b, v') -> (b < 16)%Z /\ is_u64 v' /\ v' <> nan_bits.

  Definition undone (x : N) : Prop :=
    feq (of_bits x) (S754_zero false) || is_infinite (of_bits x) = false -> forall last b v', last_ok last ->
    erase last x = Some (b, v') -> (0 <= b)%Z /\ recover b v' = x.

  Definition w_inv (e : wenc E) : Prop := last_ok (we_last e) /\ EInv (we_inner e).
  Definition w_sim (e : wenc E) (d : wdec D) : Prop :=
    wd_last d = we_last e /\ Sim (we_inner e) (wd_inner d).
  Definition w_pre (x : N) : Prop :=
    is_u64 x /\ (x = nan_bits \/ nan_pattern x = false /\ undone x).

  Lemma nan_pattern_neq x : nan_pattern x = false -> x <> nan_bits.
  Proof. intros H ->. vm_compute in H. discriminate. Qed.

  Lemma w_step e x : w_inv e -> w_pre x -> exists bs e',
    w_inv e' /\ emits (fun e w => we_step erase E e_step e w x) e e' bs /\
    (1 <= length bs)%nat /\
    forall d r rest, w_sim e d -> rwf r -> rrem r = bs ++ rest ->
      exists d' r', wd_next recover D d_next d r = DOk (if x =? nan_bits then None else Some x, d') r' /\
        rwf r' /\ rrem r' = rest /\ (x <> nan_bits -> w_sim e' d').
  Proof using Hstep Herase.
    clear Hclose Hsim0 Hinit e_simclose e_close d_init e_init.
    intros [HL HE] [Hx Hn].
    (* case 10: the value (or the canonical NaN) is passed on *)
    assert (Keep : forall v', v' = x ->
      (forall w, we_step erase E e_step e w x =
         let '(e', w) := e_step (we_inner e) (write_bits w 2 2) v' in (mkWE (we_last e) e', w)) ->
      exists bs e',
        w_inv e' /\ emits (fun e w => we_step erase E e_step e w x) e e' bs /\
        (1 <= length bs)%nat /\
        forall d r rest, w_sim e d -> rwf r -> rrem r = bs ++ rest ->
          exists d' r', wd_next recover D d_next d r = DOk (if x =? nan_bits then None else Some x, d') r' /\
            rwf r' /\ rrem r' = rest /\ (x <> nan_bits -> w_sim e' d')).
    { intros v' -> Hw. destruct (Hstep (we_inner e) x HE Hx) as (b1 & e1 & HE1 & Em1 & L1 & D1).
      exists (bits_of (N.to_nat 2) 2 ++ b1), (mkWE (we_last e) e1).
      split; [split; auto|]. split; [|split].
      - intros w pre HW. rewrite Hw. destruct (Em1 (write_bits w 2 2) (pre ++ bits_of (N.to_nat 2) 2)) as (w1 & S1 & W1).
        { apply write_bits_rep; auto. }
        cbn beta in S1. rewrite S1. exists w1. rewrite app_assoc. auto.
      - rewrite app_length. lia.
      - intros d r rest [HS1 HS2] HW HR. rewrite <- app_assoc in HR.
        change (bits_of (N.to_nat 2) 2) with [true; false] in HR. cbn [app] in HR.
        unfold wd_next.
        destruct (read_bit_cons r true _ HW HR) as (r1 & E1 & HW1 & HR1). rewrite E1. cbn [negb].
        destruct (read_bit_cons r1 false _ HW1 HR1) as (r2 & E2 & HW2 & HR2). rewrite E2. cbn [negb].
        destruct (D1 _ r2 rest HS2 HW2 HR2) as (d' & r3 & E3 & HW3 & HR3 & HS3).
        unfold wd_keep. rewrite E3. cbn [dbind]. eexists _, r3. split; [reflexivity|].
        split; auto. split; auto. intros Hxn. split; cbn; auto. }
    destruct Hn as [Hxn|[Hxn HU]].
    { apply (Keep x eq_refl). intros w. rewrite Hxn. reflexivity. }
    assert (Hnn : is_nan (of_bits x) = false) by exact Hxn.
    assert (Hxe : x =? nan_bits = false) by (apply N.eqb_neq, nan_pattern_neq; auto).
    destruct (feq (of_bits x) (S754_zero false) || is_infinite (of_bits x)) eqn:Hz.
    { apply (Keep x eq_refl). intros w. unfold we_step. rewrite Hz. reflexivity. }
    destruct (erase (we_last e) x) as [[b v']|] eqn:HEr.
    2:{ apply (Keep x eq_refl). intros w. unfold we_step. rewrite Hz, Hnn, HEr. reflexivity. }
    destruct (Herase _ _ _ _ HL Hx Hxn HEr) as (Hb & Hv & Hvn).
    destruct (HU Hz _ _ _ HL HEr) as (Hb0 & HRec).
    destruct (Hstep (we_inner e) v' HE Hv) as (b1 & e1 & HE1 & Em1 & L1 & D1).
    assert (Hve : v' =? nan_bits = false) by (apply N.eqb_neq; auto). rewrite Hve in D1.
    destruct (Z.eqb_spec b (we_last e)) as [Hbe|Hbe].
    - exists ([false] ++ b1), (mkWE (we_last e) e1).
      split; [split; auto|]. split; [|split].
      + intros w pre HW. unfold we_step. rewrite Hz, Hnn, HEr, Hbe, Z.eqb_refl.
        destruct (Em1 (write_bit w false) (pre ++ [false])) as (w1 & S1 & W1).
        { apply write_bit_rep; auto. }
        cbn beta in S1. rewrite S1. exists w1. rewrite app_assoc. auto.
      + rewrite app_length. lia.
      + intros d r rest [HS1 HS2] HW HR. cbn [app] in HR. unfold wd_next.
        destruct (read_bit_cons r false _ HW HR) as (r1 & E1 & HW1 & HR1). rewrite E1. cbn [negb].
        destruct (D1 _ r1 rest HS2 HW1 HR1) as (d' & r3 & E3 & HW3 & HR3 & HS3).
        unfold wd_recover. rewrite E3. cbn [dbind option_map]. rewrite HS1, <- Hbe, HRec, Hxe.
        eexists _, r3. split; [reflexivity|]. split; auto. split; auto. intros _. split; cbn; auto.
    - set (hd := Z.to_N (Z.lor b 48 mod 64)).
      assert (Hhd : bits_of (N.to_nat 6) hd = [true; true] ++ bits_of (N.to_nat 4) (Z.to_N b) /\ Z.to_N b < 16).
      { subst hd. split; [|lia].
        assert (HB : b = Z.of_N (Z.to_N b)) by lia. rewrite HB. rewrite N2Z.id.
        assert (HS : forall n, n < 16 -> bools_eqb (bits_of (N.to_nat 6) (Z.to_N (Z.lor (Z.of_N n) 48 mod 64)))
                      ([true; true] ++ bits_of (N.to_nat 4) n) = true).
        { intros n Hn. exact (sweep2 (fun n _ => bools_eqb (bits_of (N.to_nat 6) (Z.to_N (Z.lor (Z.of_N n) 48 mod 64)))
            ([true; true] ++ bits_of (N.to_nat 4) n)) 16 1 eq_refl n 0 Hn ltac:(lia)). }
        apply bools_eqb_eq, HS. lia. }
      destruct Hhd as [Hhd Hb16].
      exists (bits_of (N.to_nat 6) hd ++ b1), (mkWE b e1).
      split; [split; auto; right; cbn; lia|]. split; [|split].
      + intros w pre HW. unfold we_step. rewrite Hz, Hnn, HEr.
        destruct (Z.eqb_spec b (we_last e)) as [?|_]; [contradiction|]. fold hd.
        destruct (Em1 (write_bits w hd 6) (pre ++ bits_of (N.to_nat 6) hd)) as (w1 & S1 & W1).
        { apply write_bits_rep; auto. }
        cbn beta in S1. rewrite S1. exists w1. rewrite app_assoc. auto.
      + rewrite app_length. lia.
      + intros d r rest [HS1 HS2] HW HR. rewrite Hhd, <- !app_assoc in HR. cbn [app] in HR. unfold wd_next.
        destruct (read_bit_cons r true _ HW HR) as (r1 & E1 & HW1 & HR1). rewrite E1. cbn [negb].
        destruct (read_bit_cons r1 true _ HW1 HR1) as (r2 & E2 & HW2 & HR2). rewrite E2. cbn [negb].
        destruct (read_next r2 4 (Z.to_N b) _ HW2 HR2) as (r3 & E3 & HW3 & HR3); [lia|exact Hb16|].
        rewrite E3.
        destruct (D1 _ r3 rest HS2 HW3 HR3) as (d' & r4 & E4 & HW4 & HR4 & HS4).
        unfold wd_recover. rewrite E4. cbn [dbind option_map].
        replace (Z.of_N (Z.to_N b)) with b by lia. rewrite HRec, Hxe.
        eexists _, r4. split; [reflexivity|]. split; auto. split; auto. intros _. split; cbn; auto.
  Qed.

  Lemma w_close e : w_inv e -> exists bs e',
    emits (we_close E e_close) e e' bs /\ N.of_nat (length bs) = we_simclose E e_simclose e /\
    forall d r rest, w_sim e d -> rwf r -> rrem r = bs ++ rest ->
      exists d' r', wd_next recover D d_next d r = DOk (None, d') r' /\ rwf r'.
  Proof using Hclose.
    clear Hstep Hsim0 Hinit Herase d_init e_init e_step erase.
    intros [HL HE]. destruct (Hclose (we_inner e) HE) as (b1 & e1 & Em1 & L1 & D1).
    exists (bits_of (N.to_nat 2) 2 ++ b1), (mkWE (we_last e) e1). split; [|split].
    - intros w pre HW. unfold we_close.
      destruct (Em1 (write_bits w 2 2) (pre ++ bits_of (N.to_nat 2) 2)) as (w1 & S1 & W1).
      { apply write_bits_rep; auto. }
      rewrite S1. exists w1. rewrite app_assoc. auto.
    - rewrite app_length, bits_of_length. unfold we_simclose. lia.
    - intros d r rest [HS1 HS2] HW HR. rewrite <- app_assoc in HR.
      change (bits_of (N.to_nat 2) 2) with [true; false] in HR. cbn [app] in HR. unfold wd_next.
      destruct (read_bit_cons r true _ HW HR) as (r1 & E1 & HW1 & HR1). rewrite E1. cbn [negb].
      destruct (read_bit_cons r1 false _ HW1 HR1) as (r2 & E2 & HW2 & HR2). rewrite E2. cbn [negb].
      destruct (D1 _ r2 rest HS2 HW2 HR2) as (d' & r3 & E3 & HW3).
      unfold wd_keep. rewrite E3. cbn [dbind]. eauto.
  Qed.

  (** Every NaN is encoded as the canonical one. *)
  Lemma we_step_canon e w x : we_step erase E e_step e w x = we_step erase E e_step e w (canon x).
  Proof.
    unfold canon. destruct (nan_pattern x) eqn:H; auto.
    unfold nan_pattern in H. unfold we_step. destruct (of_bits x); try discriminate H. reflexivity.
  Qed.

  Lemma x_steps_canon xs : forall e w,
    x_steps _ (we_step erase E e_step) e w xs = x_steps _ (we_step erase E e_step) e w (map canon xs).
  Proof.
    induction xs as [|x xs IH]; intros e w; auto. unfold x_steps in *. cbn [map fold_left].
    rewrite <- we_step_canon. destruct (we_step erase E e_step e w x). apply IH.
  Qed.

  Lemma x_compress_canon c xs :
    x_buffers (x_prepare _ (we_close E e_close) (x_compress _ (we_init E e_init) (we_step erase E e_step) c xs)) =
    x_buffers (x_prepare _ (we_close E e_close) (x_compress _ (we_init E e_init) (we_step erase E e_step) c (map canon xs))).
  Proof.
    unfold x_compress. rewrite <- x_steps_canon.
    destruct (x_steps _ _ _ _ xs) as [e w]. unfold x_prepare. cbn [xe xw].
    destruct (we_close E e_close e w). reflexivity.
  Qed.

  Theorem w_roundtrip c xs junk : Forall is_u64 xs -> Forall is_byte junk ->
    Forall (fun x => nan_pattern x = true \/ undone x) xs ->
    fst (x_decompress _ (wd_init D d_init) (wd_next recover D d_next)
      (xr_new (x_buffers (x_prepare _ (we_close E e_close)
         (x_compress _ (we_init E e_init) (we_step erase E e_step) c xs)) ++ junk)))
    = Ok (before_nan (map canon xs)).
  Proof using Hinit Hsim0 Hstep Hclose Herase.
    intros HX HJ HU. rewrite x_compress_canon.
    apply (x_roundtrip (wenc E) (wdec D) (we_init E e_init) (wd_init D d_init)
      (we_step erase E e_step) (we_close E e_close) (wd_next recover D d_next) w_inv w_sim w_pre); auto.
    - split; auto. left. reflexivity.
    - split; auto.
    - apply w_step.
    - intros e HE. destruct (w_close e HE) as (bs & e' & H1 & _ & H2). eauto.
    - clear - HX HU. induction HX as [|x xs Hx HX IH]; cbn [map]; constructor.
      + inversion HU; subst. unfold canon. destruct (nan_pattern x) eqn:HN.
        * split; [apply nan_u64|auto].
        * split; auto. right. split; auto. destruct H1; [congruence|auto].
      + apply IH. inversion HU; auto.
    - split; [apply nan_u64|auto].
  Qed.

  Theorem w_size c xs : Forall w_pre xs ->
    let c1 := x_compress _ (we_init E e_init) (we_step erase E e_step) c xs in
    let real := N.of_nat (length (x_buffers (x_prepare _ (we_close E e_close) c1))) in
    real <= x_total_bytes_buffered _ (we_simclose E e_simclose) c1 <= real + 1.
  Proof using Hinit Hstep Hclose Herase.
    clear Hsim0 d_init. intros HP.
    apply (x_size_estimate (wenc E) (wdec D) (we_init E e_init)
      (we_step erase E e_step) (we_close E e_close) (we_simclose E e_simclose)
      (wd_next recover D d_next) w_inv w_sim w_pre); auto.
    - split; auto. left. reflexivity.
    - apply w_step.
    - intros e HE. destruct (w_close e HE) as (bs & e' & H1 & H2 & _). eauto.
  Qed.
End Wrap.

(** The erased value stays a 64-bit pattern and is never the end marker. *)
Lemma land_u64 a b : is_u64 b -> is_u64 (N.land a b).
Proof. unfold is_u64. rewrite two64_pow. intros H. rewrite N.land_comm.
  destruct (N.eq_dec (N.land b a) 0) as [->|Hz]; [reflexivity|].
  apply N.log2_lt_pow2; [lia|]. eapply N.le_lt_trans; [apply N.log2_land|].
  destruct (N.eq_dec b 0) as [->|Hb]; [rewrite N.land_0_l in Hz; lia|].
  pose proof (N.log2_lt_pow2 b 64 ltac:(lia)) as [HL _]. specialize (HL H). lia.
Qed.

Lemma exp_all_ones x : (forall i, 52 <= i -> i < 63 -> N.testbit x i = true) ->
  N.land (N.shiftr x 52) 2047 = 2047.
Proof.
  intros H. apply N.bits_inj. intros i. rewrite N.land_spec, N.shiftr_spec by lia.
  change 2047 with (N.ones 11). destruct (N.lt_ge_cases i 11) as [Hi|Hi].
  - rewrite N.ones_spec_low by auto. rewrite H by lia. reflexivity.
  - rewrite N.ones_spec_high by auto. apply andb_false_r.
Qed.

Lemma land_not_nan a x : nan_pattern x = false ->
  N.land a x <> nan_bits \/ is_infinite (of_bits x) = true.
Proof.
  intros HN. destruct (N.eq_dec (N.land a x) nan_bits) as [E|E]; auto. right.
  assert (HB : forall i, 52 <= i -> i < 63 -> N.testbit x i = true).
  { intros i H1 H2. assert (HT : N.testbit nan_bits i = true).
    { assert (HI : i = 52 \/ i = 53 \/ i = 54 \/ i = 55 \/ i = 56 \/ i = 57 \/ i = 58 \/ i = 59 \/ i = 60 \/ i = 61 \/ i = 62) by lia.
      repeat destruct HI as [->|HI]; try reflexivity. rewrite HI. reflexivity. }
    rewrite <- E, N.land_spec in HT. apply andb_prop in HT. tauto. }
  unfold nan_pattern, of_bits in *. rewrite (exp_all_ones x HB) in *.
  change (2047 =? 0) with false in *. change (2047 =? 2047) with true in *. cbv iota in *.
  destruct (N.land x 4503599627370495); [reflexivity|discriminate].
Qed.

Lemma nan_pattern_51 x : nan_pattern x = false -> N.testbit x 51 = true ->
  is_infinite (of_bits x) = false.
Proof.
  intros HN H. unfold nan_pattern, of_bits in *.
  destruct (N.land (N.shiftr x 52) 2047 =? 0); [destruct (N.land x _); auto|].
  destruct (N.land (N.shiftr x 52) 2047 =? 2047); [|destruct (_ + _); auto].
  destruct (N.land x 4503599627370495) eqn:EM; [|discriminate].
  exfalso. assert (HT : N.testbit (N.land x 4503599627370495) 51 = true).
  { rewrite N.land_spec, H. reflexivity. }
  rewrite EM in HT. discriminate.
Qed.

Lemma elf_erase_ok log10 last x b v' : is_u64 x -> nan_pattern x = false ->
  elf_erase log10 last x = Some (b, v') -> (b < 16)%Z /\ is_u64 v' /\ v' <> nan_bits.
Proof.
  intros Hx HN. unfold elf_erase. destruct (alpha_beta_star log10 (of_bits x) last) as [alpha bs].
  destruct ((bs <? 16)%Z && (4 <? erase_bits x alpha)%Z &&
    negb (N.ldiff x (wsub64 0 (shl64m 1 (Z.to_N (erase_bits x alpha mod 64)))) =? 0)) eqn:HC; [|discriminate].
  intros H. inversion H; subst b v'. clear H.
  rewrite !andb_true_iff in HC. destruct HC as [[H1 H2] H3].
  split; [lia|]. split; [apply land_u64; auto|]. intros E.
  destruct (land_not_nan (wsub64 0 (shl64m 1 (Z.to_N (erase_bits x alpha mod 64)))) x HN) as [H|H]; [auto|].
  assert (HT : N.testbit x 51 = true).
  { assert (HT : N.testbit nan_bits 51 = true) by reflexivity.
    rewrite <- E, N.land_spec in HT. apply andb_prop in HT. tauto. }
  rewrite (nan_pattern_51 x HN HT) in H. discriminate.
Qed.

Theorem elf_roundtrip log10 c xs junk : Forall is_u64 xs -> Forall is_byte junk ->
  Forall (fun x => nan_pattern x = true \/ undone (elf_erase log10) (elf_recover log10) x) xs ->
  fst (elf_decompress log10 (xr_new (x_buffers (elf_prepare (elf_compress log10 c xs)) ++ junk)))
  = Ok (before_nan (map canon xs)).
Proof.
  intros HX HJ HU. unfold elf_decompress, elf_prepare, elf_compress.
  apply (w_roundtrip _ _ _ _ _ _ _ _ le_simclose _ le_inv l_sim); auto.
  - split; cbn; [reflexivity|lia].
  - repeat split; cbn; auto; intros; try discriminate; lia.
  - intros e x HE Hx. destruct (l_step e x HE Hx) as (bs & e' & H1 & H2 & [H3 _] & H4). eauto 10.
  - intros e HE. destruct (l_close e HE) as (bs & e' & H1 & H2 & H3). eauto 10.
  - intros last x b v' _. apply elf_erase_ok.
Qed.

Theorem elfc_roundtrip log10 c xs junk : Forall is_u64 xs -> Forall is_byte junk ->
  Forall (fun x => nan_pattern x = true \/ undone (elf_erase log10) (elf_recover log10) x) xs ->
  fst (elfc_decompress log10 (xr_new (x_buffers (elfc_prepare (elfc_compress log10 c xs)) ++ junk)))
  = Ok (before_nan (map canon xs)).
Proof.
  intros HX HJ HU. unfold elfc_decompress, elfc_prepare, elfc_compress.
  apply (w_roundtrip _ _ _ _ _ _ _ _ ce_simclose _ ce_inv c_sim); auto.
  - reflexivity.
  - repeat split; cbn; auto; lia.
  - intros e x HE Hx. destruct (c_step e x HE Hx) as (bs & e' & H1 & H2 & [H3 _] & H4). eauto 10.
  - intros e HE. destruct (c_close e HE) as (bs & e' & H1 & H2 & H3). eauto 10.
  - intros last x b v' _. apply elf_erase_ok.
Qed.
