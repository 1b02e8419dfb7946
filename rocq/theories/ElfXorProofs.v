From Verif Require Import Base BitSpec BitSpecProofs BitIO BitIOProofs WordProofs
  Xor XorSpec XorProofs Gorilla GorillaProofs Chimp ChimpProofs ElfXor.

(** The packed heads, checked over every leading-zero code and window width. *)
Fixpoint bools_eqb (a b : list bool) : bool :=
  match a, b with
  | [], [] => true
  | x :: a, y :: b => Bool.eqb x y && bools_eqb a b
  | _, _ => false
  end.
Lemma bools_eqb_eq a : forall b, bools_eqb a b = true -> a = b.
Proof.
  induction a as [|x a IH]; destruct b as [|y b]; cbn; try discriminate; auto.
  intros H. apply andb_prop in H. destruct H as [H1 H2]. apply eqb_prop in H1. f_equal; auto.
Qed.

Lemma sweep2 (f : N -> N -> bool) (n m : nat) :
  forallb (fun a => forallb (f a) (map N.of_nat (seq 0 m))) (map N.of_nat (seq 0 n)) = true ->
  forall a b, a < N.of_nat n -> b < N.of_nat m -> f a b = true.
Proof.
  intros H a b Ha Hb. rewrite forallb_forall in H.
  assert (Hi : forall k x, x < N.of_nat k -> In x (map N.of_nat (seq 0 k))).
  { intros k x Hx. apply in_map_iff. exists (N.to_nat x). split; [lia|]. apply in_seq. lia. }
  pose proof (H a (Hi n a Ha)) as H1. rewrite forallb_forall in H1. apply H1. auto.
Qed.

Lemma head10 rp c : rp < 8 -> 1 <= c -> c <= 16 ->
  let lac := rp * 16 + c mod 16 in
  bits_of (N.to_nat 9) (le_head10 rp c) = bits_of (N.to_nat 2) 2 ++ bits_of (N.to_nat 7) lac /\
  lac < 128 /\ N.shiftr lac 4 = rp /\
  (if N.land lac 15 =? 0 then 16 else N.land lac 15) = c.
Proof.
  intros Hr H1 H2 lac. subst lac.
  pose proof (sweep2 (fun rp c => (c =? 0) || (bools_eqb (bits_of (N.to_nat 9) (le_head10 rp c))
    (bits_of (N.to_nat 2) 2 ++ bits_of (N.to_nat 7) (rp * 16 + c mod 16)) &&
    (rp * 16 + c mod 16 <? 128) && (N.shiftr (rp * 16 + c mod 16) 4 =? rp) &&
    ((if N.land (rp * 16 + c mod 16) 15 =? 0 then 16 else N.land (rp * 16 + c mod 16) 15) =? c)))
    8 17 eq_refl rp c) as H.
  cbn beta in H. specialize (H ltac:(lia) ltac:(lia)).
  apply orb_prop in H. destruct H as [H|H]; [lia|].
  rewrite !andb_true_iff in H. destruct H as [[[H ?] ?] ?].
  apply bools_eqb_eq in H. rewrite N.eqb_eq in *. rewrite N.ltb_lt in *. auto.
Qed.

Lemma head11 rp c : rp < 8 -> 1 <= c -> c <= 64 ->
  let lac := rp * 64 + c mod 64 in
  bits_of (N.to_nat 11) (le_head11 rp c) = bits_of (N.to_nat 2) 3 ++ bits_of (N.to_nat 9) lac /\
  lac < 512 /\ N.shiftr lac 6 = rp /\
  (if N.land lac 63 =? 0 then 64 else N.land lac 63) = c.
Proof.
  intros Hr H1 H2 lac. subst lac.
  pose proof (sweep2 (fun rp c => (c =? 0) || (bools_eqb (bits_of (N.to_nat 11) (le_head11 rp c))
    (bits_of (N.to_nat 2) 3 ++ bits_of (N.to_nat 9) (rp * 64 + c mod 64)) &&
    (rp * 64 + c mod 64 <? 512) && (N.shiftr (rp * 64 + c mod 64) 6 =? rp) &&
    ((if N.land (rp * 64 + c mod 64) 63 =? 0 then 64 else N.land (rp * 64 + c mod 64) 63) =? c)))
    8 65 eq_refl rp c) as H.
  cbn beta in H. specialize (H ltac:(lia) ltac:(lia)).
  apply orb_prop in H. destruct H as [H|H]; [lia|].
  rewrite !andb_true_iff in H. destruct H as [[[H ?] ?] ?].
  apply bools_eqb_eq in H. rewrite N.eqb_eq in *. rewrite N.ltb_lt in *. auto.
Qed.

(** A word from its bits above the lowest set one. *)
Lemma odd_window x : x <> 0 -> is_u64 x -> ctz64 x < 63 ->
  N.lor (shl64 (shr64m x (ctz64 x + 1)) 1) 1 = N.shiftr x (ctz64 x).
Proof.
  intros Hz Hx Ht. unfold shr64m, shl64. rewrite (N.mod_small (ctz64 x + 1)) by lia.
  rewrite <- N.shiftr_shiftr. pose proof (ctz_odd x Hz) as Ho.
  assert (Hb : N.shiftr x (ctz64 x) < two64).
  { rewrite N.shiftr_div_pow2. eapply N.le_lt_trans; [|exact Hx].
    apply N.div_le_upper_bound; [apply N.pow_nonzero; lia|].
    pose proof (pow2_pos (ctz64 x)). nia. }
  revert Ho Hb. generalize (N.shiftr x (ctz64 x)). intros y Ho Hb.
  rewrite <- N.div2_spec.
  rewrite N.shiftl_mul_pow2. change (2 ^ 1) with 2. rewrite (N.mul_comm _ 2).
  pose proof (N.div2_odd y) as E. rewrite Ho in E. cbn [N.b2n] in E.
  rewrite N.mod_small by lia. rewrite E at 2.
  change 1 with (N.b2n true) at 1.
  apply N.bits_inj. intros i. rewrite N.lor_spec.
  destruct (N.eq_dec i 0) as [->|Hi].
  - rewrite N.testbit_even_0. cbn. rewrite N.testbit_odd_0. reflexivity.
  - replace i with (N.succ (N.pred i)) by lia.
    rewrite N.testbit_even_succ, N.testbit_odd_succ by lia.
    replace (N.testbit (N.b2n true) (N.succ (N.pred i))) with false; [apply orb_false_r|].
    destruct (N.succ (N.pred i)) eqn:E2; [lia|]. destruct p; reflexivity.
Qed.

Lemma wsub32_2 l t : l + t <= 64 -> wsub32 (wsub32 64 l) t = 64 - l - t.
Proof. intros H. rewrite (wsub32_sub 64 l), wsub32_sub; unfold two32; lia. Qed.

Lemma bits_of_0 v : bits_of (N.to_nat 0) v = []. Proof. reflexivity. Qed.

(** Reading the [c-1] bits above the lowest set bit, and restoring the word. *)
Lemma read_odd x l r rest : x <> 0 -> is_u64 x -> l <= clz64 x ->
  let t := ctz64 x in let c := 64 - l - t in
  rwf r -> rrem r = bits_of (N.to_nat (c - 1)) (shr64m x (t + 1)) ++ rest ->
  exists b r', read_bits r (c - 1) = Got b r' /\ rwf r' /\ rrem r' = rest /\
    shl64m (N.lor (shl64 b 1) 1) t = x.
Proof.
  intros Hz Hx Hl t c HW HR. pose proof (clz_ctz_lt x Hz Hx) as Hs.
  assert (Hct : c = 64 - l - t) by reflexivity. clearbody c. fold t in Hs.
  destruct (N.eq_dec t 63) as [H63|H63].
  - assert (c - 1 = 0) by lia. rewrite H in *.
    destruct (read_bits_val r 0 0 rest HW) as (r' & E & HW' & HR'); [lia|reflexivity| |].
    { rewrite HR. reflexivity. }
    exists 0, r'. repeat split; auto; try apply HW'.
    pose proof (ctz_odd x Hz) as Ho. fold t in Ho. rewrite H63 in Ho |- *.
    assert (Hq : N.shiftr x 63 < 2) by (rewrite N.shiftr_div_pow2; apply N.div_lt_upper_bound; [discriminate|];
      unfold is_u64, two64 in Hx; lia).
    assert (Hq1 : N.shiftr x 63 = 1).
    { destruct (N.eq_dec (N.shiftr x 63) 1); auto. assert (Hq0 : N.shiftr x 63 = 0) by lia.
      rewrite Hq0 in Ho. discriminate. }
    pose proof (ctz_exact x 63) as EX. rewrite Hq1 in EX.
    rewrite <- (EX ltac:(fold t; lia) Hz). reflexivity.
  - assert (Ht : ctz64 x < 63) by (fold t; lia).
    destruct (read_bits_val r (c - 1) (shr64m x (t + 1)) rest HW) as (r' & E & HW' & HR'); auto.
    { lia. }
    { unfold shr64m. rewrite N.mod_small by lia. replace (c - 1) with (64 - l - (t + 1)) by lia.
      apply window_bound; auto. lia. }
    exists (shr64m x (t + 1)), r'. repeat split; auto; try apply HW'.
    unfold t in *. rewrite odd_window by auto. unfold shl64m. rewrite N.mod_small by lia.
    apply window_exact; auto. lia.
Qed.

Definition le_inv (e : lenc) : Prop :=
  is_u64 (le_stored e) /\ (le_lz e <= 24 -> le_lz e + le_tz e < 64).

Definition l_sim (e : lenc) (d : ldec) : Prop :=
  ld_eos d = false /\ ld_first d = le_first e /\
  (le_first e = false -> ld_val d = le_stored e /\ ld_val d <> nan_bits) /\
  (le_lz e <= 24 -> ld_lz d = le_lz e /\ ld_tz d = le_tz e).

Lemma l_step e x : le_inv e -> is_u64 x -> exists bs e',
  le_inv e' /\ emits (fun e w => le_step e w x) e e' bs /\
  ((1 <= length bs)%nat /\ N.of_nat (length bs) = le_simulate e x) /\
  forall d r rest, l_sim e d -> rwf r -> rrem r = bs ++ rest ->
    exists d' r', ld_next d r = DOk (if x =? nan_bits then None else Some x, d') r' /\
      rwf r' /\ rrem r' = rest /\ (x <> nan_bits -> l_sim e' d').
Proof.
  intros [Hval Hlt] Hx. unfold le_step, le_simulate. destruct (le_first e) eqn:Hfirst.
  - (* first value *)
    destruct (N.eq_dec x 0) as [Hx0|Hx0].
    + exists (bits_of (N.to_nat 7) 64), (mkLE (le_lz e) (le_tz e) x false).
      split; [split; cbn; auto|]. split; [|split].
      { intros w pre HW. rewrite Hfirst. unfold le_write_first. rewrite Hx0. cbn [ctz64].
        change (64 <? 64) with false. cbv iota. eexists. split; [reflexivity|]. emit. }
      { rewrite bits_of_length, Hx0. cbn. split; lia. }
      intros d r rest (Hd & Hf & _ & Hz) HW HR. unfold ld_next. rewrite Hd, Hf, Hfirst.
      unfold ld_read_first.
      destruct (read_bits_val r 7 64 rest HW) as (r' & E & HW' & HR'); auto; [lia|reflexivity|].
      rewrite E. change (64 <? 64) with false. cbv iota.
      rewrite Hx0. change (0 =? nan_bits) with false. cbv iota.
      eexists _, r'. split; [reflexivity|]. split; auto. split; auto. intros _.
      repeat split; cbn; auto; try discriminate; apply Hz; auto.
    + set (tz := ctz64 x). assert (Htz : tz < 64) by (apply ctz_lt; auto).
      exists (bits_of (N.to_nat 7) tz ++ bits_of (N.to_nat (64 - 0 - tz - 1)) (shr64m x (tz + 1))),
        (mkLE (le_lz e) (le_tz e) x false).
      assert (Htl : tz <? 64 = true) by (apply N.ltb_lt; auto).
      split; [split; cbn; auto|]. split; [|split].
      { intros w pre HW. rewrite Hfirst. unfold le_write_first. fold tz. rewrite Htl.
        eexists. split; [reflexivity|]. replace (64 - 0 - tz - 1) with (63 - tz) by lia. emit. }
      { rewrite app_length, !bits_of_length, Htl. split; lia. }
      intros d r rest (Hd & Hf & _ & Hz) HW HR. unfold ld_next. rewrite Hd, Hf, Hfirst.
      unfold ld_read_first. rewrite <- app_assoc in HR.
      destruct (read_next r 7 tz _ HW HR) as (r1 & E1 & HW1 & HR1); [lia| |].
      { change (2 ^ 7) with 128. lia. }
      rewrite E1, Htl. rewrite wsub8_sub by lia.
      destruct (read_odd x 0 r1 rest Hx0 Hx ltac:(lia) HW1 HR1) as (b & r2 & E2 & HW2 & HR2 & EX).
      fold tz in E2, EX. replace (64 - 0 - tz - 1) with (63 - tz) in E2 by lia. rewrite E2, EX.
      destruct (N.eqb_spec x nan_bits) as [Hn|Hn].
      * eexists _, r2. split; [reflexivity|]. tauto.
      * eexists _, r2. split; [reflexivity|]. split; auto. split; auto. intros _.
        repeat split; cbn; auto; apply Hz; auto.
  - set (xor := N.lxor (le_stored e) x).
    assert (Hxu : is_u64 xor) by (apply is_u64_lxor; auto).
    destruct (N.eqb_spec xor 0) as [H0|H0].
    + (* repeated value *)
      assert (Hxe : le_stored e = x) by (apply lxor_eq_0; exact H0).
      exists (bits_of (N.to_nat 2) 1), e. split; [split; auto|]. split; [|split].
      { intros w pre HW. rewrite Hfirst. unfold le_write_next. fold xor. rewrite H0, N.eqb_refl.
        eexists. split; [reflexivity|]. emit. }
      { rewrite bits_of_length. split; lia. }
      intros d r rest (Hd & Hf & Hv & Hz) HW HR. unfold ld_next. rewrite Hd, Hf, Hfirst.
      unfold ld_read_next.
      destruct (read_bits_val r 2 1 rest HW) as (r' & E & HW' & HR'); auto; [lia|reflexivity|].
      rewrite E. cbv iota. destruct (Hv Hfirst) as [Hv1 Hv2].
      assert (Hxn : x <> nan_bits) by congruence.
      destruct (N.eqb_spec x nan_bits) as [Hn|Hn]; [contradiction|].
      exists d, r'. rewrite Hv1, Hxe. split; [reflexivity|]. split; auto. split; auto. intros _.
      repeat split; auto; try congruence; apply Hz; auto.
    + assert (Hne : N.eqb xor 0 = false) by (apply N.eqb_neq; auto).
      set (lz := ch_round (clz64 xor)) in *. set (tz := ctz64 xor) in *.
      assert (Hsum : clz64 xor + tz < 64) by (apply clz_ctz_lt; auto).
      destruct (ch_tables (clz64 xor)) as (Hlz & Hlz24 & Hrp & Hrd); [lia|]. fold lz in Hlz, Hlz24, Hrp, Hrd.
      assert (Hvx : N.lxor xor (le_stored e) = x).
      { rewrite N.lxor_comm. apply lxor_cancel'. }
      assert (Hst : forall d l t r, l_sim e d ->
        exists d', ld_store d l t xor r = DOk (if x =? nan_bits then None else Some x, d') r /\
          (x <> nan_bits -> l_sim (mkLE l t x false) d')).
      { intros d l t r (Hd & Hf & Hv & Hz). unfold ld_store. destruct (Hv Hfirst) as [Hv1 _].
        rewrite Hv1, Hvx. destruct (N.eqb_spec x nan_bits) as [Hn|Hn].
        - eexists. split; [reflexivity|]. tauto.
        - eexists. split; [reflexivity|]. intros _. repeat split; cbn; auto; congruence. }
      destruct ((lz =? le_lz e) && (le_tz e <=? tz)) eqn:Hc.
      * (* same window *)
        apply andb_prop in Hc as Hc'. destruct Hc' as [Hc1 Hc2].
        apply N.eqb_eq in Hc1. apply N.leb_le in Hc2. rewrite Hc1 in *.
        specialize (Hlt ltac:(lia)).
        set (c := 64 - le_lz e - le_tz e).
        assert (Hce : wsub32 (wsub32 64 (le_lz e)) (le_tz e) = c) by (apply wsub32_2; lia).
        assert (Hsh : shr64m xor (le_tz e) = N.shiftr xor (le_tz e)).
        { unfold shr64m. rewrite N.mod_small by lia. reflexivity. }
        assert (Hwb : N.shiftr xor (le_tz e) < 2 ^ c) by (apply window_bound; auto; lia).
        exists (bits_of (N.to_nat 2) 0 ++ bits_of (N.to_nat c) (N.shiftr xor (le_tz e))),
               (mkLE (le_lz e) (le_tz e) x (le_first e)).
        split; [split; cbn; auto|]. split; [|split].
        { intros w pre HW. rewrite Hfirst. unfold le_write_next. fold xor tz lz. rewrite Hne, Hc1, Hc, Hce, Hsh, Hfirst.
          eexists. split; [reflexivity|]. destruct (64 <? 2 + c) eqn:HL.
          - emit.
          - replace (bits_of (N.to_nat 2) 0 ++ bits_of (N.to_nat c) (N.shiftr xor (le_tz e)))
              with (bits_of (N.to_nat (2 + c)) (N.shiftr xor (le_tz e))); [emit|].
            replace (N.to_nat (2 + c)) with (N.to_nat 2 + N.to_nat c)%nat by lia.
            rewrite bits_of_app. f_equal. rewrite N2Nat.id.
            rewrite (N.shiftr_div_pow2 _ c), N.div_small by auto. reflexivity. }
        { rewrite app_length, !bits_of_length, Hce. split; lia. }
        intros d r rest HS HW HR. pose proof HS as (Hd & Hf & Hv & Hz). unfold ld_next. rewrite Hd, Hf, Hfirst.
        destruct (Hz Hlz24) as [Hz1 Hz2].
        unfold ld_read_next. rewrite <- app_assoc in HR.
        destruct (read_next r 2 0 _ HW HR) as (r1 & E1 & HW1 & HR1); [lia|reflexivity|].
        rewrite E1. cbv iota. rewrite Hz1, Hz2, Hce. rewrite (N.mod_small c 256) by lia.
        destruct (read_next r1 c _ _ HW1 HR1) as (r2 & E2 & HW2 & HR2); [lia|exact Hwb|].
        rewrite E2. unfold shl64m. rewrite N.mod_small by lia. rewrite window_exact by auto.
        destruct (Hst d (le_lz e) (le_tz e) r2 HS) as (d' & ES & HS').
        exists d', r2. split; [exact ES|]. auto.
      * (* new window *)
        set (c := 64 - lz - tz).
        assert (Hce : wsub32 (wsub32 64 lz) tz = c) by (apply wsub32_2; lia).
        assert (Hc1 : wsub32 c 1 = c - 1) by (apply wsub32_sub; unfold two32; lia).
        assert (Htz : wsub32 (wsub32 64 lz) c = tz) by (rewrite wsub32_2; lia).
        exists ((if c <=? 16 then bits_of (N.to_nat 9) (le_head10 (ch_repr lz) c)
                 else bits_of (N.to_nat 11) (le_head11 (ch_repr lz) c))
                ++ bits_of (N.to_nat (c - 1)) (shr64m xor (tz + 1))),
               (mkLE lz tz x (le_first e)).
        split; [split; cbn [le_stored le_lz le_tz]; [exact Hx|lia]|]. split; [|split].
        { intros w pre HW. rewrite Hfirst. unfold le_write_next. fold xor tz lz. rewrite Hne, Hc, Hce, Hc1, Hfirst.
          eexists. split; [reflexivity|]. destruct (c <=? 16); emit. }
        { rewrite app_length, bits_of_length, Hce. destruct (c <=? 16) eqn:H16; rewrite bits_of_length; split; lia. }
        intros d r rest HS HW HR. pose proof HS as (Hd & Hf & Hv & Hz). unfold ld_next. rewrite Hd, Hf, Hfirst.
        unfold ld_read_next. rewrite <- app_assoc in HR.
        destruct (N.leb_spec c 16) as [H16|H16].
        -- destruct (head10 (ch_repr lz) c Hrp ltac:(lia) H16) as (EB & HL & Hs & Hl).
           set (lac := ch_repr lz * 16 + c mod 16) in *. rewrite EB, <- app_assoc in HR.
           destruct (read_next r 2 2 _ HW HR) as (r1 & E1 & HW1 & HR1); [lia|reflexivity|].
           rewrite E1. cbv iota.
           destruct (read_next r1 7 lac _ HW1 HR1) as (r2 & E2 & HW2 & HR2); [lia|exact HL|].
           rewrite E2, Hl, Hs, Hrd.
           destruct (read_odd xor lz r2 rest H0 Hxu Hlz HW2 HR2) as (b & r3 & E3 & HW3 & HR3 & EX).
           fold tz in E3, EX. fold c in E3. destruct (N.eqb_spec c 1) as [Hc11|Hc11].
           ++ rewrite Htz. assert (Ht63 : tz = 63 - lz) by lia.
              (* nothing to read *)
              assert (HR2' : rrem r2 = rest).
              { rewrite HR2, Hc11. reflexivity. }
              assert (Hb : shl64m 1 tz = xor).
              { rewrite Hc11 in E3. change (1 - 1) with 0 in E3.
                destruct (read_bits_val r2 0 0 rest HW2) as (r4 & E4 & _); [lia|reflexivity| |].
                { rewrite HR2'. reflexivity. }
                rewrite E4 in E3. inversion E3; subst b r4. exact EX. }
              rewrite Hb. destruct (Hst d lz tz r2 HS) as (d' & ES & HS').
              exists d', r2. auto.
           ++ unfold ld_window. rewrite Htz, (N.mod_small (c - 1) 256) by lia. rewrite E3, EX.
              destruct (Hst d lz tz r3 HS) as (d' & ES & HS').
              exists d', r3. auto.
        -- destruct (head11 (ch_repr lz) c Hrp ltac:(lia) ltac:(lia)) as (EB & HL & Hs & Hl).
           set (lac := ch_repr lz * 64 + c mod 64) in *. rewrite EB, <- app_assoc in HR.
           destruct (read_next r 2 3 _ HW HR) as (r1 & E1 & HW1 & HR1); [lia|reflexivity|].
           rewrite E1. cbv iota.
           destruct (read_next r1 9 lac _ HW1 HR1) as (r2 & E2 & HW2 & HR2); [lia|exact HL|].
           rewrite E2, Hl, Hs, Hrd.
           destruct (read_odd xor lz r2 rest H0 Hxu Hlz HW2 HR2) as (b & r3 & E3 & HW3 & HR3 & EX).
           fold tz in E3, EX. fold c in E3.
           unfold ld_window. rewrite Htz, (N.mod_small (c - 1) 256) by lia. rewrite E3, EX.
           destruct (Hst d lz tz r3 HS) as (d' & ES & HS').
           exists d', r3. auto.
Qed.

Lemma l_close e : le_inv e -> exists bs e',
  emits le_close e e' bs /\ N.of_nat (length bs) = le_simclose e /\
  forall d r rest, l_sim e d -> rwf r -> rrem r = bs ++ rest ->
    exists d' r', ld_next d r = DOk (None, d') r' /\ rwf r'.
Proof.
  intros HE. destruct (l_step e nan_bits HE nan_u64) as (bs & e' & HE' & Em & [L1 L2] & Dc).
  exists (bs ++ [false]), e'. split; [|split].
  - intros w pre HW. destruct (Em w pre HW) as (w1 & S1 & W1). unfold le_close. rewrite S1.
    eexists. split; [reflexivity|]. rewrite app_assoc. apply write_bit_rep. auto.
  - rewrite app_length. cbn [length]. unfold le_simclose. lia.
  - intros d r rest HS HW HR. rewrite <- app_assoc in HR.
    destruct (Dc d r _ HS HW HR) as (d' & r' & E & HW' & _). rewrite N.eqb_refl in E. eauto.
Qed.
