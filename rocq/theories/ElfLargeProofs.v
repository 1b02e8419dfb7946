(** Elf on magnitudes from 1e9 on, with an accurate logarithm. *)
From Coq Require Import Reals Lra.
From Flocq Require Import Core BinarySingleNaN.
From Verif Require Import Base WordProofs BitIO Xor F64 F64Proofs F64BitsProofs F64Flocq QuerySpec QueryProofs
  ElfFloatProofs Elf ElfSpec ElfRangeSpec ElfArithProofs ElfEraseProofs ElfRangeProofs.
Local Open Scope Z_scope.

(** ** From 1e15 on nothing is erased *)
Definition upto (lo : Z) (n : nat) : list Z := map (fun i => lo + Z.of_nat i) (seq 0 n).
Lemma in_upto lo n z : lo <= z < lo + Z.of_nat n -> In z (upto lo n).
Proof.
  intros H. unfold upto. rewrite in_map_iff. exists (Z.to_nat (z - lo)). split; [lia|]. apply in_seq. lia.
Qed.
Lemma f_alpha_table z : -400 <= z <= 420 ->
  if 0 <=? z then (get_f_alpha (i32_as_u32 z) <= 2000)%N else get_f_alpha (i32_as_u32 z) = 4294967295%N.
Proof.
  intros H.
  assert (G : forallb (fun z => if 0 <=? z then (get_f_alpha (i32_as_u32 z) <=? 2000)%N else (get_f_alpha (i32_as_u32 z) =? 4294967295)%N) (upto (-400) 821) = true)
    by (vm_compute; reflexivity).
  rewrite forallb_forall in G. specialize (G z (in_upto (-400) 821 z ltac:(lia))). destruct (0 <=? z); [now apply N.leb_le|now apply N.eqb_eq].
Qed.
Lemma big_er s e f z : (1072 <= e <= 2046)%N -> (f < 4503599627370496)%N -> -400 <= z <= 420 ->
  erase_bits (fields s e f) (i32_as_u32 z) <= 4.
Proof.
  intros HE HF Z. pose proof (f_alpha_table z Z) as F. unfold erase_bits. rewrite fields_exp by lia.
  set (g := get_f_alpha (i32_as_u32 z)) in *. clearbody g.
  assert (W : exists w, (wsub32 ((g + e) mod two32) 1023 = w)%N /\ (48 <= w <= 4000)%N).
  { unfold wsub32, two32. rewrite (N.mod_small 1023) by lia. destruct (0 <=? z).
    - exists (g + e - 1023)%N. split; [|lia]. rewrite (N.mod_small (g + e)) by lia. symmetry. apply N.mod_unique with 1%N; lia.
    - exists (e - 1024)%N. split; [|lia]. subst g. replace ((4294967295 + e) mod 4294967296)%N with (e - 1)%N by (apply N.mod_unique with 1%N; lia).
      symmetry. apply N.mod_unique with 1%N; lia. }
  destruct W as (w&->&W). destruct (N.leb_spec 2147483648 w) as [L|L]; [lia|]. cbv zeta.
  destruct (Z_lt_le_dec (52 - Z.of_N w) 0) as [Q|Q].
  - replace ((52 - Z.of_N w) mod 4294967296) with (52 - Z.of_N w + 4294967296) by (apply Z.mod_unique with (-1); lia).
    destruct (Z.leb_spec 2147483648 (52 - Z.of_N w + 4294967296)); lia.
  - rewrite Z.mod_small by lia. destruct (Z.leb_spec 2147483648 (52 - Z.of_N w)); lia.
Qed.
Lemma count_search_index fuel : forall v i temp j ti, count_search fuel v i temp = Some (j, ti) -> i <= j <= i + Z.of_nat fuel.
Proof.
  induction fuel as [|fuel IH]; intros v i temp j ti; cbn [count_search].
  - destruct (feq _ _); [intros [= <- _]; lia|discriminate].
  - destruct (feq _ _); [intros [= <- _]; lia|]. destruct (is_infinite _); [discriminate|]. intros H. apply IH in H. lia.
Qed.
Lemma strip_zeros_index fuel : forall i ti, (0 <= i -> 0 <= strip_zeros fuel i ti) /\ strip_zeros fuel i ti <= i.
Proof.
  induction fuel as [|fuel IH]; intros i ti; cbn [strip_zeros]; [lia|].
  destruct (Z.ltb_spec 0 i); cbn [andb]; [|lia]. destruct (_ =? 0); [|lia]. destruct (IH (i - 1) (Z.quot ti 10)). lia.
Qed.
Lemma significant_count_index v sp last : 15 <= sp <= 309 -> last = 2147483647 \/ 0 <= last < 16 ->
  -400 <= significant_count v sp last - sp - 1 <= 420.
Proof.
  intros S L. unfold significant_count.
  assert (C : -300 <= count_start sp last <= 20).
  { unfold count_start, i32_max. destruct (Z.eqb_spec last 2147483647), (Z.eqb_spec last 0); cbn [negb andb]; try lia. destruct (Z.leb_spec 0 sp); lia. }
  set (i := count_start sp last) in *. clearbody i.
  destruct (count_search 400 v i _) as [[j ti]|] eqn:E; [|lia].
  apply count_search_index in E. destruct (negb _); [lia|].
  destruct (strip_zeros_index (Z.to_nat j) j ti) as [S1 S2].
  destruct (Z_lt_le_dec j 0) as [N|N]; [|specialize (S1 N); lia].
  assert (X : Z.to_nat j = O) by lia. rewrite X. cbn [strip_zeros]. lia.
Qed.
Lemma huge_kept log10 s e f sp flag last : (1072 <= e <= 2046)%N -> (f < 4503599627370496)%N ->
  get_sp_flag log10 (fabs (of_bits (fields s e f))) = (sp, flag) -> 15 <= sp <= 309 -> last = 2147483647 \/ 0 <= last < 16 ->
  elf_erase log10 last (fields s e f) = None.
Proof.
  intros HE HF SF SP L. unfold elf_erase, alpha_beta_star. rewrite SF.
  pose proof (big_er s e f _ HE HF (significant_count_index (fabs (of_bits (fields s e f))) sp last SP L)) as B. cbv zeta.
  destruct (Z.ltb_spec 4 (erase_bits (fields s e f) (i32_as_u32 (significant_count (fabs (of_bits (fields s e f))) sp last - sp - 1)))); [lia|].
  rewrite andb_false_r. reflexivity.
Qed.

(** ** The logarithm's floor *)
Lemma floor_i32 y : canonical y -> finite y -> (0 <= real y <= 309)%R -> as_i32 (ffloor y) = Zfloor (real y).
Proof.
  intros C F B. destruct (ffloor_real y C F) as (R&F'&C').
  assert (X : as_i32 (ffloor y) = Z.max (-2147483648) (Z.min 2147483647 (ftruncZ (ffloor y)))).
  { destruct (ffloor y); cbn [finite] in F'; try tauto; reflexivity. }
  rewrite X, ftruncZ_real, R, Ztrunc_IZR by exact F'.
  assert (L : 0 <= Zfloor (real y)) by (apply Zfloor_lub; simpl; lra).
  assert (U : Zfloor (real y) <= 309). { apply le_IZR. apply Rle_trans with (real y); [apply Zfloor_lb|lra]. } lia.
Qed.
Lemma between_finite y k : canonical y -> 0 <= k <= 2 ^ 53 -> fle (of_Z k) y = true -> fle y (of_Z 309) = true -> finite y.
Proof.
  intros C K L U. destruct y as [s|[]| |s p e]; cbn [finite]; try exact I.
  - destruct (of_Z_real k) as (_&F&_). { assert (2 ^ 53 <= 2 ^ 1000) by (apply Z.pow_le_mono_r; lia). lia. }
    destruct (of_Z k) as [| | |[]]; cbn in F; try tauto; discriminate L.
  - exfalso. vm_compute in U. discriminate.
  - exfalso. destruct (of_Z k) as [|[]| |[]]; discriminate L.
Qed.
Lemma z_real z : 0 <= z <= 2 ^ 53 -> real (of_Z z) = IZR z /\ finite (of_Z z) /\ canonical (of_Z z).
Proof.
  intros H. split; [apply of_Z_exact; lia|]. apply of_Z_real. assert (2 ^ 53 <= 2 ^ 1000) by (apply Z.pow_le_mono_r; lia). lia.
Qed.

Lemma unit_Z : IZR (2 ^ 1074) = bpow radix2 1074.
Proof. rewrite <- (IZR_Zpower radix2) by lia. reflexivity. Qed.
Section Log.
  Variables e f : N.
  Hypothesis HE : (1 <= e <= 2046)%N.
  Hypothesis HF : (f < 4503599627370496)%N.
  Let a := of_bits (fields false e f).

  Lemma val_number : exists v, number (fields false e f) = Some v /\ (val e f * bpow radix2 1074 = IZR v)%R.
  Proof using HE HF.
    destruct (fields_real false e f HE HF) as (RA&FA&CA&_&_). fold (val e f) in RA. rewrite Rmult_1_l in RA.
    rewrite number_scaled by (apply fields_bound; lia). destruct (finite_scaled _ FA) as [v N]. exists v. split; [exact N|].
    rewrite <- RA. exact (scaled_real _ v CA FA N).
  Qed.
  Lemma val_le (p q : Z) v : (val e f * bpow radix2 1074 = IZR v)%R -> p * 2 ^ 1074 <= v * q <-> (IZR p <= val e f * IZR q)%R.
  Proof using.
    clear. intros E. pose proof (bpow_gt_0 radix2 1074) as U. split; intros H.
    - apply IZR_le in H. rewrite !mult_IZR, unit_Z, <- E in H. apply (Rmult_le_reg_r (bpow radix2 1074)); [exact U|]. lra.
    - apply le_IZR. rewrite !mult_IZR, unit_Z, <- E. apply (Rmult_le_compat_r (bpow radix2 1074)) in H; lra.
  Qed.
  Lemma val_ge (p q : Z) v : (val e f * bpow radix2 1074 = IZR v)%R -> v * q <= p * 2 ^ 1074 <-> (val e f * IZR q <= IZR p)%R.
  Proof using.
    clear. intros E. pose proof (bpow_gt_0 radix2 1074) as U. split; intros H.
    - apply IZR_le in H. rewrite !mult_IZR, unit_Z, <- E in H. apply (Rmult_le_reg_r (bpow radix2 1074)); [exact U|]. lra.
    - apply le_IZR. rewrite !mult_IZR, unit_Z, <- E. apply (Rmult_le_compat_r (bpow radix2 1074)) in H; lra.
  Qed.
  Lemma val_below : (val e f < bpow radix2 1024)%R.
  Proof using HE HF.
    destruct (val_bounds e f HE HF) as [_ B]. assert (Z : (bpow radix2 (Z.of_N e - 1022) <= bpow radix2 1024)%R) by (apply bpow_le; lia).
    pose proof (bpow_gt_0 radix2 (Z.of_N e - 1075)) as UU. fold (ulpv e) in UU. lra.
  Qed.
  Hypothesis V9 : (dec 9 <= val e f)%R.
  Lemma search_none : fle (of_Z 1) a = true /\ sp_search_ge1 a = None.
  Proof using HE HF V9.
    destruct (fields_real false e f HE HF) as (RA&FA&CA&_&_). fold (val e f) in RA. rewrite Rmult_1_l in RA. fold a in RA, FA, CA.
    split.
    - apply ge_one; try assumption. rewrite RA. apply Rle_trans with (2 := V9). apply dec_mono. lia.
    - assert (G : forall i, (i <= 8)%N -> flt a (map_sp_greater_1 (i + 1)) = false).
      { intros i I. apply not_true_is_false. intros H. apply lt_pow in H; try assumption; [|lia]. rewrite RA in H.
        assert (dec (Z.of_N (i + 1)) <= dec 9)%R by (apply dec_mono; lia). lra. }
      unfold sp_search_ge1. cbn [find]. rewrite !G by lia. reflexivity.
  Qed.

  Variable log10 : f64 -> f64.
  Hypothesis LA : log10_accurate log10.
  Lemma log_floor : exists r sp flag, get_sp_flag log10 a = (sp, flag) /\ get_sp log10 a = sp /\ sp = Zfloor r /\ (flag = true -> r = IZR sp) /\
    (9 <= r <= 309)%R /\ forall k, 9 <= k <= 16 ->
      (k <= 15 -> (IZR (10 ^ k) <= val e f)%R -> (IZR k <= r)%R) /\
      (val e f * IZR (10 ^ 15) <= IZR ((10 ^ 15 - 9) * 10 ^ k) -> r < IZR k)%R /\
      (k <= 15 -> (IZR ((10 ^ 15 + 9) * 10 ^ k) <= val e f * IZR (10 ^ 15))%R -> (IZR k < r)%R).
  Proof using LA HE HF V9.
    destruct val_number as (v&N&E). destruct search_none as [S1 S2].
    assert (D9 : dec 9 = IZR (10 ^ 9)) by (apply dec_pos; lia). rewrite D9 in V9.
    assert (BU : is_u64 (fields false e f)) by (apply fields_bound; lia).
    assert (B1 : 10 ^ 9 * 2 ^ 1074 <= v). { pose proof (val_le (10 ^ 9) 1 v E) as X. rewrite Z.mul_1_r, Rmult_1_r in X. apply X. exact V9. }
    assert (B2 : v < 2 ^ 52 * 2 ^ 2046).
    { apply lt_IZR. rewrite <- E. rewrite <- Z.pow_add_r by lia. rewrite (IZR_Zpower radix2) by lia.
      replace (52 + 2046) with (1024 + 1074) by lia. rewrite bpow_plus. apply Rmult_lt_compat_r; [apply bpow_gt_0|apply val_below]. }
    destruct (LA _ v BU N (conj B1 B2)) as (r&RU&LR&LU&LK). fold a in LR.
    pose proof (of_bits_canonical r RU) as CR.
    assert (L9 : fle (of_Z 9) (of_bits r) = true) by (apply (LK 9); lia).
    assert (FR : finite (of_bits r)) by (apply (between_finite _ 9); [exact CR|lia|exact L9|exact LU]).
    assert (ZR : forall z, 0 <= z <= 309 -> real (of_Z z) = IZR z /\ finite (of_Z z) /\ canonical (of_Z z)) by (intros z H; apply z_real; lia).
    destruct (ZR 9 ltac:(lia)) as (R9&F9&C9). destruct (ZR 309 ltac:(lia)) as (R309&F309&C309).
    rewrite fle_real in L9, LU by assumption. rewrite R9 in L9. rewrite R309 in LU.
    assert (FL : as_i32 (ffloor (of_bits r)) = Zfloor (real (of_bits r))) by (apply floor_i32; [exact CR|exact FR|lra]).
    destruct (ffloor_real _ CR FR) as (RF&FF&CF).
    exists (real (of_bits r)), (Zfloor (real (of_bits r))), (feq (of_bits r) (ffloor (of_bits r))).
    split; [|split; [|split; [reflexivity|split; [|split; [lra|]]]]].
    - unfold get_sp_flag. rewrite S1, S2. cbn [option_map]. rewrite LR, FL. reflexivity.
    - unfold get_sp. rewrite S1, S2. cbn [option_map]. rewrite LR, FL. reflexivity.
    - rewrite feq_real by assumption. rewrite RF. intros H. exact H.
    - intros k K. destruct (LK k K) as (L1&L2&L3). destruct (ZR k ltac:(lia)) as (RK&FK&CK).
      rewrite fle_real, RK in L1 by assumption. rewrite flt_real, RK in L2, L3 by assumption. split; [|split].
      + intros K15 H. apply L1; [exact K15|]. pose proof (val_le (10 ^ k) 1 v E) as X. rewrite Z.mul_1_r, Rmult_1_r in X. apply X, H.
      + intros H. apply L2. apply (val_ge ((10 ^ 15 - 9) * 10 ^ k) (10 ^ 15) v E). exact H.
      + intros K15 H. apply L3; [exact K15|]. apply (val_le ((10 ^ 15 + 9) * 10 ^ k) (10 ^ 15) v E). exact H.
  Qed.
End Log.

(** ** Next to a power of ten nothing is erased *)
Lemma er_bound e f alpha : (1 <= e <= 2046)%N -> (f < 4503599627370496)%N -> 1 <= alpha <= 22 ->
  (900000000000000 <= val e f * IZR (10 ^ alpha))%R -> 1072 <= kept alpha + Z.of_N e.
Proof.
  intros HE HF A H. destruct (kept_table alpha A) as [K B]. destruct (Z_le_gt_dec 1072 (kept alpha + Z.of_N e)) as [L|L]; [exact L|exfalso].
  destruct (val_bounds e f HE HF) as [_ U]. pose proof (bpow_gt_0 radix2 (Z.of_N e - 1075)) as UU. fold (ulpv e) in UU.
  apply IZR_le in K. rewrite !mult_IZR in K. assert (X : IZR (2 ^ kept alpha) = bpow radix2 (kept alpha)) by (apply (IZR_Zpower radix2); lia).
  rewrite X in K. assert (PA : (0 < IZR (10 ^ alpha))%R) by (apply IZR_lt, Z.pow_pos_nonneg; lia).
  assert (Y : (bpow radix2 (Z.of_N e - 1022) * bpow radix2 (kept alpha) <= bpow radix2 49)%R) by (rewrite <- bpow_plus; apply bpow_le; lia).
  assert (Y49 : bpow radix2 49 = 562949953421312%R) by (rewrite <- (IZR_Zpower radix2) by lia; reflexivity). rewrite Y49 in Y. clear Y49 X L B.
  set (P := bpow radix2 (Z.of_N e - 1022)) in *. set (Q := bpow radix2 (kept alpha)) in *. set (W := IZR (10 ^ alpha)) in *. set (V := val e f) in *.
  clearbody P Q W V. assert (V * W <= P * W)%R by nra. assert (P * W * 1024 <= P * Q * 1000)%R by nra. lra.
Qed.
Lemma rel_round e f q : (1 <= e <= 2046)%N -> (f < 4503599627370496)%N -> val e f = rnd q ->
  (Rabs (val e f - q) * 9000000000000000 <= val e f)%R.
Proof.
  intros HE HF E. pose proof (val_round e f HE HF q E) as R. destruct (val_bounds e f HE HF) as [B _].
  replace (Z.of_N e - 1023) with (52 + (Z.of_N e - 1075)) in B by lia. rewrite bpow_plus in B. fold (ulpv e) in B.
  assert (Y52 : bpow radix2 52 = 4503599627370496%R) by (rewrite <- (IZR_Zpower radix2) by lia; reflexivity). rewrite Y52 in B.
  pose proof (bpow_gt_0 radix2 (Z.of_N e - 1075)) as UU. fold (ulpv e) in UU. lra.
Qed.

Section Near.
  Variables (e f : N) (d : Z).
  Hypothesis HE : (1 <= e <= 2046)%N.
  Hypothesis HF : (f < 4503599627370496)%N.
  Hypothesis D : 9 <= d <= 14.
  Hypothesis AD : (dec d <= val e f < dec (d + 1))%R.
  Variable sp : Z.
  Definition near : Prop :=
    sp = d /\ (val e f * IZR (10 ^ 15) <= IZR ((10 ^ 15 + 9) * 10 ^ d))%R \/
    (sp = d \/ sp = d + 1) /\ (IZR ((10 ^ 15 - 9) * 10 ^ (d + 1)) <= val e f * IZR (10 ^ 15))%R.

  Lemma near_val : (IZR (10 ^ d) <= val e f < IZR (10 ^ (d + 1)))%R.
  Proof using HE HF D AD. destruct (dec_pos d ltac:(lia)) as [<- _]. destruct (dec_pos (d + 1) ltac:(lia)) as [<- _]. exact AD. Qed.

  Lemma near_17 : near -> 1072 <= kept (16 - sp) + Z.of_N e.
  Proof using HE HF D AD.
    intros H. pose proof near_val as [V _].
    apply (er_bound e f); [exact HE|exact HF|unfold near in H; lia|].
    assert (PA : (0 < IZR (10 ^ (16 - sp)))%R) by (apply IZR_lt, Z.pow_pos_nonneg; unfold near in H; lia).
    assert (X : forall k, 0 <= k -> sp = k -> sp <= 16 -> (IZR (10 ^ (16 - sp)) * IZR (10 ^ k) = 10000000000000000)%R).
    { intros k K -> K16. rewrite <- mult_IZR, <- Z.pow_add_r by lia. replace (16 - k + k) with 16 by lia. reflexivity. }
    assert (C : sp = d \/ (sp = d + 1 /\ (IZR ((10 ^ 15 - 9) * 10 ^ (d + 1)) <= val e f * IZR (10 ^ 15))%R)) by (unfold near in H; intuition).
    destruct C as [S|[S G]].
    - specialize (X d ltac:(lia) S ltac:(lia)). nra.
    - specialize (X (d + 1) ltac:(lia) S ltac:(lia)). rewrite mult_IZR in G. change (IZR (10 ^ 15 - 9)) with 999999999999991%R in G. change (IZR (10 ^ 15)) with 1000000000000000%R in G.
      set (Y := IZR (10 ^ (d + 1))) in *. set (W := IZR (10 ^ (16 - sp))) in *. set (v := val e f) in *. clearbody Y W v. nra.
  Qed.
  Lemma near_found alpha t : near -> 1 <= alpha <= 22 -> 0 < t -> val e f = rnd (IZR t / IZR (10 ^ alpha)) -> val e f <> dec d ->
    1072 <= kept alpha + Z.of_N e.
  Proof using HE HF D AD.
    intros H AL T Q ND. apply (er_bound e f); [exact HE|exact HF|exact AL|]. pose proof near_val as [V _].
    pose proof (t_small e f d alpha t HE HF ltac:(lia) ltac:(lia) T AD Q) as TS.
    pose proof (rel_round e f _ HE HF Q) as RR. assert (PA : (0 < IZR (10 ^ alpha))%R) by (apply IZR_lt, Z.pow_pos_nonneg; lia).
    assert (TQ : (IZR t / IZR (10 ^ alpha) * IZR (10 ^ alpha) = IZR t)%R) by (field; lra).
    assert (RB : (Rabs (val e f * IZR (10 ^ alpha) - IZR t) * 9000000000000000 <= val e f * IZR (10 ^ alpha))%R).
    { rewrite <- TQ, <- Rmult_minus_distr_r, Rabs_mult, (Rabs_pos_eq (IZR (10 ^ alpha))) by lra. nra. }
    assert (MV : (IZR (10 ^ (d + alpha)) = IZR (10 ^ d) * IZR (10 ^ alpha))%R) by (rewrite <- mult_IZR, <- Z.pow_add_r by lia; reflexivity).
    set (W := (val e f * IZR (10 ^ alpha))%R) in *.
    assert (RB1 : ((W - IZR t) * 9000000000000000 <= W)%R) by (pose proof (Rle_abs (W - IZR t)); lra).
    assert (RB2 : ((IZR t - W) * 9000000000000000 <= W)%R) by (pose proof (Rle_abs (- (W - IZR t))); rewrite Rabs_Ropp in *; lra).
    assert (SC : (W * IZR (10 ^ 15) = val e f * IZR (10 ^ 15) * IZR (10 ^ alpha))%R) by (unfold W; ring).
    change (IZR (10 ^ 15)) with 1000000000000000%R in SC.
    destruct H as [[_ G]|[_ G]]; rewrite mult_IZR in G; change (IZR (10 ^ 15)) with 1000000000000000%R in G.
    - change (IZR (10 ^ 15 + 9)) with 1000000000000009%R in G.
      assert (G' : (W * 1000000000000000 <= 1000000000000009 * IZR (10 ^ (d + alpha)))%R) by (rewrite SC, MV; nra).
      assert (TG : (IZR (10 ^ (d + alpha)) + 1 <= IZR t)%R).
      { rewrite <- plus_IZR. apply IZR_le. apply (Zlt_le_succ (10 ^ (d + alpha)) t). apply lt_IZR. rewrite MV, <- TQ.
        apply Rmult_lt_compat_r; [exact PA|]. apply Rnot_le_lt. intros X. apply ND. apply Rle_antisym; [|apply AD]. rewrite Q.
        destruct (dec_pos d ltac:(lia)) as [DE _]. unfold dec. apply rnd_mono. unfold p10. replace (0 <=? d) with true by lia. exact X. }
      assert (L : 15 <= d + alpha).
      { destruct (Z_le_gt_dec 15 (d + alpha)) as [L|L]; [exact L|exfalso].
        assert (Y : (IZR (10 ^ (d + alpha)) <= IZR (10 ^ 14))%R) by (apply IZR_le, Z.pow_le_mono_r; lia).
        change (IZR (10 ^ 14)) with 100000000000000%R in Y. lra. }
      assert (Y : (IZR (10 ^ 15) <= IZR (10 ^ (d + alpha)))%R) by (apply IZR_le, Z.pow_le_mono_r; lia).
      change (IZR (10 ^ 15)) with 1000000000000000%R in Y. lra.
    - change (IZR (10 ^ 15 - 9)) with 999999999999991%R in G.
      assert (MV1 : (IZR (10 ^ (d + alpha + 1)) = IZR (10 ^ (d + 1)) * IZR (10 ^ alpha))%R) by (rewrite <- mult_IZR, <- Z.pow_add_r by lia; f_equal; f_equal; lia).
      assert (G' : (999999999999991 * IZR (10 ^ (d + alpha + 1)) <= W * 1000000000000000)%R) by (rewrite SC, MV1; nra).
      assert (TG : (IZR t <= IZR (10 ^ (d + alpha + 1)) - 1)%R) by (rewrite <- minus_IZR; apply IZR_le; lia).
      assert (L : 15 <= d + alpha + 1).
      { destruct (Z_le_gt_dec 15 (d + alpha + 1)) as [L|L]; [exact L|exfalso].
        assert (Y : (IZR (10 ^ (d + alpha + 1)) <= IZR (10 ^ 14))%R) by (apply IZR_le, Z.pow_le_mono_r; lia).
        change (IZR (10 ^ 14)) with 100000000000000%R in Y. lra. }
      assert (Y : (IZR (10 ^ 15) <= IZR (10 ^ (d + alpha + 1)))%R) by (apply IZR_le, Z.pow_le_mono_r; lia).
      change (IZR (10 ^ 15)) with 1000000000000000%R in Y. lra.
  Qed.

  Lemma near_kept log10 s flag last : near -> get_sp_flag log10 (of_bits (fields false e f)) = (sp, flag) ->
    last = 2147483647 \/ 0 <= last < 16 -> elf_erase log10 last (fields s e f) = None.
  Proof using HE HF D AD.
    intros H SF L.
    destruct (fields_real s e f HE HF) as (R&F&C&AB&_). destruct (fields_real false e f HE HF) as (RA&FA&CA&_&_). fold (val e f) in R, RA.
    rewrite Rmult_1_l in RA. set (a := of_bits (fields false e f)) in *.
    assert (SP : sp = d \/ sp = d + 1 /\ 8 <= d) by (unfold near in H; lia).
    assert (AD' : (dec d <= real a < dec (d + 1))%R) by (rewrite RA; exact AD).
    unfold elf_erase, alpha_beta_star. rewrite AB. fold a. rewrite SF.
    destruct (count_ok a CA FA d ltac:(lia) AD' sp SP last L) as [CN|(alpha&t&CN&AL&T&Q)]; rewrite CN.
    - replace (17 - sp - 1) with (16 - sp) by lia. rewrite i32_small by (change (2 ^ 31) with 2147483648; lia).
      pose proof (near_17 H) as K. rewrite erase_bits_eq by lia. cbv zeta.
      destruct (Z.ltb_spec 4 (1075 - kept (16 - sp) - Z.of_N e)); [lia|]. rewrite andb_false_r. reflexivity.
    - replace (sp + alpha + 1 - sp - 1) with alpha by lia. rewrite i32_small by (change (2 ^ 31) with 2147483648; lia).
      rewrite RA in Q. assert (D' : -6 <= d <= 14) by lia.
      pose proof (kept_exp e f d alpha t HE HF D' AL T AD Q) as KE. destruct (kept_bounds e f d alpha t HE HF D' AL T AD Q) as [KB _].
      rewrite erase_bits_eq by (assumption || lia). fold (er e alpha). cbv zeta.
      destruct (Z.ltb_spec 4 (er e alpha)) as [E4|]; [|rewrite andb_false_r; reflexivity].
      assert (B52 : er e alpha <= 52) by (unfold er; lia). rewrite (Z.mod_small (er e alpha) 64) by lia.
      destruct (fields_erase s e f (Z.to_N (er e alpha)) ltac:(lia) HF ltac:(lia)) as [M1 M2]. rewrite M2.
      assert (NE : (f mod 2 ^ Z.to_N (er e alpha) = 0)%N).
      { destruct (Req_dec (val e f) (dec d)) as [X|X].
        - apply (nothing_erased e f d alpha t HE HF D' AL T AD Q E4). right. split; [lia|exact X].
        - destruct (Z.eq_dec alpha 0) as [A0|A0].
          + apply (nothing_erased e f d alpha t HE HF D' AL T AD Q E4). left. exact A0.
          + exfalso. pose proof (near_found alpha t H ltac:(lia) T Q X). unfold er in E4. lia. }
      rewrite NE. cbn [N.eqb negb]. rewrite andb_false_r. reflexivity.
  Qed.
End Near.

(** ** All magnitudes from 1e9 on *)
Lemma large_recoverable log10 s e f : log10_accurate log10 -> (1 <= e <= 2046)%N -> (f < 4503599627370496)%N -> (dec 9 <= val e f)%R ->
  recoverable log10 (fields s e f).
Proof.
  intros LA HE HF V _ last b x' L E.
  destruct (log_floor e f HE HF V log10 LA) as (r&sp&flag&SF&SG&SR&FLG&RB&LK).
  destruct (fields_real s e f HE HF) as (_&_&_&AB&_).
  assert (SB : (IZR sp <= r < IZR sp + 1)%R) by (rewrite SR; split; [apply Zfloor_lb|apply Zfloor_ub]).
  destruct (Rlt_le_dec (val e f) (dec 15)) as [V15|V15].
  - assert (DD : exists d, 9 <= d <= 14 /\ (dec d <= val e f < dec (d + 1))%R).
    { assert (G : forall n : nat, (n <= 6)%nat -> (val e f < dec (9 + Z.of_nat n))%R -> exists d, 9 <= d <= 14 /\ (dec d <= val e f < dec (d + 1))%R).
      { induction n as [|n IH]; intros N H.
        - exfalso. change (9 + Z.of_nat 0) with 9 in H. lra.
        - destruct (Rlt_le_dec (val e f) (dec (9 + Z.of_nat n))) as [X|X]; [apply IH; [lia|exact X]|].
          exists (9 + Z.of_nat n). split; [lia|]. split; [exact X|]. replace (9 + Z.of_nat n + 1) with (9 + Z.of_nat (S n)) by lia. exact H. }
      apply (G 6%nat); [lia|exact V15]. }
    destruct DD as (d&D&AD). pose proof (near_val e f d HE HF D AD) as NV.
    destruct (LK d ltac:(lia)) as (L1&_&L3). specialize (L1 ltac:(lia) (proj1 NV)).
    destruct (LK (d + 1) ltac:(lia)) as (_&L2&_). destruct (LK (d + 2) ltac:(lia)) as (_&L2'&_).
    assert (UP : (r < IZR (d + 2))%R).
    { apply L2'. replace (d + 2) with (d + 1 + 1) by lia. rewrite (Z.pow_add_r 10 (d + 1) 1) by lia. rewrite !mult_IZR.
      assert (PX : (0 < IZR (10 ^ (d + 1)))%R) by (apply IZR_lt, Z.pow_pos_nonneg; lia). change (IZR (10 ^ 15 - 9)) with 999999999999991%R. change (IZR (10 ^ 15)) with 1000000000000000%R. change (IZR (10 ^ 1)) with 10%R. lra. }
    assert (SPD : sp = d \/ sp = d + 1).
    { assert (d - 1 < sp) by (apply lt_IZR; rewrite minus_IZR; lra). assert (sp < d + 2) by (apply lt_IZR; lra). lia. }
    destruct (Rlt_le_dec (val e f * IZR (10 ^ 15)) (IZR ((10 ^ 15 - 9) * 10 ^ (d + 1)))) as [FAR|CLOSE].
    2:{ exfalso. pose proof (near_kept e f d HE HF D AD sp log10 s flag last (or_intror (conj SPD CLOSE)) SF L) as X. congruence. }
    assert (SD : sp = d).
    { specialize (L2 (Rlt_le _ _ FAR)). assert (sp < d + 1) by (apply lt_IZR; lra). lia. }
    destruct flag.
    + exfalso. assert (X : near e f d sp).
      { left. split; [exact SD|]. apply Rnot_lt_le. intros X. specialize (FLG eq_refl). specialize (L3 ltac:(lia) (Rlt_le _ _ X)). rewrite SD in FLG. lra. }
      pose proof (near_kept e f d HE HF D AD sp log10 s true last X SF L) as Y. congruence.
    + rewrite SD in SF. apply (regular_recovered log10 s e f d last b x' HE HF ltac:(lia) AD SF); [lia| |exact L|exact E].
      intros g HG VG.
      assert (Vg : (dec 9 <= val e g)%R) by (apply Rle_trans with (dec d); [apply dec_mono; lia|apply VG]).
      destruct (log_floor e g HE HG Vg log10 LA) as (r'&sp'&flag'&_&SG'&SR'&_&_&LK').
      destruct (LK' d ltac:(lia)) as (M1&_&_). destruct (LK' (d + 1) ltac:(lia)) as (_&M2&_).
      assert (M1' : (IZR d <= r')%R). { apply M1; [lia|]. destruct (dec_pos d ltac:(lia)) as [<- _]. apply VG. }
      assert (M2' : (r' < IZR (d + 1))%R).
      { apply M2. apply Rlt_le. apply Rle_lt_trans with (2 := FAR). change (IZR (10 ^ 15)) with 1000000000000000%R. lra. }
      rewrite SG', SR'. apply Zfloor_imp. split; assumption.
  - exfalso. assert (D15 : dec 15 = IZR (10 ^ 15)) by (apply dec_pos; lia).
    assert (HE' : (1072 <= e <= 2046)%N).
    { split; [|lia]. destruct (N.le_gt_cases 1072 e) as [X|X]; [exact X|exfalso].
      destruct (val_bounds e f HE HF) as [_ VB]. pose proof (bpow_gt_0 radix2 (Z.of_N e - 1075)) as UU. fold (ulpv e) in UU.
      assert (Y : (bpow radix2 (Z.of_N e - 1022) <= bpow radix2 49)%R) by (apply bpow_le; lia).
      assert (Y49 : bpow radix2 49 = 562949953421312%R) by (rewrite <- (IZR_Zpower radix2) by lia; reflexivity).
      change (IZR (10 ^ 15)) with 1000000000000000%R in D15. lra. }
    destruct (LK 15 ltac:(lia)) as (L1&_&_). rewrite D15 in V15. specialize (L1 ltac:(lia) V15).
    assert (SPB : 15 <= sp <= 309).
    { split; [rewrite SR; apply Zfloor_lub; exact L1|]. apply le_IZR. lra. }
    rewrite <- AB in SF. pose proof (huge_kept log10 s e f sp flag last HE' HF SF SPB L) as X. congruence.
Qed.

Theorem not_tiny_recoverable log10 x : log10_accurate log10 -> not_tiny x -> is_nan (of_bits x) = false /\ recoverable log10 x.
Proof.
  intros LA [HX (v&N&V)]. destruct (Z_lt_le_dec (Z.abs v) (10 ^ 9 * 2 ^ 1074)) as [S|S].
  - apply everyday_recoverable. split; [exact HX|]. exists v. split; [exact N|]. destruct V as [V|V]; [left; exact V|right; right; split; [exact V|exact S]].
  - split; [now apply (number_some x v)|].
    destruct (all_fields x HX) as (s&e&f&HE&HF&X). rewrite (number_scaled x HX) in N. subst x.
    destruct (N.eq_dec e 2047) as [E1|E1].
    { intros B. exfalso. rewrite of_fields in B, N by assumption. subst e. cbn [N.eqb Pos.eqb] in B, N. destruct f as [|p]; [destruct s; discriminate B|discriminate N]. }
    destruct (N.eq_dec e 0) as [E0|E0].
    { intros _. exfalso. rewrite of_fields in N by assumption. subst e. cbn [N.eqb] in N.
      assert (M : 4503599627370496 < 10 ^ 9 * 2 ^ 1074) by reflexivity. destruct f as [|p]; cbn [scaled] in N; apply some_eq in N.
      - subst v. cbn [Z.abs] in S. lia.
      - assert (AV : Z.abs v = Zpos p). { subst v. change (2 ^ (-1074 + 1074)) with 1. unfold signed. clear. destruct s; lia. } lia. }
    assert (HE' : (1 <= e <= 2046)%N) by (clear - HE E0 E1; lia).
    destruct (fields_real s e f HE' HF) as (R&F&C&_&_). fold (val e f) in R.
    pose proof (scaled_real _ v C F N) as SV. rewrite R in SV.
    assert (VP : (0 < val e f)%R).
    { destruct (val_bounds e f HE' HF) as [VB _]. pose proof (bpow_gt_0 radix2 (Z.of_N e - 1023)). lra. }
    assert (U : (0 < bpow radix2 1074)%R) by apply bpow_gt_0.
    assert (AV : (val e f * bpow radix2 1074 = IZR (Z.abs v))%R).
    { rewrite abs_IZR, <- SV. rewrite !Rabs_mult, (Rabs_pos_eq (val e f)), (Rabs_pos_eq (bpow _ _)) by lra.
      assert (Rabs (if s then -1 else 1) = 1)%R as -> by (destruct s; [rewrite Rabs_left; lra|rewrite Rabs_pos_eq; lra]). ring. }
    apply (large_recoverable log10 s e f LA HE' HF). destruct (dec_pos 9 ltac:(lia)) as [-> _].
    apply IZR_le in S. rewrite mult_IZR, unit_Z, <- AV in S. exact (Rmult_le_reg_r _ _ _ U S).
Qed.
