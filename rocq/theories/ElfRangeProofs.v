(** Every everyday value is recovered by Elf, whatever the logarithm computes. *)
From Coq Require Import Reals Lra.
From Flocq Require Import Core BinarySingleNaN.
From Verif Require Import Base WordProofs BitIO Xor F64 F64Proofs F64BitsProofs F64Flocq QuerySpec QueryProofs
  ElfFloatProofs Elf ElfSpec ElfRangeSpec ElfSmallProofs ElfArithProofs ElfEraseProofs.
Local Open Scope Z_scope.

(** The powers of ten below one have their own code. *)
Lemma tenths_recovered log10 s j last b x' : In j [1; 2; 3; 4; 5; 6]%N -> last = 2147483647 \/ 0 <= last < 16 ->
  elf_erase log10 last (sgn s + to_bits (npow10 j))%N = Some (b, x') -> 0 <= b /\ elf_recover log10 b x' = (sgn s + to_bits (npow10 j))%N.
Proof.
  intros J L. assert (G : forallb (fun j => recovers (small_power j) [to_bits (small_power j); sgn true + to_bits (small_power j)]%N) [1; 2; 3; 4; 5; 6]%N = true) by (vm_compute; reflexivity).
  rewrite forallb_forall in G. specialize (G j J).
  assert (P : npow10 j = small_power j). { apply small_power_ok. cbn [In] in J. unfold ten_powers. cbn [In]. tauto. }
  rewrite P. apply (recovers_each log10 _ _ _ last b x' G); [|exact L]. destruct s; [right; now left|now left].
Qed.

(** A value whose decade [d] is found by the encoder, without the flag, and by the
    decoder for every smaller value of the decade. *)
Lemma regular_recovered log10 s e f d last b x' : (1 <= e <= 2046)%N -> (f < 4503599627370496)%N -> -6 <= d <= 14 ->
  (dec d <= val e f < dec (d + 1))%R -> get_sp_flag log10 (of_bits (fields false e f)) = (d, false) -> (val e f = dec d -> 0 <= d) ->
  (forall g, (g < 4503599627370496)%N -> (dec d <= val e g < val e f)%R -> get_sp log10 (of_bits (fields false e g)) = d) ->
  last = 2147483647 \/ 0 <= last < 16 -> elf_erase log10 last (fields s e f) = Some (b, x') -> 0 <= b /\ elf_recover log10 b x' = fields s e f.
Proof.
  intros HE HF D AD SF ND SG L E.
  destruct (fields_real s e f HE HF) as (R&F&C&AB&_). destruct (fields_real false e f HE HF) as (RA&FA&CA&_&_). fold (val e f) in R, RA.
  rewrite Rmult_1_l in RA. set (a := of_bits (fields false e f)) in *. rewrite <- RA in AD.
  unfold elf_erase in E. unfold alpha_beta_star in E. rewrite AB in E. fold a in E. rewrite SF in E.
  destruct (count_ok a CA FA d D AD d (or_introl eq_refl) last L) as [CN|(alpha&t&CN&AL&T&Q)]; rewrite CN in E; [discriminate E|].
  replace (d + alpha + 1 - d - 1) with alpha in E by lia. rewrite i32_small in E by (change (2 ^ 31) with 2147483648; lia).
  rewrite RA in *.
  pose proof (kept_exp e f d alpha t HE HF D AL T AD Q) as KE. pose proof (count_pos e f d alpha t HE HF D AL T AD Q) as CP.
  destruct (kept_bounds e f d alpha t HE HF D AL T AD Q) as [KB _].
  rewrite erase_bits_eq in E by (assumption || lia). fold (er e alpha) in E. cbv zeta in E.
  destruct (d + alpha + 1 <? 16); [|discriminate E]. destruct (Z.ltb_spec 4 (er e alpha)) as [E4|]; [|discriminate E]. cbn [andb] in E.
  assert (B52 : er e alpha <= 52) by (unfold er; lia). rewrite (Z.mod_small (er e alpha) 64) in E by lia.
  destruct (fields_erase s e f (Z.to_N (er e alpha)) ltac:(lia) HF ltac:(lia)) as [M1 M2]. rewrite M1, M2 in E.
  destruct (N.eqb_spec (f mod 2 ^ Z.to_N (er e alpha)) 0) as [|NZ]; [discriminate E|]. cbn [negb] in E. injection E as <- <-. split; [lia|].
  assert (NO : ~ (alpha = 0 \/ (0 <= d /\ val e f = dec d))).
  { intros H. apply NZ. exact (nothing_erased e f d alpha t HE HF D AL T AD Q E4 H). }
  assert (A1 : 1 <= alpha). { destruct (Z.eq_dec alpha 0) as [A0|A0]; [destruct NO; left; exact A0|clear - AL A0; lia]. }
  assert (NDD : val e f <> dec d). { intros X. apply NO. right. split; [exact (ND X)|exact X]. }
  apply (recovered e f d alpha t HE HF D AL T AD Q E4 A1 NDD NZ s log10). apply SG; [unfold fe; lia|].
  destruct (erased_decade e f d alpha t HE HF D AL T AD Q E4 A1 NDD NZ) as [X _].
  destruct (erased_val e f d alpha t HE HF D AL T AD Q E4 A1 NDD NZ) as [_ Y]. split; [exact X|exact Y].
Qed.

Lemma normal_recoverable log10 s e f : (1 <= e <= 2046)%N -> (f < 4503599627370496)%N -> (dec (-6) <= val e f < dec 9)%R ->
  recoverable log10 (fields s e f).
Proof.
  intros HE HF V _ last b x' L E.
  destruct (fields_real false e f HE HF) as (RA&FA&CA&_&_). fold (val e f) in RA.
  rewrite Rmult_1_l in RA. set (a := of_bits (fields false e f)) in *.
  rewrite <- RA in V. destruct (find_decade a V) as (d&D&AD).
  destruct (sp_decade a CA FA log10 d ltac:(lia) AD) as (_&flag&SF&FL1&FL2).
  destruct flag.
  - (* a power of ten below one *)
    destruct (FL1 eq_refl) as [DN EQ]. revert E.
    destruct (npow10_dec (Z.to_N (- d)) ltac:(lia)) as (NR&NF&NC). rewrite Z2N.id, Z.opp_involutive in NR by lia.
    assert (X : a = npow10 (Z.to_N (- d))).
    { apply real_inj; try assumption; [congruence|]. rewrite EQ. pose proof (dec_near d ltac:(lia)). pose proof (p10_pos d). lra. }
    assert (Y : fields false e f = to_bits (npow10 (Z.to_N (- d)))).
    { rewrite <- X. unfold a. symmetry. apply to_of_bits; [apply fields_bound; lia|]. fold a. destruct a; cbn [finite] in FA; try tauto; reflexivity. }
    replace (fields s e f) with (sgn s + fields false e f)%N by (unfold fields, sgn; destruct s; lia).
    rewrite Y. apply tenths_recovered; [|exact L]. cbn [In]. lia.
  - (* the others *)
    rewrite RA in AD, FL2. apply (regular_recovered log10 s e f d last b x' HE HF ltac:(lia) AD SF); [|intros g HG VG|exact L|exact E].
    + intros X. destruct (Z_lt_le_dec d 0) as [N|N]; [|exact N]. specialize (FL2 N X). discriminate.
    + destruct (fields_real false e g HE HG) as (RE&FE&CE&_&_). fold (val e g) in RE. rewrite Rmult_1_l in RE.
      destruct (sp_decade _ CE FE log10 d ltac:(lia)) as [SP _]; [rewrite RE; lra|exact SP].
Qed.

Theorem everyday_recoverable log10 x : everyday x -> is_nan (of_bits x) = false /\ recoverable log10 x.
Proof.
  intros [HX (v&N&V)]. split; [now apply (number_some x v)|]. intros NZI. revert NZI.
  change (feq (of_bits x) (S754_zero false) || is_infinite (of_bits x) = false -> forall last b x', (last = 2147483647 \/ 0 <= last < 16)%Z ->
    elf_erase log10 last x = Some (b, x') -> (0 <= b)%Z /\ elf_recover log10 b x' = x) with (recoverable log10 x).
  destruct (all_fields x HX) as (s&e&f&HE&HF&X). rewrite (number_scaled x HX) in N. subst x.
  destruct (N.eq_dec e 0) as [E0|E0].
  - rewrite of_fields in N by assumption. subst e. cbn [N.eqb] in N. destruct f as [|p].
    + intros B. rewrite of_fields in B by assumption. cbn in B. discriminate.
    + exfalso. cbn [scaled] in N. apply some_eq in N.
      assert (AV : Z.abs v = Zpos p). { subst v. change (2 ^ (-1074 + 1074)) with 1. unfold signed. clear. destruct s; lia. }
      assert (M : 4503599627370496 < micro) by reflexivity. destruct V as [V|[V|V]].
      * lia.
      * assert (4503599627370496 < 2 ^ 52 * 2 ^ 2046) by reflexivity. lia.
      * lia.
  - destruct (N.eq_dec e 2047) as [E1|E1].
    + intros B. exfalso. rewrite of_fields in B, N by assumption. subst e. cbn [N.eqb Pos.eqb] in B, N. destruct f as [|p]; [destruct s; discriminate B|discriminate N].
    + destruct (fields_real s e f ltac:(lia) HF) as (R&F&C&_&_). fold (val e f) in R.
      pose proof (scaled_real _ v C F N) as SV. rewrite R in SV.
      assert (VP : (0 < val e f)%R).
      { destruct (val_bounds e f ltac:(lia) HF) as [VB _]. pose proof (bpow_gt_0 radix2 (Z.of_N e - 1023)). lra. }
      assert (U : (0 < bpow radix2 1074)%R) by apply bpow_gt_0.
      assert (AV : (val e f * bpow radix2 1074 = IZR (Z.abs v))%R).
      { rewrite abs_IZR, <- SV. rewrite !Rabs_mult, (Rabs_pos_eq (val e f)), (Rabs_pos_eq (bpow _ _)) by lra.
        assert (Rabs (if s then -1 else 1) = 1)%R as -> by (destruct s; [rewrite Rabs_left; lra|rewrite Rabs_pos_eq; lra]). ring. }
      apply normal_recoverable; [lia|exact HF|].
      destruct V as [V|[V|[V1 V2]]].
      * exfalso. rewrite V in AV. cbn in AV. nra.
      * exfalso. destruct (val_bounds e f ltac:(lia) HF) as [_ VB]. rewrite V in AV.
        assert (X : IZR (2 ^ 52 * 2 ^ 2046) = bpow radix2 2098).
        { rewrite <- Z.pow_add_r by lia. rewrite <- (IZR_Zpower radix2) by lia. reflexivity. }
        rewrite X in AV. replace 2098 with (1024 + 1074) in AV by lia. rewrite bpow_plus in AV.
        assert (Y : val e f = bpow radix2 1024) by nra.
        assert (Z : (bpow radix2 (Z.of_N e - 1022) <= bpow radix2 1024)%R) by (apply bpow_le; lia).
        pose proof (bpow_gt_0 radix2 (Z.of_N e - 1075)) as UU. fold (ulpv e) in UU. lra.
      * assert (M : IZR micro = (dec (-6) * bpow radix2 1074)%R).
        { destruct (npow10_dec 6 ltac:(lia)) as (NR&_&_). change (- Z.of_N 6) with (-6) in NR. rewrite <- NR.
          assert (Y : npow10 6 = S754_finite false 4722366482869645 (-72)) by (vm_compute; reflexivity). rewrite Y.
          unfold real. cbn [SF2R]. unfold F2R. cbn [Fnum Fexp cond_Zopp]. rewrite Rmult_assoc, <- bpow_plus. change (-72 + 1074) with 1002.
          rewrite <- (IZR_Zpower radix2) by lia. rewrite <- mult_IZR. reflexivity. }
        apply IZR_le in V1. apply IZR_lt in V2. rewrite M in V1. rewrite <- AV in V1, V2.
        destruct (dec_pos 9 ltac:(lia)) as [-> _].
        rewrite mult_IZR in V2. assert (X : IZR (2 ^ 1074) = bpow radix2 1074) by (rewrite <- (IZR_Zpower radix2) by lia; reflexivity).
        rewrite X in V2. clear X M. split; [apply (Rmult_le_reg_r (bpow radix2 1074))|apply (Rmult_lt_reg_r (bpow radix2 1074))]; assumption.
Qed.
