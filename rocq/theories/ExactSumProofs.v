(** Sums of values that are multiples of one power of two and small enough are
    exact, in any order and any grouping. *)
From Coq Require Import Reals Lra.
From Flocq Require Import Core BinarySingleNaN.
From Verif Require Import Base WordProofs F64 F64Proofs F64BitsProofs F64SumProofs F64Flocq BuffFloatProofs SumSpec.
From Verif Require Import BitIO Xor Gorilla Chimp ChimpN ElfXor Elf RawSpec Rle Uncompressed
  Format FormatSpec File FileSpec FileProofs FormatProofs ByteCodec Codecs CodecSpec CodecProofs FileSummary Query Readers QuerySpec QueryProofs QuerySummary.
Local Open Scope Z_scope.

Definition unit_of (t : Z) (x : f64) (k : Z) : Prop :=
  canonical x /\ finite x /\ real x = F2R (Float radix2 k (t - 1074)).
Lemma weight_pos ks : 0 <= weight ks.
Proof. induction ks as [|k ks IH]; cbn [weight fold_right]; [lia|]; fold (weight ks); lia. Qed.
Lemma total_weight ks : Z.abs (total ks) <= weight ks.
Proof. induction ks as [|k ks IH]; cbn [total weight fold_right]; [lia|]; fold (weight ks) (total ks); lia. Qed.
Lemma total_app a b : total (a ++ b) = total a + total b.
Proof. induction a as [|k a IH]; cbn [app total fold_right]; [reflexivity|]; fold (total (a ++ b)) (total a) (total b); lia. Qed.
Lemma weight_app a b : weight (a ++ b) = weight a + weight b.
Proof. induction a as [|k a IH]; cbn [app weight fold_right]; [reflexivity|]; fold (weight (a ++ b)) (weight a) (weight b); lia. Qed.

Section Exact.
  Variable t : Z.
  Hypothesis T : 0 <= t <= 2044.

  Lemma unit_add x y j k : unit_of t x j -> unit_of t y k -> Z.abs (j + k) <= 2 ^ 53 -> unit_of t (fadd x y) (j + k).
  Proof using T.
    intros (Cx&Fx&Rx) (Cy&Fy&Ry) H.
    assert (S : (real x + real y)%R = F2R (Float radix2 (j + k) (t - 1074))).
    { rewrite Rx, Ry. unfold F2R. cbn [Fnum Fexp]. rewrite plus_IZR. ring. }
    assert (R : rnd (real x + real y) = F2R (Float radix2 (j + k) (t - 1074))).
    { rewrite S. apply rnd_id, format_Z; [assumption|lia]. }
    destruct (fadd_real x y Cx Cy Fx Fy) as (E&F&C).
    - rewrite R. rewrite <- F2R_Zabs. unfold F2R. cbn [Fnum Fexp].
      apply Rle_lt_trans with (bpow radix2 53 * bpow radix2 (t - 1074))%R.
      + apply Rmult_le_compat_r; [apply bpow_ge_0|]. change (bpow radix2 53) with (IZR (2 ^ 53)). now apply IZR_le.
      + rewrite <- bpow_plus. apply bpow_lt. unfold femax. lia.
    - split; [assumption|]. split; [assumption|]. now rewrite E, R.
  Qed.
  Lemma unit_fold xs ks : Forall2 (unit_of t) xs ks -> forall a ka, unit_of t a ka -> Z.abs ka + weight ks <= 2 ^ 53 ->
    unit_of t (fold_left fadd xs a) (ka + total ks).
  Proof using T.
    induction 1 as [|x k xs ks X _ IH]; intros a ka A H; cbn [fold_left total weight fold_right] in *.
    - now rewrite Z.add_0_r.
    - fold (total ks). fold (weight ks) in H. rewrite Z.add_assoc. pose proof (weight_pos ks) as W. apply IH.
      + apply unit_add; auto. lia.
      + lia.
  Qed.
  Lemma unit_zero : unit_of t (S754_zero false) 0.
  Proof using. clear T. split; [exact I|]. split; [exact I|]. unfold real. cbn [SF2R]. now rewrite F2R_0. Qed.
  Lemma unit_sum xs ks : Forall2 (unit_of t) xs ks -> weight ks <= 2 ^ 53 -> unit_of t (float_sum xs) (total ks).
  Proof using T. intros H W. apply (unit_fold xs ks H _ 0 unit_zero). exact W. Qed.

  Lemma Forall2_app_l {A B} (P : A -> B -> Prop) a b c : Forall2 P (a ++ b) c ->
    exists c1 c2, c = c1 ++ c2 /\ Forall2 P a c1 /\ Forall2 P b c2.
  Proof using. intros H. apply Forall2_app_inv_l in H. destruct H as (c1&c2&X&Y&->). eauto. Qed.

  Lemma unit_chunks (xss : list (list f64)) : forall ks, Forall2 (unit_of t) (concat xss) ks -> weight ks <= 2 ^ 53 ->
    exists js, Forall2 (unit_of t) (map float_sum (filter nonempty xss)) js /\ total js = total ks /\ weight js <= weight ks.
  Proof using T.
    induction xss as [|xs xss IH]; intros ks H W; cbn [concat] in H.
    - inversion H; subst. exists []. split; [constructor|]. split; reflexivity.
    - apply Forall2_app_l in H. destruct H as (k1&k2&->&H1&H2). rewrite weight_app in W. pose proof (weight_pos k1).
      pose proof (weight_pos k2). destruct (IH k2 H2 ltac:(lia)) as (js&J&TJ&WJ). rewrite total_app, weight_app.
      cbn [filter]. destruct xs as [|x xs]; cbn [nonempty].
      + inversion H1; subst. exists js. cbn. auto.
      + exists (total k1 :: js). cbn [map]. split; [constructor; [apply unit_sum; auto; lia|assumption]|].
        cbn [total weight fold_right]. fold (total js) (weight js). pose proof (total_weight k1). lia.
  Qed.

  Lemma unit_number x k : (x < two64)%N -> Z.abs k <= 2 ^ 53 -> number x = Some (k * 2 ^ t) -> unit_of t (of_bits x) k.
  Proof using T.
    intros U W E. rewrite number_scaled in E by assumption. pose proof (of_bits_canonical x U) as C.
    assert (F : finite (of_bits x)).
    { destruct (of_bits x) as [s|s| |s p e]; try exact I; [exfalso|discriminate E].
      cbn [scaled] in E. apply some_eq in E.
      assert (B : Z.abs (k * 2 ^ t) < 2 ^ 2098).
      { rewrite Z.abs_mul, (Z.abs_eq (2 ^ t)) by (apply Z.pow_nonneg; lia).
        apply Z.le_lt_trans with (2 ^ 53 * 2 ^ t); [apply Z.mul_le_mono_nonneg_r; [apply Z.pow_nonneg; lia|assumption]|].
        rewrite <- Z.pow_add_r by lia. apply Z.pow_lt_mono_r; lia. }
      rewrite E in B. assert (P : 0 < 2 ^ 2098) by now apply Z.pow_pos_nonneg.
      set (u := 2 ^ 2098) in *. clearbody u. unfold signed in B. destruct s; lia. }
    split; [assumption|]. split; [assumption|].
    pose proof (scaled_real _ _ C F E) as R. apply (Rmult_eq_reg_r (bpow radix2 1074)); [|apply Rgt_not_eq, bpow_gt_0].
    rewrite R. unfold F2R. cbn [Fnum Fexp]. rewrite Rmult_assoc, <- bpow_plus. replace (t - 1074 + 1074) with t by lia.
    rewrite mult_IZR. f_equal. rewrite <- (IZR_Zpower radix2 t) by lia. reflexivity.
  Qed.
  Lemma number_unit x k : unit_of t x k -> number (to_bits x) = Some (k * 2 ^ t).
  Proof using T.
    intros (C&F&R). rewrite number_scaled by (now apply to_bits_bound). rewrite of_to_bits by assumption.
    apply scaled_of_real; auto. rewrite R. unfold F2R. cbn [Fnum Fexp]. rewrite Rmult_assoc, <- bpow_plus.
    replace (t - 1074 + 1074) with t by lia. rewrite mult_IZR. f_equal. rewrite <- (IZR_Zpower radix2 t) by lia. reflexivity.
  Qed.
  Lemma unit_same x y k : unit_of t x k -> unit_of t y k -> not_nz x -> not_nz y -> x = y.
  Proof using.
    clear T. intros (Cx&Fx&Rx) (Cy&Fy&Ry) Nx Ny. destruct (Req_dec (real x) 0) as [Z|Z].
    - assert (Zx : x = S754_zero false).
      { destruct x as [[]|s| |s p e]; cbn in Fx; try tauto; [now destruct Nx|]. exfalso. unfold real in Z. cbn [SF2R] in Z.
        apply eq_0_F2R in Z. cbn in Z. destruct s; discriminate. }
      assert (Zy : y = S754_zero false).
      { rewrite Rx, <- Ry in Z. destruct y as [[]|s| |s p e]; cbn in Fy; try tauto; [now destruct Ny|]. exfalso. unfold real in Z. cbn [SF2R] in Z.
        apply eq_0_F2R in Z. cbn in Z. destruct s; discriminate. }
      now rewrite Zx, Zy.
    - apply real_inj; auto. now rewrite Rx, Ry.
  Qed.
End Exact.

Local Open Scope N_scope.
Section Q.
  Variables (dbg neg : bool) (tie : f64 -> f64 -> bool) (log10 : f64 -> f64) (lib : libraries) (c : config) (ex : executor).
  Variables (m : metadata) (file : list N) (precision : option N) (parts : list (list N)).
  Variables (mask : option bitmap) (cid : option nat) (first : N) (xs : list N).
  Hypothesis EX : scheme_executor dbg neg tie log10 lib c = Some ex.
  Hypothesis ST : stored dbg ex m file precision parts.
  Hypothesis SM : N.of_nat (length (concat parts)) < 2 ^ 32.
  Hypothesis SC : scope parts cid first xs.

  Lemma c32_all : exists yss, choose mask first xs (concat yss) /\
    dec_sum dbg ex m file precision mask cid = Ok (float_sum (map (fun ys => float_sum (map of_bits ys)) (filter nonempty yss))).
  Proof using All.
    pose proof (scheme_default_like _ _ _ _ _ _ _ EX) as DL.
    exists (map (fun '(off, part) => map snd (masked mask off part)) (looked_at parts cid)). split.
    - rewrite <- flat_map_concat_map, (scope_chosen _ _ _ _ _ SC). apply masked_choose, (scope_bound _ _ _ _ SM SC).
    - rewrite (dec_sum_eq dbg tie ex m file parts precision DL ST mask (or_intror SM)). f_equal. apply sum_chunks.
  Qed.
  Lemma c32_exact : exists ys, choose mask first xs ys /\
    forall t ks, (0 <= t <= 2044)%Z -> Forall2 (fun y k => number y = Some (k * 2 ^ t)%Z) ys ks -> (weight ks <= 2 ^ 53)%Z ->
    exists r, dec_sum dbg ex m file precision mask cid = Ok (of_bits r) /\ r < 2 ^ 64 /\ number r = Some (total ks * 2 ^ t)%Z /\
      of_bits r = float_sum (map of_bits ys).
  Proof using All.
    destruct c32_all as (yss&CH&E). exists (concat yss). split; [assumption|]. intros t ks T H W.
    pose proof (choose_u64 _ _ _ _ CH (scope_u64 _ _ _ _ _ _ _ _ _ ST SC)) as U.
    assert (HU : Forall2 (unit_of t) (concat (map (map of_bits) yss)) ks).
    { rewrite <- concat_map. clear - H U W T. revert U. induction H as [|y k ys ks E _ IH]; intros U; cbn [map]; [constructor|].
      cbn [weight fold_right] in W. fold (weight ks) in W. pose proof (weight_pos ks). inversion_clear U. constructor.
      - apply unit_number; auto. lia.
      - apply IH; auto. lia. }
    destruct (unit_chunks t T _ _ HU W) as (js&J&TJ&WJ).
    pose proof (unit_sum t T _ _ J ltac:(lia)) as S1. rewrite TJ in S1.
    pose proof (unit_sum t T _ _ HU W) as S2.
    set (r := float_sum (map float_sum (filter nonempty (map (map of_bits) yss)))) in *.
    exists (to_bits r). destruct S1 as (C1&F1&R1). assert (S1 : unit_of t r (total ks)) by (split; [|split]; assumption).
    rewrite (of_to_bits r C1). split; [|split; [|split]].
    - rewrite E. f_equal. unfold r. f_equal. clear. induction yss as [|ys yss IH]; cbn [map filter]; [reflexivity|].
      destruct ys as [|y ys]; cbn [map filter nonempty]; [exact IH|]. f_equal. exact IH.
    - now apply to_bits_bound.
    - now apply number_unit.
    - rewrite concat_map. apply (unit_same t _ _ (total ks)); auto.
      + apply fold_fadd_low; [|exact I|discriminate]. clear - J. induction J as [|x k l ks (C&_) _ IH]; constructor; auto.
        destruct x; try exact I. cbn in *. lia.
      + apply fold_fadd_low; [|exact I|discriminate]. clear - HU. induction HU as [|x k l ks (C&_) _ IH]; constructor; auto.
        destruct x; try exact I. cbn in *. lia.
  Qed.
End Q.

(** ** BUFF files *)
From Verif Require Import Sprintz SprintzProofs SprintzQueryProofs Buff BuffBitsProofs BuffFixedProofs BuffChunkProofs BuffReadProofs BuffScanProofs BuffFilterProofs BuffFoldProofs
  BuffSpec BuffCodec BuffQueryProofs SprintzSummary BuffSummary BuffFileSummary SumSpec.

Lemma chosen_concat parts cid first xs mask yss : N.of_nat (length (concat parts)) < 2 ^ 32 -> scope parts cid first xs ->
  Forall2 (fun '(off, part) ys => choose mask off part ys) (looked_at parts cid) yss -> choose mask first xs (concat yss).
Proof.
  intros SM SC CH.
  assert (E : yss = map (fun '(off, part) => map snd (masked mask off part)) (looked_at parts cid)).
  { pose proof (looked_bound parts cid SM) as B. induction CH as [|[off part] ys l yss C _ IH]; cbn [map]; [reflexivity|]. f_equal.
    - eapply choose_fun; [exact C|]. apply masked_choose, B. now left.
    - apply IH. intros. apply B. now right. }
  rewrite E, <- flat_map_concat_map, (scope_chosen _ _ _ _ _ SC). apply masked_choose, (scope_bound _ _ _ _ SM SC).
Qed.
Lemma fixed_total f ys t : f <= 50 -> fixed_sum f ys t -> forall vs, Forall2 (fixed_point f) ys vs -> t = total vs.
Proof.
  intros F H. induction H as [|x xs v t P _ IH]; intros vs A; inversion A as [|? w ? ws P2 A2]; subst; [reflexivity|].
  cbn [total fold_right]. fold (total ws). rewrite (IH ws A2). f_equal.
  apply fixed_fx in P, P2; auto. destruct P as [_ ->], P2 as [_ ->]. reflexivity.
Qed.
Lemma unit_quotient f v : f <= 50 -> (Z.abs v <= 2 ^ 53)%Z -> unit_of (1074 - Z.of_N f) (fixed_quotient f v) v.
Proof.
  intros F V. rewrite quotient_unfix by assumption.
  assert (V2 : (Z.abs v <= 2 ^ 100)%Z) by (eapply Z.le_trans; [exact V|]; now apply Z.pow_le_mono_r).
  destruct (unfix_real f F v V2) as (R&Fi&C). split; [assumption|]. split; [assumption|]. rewrite R.
  assert (E : rnd (IZR v) = IZR v) by (apply rnd_id; rewrite <- F2R_0e; now apply format_Z). rewrite E. unfold F2R. cbn [Fnum Fexp].
  f_equal. f_equal. lia.
Qed.
Lemma quotient_not_nz f v : f <= 50 -> (Z.abs v <= 2 ^ 53)%Z -> not_nz (fixed_quotient f v).
Proof.
  intros F V E. destruct (unit_quotient f v F V) as (_&_&R). rewrite E in R. unfold real in R. cbn [SF2R] in R. symmetry in R.
  apply eq_0_F2R in R. cbn in R. subst v. rewrite quotient_unfix, unfix_zero in E by assumption. discriminate.
Qed.
Lemma total_chunks f (yss : list (list N)) : f <= 50 -> forall ts vs, Forall2 (fixed_sum f) (filter nonempty yss) ts ->
  Forall2 (fixed_point f) (concat yss) vs -> total ts = total vs /\ (weight ts <= weight vs)%Z.
Proof.
  intros F. induction yss as [|ys yss IH]; intros ts vs FS FP; cbn [filter concat] in *.
  - inversion FS; inversion FP; subst. split; reflexivity.
  - apply Forall2_app_l in FP. destruct FP as (v1&v2&->&P1&P2). rewrite total_app, weight_app. pose proof (weight_pos v1) as W1.
    destruct ys as [|y ys]; cbn [nonempty] in FS.
    + inversion P1; subst. destruct (IH ts v2 FS P2) as [A B]. cbn. split; [assumption|]. exact B.
    + inversion FS as [|? t ? ts' FY FR]; subst. destruct (IH ts' v2 FR P2) as [A B].
      cbn [total weight fold_right]. fold (total ts') (weight ts'). rewrite (fixed_total f _ _ F FY v1 P1). pose proof (total_weight v1). lia.
Qed.

Lemma c40_exact dbg simd neg lg scale f m file precision parts vss :
  buff_stored dbg simd neg lg scale f m file precision parts vss ->
  forall mask, mask_ok mask -> N.of_nat (length (concat parts)) < 2 ^ 32 ->
  forall cid first xs, scope parts cid first xs ->
  (forall off part, In (off, part) (looked_at parts cid) -> chunk_fits part) ->
  forall ws, scope vss cid first ws ->
  (forall off part, In (off, part) (looked_at parts cid) -> sums_fit f part /\ (mask = None \/ chunk_varies f part)) ->
  exists ys, choose mask first xs ys /\
    forall vs, Forall2 (fixed_point f) ys vs -> (weight vs <= 2 ^ 53)%Z ->
    dec_sum dbg (buff_executor dbg simd neg) m file precision mask cid = Ok (fixed_quotient f (total vs)) /\
    number (fixed_value f (total vs)) = Some (total vs * step f)%Z.
Proof.
  intros SS mask MO SM cid first xs SC FIT ws SV FITS.
  destruct (file_sum dbg simd neg (fun _ _ => true) lg scale f m file precision parts vss SS mask MO SM cid first xs SC FIT ws SV FITS) as (yss&ts&CH&FS&E).
  pose proof (F50 _ _ _ _ _ _ _ _ _ _ _ SS) as F. exists (concat yss). split; [now apply (chosen_concat parts cid)|].
  intros vs FP W. destruct (total_chunks f yss F ts vs FS FP) as [TT WT].
  assert (T : (0 <= 1074 - Z.of_N f <= 2044)%Z) by lia.
  assert (WV : (Z.abs (total vs) <= 2 ^ 53)%Z) by (pose proof (total_weight vs); lia).
  assert (J : Forall2 (unit_of (1074 - Z.of_N f)) (map (fixed_quotient f) ts) ts).
  { assert (WS : (weight ts <= 2 ^ 53)%Z) by lia. clear - F WS. induction ts as [|t ts IH]; cbn [map]; constructor.
    - apply unit_quotient; auto. cbn [weight fold_right] in WS. fold (weight ts) in WS. pose proof (weight_pos ts). lia.
    - apply IH. cbn [weight fold_right] in WS. fold (weight ts) in WS. lia. }
  pose proof (unit_sum _ T _ _ J ltac:(lia)) as S. rewrite TT in S.
  pose proof (unit_quotient f (total vs) F WV) as Q. split.
  - rewrite E. f_equal. apply (unit_same _ _ _ _ S Q); [|now apply quotient_not_nz].
    apply fold_fadd_low; [|exact I|discriminate]. clear - J. induction J as [|x k l ks (C&_) _ IH]; constructor; auto.
    destruct x; try exact I. cbn in *. lia.
  - exact (number_unit _ T _ _ Q).
Qed.

(** ** Samples *)
Lemma c32_exact_sample :
  choose (Some [0; 1; 4; 6]) 0 q_records [0; 0x3ff8000000000000; 0x3ff8000000000000; 0xbff0000000000000] /\
  Forall2 (fun y k => number y = Some (k * 2 ^ 1073)%Z) [0; 0x3ff8000000000000; 0x3ff8000000000000; 0xbff0000000000000] [0; 3; 3; -2]%Z /\
  (weight [0; 3; 3; -2] <= 2 ^ 53)%Z /\ number 0x4000000000000000 = Some (4 * 2 ^ 1073)%Z.
Proof.
  split; [|split; [|split]].
  - pose proof (masked_choose (Some [0; 1; 4; 6]) q_records 0 ltac:(vm_compute; reflexivity)) as H.
    assert (E : map snd (masked (Some [0; 1; 4; 6]) 0 q_records) = [0; 0x3ff8000000000000; 0x3ff8000000000000; 0xbff0000000000000]) by (vm_compute; reflexivity).
    rewrite <- E. exact H.
  - constructor; [vm_compute; reflexivity|]. constructor; [vm_compute; reflexivity|]. constructor; [vm_compute; reflexivity|].
    constructor; [vm_compute; reflexivity|]. constructor.
  - vm_compute. discriminate.
  - vm_compute. reflexivity.
Qed.
Lemma c32_grouping : exists xs parts, concat parts = xs /\
    float_sum (map (fun ys => float_sum (map of_bits ys)) (filter nonempty parts)) <> float_sum (map of_bits xs).
Proof.
  exists [0x3ff0000000000000; 0x3ca0000000000000; 0x3ca0000000000000], [[0x3ff0000000000000]; [0x3ca0000000000000; 0x3ca0000000000000]].
  split; [reflexivity|]. vm_compute. discriminate.
Qed.
Lemma c40_exact_sample :
  Forall2 (fixed_point 5) (map (fixed_value 5) [10; 48; -80; 0; 10; 224; -3]%Z) [10; 48; -80; 0; 10; 224; -3]%Z /\ (weight [10; 48; -80; 0; 10; 224; -3] <= 2 ^ 53)%Z /\
  total [10; 48; -80; 0; 10; 224; -3]%Z = 209%Z.
Proof.
  split; [|split; [vm_compute; discriminate|reflexivity]]. cbn [map].
  do 7 (constructor; [eexists; split; [vm_compute; reflexivity|]; vm_compute; repeat split; discriminate|]). constructor.
Qed.
