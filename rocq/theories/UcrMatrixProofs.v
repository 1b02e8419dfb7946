(** The matrix experiment. *)
From Coq Require Import Reals Lra.
From Flocq Require Import Core BinarySingleNaN.
From Verif Require Import Base WordProofs Xor F64 F64Proofs F64BitsProofs F64Flocq Format FormatSpec File FileSpec FileSummary Codecs CodecSpec Query QuerySpec QueryProofs
  DecimalSpec DecimalFloatProofs Sprintz SprintzSpec SprintzFloatProofs SprintzSummary ElfSpec Text PipelineProofs
  Expr ExprSpec ExprSummary VectorProofs Tpch TpchSpec Ucr UcrSpec UcrDistanceProofs UcrColumnProofs UcrProofs UcrDecimalProofs UcrElfProofs ElfRangeSpec ElfRangeSummary.
Local Open Scope N_scope.

(** ** Sums of products, up to the sign of zeros *)
Lemma same_refl a : same a a.
Proof. now left. Qed.
Lemma mul_same a b c : same a b -> same (fmul a c) (fmul b c).
Proof.
  intros [->|(s & t & -> & ->)]; [apply same_refl|]. destruct c as [u|u| |u p e]; [right|left; reflexivity|left; reflexivity|right]; eexists; eexists; split; reflexivity.
Qed.
Lemma add_same a b c d : same a b -> same c d -> same (fadd a c) (fadd b d).
Proof.
  intros [->|(s & t & -> & ->)] [->|(s' & t' & -> & ->)]; [apply same_refl| | |].
  - destruct b as [u|u| |u p e]; [right|left; reflexivity|left; reflexivity|left; reflexivity]. destruct u, s', t'; cbn; eauto.
  - destruct d as [u|u| |u p e]; [right|left; reflexivity|left; reflexivity|left; reflexivity]. destruct u, s, t; cbn; eauto.
  - right. destruct s, t, s', t'; cbn; eauto.
Qed.
Lemma sum_same vs ws : Forall2 same vs ws -> forall a b, same a b -> same (fold_left fadd vs a) (fold_left fadd ws b).
Proof. induction 1; intros a b S; cbn [fold_left]; [exact S|]. apply IHForall2. now apply add_same. Qed.
Lemma dot_same neg v v' : Forall is_u64 v -> Forall is_u64 v' -> Forall2 alike v v' -> forall w, same (dot neg v w) (dot neg v' w).
Proof.
  intros U U' F w. unfold dot, iter_sum. apply sum_same; [|apply same_refl]. revert w. induction F as [|x y v v' A F IH]; intros w; [constructor|]. destruct w as [|z w]; [constructor|].
  inversion U; inversion U'; subst. cbn [combine map]. constructor; [|now apply IH]. apply mul_same. destruct (alike_bits x y) as [E|[[s A1] [t B1]]]; auto; [left; exact E|right; exists s, t; auto].
Qed.

(** ** The random numbers *)
Lemma fraction_real x : fraction x -> canonical (of_bits x) /\ finite (of_bits x) /\ (0 <= real (of_bits x) <= 1)%R.
Proof.
  intros (U & v & E & B). pose proof (of_bits_canonical x U) as C. split; [exact C|]. rewrite (number_scaled x U) in E.
  assert (F : finite (of_bits x)).
  { destruct (of_bits x) as [s|s| |s p e]; cbn [scaled finite] in *; [exact Logic.I| |discriminate E|exact Logic.I].
    apply (f_equal (fun o => match o with Some z => z | None => 0%Z end)) in E. cbv beta iota in E. rewrite <- E in B.
    assert (L : (2 ^ 1074 <= 2 ^ 2098)%Z) by (apply Z.pow_le_mono_r; lia). unfold F64Proofs.signed in B. destruct s; revert B L; generalize (2 ^ 1074)%Z (2 ^ 2098)%Z; intros; lia. }
  split; [exact F|]. pose proof (scaled_real _ v C F E) as R. pose proof (bpow_gt_0 radix2 1074) as P.
  assert (A1 : (0 <= IZR v)%R) by (apply IZR_le; apply B). assert (A2 : (IZR v <= bpow radix2 1074)%R) by (change (bpow radix2 1074) with (IZR (2 ^ 1074)); apply IZR_le, Z.lt_le_incl; apply B).
  rewrite <- R in A1, A2. clear - A1 A2 P. split; nra.
Qed.
Lemma rnd_close w k : (-900 <= k <= 900)%Z -> (Rabs w <= bpow radix2 k)%R -> (Rabs (rnd w - w) <= bpow radix2 (k - 52))%R.
Proof.
  intros K W. destruct (Rle_or_lt (bpow radix2 (-1022)) (Rabs w)) as [L|L].
  - destruct (rnd_rel w L) as (e & HE & RE). rewrite RE. replace (w * (1 + e) - w)%R with (w * e)%R by ring. rewrite Rabs_mult.
    unfold Z.sub. rewrite bpow_plus. apply Rmult_le_compat; [apply Rabs_pos|apply Rabs_pos|exact W|]. unfold ulp_half in HE. change (- (52))%Z with (-52)%Z. pose proof (bpow_gt_0 radix2 (-52)). lra.
  - assert (R1 : (Rabs (rnd w) <= bpow radix2 (-1022))%R) by (apply rnd_abs_le; [apply format_bpow; clear; lia|lra]).
    apply Rle_trans with (bpow radix2 (-1021)); [|apply bpow_le; lia]. change (-1021)%Z with (1 + -1022)%Z. rewrite bpow_plus. change (bpow radix2 1) with 2%R.
    eapply Rle_trans; [apply Rabs_triang|]. rewrite Rabs_Ropp. lra.
Qed.
Lemma value_decimal x v : is_u64 x -> number x = Some v -> (0 <= v < 2 ^ 1074)%Z -> exists t, (Z.abs t <= 4 * 10 ^ 8)%Z /\ f64_of_decimal 8 t (matrix_value x) /\
  (4 * Z.abs (t * 2 ^ 1074 - (8 * v - 4 * 2 ^ 1074) * 10 ^ 8) <= 3 * 2 ^ 1074)%Z.
Proof.
  intros U NX BV. destruct (fraction_real x (conj U (ex_intro _ v (conj NX BV)))) as (C & F & B). pose proof NX as VR. rewrite (number_scaled x U) in VR. pose proof (scaled_real _ v C F VR) as RV. clear VR BV NX. set (h := of_bits 0x3fe0000000000000). set (e := of_bits 0x4020000000000000).
  assert (H : canonical h /\ finite h /\ real h = (/ 2)%R).
  { split; [apply of_bits_canonical; reflexivity|]. replace h with (S754_finite false 4503599627370496 (-53)) by (vm_compute; reflexivity). split; [exact Logic.I|]. unfold real, SF2R, F2R. cbn [Fnum Fexp cond_Zopp]. change (bpow radix2 (-53)) with (/ 9007199254740992)%R. lra. }
  assert (E : canonical e /\ finite e /\ real e = 8%R).
  { split; [apply of_bits_canonical; reflexivity|]. replace e with (S754_finite false 4503599627370496 (-49)) by (vm_compute; reflexivity). split; [exact Logic.I|]. unfold real, SF2R, F2R. cbn [Fnum Fexp cond_Zopp]. change (bpow radix2 (-49)) with (/ 562949953421312)%R. lra. }
  destruct H as (CH & FH & RH), E as (CE & FE & RE).
  assert (STEP : forall r b, generic_format radix2 fexp64 b -> (Rabs r <= b)%R -> (b < bpow radix2 1024)%R -> (Rabs (rnd r) <= b)%R /\ (Rabs (rnd r) < bpow radix2 femax)%R).
  { intros r b G L S. pose proof (rnd_abs_le r b G L) as Q. split; [exact Q|]. eapply Rle_lt_trans; [exact Q|exact S]. }
  destruct (STEP (real (of_bits x) - real h)%R (bpow radix2 (-1))) as [B1 S1].
  { apply format_bpow. lia. } { rewrite RH. change (bpow radix2 (-1)) with (/ 2)%R. apply Rabs_le. lra. } { apply bpow_lt. reflexivity. }
  destruct (fsub_real _ _ C CH F FH S1) as (R1 & F1 & C1). rewrite <- R1 in B1.
  destruct (STEP (real (fsub (of_bits x) h) * real e)%R (bpow radix2 2)) as [B2 S2].
  { apply format_bpow. lia. } { rewrite RE. rewrite Rabs_mult, (Rabs_pos_eq 8) by lra. change (bpow radix2 (-1)) with (/ 2)%R in B1. change (bpow radix2 2) with 4%R. lra. } { apply bpow_lt. reflexivity. }
  destruct (fmul_real _ _ C1 CE F1 FE S2) as (R2 & F2 & C2). rewrite <- R2 in B2.
  set (y := fmul (fsub (of_bits x) h) e) in *. set (sc := of_Z (Z.of_N (10 ^ 8))).
  assert (SC : canonical sc /\ finite sc /\ real sc = 100000000%R).
  { destruct (of_Z_real (Z.of_N (10 ^ 8))) as (_ & A & D); [vm_compute; discriminate|]. split; [exact D|]. split; [exact A|]. apply (of_Z_exact (Z.of_N (10 ^ 8))). vm_compute. discriminate. }
  destruct SC as (CS & FS & RS).
  destruct (STEP (real y * real sc)%R 400000000%R) as [B3 S3].
  { rewrite <- (F2R_0e 400000000). apply format_Z; [vm_compute; discriminate|lia]. } { rewrite RS, Rabs_mult, (Rabs_pos_eq 100000000) by lra. change (bpow radix2 2) with 4%R in B2. lra. }
  { apply Rlt_trans with (bpow radix2 30); [change (bpow radix2 30) with 1073741824%R; lra|apply bpow_lt; reflexivity]. }
  destruct (fmul_real _ _ C2 CS F2 FS S3) as (R3 & F3 & C3). rewrite <- R3 in B3.
  set (t := ftruncZ (fround (fmul y sc))). assert (T : (Z.abs t <= 4 * 10 ^ 8)%Z).
  { destruct (fround_exact (fmul y sc) C3 F3) as (_ & _ & _ & N). fold t in N. apply Z.lt_succ_r, lt_IZR. rewrite abs_IZR. change (IZR (Z.succ (4 * 10 ^ 8))) with 400000001%R. apply Rabs_le_inv in N, B3. apply Rabs_lt. lra. }
  destruct (fround_exact (fmul y sc) C3 F3) as (_ & _ & _ & N). fold t in N.
  assert (D1 : (Rabs (real (fsub (of_bits x) h) - (real (of_bits x) - / 2)) <= bpow radix2 (-53))%R).
  { rewrite R1, RH. change (-53)%Z with (-1 - 52)%Z. apply rnd_close; [lia|]. change (bpow radix2 (-1)) with (/ 2)%R. apply Rabs_le. lra. }
  assert (D2 : (Rabs (real y - 8 * real (fsub (of_bits x) h)) <= bpow radix2 (-50))%R).
  { rewrite R2, RE, (Rmult_comm 8). change (-50)%Z with (2 - 52)%Z. apply rnd_close; [lia|]. rewrite Rabs_mult, (Rabs_pos_eq 8) by lra. change (bpow radix2 (-1)) with (/ 2)%R in B1. change (bpow radix2 2) with 4%R. lra. }
  assert (D3 : (Rabs (real (fmul y sc) - 100000000 * real y) <= bpow radix2 (-23))%R).
  { rewrite R3, RS, (Rmult_comm 100000000). change (-23)%Z with (29 - 52)%Z. apply rnd_close; [lia|]. rewrite Rabs_mult, (Rabs_pos_eq 100000000) by lra. change (bpow radix2 29) with 536870912%R. change (bpow radix2 2) with 4%R in B2. lra. }
  exists t. split; [exact T|]. split.
  2:{ assert (D4 : (Rabs (IZR t - 800000000 * real (of_bits x) + 400000000) <= 3 * / 4)%R).
    { change (bpow radix2 (-53)) with (/ 9007199254740992)%R in D1. change (bpow radix2 (-50)) with (/ 1125899906842624)%R in D2. change (bpow radix2 (-23)) with (/ 8388608)%R in D3.
      apply Rabs_le_inv in D1, D2, D3, N. clear - D1 D2 D3 N. apply Rabs_le. lra. }
    clear - D4 RV. apply le_IZR. pose proof (bpow_gt_0 radix2 1074) as P. assert (EP : IZR (2 ^ 1074) = bpow radix2 1074) by reflexivity. rewrite !mult_IZR, abs_IZR, minus_IZR, !mult_IZR, minus_IZR, !mult_IZR, EP, <- RV.
    change (10 ^ 8)%Z with 100000000%Z. set (u := bpow radix2 1074) in *.
    replace (IZR t * u - (8 * (real (of_bits x) * u) - 4 * u) * 100000000)%R with ((IZR t - 800000000 * real (of_bits x) + 400000000) * u)%R by ring.
    rewrite Rabs_mult, (Rabs_pos_eq u) by lra. pose proof (Rmult_le_compat_r u _ _ (Rlt_le _ _ P) D4) as K. lra. }
  unfold matrix_value, matrix_scale. fold h e. fold y. apply (round_by_scale_nearest 8 y t); [lia|exact F3|exact C3|reflexivity|].
  change (2 ^ 53)%Z with 9007199254740992%Z. change (4 * 10 ^ 8)%Z with 400000000%Z in T. lia.
Qed.

(** ** Every scheme but BUFF keeps them *)
Lemma entry_not_nan t y : f64_of_decimal 8 t y -> y <> nan_bits /\ is_nan (of_bits y) = false.
Proof.
  intros (U & a & NA & _). rewrite (number_scaled y U) in NA. split.
  - intros E. rewrite E in NA. vm_compute in NA. discriminate NA.
  - destruct (of_bits y); try reflexivity. discriminate NA.
Qed.
Lemma minus_zero_recovered log10 : recoverable log10 0x8000000000000000.
Proof.
  assert (E : everyday 0x8000000000000000). { split; [reflexivity|]. exists 0%Z. split; [vm_compute; reflexivity|left; reflexivity]. }
  exact (proj2 (proj1 (everyday_storable log10 default_capacity _ E))).
Qed.
Lemma kept_each log10 s c y : y <> nan_bits -> storable log10 (CElf default_capacity) y -> storable log10 (CElfOnChimp default_capacity) y ->
  (forall d, c = CDeltaSprintz d s -> keeps log10 c y) -> In c (experiment_configs false s) -> config_scheme c <> SBuff -> keeps log10 c y.
Proof.
  intros NN E1 E2 E3 I NB. cbn [experiment_configs In] in I.
  repeat (destruct I as [<-|I]; [first [now destruct NB|left; first [exact Logic.I|exact NN|exact E1|exact E2]|idtac]|]); [|destruct I].
  exact (E3 _ eq_refl).
Qed.
Lemma entry_kept log10 c t y : (Z.abs t <= 4 * 10 ^ 8)%Z -> f64_of_decimal 8 t y -> In c (experiment_configs false (10 ^ 8)) -> config_scheme c <> SBuff -> keeps log10 c y.
Proof.
  intros T F I NB. change (4 * 10 ^ 8)%Z with 400000000%Z in T.
  assert (D : t = 0%Z \/ (100 <= Z.abs t)%Z \/ (0 < Z.abs t < 100)%Z) by lia.
  assert (BIG : t = 0%Z \/ (100 <= Z.abs t)%Z -> keeps log10 c y).
  { intros B. apply (decimals_kept log10 8 c y); [discriminate| |exact I|exact NB]. exists t. split; [|exact F].
    change (10 ^ 15)%Z with 1000000000000000%Z. change (10 ^ 9 * 10 ^ Z.of_N 8)%Z with 100000000000000000%Z. change (10 ^ Z.of_N 8)%Z with 100000000%Z. change (10 ^ 6)%Z with 1000000%Z. lia. }
  destruct D as [D|[D|D]]; [now apply BIG; left|now apply BIG; right|]. clear BIG.
  assert (T51 : (Z.abs t < 2 ^ 51)%Z) by (change (2 ^ 51)%Z with 2251799813685248%Z; lia).
  destruct (entry_not_nan t y F) as [NN NF].
  assert (E : storable log10 (CElf default_capacity) y /\ storable log10 (CElfOnChimp default_capacity) y).
  { assert (R : recoverable log10 y). { destruct (decimal_grid 8 t y ltac:(discriminate) T51 F) as [->|<-]; [apply minus_zero_recovered|now apply tiny_recovered]. }
    split; split; assumption. }
  destruct E as [E1 E2]. apply (kept_each log10 (10 ^ 8) c y NN E1 E2); [|exact I|exact NB]. intros d ->.
  destruct (decimal_grid 8 t y ltac:(discriminate) T51 F) as [->|E]; [right; split; reflexivity|left].
  apply grid_storable; [exact (scale_bounded 8 ltac:(discriminate))|]. exists t. split; [exact T51|symmetry; exact E].
Qed.
Lemma entries_of data : Forall fraction data -> Forall2 matrix_entry data (map matrix_value data).
Proof.
  induction 1 as [|x data (U & v & NX & B) F IH]; cbn [map]; constructor; [|exact IH].
  destruct (value_decimal x v U NX B) as (t & _ & D & L). exists v, t. auto.
Qed.
Lemma entries_kept log10 c data : In c (experiment_configs false (10 ^ 8)) -> config_scheme c <> SBuff -> Forall fraction data ->
  Forall is_u64 (map matrix_value data) /\ Forall (keeps log10 c) (map matrix_value data).
Proof.
  intros I NB F. split; apply Forall_map; (eapply Forall_impl; [|exact F]); intros x (U & v & NX & B); destruct (value_decimal x v U NX B) as (t & T & D & _); [apply D|now apply (entry_kept log10 c t)].
Qed.

(** ** The product *)
Lemma in_rows_total size xs n : 0 < size -> N.of_nat (length xs) = n * size -> exists rows, in_rows size xs rows /\ N.of_nat (length rows) = n.
Proof.
  intros S L. destruct (grouped_total (N.to_nat size) xs) as (vs & rest & G); [lia|]. pose proof (grouped_mod _ _ _ _ G) as M. destruct G as (E & F & _).
  assert (R : rest = []).
  { destruct rest; [reflexivity|]. exfalso. replace (length xs) with (N.to_nat n * N.to_nat size)%nat in M by lia. rewrite Nat.mod_mul in M by lia. discriminate M. }
  subst rest. rewrite app_nil_r in E. exists vs. split; [split; [exact E|]|].
  - eapply Forall_impl; [|exact F]. cbv beta. intros r ->. now rewrite N2Nat.id.
  - assert (X : length (concat vs) = (length vs * N.to_nat size)%nat). { clear - F. induction F as [|v vs E F IH]; [reflexivity|]. cbn [concat length]. rewrite app_length, IH, E. lia. }
    rewrite <- E in X. rewrite X in L. apply (N.mul_cancel_r _ _ size); lia.
Qed.
Lemma in_rows_grouped size xs rows : 0 < size -> in_rows size xs rows -> grouped (N.to_nat size) xs rows [].
Proof.
  intros S [E F]. split; [now rewrite app_nil_r|]. split; [|cbn; lia]. eapply Forall_impl; [|exact F]. cbv beta. intros r <-. now rewrite Nat2N.id.
Qed.
Lemma rows_alike size rows : forall vs, Forall2 (Forall2 alike) rows vs -> Forall (fun row : list N => N.of_nat (length row) = size) rows -> Forall (fun row => N.of_nat (length row) = size) vs.
Proof. intros vs H. induction H as [|r v rows vs A H IH]; intros F; constructor; inversion F; subst; [now rewrite (F2len _ _ _ A)|auto]. Qed.
Lemma product_same neg cols : forall rows vs, Forall2 (Forall2 alike) rows vs -> Forall (Forall is_u64) rows -> Forall (Forall is_u64) vs ->
  Forall2 same (flat_map (fun row => map (dot neg row) cols) vs) (flat_map (fun row => map (dot neg row) cols) rows).
Proof.
  intros rows vs H. induction H as [|r v rows vs A H IH]; intros U V; cbn [flat_map]; [constructor|]. inversion U; inversion V; subst. apply Forall2_app; [|auto].
  clear IH. induction cols as [|w cols IH]; constructor; [|exact IH].
  destruct (dot_same neg r v ltac:(assumption) ltac:(assumption) A w) as [->|(a & b & -> & ->)]; [apply same_refl|right; eauto].
Qed.
Lemma partition_nonempty k (xs : list N) parts : partition k xs parts -> xs <> [] -> parts <> [].
Proof. intros (C & _) NE ->. cbn in C. congruence. Qed.
Lemma mod_whole k parts : (0 < k)%nat -> aligned k parts -> Nat.modulo (length (concat parts)) k = 0%nat -> Forall (fun p : list N => Nat.modulo (length p) k = 0%nat) parts.
Proof.
  intros K A T. assert (X : forall i p, nth_error parts i = Some p -> Nat.modulo (length p) k = 0%nat).
  { intros i p E. destruct (Nat.lt_ge_cases i (length parts - 1)) as [L|L]; [exact (A i p E ltac:(lia))|].
    assert (LT : (i < length parts)%nat) by (apply nth_error_Some; congruence).
    apply nth_error_split in E as (a & b & -> & LA). rewrite app_length in L, LT. cbn [length] in L. destruct b; [|cbn [length] in L; lia].
    rewrite concat_app, app_length in T. cbn [concat] in T. rewrite app_nil_r in T.
    assert (Z : Nat.modulo (length (concat a)) k = 0%nat).
    { assert (AA : Forall (fun p => Nat.modulo (length p) k = 0%nat) a).
      { apply Forall_forall. intros q Q. apply In_nth_error in Q as (j & Q). assert (J : (j < length a)%nat) by (apply nth_error_Some; congruence).
        apply (A j q); [now rewrite nth_error_app1|rewrite app_length; cbn [length]; lia]. }
      clear - AA K. induction AA as [|q a Q AA IH]; [apply Nat.mod_0_l; lia|]. cbn [concat]. rewrite app_length, Nat.add_mod, Q, IH by lia. apply Nat.mod_0_l. lia. }
    rewrite Nat.add_mod, Z, Nat.add_0_l, Nat.mod_mod in T by lia. exact T. }
  apply Forall_forall. intros p I. apply In_nth_error in I as (i & E). exact (X i p E).
Qed.

(** The opened file: whole matrices in every chunk, and the rows up to the signs of
    zeros. *)
Lemma matrix_opens P c precision size data rows :
  good_platform P -> In c (experiment_configs false (10 ^ 8)) -> config_scheme c <> SBuff ->
  0 < size -> 2 ^ 24 mod (size * size) = 0 -> N.of_nat (length data) = 40 * size * size ->
  Forall fraction data -> in_rows size (map matrix_value data) rows -> fits P c (map matrix_value data) ->
  exists d s vss vs, open_column P c (map matrix_value data) = Ok d /\ column_statistics P (with_precision d (Some precision)) = Ok s /\
    holds (p_dbg P) (p_neg P) (with_precision d (Some precision)) vss /\
    stored (p_dbg P) (d_ex d) (d_meta d) (d_file d) (Some precision) vss /\ d_ex d = executor_of P c /\
    vss <> [] /\ N.of_nat (length (concat vss)) < 2 ^ 60 /\ Forall (fun p : list N => N.of_nat (length p) mod (size * size) = 0) vss /\
    grouped (N.to_nat size) (concat vss) vs [] /\ N.of_nat (length vs) = 40 * size /\
    Forall2 (Forall2 alike) rows vs /\ Forall (Forall is_u64) rows /\ Forall (Forall is_u64) vs.
Proof.
  intros GP CI NB S0 DV LD FD IR MEM. set (xs := map matrix_value data) in *.
  destruct (entries_kept (p_log10 P) c data CI NB FD) as [XU XK]. fold xs in XU, XK. assert (LX : length xs = length data) by apply map_length.
  assert (SQ : 0 < size * size) by (apply N.mul_pos_pos; assumption).
  assert (SL : size * size <= 2 ^ 24). { apply N.mod_divide in DV; [|lia]. apply N.divide_pos_le; [reflexivity|exact DV]. }
  assert (XN : xs <> []). { intros E. rewrite E in LX. cbn in LX. rewrite <- LX in LD. change (N.of_nat 0) with 0 in LD. lia. }
  assert (XL : N.of_nat (length xs) < 2 ^ 32). { rewrite LX, LD. change (2 ^ 32) with 4294967296. change (2 ^ 24) with 16777216 in SL. lia. }
  destruct (column_opens P GP (10 ^ 8) ltac:(split; [discriminate|reflexivity]) c CI NB xs XU XN XL XK MEM) as (d & s & parts & vss & OP & CS & (PP & AL & HD)).
  destruct (HD (Some precision)) as (H & _ & ST & XE).
  assert (CS' : column_statistics P (with_precision d (Some precision)) = Ok s) by exact CS.
  pose proof (Forall2_concat2 _ _ _ AL) as A. rewrite (proj1 PP) in A. destruct IR as [ER FR]. rewrite ER in A. destruct (regroup _ _ _ A) as (vs & EV & FV).
  assert (LV : length (concat vss) = length xs) by (rewrite ER; symmetry; exact (F2len _ _ _ A)).
  assert (HU : Forall is_u64 (concat vss)).
  { apply Forall_concat, Forall_forall. intros p Ip. apply In_nth_error in Ip as (i & E). apply (proj2 (proj2 H) i p E). }
  set (K := (N.to_nat size * N.to_nat size)%nat). assert (K0 : (0 < K)%nat) by (unfold K; nia).
  assert (AP : aligned K parts). { apply (parts_aligned K xs parts K0 PP). right. replace (N.of_nat K) with (size * size) by (unfold K; lia). exact DV. }
  assert (AV : aligned K vss).
  { intros i v E L. assert (EX : exists p, nth_error parts i = Some p). { destruct (nth_error parts i) eqn:Q; [eauto|]. apply nth_error_None in Q. rewrite (F2len _ _ _ AL) in Q. apply nth_error_None in Q. congruence. }
    destruct EX as (p & Ep). assert (LP : length v = length p). { clear - AL E Ep. revert i E Ep. induction AL as [|a b ps vs R AL IH]; intros i E Ep; [destruct i; discriminate E|]. destruct i as [|i]; cbn in *; [injection E as <-; injection Ep as <-; symmetry; now apply F2len with alike|eauto]. }
    rewrite LP. apply (AP i p Ep). rewrite (F2len _ _ _ AL). exact L. }
  assert (WH : Forall (fun p : list N => N.of_nat (length p) mod (size * size) = 0) vss).
  { eapply Forall_impl; [|apply (mod_whole K vss K0 AV)].
    - cbv beta. intros p M. replace (size * size) with (N.of_nat K) by (unfold K; lia). rewrite <- Nat2N.inj_mod, M. reflexivity.
    - rewrite LV, LX. replace (length data) with (40 * K)%nat by (unfold K; lia). apply Nat.mod_mul. lia. }
  assert (LR : N.of_nat (length vs) * size = 40 * size * size).
  { rewrite <- LD, <- LX, <- LV, EV. pose proof (rows_alike size rows vs FV FR) as FF. clear - FF. induction FF as [|v vs E F IH]; [reflexivity|]. cbn [concat length]. rewrite app_length. lia. }
  assert (LR' : N.of_nat (length vs) = 40 * size) by (apply (N.mul_cancel_r _ _ size); lia).
  exists d, s, vss, vs. split; [exact OP|]. split; [exact CS'|]. split; [exact H|]. split; [exact ST|]. split; [exact XE|].
  split; [apply (partition_nonempty _ _ _ PP) in XN; intros E; apply XN; rewrite E in AL; now inversion AL|].
  split; [rewrite LV; eapply N.lt_trans; [exact XL|reflexivity]|]. split; [exact WH|].
  split; [apply in_rows_grouped; [exact S0|]; split; [exact EV|]; now apply (rows_alike size rows)|]. split; [exact LR'|]. split; [exact FV|]. split.
  - rewrite ER in XU. now apply Forall_concat_inv in XU.
  - rewrite EV in HU. now apply Forall_concat_inv in HU.
Qed.

Theorem product_ok P c precision size data target rows columns :
  good_platform P -> In c (experiment_configs false (10 ^ 8)) -> config_scheme c <> SBuff ->
  0 < size -> 2 ^ 24 mod (size * size) = 0 -> N.of_nat (length data) = 40 * size * size -> N.of_nat (length target) = size * size ->
  Forall fraction data -> in_rows size (map matrix_value data) rows -> in_rows size (map matrix_value target) columns -> fits P c (map matrix_value data) ->
  exists out, matrix_product P precision size c data target = Ok out /\ Forall2 same out (flat_map (fun row => map (dot (p_neg P) row) columns) rows).
Proof.
  intros GP CI NB S0 DV LD LT FD IR IC MEM. set (xs := map matrix_value data) in *. set (ts := map matrix_value target) in *.
  destruct (matrix_opens P c precision size data rows GP CI NB S0 DV LD FD IR MEM) as (d & s & vss & vs & OP & CS & H & _ & _ & NE & SZ & WH & G & LR & FV & RU & VU). fold xs in OP.
  assert (SQ : 0 < size * size) by (apply N.mul_pos_pos; assumption).
  assert (SL : size * size <= 2 ^ 24). { apply N.mod_divide in DV; [|lia]. apply N.divide_pos_le; [reflexivity|exact DV]. }
  unfold matrix_product. fold xs ts. rewrite (proj2 (N.eqb_neq (size * size) 0)) by lia. change 16777216 with (2 ^ 24). rewrite DV. cbn [N.eqb negb]. rewrite OP. cbn [rbind]. rewrite CS. cbn [rbind].
  assert (LC : N.of_nat (length columns) = size).
  { destruct IC as [EC FC]. assert (X : N.of_nat (length ts) = N.of_nat (length columns) * size). { rewrite EC. clear - FC. induction FC as [|v vs E F IH]; [reflexivity|]. cbn [concat length]. rewrite app_length. lia. }
    unfold ts in X. rewrite map_length, LT in X. apply (N.mul_cancel_r _ _ size); lia. }
  eexists. split.
  - apply (matmul_ok _ (p_neg P) (with_precision d (Some precision)) vss size size size ts vs columns H); try assumption.
    + now apply in_rows_grouped.
    + rewrite LR. change (2 ^ 63) with 9223372036854775808. change (2 ^ 24) with 16777216 in SL. nia.
  - now apply product_same.
Qed.
