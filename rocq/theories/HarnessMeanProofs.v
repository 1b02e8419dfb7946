(** Proofs about averages. *)
From Coq Require Import Reals Lra Psatz.
From Flocq Require Import Core BinarySingleNaN.
From Verif Require Import Base Xor F64 F64Proofs F64BitsProofs F64Flocq RelErrorProofs Harness HarnessMeanSpec.
Local Open Scope R_scope.

(** ** Without runs *)
Lemma fadd_nan x y : x = S754_nan \/ y = S754_nan -> fadd x y = S754_nan.
Proof. intros [->| ->]; [reflexivity|]. now destruct x as [[]|[]| |[]]. Qed.
Lemma fsum_from xs : forall a, a = S754_nan \/ In S754_nan xs -> fold_left fadd xs a = S754_nan.
Proof.
  induction xs as [|x xs IH]; intros a H; cbn [fold_left]; [destruct H as [H|[]]; exact H|].
  destruct H as [H|[H|H]]; apply IH; [left; apply fadd_nan; now left|left; apply fadd_nan; now right|now right].
Qed.
Lemma fsum_nan xs : In S754_nan xs -> fsum xs = S754_nan.
Proof. intros H. apply fsum_from. now right. Qed.
Lemma fdiv_nan y : fdiv S754_nan y = S754_nan.
Proof. reflexivity. Qed.
Lemma zero_over_zero : fdiv (S754_zero false) (of_nat 0) = S754_nan.
Proof. reflexivity. Qed.
Lemma over_zero_nan x : (x = S754_zero false \/ x = S754_zero true \/ x = S754_nan) -> fdiv x (of_nat 0) = S754_nan.
Proof. intros [->|[->| ->]]; reflexivity. Qed.
Lemma zero_div y : fdiv (S754_zero false) y = S754_zero false \/ fdiv (S754_zero false) y = S754_zero true \/ fdiv (S754_zero false) y = S754_nan.
Proof. destruct y as [[]|[]| |[]]; cbn; auto. Qed.
Lemma no_runs_nan os : (exists o, In o os /\ i_compress o = []) ->
  average_compression_ratio os = S754_nan /\ average_compression_throughput os = S754_nan /\ average_decompression_throughput os = S754_nan.
Proof.
  intros (o & I & E). unfold average_compression_ratio, average_compression_throughput, average_decompression_throughput.
  rewrite !fsum_nan; [repeat split| | |].
  - apply in_map_iff. exists o. split; [|exact I]. rewrite E. cbn [map length]. unfold sizes. rewrite E. cbn [map].
    apply over_zero_nan, zero_div.
  - apply in_map_iff. exists o. split; [|exact I]. rewrite E. unfold sizes. rewrite E. cbn [map length]. apply over_zero_nan, zero_div.
  - apply in_map_iff. exists o. split; [|exact I]. rewrite E. cbn [map length]. apply zero_over_zero.
Qed.

(** ** Sums of numbers of moderate size *)
Definition band (v : R) : Prop := bpow radix2 (-150) <= v <= bpow radix2 150.
Lemma band_pos v : band v -> 0 < v.
Proof. intros [H _]. pose proof (bpow_gt_0 radix2 (-150)). lra. Qed.
Definition below26 (n : nat) : Prop := (Z.of_nat n <= 2 ^ 26)%Z.
Lemma bpow_26 n : below26 n -> INR n <= bpow radix2 26.
Proof. intros H. rewrite INR_IZR_INZ. change (bpow radix2 26) with (IZR (2 ^ 26)). now apply IZR_le. Qed.
Lemma rsum_pos vs : Forall band vs -> 0 <= rsum vs.
Proof. induction 1 as [|v vs B _ IH]; cbn [rsum fold_right]; [lra|]. fold (rsum vs). pose proof (band_pos v B). lra. Qed.
Lemma rsum_up vs : Forall band vs -> rsum vs <= INR (length vs) * bpow radix2 150.
Proof.
  induction 1 as [|v vs [_ B] _ IH]; cbn [rsum fold_right length]; [cbn; lra|]. fold (rsum vs). rewrite S_INR. lra.
Qed.
Lemma rsum_low vs : vs <> [] -> Forall band vs -> bpow radix2 (-150) <= rsum vs.
Proof.
  intros NE F. destruct F as [|v vs [B _] F]; [contradiction|]. cbn [rsum fold_right]. fold (rsum vs). pose proof (rsum_pos vs F). lra.
Qed.
Lemma near_fold_band : forall vs xs k a v, Forall band vs -> Forall2 (fun v x => near k v x) vs xs -> near k v a -> (v = 0 \/ bpow radix2 (-150) <= v) ->
  v + rsum vs <= bpow radix2 200 -> few (k + length vs) -> near (k + length vs) (v + rsum vs) (fold_left fadd xs a).
Proof.
  induction vs as [|w vs IH]; intros xs k a v FB F2 NA V UP FW; inversion F2 as [|? x ? xs' NX F2']; subst.
  - cbn [length rsum fold_right fold_left]. rewrite Rplus_0_r, Nat.add_0_r. exact NA.
  - inversion FB as [|? ? B FB']; subst. cbn [length rsum fold_right fold_left] in *. fold (rsum vs) in *.
    replace (k + S (length vs))%nat with (S k + length vs)%nat in * by lia. rewrite <- Rplus_assoc in *.
    pose proof (rsum_pos vs FB') as P. pose proof (band_pos w B) as W. destruct B as [B1 B2]. pose proof (bpow_gt_0 radix2 (-150)) as Q.
    assert (V0 : 0 <= v) by (destruct V; lra).
    apply IH; try assumption.
    + clear - F2' FB'. induction F2' as [|? ? ? ? NX F2 IH]; constructor; inversion FB'; subst; [|now apply IH]. apply (near_le k); [left; now apply band_pos|lia|exact NX].
    + apply near_add; try assumption; try lra. { apply (few_le k) in FW; [exact FW|lia]. } right. split; [|lra].
      apply Rle_trans with (bpow radix2 (-150)); [apply bpow_le; lia|]. lra.
    + right. lra.
Qed.
Lemma near_fsum vs xs k : Forall band vs -> Forall2 (fun v x => near k v x) vs xs -> below26 (length vs) -> few (k + length vs) ->
  near (k + length vs) (rsum vs) (fsum xs).
Proof.
  intros FB F2 B26 FW. rewrite <- (Rplus_0_l (rsum vs)). apply near_fold_band; try assumption.
  - apply near_zero.
  - now left.
  - rewrite Rplus_0_l. apply Rle_trans with (INR (length vs) * bpow radix2 150); [now apply rsum_up|].
    apply Rle_trans with (bpow radix2 26 * bpow radix2 150).
    + apply Rmult_le_compat_r; [apply bpow_ge_0|now apply bpow_26].
    + rewrite <- bpow_plus. apply bpow_le. lia.
Qed.

(** ** Quotients *)
Lemma inv_low k : / (1 - u) ^ k <= (1 + u) ^ (2 * k).
Proof.
  rewrite pow_mult. assert (H : 1 <= (1 - u) * (1 + u) ^ 2) by (pose proof u_pos; pose proof u_small; nra).
  assert (P : 0 < (1 - u) ^ k) by apply low_pos. apply (Rmult_le_reg_l ((1 - u) ^ k)); [exact P|]. rewrite Rinv_r by lra.
  rewrite <- Rpow_mult_distr. apply pow_R1_Rle. exact H.
Qed.
Lemma inv_high k : (1 - u) ^ (2 * k) <= / (1 + u) ^ k.
Proof.
  assert (P : 0 < (1 + u) ^ k) by apply high_pos. apply (Rmult_le_reg_l ((1 + u) ^ k)); [exact P|]. rewrite Rinv_r by lra.
  replace (2 * k)%nat with (k + k)%nat by lia. rewrite pow_add, <- Rmult_assoc. pose proof (high_low k). pose proof (low_one k). pose proof (low_pos k). nra.
Qed.
Lemma near_quot j k v w x y : few (j + 2 * k) -> few k -> 0 <= v -> 0 < w -> mid (v / w) -> near j v x -> near k w y -> near (S (j + 2 * k)) (v / w) (fdiv x y).
Proof.
  intros F FK V W M (Cx & Fx & A1 & A2) (Cy & Fy & B1 & B2).
  assert (LP : 0 < w * (1 - u) ^ k) by (apply Rmult_lt_0_compat; [exact W|apply low_pos]).
  assert (YP : 0 < real y) by lra.
  assert (I1 : / real y <= / w * (1 + u) ^ (2 * k)).
  { apply Rle_trans with (/ (w * (1 - u) ^ k)); [apply Rinv_le; [exact LP|exact B1]|]. rewrite Rinv_mult.
    apply Rmult_le_compat_l; [left; now apply Rinv_0_lt_compat|apply inv_low]. }
  assert (I2 : / w * (1 - u) ^ (2 * k) <= / real y).
  { apply Rle_trans with (/ (w * (1 + u) ^ k)); [|apply Rinv_le; [exact YP|exact B2]]. rewrite Rinv_mult.
    apply Rmult_le_compat_l; [left; now apply Rinv_0_lt_compat|apply inv_high]. }
  assert (IW : 0 < / w) by now apply Rinv_0_lt_compat. assert (IY : 0 < / real y) by now apply Rinv_0_lt_compat.
  assert (R : bounds (j + 2 * k) (v / w) (real x / real y)).
  { unfold bounds, Rdiv. rewrite !pow_add.
    assert (0 <= v * (1 - u) ^ j) by (apply Rmult_le_pos; [exact V|left; apply low_pos]).
    assert (0 <= / w * (1 - u) ^ (2 * k)) by (apply Rmult_le_pos; [lra|left; apply low_pos]). split.
    - replace (v * / w * ((1 - u) ^ j * (1 - u) ^ (2 * k))) with ((v * (1 - u) ^ j) * (/ w * (1 - u) ^ (2 * k))) by ring. apply Rmult_le_compat; lra.
    - replace (v * / w * ((1 + u) ^ j * (1 + u) ^ (2 * k))) with ((v * (1 + u) ^ j) * (/ w * (1 + u) ^ (2 * k))) by ring. apply Rmult_le_compat; lra. }
  destruct (round_bounds _ _ _ F M R) as [L NB]. destruct (fdiv_real x y Cx Cy Fx) as (E & Fz & Cz); [lra|exact L|].
  split; [exact Cz|]. split; [exact Fz|]. rewrite E. exact NB.
Qed.

Lemma near_about k v x : 0 <= v -> (Z.of_nat k <= 2 ^ 25)%Z -> near k v x -> about v x.
Proof.
  intros V K (C & FX & [A B]). split; [exact FX|]. assert (F : few k) by (unfold few; lia).
  pose proof (high_bound k F) as H. pose proof (bernoulli k) as L.
  assert (E : 2 * (INR k * u) <= / 1000000).
  { rewrite INR_IZR_INZ, u_eq. apply Rle_trans with (2 * (IZR (2 ^ 25) * bpow radix2 (-53))).
    - apply Rmult_le_compat_l; [lra|]. apply Rmult_le_compat_r; [apply bpow_ge_0|]. now apply IZR_le.
    - change (IZR (2 ^ 25)) with (bpow radix2 25). rewrite <- bpow_plus. cbn. lra. }
  assert (0 <= INR k * u) by (apply Rmult_le_pos; [apply pos_INR|left; apply u_pos]).
  generalize dependent ((1 + u) ^ k). generalize dependent ((1 - u) ^ k). generalize dependent (INR k * u). intros e E1 E0 l A L h B H. apply Rabs_le. unfold Rdiv. nra.
Qed.

(** ** The averages *)
Lemma million_26 n : million n -> below26 n. Proof. unfold million, below26. intros [_ H]. lia. Qed.
Lemma million_INR n : million n -> 1 <= INR n <= bpow radix2 20.
Proof.
  intros [A B]. split; [change 1 with (INR 1); now apply le_INR|]. rewrite INR_IZR_INZ. change (bpow radix2 20) with (IZR (2 ^ 20)). apply IZR_le. lia.
Qed.
Lemma of_nat_div k v x n : million n -> few k -> mid (v / INR n) -> near k v x -> near (S k) (v / INR n) (fdiv x (of_nat n)).
Proof. intros [A B] F M N. unfold of_nat. rewrite INR_IZR_INZ in *. apply near_div; try assumption. lia. Qed.
(** Dividing by the count keeps the order of magnitude. *)
Lemma spread v n lo hi : million n -> 0 < lo -> lo <= v <= hi -> lo * bpow radix2 (-20) <= v / INR n <= hi.
Proof.
  intros M LO [A B]. destruct (million_INR n M) as [N1 N2]. assert (IP : 0 < / INR n) by (apply Rinv_0_lt_compat; lra).
  assert (I1 : bpow radix2 (-20) <= / INR n).
  { replace (bpow radix2 (-20)) with (/ bpow radix2 20) by (rewrite <- bpow_opp; reflexivity). apply Rinv_le; lra. }
  assert (I2 : / INR n <= 1) by (rewrite <- Rinv_1; apply Rinv_le; lra). pose proof (bpow_gt_0 radix2 (-20)). unfold Rdiv. nra.
Qed.
Lemma mean_near vs xs k : million (length vs) -> Forall band vs -> Forall2 (fun v x => near k v x) vs xs -> few (k + length vs) ->
  near (S (k + length vs)) (mean vs) (fdiv (fsum xs) (of_nat (length vs))).
Proof.
  intros M FB F2 FW. apply of_nat_div; [exact M|exact FW| |].
  - right. assert (NE : vs <> []) by (intros ->; destruct M as [X _]; cbn in X; lia).
    pose proof (spread (rsum vs) (length vs) (bpow radix2 (-150)) (INR (length vs) * bpow radix2 150) M (bpow_gt_0 _ _) (conj (rsum_low vs NE FB) (rsum_up vs FB))) as [A B].
    split.
    + refine (Rle_trans _ _ _ _ A). rewrite <- bpow_plus. apply bpow_le. lia.
    + apply (Rle_trans _ _ _ B). destruct (million_INR _ M) as [_ N2]. apply Rle_trans with (bpow radix2 20 * bpow radix2 150).
      * apply Rmult_le_compat_r; [apply bpow_ge_0|exact N2].
      * rewrite <- bpow_plus. apply bpow_le. lia.
  - apply near_fsum; try assumption. now apply million_26.
Qed.
Lemma rsum_between lo hi vs : Forall (fun v => lo <= v <= hi) vs -> INR (length vs) * lo <= rsum vs <= INR (length vs) * hi.
Proof.
  induction 1 as [|v vs B _ IH]; cbn [rsum fold_right length]; [cbn; lra|]. fold (rsum vs). rewrite S_INR. lra.
Qed.
Lemma mean_between lo hi vs : million (length vs) -> Forall (fun v => lo <= v <= hi) vs -> lo <= mean vs <= hi.
Proof.
  intros M F. destruct (million_INR _ M) as [N1 _]. destruct (rsum_between lo hi vs F) as [A B]. unfold mean. split.
  - apply Rmult_le_reg_r with (INR (length vs)); [lra|]. unfold Rdiv. rewrite Rmult_assoc, Rinv_l by lra. lra.
  - apply Rmult_le_reg_r with (INR (length vs)); [lra|]. unfold Rdiv. rewrite Rmult_assoc, Rinv_l by lra. lra.
Qed.
Lemma in_band lo hi v : bpow radix2 (-150) <= lo -> hi <= bpow radix2 150 -> lo <= v <= hi -> band v.
Proof. intros A B [C D]. split; lra. Qed.

Lemma run_ratio rs : million (length rs) -> Forall moderate_ratio rs ->
  near (S (length rs)) (mean (map real rs)) (fdiv (fsum rs) (of_nat (length rs))) /\ bpow radix2 (-100) <= mean (map real rs) <= bpow radix2 100.
Proof.
  intros M F. assert (LEN : length (map real rs) = length rs) by apply map_length. split.
  - rewrite <- LEN. change (length (map real rs)) with (0 + length (map real rs))%nat at 1. apply mean_near.
    + now rewrite LEN.
    + apply Forall_map. revert F. apply Forall_impl. intros x (_ & _ & B). apply (in_band (bpow radix2 (-100)) (bpow radix2 100)); [apply bpow_le; lia|apply bpow_le; lia|exact B].
    + clear - F. induction F as [|x rs (C & Fi & _) _ IH]; constructor; [|exact IH]. split; [exact C|]. split; [exact Fi|]. unfold bounds. cbn. lra.
    + rewrite LEN. destruct M as [_ M]. unfold few. lia.
  - apply mean_between; [now rewrite LEN|]. apply Forall_map. revert F. apply Forall_impl. intros x (_ & _ & B). exact B.
Qed.

Lemma quantities_near xs : million (length xs) -> Forall quantity xs ->
  near (S (length xs)) (total xs) (fsum (map (fun x => of_Z (Z.of_N x)) xs)) /\ 1 <= total xs <= bpow radix2 84.
Proof.
  intros M F. unfold total. set (vs := map (fun x => IZR (Z.of_N x)) xs). assert (LEN : length vs = length xs) by apply map_length.
  assert (B : Forall (fun v => 1 <= v <= bpow radix2 64) vs).
  { apply Forall_map. revert F. apply Forall_impl. intros x [A B]. split; [apply IZR_le; exact A|]. change (bpow radix2 64) with (IZR (2 ^ 64)). apply IZR_le. lia. }
  split.
  - rewrite <- LEN. change (S (length vs)) with (1 + length vs)%nat. apply near_fsum.
    + revert B. apply Forall_impl. intros v. apply in_band; [change 1 with (bpow radix2 0); apply bpow_le; lia|apply bpow_le; lia].
    + clear - F. unfold vs. induction F as [|x xs [A B] _ IH]; constructor; [|exact IH]. apply near_Z. lia.
    + rewrite LEN. now apply million_26.
    + rewrite LEN. destruct M as [_ M]. unfold few. lia.
  - destruct (rsum_between _ _ _ B) as [A C]. rewrite LEN in *. destruct (million_INR _ M) as [N1 N2]. split; [lra|].
    apply (Rle_trans _ _ _ C). replace (bpow radix2 84) with (bpow radix2 20 * bpow radix2 64) by (rewrite <- bpow_plus; reflexivity).
    apply Rmult_le_compat_r; [apply bpow_ge_0|exact N2].
Qed.
Lemma speed_near ss ts : million (length ss) -> million (length ts) -> Forall quantity ss -> Forall quantity ts ->
  near (S (S (S (length ss) + 2 * S (length ts)))) (total ss / total ts / INR (length ss))
    (fdiv (fdiv (fsum (map (fun x => of_Z (Z.of_N x)) ss)) (fsum (map (fun x => of_Z (Z.of_N x)) ts))) (of_nat (length ss))) /\
  bpow radix2 (-120) <= total ss / total ts / INR (length ss) <= bpow radix2 100.
Proof.
  intros MS MT FS FT. destruct (quantities_near ss MS FS) as (NS & S1 & S2). destruct (quantities_near ts MT FT) as (NT & T1 & T2).
  assert (Q : bpow radix2 (-84) <= total ss / total ts <= bpow radix2 84).
  { assert (IP : 0 < / total ts) by (apply Rinv_0_lt_compat; lra). assert (I1 : bpow radix2 (-84) <= / total ts).
    { change (-84)%Z with (- (84))%Z. rewrite bpow_opp. apply Rinv_le; lra. }
    assert (I2 : / total ts <= 1) by (rewrite <- Rinv_1; apply Rinv_le; lra). pose proof (bpow_gt_0 radix2 (-84)). unfold Rdiv. nra. }
  pose proof (spread _ _ _ _ MS (bpow_gt_0 radix2 (-84)) Q) as [A B]. rewrite <- bpow_plus in A. destruct MS as [MS1 MS2]. destruct MT as [MT1 MT2].
  assert (P : bpow radix2 (-120) <= total ss / total ts / INR (length ss) <= bpow radix2 100).
  { split; [refine (Rle_trans _ _ _ _ A); apply bpow_le; lia|apply (Rle_trans _ _ _ B); apply bpow_le; lia]. }
  split; [|exact P]. apply of_nat_div; [now split|unfold few; lia| |].
  - right. split; [apply Rle_trans with (bpow radix2 (-120)); [apply bpow_le; lia|apply P]|apply Rle_trans with (bpow radix2 100); [apply P|apply bpow_le; lia]].
  - apply near_quot; [unfold few; lia|unfold few; lia|lra|lra| |exact NS|exact NT].
    right. split; [apply Rle_trans with (bpow radix2 (-84)); [apply bpow_le; lia|apply Q]|apply Rle_trans with (bpow radix2 84); [apply Q|apply bpow_le; lia]].
Qed.

(** Means of nearly exact values of data sets with differently many runs. *)
Lemma mean_about {A} (f : A -> R) (g : A -> f64) (cost : A -> nat) (os : list A) : million (length os) ->
  (forall o, In o os -> near (cost o) (f o) (g o) /\ bpow radix2 (-120) <= f o <= bpow radix2 100 /\ (Z.of_nat (cost o) <= 4000000)%Z) ->
  about (mean (map f os)) (fdiv (fsum (map g os)) (of_nat (length os))).
Proof.
  intros M H. set (K := fold_right Nat.max 0%nat (map cost os)).
  assert (KU : (Z.of_nat K <= 4000000)%Z).
  { unfold K. clear M K. induction os as [|o os IH]; cbn [map fold_right]; [lia|]. destruct (H o (in_eq _ _)) as (_ & _ & C).
    assert (Z.of_nat (fold_right Nat.max 0%nat (map cost os)) <= 4000000)%Z by (apply IH; intros o' I; apply H; now right). lia. }
  assert (KC : forall o, In o os -> (cost o <= K)%nat).
  { unfold K. clear. induction os as [|o os IH]; intros o' I; [contradiction|]. cbn [map fold_right]. destruct I as [->|I]; [lia|]. specialize (IH o' I). lia. }
  assert (LEN : length (map f os) = length os) by apply map_length. pose proof M as [_ MU].
  apply (near_about (S (K + length (map f os)))).
  - assert (B : 0 <= mean (map f os) <= bpow radix2 100).
    { apply mean_between; [now rewrite LEN|]. apply Forall_map. rewrite Forall_forall. intros o I. destruct (H o I) as (_ & B & _). pose proof (bpow_gt_0 radix2 (-120)). lra. }
    apply B.
  - rewrite LEN. lia.
  - rewrite <- LEN. apply mean_near.
    + now rewrite LEN.
    + apply Forall_map. rewrite Forall_forall. intros o I. destruct (H o I) as (_ & B & _). apply (in_band (bpow radix2 (-120)) (bpow radix2 100)); [apply bpow_le; lia|apply bpow_le; lia|exact B].
    + assert (X : forall o, In o os -> near K (f o) (g o)).
      { intros o I. destruct (H o I) as (N & B & _). apply (near_le (cost o)); [pose proof (bpow_gt_0 radix2 (-120)); lra|now apply KC|exact N]. }
      clearbody K. clear - X. induction os as [|o os IH]; constructor; [apply X, in_eq|]. apply IH. intros o' I. apply X. now right.
    + rewrite LEN. unfold few. lia.
Qed.

Lemma ratio_about os : million (length os) -> Forall (fun o => million (length (i_compress o)) /\ Forall moderate_ratio (map r_ratio (i_compress o))) os ->
  about (mean (map (fun o => mean (map real (map r_ratio (i_compress o)))) os)) (average_compression_ratio os).
Proof.
  intros M F. unfold average_compression_ratio. rewrite Forall_forall in F.
  apply (mean_about (fun o => mean (map real (map r_ratio (i_compress o)))) _ (fun o => S (length (i_compress o)))); [exact M|]. intros o I.
  destruct (F o I) as (MO & FO). destruct (run_ratio (map r_ratio (i_compress o))) as (N & B); [now rewrite map_length|exact FO|].
  rewrite map_length in N. split; [exact N|]. split.
  - split; [apply Rle_trans with (bpow radix2 (-100)); [apply bpow_le; lia|apply B]|apply B].
  - destruct MO as [_ MO]. lia.
Qed.
Lemma compression_about os : million (length os) ->
  Forall (fun o => million (length (i_compress o)) /\ Forall quantity (map r_uncompressed (i_compress o)) /\ Forall quantity (map r_elapsed (i_compress o))) os ->
  about (mean (map (fun o => compression_speed o / INR (length (i_compress o))) os)) (average_compression_throughput os).
Proof.
  intros M F. unfold average_compression_throughput. rewrite Forall_forall in F.
  apply (mean_about _ _ (fun o => S (S (S (length (i_compress o)) + 2 * S (length (i_compress o)))))); [exact M|]. intros o I.
  destruct (F o I) as (MO & FS & FT). destruct (speed_near (map r_uncompressed (i_compress o)) (map r_elapsed (i_compress o))) as (N & B); rewrite ?map_length; try assumption.
  unfold compression_speed, sizes, times_of. rewrite !map_length, !map_map in N. rewrite map_length in B. split; [exact N|]. split; [exact B|]. destruct MO as [_ MO]. lia.
Qed.
Lemma decompression_about os : million (length os) ->
  Forall (fun o => million (length (i_compress o)) /\ million (length (i_materialize o)) /\
    Forall quantity (map r_uncompressed (i_compress o)) /\ Forall quantity (map r_elapsed (i_materialize o))) os ->
  about (mean (map (fun o => decompression_speed o / INR (length (i_compress o))) os)) (average_decompression_throughput os).
Proof.
  intros M F. unfold average_decompression_throughput. rewrite Forall_forall in F.
  apply (mean_about _ _ (fun o => S (S (S (length (i_compress o)) + 2 * S (length (i_materialize o)))))); [exact M|]. intros o I.
  destruct (F o I) as (MO & MM & FS & FT). destruct (speed_near (map r_uncompressed (i_compress o)) (map r_elapsed (i_materialize o))) as (N & B); rewrite ?map_length; try assumption.
  unfold decompression_speed, sizes, times_of. rewrite !map_length, !map_map in N. rewrite map_length in B. split; [exact N|]. split; [exact B|]. destruct MO as [_ MO], MM as [_ MM]. lia.
Qed.
(** With the same number of runs everywhere: that many times too little. *)
Lemma mean_scale {A} (f : A -> R) n os : mean (map (fun o => f o / n) os) = mean (map f os) / n.
Proof.
  unfold mean. rewrite !map_length. assert (E : rsum (map (fun o => f o / n) os) = rsum (map f os) / n).
  { induction os as [|o os IH]; cbn [map rsum fold_right]; [unfold Rdiv; ring|]. fold (rsum (map (fun o => f o / n) os)) (rsum (map f os)). rewrite IH. unfold Rdiv. ring. }
  rewrite E. unfold Rdiv. ring.
Qed.
