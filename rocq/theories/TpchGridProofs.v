(** Hundredths as f64s: comparisons and rounding errors. *)
From Coq Require Import Reals Lra.
From Flocq Require Import Core BinarySingleNaN.
From Verif Require Import Base Xor F64 F64Proofs F64BitsProofs F64Flocq Query QuerySpec QueryProofs Sprintz SprintzSpec SprintzFloatProofs SprintzOrderProofs SprintzSummary
  ElfRangeSpec RelErrorProofs.
Local Open Scope Z_scope.

Lemma scale100 : scale_ok 100.
Proof. apply scale_bounds. split; [discriminate|reflexivity]. Qed.
Definition amount (z : Z) : Prop := 0 <= z <= 10 ^ 9.
Lemma amount_small z : amount z -> Z.abs z < 2 ^ 51.
Proof. unfold amount. lia. Qed.
Lemma q100 : (bpow radix2 (-100) <= / 100 <= 1)%R.
Proof. split; [|lra]. apply Rle_trans with (bpow radix2 (-7)); [apply bpow_le; lia|]. cbn. lra. Qed.
Lemma q10000 : (bpow radix2 (-100) <= / 10000 <= 1)%R.
Proof. split; [|lra]. apply Rle_trans with (bpow radix2 (-14)); [apply bpow_le; lia|]. cbn. lra. Qed.
Lemma q1000000 : (bpow radix2 (-100) <= / 1000000 <= 1)%R.
Proof. split; [|lra]. apply Rle_trans with (bpow radix2 (-20)); [apply bpow_le; lia|]. cbn. lra. Qed.

Lemma near_exact z : 0 <= z <= 2 ^ 53 -> near 0 (IZR z) (of_Z z).
Proof.
  intros Z. destruct (of_Z_real z) as (_ & F & C). { apply Z.le_trans with (2 ^ 53); [lia|apply Z.pow_le_mono_r; lia]. }
  split; [exact C|]. split; [exact F|]. rewrite of_Z_exact by lia. unfold bounds. cbn. lra.
Qed.
Lemma grid_canonical z : canonical (fdiv (of_Z z) (of_Z 100)).
Proof. apply fdiv_canonical; apply of_Z_canonical. Qed.
Lemma of_grid z : of_bits (grid_value 100 z) = fdiv (of_Z z) (of_Z 100).
Proof. apply of_to_bits, grid_canonical. Qed.
Lemma grid_value_u64 z : is_u64 (grid_value 100 z).
Proof. apply to_bits_bound, grid_canonical. Qed.
Lemma near_grid z : amount z -> near 1 (IZR z * / 100) (of_bits (grid_value 100 z)).
Proof.
  intros A. rewrite of_grid. unfold amount in A. change (IZR z * / 100)%R with (IZR z / IZR 100)%R. apply near_div; [unfold few; lia|lia| |apply near_exact; lia].
  apply (tame_mid (/ 100)); [exact q100|]. exists z. split; [lia|reflexivity].
Qed.
Lemma grid_real z : amount z -> real (of_bits (grid_value 100 z)) = real (unquantize 100 z).
Proof. intros _. rewrite of_grid. reflexivity. Qed.
Lemma grid_finite z : amount z -> finite (of_bits (grid_value 100 z)).
Proof. intros A. apply (near_grid z A). Qed.
Lemma grid_number z : amount z -> exists a, number (grid_value 100 z) = Some a /\ (IZR a = real (of_bits (grid_value 100 z)) * bpow radix2 1074)%R.
Proof.
  intros A. destruct (near_grid z A) as (C & F & _). destruct (finite_scaled _ F) as (a & E). exists a.
  rewrite number_scaled by apply grid_value_u64. split; [exact E|]. symmetry. exact (scaled_real _ _ C F E).
Qed.
Lemma grid_not_nan z : amount z -> grid_value 100 z <> nan_bits.
Proof. intros A E. destruct (grid_number z A) as (a & N & _). rewrite E in N. vm_compute in N. discriminate N. Qed.

Lemma grid_related (R : Z -> Z -> Prop) y z : amount y -> amount z ->
  (R = Z.le -> (related R (grid_value 100 y) (grid_value 100 z) <-> y <= z)) /\ (R = Z.lt -> (related R (grid_value 100 y) (grid_value 100 z) <-> y < z)).
Proof.
  intros Y Z. unfold related. destruct (grid_number y Y) as (a & -> & EA). destruct (grid_number z Z) as (b & -> & EB).
  rewrite (grid_real y Y) in EA. rewrite (grid_real z Z) in EB. pose proof (bpow_gt_0 radix2 1074) as P.
  pose proof (amount_small _ Y) as SY. pose proof (amount_small _ Z) as SZ.
  assert (M : forall p q, amount p -> amount q -> p < q -> (real (unquantize 100 p) < real (unquantize 100 q))%R).
  { intros p q AP AQ. apply (grid_strict 100 scale100); now apply amount_small. }
  assert (L : y < z -> a < b). { intros L. apply lt_IZR. rewrite EA, EB. apply Rmult_lt_compat_r; auto. }
  assert (G : z < y -> b < a). { intros L'. apply lt_IZR. rewrite EA, EB. apply Rmult_lt_compat_r; auto. }
  assert (E : y = z -> a = b). { intros EQ. apply eq_IZR. rewrite EA, EB, EQ. reflexivity. }
  split; intros ->; lia.
Qed.
Lemma everyday_grid z : amount z -> everyday (grid_value 100 z).
Proof.
  intros A. split; [apply grid_value_u64|]. destruct (grid_number z A) as (a & N & E). exists a. split; [exact N|].
  destruct (near_grid z A) as (_ & _ & [B1 B2]). unfold amount in A. destruct (Z.eq_dec z 0) as [->|NZ].
  - left. rewrite Rmult_0_l, Rmult_0_l in B1. rewrite Rmult_0_l, Rmult_0_l in B2. assert (X : real (of_bits (grid_value 100 0)) = 0%R) by lra.
    rewrite X, Rmult_0_l in E. now apply eq_IZR.
  - right. right. assert (Z1 : (1 <= IZR z)%R) by (apply IZR_le; lia). assert (Z2 : (IZR z <= 1000000000)%R) by (apply (IZR_le z 1000000000); lia).
    pose proof u_pos as U. pose proof u_small as US. rewrite pow_1 in B1, B2.
    assert (L : (/ 200 <= real (of_bits (grid_value 100 z)))%R) by nra. assert (H : (real (of_bits (grid_value 100 z)) <= 20000000)%R) by nra.
    pose proof (bpow_gt_0 radix2 1074) as P. assert (PA : 0 <= a) by (apply le_IZR; rewrite E; nra). rewrite Z.abs_eq by exact PA. split.
    + apply le_IZR. rewrite E. unfold micro. rewrite mult_IZR. change (IZR (2 ^ 1002)) with (bpow radix2 1002).
      replace (bpow radix2 1074) with (bpow radix2 72 * bpow radix2 1002)%R by (rewrite <- bpow_plus; reflexivity).
      rewrite <- Rmult_assoc. apply Rmult_le_compat_r; [left; apply bpow_gt_0|]. change (bpow radix2 72) with 4722366482869645213696%R. lra.
    + apply lt_IZR. rewrite E, mult_IZR. change (IZR (2 ^ 1074)) with (bpow radix2 1074). change (IZR (10 ^ 9)) with 1000000000%R. apply Rmult_lt_compat_r; lra.
Qed.

(** ** One row *)
Local Open Scope R_scope.
Definition f_one : f64 := of_bits 0x3ff0000000000000%N.
Lemma f_one_exact : near 0 1 f_one.
Proof. replace f_one with (of_Z 1) by (vm_compute; reflexivity). apply near_exact. lia. Qed.
Lemma low_99 : (1 - u) ^ 100 <= 1 - 99 * u.
Proof.
  pose proof (high_low 100) as H. pose proof u_pos as U. pose proof u_small as S. pose proof (low_pos 100) as L.
  assert (B : 1 + 100 * u <= (1 + u) ^ 100).
  { replace 100 with (INR 100) at 1 by (rewrite INR_IZR_INZ; reflexivity). apply poly. exact U. }
  assert (U2 : u * 9900 <= 1). { apply Rle_trans with (bpow radix2 (-20) * 9900); [|cbn; lra]. apply Rmult_le_compat_r; [lra|]. rewrite u_eq. apply bpow_le. lia. }
  generalize dependent ((1 - u) ^ 100). generalize dependent ((1 + u) ^ 100). intros h B l H L. assert (X : l * (1 + 100 * u) <= 1) by nra. nra.
Qed.
Lemma near_complement z : (0 <= z <= 100)%Z -> near 101 (IZR (100 - z) * / 100) (fsub f_one (of_bits (grid_value 100 z))).
Proof.
  intros Z. assert (A : amount z) by (unfold amount; lia). destruct (near_grid z A) as (C & F & B). destruct f_one_exact as (C1 & F1 & B1).
  assert (E1 : real f_one = 1) by (unfold bounds in B1; cbn [pow] in B1; lra).
  assert (R : bounds 100 (IZR (100 - z) * / 100) (real f_one - real (of_bits (grid_value 100 z)))).
  { rewrite E1. destruct (Z.eq_dec z 100) as [->|NZ].
    - assert (X : real (of_bits (grid_value 100 100)) = 1).
      { replace (of_bits (grid_value 100 100)) with f_one by (vm_compute; reflexivity). exact E1. }
      rewrite X. unfold bounds. change (IZR (100 - 100)) with 0. lra.
    - destruct B as [L H]. rewrite pow_1 in L, H. rewrite minus_IZR. assert (Z0 : 0 <= IZR z) by (apply IZR_le; lia). assert (Z1 : IZR z <= 99) by (apply (IZR_le z 99); lia).
      pose proof u_pos as U. pose proof low_99 as K. assert (B : 1 + 99 * u <= (1 + u) ^ 100).
      { apply Rle_trans with (1 + 100 * u); [lra|]. replace 100 with (INR 100) at 1 by (rewrite INR_IZR_INZ; reflexivity). apply poly. exact U. }
      unfold bounds. generalize dependent ((1 - u) ^ 100). generalize dependent ((1 + u) ^ 100). intros h B l K. split.
      + apply Rle_trans with ((100 - IZR z) * / 100 * (1 - 99 * u)); [apply Rmult_le_compat_l; [lra|exact K]|]. nra.
      + apply Rle_trans with ((100 - IZR z) * / 100 * (1 + 99 * u)); [|apply Rmult_le_compat_l; [lra|exact B]]. nra. }
  assert (M : mid (IZR (100 - z) * / 100)) by (apply (tame_mid (/ 100)); [exact q100|]; exists (100 - z)%Z; split; [lia|reflexivity]).
  destruct (round_bounds 100 _ _ ltac:(unfold few; lia) M R) as [L N]. destruct (fsub_real _ _ C1 C F1 F L) as (E & Fz & Cz).
  split; [exact Cz|]. split; [exact Fz|]. rewrite E. exact N.
Qed.
Lemma near_plus_one z : amount z -> near 2 (IZR (100 + z) * / 100) (fadd f_one (of_bits (grid_value 100 z))).
Proof.
  intros A. assert (Z0 : 0 <= IZR z) by (apply IZR_le; unfold amount in A; lia). unfold amount in A.
  replace (IZR (100 + z) * / 100) with (1 + IZR z * / 100) by (rewrite plus_IZR; lra).
  apply near_add; [unfold few; lia|lra|nra| |apply (near_le 0); [lra|lia|exact f_one_exact]|now apply near_grid].
  apply (tame_mid (/ 100)); [exact q100|]. exists (100 + z)%Z. split; [lia|]. rewrite plus_IZR. lra.
Qed.
Lemma near_product j k a b m x y q : few (j + k) -> bpow radix2 (-100) <= q <= 1 -> (0 <= m <= 2 ^ 104)%Z -> 0 <= a -> 0 <= b -> a * b = IZR m * q ->
  near j a x -> near k b y -> near (S (j + k)) (IZR m * q) (fmul x y).
Proof.
  intros F Q M A B E X Y. rewrite <- E. apply near_mul; auto. apply (tame_mid q); [exact Q|]. exists m. now split.
Qed.

(** ** Sums of chunks *)
Definition zsum (ms : list Z) : Z := fold_right Z.add 0%Z ms.
Lemma zsum_app a b : zsum (a ++ b) = (zsum a + zsum b)%Z.
Proof. induction a as [|x a IH]; cbn in *; [reflexivity|]. unfold zsum in *. rewrite IH. lia. Qed.
Lemma zsum_concat mss : zsum (concat mss) = zsum (map zsum mss).
Proof. induction mss as [|m mss IH]; [reflexivity|]. cbn [concat map]. rewrite zsum_app, IH. reflexivity. Qed.
Lemma zsum_nonneg ms : Forall (fun m => (0 <= m)%Z) ms -> (0 <= zsum ms)%Z.
Proof. induction 1; cbn in *; unfold zsum in *; lia. Qed.
Lemma zsum_bound b ms : (0 <= b)%Z -> Forall (fun m => (0 <= m <= b)%Z) ms -> (zsum ms <= b * Z.of_nat (length ms))%Z.
Proof. intros B. induction 1 as [|m ms M F IH]; cbn [length zsum fold_right] in *; [lia|]. unfold zsum in IH. rewrite Nat2Z.inj_succ. nia. Qed.
Lemma zsum_in m mss : Forall (fun m => (0 <= m)%Z) mss -> In m mss -> (m <= zsum mss)%Z.
Proof. induction 1 as [|x xs X F IH]; intros I; [destruct I|]. pose proof (zsum_nonneg xs F). unfold zsum in *. cbn. destruct I as [->|I]; [lia|]. specialize (IH I). lia. Qed.

Definition roundings : nat := N.to_nat 16778240. (* 2^24 + 1024 *)
Lemma roundings_Z : Z.of_nat roundings = 16778240%Z.
Proof. unfold roundings. now rewrite N_nat_Z. Qed.
Lemma near_chunks q k mss xss : (Z.of_nat k <= 600)%Z -> bpow radix2 (-100) <= q <= 1 -> Forall (Forall (fun m => (0 <= m)%Z)) mss ->
  (zsum (concat mss) <= 2 ^ 104)%Z -> Forall (fun ms => (Z.of_nat (length ms) <= 2 ^ 24)%Z) mss -> (Z.of_nat (length mss) <= 256)%Z ->
  Forall2 (Forall2 (fun m x => near k (IZR m * q) x)) mss xss ->
  near roundings (IZR (zsum (concat mss)) * q) (float_sum (map float_sum xss)).
Proof.
  intros K Q P T L N F. assert (Q0 : 0 < q) by (pose proof (bpow_gt_0 radix2 (-100)); lra).
  rewrite zsum_concat in *. set (h := (k + N.to_nat 16777216)%nat).
  assert (PZ : Forall (fun m => (0 <= m)%Z) (map zsum mss)) by (apply Forall_map; eapply Forall_impl; [|exact P]; apply zsum_nonneg).
  assert (G : Forall2 (fun m x => near h (IZR m * q) x) (map zsum mss) (map float_sum xss)).
  { assert (TS : Forall (fun m => (m <= 2 ^ 104)%Z) (map zsum mss)) by (apply Forall_forall; intros m M; pose proof (zsum_in m _ PZ M); lia).
    clear T N PZ. induction F as [|ms xs mss xss FX F IH]; cbn [map] in *; constructor; inversion P; inversion L; inversion TS; subst; [|auto].
    assert (LN : (length ms <= N.to_nat 16777216)%nat) by (apply Nat2Z.inj_le; rewrite N_nat_Z; cbn; lia).
    apply (near_le (k + length ms)); [|unfold h; lia|apply near_sum; auto].
    - assert (0 <= IZR (zsum ms)) by (apply IZR_le, zsum_nonneg; assumption). nra.
    - unfold few. rewrite Nat2Z.inj_add. lia. }
  assert (HB : (Z.of_nat (h + length (map zsum mss)) <= Z.of_nat roundings)%Z).
  { rewrite roundings_Z. unfold h. rewrite map_length, !Nat2Z.inj_add, N_nat_Z. cbn [Z.of_N]. lia. }
  assert (HN : (h + length (map zsum mss) <= roundings)%nat) by (apply Nat2Z.inj_le; exact HB).
  apply (near_le (h + length (map zsum mss))); [|exact HN|].
  - assert (0 <= IZR (zsum (map zsum mss))) by (apply IZR_le, zsum_nonneg; assumption). nra.
  - apply near_sum; [exact Q|exact PZ|exact T| |exact G]. unfold few. rewrite roundings_Z in HB. revert HB. generalize (Z.of_nat (h + length (map zsum mss))). intros n HB. lia.
Qed.

(** ** Results *)
Lemma near_reports k e d x : (0 <= e)%Z -> (0 < d)%Z -> (Z.of_nat k <= 2 ^ 25)%Z -> near k (IZR e / IZR d) x ->
  exists b a, x = of_bits b /\ is_u64 b /\ number b = Some a /\ (Z.abs (a * d - e * 2 ^ 1074) * 2 ^ 27 <= e * 2 ^ 1074)%Z.
Proof.
  intros E0 D0 K N. assert (D : 0 < IZR d) by (apply IZR_lt; lia). assert (E : 0 <= IZR e) by (apply IZR_le; lia).
  assert (V : 0 <= IZR e / IZR d) by (apply Rmult_le_pos; [exact E|left; now apply Rinv_0_lt_compat]).
  destruct (near_number k _ x V ltac:(unfold few; lia) N) as (a & S & B). destruct N as (C & F & _).
  exists (to_bits x), a. split; [symmetry; now apply of_to_bits|]. split; [now apply to_bits_bound|].
  split. { rewrite number_scaled by now apply to_bits_bound. rewrite of_to_bits by exact C. exact S. }
  assert (KU : INR k * u <= bpow radix2 (-28)).
  { rewrite INR_IZR_INZ, u_eq. replace (bpow radix2 (-28)) with (IZR (2 ^ 25) * bpow radix2 (-53)) by (change (IZR (2 ^ 25)) with (bpow radix2 25); rewrite <- bpow_plus; reflexivity).
    apply Rmult_le_compat_r; [apply bpow_ge_0|]. apply IZR_le. exact K. }
  apply le_IZR. rewrite mult_IZR, abs_IZR, minus_IZR, !mult_IZR. change (IZR (2 ^ 1074)) with (bpow radix2 1074). change (IZR (2 ^ 27)) with (bpow radix2 27).
  pose proof (bpow_gt_0 radix2 1074) as P. generalize dependent (bpow radix2 1074). intros p B P.
  replace (IZR a * IZR d - IZR e * p) with ((IZR a - IZR e / IZR d * p) * IZR d) by (field; lra).
  rewrite Rabs_mult, (Rabs_pos_eq (IZR d)) by lra.
  apply Rle_trans with (2 * bpow radix2 (-28) * (IZR e / IZR d) * p * IZR d * bpow radix2 27).
  - apply Rmult_le_compat_r; [apply bpow_ge_0|]. apply Rmult_le_compat_r; [lra|]. eapply Rle_trans; [exact B|].
    apply Rmult_le_compat_r; [lra|]. apply Rmult_le_compat_r; [exact V|]. lra.
  - right. replace (2 * bpow radix2 (-28)) with (bpow radix2 (-27)) by (change 2 with (bpow radix2 1) at 1; rewrite <- bpow_plus; reflexivity).
    replace (bpow radix2 (-27) * (IZR e / IZR d) * p * IZR d * bpow radix2 27) with (bpow radix2 (-27) * bpow radix2 27 * IZR e * p) by (field; lra).
    rewrite <- bpow_plus. change (bpow radix2 (-27 + 27)) with 1. ring.
Qed.
