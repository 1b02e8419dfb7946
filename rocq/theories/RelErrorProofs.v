(** Relative errors of sums, products and quotients of nonnegative f64s. *)
From Coq Require Import Reals Lra.
From Flocq Require Import Core BinarySingleNaN.
From Verif Require Import Base Xor F64 F64Proofs F64BitsProofs F64Flocq Query QuerySpec QueryProofs SprintzSpec.
Local Open Scope R_scope.

Definition u : R := ulp_half.
Lemma u_eq : u = bpow radix2 (-53).
Proof. unfold u, ulp_half. replace (/ 2) with (bpow radix2 (-1)) by reflexivity. rewrite <- bpow_plus. reflexivity. Qed.
Lemma u_pos : 0 < u. Proof. rewrite u_eq. apply bpow_gt_0. Qed.
Lemma u_small : u <= / 1000. Proof. rewrite u_eq. cbn. lra. Qed.

(** At most 2^26 roundings. *)
Definition few (k : nat) : Prop := (Z.of_nat k <= 2 ^ 26)%Z.
Lemma few_INR k : few k -> INR k * u <= / 2 * bpow radix2 (-26).
Proof.
  intros F. rewrite INR_IZR_INZ. apply Rle_trans with (IZR (2 ^ 26) * u).
  - apply Rmult_le_compat_r; [left; apply u_pos|]. now apply IZR_le.
  - rewrite u_eq. change (IZR (2 ^ 26)) with (bpow radix2 26). rewrite <- bpow_plus. cbn. lra.
Qed.
Lemma few_le j k : (j <= k)%nat -> few k -> few j.
Proof. unfold few. lia. Qed.

Lemma bernoulli k : 1 - INR k * u <= (1 - u) ^ k.
Proof.
  pose proof u_pos. pose proof u_small. induction k as [|k IH]; [cbn; lra|]. rewrite S_INR, <- tech_pow_Rmult.
  assert (0 <= INR k) by apply pos_INR. nra.
Qed.
Lemma low_pos k : 0 < (1 - u) ^ k.
Proof. apply pow_lt. pose proof u_small. lra. Qed.
Lemma high_pos k : 0 < (1 + u) ^ k.
Proof. apply pow_lt. pose proof u_pos. lra. Qed.
Lemma low_one k : (1 - u) ^ k <= 1.
Proof. pose proof u_pos. pose proof u_small. induction k; [cbn; lra|]. rewrite <- tech_pow_Rmult. pose proof (low_pos k). nra. Qed.
Lemma high_one k : 1 <= (1 + u) ^ k.
Proof. pose proof u_pos. apply pow_R1_Rle. lra. Qed.
Lemma high_low k : (1 + u) ^ k * (1 - u) ^ k <= 1.
Proof.
  rewrite <- Rpow_mult_distr. replace ((1 + u) * (1 - u)) with (1 - u * u) by ring. pose proof u_pos. pose proof u_small.
  induction k; [cbn; lra|]. rewrite <- tech_pow_Rmult. assert (0 <= (1 - u * u) ^ k) by (apply pow_le; nra). nra.
Qed.
Lemma high_bound k : few k -> (1 + u) ^ k <= 1 + 2 * (INR k * u).
Proof.
  intros F. pose proof (few_INR k F) as B. pose proof (bernoulli k) as L. pose proof (high_low k) as H. pose proof (high_pos k) as P.
  assert (B1 : INR k * u <= / 4) by (cbn in B; lra). assert (0 <= INR k * u) by (apply Rmult_le_pos; [apply pos_INR|left; apply u_pos]).
  assert ((1 + u) ^ k * (1 - INR k * u) <= 1).
  { apply Rle_trans with ((1 + u) ^ k * (1 - u) ^ k); [|exact H]. apply Rmult_le_compat_l; lra. }
  generalize dependent (INR k * u). generalize dependent ((1 + u) ^ k). intros. nra.
Qed.
Lemma low_half k : few k -> / 2 <= (1 - u) ^ k.
Proof. intros F. pose proof (few_INR k F) as B. pose proof (bernoulli k). cbn in B. lra. Qed.
Lemma high_two k : few k -> (1 + u) ^ k <= 2.
Proof. intros F. pose proof (few_INR k F) as B. pose proof (high_bound k F). cbn in B. lra. Qed.

(** Zero, or far from underflow and overflow. *)
Definition mid (v : R) : Prop := v = 0 \/ bpow radix2 (-200) <= v <= bpow radix2 200.
Lemma mid_nonneg v : mid v -> 0 <= v.
Proof. intros [->|[H _]]; [lra|]. pose proof (bpow_gt_0 radix2 (-200)). lra. Qed.

(** [x] is [v] up to [k] roundings. *)
Definition bounds (k : nat) (v r : R) : Prop := v * (1 - u) ^ k <= r <= v * (1 + u) ^ k.
Definition near (k : nat) (v : R) (x : f64) : Prop := canonical x /\ finite x /\ bounds k v (real x).

Lemma bounds_le j k v r : 0 <= v -> (j <= k)%nat -> bounds j v r -> bounds k v r.
Proof.
  intros V L [A B]. replace k with (j + (k - j))%nat by lia. unfold bounds. rewrite !pow_add. pose proof (low_one (k - j)). pose proof (high_one (k - j)).
  pose proof (low_pos j). pose proof (high_pos j). split.
  - apply Rle_trans with (v * (1 - u) ^ j); [|exact A]. apply Rmult_le_compat_l; [exact V|]. nra.
  - apply Rle_trans with (v * (1 + u) ^ j); [exact B|]. apply Rmult_le_compat_l; [exact V|]. nra.
Qed.
Lemma near_le j k v x : 0 <= v -> (j <= k)%nat -> near j v x -> near k v x.
Proof. intros V L (C & F & H). split; [exact C|]. split; [exact F|]. now apply (bounds_le j). Qed.

Lemma round_bounds k v r : few k -> mid v -> bounds k v r -> Rabs (rnd r) < bpow radix2 femax /\ bounds (S k) v (rnd r).
Proof.
  intros F M [A B]. destruct M as [->|[V1 V2]].
  - assert (r = 0) by lra. subst r. rewrite rnd_0, Rabs_R0. split; [apply bpow_gt_0|]. unfold bounds. lra.
  - pose proof (low_half k F) as L. pose proof (high_two k F) as H. assert (V0 : 0 < v) by (pose proof (bpow_gt_0 radix2 (-200)); lra).
    assert (R1 : bpow radix2 (-201) <= r).
    { apply Rle_trans with (v * (1 - u) ^ k); [|exact A]. replace (bpow radix2 (-201)) with (bpow radix2 (-200) * / 2) by (change (/ 2) with (bpow radix2 (-1)); rewrite <- bpow_plus; reflexivity).
      pose proof (bpow_gt_0 radix2 (-200)). apply Rmult_le_compat; lra. }
    assert (R2 : r <= bpow radix2 201).
    { apply Rle_trans with (v * (1 + u) ^ k); [exact B|]. replace (bpow radix2 201) with (bpow radix2 200 * 2) by (change 2 with (bpow radix2 1); rewrite <- bpow_plus; reflexivity).
      pose proof (high_pos k). apply Rmult_le_compat; lra. }
    assert (R0 : 0 < r) by (pose proof (bpow_gt_0 radix2 (-201)); lra).
    destruct (rnd_rel r) as (eps & E1 & E2).
    { rewrite Rabs_pos_eq by lra. apply Rle_trans with (bpow radix2 (-201)); [apply bpow_le; lia|exact R1]. }
    fold u in E1. apply Rabs_le_inv in E1. pose proof u_pos. pose proof u_small. split.
    + apply Rle_lt_trans with (bpow radix2 202); [|apply bpow_lt; reflexivity]. rewrite E2, Rabs_pos_eq by nra.
      replace (bpow radix2 202) with (bpow radix2 201 * 2) by (change 2 with (bpow radix2 1); rewrite <- bpow_plus; reflexivity). nra.
    + unfold bounds. rewrite <- !tech_pow_Rmult, E2. split.
      * apply Rle_trans with (v * (1 - u) ^ k * (1 - u)); [lra|]. apply Rle_trans with (r * (1 - u)); [apply Rmult_le_compat_r; lra|apply Rmult_le_compat_l; lra].
      * apply Rle_trans with (v * (1 + u) ^ k * (1 + u)); [|lra]. apply Rle_trans with (r * (1 + u)); [apply Rmult_le_compat_l; lra|apply Rmult_le_compat_r; lra].
Qed.

Lemma near_mul j k v w x y : few (j + k) -> 0 <= v -> 0 <= w -> mid (v * w) -> near j v x -> near k w y -> near (S (j + k)) (v * w) (fmul x y).
Proof.
  intros F V W M (Cx & Fx & A) (Cy & Fy & B).
  assert (R : bounds (j + k) (v * w) (real x * real y)).
  { destruct A as [A1 A2], B as [B1 B2]. unfold bounds. rewrite !pow_add.
    assert (0 <= v * (1 - u) ^ j) by (apply Rmult_le_pos; [exact V|left; apply low_pos]).
    assert (0 <= w * (1 - u) ^ k) by (apply Rmult_le_pos; [exact W|left; apply low_pos]). split.
    - replace (v * w * ((1 - u) ^ j * (1 - u) ^ k)) with ((v * (1 - u) ^ j) * (w * (1 - u) ^ k)) by ring. apply Rmult_le_compat; lra.
    - replace (v * w * ((1 + u) ^ j * (1 + u) ^ k)) with ((v * (1 + u) ^ j) * (w * (1 + u) ^ k)) by ring. apply Rmult_le_compat; lra. }
  destruct (round_bounds _ _ _ F M R) as [L N]. destruct (fmul_real x y Cx Cy Fx Fy L) as (E & Fz & Cz).
  split; [exact Cz|]. split; [exact Fz|]. rewrite E. exact N.
Qed.
Lemma near_add k v w x y : few k -> 0 <= v -> 0 <= w -> mid (v + w) -> near k v x -> near k w y -> near (S k) (v + w) (fadd x y).
Proof.
  intros F V W M (Cx & Fx & A) (Cy & Fy & B).
  assert (R : bounds k (v + w) (real x + real y)) by (destruct A, B; unfold bounds; lra).
  destruct (round_bounds _ _ _ F M R) as [L N]. destruct (fadd_real x y Cx Cy Fx Fy L) as (E & Fz & Cz).
  split; [exact Cz|]. split; [exact Fz|]. rewrite E. exact N.
Qed.
Lemma near_div k v x n : few k -> (0 < n <= 2 ^ 53)%Z -> mid (v / IZR n) -> near k v x -> near (S k) (v / IZR n) (fdiv x (of_Z n)).
Proof.
  intros F N M (Cx & Fx & A). assert (N0 : 0 < IZR n) by (apply IZR_lt; lia).
  destruct (of_Z_real n ltac:(apply Z.le_trans with (2 ^ 53)%Z; [lia|apply Z.pow_le_mono_r; lia])) as (_ & Fn & Cn). pose proof (of_Z_exact n ltac:(lia)) as En.
  assert (R : bounds k (v / IZR n) (real x / real (of_Z n))).
  { rewrite En. destruct A as [A1 A2]. assert (0 < / IZR n) by now apply Rinv_0_lt_compat. unfold bounds, Rdiv. split.
    - replace (v * / IZR n * (1 - u) ^ k) with (v * (1 - u) ^ k * / IZR n) by ring. apply Rmult_le_compat_r; lra.
    - replace (v * / IZR n * (1 + u) ^ k) with (v * (1 + u) ^ k * / IZR n) by ring. apply Rmult_le_compat_r; lra. }
  destruct (round_bounds _ _ _ F M R) as [L NB]. destruct (fdiv_real x (of_Z n) Cx Cn Fx) as (E & Fz & Cz); [rewrite En; lra|exact L|].
  split; [exact Cz|]. split; [exact Fz|]. rewrite E. exact NB.
Qed.
Lemma near_zero k : near k 0 (S754_zero false).
Proof. split; [exact I|]. split; [exact I|]. unfold bounds. cbn. lra. Qed.
Lemma near_Z z : (0 <= z <= 2 ^ 100)%Z -> near 1 (IZR z) (of_Z z).
Proof.
  intros Z. destruct (of_Z_real z) as (E & F & C). { apply Z.le_trans with (2 ^ 100)%Z; [lia|apply Z.pow_le_mono_r; lia]. }
  split; [exact C|]. split; [exact F|]. rewrite E. apply round_bounds; [unfold few; lia| |unfold bounds; cbn; lra].
  destruct (Z.eq_dec z 0) as [->|NZ]; [now left|right]. split.
  - apply Rle_trans with 1; [change 1 with (bpow radix2 0); apply bpow_le; lia|]. apply IZR_le. lia.
  - apply Rle_trans with (IZR (2 ^ 100)); [apply IZR_le; lia|]. change (IZR (2 ^ 100)) with (bpow radix2 100). apply bpow_le. lia.
Qed.

(** Sums. *)
(** Partial sums stay in range: they are multiples of one positive quantum below a
    bound. *)
Definition tame (q : R) (v : R) : Prop := exists m, (0 <= m <= 2 ^ 104)%Z /\ v = IZR m * q.
Lemma tame_mid q v : bpow radix2 (-100) <= q <= 1 -> tame q v -> mid v.
Proof.
  intros [Q1 Q2] (m & M & ->). destruct (Z.eq_dec m 0) as [->|NZ]; [left; lra|right].
  assert (M1 : 1 <= IZR m) by (apply IZR_le; lia). assert (M2 : IZR m <= bpow radix2 104) by (change (bpow radix2 104) with (IZR (2 ^ 104)); apply IZR_le; lia).
  pose proof (bpow_gt_0 radix2 (-100)). split.
  - apply Rle_trans with (bpow radix2 (-100)); [apply bpow_le; lia|]. nra.
  - apply Rle_trans with (bpow radix2 104); [|apply bpow_le; lia]. nra.
Qed.
Lemma near_fold q ms xs : bpow radix2 (-100) <= q <= 1 -> forall k a ma,
  Forall (fun m => (0 <= m)%Z) ms -> (0 <= ma)%Z -> (ma + fold_right Z.add 0%Z ms <= 2 ^ 104)%Z ->
  few (k + length ms) -> near k (IZR ma * q) a -> Forall2 (fun m x => near k (IZR m * q) x) ms xs ->
  near (k + length ms) (IZR (ma + fold_right Z.add 0%Z ms)%Z * q) (fold_left fadd xs a).
Proof.
  intros Q. revert xs. induction ms as [|m ms IH]; intros xs k a ma P MA B F A FA; inversion FA as [|? x ? xs' NX FA']; subst.
  - cbn [length fold_right fold_left]. rewrite Z.add_0_r, Nat.add_0_r. exact A.
  - inversion P as [|? ? M P']; subst. cbn [length fold_right fold_left] in *. assert (S0 : (0 <= fold_right Z.add 0%Z ms)%Z) by (clear - P'; induction P'; cbn; lia).
    replace (k + S (length ms))%nat with (S k + length ms)%nat in * by lia. rewrite Z.add_assoc in *. apply IH; auto; try lia.
    + rewrite plus_IZR, Rmult_plus_distr_r. assert (Q0 : 0 < q) by (pose proof (bpow_gt_0 radix2 (-100)); lra).
      assert (0 <= IZR ma) by (apply IZR_le; lia). assert (0 <= IZR m) by (apply IZR_le; lia).
      apply near_add; auto; try nra.
      * apply (few_le k) in F; [exact F|lia].
      * apply (tame_mid q); [exact Q|]. exists (ma + m)%Z. split; [lia|]. rewrite plus_IZR. ring.
    + assert (Q0 : 0 < q) by (pose proof (bpow_gt_0 radix2 (-100)); lra). clear - FA' P' Q0. induction FA'; inversion P'; subst; constructor; auto. apply (near_le k); auto.
      assert (0 <= IZR x) by (apply IZR_le; lia). nra.
Qed.
Lemma near_sum q k ms xs : bpow radix2 (-100) <= q <= 1 -> Forall (fun m => (0 <= m)%Z) ms -> (fold_right Z.add 0%Z ms <= 2 ^ 104)%Z ->
  few (k + length ms) -> Forall2 (fun m x => near k (IZR m * q) x) ms xs ->
  near (k + length ms) (IZR (fold_right Z.add 0%Z ms)%Z * q) (float_sum xs).
Proof.
  intros Q P B F FA. unfold float_sum. rewrite <- (Z.add_0_l (fold_right Z.add 0%Z ms)). apply near_fold; auto; try lia.
  rewrite Rmult_0_l. apply near_zero.
Qed.

(** The number behind the result. *)
Lemma near_number k v x : 0 <= v -> few k -> near k v x ->
  exists a, scaled x = Some a /\ Rabs (IZR a - v * bpow radix2 1074) <= 2 * (INR k * u) * v * bpow radix2 1074.
Proof.
  intros V F (C & FX & [A B]). destruct (finite_scaled x FX) as [a E]. exists a. split; [exact E|].
  rewrite <- (scaled_real x a C FX E). pose proof (bpow_gt_0 radix2 1074) as P.
  replace (real x * bpow radix2 1074 - v * bpow radix2 1074) with ((real x - v) * bpow radix2 1074) by ring.
  rewrite Rabs_mult, (Rabs_pos_eq (bpow radix2 1074)) by lra. apply Rmult_le_compat_r; [lra|].
  pose proof (high_bound k F) as H. pose proof (bernoulli k) as L. assert (0 <= INR k * u) by (apply Rmult_le_pos; [apply pos_INR|left; apply u_pos]).
  generalize dependent ((1 + u) ^ k). generalize dependent ((1 - u) ^ k). generalize dependent (INR k * u). intros e E0 l A L h B H. apply Rabs_le. nra.
Qed.
