(** Proofs about the statistics of a data set. *)
From Verif Require Import Base WordProofs Xor F64 F64Proofs F64BitsProofs QuerySpec QueryProofs Text TextSpec TextProofs PipelineProofs.
Local Open Scope Z_scope.

Lemma cmp_numbers x y a b : is_u64 x -> is_u64 y -> number x = Some a -> number y = Some b -> cmp_unwrap x y = Ok (a ?= b).
Proof.
  intros Ux Uy Ex Ey. rewrite (number_scaled x Ux) in Ex. rewrite (number_scaled y Uy) in Ey. unfold cmp_unwrap.
  now rewrite (compare_scaled _ _ a b (of_bits_canonical x Ux) (of_bits_canonical y Uy) Ex Ey).
Qed.
Lemma cmp_nan x y : is_u64 x -> is_u64 y -> number x = None \/ number y = None -> cmp_unwrap x y = Panic.
Proof. intros Ux Uy. rewrite (number_scaled x Ux), (number_scaled y Uy). intros H. unfold cmp_unwrap. now rewrite compare_nan. Qed.

Definition numeric (xs : list N) : Prop := Forall (fun x => number x <> None) xs.
Lemma max_spec xs : forall best, Forall is_u64 (best :: xs) -> numeric (best :: xs) -> exists m, max_by best xs = Ok m /\ greatest (best :: xs) m.
Proof.
  induction xs as [|x xs IH]; intros best U N; inversion U as [|? ? Ub U']; inversion N as [|? ? Nb N']; subst; cbn [max_by].
  - destruct (number best) as [a|] eqn:E; [|easy]. exists best. split; [reflexivity|]. split; [now left|]. exists a. split; [exact E|]. intros x [<-|[]]. exists a. split; [exact E|lia].
  - inversion U' as [|? ? Ux U2]; inversion N' as [|? ? Nx N2]; subst. destruct (number best) as [a|] eqn:Ea; [|easy]. destruct (number x) as [b|] eqn:Eb; [|easy].
    rewrite (cmp_numbers best x a b) by assumption. cbn [rbind]. destruct (Z.compare_spec a b) as [E|L|L].
    + destruct (IH x U' N') as (m & Em & Im & c & Ec & G). exists m. split; [exact Em|]. split; [now right|]. exists c. split; [exact Ec|]. intros y [<-|I]; [|now apply G].
      destruct (G x (or_introl eq_refl)) as (b' & Eb' & H). exists a. split; [exact Ea|]. assert (b' = b) by congruence. lia.
    + destruct (IH x U' N') as (m & Em & Im & c & Ec & G). exists m. split; [exact Em|]. split; [now right|]. exists c. split; [exact Ec|]. intros y [<-|I]; [|now apply G].
      destruct (G x (or_introl eq_refl)) as (b' & Eb' & H). exists a. split; [exact Ea|]. assert (b' = b) by congruence. lia.
    + destruct (IH best) as (m & Em & Im & c & Ec & G); [now constructor|constructor; [congruence|assumption]|]. exists m. split; [exact Em|]. split; [destruct Im; [now left|now right; right]|]. exists c. split; [exact Ec|].
      intros y [<-|[<-|I]]; [apply G; now left| |apply G; now right]. destruct (G best (or_introl eq_refl)) as (a' & Ea' & H). exists b. split; [exact Eb|]. assert (a' = a) by congruence. lia.
Qed.
Lemma min_spec xs : forall best, Forall is_u64 (best :: xs) -> numeric (best :: xs) -> exists m, min_by best xs = Ok m /\ least (best :: xs) m.
Proof.
  induction xs as [|x xs IH]; intros best U N; inversion U as [|? ? Ub U']; inversion N as [|? ? Nb N']; subst; cbn [min_by].
  - destruct (number best) as [a|] eqn:E; [|easy]. exists best. split; [reflexivity|]. split; [now left|]. exists a. split; [exact E|]. intros x [<-|[]]. exists a. split; [exact E|lia].
  - inversion U' as [|? ? Ux U2]; inversion N' as [|? ? Nx N2]; subst. destruct (number best) as [a|] eqn:Ea; [|easy]. destruct (number x) as [b|] eqn:Eb; [|easy].
    rewrite (cmp_numbers best x a b) by assumption. cbn [rbind]. destruct (Z.compare_spec a b) as [E|L|L].
    + destruct (IH best) as (m & Em & Im & c & Ec & G); [now constructor|constructor; [congruence|assumption]|]. exists m. split; [exact Em|]. split; [destruct Im; [now left|now right; right]|]. exists c. split; [exact Ec|].
      intros y [<-|[<-|I]]; [apply G; now left| |apply G; now right]. destruct (G best (or_introl eq_refl)) as (a' & Ea' & H). exists b. split; [exact Eb|]. assert (a' = a) by congruence. lia.
    + destruct (IH best) as (m & Em & Im & c & Ec & G); [now constructor|constructor; [congruence|assumption]|]. exists m. split; [exact Em|]. split; [destruct Im; [now left|now right; right]|]. exists c. split; [exact Ec|].
      intros y [<-|[<-|I]]; [apply G; now left| |apply G; now right]. destruct (G best (or_introl eq_refl)) as (a' & Ea' & H). exists b. split; [exact Eb|]. assert (a' = a) by congruence. lia.
    + destruct (IH x U' N') as (m & Em & Im & c & Ec & G). exists m. split; [exact Em|]. split; [now right|]. exists c. split; [exact Ec|]. intros y [<-|I]; [|now apply G].
      destruct (G x (or_introl eq_refl)) as (b' & Eb' & H). exists a. split; [exact Ea|]. assert (b' = b) by congruence. lia.
Qed.
Lemma max_panics xs : forall best, xs <> [] -> Forall is_u64 (best :: xs) -> ~ numeric (best :: xs) -> max_by best xs = Panic.
Proof.
  induction xs as [|x xs IH]; intros best NE U N; [easy|]. inversion U as [|? ? Ub U']; subst. inversion U' as [|? ? Ux U2]; subst. cbn [max_by].
  destruct (number best) as [a|] eqn:Ea; [|rewrite cmp_nan; auto]. destruct (number x) as [b|] eqn:Eb; [|rewrite cmp_nan; auto].
  rewrite (cmp_numbers best x a b) by assumption. cbn [rbind].
  assert (NX : ~ numeric xs). { intros H. apply N. constructor; [congruence|]. constructor; [congruence|exact H]. }
  assert (XN : xs <> []) by (intros ->; apply NX; constructor).
  destruct (a ?= b); apply IH; auto; intros H; apply NX; now inversion H.
Qed.

Lemma exponent_eq x : exponent_of x = exponent x.
Proof.
  unfold exponent_of, exponent. do 2 f_equal. rewrite N.shiftr_div_pow2. change 2047%N with (N.ones 11). now rewrite N.land_ones.
Qed.
Lemma exponent_range x : -1023 <= exponent x <= 1024.
Proof. unfold exponent. pose proof (N.mod_upper_bound (x / 2 ^ 52)%N (2 ^ 11)%N ltac:(discriminate)) as B. change (2 ^ 11)%N with 2048%N in *. lia. Qed.
Lemma sum_exact dbg zs : forall acc, Forall (fun z => -1024 <= z <= 1024) zs -> Z.abs acc + 1024 * Z.of_nat (length zs) < 2 ^ 31 ->
  sum_i32 dbg acc zs = Ok (acc + total zs).
Proof.
  induction zs as [|z zs IH]; intros acc F B; cbn [sum_i32 total fold_right]; [f_equal; lia|]. inversion F; subst. cbn [length] in B.
  rewrite i32_ok by lia. cbn [rbind]. rewrite IH; [f_equal; fold (total zs); lia|assumption|lia].
Qed.
Lemma fold_max zs : forall z, let m := fold_left Z.max zs z in In m (z :: zs) /\ forall y, In y (z :: zs) -> y <= m.
Proof.
  induction zs as [|y zs IH]; intros z; cbn [fold_left]; [split; [now left|intros y [<-|[]]; lia]|]. destruct (IH (Z.max z y)) as [I G]. split.
  - destruct I as [I|I]; [|right; now right]. rewrite <- I. destruct (Z.max_spec z y) as [[_ ->]|[_ ->]]; [right; now left|now left].
  - intros w [<-|[<-|H]]; [| |apply G; now right]; pose proof (G _ (or_introl eq_refl)); lia.
Qed.
Lemma fold_min zs : forall z, let m := fold_left Z.min zs z in In m (z :: zs) /\ forall y, In y (z :: zs) -> m <= y.
Proof.
  induction zs as [|y zs IH]; intros z; cbn [fold_left]; [split; [now left|intros y [<-|[]]; lia]|]. destruct (IH (Z.min z y)) as [I G]. split.
  - destruct I as [I|I]; [|right; now right]. rewrite <- I. destruct (Z.min_spec z y) as [[_ ->]|[_ ->]]; [now left|right; now left].
  - intros w [<-|[<-|H]]; [| |apply G; now right]; pose proof (G _ (or_introl eq_refl)); lia.
Qed.

Theorem stats_exact dbg xs : xs <> [] -> Forall is_u64 xs -> numeric xs -> (N.of_nat (length xs) < 2 ^ 21)%N ->
  exists st, compute_stats dbg xs = Ok st /\ st_values st = N.of_nat (length xs) /\ greatest xs (st_value_max st) /\ least xs (st_value_min st) /\
    (In (st_exponent_max st) (map exponent xs) /\ Forall (fun e => e <= st_exponent_max st) (map exponent xs)) /\
    (In (st_exponent_min st) (map exponent xs) /\ Forall (fun e => st_exponent_min st <= e) (map exponent xs)) /\
    st_exponent_avg st = fdiv (of_Z (total (map exponent xs))) (of_Z (Z.of_nat (length xs))).
Proof.
  intros NE U NU L. change (2 ^ 21)%N with 2097152%N in L. destruct xs as [|x xs]; [easy|]. destruct (max_spec xs x U NU) as (mx & Ex & Gx). destruct (min_spec xs x U NU) as (mn & En & Gn).
  assert (EE : forall l, map exponent_of l = map exponent l) by (intros l; apply map_ext, exponent_eq).
  unfold compute_stats. rewrite Ex, En. cbn [rbind]. rewrite !EE, exponent_eq.
  assert (SM : sum_i32 dbg 0 (map exponent (x :: xs)) = Ok (total (map exponent (x :: xs)))).
  { rewrite sum_exact; [reflexivity| |].
    - apply Forall_map, Forall_forall. intros y _. pose proof (exponent_range y). lia.
    - rewrite map_length. change (2 ^ 31) with 2147483648. lia. }
  unfold mean_i32. change (map exponent (x :: xs)) with (exponent x :: map exponent xs) at 1. cbv beta iota. change (exponent x :: map exponent xs) with (map exponent (x :: xs)).
  rewrite SM. cbn [rbind]. destruct (xor_stats (x :: xs)) as [l t]. eexists. split; [reflexivity|]. cbn [st_values st_value_max st_value_min st_exponent_max st_exponent_min st_exponent_avg].
  split; [reflexivity|]. split; [exact Gx|]. split; [exact Gn|]. rewrite map_length.
  destruct (fold_max (map exponent xs) (exponent x)) as [M1 M2]. destruct (fold_min (map exponent xs) (exponent x)) as [M3 M4].
  split; [split; [exact M1|now apply Forall_forall]|]. split; [split; [exact M3|now apply Forall_forall]|reflexivity].
Qed.
Theorem stats_nan dbg xs : (2 <= length xs)%nat -> Forall is_u64 xs -> ~ numeric xs -> compute_stats dbg xs = Panic.
Proof.
  intros L U N. destruct xs as [|x [|y xs]]; cbn [length] in L; try lia. unfold compute_stats. rewrite max_panics; [reflexivity|discriminate|exact U|exact N].
Qed.

(** Overflow of the sum of the exponents. *)
Lemma sum_repeat_debug n : forall acc, 0 <= acc + 2 ^ 31 < 1023 * Z.of_nat n -> acc <= 0 -> sum_i32 true acc (repeat (-1023) n) = Panic.
Proof.
  induction n as [|n IH]; intros acc B A; [lia|]. change (2 ^ 31) with 2147483648 in *. cbn [repeat sum_i32]. unfold i32_result at 1.
  destruct ((-2147483648 <=? acc + -1023) && (acc + -1023 <=? 2147483647)) eqn:E; [|reflexivity]. cbn [rbind]. apply IH; lia.
Qed.
Lemma wrap_add a b : wrap_i32 (wrap_i32 a + b) = wrap_i32 (a + b).
Proof.
  unfold wrap_i32. replace ((a + 2147483648) mod 4294967296 - 2147483648 + b + 2147483648) with ((a + 2147483648) mod 4294967296 + b) by lia. rewrite Zplus_mod_idemp_l. do 2 f_equal. lia.
Qed.
Lemma wrap_range z : - 2147483648 <= wrap_i32 z <= 2147483647.
Proof. unfold wrap_i32. pose proof (Z.mod_pos_bound (z + 2147483648) 4294967296 eq_refl). lia. Qed.
Lemma sum_repeat_release z n : forall acc, sum_i32 false (wrap_i32 acc) (repeat z n) = Ok (wrap_i32 (acc + z * Z.of_nat n)).
Proof.
  induction n as [|n IH]; intros acc; cbn [repeat sum_i32]; [do 2 f_equal; lia|].
  assert (E : i32_result false (wrap_i32 acc + z) = Ok (wrap_i32 (acc + z))).
  { unfold i32_result. rewrite <- (wrap_add acc z). destruct ((-2147483648 <=? wrap_i32 acc + z) && (wrap_i32 acc + z <=? 2147483647)) eqn:E; [|reflexivity]. rewrite (wrap_ok (wrap_i32 acc + z)); [reflexivity|]. change (2 ^ 31) with 2147483648. lia. }
  rewrite E. cbn [rbind]. rewrite IH. do 2 f_equal. lia.
Qed.
Definition zeros : list N := repeat 0%N (N.to_nat 2099203).
Lemma zeros_length : length zeros = N.to_nat 2099203.
Proof. apply repeat_length. Qed.
Lemma zeros_cons : exists t, zeros = 0%N :: t.
Proof. unfold zeros. assert (E : N.to_nat 2099203 = S (N.to_nat 2099202)) by lia. rewrite E. cbn [repeat]. eauto. Qed.
Lemma map_repeat {A B} (f : A -> B) x n : map f (repeat x n) = repeat (f x) n.
Proof. induction n; cbn; congruence. Qed.
Lemma numeric_zeros n : numeric (repeat 0%N n) /\ Forall is_u64 (repeat 0%N n).
Proof. induction n as [|n [IH1 IH2]]; cbn [repeat]; (split; [constructor|constructor]); auto; [discriminate|reflexivity]. Qed.
Theorem stats_overflow_debug : compute_stats true zeros = Panic.
Proof.
  destruct zeros_cons as [t E]. destruct (numeric_zeros (N.to_nat 2099203)) as [NU U]. fold zeros in NU, U. assert (S : sum_i32 true 0 (map exponent_of zeros) = Panic).
  { unfold zeros. rewrite map_repeat. change (exponent_of 0) with (-1023). apply sum_repeat_debug; [|lia]. change (2 ^ 31) with 2147483648. lia. }
  rewrite E in *. destruct (max_spec t 0 U NU) as (mx & Ex & _). destruct (min_spec t 0 U NU) as (mn & En & _).
  unfold compute_stats. rewrite Ex, En. cbn [rbind]. unfold mean_i32. cbn [map] in *. rewrite S. reflexivity.
Qed.
Theorem stats_overflow_release : exists st, compute_stats false zeros = Ok st /\ flt (S754_zero false) (st_exponent_avg st) = true.
Proof.
  destruct zeros_cons as [t E]. destruct (numeric_zeros (N.to_nat 2099203)) as [NU U]. fold zeros in NU, U. assert (S : sum_i32 false 0 (map exponent_of zeros) = Ok 2147482627).
  { unfold zeros. rewrite map_repeat. change (exponent_of 0) with (-1023). change 0 with (wrap_i32 0). rewrite sum_repeat_release. replace (Z.of_nat (N.to_nat 2099203)) with 2099203 by lia. reflexivity. }
  assert (L : Z.of_nat (length (map exponent_of zeros)) = 2099203) by (rewrite map_length, zeros_length; lia).
  rewrite E in *. destruct (max_spec t 0 U NU) as (mx & Ex & _). destruct (min_spec t 0 U NU) as (mn & En & _).
  unfold compute_stats. rewrite Ex, En. cbn [rbind]. unfold mean_i32. cbn [map] in S, L |- *. rewrite S. cbn [rbind]. rewrite L. destruct (xor_stats (0%N :: t)) as [l r]. eexists. split; [reflexivity|]. vm_compute. reflexivity.
Qed.

(** ** Neighbours and duplicates *)
Lemma clz_leading w : is_u64 w -> leading_zeros w (clz64 w).
Proof.
  intros U. split; [apply clz_le|]. split; [now apply clz_bound|]. intros L. unfold clz64 in *.
  assert (w <> 0)%N by (intros ->; cbn in L; lia). rewrite N.size_log2 in * by assumption. pose proof (N.log2_spec w ltac:(lia)) as [B _].
  replace (63 - (64 - N.succ (N.log2 w)))%N with (N.log2 w); [exact B|].
  assert (N.log2 w < 64)%N by (apply N.log2_lt_pow2; [lia|exact U]). lia.
Qed.
Lemma ctz_trailing w : trailing_zeros w (ctz64 w).
Proof.
  destruct w as [|p]; [left; now split|]. right. cbn [ctz64]. destruct (pos_ctz_spec p) as (q & E & O). apply N.odd_spec in O as [h ->]. exists h. exact E.
Qed.
Lemma xor_sums_spec xs : xor_sums xs = (fold_right N.add 0 (map clz64 (neighbour_xors xs)), fold_right N.add 0 (map ctz64 (neighbour_xors xs)))%N.
Proof.
  unfold neighbour_xors. induction xs as [|x [|y xs] IH]; [reflexivity|reflexivity|].
  change (xor_sums (x :: y :: xs)) with (let '(l, t) := xor_sums (y :: xs) in (clz64 (N.lxor x y) + l, ctz64 (N.lxor x y) + t)%N). rewrite IH. reflexivity.
Qed.
Lemma total_fold ns : Z.of_N (fold_right N.add 0 ns)%N = total_n ns.
Proof. unfold total_n, total. induction ns as [|n ns IH]; [reflexivity|]. cbn [fold_right map]. rewrite N2Z.inj_add, IH. reflexivity. Qed.
Lemma Forall2_map_r {A B} (P : A -> B -> Prop) f xs : Forall (fun x => P x (f x)) xs -> Forall2 P xs (map f xs).
Proof. induction 1; constructor; auto. Qed.
Lemma xors_u64 xs : Forall is_u64 xs -> Forall is_u64 (neighbour_xors xs).
Proof.
  intros U. unfold neighbour_xors. apply Forall_map, Forall_forall. intros [x y] I. cbn [fst snd]. rewrite Forall_forall in U.
  pose proof (in_combine_l _ _ _ _ I) as I1. pose proof (in_combine_r _ _ _ _ I) as I2. apply is_u64_lxor; apply U; [exact I1|]. destruct xs; [exact I2|now right].
Qed.
Theorem xor_stats_spec xs : (2 <= length xs)%nat -> Forall is_u64 xs ->
  exists ls ts, Forall2 leading_zeros (neighbour_xors xs) ls /\ Forall2 trailing_zeros (neighbour_xors xs) ts /\
    xor_stats xs = (fdiv (of_Z (total_n ls)) (of_Z (Z.of_nat (length xs) - 1)), fdiv (of_Z (total_n ts)) (of_Z (Z.of_nat (length xs) - 1))).
Proof.
  intros L U. exists (map clz64 (neighbour_xors xs)), (map ctz64 (neighbour_xors xs)). split; [|split].
  - apply Forall2_map_r. eapply Forall_impl; [|exact (xors_u64 xs U)]. apply clz_leading.
  - apply Forall2_map_r, Forall_forall. intros w _. apply ctz_trailing.
  - unfold xor_stats. replace (length xs <? 2)%nat with false by (symmetry; apply Nat.ltb_ge; exact L). rewrite xor_sums_spec, <- !total_fold.
    replace (Z.of_nat (length xs - 1)) with (Z.of_nat (length xs) - 1) by lia. reflexivity.
Qed.
Theorem ratio_spec xs : xs <> [] -> Z.of_nat (length xs) <= 2 ^ 53 ->
  exists ds, different xs ds /\ non_unique_ratio xs = fdiv (of_Z (Z.of_nat (length xs) - Z.of_nat (length ds))) (of_Z (Z.of_nat (length xs))).
Proof.
  intros NE L. exists (nodup N.eq_dec xs). split; [split; [apply NoDup_nodup|intros x; apply nodup_In]|].
  assert (D : (length (nodup N.eq_dec xs) <= length xs)%nat) by (apply NoDup_incl_length; [apply NoDup_nodup|intros x; apply nodup_In]).
  assert (E : non_unique_ratio xs = fdiv (fsub (of_Z (Z.of_nat (length xs))) (of_Z (Z.of_nat (length (nodup N.eq_dec xs))))) (of_Z (Z.of_nat (length xs)))) by (destruct xs; [easy|reflexivity]).
  rewrite E, sub_counts by lia. reflexivity.
Qed.
