From Verif Require Import Base WordProofs BitSpec BitSpecProofs BitIO BitIOProofs Xor F64 Query Sprintz.

(** ** i64 *)

Definition i64 (z : Z) : Prop := (- 2 ^ 63 <= z < 2 ^ 63)%Z.

Lemma fits_iff z : fits_i64 z = true <-> i64 z.
Proof. unfold fits_i64, i64. rewrite andb_true_iff, Z.leb_le, Z.ltb_lt. reflexivity. Qed.
Lemma wrap_range z : i64 (wrap_i64 z).
Proof. unfold wrap_i64, i64. pose proof (Z.mod_pos_bound (z + 2 ^ 63) (2 ^ 64) ltac:(lia)). lia. Qed.
Lemma wrap_id z : i64 z -> wrap_i64 z = z.
Proof. unfold wrap_i64, i64. intros H. rewrite Z.mod_small; lia. Qed.
Lemma wrap_unique z k : i64 (z + k * 2 ^ 64) -> wrap_i64 z = (z + k * 2 ^ 64)%Z.
Proof.
  intros H. rewrite <- (wrap_id _ H). unfold wrap_i64.
  replace (z + k * 2 ^ 64 + 2 ^ 63)%Z with (z + 2 ^ 63 + k * 2 ^ 64)%Z by ring.
  now rewrite Z.mod_add by lia.
Qed.
Lemma wrap_wrap_add a b : wrap_i64 (a + wrap_i64 b) = wrap_i64 (a + b).
Proof.
  unfold wrap_i64.
  replace (a + ((b + 2 ^ 63) mod 2 ^ 64 - 2 ^ 63) + 2 ^ 63)%Z with (a + (b + 2 ^ 63) mod 2 ^ 64)%Z by ring.
  rewrite Zplus_mod_idemp_r. do 2 f_equal. ring.
Qed.
Lemma bits_i64_bits z : i64 z -> bits_i64 (i64_bits z) = z.
Proof.
  intros H. unfold bits_i64, i64_bits. pose proof (Z.mod_pos_bound z (2 ^ 64) ltac:(lia)) as B.
  rewrite Z2N.id by lia. destruct (Z_lt_le_dec z 0) as [L|L].
  - rewrite <- (Z.mod_add z 1) by lia. unfold i64 in H. rewrite Z.mod_small by lia.
    rewrite (wrap_unique _ (-1)); unfold i64; lia.
  - unfold i64 in H. rewrite Z.mod_small by lia. apply wrap_id. unfold i64. lia.
Qed.
Lemma i64_bits_bound z : i64_bits z < 2 ^ 64.
Proof. unfold i64_bits. pose proof (Z.mod_pos_bound z (2 ^ 64) ltac:(lia)). change (2 ^ 64)%Z with 18446744073709551616%Z in *. change (2 ^ 64)%N with 18446744073709551616. lia. Qed.

Lemma as_i64_range x : i64 (as_i64 x).
Proof. unfold as_i64, as_int, i64. destruct x as [|[]| |s p e]; try lia. Qed.
Lemma quantize_range s x : i64 (quantize s x).
Proof. apply as_i64_range. Qed.

(** ** zigzag *)

Lemma zigzag_val z : i64 z -> zigzag z = Z.to_N (if (0 <=? z)%Z then 2 * z else - 2 * z - 1)%Z.
Proof.
  intros H. unfold zigzag, i64_bits.
  rewrite Z.shiftl_mul_pow2 by lia. change (2 ^ 1)%Z with 2%Z.
  unfold i64 in H. rewrite Z.shiftr_div_pow2 by lia.
  destruct (Z.leb_spec 0 z) as [L|L].
  - rewrite (Z.div_small z) by lia. rewrite Z.lxor_0_r. f_equal.
    unfold wrap_i64.
    destruct (Z_lt_le_dec z (2 ^ 62)).
    + rewrite (Z.mod_small (z * 2 + 2 ^ 63)) by lia. rewrite Z.mod_small; lia.
    + rewrite <- (Z.mod_add (z * 2 + 2 ^ 63) (-1)) by lia. rewrite (Z.mod_small (z * 2 + 2 ^ 63 + _)) by lia.
      rewrite <- (Z.mod_add _ 1) by lia. rewrite Z.mod_small; lia.
  - assert (E : (z / 2 ^ 63 = -1)%Z).
    { symmetry. apply (Z.div_unique z (2 ^ 63) (-1) (z + 2 ^ 63)); lia. }
    rewrite E, Z.lxor_m1_r. unfold Z.lnot. f_equal. unfold wrap_i64.
    destruct (Z_lt_le_dec z (- 2 ^ 62)).
    + rewrite <- (Z.mod_add (z * 2 + 2 ^ 63) 1) by lia. rewrite (Z.mod_small (z * 2 + 2 ^ 63 + _)) by lia.
      rewrite <- (Z.mod_add _ 1) by lia. rewrite Z.mod_small; lia.
    + rewrite (Z.mod_small (z * 2 + 2 ^ 63)) by lia. rewrite Z.mod_small; lia.
Qed.
Lemma zigzag_bound z : i64 z -> zigzag z < 2 ^ 64.
Proof.
  intros H. rewrite zigzag_val by assumption. unfold i64 in H.
  change (2 ^ 63)%Z with 9223372036854775808%Z in H. change (2 ^ 64) with 18446744073709551616.
  destruct (Z.leb_spec 0 z); lia.
Qed.
Lemma unzigzag_val o : unzigzag o = (if N.even o then Z.of_N (o / 2) else - Z.of_N (o / 2) - 1)%Z.
Proof.
  unfold unzigzag. change 1 with (N.ones 1) at 2. rewrite N.land_ones, N.shiftr_div_pow2.
  change (2 ^ 1) with 2.
  pose proof (N.div_mod o 2 ltac:(lia)) as D. pose proof (N.mod_lt o 2 ltac:(lia)) as M.
  destruct (N.even o) eqn:E.
  - apply N.even_spec in E. destruct E as [k E].
    replace (o mod 2) with 0.
    2:{ symmetry. rewrite E, N.mul_comm, N.mod_mul by lia. reflexivity. }
    cbn. apply Z.lxor_0_r.
  - assert (O : N.odd o = true) by (rewrite <- N.negb_even, E; reflexivity).
    apply N.odd_spec in O. destruct O as [k O].
    replace (o mod 2) with 1.
    2:{ rewrite O. rewrite N.add_comm, N.mul_comm, N.mod_add by lia. reflexivity. }
    change (- Z.of_N 1)%Z with (-1)%Z. rewrite Z.lxor_m1_r. unfold Z.lnot. lia.
Qed.
Lemma unzigzag_zigzag z : i64 z -> unzigzag (zigzag z) = z.
Proof.
  intros H. rewrite unzigzag_val, zigzag_val by assumption.
  destruct (Z.leb_spec 0 z) as [L|L].
  - replace (Z.to_N (2 * z)) with (2 * Z.to_N z) by lia.
    rewrite N.even_mul. cbn [N.even orb]. rewrite N.mul_comm, N.div_mul by lia. lia.
  - replace (Z.to_N (- 2 * z - 1)) with (1 + Z.to_N (- z - 1) * 2) by lia.
    rewrite N.even_add, N.even_mul, orb_true_r. cbn [N.even Bool.eqb].
    rewrite N.div_add by lia. change (1 / 2) with 0. lia.
Qed.
Lemma unzigzag_range o : o < 2 ^ 64 -> i64 (unzigzag o).
Proof.
  intros H. rewrite unzigzag_val. change (2 ^ 64) with 18446744073709551616 in H.
  assert (o / 2 < 9223372036854775808) by (apply N.div_lt_upper_bound; lia).
  unfold i64. change (2 ^ 63)%Z with 9223372036854775808%Z. destruct (N.even o); lia.
Qed.

(** ** Deltas *)

(** Consecutive differences; what a debug build requires of them. *)
Fixpoint steps_ok (dbg : bool) (previous : Z) (qs : list Z) : Prop :=
  match qs with
  | [] => True
  | q :: qs' => (dbg = false \/ i64 (q - previous)) /\ steps_ok dbg q qs'
  end.

(** The zigzag numbers [zs] lead from [previous] through [qs]. *)
Fixpoint leads (dbg : bool) (previous : Z) (zs : list N) (qs : list Z) : Prop :=
  match zs, qs with
  | [], [] => True
  | z :: zs', q :: qs' => add_i64 dbg previous (unzigzag z) = Ok q /\ leads dbg q zs' qs'
  | _, _ => False
  end.

Lemma checked_add dbg p q : (dbg = false \/ i64 (q - p)) -> i64 q ->
  exists d, sub_i64 dbg q p = Ok d /\ i64 d /\ add_i64 dbg p d = Ok q.
Proof.
  intros H R. unfold sub_i64, add_i64, checked_i64.
  destruct (fits_i64 (q - p)) eqn:F.
  - apply fits_iff in F. exists (q - p)%Z. split; [reflexivity|]. split; [assumption|].
    replace (p + (q - p))%Z with q by ring. apply fits_iff in R. now rewrite R.
  - destruct H as [->|H]; [|apply fits_iff in H; congruence].
    exists (wrap_i64 (q - p)). split; [reflexivity|]. split; [apply wrap_range|].
    pose proof (wrap_wrap_add p (q - p)) as W. replace (p + (q - p))%Z with q in W by ring.
    rewrite (wrap_id q R) in W.
    destruct (fits_i64 (p + wrap_i64 (q - p))) eqn:F2; [|congruence].
    apply fits_iff in F2. rewrite (wrap_id _ F2) in W. congruence.
Qed.

Lemma lor_sub_l a b : N.lor a (N.lor a b) = N.lor a b.
Proof. now rewrite N.lor_assoc, N.lor_diag. Qed.
Lemma lor_le a b : a <= N.lor a b.
Proof.
  destruct (N.le_gt_cases a (N.lor a b)) as [H|H]; [assumption|exfalso].
  pose proof (N.ldiff_le (N.lor a b) b) as _.
  assert (E : N.ldiff a (N.lor a b) = 0).
  { apply N.bits_inj. intro i. rewrite N.ldiff_spec, N.lor_spec, N.bits_0.
    destruct (N.testbit a i); [cbn|]; auto. }
  pose proof (N.sub_nocarry_ldiff (N.lor a b) a) as S.
  assert (E2 : N.ldiff a (N.lor a b) = 0) by exact E.
  assert (E3 : N.lor a b = N.lxor a (N.ldiff b a)).
  { apply N.bits_inj. intro i. rewrite N.lor_spec, N.lxor_spec, N.ldiff_spec.
    destruct (N.testbit a i), (N.testbit b i); reflexivity. }
  rewrite <- N.add_nocarry_lxor in E3.
  - lia.
  - apply N.bits_inj. intro i. rewrite N.land_spec, N.ldiff_spec, N.bits_0.
    destruct (N.testbit a i), (N.testbit b i); reflexivity.
Qed.

Lemma zigzag_deltas_ok dbg : forall qs previous acc, steps_ok dbg previous qs -> Forall i64 qs -> acc < 2 ^ 64 ->
  exists zs o, zigzag_deltas dbg previous acc qs = Ok (zs, o) /\ leads dbg previous zs qs /\
    o < 2 ^ 64 /\ acc <= o /\ Forall (fun z => z <= o) zs.
Proof.
  induction qs as [|q qs IH]; intros p acc S R A.
  - exists [], acc. cbn. repeat split; auto. lia.
  - destruct S as [S1 S2]. inversion R as [|? ? R1 R2]; subst.
    destruct (checked_add dbg p q S1 R1) as (d & E1 & E2 & E3).
    pose proof (zigzag_bound d E2) as ZB.
    destruct (IH q (N.lor acc (zigzag d)) S2 R2 (lor_bound _ _ _ A ZB)) as (zs & o & F1 & F2 & F3 & F4 & F5).
    exists (zigzag d :: zs), o. cbn [zigzag_deltas]. rewrite E1. cbn [rbind]. rewrite F1. cbn [rbind].
    split; [reflexivity|]. split; [cbn; rewrite unzigzag_zigzag by assumption; auto|].
    split; [assumption|].
    pose proof (lor_le acc (zigzag d)). pose proof (lor_le (zigzag d) acc) as L2. rewrite N.lor_comm in L2.
    split; [lia|]. constructor; [lia|assumption].
Qed.
(** A debug build panics on the first difference that does not fit. *)
Lemma zigzag_deltas_panic : forall qs previous acc, ~ steps_ok true previous qs -> zigzag_deltas true previous acc qs = Panic.
Proof.
  induction qs as [|q qs IH]; intros p acc S; [cbn in S; tauto|].
  cbn [steps_ok] in S. cbn [zigzag_deltas]. unfold sub_i64, checked_i64.
  destruct (fits_i64 (q - p)) eqn:F.
  - cbn [rbind]. rewrite IH; [reflexivity|]. intros H. apply S. split; [right; now apply fits_iff|assumption].
  - reflexivity.
Qed.

Lemma bits_needed o z : o < 2 ^ 64 -> z <= o -> z < 2 ^ (64 - clz64 o).
Proof.
  intros O Z. unfold clz64. pose proof (size_le_64 o ltac:(unfold is_u64, two64; change (2 ^ 64) with 18446744073709551616 in O; lia)) as S.
  replace (64 - (64 - N.size o)) with (N.size o) by lia. pose proof (lt_pow_size o). lia.
Qed.

(** ** The bits of a chunk *)

Definition chunk_bits (initial : Z) (scale bits : N) (zs : list N) : list bool :=
  bits_of 64 (i64_bits initial) ++ bits_of 32 scale ++ bits_of 8 bits ++ flat_map (bits_of (N.to_nat bits)) zs.

Lemma write_all_rep bits zs : forall w pre, wrep w pre ->
  wrep (fold_left (fun w z => write_bits w z bits) zs w) (pre ++ flat_map (bits_of (N.to_nat bits)) zs).
Proof.
  induction zs as [|z zs IH]; intros w pre W; cbn [fold_left flat_map].
  - now rewrite app_nil_r.
  - rewrite app_assoc. apply IH. now apply write_bits_rep.
Qed.
Lemma flat_map_nil (zs : list N) : flat_map (bits_of (N.to_nat 0)) zs = [].
Proof. induction zs; auto. Qed.

Lemma sp_write_ok dbg xs scale w : xs <> [] -> wrep w [] ->
  let qs := map (quantize scale) xs in steps_ok dbg (hd 0%Z qs) qs ->
  exists w' bits zs, sp_write dbg xs scale w = Ok w' /\ bits <= 64 /\
    leads dbg (hd 0%Z qs) zs qs /\ Forall (fun z => z < 2 ^ bits) zs /\
    wrep w' (chunk_bits (hd 0%Z qs) scale bits zs).
Proof.
  intros NE W qs S. assert (R : Forall i64 qs).
  { unfold qs. apply Forall_forall. intros q Hq. apply in_map_iff in Hq. destruct Hq as (x & <- & _). apply quantize_range. }
  destruct (zigzag_deltas_ok dbg qs (hd 0%Z qs) 0 S R ltac:(reflexivity)) as (zs & o & E & L & O & _ & F).
  set (bits := 64 - clz64 o).
  assert (B : bits <= 64) by (unfold bits; lia).
  unfold sp_write. fold qs. unfold zigzag_delta_num_bits.
  destruct qs as [|q qs'] eqn:EQ; [destruct xs; [congruence|discriminate]|].
  cbn [hd] in *. rewrite E. cbn [rbind]. fold bits.
  pose proof (write_bits_rep w [] (i64_bits q) 64 W) as W1.
  pose proof (write_bits_rep _ _ scale 32 W1) as W2.
  assert (W3 := write_byte_rep _ _ bits W2 ltac:(unfold is_byte; lia)).
  eexists. exists bits, zs. split; [reflexivity|]. split; [assumption|]. split; [assumption|]. split.
  - apply Forall_forall. intros z Hz. rewrite Forall_forall in F. apply bits_needed; auto.
  - unfold chunk_bits. destruct (N.eqb_spec bits 0) as [Z|Z].
    + rewrite Z, flat_map_nil, app_nil_r. rewrite Z in W3. rewrite <- !app_assoc in W3. exact W3.
    + pose proof (write_all_rep bits zs _ _ W3) as W4. rewrite <- !app_assoc in W4. exact W4.
Qed.

(** ** Reading *)


Lemma read_field r n v rest : rwf r -> n <= 64 -> rrem r = bits_of (N.to_nat n) v ++ rest ->
  exists r', read_bits r n = Got (v mod 2 ^ n) r' /\ rwf r' /\ rrem r' = rest /\ rbuf r' = rbuf r.
Proof.
  intros Hw Hn HR. destruct (read_bits_rep r n Hw Hn) as [H1 _].
  destruct H1 as (r1 & E1 & _ & _ & HB & _).
  { rewrite HR, app_length, bits_of_length. lia. }
  destruct (read_bits_field r n v rest Hw Hn HR) as (r2 & E2 & W2 & R2).
  exists r2. rewrite E1 in E2. injection E2 as _ <-. rewrite E1.
  destruct (read_bits_field r n v rest Hw Hn HR) as (r3 & E3 & _). rewrite E1 in E3. injection E3 as -> _.
  auto.
Qed.
Lemma read_byte_field r y rest : rwf r -> is_byte y -> rrem r = bits_of 8 y ++ rest ->
  exists r', read_byte r = Got y r' /\ rwf r' /\ rrem r' = rest /\ rbuf r' = rbuf r.
Proof.
  intros Hw Hy HR. destruct (read_byte_rep r Hw) as [H _].
  destruct H as (y' & r' & E & Y & W & R & B & _). { rewrite HR, app_length, bits_of_length. lia. }
  exists r'. rewrite HR in R.
  assert (EQ : bits_of 8 y = bits_of 8 y' /\ rest = rrem r').
  { revert R. generalize (bits_of_length 8 y) (bits_of_length 8 y'). generalize (bits_of 8 y) (bits_of 8 y').
    intros a b La Lb R. assert (F : firstn 8 (a ++ rest) = firstn 8 (b ++ rrem r')) by congruence.
    rewrite (firstn_app_len a), (firstn_app_len b) in F by congruence. subst b. split; [reflexivity|]. now apply app_inv_head in R. }
  destruct EQ as [EY ER]. apply bits_of_inj in EY; [|assumption|assumption]. subst y'. auto.
Qed.

Section Read.
  Variable dbg : bool.

  Lemma header_ok r initial scale bits zs tail : rwf r -> i64 initial -> bits <= 64 ->
    rrem r = chunk_bits initial scale bits zs ++ tail ->
    exists r', sp_header r = (Ok (initial, scale mod 2 ^ 32, bits), r') /\ rwf r' /\ rbuf r' = rbuf r /\
      rrem r' = flat_map (bits_of (N.to_nat bits)) zs ++ tail.
  Proof using.
    intros W I B R. unfold chunk_bits in R. rewrite <- !app_assoc in R.
    destruct (read_field r 64 _ _ W ltac:(lia) R) as (r1 & E1 & W1 & R1 & B1).
    destruct (read_field r1 32 _ _ W1 ltac:(lia) R1) as (r2 & E2 & W2 & R2 & B2).
    destruct (read_byte_field r2 bits _ W2 ltac:(unfold is_byte; lia) R2) as (r3 & E3 & W3 & R3 & B3).
    exists r3. unfold sp_header. rewrite E1, E2, E3. rewrite N.mod_small by apply i64_bits_bound.
    rewrite bits_i64_bits by assumption. split; [reflexivity|]. split; [assumption|]. split; [congruence|assumption].
  Qed.

  (** A loop over the integers of a chunk, without the reading. *)
  Fixpoint walk {A} (step : N -> Z -> A -> res derr (A * bool)) (i : N) (qs : list Z) (acc : A) : res derr A :=
    match qs with
    | [] => Ok acc
    | q :: qs' =>
        match step i q acc with
        | Ok (acc', true) => walk step (i + 1) qs' acc'
        | Ok (acc', false) => Ok acc'
        | Err e => Err e
        | Panic => Panic
        end
    end.

  Lemma leads_length : forall zs previous qs, leads dbg previous zs qs -> length zs = length qs.
  Proof using. induction zs as [|z zs IH]; intros p [|q qs]; cbn; try tauto. intros [_ H]. f_equal. eauto. Qed.

  Lemma loop_ok {A} (step : N -> Z -> A -> res derr (A * bool)) bits tail : bits <= 64 ->
    forall qs zs previous i acc r, leads dbg previous zs qs -> Forall (fun z => z < 2 ^ bits) zs -> rwf r ->
    rrem r = flat_map (bits_of (N.to_nat bits)) zs ++ tail ->
    exists r', sp_loop dbg step (length qs) i bits r previous acc = (walk step i qs acc, r') /\ rbuf r' = rbuf r.
  Proof using.
    intros B. induction qs as [|q qs IH]; intros zs p i acc r L F W R.
    - exists r. auto.
    - destruct zs as [|z zs]; [contradiction|]. destruct L as [L1 L2]. inversion F as [|? ? F1 F2]; subst.
      cbn [flat_map] in R. rewrite <- app_assoc in R.
      destruct (read_field r bits z _ W B R) as (r1 & E1 & W1 & R1 & B1). rewrite N.mod_small in E1 by assumption.
      cbn [length sp_loop]. rewrite E1, L1. cbn [walk].
      destruct (step i q acc) as [[acc' [|]]|e|].
      + destruct (IH zs q (i + 1) acc' r1 L2 F2 W1 R1) as (r' & E & BB). exists r'. split; [exact E|congruence].
      + exists r1. auto.
      + exists r1. auto.
      + exists r1. auto.
  Qed.

  Lemma leads_zero : forall zs previous qs, leads dbg previous zs qs -> i64 previous -> Forall (fun z => z < 2 ^ 0) zs ->
    Forall (eq previous) qs.
  Proof using.
    induction zs as [|z zs IH]; intros p [|q qs] L I F; cbn in L; try tauto; [constructor|].
    destruct L as [L1 L2]. inversion F as [|? ? F1 F2]; subst. change (2 ^ 0) with 1 in F1. assert (z = 0) by lia. subst z.
    change (unzigzag 0) with 0%Z in L1. unfold add_i64, checked_i64 in L1. rewrite Z.add_0_r in L1.
    pose proof (proj2 (fits_iff p) I) as K. rewrite K in L1. injection L1 as <-. constructor; [reflexivity|]. eapply IH; eauto.
  Qed.

  Lemma collect_ok scale bits tail : bits <= 64 ->
    forall qs zs previous r, leads dbg previous zs qs -> i64 previous -> Forall i64 qs -> Forall (fun z => z < 2 ^ bits) zs -> rwf r ->
    rrem r = flat_map (bits_of (N.to_nat bits)) zs ++ tail ->
    exists r', sp_collect dbg (length qs) scale bits r previous = (Ok (map (fun q => to_bits (unquantize scale q)) qs), r') /\ rbuf r' = rbuf r.
  Proof using.
    intros B. induction qs as [|q qs IH]; intros zs p r L IP IQ F W R.
    - exists r. auto.
    - destruct zs as [|z zs]; [contradiction|]. pose proof L as LL. destruct L as [L1 L2]. inversion F as [|? ? F1 F2]; subst.
      inversion IQ as [|? ? IQ1 IQ2]; subst.
      cbn [flat_map] in R. rewrite <- app_assoc in R. cbn [length sp_collect map].
      destruct (N.eqb_spec bits 0) as [Z|Z].
      + subst bits. pose proof (leads_zero _ _ _ LL IP F) as E. inversion E as [|? ? E1 E2]; subst.
        destruct (IH zs q r L2 IP IQ2 F2 W) as (r' & E' & BB). { exact R. }
        rewrite E'. exists r'. auto.
      + destruct (read_field r bits z _ W B R) as (r1 & E1 & W1 & R1 & B1). rewrite N.mod_small in E1 by assumption.
        rewrite E1. unfold add_i64 in *. rewrite Z.add_comm, L1.
        destruct (IH zs q r1 L2 IQ1 IQ2 F2 W1 R1) as (r' & E' & BB). rewrite E'. exists r'. split; [reflexivity|congruence].
  Qed.

  (** A reader over the bytes of the chunk written for [xs]. *)
  Definition over (bytes : list N) (n : N) (c : spreader) : Prop := rbuf (spr_r c) = bytes /\ spr_records c = n.
  Definition fresh (bytes : list N) (n : N) (c : spreader) : Prop := over bytes n c /\ spr_cache c = None.

  (** What the bytes of a chunk have to satisfy. *)
  Definition encodes (scale : N) (qs : list Z) (bytes : list N) : Prop :=
    Forall is_byte bytes /\ Forall i64 qs /\ qs <> [] /\
    exists bits zs tail, bits <= 64 /\ leads dbg (hd 0%Z qs) zs qs /\ Forall (fun z => z < 2 ^ bits) zs /\
      bytes_bits bytes = chunk_bits (hd 0%Z qs) scale bits zs ++ tail.

  Lemma encodes_hd scale qs bytes : encodes scale qs bytes -> i64 (hd 0%Z qs).
  Proof using. intros (_ & I & NE & _). destruct qs; [congruence|]. now inversion I. Qed.

  Lemma reset_rep bytes : Forall is_byte bytes -> forall r, rbuf r = bytes -> rwf (r_reset r) /\ rrem (r_reset r) = bytes_bits bytes.
  Proof using.
    intros F r E. unfold r_reset. rewrite E. change (mkR bytes 0 0) with (r_new bytes).
    split; [now apply rwf_new|apply rrem_new].
  Qed.

  Lemma decompress_ok scale qs bytes c : encodes scale qs bytes -> fresh bytes (N.of_nat (length qs)) c ->
    spr_r c = r_reset (spr_r c) ->
    exists r', sp_decompress dbg c = (Ok (map (fun q => to_bits (unquantize (scale mod 2 ^ 32) q)) qs),
      mkSpr r' (N.of_nat (length qs)) (Some (map (fun q => to_bits (unquantize (scale mod 2 ^ 32) q)) qs))) /\ rbuf r' = bytes.
  Proof using.
    intros EN [[BU RE] CA] RS. pose proof (encodes_hd _ _ _ EN) as IH. destruct EN as (FB & IQ & NE & bits & zs & tail & B & L & F & BB).
    destruct (reset_rep bytes FB (spr_r c) BU) as [W R]. rewrite <- RS in W, R. rewrite BB in R.
    destruct (header_ok _ _ _ _ _ _ W IH B R) as (r1 & E1 & W1 & B1 & R1).
    destruct (collect_ok (scale mod 2 ^ 32) bits tail B qs zs _ r1 L IH IQ F W1 R1) as (r2 & E2 & B2).
    exists r2. unfold sp_decompress. rewrite CA, E1, RE, Nat2N.id, E2. split; [reflexivity|congruence].
  Qed.

  (** The in-situ loops, from any state of a reader that has not decompressed. *)
  Lemma in_situ scale qs bytes c : encodes scale qs bytes -> over bytes (N.of_nat (length qs)) c ->
    exists bits r1, sp_header (r_reset (spr_r c)) = (Ok (hd 0%Z qs, scale mod 2 ^ 32, bits), r1) /\ rbuf r1 = bytes /\
      forall A (step : N -> Z -> A -> res derr (A * bool)) acc,
      exists r2, sp_loop dbg step (N.to_nat (spr_records c)) 0 bits r1 (hd 0%Z qs) acc = (walk step 0 qs acc, r2) /\ rbuf r2 = bytes.
  Proof using.
    intros EN [BU RE]. pose proof (encodes_hd _ _ _ EN) as IH. destruct EN as (FB & IQ & NE & bits & zs & tail & B & L & F & BB).
    destruct (reset_rep bytes FB (spr_r c) BU) as [W R]. rewrite BB in R.
    destruct (header_ok _ _ _ _ _ _ W IH B R) as (r1 & E1 & W1 & B1 & R1).
    exists bits, r1. split; [exact E1|]. split; [cbn [r_reset rbuf] in *; congruence|]. intros A step acc.
    destruct (loop_ok step bits tail B qs zs (hd 0%Z qs) 0 acc r1 L F W1 R1) as (r2 & E2 & B2).
    exists r2. rewrite RE, Nat2N.id. split; [exact E2|cbn [r_reset rbuf] in *; congruence].
  Qed.
End Read.
