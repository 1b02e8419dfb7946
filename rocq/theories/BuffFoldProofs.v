From Coq Require Import Sorted.
From Verif Require Import Base WordProofs BitIO Xor F64 Query QuerySpec QueryProofs Sprintz SprintzProofs SprintzQueryProofs Buff BuffBitsProofs BuffChunkProofs BuffReadProofs BuffScanProofs BuffFilterProofs.

(** ** Shifts *)
Lemma shift_split d s k : N.shiftr d s = N.shiftr d s mod 2 ^ k + 2 ^ k * N.shiftr d (s + k).
Proof.
  rewrite !N.shiftr_div_pow2, N.pow_add_r, <- N.div_div by (apply N.pow_nonzero; discriminate).
  rewrite (N.div_mod (d / 2 ^ s) (2 ^ k)) at 1 by (apply N.pow_nonzero; discriminate). apply N.add_comm.
Qed.
Lemma lor_low a b k : b < 2 ^ k -> N.lor (N.shiftl a k) b = b + 2 ^ k * a.
Proof. intros H. now rewrite N.lor_comm, <- lor_add. Qed.
Lemma shiftr_le d s : N.shiftr d s <= d.
Proof. rewrite N.shiftr_div_pow2. apply N.div_le_upper_bound; [apply N.pow_nonzero; discriminate|]. pose proof (pow2_pos s). nia. Qed.
Lemma shift_back d s : 2 ^ s * N.shiftr d s <= d.
Proof. rewrite N.shiftr_div_pow2. apply N.mul_div_le. apply N.pow_nonzero. discriminate. Qed.
Lemma shiftr_small d s : d < 2 ^ s -> N.shiftr d s = 0.
Proof. intros H. rewrite N.shiftr_div_pow2. now apply N.div_small. Qed.

(** ** Extremes *)
Definition no_worse (is_min : bool) (a b : N) : Prop := if is_min then a <= b else b <= a.
Lemma filter_none (f : N -> bool) l : (forall x, In x l -> f x = false) -> filter f l = [].
Proof. induction l as [|x l IH]; intros H; cbn [filter]; [reflexivity|]. rewrite (H x) by now left. apply IH. intros; apply H. now right. Qed.
Lemma extreme_fold is_min (g : N -> N) xs : (forall x, In x xs -> is_byte (g x)) -> StronglySorted N.lt xs -> xs <> [] ->
  exists best, fold_left (fun a x => extreme_step is_min x (g x) a) xs (extreme_init is_min) = (filter (fun x => g x =? best) xs, best) /\
    (forall x, In x xs -> no_worse is_min best (g x)) /\ filter (fun x => g x =? best) xs <> [].
Proof.
  intros HB.
  assert (G : forall ys pre next best, (forall x, In x ys -> is_byte (g x)) -> StronglySorted N.lt (pre ++ ys) ->
    next = filter (fun x => g x =? best) pre -> (forall x, In x pre -> no_worse is_min best (g x)) ->
    (pre = [] /\ best = (if is_min then 255 else 0) \/ next <> []) ->
    exists best', fold_left (fun a x => extreme_step is_min x (g x) a) ys (next, best) = (filter (fun x => g x =? best') (pre ++ ys), best') /\
      (forall x, In x (pre ++ ys) -> no_worse is_min best' (g x)) /\ (pre ++ ys = [] \/ filter (fun x => g x =? best') (pre ++ ys) <> [])).
  { induction ys as [|y ys IH]; intros pre next best HY SO EN HN HI; cbn [fold_left].
    - rewrite app_nil_r. exists best. rewrite <- EN. split; [reflexivity|]. split; [assumption|]. destruct HI as [[HI _]|HI]; auto.
    - assert (BY : is_byte (g y)) by (apply HY; now left). unfold is_byte in BY.
      assert (LP : Forall (fun x => x < y) pre).
      { clear - SO. induction pre as [|z pre IHp]; constructor.
        - inversion SO as [|? ? S F]; subst. rewrite Forall_forall in F. apply F. apply in_or_app. right. now left.
        - apply IHp. now inversion SO. }
      assert (LN : Forall (fun x => x < y) next) by (subst next; rewrite Forall_forall in *; intros x I; apply filter_In in I as [I _]; auto).
      replace (pre ++ y :: ys) with ((pre ++ [y]) ++ ys) in * by now rewrite <- app_assoc.
      assert (HY' : forall x, In x ys -> is_byte (g x)) by (intros; apply HY; now right).
      assert (FA : forall b, filter (fun x => g x =? b) (pre ++ [y]) = filter (fun x => g x =? b) pre ++ (if g y =? b then [y] else [])) by (intros b; now rewrite filter_app).
      assert (LAST : forall P : N -> Prop, (forall x, In x pre -> P x) -> P y -> forall x, In x (pre ++ [y]) -> P x).
      { intros P H1 H2 x I. apply in_app_or in I as [I|[<-|[]]]; auto. }
      unfold extreme_step at 2. destruct (N.compare_spec (g y) best) as [E|E|E].
      + apply IH; try assumption.
        * rewrite FA, E, N.eqb_refl, <- EN. now apply insert_last.
        * apply LAST; [assumption|]. unfold no_worse. rewrite E. destruct is_min; lia.
        * right. rewrite insert_last by assumption. now destruct next.
      + destruct is_min; cbn [no_worse] in *.
        * apply IH; try assumption.
          -- rewrite FA, N.eqb_refl. replace (filter (fun x => g x =? g y) pre) with (@nil N); [reflexivity|].
             symmetry. apply filter_none. intros x I. specialize (HN _ I). lia.
          -- apply LAST; [|lia]. intros x I. specialize (HN _ I). lia.
          -- right. discriminate.
        * apply IH; try assumption.
          -- rewrite FA. replace (g y =? best) with false by lia. now rewrite app_nil_r.
          -- apply LAST; [assumption|lia].
          -- destruct HI as [[_ HI]|HI]; [lia|auto].
      + destruct is_min; cbn [no_worse] in *.
        * apply IH; try assumption.
          -- rewrite FA. replace (g y =? best) with false by lia. now rewrite app_nil_r.
          -- apply LAST; [assumption|lia].
          -- destruct HI as [[_ HI]|HI]; [lia|auto].
        * apply IH; try assumption.
          -- rewrite FA, N.eqb_refl. replace (filter (fun x => g x =? g y) pre) with (@nil N); [reflexivity|].
             symmetry. apply filter_none. intros x I. specialize (HN _ I). lia.
          -- apply LAST; [|lia]. intros x I. specialize (HN _ I). lia.
          -- right. discriminate. }
  intros SO NE. destruct (G xs [] [] (if is_min then 255 else 0) HB SO eq_refl ltac:(contradiction) ltac:(now left)) as (best & E1 & E2 & E3).
  exists best. unfold extreme_init. cbn [app] in *. split; [exact E1|]. split; [assumption|]. destruct E3; congruence.
Qed.

Section Folds.
  Variables (dbg : bool).
  Variables (bytes : list N) (base : Z) (fraction bits : N) (ds : list N).
  Hypothesis CH : chunk_of bytes base fraction bits ds.
  Hypothesis VO : Forall (fun d => i64 (base + Z.of_N d) /\ (dbg = true -> d < 2 ^ 63)) ds.
  Variable off : N.
  Let n := N.of_nat (length ds).
  Let r := bits mod 8.
  Let D := delta_of off ds.
  Hypothesis SM : off + n < 2 ^ 32.

  (** The records among [xs] that lead when the numbers are cut after bit [s]. *)
  Definition leaders (is_min : bool) (s : N) (xs tc : list N) : Prop :=
    exists m, tc = filter (fun x => N.shiftr (D x) s =? m) xs /\ tc <> [] /\ forall y, In y xs -> no_worse is_min m (N.shiftr (D y) s).
  Lemma leaders_step is_min s k xs tc best : leaders is_min (s + k) xs tc ->
    (forall x, In x tc -> no_worse is_min best (N.shiftr (D x) s mod 2 ^ k)) ->
    filter (fun x => N.shiftr (D x) s mod 2 ^ k =? best) tc <> [] -> best < 2 ^ k ->
    leaders is_min s xs (filter (fun x => N.shiftr (D x) s mod 2 ^ k =? best) tc).
  Proof using.
    clear. intros (m & ET & NT & HM) HB NE BB. exists (best + 2 ^ k * m).
    assert (EQ : forall x, (N.shiftr (D x) s =? best + 2 ^ k * m) = (N.shiftr (D x) (s + k) =? m) && (N.shiftr (D x) s mod 2 ^ k =? best)).
    { intros x. rewrite (shift_split (D x) s k) at 1. apply parts_eqb; [apply N.mod_lt, N.pow_nonzero; discriminate|assumption]. }
    split; [|split; [assumption|]].
    - rewrite ET, filter_filter. apply filter_ext_In. intros x _. symmetry. apply EQ.
    - intros y I. rewrite (shift_split (D y) s k). pose proof (HM y I) as H.
      assert (MB : N.shiftr (D y) s mod 2 ^ k < 2 ^ k) by (apply N.mod_lt, N.pow_nonzero; discriminate).
      destruct (N.eq_dec (N.shiftr (D y) (s + k)) m) as [E|NE'].
      + assert (IT : In y tc) by (rewrite ET; apply filter_In; split; [assumption|]; now apply N.eqb_eq).
        specialize (HB y IT). rewrite E. unfold no_worse in *. destruct is_min; lia.
      + unfold no_worse in *. destruct is_min; nia.
  Qed.
  Lemma leaders_sub is_min s xs tc : leaders is_min s xs tc -> within off ds xs -> within off ds tc /\ tc <> [].
  Proof using. clear. intros (m & -> & NE & _) W. split; [now apply filter_within|assumption]. Qed.
  Lemma leaders_all is_min xs : xs <> [] -> leaders is_min bits xs xs.
  Proof using CH.
    clear VO SM. intros NE. exists 0. assert (Z : forall x, N.shiftr (D x) bits = 0) by (intros x; apply shiftr_small; apply (delta_bound _ _ _ _ _ CH)).
    split; [|split; [assumption|]].
    - symmetry. rewrite <- (filter_true xs) at 2. apply filter_ext_In. intros x _. now rewrite Z.
    - intros y _. rewrite Z. unfold no_worse. destruct is_min; lia.
  Qed.

  Lemma extreme_columns_ok is_min xs fuel : within off ds xs -> forall p tc, ahead bytes r ds fuel p -> leaders is_min (8 * N.of_nat fuel + r) xs tc ->
    exists p' tc', extreme_columns is_min bytes n off fuel p tc = Ok (tc', p') /\ ahead bytes r ds 0 p' /\ leaders is_min r xs tc'.
  Proof using.
    clear CH VO SM. intros W. induction fuel as [|fuel IH]; intros p tc AH LE; cbn [extreme_columns].
    - exists p, tc. auto.
    - destruct (ahead_step _ _ _ _ _ AH) as (RD & AH' & _). fold n in RD, AH'. rewrite RD. cbn [or_end rbind].
      set (s := 8 * N.of_nat fuel + r) in *. replace (8 * N.of_nat (S fuel) + r) with (s + 8) in LE by lia.
      destruct (leaders_sub _ _ _ _ LE W) as [WT NT].
      rewrite (column_pick_ok (extreme_step is_min) s off ds tc WT).
      destruct (extreme_fold is_min (fun x => byte_at s (delta_of off ds x)) tc) as (best & E1 & E2 & E3); [intros; apply byte_at_byte|apply WT|assumption|].
      rewrite E1. cbn [rbind]. apply IH; [assumption|].
      change 256 with (2 ^ 8) in *. unfold byte_at in *. change 256 with (2 ^ 8) in *. apply leaders_step; try assumption.
      destruct (filter _ tc) as [|x l] eqn:EF; [congruence|]. assert (I : In x (filter (fun x => N.shiftr (delta_of off ds x) s mod 2 ^ 8 =? best) tc)) by (rewrite EF; now left).
      apply filter_In in I as [_ I]. apply N.eqb_eq in I. rewrite <- I. apply N.mod_lt. discriminate.
  Qed.

  (** Flipping keeps the order of numbers below 128. *)
  Lemma flip_low v : v < 128 -> flip v = v + 128.
  Proof using. clear. intros H. rewrite flip_val by (unfold is_byte; lia). now replace (v <? 128) with true by lia. Qed.
  Lemma last_step is_min flipped xs tc : 1 <= r <= 7 -> within off ds xs -> leaders is_min r xs tc ->
    exists tc' best, fold_left (fun a x => extreme_step is_min x (if flipped : bool then flip (D x mod 2 ^ r) else D x mod 2 ^ r) a) tc (extreme_init is_min) = (tc', best) /\ leaders is_min 0 xs tc'.
  Proof using.
    clear CH VO SM. intros HR W LE. destruct (leaders_sub _ _ _ _ LE W) as [WT NT].
    assert (MB : forall x, D x mod 2 ^ r < 2 ^ r) by (intros x; apply N.mod_lt, N.pow_nonzero; discriminate).
    assert (M128 : forall x, D x mod 2 ^ r < 128).
    { intros x. eapply N.lt_le_trans; [apply MB|]. change 128 with (2 ^ 7). apply N.pow_le_mono_r; lia. }
    set (g := fun x => if flipped then flip (D x mod 2 ^ r) else D x mod 2 ^ r).
    assert (GV : forall x, g x = D x mod 2 ^ r + (if flipped then 128 else 0)).
    { intros x. unfold g. destruct flipped; [now apply flip_low|lia]. }
    destruct (extreme_fold is_min g tc) as (best & E1 & E2 & E3); [|apply WT|assumption|].
    { intros x _. rewrite GV. specialize (M128 x). unfold is_byte. destruct flipped; lia. }
    exists (filter (fun x => g x =? best) tc), best. split; [exact E1|].
    destruct (filter (fun x => g x =? best) tc) as [|x0 l] eqn:EF; [congruence|].
    assert (I : In x0 (filter (fun x => g x =? best) tc)) by (rewrite EF; now left). apply filter_In in I as [I0 I]. apply N.eqb_eq in I.
    rewrite <- EF. set (b := D x0 mod 2 ^ r).
    assert (FB : forall x, (g x =? best) = (N.shiftr (D x) 0 mod 2 ^ r =? b)).
    { intros x. rewrite <- I, !GV, N.shiftr_0_r. unfold b. destruct (N.eqb_spec (D x mod 2 ^ r + (if flipped then 128 else 0)) (D x0 mod 2 ^ r + (if flipped then 128 else 0))), (N.eqb_spec (D x mod 2 ^ r) (D x0 mod 2 ^ r)); lia. }
    rewrite (filter_ext_In _ (fun x => N.shiftr (D x) 0 mod 2 ^ r =? b)) by (intros; apply FB). apply leaders_step.
    - now rewrite N.add_0_l.
    - intros x IX. specialize (E2 x IX). rewrite <- I, !GV in E2. rewrite N.shiftr_0_r. unfold no_worse, b in *. destruct is_min; lia.
    - rewrite <- (filter_ext_In (fun x => g x =? best)) by (intros; apply FB). rewrite EF. discriminate.
    - apply MB.
  Qed.

  Lemma extreme_last_ok is_min flipped xs p tc : 1 <= r <= 7 -> n * r < 2 ^ 32 -> within off ds xs -> ahead bytes r ds 0 p -> leaders is_min r xs tc ->
    exists tc', extreme_last dbg is_min flipped bytes r off p tc = Ok tc' /\ leaders is_min 0 xs tc'.
  Proof using.
    clear CH VO SM. intros HR NR W A LE. destruct (ahead_tail _ _ _ _ A) as (BB & P0 & TA).
    assert (AB : at_bit p (8 * fst p + 0 * r)) by (split; lia). destruct (leaders_sub _ _ _ _ LE W) as [WT NT].
    unfold extreme_last.
    destruct (scan_masked_ok bytes (@or_end) (fun x v acc => Ok (extreme_step is_min x (if flipped then flip v else v) acc)) r (fun T x => eq_refl) BB HR
               (mul_u32 dbg) (8 * fst p) off ds tc TA WT) with (expected := 0) (p := p) (acc := extreme_init is_min) as (e' & p2 & LE' & AB2 & SC).
    { intros a HA. apply mul_u32_ok. apply N.le_lt_trans with (n * r); [apply N.mul_le_mono_r; exact HA|assumption]. }
    { intros x I. destruct WT as [_ F]. rewrite Forall_forall in F. specialize (F _ I). cbn beta in F. lia. }
    { lia. }
    { assumption. }
    rewrite SC, (each_pure (fun x v acc => extreme_step is_min x (if flipped then flip v else v) acc)). cbn [rbind]. rewrite fold_map.
    destruct (last_step is_min flipped xs tc HR W LE) as (tc' & best & E & L). exists tc'. split; [|assumption].
    match goal with |- Ok (fst ?a) = _ => replace a with (tc', best) end. reflexivity.
  Qed.

  (** *** One record *)
  Lemma read_columns_ok cut d i fuel : nth_error ds i = Some d -> d < 2 ^ 64 -> forall p, ahead cut r ds fuel p ->
    exists p', read_columns cut n (N.of_nat i) fuel p (N.shiftr d (8 * N.of_nat fuel + r)) = Ok (N.shiftr d r, p') /\ ahead cut r ds 0 p'.
  Proof using.
    clear CH VO SM D off. intros HI HD. assert (LI : (i < length ds)%nat) by (apply nth_error_Some; congruence).
    induction fuel as [|fuel IH]; intros p AH; cbn [read_columns].
    - exists p. auto.
    - destruct (ahead_step _ _ _ _ _ AH) as (_ & AH' & NT). specialize (NT i d HI). unfold bp_read_byte, bp_skip_n_byte. cbn [fst snd].
      replace (N.to_nat (fst p + N.of_nat i)) with (N.to_nat (fst p) + i)%nat by lia. rewrite NT. cbn [or_end rbind]. rewrite records_left_ok by (subst n; lia). cbn [rbind fst snd].
      rewrite flip_flip. set (s := 8 * N.of_nat fuel + r) in *. replace (8 * N.of_nat (S fuel) + r) with (s + 8) by lia.
      assert (SP : snd p = 0) by (destruct AH as (_ & pre & rest & _ & -> & _); reflexivity). rewrite SP.
      assert (E : N.lor (shl64 (N.shiftr d (s + 8)) 8) (N.shiftr d s mod 256) = N.shiftr d s).
      { unfold shl64. rewrite (shift_split d s 8) at 2. change 256 with (2 ^ 8).
        assert (B : N.shiftl (N.shiftr d (s + 8)) 8 < two64).
        { rewrite N.shiftl_mul_pow2, N.mul_comm. eapply N.le_lt_trans; [|exact HD]. pose proof (shift_split d s 8). pose proof (shiftr_le d s). lia. }
        rewrite (N.mod_small _ _ B). apply lor_low. apply N.mod_lt. discriminate. }
      rewrite E. replace (fst p + N.of_nat i + 1 + (n - (N.of_nat i + 1))) with (fst p + n) by (subst n; lia). apply IH. exact AH'.
  Qed.
  Lemma add_back d : In d ds -> add_i64 dbg base (bits_i64 d) = Ok (base + Z.of_N d)%Z.
  Proof using CH VO.
    clear SM D off. intros I. rewrite Forall_forall in VO. destruct (VO d I) as [IV DV]. destruct CH as (IB & _ & HB & _ & F & _).
    assert (D64 : d < 2 ^ 64). { rewrite Forall_forall in F. eapply N.lt_le_trans; [now apply F|]. apply N.pow_le_mono_r; lia. }
    change (2 ^ 64) with 18446744073709551616 in D64. change (2 ^ 63) with 9223372036854775808 in DV.
    unfold add_i64, checked_i64, bits_i64. destruct (Z_lt_le_dec (Z.of_N d) (2 ^ 63)) as [L|L].
    - rewrite wrap_id by (unfold i64; lia). now rewrite (proj2 (fits_iff _) IV).
    - destruct dbg; [specialize (DV eq_refl); lia|]. rewrite (wrap_unique (Z.of_N d) (-1)) by (unfold i64; lia).
      destruct (fits_i64 _) eqn:FT; [apply fits_iff in FT; unfold i64 in *; lia|]. f_equal. rewrite (wrap_unique _ 1); unfold i64 in *; lia.
  Qed.
  Lemma read_record_ok i d : nth_error ds i = Some d ->
    read_record dbg bytes (mkBh base n bits fraction) (N.of_nat i) = Ok (unfix fraction (base + Z.of_N d)).
  Proof using CH VO.
    clear SM D off. intros HI. assert (ID : In d ds) by (eapply nth_error_In; eassumption). assert (LI : (i < length ds)%nat) by (apply nth_error_Some; congruence).
    assert (DB : d < 2 ^ bits) by (destruct CH as (_ & _ & _ & _ & F & _); now apply (proj1 (Forall_forall _ _) F)).
    assert (B64 : bits <= 64) by apply CH. assert (D64 : d < 2 ^ 64) by (eapply N.lt_le_trans; [exact DB|]; apply N.pow_le_mono_r; lia).
    unfold read_record. cbn [bh_base bh_records bh_bits bh_fraction]. destruct (chunk_ahead _ _ _ _ _ CH) as [_ AH]. fold r in AH. fold r.
    destruct (read_columns_ok (skipn 20 bytes) d i (N.to_nat (bits / 8)) HI D64 (0, 0) AH) as (p' & E & A').
    pose proof (bits_split bits) as BS. fold r in BS. rewrite <- BS, (shiftr_small d bits DB) in E. rewrite E. cbn [rbind]. clear BS.
    destruct (ahead_tail _ _ _ _ A') as (BB & P0 & TA). pose proof (r_bound bits) as RB. fold r in RB.
    match goal with |- rbind ?m _ = _ => assert (EM : m = Ok d) end.
    { destruct (N.ltb_spec 0 r) as [R0|R0].
      - destruct TA as [TL TW]. destruct (skip_ok (skipn 20 bytes) (N.of_nat i * r) p' (8 * fst p') ltac:(split; lia) ltac:(nia)) as (p2 & E2 & AB2). rewrite E2. cbn [or_end rbind].
        destruct (read_bits_ok (skipn 20 bytes) r p2 (8 * fst p' + N.of_nat i * r) BB ltac:(lia) AB2 ltac:(nia)) as (p3 & E3 & _). rewrite E3. cbn [or_end rbind].
        rewrite (TW i d HI). f_equal. unfold shl64. assert (B : N.shiftl (N.shiftr d r) r < two64).
        { rewrite N.shiftl_mul_pow2, N.mul_comm. eapply N.le_lt_trans; [apply shift_back|exact D64]. }
        rewrite (N.mod_small _ _ B). rewrite lor_low by (apply N.mod_lt, N.pow_nonzero; discriminate).
        pose proof (shift_split d 0 r) as SS. rewrite N.shiftr_0_r, N.add_0_l in SS. now symmetry.
      - replace r with 0 by lia. now rewrite N.shiftr_0_r. }
    rewrite EM. cbn [rbind]. rewrite add_back by assumption. reflexivity.
  Qed.

  (** *** Smallest and largest *)
  Definition extreme_of (is_min : bool) (xs : list N) (d : N) : Prop := (exists x, In x xs /\ d = D x) /\ forall y, In y xs -> no_worse is_min d (D y).
  Lemma leaders_end is_min xs tc : within off ds xs -> leaders is_min 0 xs tc ->
    exists d, extreme_of is_min xs d /\ (do index <- first_record tc off ; read_record dbg bytes (mkBh base n bits fraction) index) = Ok (unfix fraction (base + Z.of_N d)).
  Proof using CH VO.
    clear SM. intros W LE. destruct (leaders_sub _ _ _ _ LE W) as [WT NT]. destruct LE as (m & ET & _ & HM). destruct tc as [|x tc']; [congruence|].
    assert (I : In x (filter (fun x => N.shiftr (D x) 0 =? m) xs)) by (rewrite <- ET; now left). apply filter_In in I as [I EX]. rewrite N.shiftr_0_r in EX. apply N.eqb_eq in EX.
    exists m. split.
    - split; [now exists x|]. intros y IY. specialize (HM y IY). now rewrite N.shiftr_0_r in HM.
    - cbn [first_record rbind]. assert (FX : off <= x < off + N.of_nat (length ds)) by (destruct W as [_ F]; now apply (proj1 (Forall_forall _ _) F)).
      rewrite <- (N2Nat.id (x - off)). rewrite (read_record_ok _ (D x)) by now apply delta_nth. now rewrite EX.
  Qed.
  Lemma constant_extreme is_min xs : bits = 0 -> xs <> [] -> extreme_of is_min xs 0.
  Proof using CH.
    clear VO SM. intros B0 NE. assert (Z : forall x, D x = 0). { intros x. pose proof (delta_bound _ _ _ _ _ CH off x) as B. rewrite B0 in B. change (2 ^ 0) with 1 in B. fold (D x) in B. lia. }
    split; [destruct xs as [|x xs']; [congruence|]; exists x; split; [now left|now rewrite Z]|]. intros y _. rewrite Z. unfold no_worse. destruct is_min; lia.
  Qed.
  Lemma extreme_masked_ok is_min xs : within off ds xs -> xs <> [] -> n * r < 2 ^ 32 ->
    exists d, extreme_of is_min xs d /\ buff_extreme_masked dbg is_min bytes xs off = Ok (unfix fraction (base + Z.of_N d)).
  Proof using CH VO.
    clear SM. intros W NE NR. unfold buff_extreme_masked. rewrite (header_ok _ _ _ _ _ CH). cbn [unwrap rbind bh_base bh_records bh_bits bh_fraction]. fold n r.
    destruct (N.eqb_spec bits 0) as [B0|B0].
    { exists 0. split; [now apply constant_extreme|]. now rewrite Z.add_0_r. }
    destruct (chunk_ahead _ _ _ _ _ CH) as [AH _]. fold r in AH. pose proof (leaders_all is_min xs NE) as LA. rewrite (bits_split bits) in LA. fold r in LA.
    destruct (extreme_columns_ok is_min xs _ W (20, 0) xs AH LA) as (p' & tc & E & A' & L). rewrite E. cbn [rbind].
    pose proof (r_bound bits) as RB. fold r in RB.
    assert (exists tc', (if 0 <? r then extreme_last dbg is_min true bytes r off p' tc else Ok tc) = Ok tc' /\ leaders is_min 0 xs tc') as (tc' & E' & L').
    { destruct (N.ltb_spec 0 r); [apply extreme_last_ok; try assumption; lia|]. exists tc. split; [reflexivity|]. now replace r with 0 in L by lia. }
    rewrite E'. cbn [rbind]. apply leaders_end; assumption.
  Qed.
  Lemma max_ok : ds <> [] -> (8 <= bits -> n * r < 2 ^ 32) ->
    exists d, extreme_of false (n_seq off (length ds)) d /\ buff_max dbg bytes off = Ok (unfix fraction (base + Z.of_N d)).
  Proof using CH VO SM.
    intros NE NR. set (xs := n_seq off (length ds)). assert (W : within off ds xs) by apply n_seq_within.
    assert (NX : xs <> []) by (unfold xs; destruct ds; [congruence|discriminate]).
    unfold buff_max. rewrite (header_ok _ _ _ _ _ CH). cbn [unwrap rbind bh_base bh_records bh_bits bh_fraction]. fold n r.
    destruct (N.eqb_spec bits 0) as [B0|B0].
    { exists 0. split; [now apply constant_extreme|]. now rewrite Z.add_0_r. }
    destruct (chunk_ahead _ _ _ _ _ CH) as [AH _]. fold r in AH. pose proof (leaders_all false xs NX) as LA. rewrite (bits_split bits) in LA. fold r in LA.
    pose proof (r_bound bits) as RB. fold r in RB. pose proof (bits_split bits) as BS. fold r in BS.
    set (fuel := N.to_nat (bits / 8)) in *.
    destruct (N.ltb_spec bits 8) as [B8|B8].
    - assert (F0 : fuel = O) by (subst fuel; rewrite N.div_small by assumption; reflexivity).
      assert (RBI : r = bits) by (unfold r; now apply N.mod_small). rewrite F0 in *. cbn [N.of_nat] in LA. rewrite N.mul_0_r, N.add_0_l in LA.
      destruct (ahead_tail _ _ _ _ AH) as (BB & _ & TA).
      pose proof (scan_all_ok bytes (@or_end) (fun i v acc => do x <- add_u32 dbg i off ; Ok (extreme_step false x v acc)) r (fun T x => eq_refl) BB ltac:(lia)
        (8 * 20) ds TA ds 0 (20, 0) (extreme_init false) ltac:(reflexivity) ltac:(lia) ltac:(split; cbn [fst snd]; lia)) as SC.
      change (N.of_nat 0) with 0 in SC.
      assert (G : forall l i acc, off + i + N.of_nat (length l) < 2 ^ 32 ->
        each (fun i v acc => do x <- add_u32 dbg i off ; Ok (extreme_step false x v acc)) (pick None i l) acc =
        Ok (fold_left (fun a '(x, d) => extreme_step false x d a) (pick None (off + i) l) acc)).
      { clear. induction l as [|d l IH]; intros i acc H; cbn [map pick allowed each fold_left]; [reflexivity|]. cbn [length] in H.
        rewrite add_u32_ok by lia. cbn [rbind]. rewrite IH by lia. rewrite (N.add_comm i off). now rewrite N.add_assoc. }
      rewrite G in SC by (rewrite map_length, N.add_0_r; exact SM). rewrite N.add_0_r in SC.
      rewrite (pick_map (fun d => d mod 2 ^ r)), fold_map, (pick_none_seq ds off), fold_map in SC. fold xs in SC.
      destruct (last_step false false xs xs ltac:(lia) W LA) as (tc' & best & E & L').
      match type of E with ?a = _ => match type of SC with _ = Ok ?b => replace b with (tc', best) in SC end end.
      unfold n. rewrite Nat2N.id, <- RBI.
      match type of SC with rbind ?m _ = _ => destruct m as [[[tcx bx] px]|e|] eqn:EM; cbn [rbind] in SC; try discriminate SC end.
      injection SC as -> ->. cbn [rbind fst]. rewrite RBI. apply leaders_end; assumption.
    - destruct fuel as [|fuel'] eqn:EF; [lia|]. destruct (ahead_step _ _ _ _ _ AH) as (RD & AH' & _). fold n in RD, AH'. rewrite RD. cbn [or_end rbind].
      set (s := 8 * N.of_nat fuel' + r) in *. replace (8 * N.of_nat (S fuel') + r) with (s + 8) in LA by lia.
      assert (LC : length (column s ds) = length ds) by apply column_length.
      rewrite (column_all_ok dbg (extreme_step false)) by (rewrite LC; fold n; lia). rewrite LC. fold xs. cbn [rbind].
      rewrite (fold_ext_in _ (fun a x => extreme_step false x (byte_at s (delta_of off ds x)) a)).
      2:{ intros x a I. unfold xs in I. apply n_seq_In in I. now rewrite byte_of_column. }
      destruct (extreme_fold false (fun x => byte_at s (delta_of off ds x)) xs) as (best & E1 & E2 & E3); [intros; apply byte_at_byte|apply W|assumption|].
      rewrite E1. cbn [fst].
      assert (LB : leaders false s xs (filter (fun x => byte_at s (delta_of off ds x) =? best) xs)).
      { unfold byte_at in *. change 256 with (2 ^ 8) in *. apply leaders_step; try assumption.
        destruct (filter _ xs) as [|x l] eqn:EX; [congruence|]. assert (I : In x (filter (fun x => N.shiftr (delta_of off ds x) s mod 2 ^ 8 =? best) xs)) by (rewrite EX; now left).
        apply filter_In in I as [_ I]. apply N.eqb_eq in I. rewrite <- I. apply N.mod_lt. discriminate. }
      assert (FE : N.to_nat (bits / 8 - 1) = fuel') by lia. rewrite FE.
      destruct (extreme_columns_ok false xs fuel' W (20 + n, 0) _ AH' LB) as (p' & tc & E & A' & L). cbn [fst] in E. rewrite E. cbn [rbind].
      assert (exists tc', (if 0 <? r then extreme_last dbg false false bytes r off p' tc else Ok tc) = Ok tc' /\ leaders false 0 xs tc') as (tc' & E' & L').
      { destruct (N.ltb_spec 0 r); [apply extreme_last_ok; try assumption; [lia|now apply NR]|]. exists tc. split; [reflexivity|]. now replace r with 0 in L by lia. }
      rewrite E'. cbn [rbind]. apply leaders_end; assumption.
  Qed.
  Lemma min_ok : buff_min bytes = Ok (unfix fraction base).
  Proof using CH.
    clear SM D off. pose proof (header_ok _ _ _ _ _ CH) as H. unfold bf_header in H. unfold buff_min.
    destruct (bp_read_u32 bytes (0, 0)) as [[lo p1]|e|] eqn:E1; cbn [rbind] in H; try discriminate H. cbn [or_end rbind].
    destruct (bp_read_u32 bytes p1) as [[hi p2]|e|] eqn:E2; cbn [rbind] in H; try discriminate H. cbn [or_end rbind].
    destruct (bp_read_u32 bytes p2) as [[nn p3]|e|] eqn:E3; cbn [rbind] in H; try discriminate H.
    destruct (bp_read_u32 bytes p3) as [[bb p4]|e|] eqn:E4; cbn [rbind] in H; try discriminate H.
    destruct (bp_read_u32 bytes p4) as [[fr p5]|e|] eqn:E5; cbn [rbind] in H; try discriminate H.
    assert (P4 : p4 = bp_skip_n_byte 8 p2).
    { unfold bp_read_u32 in E3, E4. destruct p2 as [c2 b2]. destruct (_ <? _); [discriminate|]. injection E3 as <- <-.
      destruct (_ <? _); [discriminate|]. injection E4 as <- <-. unfold bp_skip_n_byte. cbn [fst snd]. f_equal. lia. }
    rewrite <- P4, E5. cbn [or_end rbind]. injection H as H1 H2 H3 H4 H5. now rewrite H1, H4.
  Qed.

  (** *** Sums *)
  Definition total (xs : list N) (g : N -> N) : N := fold_right (fun x t => g x + t) 0 xs.
  Lemma total_fold g xs : forall a, fold_left (fun a x => a + g x) xs a = a + total xs g.
  Proof using. clear. induction xs as [|x xs IH]; intros a; cbn [fold_left total fold_right]; [lia|]. rewrite IH. cbn [total]. unfold total. lia. Qed.
  Lemma total_lin xs f g k : total xs (fun x => f x + k * g x) = total xs f + k * total xs g.
  Proof using. clear. induction xs as [|x xs IH]; cbn [total fold_right]; [lia|]. unfold total in IH. rewrite IH. lia. Qed.
  Lemma total_ext xs f g : (forall x, In x xs -> f x = g x) -> total xs f = total xs g.
  Proof using. clear. induction xs as [|x xs IH]; intros H; cbn [total fold_right]; [reflexivity|]. unfold total in IH. rewrite IH by (intros; apply H; now right). now rewrite (H x) by now left. Qed.
  Lemma total_le xs f g : (forall x, f x <= g x) -> total xs f <= total xs g.
  Proof using. clear. intros H. induction xs as [|x xs IH]; cbn [total fold_right]; [lia|]. unfold total in IH. specialize (H x). lia. Qed.
  Lemma total_mul xs k g : total xs (fun x => k * g x) = k * total xs g.
  Proof using. clear. induction xs as [|x xs IH]; cbn [total fold_right]; [lia|]. unfold total in IH. rewrite IH. lia. Qed.

  Lemma add_u64_ok a b : (dbg = true -> a + b < 2 ^ 64) -> add_u64 dbg a b = Ok ((a + b) mod 2 ^ 64).
  Proof using. clear. intros H. unfold add_u64. change two64 with (2 ^ 64). destruct (N.ltb_spec (a + b) (2 ^ 64)) as [L|L]; [now rewrite N.mod_small|]. destruct dbg; [specialize (H eq_refl); lia|reflexivity]. Qed.

  Section Sum.
    Variable mask : option bitmap.
    Hypothesis MW : mask_within mask off ds.
    Let xs := chosen mask off ds.
    Let T := total xs D.
    Hypothesis NO : dbg = true -> T < 2 ^ 64.

    Lemma fold_plain {A V} (h : A -> V -> A) l : forall o a, fold_left h l a = fold_left (fun acc '(x, b) => h acc b) (pick None o l) a.
    Proof using. clear. induction l as [|v l IH]; intros o a; cbn [fold_left pick allowed]; [reflexivity|]. apply IH. Qed.
    Lemma column_sum s : match mask with Some bm => column_pick (fun _ b acc => acc + b) off (column s ds) bm 0
        | None => Ok (fold_left (fun acc b => acc + flip b) (column s ds) 0) end = @Ok derr _ (total xs (fun x => byte_at s (D x))).
    Proof using MW.
      clear NO. assert (W : within off ds xs) by now apply chosen_within. destruct mask as [bm|]; cbn [chosen] in xs.
      - rewrite (column_pick_ok (fun _ b acc => acc + b)) by exact W. f_equal. apply (total_fold (fun x => byte_at s (D x))).
      - f_equal. unfold column. rewrite fold_map. etransitivity; [|exact (total_fold (fun x => byte_at s (D x)) xs 0)].
        etransitivity; [|exact (fold_pick (fun (_ : N) d a => a + byte_at s d) ds 0 off 0)]. rewrite <- (fold_plain (fun a d => a + byte_at s d)).
        clear. generalize 0. induction ds as [|d l IH]; intros a; cbn [fold_left]; [reflexivity|]. rewrite flip_flip. apply IH.
    Qed.
    Lemma sum_columns_ok fuel : forall p t, ahead bytes r ds fuel p ->
      t = (2 ^ (8 * N.of_nat fuel + r) * total xs (fun x => N.shiftr (D x) (8 * N.of_nat fuel + r))) mod 2 ^ 64 ->
      exists p', sum_columns dbg bytes n mask off r fuel p t = Ok ((2 ^ r * total xs (fun x => N.shiftr (D x) r)) mod 2 ^ 64, p') /\ ahead bytes r ds 0 p'.
    Proof using MW NO.
      clear CH VO SM. induction fuel as [|fuel IH]; intros p t AH ET; cbn [sum_columns].
      - exists p. split; [|assumption]. now rewrite ET.
      - destruct (ahead_step _ _ _ _ _ AH) as (RD & AH' & _). fold n in RD, AH'. rewrite RD. cbn [or_end rbind].
        replace (N.of_nat fuel * 8 + r) with (8 * N.of_nat fuel + r) by lia.
        set (s := 8 * N.of_nat fuel + r) in *. replace (8 * N.of_nat (S fuel) + r) with (s + 8) in ET by lia.
        rewrite column_sum. cbn [rbind].
        assert (ST : 2 ^ s * total xs (fun x => N.shiftr (D x) s) = total xs (fun x => byte_at s (D x)) * 2 ^ s + 2 ^ (s + 8) * total xs (fun x => N.shiftr (D x) (s + 8))).
        { rewrite (total_ext xs (fun x => N.shiftr (D x) s) (fun x => byte_at s (D x) + 2 ^ 8 * N.shiftr (D x) (s + 8))) by (intros x _; unfold byte_at; change 256 with (2 ^ 8); apply shift_split).
          rewrite total_lin, N.pow_add_r. ring. }
        assert (LT : 2 ^ s * total xs (fun x => N.shiftr (D x) s) <= T).
        { rewrite <- total_mul. apply total_le. intros x. apply shift_back. }
        assert (EA : add_u64 dbg t (shl64 (total xs (fun x => byte_at s (D x))) s) = Ok ((2 ^ s * total xs (fun x => N.shiftr (D x) s)) mod 2 ^ 64)).
        { unfold shl64. rewrite N.shiftl_mul_pow2. change two64 with (2 ^ 64). rewrite add_u64_ok.
          - f_equal. rewrite ET, ST. rewrite <- N.add_mod by discriminate. f_equal. lia.
          - intros DB. specialize (NO DB). rewrite ET. rewrite !N.mod_small by lia. lia. }
        rewrite EA. cbn [rbind]. apply IH; [exact AH'|reflexivity].
    Qed.

    Let count := Z.of_nat (length xs).
    Lemma sum_ok : bits <> 0 ->
      (dbg = true -> T < 2 ^ 63 /\ i64 (base * count) /\ i64 (base * count + Z.of_N T)) ->
      buff_sum dbg bytes mask off = Ok (unfix fraction (wrap_i64 (base * count + Z.of_N T))).
    Proof using CH MW NO.
      clear VO SM. intros B0 HD. unfold buff_sum. rewrite (header_ok _ _ _ _ _ CH). cbn [unwrap rbind bh_base bh_records bh_bits bh_fraction]. fold n r.
      replace (bits =? 0) with false by lia. destruct (chunk_ahead _ _ _ _ _ CH) as [AH _]. fold r in AH.
      pose proof (r_bound bits) as RB. fold r in RB.
      destruct (sum_columns_ok _ (20, 0) 0 AH) as (p' & ES & A').
      { pose proof (bits_split bits) as BS. fold r in BS. rewrite <- BS. rewrite (total_ext xs _ (fun _ => 0)).
        2:{ intros x _. apply shiftr_small. apply (delta_bound _ _ _ _ _ CH). }
        assert (Z : forall l, total l (fun _ => 0) = 0) by (clear; induction l as [|x l IH]; cbn; auto). rewrite Z, N.mul_0_r. reflexivity. }
      rewrite ES. cbn [rbind]. destruct (ahead_tail _ _ _ _ A') as (BB & P0 & TA).
      assert (W : within off ds xs) by now apply chosen_within.
      assert (SPL : T = total xs (fun x => D x mod 2 ^ r) + 2 ^ r * total xs (fun x => N.shiftr (D x) r)).
      { unfold T. rewrite <- total_lin. apply total_ext. intros x _. pose proof (shift_split (D x) 0 r) as SS. now rewrite N.shiftr_0_r, N.add_0_l in SS. }
      match goal with |- rbind ?m _ = _ => assert (EM : m = Ok (T mod 2 ^ 64)) end.
      { destruct (N.ltb_spec 0 r) as [R0|R0].
        - assert (AB : at_bit p' (8 * fst p' + 0 * r)) by (split; lia).
          match goal with |- rbind ?m _ = _ => assert (EL : m = Ok (total xs (fun x => D x mod 2 ^ r))) end.
          { clear ES. destruct mask as [bm|]; cbn [chosen] in xs.
            - destruct (scan_masked_ok bytes (@or_end) (fun _ v acc => Ok (acc + v)) r (fun T x => eq_refl) BB ltac:(lia)
                 (fun a b => Ok (a * b)) (8 * fst p') off ds bm TA MW) with (expected := 0) (p := p') (acc := 0) as (e' & p2 & LE & AB2 & SC).
              { reflexivity. }
              { intros x I. destruct MW as [_ F]. rewrite Forall_forall in F. specialize (F _ I). cbn beta in F. lia. }
              { lia. }
              { assumption. }
              rewrite SC, (each_pure (fun _ v acc => acc + v)). cbn [rbind]. f_equal. rewrite fold_map. apply (total_fold (fun x => D x mod 2 ^ r)).
            - pose proof (scan_all_ok bytes (@or_end) (fun _ v acc => Ok (acc + v)) r (fun T x => eq_refl) BB ltac:(lia)
                (8 * fst p') ds TA ds 0 p' 0 ltac:(reflexivity) ltac:(lia) AB) as SC.
              change (N.of_nat 0) with 0 in SC. unfold n. rewrite Nat2N.id. etransitivity; [exact SC|].
              rewrite (each_pure (fun _ v acc => acc + v)). f_equal. rewrite <- (fold_plain (fun a v => a + v)), fold_map.
              etransitivity; [|exact (total_fold (fun x => D x mod 2 ^ r) xs 0)]. subst xs.
              etransitivity; [|exact (fold_pick (fun (_ : N) d a => a + d mod 2 ^ r) ds 0 off 0)].
              rewrite <- (fold_plain (fun a d => a + d mod 2 ^ r)). reflexivity. }
          rewrite EL. cbn [rbind]. rewrite add_u64_ok.
          + f_equal. rewrite N.add_mod_idemp_l by discriminate. f_equal. lia.
          + intros DB. specialize (NO DB). rewrite N.mod_small by lia. lia.
        - assert (RZ : r = 0) by lia. rewrite RZ in *. f_equal. f_equal. rewrite SPL.
          rewrite (total_ext xs (fun x => D x mod 2 ^ 0) (fun _ => 0)) by (intros x _; apply N.mod_1_r).
          assert (Z : forall l, total l (fun _ => 0) = 0) by (clear; induction l as [|x l IH]; cbn; auto). rewrite Z. reflexivity. }
      rewrite EM. cbn [rbind].
      replace (match mask with Some bm => Z.of_nat (length bm) | None => Z.of_N n end) with count.
      2:{ unfold count, xs, n. destruct mask; cbn [chosen]; [reflexivity|]. rewrite nat_N_Z. f_equal. clear. generalize off. induction ds as [|d l IH]; intros o; cbn [n_seq length]; [reflexivity|]. now rewrite IH. }
      unfold mul_i64, add_i64. assert (TB : T mod 2 ^ 64 < 2 ^ 64) by (apply N.mod_lt; discriminate).
      assert (CB : exists bases, checked_i64 dbg (base * count) = Ok bases /\ bases = wrap_i64 (base * count)).
      { unfold checked_i64. destruct (fits_i64 (base * count)) eqn:FT; [apply fits_iff in FT; eexists; split; [reflexivity|now rewrite wrap_id]|].
        destruct dbg; [|eexists; split; reflexivity]. destruct (HD eq_refl) as (_ & HB & _). apply fits_iff in HB. congruence. }
      destruct CB as (bases & -> & ->). cbn [rbind].
      assert (WW : forall a b, wrap_i64 (wrap_i64 a + wrap_i64 b) = wrap_i64 (a + b)).
      { intros a b. rewrite wrap_wrap_add, Z.add_comm, wrap_wrap_add. f_equal. ring. }
      assert (BT : bits_i64 (T mod 2 ^ 64) = wrap_i64 (Z.of_N T)).
      { unfold bits_i64. rewrite N2Z.inj_mod. change (Z.of_N (2 ^ 64)) with (2 ^ 64)%Z. unfold wrap_i64. rewrite Zplus_mod_idemp_l. reflexivity. }
      rewrite BT. unfold checked_i64. destruct (fits_i64 _) eqn:FT; cbn [rbind].
      - apply fits_iff in FT. do 2 f_equal. rewrite <- (wrap_id _ FT), WW. f_equal. ring.
      - destruct dbg; [|cbn [rbind]; do 2 f_equal; rewrite WW; f_equal; ring].
        destruct (HD eq_refl) as (H1 & H2 & H3). change (2 ^ 63) with 9223372036854775808 in H1.
        rewrite !wrap_id in FT by (try assumption; unfold i64; lia). rewrite Z.add_comm in FT. apply fits_iff in H3. congruence.
    Qed.
    Lemma sum_constant : bits = 0 -> buff_sum dbg bytes mask off = Ok (fmul (unfix fraction base) (of_Z (Z.of_N n))).
    Proof using CH.
      clear SM VO. intros B0. unfold buff_sum. rewrite (header_ok _ _ _ _ _ CH). cbn [unwrap rbind bh_base bh_records bh_bits bh_fraction]. now rewrite B0.
    Qed.
  End Sum.

  (** *** Decoding *)
  Definition kept (rho d : N) : N := 2 ^ rho * N.shiftr d rho.
  Lemma kept_le rho d : kept rho d <= d < kept rho d + 2 ^ rho.
  Proof using.
    clear. unfold kept. rewrite N.shiftr_div_pow2. pose proof (N.div_mod d (2 ^ rho) ltac:(apply N.pow_nonzero; discriminate)). pose proof (N.mod_lt d (2 ^ rho) ltac:(apply N.pow_nonzero; discriminate)). lia.
  Qed.
  Lemma combine_map {A B C} (f : A -> B) (g : A -> C) l : combine (map f l) (map g l) = map (fun x => (f x, g x)) l.
  Proof using. clear. induction l as [|x l IH]; cbn [map combine]; [reflexivity|]. now rewrite IH. Qed.
  Lemma kept_step s d : N.lor (kept (s + 8) d) (N.shiftl (byte_at s d) s) = kept s d.
  Proof using.
    clear. unfold kept, byte_at. rewrite (shift_split d s 8) at 2. change 256 with (2 ^ 8).
    rewrite N.mul_add_distr_l, N.mul_assoc, <- N.pow_add_r. set (b := N.shiftr d s mod 2 ^ 8). set (h := N.shiftr d (s + 8)).
    assert (B : b * 2 ^ s < 2 ^ (s + 8)). { rewrite N.pow_add_r, N.mul_comm. apply N.mul_lt_mono_pos_l; [apply pow2_pos|]. apply N.mod_lt. discriminate. }
    rewrite N.shiftl_mul_pow2. rewrite (N.mul_comm (2 ^ s) b). rewrite lor_add by exact B. rewrite N.lor_comm. f_equal. now rewrite N.shiftl_mul_pow2, N.mul_comm.
  Qed.
  Lemma decode_columns_ok u k : forall fuel p, (k <= fuel)%nat -> ahead bytes r ds k p -> r <= 7 ->
    exists rho p', decode_columns bytes n u fuel (8 * N.of_nat k + r) p (map (kept (8 * N.of_nat k + r)) ds) = Ok (map (kept rho) ds, rho, p') /\
      (rho = r /\ ahead bytes r ds 0 p' \/ rho <= u).
  Proof using.
    clear CH VO SM D off. induction k as [|k IH]; intros fuel p LE AH HR.
    - exists r, p. rewrite N.mul_0_r, N.add_0_l. split; [|left; split; [reflexivity|assumption]].
      destruct fuel as [|fuel]; cbn [decode_columns]; [reflexivity|]. replace (8 <=? r) with false by lia. reflexivity.
    - destruct fuel as [|fuel]; [lia|]. cbn [decode_columns]. set (s := 8 * N.of_nat k + r). replace (8 * N.of_nat (S k) + r) with (s + 8) by lia.
      replace (8 <=? s + 8) with true by lia. cbn [andb]. destruct (N.ltb_spec u (s + 8)) as [U|U].
      + destruct (ahead_step _ _ _ _ _ AH) as (RD & AH' & _). fold n in RD, AH'. rewrite RD. cbn [unwrap rbind]. fold s. replace (s + 8 - 8) with s by lia.
        unfold column. rewrite combine_map, map_map.
        rewrite (map_ext _ (kept s)) by (intros d; rewrite flip_flip; apply kept_step). apply IH; [lia|exact AH'|assumption].
      + exists (s + 8), p. split; [reflexivity|]. right. assumption.
  Qed.

  (** What the precision setting allows to leave out. *)
  Definition spared (precision : option N) : option N :=
    match precision with
    | None => Some 0
    | Some k => match nth_error precision_map (N.to_nat k) with Some b => Some (fraction - b) | None => None end
    end.
  Definition shown (z : Z) : N := to_bits (unfix fraction z).
  Lemma decode_ok precision u : spared precision = Some u ->
    exists rho, rho <= u /\ bf_decode dbg bytes precision = Ok (map (fun d => shown (base + Z.of_N (kept rho d))) ds).
  Proof using CH VO.
    clear SM D off. intros SPA. unfold bf_decode. rewrite (header_ok _ _ _ _ _ CH). cbn [unwrap rbind bh_base bh_records bh_bits bh_fraction]. fold n.
    match goal with |- context [rbind ?m _] => assert (EU : m = Ok u) end.
    { unfold spared in SPA. destruct precision as [k|]; [|now injection SPA as <-]. destruct (nth_error _ _); [now injection SPA as <-|discriminate]. }
    rewrite EU. cbn [rbind]. clear EU SPA. cbv zeta.
    assert (DB : forall d, In d ds -> d < 2 ^ bits) by (destruct CH as (_ & _ & _ & _ & F & _); now apply Forall_forall).
    assert (K0 : forall d, kept 0 d = d) by (intros d; unfold kept; rewrite N.shiftr_0_r; change (2 ^ 0) with 1; lia).
    assert (VAL : forall rho, map_res (fun d => do z <- add_i64 dbg base (bits_i64 d) ; Ok (to_bits (unfix fraction z))) (map (kept rho) ds) = Ok (map (fun d => shown (base + Z.of_N (kept rho d))) ds)).
    { intros rho. rewrite <- (map_map (kept rho) (fun d => shown (base + Z.of_N d))). apply map_res_ok. intros d' I. apply in_map_iff in I as (d & <- & I).
      pose proof (kept_le rho d) as KL. rewrite Forall_forall in VO. destruct (VO d I) as [IV DV]. destruct CH as (IB & _ & HB & _ & _).
      assert (D64 : d < 2 ^ 64) by (eapply N.lt_le_trans; [now apply DB|]; apply N.pow_le_mono_r; lia).
      set (d' := kept rho d) in *. change (2 ^ 64) with 18446744073709551616 in D64. change (2 ^ 63) with 9223372036854775808 in DV.
      assert (EA : add_i64 dbg base (bits_i64 d') = Ok (base + Z.of_N d')%Z); [|rewrite EA; reflexivity].
      unfold add_i64, checked_i64, bits_i64. unfold i64 in *. destruct (Z_lt_le_dec (Z.of_N d') (2 ^ 63)) as [L|L].
      - rewrite wrap_id by (unfold i64; lia). assert (F : fits_i64 (base + Z.of_N d') = true) by (apply fits_iff; unfold i64; lia). now rewrite F.
      - destruct dbg; [specialize (DV eq_refl); lia|]. rewrite (wrap_unique (Z.of_N d') (-1)) by (unfold i64; lia).
        destruct (fits_i64 _) eqn:FT; [apply fits_iff in FT; unfold i64 in *; lia|]. f_equal. rewrite (wrap_unique _ 1); unfold i64; lia. }
    assert (LST : forall p, 1 <= r <= 7 -> ahead bytes r ds 0 p ->
      (do (vs, _) <- scan_all bytes (@unwrap) (fun _ v acc => Ok (acc ++ [v])) r (N.to_nat n) 0 p [] ; Ok vs) = Ok (map (fun d => d mod 2 ^ r) ds)).
    { intros p HR A. destruct (ahead_tail _ _ _ _ A) as (BB & P0 & TA).
      pose proof (scan_all_ok bytes (@unwrap) (fun _ v acc => Ok (acc ++ [v])) r (fun T x => eq_refl) BB ltac:(lia)
        (8 * fst p) ds TA ds 0 p [] ltac:(reflexivity) ltac:(lia) ltac:(split; lia)) as SC.
      change (N.of_nat 0) with 0 in SC. unfold n. rewrite Nat2N.id. etransitivity; [exact SC|]. rewrite (each_pure (fun _ v acc => acc ++ [v])). f_equal.
      assert (G : forall (l : list N) i a, fold_left (fun acc '(_, v) => acc ++ [v]) (pick None i l) a = a ++ l); [|apply G].
      clear. induction l as [|v l IH]; intros i a; cbn [pick allowed fold_left]; [now rewrite app_nil_r|]. rewrite IH. now rewrite <- app_assoc. }
    destruct (chunk_ahead _ _ _ _ _ CH) as [AH _]. fold r in AH. pose proof (r_bound bits) as RB. fold r in RB. pose proof (bits_split bits) as BS. fold r in BS.
    destruct (N.eqb_spec bits 0) as [B0|B0].
    { exists 0. split; [lia|]. f_equal. rewrite (map_ext_in _ (fun _ => shown base)).
      - unfold n. rewrite Nat2N.id. clear. induction ds as [|d l IH]; cbn [repeat length map]; [reflexivity|]. now rewrite IH.
      - intros d I. specialize (DB d I). rewrite B0 in DB. change (2 ^ 0) with 1 in DB. rewrite K0. replace d with 0 by lia. now rewrite Z.add_0_r. }
    set (fuel := N.to_nat (bits / 8)) in *. destruct (N.ltb_spec bits 8) as [B8|B8].
    - assert (F0 : fuel = O) by (subst fuel; rewrite N.div_small by assumption; reflexivity).
      assert (RBI : r = bits) by (unfold r; now apply N.mod_small). rewrite F0 in *. exists 0. split; [lia|]. rewrite <- RBI. rewrite LST by (try assumption; lia). cbn [rbind].
      rewrite <- VAL. f_equal. apply map_ext_in. intros d I. rewrite K0. apply N.mod_small. rewrite RBI. now apply DB.
    - destruct fuel as [|fuel'] eqn:EF; [lia|]. destruct (ahead_step _ _ _ _ _ AH) as (RD & AH' & _). fold n in RD, AH'. rewrite RD. cbn [unwrap rbind].
      set (s := 8 * N.of_nat fuel' + r) in *. replace (bits - 8) with s by lia.
      assert (E0 : map (fun b => N.shiftl (flip b) s) (column s ds) = map (kept s) ds).
      { unfold column. rewrite map_map. apply map_ext_in. intros d I. rewrite flip_flip. unfold kept. rewrite N.shiftl_mul_pow2, N.mul_comm. f_equal.
        apply N.mod_small. rewrite N.shiftr_div_pow2. apply N.div_lt_upper_bound; [apply N.pow_nonzero; discriminate|]. change 256 with (2 ^ 8). rewrite <- N.pow_add_r. replace (s + 8) with bits by lia. now apply DB. }
      rewrite E0. destruct (decode_columns_ok u fuel' (S fuel') (fst (20, 0) + n, 0) ltac:(lia) AH' RB) as (rho & p' & ED & HR). fold s in ED. cbn [fst] in ED |- *. rewrite ED. cbn [rbind].
      destruct ((rho =? 0) || (rho <=? u)) eqn:ER.
      + exists rho. split; [lia|]. apply VAL.
      + destruct HR as [[-> A']|HR]; [|lia]. exists 0. split; [lia|]. rewrite LST by (try assumption; lia). cbn [rbind]. rewrite <- VAL. f_equal.
        rewrite combine_map, map_map. apply map_ext. intros d. rewrite K0. unfold kept. pose proof (shift_split d 0 r) as SS. rewrite N.shiftr_0_r, N.add_0_l in SS.
        rewrite SS at 3. rewrite lor_add by (apply N.mod_lt, N.pow_nonzero; discriminate). rewrite N.lor_comm. f_equal. now rewrite N.shiftl_mul_pow2, N.mul_comm.
  Qed.
End Folds.
