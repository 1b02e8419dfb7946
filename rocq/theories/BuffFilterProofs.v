From Coq Require Import Sorted.
From Verif Require Import Base WordProofs BitIO Xor F64 Query QuerySpec QueryProofs Sprintz SprintzProofs SprintzQueryProofs Buff BuffBitsProofs BuffChunkProofs BuffReadProofs BuffScanProofs.

(** ** Bytes of a number *)
Lemma window_step a r f : window a r (8 * N.of_nat (S f)) = window a r (8 * N.of_nat f) + 2 ^ (8 * N.of_nat f) * byte_at (8 * N.of_nat f + r) a.
Proof.
  unfold window, byte_at. rewrite !N.shiftr_div_pow2. replace (8 * N.of_nat (S f)) with (8 * N.of_nat f + 8) by lia. rewrite N.pow_add_r.
  rewrite N.mod_mul_r by (apply N.pow_nonzero; discriminate). rewrite N.div_div by (apply N.pow_nonzero; discriminate). rewrite <- N.pow_add_r.
  change (2 ^ 8) with 256. now rewrite (N.add_comm r).
Qed.
Lemma window_zero a r : window a r (8 * N.of_nat 0) = 0.
Proof. unfold window. apply N.mod_1_r. Qed.
Lemma mod_split a f r : a mod 2 ^ (8 * f + r) = a mod 2 ^ r + 2 ^ r * window a r (8 * f).
Proof.
  unfold window. rewrite N.shiftr_div_pow2, (N.add_comm (8 * f)), N.pow_add_r. apply N.mod_mul_r; apply N.pow_nonzero; discriminate.
Qed.
(** Comparing numbers part by part. *)
Lemma parts_eqb m a b a' b' : a < m -> a' < m -> (a + m * b =? a' + m * b') = (b =? b') && (a =? a').
Proof.
  intros H H'. destruct (N.eqb_spec b b') as [->|NE]; cbn [andb].
  - destruct (N.eqb_spec a a') as [->|NE]; [apply N.eqb_refl|]. apply N.eqb_neq. lia.
  - apply N.eqb_neq. intros E. apply NE. nia.
Qed.
Lemma parts_ltb m a b a' b' : a < m -> a' < m -> (a + m * b <? a' + m * b') = (b <? b') || (b =? b') && (a <? a').
Proof.
  intros H H'. destruct (N.ltb_spec b b') as [L|L]; cbn [orb]; [apply N.ltb_lt; nia|].
  destruct (N.eqb_spec b b') as [->|NE]; cbn [andb].
  - destruct (N.ltb_spec a a'); [apply N.ltb_lt; lia|apply N.ltb_ge; lia].
  - apply N.ltb_ge. nia.
Qed.
Lemma filter_filter {A} (P Q : A -> bool) l : filter Q (filter P l) = filter (fun x => P x && Q x) l.
Proof. induction l as [|x l IH]; cbn [filter]; [reflexivity|]. destruct (P x); cbn [filter andb]; [destruct (Q x); now rewrite IH|assumption]. Qed.
Lemma filter_true {A} (l : list A) : filter (fun _ => true) l = l.
Proof. induction l as [|x l IH]; cbn [filter]; [reflexivity|]. now rewrite IH. Qed.

Definition chosen (mask : option bitmap) (off : N) (ds : list N) : list N :=
  match mask with Some xs => xs | None => n_seq off (length ds) end.
Definition mask_within (mask : option bitmap) (off : N) (ds : list N) : Prop :=
  match mask with Some xs => within off ds xs | None => True end.
Lemma chosen_within mask off ds : mask_within mask off ds -> within off ds (chosen mask off ds).
Proof. destruct mask; cbn; [auto|]. intros _. apply n_seq_within. Qed.

Lemma within_bitmap off ds xs : off + N.of_nat (length ds) <= 2 ^ 32 -> within off ds xs -> is_bitmap xs.
Proof. intros H [S F]. split; [assumption|]. eapply Forall_impl; [|exact F]. cbn beta. lia. Qed.
Lemma column_within {A} off (ds : list A) ds' xs : length ds = length ds' -> StronglySorted N.lt xs /\ Forall (fun x => off <= x < off + N.of_nat (length ds)) xs -> within off ds' xs.
Proof. unfold within. now intros ->. Qed.
Lemma byte_of_column s off ds x : off <= x < off + N.of_nat (length ds) -> flip (byte_of off (column s ds) x) = byte_at s (delta_of off ds x).
Proof.
  intros H. unfold byte_of, column, delta_of. rewrite nth_indep with (d' := flip (N.shiftr 0 s mod 256)) by (rewrite map_length; lia).
  rewrite (map_nth (fun d => flip (N.shiftr d s mod 256))). apply flip_flip.
Qed.

Lemma records_left_ok n e : e <= n -> records_left n e = Ok (n - e).
Proof. intros H. unfold records_left. now replace (n <? e) with false by lia. Qed.
Lemma all_records_ok dbg off n : off + n < 2 ^ 32 -> all_records dbg off n = Ok (n_seq off (N.to_nat n)).
Proof.
  intros H. unfold all_records. rewrite add_u32_ok by lia. cbn [rbind]. unfold n_range. do 2 f_equal. lia.
Qed.
Lemma mul_u32_ok dbg a b : a * b < 2 ^ 32 -> mul_u32 dbg a b = Ok (a * b).
Proof. intros H. unfold mul_u32. change two32 with (2 ^ 32). now rewrite (proj2 (N.ltb_lt _ _) H). Qed.

Section Filters.
  Variables (dbg simd : bool).
  Variables (bytes : list N) (base : Z) (fraction bits : N) (ds : list N).
  Hypothesis CH : chunk_of bytes base fraction bits ds.
  Variables (mask : option bitmap) (off : N).
  Hypothesis MW : mask_within mask off ds.
  Let n := N.of_nat (length ds).
  Let r := bits mod 8.
  Let D := delta_of off ds.
  Hypothesis SM : off + n < 2 ^ 32.

  Lemma r_bound : r <= 7.
  Proof using. clear. subst r. pose proof (N.mod_lt bits 8 ltac:(discriminate)). lia. Qed.
  Lemma bits_split : bits = 8 * N.of_nat (N.to_nat (bits / 8)) + r.
  Proof using. clear. subst r. pose proof (N.div_mod bits 8 ltac:(discriminate)). lia. Qed.
  Lemma delta_bound x : D x < 2 ^ bits.
  Proof using CH.
    clear SM MW. subst D. unfold delta_of. destruct CH as (_ & _ & _ & _ & F & _).
    destruct (Nat.lt_ge_cases (N.to_nat (x - off)) (length ds)) as [H|H].
    - apply (proj1 (Forall_forall _ _) F). now apply nth_In.
    - rewrite nth_overflow by assumption. apply pow2_pos.
  Qed.

  (** *** Equality *)
  Lemma eq_masked_ok fuel p pred xs : ahead bytes r ds (S fuel) p -> within off ds xs -> forall expected acc,
    (forall x, In x xs -> off + expected <= x) -> (forall x y, In x acc -> In y xs -> x < y) -> expected <= n ->
    exists e', e' <= n /\ eq_masked bytes pred off xs expected (fst p + expected, 0) acc =
      Ok (acc ++ filter (fun x => byte_at (8 * N.of_nat fuel + r) (D x) =? pred) xs, e', (fst p + e', 0)).
  Proof using.
    clear CH MW SM. intros AH [S F]. destruct (ahead_step _ _ _ _ _ AH) as (_ & _ & NT). revert S F.
    induction xs as [|x xs IH]; intros S F expected acc HX LA HE; cbn [eq_masked filter].
    - exists expected. split; [assumption|]. now rewrite app_nil_r.
    - inversion S as [|? ? S' FS]; subst. inversion F as [|? ? FX F']; subst. rewrite Forall_forall in FS.
      assert (HE' : off + expected <= x) by (apply HX; now left).
      unfold bp_skip_n_byte, bp_read_byte. cbn [fst snd]. fold n in FX. pose proof (NT _ _ (delta_nth off ds x FX)) as N1.
      replace (N.to_nat (fst p + expected + (x - off - expected))) with (N.to_nat (fst p) + N.to_nat (x - off))%nat by lia.
      rewrite N1. cbn [unwrap rbind]. rewrite flip_flip. fold (byte_at (8 * N.of_nat fuel + r) (delta_of off ds x)). fold D. fold (D x).
      replace (fst p + expected + (x - off - expected) + 1) with (fst p + (x - off + 1)) by lia.
      destruct (byte_at (8 * N.of_nat fuel + r) (D x) =? pred) eqn:EB.
      + rewrite insert_last by (apply Forall_forall; intros y I; apply LA; [assumption|now left]).
        destruct (IH S' F' (x - off + 1) (acc ++ [x])) as (e' & LE & EE).
        * intros y I. specialize (FS y I). lia.
        * intros y z I J. apply in_app_or in I as [I|[<-|[]]]; [apply LA; [assumption|now right]|now apply FS].
        * subst n. lia.
        * exists e'. split; [assumption|]. rewrite EE. now rewrite <- app_assoc.
      + apply IH; try assumption.
        * intros y I. specialize (FS y I). lia.
        * intros y z I J. apply LA; [assumption|now right].
        * subst n. lia.
  Qed.

  Definition eq_part (fuel : nat) (delta x : N) : bool := window (D x) r (8 * N.of_nat fuel) =? window delta r (8 * N.of_nat fuel).
  Lemma eq_part_step fuel delta x : eq_part (S fuel) delta x =
    (byte_at (8 * N.of_nat fuel + r) (D x) =? byte_at (8 * N.of_nat fuel + r) delta) && eq_part fuel delta x.
  Proof using. clear. unfold eq_part. rewrite !window_step. apply parts_eqb; apply window_bound. Qed.

  Lemma column_bytes_of s xs P : within off ds xs -> filter (fun x => P (flip (byte_of off (column s ds) x))) xs = filter (fun x => P (byte_at s (D x))) xs.
  Proof using.
    clear. intros [_ F]. apply filter_ext_In. intros x I. rewrite Forall_forall in F. now rewrite byte_of_column by now apply F.
  Qed.

  Lemma eq_columns_ok delta fuel : forall p o, ahead bytes r ds fuel p -> mask_within o off ds ->
    let result := filter (eq_part fuel delta) (chosen o off ds) in
    eq_columns dbg simd bytes n delta off fuel (8 * N.of_nat fuel + r) p o = Ok (inl []) /\ result = [] \/
    exists p', ahead bytes r ds 0 p' /\
      eq_columns dbg simd bytes n delta off fuel (8 * N.of_nat fuel + r) p o = Ok (inr (match fuel with O => o | _ => Some result end, p')).
  Proof using SM.
    clear CH MW mask. induction fuel as [|fuel IH]; intros p o AH MO; cbn [eq_columns]; cbn zeta.
    - right. exists p. split; [assumption|reflexivity].
    - destruct (ahead_step _ _ _ _ _ AH) as (RD & AH' & _). replace (8 * N.of_nat (S fuel) + r - 8) with (8 * N.of_nat fuel + r) by lia.
      set (s := 8 * N.of_nat fuel + r) in *. fold (byte_at s delta).
      set (next := filter (fun x => byte_at s (D x) =? byte_at s delta) (chosen o off ds)).
      match goal with |- context [rbind ?m _] => assert (EM : m = Ok (next, (fst p + n, 0))) end.
      { destruct o as [xs|].
        - assert (P0 : p = (fst p + 0, 0)). { destruct AH as (_ & pre & rest & _ & -> & _). cbn [fst]. now rewrite N.add_0_r. }
          destruct (eq_masked_ok fuel p (byte_at s delta) xs AH MO 0 []) as (e' & LE & EE).
          + intros x I. destruct MO as [_ F]. rewrite Forall_forall in F. specialize (F _ I). cbn beta in F. lia.
          + contradiction.
          + lia.
          + rewrite <- P0 in EE. rewrite EE. cbn [rbind app]. rewrite records_left_ok by assumption. cbn [rbind]. unfold bp_skip_n_byte. cbn [fst snd].
            replace (fst p + e' + (n - e')) with (fst p + n) by lia. reflexivity.
        - fold n in RD. rewrite RD. cbn [unwrap rbind]. fold s.
          assert (LC : length (column s ds) = length ds) by apply column_length.
          rewrite eq_column_ok by (rewrite LC; fold n; lia). cbn [rbind]. rewrite LC.
          rewrite (column_bytes_of s _ (fun b => b =? byte_at s delta)) by apply n_seq_within. reflexivity. }
      rewrite EM. cbn [rbind]. clear EM.
      assert (WN : within off ds next) by (apply filter_within, chosen_within, MO).
      assert (RE : filter (eq_part (S fuel) delta) (chosen o off ds) = filter (eq_part fuel delta) next).
      { unfold next. rewrite filter_filter. apply filter_ext_In. intros x _. apply eq_part_step. }
      rewrite RE. destruct next as [|x0 next'] eqn:EN.
      + left. split; reflexivity.
      + cbn [bm_is_empty]. rewrite <- EN in *. destruct (IH (fst p + n, 0) (Some next) AH' WN) as [[E1 E2]|(p' & A' & E1)].
        * left. split; [exact E1|exact E2].
        * right. exists p'. split; [assumption|]. etransitivity; [exact E1|]. destruct fuel; [|reflexivity]. do 4 f_equal.
          cbn [chosen]. symmetry. rewrite <- (filter_true next) at 2. apply filter_ext_In. intros x _. unfold eq_part. rewrite !window_zero. reflexivity.
  Qed.

  (** What an operand looks like through the width of the chunk. *)
  Definition seen (delta : N) : N := match mask with None => if bits <? 8 then delta mod 256 else delta mod 2 ^ bits | Some _ => delta mod 2 ^ bits end.

  Lemma tail_read p start : at_bit p start -> at_bit p (start + 0 * r).
  Proof using. now rewrite N.mul_0_l, N.add_0_r. Qed.

  Hypothesis NR : mask <> None \/ 8 <= bits -> n * r < 2 ^ 32.
  Lemma equal_filter_ok pred fixed : fixed_of dbg pred fraction = Ok fixed -> (dbg = true -> (fixed - base < 2 ^ 63)%Z) -> i64 fixed ->
    buff_equal_filter dbg simd bytes pred mask off =
    Ok (if (fixed <? base)%Z then []
        else if bits =? 0 then (if (fixed =? base)%Z then n_seq off (length ds) else [])
        else filter (fun x => D x =? seen (Z.to_N (fixed - base))) (chosen mask off ds)).
  Proof using CH MW SM NR.
    intros FX SP IF. unfold buff_equal_filter. rewrite (header_ok _ _ _ _ _ CH). cbn [unwrap rbind bh_base bh_records bh_bits bh_fraction]. rewrite FX. cbn [rbind].
    destruct (Z.ltb_spec fixed base) as [L|L]; [reflexivity|]. destruct (N.eqb_spec bits 0) as [B0|B0].
    { destruct (fixed =? base)%Z; [|reflexivity]. rewrite all_records_ok by exact SM. now rewrite Nat2N.id. }
    assert (I64 : i64 base) by apply CH.
    destruct (sub_bits dbg fixed base ltac:(unfold i64 in *; lia) SP) as (d & ED & EB & _). rewrite ED. cbn [rbind]. rewrite EB.
    set (delta := Z.to_N (fixed - base)). fold n. fold r.
    destruct (chunk_ahead _ _ _ _ _ CH) as [AH _]. fold r in AH.
    pose proof (eq_columns_ok delta (N.to_nat (bits / 8)) (20, 0) mask AH MW) as EC. cbn zeta in EC. rewrite <- bits_split in EC.
    set (fuel := N.to_nat (bits / 8)) in *. pose proof bits_split as BS. fold fuel in BS.
    assert (TOT : forall x, (D x =? delta mod 2 ^ bits) = eq_part fuel delta x && (D x mod 2 ^ r =? delta mod 2 ^ r)).
    { intros x. rewrite <- (N.mod_small (D x) (2 ^ bits)) at 1 by apply delta_bound. rewrite BS, !mod_split. apply parts_eqb; apply N.mod_lt, N.pow_nonzero; discriminate. }
    pose proof r_bound as RB.
    assert (WC : within off ds (chosen mask off ds)) by now apply chosen_within.
    destruct EC as [[E1 E2]|(p' & A' & E1)]; rewrite E1; cbn [rbind].
    - (* no record has the first bytes *)
      assert (fuel <> O).
      { intros F0. destruct mask; rewrite F0 in E1; cbn [eq_columns] in E1; discriminate E1. }
      assert (ES : seen delta = delta mod 2 ^ bits) by (unfold seen; destruct mask; [reflexivity|]; now replace (bits <? 8) with false by lia).
      rewrite ES. f_equal. erewrite filter_ext_In by (intros x _; apply TOT). rewrite <- filter_filter, E2. reflexivity.
    - destruct (ahead_tail _ _ _ _ A') as (BB & P0 & TA). assert (AB : at_bit p' (8 * fst p' + 0 * r)) by (apply tail_read; split; lia).
      destruct (N.ltb_spec 0 r) as [R0|R0].
      + set (o := match fuel with O => mask | _ => Some (filter (eq_part fuel delta) (chosen mask off ds)) end).
        assert (CO : filter (fun x => D x mod 2 ^ r =? delta mod 2 ^ r) (chosen o off ds) = filter (fun x => D x =? delta mod 2 ^ bits) (chosen mask off ds)).
        { symmetry. erewrite filter_ext_In by (intros x _; apply TOT). rewrite <- filter_filter. f_equal. subst o. destruct fuel; [|reflexivity].
          rewrite <- (filter_true (chosen mask off ds)) at 2. apply filter_ext_In. intros x _. unfold eq_part. rewrite !window_zero. reflexivity. }
        assert (WO : within off ds (chosen o off ds)) by (subst o; destruct fuel; [assumption|cbn [chosen]; now apply filter_within]).
        assert (OM : match o with Some xs => mask <> None \/ 8 <= bits | None => mask = None /\ bits < 8 end).
        { subst o. destruct fuel; [destruct mask; [left; discriminate|split; [reflexivity|lia]]|right; lia]. }
        destruct o as [xs|] eqn:EO.
        * cbn [chosen] in *. assert (ES : seen delta = delta mod 2 ^ bits).
          { unfold seen. destruct mask; [reflexivity|]. destruct OM as [OM|OM]; [congruence|]. now replace (bits <? 8) with false by lia. }
          rewrite ES.
          destruct (scan_masked_ok bytes (@unwrap) (fun x v acc => Ok (if v =? delta mod 2 ^ r then bm_insert x acc else acc)) r (fun T x => eq_refl) BB ltac:(lia)
             (mul_u32 dbg) (8 * fst p') off ds xs TA WO) with (expected := 0) (p := p') (acc := @nil N) as (e' & p2 & LE & AB2 & SC).
          { intros a HA. apply mul_u32_ok. apply N.le_lt_trans with (n * r); [apply N.mul_le_mono_r; exact HA|]. now apply NR. }
          { intros x I. destruct WO as [_ F]. rewrite Forall_forall in F. specialize (F _ I). cbn beta in F. lia. }
          { lia. }
          { assumption. }
          rewrite SC. rewrite (each_pure (fun x v acc => if v =? delta mod 2 ^ r then bm_insert x acc else acc)). cbn [rbind]. fold n in LE.
          rewrite records_left_ok by assumption. cbn [rbind].
          rewrite mul_u32_ok by (apply N.le_lt_trans with (n * r); [apply N.mul_le_mono_r; lia|now apply NR]). cbn [rbind].
          destruct TA as [TL _]. fold n in TL.
          destruct (skip_ok bytes ((n - e') * r) p2 (8 * fst p' + e' * r) AB2 ltac:(nia)) as (p3 & E3 & _). rewrite E3. cbn [unwrap rbind].
          f_equal. rewrite fold_map. rewrite (fold_or (fun x => D x mod 2 ^ r =? delta mod 2 ^ r)). rewrite bm_or_nil by (apply sorted_filter, WO). exact CO.
        * destruct OM as [EM B8].
          assert (F0 : fuel = O) by (subst fuel; rewrite N.div_small by assumption; reflexivity).
          assert (RBI : r = bits) by (unfold r; now apply N.mod_small).
          pose proof (scan_all_ok bytes (@unwrap) (fun i v acc => if v =? delta mod 256 then do x <- add_u32 dbg off i ; Ok (bm_insert x acc) else Ok acc) r (fun T x => eq_refl) BB ltac:(lia)
            (8 * fst p') ds TA ds 0 p' [] ltac:(reflexivity) ltac:(lia) AB) as SC.
          change (N.of_nat 0) with 0 in SC. unfold n. rewrite Nat2N.id. 
          etransitivity; [exact SC|]. clear SC.
          unfold seen. rewrite EM. replace (bits <? 8) with true by lia. cbn [chosen].
          assert (G : forall l i acc, (forall d, In d l -> d mod 2 ^ r = d) -> off + i + N.of_nat (length l) < 2 ^ 32 ->
            each (fun i v acc => if v =? delta mod 256 then do x <- add_u32 dbg off i ; Ok (bm_insert x acc) else Ok acc) (pick None i (map (fun d => d mod 2 ^ r) l)) acc =
            Ok (fold_left (fun bm '(x, d) => if d =? delta mod 256 then bm_insert x bm else bm) (pick None (off + i) l) acc)).
          { induction l as [|d1 l IH]; intros i acc HM H; cbn [map pick allowed each fold_left]; [reflexivity|]. cbn [length] in H. rewrite HM by now left.
            destruct (d1 =? delta mod 256); [rewrite add_u32_ok by lia|]; cbn [rbind]; rewrite IH by (try lia; intros; apply HM; now right); now rewrite N.add_assoc. }
          rewrite G.
          { f_equal. rewrite N.add_0_r. rewrite (fold_insert (fun d => d =? delta mod 256)) by (try apply pick_sorted; intros; constructor). cbn [app].
            rewrite <- pick_seq. apply (pick_filter (fun d => d =? delta mod 256)). }
          { intros d1 I. apply N.mod_small. rewrite RBI. destruct CH as (_ & _ & _ & _ & F & _). now apply (proj1 (Forall_forall _ _) F). }
          { rewrite N.add_0_r. exact SM. }
      + assert (r = 0) by lia. assert (fuel <> O) by lia. assert (ES : seen delta = delta mod 2 ^ bits) by (unfold seen; destruct mask; [reflexivity|]; now replace (bits <? 8) with false by lia).
        rewrite ES. destruct fuel; [lia|]. f_equal. apply filter_ext_In. intros x _. rewrite TOT, H. change (2 ^ 0) with 1. rewrite !N.mod_1_r. now rewrite andb_true_r.
  Qed.

  (** *** Comparison *)
  Section Cmp.
    Variables (greater inclusive : bool).
    Definition beyond (a b : N) : bool := if greater then b <? a else a <? b.
    Definition cmp_part (fuel : nat) (delta x : N) : bool := beyond (window (D x) r (8 * N.of_nat fuel)) (window delta r (8 * N.of_nat fuel)).
    Lemma cmp_part_step fuel delta x : cmp_part (S fuel) delta x =
      beyond (byte_at (8 * N.of_nat fuel + r) (D x)) (byte_at (8 * N.of_nat fuel + r) delta) ||
      (byte_at (8 * N.of_nat fuel + r) (D x) =? byte_at (8 * N.of_nat fuel + r) delta) && cmp_part fuel delta x.
    Proof using.
      clear. unfold cmp_part, beyond. rewrite !window_step. destruct greater; rewrite parts_ltb by apply window_bound; [|reflexivity].
      now rewrite (N.eqb_sym (byte_at _ delta)).
    Qed.

    Lemma cmp_columns_ok delta fuel : forall p o q, ahead bytes r ds fuel p -> mask_within o off ds -> is_bitmap q ->
      let ties := filter (eq_part fuel delta) (chosen o off ds) in
      exists q', is_bitmap q' /\ (forall x, In x q' <-> In x q \/ In x (filter (cmp_part fuel delta) (chosen o off ds))) /\
      (cmp_columns dbg simd greater bytes n delta off fuel (8 * N.of_nat fuel + r) p o q = Ok (inl q') /\ ties = [] \/
       exists p', ahead bytes r ds 0 p' /\
       cmp_columns dbg simd greater bytes n delta off fuel (8 * N.of_nat fuel + r) p o q = Ok (inr (match fuel with O => o | _ => Some ties end, q', p'))).
    Proof using SM.
      clear CH MW mask NR. induction fuel as [|fuel IH]; intros p o q AH MO BQ; cbn [cmp_columns]; cbn zeta.
      - exists q. split; [assumption|]. split; [|right; exists p; split; [assumption|reflexivity]].
        intros x. rewrite filter_In. unfold cmp_part. rewrite !window_zero. unfold beyond. destruct greater; cbn; tauto || (split; [auto|intros [H|[_ H]]; [assumption|discriminate]]).
      - destruct (ahead_step _ _ _ _ _ AH) as (RD & AH' & _). replace (8 * N.of_nat (S fuel) + r - 8) with (8 * N.of_nat fuel + r) by lia.
        set (s := 8 * N.of_nat fuel + r) in *. fold (byte_at s delta). fold n in RD. rewrite RD. cbn [unwrap rbind].
        set (next := filter (fun x => byte_at s (D x) =? byte_at s delta) (chosen o off ds)).
        set (good := filter (fun x => beyond (byte_at s (D x)) (byte_at s delta)) (chosen o off ds)).
        assert (LC : length (column s ds) = length ds) by apply column_length.
        assert (WC : within off ds (chosen o off ds)) by now apply chosen_within.
        match goal with |- context [rbind ?m _] => assert (EM : m = Ok (next, bm_or q good)) end.
        { destruct o as [xs|].
          - rewrite cmp_masked_ok; [|rewrite LC; fold n; lia|apply (column_within off ds); [now rewrite LC|exact MO]|apply byte_at_byte|apply column_bytes].
            rewrite (column_bytes_of s _ (fun b => b =? byte_at s delta)) by exact MO. rewrite (column_bytes_of s _ (decides greater (byte_at s delta))) by exact MO. reflexivity.
          - rewrite cmp_column_ok; [|rewrite LC; fold n; lia|apply byte_at_byte|apply column_bytes]. rewrite LC.
            rewrite (column_bytes_of s _ (fun b => b =? byte_at s delta)) by apply n_seq_within. rewrite (column_bytes_of s _ (decides greater (byte_at s delta))) by apply n_seq_within. reflexivity. }
        rewrite EM. cbn [rbind]. clear EM.
        assert (WN : within off ds next) by now apply filter_within.
        assert (BG : is_bitmap (bm_or q good)).
        { apply bm_or_ok; [|assumption]. apply (within_bitmap off ds); [fold n; lia|]. now apply filter_within. }
        assert (RE : filter (eq_part (S fuel) delta) (chosen o off ds) = filter (eq_part fuel delta) next).
        { unfold next. rewrite filter_filter. apply filter_ext_In. intros x _. apply eq_part_step. }
        assert (RC : forall x, In x (filter (cmp_part (S fuel) delta) (chosen o off ds)) <-> In x good \/ In x (filter (cmp_part fuel delta) next)).
        { intros x. unfold good, next. rewrite !filter_In, cmp_part_step, orb_true_iff, andb_true_iff. fold s. tauto. }
        rewrite RE. destruct next as [|x0 next'] eqn:EN.
        + exists (bm_or q good). split; [assumption|]. split; [|left; split; reflexivity].
          intros x. rewrite bm_or_spec, RC. cbn [filter In]. tauto.
        + cbn [bm_is_empty]. rewrite <- EN in *. destruct (IH (fst p + n, 0) (Some next) (bm_or q good) AH' WN BG) as (q' & BQ' & IQ & HQ).
          exists q'. split; [assumption|]. split.
          { intros x. rewrite IQ, bm_or_spec, RC. cbn [chosen]. tauto. }
          destruct HQ as [[E1 E2]|(p' & A' & E1)].
          * left. split; [exact E1|exact E2].
          * right. exists p'. split; [assumption|]. etransitivity; [exact E1|]. destruct fuel; [|reflexivity]. do 5 f_equal.
            cbn [chosen]. symmetry. rewrite <- (filter_true next) at 2. apply filter_ext_In. intros x _. unfold eq_part. rewrite !window_zero. reflexivity.
    Qed.

    Definition compares (a b : N) : bool := beyond a b || inclusive && (a =? b).
    Lemma cmp_last_fold pred g xs : forall q, fold_left (fun q x => cmp_last greater inclusive pred x (g x) q) xs q = bm_or q (filter (fun x => compares (g x) pred) xs).
    Proof using.
      clear. unfold bm_or. induction xs as [|x xs IH]; intros q; cbn [fold_left filter]; [reflexivity|]. rewrite IH. unfold cmp_last, compares, beyond.
      destruct (N.compare_spec (g x) pred) as [E|E|E].
      - rewrite E, N.eqb_refl, N.ltb_irrefl. now destruct greater, inclusive.
      - replace (g x <? pred) with true by lia. replace (pred <? g x) with false by lia. replace (g x =? pred) with false by lia. now destruct greater, inclusive.
      - replace (g x <? pred) with false by lia. replace (pred <? g x) with true by lia. replace (g x =? pred) with false by lia. now destruct greater, inclusive.
    Qed.
    Lemma last_all pred : forall l i q, (forall d, In d l -> d mod 2 ^ r = d) -> off + i + N.of_nat (length l) < 2 ^ 32 ->
      each (fun i v acc => do x <- add_u32 dbg off i ; Ok (cmp_last greater inclusive pred x v acc)) (pick None i (map (fun d => d mod 2 ^ r) l)) q =
      Ok (fold_left (fun q '(x, d) => cmp_last greater inclusive pred x d q) (pick None (off + i) l) q).
    Proof using.
      clear. induction l as [|d l IH]; intros i acc HM H; cbn [map pick allowed each fold_left]; [reflexivity|]. cbn [length] in H. rewrite HM by now left.
      rewrite add_u32_ok by lia. cbn [rbind]. rewrite IH by (try lia; intros; apply HM; now right). now rewrite N.add_assoc.
    Qed.

    Lemma cmp_filter_ok pred fixed : fixed_of dbg pred fraction = Ok fixed -> (dbg = true -> (fixed - base < 2 ^ 63)%Z) -> i64 fixed ->
      buff_cmp_filter dbg simd greater inclusive bytes pred mask off =
      Ok (let all (b : bool) := if b then n_seq off (length ds) else [] in
          if (fixed <? base)%Z then all greater
          else if bits =? 0 then all (match greater, inclusive with true, true => (fixed <=? base) | true, false => (fixed <? base) | false, true => (base <=? fixed) | false, false => (base <? fixed) end)%Z
          else if (2 ^ Z.of_N bits <=? fixed - base)%Z then all (negb greater)
          else filter (fun x => compares (D x) (Z.to_N (fixed - base))) (chosen mask off ds)).
    Proof using CH MW SM NR.
      intros FX SP IF. unfold buff_cmp_filter. rewrite (header_ok _ _ _ _ _ CH). cbn [unwrap rbind bh_base bh_records bh_bits bh_fraction]. rewrite FX. cbn [rbind]. cbn zeta.
      assert (ALL : forall b : bool, (if b then all_records dbg off (N.of_nat (length ds)) else Ok []) = @Ok derr _ (if b then n_seq off (length ds) else [])).
      { intros []; [|reflexivity]. rewrite all_records_ok by exact SM. now rewrite Nat2N.id. }
      destruct (Z.ltb_spec fixed base) as [L|L]; [apply ALL|]. destruct (N.eqb_spec bits 0) as [B0|B0].
      { rewrite ALL. reflexivity. }
      assert (I64 : i64 base) by apply CH. assert (B64 : bits <= 64) by apply CH.
      destruct (sub_bits dbg fixed base ltac:(unfold i64 in *; lia) SP) as (d & ED & EB & _). rewrite ED. cbn [rbind]. rewrite EB.
      set (delta := Z.to_N (fixed - base)). fold n. fold r.
      assert (DL : delta < 2 ^ 64) by (subst delta; unfold i64 in *; change (2 ^ 64) with 18446744073709551616; lia).
      rewrite width_size by assumption.
      assert (WB : (bits <? N.size delta) = (2 ^ Z.of_N bits <=? fixed - base)%Z).
      { assert (EZ : (fixed - base = Z.of_N delta)%Z) by (subst delta; lia). rewrite EZ. change 2%Z with (Z.of_N 2). rewrite <- N2Z.inj_pow.
        destruct (N.ltb_spec bits (N.size delta)) as [H|H]; symmetry.
        - apply Z.leb_le. apply N2Z.inj_le. destruct (N.eq_dec delta 0) as [->|NZ]; [cbn in H; lia|]. rewrite N.size_log2 in H by assumption. apply N.log2_le_pow2; lia.
        - apply Z.leb_gt. apply N2Z.inj_lt. apply N.lt_le_trans with (2 ^ N.size delta); [apply N.size_gt|]. apply N.pow_le_mono_r; lia. }
      rewrite WB. destruct (Z.leb_spec (2 ^ Z.of_N bits) (fixed - base)) as [W|W]; [apply ALL|]. clear WB.
      assert (DB : delta < 2 ^ bits).
      { apply N2Z.inj_lt. rewrite N2Z.inj_pow. change (Z.of_N 2) with 2%Z. subst delta. rewrite Z2N.id by lia. exact W. }
      destruct (chunk_ahead _ _ _ _ _ CH) as [AH _]. fold r in AH.
      pose proof (cmp_columns_ok delta (N.to_nat (bits / 8)) (20, 0) mask [] AH MW is_bitmap_nil) as EC. cbn zeta in EC. rewrite <- bits_split in EC.
      set (fuel := N.to_nat (bits / 8)) in *. pose proof bits_split as BS. fold fuel in BS.
      assert (TOT : forall x, compares (D x) delta = cmp_part fuel delta x || eq_part fuel delta x && compares (D x mod 2 ^ r) (delta mod 2 ^ r)).
      { intros x. rewrite <- (N.mod_small (D x) (2 ^ bits)) at 1 by apply delta_bound. rewrite <- (N.mod_small delta (2 ^ bits)) at 1 by assumption.
        rewrite BS, !mod_split. unfold compares, cmp_part, eq_part, beyond.
        assert (MB : forall a, a mod 2 ^ r < 2 ^ r) by (intros a; apply N.mod_lt, N.pow_nonzero; discriminate).
        destruct greater; rewrite parts_ltb, parts_eqb by apply MB.
        - rewrite (N.eqb_sym (window delta r _)). destruct (window delta r (8 * N.of_nat fuel) <? window (D x) r (8 * N.of_nat fuel)), (window (D x) r (8 * N.of_nat fuel) =? window delta r (8 * N.of_nat fuel)),
            (delta mod 2 ^ r <? D x mod 2 ^ r), (D x mod 2 ^ r =? delta mod 2 ^ r) eqn:E4, inclusive; reflexivity.
        - destruct (window (D x) r (8 * N.of_nat fuel) <? window delta r (8 * N.of_nat fuel)), (window (D x) r (8 * N.of_nat fuel) =? window delta r (8 * N.of_nat fuel)),
            (D x mod 2 ^ r <? delta mod 2 ^ r), (D x mod 2 ^ r =? delta mod 2 ^ r), inclusive; reflexivity. }
      pose proof r_bound as RB.
      assert (WC : within off ds (chosen mask off ds)) by now apply chosen_within.
      destruct EC as (q' & BQ & IQ & EC).
      assert (FIN : forall result, is_bitmap result -> (forall x, In x result <-> In x q' \/ In x (filter (fun x => eq_part fuel delta x && compares (D x mod 2 ^ r) (delta mod 2 ^ r)) (chosen mask off ds))) ->
         @Ok derr _ result = Ok (filter (fun x => compares (D x) delta) (chosen mask off ds))).
      { intros result [SR _] HR. f_equal. apply sorted_ext; [assumption|apply sorted_filter, WC|]. intros x. rewrite HR, IQ, !filter_In, TOT, orb_true_iff. cbn [In]. tauto. }
      destruct EC as [[E1 E2]|(p' & A' & E1)]; rewrite E1; cbn [rbind].
      - apply FIN; [assumption|]. intros x. rewrite <- filter_filter, E2. cbn [filter In]. tauto.
      - destruct (ahead_tail _ _ _ _ A') as (BB & P0 & TA). assert (AB : at_bit p' (8 * fst p' + 0 * r)) by (apply tail_read; split; lia).
        set (o := match fuel with O => mask | _ => Some (filter (eq_part fuel delta) (chosen mask off ds)) end).
        assert (CO : chosen o off ds = filter (eq_part fuel delta) (chosen mask off ds)).
        { subst o. destruct fuel; [|reflexivity]. rewrite <- (filter_true (chosen mask off ds)) at 1. apply filter_ext_In. intros x _. unfold eq_part. rewrite !window_zero. reflexivity. }
        assert (WO : within off ds (chosen o off ds)) by (rewrite CO; now apply filter_within).
        destruct (N.ltb_spec 0 r) as [R0|R0].
        + assert (OM : match o with Some xs => mask <> None \/ 8 <= bits | None => mask = None /\ bits < 8 end).
          { subst o. destruct fuel; [destruct mask; [left; discriminate|split; [reflexivity|lia]]|right; lia]. }
          destruct o as [xs|] eqn:EO.
          * cbn [chosen] in *.
            destruct (scan_masked_ok bytes (@unwrap) (fun x v acc => Ok (cmp_last greater inclusive (delta mod 2 ^ r) x v acc)) r (fun T x => eq_refl) BB ltac:(lia)
               (mul_u32 dbg) (8 * fst p') off ds xs TA WO) with (expected := 0) (p := p') (acc := q') as (e' & p2 & LE & AB2 & SC).
            { intros a HA. apply mul_u32_ok. apply N.le_lt_trans with (n * r); [apply N.mul_le_mono_r; exact HA|]. now apply NR. }
            { intros x I. destruct WO as [_ F]. rewrite Forall_forall in F. specialize (F _ I). cbn beta in F. lia. }
            { lia. }
            { assumption. }
            rewrite SC. rewrite (each_pure (cmp_last greater inclusive (delta mod 2 ^ r))). cbn [rbind]. fold n in LE.
            rewrite records_left_ok by assumption. cbn [rbind].
            rewrite mul_u32_ok by (apply N.le_lt_trans with (n * r); [apply N.mul_le_mono_r; lia|now apply NR]). cbn [rbind].
            destruct TA as [TL _]. fold n in TL.
            destruct (skip_ok bytes ((n - e') * r) p2 (8 * fst p' + e' * r) AB2 ltac:(nia)) as (p3 & E3 & _). rewrite E3. cbn [unwrap rbind].
            rewrite fold_map. rewrite (cmp_last_fold (delta mod 2 ^ r) (fun x => D x mod 2 ^ r)).
            apply FIN.
            -- apply bm_or_ok; [|assumption]. apply (within_bitmap off ds); [fold n; lia|]. now apply filter_within.
            -- intros x. rewrite bm_or_spec, CO, filter_filter. reflexivity.
          * destruct OM as [EM B8].
            assert (F0 : fuel = O) by (subst fuel; rewrite N.div_small by assumption; reflexivity).
            assert (RBI : r = bits) by (unfold r; now apply N.mod_small).
            pose proof (scan_all_ok bytes (@unwrap) (fun i v acc => do x <- add_u32 dbg off i ; Ok (cmp_last greater inclusive (delta mod 2 ^ r) x v acc)) r (fun T x => eq_refl) BB ltac:(lia)
              (8 * fst p') ds TA ds 0 p' q' ltac:(reflexivity) ltac:(lia) AB) as SC.
            change (N.of_nat 0) with 0 in SC. unfold n. rewrite Nat2N.id.
            etransitivity; [exact SC|]. clear SC.
            rewrite last_all.
            -- rewrite N.add_0_r. rewrite (pick_none_seq ds off), fold_map.
               rewrite (cmp_last_fold (delta mod 2 ^ r) (delta_of off ds)). apply FIN.
               ++ apply bm_or_ok; [|assumption]. apply (within_bitmap off ds); [fold n; lia|]. apply filter_within, n_seq_within.
               ++ intros x. rewrite bm_or_spec. cbn [chosen] in CO. rewrite <- filter_filter, <- CO. rewrite !filter_In. fold (D x).
                  rewrite (N.mod_small (D x)) by (rewrite RBI; apply delta_bound). tauto.
            -- intros y I. apply N.mod_small. rewrite RBI. destruct CH as (_ & _ & _ & _ & F & _). now apply (proj1 (Forall_forall _ _) F).
            -- rewrite N.add_0_r. exact SM.
        + assert (RZ : r = 0) by lia. assert (FO : fuel <> O) by lia.
          assert (CZ : forall x, compares (D x mod 2 ^ r) (delta mod 2 ^ r) = inclusive).
          { intros x. rewrite RZ. change (2 ^ 0) with 1. rewrite !N.mod_1_r. unfold compares, beyond. now destruct greater, inclusive. }
          destruct fuel as [|fuel']; [lia|]. subst o. destruct inclusive eqn:EI.
          * apply FIN.
            -- apply bm_or_ok; [|assumption]. apply (within_bitmap off ds); [fold n; lia|]. now apply filter_within.
            -- intros x. rewrite bm_or_spec, <- filter_filter, !filter_In, CZ. tauto.
          * apply FIN; [assumption|]. intros x. rewrite filter_In, CZ, andb_false_r. split; [auto|]. intros [H|[_ H]]; [assumption|discriminate].
    Qed.
  End Cmp.
End Filters.
