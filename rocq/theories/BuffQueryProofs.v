From Coq Require Import Sorted.
From Verif Require Import Base WordProofs BitIO Xor F64 F64Proofs F64BitsProofs Query QuerySpec QueryProofs Sprintz SprintzProofs SprintzQueryProofs
  Buff BuffBitsProofs BuffFixedProofs BuffChunkProofs BuffReadProofs BuffScanProofs BuffFilterProofs BuffFoldProofs BuffFloatProofs BuffSpec.

(** ** Fixed-point integers *)
Definition fx (f x : N) : Z := match number x with Some a => Z.quot (a * 2 ^ Z.of_N f) (2 ^ 1074) | None => 0%Z end.
Lemma step_pos f : (0 < step f)%Z \/ 1074 < f.
Proof. destruct (N.leb_spec f 1074); [left|now right]. apply Z.pow_pos_nonneg; lia. Qed.
Lemma quot_step a f : f <= 50 -> Z.quot (a * 2 ^ Z.of_N f) (2 ^ 1074) = Z.quot a (step f).
Proof.
  intros F. unfold step. assert (exists t, (t = 1074)%Z) as (t & Et) by eauto. rewrite <- Et.
  replace (2 ^ t)%Z with (2 ^ (t - Z.of_N f) * 2 ^ Z.of_N f)%Z by (rewrite <- Z.pow_add_r by lia; f_equal; lia).
  apply Z.quot_mul_cancel_r; apply Z.pow_nonzero; lia.
Qed.
Lemma quot_spec a s v : (0 < s)%Z -> ((Z.abs v * s <= Z.abs a < (Z.abs v + 1) * s)%Z /\ (0 <= v * a)%Z <-> v = Z.quot a s).
Proof.
  intros S. assert (A : Z.abs (Z.quot a s) = (Z.abs a / s)%Z).
  { rewrite <- Z.quot_abs by lia. rewrite (Z.abs_eq s) by lia. apply Z.quot_div_nonneg; lia. }
  pose proof (Z.div_mod (Z.abs a) s ltac:(lia)) as E. pose proof (Z.mod_pos_bound (Z.abs a) s S) as M.
  assert (P0 : (0 <= a -> 0 <= Z.quot a s)%Z) by (intros; apply Z.quot_pos; lia).
  assert (N0 : (a <= 0 -> Z.quot a s <= 0)%Z).
  { intros L. rewrite <- (Z.opp_involutive a), Z.quot_opp_l by lia. assert (0 <= Z.quot (- a) s)%Z by (apply Z.quot_pos; lia). lia. }
  set (q := Z.quot a s) in *. set (d := (Z.abs a / s)%Z) in *. set (r := (Z.abs a mod s)%Z) in *. clearbody q d r. split.
  - intros [[L U] P]. assert (AV : Z.abs v = d) by nia. destruct (Z.lt_trichotomy a 0) as [H|[H|H]].
    + assert (v <= 0)%Z by nia. lia.
    + subst a. cbn in L, E. assert (Z.abs v = 0)%Z by nia. lia.
    + assert (0 <= v)%Z by nia. lia.
  - intros ->. rewrite A. split; [nia|]. destruct (Z.le_ge_cases 0 a); nia.
Qed.
Lemma fixed_fx f x v : f <= 50 -> (fixed_point f x v <-> number x <> None /\ v = fx f x).
Proof.
  intros F. unfold fixed_point, fx. destruct (step_pos f) as [S|S]; [|lia]. split.
  - intros (a & E & H). rewrite E. split; [discriminate|]. rewrite quot_step by assumption. now apply quot_spec.
  - destruct (number x) as [a|]; [|intros [H _]; congruence]. intros [_ E]. exists a. split; [reflexivity|]. rewrite quot_step in E by assumption.
    now apply quot_spec.
Qed.
Lemma two63 : (2 ^ 63)%Z = 9223372036854775808%Z. Proof. reflexivity. Qed.
Lemma ranged f x : f <= 50 -> is_u64 x -> in_range f x ->
  number x <> None /\ (forall dbg, fixed_of dbg x f = Ok (fx f x)) /\ (Z.abs (fx f x) < 2 ^ 63)%Z /\ short (fx f x).
Proof.
  intros F U (a & E & B). destruct (step_pos f) as [S|S]; [|lia]. unfold fx. rewrite E. split; [discriminate|].
  assert (B2 : (Z.abs a * 2 ^ Z.of_N f < 2 ^ 63 * 2 ^ 1074)%Z).
  { unfold step in *. assert (exists t, (t = 1074)%Z) as (t & Et) by eauto. rewrite <- Et in *.
    replace (2 ^ t)%Z with (2 ^ (t - Z.of_N f) * 2 ^ Z.of_N f)%Z by (rewrite <- Z.pow_add_r by lia; f_equal; lia).
    assert (0 < 2 ^ Z.of_N f)%Z by (apply Z.pow_pos_nonneg; lia). rewrite Z.mul_assoc. apply Z.mul_lt_mono_pos_r; assumption. }
  split; [intros dbg; apply fixed_of_ok; assumption|]. split.
  - rewrite quot_step by assumption. pose proof (proj2 (quot_spec a (step f) _ S) eq_refl) as [[L _] _].
    set (q := Z.quot a (step f)) in *. set (s := step f) in *. clearbody q s. rewrite two63 in *. clear - S L B. nia.
  - apply (fixed_short x); try assumption. eapply Z.lt_trans; [exact B|]. unfold step. rewrite <- Z.pow_add_r by lia. apply Z.pow_lt_mono_r; lia.
Qed.
Lemma ranged_i64 f x : f <= 50 -> is_u64 x -> in_range f x -> i64 (fx f x).
Proof. intros F U R. destruct (ranged f x F U R) as (_ & _ & B & _). unfold i64. rewrite two63 in *. lia. Qed.

Lemma ranged_fixed f x : f <= 50 -> is_u64 x -> in_range f x -> fixed_point f x (fx f x).
Proof. intros F U R. apply fixed_fx; [assumption|]. split; [now apply (ranged f x F U R)|reflexivity]. Qed.

(** Values returned. *)
Lemma value_shown f v : f <= 50 -> fixed_value f v = shown f v.
Proof. intros F. unfold fixed_value, fixed_quotient, shown, unfix. now rewrite pow2i_eq. Qed.
Lemma quotient_unfix f v : f <= 50 -> fixed_quotient f v = unfix f v.
Proof. intros F. unfold fixed_quotient, unfix. now rewrite pow2i_eq. Qed.
Lemma shown_number f v : f <= 50 -> i64 v -> short v -> number (shown f v) = Some (v * step f)%Z.
Proof. intros F. exact (unfix_number f F v). Qed.
Lemma shown_u64 f v : f <= 50 -> i64 v -> is_u64 (shown f v).
Proof. intros F I. apply to_bits_bound, unfix_canonical; [assumption|now apply i64_100]. Qed.
Lemma fx_shown f v : f <= 50 -> i64 v -> short v -> fx f (shown f v) = v.
Proof.
  intros F I S. unfold fx. rewrite shown_number by assumption. rewrite quot_step by assumption. destruct (step_pos f); [|lia]. apply Z.quot_mul. lia.
Qed.
Lemma shown_range f v : f <= 50 -> (Z.abs v < 2 ^ 63)%Z -> short v -> in_range f (shown f v).
Proof.
  intros F A S. exists (v * step f)%Z. split; [apply shown_number; [assumption| |assumption]; unfold i64; rewrite two63 in *; lia|].
  destruct (step_pos f); [|lia]. rewrite Z.abs_mul, (Z.abs_eq (step f)) by lia. now apply Z.mul_lt_mono_pos_r.
Qed.
(** The records of a chunk after decoding. *)
Definition cut_records (f : N) (xs : list N) : list N := map (fun x => shown f (fx f x)) xs.

(** ** Chunks *)
Lemma map_res_all {E A B} (g : A -> res E B) (h : A -> B) l : (forall x, In x l -> g x = Ok (h x)) -> map_res g l = Ok (map h l).
Proof.
  induction l as [|x l IH]; intros H; cbn [map_res map]; [reflexivity|]. rewrite H by now left. cbn [rbind]. rewrite IH by (intros y I; apply H; now right). reflexivity.
Qed.
Lemma fraction_ok lg scale f : bits_of_digits (digits_of lg scale) = Some f -> fraction_bits lg scale = Ok f /\ f <= 50.
Proof.
  unfold bits_of_digits, digits_of, fraction_bits, precision_map. intros E. rewrite E. split; [reflexivity|]. apply nth_error_In in E.
  cbn [In] in E. repeat (destruct E as [<-|E]; [lia|]). contradiction.
Qed.
(** The integers of a chunk. *)
Record layout (dbg : bool) (bytes : list N) (f : N) (w : list N) (base top : Z) : Prop := {
  ly_chunk : chunk_of bytes base f (N.size (Z.to_N (top - base))) (map (fun v => Z.to_N (v - base)) (map (fx f) w));
  ly_base : In base (map (fx f) w);
  ly_top : In top (map (fx f) w);
  ly_between : Forall (fun v => base <= v <= top)%Z (map (fx f) w);
  ly_spread : dbg = true -> (top - base < 2 ^ 63)%Z }.
Lemma storable_layout dbg lg scale f w : bits_of_digits (digits_of lg scale) = Some f -> buff_storable dbg f w ->
  exists bytes base top, bf_encode dbg lg scale w = Ok bytes /\ layout dbg bytes f w base top.
Proof.
  intros D (NE & LN & U & R & SP). destruct (fraction_ok _ _ _ D) as [EF F]. rewrite Forall_forall in U, R.
  assert (EV : map_res (fun x => fixed_of dbg x f) w = Ok (map (fx f) w)) by (apply map_res_all; intros x I; apply (ranged f x F (U x I) (R x I))).
  assert (SP' : dbg = true -> forall u v, In u (map (fx f) w) -> In v (map (fx f) w) -> (u - v < 2 ^ 63)%Z).
  { intros DB u v IU IV. apply in_map_iff in IU, IV. destruct IU as (x & <- & IX), IV as (y & <- & IY).
    apply (SP DB x y); auto; apply ranged_fixed; auto. }
  destruct (encode_ok dbg lg scale f w (map (fx f) w) EF) as (bytes & base & top & EB & IB & IT & FB & CH); auto.
  - clear - F. lia.
  - apply Forall_forall. intros v I. apply in_map_iff in I as (x & <- & I). apply ranged_i64; auto.
  - intros E. apply map_eq_nil in E. contradiction.
  - rewrite map_length. exact LN.
  - exists bytes, base, top. split; [exact EB|]. constructor; auto.
Qed.

Lemma n_seq_length k : forall lo, length (n_seq lo k) = k.
Proof. induction k as [|k IH]; intros lo; cbn [n_seq length]; [reflexivity|]. now rewrite IH. Qed.
Lemma sorted_nodup l : StronglySorted N.lt l -> NoDup l.
Proof.
  induction 1 as [|x l S IH FA]; constructor; [|exact IH]. intros I. rewrite Forall_forall in FA. specialize (FA x I). lia.
Qed.

Section One.
  Variables (dbg simd : bool) (f : N) (w bytes : list N) (base top : Z).
  Hypothesis F : f <= 50.
  Hypothesis WU : Forall is_u64 w.
  Hypothesis WR : Forall (in_range f) w.
  Hypothesis LY : layout dbg bytes f w base top.
  Hypothesis SEVEN : 7 * N.of_nat (length w) < 2 ^ 32.
  Variables (mask : option bitmap) (off : N).
  Hypothesis MO : mask_ok mask.
  Let n := N.of_nat (length w).
  Hypothesis SM : off + n < 2 ^ 32.
  Let bits := N.size (Z.to_N (top - base)).
  Let ds := map (fun v => Z.to_N (v - base)) (map (fx f) w).
  Definition V (x : N) : Z := fx f (nth (N.to_nat (x - off)) w 0).

  Lemma ds_length : length ds = length w.
  Proof using. unfold ds. now rewrite !map_length. Qed.
  Lemma V_in x : off <= x < off + n -> In (V x) (map (fx f) w).
  Proof using. intros X. unfold V. apply in_map, nth_In. unfold n in X. clear - X. lia. Qed.
  Lemma V_between x : off <= x < off + n -> (base <= V x <= top)%Z.
  Proof using LY. intros X. pose proof (ly_between _ _ _ _ _ _ LY) as B. rewrite Forall_forall in B. apply B, V_in, X. Qed.
  Lemma delta_V x : off <= x < off + n -> delta_of off ds x = Z.to_N (V x - base).
  Proof using.
    intros X. unfold delta_of, ds, V. rewrite map_map. set (g := fun x => Z.to_N (fx f x - base)).
    rewrite (nth_indep _ 0 (g 0)) by (rewrite map_length; unfold n in X; clear - X; lia). now rewrite map_nth.
  Qed.
  Lemma base_top : (base <= top)%Z.
  Proof using LY. pose proof (ly_between _ _ _ _ _ _ LY) as B. rewrite Forall_forall in B. apply (B top), (ly_top _ _ _ _ _ _ LY). Qed.
  Lemma bits_zero : bits = 0 <-> base = top.
  Proof using LY.
    clear SM SEVEN F MO off. pose proof base_top. unfold bits. split; [|intros ->; now rewrite Z.sub_diag]. intros E. pose proof (N.size_gt (Z.to_N (top - base))) as G. rewrite E in G. cbn in G. lia.
  Qed.
  Lemma bits_above : (top - base < 2 ^ Z.of_N bits)%Z.
  Proof using LY. clear SM SEVEN F MO off. pose proof base_top. pose proof (N.size_gt (Z.to_N (top - base))) as G. fold bits in G. rewrite <- (Z2N.id (top - base)) by lia. change 2%Z with (Z.of_N 2). rewrite <- N2Z.inj_pow. lia. Qed.
  Lemma bits_least k : (base < top)%Z -> (top - base < 2 ^ k)%Z -> (Z.of_N bits <= k)%Z.
  Proof using LY.
    clear SM SEVEN F MO off. intros L K. assert (0 <= k)%Z by (destruct (Z.ltb_spec k 0) as [H|H]; [rewrite Z.pow_neg_r in K by assumption; lia|lia]).
    pose proof (N.size_le (Z.to_N (top - base))) as G. fold bits in G.
    assert (B1 : bits <> 0) by (intros E; apply bits_zero in E; lia).
    destruct (Z.leb_spec (Z.of_N bits) k) as [Q|Q]; [exact Q|]. exfalso.
    assert (P : (2 ^ (k + 1) <= 2 ^ Z.of_N bits)%Z) by (apply Z.pow_le_mono_r; lia). rewrite Z.pow_add_r in P by lia.
    assert (G2 : (2 ^ Z.of_N bits <= 2 * (top - base) + 1)%Z).
    { change 2%Z with (Z.of_N 2). rewrite <- N2Z.inj_pow. rewrite N.succ_double_spec in G. lia. }
    lia.
  Qed.

  Definition rm : option bitmap := option_map (fun bm => map fst (pick (Some bm) off w)) mask.
  Lemma restrict_ok : restrict dbg mask off (bf_open n bytes) = Ok rm.
  Proof using MO SM.
    unfold restrict, rm. destruct mask as [bm|]; [|reflexivity]. cbn [br_records bf_open option_map]. unfold n. rewrite chunk_mask_ok; [reflexivity|exact MO|exact SM].
  Qed.
  Lemma rm_within : mask_within rm off ds.
  Proof using.
    clear MO. unfold rm. destruct mask as [bm|]; cbn [option_map mask_within]; [|exact I]. apply (column_within off w ds); [symmetry; apply ds_length|]. apply (pick_within (Some bm) off w).
  Qed.
  Lemma chosen_In x : In x (chosen rm off ds) <-> in_mask mask x /\ off <= x < off + n.
  Proof using.
    clear MO. unfold rm, chosen. destruct mask as [bm|]; cbn [option_map in_mask].
    - apply pick_indices.
    - rewrite n_seq_In, ds_length. fold n. tauto.
  Qed.
  Lemma chosen_sorted : StronglySorted N.lt (chosen rm off ds).
  Proof using. apply (chosen_within _ _ _ rm_within). Qed.
  Lemma nr : n * (bits mod 8) < 2 ^ 32.
  Proof using SEVEN. assert (bits mod 8 < 8) by now apply N.mod_lt. fold n in SEVEN. set (r := bits mod 8) in *. clearbody r. clear - H SEVEN. nia. Qed.

  (** *** Filters *)
  Definition sand (P : Z -> bool) (obeyed : Prop) (bm : bitmap) : Prop :=
    StronglySorted N.lt bm /\ (forall x, In x bm -> off <= x < off + n /\ P (V x) = true) /\
    (forall x, in_mask mask x -> off <= x < off + n -> P (V x) = true -> In x bm) /\
    (mask = None \/ obeyed -> forall x, In x bm -> in_mask mask x).
  Definition op (u : N) : Prop := fixed_of dbg u f = Ok (fx f u) /\ i64 (fx f u) /\ (dbg = true -> (fx f u - base < 2 ^ 63)%Z).

  Lemma sand_filter P obeyed Q : (forall x, off <= x < off + n -> Q x = P (V x)) -> sand P obeyed (filter Q (chosen rm off ds)).
  Proof using.
    intros H. split; [apply sorted_filter, chosen_sorted|]. split; [|split].
    - intros x I. apply filter_In in I as [I E]. apply chosen_In in I as [_ I]. rewrite H in E by assumption. auto.
    - intros x M I E. apply filter_In. split; [apply chosen_In; auto|]. now rewrite H.
    - intros _ x I. apply filter_In in I as [I _]. now apply chosen_In in I.
  Qed.
  Lemma sand_none P obeyed : (forall x, off <= x < off + n -> P (V x) = false) -> sand P obeyed [].
  Proof using. intros H. split; [constructor|]. split; [contradiction|]. split; [|contradiction]. intros x _ I E. rewrite H in E by assumption. discriminate. Qed.
  Lemma sand_all P obeyed : ~ obeyed -> (forall x, off <= x < off + n -> P (V x) = true) -> sand P obeyed (n_seq off (length ds)).
  Proof using.
    intros NO H. split; [apply n_seq_sorted|]. split; [|split].
    - intros x I. apply n_seq_In in I. rewrite ds_length in I. auto.
    - intros x _ I _. apply n_seq_In. now rewrite ds_length.
    - intros [E|O]; [intros; rewrite E; exact I|contradiction].
  Qed.

  Lemma eq_sand u : op u -> ((base < top)%Z -> forall k, (top - base < 2 ^ k)%Z -> (fx f u - base < 2 ^ k)%Z) ->
    exists bm, buff_equal_filter dbg simd bytes u rm off = Ok bm /\ sand (fun v => Z.eqb v (fx f u)) (base < top)%Z bm.
  Proof using F LY SEVEN SM.
    intros (FX & I6 & SP) WW. pose proof base_top as BT.
    eexists. split.
    { apply (equal_filter_ok dbg simd bytes base f bits ds (ly_chunk _ _ _ _ _ _ LY) rm off rm_within); [| |exact FX|exact SP|exact I6].
      - rewrite ds_length. exact SM.
      - intros _. rewrite ds_length. apply nr. }
    destruct (Z.ltb_spec (fx f u) base) as [L|L].
    { apply sand_none. intros x X. apply V_between in X. lia. }
    destruct (N.eqb_spec bits 0) as [B|B].
    { apply bits_zero in B. destruct (Z.eqb_spec (fx f u) base) as [E|E].
      - apply sand_all; [lia|]. intros x X. apply V_between in X. lia.
      - apply sand_none. intros x X. apply V_between in X. lia. }
    assert (LT : (base < top)%Z) by (destruct (Z.eq_dec base top) as [E|E]; [apply bits_zero in E; contradiction|lia]).
    specialize (WW LT (Z.of_N bits) bits_above).
    assert (SE : seen bits rm (Z.to_N (fx f u - base)) = Z.to_N (fx f u - base)).
    { assert (S1 : Z.to_N (fx f u - base) < 2 ^ bits).
      { change 2%Z with (Z.of_N 2) in WW. rewrite <- N2Z.inj_pow in WW. lia. }
      unfold seen. assert (S2 : Z.to_N (fx f u - base) mod 2 ^ bits = Z.to_N (fx f u - base)) by now apply N.mod_small.
      destruct rm; [exact S2|]. destruct (N.ltb_spec bits 8) as [L8|L8]; [|exact S2]. apply N.mod_small. eapply N.lt_le_trans; [exact S1|].
      change 256 with (2 ^ 8). apply N.pow_le_mono_r; lia. }
    apply sand_filter. intros x X. rewrite SE, delta_V by assumption. apply V_between in X. destruct (Z.eqb_spec (V x) (fx f u)); [apply N.eqb_eq|apply N.eqb_neq]; lia.
  Qed.

  Lemma cmp_sand greater inclusive u : op u ->
    exists bm, buff_cmp_filter dbg simd greater inclusive bytes u rm off = Ok bm /\
      sand (fun v => (if greater then Z.ltb (fx f u) v else Z.ltb v (fx f u)) || inclusive && Z.eqb (fx f u) v) (base < top /\ base <= fx f u <= top)%Z bm.
  Proof using F LY SEVEN SM.
    intros (FX & I6 & SP). pose proof base_top as BT.
    eexists. split.
    { apply (cmp_filter_ok dbg simd bytes base f bits ds (ly_chunk _ _ _ _ _ _ LY) rm off rm_within); [| |exact FX|exact SP|exact I6].
      - rewrite ds_length. exact SM.
      - intros _. rewrite ds_length. apply nr. }
    cbn zeta. destruct (Z.ltb_spec (fx f u) base) as [L|L].
    { destruct greater; [apply sand_all|apply sand_none]; try lia; intros x X; apply V_between in X; destruct inclusive; cbn [andb]; lia. }
    destruct (N.eqb_spec bits 0) as [B|B].
    { apply bits_zero in B. match goal with |- sand _ _ (if ?b then _ else _) => destruct b eqn:E end; [apply sand_all|apply sand_none]; try lia;
        intros x X; apply V_between in X; destruct greater, inclusive; cbn [andb]; lia. }
    assert (LT : (base < top)%Z) by (destruct (Z.eq_dec base top) as [E|E]; [apply bits_zero in E; contradiction|lia]).
    pose proof bits_above as BA.
    destruct (Z.leb_spec (2 ^ Z.of_N bits) (fx f u - base)) as [W|W].
    { destruct greater; cbn [negb]; [apply sand_none|apply sand_all]; try lia; intros x X; apply V_between in X; destruct inclusive; cbn [andb]; lia. }
    apply sand_filter. intros x X. rewrite delta_V by assumption. apply V_between in X. unfold compares, beyond.
    destruct greater, inclusive; cbn [andb]; lia.
  Qed.

  Lemma all_n : all_records dbg (off mod two32) (n mod two32) = Ok (n_seq off (length ds)).
  Proof using SM. clear SEVEN F bits. unfold two32. change (2 ^ 32) with 4294967296 in *. rewrite !N.mod_small by lia. rewrite all_records_ok by exact SM. unfold n. now rewrite Nat2N.id, ds_length. Qed.
  Definition obeys (p : fpred) : Prop :=
    match p with
    | PEq _ => (base < top)%Z
    | PNe _ => True
    | PRange _ _ => (base < top)%Z /\ Forall (fun u => base <= fx f u <= top)%Z (pred_operands p)
    end.
  Definition in_width (p : fpred) : Prop :=
    match p with
    | PEq u | PNe u => (base < top)%Z -> forall k, (top - base < 2 ^ k)%Z -> (fx f u - base < 2 ^ k)%Z
    | PRange _ _ => True
    end.
  Definition zpred (p : fpred) (v : Z) : bool := pred_eval Z Z.eqb Z.leb Z.ltb (pred_map (fx f) p) v.

  Lemma sand_weaken P (o o' : Prop) bm : (o' -> o) -> sand P o bm -> sand P o' bm.
  Proof using. intros H (A & B & C & D). repeat split; auto; try (apply B; assumption). intros [E|E]; auto. Qed.
  Lemma sand_ext P Q o bm : (forall v, P v = Q v) -> sand P o bm -> sand Q o bm.
  Proof using.
    intros H (A & B & C & D). split; [exact A|]. split; [|split; [|exact D]].
    - intros x X. rewrite <- H. now apply B.
    - intros x M X E. rewrite <- H in E. now apply C.
  Qed.
  Lemma sand_and P Q o o' a b : sand P o a -> sand Q o' b -> sand (fun v => P v && Q v) (o /\ o') (bm_and a b).
  Proof using.
    intros (A & B & C & D) (A' & B' & C' & D'). unfold bm_and. split; [now apply sorted_filter|]. split; [|split].
    - intros x I. apply filter_In in I as [I1 I2]. apply bm_contains_In in I2. apply B in I1 as [I1 E1]. apply B' in I2 as [_ E2]. now rewrite E1, E2.
    - intros x M X E. apply andb_true_iff in E as [E1 E2]. apply filter_In. split; [now apply C|]. apply bm_contains_In. now apply C'.
    - intros H x I. apply filter_In in I as [I1 _]. apply D; [|assumption]. tauto.
  Qed.

  Lemma filter_sand p : Forall op (pred_operands p) -> in_width p ->
    exists bm, fst (bf_filter dbg simd p mask off (bf_open n bytes)) = Ok bm /\ sand (zpred p) (obeys p) bm.
  Proof using F LY SEVEN SM MO.
    intros OP IW. unfold bf_filter. cbn [fst]. rewrite restrict_ok. cbn [rbind]. cbn [br_bytes br_records bf_open].
    pose proof all_n as ALL.
    assert (EO : off mod two32 = off) by (apply N.mod_small; unfold two32; change (2 ^ 32) with 4294967296 in *; lia). rewrite EO in *.
    destruct p as [u|u|lo hi]; cbn [pred_operands obeys in_width] in *.
    - inversion_clear OP as [|? ? O _]. destruct (eq_sand u O IW) as (bm & E & S). exists bm. split; [exact E|exact S].
    - inversion_clear OP as [|? ? O _]. destruct (eq_sand u O IW) as (bm & E & (A & B & C & D)). rewrite E. cbn [rbind].
      assert (W : (match rm with Some bm => Ok bm | None => all_records dbg off (n mod two32) end) = Ok (chosen rm off ds)).
      { rewrite ALL. unfold chosen. now destruct rm. }
      rewrite W. cbn [rbind]. eexists. split; [reflexivity|]. unfold bm_diff, zpred. cbn [pred_map pred_eval].
      split; [apply sorted_filter, chosen_sorted|]. split; [|split].
      + intros x I. apply filter_In in I as [I NC]. apply chosen_In in I as [M X]. split; [exact X|]. destruct (Z.eqb_spec (V x) (fx f u)) as [EV|EV]; [|reflexivity].
        assert (IN : In x bm) by (apply C; [exact M|exact X|now apply Z.eqb_eq]). apply bm_contains_In in IN. rewrite IN in NC. discriminate.
      + intros x M X NV. apply filter_In. split; [apply chosen_In; auto|]. destruct (bm_contains bm x) eqn:CN; [|reflexivity].
        apply bm_contains_In in CN. apply B in CN as [_ CN]. rewrite CN in NV. discriminate.
      + intros _ x I. apply filter_In in I as [I _]. now apply chosen_In in I.
    - assert (SD : forall greater b, Forall op (match b with Inclusive v | Exclusive v => [v] | Unbounded => [] end) ->
        exists o, (match b with
            | Inclusive v => do bm <- buff_cmp_filter dbg simd greater true bytes v rm off ; Ok (Some bm)
            | Exclusive v => do bm <- buff_cmp_filter dbg simd greater false bytes v rm off ; Ok (Some bm)
            | Unbounded => Ok None
            end) = Ok o /\
          match o with
          | None => b = Unbounded
          | Some bm => sand (fun v => match bound_map (fx f) b with
                                     | Inclusive z => if greater then Z.leb z v else Z.leb v z
                                     | Exclusive z => if greater then Z.ltb z v else Z.ltb v z
                                     | Unbounded => true end)
                            ((base < top)%Z /\ Forall (fun u => base <= fx f u <= top)%Z (match b with Inclusive v | Exclusive v => [v] | Unbounded => [] end)) bm
          end).
      { intros greater [u|u|] OB; [| |exists None; auto].
        - inversion_clear OB as [|? ? O _]. destruct (cmp_sand greater true u O) as (bm & E & S). rewrite E. exists (Some bm). split; [reflexivity|].
          eapply sand_weaken; [|eapply sand_ext; [|exact S]].
          + intros [L FA]. inversion_clear FA. auto.
          + intros v. cbn [bound_map andb]. destruct greater; lia.
        - inversion_clear OB as [|? ? O _]. destruct (cmp_sand greater false u O) as (bm & E & S). rewrite E. exists (Some bm). split; [reflexivity|].
          eapply sand_weaken; [|eapply sand_ext; [|exact S]].
          + intros [L FA]. inversion_clear FA. auto.
          + intros v. cbn [bound_map andb]. rewrite orb_false_r. reflexivity. }
      apply Forall_app in OP as [OL OH]. destruct (SD true lo OL) as (o1 & E1 & S1). destruct (SD false hi OH) as (o2 & E2 & S2). clear SD.
      rewrite E1. cbn [rbind]. rewrite E2. cbn [rbind]. unfold zpred. cbn [pred_map pred_eval range_eval].
      destruct o1 as [b1|], o2 as [b2|].
      + eexists. split; [reflexivity|]. eapply sand_weaken; [|eapply sand_ext; [|exact (sand_and _ _ _ _ _ _ S1 S2)]].
        * intros [L FA]. apply Forall_app in FA. tauto.
        * intros v. unfold range_eval. destruct (bound_map _ lo), (bound_map _ hi); reflexivity.
      + subst hi. exists b1. split; [reflexivity|]. eapply sand_weaken; [|eapply sand_ext; [|exact S1]].
        * intros [L FA]. apply Forall_app in FA. tauto.
        * intros v. unfold range_eval. destruct (bound_map _ lo); cbn; now rewrite ?andb_true_r.
      + subst lo. exists b2. split; [reflexivity|]. eapply sand_weaken; [|eapply sand_ext; [|exact S2]].
        * intros [L FA]. apply Forall_app in FA. tauto.
        * intros v. unfold range_eval. destruct (bound_map _ hi); reflexivity.
      + subst lo hi. exists (chosen rm off ds). split; [rewrite ALL; unfold chosen; now destruct rm|].
        rewrite <- (filter_true (chosen rm off ds)). apply sand_filter. reflexivity.
  Qed.

  (** *** Extrema *)
  Lemma V_ranged x : off <= x < off + n -> i64 (V x) /\ (Z.abs (V x) < 2 ^ 63)%Z /\ short (V x).
  Proof using F WU WR.
    clear SM SEVEN MO LY bits ds. intros X. assert (I : In (nth (N.to_nat (x - off)) w 0) w) by (apply nth_In; unfold n in X; clear - X; lia).
    rewrite Forall_forall in WU, WR. specialize (WU _ I). specialize (WR _ I). split; [now apply ranged_i64|]. now apply ranged.
  Qed.
  Lemma vo : Forall (fun d => i64 (base + Z.of_N d) /\ (dbg = true -> d < 2 ^ 63)) ds.
  Proof using F WU WR LY.
    clear SM SEVEN MO off. apply Forall_forall. intros d I. unfold ds in I. apply in_map_iff in I as (v & <- & I). pose proof (ly_between _ _ _ _ _ _ LY) as B. rewrite Forall_forall in B.
    specialize (B v I). pose proof (ly_spread _ _ _ _ _ _ LY) as SP.
    replace (base + Z.of_N (Z.to_N (v - base)))%Z with v by lia. apply in_map_iff in I as (x & <- & I). rewrite Forall_forall in WU, WR.
    split; [now apply ranged_i64; auto|]. intros D. specialize (SP D). change (2 ^ 63) with 9223372036854775808. rewrite two63 in SP. lia.
  Qed.
  Definition best (is_min : bool) (xs : list N) (z : Z) : Prop :=
    (exists x, In x xs /\ z = V x) /\ forall y, In y xs -> if is_min then (z <= V y)%Z else (V y <= z)%Z.
  Lemma best_delta is_min xs d : (forall x, In x xs -> off <= x < off + n) -> extreme_of ds off is_min xs d -> best is_min xs (base + Z.of_N d).
  Proof using LY.
    clear SM SEVEN MO F. intros W [(x & I & ->) H]. split.
    - exists x. split; [exact I|]. rewrite delta_V by auto. pose proof (V_between x (W x I)). lia.
    - intros y IY. specialize (H y IY). unfold no_worse in H. rewrite !delta_V in * by auto. pose proof (V_between x (W x I)). pose proof (V_between y (W y IY)).
      destruct is_min; lia.
  Qed.
  Definition bf_extreme (is_min : bool) := if is_min then bf_min dbg mask off (bf_open n bytes) else bf_max dbg mask off (bf_open n bytes).
  Lemma w_nonempty : w <> [].
  Proof using LY. clear SM SEVEN MO F. pose proof (ly_base _ _ _ _ _ _ LY) as I. intros E. rewrite E in I. exact I. Qed.
  Lemma extreme_one is_min : chosen rm off ds <> [] ->
    exists z, best is_min (chosen rm off ds) z /\ fst (bf_extreme is_min) = Ok (unfix f z).
  Proof using F WU WR LY SEVEN SM MO.
    intros NE. pose proof restrict_ok as R.
    assert (EO : off mod two32 = off) by (apply N.mod_small; unfold two32; change (2 ^ 32) with 4294967296 in *; lia).
    assert (CI : forall x, In x (chosen rm off ds) -> off <= x < off + n) by (intros x I; now apply chosen_In in I).
    pose proof rm_within as RW.
    assert (SM' : off + N.of_nat (length ds) < 2 ^ 32) by (rewrite ds_length; exact SM).
    assert (NR' : N.of_nat (length ds) * (bits mod 8) < 2 ^ 32) by (rewrite ds_length; apply nr).
    unfold bf_extreme, bf_min, bf_max. destruct rm as [xs|] eqn:RM.
    - cbn [chosen] in *.
      destruct (extreme_masked_ok dbg bytes base f bits ds (ly_chunk _ _ _ _ _ _ LY) vo off is_min xs RW NE NR') as (d & EX & E).
      exists (base + Z.of_N d)%Z. split; [now apply best_delta|].
      destruct is_min; cbn [fst]; rewrite R; cbn [rbind]; rewrite EO; cbn [br_bytes bf_open]; (destruct xs; [congruence|exact E]).
    - cbn [chosen] in *. destruct is_min; cbn [fst]; rewrite R; cbn [rbind]; rewrite ?EO; cbn [br_bytes bf_open].
      + exists base. split; [|apply (min_ok bytes base f bits ds (ly_chunk _ _ _ _ _ _ LY))].
        pose proof (ly_base _ _ _ _ _ _ LY) as I. apply In_nth with (d := fx f 0) in I as (i & Hi & EI). rewrite map_length in Hi. rewrite map_nth in EI. split.
        * exists (off + N.of_nat i). split; [apply n_seq_In; rewrite ds_length; clear - Hi; lia|]. unfold V. rewrite <- EI. f_equal. f_equal. clear. lia.
        * intros y IY. apply CI in IY. apply V_between, IY.
      + destruct (max_ok dbg bytes base f bits ds (ly_chunk _ _ _ _ _ _ LY) vo off SM') as (d & EX & E).
        * intros E0. pose proof ds_length as DL. rewrite E0 in DL. apply w_nonempty. symmetry in DL. now apply length_zero_iff_nil.
        * intros _. exact NR'.
        * exists (base + Z.of_N d)%Z. split; [now apply best_delta|exact E].
  Qed.
  Lemma extreme_empty is_min : mask <> None -> chosen rm off ds = [] -> fst (bf_extreme is_min) = Ok S754_nan.
  Proof using MO SM.
    intros NM E. pose proof restrict_ok as R. unfold bf_extreme, bf_min, bf_max. unfold chosen in E. unfold rm in *. destruct mask as [bm|]; [|congruence]. cbn [option_map] in *.
    rewrite E in R. destruct is_min; cbn [fst]; rewrite R; reflexivity.
  Qed.

  (** *** Sums *)
  Definition zsum (xs : list N) : Z := fold_right (fun x t => V x + t)%Z 0%Z xs.
  Lemma zsum_delta xs : (forall x, In x xs -> off <= x < off + n) -> zsum xs = (base * Z.of_nat (length xs) + Z.of_N (total xs (delta_of off ds)))%Z.
  Proof using LY.
    clear SM SEVEN MO F. induction xs as [|x xs IH]; intros H; cbn [zsum fold_right total length]; [lia|]. unfold zsum, total in IH.
    rewrite IH by (intros; apply H; now right). rewrite delta_V by (apply H; now left). pose proof (V_between x (H x (or_introl eq_refl))). lia.
  Qed.
  Lemma zsum_bound B xs : (forall x, In x xs -> (Z.abs (V x) <= B)%Z) -> (Z.abs (zsum xs) <= B * Z.of_nat (length xs))%Z.
  Proof using.
    clear - w. induction xs as [|x xs IH]; intros H; cbn [zsum fold_right length]; [lia|]. unfold zsum in IH. specialize (IH (fun y I => H y (or_intror I))). specialize (H x (or_introl eq_refl)). lia.
  Qed.
  Lemma sum_one B : (forall v, In v (map (fx f) w) -> (Z.abs v <= B)%Z) -> (2 * B * Z.of_nat (length w) < 2 ^ 63)%Z -> mask = None \/ (base < top)%Z ->
    fst (bf_sum dbg mask off (bf_open n bytes)) = Ok (unfix f (zsum (chosen rm off ds))).
  Proof using F WU WR LY SEVEN SM MO.
    intros HB LIM OB. pose proof restrict_ok as R. unfold bf_sum. cbn [fst]. rewrite R. cbn [rbind br_bytes bf_open].
    assert (EO : off mod two32 = off) by (apply N.mod_small; unfold two32; change (2 ^ 32) with 4294967296 in *; lia). rewrite EO.
    assert (CI : forall x, In x (chosen rm off ds) -> off <= x < off + n) by (intros x I; now apply chosen_In in I).
    assert (LEN : (length (chosen rm off ds) <= length w)%nat).
    { assert (I : incl (chosen rm off ds) (n_seq off (length w))) by (intros x X; apply n_seq_In; now apply CI).
      apply NoDup_incl_length in I; [now rewrite n_seq_length in I|]. apply sorted_nodup, chosen_sorted. }
    assert (BB : forall x, In x (chosen rm off ds) -> (Z.abs (V x) <= B)%Z) by (intros x X; apply HB, V_in, CI, X).
    pose proof (zsum_bound B _ BB) as ZB. pose proof (zsum_delta _ CI) as ZD.
    assert (BA : (Z.abs base <= B)%Z) by (apply HB, (ly_base _ _ _ _ _ _ LY)).
    set (xs := chosen rm off ds) in *. set (T := total xs (delta_of off ds)) in *.
    assert (CNT : match rm with Some bm => Z.of_nat (length bm) | None => Z.of_N (N.of_nat (length ds)) end = Z.of_nat (length xs)).
    { unfold xs, chosen. destruct rm; [reflexivity|]. rewrite n_seq_length. lia. }
    assert (B1 : (B * Z.of_nat (length xs) <= B * Z.of_nat (length w))%Z) by (apply Z.mul_le_mono_nonneg_l; lia).
    assert (B2 : (Z.abs (base * Z.of_nat (length xs)) <= B * Z.of_nat (length w))%Z).
    { rewrite Z.abs_mul, (Z.abs_eq (Z.of_nat _)) by lia. apply Z.le_trans with (B * Z.of_nat (length xs))%Z; [|exact B1]. apply Z.mul_le_mono_nonneg_r; lia. }
    rewrite two63 in LIM.
    destruct (N.eq_dec bits 0) as [B0|B0].
    - pose proof (proj1 bits_zero B0) as BT. destruct OB as [MN|]; [|lia].
      rewrite (sum_constant dbg bytes base f bits ds (ly_chunk _ _ _ _ _ _ LY) off rm B0).
      pose proof (ly_base _ _ _ _ _ _ LY) as IB. apply in_map_iff in IB as (x & EX & IX). rewrite Forall_forall in WU, WR.
      destruct (ranged f x F (WU x IX) (WR x IX)) as (_ & _ & A6 & SH). rewrite EX in A6, SH.
      rewrite unfix_times; [|exact F|unfold i64; rewrite two63 in A6; lia|exact SH|].
      + do 2 f_equal. rewrite ZD. assert (T0 : T = 0).
        { unfold T. assert (Z0 : forall l, (forall x, In x l -> off <= x < off + n) -> total l (delta_of off ds) = 0).
          { induction l as [|y l IH]; intros H; cbn [total fold_right]; [reflexivity|]. unfold total in IH. rewrite IH by (intros; apply H; now right).
            rewrite delta_V by (apply H; now left). pose proof (V_between y (H y (or_introl eq_refl))). lia. }
          now apply Z0. }
        rewrite T0, <- CNT. unfold rm. rewrite MN. cbn [option_map]. lia.
      + rewrite ds_length. pose proof w_nonempty. assert (length w <> 0%nat) by (now rewrite length_zero_iff_nil). unfold n in SM. change (2 ^ 32) with 4294967296 in SM. change (2 ^ 32)%Z with 4294967296%Z. lia.
    - assert (TB : (Z.of_N T <= 2 * (B * Z.of_nat (length w)))%Z) by lia.
      rewrite (sum_ok dbg bytes base f bits ds (ly_chunk _ _ _ _ _ _ LY) off rm rm_within); [|intros _|exact B0|intros _]; fold xs; fold T; rewrite ?CNT.
      + do 2 f_equal. rewrite <- ZD. apply wrap_id. unfold i64. rewrite two63. lia.
      + change (2 ^ 64) with 18446744073709551616. lia.
      + unfold i64. rewrite two63. change (2 ^ 63) with 9223372036854775808. lia.
  Qed.

  (** *** Decoding *)
  Lemma kept_zero d : kept 0 d = d.
  Proof using. clear. unfold kept. now rewrite N.shiftr_0_r, N.mul_1_l. Qed.
  Lemma decode_exact : bf_decode dbg bytes None = Ok (cut_records f w).
  Proof using F WU WR LY.
    clear SM SEVEN MO off. destruct (decode_ok dbg bytes base f bits ds (ly_chunk _ _ _ _ _ _ LY) vo None 0 eq_refl) as (rho & R & E).
    assert (rho = 0) by (clear - R; lia). subst rho. rewrite E. f_equal. unfold cut_records, ds. rewrite !map_map. apply map_ext_in. intros x I. rewrite kept_zero. f_equal.
    pose proof (ly_between _ _ _ _ _ _ LY) as B. rewrite Forall_forall in B. specialize (B (fx f x) (in_map _ _ _ I)). lia.
  Qed.
  Lemma decode_reduced k g : bits_of_digits k = Some g ->
    exists rho, rho <= f - g /\ bf_decode dbg bytes (Some k) =
      Ok (map (fun x => shown f (base + Z.of_N (kept rho (Z.to_N (fx f x - base))))) w) /\
      forall x, In x w -> let z := (base + Z.of_N (kept rho (Z.to_N (fx f x - base))))%Z in i64 z /\ (z <= fx f x < z + 2 ^ Z.of_N rho)%Z.
  Proof using F WU WR LY.
    clear SM SEVEN MO off. intros EK.
    destruct (decode_ok dbg bytes base f bits ds (ly_chunk _ _ _ _ _ _ LY) vo (Some k) (f - g)) as (rho & R & E).
    { unfold spared. change precision_map with [0; 5; 8; 11; 15; 18; 21; 25; 28; 31; 35; 38; 50]. unfold bits_of_digits in EK. now rewrite EK. }
    exists rho. split; [exact R|]. split; [rewrite E; f_equal; unfold ds; now rewrite !map_map|].
    intros x I. cbn zeta. pose proof (ly_between _ _ _ _ _ _ LY) as B. rewrite Forall_forall in B. specialize (B (fx f x) (in_map _ _ _ I)).
    pose proof (kept_le rho (Z.to_N (fx f x - base))) as K.
    assert (P : Z.of_N (2 ^ rho) = (2 ^ Z.of_N rho)%Z) by now rewrite N2Z.inj_pow. rewrite <- P. rewrite Forall_forall in WU, WR.
    pose proof (ranged_i64 f x F (WU x I) (WR x I)) as I6. pose proof (ly_base _ _ _ _ _ _ LY) as IB. apply in_map_iff in IB as (y & EY & IY).
    pose proof (ranged_i64 f y F (WU y IY) (WR y IY)) as J6. rewrite EY in J6. unfold i64 in *. set (q := kept _ _) in *. clearbody q. set (p2 := 2 ^ rho) in *. clearbody p2. lia.
  Qed.
  Lemma decode_beyond k : bits_of_digits k = None -> bf_decode dbg bytes (Some k) = Panic.
  Proof using LY.
    clear SM SEVEN MO off. intros EK. unfold bf_decode. rewrite (header_ok _ _ _ _ _ (ly_chunk _ _ _ _ _ _ LY)). cbn [unwrap rbind].
    change precision_map with [0; 5; 8; 11; 15; 18; 21; 25; 28; 31; 35; 38; 50]. unfold bits_of_digits in EK. now rewrite EK.
  Qed.
End One.
