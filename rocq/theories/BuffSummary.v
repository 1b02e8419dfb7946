(** BUFF: corollaries in the form the properties are stated in. *)
From Coq Require Import Sorted.
From Verif Require Import Base WordProofs BitIO BitIOProofs Xor F64 F64Proofs F64BitsProofs Format FormatSpec File FileSpec FileProofs Query QuerySpec QueryProofs
  Sprintz SprintzProofs SprintzQueryProofs Buff BuffBitsProofs BuffFixedProofs BuffChunkProofs BuffReadProofs BuffScanProofs BuffFilterProofs BuffFoldProofs BuffFloatProofs
  BuffSimdProofs BuffSpec BuffCodec BuffQueryProofs Codecs CodecSpec FileSummary Readers QuerySummary.

(** ** One chunk *)
Lemma chunk_iff dbg lg scale xs bytes : buff_chunk dbg lg scale xs bytes <-> bf_encode dbg lg scale xs = Ok bytes.
Proof.
  unfold buff_chunk, bf_compress. destruct (bf_encode dbg lg scale xs) as [b|e|]; cbn [rbind]; split.
  - intros (c & E & <-). now injection E as <-.
  - intros E. injection E as <-. eexists. split; reflexivity.
  - intros (c & E & _). discriminate E.
  - discriminate.
  - intros (c & E & _). discriminate E.
  - discriminate.
Qed.
Lemma f50 lg scale f : bits_of_digits (digits_of lg scale) = Some f -> f <= 50.
Proof. intros D. now apply (fraction_ok lg scale f). Qed.
Lemma Forall2_map_r {A B} (R : A -> B -> Prop) (g : A -> B) l : (forall x, In x l -> R x (g x)) -> Forall2 R l (map g l).
Proof. induction l as [|x l IH]; intros H; cbn [map]; constructor; [apply H; now left|]. apply IH. intros; apply H; now right. Qed.
Lemma Forall2_weaken {A B} (P Q : A -> B -> Prop) l m : (forall x y, P x y -> Q x y) -> Forall2 P l m -> Forall2 Q l m.
Proof. intros H. induction 1; constructor; auto. Qed.
Lemma storable_at dbg f w x : buff_storable dbg f w -> In x w -> is_u64 x /\ in_range f x.
Proof. intros (_ & _ & U & R & _) I. rewrite Forall_forall in U, R. auto. Qed.

Section Chunk.
  Variables (dbg simd : bool) (lg : N -> N) (scale f : N) (xs bytes : list N).
  Hypothesis DG : bits_of_digits (digits_of lg scale) = Some f.
  Hypothesis OK : buff_storable dbg f xs.
  Hypothesis CK : buff_chunk dbg lg scale xs bytes.
  Let F : f <= 50 := f50 _ _ _ DG.

  Lemma laid : exists base top, layout dbg bytes f xs base top.
  Proof using DG OK CK.
    destruct (storable_layout dbg lg scale f xs DG OK) as (b & base & top & E & LY). apply chunk_iff in CK. rewrite CK in E. injection E as <-. eauto.
  Qed.
  Lemma fx_fixed x : In x xs -> fixed_point f x (fx f x).
  Proof using DG OK. intros I. destruct (storable_at _ _ _ _ OK I). apply ranged_fixed; auto. Qed.
  Lemma fixed_eq x v : In x xs -> fixed_point f x v -> v = fx f x.
  Proof using DG. intros _ H. apply fixed_fx in H; [apply H|exact F]. Qed.

  Lemma c15 : exists ys, fst (bf_decompress dbg (buff_reader xs bytes)) = Ok ys /\
    Forall2 (fun x y => exists v, fixed_point f x v /\ y = fixed_value f v /\ number y = Some (v * step f)%Z) xs ys.
  Proof using DG OK CK.
    destruct laid as (base & top & LY). pose proof OK as (_ & _ & U & R & _).
    exists (cut_records f xs). split.
    - unfold bf_decompress. cbn [buff_reader bf_open br_cache br_bytes br_precision]. rewrite (decode_exact dbg f xs bytes base top F U R LY). reflexivity.
    - unfold cut_records. apply Forall2_map_r. intros x I. destruct (storable_at _ _ _ _ OK I) as [UX RX]. exists (fx f x).
      split; [now apply fx_fixed|]. split; [symmetry; apply value_shown, F|]. apply shown_number; [exact F|now apply ranged_i64|now apply ranged].
  Qed.
  Lemma c16 : exists ys, fst (bf_decompress dbg (buff_reader xs bytes)) = Ok ys /\
    Forall2 (fun x y => exists a b, number x = Some a /\ number y = Some b /\
      (Z.abs b <= Z.abs a)%Z /\ (Z.abs (a - b) < step f)%Z /\ (0 <= a * b)%Z) xs ys.
  Proof using DG OK CK.
    destruct c15 as (ys & E & FA). exists ys. split; [exact E|]. eapply Forall2_weaken; [|exact FA]. cbn beta.
    intros x y (v & (a & EA & [L U] & S) & _ & EB). exists a, (v * step f)%Z. split; [exact EA|]. split; [exact EB|].
    destruct (step_pos f) as [P|P]; [|pose proof F; lia].
    set (s := step f) in *. clearbody s. clear - L U S P. destruct (Z.le_ge_cases 0 a) as [A|A], (Z.le_ge_cases 0 v) as [B|B];
      rewrite ?(Z.abs_eq a), ?(Z.abs_neq a), ?(Z.abs_eq v), ?(Z.abs_neq v) in * by assumption; rewrite Z.abs_mul, (Z.abs_eq s) by lia;
      rewrite ?(Z.abs_eq v), ?(Z.abs_neq v) by assumption; repeat split; nia.
  Qed.
  Lemma c17 k g : bits_of_digits k = Some g ->
    exists ys, fst (bf_decompress dbg (bf_with_precision k (buff_reader xs bytes))) = Ok ys /\
    Forall2 (fun x y => exists v w, fixed_point f x v /\ y = fixed_value f w /\ (w <= v < w + 2 ^ Z.of_N (f - g))%Z /\
      ((Z.abs w <= 2 ^ 53)%Z -> number y = Some (w * step f)%Z)) xs ys.
  Proof using DG OK CK.
    intros EK. destruct laid as (base & top & LY). pose proof OK as (_ & _ & U & R & _).
    destruct (decode_reduced dbg f xs bytes base top F U R LY k g EK) as (rho & RH & E & V).
    eexists. split.
    - unfold bf_decompress, bf_with_precision. cbn [buff_reader bf_open br_cache br_bytes br_precision]. rewrite E. reflexivity.
    - apply Forall2_map_r. intros x I. destruct (V x I) as [I6 B]. exists (fx f x). eexists. split; [now apply fx_fixed|]. split; [symmetry; apply value_shown, F|].
      split.
      + assert (P : (2 ^ Z.of_N rho <= 2 ^ Z.of_N (f - g))%Z) by (apply Z.pow_le_mono_r; lia). clear - B P. lia.
      + intros S. apply shown_number; [exact F|exact I6|now apply small_short].
  Qed.
  Lemma c17_panics k : bits_of_digits k = None -> fst (bf_decompress dbg (bf_with_precision k (buff_reader xs bytes))) = Panic.
  Proof using DG OK CK.
    intros EK. destruct laid as (base & top & LY). unfold bf_decompress, bf_with_precision. cbn [buff_reader bf_open br_cache br_bytes br_precision].
    now rewrite (decode_beyond dbg f xs bytes base top LY k EK).
  Qed.

  (** *** Filters *)
  Lemma operands_ok p base top : layout dbg bytes f xs base top -> operands_fit dbg f p xs -> Forall (op dbg f base) (pred_operands p).
  Proof using DG OK.
    intros LY (PU & PR & SP). apply Forall_forall. intros u I. rewrite Forall_forall in PU, PR. destruct (ranged f u F (PU u I) (PR u I)) as (_ & FX & _).
    split; [apply FX|]. split; [now apply ranged_i64; auto|]. intros D. pose proof (ly_base _ _ _ _ _ _ LY) as IB. apply in_map_iff in IB as (x & <- & IX).
    apply (SP D u x); [exact I|exact IX|now apply ranged_fixed; auto|now apply fx_fixed].
  Qed.
  Lemma bounds_iff base top : layout dbg bytes f xs base top ->
    (forall v, least_fixed f xs v <-> v = base) /\ (forall v, greatest_fixed f xs v <-> v = top).
  Proof using DG OK.
    intros LY. pose proof (ly_base _ _ _ _ _ _ LY) as IB. pose proof (ly_top _ _ _ _ _ _ LY) as IT. pose proof (ly_between _ _ _ _ _ _ LY) as B. rewrite Forall_forall in B.
    apply in_map_iff in IB as (xb & EB & IB). apply in_map_iff in IT as (xt & ET & IT).
    assert (LB : least_fixed f xs base).
    { split; [exists xb; split; [exact IB|]; rewrite <- EB; now apply fx_fixed|]. intros x w I FP. apply fixed_eq in FP; [|exact I]. subst w. apply B, in_map, I. }
    assert (GT : greatest_fixed f xs top).
    { split; [exists xt; split; [exact IT|]; rewrite <- ET; now apply fx_fixed|]. intros x w I FP. apply fixed_eq in FP; [|exact I]. subst w. apply B, in_map, I. }
    split; intros v; split; try (intros ->; assumption).
    - intros [(x & I & FP) H]. destruct LB as [(y & J & FQ) H']. specialize (H y base J FQ). specialize (H' x v I FP). lia.
    - intros [(x & I & FP) H]. destruct GT as [(y & J & FQ) H']. specialize (H y top J FQ). specialize (H' x v I FP). lia.
  Qed.
  Lemma width_ok p base top : layout dbg bytes f xs base top -> operands_fit dbg f p xs -> within_width f p xs -> in_width f base top p.
  Proof using DG OK.
    intros LY (PU & PR & _) W. destruct (bounds_iff base top LY) as [LB GT]. rewrite Forall_forall in PU, PR.
    destruct p as [u|u|lo hi]; cbn [within_width in_width pred_operands] in *; [| |exact I];
      intros L k K; apply (W base top (fx f u) k); [now apply LB|now apply GT|exact L| |exact K|now apply LB|now apply GT|exact L| |exact K];
      apply ranged_fixed; [exact F|apply PU; now left|apply PR; now left|exact F|apply PU; now left|apply PR; now left].
  Qed.
  Lemma obeyed_ok p mask base top : layout dbg bytes f xs base top -> operands_fit dbg f p xs -> mask_obeyed f p mask xs -> mask = None \/ obeys f base top p.
  Proof using DG OK.
    intros LY (PU & PR & _) [E|H]; [now left|right]. pose proof (ly_between _ _ _ _ _ _ LY) as B. rewrite Forall_forall in B.
    assert (BX : forall x v, In x xs -> fixed_point f x v -> (base <= v <= top)%Z).
    { intros x v I FP. apply fixed_eq in FP; [|exact I]. subst v. apply B, in_map, I. }
    assert (VA : chunk_varies f xs -> (base < top)%Z).
    { intros (x & y & v & w & IX & IY & FX & FY & L). specialize (BX x v IX FX) as B1. specialize (BX y w IY FY) as B2. lia. }
    destruct p as [u|u|lo hi]; cbn [obeys] in *; [now apply VA|exact I|]. destruct H as [H1 H2]. split; [now apply VA|].
    apply Forall_forall. intros u I. rewrite Forall_forall in PU, PR. destruct (H2 u (fx f u) I) as (x & y & v & w & IX & IY & FX & FY & L); [now apply ranged_fixed; auto|].
    specialize (BX x v IX FX) as B1. specialize (BX y w IY FY) as B2. lia.
  Qed.
End Chunk.

Lemma truncated_zpred f p v : f <= 50 -> Forall is_u64 (pred_operands p) -> Forall (in_range f) (pred_operands p) ->
  (truncated_satisfies f p v <-> zpred f p v = true).
Proof.
  intros F PU PR. rewrite Forall_forall in PU, PR.
  assert (FP : forall u z, In u (pred_operands p) -> (fixed_point f u z <-> z = fx f u)).
  { intros u z I. split; [intros H; apply fixed_fx in H; tauto|]. intros ->. apply ranged_fixed; auto. }
  unfold truncated_satisfies, zpred. destruct p as [u|u|lo hi]; cbn [pred_map pred_eval pred_operands] in *.
  - rewrite FP by now left. rewrite Z.eqb_eq. tauto.
  - rewrite FP by now left. rewrite negb_true_iff, Z.eqb_neq. tauto.
  - unfold range_eval. rewrite andb_true_iff.
    assert (A1 : forall u, In u (match lo with Inclusive v | Exclusive v => [v] | Unbounded => [] end) -> forall z, fixed_point f u z <-> z = fx f u) by (intros u I z; apply FP, in_or_app; now left).
    assert (A2 : forall u, In u (match hi with Inclusive v | Exclusive v => [v] | Unbounded => [] end) -> forall z, fixed_point f u z <-> z = fx f u) by (intros u I z; apply FP, in_or_app; now right).
    clear FP PU PR.
    assert (B1 : (match lo with Inclusive u => exists w, fixed_point f u w /\ (Z.lt w v \/ w = v) | Exclusive u => exists w, fixed_point f u w /\ Z.lt w v | Unbounded => True end) <->
      match bound_map (fx f) lo with Inclusive b => Z.leb b v | Exclusive b => Z.ltb b v | Unbounded => true end = true).
    { destruct lo as [u|u|]; cbn [bound_map] in *; [| |tauto]; specialize (A1 u (or_introl eq_refl)).
      - rewrite Z.leb_le. split; [intros (w & H & R); apply A1 in H; lia|]. intros H. exists (fx f u). split; [now apply A1|lia].
      - rewrite Z.ltb_lt. split; [intros (w & H & R); apply A1 in H; lia|]. intros H. exists (fx f u). split; [now apply A1|lia]. }
    assert (B2 : (match hi with Inclusive u => exists w, fixed_point f u w /\ (Z.gt w v \/ w = v) | Exclusive u => exists w, fixed_point f u w /\ Z.gt w v | Unbounded => True end) <->
      match bound_map (fx f) hi with Inclusive b => Z.leb v b | Exclusive b => Z.ltb v b | Unbounded => true end = true).
    { destruct hi as [u|u|]; cbn [bound_map] in *; [| |tauto]; specialize (A2 u (or_introl eq_refl)).
      - rewrite Z.leb_le. split; [intros (w & H & R); apply A2 in H; lia|]. intros H. exists (fx f u). split; [now apply A2|lia].
      - rewrite Z.ltb_lt. split; [intros (w & H & R); apply A2 in H; lia|]. intros H. exists (fx f u). split; [now apply A2|lia]. }
    cbn zeta. rewrite <- B1, <- B2. reflexivity.
Qed.

Section ChunkQueries.
  Variables (dbg simd : bool) (lg : N -> N) (scale f : N) (xs bytes : list N).
  Hypothesis DG : bits_of_digits (digits_of lg scale) = Some f.
  Hypothesis OK : buff_storable dbg f xs.
  Hypothesis CK : buff_chunk dbg lg scale xs bytes.
  Hypothesis SEVEN : 7 * N.of_nat (length xs) < 2 ^ 32.
  Variables (mask : option bitmap) (off : N).
  Hypothesis MO : mask_ok mask.
  Hypothesis SM : off + N.of_nat (length xs) < 2 ^ 32.
  Let F : f <= 50 := f50 _ _ _ DG.

  Lemma nth_V i : off <= i < off + N.of_nat (length xs) -> exists x, nth_error xs (N.to_nat (i - off)) = Some x /\ In x xs /\ V f xs off i = fx f x.
  Proof using.
    clear. intros H. unfold V. assert (L : (N.to_nat (i - off) < length xs)%nat) by lia. exists (nth (N.to_nat (i - off)) xs 0).
    split; [now apply nth_error_nth'|]. split; [now apply nth_In|reflexivity].
  Qed.
  Lemma c_filter p : operands_fit dbg f p xs -> within_width f p xs ->
    exists bm, fst (bf_filter dbg simd p mask off (buff_reader xs bytes)) = Ok bm /\ is_bitmap bm /\
      (forall i, In i bm -> matches f p off xs i) /\
      (forall i, in_mask mask i -> matches f p off xs i -> In i bm) /\
      (mask_obeyed f p mask xs -> forall i, In i bm -> in_mask mask i).
  Proof using All.
    intros OF WW. destruct (laid dbg lg scale f xs bytes DG OK CK) as (base & top & LY). pose proof OK as (_ & _ & U & R & _).
    destruct (filter_sand dbg simd f xs bytes base top F LY SEVEN mask off MO SM p) as (bm & E & (S & A & B & C)).
    { now apply (operands_ok dbg lg scale f xs bytes DG OK p base top LY). }
    { now apply (width_ok dbg lg scale f xs bytes DG OK p base top LY). }
    exists bm. split; [exact E|]. pose proof OF as (PU & PR & _). split.
    { split; [exact S|]. apply Forall_forall. intros i I. apply A in I as [I _]. clear - I SM. lia. }
    split; [|split].
    - intros i I. apply A in I as [I P]. split; [apply I|]. destruct (nth_V i I) as (x & EX & IX & EV). exists x, (fx f x).
      split; [exact EX|]. split; [apply (fx_fixed dbg lg scale f xs DG OK x IX)|]. rewrite <- EV. now apply truncated_zpred.
    - intros i M (L & x & v & EX & FP & TS). assert (I : off <= i < off + N.of_nat (length xs)).
      { split; [exact L|]. assert (N.to_nat (i - off) < length xs)%nat by (apply nth_error_Some; congruence). lia. }
      apply B; [exact M|exact I|]. destruct (nth_V i I) as (x' & EX' & IX & ->). rewrite EX in EX'. injection EX' as <-.
      apply fixed_fx in FP as [_ ->]; [|exact F]. now apply truncated_zpred.
    - intros MB. apply C. now apply (obeyed_ok dbg lg scale f xs bytes DG OK p mask base top LY).
  Qed.

  (** *** Extrema and sums *)
  Lemma chosen_pick base : chosen (rm xs mask off) off (map (fun v => Z.to_N (v - base)) (map (fx f) xs)) = map fst (pick mask off xs).
  Proof using.
    clear. unfold rm, chosen. destruct mask as [bm|]; cbn [option_map]; [reflexivity|]. now rewrite pick_seq, !map_length.
  Qed.
  Lemma masked_values : map snd (masked mask off xs) = map (fun i => nth (N.to_nat (i - off)) xs 0) (map fst (pick mask off xs)).
  Proof using SM.
    clear - SM. rewrite <- (pick_snd mask off xs : _ = map (fun i => nth (N.to_nat (i - off)) xs 0) _).
    rewrite <- (map_id xs) at 1. rewrite (masked_pick (fun x => x)) by lia. rewrite map_map. apply map_ext. now intros [? ?].
  Qed.
  Lemma picked_In i : In i (map fst (pick mask off xs)) -> off <= i < off + N.of_nat (length xs).
  Proof using. clear. intros I. apply in_map_iff in I as ([j x] & <- & I). now apply pick_ge in I. Qed.
  Lemma picked_x y : In y (map snd (masked mask off xs)) <-> exists i, In i (map fst (pick mask off xs)) /\ y = nth (N.to_nat (i - off)) xs 0.
  Proof using SM. rewrite masked_values, in_map_iff. split; intros (i & A & B); eauto. Qed.
  Lemma picked_member y : In y (map snd (masked mask off xs)) -> In y xs.
  Proof using SM. intros I. apply picked_x in I as (i & I & ->). apply picked_In in I. apply nth_In. clear - I. lia. Qed.

  Lemma c39 : exists ys, choose mask off xs ys /\
    (ys <> [] -> exists lo hi, least_fixed f ys lo /\ greatest_fixed f ys hi /\
      fst (bf_min dbg mask off (buff_reader xs bytes)) = Ok (fixed_quotient f lo) /\
      fst (bf_max dbg mask off (buff_reader xs bytes)) = Ok (fixed_quotient f hi)) /\
    (ys = [] -> fst (bf_min dbg mask off (buff_reader xs bytes)) = Ok S754_nan /\ fst (bf_max dbg mask off (buff_reader xs bytes)) = Ok S754_nan).
  Proof using All.
    destruct (laid dbg lg scale f xs bytes DG OK CK) as (base & top & LY). pose proof OK as (NX & _ & U & R & _).
    exists (map snd (masked mask off xs)). split; [now apply masked_choose|].
    pose proof (chosen_pick base) as CP. pose proof masked_values as MV. split.
    - intros NE. assert (NC : chosen (rm xs mask off) off (map (fun v => Z.to_N (v - base)) (map (fx f) xs)) <> []).
      { rewrite CP. intros E. rewrite E in MV. cbn in MV. contradiction. }
      destruct (extreme_one dbg f xs bytes base top F U R LY SEVEN mask off MO SM true NC) as (lo & [(i & II & EL) BL] & EMIN).
      destruct (extreme_one dbg f xs bytes base top F U R LY SEVEN mask off MO SM false NC) as (hi & [(j & JJ & EH) BH] & EMAX).
      rewrite CP in *. exists lo, hi. rewrite !quotient_unfix by exact F. split; [|split; [|split; [exact EMIN|exact EMAX]]].
      + split.
        * exists (nth (N.to_nat (i - off)) xs 0). split; [apply picked_x; eauto|]. rewrite EL. apply (fx_fixed dbg lg scale f xs DG OK). apply picked_member, picked_x. eauto.
        * intros y v IY FP. apply fixed_fx in FP as [_ ->]; [|exact F]. apply picked_x in IY as (k & IK & ->). apply (BL k IK).
      + split.
        * exists (nth (N.to_nat (j - off)) xs 0). split; [apply picked_x; eauto|]. rewrite EH. apply (fx_fixed dbg lg scale f xs DG OK). apply picked_member, picked_x. eauto.
        * intros y v IY FP. apply fixed_fx in FP as [_ ->]; [|exact F]. apply picked_x in IY as (k & IK & ->). apply (BH k IK).
    - intros E. assert (NC : chosen (rm xs mask off) off (map (fun v => Z.to_N (v - base)) (map (fx f) xs)) = []).
      { rewrite CP. rewrite E in MV. symmetry in MV. now apply map_eq_nil in MV. }
      assert (NM : mask <> None).
      { intros EM. rewrite EM in NC. cbn [rm option_map chosen] in NC. rewrite !map_length in NC. destruct xs; [congruence|discriminate NC]. }
      split; [exact (extreme_empty dbg f xs bytes base mask off MO SM true NM NC)|exact (extreme_empty dbg f xs bytes base mask off MO SM false NM NC)].
  Qed.
  Lemma c40 : sums_fit f xs -> mask = None \/ chunk_varies f xs ->
    exists ys t, choose mask off xs ys /\ fixed_sum f ys t /\ fst (bf_sum dbg mask off (buff_reader xs bytes)) = Ok (fixed_quotient f t).
  Proof using All.
    intros (B & HB & LIM) OB. destruct (laid dbg lg scale f xs bytes DG OK CK) as (base & top & LY). pose proof OK as (NX & _ & U & R & _).
    pose proof (chosen_pick base) as CP. exists (map snd (masked mask off xs)). eexists. split; [now apply masked_choose|]. split; cycle 1.
    - rewrite quotient_unfix by exact F.
      apply (sum_one dbg f xs bytes base top F U R LY SEVEN mask off MO SM B); [| |].
      + intros v I. apply in_map_iff in I as (x & <- & I). apply (HB x); [exact I|]. apply (fx_fixed dbg lg scale f xs DG OK x I).
      + exact LIM.
      + destruct OB as [E|(x & y & v & w & IX & IY & FX & FY & L)]; [now left|right]. apply fixed_fx in FX as [_ ->]; [|exact F]. apply fixed_fx in FY as [_ ->]; [|exact F].
        pose proof (ly_between _ _ _ _ _ _ LY) as BT. rewrite Forall_forall in BT. pose proof (BT _ (in_map _ _ _ IX)). pose proof (BT _ (in_map _ _ _ IY)). lia.
    - rewrite CP, masked_values. unfold zsum, V.
      assert (G : forall l, (forall i, In i l -> off <= i < off + N.of_nat (length xs)) ->
        fixed_sum f (map (fun i => nth (N.to_nat (i - off)) xs 0) l) (fold_right (fun x t => (fx f (nth (N.to_nat (x - off)) xs 0%N) + t)%Z) 0%Z l)).
      { induction l as [|i l IH]; intros H; cbn [map fold_right]; constructor.
        - apply (fx_fixed dbg lg scale f xs DG OK). apply nth_In. specialize (H i (or_introl eq_refl)). clear - H. lia.
        - apply IH. intros; apply H; now right. }
      apply G. intros i I. now apply picked_In.
  Qed.
End ChunkQueries.

(** ** Chunks that can and cannot be written *)
Lemma c15_written dbg lg scale f xs : bits_of_digits (digits_of lg scale) = Some f -> buff_storable dbg f xs ->
  exists bytes, buff_chunk dbg lg scale xs bytes.
Proof. intros D OK. destruct (storable_layout dbg lg scale f xs D OK) as (b & base & top & E & _). exists b. now apply chunk_iff. Qed.
Lemma precision_table k : nth_error precision_map (N.to_nat k) = bits_of_digits k.
Proof. reflexivity. Qed.
Lemma c15_digits dbg lg scale xs c : bits_of_digits (digits_of lg scale) = None -> bf_compress dbg lg scale c xs = Panic.
Proof.
  intros D. unfold bf_compress, bf_encode, fraction_bits. fold (digits_of lg scale). rewrite precision_table, D. reflexivity.
Qed.
Lemma c15_empty dbg lg scale c : bf_compress dbg lg scale c [] = Panic.
Proof. unfold bf_compress, bf_encode. destruct (fraction_bits lg scale) as [f|e|] eqn:E; cbn; try reflexivity. unfold fraction_bits in E. destruct (nth_error _ _); discriminate E. Qed.
Lemma c16_decimal d f : bits_of_digits d = Some f -> 0 < d -> (2 * step f * 10 ^ Z.of_N d <= 2 ^ 1074)%Z.
Proof.
  intros E D. assert (L : (N.to_nat d < 13)%nat).
  { apply (proj1 (nth_error_Some [0; 5; 8; 11; 15; 18; 21; 25; 28; 31; 35; 38; 50] (N.to_nat d))). unfold bits_of_digits in E. rewrite E. discriminate. }
  assert (G : f <= 50 /\ (2 * 10 ^ Z.of_N d <= 2 ^ Z.of_N f)%Z).
  { assert (C : d = 1 \/ d = 2 \/ d = 3 \/ d = 4 \/ d = 5 \/ d = 6 \/ d = 7 \/ d = 8 \/ d = 9 \/ d = 10 \/ d = 11 \/ d = 12) by lia.
    repeat match type of C with _ \/ _ => destruct C as [C|C] end; rewrite C in E |- *; cbn in E; injection E as <-; split; vm_compute; discriminate. }
  destruct G as [F G]. unfold step. clear E L. assert (exists t, (t = 1074)%Z) as (t & Et) by eauto. rewrite <- Et.
  replace t with ((t - Z.of_N f) + Z.of_N f)%Z at 2 by lia. rewrite Z.pow_add_r by lia.
  assert (0 < 2 ^ (t - Z.of_N f))%Z by (apply Z.pow_pos_nonneg; lia). nia.
Qed.

(** ** Columns with and without SIMD *)
Lemma c41 dbg greater col off pred mask n q : off + N.of_nat (length col) <= 2 ^ 32 -> Forall is_byte col -> is_byte pred ->
  StronglySorted N.lt mask -> Forall (fun x => off <= x < off + N.of_nat (length col)) mask ->
  eq_column dbg true col pred off = eq_column dbg false col pred off /\
  cmp_column dbg true greater col off pred q = cmp_column dbg false greater col off pred q /\
  cmp_masked dbg true greater col n off pred mask q = cmp_masked dbg false greater col n off pred mask q.
Proof.
  intros SM CB PB S W. rewrite !eq_column_ok by assumption. rewrite !cmp_column_ok by assumption.
  rewrite !cmp_masked_ok by (try assumption; split; assumption). auto.
Qed.

Lemma chunk_bytes bytes base fraction bits ds : chunk_of bytes base fraction bits ds -> Forall is_byte bytes.
Proof.
  intros (_ & _ & _ & _ & _ & tail & -> & BT & _). apply Forall_app. split; [apply header_bytes|]. apply Forall_app. split; [apply columns_bytes|exact BT].
Qed.
Lemma chunk_length bytes base fraction bits ds : chunk_of bytes base fraction bits ds ->
  N.of_nat (length bytes) = 20 + N.of_nat (length ds) * (bits / 8) + (N.of_nat (length ds) * (bits mod 8) + 7) / 8.
Proof.
  intros (_ & _ & _ & _ & _ & tail & -> & _ & LT & _). rewrite !app_length, header_length, columns_length. unfold bytes_for in LT. set (q := bits / 8) in *. lia.
Qed.
Lemma size_unique n k : n < 2 ^ k -> k = 0 \/ 2 ^ (k - 1) <= n -> N.size n = k.
Proof.
  intros U [->|L]; [assert (n = 0) as -> by (cbn in U; lia); reflexivity|].
  destruct (N.eq_dec n 0) as [->|NZ]; [assert (2 ^ (k - 1) <> 0) by (apply N.pow_nonzero; discriminate); lia|].
  rewrite N.size_log2 by exact NZ. destruct (N.eq_dec k 0) as [->|KZ]; [cbn in U; lia|].
  rewrite (N.log2_unique n (k - 1)); [lia|lia|]. split; [exact L|]. now replace (N.succ (k - 1)) with k by lia.
Qed.
Lemma c41_written dbg lg scale f xs bytes p mask off : bits_of_digits (digits_of lg scale) = Some f -> buff_storable dbg f xs -> buff_chunk dbg lg scale xs bytes ->
  mask_ok mask -> off + N.of_nat (length xs) < 2 ^ 32 ->
  fst (bf_filter dbg true p mask off (buff_reader xs bytes)) = fst (bf_filter dbg false p mask off (buff_reader xs bytes)).
Proof.
  intros DG OK CK MO SM. destruct (laid dbg lg scale f xs bytes DG OK CK) as (base & top & LY). pose proof (ly_chunk _ _ _ _ _ _ LY) as CO.
  apply filter_simd; [exact (chunk_bytes _ _ _ _ _ CO)|exact MO|exact SM|]. intros h q E. rewrite (header_ok _ _ _ _ _ CO) in E. injection E as <- _.
  cbn [bh_records]. now rewrite !map_length.
Qed.

(** ** Histories *)
Lemma settled dbg r : snd (bf_decompress dbg (snd (bf_decompress dbg r))) = snd (bf_decompress dbg r) /\
  fst (bf_decompress dbg (snd (bf_decompress dbg r))) = fst (bf_decompress dbg r).
Proof.
  unfold bf_decompress. destruct (br_cache r) as [vs|] eqn:C; cbn [fst snd]; [rewrite C; auto|].
  destruct (bf_decode dbg (br_bytes r) (br_precision r)) as [vs|e|] eqn:D; cbn [fst snd br_cache]; [auto|rewrite C, D; auto|rewrite C, D; auto].
Qed.
Lemma decompress_keeps dbg r : br_bytes (snd (bf_decompress dbg r)) = br_bytes r /\ br_records (snd (bf_decompress dbg r)) = br_records r /\
  br_precision (snd (bf_decompress dbg r)) = br_precision r.
Proof. unfold bf_decompress. destruct (br_cache r); [auto|]. destruct (bf_decode _ _ _); auto. Qed.
Lemma buff_step dbg simd neg off r q : let ex := buff_executor dbg simd neg in
  fst (q_step ex off (snd (bf_decompress dbg r)) q) = fst (q_step ex off r q) /\
  (snd (q_step ex off r q) = r \/ snd (q_step ex off r q) = snd (bf_decompress dbg r)).
Proof.
  destruct (settled dbg r) as [S1 S2]. destruct (decompress_keeps dbg r) as (B & R & P). set (s := snd (bf_decompress dbg r)) in *.
  assert (FT : forall p mask, fst (bf_filter dbg simd p mask off s) = fst (bf_filter dbg simd p mask off r)).
  { intros. unfold bf_filter, restrict. cbn [fst]. now rewrite B, R. }
  assert (EX : (forall mask, fst (bf_sum dbg mask off s) = fst (bf_sum dbg mask off r)) /\ (forall mask, fst (bf_min dbg mask off s) = fst (bf_min dbg mask off r)) /\
    (forall mask, fst (bf_max dbg mask off s) = fst (bf_max dbg mask off r))).
  { repeat split; intros; unfold bf_sum, bf_min, bf_max, restrict; cbn [fst]; now rewrite B, R. }
  assert (MT : forall mask, fst (default_materialize buffreader (bf_decompress dbg) mask off s) = fst (default_materialize buffreader (bf_decompress dbg) mask off r) /\
     snd (default_materialize buffreader (bf_decompress dbg) mask off r) = s).
  { intros. unfold default_materialize, s in *. destruct (bf_decompress dbg r) as [d r']. cbn [fst snd] in *. destruct (bf_decompress dbg r') as [d' r'']. cbn [fst snd] in *.
    subst d' r''. destruct d; auto. }
  destruct q as [mask|p mask|p mask|mask|mask|mask|o t|o t|]; cbn [q_step buff_executor ex_materialize ex_filter ex_filter_materialize ex_sum ex_min ex_max ex_distance_squared ex_dot_product ex_decompress].
  - destruct (MT mask) as [M1 M2]. destruct (default_materialize _ _ _ _ s) as [[w o] r1], (default_materialize _ _ _ _ r) as [[w' o'] r2]. cbn [fst snd] in *.
    injection M1 as -> ->. auto.
  - specialize (FT p mask). unfold bf_filter in *. cbn [fst snd] in *. rewrite FT. auto.
  - unfold bf_filter_materialize. specialize (FT p mask).
    assert (K : forall t, snd (bf_filter dbg simd p mask off t) = t) by reflexivity. pose proof (K s) as K1. pose proof (K r) as K2.
    destruct (bf_filter dbg simd p mask off s) as [b1 s1], (bf_filter dbg simd p mask off r) as [b2 s2]. cbn [fst snd] in *. subst b1 s1 s2.
    destruct b2 as [bm|e|]; [|auto|auto]. destruct (MT (Some bm)) as [M1 M2].
    destruct (default_materialize _ _ _ _ s) as [[w o] r1], (default_materialize _ _ _ _ r) as [[w' o'] r2]. cbn [fst snd] in *.
    injection M1 as -> ->. auto.
  - destruct EX as (E & _). specialize (E mask). unfold bf_sum in *. cbn [fst snd] in *. rewrite E. auto.
  - destruct EX as (_ & E & _). specialize (E mask). unfold bf_min in *. cbn [fst snd] in *. rewrite E. auto.
  - destruct EX as (_ & _ & E). specialize (E mask). unfold bf_max in *. cbn [fst snd] in *. rewrite E. auto.
  - unfold default_distance_squared, default_zip, s in *. destruct (bf_decompress dbg r) as [d r']. cbn [fst snd] in *.
    destruct (bf_decompress dbg r') as [d' r'']. cbn [fst snd] in *. subst d' r''. destruct d; auto.
  - unfold default_dot_product, default_zip, s in *. destruct (bf_decompress dbg r) as [d r']. cbn [fst snd] in *.
    destruct (bf_decompress dbg r') as [d' r'']. cbn [fst snd] in *. subst d' r''. destruct d; auto.
  - unfold s in *. destruct (bf_decompress dbg r) as [d r']. cbn [fst snd] in *. destruct (bf_decompress dbg r') as [d' r'']. cbn [fst snd] in *. subst d' r''. auto.
Qed.
Lemma c42_buff dbg simd neg off r qs : let ex := buff_executor dbg simd neg in
  fst (q_run ex off r qs) = map (fun q => fst (q_step ex off r q)) qs.
Proof.
  intros ex. assert (G : forall s, s = r \/ s = snd (bf_decompress dbg r) -> fst (q_run ex off s qs) = map (fun q => fst (q_step ex off r q)) qs).
  { induction qs as [|q qs IH]; intros s HS; [reflexivity|]. cbn [q_run map].
    assert (ST : fst (q_step ex off s q) = fst (q_step ex off r q) /\ (snd (q_step ex off s q) = r \/ snd (q_step ex off s q) = snd (bf_decompress dbg r))).
    { destruct (buff_step dbg simd neg off r q) as [A B]. destruct HS as [-> | ->]; [split; [reflexivity|exact B]|]. split; [exact A|].
      destruct (buff_step dbg simd neg off (snd (bf_decompress dbg r)) q) as [_ B']. destruct (settled dbg r) as [S1 _]. rewrite S1 in B'. fold ex in B'. right. now destruct B'. }
    destruct (q_step ex off s q) as [a t]. cbn [fst snd] in ST. destruct ST as [-> HT]. specialize (IH t HT).
    destruct (q_run ex off t qs) as [l u]. cbn [fst] in IH |- *. now rewrite IH. }
  apply G. now left.
Qed.

(** Changing the precision between queries. *)
Lemma bits_mono k k' g g' : bits_of_digits k = Some g -> bits_of_digits k' = Some g' -> k <= k' -> g <= g'.
Proof.
  intros E E' L. assert (L1 : (N.to_nat k' < 13)%nat).
  { apply (proj1 (nth_error_Some [0; 5; 8; 11; 15; 18; 21; 25; 28; 31; 35; 38; 50] (N.to_nat k'))). unfold bits_of_digits in E'. rewrite E'. discriminate. }
  unfold bits_of_digits in *. assert (L2 : (N.to_nat k <= N.to_nat k')%nat) by lia. revert L1 L2 E E'. generalize (N.to_nat k) (N.to_nat k'). clear.
  intros a b L1 L2 E E'. do 13 (destruct b as [|b]; [do 13 (destruct a as [|a]; [cbn in E, E'; injection E as <-; injection E' as <-; lia|]); lia|]). lia.
Qed.
Lemma truncated_weaken f g g' x y : g <= g' -> truncated_to f g' x y -> truncated_to f g x y.
Proof.
  intros L (v & w & A & B & C). exists v, w. split; [exact A|]. split; [exact B|].
  assert (2 ^ Z.of_N (f - g') <= 2 ^ Z.of_N (f - g))%Z by (apply Z.pow_le_mono_r; lia). lia.
Qed.
Section Precision.
  Variables (dbg simd neg : bool) (lg : N -> N) (scale f : N) (xs bytes : list N) (off : N).
  Hypothesis DG : bits_of_digits (digits_of lg scale) = Some f.
  Hypothesis OK : buff_storable dbg f xs.
  Hypothesis CK : buff_chunk dbg lg scale xs bytes.
  Definition good_reader (now : option N) (r : buffreader) : Prop :=
    br_bytes r = bytes /\ br_precision r = now /\
    forall ys, br_cache r = Some ys -> exists g, kept_bits f now = Some g /\ Forall2 (truncated_to f g) xs ys.
  Lemma decodes now g : kept_bits f now = Some g -> exists ys, bf_decode dbg bytes now = Ok ys /\ Forall2 (truncated_to f g) xs ys.
  Proof using DG OK CK.
    intros K. destruct now as [k|]; cbn [kept_bits] in K.
    - destruct (c17 dbg lg scale f xs bytes DG OK CK k g K) as (ys & E & FA). unfold bf_decompress, bf_with_precision in E.
      cbn [buff_reader bf_open br_cache br_bytes br_precision] in E. exists ys. destruct (bf_decode dbg bytes (Some k)); try discriminate E. cbn [fst] in E. split; [exact E|].
      eapply Forall2_weaken; [|exact FA]. intros x y (v & w & A & B & C & _). exists v, w. auto.
    - injection K as <-. destruct (c15 dbg lg scale f xs bytes DG OK CK) as (ys & E & FA). unfold bf_decompress in E. cbn [buff_reader bf_open br_cache br_bytes br_precision] in E.
      exists ys. destruct (bf_decode dbg bytes None); try discriminate E. cbn [fst] in E. split; [exact E|].
      eapply Forall2_weaken; [|exact FA]. intros x y (v & A & B & _). exists v, v. rewrite N.sub_diag. split; [exact A|]. split; [exact B|]. change (2 ^ Z.of_N 0)%Z with 1%Z. lia.
  Qed.
  Lemma good_decompress now g r : kept_bits f now = Some g -> good_reader now r ->
    (exists ys, fst (bf_decompress dbg r) = Ok ys /\ Forall2 (truncated_to f g) xs ys) /\ good_reader now (snd (bf_decompress dbg r)).
  Proof using DG OK CK.
    intros K (B & P & C). unfold bf_decompress. destruct (br_cache r) as [ys|] eqn:EC; cbn [fst snd].
    - destruct (C ys eq_refl) as (g' & K' & FA). rewrite K in K'. apply some_eq in K'. subst g'. split; [eauto|]. split; [exact B|]. split; [exact P|]. rewrite EC. exact C.
    - rewrite B, P. destruct (decodes now g K) as (ys & -> & FA). cbn [fst snd]. split; [eauto|]. split; [reflexivity|]. split; [reflexivity|].
      cbn [br_cache]. intros zs E. injection E as <-. eauto.
  Qed.
  Lemma c58 ops : Forall (fun o => match o with inl k => bits_of_digits k <> None | inr _ => True end) ops ->
    exists g ys, kept_bits f (last_precision ops None) = Some g /\
      fst (bf_decompress dbg (fold_left (precision_step dbg simd neg off) ops (buff_reader xs bytes))) = Ok ys /\
      Forall2 (truncated_to f g) xs ys.
  Proof using DG OK CK.
    intros V. assert (G : forall now r, kept_bits f now <> None -> good_reader now r ->
      kept_bits f (last_precision ops now) <> None /\ good_reader (last_precision ops now) (fold_left (precision_step dbg simd neg off) ops r)).
    { induction V as [|o ops HO V IH]; intros now r KN GR; cbn [last_precision fold_left]; [auto|]. destruct o as [k|q]; cbn [precision_step].
      - apply IH; [exact HO|]. destruct GR as (B & P & C). split; [exact B|]. split; [reflexivity|]. unfold bf_with_precision. cbn [br_cache]. rewrite P.
        destruct now as [old|]; [|discriminate]. destruct (N.ltb_spec old k) as [L|L]; [discriminate|]. intros ys E. destruct (C ys E) as (g' & K' & FA).
        cbn [kept_bits] in *. destruct (bits_of_digits k) as [g|] eqn:EK; [|congruence]. exists g. split; [reflexivity|].
        eapply Forall2_weaken; [|exact FA]. intros x y. apply truncated_weaken. exact (bits_mono k old g g' EK K' L).
      - apply IH; [exact KN|]. destruct (buff_step dbg simd neg off r q) as [_ [-> | ->]]; [exact GR|]. destruct (kept_bits f now) as [g|] eqn:K; [|congruence].
        now apply (good_decompress now g r K GR). }
    destruct (G None (buff_reader xs bytes)) as [K GR]; [discriminate|split; [reflexivity|]; split; [reflexivity|discriminate]|].
    destruct (kept_bits f (last_precision ops None)) as [g|] eqn:EK; [|congruence]. destruct (good_decompress _ g _ EK GR) as [(ys & E & FA) _]. eauto.
  Qed.
End Precision.

(** ** Records on the grid *)
Lemma c59 dbg lg scale f xs bytes : bits_of_digits (digits_of lg scale) = Some f -> buff_storable dbg f xs -> buff_chunk dbg lg scale xs bytes ->
  Forall (on_fixed_grid f) xs -> exists ys, fst (bf_decompress dbg (buff_reader xs bytes)) = Ok ys /\ Forall2 (fun x y => number y = number x) xs ys.
Proof.
  intros DG OK CK G. destruct (c15 dbg lg scale f xs bytes DG OK CK) as (ys & E & FA). exists ys. split; [exact E|]. pose proof OK as (_ & _ & U & _).
  clear E CK OK. induction FA as [|x y xs ys (v & FX & _ & NY) FA IH]; [constructor|]. inversion_clear G as [|? ? (w & FW & NX) G']. inversion_clear U. constructor; [|auto].
  pose proof (f50 _ _ _ DG) as F50. apply fixed_fx in FX as [_ ->]; [|assumption]. apply fixed_fx in FW as [_ ->]; [|assumption]. now rewrite NX.
Qed.

(** ** Sizes, reuse, short chunks *)
Lemma buff_reuse dbg lg scale c xs : match bf_compress dbg lg scale c xs, bf_compress dbg lg scale bf_new xs with
  | Ok a, Ok b => bf_buffers (bf_prepare a) = bf_buffers (bf_prepare b)
  | Err e, Err e' => e = e'
  | Panic, Panic => True
  | _, _ => False
  end.
Proof. unfold bf_compress. destruct (bf_encode dbg lg scale xs) as [b|e|]; cbn; auto. Qed.
Lemma buff_size c : bf_total_bytes_buffered c = N.of_nat (length (bf_buffers (bf_prepare c))).
Proof. reflexivity. Qed.
Lemma buff_length dbg lg scale f xs bytes lo hi k : bits_of_digits (digits_of lg scale) = Some f -> buff_storable dbg f xs -> buff_chunk dbg lg scale xs bytes ->
  least_fixed f xs lo -> greatest_fixed f xs hi -> (hi - lo < 2 ^ Z.of_N k)%Z -> k = 0 \/ (2 ^ Z.of_N (k - 1) <= hi - lo)%Z ->
  N.of_nat (length bytes) = 20 + N.of_nat (length xs) * (k / 8) + (N.of_nat (length xs) * (k mod 8) + 7) / 8.
Proof.
  intros DG OK CK LO HI UB LB. destruct (laid dbg lg scale f xs bytes DG OK CK) as (base & top & LY). destruct (bounds_iff dbg lg scale f xs bytes DG OK base top LY) as [A B].
  apply A in LO. apply B in HI. subst lo hi. pose proof (ly_chunk _ _ _ _ _ _ LY) as CO. rewrite (chunk_length _ _ _ _ _ CO). rewrite !map_length.
  assert (E : N.size (Z.to_N (top - base)) = k).
  { assert (NN : (base <= top)%Z) by (pose proof (ly_between _ _ _ _ _ _ LY) as BT; rewrite Forall_forall in BT; apply (BT top (ly_top _ _ _ _ _ _ LY))).
    apply size_unique; [|destruct LB as [->|LB]; [now left|right]].
    - apply N2Z.inj_lt. rewrite Z2N.id by lia. rewrite N2Z.inj_pow. exact UB.
    - apply N2Z.inj_le. rewrite Z2N.id by lia. rewrite N2Z.inj_pow. exact LB. }
  now rewrite E.
Qed.
Lemma short_header dbg n bs k : (length bs < 20)%nat ->
  fst (bf_decompress dbg (bf_open n bs)) = Panic /\ fst (bf_decompress dbg (bf_with_precision k (bf_open n bs))) = Panic.
Proof.
  intros L. assert (H : bf_header bs = Err tt).
  { unfold bf_header, bp_read_u32. do 5 (match goal with |- context [?a <? ?b] => destruct (N.ltb_spec a b) end; [reflexivity|]; cbn [rbind]). exfalso. clear - L H3. lia. }
  unfold bf_decompress, bf_decode. cbn [bf_open bf_with_precision br_cache br_bytes br_precision]. rewrite H. auto.
Qed.

(** ** Chunks for examples and counterexamples: scale 10, 5 fractional bits *)
Definition on_buff_chunk {A} (dbg : bool) (xs : list N) (q : buffreader -> A) : option A :=
  match bf_compress dbg (fun _ => 1) 10 bf_new xs with Ok c => Some (q (buff_reader xs (bf_buffers c))) | _ => None end.

(** Records out of range: infinity is stored as 1.0, NaN as 1.5 (release). *)
Lemma c15_refuted : exists x y, is_u64 x /\ on_buff_chunk false [x] (fun r => fst (bf_decompress false r)) = Some (Ok [y]) /\
  (exists a, number y = Some a) /\ number x <> number y /\ on_buff_chunk true [x] (fun r => fst (bf_decompress true r)) = None.
Proof. exists nan_bits, 0x3ff8000000000000. split; [reflexivity|]. split; [vm_compute; reflexivity|]. split; [eexists; reflexivity|]. split; [discriminate|vm_compute; reflexivity]. Qed.
Lemma c15_refuted_inf : exists x y, number x = Some (2 ^ 2098)%Z /\ on_buff_chunk false [x] (fun r => fst (bf_decompress false r)) = Some (Ok [y]) /\
  number y = Some (2 ^ 1074)%Z /\ on_buff_chunk true [x] (fun r => fst (bf_decompress true r)) = None.
Proof. exists 0x7ff0000000000000, 0x3ff0000000000000. repeat split; vm_compute; reflexivity. Qed.
(** A constant beyond the width of the chunk: [= 8.0] selects 0.0. *)
Lemma c37_width_refuted : exists xs v bm, on_buff_chunk true xs (fun r => fst (bf_decompress true r)) = Some (Ok xs) /\
  on_buff_chunk true xs (fun r => fst (bf_filter true true (PEq v) None 0 r)) = Some (Ok bm) /\ In 0 bm /\
  on_fixed_grid 5 v /\ exists x, nth_error xs 0 = Some x /\ ~ satisfies (PEq v) x.
Proof.
  exists [0; 0x401fe00000000000], 0x4020000000000000, [0]. split; [vm_compute; reflexivity|]. split; [vm_compute; reflexivity|]. split; [now left|]. split.
  - exists 256%Z. split; [eexists; split; [reflexivity|]; vm_compute; repeat split; discriminate|reflexivity].
  - exists 0. split; [reflexivity|]. vm_compute. discriminate.
Qed.
(** Constant chunks: the mask is ignored. *)
Lemma c37_mask_refuted : exists xs v mask bm, on_buff_chunk true xs (fun r => fst (bf_decompress true r)) = Some (Ok xs) /\ is_bitmap mask /\
  on_buff_chunk true xs (fun r => fst (bf_filter true true (PEq v) (Some mask) 0 r)) = Some (Ok bm) /\ In 0 bm /\ ~ In 0 mask.
Proof.
  exists [0x3ff0000000000000; 0x3ff0000000000000], 0x3ff0000000000000, [1], [0; 1]. split; [vm_compute; reflexivity|].
  split; [split; repeat constructor|]. split; [vm_compute; reflexivity|]. split; [now left|]. intros [E|[]]. discriminate E.
Qed.
(** Every record qualifies: the mask is ignored. *)
Lemma c38_mask_refuted : exists xs v mask bm, on_buff_chunk true xs (fun r => fst (bf_decompress true r)) = Some (Ok xs) /\ is_bitmap mask /\
  on_buff_chunk true xs (fun r => fst (bf_filter true true (PRange (Inclusive v) Unbounded) (Some mask) 0 r)) = Some (Ok bm) /\ In 0 bm /\ ~ In 0 mask.
Proof.
  exists [0x3ff0000000000000; 0x4000000000000000], 0, [1], [0; 1]. split; [vm_compute; reflexivity|].
  split; [split; repeat constructor|]. split; [vm_compute; reflexivity|]. split; [now left|]. intros [E|[]]. discriminate E.
Qed.
(** Operands are truncated: [>= 1.01] selects 1.0. *)
Lemma c38_off_grid_refuted : exists xs v bm, on_buff_chunk true xs (fun r => fst (bf_decompress true r)) = Some (Ok xs) /\
  on_buff_chunk true xs (fun r => fst (bf_filter true true (PRange (Inclusive v) Unbounded) None 0 r)) = Some (Ok bm) /\ In 0 bm /\
  exists x, nth_error xs 0 = Some x /\ ~ satisfies (PRange (Inclusive v) Unbounded) x.
Proof.
  exists [0x3ff0000000000000; 0x4000000000000000], 0x3ff028f5c28f5c29, [0; 1]. split; [vm_compute; reflexivity|]. split; [vm_compute; reflexivity|].
  split; [now left|]. exists 0x3ff0000000000000. split; [reflexivity|]. intros [H _]. vm_compute in H. now apply H.
Qed.
(** Infinite operands: [< +inf] selects nothing (release) or panics (debug). *)
Lemma c38_infinite_refuted : exists xs v, on_buff_chunk true xs (fun r => fst (bf_decompress true r)) = Some (Ok xs) /\
  number v = Some (2 ^ 2098)%Z /\ Forall (satisfies (PRange Unbounded (Exclusive v))) xs /\
  on_buff_chunk false xs (fun r => fst (bf_filter false true (PRange Unbounded (Exclusive v)) None 0 r)) = Some (Ok []) /\
  on_buff_chunk true xs (fun r => fst (bf_filter true true (PRange Unbounded (Exclusive v)) None 0 r)) = Some Panic.
Proof.
  exists [0x3ff0000000000000; 0x4000000000000000], 0x7ff0000000000000. split; [vm_compute; reflexivity|]. split; [reflexivity|].
  split; [repeat constructor; vm_compute; reflexivity|]. split; vm_compute; reflexivity.
Qed.
(** NaN operands: [>= NaN] selects records (release). *)
Lemma c38_nan_refuted : exists xs bm, on_buff_chunk true xs (fun r => fst (bf_decompress true r)) = Some (Ok xs) /\
  on_buff_chunk false xs (fun r => fst (bf_filter false true (PRange (Inclusive nan_bits) Unbounded) None 0 r)) = Some (Ok bm) /\ bm <> [] /\
  Forall (fun x => ~ satisfies (PRange (Inclusive nan_bits) Unbounded) x) xs.
Proof.
  exists [0x3ff0000000000000; 0x4000000000000000], [1]. split; [vm_compute; reflexivity|]. split; [vm_compute; reflexivity|]. split; [discriminate|].
  repeat constructor; now intros [H _].
Qed.
(** Constant chunks: [sum] ignores the mask. *)
Lemma c40_refuted : exists xs mask t, on_buff_chunk true xs (fun r => fst (bf_decompress true r)) = Some (Ok xs) /\ is_bitmap mask /\
  on_buff_chunk true xs (fun r => fst (bf_sum true (Some mask) 0 r)) = Some (Ok t) /\
  exists ys, choose (Some mask) 0 xs ys /\ forall z, fixed_sum 5 ys z -> t <> fixed_quotient 5 z.
Proof.
  exists [0x3ff0000000000000; 0x3ff0000000000000], [1], (of_bits 0x4000000000000000). split; [vm_compute; reflexivity|].
  split; [split; repeat constructor|]. split; [vm_compute; reflexivity|]. exists [0x3ff0000000000000]. split.
  - apply choose_skip; [intros [E|[]]; discriminate E|]. apply choose_take; [now left|]. constructor.
  - intros z H. inversion_clear H as [|? ? v t FP FS]. inversion_clear FS. apply fixed_fx in FP as [_ ->]; [|discriminate]. vm_compute. discriminate.
Qed.
Lemma c52_buff_refuted : exists bs, Forall is_byte bs /\ forall dbg, fst (bf_decompress dbg (bf_open 1 bs)) = Panic.
Proof. exists []. split; [constructor|]. intros dbg. apply (short_header dbg 1 [] 0). cbn. lia. Qed.
