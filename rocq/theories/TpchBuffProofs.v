(** The queries on columns encoded with BUFF: they run to the end. *)
From Coq Require Import String Reals Lra.
From Flocq Require Import Core BinarySingleNaN.
From Verif Require Import Base WordProofs Xor F64 F64Proofs F64BitsProofs F64Flocq Format FormatSpec File FileSpec FileSummary Codecs CodecSpec Readers Query QuerySpec QueryProofs QuerySummary
  Sprintz SprintzSpec SprintzSummary SprintzQueryProofs Buff BuffCodec BuffSpec BuffQueryProofs BuffSummary BuffFileSummary BuffSizeProofs Expr ExprSpec ExprProofs AggregateProofs ExprSummary
  RelErrorProofs Tpch TpchSpec TpchExtractProofs TpchGridProofs TpchColumnProofs TpchQueryProofs TpchTruncProofs.
Local Open Scope N_scope.
Notation g := (grid_value 100).

(** ** Cells *)
Lemma cell_number z : amount z -> exists a, number (g z) = Some a /\ (0 <= a)%Z /\ (Z.abs (a * 100 - z * 2 ^ 1074) * 2 ^ 27 <= z * 2 ^ 1074)%Z.
Proof.
  intros A. destruct (near_reports 1 z 100 (of_bits (g z)) (proj1 A) ltac:(lia) ltac:(vm_compute; discriminate) (near_grid z A)) as (b & a & E & U & N & B).
  exists a. split. { rewrite number_scaled by apply grid_value_u64. rewrite E, <- number_scaled by exact U. exact N. }
  destruct A as [A0 _]. revert B. generalize (2 ^ 1074)%Z (Z.pow_pos_nonneg 2 1074 ltac:(lia) ltac:(lia)). intros p PP B. split; [|exact B]. change (2 ^ 27)%Z with 134217728%Z in B.
  clear - A0 PP B. assert (0 <= z * p)%Z by nia. lia.
Qed.
Lemma step8 : (2 ^ 1074 = 256 * step 8)%Z.
Proof. unfold step. change (256)%Z with (2 ^ 8)%Z. rewrite <- Z.pow_add_r by lia. reflexivity. Qed.
Lemma step8_pos : (0 < step 8)%Z.
Proof. apply Z.pow_pos_nonneg; lia. Qed.
Lemma cell_bound z a : amount z -> number (g z) = Some a -> (0 <= a < 2 ^ 33 * step 8)%Z.
Proof.
  intros A E. destruct (cell_number z A) as (a' & E' & P & B). rewrite E in E'. apply some_eq in E'. subst a'. split; [exact P|]. rewrite step8 in B. pose proof step8_pos as S.
  revert S B. generalize (step 8). intros s S B. destruct A as [A0 A1]. change (10 ^ 9)%Z with 1000000000%Z in A1. change (2 ^ 27)%Z with 134217728%Z in B. change (2 ^ 33)%Z with 8589934592%Z.
  clear E. assert (M : (z * s <= 1000000000 * s)%Z) by nia. lia.
Qed.
Lemma cell_in_range z : amount z -> in_range 8 (g z).
Proof.
  intros A. destruct (cell_number z A) as (a & E & _). exists a. split; [exact E|]. pose proof (cell_bound z a A E) as [B0 B1]. pose proof step8_pos as S. revert S B0 B1. clear E. generalize (step 8). intros s S B0 B1.
  change (2 ^ 33)%Z with 8589934592%Z in B1. change (2 ^ 63)%Z with 9223372036854775808%Z. lia.
Qed.
Lemma cell_fixed z v : amount z -> fixed_point 8 (g z) v -> (0 <= v < 2 ^ 33)%Z.
Proof.
  intros A (a & E & (B1 & B2) & B3). pose proof (cell_bound z a A E) as [C0 C1]. pose proof step8_pos as S. revert S B1 B2 C1. clear E. generalize (step 8). intros s S B1 B2 C1.
  change (2 ^ 33)%Z with 8589934592%Z in *. assert (AV : (Z.abs v < 8589934592)%Z) by nia. split; [|lia]. destruct (Z.le_gt_cases 0 v) as [G|G]; [exact G|]. exfalso. assert (a = 0)%Z by nia. subst a. nia.
Qed.
Lemma cells_spread zs ws : Forall amount zs -> Forall amount ws -> spread_fits 8 (map g zs) (map g ws).
Proof.
  intros AZ AW x y v w IX IY FX FY. apply in_map_iff in IX as (z & <- & IX). apply in_map_iff in IY as (t & <- & IY). rewrite Forall_forall in AZ, AW.
  pose proof (cell_fixed z v (AZ z IX) FX). pose proof (cell_fixed t w (AW t IY) FY). change (2 ^ 33)%Z with 8589934592%Z in *. change (2 ^ 63)%Z with 9223372036854775808%Z. lia.
Qed.
Lemma truncated_cell z y : truncated_to 8 8 (g z) y -> y = tcell z.
Proof.
  intros (v & w & FP & -> & B). rewrite N.sub_diag in B. change (2 ^ Z.of_N 0)%Z with 1%Z in B. assert (w = v) by lia. subst w. apply fixed_fx in FP as [_ ->]; [reflexivity|lia].
Qed.
Lemma truncated_cells zs ys : Forall2 (truncated_to 8 8) (map g zs) ys -> ys = map tcell zs.
Proof.
  revert ys. induction zs as [|z zs IH]; intros ys F; inversion F as [|? y ? l T F']; subst; [reflexivity|]. cbn [map]. f_equal; [now apply truncated_cell|now apply IH].
Qed.
Lemma truncated_columns zss yss : Forall2 (Forall2 (truncated_to 8 8)) (map (map g) zss) yss -> yss = map (map tcell) zss.
Proof.
  revert yss. induction zss as [|zs zss IH]; intros yss F; inversion F as [|? y ? l T F']; subst; [reflexivity|]. cbn [map]. f_equal; [now apply truncated_cells|now apply IH].
Qed.

(** ** Columns *)
Section Column.
  Variable P : platform.
  Hypothesis GP : good_platform P.
  Hypothesis LG : p_lg P 100 = 2.
  Let dbg := p_dbg P.
  Let neg := p_neg P.

  (** Predicates the experiment uses. *)
  Definition known (p : fpred) : Prop := exists lo hi, p = PRange lo hi /\ forall u, In u (pred_operands p) -> exists z, amount z /\ u = g z.
  Definition buff_column (d : decoder) (zss : list (list Z)) : Prop :=
    holds dbg neg d (map (map tcell) zss) /\
    (forall p mask, known p -> mask_ok mask -> exists bm, filter_column P d p mask = Ok bm /\ is_bitmap bm /\
      (forall i, In i bm -> matches 8 p 0 (map g (concat zss)) i) /\
      (forall i, in_mask mask i -> matches 8 p 0 (map g (concat zss)) i -> In i bm) /\
      ((forall zs, In zs zss -> mask_obeyed 8 p mask (map g zs)) -> forall i, In i bm -> in_mask mask i)) /\
    exists x, dec_sum dbg (d_ex d) (d_meta d) (d_file d) (d_precision d) None None = Ok x /\
      near roundings (IZR (zsum (map kept_amount (concat zss))) * / 256)%R x.

  Variable zss : list (list Z).
  Hypothesis ZC : cut_rows zss.
  Hypothesis ZA : Forall amount (concat zss).
  Hypothesis ZL : N.of_nat (length (concat zss)) < 2 ^ 32.
  Hypothesis ZN : concat zss <> [].
  Let parts := map (map g) zss.
  Let xs := map g (concat zss).

  Lemma digits8 : bits_of_digits (digits_of (p_lg P) 100) = Some 8.
  Proof using LG. unfold digits_of. cbn [N.eqb]. change (100 =? 0) with false. cbv iota. rewrite LG. reflexivity. Qed.
  Lemma cells_encodable : buff_encodable dbg (p_lg P) 100 8 default_chunk_option (p_timer P) (p_elapsed P) [Data (bytes_of xs)] xs.
  Proof using All.
    destruct GP as (FL & VT & EL). split; [exact digits8|]. split; [split; reflexivity|]. split.
    { constructor; [|constructor]. eexists. split; [reflexivity|]. unfold xs. destruct (concat zss) as [|z zs]; [now destruct ZN|]. cbn. discriminate. }
    split; [exists []; cbn; rewrite !app_nil_r; repeat split; [lia|constructor]|].
    split. { apply Forall_map, Forall_forall. intros z _. apply grid_value_u64. }
    split. { unfold xs. now rewrite map_length. }
    split; [split; [vm_compute; repeat split; try discriminate; reflexivity|split; [reflexivity|split; assumption]]|].
    split; [|intros _; now apply cells_spread]. unfold xs. apply Forall_map. eapply Forall_impl; [|exact ZA]. exact cell_in_range.
  Qed.
  Lemma part_amounts part : In part parts -> exists zs, part = map g zs /\ Forall amount zs /\ (length zs <= N.to_nat chunk_rows)%nat.
  Proof using All.
    intros I. apply in_map_iff in I as (zs & <- & I). exists zs. split; [reflexivity|]. split.
    - apply Forall_forall. intros z IZ. rewrite Forall_forall in ZA. apply ZA. apply in_concat. eauto.
    - apply In_nth_error in I as (i & E). destruct ZC as [_ C]. destruct (C i zs E) as [B _]. lia.
  Qed.
  Lemma looked_in off part : In (off, part) (looked_at parts None) -> In part parts.
  Proof using. clear. intros I. destruct (nth_looked parts None off part I) as (i & E & _). eapply nth_error_In, E. Qed.
  Lemma parts_fit off part : In (off, part) (looked_at parts None) -> chunk_fits part.
  Proof using All.
    intros I. destruct (part_amounts part (looked_in off part I)) as (zs & -> & _ & L). unfold chunk_fits. rewrite map_length. assert (N.of_nat (length zs) <= chunk_rows) by lia. change chunk_rows with 16777216 in *. change (2 ^ 32) with 4294967296. lia.
  Qed.
  Lemma sums_ok off part : In (off, part) (looked_at parts None) -> sums_fit 8 part /\ (@None bitmap = None \/ chunk_varies 8 part).
  Proof using All.
    intros I. split; [|now left]. destruct (part_amounts part (looked_in off part I)) as (zs & -> & A & L). exists (2 ^ 33)%Z. split.
    - intros x v IX FP. apply in_map_iff in IX as (z & <- & IZ). rewrite Forall_forall in A. pose proof (cell_fixed z v (A z IZ) FP). lia.
    - rewrite map_length. assert (N.of_nat (length zs) <= chunk_rows) by lia. change chunk_rows with 16777216 in *. change (2 ^ 33)%Z with 8589934592%Z. change (2 ^ 63)%Z with 9223372036854775808%Z. lia.
  Qed.

  Lemma stored_column m file vss : buff_stored dbg (p_simd P) neg (p_lg P) 100 8 m file None parts vss ->
    buff_column (mkDec (buff_executor dbg (p_simd P) neg) m file None) zss.
  Proof using All.
    intros SS. assert (VE : vss = map (map tcell) zss).
    { destruct SS as (_ & _ & (k & K & F) & _). cbn [kept_bits] in K. apply some_eq in K. subst k. now apply truncated_columns. }
    assert (SM : N.of_nat (length (concat parts)) < 2 ^ 32) by (unfold parts; rewrite concat_map_map, map_length; exact ZL).
    split; [rewrite <- VE; eapply buff_holds, SS|]. split.
    - intros p mask (lo & hi & EP & KO) MO.
      destruct (file_filter dbg (p_simd P) neg (p_tie P) (p_lg P) 100 8 m file None parts vss SS mask MO SM None 0 (concat parts) (scope_all parts) parts_fit p) as (bm & F & BM & M1 & M2 & M3).
      2: { exists bm. split; [exact F|]. split; [exact BM|]. rewrite <- concat_map_map. split; [exact M1|]. split; [exact M2|]. intros MO' i. apply M3. intros off part I.
        apply looked_in in I. apply in_map_iff in I as (zs & <- & I). now apply MO'. }
      intros off part I. destruct (part_amounts part (looked_in off part I)) as (zs & -> & A & _). split; [|subst p; exact Logic.I].
      split; [|split].
      + apply Forall_forall. intros u IU. destruct (KO u IU) as (z & _ & ->). apply grid_value_u64.
      + apply Forall_forall. intros u IU. destruct (KO u IU) as (z & AZ & ->). now apply cell_in_range.
      + intros _ x y v w IX IY. destruct (KO x IX) as (z & AZ & ->). apply (cells_spread [z] zs); [constructor; [exact AZ|constructor]|exact A|now left|exact IY].
    - destruct (file_sum dbg (p_simd P) neg (p_tie P) (p_lg P) 100 8 m file None parts vss SS None Logic.I SM None 0 (concat parts) (scope_all parts) parts_fit (concat vss) (scope_all vss) sums_ok) as (yss & ts & CH & FS & E).
      eexists. split; [exact E|]. rewrite looked_at_all in CH. apply chosen_none in CH. subst yss.
      assert (NP : Forall (fun p : list N => p <> []) parts). { destruct ZC as [NE _]. unfold parts. apply Forall_map. eapply Forall_impl; [|exact NE]. intros [|z zs] X; [now destruct X|discriminate]. }
      rewrite (filter_all parts NP) in FS.
      assert (AL : Forall (Forall amount) zss). { apply Forall_forall. intros zs I. apply Forall_forall. intros z IZ. rewrite Forall_forall in ZA. apply ZA, in_concat. eauto. }
      assert (TE : ts = map (fun zs => zsum (map kept_amount zs)) zss).
      { clear - FS AL. unfold parts in FS. revert ts FS. induction AL as [|zs l AZ A IH]; intros ts FS; inversion FS as [|? t ? ts' F1 F2]; subst; [reflexivity|]. cbn [map]. f_equal; [now apply fixed_sum_cells|now apply IH]. }
      subst ts. replace (zsum (map kept_amount (concat zss))) with (zsum (map (fun zs => zsum (map kept_amount zs)) zss)).
      2: { rewrite concat_map, zsum_concat, map_map. reflexivity. }
      assert (KN : forall zs, In zs zss -> (0 <= zsum (map kept_amount zs) <= 2560000000 * Z.of_nat (length zs))%Z).
      { intros zs I. rewrite Forall_forall in AL. specialize (AL zs I). assert (B : Forall (fun m => (0 <= m <= 2560000000)%Z) (map kept_amount zs)).
        { apply Forall_map. eapply Forall_impl; [|exact AL]. intros z A. apply (kept_bounds z A). }
        split; [apply zsum_nonneg; eapply Forall_impl; [|exact B]; intros ? X; apply X|]. rewrite <- (map_length kept_amount zs). apply zsum_bound; [lia|]. exact B. }
      assert (LZ : forall zs, In zs zss -> (Z.of_nat (length zs) <= 16777216)%Z).
      { intros zs I. destruct (part_amounts (map g zs) (in_map (map g) _ _ I)) as (zs' & EZ & _ & LL). apply (f_equal (@length N)) in EZ. rewrite !map_length in EZ. change chunk_rows with 16777216 in LL. lia. }
      assert (NL : (Z.of_nat (length zss) <= 256)%Z) by (apply cut_few; [exact ZC|exact ZL]).
      assert (ALLP : Forall (fun m => (0 <= m <= 2560000000 * 16777216)%Z) (map (fun zs => zsum (map kept_amount zs)) zss)).
      { apply Forall_map, Forall_forall. intros zs I. pose proof (KN zs I). pose proof (LZ zs I). lia. }
      eapply (near_le (1 + length (map (fun zs => zsum (map kept_amount zs)) zss))).
      + apply Rmult_le_pos; [|lra]. apply IZR_le, zsum_nonneg. eapply Forall_impl; [|exact ALLP]. intros ? X. apply X.
      + rewrite map_length. apply Nat2Z.inj_le. rewrite roundings_Z. lia.
      + apply near_sum; [exact q256|eapply Forall_impl; [|exact ALLP]; intros ? X; apply X| |unfold few; rewrite map_length; lia|].
        * change (fold_right Z.add 0%Z) with zsum. assert (SB : (zsum (map (fun zs => zsum (map kept_amount zs)) zss) <= 2560000000 * 16777216 * Z.of_nat (length (map (fun zs => zsum (map kept_amount zs)) zss)))%Z) by (apply zsum_bound; [lia|exact ALLP]).
          rewrite map_length in SB. apply Z.le_trans with (2560000000 * 16777216 * 256)%Z; [lia|vm_compute; discriminate].
        * clear - ALLP. induction ALLP as [|m l M A IH]; cbn [map]; constructor; [|exact IH]. apply near_integer. split; [apply M|]. apply Z.le_trans with (2560000000 * 16777216)%Z; [apply M|vm_compute; discriminate].
  Qed.
  Lemma buff_opened : N.of_nat (length (written [] (fst (encode_column P (CBuff 100) xs)))) < 2 ^ 63 ->
    exists d s, open_column P (CBuff 100) xs = Ok d /\ column_statistics P d = Ok s /\ buff_column d zss /\
      st_uncompressed s = 8 * N.of_nat (length xs) /\ st_file s = N.of_nat (length (written [] (fst (encode_column P (CBuff 100) xs)))) /\
      st_file s = 30 + st_chunks s + footer_size (m_footer (d_meta d)) /\ f_config (m_footer (d_meta d)) = CBuff 100 /\
      f_records (m_footer (d_meta d)) = N.of_nat (length xs).
  Proof using All.
    intros MEM. pose proof cells_encodable as EC. assert (NE : xs <> []) by (unfold xs; destruct (concat zss); [now destruct ZN|discriminate]).
    assert (PP : partition (records_per_chunk default_chunk_option) xs parts) by (unfold xs, parts; rewrite <- concat_map_map; apply cut_partition; now apply cut_map).
    destruct (buff_sizes _ _ _ _ _ _ _ _ _ EC NE) as (ops & EN & W). unfold open_column.
    unfold encode_column in *. cbn [codec_of] in *. fold dbg in MEM |- *. rewrite EN in *. cbn [fst rbind] in *.
    destruct (W MEM) as (m & sizes & OP & TF & _ & TC & TX & NR & FC).
    assert (LM : (isize_limit <=? N.of_nat (length (written [] ops))) = false) by (apply N.leb_gt; exact MEM). rewrite LM, OP. cbn [rbind]. rewrite FC. cbn [executor_of]. fold dbg neg.
    eexists. eexists. split; [reflexivity|]. split.
    { unfold column_statistics. cbn [d_meta]. fold dbg. rewrite NR, TC. unfold mul8.
      assert (X : (two64 <=? 8 * N.of_nat (length xs)) = false).
      { apply N.leb_gt. unfold xs. rewrite map_length. change (2 ^ 32) with 4294967296 in ZL. change two64 with 18446744073709551616. lia. }
      rewrite X. cbn [rbind]. reflexivity. }
    split; [|cbn [st_uncompressed st_file st_chunks d_meta]; split; [reflexivity|split; [exact TF|split; [exact TX|split; [exact FC|exact NR]]]]].
    destruct (buff_file dbg (p_simd P) neg _ _ _ _ _ _ _ _ EC NE) as (ops2 & ps & PS & EN2 & W2). rewrite EN in EN2. injection EN2 as <-.
    destruct (W2 [] MEM) as (m2 & OP2 & ST). rewrite OP in OP2. injection OP2 as <-. destruct (ST None ltac:(discriminate)) as (vss & SS).
    rewrite <- (partition_unique _ _ _ _ PP PS) in SS. exact (stored_column m _ vss SS).
  Qed.
End Column.

(** ** Queries *)
Lemma known_discount : known h06_discount.
Proof.
  exists (Inclusive 0x3fa999999999999a), (Inclusive 0x3fb1eb851eb851ec). split; [reflexivity|]. unfold h06_discount. rewrite five_hundredths, seven_hundredths. cbn [pred_operands app In].
  intros u [<-|[<-|[]]]; [exists 5%Z|exists 7%Z]; (split; [unfold amount; lia|reflexivity]).
Qed.
Lemma known_quantity : known h06_quantity.
Proof.
  exists Unbounded, (Exclusive 0x4038000000000000). split; [reflexivity|]. unfold h06_quantity. rewrite twenty_four. cbn [pred_operands app In].
  intros u [<-|[]]. exists 2400%Z. split; [unfold amount; lia|reflexivity].
Qed.
Section Runs.
  Variable P : platform.
  Hypothesis GP : good_platform P.
  Hypothesis LG : p_lg P 100 = 2.
  Variable L : list string.
  Variable rss : list (list row).
  Hypothesis RC : cut_rows rss.
  Hypothesis UT : usable_table L (concat rss).
  Let rows := concat rss.
  Let cols : columns := map (fun n => (n, map (cell n) rows)) L.
  Hypothesis FM : fits_memory P (CBuff 100) cols.

  Definition buff_pair (n : string) (ds : decoder * statistics) : Prop :=
    buff_column P (fst ds) (zcol rss n) /\ st_uncompressed (snd ds) = 8 * N.of_nat (length rows) /\
    st_file (snd ds) = N.of_nat (length (written [] (fst (encode_column P (CBuff 100) (map (cell n) rows))))) /\
    st_file (snd ds) = 30 + st_chunks (snd ds) + footer_size (m_footer (d_meta (fst ds))) /\ f_config (m_footer (d_meta (fst ds))) = CBuff 100 /\
    f_records (m_footer (d_meta (fst ds))) = N.of_nat (length rows).
  Lemma buff_columns : exists ds, open_columns P (CBuff 100) cols = Ok ds /\ Forall2 buff_pair L ds.
  Proof using All.
    assert (OC : forall n, In n L -> exists d s, open_column P (CBuff 100) (map (cell n) rows) = Ok d /\ column_statistics P d = Ok s /\ buff_pair n (d, s)).
    { intros n I. destruct (buff_opened P GP LG (zcol rss n) (cut_map _ _ RC) (zcol_amounts L rss UT n I)) as (d & s & O & S & G & S1 & S2 & S3 & S4 & S5).
      - rewrite zcol_length. apply UT.
      - intros E. apply (f_equal (@length Z)) in E. rewrite zcol_length in E. destruct UT as (NE & _). destruct (concat rss); [now destruct NE|discriminate E].
      - rewrite zcol_cells. apply (FM n). unfold cols. apply in_map_iff. exists n. split; [reflexivity|exact I].
      - exists d, s. rewrite zcol_cells in O, S1, S2, S5. rewrite map_length in S1, S5. repeat (split; [assumption|]). assumption. }
    assert (G : forall l, (forall n, In n l -> In n L) -> exists ds, open_columns P (CBuff 100) (map (fun n => (n, map (cell n) rows)) l) = Ok ds /\ Forall2 buff_pair l ds).
    { induction l as [|n l IH]; intros SUB; [exists []; split; [reflexivity|constructor]|].
      destruct (OC n (SUB n (or_introl eq_refl))) as (d & s & O & S & G). destruct (IH ltac:(intros; apply SUB; now right)) as (ds & OS & F).
      exists ((d, s) :: ds). split; [|now constructor]. cbn [map open_columns]. rewrite O. cbn [rbind]. rewrite S. cbn [rbind]. rewrite OS. reflexivity. }
    exact (G L (fun n I => I)).
  Qed.

  Variable ds : list (decoder * statistics).
  Hypothesis DG : Forall2 buff_pair L ds.
  Definition trow (r : row) : list N := map (fun n => tcell (r n)) L.
  Definition tchunks := map (map trow) rss.
  Lemma nth_buff k n : nth_error L k = Some n -> exists d, nth_error (map fst ds) k = Some d /\ buff_column P d (zcol rss n).
  Proof using DG.
    clear UT FM. intros E. revert k E. induction DG as [|m d ms es G F IH]; intros [|k] E; try discriminate E; cbn in E.
    - injection E as ->. exists (fst d). split; [reflexivity|]. apply G.
    - cbn [map nth_error]. exact (IH F k E).
  Qed.
  Lemma buff_nth k d : nth_error (map fst ds) k = Some d -> exists n, nth_error L k = Some n /\ buff_column P d (zcol rss n).
  Proof using DG.
    clear UT FM. intros E. revert k E. induction DG as [|m e ms es G F IH]; intros [|k] E; try discriminate E; cbn in E.
    - injection E as <-. exists m. split; [reflexivity|]. apply G.
    - cbn [nth_error]. exact (IH F k E).
  Qed.
  Lemma ttable : table (p_dbg P) (p_neg P) (map fst ds) tchunks.
  Proof using DG.
    clear UT FM. intros k d E. destruct (buff_nth k d E) as (n & EL & (H & _)).
    replace (map (column k) tchunks) with (map (map tcell) (zcol rss n)); [exact H|]. unfold tchunks, zcol. rewrite !map_map. apply map_ext. intros rs. unfold column. rewrite !map_map. apply map_ext. intros r.
    symmetry. apply nth_error_nth. unfold trow. now apply (map_nth_error (fun n => tcell (r n))).
  Qed.
  Lemma buff_nonempty n : In n L -> map fst ds <> [].
  Proof using DG. clear UT FM. intros I. destruct DG; [destruct I|discriminate]. Qed.
  Lemma tchunks_32 : N.of_nat (length (concat tchunks)) < 2 ^ 32.
  Proof using UT. unfold tchunks. rewrite concat_map_map, map_length. apply UT. Qed.
  Lemma tchunks_60 : N.of_nat (length (concat tchunks)) < 2 ^ 60.
  Proof using UT. apply N.lt_trans with (2 ^ 32); [exact tchunks_32|reflexivity]. Qed.
  Lemma buff_below k n : nth_error L k = Some n -> (k < length (map fst ds))%nat.
  Proof using DG. clear UT FM. intros E. destruct (nth_buff k n E) as (d & X & _). apply nth_error_Some. congruence. Qed.
  Lemma tvalues_near q k (f : row -> Z) (e : expr) rs : (forall r, In r rs -> near k (IZR (f r) * q) (value (trow r) e)) ->
    Forall2 (fun m x => near k (IZR m * q) x) (map f rs) (map (fun r => value r e) (map trow rs)).
  Proof using. clear. induction rs as [|r rs IH]; intros H; cbn [map]; constructor; [apply H; now left|apply IH; intros; apply H; now right]. Qed.
  Lemma tsum_near mask sel q k (f : row -> Z) (e : expr) B :
    (Z.of_nat k <= 600)%Z -> (bpow radix2 (-100) <= q <= 1)%R -> (0 <= B)%Z -> (B * 2 ^ 32 <= 2 ^ 104)%Z ->
    (forall r, In r rows -> (0 <= f r <= B)%Z /\ near k (IZR (f r) * q) (value (trow r) e)) ->
    (forall i r, nth_error rows i = Some r -> (in_mask mask (N.of_nat i) <-> sel r = true)) ->
    (mask = None \/ N.of_nat (length (concat tchunks)) < 2 ^ 32) ->
    formula (length (map fst ds)) e -> ~ is_index e -> map fst ds <> [] ->
    exists x, compute (p_dbg P) (p_neg P) (p_tie P) (sum_of e) (map fst ds) mask = Ok (Scalar x) /\
      near roundings (IZR (total f (filter sel rows)) * q) x.
  Proof using RC UT DG.
    clear LG GP FM. intros K Q B0 BS H M MO FE NI NE.
    destruct (compute_ok (p_dbg P) (p_neg P) (p_tie P) mask (map fst ds) tchunks ttable NE MO tchunks_60 (sum_of e) FE NI) as (yss & r & SEL & C & AG).
    cbn [sum_of a_kind a_expr] in AG. unfold aggregated in AG. subst r. eexists. split; [exact C|].
    rewrite (selected_filter mask trow sel rss 0 yss M SEL). unfold total, rows. rewrite <- filter_concat, concat_map.
    assert (SUB : forall rs, In rs rss -> forall r, In r rs -> In r rows) by (intros rs I r J; apply in_concat; eauto).
    assert (LE : forall (g : row -> bool) rs, (length (filter g rs) <= length rs)%nat).
    { intros g rs. induction rs as [|x rs IHr]; [cbn; lia|]. cbn. destruct (g x); cbn; lia. }
    apply (near_chunks q k (map (map f) (map (filter sel) rss))); [exact K|exact Q| | | |rewrite !map_length; apply cut_few; [exact RC|apply UT]|].
    - apply Forall_map, Forall_map, Forall_forall. intros rs I. apply Forall_map, Forall_forall. intros r J. apply filter_In in J. apply (H r). apply (SUB rs I). apply J.
    - rewrite <- concat_map, filter_concat. fold rows.
      assert (ZB : (zsum (map f (filter sel rows)) <= B * Z.of_nat (length (map f (filter sel rows))))%Z).
      { apply zsum_bound; [exact B0|]. apply Forall_map, Forall_forall. intros r J. apply filter_In in J. apply (H r). apply J. }
      rewrite map_length in ZB. pose proof (LE sel rows) as LR. destruct UT as (_ & U32 & _). fold rows in U32.
      assert (LZ : (Z.of_nat (length (filter sel rows)) <= 2 ^ 32)%Z) by (clear - U32 LR; change (2 ^ 32) with 4294967296 in U32; change (2 ^ 32)%Z with 4294967296%Z; lia).
      apply Z.le_trans with (B * 2 ^ 32)%Z; [|exact BS]. eapply Z.le_trans; [exact ZB|]. apply Z.mul_le_mono_nonneg_l; assumption.
    - apply Forall_map, Forall_map. eapply Forall_impl; [|exact (cut_small rss RC)]. intros rs X. cbv beta in *. rewrite map_length. pose proof (LE sel rs) as LS. clear - X LS. lia.
    - assert (G : forall l, (forall rs, In rs l -> forall r, In r rs -> In r rows) ->
        Forall2 (Forall2 (fun m x => near k (IZR m * q) x)) (map (map f) (map (filter sel) l)) (map (map (fun row => value row e)) (map (map trow) (map (filter sel) l)))).
      { induction l as [|rs l IH]; intros SL; cbn [map]; constructor; [|apply IH; intros; eapply SL; [right|]; eassumption].
        apply tvalues_near. intros r J. apply filter_In in J. apply (H r). apply (SL rs); [now left|apply J]. }
      exact (G rss SUB).
  Qed.

  (** ** The rows *)
  Lemma trow_nth k n r : nth_error L k = Some n -> nth k (trow r) 0 = tcell (r n).
  Proof using. clear. intros E. apply nth_error_nth. unfold trow. now apply (map_nth_error (fun n => tcell (r n))). Qed.
  Lemma tprice_discount ip id r : nth_error L ip = Some "l_extendedprice"%string -> nth_error L id = Some "l_discount"%string -> In r rows ->
    (0 <= kept_amount (r "l_extendedprice"%string) * kept_amount (r "l_discount"%string) <= 10 ^ 19)%Z /\
    near 1 (IZR (kept_amount (r "l_extendedprice"%string) * kept_amount (r "l_discount"%string)) * / 65536) (value (trow r) (Binary Mul (Index ip) (Index id))).
  Proof using UT.
    clear LG GP FM. intros LP LD I. cbn [value arith]. rewrite (trow_nth _ _ r LP), (trow_nth _ _ r LD). pose proof (rows_amount L rss UT r _ I (nth_error_In _ _ LP)) as AP. pose proof (rows_amount L rss UT r _ I (nth_error_In _ _ LD)) as AD.
    pose proof (near_tcell _ AP) as NP. pose proof (near_tcell _ AD) as ND. destruct (kept_bounds _ AP) as (KP & _). destruct (kept_bounds _ AD) as (KD & _). revert KP KD NP ND.
    generalize (tcell (r "l_extendedprice"%string)) (tcell (r "l_discount"%string)) (kept_amount (r "l_extendedprice"%string)) (kept_amount (r "l_discount"%string)). intros x y a b KP KD NP ND.
    assert (0 <= IZR a)%R by (apply IZR_le; lia). assert (0 <= IZR b)%R by (apply IZR_le; lia).
    assert (M : (0 <= a * b <= 10000000000000000000)%Z) by nia. split; [exact M|].
    apply (near_product 0 0 (IZR a * / 256) (IZR b * / 256) (a * b) _ _ (/ 65536)); [unfold few; lia|exact q65536| |lra|lra|rewrite mult_IZR; lra|exact NP|exact ND].
    split; [apply M|]. apply Z.le_trans with 10000000000000000000%Z; [apply M|vm_compute; discriminate].
  Qed.
  Lemma tdiscounted ip id r : nth_error L ip = Some "l_extendedprice"%string -> nth_error L id = Some "l_discount"%string -> In r rows ->
    (0 <= kept_amount (r "l_extendedprice"%string) * (256 - kept_amount (r "l_discount"%string)) <= 655360000000)%Z /\
    near 2 (IZR (kept_amount (r "l_extendedprice"%string) * (256 - kept_amount (r "l_discount"%string))) * / 65536) (value (trow r) (Binary Mul (Index ip) (Binary Sub one (Index id)))).
  Proof using UT.
    clear LG GP FM. intros LP LD I. cbn [value arith one]. change (of_bits 4607182418800017408) with f_one. rewrite (trow_nth _ _ r LP), (trow_nth _ _ r LD).
    pose proof (rows_amount L rss UT r _ I (nth_error_In _ _ LP)) as AP. pose proof (rows_amount L rss UT r _ I (nth_error_In _ _ LD)) as AD. pose proof (rows_discount L rss UT r I) as DD.
    pose proof (near_tcell _ AP) as NP. pose proof (near_tcomplement _ (conj (proj1 AD) DD)) as ND. destruct (kept_bounds _ AP) as (KP & _). pose proof (kept_percent _ (conj (proj1 AD) DD)) as KD. revert KP KD NP ND.
    generalize (tcell (r "l_extendedprice"%string)) (tcell (r "l_discount"%string)) (kept_amount (r "l_extendedprice"%string)) (kept_amount (r "l_discount"%string)). intros x y a b KP KD NP ND.
    assert (0 <= IZR a)%R by (apply IZR_le; lia). assert (0 <= IZR (256 - b))%R by (apply IZR_le; lia).
    assert (M : (0 <= a * (256 - b) <= 655360000000)%Z) by nia. split; [exact M|].
    apply (near_product 0 1 (IZR a * / 256) (IZR (256 - b) * / 256) (a * (256 - b)) _ _ (/ 65536)); [unfold few; lia|exact q65536| |lra|lra|rewrite mult_IZR; lra|exact NP|exact ND].
    split; [apply M|]. apply Z.le_trans with 655360000000%Z; [apply M|vm_compute; discriminate].
  Qed.
  Lemma tcharge ip id it r : nth_error L ip = Some "l_extendedprice"%string -> nth_error L id = Some "l_discount"%string -> nth_error L it = Some "l_tax"%string -> In r rows ->
    (0 <= kept_amount (r "l_extendedprice"%string) * (256 - kept_amount (r "l_discount"%string)) * (256 + kept_amount (r "l_tax"%string)) <= 1677721767772160000000)%Z /\
    near 4 (IZR (kept_amount (r "l_extendedprice"%string) * (256 - kept_amount (r "l_discount"%string)) * (256 + kept_amount (r "l_tax"%string))) * / 16777216)
      (value (trow r) (Binary Mul (Binary Mul (Index ip) (Binary Sub one (Index id))) (Binary Add one (Index it)))).
  Proof using UT.
    clear LG GP FM. intros LP LD LT I. destruct (tdiscounted ip id r LP LD I) as [M N].
    pose proof (rows_amount L rss UT r _ I (nth_error_In _ _ LT)) as AT. pose proof (near_tplus _ AT) as NT. destruct (kept_bounds _ AT) as (KT & _).
    set (e := Binary Mul (Index ip) (Binary Sub one (Index id))) in *. cbn [value arith]. fold (value (trow r) e). cbn [value one]. change (of_bits 4607182418800017408) with f_one. rewrite (trow_nth _ _ r LT).
    revert M N KT NT. generalize (kept_amount (r "l_extendedprice"%string) * (256 - kept_amount (r "l_discount"%string)))%Z (kept_amount (r "l_tax"%string)) (value (trow r) e) (tcell (r "l_tax"%string)). clear e. intros a b x y M N KT NT.
    assert (0 <= IZR a)%R by (apply IZR_le; lia). assert (0 <= IZR (256 + b))%R by (apply IZR_le; lia).
    assert (B : (0 <= a * (256 + b) <= 1677721767772160000000)%Z) by nia. split; [exact B|].
    apply (near_product 2 1 (IZR a * / 65536) (IZR (256 + b) * / 256) (a * (256 + b)) _ _ (/ 16777216)); [unfold few; lia|exact q16777216| |lra|lra|rewrite mult_IZR; lra|exact N|exact NT].
    split; [apply B|]. apply Z.le_trans with 1677721767772160000000%Z; [apply B|vm_compute; discriminate].
  Qed.
  Lemma taverage_near n x : near roundings (IZR (kept_sum n rows) * / 256) x -> In n L ->
    kept_average n rows (Aggregated (Scalar (fdiv x (of_Z (Z.of_N (N.of_nat (length rows))))))).
  Proof using UT.
    clear LG GP FM. intros N I. destruct UT as (NE & U32 & _). fold rows in NE, U32. rewrite nat_N_Z.
    assert (S0 : (0 <= kept_sum n rows)%Z) by (apply total_nonneg; intros r J; exact (proj1 (proj1 (kept_bounds _ (rows_amount L rss UT r n J I))))).
    assert (SB : (kept_sum n rows <= 2560000000 * Z.of_nat (length rows))%Z).
    { unfold kept_sum, total. rewrite <- (map_length (fun r : row => kept_amount (r n)) rows). apply zsum_bound; [lia|]. apply Forall_map, Forall_forall. intros r J. exact (proj1 (kept_bounds _ (rows_amount L rss UT r n J I))). }
    assert (LB : (0 < Z.of_nat (length rows) < 4294967296)%Z).
    { change (2 ^ 32) with 4294967296 in U32. destruct rows as [|r0 rs]; [now destruct NE|]. cbn [length] in *. lia. }
    unfold kept_average. revert N S0 SB LB. generalize (kept_sum n rows) (Z.of_nat (length rows)). clear. intros s l N S0 SB LB. 
    apply (reports_near (S roundings)); [exact S0|lia| |].
    - rewrite Nat2Z.inj_succ, roundings_Z. vm_compute. discriminate.
    - assert (L1 : (1 <= IZR l)%R) by (apply IZR_le; lia). assert (L2 : (IZR l <= 4294967296)%R) by (apply IZR_le; lia).
      replace (IZR s / IZR (256 * l))%R with (IZR s * / 256 / IZR l)%R by (rewrite mult_IZR; field; lra).
      apply near_div; [unfold few; rewrite roundings_Z; vm_compute; discriminate|change (2 ^ 53)%Z with 9007199254740992%Z; lia| |exact N].
      apply (tame_mid (/ (256 * IZR l))).
      + split.
        * apply Rle_trans with (/ bpow radix2 60)%R.
          -- rewrite <- bpow_opp. apply bpow_le. lia.
          -- apply Rinv_le; [lra|]. change (bpow radix2 60) with 1152921504606846976%R. lra.
        * rewrite <- Rinv_1. apply Rinv_le; lra.
      + exists s. split; [split; [exact S0|]; apply Z.le_trans with 10995116277760000000%Z; [lia|vm_compute; discriminate]|]. field. lra.
  Qed.
  Lemma kept_nonneg n : In n L -> (0 <= kept_sum n rows)%Z.
  Proof using UT. intros I. apply total_nonneg. intros r J. exact (proj1 (proj1 (kept_bounds _ (rows_amount L rss UT r n J I)))). Qed.
  Lemma buff_index_sum k n : nth_error L k = Some n -> exists x, compute (p_dbg P) (p_neg P) (p_tie P) (sum_of (Index k)) (map fst ds) None = Ok (Scalar x) /\
    near roundings (IZR (kept_sum n rows) * / 256)%R x.
  Proof using DG.
    clear UT FM. intros E. destruct (nth_buff k n E) as (d & ED & (_ & _ & x & S & N)). exists x. unfold compute. cbn [sum_of a_expr a_kind]. rewrite ED. cbn [agg_dispatch]. rewrite S. split; [reflexivity|].
    rewrite zcol_concat, map_map in N. exact N.
  Qed.
  Lemma buff_multi n mask aggs outs : In n L -> Forall (fun a => formula (length (map fst ds)) (a_expr a)) aggs ->
    Forall2 (fun a r => compute (p_dbg P) (p_neg P) (p_tie P) a (map fst ds) mask = Ok r) aggs outs ->
    compute_multiple (p_dbg P) (p_neg P) (p_tie P) aggs (map fst ds) mask = Ok outs.
  Proof using UT DG.
    intros I FA F2. exact (multi_ok (p_dbg P) (p_neg P) (p_tie P) mask (map fst ds) tchunks ttable (buff_nonempty n I) (or_intror tchunks_32) tchunks_60 aggs outs FA F2).
  Qed.
  Lemma buff_records k d : nth_error (map fst ds) k = Some d -> f_records (m_footer (d_meta d)) = N.of_nat (length rows).
  Proof using DG.
    clear UT FM. intros E. destruct (buff_nth k d E) as (n & _ & ((_ & R & _) & _)). rewrite R, concat_map_map, zcol_concat, !map_length. reflexivity.
  Qed.
End Runs.

(** Chunks of a table with mixed quantities. *)
Lemma chunk_mixed (rss : list (list row)) rs : cut_rows rss -> quantities_mixed (concat rss) -> In rs rss ->
  (exists r, In r rs /\ (r "l_quantity"%string < 2400)%Z) /\ (exists r, In r rs /\ (2400 <= r "l_quantity"%string)%Z).
Proof.
  intros [NE C] QM I. apply in_split in I as (l1 & l2 & ->). rewrite !concat_app in QM. cbn [concat] in QM. apply (QM (concat l1) rs (concat l2) eq_refl).
  - assert (F : Forall (fun p : list row => N.of_nat (length p) = chunk_rows) l1).
    { apply Forall_forall. intros p IP. apply In_nth_error in IP as (i & E). assert (LI : (i < length l1)%nat) by (apply nth_error_Some; congruence).
      destruct (C i p) as [_ X]; [rewrite nth_error_app1 by exact LI; exact E|]. apply X. rewrite app_length. cbn [length]. lia. }
    clear - F. induction F as [|p l P F IH]; [reflexivity|]. cbn [concat]. rewrite app_length, Nat2N.inj_add, P. change chunk_rows with (2 ^ 24) in *. rewrite N.add_mod, IH, N.mod_same by (vm_compute; discriminate). reflexivity.
  - destruct (C (length l1) rs) as [B X]; [rewrite nth_error_app2 by lia; now rewrite Nat.sub_diag|]. change chunk_rows with (2 ^ 24) in *.
    rewrite Forall_forall in NE. assert (NR : rs <> []) by (apply NE, in_or_app; right; now left).
    assert (LR : 0 < N.of_nat (length rs)) by (destruct rs; [now destruct NR|cbn [length]; lia]).
    destruct l2 as [|p l2]; [|left; apply X; rewrite app_length; cbn [length]; lia].
    cbn [concat]. revert B LR. generalize (N.of_nat (length rs)) (2 ^ 24). intros a b B LR. destruct (N.eq_dec a b) as [->|NE']; [now left|right; split; [lia|reflexivity]].
Qed.

Section Totals.
  Variable P : platform.
  Hypothesis GP : good_platform P.
  Hypothesis LG : p_lg P 100 = 2.
  Variable L : list string.
  Variable rows : list row.
  Hypothesis UT : usable_table L rows.
  Let cols : columns := map (fun n => (n, map (cell n) rows)) L.
  Hypothesis FM : fits_memory P (CBuff 100) cols.
  Hypothesis LD : In "l_discount"%string L.
  Hypothesis LQ : In "l_quantity"%string L.
  Hypothesis LP : In "l_extendedprice"%string L.

  Lemma h06_buff : exists x, run_h06 P (CBuff 100) cols = Ok [Aggregated (Scalar x)] /\ (quantities_mixed rows -> reports (q6_kept rows) (2 ^ 16) (Aggregated (Scalar x))).
  Proof using All.
    destruct (rows_cut rows) as (rss & CR & RC). rewrite <- CR in UT. unfold cols in FM. rewrite <- CR in FM.
    destruct (buff_columns P GP LG L rss RC UT FM) as (ds & OC & DG). rewrite CR in OC. fold cols in OC.
    destruct (column_index_nth L rows _ LD) as (id & CD & ND). destruct (column_index_nth L rows _ LQ) as (iq & CQ & NQ). destruct (column_index_nth L rows _ LP) as (ip & CP & NP). fold cols in CD, CQ, CP.
    destruct (nth_buff P L rss ds DG id _ ND) as (dd & ED & (_ & F0 & _)). destruct (nth_buff P L rss ds DG iq _ NQ) as (dq & EQ & (_ & F1 & _)).
    destruct (F0 h06_discount None known_discount Logic.I) as (m0 & M0 & B0 & D1 & D2 & _). destruct (F1 h06_quantity (Some m0) known_quantity B0) as (m1 & M1 & B1 & Q1 & Q2 & Q3).
    assert (IB : forall k n, nth_error L k = Some n -> (k < length (map fst ds))%nat) by (intros k n; apply (buff_below P L rss ds DG)).
    assert (FO : formula (length (map fst ds)) (Binary Mul (Index ip) (Index id))) by (apply formula_both; constructor; eapply IB; eassumption).
    destruct (compute_ok (p_dbg P) (p_neg P) (p_tie P) (Some m1) (map fst ds) (tchunks L rss) (ttable P L rss ds DG) (buff_nonempty P L rss ds DG _ LD) (or_intror (tchunks_32 L rss UT)) (tchunks_60 L rss UT) (sum_of (Binary Mul (Index ip) (Index id))) FO (fun X => X)) as (yss & x0 & _ & C & AG).
    cbn [sum_of a_kind a_expr] in AG. unfold aggregated in AG. subst x0. match type of C with _ = Ok (Scalar ?y) => set (x := y) in * end. clearbody x. exists x. split.
    - unfold run_h06. rewrite OC. cbn [rbind]. rewrite CD, CQ, CP. cbn [rbind]. unfold at_index. rewrite ED. cbn [rbind]. rewrite M0. cbn [rbind]. rewrite EQ. cbn [rbind]. rewrite M1. cbn [rbind].
      rewrite (buff_multi P L rss UT ds DG _ (Some m1) (h06_aggregations ip id) [Scalar x] LD); [reflexivity| |].
      + constructor; [exact FO|constructor].
      + constructor; [exact C|constructor].
    - intros QM. rewrite <- CR in QM.
      assert (SEL : forall i r, nth_error (concat rss) i = Some r -> (in_mask (Some m1) (N.of_nat i) <-> q6_selected r = true)).
      { intros i r E. assert (IR : In r (concat rss)) by (eapply nth_error_In, E).
        pose proof (rows_amount L rss UT r _ IR LD) as A0. pose proof (rows_amount L rss UT r _ IR LQ) as A1.
        assert (XD : matches 8 h06_discount 0 (map g (concat (zcol rss "l_discount"%string))) (N.of_nat i) <-> (5 <= r "l_discount"%string <= 7)%Z).
        { unfold matches. rewrite N.sub_0_r, Nat2N.id, zcol_concat, map_map, nth_error_map, E. cbn [option_map]. unfold h06_discount. rewrite five_hundredths, seven_hundredths. split.
          - intros (_ & y & v & Y & FP & T). injection Y as <-. now apply (discount_truncated _ v A0 FP).
          - intros B. split; [lia|]. eexists. exists (kept_amount (r "l_discount"%string)). split; [reflexivity|]. assert (FP : fixed_point 8 (g (r "l_discount"%string)) (kept_amount (r "l_discount"%string))) by (apply fixed_cell; [exact A0|reflexivity]).
            split; [exact FP|]. now apply (discount_truncated _ _ A0 FP). }
        assert (XQ : matches 8 h06_quantity 0 (map g (concat (zcol rss "l_quantity"%string))) (N.of_nat i) <-> (r "l_quantity"%string < 2400)%Z).
        { unfold matches. rewrite N.sub_0_r, Nat2N.id, zcol_concat, map_map, nth_error_map, E. cbn [option_map]. unfold h06_quantity. rewrite twenty_four. split.
          - intros (_ & y & v & Y & FP & T). injection Y as <-. now apply (quantity_truncated _ v A1 FP).
          - intros B. split; [lia|]. eexists. exists (kept_amount (r "l_quantity"%string)). split; [reflexivity|]. assert (FP : fixed_point 8 (g (r "l_quantity"%string)) (kept_amount (r "l_quantity"%string))) by (apply fixed_cell; [exact A1|reflexivity]).
            split; [exact FP|]. now apply (quantity_truncated _ _ A1 FP). }
        unfold q6_selected. rewrite !Bool.andb_true_iff, Z.leb_le, Z.leb_le, Z.ltb_lt. cbn [in_mask] in *. rewrite <- XQ. split.
        - intros I1. assert (I0 : In (N.of_nat i) m0).
          { apply Q3; [|exact I1]. intros zs IZ. apply in_map_iff in IZ as (rs & <- & IR'). 
            destruct (chunk_mixed rss rs RC QM IR') as ((r1 & R1 & T1) & (r2 & R2 & T2)). unfold h06_quantity. rewrite twenty_four.
            apply (mixed_obeyed _ _ (r1 "l_quantity"%string) (r2 "l_quantity"%string)); [|apply in_map_iff; eauto|apply in_map_iff; eauto|exact T1|exact T2].
            apply Forall_map, Forall_forall. intros r3 R3. apply (rows_amount L rss UT r3 _); [apply in_concat; eauto|exact LQ]. }
          split; [apply XD, D1, I0|apply Q1, I1].
        - intros [S0 S1]. apply Q2; [|exact S1]. apply D2; [exact Logic.I|]. now apply XD. }
      destruct (tsum_near P L rss RC UT ds DG (Some m1) q6_selected (/ 65536) 1 (fun r => (kept_amount (r "l_extendedprice"%string) * kept_amount (r "l_discount"%string))%Z) (Binary Mul (Index ip) (Index id)) (10 ^ 19)
        ltac:(lia) q65536 ltac:(lia) ltac:(vm_compute; discriminate) (fun r => tprice_discount L rss UT ip id r NP ND) SEL (or_intror (tchunks_32 L rss UT)) FO (fun X => X) (buff_nonempty P L rss ds DG _ LD)) as (x1 & C1 & N1).
      rewrite C in C1. injection C1 as <-. unfold q6_kept. rewrite <- CR. apply (scaled_reports _ _ (/ 65536)); [|lia|reflexivity|exact N1].
      apply total_nonneg. intros r I. apply filter_In in I as [I _]. exact (proj1 (proj1 (tprice_discount L rss UT ip id r NP ND I))).
  Qed.

  Lemma h01_simplified_buff : exists sq sp ad aq ap, run_h01_simplified P (CBuff 100) cols = Ok [sq; sp; ad; aq; ap; Integer (N.of_nat (length rows))] /\
    reports (kept_sum "l_quantity"%string rows) 256 sq /\ reports (kept_sum "l_extendedprice"%string rows) 256 sp /\
    kept_average "l_discount"%string rows ad /\ kept_average "l_quantity"%string rows aq /\ kept_average "l_extendedprice"%string rows ap.
  Proof using All.
    destruct (rows_cut rows) as (rss & CR & RC). rewrite <- CR in UT. unfold cols in FM. rewrite <- CR in FM.
    destruct (buff_columns P GP LG L rss RC UT FM) as (ds & OC & DG). rewrite CR in OC. fold cols in OC.
    destruct (column_index_nth L rows _ LD) as (id & CD & ND). destruct (column_index_nth L rows _ LQ) as (iq & CQ & NQ). destruct (column_index_nth L rows _ LP) as (ip & CP & NP). fold cols in CD, CQ, CP.
    destruct (nth_error (map fst ds) 0) as [d0|] eqn:E0; [|exfalso; apply (buff_nonempty P L rss ds DG _ LD); destruct (map fst ds); [reflexivity|discriminate E0]].
    pose proof (buff_records P L rss ds DG 0 d0 E0) as R0. rewrite CR in R0.
    assert (IB : forall k n, nth_error L k = Some n -> (k < length (map fst ds))%nat) by (intros k n; apply (buff_below P L rss ds DG)).
    destruct (buff_index_sum P L rss ds DG iq _ NQ) as (xq & SQ & XQ). destruct (buff_index_sum P L rss ds DG ip _ NP) as (xp & SP & XP). destruct (buff_index_sum P L rss ds DG id _ ND) as (xd & SD & XD).
    pose proof (kept_nonneg L rss UT _ LQ) as TQ. pose proof (kept_nonneg L rss UT _ LP) as TP.
    pose proof (taverage_near L rss UT _ xq XQ LQ) as AQ. pose proof (taverage_near L rss UT _ xp XP LP) as AP. pose proof (taverage_near L rss UT _ xd XD LD) as AD.
    rewrite CR in *. do 5 eexists. split.
    - unfold run_h01_simplified. rewrite OC. cbn [rbind]. rewrite CQ, CP, CD. cbn [rbind]. unfold at_index at 1. rewrite E0. cbn [rbind]. rewrite R0.
      rewrite (buff_multi P L rss ltac:(rewrite CR; exact UT) ds DG _ None (h01_simplified_aggregations iq ip id) [Scalar xq; Scalar xp; Scalar xd] LD); [reflexivity| |].
      + repeat constructor; eapply IB; eassumption.
      + constructor; [exact SQ|]. constructor; [exact SP|]. constructor; [exact SD|constructor].
    - split; [apply (scaled_reports _ _ (/ 256)); [exact TQ|lia|reflexivity|exact XQ]|]. split; [apply (scaled_reports _ _ (/ 256)); [exact TP|lia|reflexivity|exact XP]|].
      split; [exact AD|]. split; [exact AQ|exact AP].
  Qed.

  Hypothesis LT : In "l_tax"%string L.
  Lemma h01_buff : exists sq sp sd sc ap aq ad, run_h01 P (CBuff 100) cols = Ok [sq; sp; sd; sc; ap; aq; ad; Integer (N.of_nat (length rows))] /\
    reports (kept_sum "l_quantity"%string rows) 256 sq /\ reports (kept_sum "l_extendedprice"%string rows) 256 sp /\
    reports (kept_discounted rows) (2 ^ 16) sd /\ reports (kept_charge rows) (2 ^ 24) sc /\
    kept_average "l_extendedprice"%string rows ap /\ kept_average "l_quantity"%string rows aq /\ kept_average "l_discount"%string rows ad.
  Proof using All.
    destruct (rows_cut rows) as (rss & CR & RC). rewrite <- CR in UT. unfold cols in FM. rewrite <- CR in FM.
    destruct (buff_columns P GP LG L rss RC UT FM) as (ds & OC & DG). rewrite CR in OC. fold cols in OC.
    destruct (column_index_nth L rows _ LD) as (id & CD & ND). destruct (column_index_nth L rows _ LQ) as (iq & CQ & NQ). destruct (column_index_nth L rows _ LP) as (ip & CP & NP).
    destruct (column_index_nth L rows _ LT) as (it & CT & NT). fold cols in CD, CQ, CP, CT.
    destruct (nth_error (map fst ds) 0) as [d0|] eqn:E0; [|exfalso; apply (buff_nonempty P L rss ds DG _ LD); destruct (map fst ds); [reflexivity|discriminate E0]].
    pose proof (buff_records P L rss ds DG 0 d0 E0) as R0. rewrite CR in R0.
    assert (IB : forall k n, nth_error L k = Some n -> (k < length (map fst ds))%nat) by (intros k n; apply (buff_below P L rss ds DG)).
    destruct (buff_index_sum P L rss ds DG iq _ NQ) as (xq & SQ & XQ). destruct (buff_index_sum P L rss ds DG ip _ NP) as (xp & SP & XP). destruct (buff_index_sum P L rss ds DG id _ ND) as (xd & SD & XD).
    pose proof (kept_nonneg L rss UT _ LQ) as TQ. pose proof (kept_nonneg L rss UT _ LP) as TP.
    pose proof (taverage_near L rss UT _ xq XQ LQ) as AQ. pose proof (taverage_near L rss UT _ xp XP LP) as AP. pose proof (taverage_near L rss UT _ xd XD LD) as AD.
    assert (FD : formula (length (map fst ds)) (Binary Mul (Index ip) (Binary Sub one (Index id)))) by (apply formula_both; [constructor; eapply IB; eassumption|apply formula_left; constructor; eapply IB; eassumption]).
    assert (FC : formula (length (map fst ds)) (Binary Mul (Binary Mul (Index ip) (Binary Sub one (Index id))) (Binary Add one (Index it)))).
    { apply formula_both; [exact FD|]. apply formula_left. constructor. eapply IB; eassumption. }
    pose proof (buff_nonempty P L rss ds DG _ LD) as NE.
    destruct (tsum_near P L rss RC UT ds DG None (fun _ => true) (/ 65536) 2 (fun r => (kept_amount (r "l_extendedprice"%string) * (256 - kept_amount (r "l_discount"%string)))%Z) _ 655360000000
      ltac:(lia) q65536 ltac:(lia) ltac:(vm_compute; discriminate) (fun r => tdiscounted L rss UT ip id r NP ND) (all_rows rss) (or_introl eq_refl) FD (fun X => X) NE) as (xs & SS & XS).
    destruct (tsum_near P L rss RC UT ds DG None (fun _ => true) (/ 16777216) 4 (fun r => (kept_amount (r "l_extendedprice"%string) * (256 - kept_amount (r "l_discount"%string)) * (256 + kept_amount (r "l_tax"%string)))%Z) _ 1677721767772160000000
      ltac:(lia) q16777216 ltac:(lia) ltac:(vm_compute; discriminate) (fun r => tcharge L rss UT ip id it r NP ND NT) (all_rows rss) (or_introl eq_refl) FC (fun X => X) NE) as (xc & SC & XC).
    rewrite filter_true in XS, XC.
    assert (TS : (0 <= kept_discounted (concat rss))%Z) by (apply total_nonneg; intros r I; exact (proj1 (proj1 (tdiscounted L rss UT ip id r NP ND I)))).
    assert (TC : (0 <= kept_charge (concat rss))%Z) by (apply total_nonneg; intros r I; exact (proj1 (proj1 (tcharge L rss UT ip id it r NP ND NT I)))).
    rewrite CR in *. do 7 eexists. split.
    - unfold run_h01. rewrite OC. cbn [rbind]. rewrite CQ, CP, CD, CT. cbn [rbind]. unfold at_index at 1. rewrite E0. cbn [rbind]. rewrite R0.
      rewrite (buff_multi P L rss ltac:(rewrite CR; exact UT) ds DG _ None (h01_aggregations iq ip id it) [Scalar xq; Scalar xp; Scalar xs; Scalar xc; Scalar xd] LD); [reflexivity| |].
      + constructor; [constructor; eapply IB; eassumption|]. constructor; [constructor; eapply IB; eassumption|]. constructor; [exact FD|]. constructor; [exact FC|]. constructor; [constructor; eapply IB; eassumption|constructor].
      + constructor; [exact SQ|]. constructor; [exact SP|]. constructor; [exact SS|]. constructor; [exact SC|]. constructor; [exact SD|constructor].
    - split; [apply (scaled_reports _ _ (/ 256)); [exact TQ|lia|reflexivity|exact XQ]|]. split; [apply (scaled_reports _ _ (/ 256)); [exact TP|lia|reflexivity|exact XP]|].
      split; [apply (scaled_reports _ _ (/ 65536)); [exact TS|lia|reflexivity|exact XS]|]. split; [apply (scaled_reports _ _ (/ 16777216)); [exact TC|lia|reflexivity|exact XC]|].
      split; [exact AP|]. split; [exact AQ|exact AD].
  Qed.
End Totals.
