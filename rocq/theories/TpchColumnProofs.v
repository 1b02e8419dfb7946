(** Encoded columns: which values they hold, how they filter and add up. *)
From Coq Require Import String Reals Lra.
From Flocq Require Import Core BinarySingleNaN.
From Verif Require Import Base WordProofs Xor F64 F64Proofs F64BitsProofs F64Flocq Format FormatSpec File FileSpec FileSummary Codecs CodecSpec Readers Query QuerySpec QueryProofs QuerySummary
  Sprintz SprintzSpec SprintzFloatProofs SprintzOrderProofs SprintzSummary ElfRangeSpec ElfRangeSummary Expr ExprSpec ExprProofs AggregateProofs ExprSummary
  RelErrorProofs Tpch TpchSpec TpchExtractProofs TpchGridProofs.
Local Open Scope N_scope.

(** ** Cutting into chunks *)
Definition chunk_rows : N := 128 * 1024 * 1024 / 8.
Definition cut_rows {A} (rss : list (list A)) : Prop :=
  Forall (fun p => p <> []) rss /\
  forall i p, nth_error rss i = Some p -> N.of_nat (length p) <= chunk_rows /\ ((S i < length rss)%nat -> N.of_nat (length p) = chunk_rows).
Lemma rows_cut_aux {A} k : (0 < k)%nat -> forall n (rows : list A), (length rows <= n)%nat -> exists rss, concat rss = rows /\ Forall (fun p => p <> []) rss /\
  forall i p, nth_error rss i = Some p -> (length p <= k)%nat /\ ((S i < length rss)%nat -> length p = k).
Proof.
  intros K. induction n as [|n IH]; intros rows L.
  - exists []. destruct rows; [|cbn in L; lia]. repeat split; [constructor|destruct i; discriminate H|destruct i; discriminate H].
  - destruct rows as [|r rows]; [exists []; repeat split; [constructor|destruct i; discriminate H|destruct i; discriminate H]|].
    destruct (Nat.le_gt_cases (length (r :: rows)) k) as [S|S].
    + exists [r :: rows]. split; [cbn; now rewrite app_nil_r|]. split; [repeat constructor; discriminate|]. intros [|i] p E; [|destruct i; discriminate E]. injection E as <-. split; [exact S|]. intros X. cbn in X. lia.
    + destruct (IH (skipn k (r :: rows))) as (rss & C & NE & B); [rewrite skipn_length; lia|]. exists (firstn k (r :: rows) :: rss).
      split; [cbn [concat]; now rewrite C, firstn_skipn|]. assert (FL : length (firstn k (r :: rows)) = k) by (apply firstn_length_le; lia).
      split; [constructor; [intros X; rewrite X in FL; cbn in FL; lia|exact NE]|]. intros [|i] p E.
      * injection E as <-. rewrite FL. auto.
      * destruct (B i p E) as [B1 B2]. split; [exact B1|]. intros X. apply B2. cbn in X. lia.
Qed.
Lemma rows_cut {A} (rows : list A) : exists rss, concat rss = rows /\ cut_rows rss.
Proof.
  destruct (rows_cut_aux (N.to_nat chunk_rows) ltac:(assert (0 < chunk_rows) by reflexivity; lia) (length rows) rows (le_n _)) as (rss & C & NE & B).
  exists rss. split; [exact C|]. split; [exact NE|]. intros i p E. destruct (B i p E) as [B1 B2]. split; [lia|]. intros X. rewrite (B2 X). apply N2Nat.id.
Qed.
Lemma cut_map {A B} (f : A -> B) rss : cut_rows rss -> cut_rows (map (map f) rss).
Proof.
  intros [NE C]. split; [apply Forall_map; eapply Forall_impl; [|exact NE]; intros [|x p] X; [now destruct X|discriminate]|].
  intros i p E. rewrite nth_error_map in E. destruct (nth_error rss i) as [q|] eqn:Q; [|discriminate E]. injection E as <-. rewrite !map_length. exact (C i q Q).
Qed.
Lemma cut_partition (parts : list (list N)) : cut_rows parts -> partition (records_per_chunk default_chunk_option) (concat parts) parts.
Proof. intros [NE C]. split; [reflexivity|]. split; [exact NE|]. exact C. Qed.
Lemma cut_small {A} (rss : list (list A)) : cut_rows rss -> Forall (fun p => (Z.of_nat (length p) <= 2 ^ 24)%Z) rss.
Proof.
  intros [_ C]. apply Forall_forall. intros p I. apply In_nth_error in I as (i & E). destruct (C i p E) as [B _]. change chunk_rows with 16777216 in B. lia.
Qed.
Lemma cut_few {A} (rss : list (list A)) : cut_rows rss -> N.of_nat (length (concat rss)) < 2 ^ 32 -> (Z.of_nat (length rss) <= 256)%Z.
Proof.
  intros [NE C] B. change chunk_rows with 16777216 in C.
  assert (G : (16777216 * Z.of_nat (length rss) <= Z.of_nat (length (concat rss)) + 16777215)%Z).
  { clear B. induction rss as [|p rss IH]; [cbn; lia|]. cbn [concat]. rewrite app_length. cbn [length]. inversion NE as [|? ? NP NE']; subst. destruct rss as [|q rss].
    - cbn. destruct p; [now destruct NP|]. cbn [length]. lia.
    - destruct (C O p eq_refl) as [_ F]. specialize (F ltac:(cbn; lia)). specialize (IH NE'). assert (X : (16777216 * Z.of_nat (length (q :: rss)) <= Z.of_nat (length (concat (q :: rss))) + 16777215)%Z).
      { apply IH. intros i r E. destruct (C (S i) r E) as [C1 C2]. split; [exact C1|]. intros X. apply C2. cbn [length] in *. lia. }
      rewrite Nat2Z.inj_succ, Nat2Z.inj_add. lia. }
  change (2 ^ 32) with 4294967296 in B. lia.
Qed.

(** ** Columns *)
Lemma quantize_grid z : amount z -> quantize 100 (grid_value 100 z) = z.
Proof. intros A. apply (grid_back 100 scale100). now apply amount_small. Qed.
Section Column.
  Variable P : platform.
  Hypothesis GP : good_platform P.
  Let dbg := p_dbg P.
  Let neg := p_neg P.
  Let tie := p_tie P.
  Notation g := (grid_value 100).

  Definition filters (d : decoder) (xs : list N) : Prop :=
    forall p mask, Forall is_u64 (pred_operands p) -> Forall (grid_operand 100) (pred_operands p) ->
    exists bm, filter_column P d p mask = Ok bm /\ is_bitmap bm /\
      forall i, In i bm <-> in_mask mask i /\ exists x, nth_error xs (N.to_nat i) = Some x /\ satisfies p x.
  Definition good_column (d : decoder) (zss : list (list Z)) : Prop :=
    holds dbg neg d (map (map g) zss) /\ filters d (map g (concat zss)) /\
    exists x, dec_sum dbg (d_ex d) (d_meta d) (d_file d) (d_precision d) None None = Ok x /\
      near roundings (IZR (zsum (concat zss)) * / 100)%R x.

  Lemma concat_map_map {A B} (f : A -> B) (l : list (list A)) : concat (map (map f) l) = map f (concat l).
  Proof using. symmetry. apply concat_map. Qed.
  Lemma choose_none {A} (xs : list A) : forall first ys, choose None first xs ys -> ys = xs.
  Proof using. induction xs as [|x xs IH]; intros first ys C; inversion C as [|? ? ? ? IM C'|? ? ? ? IM C']; subst; [reflexivity|f_equal; eauto|]. destruct IM. exact Logic.I. Qed.
  Lemma chosen_none (parts : list (list N)) : forall k yss, Forall2 (fun '(off, part) ys => choose None off part ys) (numbered k parts) yss -> yss = parts.
  Proof using.
    induction parts as [|p ps IH]; intros k yss F; cbn [numbered] in F; inversion F; subst; [reflexivity|]. f_equal; [eapply choose_none; eassumption|eauto].
  Qed.
  Lemma filter_all {A} (l : list (list A)) : Forall (fun p => p <> []) l -> filter nonempty l = l.
  Proof using. induction 1 as [|p l NE F IH]; [reflexivity|]. cbn. destruct p; [now destruct NE|]. cbn. now rewrite IH. Qed.

  Lemma near_cells_row l : Forall amount l -> Forall2 (fun m x => near 1 (IZR m * / 100)%R x) l (map (fun z => of_bits (g z)) l).
  Proof using. induction 1 as [|z l Z A IH]; cbn [map]; constructor; [now apply near_grid|exact IH]. Qed.
  Lemma near_cells ls : Forall (Forall amount) ls -> Forall2 (Forall2 (fun m x => near 1 (IZR m * / 100)%R x)) ls (map (map (fun z => of_bits (g z))) ls).
  Proof using. induction 1 as [|l ls A F IH]; cbn [map]; constructor; [now apply near_cells_row|exact IH]. Qed.
  Lemma near_integers ls : (forall l, In l ls -> (0 <= zsum l <= 10 ^ 9 * 2 ^ 32)%Z) ->
    Forall2 (fun m x => near 2 (IZR m * / 100)%R x) (map zsum ls) (map (fun zs => fdiv (of_Z (fold_right Z.add 0%Z zs)) (of_Z 100)) ls).
  Proof using.
    clear. induction ls as [|l ls IH]; intros B; cbn [map]; constructor; [|apply IH; intros; apply B; now right].
    specialize (B l (or_introl eq_refl)). change (10 ^ 9 * 2 ^ 32)%Z with 4294967296000000000%Z in B.
    change (IZR (zsum l) * / 100)%R with (IZR (zsum l) / IZR 100)%R. apply near_div; [unfold few; lia|lia| |].
    - apply (tame_mid (/ 100)); [exact q100|]. exists (zsum l). split; [split; [lia|]; apply Z.le_trans with 4294967296000000000%Z; [lia|vm_compute; discriminate]|reflexivity].
    - change (fold_right Z.add 0%Z l) with (zsum l). apply near_Z. split; [lia|]. apply Z.le_trans with 4294967296000000000%Z; [lia|vm_compute; discriminate].
  Qed.

  Lemma same_integers l : Forall amount l -> forall zs, Forall2 (fun v q => v = g q /\ (Z.abs q < 2 ^ 51)%Z) (map g l) zs -> zs = l.
  Proof using.
    clear. induction 1 as [|z l A ZA1 IH]; intros zs F; cbn [map] in F; inversion F as [|? q ? qs (E & B) F']; subst; [reflexivity|]. f_equal; [|exact (IH _ F')].
    rewrite <- (quantize_grid z A), E. symmetry. exact (grid_back 100 scale100 q B).
  Qed.
  Lemma chosen_integers ls : forall chosen, Forall amount (concat ls) -> forall k,
    Forall2 (fun '(off, w) zs => exists ys, choose None off w ys /\ Forall2 (fun v q => v = g q /\ (Z.abs q < 2 ^ 51)%Z) ys zs) (numbered k (map (map g) ls)) chosen ->
    chosen = ls.
  Proof using.
    clear. induction ls as [|l ls IH]; intros chosen A k CH; cbn [map numbered] in CH; inversion CH as [|? zs ? rest H CH']; subst; [reflexivity|]. cbv beta iota in H. destruct H as (ys & C & F).
    cbn [concat] in A. apply Forall_app in A as [A1 A2]. f_equal; [|exact (IH _ A2 _ CH')]. apply choose_none in C. subst ys. exact (same_integers l A1 zs F).
  Qed.

  Variable zss : list (list Z).
  Hypothesis ZC : cut_rows zss.
  Hypothesis ZA : Forall amount (concat zss).
  Hypothesis ZL : N.of_nat (length (concat zss)) < 2 ^ 32.
  Hypothesis ZN : concat zss <> [].

  Let parts := map (map g) zss.
  Let xs := map g (concat zss).
  Lemma parts_concat : concat parts = xs.
  Proof using All. apply concat_map_map. Qed.
  Lemma parts_partition : partition (records_per_chunk default_chunk_option) xs parts.
  Proof using All. rewrite <- parts_concat. apply cut_partition. now apply cut_map. Qed.
  Lemma parts_length : N.of_nat (length (concat parts)) < 2 ^ 32.
  Proof using All. rewrite parts_concat. unfold xs. now rewrite map_length. Qed.
  Lemma zss_amounts : Forall (Forall amount) zss.
  Proof using All. now apply Forall_concat_inv. Qed.
  Lemma zss_nonneg : Forall (Forall (fun m => (0 <= m)%Z)) zss.
  Proof using All. eapply Forall_impl; [|exact zss_amounts]. intros l F. eapply Forall_impl; [|exact F]. intros z Z. apply Z. Qed.
  Lemma zss_total : (zsum (concat zss) <= 10 ^ 9 * 2 ^ 32)%Z.
  Proof using All.
    pose proof (zsum_bound (10 ^ 9) (concat zss) ltac:(lia)) as B. specialize (B ltac:(eapply Forall_impl; [|exact ZA]; intros z Z; exact Z)).
    change (2 ^ 32) with 4294967296 in ZL. change (10 ^ 9)%Z with 1000000000%Z in *. change (2 ^ 32)%Z with 4294967296%Z. lia.
  Qed.
  Lemma xs_grid : Forall (on_grid 100) xs.
  Proof using All. unfold xs. apply Forall_map. eapply Forall_impl; [|exact ZA]. intros z Z. exists z. split; [now apply amount_small|reflexivity]. Qed.
  Lemma xs_u64 : Forall is_u64 xs.
  Proof using All. apply Forall_map, Forall_forall. intros z _. apply grid_value_u64. Qed.

  Lemma xs_storable c : In c (all_configs 100) -> config_scheme c <> SBuff -> Forall (storable (p_log10 P) c) xs.
  Proof using All.
    intros I NB. unfold xs. apply Forall_map. eapply Forall_impl; [|exact ZA]. intros z Z. pose proof (grid_not_nan z Z) as NN.
    destruct (everyday_storable (p_log10 P) default_capacity _ (everyday_grid z Z)) as [E1 E2].
    cbn [all_configs In] in I. repeat (destruct I as [<-|I]; [first [exact Logic.I|exact NN|exact E1|exact E2|now destruct NB|idtac]|]); [|destruct I].
    apply grid_storable; [split; [discriminate|reflexivity]|]. exists z. split; [now apply amount_small|reflexivity].
  Qed.
  Lemma xs_encodable c : In c (all_configs 100) -> config_scheme c <> SBuff ->
    encodable (p_log10 P) (p_lib P) c default_chunk_option (p_timer P) (p_elapsed P) [Data (bytes_of xs)] xs.
  Proof using All.
    intros I NB. destruct GP as (FL & VT & EL). split; [exact FL|]. split; [split; reflexivity|]. split.
    { constructor; [|constructor]. eexists. split; [reflexivity|]. unfold xs. destruct (concat zss) as [|z zs]; [now destruct ZN|]. cbn. discriminate. }
    split; [exists []; cbn; rewrite !app_nil_r; repeat split; [lia|constructor]|]. split; [exact xs_u64|]. split.
    { unfold xs. rewrite map_length. apply N.lt_trans with (2 ^ 32); [exact ZL|reflexivity]. }
    split; [now apply xs_storable|]. split; [|split; [reflexivity|split; assumption]].
    cbn [all_configs In] in I. repeat (destruct I as [<-|I]; [vm_compute; repeat split; try discriminate; reflexivity|]). destruct I.
  Qed.
  Lemma xs_nonempty : xs <> [].
  Proof using All. unfold xs. destruct (concat zss); [now destruct ZN|discriminate]. Qed.

  (** *** Sums *)
  Lemma plain_sums : near roundings (IZR (zsum (concat zss)) * / 100)%R (float_sum (map (fun ys => float_sum (map of_bits ys)) parts)).
  Proof using All.
    unfold parts. rewrite map_map. replace (map (fun x => float_sum (map of_bits (map g x))) zss) with (map float_sum (map (map (fun z => of_bits (g z))) zss))
      by (rewrite map_map; apply map_ext; intros l; now rewrite map_map).
    apply (near_chunks (/ 100) 1); [lia|exact q100|exact zss_nonneg| |now apply cut_small|now apply cut_few|].
    - apply Z.le_trans with (10 ^ 9 * 2 ^ 32)%Z; [exact zss_total|]. vm_compute. discriminate.
    - exact (near_cells zss zss_amounts).
  Qed.
  Lemma integer_sums : near roundings (IZR (zsum (concat zss)) * / 100)%R (float_sum (map (fun zs => fdiv (of_Z (fold_right Z.add 0%Z zs)) (of_Z 100)) zss)).
  Proof using All.
    pose proof (cut_few zss ZC ZL) as CF. rewrite zsum_concat.
    assert (TS : (zsum (map zsum zss) <= 10 ^ 9 * 2 ^ 32)%Z) by (rewrite <- zsum_concat; exact zss_total).
    assert (PZ : Forall (fun m => (0 <= m)%Z) (map zsum zss)) by (apply Forall_map; eapply Forall_impl; [|exact zss_nonneg]; apply zsum_nonneg).
    apply (near_le (2 + length (map zsum zss))).
    - assert (0 <= IZR (zsum (map zsum zss)))%R by (apply IZR_le, zsum_nonneg; exact PZ). lra.
    - apply Nat2Z.inj_le. rewrite roundings_Z, map_length, Nat2Z.inj_add. lia.
    - apply near_sum; [exact q100|exact PZ| | |].
      + apply Z.le_trans with (10 ^ 9 * 2 ^ 32)%Z; [exact TS|]. vm_compute. discriminate.
      + unfold few. rewrite map_length, Nat2Z.inj_add. lia.
      + assert (B : forall l, In l zss -> (0 <= zsum l <= 10 ^ 9 * 2 ^ 32)%Z).
        { intros l I. split; [apply zsum_nonneg; pose proof zss_nonneg as F; rewrite Forall_forall in F; now apply F|]. pose proof (zsum_in (zsum l) _ PZ (in_map zsum _ _ I)). lia. }
        exact (near_integers zss B).
  Qed.

  (** *** Readers *)
  Lemma plain_column c ex m file : scheme_executor dbg neg tie (p_log10 P) (p_lib P) c = Some ex -> stored dbg ex m file None parts ->
    good_column (mkDec ex m file None) zss.
  Proof using All.
    intros EX ST. split; [eapply plain_holds; eauto|]. split.
    - intros p mask U _. destruct (c29 dbg neg tie (p_log10 P) (p_lib P) c ex m file None parts mask None 0 (concat parts) EX ST parts_length (scope_all parts) p U) as (bm & F & BM & H).
      exists bm. split; [exact F|]. split; [exact BM|]. intros i. rewrite H. rewrite N.sub_0_r, parts_concat. unfold xs. intuition lia.
    - destruct (c32 dbg neg tie (p_log10 P) (p_lib P) c ex m file None parts None None 0 (concat parts) EX ST parts_length (scope_all parts)) as (yss & CH & S).
      rewrite looked_at_all in CH. apply chosen_none in CH. subst yss. eexists. split; [exact S|]. rewrite filter_all; [exact plain_sums|]. apply (cut_map g zss ZC).
  Qed.
  Lemma sprintz_column m file vss : sprintz_stored dbg neg tie 100 m file None parts vss -> good_column (mkDec (sprintz_executor dbg neg tie) m file None) zss.
  Proof using All.
    intros SS. assert (XA : forall x, In x (concat parts) -> is_u64 x /\ exists z, x = g z /\ amount z).
    { intros x I. rewrite parts_concat in I. apply in_map_iff in I as (z & <- & I). split; [apply grid_value_u64|]. exists z. split; [reflexivity|]. rewrite Forall_forall in ZA. now apply ZA. }
    assert (VE : vss = parts).
    { destruct SS as (_ & _ & F & _). clear - F XA. induction F as [|p v ps vs D F IH]; [reflexivity|]. f_equal.
      - assert (X : forall x, In x p -> is_u64 x /\ exists z, x = g z /\ amount z) by (intros x I; apply XA; cbn; apply in_or_app; now left). clear - D X.
        induction D as [|x v ps vs D F IH]; [reflexivity|]. f_equal; [|apply IH; intros; apply X; now right].
        destruct (X x (or_introl eq_refl)) as (U & z & -> & A). apply (decodes_eq 100 (g z) v U) in D. rewrite D, quantize_grid by exact A. reflexivity.
      - apply IH. intros x I. apply XA. cbn. apply in_or_app. now right. }
    assert (SI : forall x q, In x (concat parts) -> stored_integer 100 x q -> amount q).
    { intros x q I S. destruct (XA x I) as (U & z & -> & A). pose proof (proj1 (stored_quantize 100 (g z) q U) S) as E. rewrite (quantize_grid z A) in E. rewrite <- E. exact A. }
    rewrite VE in SS. split; [eapply sprintz_holds, SS|]. split.
    - intros p mask U G. destruct (c35_grid dbg neg tie 100 m file None parts parts SS mask parts_length None 0 (concat parts) (scope_all parts)) with (p := p) as (bm & F & BM & H); auto.
      { intros x q I S. apply amount_small. exact (SI x q I S). }
      exists bm. split; [exact F|]. split; [exact BM|]. intros i. rewrite H. rewrite N.sub_0_r, parts_concat. unfold xs. intuition lia.
    - destruct (c36_sum dbg neg tie 100 m file None parts parts SS None parts_length None 0 (concat parts) (scope_all parts)) with (B := (10 ^ 9)%Z) as (chosen & CH & S).
      { intros x q I S. apply amount_small. exact (SI x q I S). }
      { intros x q I S. specialize (SI x q I S). unfold amount in SI. lia. }
      { rewrite parts_concat. unfold xs. rewrite map_length. change (2 ^ 32) with 4294967296 in ZL. change (2 ^ 63)%Z with 9223372036854775808%Z. change (10 ^ 9)%Z with 1000000000%Z. lia. }
      { exact Logic.I. }
      assert (CE : chosen = zss).
      { rewrite looked_at_all in CH. exact (chosen_integers zss chosen ZA 0 CH). }
      subst chosen. eexists. split; [exact S|]. rewrite filter_all; [exact integer_sums|]. apply ZC.
  Qed.

  Lemma column_opened c : In c (all_configs 100) -> config_scheme c <> SBuff ->
    N.of_nat (length (written [] (fst (encode_column P c xs)))) < 2 ^ 63 ->
    exists d s, open_column P c xs = Ok d /\ column_statistics P d = Ok s /\ good_column d zss /\
      st_uncompressed s = 8 * N.of_nat (length xs) /\ st_file s = N.of_nat (length (written [] (fst (encode_column P c xs)))) /\
      st_file s = 30 + st_chunks s + footer_size (m_footer (d_meta d)) /\ f_config (m_footer (d_meta d)) = c.
  Proof using All.
    intros I NB MEM. pose proof (xs_encodable c I NB) as EC. pose proof xs_nonempty as NE. pose proof parts_partition as PP.
    assert (CD : scheme_codec dbg (p_log10 P) (p_lib P) c = Some (codec_of P c)).
    { cbn [all_configs In] in I. repeat (destruct I as [<-|I]; [first [reflexivity|now destruct NB]|]). destruct I. }
    destruct (c24 dbg (p_log10 P) (p_lib P) c (codec_of P c) _ _ _ _ xs CD EC NE) as (ops & EN & W). unfold open_column.
    unfold encode_column in *. fold dbg in MEM |- *. rewrite EN in *. cbn [fst rbind] in *.
    destruct (W [] MEM) as (m & ps & OP & _ & _ & NR & FC & _). 
    destruct (c45 dbg (p_log10 P) (p_lib P) c (codec_of P c) _ _ _ _ xs CD EC NE) as (ops2 & EN2 & W2). rewrite EN in EN2. injection EN2 as <-.
    destruct (W2 MEM) as (m2 & sizes & OP2 & TF & _ & TC & TX). rewrite OP in OP2. injection OP2 as <-.
    assert (LM : (isize_limit <=? N.of_nat (length (written [] ops))) = false) by (apply N.leb_gt; exact MEM). rewrite LM, OP. cbn [rbind]. rewrite FC. assert (FCE : f_config (m_footer m) = c /\ True) by (split; [exact FC|exact Logic.I]). clear FC.
    exists (mkDec (executor_of P c) m (written [] ops) None). eexists. split; [reflexivity|]. split.
    { unfold column_statistics. cbn [d_meta]. fold dbg. rewrite NR, TC. unfold mul8.
      assert (X : (two64 <=? 8 * N.of_nat (length xs)) = false).
      { apply N.leb_gt. unfold xs. rewrite map_length. change (2 ^ 32) with 4294967296 in ZL. change two64 with 18446744073709551616. lia. }
      rewrite X. cbn [rbind]. reflexivity. }
    split; [|cbn [st_uncompressed st_file st_chunks d_meta]; split; [reflexivity|split; [exact TF|split; [exact TX|exact (proj1 FCE)]]]].
    destruct (scheme_executor dbg neg tie (p_log10 P) (p_lib P) c) as [ex|] eqn:EX.
    - assert (EE : executor_of P c = ex) by (destruct c; cbn [scheme_executor] in EX; try discriminate EX; injection EX as <-; reflexivity). rewrite EE.
      apply (plain_column c); [exact EX|]. destruct (encoded_stored dbg neg tie _ _ _ _ _ _ _ _ _ _ CD EX EC NE) as (ps' & PS & ops3 & EN3 & W3). rewrite EN in EN3. injection EN3 as <-.
      destruct (W3 [] MEM) as (m3 & OP3 & ST). rewrite OP in OP3. injection OP3 as <-. rewrite (partition_unique _ _ _ _ PP PS). apply ST.
    - assert (CE : c = CDeltaSprintz default_capacity 100).
      { cbn [all_configs In] in I. repeat (destruct I as [<-|I]; [first [discriminate EX|reflexivity|now destruct NB]|]). destruct I. }
      subst c. cbn [executor_of]. fold dbg neg tie.
      assert (SE : sprintz_encodable dbg default_capacity 100 default_chunk_option (p_timer P) (p_elapsed P) [Data (bytes_of xs)] xs).
      { destruct EC as (_ & E1 & E2 & E3 & E4 & E5 & _ & E7). split; [split; [discriminate|reflexivity]|]. split; [exact E1|]. split; [exact E2|]. split; [exact E3|]. split; [exact E4|]. split; [exact E5|]. split; [exact E7|]. intros _. apply grid_steps; [split; [discriminate|reflexivity]|exact xs_grid]. }
      destruct (sprintz_file dbg neg tie _ _ _ _ _ _ _ SE NE) as (ops3 & ps' & PS & EN3 & W3).
      change (codec_of P (CDeltaSprintz default_capacity 100)) with (sprintz_codec dbg 100) in EN. rewrite EN in EN3. injection EN3 as <-.
      destruct (W3 [] MEM) as (m3 & vss & OP3 & ST). rewrite OP in OP3. injection OP3 as <-. rewrite <- (partition_unique _ _ _ _ PP PS) in ST.
      eapply sprintz_column, ST.
  Qed.
End Column.
