From Verif Require Import Base WordProofs BitIO Xor F64 F64Proofs F64SumProofs Format FormatProofs File FileSpec FileProofs FileSummary Codecs CodecSpec ByteCodec Readers
  Uncompressed Query QuerySpec QueryProofs QuerySummary Sprintz SprintzSpec SprintzSummary Buff BuffCodec BuffSpec BuffSummary BuffFileSummary
  Expr ExprSpec ExprProofs AggregateProofs VectorProofs.

(** ** Which files hold their records *)
Lemma reads_of neg ex first xs (P : rstate ex -> Prop) :
  (forall r q, P r -> reading q -> answered neg first xs q (fst (q_step ex first r q)) /\ P (snd (q_step ex first r q))) ->
  forall r, P r -> reads neg ex first r xs.
Proof.
  intros H r PR qs QS. revert r PR. induction QS as [|q qs Q QS IH]; intros r PR; [constructor|]. cbn [q_run].
  destruct (H r q PR Q) as [A B]. destruct (q_step ex first r q) as [a t]. cbn [fst snd] in *. specialize (IH t B).
  destruct (q_run ex first t qs) as [l u]. cbn [fst] in *. now constructor.
Qed.
Lemma skipn_min {A} (xs : list A) o : skipn (N.to_nat (N.min (N.of_nat (length xs)) o)) xs = skipn (N.to_nat o) xs.
Proof.
  destruct (N.le_ge_cases (N.of_nat (length xs)) o) as [L|L].
  - rewrite N.min_l by lia. rewrite !skipn_all2 by lia. reflexivity.
  - now rewrite N.min_r by lia.
Qed.
Lemma written_chosen mask first xs : mask = None \/ first + N.of_nat (length xs) < 2 ^ 32 ->
  exists ys, choose mask first xs ys /\ flat_map (fun '(_, v) => le_bytes 8 v) (masked mask first xs) = bytes_of ys.
Proof.
  intros B. exists (map snd (masked mask first xs)). split.
  - destruct B as [->|B]; [|now apply masked_choose]. rewrite map_snd_masked_none. clear. revert first.
    induction xs as [|x xs IH]; intros first; constructor; [exact I|apply IH].
  - generalize (masked mask first xs) as l. clear. induction l as [|[i v] l IH]; [reflexivity|]. cbn [flat_map map snd bytes_of]. unfold bytes_of in IH. now rewrite IH.
Qed.

(** Answers of the default implementations over a decompressor that yields [xs]. *)
Lemma answered_default neg ex first xs r r' q : ex_decompress ex r = (Ok xs, r') ->
  (forall mask, q = QMaterialize mask -> ex_materialize ex mask first r = default_materialize _ (ex_decompress ex) mask first r) ->
  ex_distance_squared ex = default_distance_squared _ (ex_decompress ex) neg ->
  ex_dot_product ex = default_dot_product _ (ex_decompress ex) neg -> reading q ->
  answered neg first xs q (fst (q_step ex first r q)) /\ snd (q_step ex first r q) = r'.
Proof.
  intros D M DI DO Q. destruct q; try destruct Q; cbn [q_step answered]; rewrite ?(M _ eq_refl), ?DI, ?DO;
    unfold default_materialize, default_distance_squared, default_dot_product, default_zip; rewrite D; cbn [fst snd rbind]; (split; [|reflexivity]).
  - intros B. destruct (written_chosen mask first xs B) as (ys & C & ->). eauto.
  - now rewrite skipn_min.
  - now rewrite skipn_min.
Qed.

Lemma plain_holds dbg neg tie log10 lib c ex m file precision parts :
  scheme_executor dbg neg tie log10 lib c = Some ex -> stored dbg ex m file precision parts ->
  holds dbg neg (mkDec ex m file precision) parts.
Proof.
  intros EX (NC & NR & ST). pose proof (scheme_default_all _ _ _ _ _ _ _ EX) as ((M & _) & DI & DO). pose proof (scheme_settles _ _ _ _ _ _ _ EX) as SE.
  split; [exact NC|]. split; [exact NR|]. intros i part E. destruct (ST i part E) as (NE & U & OF & _ & CR & r & RD & r' & D).
  split; [exact NE|]. split; [exact U|]. split; [exact OF|]. split; [exact CR|]. exists r. split; [exact RD|]. cbn [d_ex].
  apply (reads_of neg ex (first_of parts i) part (fun s => exists s', ex_decompress ex s = (Ok part, s'))); [|eauto].
  intros s q (s' & DS) Q. destruct (answered_default neg ex (first_of parts i) part s s' q DS) as [A B]; auto.
  - intros mask _. now rewrite M.
  - split; [exact A|]. rewrite B. exists s'. exact (SE _ _ _ DS).
Qed.
Lemma buff_holds dbg simd neg lg scale f m file precision parts vss :
  buff_stored dbg simd neg lg scale f m file precision parts vss ->
  holds dbg neg (mkDec (buff_executor dbg simd neg) m file precision) vss.
Proof.
  intros (_ & (NC & NR & ST) & _). split; [exact NC|]. split; [exact NR|]. intros i part E. destruct (ST i part E) as (NE & U & OF & _ & CR & r & RD & r' & D).
  split; [exact NE|]. split; [exact U|]. split; [exact OF|]. split; [exact CR|]. exists r. split; [exact RD|]. cbn [d_ex].
  set (ex := buff_executor dbg simd neg) in *.
  apply (reads_of neg ex (first_of vss i) part (fun s => exists s', ex_decompress ex s = (Ok part, s'))); [|eauto].
  intros s q (s' & DS) Q. destruct (answered_default neg ex (first_of vss i) part s s' q DS) as [A B]; auto.
  split; [exact A|]. rewrite B. cbn [ex buff_executor ex_decompress] in *. destruct (settled dbg s) as [S1 S2]. unfold ex, buff_executor in DS. cbn [ex_decompress] in DS. rewrite DS in S1, S2. cbn [fst snd] in S1, S2.
  exists s'. unfold ex, buff_executor. cbn [ex_decompress]. destruct (bf_decompress dbg s') as [x y]. cbn [fst snd] in *. now subst.
Qed.
Lemma sprintz_holds dbg neg tie s m file precision parts vss :
  sprintz_stored dbg neg tie s m file precision parts vss ->
  holds dbg neg (mkDec (sprintz_executor dbg neg tie) m file precision) vss.
Proof.
  intros (_ & (NC & NR & ST) & LS & OP). split; [exact NC|]. split; [exact NR|]. intros i part E. destruct (ST i part E) as (NE & U & OF & _ & CR & r & RD & r' & D).
  split; [exact NE|]. split; [exact U|]. split; [exact OF|]. split; [exact CR|]. exists r. split; [exact RD|]. cbn [d_ex].
  assert (R0 : spr_set r (r_reset (spr_r r)) = r).
  { destruct (nth_error parts i) as [p|] eqn:EP.
    - destruct (OP i p EP) as (_ & c & _ & CR2). cbn [rstate sprintz_executor] in *. rewrite RD in CR2. injection CR2 as ->. reflexivity.
    - exfalso. apply nth_error_None in EP. pose proof (Forall2_len _ _ _ LS). assert (i < length vss)%nat by (apply nth_error_Some; congruence). lia. }
  set (ex := sprintz_executor dbg neg tie) in *.
  assert (CA : forall s, spr_cache s = Some part -> sp_decompress dbg s = (Ok part, s)) by (intros u C; unfold sp_decompress; now rewrite C).
  assert (DC : spr_cache r' = Some part).
  { change (sp_decompress dbg r = (Ok part, r')) in D. unfold sp_decompress in D. destruct (spr_cache r) eqn:C; [injection D as -> <-; exact C|].
    destruct (sp_header (spr_r r)) as [[[[? ?] ?]|e|] t]; try discriminate D. destruct (sp_collect _ _ _ _ _ _) as [[vs|e|] t2]; try discriminate D. injection D as -> <-. reflexivity. }
  apply (reads_of neg ex (first_of vss i) part (fun s => s = r \/ spr_cache s = Some part)); [|now left].
  intros u q [->|CU] Q.
  - destruct (answered_default neg ex (first_of vss i) part r r' q D) as [A B]; auto.
    + intros mask _. change (sp_materialize dbg mask (first_of vss i) r = default_materialize _ (sp_decompress dbg) mask (first_of vss i) r). unfold sp_materialize. now rewrite R0.
    + split; [exact A|]. rewrite B. now right.
  - destruct q; try destruct Q.
    + cbn [q_step ex sprintz_executor ex_materialize answered]. unfold sp_materialize, default_materialize.
      assert (CU' : spr_cache (spr_set u (r_reset (spr_r u))) = Some part) by exact CU. change (ex_materialize ex) with (sp_materialize dbg). unfold sp_materialize, default_materialize.
      rewrite (CA _ CU'). cbn [fst snd]. split; [|right; exact CU'].
      intros B. destruct (written_chosen mask (first_of vss i) part B) as (ys & C & ->). eauto.
    + destruct (answered_default neg ex (first_of vss i) part u u (QDistance offset target) (CA u CU)) as [A B]; try discriminate; try reflexivity; try exact I. split; [exact A|right; now rewrite B].
    + destruct (answered_default neg ex (first_of vss i) part u u (QDot offset target) (CA u CU)) as [A B]; try discriminate; try reflexivity; try exact I. split; [exact A|right; now rewrite B].
Qed.

(** Written files hold the records given to the encoder (or, for the lossy schemes,
    what these become). *)
Lemma encoded_holds dbg neg tie log10 lib c cd ex o timer elapsed input xs :
  scheme_codec dbg log10 lib c = Some cd -> scheme_executor dbg neg tie log10 lib c = Some ex ->
  encodable log10 lib c o timer elapsed input xs -> xs <> [] ->
  exists parts, partition (records_per_chunk o) xs parts /\
  exists ops, encode dbg cd o c timer elapsed input = (ops, Ok tt) /\
  forall old, N.of_nat (length (written old ops)) < 2 ^ 63 ->
  exists m, open_file dbg (written old ops) = Ok m /\
    forall precision, holds dbg neg (mkDec ex m (written old ops) precision) parts.
Proof.
  intros SC SE EC NE. destruct (encoded_stored _ _ _ _ _ _ _ _ _ _ _ _ _ SC SE EC NE) as (parts & P & ops & EN & W).
  exists parts. split; [exact P|]. exists ops. split; [exact EN|]. intros old L. destruct (W old L) as (m & OP & ST). exists m. split; [exact OP|].
  intros precision. eapply plain_holds; eauto.
Qed.
Lemma sprintz_encoded_holds dbg neg tie capacity s o timer elapsed input xs :
  sprintz_encodable dbg capacity s o timer elapsed input xs -> xs <> [] ->
  exists ops parts, partition (records_per_chunk o) xs parts /\
    encode dbg (sprintz_codec dbg s) o (CDeltaSprintz capacity s) timer elapsed input = (ops, Ok tt) /\
  forall old, let file := written old ops in N.of_nat (length file) < 2 ^ 63 ->
  exists m vss, open_file dbg file = Ok m /\ Forall2 (Forall2 (SprintzSpec.decodes s)) parts vss /\
    forall precision, holds dbg neg (mkDec (sprintz_executor dbg neg tie) m file precision) vss.
Proof.
  intros EC NE. destruct (sprintz_file dbg neg tie _ _ _ _ _ _ _ EC NE) as (ops & parts & P & EN & W).
  exists ops, parts. split; [exact P|]. split; [exact EN|]. intros old file L. destruct (W old L) as (m & vss & OP & ST). exists m, vss. split; [exact OP|].
  split; [exact (proj1 (proj2 (proj2 (ST None))))|]. intros precision. eapply sprintz_holds. apply ST.
Qed.
Lemma buff_encoded_holds dbg simd neg lg scale f o timer elapsed input xs :
  buff_encodable dbg lg scale f o timer elapsed input xs -> xs <> [] ->
  exists ops parts, partition (records_per_chunk o) xs parts /\
    encode dbg (buff_codec dbg lg scale) o (CBuff scale) timer elapsed input = (ops, Ok tt) /\
  forall old, let file := written old ops in N.of_nat (length file) < 2 ^ 63 ->
  exists m, open_file dbg file = Ok m /\
    forall precision g, kept_bits f precision = Some g ->
    exists vss, Forall2 (Forall2 (truncated_to f g)) parts vss /\
      holds dbg neg (mkDec (buff_executor dbg simd neg) m file precision) vss.
Proof.
  intros EC NE. destruct (buff_file dbg simd neg _ _ _ _ _ _ _ _ EC NE) as (ops & parts & P & EN & W).
  exists ops, parts. split; [exact P|]. split; [exact EN|]. intros old file L. destruct (W old L) as (m & OP & ST). exists m. split; [exact OP|].
  intros precision g K. destruct (ST precision ltac:(congruence)) as (vss & BS). exists vss. split; [|eapply buff_holds, BS].
  destruct BS as (_ & _ & (g' & K' & F) & _). congruence.
Qed.
Lemma plain_table_table dbg neg tie ds chunks : plain_table dbg neg tie ds chunks -> table dbg neg ds chunks.
Proof.
  intros T k d E. destruct (T k d E) as ((log10 & lib & c & EX) & ST). destruct d as [ex m file precision]. cbn [d_ex d_meta d_file d_precision] in *.
  eapply plain_holds; eauto.
Qed.

(** ** C46 *)
Lemma c46_open dbg neg ds chunks i rows : table dbg neg ds chunks -> nth_error chunks i = Some rows ->
  exists rs, open_all dbg i ds = Ok rs /\ length rs = length ds /\ opened neg (N.of_nat (length (concat (firstn i chunks)))) rows rs.
Proof. intros T E. exact (open_all_ok dbg neg ds chunks T i rows E). Qed.
Lemma c46 neg mask first rows rs e : mask = None \/ first + N.of_nat (length rows) < 2 ^ 32 -> 8 * N.of_nat (length rows) < 2 ^ 63 ->
  opened neg first rows rs -> columns_below (length rs) e ->
  exists rs', length rs' = length rs /\ opened neg first rows rs' /\
    ((formula (length rs) e /\ exists ys, choose mask first rows ys /\ compute_chunk e mask rs = (Ok (map (fun row => value row e) ys), rs')) \/
     (~ formula (length rs) e /\ compute_chunk e mask rs = (Err EPreconditionsNotMet, rs'))).
Proof.
  intros BD SZ OP CB. destruct (choose_total mask rows first) as (ys & CH).
  destruct (formula_dec (length rs) e) as [F|F].
  - destruct (compute_chunk_ok neg mask first rows BD SZ ys CH (length rs) e F rs eq_refl OP) as (rs' & E & L & O). exists rs'. split; [exact L|]. split; [exact O|]. left. eauto.
  - destruct (compute_chunk_rejects neg mask first rows BD SZ ys CH (length rs) e CB F rs eq_refl OP) as (rs' & E & L & O). exists rs'. split; [exact L|]. split; [exact O|]. now right.
Qed.

(** ** C47 *)
Lemma choose_app {A} mask (xs xs' : list A) ys ys' : forall first, choose mask first xs ys -> choose mask (first + N.of_nat (length xs)) xs' ys' ->
  choose mask first (xs ++ xs') (ys ++ ys').
Proof.
  intros first C D. induction C as [first|first x xs ys I C IH|first x xs ys I C IH]; cbn [app].
  - cbn [length] in D. now rewrite N.add_0_r in D.
  - constructor; [exact I|]. apply IH. cbn [length] in D. now replace (first + 1 + N.of_nat (length xs)) with (first + N.of_nat (S (length xs))) by lia.
  - apply choose_skip; [exact I|]. apply IH. cbn [length] in D. now replace (first + 1 + N.of_nat (length xs)) with (first + N.of_nat (S (length xs))) by lia.
Qed.
Lemma selected_total mask chunks : forall first, exists yss, selected mask first chunks yss.
Proof.
  induction chunks as [|rows chunks IH]; intros first; [exists []; constructor|].
  destruct (choose_total mask rows first) as (ys & C). destruct (IH (first + N.of_nat (length rows))) as (yss & S). exists (ys :: yss). now constructor.
Qed.
Lemma selected_concat k mask chunks : forall first yss, selected mask first chunks yss ->
  choose mask first (concat (map (column k) chunks)) (concat (map (column k) yss)).
Proof.
  intros first yss S. induction S as [|first rows ys chunks yss C S IH]; cbn [map concat]; [constructor|].
  apply choose_app; [now apply choose_map|]. unfold column at 1. now rewrite map_length.
Qed.
Lemma selected_numbered k mask chunks : forall first yss, selected mask first chunks yss ->
  Forall2 (fun '(off, part) ys => choose mask off part ys) (numbered first (map (column k) chunks)) (map (column k) yss).
Proof.
  intros first yss S. induction S as [|first rows ys chunks yss C S IH]; cbn [map numbered]; constructor.
  - now apply choose_map.
  - unfold column at 1. now rewrite map_length.
Qed.
Lemma choices_fun mask l : forall a b : list (list N), Forall2 (fun '(off, part) ys => choose mask off part ys) l a ->
  Forall2 (fun '(off, part) ys => choose mask off part ys) l b -> a = b.
Proof.
  induction l as [|[o p] l IH]; intros a b A B; inversion A; inversion B; subst; [reflexivity|]. f_equal; [|auto]. eapply choose_fun; eassumption.
Qed.
Lemma sums_nonempty (yss : list (list N)) : Forall (Forall is_u64) yss -> forall acc, low acc -> not_nz acc ->
  fold_left fadd (map (fun ys => float_sum (map of_bits ys)) (filter nonempty yss)) acc =
  fold_left fadd (map (fun ys => float_sum (map of_bits ys)) yss) acc.
Proof.
  induction 1 as [|ys yss U F IH]; intros acc LA NA; [reflexivity|].
  assert (FL : low (float_sum (map of_bits ys))).
  { apply fold_fadd_low; [|exact I|discriminate]. apply Forall_map. eapply Forall_impl; [|exact U]. intros x X. now apply low_of_bits. }
  destruct (fadd_low acc (float_sum (map of_bits ys)) LA FL NA) as [L2 N2].
  destruct ys as [|y ys].
  - cbn [filter nonempty map fold_left]. rewrite IH by assumption. f_equal. change (acc = fadd acc (S754_zero false)).
    destruct acc as [[]|u| |u mm e]; try reflexivity. now destruct NA.
  - cbn [filter nonempty map fold_left] in *. now rewrite IH.
Qed.
Lemma greatest_values ys m : Forall is_u64 ys -> greatest ys m -> greatest_value (map of_bits ys) m.
Proof.
  intros U G. rewrite Forall_forall in U. destruct G as [[F ->]|(v & a & I & -> & E & H)].
  - left. split; [|reflexivity]. apply Forall_map. rewrite Forall_forall in F |- *. intros x X. apply is_nan_iff. apply number_none; auto. now apply U.
  - right. split; [now apply in_map|]. split; [intros X; pose proof (number_some v a (U v I) E) as Y; rewrite X in Y; discriminate Y|].
    intros w W NW. apply in_map_iff in W. destruct W as (x & <- & X). destruct (number x) as [b|] eqn:NB.
    + specialize (H x b X NB). rewrite number_scaled in E, NB by (now apply U).
      change (fle (of_bits x) (of_bits v) = true). rewrite fle_scaled, E, NB by (now apply of_bits_canonical, U). now apply Z.leb_le.
    + destruct NW. apply is_nan_iff. apply number_none; auto. now apply U.
Qed.
Lemma least_values ys m : Forall is_u64 ys -> least ys m -> least_value (map of_bits ys) m.
Proof.
  intros U G. rewrite Forall_forall in U. destruct G as [[F ->]|(v & a & I & -> & E & H)].
  - left. split; [|reflexivity]. apply Forall_map. rewrite Forall_forall in F |- *. intros x X. apply is_nan_iff. apply number_none; auto. now apply U.
  - right. split; [now apply in_map|]. split; [intros X; pose proof (number_some v a (U v I) E) as Y; rewrite X in Y; discriminate Y|].
    intros w W NW. apply in_map_iff in W. destruct W as (x & <- & X). destruct (number x) as [b|] eqn:NB.
    + specialize (H x b X NB). rewrite number_scaled in E, NB by (now apply U).
      change (fle (of_bits v) (of_bits x) = true). rewrite fle_scaled, E, NB by (now apply of_bits_canonical, U). now apply Z.leb_le.
    + destruct NW. apply is_nan_iff. apply number_none; auto. now apply U.
Qed.
Lemma Forall_concat_inv {A} (P : A -> Prop) l : Forall P (concat l) -> Forall (Forall P) l.
Proof. induction l as [|x l IH]; intros F; constructor; cbn [concat] in F; apply Forall_app in F; tauto. Qed.
Lemma column_values k (yss : list (list (list N))) : concat (map (map (fun row => value row (Index k))) yss) = map of_bits (concat (map (column k) yss)).
Proof.
  induction yss as [|ys yss IH]; [reflexivity|]. cbn [map concat]. rewrite map_app, <- IH. f_equal. unfold column. now rewrite map_map.
Qed.

Lemma c47_column dbg neg tie ds chunks mask k kd : plain_table dbg neg tie ds chunks -> (k < length ds)%nat ->
  N.of_nat (length (concat chunks)) < 2 ^ 32 -> kd <> KNone ->
  exists yss r, selected mask 0 chunks yss /\ compute dbg neg tie (mkAgg kd (Index k)) ds mask = Ok r /\
    aggregated kd (map (map (fun row => value row (Index k))) yss) r.
Proof.
  intros T K SM KN. destruct (nth_error ds k) as [d|] eqn:ED; [|apply nth_error_None in ED; lia].
  destruct (T k d ED) as ((log10 & lib & c & EX) & ST). unfold compute. cbn [a_expr a_kind]. rewrite ED.
  destruct (selected_total mask chunks 0) as (yss & SEL). exists yss.
  assert (SM' : N.of_nat (length (concat (map (column k) chunks))) < 2 ^ 32) by (now rewrite columns_total).
  pose proof (scope_all (map (column k) chunks)) as SC.
  pose proof (scope_u64 _ _ _ _ _ _ _ _ _ ST SC) as U.
  pose proof (selected_concat k _ _ _ _ SEL) as CC. pose proof (choose_u64 _ _ _ _ CC U) as UC.
  destruct (c31 dbg neg tie log10 lib c (d_ex d) (d_meta d) (d_file d) (d_precision d) _ mask None _ _ EX ST SM' SC) as (ys & lo & hi & CH & MI & LE & MA & GR).
  pose proof (choose_fun _ _ _ _ _ CH CC) as ->.
  destruct kd; [now destruct KN| | |].
  - exists (Scalar hi). split; [exact SEL|]. cbn [agg_dispatch]. rewrite MA. split; [reflexivity|]. exists hi. split; [reflexivity|]. rewrite column_values. now apply greatest_values.
  - exists (Scalar lo). split; [exact SEL|]. cbn [agg_dispatch]. rewrite MI. split; [reflexivity|]. exists lo. split; [reflexivity|]. rewrite column_values. now apply least_values.
  - destruct (c32 dbg neg tie log10 lib c (d_ex d) (d_meta d) (d_file d) (d_precision d) _ mask None _ _ EX ST SM' SC) as (zss & CZ & SU).
    rewrite looked_at_all in CZ. pose proof (choices_fun _ _ _ _ CZ (selected_numbered k _ _ _ _ SEL)) as ->.
    eexists. split; [exact SEL|]. cbn [agg_dispatch]. rewrite SU. split; [reflexivity|]. cbn [aggregated]. f_equal.
    unfold float_sum at 1. rewrite sums_nonempty; [|now apply Forall_concat_inv|exact I|discriminate].
    unfold float_sum at 2. rewrite !map_map. unfold column. f_equal. apply map_ext. intros l. now rewrite map_map.
Qed.

Lemma c47 dbg neg tie ds chunks mask a : plain_table dbg neg tie ds chunks -> ds <> [] -> formula (length ds) (a_expr a) ->
  N.of_nat (length (concat chunks)) < 2 ^ 32 -> (is_index (a_expr a) -> a_kind a <> KNone) ->
  exists yss r, selected mask 0 chunks yss /\ compute dbg neg tie a ds mask = Ok r /\
    aggregated (a_kind a) (map (map (fun row => value row (a_expr a))) yss) r.
Proof.
  intros T DS F SM NI. change (2 ^ 32) with 4294967296 in *.
  assert (SZ : N.of_nat (length (concat chunks)) < 2 ^ 60) by (change (2 ^ 60) with 1152921504606846976; lia).
  assert (CL : is_index (a_expr a) \/ ~ is_index (a_expr a)) by (destruct (a_expr a); cbn; tauto).
  destruct CL as [IX|IX].
  - specialize (NI IX). destruct a as [kd e]. cbn [a_expr a_kind] in *. destruct e as [| |k]; try destruct IX. inversion F. now apply c47_column.
  - apply compute_ok; auto. eapply plain_table_table, T.
Qed.
Lemma c47_none dbg neg tie ds k d mask : nth_error ds k = Some d -> compute dbg neg tie (mkAgg KNone (Index k)) ds mask = Panic.
Proof. intros E. unfold compute. cbn [a_expr a_kind]. rewrite E. reflexivity. Qed.

(** ** Samples and witnesses *)
Definition sample_tie : f64 -> f64 -> bool := fun _ _ => true.
Definition sample_file (n : N) (xs : list N) : list N :=
  written [] (fst (encode false uncompressed_codec (RecordCount n) (CUncompressed 0) (repeat 5 9) 77 [Data (bytes_of xs)])).
Definition sample_decoder (n : N) (xs : list N) : option decoder :=
  match open_file false (sample_file n xs) with
  | Ok m => Some (mkDec (uncompressed_executor false sample_tie) m (sample_file n xs) None)
  | _ => None
  end.
Lemma sample_stored n xs parts : xs <> [] -> forallb (fun x => x <? 2 ^ 64) xs = true -> (N.of_nat (length xs) <? 2 ^ 60) = true -> (0 <? n) && (n <? 1000) = true ->
  (N.of_nat (length (sample_file n xs)) <? 2 ^ 63) = true -> partition (Some n) xs parts ->
  exists d, sample_decoder n xs = Some d /\ d_ex d = uncompressed_executor false sample_tie /\
    stored false (d_ex d) (d_meta d) (d_file d) (d_precision d) parts.
Proof.
  intros NE U L NB FL P. rewrite forallb_forall in U. apply andb_prop in NB as [N1 N2]. apply N.ltb_lt in L, FL, N1, N2.
  assert (EN : encodable (fun x => x) simple_libraries (CUncompressed 0) (RecordCount n) (repeat 5 9) 77 [Data (bytes_of xs)] xs).
  { apply encodable_simple with (tail := []).
    - split; [exact N1|]. change (2 ^ 63) with 9223372036854775808. lia.
    - constructor; [|constructor]. eexists. split; [reflexivity|]. destruct xs as [|x xs]; [congruence|]. discriminate.
    - cbn. rewrite !app_nil_r. reflexivity.
    - cbn. lia.
    - constructor.
    - apply Forall_forall. intros x X. apply N.ltb_lt. now apply U.
    - exact L.
    - apply Forall_forall. intros x _. exact I.
    - vm_compute. reflexivity.
    - change (n < 18446744073709551616). lia. }
  destruct (encoded_stored false false sample_tie (fun x => x) simple_libraries (CUncompressed 0) uncompressed_codec (uncompressed_executor false sample_tie)
    (RecordCount n) (repeat 5 9) 77 [Data (bytes_of xs)] xs eq_refl eq_refl EN NE) as (parts' & P' & ops & EO & W).
  cbn [records_per_chunk] in P'. rewrite (partition_unique _ _ _ _ P P').
  unfold sample_decoder, sample_file in *. rewrite EO in *. cbn [fst] in *. destruct (W [] FL) as (m & -> & ST). eexists. split; [reflexivity|]. split; [reflexivity|]. apply ST.
Qed.
Lemma sample_holds n xs parts : xs <> [] -> forallb (fun x => x <? 2 ^ 64) xs = true -> (N.of_nat (length xs) <? 2 ^ 60) = true -> (0 <? n) && (n <? 1000) = true ->
  (N.of_nat (length (sample_file n xs)) <? 2 ^ 63) = true -> partition (Some n) xs parts ->
  exists d, sample_decoder n xs = Some d /\ holds false false d parts.
Proof.
  intros A B C D E P. destruct (sample_stored n xs parts A B C D E P) as (d & S & X & ST). exists d. split; [exact S|]. destruct d as [ex m file precision]. cbn [d_ex d_meta d_file d_precision] in *. subst ex.
  eapply (plain_holds false false sample_tie (fun x => x) simple_libraries (CUncompressed 0)); [reflexivity|exact ST].
Qed.

(** 0.0, 1.0, ... as records. *)
Definition whole (k : Z) : N := to_bits (of_Z k).
Lemma partition_check k xs parts : concat parts = xs -> forallb nonempty parts = true ->
  (forall i p, nth_error parts i = Some p -> N.of_nat (length p) <= k /\ ((S i < length parts)%nat -> N.of_nat (length p) = k)) -> partition (Some k) xs parts.
Proof.
  intros C NE H. split; [exact C|]. split; [|exact H]. apply Forall_forall. intros p I. rewrite forallb_forall in NE. specialize (NE p I). destruct p; [discriminate NE|discriminate].
Qed.
Ltac cases_nth := let i := fresh in let p := fresh in let E := fresh in intros i p E; repeat (destruct i as [|i]; [injection E as <-; split; [vm_compute; discriminate|intros; first [reflexivity|cbn in *; lia]]|]); destruct i; discriminate E.

(** Two columns of five rows, in chunks of two. *)
Definition sample_rows : list (list (list N)) :=
  map (map (map whole)) [[[1; 10]; [2; -20]]; [[3; 30]; [4; 0]]; [[5; 7]]]%Z.
Definition sample_column (k : nat) : list N := concat (map (column k) sample_rows).
Lemma sample_table : exists d0 d1, sample_decoder 2 (sample_column 0) = Some d0 /\ sample_decoder 2 (sample_column 1) = Some d1 /\
  plain_table false false sample_tie [d0; d1] sample_rows.
Proof.
  assert (P : forall k, (k < 2)%nat -> partition (Some 2) (sample_column k) (map (column k) sample_rows)).
  { intros k K. apply partition_check; [reflexivity|destruct k as [|[|]]; [reflexivity|reflexivity|lia]|]. cbn [sample_rows map]. cases_nth. }
  assert (S : forall k, (k < 2)%nat -> exists d, sample_decoder 2 (sample_column k) = Some d /\ d_ex d = uncompressed_executor false sample_tie /\
    stored false (d_ex d) (d_meta d) (d_file d) (d_precision d) (map (column k) sample_rows)).
  { intros k K. destruct k as [|[|]]; [| |lia]; (apply sample_stored; [discriminate| | | | |apply P; lia]; vm_compute; reflexivity). }
  destruct (S 0%nat ltac:(lia)) as (d0 & E0 & X0 & S0). destruct (S 1%nat ltac:(lia)) as (d1 & E1 & X1 & S1). exists d0, d1. split; [exact E0|]. split; [exact E1|].
  intros [|[|k]] d E; cbn in E; [injection E as <-|injection E as <-|destruct k; discriminate E].
  - split; [|exact S0]. exists (fun x => x), simple_libraries, (CUncompressed 0). now rewrite X0.
  - split; [|exact S1]. exists (fun x => x), simple_libraries, (CUncompressed 0). now rewrite X1.
Qed.
Definition on_sample_table {A} (f : list decoder -> A) : option A :=
  match sample_decoder 2 (sample_column 0), sample_decoder 2 (sample_column 1) with Some a, Some b => Some (f [a; b]) | _, _ => None end.

(** 1 * 10 - 7 on each row. *)
Definition sample_expr : expr := Binary Sub (Binary Mul (Index 0) (Index 1)) (Literal (whole 7)).

(** ** knn1 *)
Definition knn_records : list N := map whole [0; 0; 5; 5; 9; 9]%Z.
Lemma knn_sample n parts : (0 <? n) && (n <? 1000) = true -> (N.of_nat (length (sample_file n knn_records)) <? 2 ^ 63) = true -> partition (Some n) knn_records parts ->
  exists d, sample_decoder n knn_records = Some d /\ holds false false d parts.
Proof. intros B L P. apply sample_holds; try assumption; [discriminate|vm_compute; reflexivity|reflexivity]. Qed.
(** Chunks of three records, vectors of two: the answer is no vector's. *)
Lemma knn_refuted : exists d parts target vs r,
  holds false false d parts /\ grouped (length target) (concat parts) vs [] /\ knn1 false 10 d target = Some (Ok r) /\
  ~ nearest false vs target r /\ Forall (fun v => squared_distance false v target <> k_distance r) vs.
Proof.
  destruct (knn_sample 3 (map (map whole) [[0; 0; 5]; [5; 9; 9]]%Z)) as (d & SD & HD).
  - reflexivity.
  - vm_compute. reflexivity.
  - apply partition_check; [reflexivity|reflexivity|]. cbn [map]. cases_nth.
  - exists d, (map (map whole) [[0; 0; 5]; [5; 9; 9]]%Z), (map whole [5; 9]%Z), (map (map whole) [[0; 0]; [5; 5]; [9; 9]]%Z), (mkKnn 2 (S754_zero false)).
    split; [exact HD|]. split; [split; [reflexivity|]; split; [repeat constructor|cbn; lia]|].
    assert (R : option_map (fun d => knn1 false 10 d (map whole [5; 9]%Z)) (sample_decoder 3 knn_records) = Some (Some (Ok (mkKnn 2 (S754_zero false))))) by (vm_compute; reflexivity).
    rewrite SD in R. cbn [option_map] in R. split; [congruence|].
    assert (F : Forall (fun v => squared_distance false v (map whole [5; 9]%Z) <> S754_zero false) (map (map whole) [[0; 0]; [5; 5]; [9; 9]]%Z)).
    { repeat constructor; vm_compute; discriminate. }
    split; [|exact F]. intros [[_ E]|(i & v & E & K & _)]; [discriminate E|]. rewrite Forall_forall in F. apply (F v); [eapply nth_error_In, E|]. symmetry. exact (f_equal k_distance K).
Qed.

(** ** matmul *)
Definition mat_records : list N := map whole [1; 2; 3; 4; 5; 6]%Z.
(** Rows of two records in chunks of three: the second dot product stops at the end
    of the first chunk, the third starts at the second chunk. *)
Lemma matmul_straddling_refuted : exists d parts,
  holds false false d parts /\ concat parts = mat_records /\
  matmul false d (map whole [1; 1]%Z) (2, 1) (1, 2) = Ok (map of_Z [3; 3; 9]%Z) /\
  map (fun row => dot false row (map whole [1; 1]%Z)) (map (map whole) [[1; 2]; [3; 4]; [5; 6]]%Z) = map of_Z [3; 7; 11]%Z.
Proof.
  destruct (sample_holds 3 mat_records (map (map whole) [[1; 2; 3]; [4; 5; 6]]%Z)) as (d & SD & HD).
  - discriminate.
  - vm_compute. reflexivity.
  - reflexivity.
  - reflexivity.
  - vm_compute. reflexivity.
  - apply partition_check; [reflexivity|reflexivity|]. cbn [map]. cases_nth.
  - exists d, (map (map whole) [[1; 2; 3]; [4; 5; 6]]%Z). split; [exact HD|]. split; [reflexivity|].
    assert (R : option_map (fun d => matmul false d (map whole [1; 1]%Z) (2, 1) (1, 2)) (sample_decoder 3 mat_records) = Some (Ok (map of_Z [3; 3; 9]%Z))) by (vm_compute; reflexivity).
    rewrite SD in R. cbn [option_map] in R. split; [congruence|]. vm_compute. reflexivity.
Qed.
(** A target with three values declared as two columns of two rows: one column is
    used, the third value ignored, the answer has half the length declared. *)
Lemma matmul_target_refuted : exists d parts,
  holds false false d parts /\ concat parts = mat_records /\
  matmul false d (map whole [1; 1; 1]%Z) (2, 2) (1, 2) = Ok (map of_Z [3; 7; 11]%Z).
Proof.
  destruct (sample_holds 6 mat_records [mat_records]) as (d & SD & HD).
  - discriminate.
  - vm_compute. reflexivity.
  - reflexivity.
  - reflexivity.
  - vm_compute. reflexivity.
  - apply partition_check; [reflexivity|reflexivity|]. cases_nth.
  - exists d, [mat_records]. split; [exact HD|]. split; [reflexivity|].
    assert (R : option_map (fun d => matmul false d (map whole [1; 1; 1]%Z) (2, 2) (1, 2)) (sample_decoder 6 mat_records) = Some (Ok (map of_Z [3; 7; 11]%Z))) by (vm_compute; reflexivity).
    rewrite SD in R. cbn [option_map] in R. congruence.
Qed.
