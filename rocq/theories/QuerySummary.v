From Coq Require Import Sorted.
From Verif Require Import Base WordProofs BitIO Xor Gorilla Chimp ChimpN F64 F64Proofs F64SumProofs ElfXor Elf RawSpec Rle Uncompressed
  Format FormatSpec File FileSpec FileProofs FormatProofs ByteCodec Codecs CodecSpec CodecProofs FileSummary Query Readers QuerySpec QueryProofs.

Lemma scheme_default_like dbg neg tie log10 lib c ex :
  scheme_executor dbg neg tie log10 lib c = Some ex -> default_like tie ex.
Proof.
  destruct c; cbn [scheme_executor]; intros E; try discriminate E; injection E as <-;
    (split; [reflexivity|]; split; [reflexivity|]; split; [reflexivity|]; split; [reflexivity|]; split; reflexivity).
Qed.

(** ** Encoded files are stored files *)
Definition linked (cd : codec) (ex : executor) : Prop :=
  cd_unwraps cd = ex_unwraps ex /\
  (forall k r, ex_precision ex k r = r) /\
  forall n bs vs, cd_decode cd n bs = Ok vs ->
    exists r, ex_open ex n bs = Ok r /\ exists r', ex_decompress ex r = (Ok vs, r').
Lemma scheme_linked dbg neg tie log10 lib c cd ex :
  scheme_codec dbg log10 lib c = Some cd -> scheme_executor dbg neg tie log10 lib c = Some ex -> linked cd ex.
Proof.
  intros EC EE.
  assert (X : forall (R : Type) (f : R -> res derr (list N) * R) r vs, fst (f r) = Ok vs -> exists r', f r = (Ok vs, r')).
  { intros R f r vs E. destruct (f r) as [a b]. cbn in E. subst. eauto. }
  assert (Y : forall decode n bs vs, decode n bs = Ok vs -> exists r', by_decompress decode (by_open n bs) = (Ok vs, r')).
  { intros decode n bs vs E. unfold by_decompress, by_open. cbn [by_cache by_records by_bytes]. rewrite E. eauto. }
  destruct c; cbn [scheme_codec scheme_executor] in EC, EE; try discriminate EC; try discriminate EE; injection EC as <-; injection EE as <-;
    (split; [reflexivity|]; split; [reflexivity|]); intros n bs vs D;
    try (eexists; split; [reflexivity|]; apply X; exact D);
    try (eexists; split; [reflexivity|]; apply Y; exact D).
  cbn [rle_codec cd_decode] in D. cbn [rle_executor default_executor ex_open ex_decompress].
  destruct (rle_open bs) as [r|e|]; cbn [rbind] in D; try discriminate D. exists r. split; [reflexivity|]. now apply X.
Qed.

Lemma read_chunk_reader dbg cd ex m file precision i part : linked cd ex -> read_chunk dbg cd m file i = Ok part ->
  exists r, chunk_reader dbg ex m file precision i = Ok r /\ exists r', ex_decompress ex r = (Ok part, r').
Proof.
  intros (LU&LP&LD) E. unfold read_chunk in E. unfold chunk_reader.
  destruct (nth_error (f_index (m_footer m)) i) as [f|]; [|discriminate E].
  destruct (chunk_records dbg m i) as [n|e|]; cbn [rbind] in *; try discriminate E.
  destruct (chunk_size dbg m i) as [sz|e|]; cbn [rbind] in *; try discriminate E.
  destruct (isize_limit <=? sz); [discriminate E|].
  destruct (read_n sz (drop_n (cf_physical f) file)) as [[bs rest]|e|]; try discriminate E.
  - destruct (LD n bs part E) as (r&-> &D). cbn [rbind]. exists r. split; [|exact D].
    destruct precision as [k|]; [now rewrite LP|reflexivity].
  - destruct (cd_unwraps cd); discriminate E.
Qed.

Lemma encoded_stored dbg neg tie log10 lib c cd ex o timer elapsed input xs :
  scheme_codec dbg log10 lib c = Some cd -> scheme_executor dbg neg tie log10 lib c = Some ex ->
  encodable log10 lib c o timer elapsed input xs -> xs <> [] ->
  exists parts, partition (records_per_chunk o) xs parts /\
  exists ops, encode dbg cd o c timer elapsed input = (ops, Ok tt) /\
  forall old, N.of_nat (length (written old ops)) < 2 ^ 63 ->
  exists m, open_file dbg (written old ops) = Ok m /\
    forall precision, stored dbg ex m (written old ops) precision parts.
Proof.
  intros SC SE EC NE. pose proof (scheme_linked _ _ _ _ _ _ _ _ SC SE) as LK.
  destruct (scheme_whole dbg log10 lib c cd o timer elapsed input xs SC EC NE) as (image&ops&parts&P&EN&W).
  exists parts. split; [assumption|]. exists ops. split; [assumption|]. intros old L.
  destruct (W old L) as (m&OP&MH&MF&CG&CH&_). exists m. split; [assumption|]. intros precision. split; [|split].
  - rewrite MF. reflexivity.
  - rewrite MF. reflexivity.
  - intros i part E. cbn zeta.
    assert (IX : nth_error (f_index (m_footer m)) i =
      Some (mkCf (30 + N.of_nat (length (concat (map image (firstn i parts))))) (0 + N.of_nat (length (concat (firstn i parts)))))).
    { rewrite MF. cbn [layout_footer f_index]. now apply index_of_nth with part. }
    destruct (CH i part E) as (CR&_&RC).
    destruct P as (CC&NEs&_). rewrite Forall_forall in NEs. assert (IN : In part parts) by (eapply nth_error_In; eauto).
    split; [now apply NEs|]. split.
    { destruct EC as (_&_&_&_&XU&_). rewrite Forall_forall in *. intros x Ix. apply XU. rewrite <- CC. apply in_concat. eauto. }
    split; [unfold chunk_offset; rewrite IX; reflexivity|]. split.
    + unfold chunk_range_u32. rewrite IX. cbn [cf_logical]. f_equal. f_equal.
      destruct CG as [_ CG]. destruct (CG i _ IX) as (size&n&_&CR'&_&_&LG). rewrite CR in CR'. injection CR' as <-.
      cbn [cf_logical] in LG. unfold next_logical. rewrite <- LG. reflexivity.
    + split; [exact CR|]. eapply read_chunk_reader; eauto.
Qed.

(** The same for a codec with any view of the records.  [probe]: the codec that
    hands out the bytes of a chunk. *)
Definition probe (cd : codec) : codec :=
  mkCodec (cstate cd) (cd_new cd) (cd_reset cd) (cd_compress cd) (cd_total_in cd) (cd_prepare cd) (cd_buffers cd)
    (fun _ bs => Ok bs) (cd_unwraps cd).
Lemma probe_ok cd good image view : codec_ok cd good image view -> codec_ok (probe cd) good image image.
Proof. intros OK s xs NE U L G. destruct (OK s xs NE U L G) as (s'&H1&H2&H3&H4&_). exists s'. auto 6. Qed.
Lemma probe_reader dbg cd ex m file precision i n bs : chunk_records dbg m i = Ok n ->
  read_chunk dbg (probe cd) m file i = Ok bs ->
  chunk_reader dbg ex m file precision i =
  do r <- ex_open ex n bs ; Ok (match precision with Some k => ex_precision ex k r | None => r end).
Proof.
  intros CR E. unfold read_chunk in E. unfold chunk_reader.
  destruct (nth_error (f_index (m_footer m)) i) as [f|]; [|discriminate E]. rewrite CR in *. cbn [rbind] in *.
  destruct (chunk_size dbg m i) as [sz|e|]; cbn [rbind] in *; try discriminate E.
  destruct (isize_limit <=? sz); [discriminate E|].
  destruct (read_n sz (drop_n (cf_physical f) file)) as [[b rest]|e|]; try discriminate E.
  - cbn [probe cd_decode] in E. now injection E as ->.
  - destruct (cd_unwraps (probe cd)); discriminate E.
Qed.

Lemma map_nth_part (view : list N -> list N) parts i vs : nth_error (map view parts) i = Some vs ->
  exists part, nth_error parts i = Some part /\ vs = view part.
Proof.
  revert i. induction parts as [|p ps IH]; intros [|i] E; cbn in E; try discriminate E; [injection E as <-; exists p; auto|exact (IH i E)].
Qed.
Lemma concat_length_view (view : list N -> list N) : forall l, Forall (fun p => length (view p) = length p) l ->
  length (concat (map view l)) = length (concat l).
Proof. induction 1 as [|p l E F IH]; cbn; [reflexivity|]. now rewrite !app_length, E, IH. Qed.

Lemma whole_views dbg cd ex o c timer elapsed good image view0 (okp : option N -> Prop) (view : option N -> list N -> list N) input xs tail :
  codec_ok cd good image view0 -> usable o -> readable o input -> delivered input = bytes_of xs ++ tail ->
  (length tail < 8)%nat -> Forall is_byte tail -> Forall is_u64 xs -> N.of_nat (length xs) < 2 ^ 60 ->
  (forall parts, partition (records_per_chunk o) xs parts -> Forall good parts) -> valid_run c o timer elapsed ->
  (forall precision part, okp precision -> part <> [] -> Forall is_u64 part -> good part ->
     length (view precision part) = length part /\ Forall is_u64 (view precision part) /\
     exists r, ex_open ex (N.of_nat (length part)) (image part) = Ok r /\
       exists r', ex_decompress ex (match precision with Some k => ex_precision ex k r | None => r end) = (Ok (view precision part), r')) ->
  xs <> [] ->
  exists ops parts, partition (records_per_chunk o) xs parts /\ encode dbg cd o c timer elapsed input = (ops, Ok tt) /\
  forall old, let file := written old ops in N.of_nat (length file) < 2 ^ 63 ->
  exists m, open_file dbg file = Ok m /\ forall precision, okp precision ->
    stored dbg ex m file precision (map (view precision) parts) /\
    forall i part, nth_error parts i = Some part ->
      chunk_reader dbg ex m file precision i =
      do r <- ex_open ex (N.of_nat (length part)) (image part) ; Ok (match precision with Some k => ex_precision ex k r | None => r end).
Proof.
  intros OK US RD DL TL TB XU XL GD VR VW NE.
  destruct (whole_file dbg (probe cd) o c timer elapsed good image image input xs tail (probe_ok _ _ _ _ OK) US RD DL TL TB XU XL GD VR NE)
    as (ops&parts&P&EN&W).
  exists ops, parts. split; [exact P|]. split; [exact EN|]. intros old file L. subst file.
  destruct (W old L) as (m&OP&MH&MF&CG&CH&_). exists m. split; [exact OP|]. intros precision OKP.
  assert (PV : forall part, In part parts -> part <> [] /\ Forall is_u64 part /\ good part).
  { intros part I. pose proof P as (_&NEs&_). pose proof (partition_Forall _ _ _ P XU) as PU. pose proof (GD _ P) as PG.
    rewrite Forall_forall in NEs, PU, PG. auto. }
  assert (RDR : forall i part, nth_error parts i = Some part ->
      chunk_reader dbg ex m (written old ops) precision i =
      do r <- ex_open ex (N.of_nat (length part)) (image part) ; Ok (match precision with Some k => ex_precision ex k r | None => r end)).
  { intros i part E. destruct (CH i part E) as (CR&_&RC). exact (probe_reader dbg cd ex m _ precision i _ _ CR RC). }
  split; [|exact RDR]. split; [|split].
  - rewrite MF, map_length. reflexivity.
  - rewrite MF, concat_length_view; [reflexivity|]. apply Forall_forall. intros q Iq. destruct (PV q Iq) as (A&B&C). now destruct (VW precision q OKP A B C).
  - intros i vs E. cbn zeta. destruct (map_nth_part _ _ _ _ E) as (part&EP&->). clear E.
    assert (IX : nth_error (f_index (m_footer m)) i =
      Some (mkCf (30 + N.of_nat (length (concat (map image (firstn i parts))))) (0 + N.of_nat (length (concat (firstn i parts)))))).
    { rewrite MF. cbn [layout_footer f_index]. now apply index_of_nth with part. }
    destruct (CH i part EP) as (CR&_&RC).
    destruct (PV part) as (NEp&PUp&PGp); [eapply nth_error_In; eauto|].
    destruct (VW precision part OKP NEp PUp PGp) as (VL&VU&r&OPN&DC).
    rewrite firstn_map, concat_length_view.
    2:{ apply Forall_forall. intros q Iq. destruct (PV q) as (A&B&C).
        - rewrite <- (firstn_skipn i parts). apply in_or_app. now left.
        - now destruct (VW precision q OKP A B C). }
    split; [intros X; rewrite X in VL; destruct part; [congruence|discriminate VL]|]. split; [exact VU|].
    split; [unfold chunk_offset; rewrite IX; reflexivity|]. split.
    + unfold chunk_range_u32. rewrite IX. cbn [cf_logical]. f_equal. f_equal.
      destruct CG as [_ CG]. destruct (CG i _ IX) as (size&n&_&CR'&_&_&LG). rewrite CR in CR'. injection CR' as <-.
      cbn [cf_logical] in LG. unfold next_logical. rewrite <- LG, VL. reflexivity.
    + split; [rewrite VL; exact CR|]. eexists. split; [rewrite (RDR i part EP), OPN; reflexivity|exact DC].
Qed.
Lemma whole_stored dbg cd ex o c timer elapsed good image view input xs tail :
  codec_ok cd good image view -> usable o -> readable o input -> delivered input = bytes_of xs ++ tail ->
  (length tail < 8)%nat -> Forall is_byte tail -> Forall is_u64 xs -> N.of_nat (length xs) < 2 ^ 60 ->
  (forall parts, partition (records_per_chunk o) xs parts -> Forall good parts) -> valid_run c o timer elapsed ->
  (forall part, part <> [] -> Forall is_u64 part -> good part -> length (view part) = length part /\ Forall is_u64 (view part) /\
     exists r, ex_open ex (N.of_nat (length part)) (image part) = Ok r /\ (forall k, ex_precision ex k r = r) /\
       exists r', ex_decompress ex r = (Ok (view part), r')) ->
  xs <> [] ->
  exists ops parts, partition (records_per_chunk o) xs parts /\ encode dbg cd o c timer elapsed input = (ops, Ok tt) /\
  forall old, let file := written old ops in N.of_nat (length file) < 2 ^ 63 ->
  exists m, open_file dbg file = Ok m /\ forall precision,
    stored dbg ex m file precision (map view parts) /\
    forall i part, nth_error parts i = Some part ->
      chunk_reader dbg ex m file precision i = ex_open ex (N.of_nat (length part)) (image part).
Proof.
  intros OK US RD DL TL TB XU XL GD VR VW NE.
  destruct (whole_views dbg cd ex o c timer elapsed good image view (fun _ => True) (fun _ => view) input xs tail OK US RD DL TL TB XU XL GD VR) as (ops&parts&P&EN&W);
    [|exact NE|].
  { intros precision part _ A B C. destruct (VW part A B C) as (VL&VU&r&OPN&PR&DC). split; [exact VL|]. split; [exact VU|]. exists r. split; [exact OPN|].
    destruct precision; [rewrite PR|]; exact DC. }
  exists ops, parts. split; [exact P|]. split; [exact EN|]. intros old file L. subst file. destruct (W old L) as (m&OP&ST). exists m. split; [exact OP|]. intros precision.
  destruct (ST precision I) as [S1 S2]. split; [exact S1|]. intros i part E. rewrite (S2 i part E).
  destruct (VW part) as (_&_&r&OPN&PR&_).
  - pose proof P as (_&NEs&_). rewrite Forall_forall in NEs. apply NEs. eapply nth_error_In; eauto.
  - pose proof (partition_Forall _ _ _ P XU) as PU. rewrite Forall_forall in PU. apply PU. eapply nth_error_In; eauto.
  - pose proof (GD _ P) as PG. rewrite Forall_forall in PG. apply PG. eapply nth_error_In; eauto.
  - rewrite OPN. cbn [rbind]. destruct precision; [now rewrite PR|reflexivity].
Qed.

(** ** Queries *)
Section Q.
  Variables (dbg neg : bool) (tie : f64 -> f64 -> bool) (log10 : f64 -> f64) (lib : libraries) (c : config) (ex : executor).
  Variables (m : metadata) (file : list N) (precision : option N) (parts : list (list N)).
  Variables (mask : option bitmap) (cid : option nat) (first : N) (xs : list N).
  Hypothesis EX : scheme_executor dbg neg tie log10 lib c = Some ex.
  Hypothesis ST : stored dbg ex m file precision parts.
  Hypothesis SM : N.of_nat (length (concat parts)) < 2 ^ 32.
  Hypothesis SC : scope parts cid first xs.

  Lemma scope_u64 : Forall is_u64 xs.
  Proof using ST SC.
    destruct ST as (_&_&S). destruct SC as [|k part E|k E]; [| |constructor].
    - apply Forall_forall. intros x I. apply in_concat in I. destruct I as (p&Ip&Ix). apply In_nth_error in Ip. destruct Ip as [i E].
      destruct (S i p E) as (_&U&_). rewrite Forall_forall in U. auto.
    - destruct (S k part E) as (_&U&_). exact U.
  Qed.

  Lemma c29 p : Forall is_u64 (pred_operands p) ->
    exists bm, dec_filter dbg ex m file precision p mask cid = Ok bm /\ is_bitmap bm /\
    forall i, In i bm <-> in_mask mask i /\ first <= i /\ exists x, nth_error xs (N.to_nat (i - first)) = Some x /\ satisfies p x.
  Proof using All.
    intros PO. pose proof (scheme_default_like _ _ _ _ _ _ _ EX) as DL.
    eexists. split; [exact (dec_filter_eq dbg tie ex m file parts precision DL ST mask (or_intror SM) p cid)|].
    split; [apply fold_or_ok, is_bitmap_nil|]. intros i. rewrite fold_or_In.
    rewrite (scope_masked _ _ _ _ _ SC). pose proof (scope_bound _ _ _ _ SM SC) as B.
    pose proof scope_u64 as U. rewrite Forall_forall in U. split.
    - intros [[]|(v&I&F)]. apply masked_In in I; [|exact B]. destruct I as (L&E&M).
      split; [assumption|]. split; [assumption|]. exists v. split; [assumption|].
      apply fpred_satisfies in F; auto. apply U. eapply nth_error_In, E.
    - intros (M&L&x&E&S). right. exists x. split; [apply masked_In; auto|].
      apply fpred_satisfies; auto. apply U. eapply nth_error_In, E.
  Qed.

  Lemma filter_keep p ys : Forall is_u64 (pred_operands p) -> Forall is_u64 ys -> keep p ys (filter (fpred_eval p) ys).
  Proof using.
    clear. intros PO U. induction ys as [|y ys IH]; cbn [filter]; [constructor|]. inversion_clear U.
    destruct (fpred_eval p y) eqn:E; constructor; auto.
    - apply fpred_satisfies; auto.
    - intros S. apply fpred_satisfies in S; auto. congruence.
  Qed.
  Lemma choose_u64 mk f l ys : choose mk f l ys -> Forall is_u64 l -> Forall is_u64 ys.
  Proof using. clear. induction 1; intros U; [constructor| |]; inversion_clear U; auto. Qed.
  Lemma choose_refine p bm mk : forall l f ys zs, choose mk f l ys -> keep p ys zs ->
    (forall i, f <= i -> (In i bm <-> in_mask mk i /\ exists x, nth_error l (N.to_nat (i - f)) = Some x /\ satisfies p x)) ->
    choose (Some bm) f l zs.
  Proof using.
    clear. intros l f ys zs C. revert zs. induction C as [f|f x l ys M C IH|f x l ys M C IH]; intros zs K B.
    - inversion K. constructor.
    - assert (B' : forall i, f + 1 <= i -> (In i bm <-> in_mask mk i /\ exists x, nth_error l (N.to_nat (i - (f + 1))) = Some x /\ satisfies p x)).
      { intros i L. rewrite B by lia. replace (N.to_nat (i - f)) with (S (N.to_nat (i - (f + 1)))) by lia. reflexivity. }
      inversion K; subst.
      + apply choose_take; [|now apply IH]. cbn [in_mask]. apply B; [lia|]. split; [assumption|].
        exists x. rewrite N.sub_diag. split; [reflexivity|assumption].
      + apply choose_skip; [|now apply IH]. cbn [in_mask]. intros I. apply B in I; [|lia]. destruct I as (_&x'&E&S).
        rewrite N.sub_diag in E. change (Some x = Some x') in E. injection E as <-. contradiction.
    - apply choose_skip.
      + cbn [in_mask]. intros I. apply B in I; [|lia]. now destruct I.
      + apply IH; [assumption|]. intros i L. rewrite B by lia.
        replace (N.to_nat (i - f)) with (S (N.to_nat (i - (f + 1)))) by lia. reflexivity.
  Qed.
End Q.

Lemma fold_masked (f : f64 -> f64 -> f64) (l : list (N * N)) : forall a,
  fold_left (fun (acc : f64) '((_, v) : N * N) => f acc (of_bits v)) l a = fold_left f (map of_bits (map snd l)) a.
Proof. induction l as [|[i v] l IH]; intros a; cbn [fold_left map snd]; [reflexivity|]. apply IH. Qed.
Lemma sum_chunks mask l : forall acc,
  fold_left (fun acc '(off, part) => match masked mask off part with [] => acc | _ => fadd acc (chunk_fold fadd f_zero mask off part) end) l acc =
  fold_left fadd (map (fun ys => float_sum (map of_bits ys)) (filter nonempty (map (fun '(off, part) => map snd (masked mask off part)) l))) acc.
Proof.
  induction l as [|[o p] l IH]; intros acc; cbn [map filter fold_left]; [reflexivity|].
  unfold chunk_fold at 2. rewrite fold_masked. rewrite IH.
  destruct (masked mask o p) as [|y ys]; reflexivity.
Qed.
Section Q2.
  Variables (dbg neg : bool) (tie : f64 -> f64 -> bool) (log10 : f64 -> f64) (lib : libraries) (c : config) (ex : executor).
  Variables (m : metadata) (file : list N) (precision : option N) (parts : list (list N)).
  Variables (mask : option bitmap) (cid : option nat) (first : N) (xs : list N).
  Hypothesis EX : scheme_executor dbg neg tie log10 lib c = Some ex.
  Hypothesis ST : stored dbg ex m file precision parts.
  Hypothesis SM : N.of_nat (length (concat parts)) < 2 ^ 32.
  Hypothesis SC : scope parts cid first xs.

  Lemma materialize_chosen mk : exists ys, choose mk first xs ys /\
    dec_materialize dbg ex m file precision mk cid = (bytes_of ys, Ok tt).
  Proof using All.
    pose proof (scheme_default_like _ _ _ _ _ _ _ EX) as DL.
    exists (map snd (masked mk first xs)). split; [apply masked_choose, (scope_bound _ _ _ _ SM SC)|].
    rewrite (dec_materialize_eq dbg tie ex m file parts precision DL ST mk (or_intror SM)).
    now rewrite (scope_chosen _ _ _ _ _ SC).
  Qed.
  Lemma c30 p : Forall is_u64 (pred_operands p) ->
    exists ys zs bm, choose mask first xs ys /\ keep p ys zs /\
      dec_materialize dbg ex m file precision mask cid = (bytes_of ys, Ok tt) /\
      dec_filter_materialize dbg ex m file precision p mask cid = (bytes_of zs, Ok tt) /\
      dec_filter dbg ex m file precision p mask cid = Ok bm /\
      dec_materialize dbg ex m file precision (Some bm) cid = (bytes_of zs, Ok tt).
  Proof using All.
    intros PO. pose proof (scheme_default_like _ _ _ _ _ _ _ EX) as DL.
    destruct (c29 _ _ _ _ _ _ _ _ _ _ _ mask _ _ _ EX ST SM SC p PO) as (bm&FE&BM&BI).
    destruct (materialize_chosen (Some bm)) as (ws&CW&MW).
    pose proof (scope_u64 _ _ _ _ _ _ _ _ _ ST SC) as U.
    pose proof (masked_choose mask xs first (scope_bound _ _ _ _ SM SC)) as CH.
    set (ys := map snd (masked mask first xs)) in *.
    pose proof (filter_keep p ys PO (choose_u64 _ _ _ _ CH U)) as KP.
    exists ys, (filter (fpred_eval p) ys), bm. split; [assumption|]. split; [assumption|]. split.
    { rewrite (dec_materialize_eq dbg tie ex m file parts precision DL ST mask (or_intror SM)).
      now rewrite (scope_chosen _ _ _ _ _ SC). }
    split.
    { rewrite (dec_filter_materialize_eq dbg tie ex m file parts precision DL ST mask (or_intror SM)).
      now rewrite (scope_chosen _ _ _ _ _ SC). }
    split; [assumption|]. rewrite MW. f_equal. f_equal.
    apply (choose_fun (Some bm) xs first); [assumption|].
    apply (choose_refine p bm mask xs first ys); auto. intros i L. rewrite BI. tauto.
  Qed.

  Lemma looked_u64 : Forall (fun x : N * list N => Forall is_u64 (snd x)) (looked_at parts cid).
  Proof using ST.
    clear SM SC xs first. destruct ST as (_&_&S). destruct cid as [k|]; cbn [looked_at].
    - destruct (nth_error parts k) as [p|] eqn:E; [|constructor]. constructor; [|constructor]. destruct (S k p E) as (_&U&_). exact U.
    - apply Forall_forall. intros [o p] I. apply in_map_iff in I. destruct I as (i&E&I). injection E as <- <-. cbn [snd].
      apply in_seq in I. destruct (nth_error parts i) as [q|] eqn:Q; [|apply nth_error_None in Q; cbn in I; lia].
      rewrite (nth_error_nth _ _ [] Q). destruct (S i q Q) as (_&U&_). exact U.
  Qed.
  Lemma c31 : exists ys lo hi, choose mask first xs ys /\
    dec_min dbg tie ex m file precision mask cid = Ok lo /\ least ys lo /\
    dec_max dbg tie ex m file precision mask cid = Ok hi /\ greatest ys hi.
  Proof using All.
    pose proof (scheme_default_like _ _ _ _ _ _ _ EX) as DL.
    assert (LU : Forall (fun x : N * list N => Forall (fun y : N * N => is_u64 (snd y)) (masked mask (fst x) (snd x))) (looked_at parts cid)).
    { eapply Forall_impl; [|exact looked_u64]. intros [o p]. cbn [fst snd]. apply masked_Forall. }
    destruct (extreme_chunks false tie mask (looked_at parts cid) [] _ _ (Forall_nil _) LU (extreme_init false)) as (zl&EL).
    destruct (extreme_chunks true tie mask (looked_at parts cid) [] _ _ (Forall_nil _) LU (extreme_init true)) as (zh&EH).
    cbn [app] in EL, EH. rewrite (scope_chosen _ _ _ _ _ SC) in EL, EH.
    exists (map snd (masked mask first xs)). eexists. eexists.
    split; [apply masked_choose, (scope_bound _ _ _ _ SM SC)|].
    split; [exact (dec_min_eq dbg tie ex m file parts precision DL ST mask (or_intror SM) cid)|].
    split; [exact (extreme_least _ _ _ EL)|].
    split; [exact (dec_max_eq dbg tie ex m file parts precision DL ST mask (or_intror SM) cid)|].
    exact (extreme_greatest _ _ _ EH).
  Qed.

  Lemma looked_bound off part : In (off, part) (looked_at parts cid) -> off + N.of_nat (length part) < 2 ^ 32.
  Proof using SM.
    clear SC xs first. intros I. destruct cid as [k|]; cbn [looked_at] in I.
    - destruct (nth_error parts k) as [p|] eqn:E; [|contradiction]. destruct I as [X|[]]. injection X as <- <-.
      exact (scope_bound parts (Some k) _ _ SM (scope_chunk _ _ _ E)).
    - apply in_map_iff in I. destruct I as (i&E&I). injection E as <- <-. apply in_seq in I.
      destruct (nth_error parts i) as [q|] eqn:Q; [|apply nth_error_None in Q; lia]. rewrite (nth_error_nth _ _ [] Q).
      exact (scope_bound parts (Some i) _ _ SM (scope_chunk _ _ _ Q)).
  Qed.
  Lemma c32 : exists yss, Forall2 (fun '(off, part) ys => choose mask off part ys) (looked_at parts cid) yss /\
    dec_sum dbg ex m file precision mask cid = Ok (float_sum (map (fun ys => float_sum (map of_bits ys)) (filter nonempty yss))).
  Proof using All.
    pose proof (scheme_default_like _ _ _ _ _ _ _ EX) as DL.
    exists (map (fun '(off, part) => map snd (masked mask off part)) (looked_at parts cid)). split.
    - pose proof looked_bound as B. induction (looked_at parts cid) as [|[o p] l IH]; cbn [map]; constructor.
      + apply masked_choose, B. now left.
      + apply IH. intros. apply B. now right.
    - rewrite (dec_sum_eq dbg tie ex m file parts precision DL ST mask (or_intror SM)). f_equal. apply sum_chunks.
  Qed.
End Q2.

(** ** Sums of one chunk *)
Lemma c32_single dbg neg tie log10 lib c ex m file precision parts mask cid first xs :
  scheme_executor dbg neg tie log10 lib c = Some ex -> stored dbg ex m file precision parts ->
  N.of_nat (length (concat parts)) < 2 ^ 32 -> scope parts cid first xs ->
  cid <> None \/ (length parts <= 1)%nat ->
  exists ys, choose mask first xs ys /\ dec_sum dbg ex m file precision mask cid = Ok (float_sum (map of_bits ys)).
Proof.
  intros EX ST SM SC ONE.
  destruct (c32 _ _ _ _ _ _ _ _ _ _ _ mask cid _ _ EX ST SM SC) as (yss&CH&E).
  assert (ONEL : (looked_at parts cid = [] /\ xs = []) \/ looked_at parts cid = [(first, xs)]).
  { destruct SC as [|k part Ek|k Ek]; cbn [looked_at].
    - destruct ONE as [H|H]; [now destruct H|]. destruct parts as [|p [|q ps]]; [left; auto|right|cbn in H; lia].
      cbn. now rewrite app_nil_r.
    - rewrite Ek. now right.
    - rewrite Ek. now left. }
  pose proof (scope_u64 _ _ _ _ _ _ _ _ _ ST SC) as U.
  destruct ONEL as [[L ->]|L]; rewrite L in CH.
  - inversion CH; subst. exists []. split; [constructor|]. rewrite E. reflexivity.
  - inversion CH as [|? ys ? ? C1 C2]; subst. inversion C2; subst. exists ys. split; [exact C1|]. rewrite E. f_equal.
    pose proof (choose_u64 _ _ _ _ C1 U) as UY.
    destruct ys as [|y ys]; [reflexivity|]. cbn [filter nonempty map]. unfold float_sum at 1. cbn [fold_left].
    apply fadd_zero_l. unfold float_sum. apply fold_fadd_low; [|exact I|discriminate].
    apply (proj2 (Forall_map of_bits low (y :: ys))). eapply Forall_impl; [|exact UY]. intros z Hz. now apply low_of_bits.
Qed.

(** ** More than 2^32 records *)
Lemma masked_none_In vs : forall off j v,
  In (j, v) (masked None off vs) <-> exists i, off <= i /\ j = i mod 2 ^ 32 /\ nth_error vs (N.to_nat (i - off)) = Some v.
Proof.
  induction vs as [|u vs IH]; intros off j v; cbn [masked allowed].
  - split; [contradiction|]. intros (i&_&_&E). destruct (N.to_nat _); discriminate E.
  - cbn [In]. rewrite IH. split.
    + intros [E|(i&L&E&NE)].
      * injection E as <- <-. exists off. rewrite N.sub_diag. split; [lia|]. split; reflexivity.
      * exists i. split; [lia|]. split; [assumption|]. replace (N.to_nat (i - off)) with (S (N.to_nat (i - (off + 1)))) by lia. exact NE.
    + intros (i&L&E&NE). destruct (N.eq_dec off i) as [<-|D].
      * left. rewrite N.sub_diag in NE. change (Some u = Some v) in NE. injection NE as ->. subst. reflexivity.
      * right. exists i. split; [lia|]. split; [assumption|].
        replace (N.to_nat (i - off)) with (S (N.to_nat (i - (off + 1)))) in NE by lia. exact NE.
Qed.
Lemma c34_truncated dbg neg tie log10 lib c ex m file precision parts p :
  scheme_executor dbg neg tie log10 lib c = Some ex -> stored dbg ex m file precision parts ->
  Forall is_u64 (pred_operands p) ->
  exists bm, dec_filter dbg ex m file precision p None None = Ok bm /\
  forall j, In j bm <-> exists i x, j = i mod 2 ^ 32 /\ nth_error (concat parts) (N.to_nat i) = Some x /\ satisfies p x.
Proof.
  intros EX ST PO. pose proof (scheme_default_like _ _ _ _ _ _ _ EX) as DL.
  eexists. split; [exact (dec_filter_eq dbg tie ex m file parts precision DL ST None (or_introl eq_refl) p None)|].
  intros j. rewrite fold_or_In. rewrite (scope_masked _ _ _ _ _ (scope_all parts)).
  pose proof (scope_u64 _ _ _ _ _ _ _ _ _ ST (scope_all parts)) as U. rewrite Forall_forall in U. split.
  - intros [[]|(v&I&F)]. apply masked_none_In in I. destruct I as (i&_&E&NE). rewrite N.sub_0_r in NE.
    exists i, v. split; [assumption|]. split; [assumption|]. apply fpred_satisfies in F; auto. apply U. eapply nth_error_In, NE.
  - intros (i&x&E&NE&S). right. exists x. split; [apply masked_none_In; exists i; rewrite N.sub_0_r; split; [lia|auto]|].
    apply fpred_satisfies; auto. apply U. eapply nth_error_In, NE.
Qed.

Lemma layout_length image c o timer elapsed parts : length timer = 9%nat ->
  N.of_nat (length (layout image c o timer elapsed parts)) =
  30 + N.of_nat (length (layout_body image parts)) + footer_size (layout_footer image c timer elapsed parts).
Proof.
  intros T. unfold layout. rewrite !app_length. unfold layout_header at 1. rewrite header30 by reflexivity.
  assert (FS : N.of_nat (length (footer_bytes (layout_footer image c timer elapsed parts))) = footer_size (layout_footer image c timer elapsed parts)).
  { unfold footer_bytes, footer_size. rewrite !app_length, !le_bytes_length, times_bytes_length.
    cbn [layout_footer f_times]. rewrite T.
    pose proof (index_bytes_length (f_index (layout_footer image c timer elapsed parts))).
    pose proof (config_bytes_length (f_config (layout_footer image c timer elapsed parts))).
    cbn [layout_footer f_index f_config] in *. lia. }
  lia.
Qed.

(** A stream of 2^32 + 1 records, the first of them 1.0, the others 0.0. *)
Lemma repeat_last {A} (x : A) n : (0 < n)%nat -> nth_error (repeat x n) (n - 1) = Some x.
Proof.
  intros H. destruct n as [|n]; [lia|]. replace (S n - 1)%nat with n by lia. clear H.
  induction n as [|n IH]; [reflexivity|]. exact IH.
Qed.
Lemma bytes_of_length_ xs : N.of_nat (length (bytes_of xs)) = 8 * N.of_nat (length xs).
Proof. unfold bytes_of. induction xs as [|x xs IH]; cbn [flat_map length]; [reflexivity|]. rewrite app_length, le_bytes_length. lia. Qed.
Lemma wrapping_stream k : N.of_nat k = 2 ^ 32 ->
  let xs := 4607182418800017408 :: repeat 0 k in
  exists ops m bm,
    encode false uncompressed_codec Full (CUncompressed 0) (repeat 5 9) 77 [Data (bytes_of xs)] = (ops, Ok tt) /\
    open_file false (written [] ops) = Ok m /\
    dec_filter false (uncompressed_executor false (fun _ _ => true)) m (written [] ops) None (PEq 0) None None = Ok bm /\
    In 0 bm.
Proof.
  intros K xs.
  assert (LX : N.of_nat (length xs) = 2 ^ 32 + 1) by (unfold xs; cbn [length]; rewrite repeat_length; lia).
  assert (XU : Forall is_u64 xs).
  { unfold xs. constructor; [vm_compute; reflexivity|]. apply Forall_forall. intros x I. apply repeat_spec in I. subst. vm_compute. reflexivity. }
  assert (NE : xs <> []) by discriminate.
  assert (N0 : nth_error xs k = Some 0).
  { unfold xs. replace k with (S (k - 1)) at 2 by lia. cbn [nth_error]. apply repeat_last. lia. }
  clearbody xs.
  assert (EN : encodable (fun x => x) simple_libraries (CUncompressed 0) Full (repeat 5 9) 77 [Data (bytes_of xs)] xs).
  { apply encodable_simple with (tail := []); try exact I; try assumption.
    - constructor; [right; exists (bytes_of xs); split; [reflexivity|]|constructor].
      intros E. apply (f_equal (fun l => N.of_nat (length l))) in E. rewrite bytes_of_length_, LX in E. discriminate E.
    - cbn. rewrite !app_nil_r. reflexivity.
    - cbn. lia.
    - constructor.
    - rewrite LX. reflexivity.
    - apply Forall_forall. intros x _. exact I.
    - vm_compute. reflexivity. }
  destruct (encoded_stored false false (fun _ _ => true) (fun x => x) simple_libraries (CUncompressed 0) uncompressed_codec
    (uncompressed_executor false (fun _ _ => true)) Full (repeat 5 9) 77 [Data (bytes_of xs)] xs eq_refl eq_refl EN NE)
    as (parts&P&ops&EO&W).
  assert (LW : N.of_nat (length (written [] ops)) < 2 ^ 63).
  { destruct EN as (FL&US&RD&(tail&DL&TL&TB)&_&XL&ST&VR).
    destruct (encode_whole false uncompressed_codec Full (CUncompressed 0) (repeat 5 9) 77 (fun _ => True) bytes_of (fun x => x)
      [Data (bytes_of xs)] xs tail uncompressed_ok US RD DL TL TB XU XL) as (parts'&ops'&P'&E'&W').
    - intros ps _. apply Forall_forall. intros; exact I.
    - exact VR.
    - rewrite EO in E'. injection E' as <-. rewrite W', skipn_nil, app_nil_r, layout_length by reflexivity.
      unfold footer_size. cbn [layout_footer f_index f_config]. rewrite index_of_length.
      destruct P' as (CC&_&L1). cbn in L1.
      assert (B : length (layout_body bytes_of parts') = length (bytes_of xs)).
      { rewrite <- CC. unfold layout_body, bytes_of. clear. induction parts' as [|p ps IH]; [reflexivity|].
        cbn [map concat]. rewrite flat_map_app, !app_length, IH. reflexivity. }
      rewrite B, bytes_of_length_, LX. assert (CZ : config_serialized_size (CUncompressed 0) <= 100) by (vm_compute; discriminate).
      change (2 ^ 63) with 9223372036854775808. change (2 ^ 32) with 4294967296. lia. }
  destruct (W [] LW) as (m&OP&ST).
  destruct (c34_truncated false false (fun _ _ => true) (fun x => x) simple_libraries (CUncompressed 0) _ m (written [] ops) None parts
    (PEq 0) eq_refl (ST None)) as (bm&DF&BI); [repeat constructor; vm_compute; reflexivity|].
  exists ops, m, bm. split; [assumption|]. split; [assumption|]. split; [assumption|].
  apply BI. exists (2 ^ 32), 0. split; [reflexivity|]. rewrite (proj1 P). split; [|vm_compute; reflexivity].
  rewrite <- K, Nnat.Nat2N.id. exact N0.
Qed.
Lemma c34_refuted :
  exists xs i x ops m bm,
    encode false uncompressed_codec Full (CUncompressed 0) (repeat 5 9) 77 [Data (bytes_of xs)] = (ops, Ok tt) /\
    open_file false (written [] ops) = Ok m /\
    dec_filter false (uncompressed_executor false (fun _ _ => true)) m (written [] ops) None (PEq 0) None None = Ok bm /\
    In i bm /\ nth_error xs (N.to_nat i) = Some x /\ ~ satisfies (PEq 0) x.
Proof.
  destruct (wrapping_stream (N.to_nat (2 ^ 32)) (Nnat.N2Nat.id _)) as (ops&m&bm&A&B&C&D).
  exists (4607182418800017408 :: repeat 0 (N.to_nat (2 ^ 32))), 0, 4607182418800017408, ops, m, bm.
  split; [exact A|]. split; [exact B|]. split; [exact C|]. split; [exact D|]. split; [reflexivity|].
  vm_compute. discriminate.
Qed.

(** ** Histories on one chunk reader *)
Definition settles (ex : executor) : Prop :=
  forall r vs r', ex_decompress ex r = (Ok vs, r') -> ex_decompress ex r' = (Ok vs, r').
Lemma scheme_settles dbg neg tie log10 lib c ex : scheme_executor dbg neg tie log10 lib c = Some ex -> settles ex.
Proof.
  assert (X : forall D (d_init : D) d_next, settles (x_executor neg tie D d_init d_next)).
  { intros D d_init d_next r vs r'. cbn [x_executor default_executor ex_decompress rstate]. unfold x_decompress.
    repeat match goal with |- context [match ?e with _ => _ end] => destruct e eqn:?; cbn [fst snd] end;
      intros H; inversion H; subst; cbn in *; congruence. }
  assert (Y : forall d, settles (by_executor neg tie d)).
  { intros d r vs r'. cbn [by_executor default_executor ex_decompress rstate]. unfold by_decompress.
    destruct (by_cache r) eqn:E; [intros H; injection H as <- <-; now rewrite E|].
    destruct (d (by_records r) (by_bytes r)); intros H; inversion H; subst; reflexivity. }
  destruct c; cbn [scheme_executor]; intros E; try discriminate E; injection E as <-; auto.
  - intros r vs r'. cbn [uncompressed_executor default_executor ex_decompress rstate]. unfold unc_decompress.
    repeat match goal with |- context [match ?e with _ => _ end] => destruct e eqn:?; cbn [fst snd] end;
      intros H; inversion H; subst; cbn in *; congruence.
  - intros r vs r'. cbn [rle_executor default_executor ex_decompress rstate]. unfold rle_decompress.
    repeat match goal with |- context [match ?e with _ => _ end] => destruct e eqn:?; cbn [fst snd] end;
      intros H; inversion H; subst; cbn in *; congruence.
Qed.

Definition default_all (neg : bool) (tie : f64 -> f64 -> bool) (ex : executor) : Prop :=
  default_like tie ex /\ ex_distance_squared ex = default_distance_squared _ (ex_decompress ex) neg /\
  ex_dot_product ex = default_dot_product _ (ex_decompress ex) neg.
Lemma scheme_default_all dbg neg tie log10 lib c ex :
  scheme_executor dbg neg tie log10 lib c = Some ex -> default_all neg tie ex.
Proof.
  intros E. split; [eapply scheme_default_like; eassumption|].
  destruct c; cbn [scheme_executor] in E; try discriminate E; injection E as <-; split; reflexivity.
Qed.
Lemma q_step_default neg tie ex off r1 r2 vs r1' r2' q : default_all neg tie ex ->
  ex_decompress ex r1 = (Ok vs, r1') -> ex_decompress ex r2 = (Ok vs, r2') ->
  fst (q_step ex off r1 q) = fst (q_step ex off r2 q) /\ snd (q_step ex off r1 q) = r1'.
Proof.
  intros ((M&F&FM&S&MI&MA)&D&P) E1 E2.
  destruct q; cbn [q_step]; rewrite ?M, ?F, ?FM, ?S, ?MI, ?MA, ?D, ?P;
    unfold default_materialize, default_filter, default_filter_materialize, default_sum, default_min, default_max,
      default_fold, default_distance_squared, default_dot_product, default_zip; rewrite E1, E2; split; reflexivity.
Qed.
Lemma c42 dbg neg tie log10 lib c ex off r vs r' qs :
  scheme_executor dbg neg tie log10 lib c = Some ex -> ex_decompress ex r = (Ok vs, r') ->
  fst (q_run ex off r qs) = map (fun q => fst (q_step ex off r q)) qs.
Proof.
  intros EX D. pose proof (scheme_default_all _ _ _ _ _ _ _ EX) as DA. pose proof (scheme_settles _ _ _ _ _ _ _ EX) as SE.
  assert (G : forall s s', ex_decompress ex s = (Ok vs, s') -> fst (q_run ex off s qs) = map (fun q => fst (q_step ex off r q)) qs).
  { induction qs as [|q qs IH]; intros s s' DS; [reflexivity|]. cbn [q_run map].
    destruct (q_step_default neg tie ex off s r vs s' r' q DA DS D) as [A B].
    destruct (q_step ex off s q) as [a t]. cbn [fst snd] in A, B. subst t.
    specialize (IH s' s' (SE _ _ _ DS)). destruct (q_run ex off s' qs) as [l t]. cbn [fst] in IH |- *. now rewrite A, IH. }
  eapply G, D.
Qed.

(** ** Whole files: materialising everything *)
Lemma map_snd_masked_none off vs : map snd (masked None off vs) = vs.
Proof. revert off. induction vs as [|v vs IH]; intros off; cbn [masked allowed map snd]; [reflexivity|]. now rewrite IH. Qed.
Lemma c24_materialize dbg neg tie log10 lib c cd ex o timer elapsed input xs :
  scheme_codec dbg log10 lib c = Some cd -> scheme_executor dbg neg tie log10 lib c = Some ex ->
  encodable log10 lib c o timer elapsed input xs -> xs <> [] ->
  exists ops, encode dbg cd o c timer elapsed input = (ops, Ok tt) /\
  forall old, N.of_nat (length (written old ops)) < 2 ^ 63 ->
  exists m, open_file dbg (written old ops) = Ok m /\
    forall precision, dec_materialize dbg ex m (written old ops) precision None None = (bytes_of xs, Ok tt).
Proof.
  intros SC SE EC NE. destruct (encoded_stored _ _ _ _ _ _ _ _ _ _ _ _ _ SC SE EC NE) as (parts&P&ops&EN&W).
  exists ops. split; [assumption|]. intros old L. destruct (W old L) as (m&OP&ST). exists m. split; [assumption|].
  intros precision. pose proof (scheme_default_like _ _ _ _ _ _ _ SE) as DL.
  rewrite (dec_materialize_eq dbg tie ex m _ parts precision DL (ST precision) None (or_introl eq_refl)).
  rewrite (scope_chosen _ _ _ _ _ (scope_all parts)), map_snd_masked_none. now rewrite (proj1 P).
Qed.

(** ** Chunk selection and skipping *)
Lemma looked_within parts cid first xs off part : scope parts cid first xs -> In (off, part) (looked_at parts cid) ->
  first <= off /\ off + N.of_nat (length part) <= first + N.of_nat (length xs).
Proof.
  intros SC I. destruct SC as [|k p E|k E]; cbn [looked_at] in I.
  - apply in_map_iff in I. destruct I as (i&E&I). injection E as <- <-. apply in_seq in I. split; [lia|].
    destruct (nth_error parts i) as [q|] eqn:Q; [|apply nth_error_None in Q; lia]. rewrite (nth_error_nth _ _ [] Q).
    rewrite N.add_0_l. apply first_bound. exact Q.
  - rewrite E in I. destruct I as [X|[]]. injection X as <- <-. lia.
  - rewrite E in I. contradiction.
Qed.
Lemma masked_agree m1 m2 vs : forall off, off + N.of_nat (length vs) < 2 ^ 32 ->
  (forall i, off <= i < off + N.of_nat (length vs) -> (in_mask m1 i <-> in_mask m2 i)) -> masked m1 off vs = masked m2 off vs.
Proof.
  induction vs as [|v vs IH]; intros off B A; [reflexivity|]. cbn [masked length] in *.
  rewrite mod_small32 by lia.
  assert (allowed m1 off = allowed m2 off) as ->.
  { specialize (A off ltac:(lia)). rewrite <- !allowed_in in A. destruct (allowed m1 off), (allowed m2 off); try reflexivity;
      destruct A as [A1 A2]; [symmetry; now apply A1|now apply A2]. }
  rewrite IH; [reflexivity|lia|]. intros i Hi. apply A. lia.
Qed.
Lemma fold_left_ext_in {X Y} (f g : X -> Y -> X) l : (forall a b, In b l -> f a b = g a b) -> forall acc, fold_left f l acc = fold_left g l acc.
Proof.
  induction l as [|x l IH]; intros E acc; cbn [fold_left]; [reflexivity|]. rewrite E by (now left). apply IH. intros. apply E. now right.
Qed.
Lemma c33_skip dbg neg tie log10 lib c ex m file precision parts m1 m2 cid first xs p :
  scheme_executor dbg neg tie log10 lib c = Some ex -> stored dbg ex m file precision parts ->
  N.of_nat (length (concat parts)) < 2 ^ 32 -> scope parts cid first xs ->
  (forall i, first <= i < first + N.of_nat (length xs) -> (in_mask m1 i <-> in_mask m2 i)) ->
  dec_filter dbg ex m file precision p m1 cid = dec_filter dbg ex m file precision p m2 cid /\
  dec_materialize dbg ex m file precision m1 cid = dec_materialize dbg ex m file precision m2 cid /\
  dec_filter_materialize dbg ex m file precision p m1 cid = dec_filter_materialize dbg ex m file precision p m2 cid /\
  dec_sum dbg ex m file precision m1 cid = dec_sum dbg ex m file precision m2 cid /\
  dec_min dbg tie ex m file precision m1 cid = dec_min dbg tie ex m file precision m2 cid /\
  dec_max dbg tie ex m file precision m1 cid = dec_max dbg tie ex m file precision m2 cid.
Proof.
  intros EX ST SM SC AG. pose proof (scheme_default_like _ _ _ _ _ _ _ EX) as DL.
  pose proof (scope_bound _ _ _ _ SM SC) as B.
  assert (ME : forall off part, In (off, part) (looked_at parts cid) -> masked m1 off part = masked m2 off part).
  { intros off part I. destruct (looked_within _ _ _ _ _ _ SC I) as [L1 L2]. apply masked_agree; [lia|]. intros i Hi. apply AG. lia. }
  assert (MX : masked m1 first xs = masked m2 first xs) by (now apply masked_agree).
  rewrite !(dec_filter_eq dbg tie ex m file parts precision DL ST _ (or_intror SM)).
  rewrite !(dec_materialize_eq dbg tie ex m file parts precision DL ST _ (or_intror SM)).
  rewrite !(dec_filter_materialize_eq dbg tie ex m file parts precision DL ST _ (or_intror SM)).
  rewrite !(dec_sum_eq dbg tie ex m file parts precision DL ST _ (or_intror SM)).
  rewrite !(dec_min_eq dbg tie ex m file parts precision DL ST _ (or_intror SM)).
  rewrite !(dec_max_eq dbg tie ex m file parts precision DL ST _ (or_intror SM)).
  rewrite !(scope_chosen _ _ _ _ _ SC), MX.
  split; [|split; [reflexivity|split; [reflexivity|split; [|split]]]]; f_equal; apply fold_left_ext_in; intros a [off part] I;
    unfold chunk_filter, chunk_fold; rewrite (ME _ _ I); reflexivity.
Qed.

(** A sample for the examples: three chunks of Gorilla data. *)
Definition q_records : list N :=
  [0; 0x3ff8000000000000; 0x8000000000000000; 0x7ff0000000000000; 0x3ff8000000000000; 0x7ff8000000000001; 0xbff0000000000000].
Lemma q_sample : exists ex cd ops m parts,
  scheme_executor false false (fun _ _ => true) (fun x => x) simple_libraries (CGorilla 1024) = Some ex /\
  scheme_codec false (fun x => x) simple_libraries (CGorilla 1024) = Some cd /\
  encode false cd (RecordCount 3) (CGorilla 1024) (repeat 5 9) 77 [Data (bytes_of q_records)] = (ops, Ok tt) /\
  open_file false (written [] ops) = Ok m /\
  stored false ex m (written [] ops) None parts /\ concat parts = q_records /\ length parts = 3%nat.
Proof.
  assert (EN : encodable (fun x => x) simple_libraries (CGorilla 1024) (RecordCount 3) (repeat 5 9) 77 [Data (bytes_of q_records)] q_records).
  { apply encodable_simple with (tail := []).
    - split; vm_compute; reflexivity.
    - constructor; [|constructor]. eexists. split; [reflexivity|]. vm_compute. discriminate.
    - reflexivity.
    - cbn. lia.
    - constructor.
    - repeat constructor; vm_compute; reflexivity.
    - vm_compute. reflexivity.
    - repeat constructor; vm_compute; discriminate.
    - vm_compute. reflexivity.
    - vm_compute. reflexivity. }
  do 2 eexists.
  destruct (encoded_stored false false (fun _ _ => true) (fun x => x) simple_libraries (CGorilla 1024) _ _ (RecordCount 3) (repeat 5 9) 77
    [Data (bytes_of q_records)] q_records eq_refl eq_refl EN ltac:(discriminate)) as (parts&P&ops&EO&W).
  assert (LW : N.of_nat (length (written [] ops)) < 2 ^ 63).
  { assert (EV : let '(os, _) := encode false gorilla_codec (RecordCount 3) (CGorilla 1024) (repeat 5 9) 77 [Data (bytes_of q_records)] in
      N.of_nat (length (written [] os)) <? 2 ^ 63 = true) by (vm_compute; reflexivity).
    change (encode false gorilla_codec (RecordCount 3) (CGorilla 1024) (repeat 5 9) 77 [Data (bytes_of q_records)] = (ops, Ok tt)) in EO.
    rewrite EO in EV. now apply N.ltb_lt. }
  destruct (W [] LW) as (m&OP&ST). exists ops, m, parts. split; [reflexivity|]. split; [reflexivity|].
  split; [exact EO|]. split; [exact OP|]. split; [apply ST|]. destruct P as (CC&PN&PL). split; [exact CC|].
  cbn [records_per_chunk] in PL.
  destruct parts as [|p0 [|p1 [|p2 [|p3 ps]]]]; try reflexivity; exfalso; apply (f_equal (@length N)) in CC; cbn [concat] in CC;
    rewrite ?app_length in CC; cbn [length app q_records] in CC.
  - discriminate CC.
  - destruct (PL 0%nat p0 eq_refl) as [B0 _]. lia.
  - destruct (PL 0%nat p0 eq_refl) as [B0 _]. destruct (PL 1%nat p1 eq_refl) as [B1 _]. lia.
  - destruct (PL 0%nat p0 eq_refl) as [_ B0]. destruct (PL 1%nat p1 eq_refl) as [_ B1]. destruct (PL 2%nat p2 eq_refl) as [_ B2].
    cbn [length] in *. specialize (B0 ltac:(lia)). specialize (B1 ltac:(lia)). specialize (B2 ltac:(lia)). lia.
Qed.
