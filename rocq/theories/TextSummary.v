(** Decimal text: corollaries in the form the properties are stated in. *)
From Coq Require Import String QArith Qabs.
From Verif Require Import Base Xor F64 F64Proofs F64BitsProofs Format FormatSpec File FileSpec Query QuerySpec QueryProofs Readers Sprintz SprintzProofs SprintzFloatProofs SprintzSpec SprintzOrderProofs
  SprintzSummary Buff BuffSpec BuffFixedProofs BuffFloatProofs BuffQueryProofs BuffCodec BuffSummary BuffFileSummary Codecs DecimalSpec DecimalFloatProofs DecimalProofs DecimalSummary
  Text TextSpec TextProofs PrecisionProofs CsvProofs PipelineProofs LoaderProofs StatsProofs.
Local Open Scope N_scope.

(** ** Detection *)
Lemma c67 dbg sep rows last ns : holds_numerals sep rows last ns ->
  exists p, get_appropriate_precision dbg sep true (document sep rows last) = Ok p /\
    Forall (fun n => exists t, is_decimal p t (value n)) ns /\ (p = 0 \/ exists n, In n ns /\ places n = Z.of_N p).
Proof.
  intros (S & W & M & NE & L). destruct (exact_precision dbg sep rows last ns S W M NE L) as (p & E & _ & I & F). exists p. split; [exact E|]. split.
  - eapply Forall_impl; [|exact F]. intros n H. now apply value_decimal.
  - apply in_map_iff in I as (n & D & I). unfold digits_needed in D. destruct (Z.leb_spec (places n) 0); [left; lia|right; exists n; split; [exact I|lia]].
Qed.
(** An upper-case exponent is not seen. *)
Definition thousandth : numeral := mkNumeral None [1] None (Some (Some true, [3])).
Lemma c67_upper_refuted : exists n, moderate n /\ ~ (exists t, is_decimal 0 t (value n)) /\
  forall dbg exact, get_appropriate_precision dbg 44 exact (map (fun c => if c =? 101 then 69 else c) (spelling n)) = Ok 0 /\
    get_appropriate_precision dbg 44 exact (spelling n) = Ok 3.
Proof.
  exists thousandth. split; [|split].
  - split; [|repeat split]. split; [repeat constructor|]. split; [exact I|]. split; [split; [repeat constructor|discriminate]|discriminate].
  - intros (t & D). unfold is_decimal in D. assert (X : (1 = t * 1000)%Z) by (revert D; clear; intros D; unfold Qeq in D; cbn in D; lia). lia.
  - intros [] []; split; vm_compute; reflexivity.
Qed.

Lemma how_many_le {A} (P : A -> Prop) f l k : (forall x, In x l -> P x <-> f x = true) -> how_many P l k -> k = length (filter f l).
Proof. apply count_how_many. Qed.
Lemma c68 dbg sep rows last ns : holds_numerals sep rows last ns ->
  exists p, get_appropriate_precision dbg sep false (document sep rows last) = Ok p /\
    (forall k, how_many (fun n => Z.of_N p < places n)%Z ns k -> (100 * k < length ns)%nat) /\
    (p = 0 \/ forall k, how_many (fun n => Z.of_N p <= places n)%Z ns k -> (length ns <= 100 * k)%nat) /\
    get_appropriate_scale dbg sep (document sep rows last) = if p <=? 9 then Ok (10 ^ p) else Err tt.
Proof.
  intros (S & W & M & NE & L). destruct (common_precision dbg sep rows last ns S W M NE L) as (p & E & B & I & G1 & G2). exists p.
  assert (P32 : p <? two32 = true) by (apply N.ltb_lt; change two32 with 4294967296; change (2 ^ 31) with 2147483648 in B; lia).
  split; [|split; [|split]].
  - unfold get_appropriate_precision. rewrite E. cbn [rbind]. now rewrite P32.
  - intros k H. apply (how_many_le _ (fun n => p <? digits_needed n)) in H; [subst k; exact G2|]. intros n _. unfold digits_needed. rewrite N.ltb_lt. lia.
  - destruct (N.eq_dec p 0) as [->|P0]; [now left|right]. intros k H. apply (how_many_le _ (fun n => p <=? digits_needed n)) in H; [subst k; exact G1|]. intros n _. unfold digits_needed. rewrite N.leb_le. lia.
  - unfold get_appropriate_scale. rewrite E. cbn [rbind]. rewrite N.mod_small by (now apply N.ltb_lt). rewrite (N.ltb_antisym p 9). now destruct (p <=? 9).
Qed.
Lemma c68_configs dbg exact content p : get_appropriate_precision dbg 44 exact content = Ok p ->
  exists configs, default_configs dbg exact content = Ok configs /\
    map fst configs = (["uncompressed"; "chimp128"; "chimp"; "elf_on_chimp"; "elf"; "gorilla"; "rle"; "zstd"; "gzip"; "snappy"; "ffi_alp"]%string ++
      (if p <=? 19 then ["delta_sprintz"; "buff"]%string else [])) /\
    (p <= 19 -> In ("delta_sprintz"%string, CDeltaSprintz 8192 (10 ^ p)) configs /\ In ("buff"%string, CBuff (10 ^ p)) configs) /\
    Forall (fun nc => valid_config (snd nc)) configs.
Proof.
  intros E. unfold default_configs. rewrite E. cbn [rbind]. eexists. split; [reflexivity|].
  assert (B : p <= 19 -> 10 ^ p < 2 ^ 64).
  { intros H. apply N.le_lt_trans with (10 ^ 19); [apply N.pow_le_mono_r; lia|reflexivity]. }
  split; [|split].
  - destruct (p <=? 19); reflexivity.
  - intros H. replace (p <=? 19) with true by (symmetry; now apply N.leb_le). split; apply in_or_app; right; [now left|right; now left].
  - apply Forall_app. split; [repeat constructor; cbn; lia|]. destruct (N.leb_spec p 19) as [H|H]; [|constructor]. specialize (B H).
    constructor; [split; [reflexivity|exact B]|]. constructor; [exact B|constructor].
Qed.

(** ** From text to records *)
Lemma decimals p b ns xs : Forall (fun n => exists t, is_decimal p t (value n)) ns -> Forall (smaller p b) ns -> Forall2 (fun n x => nearest_f64 (value n) x) ns xs ->
  exists ts, Forall2 (fun n t => is_decimal p t (value n)) ns ts /\ Forall2 (f64_of_decimal p) ts xs /\ Forall (fun t => (Z.abs t < b)%Z) ts.
Proof.
  intros D S F. revert D S. induction F as [|n x ns' xs N F IH]; intros D S; [exists []; repeat split; constructor|]. inversion D as [|? ? (t & T) D']; inversion S as [|? ? Sn S']; subst.
  destruct (IH D' S') as (ts & F1 & F2 & F3). exists (t :: ts). split; [now constructor|]. split; [constructor; [|exact F2]; now apply (nearest_decimal _ _ _ _ T)|]. constructor; [|exact F3].
  pose proof (pow10_pos p) as PP. unfold smaller, is_decimal in *. rewrite Zlt_Qlt, <- inject_abs, <- T, Qabs_Qmult, (inject_abs (10 ^ Z.of_N p)), (Z.abs_eq (10 ^ Z.of_N p)) by lia. exact Sn.
Qed.

Lemma fixed_shown f x v : f <= 50 -> is_u64 x -> in_range f x -> fixed_point f x v -> number (fixed_value f v) = Some (v * step f)%Z.
Proof.
  intros F50 U RG FP. destruct (ranged f x F50 U RG) as (_ & _ & _ & SH). apply fixed_fx in FP as [_ Ew]; [|exact F50]. rewrite <- Ew in SH.
  pose proof (ranged_i64 f x F50 U RG) as I6. rewrite <- Ew in I6. pose proof (shown_number f v F50 I6 SH) as NW. now rewrite <- value_shown in NW by exact F50.
Qed.
Lemma small_steps s xs : (forall x, In x xs -> is_u64 x /\ (Z.abs (quantize s x) < 2 ^ 51)%Z) -> steps_fit s xs.
Proof.
  intros QB before x y after a b EQ SX SY. assert (IX : In x xs) by (rewrite EQ; apply in_or_app; right; apply in_eq). assert (IY : In y xs) by (rewrite EQ; apply in_or_app; right; apply in_cons, in_eq).
  destruct (QB x IX) as [UX BX]. destruct (QB y IY) as [UY BY]. apply (proj1 (stored_quantize s x a UX)) in SX. apply (proj1 (stored_quantize s y b UY)) in SY. rewrite SX in BX. rewrite SY in BY.
  clear - BX BY. change (2 ^ 51)%Z with 2251799813685248%Z in *. lia.
Qed.
Section Pipeline.
  Variables (parse : text -> option N) (rows : list (list cell * bool)) (last : list cell) (ns : list numeral).
  Hypothesis H : holds_numerals 44 rows last ns.
  Hypothesis R : Forall (reads parse) ns.

  Lemma read_all : exists xs, Forall2 (fun n x => parse (spelling n) = Some x) ns xs /\ Forall2 (fun n x => nearest_f64 (value n) x) ns xs.
  Proof using R. clear H. induction R as [|n ns' (x & E & NR) R' IH]; [exists []; split; constructor|]. destruct (IH R') as (xs & F1 & F2). exists (x :: xs). split; constructor; assumption. Qed.
  Lemma text_fields : fields_of 44 (document 44 rows last) = map spelling ns.
  Proof using H.
    destruct H as (S & W & M & _). rewrite document_fields; [exact W|exact S|]. rewrite W. apply Forall_map. eapply Forall_impl; [|exact M]. intros n (WF & _). now apply spelling_word.
  Qed.
  Lemma converted room : (8 * length ns <= room)%nat ->
    exists xs, csv2bin parse room (document 44 rows last) = (true, Some (bytes_of xs)) /\ Forall2 (fun n x => nearest_f64 (value n) x) ns xs.
  Proof using H R.
    intros L. destruct read_all as (xs & F1 & F2). exists xs. split; [|exact F2].
    assert (LE : length xs = length ns) by (clear - F1; induction F1; cbn; congruence).
    apply csv2bin_complete; [|rewrite bytes_len, LE; exact L]. rewrite text_fields. clear - F1. induction F1; constructor; assumption.
  Qed.
  (** DeltaSprintz: the files give back the f64s nearest to the decimals. *)
  Lemma sprintz_pipeline dbg neg tie p room o timer elapsed :
    get_appropriate_precision dbg 44 true (document 44 rows last) = Ok p -> p <= 9 -> Forall (smaller p (2 ^ 51)) ns ->
    (8 * length ns <= room)%nat -> N.of_nat (length ns) < 2 ^ 32 -> usable o -> valid_run (CDeltaSprintz 8192 (10 ^ p)) o timer elapsed ->
    exists bytes, csv2bin parse room (document 44 rows last) = (true, Some bytes) /\
    forall input, delivered input = bytes -> readable o input ->
    exists ops, encode dbg (sprintz_codec dbg (10 ^ p)) o (CDeltaSprintz 8192 (10 ^ p)) timer elapsed input = (ops, Ok tt) /\
    forall old, N.of_nat (length (written old ops)) < 2 ^ 63 ->
    exists m ys, open_file dbg (written old ops) = Ok m /\
      dec_materialize dbg (sprintz_executor dbg neg tie) m (written old ops) None None None = (bytes_of ys, Ok tt) /\
      Forall2 (fun n y => nearest_f64 (value n) y) ns ys.
  Proof using H R.
    intros E Hp SM RM L US VR. destruct (converted room RM) as (xs & C & NX). exists (bytes_of xs). split; [exact C|]. intros input DI RI.
    assert (DEC : Forall (fun n => exists t, is_decimal p t (value n)) ns) by (destruct (c67 dbg 44 rows last ns H) as (p' & E' & F & _); rewrite E in E'; injection E' as <-; exact F).
    destruct (decimals p (2 ^ 51) ns xs DEC SM NX) as (ts & F1 & F2 & F3).
    assert (LX : length xs = length ns) by (clear - NX; induction NX; cbn; congruence).
    assert (QX : Forall2 (fun t x => is_u64 x /\ quantize (10 ^ p) x = t /\ (Z.abs t < 2 ^ 51)%Z) ts xs).
    { clear - F2 F3 Hp. revert F3. induction F2 as [|t x ts xs D F2 IH]; intros F3; [constructor|]. inversion F3; subst. constructor; [|auto]. split; [exact (proj1 D)|]. split; [now apply decimal_quantize|assumption]. }
    assert (SC : scale_ok (10 ^ p)) by exact (proj1 (pow10_scale p Hp)).
    assert (QB : forall x, In x xs -> is_u64 x /\ (Z.abs (quantize (10 ^ p) x) < 2 ^ 51)%Z).
    { clear - QX. induction QX as [|t x ts xs (U & Q & B) QX IH]; intros y I; [easy|]. destruct I as [<-|I]; [split; [exact U|now rewrite Q]|auto]. }
    assert (ENC : sprintz_encodable dbg 8192 (10 ^ p) o timer elapsed input xs).
    { split; [unfold scale_ok in SC; change (2 ^ 32)%Z with (Z.of_N (2 ^ 32)) in SC; lia|]. split; [exact US|]. split; [exact RI|]. split; [exists []; rewrite app_nil_r; split; [exact DI|split; [cbn; lia|constructor]]|].
      split; [apply Forall_forall; intros x I; exact (proj1 (QB x I))|]. split; [rewrite LX; eapply N.lt_trans; [exact L|reflexivity]|]. split; [exact VR|].
      intros _. apply (small_steps _ _ QB). }
    assert (NE : xs <> []) by (intros ->; destruct H as (_ & _ & _ & NN & _); destruct ns; [now apply NN|discriminate LX]).
    destruct (sprintz_file dbg neg tie 8192 (10 ^ p) o timer elapsed input xs ENC NE) as (ops & parts & (PC & _) & EN & OP). exists ops. split; [exact EN|]. intros old LF.
    destruct (OP old LF) as (m & vss & OM & ST). specialize (ST None). exists m, (concat vss). split; [exact OM|].
    assert (FD : Forall2 (SprintzSpec.decodes (10 ^ p)) xs (concat vss)).
    { destruct ST as (_ & _ & FA & _). rewrite <- PC. clear - FA. induction FA; cbn [concat]; [constructor|]. now apply Forall2_app. }
    assert (LV : length (concat vss) = length ns) by (rewrite <- LX; clear - FD; induction FD; cbn; congruence).
    destruct (c30_materialize dbg neg tie (10 ^ p) m (written old ops) None parts vss ST None ltac:(rewrite LV; exact L) None 0 (concat vss) (scope_all vss) (PEq 0) ltac:(repeat constructor)) as (ys & zs & CH & _ & EM & _).
    split.
    - rewrite EM. f_equal. f_equal. clear - CH. remember None as mk. remember (concat vss) as l. clear Heql. induction CH; [reflexivity|f_equal; auto|exfalso; subst mk; now apply H].
    - clear - F1 QX FD SC Hp. revert ts F1 QX. generalize ns. induction FD as [|x v xs vs (q & SQ & ->) FD IH]; intros ms ts F1 QX; inversion QX as [|t ? ts' ? (U & Q & B) QX']; subst; inversion F1 as [|n ? ms' ? D F1']; subst; constructor; [|eapply IH; eassumption].
      apply (proj1 (stored_quantize _ _ _ U)) in SQ. rewrite SQ in *. apply (nearest_decimal _ _ _ _ D). unfold grid_value. rewrite (proj2 (pow10_scale p Hp)). apply nearest_quotient; [lia|].
      change (2 ^ 51)%Z with 2251799813685248%Z in B. change (2 ^ 53)%Z with 9007199254740992%Z. lia.
  Qed.

  (** BUFF: they give back values that round to the decimals. *)
  Lemma buff_pipeline dbg simd neg lg p room o timer elapsed :
    get_appropriate_precision dbg 44 true (document 44 rows last) = Ok p -> p <= 12 -> lg (10 ^ p) = p -> Forall (smaller p (10 ^ 15)) ns ->
    (8 * length ns <= room)%nat -> N.of_nat (length ns) < 2 ^ 32 -> usable o -> valid_run (CBuff (10 ^ p)) o timer elapsed ->
    exists bytes, csv2bin parse room (document 44 rows last) = (true, Some bytes) /\
    forall input, delivered input = bytes -> readable o input ->
    exists ops, encode dbg (buff_codec dbg lg (10 ^ p)) o (CBuff (10 ^ p)) timer elapsed input = (ops, Ok tt) /\
    forall old, N.of_nat (length (written old ops)) < 2 ^ 63 ->
    exists m ys, open_file dbg (written old ops) = Ok m /\
      dec_materialize dbg (buff_executor dbg simd neg) m (written old ops) None None None = (bytes_of ys, Ok tt) /\
      Forall2 (fun n y => exists t, is_decimal p t (value n) /\ rounds_to p t y) ns ys.
  Proof using H R.
    intros E Hp LG SM RM L US VR. destruct (converted room RM) as (xs & C & NX). exists (bytes_of xs). split; [exact C|]. intros input DI RI.
    assert (DEC : Forall (fun n => exists t, is_decimal p t (value n)) ns) by (destruct (c67 dbg 44 rows last ns H) as (p' & E' & F & _); rewrite E in E'; injection E' as <-; exact F).
    destruct (decimals p (10 ^ 15) ns xs DEC SM NX) as (ts & F1 & F2 & F3).
    assert (LX : length xs = length ns) by (clear - NX; induction NX; cbn; congruence).
    assert (NE : xs <> []) by (intros ->; destruct H as (_ & _ & _ & NN & _); destruct ns; [now apply NN|discriminate LX]).
    assert (DG : digits_of lg (10 ^ p) = p) by (unfold digits_of; rewrite LG; destruct (N.eqb_spec (10 ^ p) 0) as [Z|Z]; [apply N.pow_eq_0 in Z; lia|reflexivity]).
    assert (BF : exists f, bits_of_digits p = Some f).
    { unfold bits_of_digits. destruct (nth_error _ (N.to_nat p)) eqn:X; [eauto|]. apply nth_error_None in X. cbn in X. lia. }
    destruct BF as [f BF]. pose proof (digits_50 _ _ BF) as F50.
    assert (LN : N.of_nat (length xs) < 2 ^ 32) by (rewrite LX; exact L).
    pose proof (decimals_storable dbg p f ts xs BF F3 F2 NE LN) as OK.
    assert (ENC : buff_encodable dbg lg (10 ^ p) f o timer elapsed input xs).
    { destruct OK as (_ & _ & U & RG & SF). split; [rewrite DG; exact BF|]. split; [exact US|]. split; [exact RI|]. split; [exists []; rewrite app_nil_r; split; [exact DI|split; [cbn; lia|constructor]]|].
      split; [exact U|]. split; [exact LN|]. split; [exact VR|]. split; [exact RG|exact SF]. }
    destruct (buff_file dbg simd neg lg (10 ^ p) f o timer elapsed input xs ENC NE) as (ops & parts & (PC & _) & EN & OP). exists ops. split; [exact EN|]. intros old LF.
    destruct (OP old LF) as (m & OM & ST). destruct (ST None ltac:(discriminate)) as (vss & SS). exists m, (concat vss). split; [exact OM|].
    destruct (decoded dbg simd neg lg (10 ^ p) f m (written old ops) None parts vss SS None 0 (concat parts) (scope_all parts) (concat vss) (scope_all vss)) as (g & KG & FA). injection KG as <-. rewrite PC in FA.
    destruct (file_materialize dbg simd neg lg (10 ^ p) f m (written old ops) None parts vss SS ltac:(rewrite PC; exact LN) None 0 (concat vss) (scope_all vss) None) as (ys & CH & EM).
    split.
    - rewrite EM. f_equal. f_equal. clear - CH. remember None as mk. remember (concat vss) as l. clear Heql. induction CH; [reflexivity|f_equal; auto|exfalso; subst mk; now apply H].
    - destruct OK as (_ & _ & U & RG & _). clear - F1 F2 F3 FA U RG BF F50. revert ts F1 F2 F3. generalize ns. induction FA as [|x y xs ys (v & w & V & -> & B) FA IH]; intros ms ts F1 F2 F3; inversion F2 as [|t ? ts' ? D F2']; subst; inversion F1 as [|n ? ms' ? DN F1']; subst; constructor.
      + exists t. split; [exact DN|]. inversion F3; subst. inversion U; subst. inversion RG; subst. rewrite N.sub_diag in B. change (2 ^ Z.of_N 0)%Z with 1%Z in B. assert (w = v) by lia. subst w.
        exists (v * step f)%Z. split; [now apply (fixed_shown f x)|]. apply (decimal_kept p f t x v); assumption.
      + inversion U; subst. inversion RG; subst. inversion F3; subst. eapply IH; eassumption.
  Qed.
End Pipeline.

(** ** The converter *)
Section Convert.
  Variables (parse : text -> option N) (rows : list (list cell * bool)) (last : list cell).
  Hypothesis W : Forall (is_word 44) (words rows last).
  Lemma c70_complete room xs : Forall2 (fun w x => parse w = Some x) (words rows last) xs -> (8 * length xs <= room)%nat ->
    csv2bin parse room (document 44 rows last) = (true, Some (bytes_of xs)).
  Proof using W. intros F L. apply csv2bin_complete; [|now rewrite bytes_len]. rewrite document_fields; [exact F|now left|exact W]. Qed.
  Lemma c70_failure room w : In w (words rows last) -> parse w = None -> csv2bin parse room (document 44 rows last) = (false, None).
  Proof using W. intros I P. apply (csv2bin_failure parse room _ w); [|exact P]. rewrite document_fields; [exact I|now left|exact W]. Qed.
  Lemma c70_success room out : csv2bin parse room (document 44 rows last) = (true, out) ->
    exists xs, Forall2 (fun w x => parse w = Some x) (words rows last) xs /\ out = Some (firstn room (bytes_of xs)) /\
      N.of_nat (8 * length xs) <= N.of_nat room + 8192.
  Proof using W.
    intros E. destruct (csv2bin_success _ _ _ _ E) as (xs & F & O & L). exists xs. rewrite document_fields in F; [|now left|exact W]. split; [exact F|]. split; [exact O|]. now rewrite <- bytes_len.
  Qed.
End Convert.
Lemma c70_refuted : exists parse rows last room xs out, Forall (is_word 44) (words rows last) /\ Forall2 (fun w x => parse w = Some x) (words rows last) xs /\
  csv2bin parse room (document 44 rows last) = (true, Some out) /\ out <> bytes_of xs.
Proof.
  exists (fun _ => Some 5), [], [Some (0%nat, [53], 0%nat)], 3%nat, [5], [5; 0; 0]. split; [constructor; [split; [discriminate|repeat constructor; discriminate]|constructor]|].
  split; [constructor; [reflexivity|constructor]|]. split; [vm_compute; reflexivity|discriminate].
Qed.

(** ** The loader *)
Lemma c71 parse dbg train p rows : get_appropriate_precision dbg 9 false train = Ok p -> p <= 9 ->
  Forall (fun r : series * bool => Forall well_formed (series_numerals (fst r)) /\ Forall (reads parse) (series_numerals (fst r)) /\ Forall (smaller p (2 ^ 49)) (snd (fst r))) rows ->
  exists data, load_dataset parse dbg train (series_text rows) = Ok (10 ^ p, data) /\ Forall2 (loaded p) (tl (map fst rows)) data.
Proof. intros E Hp F. apply loader; [exact E|exact Hp|]. apply Forall_map. exact F. Qed.

(** ** Samples *)
Lemma quotient_f64 d t q : d <= 12 -> (Z.abs t <= 2 ^ 53)%Z -> is_decimal d t q -> nearest_f64 q (to_bits (fdiv (of_Z t) (of_Z (10 ^ Z.of_N d)))).
Proof. intros D T Q. apply (nearest_decimal _ _ _ _ Q). now apply nearest_quotient. Qed.
Definition n_one : numeral := mkNumeral None [1] None None.
Definition n_three : numeral := mkNumeral None [3] (Some [2]) None.
Definition n_seven : numeral := mkNumeral (Some true) [7] None (Some (Some true, [1])).
Definition n_tiny : numeral := mkNumeral None [1] None (Some (Some true, [1; 0])).
Fixpoint text_eqb (a b : list N) : bool := match a, b with [], [] => true | x :: a, y :: b => (x =? y) && text_eqb a b | _, _ => false end.
(** A parser for these four. *)
Definition small_parse (t : list N) : option N :=
  if text_eqb t (spelling n_one) then Some (to_bits (fdiv (of_Z 1) (of_Z (10 ^ Z.of_N 0))))
  else if text_eqb t (spelling n_three) then Some (to_bits (fdiv (of_Z 32) (of_Z (10 ^ Z.of_N 1))))
  else if text_eqb t (spelling n_seven) then Some (to_bits (fdiv (of_Z (-7)) (of_Z (10 ^ Z.of_N 1))))
  else if text_eqb t (spelling n_tiny) then Some (to_bits (fdiv (of_Z 1) (of_Z (10 ^ Z.of_N 10)))) else None.
Ltac qed_q := unfold is_decimal, value; vm_compute; reflexivity.
Lemma small_reads n : In n [n_one; n_three; n_seven; n_tiny] -> reads small_parse n.
Proof.
  intros [<-|[<-|[<-|[<-|[]]]]]; eexists.
  - split; [reflexivity|]. apply quotient_f64; [lia|change (2 ^ 53)%Z with 9007199254740992%Z; lia|qed_q].
  - split; [reflexivity|]. apply quotient_f64; [lia|change (2 ^ 53)%Z with 9007199254740992%Z; lia|qed_q].
  - split; [reflexivity|]. apply quotient_f64; [lia|change (2 ^ 53)%Z with 9007199254740992%Z; lia|qed_q].
  - split; [reflexivity|]. apply quotient_f64; [lia|change (2 ^ 53)%Z with 9007199254740992%Z; lia|qed_q].
Qed.
Ltac digits := first [exact I|unfold digits_ok; cbn; repeat (apply Forall_cons; [reflexivity|]); apply Forall_nil].
Lemma small_moderate n : In n [n_one; n_three; n_seven; n_tiny] -> moderate n.
Proof.
  intros [<-|[<-|[<-|[<-|[]]]]]; (split; [|split; [reflexivity|split; reflexivity]]); (split; [digits|split; [digits|split; [first [exact I|split; [digits|discriminate]]|discriminate]]]).
Qed.
(** Two lines: [3.2 , -7e-1] and, after an empty cell, [1]. *)
Definition sample_rows : list (list cell * bool) := [([Some (0%nat, spelling n_three, 1%nat); Some (1%nat, spelling n_seven, 0%nat)], true); ([None; Some (0%nat, spelling n_one, 0%nat)], false)].
Definition sample_numerals := [n_three; n_seven; n_one].
Lemma sample_holds : holds_numerals 44 sample_rows [] sample_numerals.
Proof.
  split; [now left|]. split; [reflexivity|]. split; [|split; [discriminate|discriminate]].
  apply Forall_forall. intros n I. apply small_moderate. destruct I as [<-|[<-|[<-|[]]]]; cbn; tauto.
Qed.
Lemma sample_reads : Forall (reads small_parse) sample_numerals.
Proof. apply Forall_forall. intros n I. apply small_reads. destruct I as [<-|[<-|[<-|[]]]]; cbn; tauto. Qed.
Lemma c67_sample : holds_numerals 44 sample_rows [] sample_numerals /\
  document 44 sample_rows [] = [51; 46; 50; 32; 44; 32; 45; 55; 101; 45; 49; 13; 10; 44; 49; 10] /\
  forall dbg, get_appropriate_precision dbg 44 true (document 44 sample_rows []) = Ok 1.
Proof. split; [exact sample_holds|]. split; [reflexivity|]. intros []; vm_compute; reflexivity. Qed.
(** 150 times [1] and once [3.2]. *)
Definition many_rows : list (list cell * bool) := [(repeat (Some (0%nat, spelling n_one, 0%nat)) 150, false)].
Definition many_last : list cell := [Some (0%nat, spelling n_three, 0%nat)].
Lemma c68_sample : holds_numerals 44 many_rows many_last (repeat n_one 150 ++ [n_three]) /\
  (forall dbg, get_appropriate_precision dbg 44 false (document 44 many_rows many_last) = Ok 0) /\
  (forall dbg, get_appropriate_precision dbg 44 true (document 44 many_rows many_last) = Ok 1).
Proof.
  split; [|split; intros []; vm_compute; reflexivity]. split; [now left|]. split; [reflexivity|]. split; [|split; [discriminate|discriminate]].
  apply Forall_forall. intros n I. apply small_moderate. apply in_app_or in I as [I|I]; [apply repeat_spec in I; subst; cbn; tauto|destruct I as [<-|[]]; cbn; tauto].
Qed.
Lemma c69_sample dbg : holds_numerals 44 sample_rows [] sample_numerals /\ Forall (reads small_parse) sample_numerals /\
  get_appropriate_precision dbg 44 true (document 44 sample_rows []) = Ok 1 /\
  Forall (smaller 1 (2 ^ 51)) sample_numerals /\ Forall (smaller 1 (10 ^ 15)) sample_numerals /\ usable (RecordCount 2) /\
  valid_run (CDeltaSprintz 8192 (10 ^ 1)) (RecordCount 2) (repeat 5 9) 77 /\ valid_run (CBuff (10 ^ 1)) (RecordCount 2) (repeat 5 9) 77.
Proof.
  split; [exact sample_holds|]. split; [exact sample_reads|]. split; [destruct dbg; vm_compute; reflexivity|].
  split; [repeat constructor|]. split; [repeat constructor|]. split; [split; vm_compute; reflexivity|].
  split; (split; [vm_compute; repeat split|split; [vm_compute; reflexivity|split; [|vm_compute; reflexivity]]]); split; [reflexivity|repeat constructor|reflexivity|repeat constructor].
Qed.
(** The loader: label 1, values [3.2] and [-7e-1], three times. *)
Definition sample_series : list (series * bool) := repeat ((n_one, [n_three; n_seven]), false) 3.
Definition tiny_series : list (series * bool) := repeat ((n_one, [n_tiny]), false) 2.
Lemma sample_series_good p rows : (rows = sample_series /\ p = 1) \/ (rows = tiny_series /\ p = 10) ->
  Forall (fun r : series * bool => Forall well_formed (series_numerals (fst r)) /\ Forall (reads small_parse) (series_numerals (fst r)) /\ Forall (smaller p (2 ^ 49)) (snd (fst r))) rows.
Proof.
  intros C. apply Forall_forall. intros r I.
  assert (A : Forall (fun n => In n [n_one; n_three; n_seven; n_tiny]) (series_numerals (fst r)) /\ Forall (smaller p (2 ^ 49)) (snd (fst r))).
  { destruct C as [[-> ->]|[-> ->]]; apply repeat_spec in I; subst r; cbn [fst snd series_numerals]; (split; [repeat (constructor; [cbn; tauto|]); constructor|repeat constructor]). }
  destruct A as [A B]. split; [|split; [|exact B]]; (eapply Forall_impl; [|exact A]); intros n H; [exact (proj1 (small_moderate n H))|now apply small_reads].
Qed.
Lemma c71_sample dbg : get_appropriate_precision dbg 9 false (series_text sample_series) = Ok 1 /\
  exists data, load_dataset small_parse dbg (series_text sample_series) (series_text sample_series) = Ok (10, data) /\ length data = 2%nat /\
    Forall (fun r => fst r = 1%Z /\ length (snd r) = 2%nat) data.
Proof. split; [destruct dbg; vm_compute; reflexivity|]. eexists. split; [destruct dbg; vm_compute; reflexivity|]. split; [reflexivity|repeat constructor]. Qed.
Lemma c71_first_refuted : exists parse rows p, (forall dbg, get_appropriate_precision dbg 9 false (series_text rows) = Ok p) /\ p <= 9 /\
  Forall (fun r : series * bool => Forall well_formed (series_numerals (fst r)) /\ Forall (reads parse) (series_numerals (fst r)) /\ Forall (smaller p (2 ^ 49)) (snd (fst r))) rows /\
  forall dbg s data, load_dataset parse dbg (series_text rows) (series_text rows) = Ok (s, data) -> (length data < length rows)%nat.
Proof.
  exists small_parse, sample_series, 1. split; [intros []; vm_compute; reflexivity|]. split; [lia|]. split; [apply sample_series_good; left; split; reflexivity|].
  intros dbg s data E. destruct (c71_sample dbg) as (_ & d & E' & L & _). rewrite E in E'. injection E' as _ ->. rewrite L. cbn. lia.
Qed.
(** With ten digits values are rounded on a grid that is too coarse. *)
Lemma zero_not_tiny : ~ nearest_f64 (value n_tiny) 0.
Proof.
  intros (_ & a & A & M). assert (E : a = 0%Z) by (vm_compute in A; now injection A). subst a. clear A.
  set (y := to_bits (fdiv (of_Z 1) (of_Z (10 ^ Z.of_N 10)))). assert (U : is_u64 y) by (vm_compute; reflexivity).
  destruct (number y) as [b|] eqn:B; [|vm_compute in B; discriminate B]. specialize (M y b U B). revert M. vm_compute in B. injection B as <-. vm_compute. intros M. now apply M.
Qed.
Lemma c71_digits_refuted : exists parse rows p, (forall dbg, get_appropriate_precision dbg 9 false (series_text rows) = Ok p) /\
  Forall (fun r : series * bool => Forall well_formed (series_numerals (fst r)) /\ Forall (reads parse) (series_numerals (fst r)) /\ Forall (smaller p (2 ^ 49)) (snd (fst r))) rows /\
  forall dbg, exists data, load_dataset parse dbg (series_text rows) (series_text rows) = Ok (10 ^ p, data) /\ ~ Forall2 (loaded p) (tl (map fst rows)) data.
Proof.
  exists small_parse, tiny_series, 10. split; [intros []; vm_compute; reflexivity|]. split; [apply sample_series_good; right; split; reflexivity|].
  intros dbg. exists [(1%Z, [S754_zero false])]. split; [destruct dbg; vm_compute; reflexivity|]. intros F. inversion F as [|? ? ? ? (_ & V) _]; subst. inversion V as [|? ? ? ? (_ & K) _]; subst.
  apply zero_not_tiny. apply K. vm_compute. discriminate.
Qed.

(** ** Statistics *)
Lemma c72_nan dbg xs : (2 <= length xs)%nat -> Forall is_u64 xs -> Exists (fun x => number x = None) xs -> compute_stats dbg xs = Panic.
Proof.
  intros L U E. apply stats_nan; [exact L|exact U|]. intros N. apply Exists_exists in E as (x & I & E). unfold numeric in N. rewrite Forall_forall in N. exact (N x I E).
Qed.
Lemma c72_stats dbg xs : xs <> [] -> Forall is_u64 xs -> Forall (fun x => number x <> None) xs -> N.of_nat (length xs) < 2 ^ 21 ->
  exists st ds, compute_stats dbg xs = Ok st /\ st_values st = N.of_nat (length xs) /\ greatest xs (st_value_max st) /\ least xs (st_value_min st) /\
    (In (st_exponent_max st) (map exponent xs) /\ Forall (fun e => (e <= st_exponent_max st)%Z) (map exponent xs)) /\
    (In (st_exponent_min st) (map exponent xs) /\ Forall (fun e => (st_exponent_min st <= e)%Z) (map exponent xs)) /\
    st_exponent_avg st = fdiv (of_Z (total (map exponent xs))) (of_Z (Z.of_nat (length xs))) /\
    different xs ds /\ st_non_unique st = fdiv (of_Z (Z.of_nat (length xs) - Z.of_nat (length ds))) (of_Z (Z.of_nat (length xs))) /\
    ((2 <= length xs)%nat -> exists ls ts, Forall2 leading_zeros (neighbour_xors xs) ls /\ Forall2 trailing_zeros (neighbour_xors xs) ts /\
      st_leading st = fdiv (of_Z (total_n ls)) (of_Z (Z.of_nat (length xs) - 1)) /\ st_trailing st = fdiv (of_Z (total_n ts)) (of_Z (Z.of_nat (length xs) - 1))).
Proof.
  intros NE U NU L. destruct (stats_exact dbg xs NE U NU L) as (st & E & A & B & C & D & F & G).
  assert (L53 : (Z.of_nat (length xs) <= 2 ^ 53)%Z) by (change (2 ^ 53)%Z with 9007199254740992%Z; change (2 ^ 21) with 2097152 in L; lia).
  destruct (ratio_spec xs NE L53) as (ds & DI & RA). exists st, ds. split; [exact E|]. repeat (split; [assumption|]).
  assert (X : st_non_unique st = non_unique_ratio xs /\ (st_leading st, st_trailing st) = xor_stats xs).
  { revert E. destruct xs as [|x xs]; [easy|]. unfold compute_stats. destruct (max_by x xs); cbn [rbind]; [|discriminate|discriminate]. destruct (min_by x xs); cbn [rbind]; [|discriminate|discriminate].
    destruct (mean_i32 dbg _); cbn [rbind]; [|discriminate|discriminate]. destruct (xor_stats (x :: xs)) as [l t]. intros E. injection E as <-. split; reflexivity. }
  destruct X as [X1 X2]. split; [now rewrite X1|]. intros L2. destruct (xor_stats_spec xs L2 U) as (ls & ts & F1 & F2 & XS). exists ls, ts. split; [exact F1|]. split; [exact F2|]. rewrite XS in X2. injection X2 as -> ->. split; reflexivity.
Qed.
Lemma c72_refuted : exists xs, Forall is_u64 xs /\ Forall (fun x => number x = Some 0%Z) xs /\ Forall (fun x => exponent x = (-1023)%Z) xs /\
  compute_stats true xs = Panic /\ exists st, compute_stats false xs = Ok st /\ flt (S754_zero false) (st_exponent_avg st) = true.
Proof.
  exists zeros. split; [exact (proj2 (numeric_zeros _))|]. split; [|split]; [| |exact (conj stats_overflow_debug stats_overflow_release)]; unfold zeros; apply Forall_forall; intros x I; apply repeat_spec in I; subst x; reflexivity.
Qed.
Lemma c72_sample : let xs := [0x3ff0000000000000; 0x4000000000000000; 0x3ff0000000000000] in
  Forall (fun x => number x <> None) xs /\ exists st, compute_stats true xs = Ok st /\ st_value_max st = 0x4000000000000000 /\ st_exponent_max st = 1%Z /\ st_values st = 3.
Proof. cbv zeta. split; [repeat constructor; discriminate|]. eexists. split; [vm_compute; reflexivity|]. split; [reflexivity|]. split; reflexivity. Qed.
Lemma c70_sample : exists xs, Forall2 (fun w x => small_parse w = Some x) (words sample_rows []) xs /\ length xs = 3%nat /\ Forall (is_word 44) (words sample_rows []).
Proof.
  eexists. split; [repeat (constructor; [reflexivity|]); constructor|]. split; [reflexivity|].
  rewrite (proj1 (proj2 sample_holds)). apply Forall_map. eapply Forall_impl; [|exact (proj1 (proj2 (proj2 sample_holds)))]. intros n (WF & _). apply spelling_word; [now left|exact WF].
Qed.
