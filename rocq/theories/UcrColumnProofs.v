(** Encoded columns of the classification and the matrix experiments. *)
From Coq Require Import Reals Lra.
From Flocq Require Import Core BinarySingleNaN.
From Verif Require Import Base WordProofs Xor F64 F64Proofs F64BitsProofs F64Flocq Format FormatSpec File FileSpec FileProofs FileSummary Codecs CodecSpec CodecProofs Readers Query QuerySpec QueryProofs QuerySummary
  Sprintz SprintzSpec SprintzFloatProofs SprintzOrderProofs SprintzSummary Expr ExprSpec ExprProofs AggregateProofs ExprSummary
  Tpch TpchSpec TpchColumnProofs Ucr UcrSpec.
Local Open Scope N_scope.

Lemma quantize_minus_zero s : quantize s 0x8000000000000000 = 0%Z.
Proof.
  unfold quantize. change (of_bits 0x8000000000000000) with (S754_zero true). generalize (of_Z (Z.of_N s)). intros z.
  destruct z as [b|b| |b p e]; cbn; try reflexivity; destruct b; reflexivity.
Qed.

Lemma configs_valid scale c : 1 <= scale < 2 ^ 32 -> In c (experiment_configs false scale) -> valid_config c.
Proof.
  intros SB I. assert (US : is_u64 scale). { unfold is_u64. eapply N.lt_trans; [apply SB|reflexivity]. }
  cbn [experiment_configs In] in I.
  repeat (destruct I as [<-|I]; [first [exact US|exact Logic.I|split; [reflexivity|exact US]|vm_compute; split; [intros H; discriminate H|reflexivity]|reflexivity]|]). destruct I.
Qed.
Lemma configs_sprintz scale c : In c (experiment_configs false scale) -> config_scheme c <> SBuff ->
  forall dbg neg tie log10 lib, scheme_executor dbg neg tie log10 lib c = None -> c = CDeltaSprintz default_capacity scale.
Proof.
  intros I NB dbg neg tie log10 lib EX. cbn [experiment_configs In] in I.
  repeat (destruct I as [<-|I]; [first [discriminate EX|reflexivity|now destruct NB]|]). destruct I.
Qed.

Section Column.
  Variable P : platform.
  Hypothesis GP : good_platform P.
  Let dbg := p_dbg P.
  Let neg := p_neg P.
  Let tie := p_tie P.
  Variable scale : N.
  Hypothesis SB : 1 <= scale < 2 ^ 32.
  Variable c : config.
  Hypothesis CI : In c (experiment_configs false scale).
  Hypothesis NB : config_scheme c <> SBuff.
  Variable xs : list N.
  Hypothesis XU : Forall is_u64 xs.
  Hypothesis XN : xs <> [].
  Hypothesis XL : N.of_nat (length xs) < 2 ^ 32.
  Hypothesis XK : Forall (keeps (p_log10 P) c) xs.
  Hypothesis MEM : fits P c xs.

  Definition good_file (d : decoder) (parts vss : list (list N)) : Prop :=
    partition (records_per_chunk default_chunk_option) xs parts /\ Forall2 (Forall2 alike) parts vss /\
    forall precision, holds dbg neg (with_precision d precision) vss /\
      dec_materialize dbg (d_ex (with_precision d precision)) (d_meta (with_precision d precision)) (d_file (with_precision d precision))
        (d_precision (with_precision d precision)) None None = (bytes_of (concat vss), Ok tt) /\
      stored dbg (d_ex d) (d_meta d) (d_file d) precision vss /\ d_ex d = executor_of P c.

  Lemma alike_refl (parts : list (list N)) : Forall2 (Forall2 alike) parts parts.
  Proof using. induction parts as [|p parts IH]; constructor; [|exact IH]. clear IH. induction p; constructor; [now left|assumption]. Qed.
  Lemma delivered_all : readable default_chunk_option [Data (bytes_of xs)] /\
    delivered [Data (bytes_of xs)] = bytes_of xs ++ [] /\ (length (@nil N) < 8)%nat /\ Forall is_byte [].
  Proof using All.
    split; [|split; [cbn; now rewrite !app_nil_r|split; [cbn; lia|constructor]]].
    constructor; [|constructor]. eexists. split; [reflexivity|]. destruct xs as [|x l]; [now destruct XN|]. cbn. discriminate.
  Qed.
  Lemma short : N.of_nat (length xs) < 2 ^ 60.
  Proof using All. eapply N.lt_trans; [exact XL|reflexivity]. Qed.
  Lemma valid : valid_run c default_chunk_option (p_timer P) (p_elapsed P).
  Proof using All.
    destruct GP as (_ & VT & EL). split; [|split; [reflexivity|split; assumption]].
    exact (configs_valid scale c SB CI).
  Qed.
  Lemma small_records : (two64 <=? 8 * N.of_nat (length xs)) = false.
  Proof using All. apply N.leb_gt. change (2 ^ 32) with 4294967296 in XL. change two64 with 18446744073709551616. lia. Qed.
  Lemma memory ops : fst (encode_column P c xs) = ops -> (isize_limit <=? N.of_nat (length (written [] ops))) = false.
  Proof using All. intros <-. apply N.leb_gt. exact MEM. Qed.

  (** Every scheme that keeps its records bit by bit. *)
  Lemma plain_opens ex : scheme_executor dbg neg tie (p_log10 P) (p_lib P) c = Some ex ->
    exists d s parts vss, open_column P c xs = Ok d /\ column_statistics P d = Ok s /\ good_file d parts vss.
  Proof using All.
    intros EX. assert (CD : scheme_codec dbg (p_log10 P) (p_lib P) c = Some (codec_of P c)).
    { destruct c; cbn [scheme_executor] in EX; try discriminate EX; reflexivity. }
    assert (EE : executor_of P c = ex) by (destruct c; cbn [scheme_executor] in EX; try discriminate EX; injection EX as <-; reflexivity).
    assert (EC : encodable (p_log10 P) (p_lib P) c default_chunk_option (p_timer P) (p_elapsed P) [Data (bytes_of xs)] xs).
    { destruct delivered_all as (R & D & T & TB). split; [apply GP|]. split; [split; reflexivity|]. split; [exact R|]. split; [exists []; auto|].
      split; [exact XU|]. split; [exact short|]. split; [|exact valid]. eapply Forall_impl; [|exact XK]. intros x [H|[H _]]; [exact H|].
      destruct c; cbn [scheme_executor] in EX; try discriminate EX; discriminate H. }
    destruct (c24 dbg (p_log10 P) (p_lib P) c (codec_of P c) _ _ _ _ xs CD EC XN) as (ops & EN & W).
    pose proof (memory ops) as LM. unfold open_column, encode_column in LM |- *. fold dbg in LM |- *. pose proof MEM as MM. unfold fits, encode_column in MM. fold dbg in MM. rewrite EN in LM, MM |- *. cbn [fst rbind] in LM, MM |- *. rewrite (LM eq_refl).
    destruct (W [] MM) as (m & ps & OP & _ & _ & NR & FC & _).
    destruct (c45 dbg (p_log10 P) (p_lib P) c (codec_of P c) _ _ _ _ xs CD EC XN) as (ops2 & EN2 & W2). rewrite EN in EN2. injection EN2 as <-.
    destruct (W2 MM) as (m2 & sizes & OP2 & TF & _ & TC & TX). rewrite OP in OP2. injection OP2 as <-.
    rewrite OP. cbn [rbind]. rewrite FC, EE.
    destruct (encoded_stored dbg neg tie _ _ _ _ _ _ _ _ _ _ CD EX EC XN) as (parts & PS & ops3 & EN3 & W3). rewrite EN in EN3. injection EN3 as <-.
    destruct (W3 [] MM) as (m3 & OP3 & ST). rewrite OP in OP3. injection OP3 as <-.
    exists (mkDec ex m (written [] ops) None), (mkStats (8 * N.of_nat (length xs)) (total_file_size m) (fold_right N.add 0 sizes)), parts, parts. split; [reflexivity|]. split.
    { unfold column_statistics. cbn [d_meta]. fold dbg. rewrite NR, TC. unfold mul8. rewrite small_records. reflexivity. }
    split; [exact PS|]. split; [apply alike_refl|]. intros precision. cbn [with_precision d_ex d_meta d_file d_precision]. split; [eapply plain_holds; eauto|].
    assert (SM : N.of_nat (length (concat parts)) < 2 ^ 32) by (rewrite (proj1 PS); exact XL).
    destruct (materialize_chosen dbg neg tie _ _ _ _ _ _ precision parts None None 0 (concat parts) EX (ST precision) SM (scope_all parts) None) as (ys & CH & E). rewrite E.
    split; [now rewrite (choose_none _ _ _ CH)|]. split; [exact (ST precision)|symmetry; exact EE].
  Qed.

  Lemma sprintz_opens capacity : c = CDeltaSprintz capacity scale ->
    exists d s parts vss, open_column P c xs = Ok d /\ column_statistics P d = Ok s /\ good_file d parts vss.
  Proof using All.
    intros CE. assert (Q : Forall (fun x => (Z.abs (quantize scale x) < 2 ^ 62)%Z /\ alike x (grid_value scale (quantize scale x))) xs).
    { eapply Forall_impl; [|exact XK]. intros x [H|[_ ->]].
      - rewrite CE in H. destruct H as (_ & B & E). split; [exact B|]. left. symmetry. exact E.
      - rewrite quantize_minus_zero. split; [reflexivity|]. right. split; [vm_compute; reflexivity|]. unfold grid_value. change (of_Z 0) with (S754_zero false).
        assert (Z0 : of_Z (Z.of_N scale) <> S754_zero false /\ of_Z (Z.of_N scale) <> S754_zero true /\ exists z, fdiv (S754_zero false) (of_Z (Z.of_N scale)) = S754_zero z).
        { destruct (of_Z_real (Z.of_N scale)) as (R & F & C). { rewrite Z.abs_eq by lia. apply Z.le_trans with (2 ^ 32)%Z; [change (2 ^ 32)%Z with 4294967296%Z; change (2 ^ 32) with 4294967296 in SB; lia|]. apply Z.pow_le_mono_r; lia. }
          assert (RN : real (of_Z (Z.of_N scale)) <> 0%R).
          { rewrite (of_Z_exact (Z.of_N scale)). { apply not_0_IZR. lia. } change (2 ^ 53)%Z with 9007199254740992%Z. change (2 ^ 32) with 4294967296 in SB. lia. }
          destruct (of_Z (Z.of_N scale)) as [b|b| |b p e]; cbn [finite] in F; try contradiction. split; [discriminate|]. split; [discriminate|]. eexists. reflexivity. }
        destruct Z0 as (_ & _ & z & ->). destruct z; vm_compute; reflexivity. }
    assert (STEPS : steps_fit scale xs).
    { intros before x y after p q E SP SQ. rewrite Forall_forall in Q, XU. assert (Ix : In x xs /\ In y xs) by (rewrite E; split; apply in_or_app; right; [left|right; left]; reflexivity).
      pose proof (proj1 (stored_quantize scale x p (XU x (proj1 Ix))) SP) as Ep. pose proof (proj1 (stored_quantize scale y q (XU y (proj2 Ix))) SQ) as Eq.
      pose proof (proj1 (Q x (proj1 Ix))) as Bx. pose proof (proj1 (Q y (proj2 Ix))) as By. rewrite Ep in Bx. rewrite Eq in By.
      change (2 ^ 62)%Z with 4611686018427387904%Z in *. change (2 ^ 63)%Z with 9223372036854775808%Z. lia. }
    destruct delivered_all as (R & D & T & TB). pose proof valid as VR.
    assert (SE : sprintz_encodable dbg capacity scale default_chunk_option (p_timer P) (p_elapsed P) [Data (bytes_of xs)] xs).
    { split; [exact SB|]. split; [split; reflexivity|]. split; [exact R|]. split; [exists []; auto|]. split; [exact XU|]. split; [exact short|]. split; [rewrite <- CE; exact VR|]. intros _. exact STEPS. }
    destruct (sprintz_file dbg neg tie _ _ _ _ _ _ _ SE XN) as (ops & parts & PS & EN & W).
    assert (GD : forall parts, partition (records_per_chunk default_chunk_option) xs parts -> Forall (sprintz_good dbg scale) parts).
    { intros ps PP. pose proof (partition_Forall _ _ _ PP XU) as PU. rewrite Forall_forall in PU. destruct PP as (CC & _).
      apply Forall_forall. intros part I. apply steps_fit_good; [auto|]. intros _. pose proof STEPS as SF. rewrite <- CC in SF. now apply steps_fit_part with ps. }
    destruct (whole_file dbg (sprintz_codec dbg scale) default_chunk_option c (p_timer P) (p_elapsed P) _ _ _ [Data (bytes_of xs)] xs []
      (sprintz_ok dbg scale) (conj eq_refl eq_refl) R D T TB XU short GD VR XN) as (ops2 & parts2 & P2 & EN2 & W2).
    rewrite CE in EN2. rewrite EN in EN2. injection EN2 as <-.
    pose proof (memory ops) as LM. unfold open_column, encode_column in LM |- *. fold dbg in LM |- *. pose proof MEM as MM. unfold fits, encode_column in MM. fold dbg in MM.
    assert (EN' : encode dbg (codec_of P c) default_chunk_option c (p_timer P) (p_elapsed P) [Data (bytes_of xs)] = (ops, Ok tt)) by (rewrite CE; exact EN).
    rewrite EN' in LM, MM |- *. cbn [fst rbind] in LM, MM |- *. rewrite (LM eq_refl).
    destruct (W [] MM) as (m & vss & OP & ST). destruct (W2 [] MM) as (m2 & OP2 & MH & MF & _ & _ & _ & _ & TC). rewrite OP in OP2. injection OP2 as <-.
    rewrite OP. cbn [rbind]. rewrite MF. cbn [layout_footer f_config]. replace (executor_of P c) with (sprintz_executor dbg neg tie) by (rewrite CE; reflexivity).
    eexists. eexists. exists parts, vss. split; [reflexivity|]. split.
    { unfold column_statistics. cbn [d_meta]. fold dbg. rewrite TC, MF. cbn [layout_footer f_records]. rewrite (proj1 P2). unfold mul8. rewrite small_records. cbn [rbind]. reflexivity. }
    assert (AL : Forall2 (Forall2 alike) parts vss).
    { destruct (ST None) as (_ & _ & F & _). destruct PS as (CC & _). rewrite <- CC in Q, XU. clear - F Q XU. induction F as [|p v ps vs H F IH]; constructor.
      - cbn [concat] in Q, XU. apply Forall_app in Q as [Q _]. apply Forall_app in XU as [U _]. clear - H Q U. induction H as [|x y xs ys DE H IH]; constructor.
        + inversion Q as [|? ? [_ A] _]; subst. inversion U; subst. apply (decodes_eq scale x y) in DE; [|assumption]. rewrite DE. exact A.
        + inversion Q; inversion U; subst. now apply IH.
      - cbn [concat] in Q, XU. apply Forall_app in Q as [_ Q]. apply Forall_app in XU as [_ U]. now apply IH. }
    split; [exact PS|]. split; [exact AL|]. intros precision. cbn [with_precision d_ex d_meta d_file d_precision]. split; [eapply sprintz_holds, ST|].
    assert (SM : N.of_nat (length (concat vss)) < 2 ^ 32).
    { destruct PS as (CC & _). assert (LE : length (concat vss) = length xs); [|rewrite LE; exact XL]. rewrite <- CC. clear - AL.
      induction AL as [|p v ps vs H F IH]; [reflexivity|]. cbn [concat]. rewrite !app_length, IH. f_equal. clear - H. induction H; cbn; congruence. }
    destruct (c30_materialize dbg neg tie scale m (written [] ops) precision parts vss (ST precision) None SM None 0 (concat vss) (scope_all vss) (PEq 0)) as (ys & zs & CH & _ & E & _).
    { repeat constructor. }
    rewrite E. split; [now rewrite (choose_none _ _ _ CH)|]. split; [apply (ST precision)|rewrite CE; reflexivity].
  Qed.

  Theorem column_opens : exists d s parts vss, open_column P c xs = Ok d /\ column_statistics P d = Ok s /\ good_file d parts vss.
  Proof using All.
    destruct (scheme_executor dbg neg tie (p_log10 P) (p_lib P) c) as [ex|] eqn:EX; [exact (plain_opens ex EX)|].
    apply (sprintz_opens default_capacity). exact (configs_sprintz scale c CI NB _ _ _ _ _ EX).
  Qed.
End Column.
