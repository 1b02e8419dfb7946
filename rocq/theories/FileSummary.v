From Verif Require Import Base WordProofs BitIO Xor XorSpec XorProofs XorSummary Gorilla Chimp ChimpN F64 ElfXor Elf ElfSpec
  ElfProofs ElfSummary RawSpec Rle Uncompressed Format FormatSpec FormatProofs FormatSummary
  Query Sprintz SprintzProofs File FileSpec FileProofs ByteCodec Alp Codecs CodecSpec CodecProofs.

(** ** Every modelled scheme is a usable codec *)
Definition packed_of (lib : (list N -> res derr (list N)) * (list N -> res derr (list N))) (bs : list N) : list N :=
  match fst lib bs with Ok p => p | _ => [] end.
Lemma faithful_packed lib : faithful lib ->
  (forall b, fst lib b = Ok (packed_of lib b)) /\ (forall b, snd lib (packed_of lib b) = Ok b).
Proof.
  intros F. split; intros b; destruct (F b) as (p&E&D); unfold packed_of; rewrite E; auto.
Qed.

Lemma scheme_codec_ok dbg log10 lib c cd : faithful_libraries lib -> scheme_codec dbg log10 lib c = Some cd ->
  exists image, codec_ok cd (Forall (storable log10 c)) image (fun xs => xs).
Proof.
  intros FL E.
  assert (XN : forall xs, Forall (fun x => x <> nan_bits) xs -> before_nan xs = xs).
  { intros xs F. apply before_nan_id. intros I. rewrite Forall_forall in F. now apply (F nan_bits). }
  assert (EN : forall xs, Forall (fun x => is_nan (of_bits x) = false /\ recoverable log10 x) xs ->
    elf_good log10 xs /\ before_nan (map canon xs) = xs).
  { intros xs F. split.
    - eapply Forall_impl; [|exact F]. intros x [_ R]. right. exact R.
    - rewrite no_nan_before; [reflexivity|]. eapply Forall_impl; [|exact F]. now intros x [H _]. }
  destruct FL as [FL FA]. pose proof (fun c => proj1 (faithful_packed _ (FL c))) as ZP.
  pose proof (fun c => proj2 (faithful_packed _ (FL c))) as ZU.
  destruct c as [u|u|u|u|u|u|u|u|u k|u|u| | ]; try discriminate E; injection E as <-; unfold storable.
  - eexists. refine (codec_ok_weaken _ _ _ _ _ _ uncompressed_ok _ _); auto.
  - eexists. refine (codec_ok_weaken _ _ _ _ _ _ rle_ok _ _); auto.
  - eexists. refine (codec_ok_weaken _ _ _ _ _ _ gorilla_ok _ _); auto.
  - eexists. refine (codec_ok_weaken _ _ _ _ _ _ chimp_ok _ _); auto.
  - eexists. refine (codec_ok_weaken _ _ _ _ _ _ chimp128_ok _ _); auto.
  - eexists. refine (codec_ok_weaken _ _ _ _ _ _ (elf_on_chimp_ok log10) _ _); apply EN.
  - eexists. refine (codec_ok_weaken _ _ _ _ _ _ (elf_ok log10) _ _); apply EN.
  - eexists. refine (codec_ok_weaken _ _ _ _ _ _ (sprintz_ok dbg k) _ _).
    + intros xs F. unfold sprintz_good. destruct xs as [|x xs]; [exact I|]. apply sprintz_small_steps.
      * cbn [map hd]. inversion_clear F. tauto.
      * eapply Forall_impl; [|exact F]. cbn beta. tauto.
    + intros xs F. unfold sprintz_view. induction F as [|x xs (L & _ & R) F IH]; [reflexivity|].
      cbn [map]. rewrite IH, N.mod_small by exact L. now rewrite R.
  - eexists. refine (codec_ok_weaken _ _ _ _ _ _ (zstd_ok _ _ _ (ZP (CZstd u)) (ZU (CZstd u))) _ _); auto.
  - eexists. refine (codec_ok_weaken _ _ _ _ _ _ (gz_ok _ _ _ (ZP (CGzip u)) (ZU (CGzip u)) dbg) _ _); auto.
  - eexists. refine (codec_ok_weaken _ _ _ _ _ _ (gz_ok _ _ _ (ZP CSnappy) (ZU CSnappy) dbg) _ _); auto.
  - eexists. refine (codec_ok_weaken _ _ _ _ _ _ (alp_ok _ _ dbg FA) _ _); auto.
Qed.

(** ** Whole files *)
Lemma partition_nonempty limit xs parts : partition limit xs parts -> xs <> [] -> parts <> [].
Proof. intros (C&_) NE ->. now apply NE. Qed.

Lemma partition_Forall {P : N -> Prop} limit xs parts : partition limit xs parts -> Forall P xs -> Forall (Forall P) parts.
Proof.
  intros (C&_) F. apply Forall_forall. intros p I. apply Forall_forall. intros x Ix.
  rewrite Forall_forall in F. apply F. rewrite <- C. apply in_concat. eauto.
Qed.

Section Whole.
  Variables (dbg : bool) (cd : codec) (o : chunk_option) (c : config) (timer : times) (elapsed : N).
  Variables (good : list N -> Prop) (image view : list N -> list N).
  Variables (input : list event) (xs tail : list N).
  Hypothesis OK : codec_ok cd good image view.
  Hypothesis US : usable o.
  Hypothesis RD : readable o input.
  Hypothesis DL : delivered input = bytes_of xs ++ tail.
  Hypothesis TL : (length tail < 8)%nat.
  Hypothesis TB : Forall is_byte tail.
  Hypothesis XU : Forall is_u64 xs.
  Hypothesis XL : N.of_nat (length xs) < 2 ^ 60.
  Hypothesis GD : forall parts, partition (records_per_chunk o) xs parts -> Forall good parts.
  Hypothesis VR : valid_run c o timer elapsed.

  Lemma delivered_bytes : Forall is_byte (delivered input) /\ records_of (delivered input) = xs.
  Proof using All.
    rewrite DL. split; [|now apply records_of_bytes].
    apply Forall_app. split; [|assumption]. unfold bytes_of. clear. induction xs as [|x l IH]; cbn [flat_map]; [constructor|].
    apply Forall_app. split; [apply le_bytes_byte|assumption].
  Qed.

  Lemma encode_whole : exists parts ops, partition (records_per_chunk o) xs parts /\
    encode dbg cd o c timer elapsed input = (ops, Ok tt) /\
    forall old, written old ops =
      layout image c o timer elapsed parts ++ skipn (length (layout image c o timer elapsed parts)) old.
  Proof using All.
    destruct delivered_bytes as [B R]. now apply (encode_file dbg cd o c timer elapsed good image view).
  Qed.

  Lemma whole_file : xs <> [] -> exists ops parts, partition (records_per_chunk o) xs parts /\
    encode dbg cd o c timer elapsed input = (ops, Ok tt) /\
    forall old, let file := written old ops in
      N.of_nat (length file) < 2 ^ 63 ->
      exists m, open_file dbg file = Ok m /\
        m_header m = layout_header image c o parts /\ m_footer m = layout_footer image c timer elapsed parts /\
        contiguous dbg m /\
        (forall i part, nth_error parts i = Some part ->
           chunk_records dbg m i = Ok (N.of_nat (length part)) /\
           chunk_size dbg m i = Ok (N.of_nat (length (image part))) /\
           read_chunk dbg cd m file i = Ok (view part)) /\
        (length old <= length file)%nat /\
        ((length old <= length (layout image c o timer elapsed parts))%nat -> total_file_size m = N.of_nat (length file)) /\
        total_chunk_size dbg m = Ok (N.of_nat (length (concat (map image parts)))).
  Proof using All.
    intros NE. destruct encode_whole as (parts&ops&P&EN&W). exists ops, parts. split; [assumption|]. split; [assumption|].
    intros old file FL. subst file. rewrite W in *. set (rest := skipn _ old) in *.
    destruct VR as (VC&VO&VT&VE).
    pose proof (partition_nonempty _ _ _ P NE) as NP.
    assert (SZ : N.of_nat (length (layout image c o timer elapsed parts)) < 2 ^ 63) by (rewrite app_length in FL; lia).
    assert (RC : N.of_nat (length (concat parts)) < 2 ^ 60) by (rewrite (proj1 P); assumption).
    pose proof (layout_open image c o timer elapsed parts VC VO VT VE NP SZ RC dbg rest) as OP.
    pose proof (layout_chunk image c o timer elapsed parts VC VO VT VE NP SZ RC) as LC.
    eexists. split; [exact OP|]. split; [reflexivity|]. split; [reflexivity|].
    assert (NL : forall i f, nth_error (f_index (layout_footer image c timer elapsed parts)) i = Some f ->
      exists part, nth_error parts i = Some part).
    { intros i f E. destruct (nth_error parts i) as [p|] eqn:EP; [eauto|]. exfalso.
      apply nth_error_None in EP. cbn [layout_footer f_index] in E.
      assert (i < length (index_of image 30 0 parts))%nat by (apply nth_error_Some; congruence).
      rewrite index_of_length in *. lia. }
    split; [split|split; [|split; [|split]]].
    - intros f E. cbn [m_footer layout_footer f_index] in E. destruct parts as [|p ps]; [contradiction|].
      cbn [index_of nth_error] in E. now injection E as <-.
    - intros i f E. cbn [m_footer] in E. destruct (NL i f E) as [part EP].
      destruct (LC i part EP) as (I&NX&NLg&CS&CR). rewrite I in E. injection E as <-.
      exists (N.of_nat (length (image part))), (N.of_nat (length part)).
      split; [apply CS|]. split; [apply CR|]. cbn [cf_physical cf_logical].
      assert (part <> []).
      { destruct P as (_&NEs&_). rewrite Forall_forall in NEs. apply NEs. eapply nth_error_In; eauto. }
      split; [destruct part; [contradiction|cbn [length]; lia]|].
      unfold next_physical, next_logical in NX, NLg. cbn [m_footer m_header] in *.
      rewrite NX, NLg, (firstn_snoc parts i part EP), map_app, !concat_app, !app_length. cbn [map concat].
      rewrite !app_nil_r. split; lia.
    - intros i part EP. destruct (LC i part EP) as (_&_&_&CS&CR).
      split; [apply CR|]. split; [apply CS|].
      assert (IP : In part parts) by (eapply nth_error_In; eauto).
      apply (layout_read image c o timer elapsed parts VC VO VT VE NP SZ RC dbg cd good view i part rest); auto.
      + destruct P as (_&NEs&_). rewrite Forall_forall in NEs. now apply NEs.
      + pose proof (partition_Forall _ _ _ P XU) as FU. rewrite Forall_forall in FU. now apply FU.
      + pose proof (GD _ P) as FG. rewrite Forall_forall in FG. now apply FG.
    - unfold rest. rewrite app_length, skipn_length. lia.
    - intros LO. unfold rest. rewrite skipn_all2 by assumption. rewrite app_nil_r.
      apply (layout_totals image c o timer elapsed parts VC VO VT VE NP SZ RC dbg).
    - apply (layout_totals image c o timer elapsed parts VC VO VT VE NP SZ RC dbg).
  Qed.

  Lemma whole_empty : xs = [] -> exists ops, encode dbg cd o c timer elapsed input = (ops, Ok tt) /\
    forall old, open_file dbg (written old ops) = Panic.
  Proof using All.
    intros E. destruct encode_whole as (parts&ops&P&EN&W). exists ops. split; [assumption|].
    intros old. rewrite W. destruct VR as (VC&VO&VT&VE).
    assert (parts = []) as ->.
    { destruct P as (C&NEs&_). rewrite E in C. destruct parts as [|p ps]; [reflexivity|].
      cbn [concat] in C. apply app_eq_nil in C. inversion NEs; subst. tauto. }
    now apply layout_empty_panics.
  Qed.
End Whole.

(** ** The schedule of the reads does not matter *)
Lemma read_to_end_steady i1 i2 : patient i1 -> patient i2 -> delivered i1 = delivered i2 ->
  read_to_end [] i1 = read_to_end [] i2.
Proof. intros P1 P2 E. now rewrite !read_to_end_patient, E. Qed.

Lemma read_chunk_input_schedule dbg o i1 i2 : readable o i1 -> readable o i2 -> delivered i1 = delivered i2 ->
  (exists xs r1 r2, read_chunk_input dbg o i1 = Ok (xs, r1) /\ read_chunk_input dbg o i2 = Ok (xs, r2) /\
     readable o r1 /\ readable o r2 /\ delivered r1 = delivered r2) \/
  (read_chunk_input dbg o i1 = Panic /\ read_chunk_input dbg o i2 = Panic).
Proof.
  intros R1 R2 E.
  assert (SL : forall n, steady i1 -> steady i2 ->
    (exists xs r1 r2, read_less_or_equal n i1 = Ok (xs, r1) /\ read_less_or_equal n i2 = Ok (xs, r2) /\
       steady r1 /\ steady r2 /\ delivered r1 = delivered r2) \/
    (read_less_or_equal n i1 = Panic /\ read_less_or_equal n i2 = Panic)).
  { intros n S1 S2. unfold read_less_or_equal. destruct (isize_limit <=? _); [auto|]. left.
    destruct (read_loop_steady i1 S1 n []) as (r1&E1&T1&D1). destruct (read_loop_steady i2 S2 n []) as (r2&E2&T2&D2).
    rewrite E1, E2. cbn [rbind]. rewrite E. eexists _, r1, r2. split; [reflexivity|]. split; [reflexivity|].
    split; [assumption|]. split; [assumption|]. now rewrite D1, D2, E. }
  destruct o as [|n|n]; cbn [readable] in *; unfold read_chunk_input.
  - left. rewrite !read_to_end_patient by assumption. cbn [rbind app]. rewrite E.
    eexists _, [], []. split; [reflexivity|]. split; [reflexivity|]. split; [constructor|]. split; [constructor|reflexivity].
  - destruct (mul8 dbg n) as [k|e|] eqn:M; cbn [rbind]; [now apply SL| |auto].
    unfold mul8 in M. destruct (_ <=? _); [destruct dbg|]; discriminate M.
  - destruct (mul8 dbg (best_effort_records n)) as [k|e|] eqn:M; cbn [rbind]; [now apply SL| |auto].
    unfold mul8 in M. destruct (_ <=? _); [destruct dbg|]; discriminate M.
Qed.

Section Schedule.
  Variables (dbg : bool) (cd : codec) (o : chunk_option) (c : config) (timer : times) (elapsed : N).

  Definition same_but_input (w1 w2 : fwriter) : Prop :=
    readable o (fw_input w1) /\ readable o (fw_input w2) /\ delivered (fw_input w1) = delivered (fw_input w2) /\
    fw_total_in w1 = fw_total_in w2 /\ fw_total_out w1 = fw_total_out w2 /\ fw_footers w1 = fw_footers w2 /\ fw_eof w1 = fw_eof w2.

  Lemma chunk_write_schedule s w1 w2 : same_but_input w1 w2 ->
    match chunk_write dbg cd o s w1, chunk_write dbg cd o s w2 with
    | Ok (b1, s1, w1'), Ok (b2, s2, w2') => b1 = b2 /\ s1 = s2 /\ same_but_input w1' w2'
    | Err e1, Err e2 => e1 = e2
    | Panic, Panic => True
    | _, _ => False
    end.
  Proof using.
    intros (R1&R2&D&TI&TO&FO&EO). unfold chunk_write.
    destruct (read_chunk_input_schedule dbg o _ _ R1 R2 D) as [(xs&r1&r2&E1&E2&Q1&Q2&DR)|[E1 E2]]; rewrite E1, E2; cbn [rbind]; [|exact I].
    destruct xs as [|x xs].
    { repeat split; auto. }
    destruct (cd_compress cd s (x :: xs)) as [s1|e|]; cbn [rbind]; [|reflexivity|exact I].
    destruct (cd_total_in cd s1 =? 0); [repeat split; auto|].
    rewrite TO, FO, TI. split; [reflexivity|]. split; [reflexivity|].
    split; [exact Q1|]. split; [exact Q2|]. split; [exact DR|]. repeat split.
  Qed.

  Lemma encode_loop_schedule fuel : forall s w1 w2, same_but_input w1 w2 ->
    fst (encode_loop dbg cd o fuel s w1) = fst (encode_loop dbg cd o fuel s w2) /\
    match snd (encode_loop dbg cd o fuel s w1), snd (encode_loop dbg cd o fuel s w2) with
    | Ok w1', Ok w2' => same_but_input w1' w2'
    | Err e1, Err e2 => e1 = e2
    | Panic, Panic => True
    | _, _ => False
    end.
  Proof using.
    induction fuel as [|fuel IH]; intros s w1 w2 R; pose proof R as (_&_&_&_&_&_&EO); cbn [encode_loop]; rewrite <- EO.
    - destruct (fw_eof w1); cbn [fst snd]; auto.
    - destruct (fw_eof w1); cbn [fst snd]; [auto|].
      pose proof (chunk_write_schedule (cd_reset cd s) w1 w2 R) as CW.
      destruct (chunk_write dbg cd o (cd_reset cd s) w1) as [[[b1 s1] w1']|e1|], (chunk_write dbg cd o (cd_reset cd s) w2) as [[[b2 s2] w2']|e2|];
        try contradiction; cbn [fst snd]; [|split; [reflexivity|assumption]|auto].
      destruct CW as (<-&<-&R'). specialize (IH s1 w1' w2' R').
      destruct (encode_loop dbg cd o fuel s1 w1') as [os1 q1], (encode_loop dbg cd o fuel s1 w2') as [os2 q2].
      cbn [fst snd] in *. destruct IH as [-> IH]. auto.
  Qed.

  Lemma encode_schedule i1 i2 : readable o i1 -> readable o i2 -> delivered i1 = delivered i2 ->
    encode dbg cd o c timer elapsed i1 = encode dbg cd o c timer elapsed i2.
  Proof using.
    intros R1 R2 D. unfold encode.
    assert (R : same_but_input (fw_new i1) (fw_new i2)) by (repeat split; assumption).
    rewrite !input_size_length, D.
    destruct (encode_loop_schedule (S (S (length (delivered i2)))) (cd_new cd) _ _ R) as [F Q].
    destruct (encode_loop dbg cd o _ _ (fw_new i1)) as [os1 q1], (encode_loop dbg cd o _ _ (fw_new i2)) as [os2 q2].
    cbn [fst snd] in *. subst os2.
    destruct q1 as [w1|e1|], q2 as [w2|e2|]; try contradiction; [|now subst|reflexivity].
    destruct Q as (_&_&_&_&TO&FO&_). unfold fw_footer, fw_elapsed_slot, fw_footer_offset. now rewrite TO, FO.
  Qed.
End Schedule.

(** ** A chunk limit of zero *)
Lemma read_loop_zero input got : read_loop 0 got input = Ok (got, input).
Proof. destruct input; reflexivity. Qed.

Lemma zero_limit dbg cd o c timer elapsed input :
  (exists k, records_per_chunk o = Some k /\ mul8 dbg k = Ok 0) ->
  valid_run c o timer elapsed ->
  exists ops, encode dbg cd o c timer elapsed input = (ops, Ok tt) /\
    forall old, open_file dbg (written old ops) = Panic.
Proof.
  intros (k&Z&M) (VC&VO&VT&VE).
  assert (RC : read_chunk_input dbg o input = Ok ([], input)).
  { assert (RL : read_less_or_equal 0 input = Ok ([], input)).
    { unfold read_less_or_equal. change (isize_limit <=? _) with false. cbv iota. rewrite read_loop_zero. reflexivity. }
    destruct o as [|n|n]; unfold records_per_chunk in Z; [discriminate|..]; injection Z as Z; unfold read_chunk_input; rewrite Z, M;
      cbn [rbind]; exact RL. }
  set (w := mkFw input 0 0 [mkCf 30 0] true).
  assert (EN : encode dbg cd o c timer elapsed input =
    (WWrite (write_header c o) :: (map (fun p => WWrite ((fun x : list N => x) p)) [] ++ [WWrite []]) ++
     [WWrite (footer_bytes (fw_footer w c timer)); WSeek 16; WWrite (le_bytes 8 (fw_footer_offset w));
      WSeek (fw_elapsed_slot w c); WWrite (le_bytes 16 elapsed)], Ok tt)).
  { unfold encode, fw_new. cbn [encode_loop fw_eof]. unfold chunk_write. cbn [fw_input]. rewrite RC. reflexivity. }
  eexists. split; [exact EN|]. intros old.
  assert (A : fw_at (fun x => x) w []) by (split; [reflexivity|split; reflexivity]).
  destruct (written_layout (fun x => x) c o timer elapsed w [] old A) as (_&_&W).
  unfold written in *. rewrite app_comm_cons in W |- *.
  match goal with |- context [out_run _ ?l] => match type of W with context [out_run _ ?l'] => replace l with l' by reflexivity end end.
  rewrite W. now apply layout_empty_panics.
Qed.

(** ** Crashes *)
Lemma cut_app a b x : cut (a ++ b) x -> cut a x \/ exists y, x = a ++ y /\ cut b y.
Proof.
  revert x. induction a as [|op a IH]; intros x C; cbn [app] in C.
  - right. exists x. split; [reflexivity|assumption].
  - inversion C; subst.
    + left. constructor.
    + left. constructor.
    + destruct (IH _ H2) as [L|(y&->&R)]; [left; now constructor|right; exists y; split; [reflexivity|assumption]].
Qed.

Lemma cut_writes bss x : cut (map WWrite bss) x -> exists ys k, x = map WWrite ys /\ concat ys = firstn k (concat bss).
Proof.
  revert x. induction bss as [|bs bss IH]; intros x C; cbn [map] in C; inversion C; subst.
  - exists [], O. split; reflexivity.
  - exists [], O. split; reflexivity.
  - exists [a], (length a). split; [reflexivity|]. cbn [concat].
    rewrite app_nil_r, <- app_assoc, firstn_app, firstn_all, Nat.sub_diag, firstn_O, app_nil_r. reflexivity.
  - destruct (IH _ H2) as (ys&k&->&E). exists (bs :: ys), (length bs + k)%nat. split; [reflexivity|].
    cbn [concat]. rewrite E, firstn_app_2. reflexivity.
Qed.

Lemma cut_write_inv bs os x : cut (WWrite bs :: os) x ->
  x = [] \/ (exists a b, bs = a ++ b /\ x = [WWrite a]) \/ exists y, x = WWrite bs :: y /\ cut os y.
Proof. intros C. inversion C; subst; eauto 6. Qed.
Lemma cut_seek_inv p os x : cut (WSeek p :: os) x -> x = [] \/ exists y, x = WSeek p :: y /\ cut os y.
Proof. intros C. inversion C; subst; eauto. Qed.
Lemma cut_nil_inv x : cut [] x -> x = [].
Proof. intros C. now inversion C. Qed.

(** The torn write of a little-endian number over zeros. *)
Lemma le_bytes_zero k : le_bytes k 0 = repeat 0 k.
Proof. induction k as [|k IH]; [reflexivity|]. cbn [le_bytes repeat]. change (0 mod 256) with 0. change (0 / 256) with 0. now rewrite IH. Qed.

Lemma torn_number k : forall v a b, le_bytes k v = a ++ b -> a ++ repeat 0 (length b) = le_bytes k (v mod 256 ^ N.of_nat (length a)).
Proof.
  induction k as [|k IH]; intros v a b E; cbn [le_bytes] in *.
  - destruct a; [|discriminate]. destruct b; [reflexivity|discriminate].
  - destruct a as [|y a].
    + cbn [app length] in *. rewrite <- E. cbn [length]. rewrite le_bytes_length.
      change (256 ^ N.of_nat 0) with 1. rewrite N.mod_1_r. change (0 mod 256) with 0. change (0 / 256) with 0.
      rewrite le_bytes_zero. reflexivity.
    + cbn [app length] in *. injection E as <- E. rewrite (IH _ _ _ E).
      rewrite Nat2N.inj_succ, N.pow_succ_r'. set (m := 256 ^ N.of_nat (length a)).
      assert (m <> 0) by (apply N.pow_nonzero; discriminate).
      rewrite N.mod_mul_r by (assumption || discriminate).
      set (t := (v / 256) mod m).
      assert (v mod 256 < 256) by (apply N.mod_lt; discriminate).
      f_equal.
      * apply (N.mod_unique _ _ t); lia.
      * f_equal. apply (N.div_unique _ _ t (v mod 256)); lia.
Qed.

Lemma out_seek_torn content p a n b bs1 bs2 v k :
  content = a ++ repeat 0 n ++ b -> n = k -> le_bytes k v = bs1 ++ bs2 -> N.to_nat p = length a ->
  forall q, fst (out_run (content, q) [WSeek p; WWrite bs1]) = a ++ le_bytes k (v mod 256 ^ N.of_nat (length bs1)) ++ b.
Proof.
  intros -> -> E P q.
  assert (LK : k = (length bs1 + length bs2)%nat) by (rewrite <- app_length, <- E, le_bytes_length; reflexivity).
  destruct bs1 as [|y bs0] eqn:EB.
  - cbn [out_run fold_left out_step fst]. cbn [length]. change (256 ^ N.of_nat 0) with 1. rewrite N.mod_1_r, le_bytes_zero. reflexivity.
  - rewrite <- EB in *. rewrite <- (torn_number k v bs1 bs2 E).
    rewrite LK, repeat_app, <- !app_assoc.
    apply (out_seek_write _ p a (repeat 0 (length bs1)) (repeat 0 (length bs2) ++ b)); try assumption; try reflexivity.
    + apply repeat_length.
    + rewrite EB. discriminate.
Qed.

Section Crash.
  Variables (image : list N -> list N) (c : config) (o : chunk_option) (timer : times) (elapsed : N).

  (** The contents while the footer offset is being filled in. *)
  Definition offset_torn parts off : list N :=
    header_bytes (mkHeader magic (config_scheme c) o off version) ++ layout_body image parts ++
    footer_bytes (layout_footer image c timer 0 parts).

  Lemma crash_states w parts x : fw_at image w parts ->
    cut (WWrite (write_header c o) :: (map (fun p => WWrite (image p)) parts ++ [WWrite []]) ++
        [WWrite (footer_bytes (fw_footer w c timer));
         WSeek 16; WWrite (le_bytes 8 (fw_footer_offset w));
         WSeek (fw_elapsed_slot w c); WWrite (le_bytes 16 elapsed)]) x ->
    (exists k, written [] x = firstn k (unpatched image c o timer parts)) \/
    (exists j, written [] x = offset_torn parts ((30 + N.of_nat (length (layout_body image parts))) mod 256 ^ j)) \/
    (exists e, e <= elapsed /\ written [] x = layout image c o timer e parts).
  Proof using.
    intros A C.
    destruct (fw_footer_layout image c timer w parts A) as (EF&EO&ES).
    set (bss := write_header c o :: (map image parts ++ [[]]) ++ [footer_bytes (layout_footer image c timer 0 parts)]).
    assert (CB : concat bss = unpatched image c o timer parts).
    { unfold bss. cbn [concat]. rewrite !concat_app. cbn [concat]. rewrite !app_nil_r. reflexivity. }
    rewrite EF, EO in C.
    assert (C' : cut (map WWrite bss ++ [WSeek 16; WWrite (le_bytes 8 (30 + N.of_nat (length (layout_body image parts))));
        WSeek (fw_elapsed_slot w c); WWrite (le_bytes 16 elapsed)]) x).
    { unfold bss. cbn [map app]. rewrite map_WWrite in C. rewrite !map_app. cbn [map]. rewrite <- !app_assoc in *. exact C. }
    clear C. rename C' into C.
    assert (RUN : forall ys, out_run ([], O) (map WWrite ys) = (concat ys, length (concat ys))).
    { intros ys. pose proof (out_run_writes ys [] []) as W. cbn [length app] in W. rewrite !skipn_nil, !app_nil_r in W. exact W. }
    unfold written.
    destruct (header_split c o 0) as (hp&hq&H0&Hall&Hl).
    destruct (footer_split image c timer 0 parts) as (fp&fq&F0&Fall&Fl).
    set (off := 30 + N.of_nat (length (layout_body image parts))) in *.
    destruct (cut_app _ _ _ C) as [L|(y&->&R)].
    { left. destruct (cut_writes _ _ L) as (ys&k&->&E). exists k. rewrite RUN. cbn [fst]. now rewrite E, CB. }
    rewrite out_run_app, RUN, CB. set (q := length (unpatched image c o timer parts)). clearbody q.
    assert (U0 : unpatched image c o timer parts = hp ++ repeat 0 8 ++ hq ++ layout_body image parts ++ footer_bytes (layout_footer image c timer 0 parts)).
    { unfold unpatched, write_header. rewrite H0. rewrite <- (le_bytes_zero 8). now rewrite <- !app_assoc. }
    assert (TORN : forall bs1 bs2, le_bytes 8 off = bs1 ++ bs2 ->
      fst (out_run (unpatched image c o timer parts, q) [WSeek 16; WWrite bs1]) = offset_torn parts (off mod 256 ^ N.of_nat (length bs1))).
    { intros bs1 bs2 E. rewrite (out_seek_torn _ 16 hp 8 _ bs1 bs2 off 8 U0 eq_refl E) by (rewrite Hl; reflexivity).
      unfold offset_torn. rewrite Hall. now rewrite <- !app_assoc. }
    assert (WHOLE : fst (out_run (unpatched image c o timer parts, q) [WSeek 16; WWrite (le_bytes 8 off)]) = layout image c o timer 0 parts).
    { unfold layout, layout_header. fold off. rewrite (out_seek_write _ 16 hp (repeat 0 8) _ (le_bytes 8 off) U0);
        [|now rewrite repeat_length, le_bytes_length|discriminate|rewrite Hl; reflexivity].
      rewrite (Hall off). now rewrite <- !app_assoc. }
    assert (SELF : exists k, unpatched image c o timer parts = firstn k (unpatched image c o timer parts)).
    { exists (length (unpatched image c o timer parts)). now rewrite firstn_all. }
    destruct (cut_seek_inv _ _ _ R) as [->|(y1&->&R1)]; [left; exact SELF|].
    destruct (cut_write_inv _ _ _ R1) as [->|[(a&b&E&->)|(y2&->&R2)]].
    { left. exact SELF. }
    { right. left. exists (N.of_nat (length a)). now apply (TORN a b). }
    change (WSeek 16 :: WWrite (le_bytes 8 off) :: y2) with ([WSeek 16; WWrite (le_bytes 8 off)] ++ y2).
    rewrite out_run_app.
    destruct (out_run (unpatched image c o timer parts, q) [WSeek 16; WWrite (le_bytes 8 off)]) as [ct q1]. cbn [fst] in WHOLE. subst ct.
    right. right.
    destruct (cut_seek_inv _ _ _ R2) as [->|(y3&->&R3)].
    { exists 0. split; [lia|reflexivity]. }
    set (hb := header_bytes (layout_header image c o parts)).
    assert (Hb : length hb = 30%nat) by (unfold hb; now apply header30).
    assert (LF : forall e, layout image c o timer e parts = (hb ++ layout_body image parts ++ fp) ++ le_bytes 16 e ++ fq).
    { intros e. unfold layout. fold hb. rewrite (Fall e). now rewrite <- !app_assoc. }
    assert (SLOT : N.to_nat (fw_elapsed_slot w c) = length (hb ++ layout_body image parts ++ fp)).
    { rewrite ES, !app_length, Hb. unfold off. lia. }
    destruct (cut_write_inv _ _ _ R3) as [->|[(a&b&E&->)|(y4&->&R4)]].
    { exists 0. split; [lia|reflexivity]. }
    { exists (elapsed mod 256 ^ N.of_nat (length a)). split; [apply N.mod_le; apply N.pow_nonzero; discriminate|].
      rewrite (LF (elapsed mod _)).
      apply (out_seek_torn _ _ _ 16 _ a b elapsed 16); try reflexivity; try assumption.
      rewrite (LF 0), le_bytes_zero. reflexivity. }
    rewrite (cut_nil_inv _ R4). exists elapsed. split; [lia|]. rewrite (LF elapsed).
    apply (out_seek_write _ _ _ (le_bytes 16 0)); [apply LF|now rewrite !le_bytes_length|discriminate|assumption].
  Qed.
End Crash.

(** Opening what a crash left. *)
Lemma open_short dbg file : (length file < 30)%nat -> open_file dbg file = Err EIO.
Proof.
  intros L. unfold open_file, fetch_header.
  destruct (read_n_cases 30 file) as [[_ E]|[H _]]; [rewrite E; reflexivity|lia].
Qed.

Lemma open_unpatched_full dbg c rest : open_file dbg (write_header c Full ++ rest) = Panic.
Proof.
  unfold write_header. set (h := mkHeader magic (config_scheme c) Full 0 version).
  assert (VH : valid_header h).
  { split; [reflexivity|]. split; [repeat constructor; vm_compute; reflexivity|]. split; [exact I|].
      split; [vm_compute; reflexivity|]. split; [reflexivity|repeat constructor; vm_compute; reflexivity]. }
  unfold open_file. fold h. rewrite header_round_trip by assumption. cbn [rbind].
  change (h_footer_offset h) with 0. change (drop_n 0 ?l) with l.
  set (a := magic ++ [0; scheme_code (config_scheme c); 0; 0] ++ le_bytes 8 0).
  set (b := le_bytes 8 0 ++ flat_map (le_bytes 2) version).
  replace (header_bytes h ++ rest) with (a ++ b ++ rest) by reflexivity.
  unfold fetch_footer. rewrite (read_n_app 16 a) by reflexivity. cbn [rbind].
  replace (le_val (skipn 8 a)) with 0 by reflexivity. change (16 * 0) with 0.
  replace (dbg && (two64 <=? 0)) with false by (destruct dbg; reflexivity). cbv iota.
  change (isize_limit <=? 0 mod two64) with false. cbv iota.
  change (0 mod two64) with 0.
  pose proof (read_n_app 0 [] (b ++ rest) eq_refl) as R0. cbn [app] in R0. rewrite R0. reflexivity.
Qed.

Lemma offset_slot_header c o off rest : off < two64 ->
  offset_slot (header_bytes (mkHeader magic (config_scheme c) o off version) ++ rest) = off.
Proof.
  intros L. destruct (header_split c o off) as (hp&hq&H0&_&Hl). rewrite H0. unfold offset_slot.
  rewrite <- !app_assoc. rewrite <- Hl, skipn_app, skipn_all, Nat.sub_diag, skipn_O. cbn [app].
  rewrite firstn_app, le_bytes_length, Nat.sub_diag, firstn_O, app_nil_r, firstn_all2 by (now rewrite le_bytes_length).
  now apply le_val_bytes.
Qed.

Lemma two64_bytes : two64 = 256 ^ 8.
Proof. vm_compute. reflexivity. Qed.
Lemma whole_slot off : off < two64 -> exists k, k <= 8 /\ off = off mod 256 ^ k.
Proof. rewrite two64_bytes. intros B. exists 8. split; [apply N.le_refl|]. symmetry. apply N.mod_small, B. Qed.
Lemma torn_slot off j : off < two64 -> exists k, k <= 8 /\ off mod 256 ^ j = off mod 256 ^ k.
Proof.
  intros B. destruct (N.le_gt_cases j 8) as [J|J]; [exists j; split; [exact J|reflexivity]|].
  destruct (whole_slot off B) as (k & K & E). exists k. split; [exact K|]. rewrite <- E. apply N.mod_small.
  apply N.lt_le_trans with (1 := B). rewrite two64_bytes. apply N.pow_le_mono_r; [discriminate|]. apply N.lt_le_incl, J.
Qed.

Section WholeCrash.
  Variables (dbg : bool) (cd : codec) (o : chunk_option) (c : config) (timer : times) (elapsed : N).
  Variables (good : list N -> Prop) (image view : list N -> list N).
  Variables (input : list event) (xs tail : list N).
  Hypothesis OK : codec_ok cd good image view.
  Hypothesis US : usable o.
  Hypothesis RD : readable o input.
  Hypothesis DL : delivered input = bytes_of xs ++ tail.
  Hypothesis TL : (length tail < 8)%nat.
  Hypothesis TB : Forall is_byte tail.
  Hypothesis XU : Forall is_u64 xs.
  Hypothesis XL : N.of_nat (length xs) < 2 ^ 60.
  Hypothesis GD : forall parts, partition (records_per_chunk o) xs parts -> Forall good parts.
  Hypothesis VR : valid_run c o timer elapsed.

  Lemma whole_crash : xs <> [] -> exists ops parts, partition (records_per_chunk o) xs parts /\
    encode dbg cd o c timer elapsed input = (ops, Ok tt) /\
    (N.of_nat (length (written [] ops)) < 2 ^ 63 -> forall x, cut ops x ->
      let file := written [] x in
      ((length file < 30)%nat -> open_file dbg file = Err EIO) /\
      (o = Full -> (30 <= length file)%nat -> offset_slot file = 0 -> open_file dbg file = Panic) /\
      ((30 <= length file)%nat -> exists j, j <= 8 /\ offset_slot file = offset_slot (written [] ops) mod 256 ^ j) /\
      ((30 <= length file)%nat -> offset_slot file = offset_slot (written [] ops) ->
       exists m, open_file dbg file = Ok m /\
         m_header m = layout_header image c o parts /\
         (exists e, e <= elapsed /\ m_footer m = layout_footer image c timer e parts) /\
         forall i part, nth_error parts i = Some part -> read_chunk dbg cd m file i = Ok (view part))).
  Proof using All.
    intros NE.
    destruct (delivered_bytes dbg cd o c timer elapsed good image view input xs tail OK US RD DL TL TB XU XL GD VR) as [B R].
    destruct (encode_layout dbg cd o c timer elapsed good image view input xs OK US RD B R XL GD) as (parts&w&P&A&EN).
    eexists _, parts. split; [assumption|]. split; [exact EN|]. intros FL x C. cbv zeta.
    pose proof VR as (VC&VO&VT&VE).
    assert (W : written [] (fst (encode dbg cd o c timer elapsed input)) = layout image c o timer elapsed parts).
    { rewrite EN. cbn [fst]. pose proof (written_layout image c o timer elapsed w parts [] A) as (_&_&W).
      rewrite skipn_nil, app_nil_r in W. rewrite <- W. f_equal. cbn [app]. f_equal. rewrite <- !app_assoc. reflexivity. }
    rewrite EN in W. cbn [fst] in W. rewrite W in *. clear W EN.
    pose proof (partition_nonempty _ _ _ P NE) as NP.
    assert (RC : N.of_nat (length (concat parts)) < 2 ^ 60) by (rewrite (proj1 P); assumption).
    destruct (layout_sizes image c o timer elapsed parts VC VO VT VE NP FL RC) as (H30&SZ&_&_).
    set (off := 30 + N.of_nat (length (layout_body image parts))).
    assert (OB : off < two64) by (unfold off, two64 in *; change (2 ^ 63) with 9223372036854775808 in *; lia).
    assert (O0 : off <> 0) by (unfold off; lia).
    assert (SL : forall e, offset_slot (layout image c o timer e parts) = off).
    { intros e. unfold layout, layout_header. now apply offset_slot_header. }
    assert (GOODL : forall e, e <= elapsed -> exists m, open_file dbg (layout image c o timer e parts) = Ok m /\
         m_header m = layout_header image c o parts /\
         (exists e, e <= elapsed /\ m_footer m = layout_footer image c timer e parts) /\
         forall i part, nth_error parts i = Some part -> read_chunk dbg cd m (layout image c o timer e parts) i = Ok (view part)).
    { intros e LE.
      assert (FL' : N.of_nat (length (layout image c o timer e parts)) < 2 ^ 63).
      { rewrite <- (unpatched_length image c o timer e), (unpatched_length image c o timer elapsed). assumption. }
      assert (VE' : e < 2 ^ 128) by lia.
      pose proof (layout_open image c o timer e parts VC VO VT VE' NP FL' RC dbg []) as OP. rewrite app_nil_r in OP.
      eexists. split; [exact OP|]. split; [reflexivity|]. split; [exists e; split; [assumption|reflexivity]|].
      intros i part EP. rewrite <- (app_nil_r (layout image c o timer e parts)).
      assert (IP : In part parts) by (eapply nth_error_In; eauto).
      apply (layout_read image c o timer e parts VC VO VT VE' NP FL' RC dbg cd good view i part []); auto.
      + destruct P as (_&NEs&_). rewrite Forall_forall in NEs. now apply NEs.
      + pose proof (partition_Forall _ _ _ P XU) as FU. rewrite Forall_forall in FU. now apply FU.
      + pose proof (GD _ P) as FG. rewrite Forall_forall in FG. now apply FG. }
    rewrite SL. split; [intros L; now apply open_short|].
    destruct (crash_states image c o timer elapsed w parts x A C) as [(k&E)|[(j&E)|(e&LE&E)]]; rewrite E.
    - set (rest := layout_body image parts ++ footer_bytes (layout_footer image c timer 0 parts)).
      assert (W30 : length (write_header c o) = 30%nat) by (unfold write_header; now apply header30).
      assert (SPLIT : (30 <= length (firstn k (unpatched image c o timer parts)))%nat ->
        firstn k (unpatched image c o timer parts) = write_header c o ++ firstn (k - 30) rest).
      { intros L. unfold unpatched. fold rest. rewrite firstn_length in L. rewrite firstn_app, W30.
        now rewrite (firstn_all2 (write_header c o)) by lia. }
      split; [|split].
      + intros -> L _. rewrite SPLIT by assumption. apply open_unpatched_full.
      + intros L. exists 0. split; [lia|]. rewrite SPLIT by assumption. unfold write_header.
        rewrite offset_slot_header by reflexivity. symmetry. exact (N.mod_1_r off).
      + intros L S0. exfalso. rewrite SPLIT in S0 by assumption. unfold write_header in S0.
        rewrite offset_slot_header in S0 by reflexivity. congruence.
    - assert (OM : off mod 256 ^ j < two64).
      { apply N.le_lt_trans with (2 := OB). apply N.mod_le. apply N.pow_nonzero. discriminate. }
      fold off. unfold offset_torn. rewrite offset_slot_header by assumption. split; [|split].
      + intros -> L ->. apply open_unpatched_full.
      + intros _. exact (torn_slot off j OB).
      + intros L ->. apply (GOODL 0). lia.
    - rewrite SL. split; [intros; congruence|]. split; [|intros _ _; now apply GOODL].
      intros _. exact (whole_slot off OB).
  Qed.
End WholeCrash.

(** ** Encoding always ends *)
Lemma isz_cons e input : input_size (e :: input) = (match e with Data bs => length bs | _ => 0 end + input_size input)%nat.
Proof. reflexivity. Qed.
Lemma read_loop_total input : forall want got,
  match read_loop want got input with
  | Ok (bs, rest) => exists more, bs = got ++ more /\ (length more + input_size rest <= input_size input)%nat /\
      (Forall is_byte (delivered input) -> Forall is_byte more /\ Forall is_byte (delivered rest))
  | Err e => e = EIO
  | Panic => False
  end.
Proof.
  induction input as [|e input IH]; intros want got; cbn [read_loop].
  - destruct (want =? 0); exists []; rewrite app_nil_r; (split; [reflexivity|split; [rewrite ?isz_cons; cbn [length]; lia|repeat constructor]]).
  - destruct (want =? 0).
    { exists []. rewrite app_nil_r. split; [reflexivity|]. split; [rewrite ?isz_cons; cbn [length]; lia|]. intros H; split; [constructor|exact H]. }
    destruct e as [bs| | |]; [|destruct got..|].
    + destruct (N.ltb_spec want (N.of_nat (length bs))).
      * exists (firstn (N.to_nat want) bs). split; [reflexivity|]. split.
        { rewrite !isz_cons, firstn_length, skipn_length. lia. }
        rewrite !delivered_cons, <- (firstn_skipn (N.to_nat want) bs) at 1.
        rewrite <- app_assoc. intros F. apply Forall_app in F. exact F.
      * destruct bs as [|b bs].
        { exists []. rewrite app_nil_r. split; [reflexivity|]. split; [rewrite ?isz_cons; cbn [length]; lia|]. intros F; split; [constructor|exact F]. }
        set (bs' := b :: bs) in *. clearbody bs'.
        specialize (IH (want - N.of_nat (length bs')) (got ++ bs')).
        destruct (read_loop _ (got ++ bs') input) as [[r rest]|e|]; [|assumption|assumption].
        destruct IH as (more&->&L&F). exists (bs' ++ more). rewrite app_assoc. split; [reflexivity|]. split.
        { rewrite isz_cons, app_length. lia. }
        rewrite delivered_cons. intros G. apply Forall_app in G as [G1 G2]. destruct (F G2). split; [|assumption].
        now apply Forall_app.
    + reflexivity.
    + exists []. rewrite app_nil_r. split; [reflexivity|]. split; [rewrite ?isz_cons; cbn [length]; lia|]. intros H; split; [constructor|exact H].
    + reflexivity.
    + exists []. rewrite app_nil_r. split; [reflexivity|]. split; [rewrite ?isz_cons; cbn [length]; lia|]. intros H; split; [constructor|exact H].
    + reflexivity.
Qed.

Lemma read_to_end_total input : forall got,
  match read_to_end got input with
  | Ok (bs, rest) => exists more, bs = got ++ more /\ (length more + input_size rest <= input_size input)%nat /\
      (Forall is_byte (delivered input) -> Forall is_byte more /\ Forall is_byte (delivered rest))
  | Err e => e = EIO
  | Panic => False
  end.
Proof.
  induction input as [|e input IH]; intros got; cbn [read_to_end].
  - exists []; rewrite app_nil_r; (split; [reflexivity|split; [rewrite ?isz_cons; cbn [length]; lia|repeat constructor]]).
  - destruct e as [[|b bs]| | |]; try reflexivity.
    + exists []. rewrite app_nil_r. split; [reflexivity|]. split; [rewrite ?isz_cons; cbn [length]; lia|]. intros F; split; [constructor|exact F].
    + set (bs' := b :: bs) in *. clearbody bs'. specialize (IH (got ++ bs')).
      destruct (read_to_end (got ++ bs') input) as [[r rest]|e|]; [|assumption|assumption].
      destruct IH as (more&->&L&F). exists (bs' ++ more). rewrite app_assoc. split; [reflexivity|]. split.
      { rewrite isz_cons, app_length. lia. }
      rewrite delivered_cons. intros G. apply Forall_app in G as [G1 G2]. destruct (F G2). split; [|assumption].
      now apply Forall_app.
    + specialize (IH got). destruct (read_to_end got input) as [[r rest]|e|]; [|assumption|assumption].
      destruct IH as (more&->&L&F). exists more. split; [reflexivity|]. split; [rewrite isz_cons; lia|exact F].
Qed.

Lemma read_chunk_input_total dbg o input : usable o -> Forall is_byte (delivered input) ->
  match read_chunk_input dbg o input with
  | Ok (xs, rest) => (8 * length xs + input_size rest <= input_size input)%nat /\ Forall is_u64 xs /\ Forall is_byte (delivered rest)
  | Err e => e = EIO
  | Panic => False
  end.
Proof.
  intros U F.
  assert (RB : forall bs, Forall is_byte bs -> Forall is_u64 (records_of bs)).
  { intros bs G. now destruct (records_bytes bs G) as (_&_&_&H). }
  assert (SL : forall k, 0 < k /\ 8 * k < 2 ^ 63 -> match (do n <- mul8 dbg k ; read_less_or_equal n input) with
    | Ok (xs, rest) => (8 * length xs + input_size rest <= input_size input)%nat /\ Forall is_u64 xs /\ Forall is_byte (delivered rest)
    | Err e => e = EIO
    | Panic => False
    end).
  { intros k [K0 K1]. change (2 ^ 63) with 9223372036854775808 in K1. unfold mul8. replace (two64 <=? 8 * k) with false by (unfold two64; lia).
    cbn [rbind]. unfold read_less_or_equal.
    assert (D : (8 * k + 7) / 8 = k) by (symmetry; apply (N.div_unique _ 8 k 7); lia).
    rewrite D. replace (isize_limit <=? 8 * k) with false by (unfold isize_limit; lia).
    pose proof (read_loop_total input (8 * k) []) as T.
    destruct (read_loop (8 * k) [] input) as [[bs rest]|e|]; cbn [rbind]; [|assumption|assumption].
    destruct T as (more&->&L&G). cbn [app]. destruct (G F) as [G1 G2].
    pose proof (records_of_length more). split; [lia|]. split; [now apply RB|assumption]. }
  unfold usable, records_per_chunk in U. destruct o as [|n|n]; unfold read_chunk_input; [|now apply SL..].
  pose proof (read_to_end_total input []) as T.
  destruct (read_to_end [] input) as [[bs rest]|e|]; cbn [rbind]; [|assumption|assumption].
  destruct T as (more&->&L&G). cbn [app]. destruct (G F) as [G1 G2].
  pose proof (records_of_length more). split; [lia|]. split; [now apply RB|assumption].
Qed.

Section Total.
  Variables (dbg : bool) (cd : codec) (o : chunk_option) (c : config) (timer : times) (elapsed : N).
  Hypothesis RUNS : forall s xs, xs <> [] -> Forall is_u64 xs -> N.of_nat (length xs) < 2 ^ 60 ->
    exists s', cd_compress cd (cd_reset cd s) xs = Ok s'.
  Hypothesis US : usable o.

  Lemma encode_loop_total fuel : forall s w, Forall is_byte (delivered (fw_input w)) ->
    (input_size (fw_input w) + (if fw_eof w then 0 else 1) < fuel)%nat ->
    N.of_nat (input_size (fw_input w)) < 2 ^ 63 ->
    match snd (encode_loop dbg cd o fuel s w) with Ok _ => True | Err e => e = EIO | Panic => False end.
  Proof using All.
    induction fuel as [|fuel IH]; intros s w F L B; cbn [encode_loop]; [lia|].
    destruct (fw_eof w) eqn:EO; [exact I|].
    pose proof (read_chunk_input_total dbg o (fw_input w) US F) as T. unfold chunk_write.
    destruct (read_chunk_input dbg o (fw_input w)) as [[xs rest]|e|]; cbn [rbind snd]; [|assumption|assumption].
    destruct T as (LT&UX&FR).
    assert (FIN : forall s' ti to fo, match snd (let '(os, r) := encode_loop dbg cd o fuel s' (mkFw rest ti to fo true) in (WWrite [] :: os, r)) with
      | Ok _ => True | Err e => e = EIO | Panic => False end).
    { intros s' ti to fo. specialize (IH s' (mkFw rest ti to fo true) FR).
      cbn [fw_input fw_eof] in IH. destruct (encode_loop dbg cd o fuel s' _) as [os r]. cbn [snd] in *. apply IH; lia. }
    destruct xs as [|x xs]; [apply FIN|]. set (p := x :: xs) in *.
    assert (NEp : p <> []) by discriminate.
    assert (LP : (1 <= length p)%nat) by (cbn; lia). clearbody p.
    change (2 ^ 63) with 9223372036854775808 in B.
    destruct (RUNS s p NEp UX) as (s'&C); [change (2 ^ 60) with 1152921504606846976; lia|].
    rewrite C. cbn [rbind]. destruct (cd_total_in cd s' =? 0); [apply FIN|].
    cbn [snd]. set (w' := mkFw rest _ _ _ false).
    specialize (IH (cd_prepare cd s') w' FR). destruct (encode_loop dbg cd o fuel (cd_prepare cd s') w') as [os r]. cbn [snd] in *.
    apply IH; cbn [w' fw_input fw_eof]; change (2 ^ 63) with 9223372036854775808; lia.
  Qed.

  Lemma encode_total input : Forall is_byte (delivered input) -> N.of_nat (length (delivered input)) < 2 ^ 63 ->
    snd (encode dbg cd o c timer elapsed input) = Ok tt \/ snd (encode dbg cd o c timer elapsed input) = Err EIO.
  Proof using All.
    intros F L. unfold encode. pose proof (encode_loop_total (S (S (input_size input))) (cd_new cd) (fw_new input) F) as T.
    cbn [fw_new fw_input fw_eof] in T. rewrite <- input_size_length in L. specialize (T ltac:(lia) L). fold (fw_new input) in T.
    destruct (encode_loop dbg cd o _ _ _) as [os [w|e|]]; cbn [snd] in *; [left; reflexivity|right; now subst|contradiction].
  Qed.
End Total.

(** ** In terms of schemes *)
Lemma scheme_codec_runs dbg log10 lib c cd : faithful_libraries lib -> scheme_codec dbg log10 lib c = Some cd ->
  dbg = false \/ config_scheme c <> SDeltaSprintz ->
  forall s xs, xs <> [] -> Forall is_u64 xs -> N.of_nat (length xs) < 2 ^ 60 ->
  exists s', cd_compress cd (cd_reset cd s) xs = Ok s'.
Proof.
  intros FL E DB s xs NE U L.
  assert (EASY : forall cd' good image view, cd' = cd -> codec_ok cd' good image view -> good xs -> exists s', cd_compress cd (cd_reset cd s) xs = Ok s').
  { intros cd' good image view <- OK G. destruct (OK s xs NE U L G) as (s'&C&_). eauto. }
  destruct (scheme_codec_ok dbg log10 lib c cd FL E) as [image OK].
  destruct c; try (eapply EASY; [reflexivity|exact OK|apply Forall_forall; intros; exact I]).
  - eapply EASY; [|exact gorilla_ok|exact I]. now injection E.
  - eapply EASY; [|exact chimp_ok|exact I]. now injection E.
  - eapply EASY; [|exact chimp128_ok|exact I]. now injection E.
  - injection E as <-. eexists. reflexivity.
  - injection E as <-. eexists. reflexivity.
  - destruct DB as [->|DB]; [|now destruct DB]. eapply EASY; [|exact (sprintz_ok false scale)|].
    + now injection E.
    + unfold sprintz_good. generalize (hd 0%Z (map (quantize scale) xs)). induction (map (quantize scale) xs); cbn; auto.
Qed.

Lemma partition_unique limit xs : forall p1 p2, partition limit xs p1 -> partition limit xs p2 -> p1 = p2.
Proof.
  intros p1 p2 (C1&N1&L1) (C2&N2&L2). destruct limit as [k|].
  - revert xs p2 C1 L1 C2 N2 L2. induction N1 as [|a p1 Ha N1 IH]; intros xs p2 C1 L1 C2 N2 L2.
    + destruct p2 as [|b p2]; [reflexivity|]. rewrite <- C1 in C2. cbn [concat] in C2.
      apply app_eq_nil in C2. inversion N2; subst. tauto.
    + destruct p2 as [|b p2].
      { rewrite <- C2 in C1. cbn [concat] in C1. apply app_eq_nil in C1. tauto. }
      assert (EQ0 : a ++ concat p1 = b ++ concat p2) by (cbn [concat] in C1, C2; congruence).
      clear C1 C2. inversion N2 as [|? ? Hb N2']; subst.
      destruct (L1 O a eq_refl) as [La Fa]. destruct (L2 O b eq_refl) as [Lb Fb].
      cbn [length] in Fa, Fb.
      assert (LEN : length a = length b).
      { assert (T : length (b ++ concat p2) = length (a ++ concat p1)) by (now rewrite EQ0).
        rewrite !app_length in T.
        destruct p1 as [|a' p1]; destruct p2 as [|b' p2]; cbn [concat length] in *.
        - lia.
        - inversion N2' as [|? ? Hb' _]; subst. assert (length b' <> 0)%nat by (destruct b'; [contradiction|discriminate]).
          rewrite app_length in T. specialize (Fb ltac:(lia)). lia.
        - inversion N1 as [|? ? Ha' _]; subst. assert (length a' <> 0)%nat by (destruct a'; [contradiction|discriminate]).
          rewrite app_length in T. specialize (Fa ltac:(lia)). lia.
        - specialize (Fa ltac:(lia)). specialize (Fb ltac:(lia)). lia. }
      assert (AB : a = b /\ concat p1 = concat p2).
      { pose proof EQ0 as E. clear -E LEN. revert b LEN E.
        induction a as [|x a IHa]; intros [|y b] LEN E; try discriminate LEN; [auto|].
        cbn [app] in E. injection E as -> E. injection LEN as LEN. destruct (IHa b LEN E). subst. auto. }
      destruct AB as [-> EQ]. f_equal. apply (IH (concat p1) p2); auto.
      * intros i p E. destruct (L1 (S i) p E) as [H1 H2]. split; [assumption|]. intros H. apply H2. cbn [length]. lia.
      * intros i p E. destruct (L2 (S i) p E) as [H1 H2]. split; [assumption|]. intros H. apply H2. cbn [length]. lia.
  - destruct p1 as [|a [|? ?]], p2 as [|b [|? ?]]; cbn [length concat] in *; try lia; rewrite ?app_nil_r in *; subst; try reflexivity.
    + inversion N2; contradiction.
    + inversion N1; contradiction.
Qed.

Section Schemes.
  Variables (dbg : bool) (log10 : f64 -> f64) (lib : libraries) (c : config) (cd : codec) (o : chunk_option).
  Variables (timer : times) (elapsed : N) (input : list event) (xs : list N).
  Hypothesis SC : scheme_codec dbg log10 lib c = Some cd.
  Hypothesis EC : encodable log10 lib c o timer elapsed input xs.

  Lemma scheme_whole : xs <> [] -> exists image ops parts, partition (records_per_chunk o) xs parts /\
    encode dbg cd o c timer elapsed input = (ops, Ok tt) /\
    forall old, let file := written old ops in
      N.of_nat (length file) < 2 ^ 63 ->
      exists m, open_file dbg file = Ok m /\
        m_header m = layout_header image c o parts /\ m_footer m = layout_footer image c timer elapsed parts /\
        contiguous dbg m /\
        (forall i part, nth_error parts i = Some part ->
           chunk_records dbg m i = Ok (N.of_nat (length part)) /\
           chunk_size dbg m i = Ok (N.of_nat (length (image part))) /\
           read_chunk dbg cd m file i = Ok part) /\
        (length old <= length file)%nat /\
        ((length old <= length (layout image c o timer elapsed parts))%nat -> total_file_size m = N.of_nat (length file)) /\
        total_chunk_size dbg m = Ok (N.of_nat (length (concat (map image parts)))).
  Proof using All.
    destruct EC as (FL&US&RD&(tail&DL&TL&TB)&XU&XL&ST&VR).
    destruct (scheme_codec_ok dbg log10 lib c cd FL SC) as [image OK]. exists image.
    apply (whole_file dbg cd o c timer elapsed (Forall (storable log10 c)) image (fun x => x) input xs tail); auto.
    intros parts P. now apply (partition_Forall _ _ _ P).
  Qed.

  Lemma scheme_empty : xs = [] -> exists ops, encode dbg cd o c timer elapsed input = (ops, Ok tt) /\
    forall old, open_file dbg (written old ops) = Panic.
  Proof using All.
    destruct EC as (FL&US&RD&(tail&DL&TL&TB)&XU&XL&ST&VR).
    destruct (scheme_codec_ok dbg log10 lib c cd FL SC) as [image OK].
    apply (whole_empty dbg cd o c timer elapsed (Forall (storable log10 c)) image (fun x => x) input xs tail); auto.
    intros parts P. now apply (partition_Forall _ _ _ P).
  Qed.

  Lemma scheme_crash : xs <> [] -> exists ops parts, partition (records_per_chunk o) xs parts /\
    encode dbg cd o c timer elapsed input = (ops, Ok tt) /\
    (N.of_nat (length (written [] ops)) < 2 ^ 63 -> forall x, cut ops x ->
      let file := written [] x in
      ((length file < 30)%nat -> open_file dbg file = Err EIO) /\
      (o = Full -> (30 <= length file)%nat -> offset_slot file = 0 -> open_file dbg file = Panic) /\
      ((30 <= length file)%nat -> exists j, j <= 8 /\ offset_slot file = offset_slot (written [] ops) mod 256 ^ j) /\
      ((30 <= length file)%nat -> offset_slot file = offset_slot (written [] ops) ->
       exists m, open_file dbg file = Ok m /\ f_records (m_footer m) = N.of_nat (length xs) /\
         f_chunks (m_footer m) = N.of_nat (length parts) /\
         forall i part, nth_error parts i = Some part -> read_chunk dbg cd m file i = Ok part)).
  Proof using All.
    intros NE. destruct EC as (FL&US&RD&(tail&DL&TL&TB)&XU&XL&ST&VR).
    destruct (scheme_codec_ok dbg log10 lib c cd FL SC) as [image OK].
    destruct (whole_crash dbg cd o c timer elapsed (Forall (storable log10 c)) image (fun x => x) input xs tail) as (ops&parts&P&EN&K); auto.
    { intros parts P. now apply (partition_Forall _ _ _ P). }
    exists ops, parts. split; [assumption|]. split; [assumption|]. intros L x C file.
    destruct (K L x C) as (K1&K2&KT&K3). split; [exact K1|]. split; [exact K2|]. split; [exact KT|]. intros L30 SL.
    destruct (K3 L30 SL) as (m&O&_&(e&_&F)&RDs). exists m. split; [assumption|]. rewrite F.
    cbn [layout_footer f_records f_chunks]. rewrite (proj1 P). auto.
  Qed.
End Schemes.

Lemma scheme_tail dbg log10 lib c cd o timer elapsed i1 i2 xs :
  scheme_codec dbg log10 lib c = Some cd ->
  encodable log10 lib c o timer elapsed i1 xs -> encodable log10 lib c o timer elapsed i2 xs ->
  exists ops1 ops2, encode dbg cd o c timer elapsed i1 = (ops1, Ok tt) /\ encode dbg cd o c timer elapsed i2 = (ops2, Ok tt) /\
    forall old, written old ops1 = written old ops2.
Proof.
  intros SC (FL&US&RD1&(t1&DL1&TL1&TB1)&XU&XL&ST&VR) (_&_&RD2&(t2&DL2&TL2&TB2)&_).
  destruct (scheme_codec_ok dbg log10 lib c cd FL SC) as [image OK].
  assert (GD : forall parts, partition (records_per_chunk o) xs parts -> Forall (Forall (storable log10 c)) parts).
  { intros parts P. now apply (partition_Forall _ _ _ P). }
  destruct (encode_whole dbg cd o c timer elapsed _ image _ i1 xs t1 OK US RD1 DL1 TL1 TB1 XU XL GD VR) as (p1&ops1&P1&E1&W1).
  destruct (encode_whole dbg cd o c timer elapsed _ image _ i2 xs t2 OK US RD2 DL2 TL2 TB2 XU XL GD VR) as (p2&ops2&P2&E2&W2).
  exists ops1, ops2. split; [assumption|]. split; [assumption|]. intros old.
  rewrite W1, W2, (partition_unique _ _ _ _ P1 P2). reflexivity.
Qed.

(** ** The statements of PropertiesFile.v *)
Lemma layout_footer_index image c timer elapsed parts i : (length parts <= i)%nat ->
  nth_error (f_index (layout_footer image c timer elapsed parts)) i = None.
Proof. intros L. apply nth_error_None. cbn [layout_footer f_index]. now rewrite index_of_length. Qed.

Lemma map_nth_seq {A B} (f : nat -> B) (g : A -> B) (l : list A) :
  (forall i x, nth_error l i = Some x -> f i = g x) -> map f (seq 0 (length l)) = map g l.
Proof.
  revert f. induction l as [|a l IH]; intros f H; [reflexivity|]. cbn [length seq map].
  rewrite (H O a eq_refl). f_equal. rewrite <- seq_shift, map_map. apply IH. intros i x E. now apply (H (S i)).
Qed.

Lemma c20 dbg log10 lib c cd o timer elapsed input xs :
  scheme_codec dbg log10 lib c = Some cd -> encodable log10 lib c o timer elapsed input xs -> xs <> [] ->
  exists parts, partition (records_per_chunk o) xs parts /\
    (forall parts', partition (records_per_chunk o) xs parts' -> parts' = parts) /\
    exists ops, encode dbg cd o c timer elapsed input = (ops, Ok tt) /\
    forall old, N.of_nat (length (written old ops)) < 2 ^ 63 ->
    exists m, open_file dbg (written old ops) = Ok m /\
      f_chunks (m_footer m) = N.of_nat (length parts) /\
      (forall i part, nth_error parts i = Some part ->
         chunk_records dbg m i = Ok (N.of_nat (length part)) /\
         read_chunk dbg cd m (written old ops) i = Ok part) /\
      (forall i, (length parts <= i)%nat -> read_chunk dbg cd m (written old ops) i = Panic).
Proof.
  intros SC EC NE. destruct (scheme_whole dbg log10 lib c cd o timer elapsed input xs SC EC NE) as (image&ops&parts&P&EN&W).
  exists parts. split; [assumption|]. split; [intros p' P'; now apply (partition_unique _ _ _ _ P' P)|].
  exists ops. split; [assumption|]. intros old L. destruct (W old L) as (m&OP&MH&MF&CG&CH&_).
  exists m. split; [assumption|]. rewrite MF. split; [reflexivity|]. split.
  - intros i part E. destruct (CH i part E) as (A&_&B). auto.
  - intros i Li. unfold read_chunk. now rewrite MF, layout_footer_index.
Qed.

Lemma c23 dbg log10 lib c cd o timer elapsed input xs :
  scheme_codec dbg log10 lib c = Some cd -> encodable log10 lib c o timer elapsed input xs -> xs <> [] ->
  exists ops, encode dbg cd o c timer elapsed input = (ops, Ok tt) /\
  forall old, N.of_nat (length (written old ops)) < 2 ^ 63 ->
  exists m, open_file dbg (written old ops) = Ok m /\ contiguous dbg m /\
    N.of_nat (length (f_index (m_footer m))) = f_chunks (m_footer m) /\
    f_records (m_footer m) = N.of_nat (length xs).
Proof.
  intros SC EC NE. destruct (scheme_whole dbg log10 lib c cd o timer elapsed input xs SC EC NE) as (image&ops&parts&P&EN&W).
  exists ops. split; [assumption|]. intros old L. destruct (W old L) as (m&OP&MH&MF&CG&CH&_).
  exists m. split; [assumption|]. split; [assumption|]. rewrite MF. cbn [layout_footer f_index f_chunks f_records].
  rewrite index_of_length, (proj1 P). auto.
Qed.

Lemma c24 dbg log10 lib c cd o timer elapsed input xs :
  scheme_codec dbg log10 lib c = Some cd -> encodable log10 lib c o timer elapsed input xs -> xs <> [] ->
  exists ops, encode dbg cd o c timer elapsed input = (ops, Ok tt) /\
  forall old, N.of_nat (length (written old ops)) < 2 ^ 63 ->
  exists m parts, open_file dbg (written old ops) = Ok m /\
    map (read_chunk dbg cd m (written old ops)) (seq 0 (N.to_nat (f_chunks (m_footer m)))) = map Ok parts /\
    concat parts = xs /\ f_records (m_footer m) = N.of_nat (length xs) /\
    f_config (m_footer m) = c /\ h_scheme (m_header m) = config_scheme c /\ h_option (m_header m) = o /\
    f_times (m_footer m) = timer /\ f_elapsed (m_footer m) = elapsed.
Proof.
  intros SC EC NE. destruct (scheme_whole dbg log10 lib c cd o timer elapsed input xs SC EC NE) as (image&ops&parts&P&EN&W).
  exists ops. split; [assumption|]. intros old L. destruct (W old L) as (m&OP&MH&MF&CG&CH&_).
  exists m, parts. split; [assumption|]. rewrite MH, MF.
  cbn [layout_footer layout_header f_index f_chunks f_records f_config f_times f_elapsed h_scheme h_option].
  rewrite (proj1 P), Nat2N.id. repeat split. apply map_nth_seq. intros i part E. now destruct (CH i part E) as (_&_&B).
Qed.

Lemma c25 dbg log10 lib c cd o timer elapsed input :
  scheme_codec dbg log10 lib c = Some cd -> encodable log10 lib c o timer elapsed input [] ->
  exists ops, encode dbg cd o c timer elapsed input = (ops, Ok tt) /\
    forall old, open_file dbg (written old ops) = Panic.
Proof. intros SC EC. now apply (scheme_empty dbg log10 lib c cd o timer elapsed input [] SC EC). Qed.

Lemma c26 dbg cd o c timer elapsed input :
  o = RecordCount 0 \/ o = ByteSizeBestEffort 0 -> valid_run c o timer elapsed ->
  exists ops, encode dbg cd o c timer elapsed input = (ops, Ok tt) /\
    forall old, open_file dbg (written old ops) = Panic.
Proof.
  intros Z VR. apply zero_limit; [|assumption]. exists 0. split; [|reflexivity].
  destruct Z as [->| ->]; [reflexivity|]. vm_compute. reflexivity.
Qed.

Lemma c26_wrap cd k c timer elapsed input :
  valid_run c (RecordCount (k * 2 ^ 61)) timer elapsed ->
  exists ops, encode false cd (RecordCount (k * 2 ^ 61)) c timer elapsed input = (ops, Ok tt) /\
    forall old, open_file false (written old ops) = Panic.
Proof.
  intros VR. apply zero_limit; [|assumption]. eexists. split; [reflexivity|].
  unfold mul8. replace (8 * (k * 2 ^ 61)) with (k * two64) by (change (2 ^ 61) with 2305843009213693952; unfold two64; lia).
  rewrite N.mod_mul by discriminate.
  destruct (N.leb_spec two64 (k * two64)); [reflexivity|]. f_equal. unfold two64 in *. nia.
Qed.

Lemma c22_full dbg cd c timer elapsed i1 i2 :
  patient i1 -> patient i2 -> delivered i1 = delivered i2 ->
  encode dbg cd Full c timer elapsed i1 = encode dbg cd Full c timer elapsed i2.
Proof. intros P1 P2. now apply encode_schedule. Qed.

Lemma valid_run_simple c o : valid_config c -> valid_option o -> valid_run c o (repeat 5 9) 77.
Proof.
  intros VC VO. split; [assumption|]. split; [assumption|]. split; [|vm_compute; reflexivity].
  split; [reflexivity|]. repeat constructor; vm_compute; reflexivity.
Qed.

Lemma c22_refuted :
  exists cd c o timer elapsed input ops m,
    scheme_codec false (fun x => x)
      (mkLibraries (fun _ => (fun b => Ok b, fun b => Ok b)) (bytes_of, fun n bs => f64s_of_bytes (N.to_nat n) bs)) c = Some cd /\
    valid_run c o timer elapsed /\ usable o /\ patient input /\ delivered input = bytes_of [1; 2] /\
    encode false cd o c timer elapsed input = (ops, Ok tt) /\
    open_file false (written [] ops) = Ok m /\ f_records (m_footer m) = 1.
Proof.
  exists uncompressed_codec, (CUncompressed 4), (RecordCount 5), (repeat 5 9), 77,
    [Data (firstn 12 (bytes_of [1; 2])); Interrupted; Data (skipn 12 (bytes_of [1; 2]))].
  eexists. eexists. split; [reflexivity|].
  split; [apply valid_run_simple; vm_compute; reflexivity|]. split; [vm_compute; split; reflexivity|].
  split. { constructor; [|constructor; [left; reflexivity|constructor; [|constructor]]]; right; eexists; (split; [reflexivity|vm_compute; discriminate]). }
  split; [reflexivity|]. split; [vm_compute; reflexivity|]. split; [vm_compute; reflexivity|vm_compute; reflexivity].
Qed.

Lemma c45 dbg log10 lib c cd o timer elapsed input xs :
  scheme_codec dbg log10 lib c = Some cd -> encodable log10 lib c o timer elapsed input xs -> xs <> [] ->
  exists ops, encode dbg cd o c timer elapsed input = (ops, Ok tt) /\
  (N.of_nat (length (written [] ops)) < 2 ^ 63 ->
  exists m sizes, open_file dbg (written [] ops) = Ok m /\
    total_file_size m = N.of_nat (length (written [] ops)) /\
    map (chunk_size dbg m) (seq 0 (N.to_nat (f_chunks (m_footer m)))) = map Ok sizes /\
    total_chunk_size dbg m = Ok (fold_right N.add 0 sizes) /\
    total_file_size m = 30 + fold_right N.add 0 sizes + footer_size (m_footer m)).
Proof.
  intros SC EC NE. destruct (scheme_whole dbg log10 lib c cd o timer elapsed input xs SC EC NE) as (image&ops&parts&P&EN&W).
  exists ops. split; [assumption|]. intros L. destruct (W [] L) as (m&OP&MH&MF&CG&CH&_&TF&TC).
  assert (SUM : fold_right N.add 0 (map (fun p => N.of_nat (length (image p))) parts) = N.of_nat (length (concat (map image parts)))).
  { clear. induction parts as [|p parts IH]; [reflexivity|]. cbn [map concat fold_right]. rewrite IH, app_length. lia. }
  exists m, (map (fun p => N.of_nat (length (image p))) parts).
  split; [assumption|]. split; [apply TF; cbn [length]; lia|]. split; [|split].
  - rewrite MF. cbn [layout_footer f_chunks]. rewrite Nat2N.id, map_map.
    apply map_nth_seq. intros i part E. now destruct (CH i part E) as (_&B&_).
  - rewrite SUM. exact TC.
  - rewrite SUM. unfold total_file_size. rewrite MH. cbn [layout_header h_footer_offset]. reflexivity.
Qed.

Lemma c55 dbg log10 lib c cd o timer elapsed input :
  faithful_libraries lib -> scheme_codec dbg log10 lib c = Some cd -> dbg = false \/ config_scheme c <> SDeltaSprintz -> usable o ->
  Forall is_byte (delivered input) -> N.of_nat (length (delivered input)) < 2 ^ 63 ->
  snd (encode dbg cd o c timer elapsed input) = Ok tt \/ snd (encode dbg cd o c timer elapsed input) = Err EIO.
Proof.
  intros FL SC DB US FB L. apply encode_total; try assumption. now apply (scheme_codec_runs dbg log10 lib c cd FL SC).
Qed.

(** Examples and the crash witness. *)
Definition simple_libraries : libraries :=
  mkLibraries (fun _ => (fun b => Ok (b ++ [7]), fun b => Ok (removelast b))) (bytes_of, fun n bs => f64s_of_bytes (N.to_nat n) bs).
Lemma simple_faithful : faithful_libraries simple_libraries.
Proof.
  split.
  - intros c bs. exists (bs ++ [7]). split; [reflexivity|]. cbn [simple_libraries lib_of snd]. now rewrite removelast_snoc.
  - intros xs U. cbn [simple_libraries lib_alp fst snd]. rewrite Nat2N.id. rewrite <- (app_nil_r (bytes_of xs)) at 1. split; [now apply UncompressedProofs.f64s_of_flat|].
    rewrite bytes_of_length. unfold alp_size_limit. pose proof (N.div_mod (N.of_nat (length xs) + 1023) 1024 ltac:(lia)) as D.
    pose proof (N.mod_lt (N.of_nat (length xs) + 1023) 1024 ltac:(lia)) as M.
    set (q := (N.of_nat (length xs) + 1023) / 1024) in *. cbv zeta. destruct (_ <? _); lia.
Qed.

Lemma encodable_simple c o input xs tail : usable o -> readable o input ->
  delivered input = bytes_of xs ++ tail -> (length tail < 8)%nat -> Forall is_byte tail ->
  Forall is_u64 xs -> N.of_nat (length xs) < 2 ^ 60 -> Forall (storable (fun x => x) c) xs ->
  valid_config c -> valid_option o -> encodable (fun x => x) simple_libraries c o (repeat 5 9) 77 input xs.
Proof.
  intros. split; [apply simple_faithful|]. split; [assumption|]. split; [assumption|]. split; [exists tail; auto|].
  split; [assumption|]. split; [assumption|]. split; [assumption|]. now apply valid_run_simple.
Qed.

Ltac bytewise := repeat constructor; vm_compute; reflexivity.
Ltac steadily := repeat (constructor; [eexists; (split; [reflexivity|vm_compute; discriminate])|]); constructor.

Lemma sample_encodable_proof :
  encodable (fun x => x) simple_libraries (CGorilla 1024) (RecordCount 2) (repeat 5 9) 77
    [Data (firstn 11 (bytes_of [0; 0x3ff8000000000000; 0x8000000000000000; 0x7ff0000000000000; 0x3ff8000000000000]));
     Data (skipn 11 (bytes_of [0; 0x3ff8000000000000; 0x8000000000000000; 0x7ff0000000000000; 0x3ff8000000000000]) ++ [1; 2; 3])]
    [0; 0x3ff8000000000000; 0x8000000000000000; 0x7ff0000000000000; 0x3ff8000000000000].
Proof.
  apply encodable_simple with (tail := [1; 2; 3]).
  - split; vm_compute; reflexivity.
  - steadily.
  - reflexivity.
  - cbn; lia.
  - bytewise.
  - bytewise.
  - vm_compute; reflexivity.
  - repeat constructor; vm_compute; discriminate.
  - vm_compute; reflexivity.
  - vm_compute; reflexivity.
Qed.

Lemma c54_example :
  encodable (fun x => x) simple_libraries (CGorilla 1024) (RecordCount 2) (repeat 5 9) 77
    [Data (bytes_of [0; 0x3ff8000000000000; 0x8000000000000000; 0x7ff0000000000000; 0x3ff8000000000000])]
    [0; 0x3ff8000000000000; 0x8000000000000000; 0x7ff0000000000000; 0x3ff8000000000000] /\
  delivered [Data (firstn 11 (bytes_of [0; 0x3ff8000000000000; 0x8000000000000000; 0x7ff0000000000000; 0x3ff8000000000000]));
     Data (skipn 11 (bytes_of [0; 0x3ff8000000000000; 0x8000000000000000; 0x7ff0000000000000; 0x3ff8000000000000]) ++ [1; 2; 3])] <>
  delivered [Data (bytes_of [0; 0x3ff8000000000000; 0x8000000000000000; 0x7ff0000000000000; 0x3ff8000000000000])].
Proof.
  split; [|vm_compute; discriminate].
  apply encodable_simple with (tail := []).
  - split; vm_compute; reflexivity.
  - steadily.
  - reflexivity.
  - cbn; lia.
  - bytewise.
  - bytewise.
  - vm_compute; reflexivity.
  - repeat constructor; vm_compute; discriminate.
  - vm_compute; reflexivity.
  - vm_compute; reflexivity.
Qed.

Lemma c25_example : encodable (fun x => x) simple_libraries (CRle 8) Full (repeat 5 9) 77 [Interrupted] [].
Proof.
  apply encodable_simple with (tail := []).
  - exact I.
  - constructor; [left; reflexivity|constructor].
  - reflexivity.
  - cbn; lia.
  - constructor.
  - constructor.
  - vm_compute; reflexivity.
  - constructor.
  - vm_compute; reflexivity.
  - exact I.
Qed.

Lemma c26_example : valid_run (CGorilla 1024) (RecordCount 0) (repeat 5 9) 77 /\
  delivered [Data (firstn 11 (bytes_of [0; 0x3ff8000000000000; 0x8000000000000000; 0x7ff0000000000000; 0x3ff8000000000000]));
     Data (skipn 11 (bytes_of [0; 0x3ff8000000000000; 0x8000000000000000; 0x7ff0000000000000; 0x3ff8000000000000]) ++ [1; 2; 3])] <> [].
Proof. split; [apply valid_run_simple; vm_compute; reflexivity|vm_compute; discriminate]. Qed.
Lemma c26_wrap_example : valid_run (CGorilla 1024) (RecordCount (3 * 2 ^ 61)) (repeat 5 9) 77.
Proof. apply valid_run_simple; vm_compute; reflexivity. Qed.

Lemma cut_prefix a b : cut (a ++ b) a.
Proof. induction a as [|op a IH]; [constructor|]. cbn [app]. now constructor. Qed.

Lemma c27_refuted :
  exists cd c timer elapsed input xs ops x m,
    scheme_codec false (fun x => x) simple_libraries c = Some cd /\
    encodable (fun x => x) simple_libraries c (RecordCount 1) timer elapsed input xs /\
    encode false cd (RecordCount 1) c timer elapsed input = (ops, Ok tt) /\
    cut ops x /\ offset_slot (written [] x) = 0 /\
    open_file false (written [] x) = Ok m /\ 2 ^ 32 < f_records (m_footer m).
Proof.
  exists uncompressed_codec, (CUncompressed 4), (repeat 5 9), 77, [Data (bytes_of (repeat 0x080000 30))], (repeat 0x080000 30).
  pose (ops := fst (encode false uncompressed_codec (RecordCount 1) (CUncompressed 4) (repeat 5 9) 77 [Data (bytes_of (repeat 0x080000 30))])).
  exists ops, (firstn 31 ops).
  pose (r := open_file false (written [] (firstn 31 ops))).
  assert (E : exists m, r = Ok m /\ (2 ^ 32 <? f_records (m_footer m)) = true).
  { unfold r, ops. vm_compute. eexists. split; reflexivity. }
  destruct E as (m&E&B). exists m. split; [reflexivity|]. split; [|split; [|split; [|split; [|split]]]].
  - apply encodable_simple with (tail := []).
    + split; vm_compute; reflexivity.
    + constructor; [|constructor]. eexists. split; [reflexivity|vm_compute; discriminate].
    + reflexivity.
    + cbn; lia.
    + constructor.
    + apply Forall_forall. intros x I. apply repeat_spec in I. subst. vm_compute. reflexivity.
    + vm_compute; reflexivity.
    + apply Forall_forall. intros; exact I.
    + vm_compute; reflexivity.
    + vm_compute; reflexivity.
  - unfold ops. vm_compute. reflexivity.
  - pose proof (cut_prefix (firstn 31 ops) (skipn 31 ops)) as C. rewrite firstn_skipn in C. exact C.
  - unfold ops. vm_compute. reflexivity.
  - exact E.
  - now apply N.ltb_lt.
Qed.

(** Five records, then 32 whose bytes read as a footer for them in one chunk. *)
Definition footer_like : list N := [11; 12; 13; 14; 15] ++ [5; 1; 30; 0; 1032] ++ repeat 0 27.
Lemma cut_within a p q b : cut (a ++ WWrite (p ++ q) :: b) (a ++ [WWrite p]).
Proof. induction a as [|op a IH]; cbn [app]; now constructor. Qed.
Lemma c27_torn :
  exists cd c timer elapsed input xs ops x m,
    scheme_codec false (fun x => x) simple_libraries c = Some cd /\
    encodable (fun x => x) simple_libraries c Full timer elapsed input xs /\ length xs = 37%nat /\
    encode false cd Full c timer elapsed input = (ops, Ok tt) /\
    cut ops x /\ offset_slot (written [] x) <> 0 /\ offset_slot (written [] x) <> offset_slot (written [] ops) /\
    open_file false (written [] x) = Ok m /\ f_records (m_footer m) = 5 /\
    read_chunk false cd m (written [] x) 0 = Ok (firstn 5 xs).
Proof.
  exists uncompressed_codec, (CUncompressed 4), (repeat 5 9), 77, [Data (bytes_of footer_like)], footer_like.
  pose (ops := fst (encode false uncompressed_codec Full (CUncompressed 4) (repeat 5 9) 77 [Data (bytes_of footer_like)])).
  pose (k := 5%nat). pose (x := firstn k ops ++ [WWrite [70]]). exists ops, x.
  assert (E : exists m, open_file false (written [] x) = Ok m /\ f_records (m_footer m) = 5 /\
    read_chunk false uncompressed_codec m (written [] x) 0 = Ok (firstn 5 footer_like)).
  { unfold x, k, ops. vm_compute. eexists. repeat split; reflexivity. }
  destruct E as (m&E&B&R). exists m. split; [reflexivity|]. split.
  { apply encodable_simple with (tail := []).
    + exact I.
    + constructor; [|constructor]. right. eexists. split; [reflexivity|vm_compute; discriminate].
    + reflexivity.
    + cbn; lia.
    + constructor.
    + unfold footer_like. cbn [repeat app]. repeat (constructor; [vm_compute; reflexivity|]). constructor.
    + vm_compute; reflexivity.
    + apply Forall_forall. intros; exact I.
    + vm_compute; reflexivity.
    + vm_compute; reflexivity. }
  split; [reflexivity|]. split; [unfold ops; vm_compute; reflexivity|]. split.
  { assert (S : ops = firstn k ops ++ WWrite ([70] ++ [1; 0; 0; 0; 0; 0; 0]) :: skipn (S k) ops).
    { unfold k, ops. vm_compute. reflexivity. }
    rewrite S. exact (cut_within (firstn k ops) [70] _ _). }
  split; [unfold x, k, ops; vm_compute; discriminate|]. split; [unfold x, k, ops; vm_compute; discriminate|].
  split; [exact E|]. split; [exact B|exact R].
Qed.
