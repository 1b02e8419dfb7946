(** BUFF files: corollaries in the form the properties are stated in. *)
From Coq Require Import Sorted.
From Verif Require Import Base WordProofs BitIO BitIOProofs Xor F64 F64Proofs F64BitsProofs Format FormatSpec File FileSpec FileProofs Query QuerySpec QueryProofs
  Sprintz SprintzProofs SprintzQueryProofs Buff BuffBitsProofs BuffFixedProofs BuffChunkProofs BuffReadProofs BuffScanProofs BuffFilterProofs BuffFoldProofs BuffFloatProofs
  BuffSpec BuffCodec BuffQueryProofs Codecs CodecSpec FileSummary Readers QuerySummary SprintzSummary BuffSummary.

(** ** Encoding *)
Definition buff_image (dbg : bool) (lg : N -> N) (scale : N) (xs : list N) : list N :=
  match bf_encode dbg lg scale xs with Ok b => b | _ => [] end.
Definition buff_view (dbg : bool) (lg : N -> N) (scale : N) (precision : option N) (xs : list N) : list N :=
  match bf_decode dbg (buff_image dbg lg scale xs) precision with Ok vs => vs | _ => [] end.

Section Codec.
  Variables (dbg : bool) (lg : N -> N) (scale f : N).
  Hypothesis DG : bits_of_digits (digits_of lg scale) = Some f.
  Let F : f <= 50 := f50 _ _ _ DG.

  Lemma image_chunk xs : buff_storable dbg f xs -> buff_chunk dbg lg scale xs (buff_image dbg lg scale xs).
  Proof using DG.
    intros OK. destruct (storable_layout dbg lg scale f xs DG OK) as (b & base & top & E & _). apply chunk_iff. unfold buff_image. now rewrite E.
  Qed.
  Lemma view_ok precision g xs : buff_storable dbg f xs -> kept_bits f precision = Some g ->
    bf_decode dbg (buff_image dbg lg scale xs) precision = Ok (buff_view dbg lg scale precision xs) /\
    Forall2 (truncated_to f g) xs (buff_view dbg lg scale precision xs) /\ Forall is_u64 (buff_view dbg lg scale precision xs).
  Proof using DG.
    intros OK K. pose proof (image_chunk xs OK) as CK. destruct (laid dbg lg scale f xs _ DG OK CK) as (base & top & LY). pose proof OK as (_ & _ & U & R & _).
    unfold buff_view. destruct precision as [k|]; cbn [kept_bits] in K.
    - destruct (decode_reduced dbg f xs _ base top F U R LY k g K) as (rho & RH & E & V). rewrite E. split; [reflexivity|]. split.
      + apply Forall2_map_r. intros x I. destruct (V x I) as [I6 B]. exists (fx f x). eexists. split; [now apply (fx_fixed dbg lg scale f xs DG OK)|].
        split; [symmetry; apply value_shown, F|]. assert (P : (2 ^ Z.of_N rho <= 2 ^ Z.of_N (f - g))%Z) by (apply Z.pow_le_mono_r; lia). clear - B P. lia.
      + apply Forall_forall. intros y I. apply in_map_iff in I as (x & <- & I). destruct (V x I) as [I6 _]. now apply shown_u64.
    - apply some_eq in K. subst g. rewrite (decode_exact dbg f xs _ base top F U R LY). split; [reflexivity|]. split.
      + apply Forall2_map_r. intros x I. exists (fx f x), (fx f x). split; [now apply (fx_fixed dbg lg scale f xs DG OK)|]. split; [symmetry; apply value_shown, F|].
        rewrite N.sub_diag. change (2 ^ Z.of_N 0)%Z with 1%Z. lia.
      + apply Forall_forall. intros y I. apply in_map_iff in I as (x & <- & I). rewrite Forall_forall in U, R. apply shown_u64; [exact F|]. now apply ranged_i64; auto.
  Qed.
  Lemma view_exact xs : buff_storable dbg f xs -> buff_view dbg lg scale None xs = cut_records f xs.
  Proof using DG.
    intros OK. pose proof (image_chunk xs OK) as CK. destruct (laid dbg lg scale f xs _ DG OK CK) as (base & top & LY). pose proof OK as (_ & _ & U & R & _).
    unfold buff_view. now rewrite (decode_exact dbg f xs _ base top F U R LY).
  Qed.
  Lemma buff_ok : codec_ok (buff_codec dbg lg scale) (buff_storable dbg f) (buff_image dbg lg scale) (buff_view dbg lg scale None).
  Proof using DG.
    intros s xs NE U L OK. cbn [buff_codec cd_compress cd_reset cd_total_in cd_prepare cd_buffers cd_decode].
    pose proof (proj1 (chunk_iff _ _ _ _ _) (image_chunk xs OK)) as E. unfold bf_compress. rewrite E. cbn [rbind]. eexists. split; [reflexivity|].
    cbn [bf_reset bf_in bf_prepare bf_buffers bf_bytes]. split; [lia|]. split; [lia|]. split; [reflexivity|].
    unfold bf_decompress. cbn [bf_open br_cache br_bytes br_precision]. destruct (view_ok None f xs OK eq_refl) as (D & _). rewrite D. reflexivity.
  Qed.
End Codec.

Lemma Forall2_len {A B} (R : A -> B -> Prop) l l' : Forall2 R l l' -> length l = length l'.
Proof. induction 1; cbn [length]; congruence. Qed.
Lemma storable_part dbg f xs part : incl part xs -> part <> [] -> N.of_nat (length part) < 2 ^ 32 -> Forall is_u64 xs -> Forall (in_range f) xs ->
  (dbg = true -> spread_fits f xs xs) -> buff_storable dbg f part.
Proof.
  intros IN NE L U R S. rewrite Forall_forall in U, R. split; [exact NE|]. split; [exact L|]. split; [apply Forall_forall; auto|]. split; [apply Forall_forall; auto|].
  intros D x y v w IX IY. apply (S D x y v w); auto.
Qed.
Lemma part_length (parts : list (list N)) part : In part parts -> (length part <= length (concat parts))%nat.
Proof. intros I. apply in_split in I as (a & b & ->). rewrite concat_app. cbn [concat]. rewrite !app_length. lia. Qed.

Lemma buff_file dbg simd neg lg scale f o timer elapsed input xs :
  buff_encodable dbg lg scale f o timer elapsed input xs -> xs <> [] ->
  exists ops parts, partition (records_per_chunk o) xs parts /\
    encode dbg (buff_codec dbg lg scale) o (CBuff scale) timer elapsed input = (ops, Ok tt) /\
  forall old, let file := written old ops in N.of_nat (length file) < 2 ^ 63 ->
  exists m, open_file dbg file = Ok m /\
    forall precision, kept_bits f precision <> None -> exists vss, buff_stored dbg simd neg lg scale f m file precision parts vss.
Proof.
  intros (DG & US & RD & (tail & DL & TL & TB) & XU & XL & VR & XR & SP) NE.
  assert (GD : forall parts, partition (records_per_chunk o) xs parts -> Forall (buff_storable dbg f) parts).
  { intros parts (CC & PN & _). apply Forall_forall. intros part I. rewrite Forall_forall in PN.
    apply (storable_part dbg f xs); auto.
    - intros x IX. rewrite <- CC. apply in_concat. eauto.
    - pose proof (part_length parts part I). rewrite CC in H. lia. }
  destruct (whole_views dbg (buff_codec dbg lg scale) (buff_executor dbg simd neg) o (CBuff scale) timer elapsed _ _ _
    (fun precision => kept_bits f precision <> None) (buff_view dbg lg scale) input xs tail (buff_ok dbg lg scale f DG) US RD DL TL TB XU
    ltac:(change (2 ^ 60) with 1152921504606846976; change (2 ^ 32) with 4294967296 in XL; lia) GD VR) as (ops & parts & P & EN & W); [|exact NE|].
  { intros precision part KB _ _ OK. destruct (kept_bits f precision) as [g|] eqn:K; [|congruence].
    destruct (view_ok dbg lg scale f DG precision g part OK K) as (D & TR & UU). pose proof (Forall2_len _ _ _ TR) as LE. split; [now rewrite LE|]. split; [exact UU|].
    cbn [buff_executor ex_open ex_precision ex_decompress]. eexists. split; [reflexivity|].
    destruct precision as [k|]; unfold bf_decompress; cbn [bf_with_precision bf_open br_cache br_bytes br_precision]; rewrite D; eauto. }
  exists ops, parts. split; [exact P|]. split; [exact EN|]. intros old file L. subst file. destruct (W old L) as (m & OP & ST). exists m. split; [exact OP|].
  intros precision KB. destruct (ST precision KB) as [ST1 ST2]. exists (map (buff_view dbg lg scale precision) parts).
  destruct (kept_bits f precision) as [g|] eqn:K; [|congruence]. pose proof (GD _ P) as PG.
  split; [exact DG|]. split; [exact ST1|]. split.
  - exists g. split; [exact K|]. apply Forall2_map_r. intros part I. rewrite Forall_forall in PG. exact (proj1 (proj2 (view_ok dbg lg scale f DG precision g part (PG part I) K))).
  - intros i part E. pose proof (nth_error_In _ _ E) as I. rewrite Forall_forall in PG. split; [auto|].
    exists (buff_image dbg lg scale part). split; [apply (image_chunk dbg lg scale f DG), PG, I|]. rewrite (ST2 i part E).
    cbn [buff_executor ex_open ex_precision]. destruct precision; reflexivity.
Qed.

Lemma encodable_parts dbg lg scale f o timer elapsed input xs : buff_encodable dbg lg scale f o timer elapsed input xs ->
  forall parts, partition (records_per_chunk o) xs parts -> Forall (buff_storable dbg f) parts.
Proof.
  intros (DG & US & RD & (tail & DL & TL & TB) & XU & XL & VR & XR & SP) parts (CC & PN & _). apply Forall_forall. intros part I. rewrite Forall_forall in PN.
  apply (storable_part dbg f xs); auto.
  - intros x IX. rewrite <- CC. apply in_concat. eauto.
  - pose proof (part_length parts part I). rewrite CC in H. lia.
Qed.
Lemma view_truncated dbg lg scale f part : bits_of_digits (digits_of lg scale) = Some f -> buff_storable dbg f part -> Forall2 (truncated f) part (buff_view dbg lg scale None part).
Proof.
  intros DG OK. destruct (view_ok dbg lg scale f DG None f part OK eq_refl) as (_ & TR & _). eapply Forall2_weaken; [|exact TR].
  intros x y (v & w & A & B & C). rewrite N.sub_diag in C. change (2 ^ Z.of_N 0)%Z with 1%Z in C. assert (w = v) by lia. subst. exists v. auto.
Qed.
Lemma buff_metadata dbg lg scale f o timer elapsed input xs :
  buff_encodable dbg lg scale f o timer elapsed input xs -> xs <> [] ->
  exists ops parts, partition (records_per_chunk o) xs parts /\
    encode dbg (buff_codec dbg lg scale) o (CBuff scale) timer elapsed input = (ops, Ok tt) /\
    forall old, let file := written old ops in N.of_nat (length file) < 2 ^ 63 ->
    exists m, open_file dbg file = Ok m /\ f_records (m_footer m) = N.of_nat (length xs) /\ f_chunks (m_footer m) = N.of_nat (length parts) /\
      f_config (m_footer m) = CBuff scale /\ h_option (m_header m) = o /\
      forall i part, nth_error parts i = Some part -> chunk_records dbg m i = Ok (N.of_nat (length part)) /\
        exists bytes vs, buff_chunk dbg lg scale part bytes /\ chunk_size dbg m i = Ok (N.of_nat (length bytes)) /\
          read_chunk dbg (buff_codec dbg lg scale) m file i = Ok vs /\ Forall2 (truncated f) part vs.
Proof.
  intros EC NE. pose proof (encodable_parts _ _ _ _ _ _ _ _ _ EC) as GD. destruct EC as (DG & US & RD & (tail & DL & TL & TB) & XU & XL & VR & XR & SP).
  destruct (whole_file dbg (buff_codec dbg lg scale) o (CBuff scale) timer elapsed _ _ _ input xs tail (buff_ok dbg lg scale f DG) US RD DL TL TB XU
    ltac:(change (2 ^ 60) with 1152921504606846976; change (2 ^ 32) with 4294967296 in XL; lia) GD VR NE) as (ops & parts & P & EN & W).
  exists ops, parts. split; [exact P|]. split; [exact EN|]. intros old file L. subst file. destruct (W old L) as (m & OP & MH & MF & _ & CH & _).
  exists m. split; [exact OP|]. rewrite MH, MF. cbn [layout_footer layout_header f_records f_chunks f_config h_option]. rewrite (proj1 P). repeat (split; [reflexivity|]).
  intros i part E. destruct (CH i part E) as (C1 & C2 & C3). split; [exact C1|].
  pose proof (GD _ P) as PG. rewrite Forall_forall in PG. pose proof (PG part (nth_error_In _ _ E)) as OK.
  eexists _, _. split; [apply (image_chunk dbg lg scale f DG), OK|]. split; [exact C2|]. split; [exact C3|]. now apply view_truncated.
Qed.
Lemma buff_crash dbg lg scale f o timer elapsed input xs :
  buff_encodable dbg lg scale f o timer elapsed input xs -> xs <> [] ->
  exists ops parts, partition (records_per_chunk o) xs parts /\
    encode dbg (buff_codec dbg lg scale) o (CBuff scale) timer elapsed input = (ops, Ok tt) /\
    (N.of_nat (length (written [] ops)) < 2 ^ 63 -> forall x, cut ops x ->
      let file := written [] x in
      ((length file < 30)%nat -> open_file dbg file = Err EIO) /\
      (o = Full -> (30 <= length file)%nat -> offset_slot file = 0 -> open_file dbg file = Panic) /\
      ((30 <= length file)%nat -> exists j, j <= 8 /\ offset_slot file = offset_slot (written [] ops) mod 256 ^ j) /\
      ((30 <= length file)%nat -> offset_slot file = offset_slot (written [] ops) ->
       exists m, open_file dbg file = Ok m /\ f_records (m_footer m) = N.of_nat (length xs) /\
         f_chunks (m_footer m) = N.of_nat (length parts) /\
         forall i part, nth_error parts i = Some part ->
           exists vs, read_chunk dbg (buff_codec dbg lg scale) m file i = Ok vs /\ Forall2 (truncated f) part vs)).
Proof.
  intros EC NE. pose proof (encodable_parts _ _ _ _ _ _ _ _ _ EC) as GD. destruct EC as (DG & US & RD & (tail & DL & TL & TB) & XU & XL & VR & XR & SP).
  destruct (whole_crash dbg (buff_codec dbg lg scale) o (CBuff scale) timer elapsed _ _ _ input xs tail (buff_ok dbg lg scale f DG) US RD DL TL TB XU
    ltac:(change (2 ^ 60) with 1152921504606846976; change (2 ^ 32) with 4294967296 in XL; lia) GD VR NE) as (ops & parts & P & EN & K).
  exists ops, parts. split; [exact P|]. split; [exact EN|]. intros L x C file. destruct (K L x C) as (K1 & K2 & KT & K3). split; [exact K1|]. split; [exact K2|]. split; [exact KT|].
  intros L30 SL. destruct (K3 L30 SL) as (m & O & _ & (e & _ & F) & RDs). exists m. split; [exact O|]. rewrite F. cbn [layout_footer f_records f_chunks]. rewrite (proj1 P).
  split; [reflexivity|]. split; [reflexivity|]. intros i part E. eexists. split; [apply RDs, E|]. apply view_truncated; [exact DG|].
  pose proof (GD _ P) as PG. rewrite Forall_forall in PG. apply PG. eapply nth_error_In, E.
Qed.

(** Seven records in three chunks, scale 10, 5 fractional bits. *)
Definition bf_sample_records : list N := map (fixed_value 5) [10; 48; -80; 0; 10; 224; -3]%Z.
Lemma buff_sample : buff_encodable true (fun _ => 1) 10 5 (RecordCount 3) (repeat 5 9) 77 [Data (bytes_of bf_sample_records)] bf_sample_records.
Proof.
  assert (FX : Forall (fun x => is_u64 x /\ exists v, fixed_point 5 x v /\ (Z.abs v <= 1000)%Z) bf_sample_records).
  { unfold bf_sample_records. apply Forall_forall. intros x I. apply in_map_iff in I as (v & <- & I).
    assert (LE : (Z.abs v <= 1000)%Z) by (repeat (destruct I as [<-|I]; [cbn; lia|]); contradiction).
    split; [repeat (destruct I as [<-|I]; [vm_compute; reflexivity|]); contradiction|]. exists v. split; [|exact LE].
    repeat (destruct I as [<-|I]; [eexists; split; [vm_compute; reflexivity|]; vm_compute; repeat split; discriminate|]). contradiction. }
  split; [reflexivity|]. split; [split; vm_compute; reflexivity|]. split.
  { constructor; [|constructor]. eexists. split; [reflexivity|]. vm_compute. discriminate. }
  split; [exists []; split; [vm_compute; reflexivity|]; split; [cbn; lia|constructor]|].
  split; [eapply Forall_impl; [|exact FX]; now intros x []|]. split; [vm_compute; reflexivity|]. split.
  { split; [vm_compute; reflexivity|]. split; [vm_compute; reflexivity|]. split; [|reflexivity]. split; [reflexivity|]. repeat constructor. }
  split.
  - eapply Forall_impl; [|exact FX]. intros x (_ & v & (a & N & B & _) & LE). exists a. split; [exact N|].
    assert (0 < step 5)%Z by reflexivity. revert B LE. generalize (step 5) (Z.abs a) H. change (2 ^ 63)%Z with 9223372036854775808%Z. clear. intros s t P B L. nia.
  - intros _ x y v w IX IY FV FW. rewrite Forall_forall in FX. destruct (FX x IX) as (UX & v' & FV' & LV). destruct (FX y IY) as (UY & w' & FW' & LW).
    apply fixed_fx in FV as [_ ->]; [|discriminate]. apply fixed_fx in FV' as [_ ->]; [|discriminate].
    apply fixed_fx in FW as [_ ->]; [|discriminate]. apply fixed_fx in FW' as [_ ->]; [|discriminate].
    change (2 ^ 63)%Z with 9223372036854775808%Z. lia.
Qed.

(** ** The loop over chunks, by the records that were written *)
Lemma first_same parts vss : Forall2 (fun p v : list N => length p = length v) parts vss -> forall i, first_of vss i = first_of parts i.
Proof.
  intros FA i. unfold first_of. f_equal. revert i. induction FA as [|p v ps vs L FA IH]; intros [|i]; cbn [firstn concat]; try reflexivity.
  rewrite !app_length, IH. lia.
Qed.
Lemma masked_same mask p : forall v off, length p = length v -> (masked mask off p = [] <-> masked mask off v = []).
Proof.
  induction p as [|x p IH]; intros [|y v] off L; try discriminate L; cbn [masked]; [tauto|]. injection L as L.
  destruct (allowed _ _); [split; discriminate|]. now apply IH.
Qed.
Section Each.
  Variables (dbg : bool) (ex : executor) (m : metadata) (file : list N) (precision : option N) (parts vss : list (list N)) (mask : option bitmap).
  Hypothesis ST : stored dbg ex m file precision vss.
  Hypothesis LS : Forall2 (fun p v : list N => length p = length v) parts vss.
  Hypothesis SM : mask = None \/ N.of_nat (length (concat parts)) < 2 ^ 32.

  Lemma same_total : length (concat vss) = length (concat parts).
  Proof using LS. clear SM ST. induction LS as [|p v ps vs L FA IH]; cbn [concat]; [reflexivity|]. rewrite !app_length. rewrite IH by exact FA. lia. Qed.
  Lemma nth_view i part : nth_error parts i = Some part -> exists v, nth_error vss i = Some v /\ length part = length v.
  Proof using LS.
    clear SM ST. revert i. induction LS as [|p v ps vs L FA IH]; intros [|i] E; try discriminate E; cbn [nth_error] in *.
    - injection E as ->. eauto.
    - now apply IH.
  Qed.
  Lemma over_each {A} (step : nat -> rstate ex -> A -> A * res derr unit) (G : nat -> A -> A) : forall ids,
    (forall i part v r r' acc, In i ids -> nth_error parts i = Some part -> nth_error vss i = Some v -> masked mask (first_of parts i) part <> [] ->
       chunk_offset m i = first_of parts i -> chunk_reader dbg ex m file precision i = Ok r -> ex_decompress ex r = (Ok v, r') ->
       step i r acc = (G i acc, Ok tt)) ->
    forall acc, Forall (fun i => (i < length parts)%nat) ids ->
    over_chunks dbg ex m file precision step mask acc ids =
    (fold_left (fun acc i => if nonempty (masked mask (first_of parts i) (nth i parts [])) then G i acc else acc) ids acc, Ok tt).
  Proof using All.
    induction ids as [|i ids IH]; intros HS acc HI; [reflexivity|].
    specialize (IH (fun i part v r r' acc I => HS i part v r r' acc (or_intror I))).
    inversion_clear HI as [|? ? HL HI']. cbn [over_chunks fold_left].
    destruct (nth_error parts i) as [part|] eqn:EP; [|apply nth_error_None in EP; lia].
    rewrite (nth_error_nth _ _ [] EP). destruct (nth_view i part EP) as (v & EV & LV).
    destruct ST as (_ & _ & ST'). destruct (ST' i v EV) as (NE & U & OF & RG & _ & RD). cbn zeta in RG, OF. fold (first_of vss i) in RG, OF. rewrite RG.
    rewrite (first_same parts vss LS i) in *. pose proof (first_bound parts i part EP) as FB. rewrite <- LV.
    assert (NP : part <> []) by (destruct part; [destruct v; [congruence|discriminate LV]|discriminate]).
    destruct (match mask with Some bm => bm_is_empty (bm_and_range bm (first_of parts i mod 2 ^ 32)
      ((first_of parts i + N.of_nat (length part)) mod 2 ^ 32)) | None => false end) eqn:SK.
    - destruct mask as [bm|]; [|discriminate SK]. destruct SM as [X|X]; [discriminate X|]. apply skip_iff in SK; [|lia]. rewrite SK. cbn [nonempty]. now apply IH.
    - assert (M : masked mask (first_of parts i) part <> []).
      { intros M. destruct mask as [bm|]; [|now apply masked_none in M]. destruct SM as [X|X]; [discriminate X|]. apply skip_iff in M; [congruence|lia]. }
      destruct RD as (r & RR & (r' & D)). rewrite RR. rewrite (HS i part v r r' acc (or_introl eq_refl) EP); auto.
      destruct (masked mask (first_of parts i) part); [congruence|]. cbn [nonempty]. now apply IH.
  Qed.
  Lemma selected_parts cid : map (fun i => (first_of parts i, nth i parts [])) (selected_chunks m cid) = looked_at parts cid /\
    Forall (fun i => (i < length parts)%nat) (selected_chunks m cid).
  Proof using ST LS.
    clear SM. pose proof (Forall2_len _ _ _ LS) as LL. destruct cid as [k|]; cbn [looked_at].
    - rewrite (selected_one dbg ex m file vss precision ST). rewrite <- LL. destruct (nth_error parts k) as [part|] eqn:E.
      + assert (k < length parts)%nat as L by (apply nth_error_Some; congruence).
        apply Nat.ltb_lt in L. rewrite L. apply Nat.ltb_lt in L. cbn [map]. rewrite (nth_error_nth _ _ [] E). auto.
      + apply nth_error_None in E. apply Nat.ltb_ge in E. rewrite E. auto.
    - rewrite (selected_all dbg ex m file vss precision ST), <- LL. split; [reflexivity|]. apply Forall_forall. intros i I. apply in_seq in I. lia.
  Qed.
  Lemma each_answer {B} (q : option bitmap -> N -> rstate ex -> res derr B * rstate ex) (comb : B -> B -> B) (g : N -> list N -> B) init cid :
    (forall i part r, nth_error parts i = Some part -> In (first_of parts i, part) (looked_at parts cid) -> masked mask (first_of parts i) part <> [] ->
       chunk_reader dbg ex m file precision i = Ok r -> fst (q mask (first_of parts i) r) = Ok (g (first_of parts i) part)) ->
    answer (over_chunks dbg ex m file precision (combining ex (fun i => q mask (chunk_offset m i)) comb) mask init (selected_chunks m cid)) =
    Ok (fold_left (fun acc '(off, part) => if nonempty (masked mask off part) then comb acc (g off part) else acc) (looked_at parts cid) init).
  Proof using ST LS SM.
    intros AN. unfold answer. destruct (selected_parts cid) as [EL FL].
    rewrite (over_each _ (fun i acc => comb acc (g (first_of parts i) (nth i parts [])))); [| |exact FL].
    - rewrite <- EL, fold_map. reflexivity.
    - intros i part v r r' acc II EP EV M OF RR D. unfold combining. rewrite OF, (AN i part r EP); auto; [now rewrite (nth_error_nth _ _ [] EP)|].
      rewrite <- EL. apply in_map_iff. exists i. now rewrite (nth_error_nth _ _ [] EP).
  Qed.
End Each.

(** ** Queries *)
Lemma or_In (g : N -> list N -> bitmap) mask i l : forall acc,
  In i (fold_left (fun acc '(off, part) => if nonempty (masked mask off part) then bm_or acc (g off part) else acc) l acc) <->
  In i acc \/ exists off part, In (off, part) l /\ masked mask off part <> [] /\ In i (g off part).
Proof.
  induction l as [|[off part] l IH]; intros acc; cbn [fold_left].
  - split; [auto|]. intros [H|(o & p & [] & _)]; auto.
  - rewrite IH. destruct (masked mask off part) as [|y ys] eqn:M; cbn [nonempty].
    + split; [intros [H|(o & p & I & H)]; [auto|]; right; exists o, p; split; [now right|auto]|].
      intros [H|(o & p & [E|I] & N & H)]; [auto| |right; eauto]. injection E as <- <-. congruence.
    + rewrite bm_or_spec. split.
      * intros [[H|H]|(o & p & I & H)]; [auto| |].
        -- right. exists off, part. split; [now left|]. split; [congruence|exact H].
        -- right. exists o, p. split; [now right|auto].
      * intros [H|(o & p & [E|I] & N & H)]; [auto| |right; eauto]. injection E as <- <-. auto.
Qed.
Lemma or_bitmap (g : N -> list N -> bitmap) mask l : (forall off part, In (off, part) l -> masked mask off part <> [] -> is_bitmap (g off part)) ->
  forall acc, is_bitmap acc -> is_bitmap (fold_left (fun acc '(off, part) => if nonempty (masked mask off part) then bm_or acc (g off part) else acc) l acc).
Proof.
  induction l as [|[off part] l IH]; intros H acc A; cbn [fold_left]; [exact A|]. apply IH; [intros; apply H; [now right|assumption]|].
  destruct (masked mask off part) as [|y ys] eqn:M; cbn [nonempty]; [exact A|]. apply bm_or_ok; [|exact A]. apply (H off part); [now left|]. rewrite M. discriminate.
Qed.
Lemma scope_nth parts cid first xs : N.of_nat (length (concat parts)) < 2 ^ 32 -> scope parts cid first xs -> forall i x,
  (first <= i /\ nth_error xs (N.to_nat (i - first)) = Some x) <->
  exists off part, In (off, part) (looked_at parts cid) /\ off <= i /\ nth_error part (N.to_nat (i - off)) = Some x.
Proof.
  intros SM SC i x. pose proof (scope_bound _ _ _ _ SM SC) as B. pose proof (masked_In None xs first i x B) as MI. cbn [in_mask] in MI.
  rewrite <- (scope_masked _ _ _ _ None SC), in_flat_map in MI. split.
  - intros [L E]. destruct (proj2 MI) as ([off part] & IL & IM); [auto|]. exists off, part.
    apply masked_In in IM; [|exact (looked_bound parts cid SM off part IL)]. tauto.
  - intros (off & part & IL & L & E). apply proj1 in MI. destruct MI as (A & A' & _); [|auto]. exists (off, part). split; [exact IL|].
    apply masked_In; [exact (looked_bound parts cid SM off part IL)|]. cbn [in_mask]. auto.
Qed.

Lemma Forall2_refl_len (l : list (list N)) : Forall2 (fun p v : list N => length p = length v) l l.
Proof. induction l; constructor; auto. Qed.
Lemma first_before parts i j part : (i < j)%nat -> nth_error parts i = Some part -> first_of parts i + N.of_nat (length part) <= first_of parts j.
Proof.
  intros L E. unfold first_of. rewrite <- Nat2N.inj_add. enough (length (concat (firstn i parts)) + length part <= length (concat (firstn j parts)))%nat by lia.
  revert i j L E. induction parts as [|p parts IH]; intros [|i] [|j] L E; try discriminate E; try lia; cbn [firstn concat nth_error] in *.
  - injection E as ->. rewrite app_length. cbn [length]. lia.
  - rewrite !app_length. specialize (IH i j ltac:(lia) E). lia.
Qed.
Lemma masked_same_mask m1 m2 v : forall off, off + N.of_nat (length v) < 2 ^ 32 ->
  (forall j, off <= j < off + N.of_nat (length v) -> (in_mask m1 j <-> in_mask m2 j)) -> masked m1 off v = masked m2 off v.
Proof.
  induction v as [|x v IH]; intros off B H; cbn [masked]; [reflexivity|]. cbn [length] in B, H. rewrite mod_small32 by lia.
  assert (E : allowed m1 off = allowed m2 off).
  { specialize (H off ltac:(lia)). apply eq_true_iff_eq. rewrite !allowed_in. exact H. }
  rewrite E, (IH (off + 1)); [reflexivity|lia|]. intros j RJ. apply H. lia.
Qed.
Lemma masked_none_of mk v off : off + N.of_nat (length v) < 2 ^ 32 ->
  (forall j, off <= j < off + N.of_nat (length v) -> ~ in_mask mk j) -> masked mk off v = [].
Proof.
  intros B H. destruct (masked mk off v) as [|[j y] l] eqn:E; [reflexivity|]. exfalso.
  assert (I : In (j, y) (masked mk off v)) by (rewrite E; now left). apply masked_In in I as (L & EN & IM); [|exact B].
  assert (N.to_nat (j - off) < length v)%nat by (apply nth_error_Some; congruence). apply (H j); [lia|exact IM].
Qed.

Lemma grid_satisfies f (F50 : f <= 50) x w p : is_u64 x -> in_range f x -> fixed_point f x w -> Forall is_u64 (pred_operands p) ->
  Forall (on_fixed_grid f) (pred_operands p) -> (truncated_satisfies f p w <-> satisfies p (fixed_value f w)).
Proof.
  intros U R FP PU OG. destruct (ranged f x F50 U R) as (_ & _ & _ & SH). apply fixed_fx in FP as [_ Ew]; [|exact F50]. rewrite <- Ew in SH.
  pose proof (ranged_i64 f x F50 U R) as I6. rewrite <- Ew in I6. pose proof (shown_number f w F50 I6 SH) as NW. rewrite <- value_shown in NW by exact F50.
  destruct (step_pos f) as [SP|SP]; [|lia].
  assert (OP : forall u, In u (pred_operands p) -> exists z, number u = Some (z * step f)%Z /\ forall z', fixed_point f u z' <-> z' = z).
  { intros u IU. rewrite Forall_forall in OG. destruct (OG u IU) as (z & FZ & NZ). exists z. split; [exact NZ|]. intros z'. split; [|now intros ->].
    intros FZ'. apply fixed_fx in FZ as [_ ->]; [|exact F50]. now apply fixed_fx in FZ' as [_ ->]. }
  assert (RE : forall (Rz : Z -> Z -> Prop) u z, (forall a b, Rz (a * step f)%Z (b * step f)%Z <-> Rz a b) -> number u = Some (z * step f)%Z ->
     (related Rz (fixed_value f w) u <-> Rz w z) /\ (related Rz u (fixed_value f w) <-> Rz z w)).
  { intros Rz u z RS E. unfold related. rewrite NW, E. now rewrite !RS. }
  assert (MLT : forall a b, (a * step f < b * step f)%Z <-> (a < b)%Z) by (intros; symmetry; now apply Z.mul_lt_mono_pos_r).
  assert (MLE : forall a b, (a * step f <= b * step f)%Z <-> (a <= b)%Z) by (intros; symmetry; now apply Z.mul_le_mono_pos_r).
  assert (MEQ : forall a b, (a * step f = b * step f)%Z <-> (a = b)%Z) by (intros; split; [apply Z.mul_reg_r; lia|now intros ->]).
  assert (BL : forall b, (forall u, In u (pred_operands (PRange b Unbounded)) -> exists z, number u = Some (z * step f)%Z /\ forall z', fixed_point f u z' <-> z' = z) ->
     (match b with Inclusive u => exists w0, fixed_point f u w0 /\ ((w0 < w)%Z \/ w0 = w) | Exclusive u => exists w0, fixed_point f u w0 /\ (w0 < w)%Z | Unbounded => True end
      <-> above b (fixed_value f w))).
  { intros [u|u|] HB; cbn [above]; [| |tauto]; destruct (HB u (or_introl eq_refl)) as (z & NZ & FZ).
    - rewrite (proj2 (RE Z.le u z MLE NZ)). split; [intros (w0 & A & B); apply FZ in A; lia|]. intros. exists z. split; [now apply FZ|lia].
    - rewrite (proj2 (RE Z.lt u z MLT NZ)). split; [intros (w0 & A & B); apply FZ in A; lia|]. intros. exists z. split; [now apply FZ|lia]. }
  assert (BH : forall b, (forall u, In u (pred_operands (PRange Unbounded b)) -> exists z, number u = Some (z * step f)%Z /\ forall z', fixed_point f u z' <-> z' = z) ->
     (match b with Inclusive u => exists w0, fixed_point f u w0 /\ ((w0 > w)%Z \/ w0 = w) | Exclusive u => exists w0, fixed_point f u w0 /\ (w0 > w)%Z | Unbounded => True end
      <-> below b (fixed_value f w))).
  { intros [u|u|] HB; cbn [below]; [| |tauto]; destruct (HB u (or_introl eq_refl)) as (z & NZ & FZ).
    - rewrite (proj1 (RE Z.le u z MLE NZ)). split; [intros (w0 & A & B); apply FZ in A; lia|]. intros. exists z. split; [now apply FZ|lia].
    - rewrite (proj1 (RE Z.lt u z MLT NZ)). split; [intros (w0 & A & B); apply FZ in A; lia|]. intros. exists z. split; [now apply FZ|lia]. }
  destruct p as [u|u|lo hi]; cbn [truncated_satisfies satisfies].
  - destruct (OP u (or_introl eq_refl)) as (z & NZ & FZ). rewrite (proj1 (RE eq u z MEQ NZ)). apply FZ.
  - destruct (OP u (or_introl eq_refl)) as (z & NZ & FZ). rewrite (proj1 (RE eq u z MEQ NZ)). now rewrite (FZ w).
  - cbn [pred_operands] in OP. rewrite (BL lo), (BH hi); [reflexivity| |].
    + intros u I. apply OP. apply in_or_app. now right.
    + intros u I. apply OP. apply in_or_app. left. cbn [pred_operands] in I. now rewrite app_nil_r in I.
Qed.

Section Extremes.
  Variable f : N.
  Hypothesis F50 : f <= 50.
  Lemma quotient_bits v : i64 v -> of_bits (shown f v) = fixed_quotient f v.
  Proof using F50. intros I. rewrite quotient_unfix by exact F50. unfold shown. apply of_to_bits, unfix_canonical; [exact F50|now apply i64_100]. Qed.
  Lemma extreme_of (up : bool) ys z : (forall y, In y ys -> is_u64 y /\ in_range f y) -> (if up then greatest_fixed f ys z else least_fixed f ys z) ->
    extreme up (cut_records f ys) (fixed_quotient f z) (z * step f)%Z.
  Proof using F50.
    intros HY BZ. pose proof F50 as F.
    assert (EX : exists y, In y ys /\ z = fx f y) by (destruct up; destruct BZ as [(y & IY & FP) _]; (apply fixed_fx in FP as [_ ->]; [eauto|exact F])).
    assert (LE : forall y, In y ys -> if up then (fx f y <= z)%Z else (z <= fx f y)%Z).
    { intros y IY. destruct (HY y IY) as [U R]. destruct up; destruct BZ as [_ H]; apply (H y _ IY); now apply ranged_fixed. }
    destruct EX as (y & IY & EZ). destruct (HY y IY) as [U R]. destruct (ranged f y F U R) as (_ & _ & _ & SH). pose proof (ranged_i64 f y F U R) as I6. rewrite <- EZ in *.
    pose proof (shown_number f z F I6 SH) as NZ. pose proof (shown_u64 f z F I6) as UZ. rewrite <- (quotient_bits z I6).
    split; [now apply of_bits_canonical|]. split; [rewrite <- number_scaled by exact UZ; exact NZ|]. split; [exact (number_some _ _ UZ NZ)|].
    split; [exact (number_below _ _ NZ UZ)|]. split.
    - intros w b IW E. apply in_map_iff in IW as (x & <- & IX). destruct (HY x IX) as [UX RX]. destruct (ranged f x F UX RX) as (_ & _ & _ & SX).
      rewrite (shown_number f (fx f x) F (ranged_i64 f x F UX RX) SX) in E. apply some_eq in E. subst b. specialize (LE x IX). destruct (step_pos f); [|lia].
      destruct up; apply Z.mul_le_mono_nonneg_r; lia.
    - right. exists (shown f z). split; [|split; [reflexivity|exact NZ]]. rewrite EZ. apply in_map_iff. eauto.
  Qed.
  Lemma extreme_back (up : bool) ys r z : (forall y, In y ys -> is_u64 y /\ in_range f y) -> extreme up (cut_records f ys) r z ->
    (ys = [] -> r = S754_infinity up) /\
    (ys <> [] -> exists v, (if up then greatest_fixed f ys v else least_fixed f ys v) /\ r = fixed_quotient f v).
  Proof using F50.
    intros HY (_ & _ & _ & _ & BD & [[FN ER]|(v & IV & ER & NV)]).
    - split; [intros _; exact ER|]. intros NE. destruct ys as [|y ys]; [congruence|]. exfalso. cbn [cut_records map] in FN. inversion_clear FN as [|? ? N1 _].
      destruct (HY y (or_introl eq_refl)) as [U R]. destruct (ranged f y F50 U R) as (_ & _ & _ & SH).
      rewrite (shown_number f _ F50 (ranged_i64 f y F50 U R) SH) in N1. discriminate N1.
    - split; [intros ->; contradiction|]. intros _. apply in_map_iff in IV as (y & <- & IY). destruct (HY y IY) as [U R].
      pose proof (ranged_i64 f y F50 U R) as I6. destruct (ranged f y F50 U R) as (_ & _ & _ & SH). rewrite (shown_number f _ F50 I6 SH) in NV. apply some_eq in NV.
      exists (fx f y). split; [|rewrite ER; now apply quotient_bits].
      assert (LE : forall x, In x ys -> if up then (fx f x <= fx f y)%Z else (fx f y <= fx f x)%Z).
      { intros x IX. destruct (HY x IX) as [UX RX]. pose proof (ranged_i64 f x F50 UX RX) as IX6. destruct (ranged f x F50 UX RX) as (_ & _ & _ & SX).
        pose proof (BD (shown f (fx f x)) (fx f x * step f)%Z) as B. subst z. destruct (step_pos f) as [SP|SP]; [|pose proof F50; lia].
        destruct up; (apply Z.mul_le_mono_pos_r with (step f); [lia|]; apply B; [apply in_map_iff; eauto|apply shown_number; assumption]). }
      destruct up; (split; [exists y; split; [exact IY|]; apply ranged_fixed; [exact F50|exact U|exact R]|]); intros x w IX FP;
        (apply fixed_fx in FP as [_ ->]; [exact (LE x IX)|exact F50]).
  Qed.
End Extremes.

Section Stored.
  Variables (dbg simd neg : bool) (tie : f64 -> f64 -> bool) (lg : N -> N) (scale f : N) (m : metadata) (file : list N) (precision : option N).
  Variables (parts vss : list (list N)).
  Let ex := buff_executor dbg simd neg.
  Hypothesis SS : buff_stored dbg simd neg lg scale f m file precision parts vss.
  Variable mask : option bitmap.
  Hypothesis MO : mask_ok mask.
  Hypothesis SM : N.of_nat (length (concat parts)) < 2 ^ 32.
  Variables (cid : option nat) (first : N) (xs : list N).
  Hypothesis SC : scope parts cid first xs.
  Hypothesis FIT : forall off part, In (off, part) (looked_at parts cid) -> chunk_fits part.

  Lemma stored_digits : bits_of_digits (digits_of lg scale) = Some f.
  Proof using SS. apply SS. Qed.
  Lemma F50 : f <= 50.
  Proof using SS. exact (f50 _ _ _ stored_digits). Qed.
  Lemma same_lengths : Forall2 (fun p v : list N => length p = length v) parts vss.
  Proof using SS. destruct SS as (_ & _ & (g & _ & FA) & _). eapply Forall2_weaken; [|exact FA]. intros p v H. exact (Forall2_len _ _ _ H). Qed.
  Lemma looked_part off part : In (off, part) (looked_at parts cid) -> exists i, nth_error parts i = Some part /\ off = first_of parts i.
  Proof using. clear. apply nth_looked. Qed.
  Lemma part_storable i part : nth_error parts i = Some part -> buff_storable dbg f part.
  Proof using SS. intros E. destruct SS as (_ & _ & _ & H). now destruct (H i part E). Qed.
  Lemma looked_storable off part : In (off, part) (looked_at parts cid) -> buff_storable dbg f part.
  Proof using SS. intros I. destruct (looked_part off part I) as (i & E & _). exact (part_storable i part E). Qed.
  Lemma part_reader i part r : nth_error parts i = Some part -> chunk_reader dbg ex m file precision i = Ok r ->
    buff_chunk dbg lg scale part (br_bytes r) /\ br_records r = N.of_nat (length part).
  Proof using SS.
    intros E RR. destruct SS as (_ & _ & _ & H). destruct (H i part E) as (_ & bytes & CK & R). unfold ex in RR. rewrite R in RR. injection RR as <-.
    destruct precision; cbn [bf_with_precision buff_reader bf_open br_bytes br_records]; auto.
  Qed.

  (** *** Filters *)
  Definition filter_of (p : fpred) (off : N) (part : list N) : bitmap :=
    match fst (bf_filter dbg simd p mask off (buff_reader part (buff_image dbg lg scale part))) with Ok bm => bm | _ => [] end.
  Lemma image_bytes part bytes : buff_chunk dbg lg scale part bytes -> buff_image dbg lg scale part = bytes.
  Proof using. clear. intros CK. apply chunk_iff in CK. unfold buff_image. now rewrite CK. Qed.
  Lemma filter_of_ok p off part : In (off, part) (looked_at parts cid) -> operands_fit dbg f p part -> within_width f p part ->
    fst (bf_filter dbg simd p mask off (buff_reader part (buff_image dbg lg scale part))) = Ok (filter_of p off part) /\ is_bitmap (filter_of p off part) /\
      (forall i, In i (filter_of p off part) -> matches f p off part i) /\
      (forall i, in_mask mask i -> matches f p off part i -> In i (filter_of p off part)) /\
      (mask_obeyed f p mask part -> forall i, In i (filter_of p off part) -> in_mask mask i).
  Proof using SS MO SM FIT.
    intros I OF WW. pose proof (looked_storable off part I) as OK. pose proof (looked_bound parts cid SM off part I) as B.
    destruct (c_filter dbg simd lg scale f part _ stored_digits OK (image_chunk dbg lg scale f stored_digits part OK) (FIT off part I) mask off MO B p OF WW)
      as (bm & E & H). unfold filter_of. rewrite E. auto.
  Qed.
  Lemma matches_scope p i : matches f p first xs i <-> exists off part, In (off, part) (looked_at parts cid) /\ matches f p off part i.
  Proof using SM SC.
    clear SS FIT MO. unfold matches. split.
    - intros (L & x & v & E & FP & TS). destruct (proj1 (scope_nth parts cid first xs SM SC i x) (conj L E)) as (off & part & IL & L' & E'). exists off, part.
      split; [exact IL|]. split; [exact L'|]. eauto.
    - intros (off & part & IL & L & x & v & E & FP & TS).
      destruct (proj2 (scope_nth parts cid first xs SM SC i x) (ex_intro _ off (ex_intro _ part (conj IL (conj L E))))) as [L' E']. split; [exact L'|]. eauto.
  Qed.
  Lemma filter_is p : (forall off part, In (off, part) (looked_at parts cid) -> operands_fit dbg f p part /\ within_width f p part) ->
    dec_filter dbg ex m file precision p mask cid =
    Ok (fold_left (fun acc '(off, part) => if nonempty (masked mask off part) then bm_or acc (filter_of p off part) else acc) (looked_at parts cid) []).
  Proof using SS MO SM FIT.
    intros H. pose proof SS as (_ & ST & _). unfold dec_filter.
    apply (each_answer dbg ex m file precision parts vss mask ST same_lengths (or_intror SM) (bf_filter dbg simd p) bm_or (filter_of p)).
    intros i part r EP IL M RR. destruct (part_reader i part r EP RR) as [CK RC]. destruct (H _ _ IL) as [OF WW].
    destruct (filter_of_ok p _ _ IL OF WW) as (E & _). etransitivity; [|exact E]. rewrite (image_bytes part _ CK).
    unfold bf_filter, restrict, buff_reader. cbn [fst bf_open br_bytes br_records]. now rewrite RC.
  Qed.
  Lemma file_filter p : (forall off part, In (off, part) (looked_at parts cid) -> operands_fit dbg f p part /\ within_width f p part) ->
    exists bm, dec_filter dbg ex m file precision p mask cid = Ok bm /\ is_bitmap bm /\
      (forall i, In i bm -> matches f p first xs i) /\
      (forall i, in_mask mask i -> matches f p first xs i -> In i bm) /\
      ((forall off part, In (off, part) (looked_at parts cid) -> mask_obeyed f p mask part) -> forall i, In i bm -> in_mask mask i).
  Proof using All.
    intros H. pose proof SS as (_ & ST & _). eexists. split; [|split; [|split; [|split]]].
    - exact (filter_is p H).
    - apply or_bitmap; [|split; constructor]. intros off part IL _. destruct (H _ _ IL) as [OF WW]. apply (filter_of_ok p _ _ IL OF WW).
    - intros i I. apply or_In in I as [[]|(off & part & IL & _ & I)]. destruct (H _ _ IL) as [OF WW]. apply matches_scope. exists off, part. split; [exact IL|].
      now apply (filter_of_ok p _ _ IL OF WW).
    - intros i IM I. apply matches_scope in I as (off & part & IL & I). apply or_In. right. exists off, part. split; [exact IL|]. destruct (H _ _ IL) as [OF WW]. split.
      + destruct I as (L & x & v & E & _). intros M. assert (X : In (i, x) (masked mask off part)); [|rewrite M in X; exact X].
        apply masked_In; [exact (looked_bound parts cid SM off part IL)|auto].
      + now apply (filter_of_ok p _ _ IL OF WW).
    - intros MB i I. apply or_In in I as [[]|(off & part & IL & _ & I)]. destruct (H _ _ IL) as [OF WW].
      apply (filter_of_ok p _ _ IL OF WW); [now apply (MB off part)|exact I].
  Qed.

  (** *** Extrema *)
  Lemma looked_ranged off part x : In (off, part) (looked_at parts cid) -> In x part -> is_u64 x /\ in_range f x.
  Proof using SS. intros IL I. exact (storable_at _ _ _ _ (looked_storable off part IL) I). Qed.
  Definition extreme_answer (up : bool) (off : N) (part : list N) : f64 :=
    match fst ((if up then bf_max else bf_min) dbg mask off (buff_reader part (buff_image dbg lg scale part))) with Ok r => r | _ => f_zero end.
  Lemma extreme_answer_ok (up : bool) off part : In (off, part) (looked_at parts cid) -> masked mask off part <> [] ->
    fst ((if up then bf_max else bf_min) dbg mask off (buff_reader part (buff_image dbg lg scale part))) = Ok (extreme_answer up off part) /\
    exists z, extreme up (cut_records f (map snd (masked mask off part))) (extreme_answer up off part) z.
  Proof using SS MO SM FIT.
    intros IL M. pose proof (looked_storable off part IL) as OK. pose proof (looked_bound parts cid SM off part IL) as B.
    destruct (c39 dbg simd lg scale f part _ stored_digits OK (image_chunk dbg lg scale f stored_digits part OK) (FIT off part IL) mask off MO B)
      as (ys & CH & H & _).
    assert (EY : ys = map snd (masked mask off part)) by (eapply choose_fun; [exact CH|now apply masked_choose]). subst ys.
    destruct H as (lo & hi & HL & HH & EMIN & EMAX); [intros E; apply map_eq_nil in E; contradiction|].
    assert (HY : forall y, In y (map snd (masked mask off part)) -> is_u64 y /\ in_range f y).
    { intros y IY. apply in_map_iff in IY as ([i x] & <- & IY). apply masked_In in IY as (_ & IY & _); [|exact B]. apply (looked_ranged off part x IL). eapply nth_error_In, IY. }
    unfold extreme_answer. destruct up.
    - rewrite EMAX. split; [reflexivity|]. eexists. apply (extreme_of f F50 true); [exact HY|exact HH].
    - rewrite EMIN. split; [reflexivity|]. eexists. apply (extreme_of f F50 false); [exact HY|exact HL].
  Qed.
  Lemma cut_u64 off part : In (off, part) (looked_at parts cid) -> Forall is_u64 (cut_records f (map snd (masked mask off part))).
  Proof using SS SM.
    intros IL. apply Forall_forall. intros y IY. apply in_map_iff in IY as (x & <- & IX). apply in_map_iff in IX as ([i z] & E & IX). cbn [snd] in E. subst z.
    apply masked_In in IX as (_ & IX & _); [|exact (looked_bound parts cid SM off part IL)].
    destruct (looked_ranged off part x IL (nth_error_In _ _ IX)) as [U R]. apply shown_u64; [exact F50|]. apply ranged_i64; [exact F50|exact U|exact R].
  Qed.
  Lemma extremes_fold (up : bool) l : (forall o p, In (o, p) l -> In (o, p) (looked_at parts cid)) -> forall vs a za, Forall is_u64 vs -> extreme up vs a za ->
    exists z, extreme up (vs ++ flat_map (fun '(off, part) => cut_records f (map snd (masked mask off part))) l)
      (fold_left (fun acc '(off, part) => if nonempty (masked mask off part) then fext up tie acc (extreme_answer up off part) else acc) l a) z.
  Proof using SS MO SM FIT.
    induction l as [|[off part] l IH]; intros HL vs a za UV EA; cbn [flat_map fold_left].
    - rewrite app_nil_r. eauto.
    - assert (IL : In (off, part) (looked_at parts cid)) by (apply HL; now left). rewrite app_assoc.
      assert (HL' : forall o p, In (o, p) l -> In (o, p) (looked_at parts cid)) by (intros o p I; apply HL; now right).
      pose proof (cut_u64 off part IL) as CU.
      destruct (masked mask off part) as [|y ys] eqn:M; cbn [nonempty].
      + cbn [map cut_records]. rewrite app_nil_r. exact (IH HL' vs a za UV EA).
      + destruct (extreme_answer_ok up off part IL) as [_ (zb & EB)]; [rewrite M; discriminate|]. rewrite M in EB.
        destruct (extreme_join up tie _ _ _ _ _ _ UV CU EA EB) as (z & EZ).
        apply (IH HL' _ _ z); [apply Forall_app; auto|exact EZ].
  Qed.
  Lemma cut_flat l : flat_map (fun '((off, part) : N * list N) => cut_records f (map snd (masked mask off part))) l =
    cut_records f (flat_map (fun '(off, part) => map snd (masked mask off part)) l).
  Proof using.
    clear. induction l as [|[o p] l IH]; [reflexivity|]. cbn [flat_map]. rewrite IH. unfold cut_records. now rewrite map_app.
  Qed.
  Lemma scope_ranged x : In x xs -> is_u64 x /\ in_range f x.
  Proof using SS SC.
    intros I. assert (G : exists part, In part parts /\ In x part).
    { clear - I SC. destruct SC as [|k part E|k E]; [now apply in_concat in I| |contradiction]. exists part. split; [eapply nth_error_In, E|exact I]. }
    destruct G as (part & IP & IX). apply In_nth_error in IP as (i & E). exact (storable_at _ _ _ _ (part_storable i part E) IX).
  Qed.
  Lemma file_extremes : exists ys, choose mask first xs ys /\
    (ys = [] -> dec_min dbg tie ex m file precision mask cid = Ok (S754_infinity false) /\ dec_max dbg tie ex m file precision mask cid = Ok (S754_infinity true)) /\
    (ys <> [] -> exists lo hi, least_fixed f ys lo /\ greatest_fixed f ys hi /\
      dec_min dbg tie ex m file precision mask cid = Ok (fixed_quotient f lo) /\
      dec_max dbg tie ex m file precision mask cid = Ok (fixed_quotient f hi)).
  Proof using All.
    pose proof SS as (_ & ST & _). pose proof (scope_bound _ _ _ _ SM SC) as B.
    exists (map snd (masked mask first xs)). split; [now apply masked_choose|].
    assert (HY : forall y, In y (map snd (masked mask first xs)) -> is_u64 y /\ in_range f y).
    { intros y IY. apply in_map_iff in IY as ([i x] & <- & IY). apply masked_In in IY as (_ & IY & _); [|exact B]. apply scope_ranged. eapply nth_error_In, IY. }
    assert (G : forall up, exists r z, extreme up (cut_records f (map snd (masked mask first xs))) r z /\
       (if up then dec_max else dec_min) dbg tie ex m file precision mask cid = Ok r).
    { intros up. destruct (extremes_fold up (looked_at parts cid) (fun o p I => I) [] _ _ (Forall_nil _) (QueryProofs.extreme_init up)) as (z & EZ).
      cbn [app] in EZ. rewrite cut_flat, (scope_chosen _ _ _ _ _ SC) in EZ. do 2 eexists. split; [exact EZ|].
      assert (A : forall i part r, nth_error parts i = Some part -> In (first_of parts i, part) (looked_at parts cid) -> masked mask (first_of parts i) part <> [] ->
        chunk_reader dbg ex m file precision i = Ok r ->
        fst ((if up then bf_max else bf_min) dbg mask (first_of parts i) r) = Ok (extreme_answer up (first_of parts i) part)).
      { intros i part r EP IL M RR. destruct (part_reader i part r EP RR) as [CK RC].
        destruct (extreme_answer_ok up _ _ IL M) as (E & _). etransitivity; [|exact E]. rewrite (image_bytes part _ CK).
        destruct up; unfold bf_max, bf_min, restrict, buff_reader; cbn [fst bf_open br_bytes br_records]; now rewrite RC. }
      destruct up.
      - exact (each_answer dbg ex m file precision parts vss mask ST same_lengths (or_intror SM) (bf_max dbg) (fmax tie) (extreme_answer true) _ cid A).
      - exact (each_answer dbg ex m file precision parts vss mask ST same_lengths (or_intror SM) (bf_min dbg) (fmin tie) (extreme_answer false) _ cid A). }
    destruct (G false) as (lo & zl & EL & DL). destruct (G true) as (hi & zh & EH & DH).
    destruct (extreme_back f F50 false _ _ _ HY EL) as [L0 L1]. destruct (extreme_back f F50 true _ _ _ HY EH) as [H0 H1]. split.
    - intros E. rewrite DL, DH, (L0 E), (H0 E). auto.
    - intros E. destruct (L1 E) as (a & A1 & A2). destruct (H1 E) as (b & B1 & B2). exists a, b. rewrite DL, DH, A2, B2. auto.
  Qed.

  (** *** Materialising *)
  Variable vs : list N.
  Hypothesis SV : scope vss cid first vs.
  Lemma total_small : N.of_nat (length (concat vss)) < 2 ^ 32.
  Proof using SS SM. rewrite (same_total parts vss same_lengths). exact SM. Qed.
  Lemma file_materialize mk : exists ys, choose mk first vs ys /\ dec_materialize dbg ex m file precision mk cid = (bytes_of ys, Ok tt).
  Proof using SS SM SV.
    pose proof SS as (_ & ST & _). exists (map snd (masked mk first vs)). split; [apply masked_choose, (scope_bound _ _ _ _ total_small SV)|].
    unfold dec_materialize. rewrite (writing_all dbg ex m file vss precision ST mk (or_intror total_small) (ex_materialize ex) (map snd)); [|reflexivity|].
    - now rewrite (scope_chosen _ _ _ _ _ SV).
    - intros i w r r' E M RR D. exact (default_writing buffreader (bf_decompress dbg) mk (first_of vss i) r r' w D).
  Qed.
  Lemma file_filter_materialize p : (forall off part, In (off, part) (looked_at parts cid) -> operands_fit dbg f p part /\ within_width f p part) ->
    exists bm zs, dec_filter dbg ex m file precision p mask cid = Ok bm /\ choose (Some bm) first vs zs /\
      dec_filter_materialize dbg ex m file precision p mask cid = (bytes_of zs, Ok tt) /\
      dec_materialize dbg ex m file precision (Some bm) cid = (bytes_of zs, Ok tt).
  Proof using All.
    intros H. pose proof SS as (_ & ST & _). pose proof (filter_is p H) as E1.
    set (bm := fold_left (fun (acc : bitmap) '(off, part) => if nonempty (masked mask off part) then bm_or acc (filter_of p off part) else acc) (looked_at parts cid) []) in E1.
    destruct (file_materialize (Some bm)) as (zs & CH & E2). exists bm, zs. split; [exact E1|]. split; [exact CH|]. split; [|exact E2].
    assert (EZ : zs = map snd (masked (Some bm) first vs)) by (eapply choose_fun; [exact CH|apply masked_choose, (scope_bound _ _ _ _ total_small SV)]).
    rewrite EZ, <- (scope_chosen _ _ _ _ _ SV).
    destruct (selected_parts dbg ex m file precision parts vss ST same_lengths cid) as [EL FL].
    destruct (selected_parts dbg ex m file precision vss vss ST (Forall2_refl_len vss) cid) as [EV _].
    unfold dec_filter_materialize.
    rewrite (over_each dbg ex m file precision parts vss mask ST same_lengths (or_intror SM) _
      (fun i acc => acc ++ bytes_of (map snd (masked (Some (filter_of p (first_of parts i) (nth i parts []))) (first_of parts i) (nth i vss []))))); [| |exact FL].
    - f_equal. rewrite <- EV. assert (HI : forall i, In i (selected_chunks m cid) -> In (first_of parts i, nth i parts []) (looked_at parts cid)).
      { intros i I. rewrite <- EL. apply in_map_iff. eauto. }
      rewrite Forall_forall in FL. clear EL EV. induction (selected_chunks m cid) as [|i l IH] using rev_ind; [reflexivity|].
      rewrite fold_left_app, map_app, flat_map_app, bytes_of_app. cbn [fold_left map flat_map]. rewrite app_nil_r.
      rewrite IH by (intros; first [apply FL|apply HI]; apply in_or_app; now left). clear IH.
      assert (Ii : In i (l ++ [i])) by (apply in_or_app; right; now left). specialize (HI i Ii). specialize (FL i Ii).
      destruct (nth_error parts i) as [part|] eqn:EP; [|apply nth_error_None in EP; lia]. rewrite (nth_error_nth _ _ [] EP) in *.
      destruct (nth_view parts vss same_lengths i part EP) as (v & EV & LV). rewrite (nth_error_nth _ _ [] EV), (first_same parts vss same_lengths).
      pose proof (looked_bound parts cid SM _ _ HI) as B.
      assert (G : forall j, first_of parts i <= j < first_of parts i + N.of_nat (length v) ->
        (In j bm <-> masked mask (first_of parts i) part <> [] /\ In j (filter_of p (first_of parts i) part))).
      { intros j RJ. unfold bm. rewrite or_In. split; [|intros [M I]; right; do 2 eexists; split; [exact HI|auto]].
        intros [[]|(off & part' & IL & M & I)]. destruct (H _ _ IL) as [OF WW]. destruct (filter_of_ok p _ _ IL OF WW) as (_ & _ & MT & _).
        destruct (MT j I) as (LJ & x & _ & EX & _). destruct (looked_part _ _ IL) as (i' & EP' & ->).
        assert (ii : i' = i).
        { rewrite <- LV in RJ. assert (N.to_nat (j - first_of parts i') < length part')%nat by (apply nth_error_Some; congruence).
          destruct (Nat.lt_trichotomy i i') as [C|[C|C]]; [|now symmetry|].
          - pose proof (first_before parts i i' part C EP). lia.
          - pose proof (first_before parts i' i part' C EP'). lia. }
        subst i'. rewrite EP in EP'. injection EP' as <-. auto. }
      destruct (masked mask (first_of parts i) part) as [|y mm] eqn:M; cbn [nonempty].
      + rewrite (masked_none_of (Some bm)); [now rewrite app_nil_r|lia|]. intros j RJ IJ. cbn [in_mask] in IJ. apply (G j RJ) in IJ as [C _]. congruence.
      + do 3 f_equal. apply masked_same_mask; [lia|]. intros j RJ. cbn [in_mask]. rewrite (G j RJ). split; [|tauto]. intros I. split; [congruence|exact I].
    - clear EV. intros i part v r r' acc II EP EV M OF RR D.
      assert (IL : In (first_of parts i, part) (looked_at parts cid)) by (rewrite <- EL; apply in_map_iff; exists i; now rewrite (nth_error_nth _ _ [] EP)).
      destruct (H _ _ IL) as [OFI WW]. destruct (filter_of_ok p _ _ IL OFI WW) as (E & _).
      rewrite OF, (nth_error_nth _ _ [] EP), (nth_error_nth _ _ [] EV). unfold ex. cbn [buff_executor ex_filter_materialize].
      unfold bf_filter_materialize.
      assert (EF : fst (bf_filter dbg simd p mask (first_of parts i) r) = Ok (filter_of p (first_of parts i) part)).
      { destruct (part_reader i part r EP RR) as [CK RC]. etransitivity; [|exact E]. rewrite (image_bytes part _ CK).
        unfold bf_filter, restrict, buff_reader. cbn [fst bf_open br_bytes br_records]. now rewrite RC. }
      assert (ES : snd (bf_filter dbg simd p mask (first_of parts i) r) = r) by reflexivity.
      destruct (bf_filter dbg simd p mask (first_of parts i) r) as [bb rr]. cbn [fst snd] in EF, ES. subst bb rr. pose proof (default_writing buffreader (bf_decompress dbg) (Some (filter_of p (first_of parts i) part)) (first_of parts i) r r' v D) as W.
      destruct (default_materialize _ _ _ _ _) as [[w o] r2]. cbn [fst] in W. injection W as -> ->. reflexivity.
  Qed.

  (** *** The decoded records *)
  Lemma decoded : exists g, kept_bits f precision = Some g /\ Forall2 (truncated_to f g) xs vs.
  Proof using SS SC SV.
    destruct SS as (_ & _ & (g & K & FA) & _). exists g. split; [exact K|]. clear - FA SC SV.
    destruct SC as [|k part E|k E]; inversion SV as [E1 E2|? part' E' E1 E2|? E' E1 E2]; subst.
    - clear - FA. induction FA as [|p v ps qs H FA IH]; cbn [concat]; [constructor|]. now apply Forall2_app.
    - clear - FA E E'. revert k E E'. induction FA as [|p v ps qs H FA IH]; intros [|k] E E'; try discriminate E; cbn [nth_error] in *.
      + injection E as <-. injection E' as <-. exact H.
      + now apply (IH k).
    - apply nth_error_None in E'. assert (k < length parts)%nat by (apply nth_error_Some; congruence). apply Forall2_len in FA. lia.
    - apply nth_error_None in E. assert (k < length vss)%nat by (apply nth_error_Some; congruence). apply Forall2_len in FA. lia.
    - constructor.
  Qed.
  Lemma file_decoded_filter p : precision = None -> Forall is_u64 (pred_operands p) -> Forall (on_fixed_grid f) (pred_operands p) -> forall i,
    matches f p first xs i <-> first <= i /\ exists y, nth_error vs (N.to_nat (i - first)) = Some y /\ satisfies p y.
  Proof using SS SC SV.
    clear FIT SM. intros PN PU OG i. destruct decoded as (g & K & FA). rewrite PN in K. cbn [kept_bits] in K. apply some_eq in K. subst g.
    assert (NE : forall k x, nth_error xs k = Some x -> exists v, fixed_point f x v /\ nth_error vs k = Some (fixed_value f v) /\ v = fx f x).
    { pose proof F50 as F. clear - FA F. revert FA. generalize vs. induction xs as [|x l IH]; intros vs' FA [|k] x' E; try discriminate E; inversion_clear FA as [|? y ? l' (v & w & FP & -> & B) FA'].
      - injection E as <-. rewrite N.sub_diag in B. assert (v = w) by lia. subst w. exists v. split; [exact FP|]. split; [reflexivity|].
        now apply fixed_fx in FP as [_ ->].
      - exact (IH l' FA' k x' E). }
    assert (EV : forall k, nth_error xs k = None -> nth_error vs k = None).
    { intros k E. apply nth_error_None in E. apply nth_error_None. apply Forall2_len in FA. lia. }
    unfold matches. split; intros (L & H); (split; [exact L|]).
    - destruct H as (x & v & E & FP & TS). destruct (NE _ _ E) as (w & FP' & E' & Ew). apply fixed_fx in FP as [_ Ev]; [|exact F50]. rewrite <- Ew in Ev. subst v.
      exists (fixed_value f w). split; [exact E'|]. destruct (scope_ranged x (nth_error_In _ _ E)) as [U R].
      apply (grid_satisfies f F50 x); auto.
    - destruct H as (y & E & TS). destruct (nth_error xs (N.to_nat (i - first))) as [x|] eqn:EX; [|apply EV in EX; congruence].
      destruct (NE _ _ EX) as (w & FP' & E' & Ew). rewrite E' in E. injection E as <-. exists x, w. split; [reflexivity|]. split; [exact FP'|].
      destruct (scope_ranged x (nth_error_In _ _ EX)) as [U R]. apply (grid_satisfies f F50 x); auto.
  Qed.

  (** *** Sums *)
  Definition sum_of (off : N) (part : list N) : f64 :=
    match fst (bf_sum dbg mask off (buff_reader part (buff_image dbg lg scale part))) with Ok r => r | _ => f_zero end.
  Hypothesis FITS : forall off part, In (off, part) (looked_at parts cid) -> sums_fit f part /\ (mask = None \/ chunk_varies f part).
  Lemma sum_of_ok off part : In (off, part) (looked_at parts cid) ->
    fst (bf_sum dbg mask off (buff_reader part (buff_image dbg lg scale part))) = Ok (sum_of off part) /\
    exists ys t, choose mask off part ys /\ fixed_sum f ys t /\ sum_of off part = fixed_quotient f t.
  Proof using SS MO SM FIT FITS.
    intros IL. pose proof (looked_storable off part IL) as OK. pose proof (looked_bound parts cid SM off part IL) as B. destruct (FITS off part IL) as [SF OB].
    destruct (c40 dbg simd lg scale f part _ stored_digits OK (image_chunk dbg lg scale f stored_digits part OK) (FIT off part IL) mask off MO B SF OB)
      as (ys & t & CH & FS & E). unfold sum_of. rewrite E. split; [reflexivity|]. exists ys, t. auto.
  Qed.
  Lemma sums_fold l : (forall o p, In (o, p) l -> In (o, p) (looked_at parts cid)) ->
    exists yss ts, Forall2 (fun '(off, part) ys => choose mask off part ys) l yss /\ Forall2 (fixed_sum f) (filter nonempty yss) ts /\
      forall acc, fold_left (fun acc '(off, part) => if nonempty (masked mask off part) then fadd acc (sum_of off part) else acc) l acc =
        fold_left fadd (map (fixed_quotient f) ts) acc.
  Proof using SS MO SM FIT FITS.
    induction l as [|[off part] l IH]; intros HL.
    - exists [], []. repeat split; constructor.
    - destruct IH as (yss & ts & CH & FS & E); [intros; apply HL; now right|]. assert (IL : In (off, part) (looked_at parts cid)) by (apply HL; now left).
      destruct (sum_of_ok off part IL) as (_ & ys & t & CY & FY & EY). exists (ys :: yss).
      assert (EM : ys = map snd (masked mask off part)) by (eapply choose_fun; [exact CY|apply masked_choose, (looked_bound parts cid SM off part IL)]).
      destruct (masked mask off part) as [|y mm] eqn:M.
      + exists ts. subst ys. split; [constructor; assumption|]. split; [exact FS|]. intros acc. cbn [fold_left]. rewrite M. exact (E acc).
      + exists (t :: ts). split; [constructor; assumption|]. split.
        * cbn [filter]. subst ys. cbn [map nonempty]. constructor; [exact FY|exact FS].
        * intros acc. cbn [fold_left map]. rewrite M. cbn [nonempty]. rewrite EY. apply E.
  Qed.
  Lemma file_sum : exists yss ts, Forall2 (fun '(off, part) ys => choose mask off part ys) (looked_at parts cid) yss /\
    Forall2 (fixed_sum f) (filter nonempty yss) ts /\
    dec_sum dbg ex m file precision mask cid = Ok (float_sum (map (fixed_quotient f) ts)).
  Proof using All.
    pose proof SS as (_ & ST & _). destruct (sums_fold (looked_at parts cid) (fun o p I => I)) as (yss & ts & CH & FS & E).
    exists yss, ts. split; [exact CH|]. split; [exact FS|]. unfold float_sum. rewrite <- (E (S754_zero false)). unfold dec_sum.
    apply (each_answer dbg ex m file precision parts vss mask ST same_lengths (or_intror SM) (bf_sum dbg) fadd sum_of).
    intros i part r EP IL M RR. destruct (part_reader i part r EP RR) as [CK RC].
    destruct (sum_of_ok _ _ IL) as (E1 & _). etransitivity; [|exact E1]. rewrite (image_bytes part _ CK).
    unfold bf_sum, restrict, buff_reader; cbn [fst bf_open br_bytes br_records]; now rewrite RC.
  Qed.
End Stored.

(** ** Samples *)
Ltac fixed_sample := eexists; split; [vm_compute; reflexivity|]; vm_compute; repeat split; discriminate.
Lemma c16_sample : buff_storable true 5 [0x40091eb851eb851f; 0xbfd3333333333333] /\ step 5 = (2 ^ 1069)%Z.
Proof.
  split; [|reflexivity]. split; [discriminate|]. split; [reflexivity|]. split; [repeat constructor; vm_compute; reflexivity|]. split.
  - repeat constructor; (eexists; split; [vm_compute; reflexivity|vm_compute; reflexivity]).
  - intros _ x y v w IX IY FV FW. apply fixed_fx in FV as [_ ->]; [|discriminate]. apply fixed_fx in FW as [_ ->]; [|discriminate].
    destruct IX as [<-|[<-|[]]], IY as [<-|[<-|[]]]; vm_compute; reflexivity.
Qed.
Lemma c59_sample : Forall (on_fixed_grid 5) bf_sample_records /\ ~ on_fixed_grid 5 0x40091eb851eb851f.
Proof.
  split.
  - unfold bf_sample_records. apply Forall_forall. intros x I. apply in_map_iff in I as (v & <- & I). exists v.
    repeat (destruct I as [<-|I]; [split; [fixed_sample|vm_compute; reflexivity]|]). contradiction.
  - intros (v & FV & NX). apply fixed_fx in FV as [_ ->]; [|discriminate]. vm_compute in NX. discriminate NX.
Qed.
Lemma c37_sample :
  operands_fit true 5 (PEq (fixed_value 5 10)) bf_sample_records /\ within_width 5 (PEq (fixed_value 5 10)) (firstn 3 bf_sample_records) /\
  mask_obeyed 5 (PEq (fixed_value 5 10)) (Some [0]) (firstn 3 bf_sample_records).
Proof.
  split; [|split].
  - split; [repeat constructor; vm_compute; reflexivity|]. split; [constructor; [|constructor]; eexists; split; [vm_compute; reflexivity|vm_compute; reflexivity]|].
    intros _ x y v w IX IY FV FW. apply fixed_fx in FV as [_ ->]; [|discriminate]. apply fixed_fx in FW as [_ ->]; [|discriminate].
    destruct IX as [<-|[]]. unfold bf_sample_records in IY. cbn [map In] in IY. repeat (destruct IY as [<-|IY]; [vm_compute; reflexivity|]). contradiction.
  - intros v w z k [(x & IX & FX) _] [_ GR] _ FZ K. apply fixed_fx in FZ as [_ ->]; [|discriminate].
    assert (fx 5 (fixed_value 5 10) <= w)%Z; [|lia].
    apply (GR (fixed_value 5 10)); [left; reflexivity|]. apply fixed_fx; [discriminate|]. split; [discriminate|reflexivity].
  - right. exists (fixed_value 5 10), (fixed_value 5 48), 10%Z, 48%Z. split; [left; reflexivity|]. split; [right; left; reflexivity|].
    split; [fixed_sample|]. split; [fixed_sample|reflexivity].
Qed.
Lemma c40_sample :
  sums_fit 5 (firstn 3 bf_sample_records) /\ chunk_varies 5 (firstn 3 bf_sample_records).
Proof.
  split.
  - exists 80%Z. split; [|reflexivity]. intros x v IX FV. apply fixed_fx in FV as [_ ->]; [|discriminate]. unfold bf_sample_records in IX. cbn [map In firstn] in IX.
    repeat (destruct IX as [<-|IX]; [vm_compute; discriminate|]). contradiction.
  - exists (fixed_value 5 10), (fixed_value 5 48), 10%Z, 48%Z. split; [left; reflexivity|]. split; [right; left; reflexivity|].
    split; [fixed_sample|]. split; [fixed_sample|reflexivity].
Qed.
Lemma c41_sample :
  let xs := map (fun k => fixed_value 5 (Z.of_nat (k * 13 mod 300))) (seq 0 90) in
  let run (simd : bool) p := on_buff_chunk true xs (fun r => fst (bf_filter true simd p None 7 r)) in
  Forall (fun p => run true p = run false p /\ run true p <> Some (Ok []))
    [PEq (fixed_value 5 26); PRange (Inclusive (fixed_value 5 100)) (Exclusive (fixed_value 5 257)); PNe (fixed_value 5 26)].
Proof. cbv zeta. repeat (apply Forall_cons; [split; [vm_compute; reflexivity|vm_compute; discriminate]|]). apply Forall_nil. Qed.
