(** The XOR readers on arbitrary bytes: they stop, and do not panic. *)
From Verif Require Import Base WordProofs BitIO BitIOProofs BitIOTotalProofs Xor Gorilla Chimp ChimpN F64 ElfXor Elf.

(** The reader is intact afterwards, and at least [k] bits further on success. *)
Definition moves {A} (P : A -> Prop) (k : N) (r : breader) (x : drd A) : Prop :=
  match x with
  | DOk a r' => P a /\ rwf r' /\ rbuf r' = rbuf r /\ rpos r + k <= rpos r'
  | DErr r' => rwf r' /\ rbuf r' = rbuf r
  | DPanic => False
  end.

Lemma moves_bits {A} (P : A -> Prop) k r n f : rwf r ->
  (forall v r', v < two64 -> rwf r' -> rbuf r' = rbuf r -> moves P (k - n) r' (f v r')) ->
  moves P k r (rdo v, r' <- read_bits r n ; f v r').
Proof.
  intros W H. destruct (read_bits_total r n W) as [(v & r' & E & V & W' & B & RP & _)|[E _]]; rewrite E; [|cbn; auto].
  specialize (H v r' V W' B). unfold moves in *. destruct (f v r') as [a r2|r2|]; auto.
  - destruct H as (H1 & H2 & H3 & H4). split; [exact H1|]. split; [exact H2|]. split; [congruence|lia].
  - destruct H. split; [assumption|congruence].
Qed.
Lemma moves_bit {A} (P : A -> Prop) k r f : rwf r ->
  (forall b r', rwf r' -> rbuf r' = rbuf r -> moves P (k - 1) r' (f b r')) ->
  moves P k r (rdo b, r' <- read_bit r ; f b r').
Proof.
  intros W H. destruct (read_bit_total r W) as [(v & r' & E & W' & B & RP)|E]; rewrite E; [|cbn; auto].
  specialize (H v r' W' B). unfold moves in *. destruct (f v r') as [a r2|r2|]; auto.
  - destruct H as (H1 & H2 & H3 & H4). split; [exact H1|]. split; [exact H2|]. split; [congruence|lia].
  - destruct H. split; [assumption|congruence].
Qed.
Lemma moves_ok {A} (P : A -> Prop) r a : rwf r -> P a -> moves P 0 r (DOk a r).
Proof. intros W H. cbn. split; [exact H|]. split; [exact W|]. split; [reflexivity|lia]. Qed.
Lemma moves_bind {A B} (P : A -> Prop) (Q : B -> Prop) k r x f : moves P k r x ->
  (forall a r', P a -> rwf r' -> moves Q 0 r' (f a r')) -> moves Q k r (dbind x f).
Proof.
  intros M H. unfold moves in *. destruct x as [a r1|r1|]; cbn [dbind]; [|exact M|exact M].
  destruct M as (M1 & M2 & M3 & M4). specialize (H a r1 M1 M2). destruct (f a r1) as [b r2|r2|]; auto.
  - destruct H as (H1 & H2 & H3 & H4). split; [exact H1|]. split; [exact H2|]. split; [congruence|lia].
  - destruct H. split; [assumption|congruence].
Qed.
Lemma moves_less {A} (P : A -> Prop) k k' r x : k' <= k -> moves P k r x -> moves P k' r x.
Proof. intros L. unfold moves. destruct x; auto. intros (A1 & A2 & A3 & A4). split; [exact A1|]. split; [exact A2|]. split; [exact A3|lia]. Qed.

Section Total.
  Variables (D : Type) (d_init : D) (d_next : D -> breader -> drd (option N * D)) (V : N -> Prop) (I : D -> Prop).
  Hypothesis Hinit : I d_init.
  Hypothesis Hnext : forall d r, I d -> rwf r ->
    moves (fun x => match fst x with Some v => V v /\ I (snd x) | None => True end) 1 r (d_next d r) \/
    exists d' r', d_next d r = DOk (None, d') r'.

  Lemma collect_total fuel : forall d r, I d -> rwf r -> rlen r * 8 < rpos r + N.of_nat fuel ->
    (exists vs r', x_collect D d_next fuel d r = (Ok vs, r') /\ Forall V vs /\ rpos r + N.of_nat (length vs) <= rlen r * 8) \/
    (exists r', x_collect D d_next fuel d r = (Err EUnexpectedEndOfChunk, r')).
  Proof using Hnext.
    clear Hinit. induction fuel as [|fuel IH]; intros d r HI W F.
    { destruct W as (_ & H & H'). unfold rpos in F. lia. }
    cbn [x_collect]. assert (L : rpos r <= rlen r * 8) by (destruct W as (_ & H & H'); unfold rpos; lia).
    destruct (Hnext d r HI W) as [M|(d' & r' & E)].
    2:{ left. rewrite E. exists [], r'. split; [reflexivity|]. split; [constructor|cbn [length]; lia]. }
    destruct (d_next d r) as [[[v|] d'] r'|r'|]; cbn [moves fst snd] in M.
    - destruct M as ((HV & HI') & W' & B & P). 
      destruct (IH d' r' HI' W') as [(vs & r2 & E & HVs & PL)|(r2 & E)].
      { unfold rlen in *. rewrite B. lia. }
      + left. rewrite E. exists (v :: vs), r2. split; [reflexivity|]. split; [constructor; assumption|].
        unfold rlen in *. rewrite B in PL. cbn [length]. lia.
      + right. rewrite E. eauto.
    - left. exists [], r'. split; [reflexivity|]. split; [constructor|cbn [length]; lia].
    - right. eauto.
    - destruct M.
  Qed.

  Theorem decompress_total bs : Forall is_byte bs ->
    (exists vs, fst (x_decompress D d_init d_next (xr_new bs)) = Ok vs /\ Forall V vs /\ (length vs <= 8 * length bs)%nat) \/
    fst (x_decompress D d_init d_next (xr_new bs)) = Err EUnexpectedEndOfChunk.
  Proof using Hinit Hnext.
    intros F. pose proof (rwf_new bs F) as W. unfold x_decompress, xr_new. cbn [xcache xr].
    assert (P0 : rpos (r_new bs) = 0) by reflexivity.
    destruct (collect_total (x_fuel (r_new bs)) d_init (r_new bs) Hinit W) as [(vs & r' & E & HV & PL)|(r' & E)].
    - rewrite P0. unfold x_fuel, rlen. cbn [rbuf r_new]. lia.
    - left. exists vs. rewrite E. split; [reflexivity|]. split; [exact HV|]. unfold rlen in PL. cbn [rbuf r_new] in PL. lia.
    - right. rewrite E. reflexivity.
  Qed.
End Total.

Lemma shl64m_lt v k : shl64m v k < two64.
Proof. apply shl64_lt. Qed.
Lemma lxor_lt64 a b : a < two64 -> b < two64 -> N.lxor a b < two64.
Proof.
  change two64 with (2 ^ 64). intros A B. destruct (N.eq_dec (N.lxor a b) 0) as [->|NE]; [reflexivity|].
  apply N.log2_lt_pow2; [lia|]. eapply N.le_lt_trans; [apply N.log2_lxor|].
  assert (L : forall x, x < 2 ^ 64 -> N.log2 x < 64).
  { intros x X. destruct (N.eq_dec x 0) as [->|]; [reflexivity|]. apply N.log2_lt_pow2; [lia|assumption]. }
  apply L in A. apply L in B. lia.
Qed.
#[local] Hint Resolve shl64m_lt lxor_lt64 : core.

(** ** Gorilla *)
Lemma gorilla_next d r : gd_val d < two64 -> rwf r ->
  moves (fun x => match fst x with Some v => v < two64 /\ gd_val (snd x) < two64 | None => True end) 1 r (gd_next d r) \/
  exists d' r', gd_next d r = DOk (None, d') r'.
Proof.
  intros HV W. unfold gd_next. destruct (gd_done d); [right; eauto|left].
  apply (moves_bind (fun x => fst x < two64 /\ gd_val (snd x) < two64)).
  - assert (WIN : forall lz tz r, rwf r -> moves (fun x => fst x < two64 /\ gd_val (snd x) < two64) 0 r (gd_read_window d lz tz r)).
    { intros lz tz r1 W1. unfold gd_read_window. apply moves_bits; [exact W1|]. intros v r2 V2 W2 _.
      apply moves_ok; [exact W2|]. cbn. auto. }
    destruct (gd_first d).
    + unfold gd_read_first. apply moves_bits; [exact W|]. intros v r' V' W' _. apply (moves_less _ 0); [lia|].
      apply moves_ok; [exact W'|]. cbn. auto.
    + unfold gd_read_next. apply moves_bit; [exact W|]. intros b r1 W1 _. destruct (negb b).
      { apply moves_ok; [exact W1|]. cbn. auto. }
      apply moves_bit; [exact W1|]. intros z r2 W2 _. destruct z; [|apply WIN; exact W2].
      apply moves_bits; [exact W2|]. intros lz r3 _ W3 _. apply moves_bits; [exact W3|]. intros n r4 _ W4 _.
      apply (moves_less _ 0); [lia|]. apply WIN; exact W4.
  - intros [v d'] r' [A B] W'. destruct (v =? nan_bits); apply moves_ok; auto; cbn; auto.
Qed.
Lemma gorilla_total bs : Forall is_byte bs ->
  (exists vs, fst (gorilla_decompress (xr_new bs)) = Ok vs /\ Forall is_u64 vs /\ (length vs <= 8 * length bs)%nat) \/
  fst (gorilla_decompress (xr_new bs)) = Err EUnexpectedEndOfChunk.
Proof. apply (decompress_total gdec gd_init gd_next is_u64 (fun d => gd_val d < two64)); [reflexivity|exact gorilla_next]. Qed.

(** ** Chimp *)
Lemma chimp_moves d r : cd_val d < two64 -> rwf r -> moves (fun d => cd_val d < two64) 1 r (cd_next_value d r).
Proof.
  intros HV W. unfold cd_next_value. apply moves_bits; [exact W|]. intros flag r1 _ W1 _.
  assert (FIN : forall lz tz v r k, k <= 0 -> rwf r -> v < two64 -> moves (fun d => cd_val d < two64) k r
    (DOk (mkCD lz tz v (cd_first d) (if v =? nan_bits then true else cd_eos d)) r)).
  { intros lz tz v r2 k K W2 V2. apply (moves_less _ 0); [exact K|]. apply moves_ok; assumption. }
  assert (Z0 : 1 - 2 = 0) by reflexivity. rewrite Z0. 
  assert (B : forall lz tz n sh r, rwf r -> moves (fun d => cd_val d < two64) 0 r
    (rdo value, r <- read_bits r n ;
      DOk (mkCD lz tz (N.lxor (cd_val d) (if sh : bool then shl64m value tz else value)) (cd_first d)
        (if N.lxor (cd_val d) (if sh then shl64m value tz else value) =? nan_bits then true else cd_eos d)) r)).
  { intros lz tz n sh r2 W2. apply moves_bits; [exact W2|]. intros v r3 V3 W3 _. apply FIN; [lia|exact W3|]. destruct sh; auto. }
  destruct flag as [|[[q|q|]|[q|q|]|]]; try (apply FIN; [lia|assumption|assumption]).
  - apply moves_bits; [exact W1|]. intros i r2 _ W2 _. apply (B _ _ _ false); exact W2.
  - apply (B _ _ _ false); exact W1.
  - apply moves_bits; [exact W1|]. intros i r2 _ W2 _. apply moves_bits; [exact W2|]. intros s r3 _ W3 _.
    apply (B _ _ _ true); exact W3.
Qed.
Lemma chimp_next d r : cd_val d < two64 -> rwf r ->
  moves (fun x => match fst x with Some v => v < two64 /\ cd_val (snd x) < two64 | None => True end) 1 r (cd_next d r) \/
  exists d' r', cd_next d r = DOk (None, d') r'.
Proof.
  intros HV W. unfold cd_next. destruct (cd_eos d); [right; eauto|left].
  apply (moves_bind (fun d => cd_val d < two64)).
  - destruct (cd_first d); [|apply chimp_moves; assumption].
    apply moves_bits; [exact W|]. intros v r' V' W' _. apply (moves_less _ 0); [lia|]. apply moves_ok; assumption.
  - intros d' r' A W'. destruct (cd_eos d'); apply moves_ok; cbn; auto.
Qed.
Lemma chimp_total bs : Forall is_byte bs ->
  (exists vs, fst (chimp_decompress (xr_new bs)) = Ok vs /\ Forall is_u64 vs /\ (length vs <= 8 * length bs)%nat) \/
  fst (chimp_decompress (xr_new bs)) = Err EUnexpectedEndOfChunk.
Proof. apply (decompress_total cdec cd_init cd_next is_u64 (fun d => cd_val d < two64)); [reflexivity|exact chimp_next]. Qed.

(** ** Chimp128 *)
Definition n_words (d : ndec) : Prop := nd_val d < two64 /\ forall i, nd_vals d i < two64.
Lemma upd_words f k v i : (forall i, f i < two64) -> v < two64 -> upd f k v i < two64.
Proof. intros F V. unfold upd. destruct (i =? k); auto. Qed.
Lemma store_words d lz tz v : n_words d -> v < two64 -> n_words (nd_store d lz tz v).
Proof.
  intros [A B] V. unfold nd_store. destruct (v =? nan_bits); split; cbn; auto. intros i. now apply upd_words.
Qed.
Lemma chimp128_moves d r : n_words d -> rwf r -> moves n_words 1 r (nd_next_value d r).
Proof.
  intros HV W. pose proof HV as [HV1 HV2]. unfold nd_next_value. apply moves_bits; [exact W|]. intros flag r1 _ W1 _.
  assert (Z0 : 1 - 2 = 0) by reflexivity. rewrite Z0.
  assert (ZERO : moves n_words 0 r1 (rdo i, r2 <- read_bits r1 7 ;
      DOk (mkND (nd_lz d) (nd_tz d) (nd_vals d i) (upd (nd_vals d) ((nd_current d + 1) mod cn_n) (nd_vals d i))
        ((nd_current d + 1) mod cn_n) (nd_first d) (nd_eos d)) r2)).
  { apply moves_bits; [exact W1|]. intros i r2 _ W2 _. apply moves_ok; [exact W2|]. split; cbn; auto.
    intros j. apply upd_words; auto. }
  assert (B : forall lz tz n base sh r, base < two64 -> rwf r -> moves n_words 0 r
    (rdo value, r <- read_bits r n ; DOk (nd_store d lz tz (N.lxor base (if sh : bool then shl64m value tz else value))) r)).
  { intros lz tz n base sh r2 HB W2. apply moves_bits; [exact W2|]. intros v r3 V3 W3 _. apply moves_ok; [exact W3|].
    apply store_words; [exact HV|]. destruct sh; auto. }
  destruct flag as [|[[q|q|]|[q|q|]|]]; try exact ZERO.
  - apply moves_bits; [exact W1|]. intros i r2 _ W2 _. apply (B _ _ _ _ false); [exact HV1|exact W2].
  - apply (B _ _ _ _ false); [exact HV1|exact W1].
  - apply moves_bits; [exact W1|]. intros t r2 _ W2 _. apply (B _ _ _ _ true); [apply HV2|exact W2].
Qed.
Lemma chimp128_next d r : n_words d -> rwf r ->
  moves (fun x => match fst x with Some v => v < two64 /\ n_words (snd x) | None => True end) 1 r (nd_next d r) \/
  exists d' r', nd_next d r = DOk (None, d') r'.
Proof.
  intros HV W. unfold nd_next. destruct (nd_eos d); [right; eauto|left].
  apply (moves_bind n_words).
  - destruct (nd_first d); [|apply chimp128_moves; assumption].
    apply moves_bits; [exact W|]. intros v r' V' W' _. apply (moves_less _ 0); [lia|]. apply moves_ok; [assumption|].
    split; cbn; auto. intros i. apply upd_words; [apply HV|exact V'].
  - intros d' r' A W'. destruct (nd_eos d'); apply moves_ok; cbn; auto. split; [apply A|exact A].
Qed.
Lemma chimp128_total bs : Forall is_byte bs ->
  (exists vs, fst (chimp128_decompress (xr_new bs)) = Ok vs /\ Forall is_u64 vs /\ (length vs <= 8 * length bs)%nat) \/
  fst (chimp128_decompress (xr_new bs)) = Err EUnexpectedEndOfChunk.
Proof.
  apply (decompress_total ndec nd_init nd_next is_u64 n_words); [|exact chimp128_next].
  split; [reflexivity|]. intros i. reflexivity.
Qed.

(** ** Elf *)
Lemma elfxor_moves d r : rwf r -> moves (fun _ => True) 0 r (ld_next d r).
Proof.
  intros W. unfold ld_next. destruct (ld_eos d); [apply moves_ok; auto|].
  assert (ST : forall lz tz x r, rwf r -> moves (fun _ => True) 0 r (ld_store d lz tz x r)).
  { intros lz tz x r1 W1. unfold ld_store. destruct (_ =? _); apply moves_ok; auto. }
  destruct (ld_first d).
  - unfold ld_read_first. apply moves_bits; [exact W|]. intros tz r1 _ W1 _. apply (moves_less _ 0); [lia|].
    assert (FIN : forall v r, rwf r -> moves (fun _ => True) 0 r
      (if v =? nan_bits then DOk (None, mkLD v (ld_lz d) (ld_tz d) false true) r
       else DOk (Some v, mkLD v (ld_lz d) (ld_tz d) false (ld_eos d)) r)).
    { intros v r2 W2. destruct (v =? nan_bits); apply moves_ok; auto. }
    destruct (tz <? 64); [|apply FIN; exact W1].
    apply moves_bits; [exact W1|]. intros b r2 _ W2 _. apply FIN; exact W2.
  - unfold ld_read_next. apply moves_bits; [exact W|]. intros flag r1 _ W1 _. apply (moves_less _ 0); [lia|].
    assert (WIN : forall lz c r, rwf r -> moves (fun _ => True) 0 r (ld_window d lz c r)).
    { intros lz c r2 W2. unfold ld_window. apply moves_bits; [exact W2|]. intros b r3 _ W3 _. apply ST; exact W3. }
    assert (SAME : moves (fun _ => True) 0 r1 (rdo b, r2 <- read_bits r1 (wsub32 (wsub32 64 (ld_lz d)) (ld_tz d) mod 256) ;
      ld_store d (ld_lz d) (ld_tz d) (shl64m b (ld_tz d)) r2)).
    { apply moves_bits; [exact W1|]. intros b r2 _ W2 _. apply ST; exact W2. }
    destruct flag as [|[[q|q|]|[q|q|]|]]; try exact SAME; [| |apply moves_ok; auto].
    + apply moves_bits; [exact W1|]. intros lac r2 _ W2 _. apply (moves_less _ 0); [lia|]. apply WIN; exact W2.
    + apply moves_bits; [exact W1|]. intros lac r2 _ W2 _. apply (moves_less _ 0); [lia|].
      destruct (_ =? 1); [apply ST|apply WIN]; exact W2.
Qed.
Section Wrapped.
  Variables (recover : Z -> N -> N) (D : Type) (d_init : D) (d_next : D -> breader -> drd (option N * D)).
  Hypothesis Hinner : forall d r, rwf r -> moves (fun _ => True) 0 r (d_next d r).
  Lemma wrapped_moves d r : rwf r -> moves (fun _ => True) 1 r (wd_next recover D d_next d r).
  Proof using Hinner.
    clear d_init. intros W. unfold wd_next.
    assert (K : forall last r, rwf r -> moves (fun _ => True) 0 r (wd_keep D d_next last (wd_inner d) r)).
    { intros last r1 W1. unfold wd_keep. apply (moves_bind (fun _ => True)); [apply Hinner; exact W1|].
      intros [o d'] r2 _ W2. apply moves_ok; auto. }
    assert (R : forall last r, rwf r -> moves (fun _ => True) 0 r (wd_recover recover D d_next last (wd_inner d) r)).
    { intros last r1 W1. unfold wd_recover. apply (moves_bind (fun _ => True)); [apply Hinner; exact W1|].
      intros [o d'] r2 _ W2. apply moves_ok; auto. }
    apply moves_bit; [exact W|]. intros b1 r1 W1 _. destruct (negb b1); [apply R; exact W1|].
    apply moves_bit; [exact W1|]. intros b2 r2 W2 _. destruct (negb b2); [apply K; exact W2|].
    apply moves_bits; [exact W2|]. intros bs r3 _ W3 _. apply (moves_less _ 0); [lia|]. apply R; exact W3.
  Qed.
  Lemma wrapped_total bs : Forall is_byte bs ->
    (exists vs, fst (x_decompress _ (wd_init D d_init) (wd_next recover D d_next) (xr_new bs)) = Ok vs /\ (length vs <= 8 * length bs)%nat) \/
    fst (x_decompress _ (wd_init D d_init) (wd_next recover D d_next) (xr_new bs)) = Err EUnexpectedEndOfChunk.
  Proof using Hinner.
    intros F.
    destruct (decompress_total (wdec D) (wd_init D d_init) (wd_next recover D d_next) (fun _ => True) (fun _ => True)) with (bs := bs)
      as [(vs & E & _ & L)|E]; auto.
    - intros d r _ W. left. pose proof (wrapped_moves d r W) as M. unfold moves in *.
      destruct (wd_next recover D d_next d r) as [[[v|] d'] r'|r'|]; cbn [fst snd]; tauto.
    - left. eauto.
  Qed.
End Wrapped.
Lemma elf_total log10 bs : Forall is_byte bs ->
  (exists vs, fst (elf_decompress log10 (xr_new bs)) = Ok vs /\ (length vs <= 8 * length bs)%nat) \/
  fst (elf_decompress log10 (xr_new bs)) = Err EUnexpectedEndOfChunk.
Proof. apply wrapped_total. exact elfxor_moves. Qed.
Lemma elfc_total log10 bs : Forall is_byte bs ->
  (exists vs, fst (elfc_decompress log10 (xr_new bs)) = Ok vs /\ (length vs <= 8 * length bs)%nat) \/
  fst (elfc_decompress log10 (xr_new bs)) = Err EUnexpectedEndOfChunk.
Proof.
  apply wrapped_total. intros d r W. unfold cd_next. destruct (cd_eos d); [apply moves_ok; auto|].
  assert (FIN : forall v r, rwf r -> moves (fun _ => True) 0 r (if cd_eos v then DOk (None, v) r else DOk (Some (cd_val v), v) r)).
  { intros v r2 W2. destruct (cd_eos v); apply moves_ok; auto. }
  apply (moves_bind (fun _ => True)); [|intros; apply FIN; assumption].
  destruct (cd_first d).
  - apply moves_bits; [exact W|]. intros v r' V' W' _. apply (moves_less _ 0); [lia|]. apply moves_ok; auto.
  - unfold cd_next_value. apply moves_bits; [exact W|]. intros flag r1 _ W1 _. apply (moves_less _ 0); [lia|].
    destruct flag as [|[[q|q|]|[q|q|]|]]; try (apply moves_ok; auto; fail).
    + apply moves_bits; [exact W1|]. intros i r2 _ W2 _. apply moves_bits; [exact W2|]. intros v r3 _ W3 _. apply moves_ok; auto.
    + apply moves_bits; [exact W1|]. intros v r3 _ W3 _. apply moves_ok; auto.
    + apply moves_bits; [exact W1|]. intros i r2 _ W2 _. apply moves_bits; [exact W2|]. intros s r3 _ W3 _.
      apply moves_bits; [exact W3|]. intros v r4 _ W4 _. apply moves_ok; auto.
Qed.
