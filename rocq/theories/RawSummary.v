(** Corollaries in the form the property theorems need. *)
From Verif Require Import Base Xor RawSpec Rle Uncompressed WordProofs RleProofs UncompressedProofs.

Lemma rle_compress_ok c xs : xs <> [] -> Forall is_u64 xs -> exists c',
  rle_compress c xs = Ok c' /\ rinv c' (mkHeld xs true) /\ greedy (runs c').
Proof.
  intros Hne HU. unfold rle_compress. pose proof (append_ok _ _ xs (reset_ok c) HU) as H.
  destruct (rle_append (rle_reset c) xs) as [c'|e|]; [|contradiction|].
  - destruct H as (_ & H & HG). exists c'. split; auto. split; [exact H|]. apply HG; [exact I|reflexivity].
  - destruct xs; [congruence|discriminate].
Qed.

Lemma rle_lossless c xs : xs <> [] -> Forall is_u64 xs -> N.of_nat (length xs) < two64 ->
  exists c' fs r,
    rle_compress c xs = Ok c' /\
    rle_buffers (rle_prepare c') = le_bytes 8 (N.of_nat (length fs)) ++
      flat_map (fun f => fst f :: le_bytes 8 (snd f)) fs /\
    Forall (fun f => 1 <= fst f <= 255) fs /\ greedy fs /\ expand fs = xs /\
    rle_open (rle_buffers (rle_prepare c')) = Ok r /\
    fst (rle_decompress r) = Ok xs /\
    (forall dbg, rle_iter dbg r = Ok xs).
Proof.
  intros Hne HU HL. destruct (rle_compress_ok c xs Hne HU) as (c' & E & HI & HG).
  destruct (rle_decode c' _ HI HL) as (HB & r & HO & HD & _ & HIt).
  exists c', (runs c'), r. destruct HI as [I1 I2 I3 I4 I5].
  split; auto. split.
  { rewrite HB. f_equal. clear -I2. induction I2 as [|f fs [Hf _] HF IH]; auto.
    cbn [flat_map]. rewrite IH. f_equal. unfold field_bytes. cbn [le_bytes app]. f_equal. apply N.mod_small. lia. }
  split. { eapply Forall_impl; [|exact I2]. intros f [H _]. exact H. }
  split; auto.
Qed.

Lemma rle_history os : Forall op_u64 os ->
  match held_run (mkHeld [] false) os, rle_run rle_new os with
  | None, Panic => True
  | Some (s, answers), Ok (c, answers') =>
      answers' = answers /\ rl_in c = 8 * N.of_nat (length (records s)) /\
      (N.of_nat (length (records s)) < two64 ->
       exists r, rle_open (rle_buffers (rle_prepare c)) = Ok r /\ fst (rle_decompress r) = Ok (records s))
  | _, _ => False
  end.
Proof.
  intros HO. pose proof (run_ok_all os _ _ new_ok HO) as H.
  destruct (rle_run rle_new os) as [[c l]|e|].
  - destruct H as (s & -> & HI & _). split; auto. split; [apply HI|]. intros HL.
    destruct (rle_decode c s HI HL) as (_ & r & HOp & HD & _). eauto.
  - destruct H.
  - rewrite H. exact I.
Qed.

Lemma rle_history_bytes os c l s a xs : Forall op_u64 os -> Forall (fun o => ~ is_prepare o) os ->
  rle_run rle_new os = Ok (c, l) -> held_run (mkHeld [] false) os = Some (s, a) ->
  records s = xs -> xs <> [] ->
  exists c', rle_compress rle_new xs = Ok c' /\
    rle_buffers (rle_prepare c) = rle_buffers (rle_prepare c') /\
    rle_total_bytes_buffered c = rle_total_bytes_buffered c'.
Proof.
  intros HO HP HR HS Ex Hne. pose proof (run_ok_all os _ _ new_ok HO) as H. rewrite HR, HS in H.
  destruct H as (s' & E & HI & HG). injection E as <- _.
  specialize (HG HP I (fun _ => eq_refl)).
  destruct HI as [I1 I2 I3 I4 I5].
  assert (HU : Forall is_u64 xs).
  { rewrite <- Ex, <- I3. clear -I2. induction I2 as [|f fs [_ Hf] HF IH]; [constructor|].
    rewrite expand_cons. apply Forall_app; split; auto. apply Forall_forall. intros x Hx. apply repeat_spec in Hx. congruence. }
  destruct (rle_compress_ok rle_new xs Hne HU) as (c' & E' & [J1 J2 J3 J4 J5] & GG). exists c'. split; auto.
  assert (ER : runs c = runs c').
  { apply greedy_unique; auto. rewrite I3, J3. exact Ex. }
  assert (HB : forall c s, rinv c s -> rle_buffers (rle_prepare c) = le_bytes 8 (N.of_nat (length (runs c))) ++ flat_map field_bytes (runs c)).
  { clear. intros c s HI. destruct (prepare_ok c s HI) as ([P1 _ _ _ _] & PR & PF). unfold rle_buffers. rewrite P1, PF. auto. }
  assert (HT : forall c, rle_total_bytes_buffered c = 8 + 9 * N.of_nat (length (runs c))).
  { clear. intros c. unfold rle_total_bytes_buffered, runs. rewrite app_length.
    destruct (rl_run c =? 0); cbn [length]; lia. }
  split.
  - rewrite (HB c s), (HB c' (mkHeld xs true)), ER by (constructor; auto). reflexivity.
  - rewrite !HT, ER. reflexivity.
Qed.

Lemma unc_history os : Forall op_u64 os ->
  let '(c, answers) := unc_run unc_new os in
  let '(xs, answers') := raw_run [] os in
  answers = answers' /\
  unc_buffers (unc_prepare c) = flat_map (le_bytes 8) xs /\
  fst (unc_decompress (unc_open (N.of_nat (length xs)) (unc_buffers (unc_prepare c)))) = Ok xs /\
  unc_iter (unc_open (N.of_nat (length xs)) (unc_buffers (unc_prepare c))) = Ok xs.
Proof.
  intros HO. pose proof (raw_run_ok os unc_new HO (Forall_nil _)) as H.
  destruct (unc_run unc_new os) as [c l]. change (un_buf unc_new) with (@nil N) in H.
  destruct H as [-> HU]. split; auto. split; [reflexivity|]. apply unc_decode; auto.
Qed.

Lemma unc_lossless c xs : Forall is_u64 xs ->
  unc_buffers (unc_prepare (unc_compress c xs)) = flat_map (le_bytes 8) xs /\
  fst (unc_decompress (unc_open (N.of_nat (length xs)) (unc_buffers (unc_prepare (unc_compress c xs))))) = Ok xs.
Proof.
  intros HU. split; [reflexivity|]. exact (proj1 (unc_decode (unc_compress c xs) HU)).
Qed.

(** Sizes. *)
Lemma rle_size c : rle_total_bytes_buffered c = N.of_nat (length (rle_buffers (rle_prepare c))).
Proof.
  unfold rle_total_bytes_buffered, rle_buffers, rle_prepare. rewrite app_length, le_bytes_length, flat_fields_length.
  destruct (rl_run c =? 0); unfold rle_add_field; cbn [rl_fields]; [lia|]. rewrite app_length. cbn [length]. lia.
Qed.

Lemma unc_size c : unc_total_bytes_buffered c = N.of_nat (length (unc_buffers (unc_prepare c))).
Proof. unfold unc_total_bytes_buffered, unc_buffers, unc_prepare. rewrite flat_le8_length. lia. Qed.

(** Reuse: what a chunk compresses to does not depend on the compressor's past. *)
Lemma rle_reuse c xs :
  match rle_compress c xs, rle_compress rle_new xs with
  | Ok a, Ok b => rle_buffers (rle_prepare a) = rle_buffers (rle_prepare b)
  | Panic, Panic => True
  | _, _ => False
  end.
Proof. unfold rle_compress, rle_append, rle_reset, rle_new. cbn. destruct xs; auto. Qed.

(** Robustness of the RLE reader. *)
Lemma read_fields_total fuel n bs : (length bs < fuel)%nat ->
  match fst (rle_read_fields fuel n bs) with Ok _ | Err EIO => True | _ => False end.
Proof.
  revert n bs. induction fuel as [|f IH]; intros n bs HF; [lia|]. cbn [rle_read_fields].
  destruct (n =? 0); [exact I|]. unfold take_exact. destruct (Nat.ltb_spec (length bs) 9); [exact I|].
  specialize (IH (n - 1) (skipn 9 bs)). rewrite skipn_length in IH. specialize (IH ltac:(lia)).
  destruct (rle_read_fields f (n - 1) (skipn 9 bs)) as [[o|[]|] r]; cbn [fst rbind] in *; auto.
Qed.

Lemma rle_total bs :
  match rle_open bs with
  | Ok r => match fst (rle_decompress r) with Ok _ | Err EIO => True | _ => False end
  | Err EIO => True
  | _ => False
  end.
Proof.
  unfold rle_open, take_exact. destruct (length bs <? 8)%nat; cbn [rbind]; [exact I|].
  unfold rle_decompress. cbn [rr_cache rr_cursor rr_fields].
  set (b := skipn 8 bs). set (n := le_val (firstn 8 bs)).
  pose proof (read_fields_total (S (length b)) n b ltac:(lia)) as H.
  destruct (rle_read_fields (S (length b)) n b) as [[o|[]|] r]; cbn [fst] in *; auto.
Qed.
