(** Corollaries on reuse, counters and arbitrary bytes, in the form of
    PropertiesCodec.v. *)
From Verif Require Import Base WordProofs BitIO Xor Gorilla Chimp ChimpN F64 ElfXor Elf RawSpec Rle Uncompressed ByteCodec Alp
  Sprintz Buff CodecProofs.

Lemma f64s_length k : forall bs, length (f64s_of_bytes k bs) = k.
Proof. induction k as [|k IH]; intros bs; cbn [f64s_of_bytes length]; [reflexivity|]. now rewrite IH. Qed.

Lemma unc_total n bs :
  fst (unc_decompress (unc_open n bs)) =
    (if N.of_nat (length bs) <? 8 * n then Err EIO else Ok (f64s_of_bytes (N.to_nat n) bs)).
Proof. unfold unc_decompress, unc_open. cbn [ur_cache ur_cursor ur_records]. destruct (_ <? _); reflexivity. Qed.
Lemma uncompressed_total n bs :
  match fst (unc_decompress (unc_open n bs)) with
  | Ok vs => N.of_nat (length vs) = n /\ 8 * n <= N.of_nat (length bs)
  | Err e => e = EIO /\ N.of_nat (length bs) < 8 * n
  | Panic => False
  end.
Proof.
  rewrite unc_total. destruct (N.ltb_spec (N.of_nat (length bs)) (8 * n)); [auto|]. rewrite f64s_length. lia.
Qed.
Lemma unc_iter_total fuel : forall n bs, (length bs < fuel)%nat ->
  match unc_iter_collect fuel n bs with
  | Ok vs => N.of_nat (length vs) = n /\ 8 * n <= N.of_nat (length bs)
  | Err e => e = EIO /\ N.of_nat (length bs) < 8 * n
  | Panic => False
  end.
Proof.
  induction fuel as [|f IH]; intros n bs L; [lia|]. cbn [unc_iter_collect].
  destruct (N.eqb_spec n 0) as [->|NZ]; [cbn; lia|].
  unfold take_exact. change (length bs) with (length bs).
  destruct (Nat.ltb_spec (length bs) 8) as [H|H]; cbn [rbind]; [split; [reflexivity|lia]|].
  specialize (IH (n - 1) (skipn 8 bs)). rewrite skipn_length in IH. specialize (IH ltac:(lia)).
  destruct (unc_iter_collect f (n - 1) (skipn 8 bs)) as [vs|e|]; cbn [rbind length]; [lia|split; [apply IH|lia]|exact IH].
Qed.
Lemma uncompressed_iter_total n bs :
  match unc_iter (unc_open n bs) with
  | Ok vs => N.of_nat (length vs) = n /\ 8 * n <= N.of_nat (length bs)
  | Err e => e = EIO /\ N.of_nat (length bs) < 8 * n
  | Panic => False
  end.
Proof. unfold unc_iter, unc_open. cbn [ur_cursor ur_records]. apply unc_iter_total. lia. Qed.

Lemma alp_counts pack dbg c xs c' : alp_compress pack dbg c xs = Ok c' -> alp_in c' = 8 * N.of_nat (length xs).
Proof. unfold alp_compress. destruct (_ && _); [discriminate|]. intros H. now injection H as <-. Qed.

Lemma zstd_total unpack n bs :
  match unpack bs, zstd_decode unpack n bs with
  | Ok out, Ok vs => N.of_nat (length out) <= 8 * n /\ N.of_nat (length vs) = n
  | Ok out, Err e => e = EIO /\ 8 * n < N.of_nat (length out)
  | Err e, Err e' => e = e'
  | Panic, Panic => True
  | _, _ => False
  end.
Proof.
  unfold zstd_decode. destruct (unpack bs) as [out|e|]; cbn [rbind]; auto.
  destruct (N.ltb_spec (8 * n) (N.of_nat (length out))); [auto|]. rewrite f64s_length. lia.
Qed.
Lemma gz_total unpack dbg n bs :
  match unpack bs, gz_decode unpack dbg n bs with
  | Ok out, Ok vs => 8 * n <= N.of_nat (length out) /\ N.of_nat (length vs) = n
  | Ok out, Err e => e = EIO /\ N.of_nat (length out) < 8 * n
  | Ok out, Panic => dbg = true /\ 8 * n < N.of_nat (length out)
  | Err e, Err e' => e = e'
  | Panic, Panic => True
  | _, _ => False
  end.
Proof.
  unfold gz_decode. destruct (unpack bs) as [out|e|]; cbn [rbind]; auto.
  destruct (N.ltb_spec (N.of_nat (length out)) (8 * n)); [auto|].
  destruct dbg; cbn [andb]; [|rewrite f64s_length; lia].
  destruct (N.ltb_spec (8 * n) (N.of_nat (length out))); [auto|]. rewrite f64s_length. lia.
Qed.

Lemma xor_counts {E} e_init (e_step : E -> bwriter -> N -> E * bwriter) c xs :
  xin (x_compress E e_init e_step c xs) = 8 * N.of_nat (length xs).
Proof. unfold x_compress. destruct (x_steps _ _ _ _ _). cbn [xin x_reset]. lia. Qed.
Lemma sprintz_counts dbg c xs c' : sp_compress dbg c xs = Ok c' -> sp_in c' = 8 * N.of_nat (length xs).
Proof.
  unfold sp_compress. destruct (sp_write _ _ _ _); [|discriminate|discriminate]. intros H. injection H as <-. cbn [sp_in sp_reset]. lia.
Qed.
Lemma length_bytes_of xs : length (flat_map (le_bytes 8) xs) = (8 * length xs)%nat.
Proof. induction xs as [|x xs IH]; [reflexivity|]. cbn [flat_map]. rewrite app_length, IH, le_bytes_length. cbn [length]. lia. Qed.
Lemma gz_counts pack c xs c' : gz_compress pack c xs = Ok c' -> bc_in c' = 8 * N.of_nat (length xs).
Proof.
  unfold gz_compress, zstd_compress. destruct (pack _); [|discriminate|discriminate]. intros H. injection H as <-.
  cbn [bc_in bc_reset]. rewrite length_bytes_of. lia.
Qed.
Lemma rle_counts c xs c' : rle_compress c xs = Ok c' -> rl_in c' = 8 * N.of_nat (length xs).
Proof. intros H. apply (compress_in c). exact H. Qed.
