(** Raw chunks: proofs. *)
From Verif Require Import Base Xor RawSpec Rle Uncompressed WordProofs RleProofs.

Lemma f64s_of_flat xs rest : Forall is_u64 xs ->
  f64s_of_bytes (length xs) (flat_map (le_bytes 8) xs ++ rest) = xs.
Proof.
  induction 1 as [|x xs Hx HX IH]; auto.
  change (flat_map (le_bytes 8) (x :: xs)) with (le_bytes 8 x ++ flat_map (le_bytes 8) xs).
  rewrite <- app_assoc. set (tl := flat_map (le_bytes 8) xs ++ rest) in *.
  change (le_val (firstn 8 (le_bytes 8 x ++ tl)) :: f64s_of_bytes (length xs) (skipn 8 (le_bytes 8 x ++ tl)) = x :: xs).
  change (firstn 8 (le_bytes 8 x ++ tl)) with (le_bytes 8 x).
  change (skipn 8 (le_bytes 8 x ++ tl)) with tl.
  rewrite IH, le_val_bytes; auto.
Qed.

Lemma flat_le8_length xs : length (flat_map (le_bytes 8) xs) = (8 * length xs)%nat.
Proof.
  induction xs as [|x xs IH]; auto. cbn [flat_map]. rewrite app_length, IH, le_bytes_length. cbn [length]. lia.
Qed.

Lemma unc_iter_ok xs fuel rest : (length xs <= fuel)%nat -> Forall is_u64 xs ->
  unc_iter_collect fuel (N.of_nat (length xs)) (flat_map (le_bytes 8) xs ++ rest) = Ok xs.
Proof.
  intros Hf HX. revert fuel Hf. induction HX as [|x xs Hx HX IH]; intros fuel Hf.
  - destruct fuel; reflexivity.
  - destruct fuel as [|fuel]; [cbn in Hf; lia|]. cbn [unc_iter_collect].
    replace (N.of_nat (length (x :: xs)) =? 0) with false by (cbn [length]; lia).
    cbn [flat_map]. rewrite <- app_assoc, take_exact_app by apply le_bytes_length. cbn [rbind].
    replace (N.of_nat (length (x :: xs)) - 1) with (N.of_nat (length xs)) by (cbn [length]; lia).
    rewrite IH by (cbn in Hf; lia). cbn [rbind]. rewrite le_val_bytes; auto.
Qed.

Lemma unc_decode c : Forall is_u64 (un_buf c) ->
  let r := unc_open (N.of_nat (length (un_buf c))) (unc_buffers (unc_prepare c)) in
  fst (unc_decompress r) = Ok (un_buf c) /\ unc_iter r = Ok (un_buf c).
Proof.
  intros HU. unfold unc_open, unc_prepare, unc_buffers. unfold unc_decompress, unc_iter. cbn [ur_cache ur_records ur_cursor].
  rewrite flat_le8_length. replace (N.of_nat (8 * length (un_buf c)) <? 8 * N.of_nat (length (un_buf c))) with false by lia.
  cbn [fst]. split.
  - rewrite Nat2N.id. f_equal. pose proof (f64s_of_flat (un_buf c) [] HU) as H. rewrite app_nil_r in H. exact H.
  - pose proof (unc_iter_ok (un_buf c) (S (8 * length (un_buf c))) [] ltac:(lia) HU) as H.
    rewrite app_nil_r in H. exact H.
Qed.

Lemma raw_step_ok c o : op_u64 o -> Forall is_u64 (un_buf c) ->
  let '(c', a) := unc_step c o in
  raw_step (un_buf c) o = (un_buf c', a) /\ Forall is_u64 (un_buf c').
Proof.
  intros HO HU. destruct o as [xs|xs|n| |]; cbn [unc_step raw_step op_u64] in *; auto.
  - split; auto. cbn. apply Forall_app; auto.
  - unfold unc_rewind. destruct (N.ltb_spec (N.of_nat (length (un_buf c))) n).
    + replace (n <=? N.of_nat (length (un_buf c))) with false by lia. auto.
    + replace (n <=? N.of_nat (length (un_buf c))) with true by lia. cbn [un_buf]. split.
      * do 2 f_equal. lia.
      * rewrite Forall_forall in *. intros x Hx. apply HU. rewrite <- (firstn_skipn (length (un_buf c) - N.to_nat n)).
        apply in_or_app. auto.
  - split; [reflexivity|constructor].
Qed.

Lemma raw_run_ok os c : Forall op_u64 os -> Forall is_u64 (un_buf c) ->
  let '(c', l) := unc_run c os in
  raw_run (un_buf c) os = (un_buf c', l) /\ Forall is_u64 (un_buf c').
Proof.
  revert c. induction os as [|o os IH]; intros c HO HU; [split; auto|].
  inversion HO; subst. cbn [unc_run raw_run]. pose proof (raw_step_ok c o ltac:(auto) HU) as HS.
  destruct (unc_step c o) as [c1 a]. destruct HS as [-> HU1]. specialize (IH c1 ltac:(auto) HU1).
  destruct (unc_run c1 os) as [c2 l]. destruct IH as [-> HU2]. auto.
Qed.
