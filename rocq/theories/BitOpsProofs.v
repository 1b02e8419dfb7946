From Verif Require Import Base BitSpec BitSpecProofs BitIO BitIOProofs WordProofs BitOps.

Lemma do_write_rep w bs o : wrep w bs -> wop_ok o -> wrep (do_write w o) (bs ++ wop_bits o).
Proof.
  destruct o as [b|y|v n]; cbn [do_write wop_bits wop_ok]; intros Hw Ho.
  - apply write_bit_rep; auto.
  - apply write_byte_rep; auto.
  - apply write_bits_rep; auto.
Qed.

Lemma do_writes_rep ops w bs : wrep w bs -> Forall wop_ok ops ->
  wrep (do_writes w ops) (bs ++ flat_map wop_bits ops).
Proof.
  revert w bs; induction ops as [|o ops IH]; intros w bs Hw HF.
  - cbn. rewrite app_nil_r. auto.
  - inversion HF; subst. cbn [do_writes fold_left flat_map]. rewrite app_assoc.
    apply IH; auto. apply do_write_rep; auto.
Qed.

Lemma do_read_rep r o rest : rwf r -> wop_ok o -> rrem r = wop_bits o ++ rest ->
  exists r', do_read r o = Got (wop_val o) r' /\ rwf r' /\ rrem r' = rest.
Proof.
  destruct o as [b|y|v n]; cbn [do_read wop_bits wop_ok wop_val]; intros Hw Ho HR.
  - destruct (read_bit_cons r b rest Hw HR) as (r' & E & H). rewrite E. eauto.
  - destruct (read_byte_rep r Hw) as [H1 _]. destruct H1 as (y' & r' & E & Hy & Hw' & HR' & _).
    { rewrite HR, app_length, bits_of_length. lia. }
    rewrite HR in HR'.
    assert (HX : firstn 8 (bits_of 8 y ++ rest) = firstn 8 (bits_of 8 y' ++ rrem r')) by congruence.
    rewrite !firstn_app_len in HX by (rewrite bits_of_length; auto).
    apply bits_of_inj in HX; [|exact Ho|exact Hy]. subst y'.
    apply app_inv_head in HR'. subst. eauto.
  - destruct Ho. apply read_bits_field; auto.
Qed.

Lemma do_reads_rep ops r rest : rwf r -> Forall wop_ok ops -> rrem r = flat_map wop_bits ops ++ rest ->
  do_reads r ops = Some (map wop_val ops).
Proof.
  revert r; induction ops as [|o ops IH]; intros r Hw HF HR; auto.
  inversion HF as [|? ? Ho HF']; subst. cbn [flat_map] in HR. rewrite <- app_assoc in HR.
  destruct (do_read_rep r o _ Hw Ho HR) as (r' & E & Hw' & HR').
  cbn [do_reads map]. rewrite E, (IH r' Hw' HF' HR'). auto.
Qed.

Lemma bit_roundtrip ops : Forall wop_ok ops ->
  do_reads (r_new (wbuf (do_writes w_new ops))) ops = Some (map wop_val ops).
Proof.
  intros HF. pose proof (do_writes_rep ops w_new [] wrep_new HF) as (HB & _ & HE).
  eapply do_reads_rep; auto.
  - apply rwf_new; auto.
  - rewrite rrem_new, HE. reflexivity.
Qed.

Lemma wop_bits_length o : length (wop_bits o) = N.to_nat (wop_width o).
Proof. destruct o; cbn [wop_bits wop_width]; auto; apply bits_of_length. Qed.

Lemma flat_wop_length ops :
  length (flat_map wop_bits ops) = N.to_nat (fold_right (fun o a => wop_width o + a) 0 ops).
Proof.
  induction ops as [|o ops IH]; auto. cbn [flat_map fold_right].
  rewrite app_length, wop_bits_length, IH. lia.
Qed.

Lemma writer_accounting ops : Forall wop_ok ops ->
  let w := do_writes w_new ops in
  let total := fold_right (fun o a => wop_width o + a) 0 ops in
  number_of_bits_written w = total /\
  N.of_nat (length (wbuf w)) = (total + 7) / 8 /\
  Forall (fun b => b < 256) (wbuf w) /\
  exists pad, bytes_bits (wbuf w) = flat_map wop_bits ops ++ repeat false pad /\ (pad < 8)%nat.
Proof.
  intros HF w total. pose proof (do_writes_rep ops w_new [] wrep_new HF) as HW.
  fold w in HW. cbn [app] in HW. pose proof (wrep_length _ _ HW) as HL.
  pose proof (number_of_bits_written_rep _ _ HW) as HN. rewrite flat_wop_length in HL, HN.
  fold total in HL, HN. clearbody total.
  destruct HW as (HB & HP & HE).
  split; [rewrite HN; lia|]. split; [|split; [exact HB|]].
  - apply N.div_unique with (r := (total + 7) - 8 * N.of_nat (length (wbuf w))); lia.
  - exists (N.to_nat (8 - wpos w)). split; [exact HE|lia].
Qed.

Lemma reader_end r n : rwf r -> n <= 64 ->
  (rpos r + n <= 8 * rlen r ->
     exists r', read_bits r n = Got (val_of (firstn (N.to_nat n) (skipn (N.to_nat (rpos r)) (bytes_bits (rbuf r))))) r' /\
       rbuf r' = rbuf r /\ rpos r' = rpos r + n /\ rwf r') /\
  (8 * rlen r < rpos r + n -> read_bits r n = End_ r).
Proof.
  intros Hw Hn. pose proof (rrem_length r Hw) as HL. pose proof Hw as (_ & _ & HX).
  fold (rpos r) in HX. destruct (read_bits_rep r n Hw Hn) as [H1 H2]. split; intros H.
  - destruct H1 as (r' & E & Hw' & _ & HB & HP); [lia|]. eauto 10.
  - apply H2. lia.
Qed.

Lemma reader_bit_end r : rwf r ->
  (rpos r < 8 * rlen r ->
     exists r', read_bit r = Got (nth (N.to_nat (rpos r)) (bytes_bits (rbuf r)) false) r' /\
       rbuf r' = rbuf r /\ rpos r' = rpos r + 1 /\ rwf r') /\
  (8 * rlen r <= rpos r -> read_bit r = End_ r).
Proof.
  intros Hw. pose proof (rrem_length r Hw) as HL. pose proof Hw as (_ & _ & HX). fold (rpos r) in HX.
  pose proof (read_bit_rep r Hw) as H. split; intros HP.
  - destruct (rrem r) as [|b rest] eqn:ER; [cbn in HL; lia|].
    destruct H as (r' & E & Hw' & HR & HB & HP'). exists r'. split; auto. rewrite E. f_equal.
    unfold rrem in ER. rewrite <- (firstn_skipn (N.to_nat (rpos r)) (bytes_bits (rbuf r))), ER.
    rewrite app_nth2; rewrite firstn_length, bytes_bits_length; [|unfold rlen in *; lia].
    replace (_ - _)%nat with 0%nat by (unfold rlen in *; lia). reflexivity.
  - destruct (rrem r); auto. cbn in HL. lia.
Qed.

Lemma reader_byte_end r : rwf r ->
  (rpos r + 8 <= 8 * rlen r ->
     exists r', read_byte r = Got (val_of (firstn 8 (skipn (N.to_nat (rpos r)) (bytes_bits (rbuf r))))) r' /\
       rbuf r' = rbuf r /\ rpos r' = rpos r + 8 /\ rwf r') /\
  (8 * rlen r < rpos r + 8 -> read_byte r = End_ r).
Proof.
  intros Hw. pose proof (rrem_length r Hw) as HL. pose proof Hw as (_ & _ & HX). fold (rpos r) in HX.
  destruct (read_byte_rep r Hw) as [H1 H2]. split; intros HP.
  - destruct H1 as (y & r' & E & Hy & Hw' & HR & HB & HP'); [lia|]. exists r'. split; auto. rewrite E. f_equal.
    fold (rrem r). rewrite HR, firstn_app_len by (rewrite bits_of_length; auto).
    rewrite val_of_bits_of; auto.
  - apply H2. lia.
Qed.

Lemma reader_skip r n m : rwf r -> rpos r + n <= 8 * rlen r ->
  rpos (skip_bits r n) = rpos r + n /\ rbuf (skip_bits r n) = rbuf r /\ rwf (skip_bits r n) /\
  skipn (N.to_nat n) (rrem r) = rrem (skip_bits r n) /\
  (m <= 64 -> rpos r + n + m <= 8 * rlen r ->
     exists r', read_bits (skip_bits r n) m =
       Got (val_of (firstn (N.to_nat m) (skipn (N.to_nat (rpos r + n)) (bytes_bits (rbuf r))))) r').
Proof.
  intros Hw HP. pose proof (rrem_length r Hw) as HL. pose proof Hw as (_ & _ & HX). fold (rpos r) in HX.
  destruct (skip_bits_rep r n Hw) as [Hw' HR]; [lia|].
  assert (HP' : rpos (skip_bits r n) = rpos r + n).
  { unfold rpos, skip_bits. cbn. pose proof (N.div_mod (n + rbit r) 8). lia. }
  split; auto. split; auto. split; auto. split; auto. intros Hm HS.
  destruct (reader_end (skip_bits r n) m Hw' Hm) as [H1 _].
  rewrite HP' in H1. destruct H1 as (r' & E & _); eauto.
Qed.

Lemma reader_peak r n : rwf r -> n <= 64 ->
  peak_bits r n = match read_bits r n with Got v _ => Got v r | End_ _ => End_ r | RPanic => RPanic end
  /\ read_bits r n <> RPanic.
Proof.
  intros Hw Hn. split; [apply peak_bits_spec; auto|].
  destruct (reader_end r n Hw Hn) as [H1 H2].
  destruct (N.le_gt_cases (rpos r + n) (8 * rlen r)) as [H|H].
  - destruct (H1 H) as (r' & -> & _). discriminate.
  - rewrite (H2 H). discriminate.
Qed.
