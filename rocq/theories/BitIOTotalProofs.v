(** Reads of any width, from any bytes. *)
From Verif Require Import Base WordProofs BitIO BitIOProofs.

Lemma shl64_lt a k : shl64 a k < two64.
Proof. unfold shl64. apply N.mod_lt. discriminate. Qed.
Lemma lor_lt64 a b : a < two64 -> b < two64 -> N.lor a b < two64.
Proof.
  change two64 with (2 ^ 64). intros A B. destruct (N.eq_dec (N.lor a b) 0) as [->|NE]; [reflexivity|].
  apply N.log2_lt_pow2; [lia|]. rewrite N.log2_lor.
  assert (L : forall x, x < 2 ^ 64 -> N.log2 x < 64).
  { intros x X. destruct (N.eq_dec x 0) as [->|]; [reflexivity|]. apply N.log2_lt_pow2; [lia|assumption]. }
  apply L in A. apply L in B. lia.
Qed.
Lemma read_full_total fuel : forall r acc rem, rwf r -> acc < two64 -> (N.to_nat rem <= fuel)%nat -> rpos r + rem <= rlen r * 8 ->
  exists acc' rem' r', read_full fuel r acc rem = Some (acc', rem', r') /\ rem' < 8 /\ acc' < two64 /\ rwf r' /\ rbuf r' = rbuf r /\
    rpos r' + rem' = rpos r + rem.
Proof.
  induction fuel as [|f IH]; intros r acc rem W A F P; cbn [read_full].
  - exists acc, rem, r. assert (rem = 0) by lia. subst. split; [reflexivity|]. split; [lia|]. auto.
  - destruct (N.leb_spec 8 rem) as [H8|H8].
    + destruct (read_byte_unchecked_rep r W) as (y&r'&E&BY&W'&RR&RB&RP).
      { lia. }
      rewrite E. destruct (IH r' (N.lor (shl64 acc 8) y) (rem - 8)) as (acc'&rem'&r2&E2&H1&H2&H3&H4&H5); auto.
      * apply lor_lt64; [apply shl64_lt|]. change two64 with 18446744073709551616. unfold is_byte in BY. lia.
      * lia.
      * unfold rlen in *. rewrite RB. lia.
      * exists acc', rem', r2. split; [exact E2|]. split; [exact H1|]. split; [exact H2|]. split; [exact H3|]. split; [congruence|lia].
    + exists acc, rem, r. auto 8.
Qed.
Lemma read_rest_total n : forall r acc, rwf r -> acc < two64 -> rpos r + N.of_nat n <= rlen r * 8 ->
  exists v r', read_rest n r acc = Some (v, r') /\ v < two64 /\ rwf r' /\ rbuf r' = rbuf r /\ rpos r' = rpos r + N.of_nat n.
Proof.
  induction n as [|n IH]; intros r acc W A P; cbn [read_rest].
  - exists acc, r. split; [reflexivity|]. split; [exact A|]. split; [exact W|]. split; [reflexivity|lia].
  - destruct (read_bit_unchecked_rep r W) as (b&r'&E&W'&RR&RB&RP). { unfold rpos in P. lia. }
    rewrite E. destruct (IH r' (if b then N.lor (shl64 acc 1) 1 else shl64 acc 1)) as (v&r2&E2&H1&H2&H3&H4); auto.
    + destruct b; [apply lor_lt64; [apply shl64_lt|reflexivity]|apply shl64_lt].
    + unfold rlen in *. rewrite RB. lia.
    + exists v, r2. split; [exact E2|]. split; [exact H1|]. split; [exact H2|]. split; [congruence|lia].
Qed.

(** Any width: a u64 and a cursor moved by [n], or the end, cursor unmoved. *)
Lemma read_bits_total r n : rwf r ->
  (exists v r', read_bits r n = Got v r' /\ v < two64 /\ rwf r' /\ rbuf r' = rbuf r /\ rpos r' = rpos r + n /\ rpos r + n <= rlen r * 8) \/
  (read_bits r n = End_ r /\ rlen r * 8 < rpos r + n).
Proof.
  intros W. pose proof W as (HF & H & H'). unfold read_bits.
  destruct (N.ltb_spec (rlen r) (rbyte r)) as [?|_]; [lia|].
  destruct (N.ltb_spec ((rlen r - rbyte r) * 8) (rbit r)) as [?|_]; [lia|]. cbn [orb].
  destruct (N.ltb_spec ((rlen r - rbyte r) * 8 - rbit r) n) as [L|L]; [right; split; [reflexivity|unfold rpos; lia]|left].
  destruct (read_full_total (N.to_nat n) r 0 n W ltac:(reflexivity) ltac:(lia)) as (a&rem&r1&E1&R8&A&W1&B1&P1); [unfold rpos; lia|].
  rewrite E1. destruct (read_rest_total (N.to_nat rem) r1 a W1 A) as (v&r2&E2&V&W2&B2&P2).
  { unfold rlen in *. rewrite B1. unfold rpos in *. lia. }
  rewrite E2. exists v, r2. split; [reflexivity|]. split; [exact V|]. split; [exact W2|]. split; [congruence|]. split; [lia|unfold rpos; lia].
Qed.
Lemma read_byte_total r : rwf r ->
  (exists v r', read_byte r = Got v r' /\ v < 256 /\ rwf r' /\ rbuf r' = rbuf r /\ rpos r' = rpos r + 8) \/ read_byte r = End_ r.
Proof.
  intros W. destruct (read_byte_rep r W) as [A B]. destruct (Nat.lt_ge_cases (length (rrem r)) 8) as [L|L]; [right; auto|left].
  destruct (A L) as (y&r'&E&BY&W'&_&RB&RP). exists y, r'. auto 7.
Qed.
Lemma read_bit_total r : rwf r ->
  (exists b r', read_bit r = Got b r' /\ rwf r' /\ rbuf r' = rbuf r /\ rpos r' = rpos r + 1) \/ read_bit r = End_ r.
Proof.
  intros W. pose proof (read_bit_rep r W) as H. destruct (rrem r) as [|b rest]; [now right|left].
  destruct H as (r'&E&W'&_&RB&RP). exists b, r'. auto 6.
Qed.
