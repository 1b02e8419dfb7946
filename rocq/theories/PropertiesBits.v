(** C01-C03, C56: bit writer and bit reader.  Specification vocabulary: BitSpec.v
    (bit strings) and BitOps.v (call sequences). *)
From Verif Require Import Base BitSpec BitIO BitIOProofs BitOps BitOpsProofs CursorProofs.

(** C01: reading back with the same sequence of calls returns every written
    value (its low [n] bits for [write_bits v n]). *)
Theorem C01_bit_roundtrip : forall ops, Forall wop_ok ops ->
  do_reads (r_new (wbuf (do_writes w_new ops))) ops = Some (map wop_val ops).
Proof. exact bit_roundtrip. Qed.
Print Assumptions C01_bit_roundtrip.

Example C01_example :
  let ops := [OBit true; OByte 200; OBits 1000000 13; OBits 18446744073709551615 64; OBits 7 0] in
  Forall wop_ok ops /\ wbuf (do_writes w_new ops) = [228; 9; 3; 255; 255; 255; 255; 255; 255; 255; 252].
Proof. split; [|vm_compute; reflexivity]. repeat constructor; cbn; unfold two64; lia. Qed.

(** C02: the writer holds exactly the bits written, in order, in the fewest
    bytes, padded with zeros, and counts them correctly. *)
Theorem C02_writer_accounting : forall ops, Forall wop_ok ops ->
  let w := do_writes w_new ops in
  let total := fold_right (fun o a => wop_width o + a) 0 ops in
  number_of_bits_written w = total /\
  N.of_nat (length (wbuf w)) = (total + 7) / 8 /\
  Forall (fun b => b < 256) (wbuf w) /\
  exists pad, bytes_bits (wbuf w) = flat_map wop_bits ops ++ repeat false pad /\ (pad < 8)%nat.
Proof. exact writer_accounting. Qed.
Print Assumptions C02_writer_accounting.

Example C02_example :
  let w := do_writes w_new [OBit true; OBits 5 3] in
  number_of_bits_written w = 4 /\ wbuf w = [208] /\ bytes_bits [208] = [true; true; false; true; false; false; false; false].
Proof. vm_compute. auto. Qed.

(** C03: with the cursor inside the buffer ([rwf]), at bit [rpos], a read of [n]
    bits succeeds exactly when [n] bits are left, returns those bits and
    advances by [n]; otherwise it reports the end and does not move. *)
Theorem C03_reader_end : forall r n, rwf r -> n <= 64 ->
  (rpos r + n <= 8 * rlen r ->
     exists r', read_bits r n = Got (val_of (firstn (N.to_nat n) (skipn (N.to_nat (rpos r)) (bytes_bits (rbuf r))))) r' /\
       rbuf r' = rbuf r /\ rpos r' = rpos r + n /\ rwf r') /\
  (8 * rlen r < rpos r + n -> read_bits r n = End_ r).
Proof. exact reader_end. Qed.
Print Assumptions C03_reader_end.

Theorem C03_reader_bit_end : forall r, rwf r ->
  (rpos r < 8 * rlen r ->
     exists r', read_bit r = Got (nth (N.to_nat (rpos r)) (bytes_bits (rbuf r)) false) r' /\
       rbuf r' = rbuf r /\ rpos r' = rpos r + 1 /\ rwf r') /\
  (8 * rlen r <= rpos r -> read_bit r = End_ r).
Proof. exact reader_bit_end. Qed.
Print Assumptions C03_reader_bit_end.

Theorem C03_reader_byte_end : forall r, rwf r ->
  (rpos r + 8 <= 8 * rlen r ->
     exists r', read_byte r = Got (val_of (firstn 8 (skipn (N.to_nat (rpos r)) (bytes_bits (rbuf r))))) r' /\
       rbuf r' = rbuf r /\ rpos r' = rpos r + 8 /\ rwf r') /\
  (8 * rlen r < rpos r + 8 -> read_byte r = End_ r).
Proof. exact reader_byte_end. Qed.
Print Assumptions C03_reader_byte_end.

(** Skipping [n] bits that are there discards exactly those. *)
Theorem C03_reader_skip : forall r n m, rwf r -> rpos r + n <= 8 * rlen r ->
  rpos (skip_bits r n) = rpos r + n /\ rbuf (skip_bits r n) = rbuf r /\ rwf (skip_bits r n) /\
  skipn (N.to_nat n) (rrem r) = rrem (skip_bits r n) /\
  (m <= 64 -> rpos r + n + m <= 8 * rlen r ->
     exists r', read_bits (skip_bits r n) m =
       Got (val_of (firstn (N.to_nat m) (skipn (N.to_nat (rpos r + n)) (bytes_bits (rbuf r))))) r').
Proof. exact reader_skip. Qed.
Print Assumptions C03_reader_skip.

(** Peeking returns what reading would and leaves the reader as it was. *)
Theorem C03_reader_peak : forall r n, rwf r -> n <= 64 ->
  peak_bits r n = match read_bits r n with Got v _ => Got v r | End_ _ => End_ r | RPanic => RPanic end
  /\ read_bits r n <> RPanic.
Proof. exact reader_peak. Qed.
Print Assumptions C03_reader_peak.

Example C03_example :
  let r := mkR [165; 240] 0 3 in
  rwf r /\ read_bits r 7 = Got 23 (mkR [165; 240] 1 2) /\ read_bits r 14 = End_ r
  /\ peak_bits r 7 = Got 23 r /\ read_bits (skip_bits r 5) 2 = Got 3 (mkR [165; 240] 1 2).
Proof. split; [|vm_compute; auto]. split; [repeat constructor|]. split; vm_compute; [reflexivity|discriminate]. Qed.

(** C56: moving the cursor to bit [n] keeps the first [n] bits (zeros beyond what
    was written) and drops the rest; later writes go right behind them. *)
Theorem C56_write_cursor : forall ops1 n ops2, Forall wop_ok ops1 -> Forall wop_ok ops2 ->
  let w := do_writes (set_cursor_at_in_bit (do_writes w_new ops1) n) ops2 in
  let before := flat_map wop_bits ops1 in
  let bits := firstn (N.to_nat n) (before ++ repeat false (N.to_nat n)) ++ flat_map wop_bits ops2 in
  number_of_bits_written w = N.of_nat (length bits) /\
  exists pad, bytes_bits (wbuf w) = bits ++ repeat false pad /\ (pad < 8)%nat.
Proof. exact cursor_history. Qed.
Print Assumptions C56_write_cursor.

Example C56_example :
  wbuf (do_writes (set_cursor_at_in_bit (do_writes w_new [OByte 0xef; OByte 0xff]) 11) [OBit false; OBit true]) = [0xef; 232] /\
  wbuf (do_writes (set_cursor_at_in_bit (do_writes w_new [OBit true]) 9) [OBit true]) = [128; 64].
Proof. split; vm_compute; reflexivity. Qed.
