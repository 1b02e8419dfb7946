(** Model of ebi/src/io/bit_write.rs (BufferedBitWriter) and
    ebi/src/io/bit_read.rs (BufferedBitReader). *)
From Verif Require Import Base.

(** bit_write.rs:111-122 [BufferedBitWriter { buffer, bit_pos }]. *)
Record bwriter := mkW { wbuf : list N; wpos : N }.

(** bit_write.rs:126-131 [new]; [with_capacity] and [from_vec] (137-155) give the
    same state. *)
Definition w_new : bwriter := mkW [] 8.

(** bit_write.rs:404-407 [reset]. *)
Definition w_reset (w : bwriter) : bwriter := mkW [] 8.

(** [self.buffer[len - 1] |= v].  On an empty buffer Rust would panic; that needs
    [bit_pos <> 8] with no byte, which no sequence of calls reaches
    (BitIOProofs.v: every reachable writer is [wof bs]). *)
Definition or_last (l : list N) (v : N) : list N :=
  removelast l ++ [N.lor (last l 0) v].

(** bit_write.rs:240-252 [write_bit]. *)
Definition write_bit (w : bwriter) (b : bool) : bwriter :=
  let '(buf, pos) := if wpos w =? 8 then (wbuf w ++ [0], 0) else (wbuf w, wpos w) in
  let buf := if b then or_last buf (N.shiftl 1 (7 - pos)) else buf in
  mkW buf (pos + 1).

(** bit_write.rs:278-286 [write_byte]. *)
Definition write_byte (w : bwriter) (y : N) : bwriter :=
  if wpos w =? 8 then mkW (wbuf w ++ [y]) (wpos w)
  else mkW (or_last (wbuf w) (N.shiftr y (wpos w)) ++ [shl8 y (8 - wpos w)]) (wpos w).

(** bit_write.rs:50-54: the loop writing full bytes.  [fuel] bounds the number of
    iterations; [num] iterations always suffice. *)
Fixpoint write_full (fuel : nat) (w : bwriter) (bits rem : N) : bwriter * N :=
  match fuel with
  | O => (w, rem)
  | S f =>
      if 8 <=? rem
      then write_full f (write_byte w (N.shiftr bits (rem - 8) mod 256)) bits (rem - 8)
      else (w, rem)
  end.

(** bit_write.rs:59-62: [for i in (0..rem).rev()] writing single bits. *)
Fixpoint write_rest (i : nat) (w : bwriter) (v : N) : bwriter :=
  match i with
  | O => w
  | S j => write_rest j (write_bit w (negb (N.land (N.shiftr v (N.of_nat j)) 1 =? 0))) v
  end.

(** bit_write.rs:46-64 [write_bits].  Documented precondition: [num <= 64]. *)
Definition write_bits (w : bwriter) (bits num : N) : bwriter :=
  let '(w, rem) := write_full (N.to_nat num) w bits num in
  if 0 <? rem
  then write_rest (N.to_nat rem) w (N.land bits (N.shiftl 1 rem - 1))
  else w.

(** bit_write.rs:355-357 [number_of_bits_written]. *)
Definition number_of_bits_written (w : bwriter) : N :=
  N.of_nat (length (wbuf w)) * 8 - (8 - wpos w).

(** bit_write.rs:319-337 [set_cursor_at_in_bit]. *)
Definition and_last (l : list N) (m : N) : list N :=
  removelast l ++ [N.land (last l 0) m].
Definition set_cursor_at_in_bit (w : bwriter) (cursor : N) : bwriter :=
  let byte_pos := N.to_nat ((cursor + 7) / 8) in
  let pos := if cursor mod 8 =? 0 then 8 else cursor mod 8 in
  if Nat.leb byte_pos (length (wbuf w)) then
    let buf := firstn byte_pos (wbuf w) in
    if pos =? 8 then mkW buf pos
    else mkW (and_last buf (shl8 255 (8 - pos))) pos
  else mkW (wbuf w ++ repeat 0 (byte_pos - length (wbuf w))) pos.

(** bit_read.rs:96-100 [BufferedBitReader { buffer, bit_pos, byte_pos }]. *)
Record breader := mkR { rbuf : list N; rbyte : N; rbit : N }.

(** bit_read.rs:117-123 [new]; 125-128 [reset]. *)
Definition r_new (buf : list N) : breader := mkR buf 0 0.
Definition r_reset (r : breader) : breader := mkR (rbuf r) 0 0.

Definition rlen (r : breader) : N := N.of_nat (length (rbuf r)).
(** [buffer[i]] for an index already known to be in range. *)
Definition byte_at (buf : list N) (i : N) : N := nth (N.to_nat i) buf 0.

(** bit_read.rs:130-141 [read_bit_unchecked]; indexing past the end panics. *)
Definition read_bit_unchecked (r : breader) : option (bool * breader) :=
  if rlen r <=? rbyte r then None else
  let bit := negb (N.land (N.shiftr (byte_at (rbuf r) (rbyte r)) (7 - rbit r)) 1 =? 0) in
  let pos := rbit r + 1 in
  Some (bit, if pos =? 8 then mkR (rbuf r) (rbyte r + 1) 0 else mkR (rbuf r) (rbyte r) pos).

(** bit_read.rs:143-159 [read_byte_unchecked]; indexing past the end panics. *)
Definition read_byte_unchecked (r : breader) : option (N * breader) :=
  if rlen r <=? rbyte r then None else
  if rbit r =? 0
  then Some (byte_at (rbuf r) (rbyte r), mkR (rbuf r) (rbyte r + 1) (rbit r))
  else
    let hi := shl8 (byte_at (rbuf r) (rbyte r)) (rbit r) in
    let lo := if rbyte r + 1 <? rlen r
              then N.shiftr (byte_at (rbuf r) (rbyte r + 1)) (8 - rbit r) else 0 in
    Some (N.lor hi lo, mkR (rbuf r) (rbyte r + 1) (rbit r)).

(** bit_read.rs:179-184 [skip_bits]. *)
Definition skip_bits (r : breader) (n : N) : breader :=
  mkR (rbuf r) (rbyte r + (n + rbit r) / 8) ((n + rbit r) mod 8).

(** Result of a checked read: [Some v], [None] (the documented end of data), or a
    panic (cursor moved past the end by [skip_bits], so that the subtraction in
    bit_read.rs:297 overflows). *)
Inductive rd (A : Type) : Type := Got (a : A) (r : breader) | End_ (r : breader) | RPanic.
Arguments Got {A} a r.
Arguments End_ {A} r.
Arguments RPanic {A}.

(** bit_read.rs:211-218 [read_bit]. *)
Definition read_bit (r : breader) : rd bool :=
  if rlen r <=? rbyte r then End_ r
  else match read_bit_unchecked r with Some (b, r') => Got b r' | None => RPanic end.

(** bit_read.rs:251-261 [read_byte]. *)
Definition read_byte (r : breader) : rd N :=
  if rlen r <=? rbyte r then End_ r
  else if (rlen r <=? rbyte r + 1) && negb (rbit r =? 0) then End_ r
  else match read_byte_unchecked r with Some (b, r') => Got b r' | None => RPanic end.

(** bit_read.rs:302-306: full bytes; [result << 8] drops the top byte. *)
Fixpoint read_full (fuel : nat) (r : breader) (acc rem : N) : option (N * N * breader) :=
  match fuel with
  | O => Some (acc, rem, r)
  | S f =>
      if 8 <=? rem then
        match read_byte_unchecked r with
        | Some (y, r') => read_full f r' (N.lor (shl64 acc 8) y) (rem - 8)
        | None => None
        end
      else Some (acc, rem, r)
  end.

(** bit_read.rs:309-315: the remaining bits one by one. *)
Fixpoint read_rest (n : nat) (r : breader) (acc : N) : option (N * breader) :=
  match n with
  | O => Some (acc, r)
  | S m =>
      match read_bit_unchecked r with
      | Some (b, r') => read_rest m r' (if b then N.lor (shl64 acc 1) 1 else shl64 acc 1)
      | None => None
      end
  end.

(** bit_read.rs:293-318 [read_bits].  The subtraction in line 297 overflows when
    the cursor is beyond the end; modelled as a panic (debug build; a release
    build wraps and then panics on the out-of-range index for n >= 1). *)
Definition read_bits (r : breader) (n : N) : rd N :=
  if (rlen r <? rbyte r) || ((rlen r - rbyte r) * 8 <? rbit r) then RPanic
  else if (rlen r - rbyte r) * 8 - rbit r <? n then End_ r
  else match read_full (N.to_nat n) r 0 n with
       | Some (acc, rem, r') =>
           match read_rest (N.to_nat rem) r' acc with
           | Some (v, r'') => Got v r''
           | None => RPanic
           end
       | None => RPanic
       end.

(** bit_read.rs:356-367 [peak_bits]. *)
Definition peak_bits (r : breader) (n : N) : rd N :=
  match read_bits r n with
  | Got v r' => Got v (mkR (rbuf r') (rbyte r) (rbit r))
  | End_ r' => End_ (mkR (rbuf r') (rbyte r) (rbit r))
  | RPanic => RPanic
  end.
