(** Model of ebi/src/compressor/uncompressed.rs and
    ebi/src/decoder/chunk_reader/uncompressed.rs. *)
From Verif Require Import Base Xor RawSpec Rle.

(** compressor/uncompressed.rs:15-18. *)
Record unc := mkUnc { un_in : N; un_buf : list N }.

(** compressor/uncompressed.rs:21-26 [new]. *)
Definition unc_new : unc := mkUnc 0 [].

(** compressor/uncompressed.rs:63-66 [reset]. *)
Definition unc_reset (c : unc) : unc := mkUnc 0 [].

(** compressor/uncompressed.rs:74-81 [append_compress]. *)
Definition unc_append (c : unc) (xs : list N) : unc :=
  mkUnc (un_in c + 8 * N.of_nat (length xs)) (un_buf c ++ xs).

(** compressor/uncompressed.rs:30-40 [compress]. *)
Definition unc_compress (c : unc) (xs : list N) : unc := unc_append (unc_reset c) xs.

(** compressor/uncompressed.rs:46-48 [total_bytes_buffered]. *)
Definition unc_total_bytes_buffered (c : unc) : N := 8 * N.of_nat (length (un_buf c)).

(** compressor/uncompressed.rs:50 [prepare]. *)
Definition unc_prepare (c : unc) : unc := c.

(** compressor/uncompressed.rs:52-61 [buffers]: the memory of the f64 vector, on a
    little-endian machine. *)
Definition unc_buffers (c : unc) : list N := flat_map (le_bytes 8) (un_buf c).

(** compressor/uncompressed.rs:85-92 [rewind]: [total_bytes_in] is not updated. *)
Definition unc_rewind (c : unc) (n : N) : bool * unc :=
  if N.of_nat (length (un_buf c)) <? n then (false, c)
  else (true, mkUnc (un_in c) (firstn (length (un_buf c) - N.to_nat n) (un_buf c))).

(** io/as_bytes_mut.rs: f64 slice viewed as bytes, little-endian machine. *)
Fixpoint f64s_of_bytes (k : nat) (bs : list N) : list N :=
  match k with
  | O => []
  | S k' => le_val (firstn 8 bs) :: f64s_of_bytes k' (skipn 8 bs)
  end.

(** chunk_reader/uncompressed.rs:18-22: the reader. *)
Record unreader := mkUnr { ur_records : N; ur_cursor : list N; ur_cache : option (list N) }.

(** chunk_reader/uncompressed.rs:27-46 [new] on the bytes of a chunk. *)
Definition unc_open (records : N) (bs : list N) : unreader := mkUnr records bs None.

(** chunk_reader/uncompressed.rs:56-71 [decompress].  The allocation of
    8*number_of_records bytes is assumed to succeed. *)
Definition unc_decompress (r : unreader) : res derr (list N) * unreader :=
  match ur_cache r with
  | Some vs => (Ok vs, r)
  | None =>
      if N.of_nat (length (ur_cursor r)) <? 8 * ur_records r
      then (Err EIO, mkUnr (ur_records r) [] None)
      else
        let k := N.to_nat (ur_records r) in
        let vs := f64s_of_bytes k (ur_cursor r) in
        (Ok vs, mkUnr (ur_records r) (skipn (8 * k) (ur_cursor r)) (Some vs))
  end.

(** chunk_reader/uncompressed.rs:110-123: the iterator of [decompress_iter],
    collected into a [Result<Vec<f64>>]. *)
Fixpoint unc_iter_collect (fuel : nat) (n : N) (bs : list N) : res derr (list N) :=
  if n =? 0 then Ok []
  else
    match fuel with
    | O => Err EOutOfFuel
    | S f =>
        do (buf, bs') <- take_exact 8 bs ;
        do rest <- unc_iter_collect f (n - 1) bs' ;
        Ok (le_val buf :: rest)
    end.
Definition unc_iter (r : unreader) : res derr (list N) :=
  unc_iter_collect (S (length (ur_cursor r))) (ur_records r) (ur_cursor r).

(** ** Calls as data *)
Definition unc_step (c : unc) (o : rop) : unc * option bool :=
  match o with
  | OCompress xs => (unc_compress c xs, None)
  | OAppend xs => (unc_append c xs, None)
  | ORewind n => let '(b, c) := unc_rewind c n in (c, Some b)
  | OPrepare => (unc_prepare c, None)
  | OReset => (unc_reset c, None)
  end.
Fixpoint unc_run (c : unc) (os : list rop) : unc * list (option bool) :=
  match os with
  | [] => (c, [])
  | o :: os' =>
      let '(c', a) := unc_step c o in
      let '(c'', l) := unc_run c' os' in (c'', a :: l)
  end.
