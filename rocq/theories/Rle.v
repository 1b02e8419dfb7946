(** Model of ebi/src/compressor/run_length.rs,
    ebi/src/decoder/chunk_reader/run_length.rs and
    ebi/src/format/run_length.rs. *)
From Verif Require Import Base Xor RawSpec.

(** A stored field: run length (u8) and value (f64 bits). *)
Notation field := (N * N)%type.

(** compressor/run_length.rs:50-51: 9 bytes per field. *)
Definition field_bytes (f : field) : list N := le_bytes 1 (fst f) ++ le_bytes 8 (snd f).

(** compressor/run_length.rs:25-31 [RunLengthCompressor].  Simplification:
    [bytes] is kept as the list of fields it holds, since it is only ever
    extended by whole fields (50-51), read in units of 9 bytes (179) and
    truncated by multiples of 9 (211). *)
Record rle := mkRle {
  rl_in : N;            (* total_bytes_in *)
  rl_count : N;         (* header.number_of_fields *)
  rl_fields : list field;
  rl_prev : N;          (* previous_value *)
  rl_run : N            (* previous_run_count *)
}.

(** compressor/run_length.rs:39-47 [with_capacity]. *)
Definition rle_new : rle := mkRle 0 0 [] 0 0.

(** compressor/run_length.rs:127-133 [reset] ([previous_value] is kept). *)
Definition rle_reset (c : rle) : rle := mkRle 0 0 [] (rl_prev c) 0.

(** compressor/run_length.rs:49-54 [add_field]. *)
Definition rle_add_field (c : rle) (v run : N) : rle :=
  mkRle (rl_in c) (rl_count c + 1) (rl_fields c ++ [(run, v)]) (rl_prev c) (rl_run c).

(** compressor/run_length.rs:74-87: one iteration of the loop. *)
Definition rle_push (c : rle) (v : N) : rle :=
  if (rl_prev c =? v) && (rl_run c <? 255)
  then mkRle (rl_in c) (rl_count c) (rl_fields c) (rl_prev c) (rl_run c + 1)
  else
    let c := rle_add_field c (rl_prev c) (rl_run c) in
    mkRle (rl_in c) (rl_count c) (rl_fields c) v 1.

(** compressor/run_length.rs:141-166 [append_compress]; [input[0]] panics on an
    empty slice when no run is open. *)
Definition rle_append (c : rle) (xs : list N) : res derr rle :=
  let add_in c := mkRle (rl_in c + 8 * N.of_nat (length xs)) (rl_count c) (rl_fields c) (rl_prev c) (rl_run c) in
  if rl_run c =? 0 then
    match xs with
    | [] => Panic
    | x :: xs' =>
        Ok (add_in (fold_left rle_push xs' (mkRle (rl_in c) (rl_count c) (rl_fields c) x 1)))
    end
  else Ok (add_in (fold_left rle_push xs c)).

(** compressor/run_length.rs:64-92 [compress]: reset, then the same loop. *)
Definition rle_compress (c : rle) (xs : list N) : res derr rle := rle_append (rle_reset c) xs.

(** compressor/run_length.rs:98-107 [total_bytes_buffered]. *)
Definition rle_total_bytes_buffered (c : rle) : N :=
  8 + 9 * N.of_nat (length (rl_fields c)) + (if rl_run c =? 0 then 0 else 9).

(** compressor/run_length.rs:111-117 [prepare]. *)
Definition rle_prepare (c : rle) : rle :=
  if rl_run c =? 0 then c
  else
    let c := rle_add_field c (rl_prev c) (rl_run c) in
    mkRle (rl_in c) (rl_count c) (rl_fields c) (rl_prev c) 0.

(** compressor/run_length.rs:119-125 [buffers]. *)
Definition rle_buffers (c : rle) : list N :=
  le_bytes 8 (rl_count c) ++ flat_map field_bytes (rl_fields c).

(** compressor/run_length.rs:184-199: the loop of [rewind] over the open run and
    then the stored fields from the last; returns the records left over, the
    fields visited, and the run to reopen. *)
Fixpoint rle_rewind_loop (fs : list field) (remaining visited : N) : N * N * option field :=
  match fs with
  | [] => (remaining, visited, None)
  | (run, v) :: fs' =>
      if run <=? remaining then rle_rewind_loop fs' (remaining - run) (visited + 1)
      else (0, visited + 1, Some (run - remaining, v))
  end.

(** compressor/run_length.rs:170-218 [rewind]. *)
Definition rle_rewind (c : rle) (n : N) : bool * rle :=
  if rl_run c =? 0 then (false, c)
  else
    let '(remaining, visited, reopened) :=
      rle_rewind_loop ((rl_run c, rl_prev c) :: rev (rl_fields c)) n 0 in
    if negb (remaining =? 0) then (false, c)
    else
      let '(run, v) := match reopened with Some f => f | None => (0, rl_prev c) end in
      (true, mkRle (rl_in c - n * 8) (rl_count c - (visited - 1))
               (firstn (length (rl_fields c) - N.to_nat (visited - 1)) (rl_fields c)) v run).

(** ** Reader *)

(** [read_exact] on the in-memory cursor: the next [k] bytes, or an IO error. *)
Definition take_exact (k : nat) (bs : list N) : res derr (list N * list N) :=
  if (length bs <? k)%nat then Err EIO else Ok (firstn k bs, skipn k bs).

(** chunk_reader/run_length.rs:18-23: the reader; [number_of_records] only sizes
    an allocation and is left out. *)
Record rlreader := mkRlr { rr_fields : N; rr_cursor : list N; rr_cache : option (list N) }.

(** chunk_reader/run_length.rs:27-48 [new], on the bytes of a chunk. *)
Definition rle_open (bs : list N) : res derr rlreader :=
  do (hd, bs') <- take_exact 8 bs ;
  Ok (mkRlr (le_val hd) bs' None).

(** chunk_reader/run_length.rs:76-85: read and expand [n] fields; the cursor
    position is returned because the reader keeps it.  A failed [read_exact] on
    a cursor leaves it at its end. *)
Fixpoint rle_read_fields (fuel : nat) (n : N) (bs : list N) : res derr (list N) * list N :=
  if n =? 0 then (Ok [], bs)
  else
    match fuel with
    | O => (Err EOutOfFuel, bs)
    | S f =>
        match take_exact 9 bs with
        | Ok (buf, bs') =>
            let run := nth 0 buf 0 in
            let v := le_val (skipn 1 buf) in
            let '(o, bs'') := rle_read_fields f (n - 1) bs' in
            (do rest <- o ; Ok (repeat v (N.to_nat run) ++ rest), bs'')
        | Err e => (Err e, [])
        | Panic => (Panic, bs)
        end
    end.

(** chunk_reader/run_length.rs:68-91 [decompress]. *)
Definition rle_decompress (r : rlreader) : res derr (list N) * rlreader :=
  match rr_cache r with
  | Some vs => (Ok vs, r)
  | None =>
      let '(o, cur) := rle_read_fields (S (length (rr_cursor r))) (rr_fields r) (rr_cursor r) in
      match o with
      | Ok vs => (Ok vs, mkRlr (rr_fields r) cur (Some vs))
      | _ => (o, mkRlr (rr_fields r) cur None)
      end
  end.

(** chunk_reader/run_length.rs:137-156: the iterator of [decompress_iter]
    collected into a [Result<Vec<f64>>].  A zero run length underflows the u8
    counter (153): a panic in debug builds, 256 copies in release builds. *)
Fixpoint rle_iter_collect (dbg : bool) (fuel : nat) (n : N) (bs : list N) : res derr (list N) :=
  if n =? 0 then Ok []
  else
    match fuel with
    | O => Err EOutOfFuel
    | S f =>
        do (buf, bs') <- take_exact 9 bs ;
        let run := nth 0 buf 0 in
        let v := le_val (skipn 1 buf) in
        if dbg && (run =? 0) then Panic
        else
          do rest <- rle_iter_collect dbg f (n - 1) bs' ;
          Ok (repeat v (if run =? 0 then 256 else N.to_nat run) ++ rest)
    end.
Definition rle_iter (dbg : bool) (r : rlreader) : res derr (list N) :=
  rle_iter_collect dbg (S (length (rr_cursor r))) (rr_fields r) (rr_cursor r).

(** ** Calls as data *)
Definition rle_step (c : rle) (o : rop) : res derr (rle * option bool) :=
  match o with
  | OCompress xs => do c <- rle_compress c xs ; Ok (c, None)
  | OAppend xs => do c <- rle_append c xs ; Ok (c, None)
  | ORewind n => let '(b, c) := rle_rewind c n in Ok (c, Some b)
  | OPrepare => Ok (rle_prepare c, None)
  | OReset => Ok (rle_reset c, None)
  end.
Fixpoint rle_run (c : rle) (os : list rop) : res derr (rle * list (option bool)) :=
  match os with
  | [] => Ok (c, [])
  | o :: os' =>
      do (c', a) <- rle_step c o ;
      do (c'', l) <- rle_run c' os' ;
      Ok (c'', a :: l)
  end.
