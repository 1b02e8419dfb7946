(** The encoder: an input stream is cut into chunks, each chunk goes through the
    compressor, and header, chunks and footer are written.  The scheme is a
    record of functions ([codec]); Codecs.v has the instances. *)
From Verif Require Import Base Xor F64 Format.

(** ** Input (std::io::Read) *)

(** What the next calls of [Read::read] do: deliver these bytes (in as many calls
    as the buffers passed require), fail with [ErrorKind::Interrupted], with
    [ErrorKind::UnexpectedEof], or with any other error.  Delivering no bytes is
    [Ok(0)]; once the list is used up every call returns [Ok(0)]. *)
Inductive event := Data (bs : list N) | Interrupted | UnexpectedEof | Failure.

(** encoder.rs:279-294, the loop of [read_less_or_equal]: at most [want] more
    bytes; [got] are the bytes read so far. *)
Fixpoint read_loop (want : N) (got : list N) (input : list event) : res derr (list N * list event) :=
  if want =? 0 then Ok (got, input)
  else
    match input with
    | [] => Ok (got, [])
    | Data bs :: rest =>
        if want <? N.of_nat (length bs) then
          Ok (got ++ firstn (N.to_nat want) bs, Data (skipn (N.to_nat want) bs) :: rest)
        else match bs with
             | [] => Ok (got, rest)
             | _ => read_loop (want - N.of_nat (length bs)) (got ++ bs) rest
             end
    | Interrupted :: rest | UnexpectedEof :: rest =>
        match got with [] => Err EIO | _ => Ok (got, rest) end
    | Failure :: _ => Err EIO
    end.

(** The records in a byte buffer: whole groups of eight bytes, little-endian
    (encoder.rs:296 [truncate], 331-333 [chunks_exact]). *)
Fixpoint records_fuel (fuel : nat) (bs : list N) : list N :=
  match fuel with
  | O => []
  | S f => if (length bs <? 8)%nat then [] else le_val (firstn 8 bs) :: records_fuel f (skipn 8 bs)
  end.
Definition records_of (bs : list N) : list N := records_fuel (length bs) bs.

(** encoder.rs:272-298 [read_less_or_equal].  The buffer of [n_bytes] bytes is a
    capacity overflow beyond [isize::MAX]; a smaller one is assumed to be
    allocated. *)
Definition read_less_or_equal (n_bytes : N) (input : list event) : res derr (list N * list event) :=
  if isize_limit <=? 8 * ((n_bytes + 7) / 8) then Panic
  else do (bs, rest) <- read_loop n_bytes [] input ; Ok (records_of bs, rest).

(** std's [Read::read_to_end]: [Interrupted] is retried. *)
Fixpoint read_to_end (got : list N) (input : list event) : res derr (list N * list event) :=
  match input with
  | [] => Ok (got, [])
  | Data [] :: rest => Ok (got, rest)
  | Data bs :: rest => read_to_end (got ++ bs) rest
  | Interrupted :: rest => read_to_end got rest
  | UnexpectedEof :: _ | Failure :: _ => Err EIO
  end.

(** encoder.rs:350: [((n as f64 / 8.0) * 1.5).ceil() as usize]. *)
Definition best_effort_records (n : N) : N :=
  Z.to_N (as_u64 (fceil (fmul (fdiv (of_Z (Z.of_N n)) (of_Z 8)) (of_bits 0x3ff8000000000000)))).

(** [count * size_of::<f64>()] (encoder.rs:325, 354): a panic on overflow in debug
    builds, a wrapped product in release builds. *)
Definition mul8 (dbg : bool) (count : N) : res derr N :=
  if two64 <=? 8 * count then (if dbg then Panic else Ok ((8 * count) mod two64)) else Ok (8 * count).

(** encoder.rs:321-363: the records of the next chunk. *)
Definition read_chunk_input (dbg : bool) (o : chunk_option) (input : list event) : res derr (list N * list event) :=
  match o with
  | Full => do (bs, rest) <- read_to_end [] input ; Ok (records_of bs, rest)
  | RecordCount count => do n <- mul8 dbg count ; read_less_or_equal n input
  | ByteSizeBestEffort b => do n <- mul8 dbg (best_effort_records b) ; read_less_or_equal n input
  end.

(** ** Compression schemes *)

(** compressor.rs:39-66 [trait Compressor] and the reader of the same scheme:
    [cd_decode] takes the number of records of the chunk handle and the bytes of
    the chunk. *)
Record codec := mkCodec {
  cstate : Type;
  cd_new : cstate;
  cd_reset : cstate -> cstate;
  cd_compress : cstate -> list N -> res derr cstate;
  cd_total_in : cstate -> N;
  cd_prepare : cstate -> cstate;
  cd_buffers : cstate -> list N;
  cd_decode : N -> list N -> res derr (list N);
  (** the reader unwraps the result of reading the chunk (BUFF only) *)
  cd_unwraps : bool
}.

(** ** Output (std::io::Write + Seek) *)

Inductive wop := WWrite (bs : list N) | WSeek (pos : N).

(** Writing [bs] at position [p] of a file or of a [Cursor<Vec<u8>>]. *)
Definition overwrite (p : nat) (bs content : list N) : list N :=
  firstn p content ++ repeat 0 (p - length content) ++ bs ++ skipn (p + length bs) content.

Definition out_step (st : list N * nat) (o : wop) : list N * nat :=
  match o with
  | WWrite [] => st
  | WWrite bs => (overwrite (snd st) bs (fst st), (snd st + length bs)%nat)
  | WSeek p => (fst st, N.to_nat p)
  end.
Definition out_run (st : list N * nat) (os : list wop) : list N * nat := fold_left out_step os st.
(** The contents after the operations, starting at the beginning of [content]. *)
Definition written (content : list N) (os : list wop) : list N := fst (out_run (content, O) os).

(** ** FileWriter *)

(** encoder.rs:66-76. *)
Record fwriter := mkFw {
  fw_input : list event;
  fw_total_in : N;
  fw_total_out : N;
  fw_footers : list chunk_footer;  (* including the next one *)
  fw_eof : bool
}.

(** encoder.rs:80-96 [new]. *)
Definition fw_new (input : list event) : fwriter := mkFw input 0 0 [mkCf 30 0] false.

(** encoder.rs:192-233 [write_footer] with 126-132 (the chunk footers without the
    next one); the elapsed time is left zero, [crc] is 0. *)
Definition fw_footer (w : fwriter) (c : config) (t : times) : footer :=
  mkFooter (match rev (fw_footers w) with f :: _ => cf_logical f | [] => 0 end)
    (N.of_nat (length (removelast (fw_footers w)))) (removelast (fw_footers w)) c 0 t 0.

(** encoder.rs:235-240 [write_footer_offset]. *)
Definition fw_footer_offset (w : fwriter) : N := 30 + fw_total_out w.

(** encoder.rs:246-254 [elapsed_time_slot_offset]. *)
Definition fw_elapsed_slot (w : fwriter) (c : config) : N :=
  fw_footer_offset w + (16 + N.of_nat (length (removelast (fw_footers w))) * 16 + config_serialized_size c + 0).

Section Encode.
  Variable dbg : bool.
  Variable cd : codec.
  Variable o : chunk_option.
  Variable c : config.
  (** The measured times: the sum over the chunks (encoder.rs:306-310,
      api/encoder.rs:160) and the total (encoder.rs:258-262). *)
  Variable timer : times.
  Variable elapsed : N.

  (** encoder.rs:317-405 [ChunkWriter::write]; the general chunk header is empty
      (format.rs [GeneralChunkHeader]).  Nothing is written before the last
      fallible step, so the bytes are part of the result. *)
  Definition chunk_write (s : cstate cd) (w : fwriter) : res derr (list N * cstate cd * fwriter) :=
    do (xs, input) <- read_chunk_input dbg o (fw_input w) ;
    let eof := mkFw input (fw_total_in w) (fw_total_out w) (fw_footers w) true in
    match xs with
    | [] => Ok ([], s, eof)
    | _ =>
        do s1 <- cd_compress cd s xs ;
        if cd_total_in cd s1 =? 0 then Ok ([], s1, eof)
        else
          let s2 := cd_prepare cd s1 in
          let bytes := cd_buffers cd s2 in
          let total_out := fw_total_out w + N.of_nat (length bytes) in
          let last := match rev (fw_footers w) with f :: _ => cf_logical f | [] => 0 end in
          Ok (bytes, s2,
            mkFw input (fw_total_in w + cd_total_in cd s2) total_out
              (fw_footers w ++ [mkCf (30 + total_out) (last + cd_total_in cd s2 / 8)]) false)
    end.

  (** api/encoder.rs:151-163: the loop of [encode] with encoder.rs:147-157
      [chunk_writer_with_compressor], which resets the compressor. *)
  Fixpoint encode_loop (fuel : nat) (s : cstate cd) (w : fwriter) : list wop * res derr fwriter :=
    if fw_eof w then ([], Ok w)
    else
      match fuel with
      | O => ([], Err EOutOfFuel)
      | S f =>
          match chunk_write (cd_reset cd s) w with
          | Ok (bytes, s', w') => let '(os, r) := encode_loop f s' w' in (WWrite bytes :: os, r)
          | Err e => ([], Err e)
          | Panic => ([], Panic)
          end
      end.

  Definition input_size (input : list event) : nat :=
    fold_right (fun e n => (match e with Data bs => length bs | _ => 0 end + n)%nat) O input.

  (** api/encoder.rs:140-178 [Encoder::encode]: the operations on the output, and
      the result. *)
  Definition encode (input : list event) : list wop * res derr unit :=
    let header := WWrite (write_header c o) in
    let '(chunks, r) := encode_loop (S (S (input_size input))) (cd_new cd) (fw_new input) in
    match r with
    | Err e => (header :: chunks, Err e)
    | Panic => (header :: chunks, Panic)
    | Ok w =>
        (header :: chunks ++
         [WWrite (footer_bytes (fw_footer w c timer));
          WSeek 16; WWrite (le_bytes 8 (fw_footer_offset w));
          WSeek (fw_elapsed_slot w c); WWrite (le_bytes 16 elapsed)], Ok tt)
    end.
End Encode.

(** ** Reading a chunk *)

(** api/decoder.rs:726-737 [chunk_reader] followed by [Reader::decompress]: seek to
    the chunk, read [chunk_size] bytes, decode. *)
Definition read_chunk (dbg : bool) (cd : codec) (m : metadata) (file : list N) (i : nat) : res derr (list N) :=
  match nth_error (f_index (m_footer m)) i with
  | None => Panic
  | Some f =>
      do n <- chunk_records dbg m i ;
      do size <- chunk_size dbg m i ;
      if isize_limit <=? size then Panic
      else
        match read_n size (drop_n (cf_physical f) file) with
        | Ok (bs, _) => cd_decode cd n bs
        | Err e => if cd_unwraps cd then Panic else Err e
        | Panic => Panic
        end
  end.
