(** Properties of whole files: encoding a stream, opening the result, reading its
    chunks.  [scheme_codec] (Codecs.v) is the scheme behind a configuration,
    [encodable] (CodecSpec.v) says what the input delivers; [open_file] and
    [read_chunk] are the reader.  No proofs here; see FileSummary.v. *)
From Verif Require Import Base Xor Uncompressed Format FormatSpec F64 Elf ElfSpec File FileSpec Codecs CodecSpec FileSummary.

(** ** C20: the records are cut, in order and without loss, into full chunks *)
Theorem C20_chunks_partition_the_records :
  forall dbg log10 lib c cd o timer elapsed input xs,
  scheme_codec dbg log10 lib c = Some cd -> encodable log10 lib c o timer elapsed input xs -> xs <> [] ->
  exists parts, partition (records_per_chunk o) xs parts /\
    (forall parts', partition (records_per_chunk o) xs parts' -> parts' = parts) /\
    exists ops, encode dbg cd o c timer elapsed input = (ops, Ok tt) /\
    forall old, N.of_nat (length (written old ops)) < 2 ^ 63 ->
    exists m, open_file dbg (written old ops) = Ok m /\
      f_chunks (m_footer m) = N.of_nat (length parts) /\
      (forall i part, nth_error parts i = Some part ->
         chunk_records dbg m i = Ok (N.of_nat (length part)) /\
         read_chunk dbg cd m (written old ops) i = Ok part) /\
      (forall i, (length parts <= i)%nat -> read_chunk dbg cd m (written old ops) i = Panic).
Proof. exact c20. Qed.
Print Assumptions C20_chunks_partition_the_records.

(** Seven records, three per chunk. *)
Example C20_example : partition (records_per_chunk (RecordCount 3)) [1; 2; 3; 4; 5; 6; 7] [[1; 2; 3]; [4; 5; 6]; [7]].
Proof.
  split; [reflexivity|]. split; [repeat constructor; discriminate|].
  intros [|[|[|i]]] p E; cbn in E; try (injection E as <-); try (split; [vm_compute; discriminate|cbn; lia]).
  destruct i; discriminate E.
Qed.

(** ** C21: how the input delivers its bytes does not matter *)
Theorem C21_read_schedule_does_not_matter :
  forall dbg cd o c timer elapsed i1 i2,
  readable o i1 -> readable o i2 -> delivered i1 = delivered i2 ->
  encode dbg cd o c timer elapsed i1 = encode dbg cd o c timer elapsed i2.
Proof. exact encode_schedule. Qed.
Print Assumptions C21_read_schedule_does_not_matter.

Definition C21_one : list event := [Data (bytes_of [1; 2; 3])].
Definition C21_two : list event := [Data [1; 0; 0]; Data [0; 0; 0; 0; 0; 2]; Data [0]; Data (skipn 10 (bytes_of [1; 2; 3]))].
Example C21_example : readable (RecordCount 2) C21_one /\ readable (RecordCount 2) C21_two /\ delivered C21_one = delivered C21_two.
Proof.
  split; [|split; [|reflexivity]]; repeat constructor; eexists; (split; [reflexivity|discriminate]).
Qed.

(** ** C22: an interrupted read loses no data *)
(** Refuted for a record limit: twelve bytes, an interruption, four bytes.  The
    encoder reports success, but the file holds the first record only. *)
Theorem C22_interrupted_read_loses_data_refuted :
  exists cd c o timer elapsed input ops m,
    scheme_codec false (fun x => x)
      (mkLibraries (fun _ => (fun b => Ok b, fun b => Ok b)) (bytes_of, fun n bs => f64s_of_bytes (N.to_nat n) bs)) c = Some cd /\
    valid_run c o timer elapsed /\ usable o /\ patient input /\ delivered input = bytes_of [1; 2] /\
    encode false cd o c timer elapsed input = (ops, Ok tt) /\
    open_file false (written [] ops) = Ok m /\ f_records (m_footer m) = 1.
Proof. exact c22_refuted. Qed.
Print Assumptions C22_interrupted_read_loses_data_refuted.

(** It does hold for [Full], which collects the whole input first.  Missing: the
    two options with a record limit, where it is false. *)
Theorem C22_interrupted_read_partial :
  forall dbg cd c timer elapsed i1 i2,
  patient i1 -> patient i2 -> delivered i1 = delivered i2 ->
  encode dbg cd Full c timer elapsed i1 = encode dbg cd Full c timer elapsed i2.
Proof. exact c22_full. Qed.
Print Assumptions C22_interrupted_read_partial.
Example C22_example : patient [Data [1; 2; 3; 4]; Interrupted; Data [5; 6; 7; 8]].
Proof.
  constructor; [|constructor; [left; reflexivity|constructor; [|constructor]]];
    right; eexists; (split; [reflexivity|discriminate]).
Qed.

(** ** C23: the chunk index is exact and gapless *)
Theorem C23_chunk_index_is_contiguous :
  forall dbg log10 lib c cd o timer elapsed input xs,
  scheme_codec dbg log10 lib c = Some cd -> encodable log10 lib c o timer elapsed input xs -> xs <> [] ->
  exists ops, encode dbg cd o c timer elapsed input = (ops, Ok tt) /\
  forall old, N.of_nat (length (written old ops)) < 2 ^ 63 ->
  exists m, open_file dbg (written old ops) = Ok m /\ contiguous dbg m /\
    N.of_nat (length (f_index (m_footer m))) = f_chunks (m_footer m) /\
    f_records (m_footer m) = N.of_nat (length xs).
Proof. exact c23. Qed.
Print Assumptions C23_chunk_index_is_contiguous.

(** A run that meets the hypotheses of C20, C23, C24, C27, C45, C54: the Gorilla
    scheme, two records per chunk, five records (0, 1.5, -0, infinity, 1.5)
    delivered in two reads with three stray bytes at the end. *)
Definition sample_records : list N :=
  [0; 0x3ff8000000000000; 0x8000000000000000; 0x7ff0000000000000; 0x3ff8000000000000].
Definition sample_input : list event :=
  [Data (firstn 11 (bytes_of sample_records)); Data (skipn 11 (bytes_of sample_records) ++ [1; 2; 3])].
Definition sample_libraries : libraries :=
  mkLibraries (fun _ => (fun b => Ok (b ++ [7]), fun b => Ok (removelast b))) (bytes_of, fun n bs => f64s_of_bytes (N.to_nat n) bs).
Example sample_encodable :
  encodable (fun x => x) sample_libraries (CGorilla 1024) (RecordCount 2) (repeat 5 9) 77 sample_input sample_records.
Proof. exact sample_encodable_proof. Qed.
Example sample_runs :
  match scheme_codec false (fun x => x) sample_libraries (CGorilla 1024) with
  | Some cd =>
      let '(ops, r) := encode false cd (RecordCount 2) (CGorilla 1024) (repeat 5 9) 77 sample_input in
      r = Ok tt /\
      match open_file false (written [9; 9; 9] ops) with
      | Ok m => f_records (m_footer m) = 5 /\ f_chunks (m_footer m) = 3 /\
          map (read_chunk false cd m (written [9; 9; 9] ops)) [0; 1; 2]%nat =
          [Ok [0; 0x3ff8000000000000]; Ok [0x8000000000000000; 0x7ff0000000000000]; Ok [0x3ff8000000000000]]
      | _ => False
      end
  | None => False
  end.
Proof. vm_compute. repeat split. Qed.

(** ** C24: encoding and reading back returns the records *)
(** Whatever the output held before; the metadata is what was given.  The reader
    may be given any [image] of the output that starts with the file. *)
Theorem C24_whole_file_round_trip :
  forall dbg log10 lib c cd o timer elapsed input xs,
  scheme_codec dbg log10 lib c = Some cd -> encodable log10 lib c o timer elapsed input xs -> xs <> [] ->
  exists ops, encode dbg cd o c timer elapsed input = (ops, Ok tt) /\
  forall old, N.of_nat (length (written old ops)) < 2 ^ 63 ->
  exists m parts, open_file dbg (written old ops) = Ok m /\
    map (read_chunk dbg cd m (written old ops)) (seq 0 (N.to_nat (f_chunks (m_footer m)))) = map Ok parts /\
    concat parts = xs /\ f_records (m_footer m) = N.of_nat (length xs) /\
    f_config (m_footer m) = c /\ h_scheme (m_header m) = config_scheme c /\ h_option (m_header m) = o /\
    f_times (m_footer m) = timer /\ f_elapsed (m_footer m) = elapsed.
Proof. exact c24. Qed.
Print Assumptions C24_whole_file_round_trip.

(** ** C25: the file written for an empty input can be opened *)
(** Refuted for every scheme and every option: encoding succeeds, opening panics. *)
Theorem C25_empty_input_refuted :
  forall dbg log10 lib c cd o timer elapsed input,
  scheme_codec dbg log10 lib c = Some cd -> encodable log10 lib c o timer elapsed input [] ->
  exists ops, encode dbg cd o c timer elapsed input = (ops, Ok tt) /\
    forall old, open_file dbg (written old ops) = Panic.
Proof. exact c25. Qed.
Print Assumptions C25_empty_input_refuted.
Example C25_example : encodable (fun x => x) sample_libraries (CRle 8) Full (repeat 5 9) 77 [Interrupted] [].
Proof. exact c25_example. Qed.

(** ** C26: a chunk limit of zero is rejected or harmless *)
(** Refuted: with a limit of zero records or bytes nothing of any input is
    stored, encoding still succeeds, and the file cannot be opened. *)
Theorem C26_zero_limit_refuted :
  forall dbg cd o c timer elapsed input,
  o = RecordCount 0 \/ o = ByteSizeBestEffort 0 -> valid_run c o timer elapsed ->
  exists ops, encode dbg cd o c timer elapsed input = (ops, Ok tt) /\
    forall old, open_file dbg (written old ops) = Panic.
Proof. exact c26. Qed.
Print Assumptions C26_zero_limit_refuted.
Example C26_example : valid_run (CGorilla 1024) (RecordCount 0) (repeat 5 9) 77 /\ delivered sample_input <> [].
Proof. exact c26_example. Qed.

(** The same in release builds for a limit that is a multiple of 2^61 records. *)
Theorem C26_wrapping_limit_refuted :
  forall cd k c timer elapsed input,
  valid_run c (RecordCount (k * 2 ^ 61)) timer elapsed ->
  exists ops, encode false cd (RecordCount (k * 2 ^ 61)) c timer elapsed input = (ops, Ok tt) /\
    forall old, open_file false (written old ops) = Panic.
Proof. exact c26_wrap. Qed.
Print Assumptions C26_wrapping_limit_refuted.
Example C26_wrapping_example : valid_run (CGorilla 1024) (RecordCount (3 * 2 ^ 61)) (repeat 5 9) 77.
Proof. exact c26_wrap_example. Qed.

(** ** C27: an interrupted encoding is recognised *)
(** [cut ops x]: a crash after the operations [x], the last write possibly torn.
    A torn header is an IO error.  Once the footer offset is in place the file is
    complete.  With the option [Full] a file whose footer offset is still zero
    panics when opened.  The offset a cut leaves is the final one with only its
    lowest [j] bytes written (none for [j = 0]).  Missing: that a torn offset, or
    with a limit on the chunks an offset still zero, is detected; there it is
    false (both below). *)
Theorem C27_crash_partial :
  forall dbg log10 lib c cd o timer elapsed input xs,
  scheme_codec dbg log10 lib c = Some cd -> encodable log10 lib c o timer elapsed input xs -> xs <> [] ->
  exists ops parts, partition (records_per_chunk o) xs parts /\
    encode dbg cd o c timer elapsed input = (ops, Ok tt) /\
    (N.of_nat (length (written [] ops)) < 2 ^ 63 -> forall x, cut ops x ->
      let file := written [] x in
      ((length file < 30)%nat -> open_file dbg file = Err EIO) /\
      (o = Full -> (30 <= length file)%nat -> offset_slot file = 0 -> open_file dbg file = Panic) /\
      ((30 <= length file)%nat -> exists j, j <= 8 /\ offset_slot file = offset_slot (written [] ops) mod 256 ^ j) /\
      ((30 <= length file)%nat -> offset_slot file = offset_slot (written [] ops) ->
       exists m, open_file dbg file = Ok m /\ f_records (m_footer m) = N.of_nat (length xs) /\
         f_chunks (m_footer m) = N.of_nat (length parts) /\
         forall i part, nth_error parts i = Some part -> read_chunk dbg cd m file i = Ok part)).
Proof. exact scheme_crash. Qed.
Print Assumptions C27_crash_partial.

(** Refuted for one record per chunk: a crash before the footer offset is written
    can leave a file that opens, with a record count no input has. *)
Theorem C27_crash_detected_refuted :
  exists cd c timer elapsed input xs ops x m,
    scheme_codec false (fun x => x) sample_libraries c = Some cd /\
    encodable (fun x => x) sample_libraries c (RecordCount 1) timer elapsed input xs /\
    encode false cd (RecordCount 1) c timer elapsed input = (ops, Ok tt) /\
    cut ops x /\ offset_slot (written [] x) = 0 /\
    open_file false (written [] x) = Ok m /\ 2 ^ 32 < f_records (m_footer m).
Proof. exact c27_refuted. Qed.
Print Assumptions C27_crash_detected_refuted.
(** Refuted for a torn footer offset, even with the option [Full]: 37 records are
    written, and a crash within the write of the offset leaves a file that opens
    and reads as one chunk with the first 5 of them. *)
Theorem C27_torn_offset_refuted :
  exists cd c timer elapsed input xs ops x m,
    scheme_codec false (fun x => x) sample_libraries c = Some cd /\
    encodable (fun x => x) sample_libraries c Full timer elapsed input xs /\ length xs = 37%nat /\
    encode false cd Full c timer elapsed input = (ops, Ok tt) /\
    cut ops x /\ offset_slot (written [] x) <> 0 /\ offset_slot (written [] x) <> offset_slot (written [] ops) /\
    open_file false (written [] x) = Ok m /\ f_records (m_footer m) = 5 /\
    read_chunk false cd m (written [] x) 0 = Ok (firstn 5 xs).
Proof. exact c27_torn. Qed.
Print Assumptions C27_torn_offset_refuted.

(** ** C45: the reported sizes are the sizes of the file *)
(** [old] is what the output held before; a longer one leaves bytes behind. *)
Theorem C45_size_accounting :
  forall dbg log10 lib c cd o timer elapsed input xs,
  scheme_codec dbg log10 lib c = Some cd -> encodable log10 lib c o timer elapsed input xs -> xs <> [] ->
  exists ops, encode dbg cd o c timer elapsed input = (ops, Ok tt) /\
  (N.of_nat (length (written [] ops)) < 2 ^ 63 ->
  exists m sizes, open_file dbg (written [] ops) = Ok m /\
    total_file_size m = N.of_nat (length (written [] ops)) /\
    map (chunk_size dbg m) (seq 0 (N.to_nat (f_chunks (m_footer m)))) = map Ok sizes /\
    total_chunk_size dbg m = Ok (fold_right N.add 0 sizes) /\
    total_file_size m = 30 + fold_right N.add 0 sizes + footer_size (m_footer m)).
Proof. exact c45. Qed.
Print Assumptions C45_size_accounting.

(** ** C54: an input that is not a whole number of records is reported *)
(** Refuted: up to seven stray bytes at the end of the input are dropped, and the
    output is the same, byte for byte, as without them. *)
Theorem C54_stray_bytes_refuted :
  forall dbg log10 lib c cd o timer elapsed i1 i2 xs,
  scheme_codec dbg log10 lib c = Some cd ->
  encodable log10 lib c o timer elapsed i1 xs -> encodable log10 lib c o timer elapsed i2 xs ->
  exists ops1 ops2, encode dbg cd o c timer elapsed i1 = (ops1, Ok tt) /\
    encode dbg cd o c timer elapsed i2 = (ops2, Ok tt) /\
    forall old, written old ops1 = written old ops2.
Proof. exact scheme_tail. Qed.
Print Assumptions C54_stray_bytes_refuted.
Example C54_example :
  encodable (fun x => x) sample_libraries (CGorilla 1024) (RecordCount 2) (repeat 5 9) 77 [Data (bytes_of sample_records)] sample_records /\
  delivered sample_input <> delivered [Data (bytes_of sample_records)].
Proof. exact c54_example. Qed.

(** ** C55: encoding ends for every behaviour of the input *)
(** Any mixture of short reads, interruptions, errors and ends of file: the
    result is success or the IO error.  (A debug build of DeltaSprintz can also
    panic, C13.) *)
Theorem C55_encode_total :
  forall dbg log10 lib c cd o timer elapsed input,
  faithful_libraries lib -> scheme_codec dbg log10 lib c = Some cd -> dbg = false \/ config_scheme c <> SDeltaSprintz -> usable o ->
  Forall is_byte (delivered input) -> N.of_nat (length (delivered input)) < 2 ^ 63 ->
  snd (encode dbg cd o c timer elapsed input) = Ok tt \/ snd (encode dbg cd o c timer elapsed input) = Err EIO.
Proof. exact c55. Qed.
Print Assumptions C55_encode_total.
Example C55_example : forall cd, scheme_codec true (fun x => x) sample_libraries (CElf 4) = Some cd ->
  snd (encode true cd (ByteSizeBestEffort 100) (CElf 4) (repeat 5 9) 77 [Data [1; 2]; UnexpectedEof; Data []; Failure]) = Ok tt /\
  snd (encode true cd (ByteSizeBestEffort 100) (CElf 4) (repeat 5 9) 77 [Data [1; 2]; Failure]) = Err EIO.
Proof. intros cd E. injection E as <-. vm_compute. split; reflexivity. Qed.
