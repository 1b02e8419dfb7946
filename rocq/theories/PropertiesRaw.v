(** Property theorems for the RLE and Uncompressed schemes (C10-C12 and their
    part of C43, C44). *)
From Verif Require Import Base Xor RawSpec Rle Uncompressed RleProofs UncompressedProofs RawSummary.

(** C10: the chunk of any non-empty input, whatever the compressor held before,
    is the number of runs followed by runs of length 1..255 that stand for the
    input and are as long as possible; both ways of decoding it return the
    input. *)
Theorem C10_rle_lossless : forall c xs,
  xs <> [] -> Forall is_u64 xs -> N.of_nat (length xs) < two64 ->
  exists c' runs r,
    rle_compress c xs = Ok c' /\
    rle_buffers (rle_prepare c') = le_bytes 8 (N.of_nat (length runs)) ++
      flat_map (fun f => fst f :: le_bytes 8 (snd f)) runs /\
    Forall (fun f => 1 <= fst f <= 255) runs /\ greedy runs /\ expand runs = xs /\
    rle_open (rle_buffers (rle_prepare c')) = Ok r /\
    fst (rle_decompress r) = Ok xs /\
    (forall dbg, rle_iter dbg r = Ok xs).
Proof. exact rle_lossless. Qed.
Print Assumptions C10_rle_lossless.

(** A run of 300, both zeros and two NaNs. *)
Definition rle_sample : list N :=
  repeat 0x4045000000000000 300 ++ [0; 0x8000000000000000; 0; 0x7ff8000000000000; 0x7ff8000000000001].
Example C10_example :
  match rle_compress rle_new rle_sample with
  | Ok c =>
      length (rle_buffers (rle_prepare c)) = 71%nat /\
      match rle_open (rle_buffers (rle_prepare c)) with
      | Ok r => fst (rle_decompress r) = Ok rle_sample
      | _ => False
      end
  | _ => False
  end.
Proof. vm_compute. split; reflexivity. Qed.

(** An empty chunk panics. *)
Theorem C10_rle_empty_chunk_refuted : forall c, rle_compress c [] = Panic.
Proof. reflexivity. Qed.
Print Assumptions C10_rle_empty_chunk_refuted.

(** C11: any sequence of compress, append_compress, rewind, prepare and reset
    calls answers, panics, counts and stores what [held_run] says. *)
Theorem C11_rle_history : forall calls, Forall op_u64 calls ->
  match held_run (mkHeld [] false) calls, rle_run rle_new calls with
  | None, Panic => True
  | Some (s, answers), Ok (c, answers') =>
      answers' = answers /\ rl_in c = 8 * N.of_nat (length (records s)) /\
      (N.of_nat (length (records s)) < two64 ->
       exists r, rle_open (rle_buffers (rle_prepare c)) = Ok r /\ fst (rle_decompress r) = Ok (records s))
  | _, _ => False
  end.
Proof. exact rle_history. Qed.
Print Assumptions C11_rle_history.

(** As long as the chunk has not been closed in between, the bytes are those of
    compressing the remaining records at once. *)
Theorem C11_rle_history_bytes : forall calls c answers s answers' xs,
  Forall op_u64 calls -> Forall (fun o => ~ is_prepare o) calls ->
  rle_run rle_new calls = Ok (c, answers) -> held_run (mkHeld [] false) calls = Some (s, answers') ->
  records s = xs -> xs <> [] ->
  exists c', rle_compress rle_new xs = Ok c' /\
    rle_buffers (rle_prepare c) = rle_buffers (rle_prepare c') /\
    rle_total_bytes_buffered c = rle_total_bytes_buffered c'.
Proof. exact rle_history_bytes. Qed.
Print Assumptions C11_rle_history_bytes.

(** Rewinding across a full run into the run before it, and too far. *)
Example C11_example :
  let calls := [OCompress (repeat 7 257 ++ [8]); OAppend [8; 9]; ORewind 4; ORewind 400; OAppend [7]; ORewind 2] in
  Forall op_u64 calls /\
  match held_run (mkHeld [] false) calls, rle_run rle_new calls with
  | Some (s, answers), Ok (c, answers') =>
      answers = [None; None; Some true; Some false; None; Some true] /\ answers' = answers /\
      records s = repeat 7 255 /\ runs c = [(255, 7)]
  | _, _ => False
  end.
Proof. split; [repeat constructor; vm_compute; reflexivity|]. vm_compute. repeat split. Qed.

(** Everything may be rewound once (after which the contents are empty), but not
    after the chunk has been closed. *)
Example C11_rewind_limits :
  match rle_run rle_new [OCompress [1; 1]; ORewind 2; ORewind 0; OAppend [3]; OPrepare; ORewind 1] with
  | Ok (c, answers) => answers = [None; Some true; Some false; None; None; Some false] /\ runs c = [(1, 3)]
  | _ => False
  end.
Proof. vm_compute. split; reflexivity. Qed.

(** C12: a raw chunk is the little-endian image of the records, for every history
    of calls; decoding it returns the records. *)
Theorem C12_uncompressed_history : forall calls, Forall op_u64 calls ->
  let '(c, answers) := unc_run unc_new calls in
  let '(xs, answers') := raw_run [] calls in
  answers = answers' /\
  unc_buffers (unc_prepare c) = flat_map (le_bytes 8) xs /\
  fst (unc_decompress (unc_open (N.of_nat (length xs)) (unc_buffers (unc_prepare c)))) = Ok xs /\
  unc_iter (unc_open (N.of_nat (length xs)) (unc_buffers (unc_prepare c))) = Ok xs.
Proof. exact unc_history. Qed.
Print Assumptions C12_uncompressed_history.

Theorem C12_uncompressed_lossless : forall c xs, Forall is_u64 xs ->
  unc_buffers (unc_prepare (unc_compress c xs)) = flat_map (le_bytes 8) xs /\
  fst (unc_decompress (unc_open (N.of_nat (length xs)) (unc_buffers (unc_prepare (unc_compress c xs))))) = Ok xs.
Proof. exact unc_lossless. Qed.
Print Assumptions C12_uncompressed_lossless.

Example C12_example :
  let calls := [OCompress [1; 0x7ff8000000000000]; OAppend [3; 4]; ORewind 1; ORewind 9] in
  Forall op_u64 calls /\ raw_run [] calls = ([1; 0x7ff8000000000000; 3], [None; None; Some true; Some false]).
Proof. split; [repeat constructor; vm_compute; reflexivity|]. vm_compute. reflexivity. Qed.

(** C43 (RLE, Uncompressed): the chunk does not depend on what the compressor was
    used for before. *)
Theorem C43_rle_reuse : forall c xs,
  match rle_compress c xs, rle_compress rle_new xs with
  | Ok a, Ok b => rle_buffers (rle_prepare a) = rle_buffers (rle_prepare b)
  | Panic, Panic => True
  | _, _ => False
  end.
Proof. exact rle_reuse. Qed.
Print Assumptions C43_rle_reuse.

Theorem C43_uncompressed_reuse : forall c xs,
  unc_buffers (unc_prepare (unc_compress c xs)) = unc_buffers (unc_prepare (unc_compress unc_new xs)).
Proof. reflexivity. Qed.
Print Assumptions C43_uncompressed_reuse.

(** C44 (RLE, Uncompressed): the size reported is the size of the closed chunk,
    in every state. *)
Theorem C44_rle_size : forall c,
  rle_total_bytes_buffered c = N.of_nat (length (rle_buffers (rle_prepare c))).
Proof. exact rle_size. Qed.
Print Assumptions C44_rle_size.

Theorem C44_uncompressed_size : forall c,
  unc_total_bytes_buffered c = N.of_nat (length (unc_buffers (unc_prepare c))).
Proof. exact unc_size. Qed.
Print Assumptions C44_uncompressed_size.

(** C52 (RLE): opening and decoding any bytes whatsoever as an RLE chunk gives
    records or an IO error, never a panic. *)
Theorem C52_rle_total : forall bs,
  match rle_open bs with
  | Ok r => match fst (rle_decompress r) with Ok _ | Err EIO => True | _ => False end
  | Err EIO => True
  | _ => False
  end.
Proof. exact rle_total. Qed.
Print Assumptions C52_rle_total.

(** The iterator of the same reader does panic on a zero run length (debug
    builds), and yields 256 records where [decompress] yields none (release). *)
Theorem C52_rle_iterator_zero_run_refuted : exists bs r,
  rle_open bs = Ok r /\ fst (rle_decompress r) = Ok [] /\
  rle_iter true r = Panic /\ rle_iter false r = Ok (repeat 5 256).
Proof.
  exists (le_bytes 8 1 ++ [0] ++ le_bytes 8 5), (mkRlr 1 ([0] ++ le_bytes 8 5) None).
  vm_compute. repeat split.
Qed.
Print Assumptions C52_rle_iterator_zero_run_refuted.
