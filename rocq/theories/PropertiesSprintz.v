(** Properties of DeltaSprintz.  [stored_integer s x q]: q is the integer stored
    for the record x under scale s; [grid_value s q]: the record returned for it
    (SprintzSpec.v).  No proofs here; see SprintzSummary.v. *)
From Verif Require Import Base BitIO Xor F64 Format FormatSpec File FileSpec Query QuerySpec Sprintz SprintzSpec
  Codecs CodecSpec FileSummary QuerySummary SprintzSummary.

(** ** C13: the stored integers come back *)
(** One chunk.  In a debug build the condition is needed: see the theorem below. *)
Theorem C13_sprintz_returns_quantised_records :
  forall dbg s xs, 1 <= s < 2 ^ 32 -> xs <> [] -> Forall is_u64 xs -> (dbg = true -> steps_fit s xs) ->
  exists c vs, sp_compress dbg (sp_new s) xs = Ok c /\
    fst (sp_decompress dbg (sp_open (N.of_nat (length xs)) (sp_buffers c))) = Ok vs /\
    Forall2 (fun x v => exists q, stored_integer s x q /\ v = grid_value s q) xs vs.
Proof. exact c13. Qed.
Print Assumptions C13_sprintz_returns_quantised_records.
Theorem C13_sprintz_debug_overflow_panics :
  forall s xs, xs <> [] -> Forall is_u64 xs -> ~ steps_fit s xs -> sp_compress true (sp_new s) xs = Panic.
Proof. exact c13_panics. Qed.
Print Assumptions C13_sprintz_debug_overflow_panics.
(** 0.34 and -1.0e300 under scale 10: 0.3, and the least i64 divided by 10.  The
    step from +2^63 - 1 to -2^63 does not fit an i64 and wraps (release). *)
Example C13_example :
  let run dbg xs := match sp_compress dbg (sp_new 10) xs with
    | Ok c => Some (fst (sp_decompress dbg (sp_open (N.of_nat (length xs)) (sp_buffers c)))) | _ => None end in
  run false [0x3fd5c28f5c28f5c3; 0x7e37e43c8800759c; 0xfe37e43c8800759c; 0x7ff8000000000000] =
    Some (Ok [0x3fd3333333333333; 0x43a999999999999a; 0xc3a999999999999a; 0]) /\
  run true [0x3fd5c28f5c28f5c3; 0x4059000000000000] = Some (Ok [0x3fd3333333333333; 0x4059000000000000]) /\
  run true [0x7e37e43c8800759c; 0xfe37e43c8800759c] = None.
Proof. vm_compute. repeat split. Qed.

(** Whole files: every chunk holds the quantised records of its part of the
    input.  This also shows that the hypothesis [sprintz_stored] of the theorems
    below is met by every encoded file. *)
Theorem C13_encoded_sprintz_files_are_stored :
  forall dbg neg tie capacity s o timer elapsed input xs,
  sprintz_encodable dbg capacity s o timer elapsed input xs -> xs <> [] ->
  exists ops parts, partition (records_per_chunk o) xs parts /\
    encode dbg (sprintz_codec dbg s) o (CDeltaSprintz capacity s) timer elapsed input = (ops, Ok tt) /\
  forall old, let file := written old ops in N.of_nat (length file) < 2 ^ 63 ->
  exists m vss, open_file dbg file = Ok m /\
    forall precision, sprintz_stored dbg neg tie s m file precision parts vss.
Proof. exact sprintz_file. Qed.
Print Assumptions C13_encoded_sprintz_files_are_stored.

(** Seven records under scale 10 in three chunks: 0.3, 1.5, -2.5; 0, 0.3, 7;
    -0.1.  *)
Definition sp_records : list N := map (grid_value 10) [3; 15; -25; 0; 3; 70; -1]%Z.
Example C13_file_example : sprintz_encodable true 1024 10 (RecordCount 3) (repeat 5 9) 77 [Data (bytes_of sp_records)] sp_records.
Proof. exact sp_sample. Qed.
Definition on_sp_sample {A} (q : executor -> metadata -> list N -> A) : option A :=
  let '(ops, _) := encode true (sprintz_codec true 10) (RecordCount 3) (CDeltaSprintz 1024 10) (repeat 5 9) 77 [Data (bytes_of sp_records)] in
  match open_file true (written [] ops) with
  | Ok m => Some (q (sprintz_executor true false (fun _ _ => true)) m (written [] ops))
  | _ => None
  end.

(** ** C14: the scale field *)
(** Only the low 32 bits of the scale are stored. *)
Theorem C14_sprintz_decodes_with_low_bits_of_scale :
  forall dbg s xs, xs <> [] -> Forall is_u64 xs -> (dbg = true -> steps_fit s xs) ->
  exists c vs, sp_compress dbg (sp_new s) xs = Ok c /\
    fst (sp_decompress dbg (sp_open (N.of_nat (length xs)) (sp_buffers c))) = Ok vs /\
    Forall2 (fun x v => exists q, stored_integer s x q /\ v = grid_value (s mod 2 ^ 32) q) xs vs.
Proof. exact c14. Qed.
Print Assumptions C14_sprintz_decodes_with_low_bits_of_scale.
(** Scale 2^32 + 10: 1.0 comes back as 429496730.6; scale 2^32: as infinity. *)
Theorem C14_scale_is_kept_refuted :
  exists s x c v, is_u64 s /\ is_u64 x /\ sp_compress true (sp_new s) [x] = Ok c /\
    fst (sp_decompress true (sp_open 1 (sp_buffers c))) = Ok [v] /\
    ~ exists q, stored_integer s x q /\ v = grid_value s q.
Proof. exact c14_refuted. Qed.
Print Assumptions C14_scale_is_kept_refuted.
Example C14_example :
  let run s := match sp_compress true (sp_new s) [0x3ff0000000000000] with
    | Ok c => Some (fst (sp_decompress true (sp_open 1 (sp_buffers c)))) | _ => None end in
  run (2 ^ 32 - 1) = Some (Ok [0x3ff0000000000000]) /\
  run (2 ^ 32 + 10) = Some (Ok [0x41b999999a99999a]) /\ run (2 ^ 32) = Some (Ok [0x7ff0000000000000]).
Proof. vm_compute. repeat split. Qed.

(** ** C57: numbers on the grid are stored losslessly *)
Theorem C57_grid_records_are_lossless :
  forall dbg s xs, 1 <= s < 2 ^ 32 -> xs <> [] -> Forall (on_grid s) xs ->
  exists c, sp_compress dbg (sp_new s) xs = Ok c /\
    fst (sp_decompress dbg (sp_open (N.of_nat (length xs)) (sp_buffers c))) = Ok xs.
Proof. exact c57. Qed.
Print Assumptions C57_grid_records_are_lossless.
(** Whole files: C20, C23, C24 and C45 (PropertiesFile.v) hold for them. *)
Theorem C57_grid_records_are_storable :
  forall log10 capacity s x, 1 <= s < 2 ^ 32 -> on_grid s x -> storable log10 (CDeltaSprintz capacity s) x.
Proof. exact grid_storable. Qed.
Print Assumptions C57_grid_records_are_storable.
Example C57_example : on_grid 100 0x40091eb851eb851f (* 3.14 *) /\ ~ on_grid 100 0x400921fb54442d18 (* pi *).
Proof. exact c57_sample. Qed.

(** ** C30: materialising *)
Theorem C30_sprintz_materialize_is_exact :
  forall dbg neg tie s m file precision parts vss, sprintz_stored dbg neg tie s m file precision parts vss ->
  forall mask, N.of_nat (length (concat vss)) < 2 ^ 32 -> forall cid first vs, scope vss cid first vs ->
  forall p, Forall is_u64 (pred_operands p) ->
  exists ys zs, choose mask first vs ys /\ keep p ys zs /\
    dec_materialize dbg (sprintz_executor dbg neg tie) m file precision mask cid = (bytes_of ys, Ok tt) /\
    dec_filter_materialize dbg (sprintz_executor dbg neg tie) m file precision p mask cid = (bytes_of zs, Ok tt).
Proof. exact c30_materialize. Qed.
Print Assumptions C30_sprintz_materialize_is_exact.
Example C30_sprintz_example :
  on_sp_sample (fun ex m file => dec_materialize true ex m file None None None) = Some (bytes_of sp_records, Ok tt) /\
  on_sp_sample (fun ex m file => dec_filter_materialize true ex m file None (PEq 0x3fd3333333333333) (Some [0; 1; 4; 6]) None) =
    Some (bytes_of (map (grid_value 10) [3; 3]%Z), Ok tt).
Proof. vm_compute. split; reflexivity. Qed.

(** ** C35: filtering *)
(** With operands on the grid (or infinite): the records whose decoded value
    satisfies the predicate. *)
Theorem C35_sprintz_filter_on_grid :
  forall dbg neg tie s m file precision parts vss, sprintz_stored dbg neg tie s m file precision parts vss ->
  forall mask, N.of_nat (length (concat vss)) < 2 ^ 32 -> forall cid first vs, scope vss cid first vs ->
  small_integers s parts ->
  forall p, Forall is_u64 (pred_operands p) -> Forall (grid_operand s) (pred_operands p) ->
  exists bm, dec_filter dbg (sprintz_executor dbg neg tie) m file precision p mask cid = Ok bm /\ is_bitmap bm /\
    forall i, In i bm <->
      in_mask mask i /\ first <= i /\ exists v, nth_error vs (N.to_nat (i - first)) = Some v /\ satisfies p v.
Proof. exact c35_grid. Qed.
Print Assumptions C35_sprintz_filter_on_grid.
(** With any operands: the records whose integer satisfies the predicate after its
    operands have been rounded the way records are. *)
Theorem C35_sprintz_filter_rounds_operands :
  forall dbg neg tie s m file precision parts vss, sprintz_stored dbg neg tie s m file precision parts vss ->
  forall mask, N.of_nat (length (concat vss)) < 2 ^ 32 -> forall cid first vs, scope vss cid first vs ->
  small_integers s parts ->
  forall p, Forall is_u64 (pred_operands p) ->
  exists bm, dec_filter dbg (sprintz_executor dbg neg tie) m file precision p mask cid = Ok bm /\ is_bitmap bm /\
    forall i, In i bm <->
      in_mask mask i /\ first <= i /\
      exists q, nth_error vs (N.to_nat (i - first)) = Some (grid_value s q) /\ (Z.abs q < 2 ^ 51)%Z /\ rounded_satisfies s p q.
Proof. exact c35_rounded. Qed.
Print Assumptions C35_sprintz_filter_rounds_operands.
(** So a filter with an operand off the grid, or NaN, can be wrong: under scale 10,
    [<= 0.25] selects the record 0.3, and [= NaN] selects 0.0. *)
Theorem C35_sprintz_filter_off_grid_refuted :
  (exists x p bm, on_sprintz_chunk [x] (fun r => fst (sp_filter true p None 0 r)) = Some (Ok bm) /\
     on_sprintz_chunk [x] (fun r => fst (sp_decompress true r)) = Some (Ok [x]) /\ In 0 bm /\
     (exists v, p = PRange Unbounded (Inclusive v)) /\ ~ satisfies p x) /\
  (exists x bm, on_sprintz_chunk [x] (fun r => fst (sp_filter true (PEq nan_bits) None 0 r)) = Some (Ok bm) /\
     on_sprintz_chunk [x] (fun r => fst (sp_decompress true r)) = Some (Ok [x]) /\ In 0 bm /\ ~ satisfies (PEq nan_bits) x).
Proof. exact c35_refuted. Qed.
Print Assumptions C35_sprintz_filter_off_grid_refuted.
Example C35_example :
  on_sp_sample (fun ex m file => dec_filter true ex m file None (PRange (Exclusive 0) (Inclusive 0x3ff8000000000000)) None None) =
    Some (Ok [0; 1; 4]) /\
  on_sp_sample (fun ex m file => dec_filter true ex m file None (PRange Unbounded (Inclusive 0x3fd0000000000000)) (Some [0; 2; 3; 4; 9]) None) =
    Some (Ok [0; 2; 3; 4]).
Proof. vm_compute. split; reflexivity. Qed.

(** ** C36: min, max and sum *)
Theorem C36_sprintz_min_max_are_exact :
  forall dbg neg tie s m file precision parts vss, sprintz_stored dbg neg tie s m file precision parts vss ->
  forall mask, N.of_nat (length (concat vss)) < 2 ^ 32 -> forall cid first vs, scope vss cid first vs -> mask_ok mask ->
  exists ys lo hi, choose mask first vs ys /\
    dec_min dbg tie (sprintz_executor dbg neg tie) m file precision mask cid = Ok lo /\ least ys lo /\
    dec_max dbg tie (sprintz_executor dbg neg tie) m file precision mask cid = Ok hi /\ greatest ys hi.
Proof. exact c36_min_max. Qed.
Print Assumptions C36_sprintz_min_max_are_exact.
(** The sum of each chunk is the exact integer sum of the chosen records divided by
    the scale, if sums of the stored integers fit an i64. *)
Theorem C36_sprintz_sum_of_integers :
  forall dbg neg tie s m file precision parts vss, sprintz_stored dbg neg tie s m file precision parts vss ->
  forall mask, N.of_nat (length (concat vss)) < 2 ^ 32 -> forall cid first vs, scope vss cid first vs ->
  small_integers s parts ->
  forall B, (forall x q, In x (concat parts) -> stored_integer s x q -> (Z.abs q <= B)%Z) ->
  (B * Z.of_nat (length (concat parts)) < 2 ^ 63)%Z -> mask_ok mask ->
  exists chosen,
    Forall2 (fun '(off, w) zs => exists ys, choose mask off w ys /\
        Forall2 (fun v q => v = grid_value s q /\ (Z.abs q < 2 ^ 51)%Z) ys zs) (looked_at vss cid) chosen /\
    dec_sum dbg (sprintz_executor dbg neg tie) m file precision mask cid =
    Ok (float_sum (map (fun zs => fdiv (of_Z (fold_right Z.add 0%Z zs)) (of_Z (Z.of_N s))) (filter nonempty chosen))).
Proof. exact c36_sum. Qed.
Print Assumptions C36_sprintz_sum_of_integers.
Example C36_example :
  on_sp_sample (fun ex m file => dec_min true (fun _ _ => true) ex m file None (Some [0; 1; 4; 6]) None) = Some (Ok (of_bits (grid_value 10 (-1)))) /\
  on_sp_sample (fun ex m file => dec_max true (fun _ _ => true) ex m file None None (Some 0%nat)) = Some (Ok (of_bits (grid_value 10 15))) /\
  on_sp_sample (fun ex m file => dec_sum true ex m file None (Some [0; 1; 2; 4; 700]) None) = Some (Ok (fadd (of_bits (grid_value 10 (-7))) (of_bits (grid_value 10 3)))).
Proof. vm_compute. repeat split. Qed.
(** On one chunk reader: after [decompress], [min] returns the maximum. *)
Theorem C36_sprintz_min_after_decompress_refuted :
  exists xs lo, on_sprintz_chunk xs (fun r => fst (sp_min true (fun _ _ => true) None 0 (snd (sp_decompress true r)))) = Some (Ok lo) /\
    on_sprintz_chunk xs (fun r => fst (sp_decompress true r)) = Some (Ok xs) /\ ~ least xs lo.
Proof. exact c36_min_refuted. Qed.
Print Assumptions C36_sprintz_min_after_decompress_refuted.
(** Asked directly with a mask that misses the chunk, [sum] is NaN, not 0 (after
    [decompress] it is 0). *)
Theorem C36_sprintz_sum_of_nothing_refuted :
  exists xs mask, on_sprintz_chunk xs (fun r => fst (sp_sum true (Some mask) 0 r)) = Some (Ok S754_nan) /\
    on_sprintz_chunk xs (fun r => fst (sp_sum true (Some mask) 0 (snd (sp_decompress true r)))) = Some (Ok (S754_zero false)) /\
    is_bitmap mask.
Proof. exact c36_sum_refuted. Qed.
Print Assumptions C36_sprintz_sum_of_nothing_refuted.
(** Integer sums beyond an i64 wrap: twice 8.0e18 under scale 1 gives a negative
    sum (release) or a panic (debug). *)
Theorem C36_sprintz_sum_overflow_refuted :
  exists x total c, is_u64 x /\ (exists a, number x = Some a /\ (0 < a)%Z) /\
    sp_compress false (sp_new 1) [x; x] = Ok c /\
    fst (sp_decompress false (sp_open 2 (sp_buffers c))) = Ok [x; x] /\
    fst (sp_sum false None 0 (sp_open 2 (sp_buffers c))) = Ok total /\ flt total (S754_zero false) = true /\
    fst (sp_sum true None 0 (sp_open 2 (sp_buffers c))) = Panic.
Proof. exact c36_overflow_refuted. Qed.
Print Assumptions C36_sprintz_sum_overflow_refuted.

(** ** C42: histories *)
(** Queries answered without decompressing do not depend on each other, and
    [materialize] may follow them; for any chunk bytes. *)
Theorem C42_sprintz_in_situ_partial :
  forall dbg neg tie off n bs, Forall is_byte bs -> forall qs mask, Forall in_situ_query qs ->
  let ex := sprintz_executor dbg neg tie in
  fst (q_run ex off (sp_open n bs) (qs ++ [QMaterialize mask])) =
  map (fun q => fst (q_step ex off (sp_open n bs) q)) (qs ++ [QMaterialize mask]).
Proof. exact c42_sprintz. Qed.
Print Assumptions C42_sprintz_in_situ_partial.
(** Not so for [decompress] (nor anything else that decompresses without moving
    the cursor back): after [sum] it fails. *)
Theorem C42_sprintz_history_refuted :
  exists xs, let ex := sprintz_executor true false (fun _ _ => true) in
    on_sprintz_chunk xs (fun r => fst (q_run ex 0 r [QDecompress])) = Some [RValues (Ok xs)] /\
    on_sprintz_chunk xs (fun r => fst (q_run ex 0 r [QSum None; QDecompress])) =
      Some [RNumber (Ok (of_bits (hd 0 xs))); RValues (Err EUnexpectedEndOfChunk)].
Proof. exact c42_refuted. Qed.
Print Assumptions C42_sprintz_history_refuted.
Example C42_sprintz_example :
  on_sprintz_chunk (map (grid_value 10) [3; -7; 12]%Z) (fun r =>
    fst (q_run (sprintz_executor true false (fun _ _ => true)) 0 r [QMin None; QFilter (PEq 0x3fd3333333333333) None; QMax (Some [0; 1]); QMaterialize (Some [2])])) =
  Some [RNumber (Ok (of_bits (grid_value 10 (-7)))); RBitmap (Ok [0]); RNumber (Ok (of_bits (grid_value 10 3)));
        RWritten (bytes_of [grid_value 10 12]) (Ok tt)].
Proof. vm_compute. reflexivity. Qed.

(** ** C43, C44: reuse and size *)
Theorem C43_sprintz_reuse : forall dbg c xs,
  match sp_compress dbg c xs, sp_compress dbg (sp_new (sp_scale c)) xs with
  | Ok a, Ok b => sp_buffers (sp_prepare a) = sp_buffers (sp_prepare b) /\ sp_scale a = sp_scale c
  | Panic, Panic => True
  | _, _ => False
  end.
Proof. exact sprintz_reuse. Qed.
Print Assumptions C43_sprintz_reuse.
Theorem C44_sprintz_size : forall c, sp_total_bytes_buffered c = N.of_nat (length (sp_buffers (sp_prepare c))).
Proof. exact sprintz_size. Qed.
Print Assumptions C44_sprintz_size.

(** ** C52: arbitrary bytes *)
(** Release builds: as many records as the chunk is said to have, or the end of
    the chunk. *)
Theorem C52_sprintz_total : forall bs n, Forall is_byte bs ->
  match fst (sp_decompress false (sp_open n bs)) with
  | Ok vs => N.of_nat (length vs) = n
  | Err EUnexpectedEndOfChunk => True
  | _ => False
  end.
Proof. exact c52_sprintz. Qed.
Print Assumptions C52_sprintz_total.
(** Debug builds panic on some bytes. *)
Theorem C52_sprintz_debug_refuted :
  exists bs, Forall is_byte bs /\ fst (sp_decompress true (sp_open 1 bs)) = Panic /\
    exists v, fst (sp_decompress false (sp_open 1 bs)) = Ok [v].
Proof. exact c52_sprintz_refuted. Qed.
Print Assumptions C52_sprintz_debug_refuted.
