(** Properties of queries.  [scheme_executor] (Readers.v) is the chunk reader
    behind a configuration, for the schemes that keep the default query methods
    (all but BUFF and DeltaSprintz).  [stored] and [scope] (QuerySpec.v) say
    which records a file holds and which of them a query is about; [number] is
    the number behind an f64 bit pattern.  No proofs here; see QuerySummary.v. *)
From Verif Require Import Base Xor F64 Format FormatSpec File FileSpec Uncompressed ByteCodec Codecs CodecSpec FileSummary
  Query Readers QuerySpec QueryProofs QuerySummary.

(** Every file the encoder writes is [stored]: its hypotheses below are met by
    all encoded files. *)
Theorem encoded_files_are_stored :
  forall dbg neg tie log10 lib c cd ex o timer elapsed input xs,
  scheme_codec dbg log10 lib c = Some cd -> scheme_executor dbg neg tie log10 lib c = Some ex ->
  encodable log10 lib c o timer elapsed input xs -> xs <> [] ->
  exists parts, partition (records_per_chunk o) xs parts /\
  exists ops, encode dbg cd o c timer elapsed input = (ops, Ok tt) /\
  forall old, N.of_nat (length (written old ops)) < 2 ^ 63 ->
  exists m, open_file dbg (written old ops) = Ok m /\
    forall precision, stored dbg ex m (written old ops) precision parts.
Proof. exact encoded_stored. Qed.
Print Assumptions encoded_files_are_stored.

(** Seven records (0, 1.5, -0, inf, 1.5, NaN, -1) in three chunks. *)
Example stored_example : exists ex cd ops m parts,
  scheme_executor false false (fun _ _ => true) (fun x => x) simple_libraries (CGorilla 1024) = Some ex /\
  scheme_codec false (fun x => x) simple_libraries (CGorilla 1024) = Some cd /\
  encode false cd (RecordCount 3) (CGorilla 1024) (repeat 5 9) 77 [Data (bytes_of q_records)] = (ops, Ok tt) /\
  open_file false (written [] ops) = Ok m /\
  stored false ex m (written [] ops) None parts /\ concat parts = q_records /\ length parts = 3%nat.
Proof. exact q_sample. Qed.
Definition on_sample {A} (q : executor -> metadata -> list N -> A) : option A :=
  match scheme_executor false false (fun _ _ => true) (fun x => x) simple_libraries (CGorilla 1024),
        scheme_codec false (fun x => x) simple_libraries (CGorilla 1024) with
  | Some ex, Some cd =>
      let '(ops, _) := encode false cd (RecordCount 3) (CGorilla 1024) (repeat 5 9) 77 [Data (bytes_of q_records)] in
      match open_file false (written [] ops) with Ok m => Some (q ex m (written [] ops)) | _ => None end
  | _, _ => None
  end.

(** ** C24: encoding and materialising everything returns the input *)
Theorem C24_materialize_everything :
  forall dbg neg tie log10 lib c cd ex o timer elapsed input xs,
  scheme_codec dbg log10 lib c = Some cd -> scheme_executor dbg neg tie log10 lib c = Some ex ->
  encodable log10 lib c o timer elapsed input xs -> xs <> [] ->
  exists ops, encode dbg cd o c timer elapsed input = (ops, Ok tt) /\
  forall old, N.of_nat (length (written old ops)) < 2 ^ 63 ->
  exists m, open_file dbg (written old ops) = Ok m /\
    forall precision, dec_materialize dbg ex m (written old ops) precision None None = (bytes_of xs, Ok tt).
Proof. exact c24_materialize. Qed.
Print Assumptions C24_materialize_everything.
Example C24_materialize_example :
  on_sample (fun ex m file => dec_materialize false ex m file None None None) = Some (bytes_of q_records, Ok tt).
Proof. vm_compute. reflexivity. Qed.

(** ** C28: predicates compare numbers *)
Theorem C28_predicates_compare_numbers :
  forall p x, is_u64 x -> Forall is_u64 (pred_operands p) -> (fpred_eval p x = true <-> satisfies p x).
Proof. exact fpred_satisfies. Qed.
Print Assumptions C28_predicates_compare_numbers.
(** -0.0 equals 0.0; NaN equals nothing and lies in no bounded range; infinity is
    above every number. *)
Example C28_example :
  satisfies (PEq 0) 0x8000000000000000 /\ ~ satisfies (PEq nan_bits) nan_bits /\ satisfies (PNe nan_bits) nan_bits /\
  ~ satisfies (PRange (Inclusive 0) Unbounded) nan_bits /\ satisfies (PRange Unbounded Unbounded) nan_bits /\
  satisfies (PRange (Exclusive 0x7fefffffffffffff) Unbounded) 0x7ff0000000000000 /\
  fpred_eval (PRange (Inclusive 0xbff0000000000000) (Exclusive 0)) 0x8000000000000000 = false.
Proof. vm_compute. intuition discriminate. Qed.

(** ** C29: filter returns exactly the numbers of the records that qualify *)
Theorem C29_filter_is_exact :
  forall dbg neg tie log10 lib c ex m file precision parts mask cid first xs,
  scheme_executor dbg neg tie log10 lib c = Some ex -> stored dbg ex m file precision parts ->
  N.of_nat (length (concat parts)) < 2 ^ 32 -> scope parts cid first xs ->
  forall p, Forall is_u64 (pred_operands p) ->
  exists bm, dec_filter dbg ex m file precision p mask cid = Ok bm /\ is_bitmap bm /\
    forall i, In i bm <->
      in_mask mask i /\ first <= i /\ exists x, nth_error xs (N.to_nat (i - first)) = Some x /\ satisfies p x.
Proof. exact c29. Qed.
Print Assumptions C29_filter_is_exact.
Example C29_example :
  on_sample (fun ex m file => dec_filter false ex m file None (PRange (Inclusive 0) Unbounded) (Some [0; 2; 4; 5; 6; 900]) None) =
  Some (Ok [0; 2; 4]).
Proof. vm_compute. reflexivity. Qed.

(** ** C30: materialize and filter_materialize *)
Theorem C30_materialize_is_exact :
  forall dbg neg tie log10 lib c ex m file precision parts mask cid first xs,
  scheme_executor dbg neg tie log10 lib c = Some ex -> stored dbg ex m file precision parts ->
  N.of_nat (length (concat parts)) < 2 ^ 32 -> scope parts cid first xs ->
  forall p, Forall is_u64 (pred_operands p) ->
  exists ys zs bm, choose mask first xs ys /\ keep p ys zs /\
    dec_materialize dbg ex m file precision mask cid = (bytes_of ys, Ok tt) /\
    dec_filter_materialize dbg ex m file precision p mask cid = (bytes_of zs, Ok tt) /\
    dec_filter dbg ex m file precision p mask cid = Ok bm /\
    dec_materialize dbg ex m file precision (Some bm) cid = (bytes_of zs, Ok tt).
Proof. exact c30. Qed.
Print Assumptions C30_materialize_is_exact.
Example C30_example :
  on_sample (fun ex m file => dec_materialize false ex m file None (Some [1; 3; 6]) None) =
    Some (bytes_of [0x3ff8000000000000; 0x7ff0000000000000; 0xbff0000000000000], Ok tt) /\
  on_sample (fun ex m file => dec_filter_materialize false ex m file None (PNe 0x3ff8000000000000) (Some [1; 3; 6]) None) =
    Some (bytes_of [0x7ff0000000000000; 0xbff0000000000000], Ok tt).
Proof. vm_compute. split; reflexivity. Qed.

(** ** C31: min and max *)
Theorem C31_min_max_are_exact :
  forall dbg neg tie log10 lib c ex m file precision parts mask cid first xs,
  scheme_executor dbg neg tie log10 lib c = Some ex -> stored dbg ex m file precision parts ->
  N.of_nat (length (concat parts)) < 2 ^ 32 -> scope parts cid first xs ->
  exists ys lo hi, choose mask first xs ys /\
    dec_min dbg tie ex m file precision mask cid = Ok lo /\ least ys lo /\
    dec_max dbg tie ex m file precision mask cid = Ok hi /\ greatest ys hi.
Proof. exact c31. Qed.
Print Assumptions C31_min_max_are_exact.
Example C31_example :
  on_sample (fun ex m file => dec_min false (fun _ _ => true) ex m file None None None) = Some (Ok (of_bits 0xbff0000000000000)) /\
  on_sample (fun ex m file => dec_max false (fun _ _ => true) ex m file None (Some [0; 1; 5]) None) = Some (Ok (of_bits 0x3ff8000000000000)).
Proof. vm_compute. split; reflexivity. Qed.

(** ** C32: sum is the chunk-wise f64 sum *)
(** Chunks without selected record are left out. *)
Theorem C32_sum_is_chunkwise :
  forall dbg neg tie log10 lib c ex m file precision parts mask cid first xs,
  scheme_executor dbg neg tie log10 lib c = Some ex -> stored dbg ex m file precision parts ->
  N.of_nat (length (concat parts)) < 2 ^ 32 -> scope parts cid first xs ->
  exists yss, Forall2 (fun '(off, part) ys => choose mask off part ys) (looked_at parts cid) yss /\
    dec_sum dbg ex m file precision mask cid =
    Ok (float_sum (map (fun ys => float_sum (map of_bits ys)) (filter nonempty yss))).
Proof. exact c32. Qed.
Print Assumptions C32_sum_is_chunkwise.
(** One chunk: the plain left-to-right sum. *)
Theorem C32_sum_of_one_chunk :
  forall dbg neg tie log10 lib c ex m file precision parts mask cid first xs,
  scheme_executor dbg neg tie log10 lib c = Some ex -> stored dbg ex m file precision parts ->
  N.of_nat (length (concat parts)) < 2 ^ 32 -> scope parts cid first xs ->
  cid <> None \/ (length parts <= 1)%nat ->
  exists ys, choose mask first xs ys /\ dec_sum dbg ex m file precision mask cid = Ok (float_sum (map of_bits ys)).
Proof. exact c32_single. Qed.
Print Assumptions C32_sum_of_one_chunk.
Example C32_example :
  on_sample (fun ex m file => dec_sum false ex m file None (Some [1; 4; 6]) None) = Some (Ok (of_bits 0x4000000000000000)) /\
  on_sample (fun ex m file => dec_sum false ex m file None None (Some 0%nat)) = Some (Ok (of_bits 0x3ff8000000000000)).
Proof. vm_compute. split; reflexivity. Qed.

(** ** C33: the chunk id, and mask bits outside the selected records *)
(** C29 to C32 cover the chunk id through [scope].  Skipping chunks that miss the
    mask is sound: results depend only on the mask bits of the selected records. *)
Theorem C33_only_mask_bits_in_scope_matter :
  forall dbg neg tie log10 lib c ex m file precision parts m1 m2 cid first xs p,
  scheme_executor dbg neg tie log10 lib c = Some ex -> stored dbg ex m file precision parts ->
  N.of_nat (length (concat parts)) < 2 ^ 32 -> scope parts cid first xs ->
  (forall i, first <= i < first + N.of_nat (length xs) -> (in_mask m1 i <-> in_mask m2 i)) ->
  dec_filter dbg ex m file precision p m1 cid = dec_filter dbg ex m file precision p m2 cid /\
  dec_materialize dbg ex m file precision m1 cid = dec_materialize dbg ex m file precision m2 cid /\
  dec_filter_materialize dbg ex m file precision p m1 cid = dec_filter_materialize dbg ex m file precision p m2 cid /\
  dec_sum dbg ex m file precision m1 cid = dec_sum dbg ex m file precision m2 cid /\
  dec_min dbg tie ex m file precision m1 cid = dec_min dbg tie ex m file precision m2 cid /\
  dec_max dbg tie ex m file precision m1 cid = dec_max dbg tie ex m file precision m2 cid.
Proof. exact c33_skip. Qed.
Print Assumptions C33_only_mask_bits_in_scope_matter.
Example C33_example :
  on_sample (fun ex m file => dec_materialize false ex m file None (Some [0; 3; 5; 6]) (Some 1%nat)) =
    Some (bytes_of [0x7ff0000000000000; 0x7ff8000000000001], Ok tt) /\
  on_sample (fun ex m file => dec_sum false ex m file None (Some [0; 1; 6]) (Some 1%nat)) = Some (Ok (S754_zero false)) /\
  on_sample (fun ex m file => dec_filter false ex m file None (PNe 0) None (Some 3%nat)) = Some (Ok []).
Proof. vm_compute. repeat split. Qed.

(** ** C34: record numbers beyond 2^32 *)
(** Refuted: 1.0 followed by 2^32 zeros.  The filter [= 0.0] reports record 0. *)
Theorem C34_record_numbers_wrap_refuted :
  exists xs i x ops m bm,
    encode false uncompressed_codec Full (CUncompressed 0) (repeat 5 9) 77 [Data (bytes_of xs)] = (ops, Ok tt) /\
    open_file false (written [] ops) = Ok m /\
    dec_filter false (uncompressed_executor false (fun _ _ => true)) m (written [] ops) None (PEq 0) None None = Ok bm /\
    In i bm /\ nth_error xs (N.to_nat i) = Some x /\ ~ satisfies (PEq 0) x.
Proof. exact c34_refuted. Qed.
Print Assumptions C34_record_numbers_wrap_refuted.
(** What is reported, for files of any size: the numbers modulo 2^32. *)
Theorem C34_numbers_modulo_partial :
  forall dbg neg tie log10 lib c ex m file precision parts p,
  scheme_executor dbg neg tie log10 lib c = Some ex -> stored dbg ex m file precision parts ->
  Forall is_u64 (pred_operands p) ->
  exists bm, dec_filter dbg ex m file precision p None None = Ok bm /\
  forall j, In j bm <-> exists i x, j = i mod 2 ^ 32 /\ nth_error (concat parts) (N.to_nat i) = Some x /\ satisfies p x.
Proof. exact c34_truncated. Qed.
Print Assumptions C34_numbers_modulo_partial.

(** ** C42: answers do not depend on earlier queries *)
(** On a reader whose chunk can be decompressed, every query of any history
    answers what it would answer on the fresh reader. *)
Theorem C42_answers_do_not_depend_on_history_partial :
  forall dbg neg tie log10 lib c ex off r vs r' qs,
  scheme_executor dbg neg tie log10 lib c = Some ex -> ex_decompress ex r = (Ok vs, r') ->
  fst (q_run ex off r qs) = map (fun q => fst (q_step ex off r q)) qs.
Proof. exact c42. Qed.
Print Assumptions C42_answers_do_not_depend_on_history_partial.
Example C42_example :
  on_sample (fun ex m file =>
    match chunk_reader false ex m file None 1 with
    | Ok r => fst (q_run ex 3 r [QSum (Some [4]); QMaterialize None; QFilter (PEq 0x3ff8000000000000) None; QDecompress; QSum (Some [4])])
    | _ => []
    end) =
  Some [RNumber (Ok (of_bits 0x3ff8000000000000));
        RWritten (bytes_of [0x7ff0000000000000; 0x3ff8000000000000; 0x7ff8000000000001]) (Ok tt);
        RBitmap (Ok [4]); RValues (Ok [0x7ff0000000000000; 0x3ff8000000000000; 0x7ff8000000000001]);
        RNumber (Ok (of_bits 0x3ff8000000000000))].
Proof. vm_compute. reflexivity. Qed.
