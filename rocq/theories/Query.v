(** Queries on a chunk (decoder/query.rs) and on a file (api/decoder.rs). *)
From Verif Require Import Base Xor F64 Format File.

(** ** roaring::RoaringBitmap

    A finite set of u32, modelled as the strictly increasing list of its
    elements (the order in which [iter] returns them). *)
Definition bitmap := list N.
Definition bm_contains (bm : bitmap) (x : N) : bool := existsb (N.eqb x) bm.
Fixpoint bm_insert (x : N) (bm : bitmap) : bitmap :=
  match bm with
  | [] => [x]
  | y :: bm' => if x <? y then x :: bm else if x =? y then bm else y :: bm_insert x bm'
  end.
(** [a |= b] and [a & b]. *)
Definition bm_or (a b : bitmap) : bitmap := fold_left (fun acc x => bm_insert x acc) b a.
Definition bm_and (a b : bitmap) : bitmap := filter (bm_contains b) a.
(** [a & (lo..hi)], the second set built with [insert_range]; an empty or reversed
    range inserts nothing. *)
Definition bm_and_range (a : bitmap) (lo hi : N) : bitmap := filter (fun x => (lo <=? x) && (x <? hi)) a.
Definition bm_is_empty (a : bitmap) : bool := match a with [] => true | _ => false end.

(** ** Predicates *)

(** decoder/query.rs:352-356 [RangeValueImpl], 372-375 [RangeImpl], 422-426
    [PredicateImpl]. *)
Inductive bound (T : Type) := Inclusive (v : T) | Exclusive (v : T) | Unbounded.
Arguments Inclusive {T} v.
Arguments Exclusive {T} v.
Arguments Unbounded {T}.
Inductive pred (T : Type) := PEq (v : T) | PNe (v : T) | PRange (lo hi : bound T).
Arguments PEq {T} v.
Arguments PNe {T} v.
Arguments PRange {T} lo hi.

Section Predicate.
  Variable T : Type.
  Variables eqb leb ltb : T -> T -> bool.
  (** decoder/query.rs:396-409 [RangeImpl::eval]. *)
  Definition range_eval (lo hi : bound T) (v : T) : bool :=
    match lo with Inclusive b => leb b v | Exclusive b => ltb b v | Unbounded => true end &&
    match hi with Inclusive b => leb v b | Exclusive b => ltb v b | Unbounded => true end.
  (** decoder/query.rs:431-437 [PredicateImpl::eval]. *)
  Definition pred_eval (p : pred T) (v : T) : bool :=
    match p with
    | PEq w => eqb v w
    | PNe w => negb (eqb v w)
    | PRange lo hi => range_eval lo hi v
    end.
End Predicate.

(** decoder/query.rs:358-366, 411-416, 439-445 [map]. *)
Definition bound_map {T U} (f : T -> U) (b : bound T) : bound U :=
  match b with Inclusive v => Inclusive (f v) | Exclusive v => Exclusive (f v) | Unbounded => Unbounded end.
Definition pred_map {T U} (f : T -> U) (p : pred T) : pred U :=
  match p with
  | PEq v => PEq (f v)
  | PNe v => PNe (f v)
  | PRange lo hi => PRange (bound_map f lo) (bound_map f hi)
  end.

(** [Predicate = PredicateImpl<f64>]; values and bounds are bit patterns. *)
Definition fpred := pred N.
Definition fpred_eval (p : fpred) (v : N) : bool :=
  pred_eval f64 feq fle flt (pred_map of_bits p) (of_bits v).

(** ** f64 folds *)

(** [f64::min] and [f64::max]: a NaN argument is ignored.  Which of two equal
    arguments is returned is not specified by Rust (it matters for -0.0 and 0.0
    only): [tie] decides. *)
Definition fmin (tie : f64 -> f64 -> bool) (a b : f64) : f64 :=
  if is_nan a then b
  else if is_nan b then a
  else if flt a b then a else if flt b a then b else if tie a b then a else b.
Definition fmax (tie : f64 -> f64 -> bool) (a b : f64) : f64 :=
  if is_nan a then b
  else if is_nan b then a
  else if flt b a then a else if flt a b then b else if tie a b then a else b.

Definition f_zero : f64 := S754_zero false.
Definition f_inf (s : bool) : f64 := S754_infinity s.

(** [Iterator::sum::<f64>]: the first operand is 0.0 or -0.0 depending on the
    version of the standard library ([neg]). *)
Definition iter_sum (neg : bool) (vs : list f64) : f64 := fold_left fadd vs (S754_zero neg).

(** ** Queries on one chunk *)

(** decoder/query.rs, all loops over [decompressed.iter().enumerate()]: the
    records that pass [bitmask.is_some_and(|bm| !bm.contains(record_offset as u32))],
    with their offset as u32.  [logical_offset + i] stays below 2^64. *)
Definition allowed (mask : option bitmap) (i : N) : bool :=
  match mask with Some bm => bm_contains bm i | None => true end.
Fixpoint masked (mask : option bitmap) (offset : N) (vs : list N) : list (N * N) :=
  match vs with
  | [] => []
  | v :: vs' =>
      let i := offset mod two32 in
      if allowed mask i then (i, v) :: masked mask (offset + 1) vs' else masked mask (offset + 1) vs'
  end.

Section Defaults.
  Variable R : Type.
  Variable decompress : R -> res derr (list N) * R.
  Variable neg : bool.
  Variable tie : f64 -> f64 -> bool.

  (** decoder/query.rs:15-34; [to_ne_bytes] on a little-endian machine.  Writes to
      the output are assumed to succeed. *)
  Definition default_materialize (mask : option bitmap) (offset : N) (r : R) : list N * res derr unit * R :=
    let '(d, r) := decompress r in
    match d with
    | Ok vs => (flat_map (fun '(_, v) => le_bytes 8 v) (masked mask offset vs), Ok tt, r)
    | Err e => ([], Err e, r)
    | Panic => ([], Panic, r)
    end.

  (** decoder/query.rs:37-61. *)
  Definition default_filter (p : fpred) (mask : option bitmap) (offset : N) (r : R) : res derr bitmap * R :=
    let '(d, r) := decompress r in
    (do vs <- d ;
     Ok (fold_left (fun bm '(i, v) => if fpred_eval p v then bm_insert i bm else bm) (masked mask offset vs) []), r).

  (** decoder/query.rs:64-88. *)
  Definition default_filter_materialize (p : fpred) (mask : option bitmap) (offset : N) (r : R)
    : list N * res derr unit * R :=
    let '(d, r) := decompress r in
    match d with
    | Ok vs =>
        (flat_map (fun '(_, v) => if fpred_eval p v then le_bytes 8 v else []) (masked mask offset vs), Ok tt, r)
    | Err e => ([], Err e, r)
    | Panic => ([], Panic, r)
    end.

  (** decoder/query.rs:91-110, 113-132, 135-154. *)
  Definition default_fold (f : f64 -> f64 -> f64) (init : f64) (mask : option bitmap) (offset : N) (r : R)
    : res derr f64 * R :=
    let '(d, r) := decompress r in
    (do vs <- d ; Ok (fold_left (fun acc '(_, v) => f acc (of_bits v)) (masked mask offset vs) init), r).
  Definition default_sum := default_fold fadd f_zero.
  Definition default_min := default_fold (fmin tie) (f_inf false).
  Definition default_max := default_fold (fmax tie) (f_inf true).

  (** decoder/query.rs:157-173 and 176-192: [zip] stops at the shorter operand. *)
  Definition default_zip (f : f64 -> f64 -> f64) (offset : N) (target : list N) (r : R) : res derr f64 * R :=
    let '(d, r) := decompress r in
    (do vs <- d ;
     let start := N.min (N.of_nat (length vs)) offset in
     Ok (iter_sum neg (map (fun '(a, b) => f (of_bits a) (of_bits b)) (combine (skipn (N.to_nat start) vs) target))), r).
  Definition default_distance_squared := default_zip (fun a b => fmul (fsub a b) (fsub a b)).
  Definition default_dot_product := default_zip fmul.
End Defaults.

(** decoder/query.rs:197-341 [trait QueryExecutor] on top of [trait Reader]: the
    reader of a scheme.  [ex_open] takes the number of records and the bytes of
    the chunk (chunk_reader.rs:287-345); the Zstd, Gzip and Snappy readers fetch
    those bytes when they first decompress, here they have them from the start. *)
Record executor := mkEx {
  rstate : Type;
  ex_open : N -> list N -> res derr rstate;
  ex_unwraps : bool;      (* [open] unwraps the result of reading the chunk *)
  ex_precision : N -> rstate -> rstate;
  ex_decompress : rstate -> res derr (list N) * rstate;
  ex_materialize : option bitmap -> N -> rstate -> list N * res derr unit * rstate;
  ex_filter : fpred -> option bitmap -> N -> rstate -> res derr bitmap * rstate;
  ex_filter_materialize : fpred -> option bitmap -> N -> rstate -> list N * res derr unit * rstate;
  ex_sum : option bitmap -> N -> rstate -> res derr f64 * rstate;
  ex_min : option bitmap -> N -> rstate -> res derr f64 * rstate;
  ex_max : option bitmap -> N -> rstate -> res derr f64 * rstate;
  ex_distance_squared : N -> list N -> rstate -> res derr f64 * rstate;
  ex_dot_product : N -> list N -> rstate -> res derr f64 * rstate
}.

(** A reader that keeps every default method ([impl QueryExecutor for .. {}]);
    chunk_reader.rs:73-77: a precision is ignored. *)
Definition default_executor (neg : bool) (tie : f64 -> f64 -> bool) (R : Type) (open : N -> list N -> res derr R)
    (decompress : R -> res derr (list N) * R) : executor :=
  mkEx R open false (fun _ r => r) decompress
    (default_materialize R decompress) (default_filter R decompress) (default_filter_materialize R decompress)
    (default_sum R decompress) (default_min R decompress tie) (default_max R decompress tie)
    (default_distance_squared R decompress neg) (default_dot_product R decompress neg).

(** ** Queries on a file *)

Section Decoder.
  Variable dbg : bool.
  Variable tie : f64 -> f64 -> bool.
  Variable ex : executor.
  (** api/decoder.rs:121-133: the metadata, the input and [precision]. *)
  Variable m : metadata.
  Variable file : list N.
  Variable precision : option N.

  (** api/decoder.rs:739-753 [chunk_reader_from_handle]; a handle whose number is
      not in the index panics. *)
  Definition chunk_reader (i : nat) : res derr (rstate ex) :=
    match nth_error (f_index (m_footer m)) i with
    | None => Panic
    | Some f =>
        do n <- chunk_records dbg m i ;
        do size <- chunk_size dbg m i ;
        if isize_limit <=? size then Panic
        else
          match read_n size (drop_n (cf_physical f) file) with
          | Ok (bs, _) =>
              do r <- ex_open ex n bs ;
              Ok (match precision with Some k => ex_precision ex k r | None => r end)
          | Err e => if ex_unwraps ex then Panic else Err e
          | Panic => Panic
          end
    end.
  (** [chunk_footer().logical_offset()] of the handle. *)
  Definition chunk_offset (i : nat) : N :=
    match nth_error (f_index (m_footer m)) i with Some f => cf_logical f | None => 0 end.

  (** The loop header shared by the six queries, e.g. api/decoder.rs:216-226: the
      handles [0..number_of_chunks] with index [chunk_id] (all if [None]), without
      those whose range misses the mask. *)
  Definition selected_chunks (chunk_id : option nat) : list nat :=
    filter (fun i => match chunk_id with Some k => Nat.eqb k i | None => true end)
      (seq 0 (N.to_nat (f_chunks (m_footer m)))).
  Fixpoint over_chunks {A} (step : nat -> rstate ex -> A -> A * res derr unit)
      (mask : option bitmap) (acc : A) (ids : list nat) : A * res derr unit :=
    match ids with
    | [] => (acc, Ok tt)
    | i :: ids' =>
        match chunk_range_u32 m i with
        | Ok (lo, hi) =>
            if match mask with Some bm => bm_is_empty (bm_and_range bm lo hi) | None => false end
            then over_chunks step mask acc ids'
            else
              match chunk_reader i with
              | Ok r =>
                  let '(acc', o) := step i r acc in
                  match o with
                  | Ok _ => over_chunks step mask acc' ids'
                  | _ => (acc', o)
                  end
              | Err e => (acc, Err e)
              | Panic => (acc, Panic)
              end
        | Err e => (acc, Err e)
        | Panic => (acc, Panic)
        end
    end.
  (** A step whose result is combined with the accumulator by [f]. *)
  Definition combining {A B} (q : nat -> rstate ex -> res derr B * rstate ex) (f : A -> B -> A)
      (i : nat) (r : rstate ex) (acc : A) : A * res derr unit :=
    match fst (q i r) with
    | Ok b => (f acc b, Ok tt)
    | Err e => (acc, Err e)
    | Panic => (acc, Panic)
    end.
  Definition answer {A} (x : A * res derr unit) : res derr A := do _ <- snd x ; Ok (fst x).

  (** api/decoder.rs:202-237 [materialize]: the bytes written and the result. *)
  Definition dec_materialize (mask : option bitmap) (chunk_id : option nat) : list N * res derr unit :=
    over_chunks (fun i r acc => let '(w, o, _) := ex_materialize ex mask (chunk_offset i) r in (acc ++ w, o))
      mask [] (selected_chunks chunk_id).

  (** api/decoder.rs:242-281 [filter]. *)
  Definition dec_filter (p : fpred) (mask : option bitmap) (chunk_id : option nat) : res derr bitmap :=
    answer (over_chunks (combining (fun i => ex_filter ex p mask (chunk_offset i)) bm_or)
      mask [] (selected_chunks chunk_id)).

  (** api/decoder.rs:283-319 [filter_materialize]. *)
  Definition dec_filter_materialize (p : fpred) (mask : option bitmap) (chunk_id : option nat)
    : list N * res derr unit :=
    over_chunks (fun i r acc => let '(w, o, _) := ex_filter_materialize ex p mask (chunk_offset i) r in (acc ++ w, o))
      mask [] (selected_chunks chunk_id).

  (** api/decoder.rs:323-359 [sum], 363-399 [min], 403-439 [max]. *)
  Definition dec_sum (mask : option bitmap) (chunk_id : option nat) : res derr f64 :=
    answer (over_chunks (combining (fun i => ex_sum ex mask (chunk_offset i)) fadd)
      mask f_zero (selected_chunks chunk_id)).
  Definition dec_min (mask : option bitmap) (chunk_id : option nat) : res derr f64 :=
    answer (over_chunks (combining (fun i => ex_min ex mask (chunk_offset i)) (fmin tie))
      mask (f_inf false) (selected_chunks chunk_id)).
  Definition dec_max (mask : option bitmap) (chunk_id : option nat) : res derr f64 :=
    answer (over_chunks (combining (fun i => ex_max ex mask (chunk_offset i)) (fmax tie))
      mask (f_inf true) (selected_chunks chunk_id)).
End Decoder.

(** ** Calls on one chunk reader *)

(** The queries a user can make on a [GeneralChunkReader] (chunk_reader.rs:127-259). *)
Inductive qop :=
| QMaterialize (mask : option bitmap)
| QFilter (p : fpred) (mask : option bitmap)
| QFilterMaterialize (p : fpred) (mask : option bitmap)
| QSum (mask : option bitmap)
| QMin (mask : option bitmap)
| QMax (mask : option bitmap)
| QDistance (offset : N) (target : list N)
| QDot (offset : N) (target : list N)
| QDecompress.
Inductive qres :=
| RWritten (bs : list N) (o : res derr unit)
| RBitmap (r : res derr bitmap)
| RNumber (r : res derr f64)
| RValues (r : res derr (list N)).
Definition q_step (ex : executor) (offset : N) (r : rstate ex) (q : qop) : qres * rstate ex :=
  match q with
  | QMaterialize mask => let '(w, o, r) := ex_materialize ex mask offset r in (RWritten w o, r)
  | QFilter p mask => let '(b, r) := ex_filter ex p mask offset r in (RBitmap b, r)
  | QFilterMaterialize p mask => let '(w, o, r) := ex_filter_materialize ex p mask offset r in (RWritten w o, r)
  | QSum mask => let '(v, r) := ex_sum ex mask offset r in (RNumber v, r)
  | QMin mask => let '(v, r) := ex_min ex mask offset r in (RNumber v, r)
  | QMax mask => let '(v, r) := ex_max ex mask offset r in (RNumber v, r)
  | QDistance off t => let '(v, r) := ex_distance_squared ex off t r in (RNumber v, r)
  | QDot off t => let '(v, r) := ex_dot_product ex off t r in (RNumber v, r)
  | QDecompress => let '(v, r) := ex_decompress ex r in (RValues v, r)
  end.
Fixpoint q_run (ex : executor) (offset : N) (r : rstate ex) (qs : list qop) : list qres * rstate ex :=
  match qs with
  | [] => ([], r)
  | q :: qs' =>
      let '(a, r) := q_step ex offset r q in
      let '(l, r) := q_run ex offset r qs' in (a :: l, r)
  end.
