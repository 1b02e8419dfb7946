(** Expressions over several files (decoder/expr.rs), aggregations (api/decoder.rs:755-916),
    nearest neighbours and matrix products (api/decoder.rs:440-656). *)
From Verif Require Import Base Xor F64 Format File Query.

(** ** Decoders and open chunk readers *)

(** api/decoder.rs:121-133 [struct Decoder]: the reader behind the configuration of
    the file, its metadata, its bytes and [precision].  The decoders of one call may
    belong to files of different schemes. *)
Record decoder := mkDec { d_ex : executor; d_meta : metadata; d_file : list N; d_precision : option N }.

(** decoder/chunk_reader.rs:60-71 [GeneralChunkReader]: the reader of a chunk with
    the number of records (106-108) and the logical offset (133) of its handle.
    Timers are left out. *)
Record open_reader := mkRd { rd_ex : executor; rd_state : rstate rd_ex; rd_records : N; rd_offset : N }.

Section Calls.
  Variable dbg : bool.
  Variable neg : bool.
  Variable tie : f64 -> f64 -> bool.

  (** api/decoder.rs:726-737 [chunk_reader]. *)
  Definition open_chunk (i : nat) (d : decoder) : res derr open_reader :=
    do r <- chunk_reader dbg (d_ex d) (d_meta d) (d_file d) (d_precision d) i ;
    do n <- chunk_records dbg (d_meta d) i ;
    Ok (mkRd (d_ex d) r n (chunk_offset (d_meta d) i)).

  (** ** Expressions *)

  (** decoder/expr.rs:11-29 [Op], [Op::doit]. *)
  Inductive op := Add | Sub | Mul | Div.
  Definition doit (o : op) (l r : f64) : f64 :=
    match o with Add => fadd l r | Sub => fsub l r | Mul => fmul l r | Div => fdiv l r end.

  (** decoder/expr.rs:31-40 [Expr]; a literal is a bit pattern. *)
  Inductive expr := Literal (v : N) | Binary (o : op) (l r : expr) | Index (k : nat).

  (** decoder/expr.rs:43-58 [max_chunk_reader_index]. *)
  Fixpoint max_index (e : expr) : option nat :=
    match e with
    | Literal _ => None
    | Binary _ l r =>
        match max_index l, max_index r with
        | None, None => None
        | None, Some i => Some i
        | Some i, None => Some i
        | Some i, Some j => Some (Nat.max i j)
        end
    | Index k => Some k
    end.
  (** decoder/expr.rs:60-65 [literal]. *)
  Definition literal (e : expr) : option f64 := match e with Literal v => Some (of_bits v) | _ => None end.

  (** The values in bytes written to a buffer of f64 (expr.rs:115-118); a partial
      last value is dropped. *)
  Fixpoint values_of (fuel : nat) (bs : list N) : list f64 :=
    match fuel with
    | O => []
    | S k => of_bits (le_val (firstn 8 bs)) :: values_of k (skipn 8 bs)
    end.

  Fixpoint replace {A} (l : list A) (k : nat) (x : A) : list A :=
    match l, k with
    | [], _ => []
    | _ :: l', O => x :: l'
    | y :: l', S k' => y :: replace l' k' x
    end.

  (** decoder/expr.rs:92-119, [Expr::Index]: materialise into a buffer of
      [8 * number_of_records] bytes; a write past its end is an error ([write_all] on
      a [Cursor<&mut [u8]>]).  [Vec::with_capacity] panics above [isize::MAX] bytes. *)
  Definition read_column (mask : option bitmap) (r : open_reader) : res derr (list f64) * open_reader :=
    if isize_limit <=? 8 * rd_records r then (Panic, r)
    else
      let '(w, o, s) := ex_materialize (rd_ex r) mask (rd_offset r) (rd_state r) in
      let r := mkRd (rd_ex r) s (rd_records r) (rd_offset r) in
      if 8 * rd_records r <? N.of_nat (length w) then (Err EIO, r)
      else (do _ <- o ; Ok (values_of (length w / 8) w), r).

  (** decoder/expr.rs:67-123 [compute_chunk]; the readers are [&mut]. *)
  Fixpoint compute_chunk (e : expr) (mask : option bitmap) (rs : list open_reader)
    : res derr (list f64) * list open_reader :=
    match e with
    | Literal _ => (Err EPreconditionsNotMet, rs)
    | Binary o l r =>
        match literal l, literal r with
        | None, None =>
            let '(x, rs) := compute_chunk l mask rs in
            match x with
            | Ok xs =>
                let '(y, rs) := compute_chunk r mask rs in
                (do ys <- y ; Ok (map (fun '(a, b) => doit o a b) (combine xs ys)), rs)
            | Err e => (Err e, rs)
            | Panic => (Panic, rs)
            end
        | None, Some b =>
            let '(x, rs) := compute_chunk l mask rs in
            (do xs <- x ; Ok (map (fun a => doit o a b) xs), rs)
        | Some a, None =>
            let '(y, rs) := compute_chunk r mask rs in
            (do ys <- y ; Ok (map (fun b => doit o a b) ys), rs)
        | Some _, Some _ => (Err EPreconditionsNotMet, rs)
        end
    | Index k =>
        match nth_error rs k with
        | None => (Panic, rs)
        | Some r => let '(x, r) := read_column mask r in (x, replace rs k r)
        end
    end.

  (** ** Aggregations *)

  (** api/decoder.rs:755-760 [AggregationKind], 764-771 [AggregationResult]
      ([Integer] is not produced by the functions below). *)
  Inductive kind := KNone | KMax | KMin | KSum.
  Inductive aggregate := Array (vs : list f64) | Scalar (v : f64).
  Record aggregation := mkAgg { a_kind : kind; a_expr : expr }.

  (** api/decoder.rs:774-781 [zero]. *)
  Definition agg_zero (k : kind) : aggregate :=
    match k with
    | KNone => Array []
    | KMax => Scalar (f_inf true)
    | KMin => Scalar (f_inf false)
    | KSum => Scalar f_zero
    end.
  (** api/decoder.rs:791-808 [concat]. *)
  Definition agg_concat (k : kind) (a b : aggregate) : res derr aggregate :=
    match a, b with
    | Array x, Array y => Ok (Array (x ++ y))
    | Scalar x, Scalar y =>
        match k with
        | KMax => Ok (Scalar (fmax tie x y))
        | KMin => Ok (Scalar (fmin tie x y))
        | KSum => Ok (Scalar (fadd x y))
        | KNone => Err EPreconditionsNotMet
        end
    | _, _ => Err EPreconditionsNotMet
    end.
  (** api/decoder.rs:812-823 [dispatch]; [todo!()] panics. *)
  Definition agg_dispatch (k : kind) (d : decoder) (mask : option bitmap) : res derr aggregate :=
    let scalar (x : res derr f64) := do v <- x ; Ok (Scalar v) in
    match k with
    | KNone => Panic
    | KMax => scalar (dec_max dbg tie (d_ex d) (d_meta d) (d_file d) (d_precision d) mask None)
    | KMin => scalar (dec_min dbg tie (d_ex d) (d_meta d) (d_file d) (d_precision d) mask None)
    | KSum => scalar (dec_sum dbg (d_ex d) (d_meta d) (d_file d) (d_precision d) mask None)
    end.
  (** api/decoder.rs:825-832 [dispatch_on_vec]. *)
  Definition agg_of_values (k : kind) (vs : list f64) : aggregate :=
    match k with
    | KNone => Array vs
    | KMax => Scalar (fold_left (fmax tie) vs (f_inf true))
    | KMin => Scalar (fold_left (fmin tie) vs (f_inf false))
    | KSum => Scalar (iter_sum neg vs)
    end.

  (** [iter_mut().map(|d| d.chunk_reader(i)).collect::<Result<Vec<_>>>()]. *)
  Fixpoint open_all (i : nat) (ds : list decoder) : res derr (list open_reader) :=
    match ds with
    | [] => Ok []
    | d :: ds => do r <- open_chunk i d ; do rs <- open_all i ds ; Ok (r :: rs)
    end.

  (** api/decoder.rs:870-877, the loop of [compute]. *)
  Fixpoint agg_chunks (a : aggregation) (ds : list decoder) (mask : option bitmap) (acc : aggregate) (ids : list nat)
    : res derr aggregate :=
    match ids with
    | [] => Ok acc
    | i :: ids =>
        do rs <- open_all i ds ;
        do vs <- fst (compute_chunk (a_expr a) mask rs) ;
        do acc <- agg_concat (a_kind a) acc (agg_of_values (a_kind a) vs) ;
        agg_chunks a ds mask acc ids
    end.
  (** api/decoder.rs:858-880 [Aggregation::compute]. *)
  Definition compute (a : aggregation) (ds : list decoder) (mask : option bitmap) : res derr aggregate :=
    match a_expr a with
    | Index k => match nth_error ds k with Some d => agg_dispatch (a_kind a) d mask | None => Panic end
    | _ =>
        match ds with
        | [] => Panic
        | d :: _ => agg_chunks a ds mask (agg_zero (a_kind a)) (seq 0 (N.to_nat (f_chunks (m_footer (d_meta d)))))
        end
    end.

  (** api/decoder.rs:889-899: the results so far, with [computed]. *)
  Fixpoint multi_start (aggs : list aggregation) (ds : list decoder) (mask : option bitmap)
    : res derr (list (aggregate * bool)) :=
    match aggs with
    | [] => Ok []
    | a :: aggs =>
        do x <- match a_expr a with
                | Index k =>
                    match nth_error ds k with
                    | Some d => do v <- agg_dispatch (a_kind a) d mask ; Ok (v, true)
                    | None => Panic
                    end
                | _ => Ok (agg_zero (a_kind a), false)
                end ;
        do xs <- multi_start aggs ds mask ; Ok (x :: xs)
    end.
  (** api/decoder.rs:906-912: all aggregations on the open readers of one chunk. *)
  Fixpoint multi_chunk (aggs : list aggregation) (results : list (aggregate * bool)) (mask : option bitmap)
      (rs : list open_reader) : res derr (list (aggregate * bool)) :=
    match aggs, results with
    | a :: aggs, (v, true) :: results =>
        do xs <- multi_chunk aggs results mask rs ; Ok ((v, true) :: xs)
    | a :: aggs, (v, false) :: results =>
        let '(c, rs) := compute_chunk (a_expr a) mask rs in
        do vs <- c ;
        do v <- agg_concat (a_kind a) v (agg_of_values (a_kind a) vs) ;
        do xs <- multi_chunk aggs results mask rs ; Ok ((v, false) :: xs)
    | _, _ => Ok []
    end.
  (** api/decoder.rs:901-913. *)
  Fixpoint multi_chunks (aggs : list aggregation) (ds : list decoder) (mask : option bitmap)
      (results : list (aggregate * bool)) (ids : list nat) : res derr (list (aggregate * bool)) :=
    match ids with
    | [] => Ok results
    | i :: ids =>
        do rs <- open_all i ds ;
        do results <- multi_chunk aggs results mask rs ;
        multi_chunks aggs ds mask results ids
    end.
  (** api/decoder.rs:882-916 [Aggregation::compute_multiple]. *)
  Definition compute_multiple (aggs : list aggregation) (ds : list decoder) (mask : option bitmap)
    : res derr (list aggregate) :=
    do start <- multi_start aggs ds mask ;
    match ds with
    | [] => Panic
    | d :: _ =>
        do results <- multi_chunks aggs ds mask start (seq 0 (N.to_nat (f_chunks (m_footer (d_meta d))))) ;
        Ok (map fst results)
    end.

  (** ** Nearest neighbour *)

  (** api/decoder.rs:107-114 [KnnResult]. *)
  Record knn := mkKnn { k_index : N; k_distance : f64 }.

  (** api/decoder.rs:511-528, the [while] loop: [n] is the number of records of the
      chunk.  It does not end when [target] is empty: [None] when [fuel] iterations
      are not enough.  [index] cannot overflow. *)
  Fixpoint knn_vectors (fuel : nat) (ex : executor) (n : N) (target : list N) (r : rstate ex) (offset : N)
      (index : N) (partial : f64) (best : knn) (remaining : N) : option (res derr (N * f64 * knn * N)) :=
    if offset <? n then
      match fuel with
      | O => None
      | S fuel =>
          let len := N.of_nat (length target) in
          let k := N.min len (n - offset) in
          let '(d, r) := ex_distance_squared ex offset (firstn (N.to_nat k) target) r in
          match d with
          | Ok d =>
              if k =? len then
                knn_vectors fuel ex n target r (offset + k) (index + 1) d
                  (if fle d (k_distance best) then mkKnn index d else best) remaining
              else knn_vectors fuel ex n target r (offset + k) index d best (len - k)
          | Err e => Some (Err e)
          | Panic => Some Panic
          end
      end
    else Some (Ok (index, partial, best, remaining)).

  (** api/decoder.rs:489-530, the loop over the chunk handles.  Line 508 adds
      [remaining_records] to [offset] after line 505 has cleared it. *)
  Fixpoint knn_chunks (fuel : nat) (d : decoder) (target : list N) (index : N) (partial : f64) (best : knn)
      (remaining : N) (ids : list nat) : option (res derr knn) :=
    match ids with
    | [] => Some (Ok best)
    | i :: ids =>
        match chunk_records dbg (d_meta d) i with
        | Ok n =>
            match chunk_reader dbg (d_ex d) (d_meta d) (d_file d) (d_precision d) i with
            | Ok r =>
                let start :=
                  if remaining =? 0 then Ok (r, index, partial, best)
                  else
                    let len := N.of_nat (length target) in
                    let '(x, r) := ex_distance_squared (d_ex d) 0 (skipn (N.to_nat (len - remaining)) target) r in
                    do x <- x ;
                    let sum := fadd partial x in
                    Ok (r, index + 1, sum, if flt sum (k_distance best) then mkKnn index sum else best)
                in
                match start with
                | Ok (r, index, partial, best) =>
                    match knn_vectors fuel (d_ex d) n target r 0 index partial best 0 with
                    | Some (Ok (index, partial, best, remaining)) => knn_chunks fuel d target index partial best remaining ids
                    | Some (Err e) => Some (Err e)
                    | Some Panic => Some Panic
                    | None => None
                    end
                | Err e => Some (Err e)
                | Panic => Some Panic
                end
            | Err e => Some (Err e)
            | Panic => Some Panic
            end
        | Err e => Some (Err e)
        | Panic => Some Panic
        end
    end.
  (** api/decoder.rs:469-533 [knn1]: [None] when [fuel] iterations of the inner loop
      are not enough for some chunk. *)
  Definition knn1 (fuel : nat) (d : decoder) (target : list N) : option (res derr knn) :=
    knn_chunks fuel d target 0 f_zero (mkKnn (two64 - 1) (f_inf false)) 0
      (seq 0 (N.to_nat (f_chunks (m_footer (d_meta d))))).

  (** ** Matrix product *)

  (** usize multiplication. *)
  Definition mul_usize (a b : N) : res derr N :=
    if a * b <? two64 then Ok (a * b) else if dbg then Panic else Ok ((a * b) mod two64).

  (** [slice::chunks_exact(k)] for [k > 0]: whole groups of [k]; the rest is dropped. *)
  Fixpoint groups (count k : nat) (l : list N) : list (list N) :=
    match count with
    | O => []
    | S c => firstn k l :: groups c k (skipn k l)
    end.
  Definition chunks_exact (k : N) (l : list N) : list (list N) :=
    groups (length l / N.to_nat k) (N.to_nat k) l.

  (** A loop that asks one reader for dot products, api/decoder.rs:638-646: for each
      row offset, each column. *)
  Fixpoint dots (ex : executor) (offset : N) (cols : list (list N)) (r : rstate ex) : res derr (list f64) * rstate ex :=
    match cols with
    | [] => (Ok [], r)
    | c :: cols =>
        let '(x, r) := ex_dot_product ex offset c r in
        match x with
        | Ok x => let '(xs, r) := dots ex offset cols r in (do xs <- xs ; Ok (x :: xs), r)
        | Err e => (Err e, r)
        | Panic => (Panic, r)
        end
    end.
  Fixpoint dot_rows (ex : executor) (offset : N) (rows : nat) (columns : N) (cols : list (list N)) (r : rstate ex)
    : res derr (list f64) * rstate ex :=
    match rows with
    | O => (Ok [], r)
    | S rows =>
        let '(x, r) := dots ex offset cols r in
        match x with
        | Ok xs => let '(ys, r) := dot_rows ex (offset + columns) rows columns cols r in (do ys <- ys ; Ok (xs ++ ys), r)
        | Err e => (Err e, r)
        | Panic => (Panic, r)
        end
    end.
  (** api/decoder.rs:631-649, the loop over the batch; [chunk] is the index of the
      open reader [r]. *)
  Fixpoint matmul_batch (d : decoder) (rows columns : N) (cols : list (list N)) (batch chunk : nat) (offset : N)
      (r : rstate (d_ex d)) : res derr (list f64) :=
    match batch with
    | O => if dbg && negb (is_last_chunk (d_meta d) chunk) then Panic else Ok []
    | S batch =>
        do n <- chunk_records dbg (d_meta d) chunk ;
        do x <-
          (if n <=? offset then
             do r <- chunk_reader dbg (d_ex d) (d_meta d) (d_file d) (d_precision d) (S chunk) ; Ok (S chunk, 0, r)
           else Ok (chunk, offset, r)) ;
        let '(chunk, offset, r) := x in
        let '(x, r) := dot_rows (d_ex d) offset (N.to_nat rows) columns cols r in
        do xs <- x ;
        do ys <- matmul_batch d rows columns cols batch chunk (offset + (rows * columns) mod two64) r ;
        Ok (xs ++ ys)
    end.
  (** api/decoder.rs:606-656 [matmul].  [target_columns] is only used for the capacity
      of the result; [chunks_exact(0)] panics, but a zero [target_rows] that gets past
      line 621 makes the division of line 620 panic first. *)
  Definition matmul (d : decoder) (target : list N) (target_shape data_shape : N * N) : res derr (list f64) :=
    let '(target_rows, target_columns) := target_shape in
    let '(rows, columns) := data_shape in
    let records := f_records (m_footer (d_meta d)) in
    do size <- mul_usize rows columns ;
    if size =? 0 then Panic
    else if negb (columns =? target_rows) || negb (records mod size =? 0) then Err EPreconditionsNotMet
    else
      do a <- mul_usize (records / size) rows ;
      do capacity <- mul_usize a target_columns ;
      if isize_limit <=? 8 * capacity then Panic
      else
        do r <- chunk_reader dbg (d_ex d) (d_meta d) (d_file d) (d_precision d) 0 ;
        matmul_batch d rows columns (chunks_exact target_rows target) (N.to_nat (records / size)) 0 0 r.
End Calls.
