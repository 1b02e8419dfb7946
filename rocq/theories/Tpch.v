(** The TPC-H experiment: experimenter/src/tpch.rs. *)
From Coq Require Import String Ascii.
From Verif Require Import Base Xor F64 Format File FileSpec Codecs Readers Query Sprintz Buff BuffCodec Expr.
Local Open Scope string_scope.
Local Open Scope N_scope.

(** ** The Parquet file *)

(** A column of a record batch: its name, the scale if its type is [Decimal128], and
    its cells ([None]: null).  Reading Parquet is not modelled, only what
    [extract_columns] does with the batches. *)
Record field := mkField { fd_name : string; fd_scale : option Z; fd_cells : list (option Z) }.

(** tpch.rs:64 [10f64.powi(scale)]: the power of ten rounded once, which is exact up
    to 10^22; the platform may be less accurate beyond. *)
Definition pow10 (scale : Z) : f64 :=
  if (0 <=? scale)%Z then of_Z (10 ^ scale) else fdiv (of_Z 1) (of_Z (10 ^ (- scale))).

(** tpch.rs:54-75 [extract_decimal_as_f64]; [fd_scale] tells the type, so the
    downcast cannot fail. *)
Definition extract_decimal (scale : Z) (cells : list (option Z)) : list N :=
  map (fun c => match c with None => nan_bits | Some z => to_bits (fdiv (of_Z z) (pow10 scale)) end) cells.

(** tpch.rs:80, 99-102: a [BTreeMap] from names to values, as a list in ascending
    order of the names; [entry(name).or_insert_with(Vec::new).extend(values)]. *)
Definition columns := list (string * list N).
Fixpoint extend_column (name : string) (values : list N) (cols : columns) : columns :=
  match cols with
  | [] => [(name, values)]
  | (n, vs) :: rest =>
      match String.compare name n with
      | Lt => (name, values) :: cols
      | Eq => (n, (vs ++ values)%list) :: rest
      | Gt => (n, vs) :: extend_column name values rest
      end
  end.

(** tpch.rs:84-103: the columns of one batch; [ensure!] rejects other columns that
    are not decimals. *)
Fixpoint extract_batch (batch : list field) (cols : columns) : res derr columns :=
  match batch with
  | [] => Ok cols
  | f :: batch =>
      match fd_scale f with
      | None =>
          if String.eqb (fd_name f) "l_returnflag" || String.eqb (fd_name f) "l_linestatus"
          then extract_batch batch cols else Err EPreconditionsNotMet
      | Some s => extract_batch batch (extend_column (fd_name f) (extract_decimal s (fd_cells f)) cols)
      end
  end.
(** tpch.rs:77-107 [extract_columns]. *)
Fixpoint extract_columns (batches : list (list field)) (cols : columns) : res derr columns :=
  match batches with
  | [] => Ok cols
  | b :: batches => do cols <- extract_batch b cols ; extract_columns batches cols
  end.

(** tpch.rs:233-237, 371-375, 472-476: [column_to_index]; indexing a [HashMap] with a
    missing name, and [expect], panic. *)
Fixpoint index_of (name : string) (names : list string) : option nat :=
  match names with
  | [] => None
  | n :: names => if String.eqb name n then Some O else option_map S (index_of name names)
  end.
Definition column_index (cols : columns) (name : string) : res derr nat :=
  match index_of name (map fst cols) with Some i => Ok i | None => Panic end.

(** ** Configurations *)

(** compressor.rs:465: [DEFAULT_CAPACITY]. *)
Definition default_capacity : N := 1024 * 8.
(** tpch.rs:169-188 [all_configs]; the levels are compressor/zstd.rs:30 and
    compressor/gzip.rs:34. *)
Definition all_configs (scale : N) : list config :=
  [CUncompressed default_capacity; CChimp128 default_capacity; CChimp default_capacity; CElfOnChimp default_capacity;
   CElf default_capacity; CGorilla default_capacity; CRle default_capacity; CZstd 3; CGzip 6; CSnappy; CAlp;
   CDeltaSprintz default_capacity scale; CBuff scale].
(** experimenter/src/lib.rs:592 [DEFAULT_CHUNK_OPTION]. *)
Definition default_chunk_option : chunk_option := RecordCount (128 * 1024 * 1024 / 8).

(** api/decoder.rs:764-771 [AggregationResult] with its third case. *)
Inductive outcome := Aggregated (a : aggregate) | Integer (n : N).
(** api/decoder.rs [AggregationResult::scalar] followed by [unwrap]. *)
Definition scalar (o : outcome) : res derr f64 :=
  match o with Aggregated (Scalar v) => Ok v | _ => Panic end.
(** Indexing a [Vec] and [Vec::swap]. *)
Definition at_index {A} (l : list A) (i : nat) : res derr A := match nth_error l i with Some x => Ok x | None => Panic end.
Definition swap {A} (l : list A) (i j : nat) : res derr (list A) :=
  do x <- at_index l i ; do y <- at_index l j ; Ok (replace (replace l i y) j x).

(** experimenter/src/lib.rs:568-590 [get_compress_statistics], without the ratios and
    the time: uncompressed size, file size, size of the chunks. *)
Record statistics := mkStats { st_uncompressed : N; st_file : N; st_chunks : N }.

(** What the run depends on besides its input: overflow checks, SIMD, the sign of an
    empty sum, [f64::max] of zeros, [log10], the libraries, the logarithm of a scale
    (see Query.v, Elf.v, Codecs.v, Buff.v), and the times measured while a column is
    encoded. *)
Record platform := mkPlatform {
  p_dbg : bool; p_simd : bool; p_neg : bool; p_tie : f64 -> f64 -> bool; p_log10 : f64 -> f64;
  p_lib : libraries; p_lg : N -> N; p_timer : times; p_elapsed : N
}.

Section Tpch.
  Variable P : platform.
  Let dbg := p_dbg P.
  Let simd := p_simd P.
  Let neg := p_neg P.
  Let tie := p_tie P.
  Let log10 := p_log10 P.
  Let lib := p_lib P.
  Let lg := p_lg P.
  Let timer := p_timer P.
  Let elapsed := p_elapsed P.

  (** compressor.rs:215-247 and chunk_reader.rs:287-345: all schemes. *)
  Definition codec_of (c : config) : codec :=
    match c with
    | CBuff s => buff_codec dbg lg s
    | _ => match scheme_codec dbg log10 lib c with Some cd => cd | None => uncompressed_codec end
    end.
  Definition executor_of (c : config) : executor :=
    match c with
    | CBuff _ => buff_executor dbg simd neg
    | CDeltaSprintz _ _ => sprintz_executor dbg neg tie
    | _ => match scheme_executor dbg neg tie log10 lib c with Some ex => ex | None => uncompressed_executor neg tie end
    end.

  (** tpch.rs:150-167 [decoder]: encode into memory and open the result; a [Vec] of
      more than [isize::MAX] bytes is a capacity overflow. *)
  Definition encode_column (c : config) (values : list N) : list wop * res derr unit :=
    encode dbg (codec_of c) default_chunk_option c timer elapsed [Data (bytes_of values)].
  Definition open_column (c : config) (values : list N) : res derr decoder :=
    let '(ops, r) := encode_column c values in
    do _ <- r ;
    let file := written [] ops in
    if isize_limit <=? N.of_nat (length file) then Panic
    else do m <- open_file dbg file ; Ok (mkDec (executor_of (f_config (m_footer m))) m file None).
  (** lib.rs:568-590; [u64] multiplication and subtraction. *)
  Definition column_statistics (d : decoder) : res derr statistics :=
    do n <- mul8 dbg (f_records (m_footer (d_meta d))) ;
    do k <- total_chunk_size dbg (d_meta d) ;
    Ok (mkStats n (total_file_size (d_meta d)) k).
  (** tpch.rs:240-247, 378-385, 479-486. *)
  Fixpoint open_columns (c : config) (cols : columns) : res derr (list (decoder * statistics)) :=
    match cols with
    | [] => Ok []
    | (_, values) :: cols =>
        do d <- open_column c values ;
        do s <- column_statistics d ;
        do ds <- open_columns c cols ; Ok ((d, s) :: ds)
    end.

  Definition sum_of (e : expr) : aggregation := mkAgg KSum e.
  (** The literal 1.0. *)
  Definition one : expr := Literal 0x3ff0000000000000.
  Definition filter_column (d : decoder) (p : fpred) (mask : option bitmap) : res derr bitmap :=
    dec_filter dbg (d_ex d) (d_meta d) (d_file d) (d_precision d) p mask None.

  (** ** Query 6 *)

  (** tpch.rs:330-342 [get_h06_predicate]: 0.05, 0.07, 24.0. *)
  Definition h06_discount : fpred := PRange (Inclusive 0x3fa999999999999a) (Inclusive 0x3fb1eb851eb851ec).
  Definition h06_quantity : fpred := PRange Unbounded (Exclusive 0x4038000000000000).
  (** tpch.rs:344-359 [h06_aggregations]. *)
  Definition h06_aggregations (price discount : nat) : list aggregation :=
    [sum_of (Binary Mul (Index price) (Index discount))].
  (** tpch.rs:378-447: one configuration. *)
  Definition run_h06 (c : config) (cols : columns) : res derr (list outcome) :=
    do ds <- open_columns c cols ;
    let ds := map fst ds in
    do i0 <- column_index cols "l_discount" ;
    do i1 <- column_index cols "l_quantity" ;
    do price <- column_index cols "l_extendedprice" ;
    do discount <- column_index cols "l_discount" ;
    do d0 <- at_index ds i0 ;
    do mask <- filter_column d0 h06_discount None ;
    do d1 <- at_index ds i1 ;
    do mask <- filter_column d1 h06_quantity (Some mask) ;
    do rs <- compute_multiple dbg neg tie (h06_aggregations price discount) ds (Some mask) ;
    Ok (map Aggregated rs).

  (** ** Query 1 *)

  (** tpch.rs:190-222 [h01_aggregations]. *)
  Definition h01_aggregations (quantity price discount tax : nat) : list aggregation :=
    [sum_of (Index quantity);
     sum_of (Index price);
     sum_of (Binary Mul (Index price) (Binary Sub one (Index discount)));
     sum_of (Binary Mul (Binary Mul (Index price) (Binary Sub one (Index discount))) (Binary Add one (Index tax)));
     sum_of (Index discount)].
  (** A sum divided by [number_of_records as f64] (tpch.rs:281, 291, 301, 518, 528, 538). *)
  Definition average (o : outcome) (n : N) : res derr outcome :=
    do s <- scalar o ; Ok (Aggregated (Scalar (fdiv s (of_Z (Z.of_N n))))).
  (** tpch.rs:277-312: average of quantity, of price, of discount, the count, and the
      [swap]. *)
  Definition h01_finish (result : list outcome) (n : N) : res derr (list outcome) :=
    do s0 <- at_index result 0 ;
    do v <- average s0 n ;
    let result := (result ++ [v])%list in
    do s1 <- at_index result 1 ;
    do v <- average s1 n ;
    let result := (result ++ [v])%list in
    do s4 <- at_index result 4 ;
    do v <- average s4 n ;
    let result := replace result 4 v in
    let result := (result ++ [Integer n])%list in
    swap result 4 6.
  (** tpch.rs:262-313: the names beside the times, and the [swap].  The five sums
      share one name. *)
  Definition h01_names : res derr (list string) :=
    swap ["SUM(l_quantity) ... SUM(l_discount)"; "AVG(l_quantity)"; "AVG(l_extendedprice)"; "AVG(l_discount)"] 1 3.
  (** tpch.rs:240-324: one configuration. *)
  Definition run_h01 (c : config) (cols : columns) : res derr (list outcome) :=
    do ds <- open_columns c cols ;
    let ds := map fst ds in
    do quantity <- column_index cols "l_quantity" ;
    do price <- column_index cols "l_extendedprice" ;
    do discount <- column_index cols "l_discount" ;
    do tax <- column_index cols "l_tax" ;
    do d0 <- at_index ds 0 ;
    let n := f_records (m_footer (d_meta d0)) in
    do rs <- compute_multiple dbg neg tie (h01_aggregations quantity price discount tax) ds None ;
    h01_finish (map Aggregated rs) n.

  (** tpch.rs:453-459 [h01_simplified_aggregations]. *)
  Definition h01_simplified_aggregations (quantity price discount : nat) : list aggregation :=
    [sum_of (Index quantity); sum_of (Index price); sum_of (Index discount)].
  (** tpch.rs:514-545. *)
  Definition h01_simplified_finish (result : list outcome) (n : N) : res derr (list outcome) :=
    do s0 <- at_index result 0 ;
    do v <- average s0 n ;
    let result := (result ++ [v])%list in
    do s1 <- at_index result 1 ;
    do v <- average s1 n ;
    let result := (result ++ [v])%list in
    do s2 <- at_index result 2 ;
    do v <- average s2 n ;
    let result := replace result 2 v in
    Ok (result ++ [Integer n])%list.
  (** tpch.rs:478-558: one configuration. *)
  Definition run_h01_simplified (c : config) (cols : columns) : res derr (list outcome) :=
    do ds <- open_columns c cols ;
    let ds := map fst ds in
    do quantity <- column_index cols "l_quantity" ;
    do price <- column_index cols "l_extendedprice" ;
    do discount <- column_index cols "l_discount" ;
    do d0 <- at_index ds 0 ;
    let n := f_records (m_footer (d_meta d0)) in
    do rs <- compute_multiple dbg neg tie (h01_simplified_aggregations quantity price discount) ds None ;
    h01_simplified_finish (map Aggregated rs) n.

  (** ** All configurations *)

  (** tpch.rs:239, 377, 478: the loop; the map from method names (one per scheme) to
      results as a list. *)
  Fixpoint run_all (run : config -> columns -> res derr (list outcome)) (cs : list config) (cols : columns)
    : res derr (list (scheme * list outcome)) :=
    match cs with
    | [] => Ok []
    | c :: cs =>
        do r <- run c cols ;
        do rs <- run_all run cs cols ; Ok ((config_scheme c, r) :: rs)
    end.
  Definition process (run : config -> columns -> res derr (list outcome)) (batches : list (list field))
    : res derr (list (scheme * list outcome)) :=
    do cols <- extract_columns batches [] ;
    run_all run (all_configs 100) cols.
  (** tpch.rs:361-451 [process_h06], 224-328 [process_h01], 461-562
      [process_h01_simplified]. *)
  Definition process_h06 := process run_h06.
  Definition process_h01 := process run_h01.
  Definition process_h01_simplified := process run_h01_simplified.
End Tpch.
