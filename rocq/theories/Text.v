(** Decimal text: the detection of precisions and scales (experimenter/src/lib.rs,
    main.rs), the CSV converter (tools/src/csv2bin.rs), the data set statistics
    (tools/src/collect-stats.rs) and the UCR loader (main.rs). *)
From Coq Require Import String.
From Verif Require Import Base Xor F64 Format.
Local Open Scope N_scope.

(** ** Strings *)

(** A [str] is its sequence of Unicode scalar values; [str_len] is [str::len], its
    size in UTF-8. *)
Definition text := list N.
Definition utf8_len (c : N) : N := if c <? 128 then 1 else if c <? 2048 then 2 else if c <? 65536 then 3 else 4.
Definition str_len (s : text) : N := fold_right (fun c n => utf8_len c + n) 0 s.

(** [str::find] of a character followed by [split_at]: what precedes its first
    occurrence and what follows it. *)
Fixpoint cut_at (c : N) (s : text) : option (text * text) :=
  match s with
  | [] => None
  | x :: rest => if x =? c then Some ([], rest)
                 else match cut_at c rest with Some (a, b) => Some (x :: a, b) | None => None end
  end.

(** [str::split] at a character: the pieces between its occurrences, at least one. *)
Fixpoint split_on (c : N) (s : text) : list text :=
  match s with
  | [] => [[]]
  | x :: rest => if x =? c then [] :: split_on c rest
                 else match split_on c rest with p :: ps => (x :: p) :: ps | [] => [[x]] end
  end.

(** [char::is_whitespace] (the Unicode property White_Space) and [str::trim]. *)
Definition is_space (c : N) : bool :=
  ((9 <=? c) && (c <=? 13)) || (c =? 32) || (c =? 0x85) || (c =? 0xA0) || (c =? 0x1680) ||
  ((0x2000 <=? c) && (c <=? 0x200A)) || (c =? 0x2028) || (c =? 0x2029) || (c =? 0x202F) || (c =? 0x205F) || (c =? 0x3000).
Fixpoint trim_start (s : text) : text :=
  match s with c :: rest => if is_space c then trim_start rest else s | [] => [] end.
Definition trim (s : text) : text := rev (trim_start (rev (trim_start s))).

(** [BufRead::lines]: every line ended by a line feed loses it and one carriage
    return before it; what follows the last line feed is a line if it is not empty.
    Read errors and invalid UTF-8 (an [Err] from all callers) are not modelled. *)
Definition drop_cr (l : text) : text := match rev l with c :: r => if c =? 13 then rev r else l | [] => [] end.
Fixpoint ended (ps : list text) : list text :=
  match ps with
  | [] => []
  | [last] => match last with [] => [] | _ => [last] end
  | p :: rest => drop_cr p :: ended rest
  end.
Definition lines (content : text) : list text := ended (split_on 10 content).

(** ** Precision detection *)

(** [str::parse::<i32>]: an optional sign and at least one ASCII digit; values out of
    range are errors. *)
Definition is_digit (c : N) : bool := (48 <=? c) && (c <=? 57).
Fixpoint digits_to_Z (acc : Z) (s : text) : option Z :=
  match s with
  | [] => Some acc
  | c :: rest => if is_digit c then digits_to_Z (10 * acc + Z.of_N (c - 48)) rest else None
  end.
Definition parse_i32 (s : text) : option Z :=
  let '(negative, ds) := match s with
                         | c :: rest => if c =? 43 then (false, rest) else if c =? 45 then (true, rest) else (false, s)
                         | [] => (false, [])
                         end in
  match ds with
  | [] => None
  | _ => match digits_to_Z 0 ds with
         | Some v => let z := if negative then (- v)%Z else v in
                     if ((-2147483648 <=? z) && (z <=? 2147483647))%Z then Some z else None
         | None => None
         end
  end.

(** i32 arithmetic: a debug build panics on overflow, a release build wraps. *)
Definition wrap_i32 (z : Z) : Z := ((z + 2147483648) mod 4294967296 - 2147483648)%Z.
Definition i32_result (dbg : bool) (z : Z) : res unit Z :=
  if ((-2147483648 <=? z) && (z <=? 2147483647))%Z then Ok z else if dbg then Panic else Ok (wrap_i32 z).
(** [as usize] of an i32. *)
Definition i32_as_usize (z : Z) : N := Z.to_N (z mod 18446744073709551616).

(** lib.rs:367-386 [get_decimal_precision] (and the copy in collect-stats.rs:13-30). *)
Definition get_decimal_precision (dbg : bool) (s : text) : res unit N :=
  match cut_at 101 (* e *) s with
  | Some (base, exponent) =>
      let exponent_value := match parse_i32 exponent with Some z => z | None => 0%Z end in
      match cut_at 46 (* . *) base with
      | Some (_, decimals) =>
          do d <- i32_result dbg (wrap_i32 (Z.of_N (str_len decimals)) - exponent_value) ;
          Ok (i32_as_usize (Z.max d 0))
      | None =>
          if (exponent_value <? 0)%Z then do d <- i32_result dbg (- exponent_value) ; Ok (i32_as_usize d)
          else Ok 0
      end
  | None => match cut_at 46 s with Some (_, decimals) => Ok (str_len decimals) | None => Ok 0 end
  end.

(** lib.rs:407-415 and 498-507: the fields of a file. *)
Definition fields_of (pat : N) (content : text) : list text :=
  flat_map (fun line => map trim (filter (fun s => match s with [] => false | _ => true end) (split_on pat line)))
    (lines content).

(** lib.rs:417-420: the [BTreeMap] from precisions to the fields with them, as a list
    in ascending order of the precisions; [entry(p).or_insert_with(Vec::new).push(s)]. *)
Definition groups := list (N * list text).
Fixpoint push_group (p : N) (s : text) (g : groups) : groups :=
  match g with
  | [] => [(p, [s])]
  | (q, ss) :: rest =>
      match p ?= q with
      | Lt => (p, [s]) :: g
      | Eq => (q, ss ++ [s]) :: rest
      | Gt => (q, ss) :: push_group p s rest
      end
  end.
Fixpoint group_fields (dbg : bool) (g : groups) (fields : list text) : res unit groups :=
  match fields with
  | [] => Ok g
  | s :: rest => do p <- get_decimal_precision dbg s ; group_fields dbg (push_group p s g) rest
  end.

(** lib.rs:426-433: from the highest precision down, the number of fields with that
    precision or more; [number_of_records_so_far[&precision]] panics if absent. *)
Fixpoint counts_so_far (acc : N) (g : groups) : list (N * N) :=
  match g with
  | [] => []
  | (p, ss) :: rest => let acc := acc + N.of_nat (length ss) in (p, acc) :: counts_so_far acc rest
  end.
Fixpoint count_at (p : N) (cs : list (N * N)) : res unit N :=
  match cs with [] => Panic | (q, n) :: rest => if p =? q then Ok n else count_at p rest end.

(** lib.rs:434-460, 523-549: the first precision from above that is not rare.
    [ignore_threshold] is compared with the f64 quotient of the two counts. *)
Fixpoint first_not_rare (threshold : f64) (total : N) (counts : list (N * N)) (g : groups) : res unit (option N) :=
  match g with
  | [] => Ok None
  | (p, _) :: rest =>
      do n <- count_at p counts ;
      if flt (fdiv (of_Z (Z.of_N n)) (of_Z (Z.of_N total))) threshold then first_not_rare threshold total counts rest
      else Ok (Some p)
  end.
Definition total_records (g : groups) : N := fold_right (fun x n => N.of_nat (length (snd x)) + n) 0 g.
Definition detect (dbg : bool) (threshold : f64) (pat : N) (content : text) : res unit (option N) :=
  do g <- group_fields dbg [] (fields_of pat content) ;
  let down := rev g in
  first_not_rare threshold (total_records g) (counts_so_far 0 down) down.

(** 0.01 *)
Definition one_percent : f64 := of_bits 0x3f847ae147ae147b.

(** lib.rs:404-466 [get_appropriate_scale]; [precision as u32] drops high bits. *)
Definition get_appropriate_scale (dbg : bool) (pat : N) (content : text) : res unit N :=
  do r <- detect dbg one_percent pat content ;
  match r with
  | None => Err tt
  | Some p => let p := p mod two32 in if 9 <? p then Err tt else Ok (10 ^ p)
  end.

(** lib.rs:492-561 [get_appropriate_precision]. *)
Definition get_appropriate_precision (dbg : bool) (pat : N) (exact_precision : bool) (content : text) : res unit N :=
  do r <- detect dbg (if exact_precision then S754_zero false else one_percent) pat content ;
  match r with
  | None => Err tt
  | Some p => if p <? two32 then Ok p else Err tt
  end.

(** lib.rs:563-566 [round_by_scale]. *)
Definition round_by_scale (value : f64) (scale : N) : f64 :=
  let scale := of_Z (Z.of_N scale) in fdiv (fround (fmul value scale)) scale.

(** main.rs:1265-1317 [create_default_compressor_config]: the configurations it
    writes, with their file names.  The defaults are those of the builders
    (compressor.rs:465-468, zstd.rs:30, gzip.rs:34).  [10u64.checked_pow(prec)] is
    [None] from 10^20 on.  Writing the JSON files is not modelled. *)
Definition default_configs (dbg exact_precision : bool) (content : text) : res unit (list (string * config)) :=
  do prec <- get_appropriate_precision dbg 44 (* , *) exact_precision content ;
  let capacity := 8192 in
  let configs := [("uncompressed", CUncompressed capacity); ("chimp128", CChimp128 capacity); ("chimp", CChimp capacity);
                  ("elf_on_chimp", CElfOnChimp capacity); ("elf", CElf capacity); ("gorilla", CGorilla capacity);
                  ("rle", CRle capacity); ("zstd", CZstd 3); ("gzip", CGzip 6); ("snappy", CSnappy); ("ffi_alp", CAlp)]%string in
  Ok (configs ++ if prec <=? 19 then [("delta_sprintz", CDeltaSprintz capacity (10 ^ prec)); ("buff", CBuff (10 ^ prec))]%string
                 else []).

(** ** The CSV converter *)
Section Csv.
  (** [str::parse::<f64>] (the bits of the result); the standard library's parser is
      not modelled. *)
  Variable parse : text -> option N.

  (** csv2bin.rs:75-90: the numbers of one line, or the failure of one of them. *)
  Fixpoint parse_all (fields : list text) : option (list N) :=
    match fields with
    | [] => Some []
    | s :: rest => match parse (trim s) with
                   | Some x => match parse_all rest with Some xs => Some (x :: xs) | None => None end
                   | None => None
                   end
    end.
  Definition parse_line (line : text) : option (list N) :=
    parse_all (filter (fun s => match s with [] => false | _ => true end) (split_on 44 line)).

  (** [BufWriter<File>]: a buffer of 8192 bytes before a disk that takes [room] bytes
      in all and then fails.  [bw_flush] tells whether everything was written. *)
  Record bufwriter := mkBw { bw_buf : list N; bw_disk : list N }.
  Definition bw_flush (room : nat) (w : bufwriter) : bufwriter * bool :=
    let n := (room - length (bw_disk w))%nat in
    (mkBw (skipn n (bw_buf w)) (bw_disk w ++ firstn n (bw_buf w)), (length (bw_buf w) <=? n)%nat).
  (** [write_all] of a few bytes (fewer than the buffer holds). *)
  Definition bw_write (room : nat) (w : bufwriter) (bs : list N) : bufwriter * bool :=
    let '(w, ok) := if 8192 - N.of_nat (length (bw_buf w)) <? N.of_nat (length bs) then bw_flush room w else (w, true) in
    if ok then (mkBw (bw_buf w ++ bs) (bw_disk w), true) else (w, false).
  (** csv2bin.rs:92-98. *)
  Fixpoint bw_numbers (room : nat) (w : bufwriter) (xs : list N) : bufwriter * bool :=
    match xs with
    | [] => (w, true)
    | x :: rest => let '(w, ok) := bw_write room w (le_bytes 8 x) in if ok then bw_numbers room w rest else (w, false)
    end.
  (** csv2bin.rs:71-108, the closure. *)
  Fixpoint csv_lines (room : nat) (w : bufwriter) (ls : list text) : bufwriter * bool :=
    match ls with
    | [] => (w, true)
    | line :: rest =>
        match parse_line line with
        | Some xs => let '(w, ok) := bw_numbers room w xs in if ok then csv_lines room w rest else (w, false)
        | None => (w, false)
        end
    end.
  (** csv2bin.rs:45-122 [process_file]: whether it reports success, and the output
      file it leaves, if any.  Dropping the [BufWriter] writes what it holds and
      ignores errors; after a failure the output file is removed.  Opening, creating
      and removing files succeed. *)
  Definition csv2bin (room : nat) (content : text) : bool * option (list N) :=
    let '(w, ok) := csv_lines room (mkBw [] []) (lines content) in
    if ok then (true, Some (bw_disk (fst (bw_flush room w)))) else (false, None).

  (** ** The UCR loader *)

  (** main.rs:2083-2089 [nan_to_zero]. *)
  Definition nan_to_zero (x : N) : f64 := if is_nan (of_bits x) then S754_zero false else of_bits x.
  (** main.rs:2095-2109: one line; [unwrap] of a field that is not a number panics. *)
  Fixpoint unwrap_all (fields : list text) : res unit (list N) :=
    match fields with
    | [] => Ok []
    | s :: rest => match parse s with Some x => do xs <- unwrap_all rest ; Ok (x :: xs) | None => Panic end
    end.
  Definition slurp_line (prec : Z) (line : text) : res unit (Z * list f64) :=
    do xs <- unwrap_all (split_on 9 (trim line)) ;
    match xs with
    | [] => Panic
    | x :: rest =>
        Ok (as_i64 (of_bits x),
            map (fun x => if (prec <? 0)%Z then nan_to_zero x else round_by_scale (nan_to_zero x) (Z.to_N prec)) rest)
    end.
  Fixpoint slurp_lines (prec : Z) (ls : list text) : res unit (list (Z * list f64)) :=
    match ls with
    | [] => Ok []
    | l :: rest => do x <- slurp_line prec l ; do xs <- slurp_lines prec rest ; Ok (x :: xs)
    end.
  (** main.rs:2082-2113 [slurp_file]; the first line is skipped. *)
  Definition slurp_file (prec : Z) (content : text) : res unit (list (Z * list f64)) :=
    slurp_lines prec (skipn 1 (lines content)).
  (** main.rs:2166-2174, 2216, 2252-2253: the scale of a data set is detected in its
      training file and passed on as an i32. *)
  Definition load_dataset (dbg : bool) (train file : text) : res unit (N * list (Z * list f64)) :=
    do prec <- get_appropriate_precision dbg 9 (* tab *) false train ;
    if 19 <? prec then Err tt
    else do data <- slurp_file (wrap_i32 (Z.of_N (10 ^ prec))) file ; Ok (10 ^ prec, data).
End Csv.

(** ** Statistics of a data set (collect-stats.rs) *)

(** [Iterator::max_by] with [partial_cmp(..).unwrap()]: of equal elements the last;
    [min_by]: the first. *)
Definition cmp_unwrap (a b : N) : res unit comparison :=
  match SFcompare (of_bits a) (of_bits b) with Some c => Ok c | None => Panic end.
Fixpoint max_by (best : N) (xs : list N) : res unit N :=
  match xs with
  | [] => Ok best
  | x :: rest => do c <- cmp_unwrap best x ; max_by (match c with Gt => best | _ => x end) rest
  end.
Fixpoint min_by (best : N) (xs : list N) : res unit N :=
  match xs with
  | [] => Ok best
  | x :: rest => do c <- cmp_unwrap best x ; min_by (match c with Gt => x | _ => best end) rest
  end.
(** collect-stats.rs:305-310 [get_exponent_bits]. *)
Definition exponent_of (x : N) : Z := (Z.of_N (N.land (N.shiftr x 52) 0x7ff) - 1023)%Z.
(** collect-stats.rs:312-319 [mean_i32]: the sum is an i32. *)
Fixpoint sum_i32 (dbg : bool) (acc : Z) (zs : list Z) : res unit Z :=
  match zs with [] => Ok acc | z :: rest => do s <- i32_result dbg (acc + z) ; sum_i32 dbg s rest end.
Definition mean_i32 (dbg : bool) (zs : list Z) : res unit f64 :=
  match zs with
  | [] => Ok (S754_zero false)
  | _ => do s <- sum_i32 dbg 0 zs ; Ok (fdiv (of_Z s) (of_Z (Z.of_nat (length zs))))
  end.
(** collect-stats.rs:284-303 [xor_front_trail_stats]; the u64 sums cannot overflow
    below 2^58 values. *)
Fixpoint xor_sums (xs : list N) : N * N :=
  match xs with
  | x :: (y :: _) as rest =>
      let '(l, t) := xor_sums rest in (clz64 (N.lxor x y) + l, ctz64 (N.lxor x y) + t)
  | _ => (0, 0)
  end.
Definition xor_stats (xs : list N) : f64 * f64 :=
  if (length xs <? 2)%nat then (of_Z 64, of_Z 64)
  else let '(l, t) := xor_sums xs in
       let count := of_Z (Z.of_nat (length xs - 1)) in (fdiv (of_Z (Z.of_N l)) count, fdiv (of_Z (Z.of_N t)) count).
(** collect-stats.rs:338-350 [get_non_unique_value_ratio]; the [HashSet] of bit
    patterns as a list without repetitions. *)
Definition non_unique_ratio (xs : list N) : f64 :=
  match xs with
  | [] => S754_zero false
  | _ => let total := of_Z (Z.of_nat (length xs)) in
         fdiv (fsub total (of_Z (Z.of_nat (length (nodup N.eq_dec xs))))) total
  end.

(** collect-stats.rs:149-229 [compute_stats], without the averages of the values and
    the standard deviations. *)
Record stats := mkStats {
  st_value_max : N; st_value_min : N; st_exponent_max : Z; st_exponent_min : Z; st_exponent_avg : f64;
  st_leading : f64; st_trailing : f64; st_non_unique : f64; st_values : N }.
Definition compute_stats (dbg : bool) (xs : list N) : res unit stats :=
  match xs with
  | [] => Ok (mkStats 0 0 0 0 (S754_zero false) (of_Z 64) (of_Z 64) (S754_zero false) 0)
  | x :: rest =>
      do mx <- max_by x rest ; do mn <- min_by x rest ;
      let es := map exponent_of xs in
      do avg <- mean_i32 dbg es ;
      let '(l, t) := xor_stats xs in
      Ok (mkStats mx mn (fold_left Z.max (map exponent_of rest) (exponent_of x))
            (fold_left Z.min (map exponent_of rest) (exponent_of x)) avg l t (non_unique_ratio xs) (N.of_nat (length xs)))
  end.
