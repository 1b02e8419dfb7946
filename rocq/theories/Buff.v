(** The BUFF scheme: compressor/buff.rs, compression_common/buff.rs and
    decoder/chunk_reader/buff.rs with its submodules.

    i64 values are [Z].  [dbg]: overflow panics (debug builds) instead of wrapping
    (release builds).  [simd]: the x86-64 code paths.  Chunks written by the
    compressor have at most 64 bits per record and at most 50 fractional bits;
    shift amounts and i32 sums that only other headers could make overflow are
    not wrapped here. *)
From Verif Require Import Base BitIO Xor F64 Query Sprintz.

(** ** Arithmetic *)

(** u32 and i64 products, u64 sum, u64 left shift. *)
Definition mul_u32 (dbg : bool) (a b : N) : res derr N :=
  if a * b <? two32 then Ok (a * b) else if dbg then Panic else Ok (a * b mod two32).
Definition mul_i64 (dbg : bool) (a b : Z) : res derr Z := checked_i64 dbg (a * b).
Definition add_u64 (dbg : bool) (a b : N) : res derr N :=
  if a + b <? two64 then Ok (a + b) else if dbg then Panic else Ok ((a + b) mod two64).

(** compression_common/buff.rs:2-5 [flip]. *)
Definition flip (x : N) : N := N.lxor x 128.

(** compression_common/buff.rs:36 [PRECISION_MAP]. *)
Definition precision_map : list N := [0; 5; 8; 11; 15; 18; 21; 25; 28; 31; 35; 38; 50].

(** compression_common/buff.rs:10-31 [into_fixed_representation] and 40-51
    [into_fixed_representation_with_fractional_part_bits_length].  A negative shift
    amount (values out of range) panics in debug builds and is taken modulo 64 in
    release builds. *)
Definition fixed_of (dbg : bool) (x : N) (fraction : N) : res derr Z :=
  let exp := (Z.of_N (N.shiftr x 52 mod 2048) - 1023)%Z in
  if (exp <? - Z.of_N fraction)%Z then Ok 0%Z
  else
    let amount := (63 - exp - Z.of_N fraction)%Z in
    let mantissa := N.lor (shl64 x 11) 9223372036854775808 in
    do fixed <-
      (if (64 <=? amount)%Z then (if dbg && negb (amount =? 64)%Z then Panic else Ok 0)
       else if (amount <? 0)%Z then (if dbg then Panic else Ok (N.shiftr mantissa (Z.to_N (amount mod 64))))
       else Ok (N.shiftr mantissa (Z.to_N amount))) ;
    if 9223372036854775808 <=? x then
      if (fixed =? 0) && dbg then Panic
      else Ok (bits_i64 (18446744073709551615 - wsub64 fixed 1))
    else Ok (bits_i64 fixed).

(** ** BitPack *)

(** compression_common/buff.rs:58-62 [BitPack] over a [Vec<u8>] (296-371) or a
    mutable slice (80-151).  The buffer is a list of bytes. *)
Record bpack := mkBp { bp_buf : list N; bp_cursor : N; bp_bits : N }.
Definition bp_new : bpack := mkBp [] 0 0.

(** [self.buff[i] |= v]. *)
Fixpoint or_at (i : nat) (v : N) (l : list N) : option (list N) :=
  match l, i with
  | [], _ => None
  | b :: l', O => Some (N.lor b v :: l')
  | b :: l', S i' => match or_at i' v l' with Some l'' => Some (b :: l'') | None => None end
  end.

(** The loops of compression_common/buff.rs:93-114 ([write]) and 127-148
    ([write_bits]), which are the same.  Every turn but the last takes at least one
    bit: [fuel] is above the number of bits. *)
Fixpoint bp_write_loop (fuel : nat) (value bits : N) (p : bpack) : res derr bpack :=
  match fuel with
  | O => Panic
  | S fuel' =>
      let bits_left := 8 - bp_bits p in
      if bits <=? bits_left then
        match or_at (N.to_nat (bp_cursor p)) (shl8 (value mod 256) (bp_bits p)) (bp_buf p) with
        | Some buf =>
            let b := bp_bits p + bits in
            Ok (if 8 <=? b then mkBp buf (bp_cursor p + 1) 0 else mkBp buf (bp_cursor p) b)
        | None => Panic
        end
      else
        let bb := N.land value (N.ones bits_left) in
        match or_at (N.to_nat (bp_cursor p)) (shl8 (bb mod 256) (bp_bits p)) (bp_buf p) with
        | Some buf => bp_write_loop fuel' (N.shiftr value bits_left) (bits - bits_left) (mkBp buf (bp_cursor p + 1) 0)
        | None => Panic
        end
  end.

(** compression_common/buff.rs:304-323 [write] (called with 32 bits) and 329-348
    [write_bits] (called with fewer than 8), around the loops above: the buffer
    first grows to hold the bits, so the capacity checks (86, 122) pass. *)
Definition bp_write (value bits : N) (p : bpack) : res derr bpack :=
  let len := N.of_nat (length (bp_buf p)) in
  let end_ := bp_cursor p * 8 + bp_bits p + bits in
  let buf := if len * 8 <=? end_ then bp_buf p ++ repeat 0 (N.to_nat ((end_ - len * 8 + 7) / 8)) else bp_buf p in
  bp_write_loop (S (N.to_nat bits)) (value mod 2 ^ bits) bits (mkBp buf (bp_cursor p) (bp_bits p)).
Fixpoint bp_writes (values : list N) (bits : N) (p : bpack) : res derr bpack :=
  match values with
  | [] => Ok p
  | v :: vs => do p <- bp_write v bits p ; bp_writes vs bits p
  end.
(** compression_common/buff.rs:351-353 [write_byte], 359-364 [finish_write_byte]. *)
Definition bp_write_byte (v : N) (p : bpack) : bpack := mkBp (bp_buf p ++ [v]) (bp_cursor p) (bp_bits p).
Definition bp_finish_write_byte (p : bpack) : bpack := mkBp (bp_buf p ++ [0]) (N.of_nat (length (bp_buf p))) 0.

(** [BitPack<&[u8]>] (153-288): the slice and a position.  [Err] is the error of
    these methods, [Panic] an index out of range. *)
Definition bpos : Type := N * N.
(** 190-199 [read_u32]. *)
Definition bp_read_u32 (bytes : list N) (p : bpos) : res unit (N * bpos) :=
  let '(cursor, bits) := p in
  if N.of_nat (length bytes) * 8 <? cursor * 8 + bits + 32 then Err tt
  else Ok (le_val (firstn 4 (skipn (N.to_nat cursor) bytes)), (cursor + 4, bits)).
(** 206-245 [read_bits], with the loop 219-243. *)
Fixpoint bp_read_loop (fuel : nat) (bytes : list N) (p : bpos) (bits left output : N) : res unit (N * bpos) :=
  match fuel with
  | O => Panic
  | S fuel' =>
      let '(cursor, used) := p in
      match nth_error bytes (N.to_nat cursor) with
      | None => Panic
      | Some b =>
          let byte_left := 8 - used in
          if bits <=? byte_left then
            Ok (N.lor output (N.shiftl (N.land (N.shiftr b used) (N.ones bits)) left), (cursor, used + bits))
          else
            let output := N.lor output (N.shiftl (N.land (N.shiftr b used) (N.ones byte_left)) left) in
            bp_read_loop fuel' bytes (cursor + 1, 0) (bits - byte_left) (left + byte_left) output
      end
  end.
Definition bp_read_bits (bytes : list N) (bits : N) (p : bpos) : res unit (N * bpos) :=
  if N.of_nat (length bytes) * 8 <? fst p * 8 + snd p + bits then Err tt
  else do (v, p) <- bp_read_loop (S (S (N.to_nat bits))) bytes p bits 0 0 ; Ok (v mod 256, p).
(** 248-252 [read_byte], 255-260 [read_n_byte]. *)
Definition bp_read_byte (bytes : list N) (p : bpos) : res unit (N * bpos) :=
  match nth_error bytes (N.to_nat (fst p)) with
  | Some b => Ok (b, (fst p + 1, snd p))
  | None => Panic
  end.
Definition bp_read_n_byte (bytes : list N) (n : N) (p : bpos) : res unit (list N * bpos) :=
  if N.of_nat (length bytes) <? fst p + n then Panic
  else Ok (firstn (N.to_nat n) (skipn (N.to_nat (fst p)) bytes), (fst p + n, snd p)).
(** 263-267 [skip_n_byte], 269-287 [skip]. *)
Definition bp_skip_n_byte (n : N) (p : bpos) : bpos := (fst p + n, snd p).
Definition bp_skip (bytes : list N) (bits : N) (p : bpos) : res unit bpos :=
  if bits =? 0 then Ok p
  else if N.of_nat (length bytes) * 8 <? fst p * 8 + snd p + bits then Err tt
  else
    let cur := snd p + bits mod 8 in
    Ok (fst p + bits / 8 + cur / 8, cur mod 8).

(** [.unwrap()] and [.map_err(|_| DecoderError::UnexpectedEndOfChunk)?]. *)
Definition unwrap {A} (x : res unit A) : res derr A := match x with Ok a => Ok a | _ => Panic end.
Definition or_end {A} (x : res unit A) : res derr A :=
  match x with Ok a => Ok a | Err _ => Err EUnexpectedEndOfChunk | Panic => Panic end.

(** ** Compressor *)

(** compressor/buff.rs:15-21 without [data] (never filled) and the timer; [scale]
    is in the configuration. *)
Record buff := mkBuff { bf_in : N; bf_bytes : option (list N) }.
(** 24-32 [new], 72-77 [reset]. *)
Definition bf_new : buff := mkBuff 0 None.
Definition bf_reset (c : buff) : buff := mkBuff 0 None.

(** The loop of compressor/buff.rs:143-157: the indices of the first smallest and
    the first largest number. *)
Fixpoint extremes (i : nat) (vs : list Z) (mn : Z) (imin : nat) (mx : Z) (imax : nat) : nat * nat :=
  match vs with
  | [] => (imin, imax)
  | v :: vs' =>
      let '(mn, imin) := if (v <? mn)%Z then (v, i) else (mn, imin) in
      let '(mx, imax) := if (mx <? v)%Z then (v, i) else (mx, imax) in
      extremes (S i) vs' mn imin mx imax
  end.

Fixpoint map_res {E A B} (f : A -> res E B) (l : list A) : res E (list B) :=
  match l with
  | [] => Ok []
  | x :: l' => do y <- f x ; do ys <- map_res f l' ; Ok (y :: ys)
  end.

(** The [while] loop of compressor/buff.rs:283-294: one byte of every number per
    turn, the highest first. *)
Fixpoint write_columns (fuel : nat) (remaining : N) (ds : list N) (p : bpack) : bpack :=
  match fuel with
  | O => p
  | S fuel' =>
      let remaining := remaining - 8 in
      write_columns fuel' remaining ds
        (fold_left (fun p d => bp_write_byte (flip (N.shiftr d remaining mod 256)) p) ds p)
  end.

Section Compressor.
  Variable dbg : bool.
  (** [(scale as f32).log10() as usize] (compressor/buff.rs:134). *)
  Variable lg : N -> N.

  (** compressor/buff.rs:131-137 and 198-200: the number of fractional bits; none
      for precisions above 12 ([unwrap] panics). *)
  Definition fraction_bits (scale : N) : res derr N :=
    match nth_error precision_map (N.to_nat (if scale =? 0 then 0 else lg scale)) with
    | Some k => Ok k
    | None => Panic
    end.

  (** compressor/buff.rs:128-192 [precalculate] and the numbers derived from it, and
      234-307 [buff_simd256_encode]:
      the bytes of the chunk.  Without records [min_fixed().unwrap()] panics. *)
  Definition bf_encode (scale : N) (xs : list N) : res derr (list N) :=
    do fraction <- fraction_bits scale ;
    do vs <- map_res (fun x => fixed_of dbg x fraction) xs ;
    let '(imin, imax) := extremes 0 vs (2 ^ 63 - 1)%Z 0 (- 2 ^ 63)%Z 0 in
    match nth_error vs imin, nth_error vs imax with
    | Some base, Some top =>
        do ds <- map_res (fun v => do d <- sub_i64 dbg v base ; Ok (i64_bits d)) vs ;
        do range <- sub_i64 dbg top base ;
        let bits := if (range =? 0)%Z then 0 else 64 - clz64 (i64_bits range) in
        let base_bits := i64_bits base in
        do p <- bp_write (base_bits mod two32) 32 bp_new ;
        do p <- bp_write (N.shiftr base_bits 32) 32 p ;
        do p <- bp_write (N.of_nat (length vs) mod two32) 32 p ;
        do p <- bp_write bits 32 p ;
        do p <- bp_write fraction 32 p ;
        do p <-
          (if (0 <? bits) && (bits <? 8) then bp_writes (map (fun d => d mod two32) ds) bits p
           else
             let p := write_columns (N.to_nat (bits / 8)) bits ds p in
             let remaining := bits mod 8 in
             if 0 <? remaining then bp_writes (map (fun d => d mod two32) ds) remaining (bp_finish_write_byte p)
             else Ok p) ;
        Ok (bp_buf p)
    | _, _ => Panic
    end.

  (** compressor/buff.rs:34-43 and 47-54 [compress]. *)
  Definition bf_compress (scale : N) (c : buff) (xs : list N) : res derr buff :=
    do bytes <- bf_encode scale xs ; Ok (mkBuff (bf_in c + 8 * N.of_nat (length xs)) (Some bytes)).
  (** compressor/buff.rs:60-70. *)
  Definition bf_buffers (c : buff) : list N := match bf_bytes c with Some b => b | None => [] end.
  Definition bf_total_bytes_buffered (c : buff) : N := N.of_nat (length (bf_buffers c)).
  Definition bf_prepare (c : buff) : buff := c.
End Compressor.

(** ** Reader *)

(** The header: chunk_reader/buff/decode.rs:6-16 and the same lines of
    controlled_precision.rs, filter_eq.rs, filter_cmp.rs, sum.rs and min_max.rs. *)
Record bheader := mkBh { bh_base : Z; bh_records : N; bh_bits : N; bh_fraction : N }.
Definition bf_header (bytes : list N) : res unit (bheader * bpos) :=
  do (lower, p) <- bp_read_u32 bytes (0, 0) ;
  do (higher, p) <- bp_read_u32 bytes p ;
  do (n, p) <- bp_read_u32 bytes p ;
  do (bits, p) <- bp_read_u32 bytes p ;
  do (fraction, p) <- bp_read_u32 bytes p ;
  Ok (mkBh (bits_i64 (N.lor lower (N.shiftl higher 32))) n bits fraction, p).

(** [2.0f64.powi(n as i32)]. *)
Definition pow2i (n : N) : f64 :=
  let up k := if (k <=? 1023)%Z then of_Z (2 ^ k) else S754_infinity false in
  let k := if n <? 2147483648 then Z.of_N n else (Z.of_N n - 4294967296)%Z in
  if (0 <=? k)%Z then up k else fdiv (of_Z 1) (up (- k))%Z.
Definition unfix (fraction : N) (z : Z) : f64 := fdiv (of_Z z) (pow2i fraction).

(** The record numbers [lo..hi]. *)
Fixpoint n_seq (lo : N) (k : nat) : list N :=
  match k with O => [] | S k' => lo :: n_seq (lo + 1) k' end.
Definition n_range (lo hi : N) : list N := n_seq lo (N.to_nat (hi - lo)).
Definition bm_diff (a b : bitmap) : bitmap := filter (fun x => negb (bm_contains b x)) a.

(** Loops over the last column (fewer than 8 bits per record).  Under a mask:
    filter_eq.rs:168-181, filter_cmp.rs:392-419, min_max.rs:75-104, 236-259 (all with a u32
    product) and sum.rs:34-46 (with a usize product); [conv] is [unwrap] or the
    error of the chunk.  Without: filter_eq.rs:189-194, filter_cmp.rs:424-443,
    min_max.rs:210-225, sum.rs:50-55, decode.rs:26-29, 51-52 and
    controlled_precision.rs:34-37, 64-65. *)
Section Scan.
  Context {A : Type}.
  Variable bytes : list N.
  Variable conv : forall T, res unit T -> res derr T.
  Variable f : N -> N -> A -> res derr A.
  Variable bits : N.

  Variable mul : N -> N -> res derr N.
  Fixpoint scan_masked (offset : N) (xs : list N) (expected : N) (p : bpos) (acc : A) : res derr (A * N * bpos) :=
    match xs with
    | [] => Ok (acc, expected, p)
    | x :: xs' =>
        let i := x - offset in
        do skipped <- mul (i - expected) bits ;
        do p <- conv _ (bp_skip bytes skipped p) ;
        do (v, p) <- conv _ (bp_read_bits bytes bits p) ;
        do acc <- f x v acc ;
        scan_masked offset xs' (i + 1) p acc
    end.
  Fixpoint scan_all (left : nat) (i : N) (p : bpos) (acc : A) : res derr (A * bpos) :=
    match left with
    | O => Ok (acc, p)
    | S left' =>
        do (v, p) <- conv _ (bp_read_bits bytes bits p) ;
        do acc <- f i v acc ;
        scan_all left' (i + 1) p acc
    end.
End Scan.

(** Loops over a column of bytes: the records [xs] of it (filter_cmp.rs:201-219,
    min_max.rs:18-37, sum.rs:15-19), or all of them (filter_eq.rs:20-29,
    filter_cmp.rs:27-48, min_max.rs:194-207, where [push] of increasing records
    inserts). *)
Section Column.
  Context {A : Type}.
  Variable f : N -> N -> A -> A.
  Fixpoint column_pick (offset : N) (column : list N) (xs : list N) (acc : A) : res derr A :=
    match xs with
    | [] => Ok acc
    | x :: xs' =>
        match nth_error column (N.to_nat (x - offset)) with
        | Some b => column_pick offset column xs' (f x (flip b) acc)
        | None => Panic
        end
    end.
  Variable dbg : bool.
  Fixpoint column_all (offset i : N) (column : list N) (acc : A) : res derr A :=
    match column with
    | [] => Ok acc
    | b :: column' =>
        do k <- add_u32 dbg (i mod two32) offset ;
        column_all offset (i + 1) column' (f k (flip b) acc)
    end.
End Column.

(** chunk_reader/buff/filter.rs:3-37 [split_for_simd_processing]. *)
Definition split_for_simd (column : list N) (offset : N) : list N * list N * list N :=
  let total := N.of_nat (length column) in
  let initial := (offset + 7) / 8 * 8 - offset in
  let simd_len := if initial <? total then (total - initial) / 32 * 32 else 0 in
  (firstn (N.to_nat (N.min initial total)) column,
   if initial <? total then firstn (N.to_nat simd_len) (skipn (N.to_nat initial) column) else [],
   if initial + simd_len <? total then skipn (N.to_nat (initial + simd_len)) column else []).

(** A byte as a signed lane. *)
Definition i8 (b : N) : Z := if b <? 128 then Z.of_N b else (Z.of_N b - 256)%Z.
(** [_mm256_movemask_epi8]: one bit per lane, the first lane lowest. *)
Definition movemask (lanes : list bool) : N := fold_right (fun b acc => N.b2n b + 2 * acc) 0 lanes.
(** [chunks_exact(32)]. *)
Fixpoint words (fuel : nat) {A} (l : list A) : list (list A) :=
  match fuel with
  | O => []
  | S fuel' => if (length l <? 32)%nat then [] else firstn 32 l :: words fuel' (skipn 32 l)
  end.
(** [RoaringBitmap::from_lsb0_bytes] (roaring 0.10): panics on a misaligned offset
    and beyond 2^32. *)
Fixpoint lsb0 (offset : N) (bytes : list N) : bitmap :=
  match bytes with
  | [] => []
  | b :: bytes' => map (fun j => offset + j) (filter (N.testbit b) (n_range 0 8)) ++ lsb0 (offset + 8) bytes'
  end.
Definition from_lsb0_bytes (offset : N) (bytes : list N) : res derr bitmap :=
  if negb (offset mod 8 =? 0) then Panic
  else match bytes with
       | [] => Ok []
       | _ => if two32 <? offset + 8 * N.of_nat (length bytes) then Panic else Ok (lsb0 offset bytes)
       end.
(** The masks of filter_eq.rs:230-246 and filter_cmp.rs:504-541 for a comparison of
    lanes, as a bitmap. *)
Definition simd_select (test : N -> bool) (offset : N) (column : list N) : res derr bitmap :=
  from_lsb0_bytes offset
    (flat_map (fun w => le_bytes 4 (movemask (map test w))) (words (length column) column)).

Section Reader.
  Variable dbg : bool.
  Variable simd : bool.
  Variable neg : bool.

  (** [insert_range(offset..(records + offset))]. *)
  Definition all_records (offset records : N) : res derr bitmap :=
    do hi <- add_u32 dbg records offset ; Ok (n_range offset hi).
  (** [number_of_records - expected]; the mask lies in the chunk, so the difference
      is not negative when the header and the index agree; a panic otherwise. *)
  Definition records_left (records expected : N) : res derr N :=
    if records <? expected then Panic else Ok (records - expected).

  (** *** filter_eq.rs *)

  (** 14-32, 36-71 and 216-246: the records whose byte is [pred].  The u32 sums of
      59 and 65 are not wrapped: they stay within the chunk. *)
  Definition eq_column (column : list N) (pred offset : N) : res derr bitmap :=
    let scalar column offset := column_all (fun x b bm => if b =? pred then bm_insert x bm else bm) dbg offset 0 column [] in
    if simd then
      let '(initial, lanes, rest) := split_for_simd column offset in
      do a <- scalar initial offset ;
      do b <- (match lanes with
               | [] => Ok []
               | _ =>
                   if dbg && negb ((offset + N.of_nat (length initial)) mod 8 =? 0) then Panic
                   else simd_select (fun b => b =? flip pred) (offset + N.of_nat (length initial)) lanes
               end) ;
      do c <- scalar rest (offset + N.of_nat (length initial) + N.of_nat (length lanes)) ;
      Ok (bm_or (bm_or a b) c)
    else scalar column offset.

  (** 125-138. *)
  Fixpoint eq_masked (bytes : list N) (pred offset : N) (xs : list N) (expected : N) (p : bpos) (acc : bitmap)
    : res derr (bitmap * N * bpos) :=
    match xs with
    | [] => Ok (acc, expected, p)
    | x :: xs' =>
        let i := x - offset in
        do (b, p) <- unwrap (bp_read_byte bytes (bp_skip_n_byte (i - expected) p)) ;
        eq_masked bytes pred offset xs' (i + 1) p (if flip b =? pred then bm_insert x acc else acc)
    end.

  (** 120-160: [inl] is the early return. *)
  Fixpoint eq_columns (bytes : list N) (n delta offset : N) (fuel : nat) (remaining : N) (p : bpos) (result : option bitmap)
    : res derr (bitmap + option bitmap * bpos) :=
    match fuel with
    | O => Ok (inr (result, p))
    | S fuel' =>
        let remaining := remaining - 8 in
        let pred := N.shiftr delta remaining mod 256 in
        do (next, p) <-
          match result with
          | Some bm =>
              do (next, expected, p) <- eq_masked bytes pred offset bm 0 p [] ;
              do rest <- records_left n expected ;
              Ok (next, bp_skip_n_byte rest p)
          | None =>
              do (column, p) <- unwrap (bp_read_n_byte bytes n p) ;
              do next <- eq_column column pred offset ;
              Ok (next, p)
          end ;
        if bm_is_empty next then Ok (inl next) else eq_columns bytes n delta offset fuel' remaining p (Some next)
    end.

  (** 74-201 [buff_simd256_equal_filter]. *)
  Definition buff_equal_filter (bytes : list N) (pred : N) (mask : option bitmap) (offset : N) : res derr bitmap :=
    do (h, p) <- unwrap (bf_header bytes) ;
    do fixed <- fixed_of dbg pred (bh_fraction h) ;
    if (fixed <? bh_base h)%Z then Ok []
    else if bh_bits h =? 0 then
      if (fixed =? bh_base h)%Z then all_records offset (bh_records h) else Ok []
    else
      do d <- sub_i64 dbg fixed (bh_base h) ;
      let delta := i64_bits d in
      let remaining := bh_bits h mod 8 in
      do r <- eq_columns bytes (bh_records h) delta offset (N.to_nat (bh_bits h / 8)) (bh_bits h) p mask ;
      match r with
      | inl bm => Ok bm
      | inr (result, p) =>
          if 0 <? remaining then
            match result with
            | Some bm =>
                do (bm, expected, p) <-
                  scan_masked bytes (@unwrap) (fun x v acc => Ok (if v =? delta mod 2 ^ remaining then bm_insert x acc else acc))
                    remaining (mul_u32 dbg) offset bm 0 p [] ;
                do rest <- records_left (bh_records h) expected ;
                do skipped <- mul_u32 dbg rest remaining ;
                do _ <- unwrap (bp_skip bytes skipped p) ;
                Ok bm
            | None =>
                do (bm, _) <-
                  scan_all bytes (@unwrap) (fun i v acc =>
                      if v =? delta mod 256 then do x <- add_u32 dbg offset i ; Ok (bm_insert x acc) else Ok acc)
                    remaining (N.to_nat (bh_records h)) 0 p [] ;
                Ok bm
            end
          else match result with Some bm => Ok bm | None => all_records offset (bh_records h) end
      end.

  (** *** filter_cmp.rs *)

  Section Cmp.
    Variable greater inclusive : bool.

    (** 33-47 and 204-218, on the pair of records to check and records that
        qualify. *)
    Definition cmp_step (pred : N) (x b : N) (acc : bitmap * bitmap) : bitmap * bitmap :=
      let '(check, qualified) := acc in
      match b ?= pred with
      | Gt => (check, if greater then bm_insert x qualified else qualified)
      | Eq => (bm_insert x check, qualified)
      | Lt => (check, if greater then qualified else bm_insert x qualified)
      end.

    (** 489-542 [comp_simd]: records to check and records that qualify. *)
    Definition comp_simd (lanes : list N) (pred offset : N) : res derr (bitmap * bitmap) :=
      let test b := if greater then (i8 (flip pred) <? i8 b)%Z
                    else (i8 b <? i8 (flip pred))%Z && negb (b =? flip pred) in
      do q <- simd_select test offset lanes ;
      do c <- simd_select (fun b => b =? flip pred) offset lanes ;
      Ok (c, q).
    (** 67-68, 158-159: the assertions of debug builds. *)
    Definition simd_misaligned (offset : N) : bool := dbg && negb (offset mod 8 =? 0).

    (** 92-141 with 54-88. *)
    Definition cmp_column (column : list N) (offset pred : N) (qualified : bitmap) : res derr (bitmap * bitmap) :=
      let scalar column offset acc := column_all (cmp_step pred) dbg offset 0 column acc in
      if simd then
        let '(initial, lanes, rest) := split_for_simd column offset in
        do (check, qualified) <- scalar initial offset ([], qualified) ;
        let offset1 := offset + N.of_nat (length initial) in
        do (check, qualified) <-
          match lanes with
          | [] => Ok (check, qualified)
          | _ =>
              if simd_misaligned offset1 then Panic
              else do (c, q) <- comp_simd lanes pred offset1 ; Ok (bm_or check c, bm_or qualified q)
          end ;
        scalar rest (offset1 + N.of_nat (length lanes)) (check, qualified)
      else scalar column offset ([], qualified).

    (** 226-296 with 145-186 and 190-222; [take_while] and [skip_while] on increasing
        records are filters.  0x3faeb851eb851eb8 is 0.06. *)
    Definition cmp_masked (column : list N) (n offset pred : N) (to_check qualified : bitmap) : res derr (bitmap * bitmap) :=
      let cardinality := fdiv (of_Z (Z.of_nat (length to_check))) (of_Z (Z.of_N n)) in
      if simd && flt (of_bits 0x3faeb851eb851eb8) cardinality then
        let '(initial, lanes, rest) := split_for_simd column offset in
        let offset1 := offset + N.of_nat (length initial) in
        let offset2 := offset1 + N.of_nat (length lanes) in
        do (check0, qualified) <-
          column_pick (cmp_step pred) offset initial (filter (fun x => x <? offset1) to_check) ([], qualified) ;
        do (check1, qualified) <-
          match lanes with
          | [] => Ok ([], qualified)
          | _ =>
              if simd_misaligned offset1 then Panic
              else do (c, q) <- comp_simd lanes pred offset1 ;
                   Ok (bm_and c to_check, bm_or qualified (bm_and q to_check))
          end ;
        do (check2, qualified) <-
          column_pick (cmp_step pred) offset2 rest (filter (fun x => negb (x <? offset2)) to_check) ([], qualified) ;
        Ok (bm_or (bm_or check0 check1) check2, qualified)
      else column_pick (cmp_step pred) offset column to_check ([], qualified).

    (** 357-385: [inl] is the early return. *)
    Fixpoint cmp_columns (bytes : list N) (n delta offset : N) (fuel : nat) (remaining : N) (p : bpos)
        (to_check : option bitmap) (qualified : bitmap) : res derr (bitmap + option bitmap * bitmap * bpos) :=
      match fuel with
      | O => Ok (inr (to_check, qualified, p))
      | S fuel' =>
          let remaining := remaining - 8 in
          let pred := N.shiftr delta remaining mod 256 in
          do (column, p) <- unwrap (bp_read_n_byte bytes n p) ;
          do (next, qualified) <-
            match to_check with
            | Some bm => cmp_masked column n offset pred bm qualified
            | None => cmp_column column offset pred qualified
            end ;
          if bm_is_empty next then Ok (inl qualified)
          else cmp_columns bytes n delta offset fuel' remaining p (Some next) qualified
      end.

    (** 400-416 and 426-442. *)
    Definition cmp_last (pred : N) (x v : N) (qualified : bitmap) : bitmap :=
      match v ?= pred with
      | Gt => if greater then bm_insert x qualified else qualified
      | Eq => if inclusive then bm_insert x qualified else qualified
      | Lt => if greater then qualified else bm_insert x qualified
      end.

    (** 299-451 [buff_simd256_cmp_filter]. *)
    Definition buff_cmp_filter (bytes : list N) (pred : N) (mask : option bitmap) (offset : N) : res derr bitmap :=
      do (h, p) <- unwrap (bf_header bytes) ;
      do fixed <- fixed_of dbg pred (bh_fraction h) ;
      let base := bh_base h in
      let all_if b := if b : bool then all_records offset (bh_records h) else Ok [] in
      if (fixed <? base)%Z then all_if greater
      else if bh_bits h =? 0 then
        all_if (match greater, inclusive with
                | true, true => (fixed <=? base)%Z
                | true, false => (fixed <? base)%Z
                | false, true => (base <=? fixed)%Z
                | false, false => (base <? fixed)%Z
                end)
      else
        do d <- sub_i64 dbg fixed base ;
        let delta := i64_bits d in
        if bh_bits h <? (if delta =? 0 then 0 else 64 - clz64 delta) then all_if (negb greater)
        else
          let remaining := bh_bits h mod 8 in
          do r <- cmp_columns bytes (bh_records h) delta offset (N.to_nat (bh_bits h / 8)) (bh_bits h) p mask [] ;
          match r with
          | inl qualified => Ok qualified
          | inr (to_check, qualified, p) =>
              if 0 <? remaining then
                let pred := delta mod 2 ^ remaining in
                match to_check with
                | Some bm =>
                    do (qualified, expected, p) <-
                      scan_masked bytes (@unwrap) (fun x v acc => Ok (cmp_last pred x v acc))
                        remaining (mul_u32 dbg) offset bm 0 p qualified ;
                    do rest <- records_left (bh_records h) expected ;
                    do skipped <- mul_u32 dbg rest remaining ;
                    do _ <- unwrap (bp_skip bytes skipped p) ;
                    Ok qualified
                | None =>
                    do (qualified, _) <-
                      scan_all bytes (@unwrap) (fun i v acc =>
                          do x <- add_u32 dbg offset i ; Ok (cmp_last pred x v acc))
                        remaining (N.to_nat (bh_records h)) 0 p qualified ;
                    Ok qualified
                end
              else
                Ok (match to_check with
                    | Some bm => if inclusive then bm_or qualified bm else qualified
                    | None => qualified
                    end)
          end.
  End Cmp.

  (** *** min_max.rs *)

  (** 21-36, 88-103, 196-206, 214-224 and 248-258: the records with the extreme byte
      so far, and that byte. *)
  Definition extreme_step (is_min : bool) (x b : N) (acc : bitmap * N) : bitmap * N :=
    let '(next, best) := acc in
    match b ?= best with
    | Eq => (bm_insert x next, best)
    | Gt => if is_min then acc else ([x], b)
    | Lt => if is_min then ([x], b) else acc
    end.
  Definition extreme_init (is_min : bool) : bitmap * N := ([], if is_min then 255 else 0).

  (** 70-117 and 231-272 without the last column: what is left to check. *)
  Fixpoint extreme_columns (is_min : bool) (bytes : list N) (n offset : N) (fuel : nat) (p : bpos) (to_check : bitmap)
    : res derr (bitmap * bpos) :=
    match fuel with
    | O => Ok (to_check, p)
    | S fuel' =>
        do (column, p) <- or_end (bp_read_n_byte bytes n p) ;
        do (next, _) <- column_pick (extreme_step is_min) offset column to_check (extreme_init is_min) ;
        extreme_columns is_min bytes n offset fuel' p next
    end.
  (** 74-107 and 235-263: the last column.  Only [max_with_bitmask] flips. *)
  Definition extreme_last (is_min flipped : bool) (bytes : list N) (bits offset : N) (p : bpos) (to_check : bitmap) : res derr bitmap :=
    do (acc, _, _) <-
      scan_masked bytes (@or_end) (fun x v acc => Ok (extreme_step is_min x (if flipped then flip v else v) acc))
        bits (mul_u32 dbg) offset to_check 0 p (extreme_init is_min) ;
    Ok (fst acc).

  (** 121-152 and 276-307: the number of the record [index]. *)
  Fixpoint read_columns (bytes : list N) (n index : N) (fuel : nat) (p : bpos) (delta : N) : res derr (N * bpos) :=
    match fuel with
    | O => Ok (delta, p)
    | S fuel' =>
        do (b, p) <- or_end (bp_read_byte bytes (bp_skip_n_byte index p)) ;
        do rest <- records_left n (index + 1) ;
        read_columns bytes n index fuel' (bp_skip_n_byte rest p) (N.lor (shl64 delta 8) (flip b))
    end.
  Definition read_record (bytes : list N) (h : bheader) (index : N) : res derr f64 :=
    let bytes := skipn 20 bytes in
    do (delta, p) <- read_columns bytes (bh_records h) index (N.to_nat (bh_bits h / 8)) (0, 0) 0 ;
    let remaining := bh_bits h mod 8 in
    do delta <-
      (if 0 <? remaining then
         do p <- or_end (bp_skip bytes (index * remaining) p) ;
         do (v, p) <- or_end (bp_read_bits bytes remaining p) ;
         Ok (N.lor (shl64 delta remaining) v)
       else Ok delta) ;
    do z <- add_i64 dbg (bh_base h) (bits_i64 delta) ;
    Ok (unfix (bh_fraction h) z).
  (** 119, 274. *)
  Definition first_record (to_check : bitmap) (offset : N) : res derr N :=
    match to_check with x :: _ => Ok (x - offset) | [] => Panic end.

  (** 42-158 [max_with_bitmask]. *)
  Definition buff_extreme_masked (is_min : bool) (bytes : list N) (mask : bitmap) (offset : N) : res derr f64 :=
    do (h, p) <- unwrap (bf_header bytes) ;
    if bh_bits h =? 0 then Ok (unfix (bh_fraction h) (bh_base h))
    else
      do (to_check, p) <- extreme_columns is_min bytes (bh_records h) offset (N.to_nat (bh_bits h / 8)) p mask ;
      let remaining := bh_bits h mod 8 in
      do to_check <-
        (if 0 <? remaining then extreme_last is_min true bytes remaining offset p to_check else Ok to_check) ;
      do index <- first_record to_check offset ;
      read_record bytes h index.

  (** 160-313 [max_without_bitmask]. *)
  Definition buff_max (bytes : list N) (offset : N) : res derr f64 :=
    do (h, p) <- unwrap (bf_header bytes) ;
    if bh_bits h =? 0 then Ok (unfix (bh_fraction h) (bh_base h))
    else
      do to_check <-
        (if bh_bits h <? 8 then
           do (acc, p) <-
             scan_all bytes (@or_end) (fun i v acc => do x <- add_u32 dbg i offset ; Ok (extreme_step false x v acc))
               (bh_bits h) (N.to_nat (bh_records h)) 0 p (extreme_init false) ;
           Ok (fst acc)
         else
           do (column, p) <- or_end (bp_read_n_byte bytes (bh_records h) p) ;
           do acc <- column_all (extreme_step false) dbg offset 0 column (extreme_init false) ;
           do (to_check, p) <-
             extreme_columns false bytes (bh_records h) offset (N.to_nat (bh_bits h / 8 - 1)) p (fst acc) ;
           let remaining := bh_bits h mod 8 in
           if 0 <? remaining then extreme_last false false bytes remaining offset p to_check else Ok to_check) ;
      do index <- first_record to_check offset ;
      read_record bytes h index.

  (** 316-341 [min_without_bitmask]. *)
  Definition buff_min (bytes : list N) : res derr f64 :=
    do (lower, p) <- or_end (bp_read_u32 bytes (0, 0)) ;
    do (higher, p) <- or_end (bp_read_u32 bytes p) ;
    do (fraction, _) <- or_end (bp_read_u32 bytes (bp_skip_n_byte 8 p)) ;
    Ok (unfix fraction (bits_i64 (N.lor lower (N.shiftl higher 32)))).

  (** *** sum.rs *)

  (** 8-24 [sum_byte_subcolumn], 90-97: the columns from the highest down. *)
  Fixpoint sum_columns (bytes : list N) (n : N) (mask : option bitmap) (offset remaining : N) (fuel : nat) (p : bpos) (total : N)
    : res derr (N * bpos) :=
    match fuel with
    | O => Ok (total, p)
    | S fuel' =>
        do (column, p) <- or_end (bp_read_n_byte bytes n p) ;
        do s <-
          match mask with
          | Some bm => column_pick (fun _ b acc => acc + b) offset column bm 0
          | None => Ok (fold_left (fun acc b => acc + flip b) column 0)
          end ;
        do total <- add_u64 dbg total (shl64 s (N.of_nat fuel' * 8 + remaining)) ;
        sum_columns bytes n mask offset remaining fuel' p total
    end.

  (** 60-119 [sum_with_bitmask] with 26-58 [sum_bits_subcolumn].  [*] on usize (37)
      does not overflow. *)
  Definition buff_sum (bytes : list N) (mask : option bitmap) (offset : N) : res derr f64 :=
    do (h, p) <- unwrap (bf_header bytes) ;
    if bh_bits h =? 0 then
      Ok (fmul (unfix (bh_fraction h) (bh_base h)) (of_Z (Z.of_N (bh_records h))))
    else
      let remaining := bh_bits h mod 8 in
      do (total, p) <- sum_columns bytes (bh_records h) mask offset remaining (N.to_nat (bh_bits h / 8)) p 0 ;
      do total <-
        (if 0 <? remaining then
           do s <-
             match mask with
             | Some bm =>
                 do (s, _, _) <- scan_masked bytes (@or_end) (fun _ v acc => Ok (acc + v)) remaining (fun a b => Ok (a * b)) offset bm 0 p 0 ;
                 Ok s
             | None =>
                 do (s, _) <- scan_all bytes (@or_end) (fun _ v acc => Ok (acc + v)) remaining (N.to_nat (bh_records h)) 0 p 0 ;
                 Ok s
             end ;
           add_u64 dbg total s
         else Ok total) ;
      let count := match mask with Some bm => Z.of_nat (length bm) | None => Z.of_N (bh_records h) end in
      do bases <- mul_i64 dbg (bh_base h) count ;
      do z <- add_i64 dbg (bits_i64 total) bases ;
      Ok (unfix (bh_fraction h) z).

  (** *** decode.rs, controlled_precision.rs *)

  (** decode.rs:41-48, controlled_precision.rs:49-56: further columns are read while
      there are 8 bits left and more than [unnecessary]. *)
  Fixpoint decode_columns (bytes : list N) (n unnecessary : N) (fuel : nat) (remaining : N) (p : bpos) (ds : list N)
    : res derr (list N * N * bpos) :=
    match fuel with
    | O => Ok (ds, remaining, p)
    | S fuel' =>
        if (8 <=? remaining) && (unnecessary <? remaining) then
          let remaining := remaining - 8 in
          do (column, p) <- unwrap (bp_read_n_byte bytes n p) ;
          decode_columns bytes n unnecessary fuel' remaining p
            (map (fun '(d, b) => N.lor d (N.shiftl (flip b) remaining)) (combine ds column))
        else Ok (ds, remaining, p)
    end.

  (** decode.rs:5-70 [buff_simd256_decode] is the case [precision = None] (nothing is
      unnecessary) of controlled_precision.rs:5-75 [decode_with_precision]. *)
  Definition bf_decode (bytes : list N) (precision : option N) : res derr (list N) :=
    do (h, p) <- unwrap (bf_header bytes) ;
    do unnecessary <-
      match precision with
      | None => Ok 0
      | Some k =>
          match nth_error precision_map (N.to_nat k) with
          | Some bits => Ok (bh_fraction h - bits)
          | None => Panic
          end
      end ;
    let value d := do z <- add_i64 dbg (bh_base h) (bits_i64 d) ; Ok (to_bits (unfix (bh_fraction h) z)) in
    let last bits p :=
      do (vs, _) <- scan_all bytes (@unwrap) (fun _ v acc => Ok (acc ++ [v])) bits (N.to_nat (bh_records h)) 0 p [] ; Ok vs in
    if bh_bits h =? 0 then
      Ok (repeat (to_bits (unfix (bh_fraction h) (bh_base h))) (N.to_nat (bh_records h)))
    else if bh_bits h <? 8 then
      do vs <- last (bh_bits h) p ; map_res value vs
    else
      do (column, p) <- unwrap (bp_read_n_byte bytes (bh_records h) p) ;
      do (ds, remaining, p) <-
        decode_columns bytes (bh_records h) unnecessary (N.to_nat (bh_bits h / 8)) (bh_bits h - 8) p
          (map (fun b => N.shiftl (flip b) (bh_bits h - 8)) column) ;
      if (remaining =? 0) || (remaining <=? unnecessary) then map_res value ds
      else
        do vs <- last remaining p ;
        map_res value (map (fun '(d, v) => N.lor d v) (combine ds vs)).

  (** *** chunk_reader/buff.rs *)

  (** 26-33; [chunk_size] is the length of the bytes. *)
  Record buffreader := mkBr { br_records : N; br_bytes : list N; br_precision : option N; br_cache : option (list N) }.
  (** 36-54 [new]. *)
  Definition bf_open (n : N) (bytes : list N) : buffreader := mkBr n bytes None None.
  (** 57-63 [with_controlled_precision]. *)
  Definition bf_with_precision (k : N) (r : buffreader) : buffreader :=
    mkBr (br_records r) (br_bytes r) (Some k)
      (if match br_precision r with None => true | Some old => old <? k end then None else br_cache r).
  (** 85-100 [decompress]. *)
  Definition bf_decompress (r : buffreader) : res derr (list N) * buffreader :=
    match br_cache r with
    | Some vs => (Ok vs, r)
    | None =>
        match bf_decode (br_bytes r) (br_precision r) with
        | Ok vs => (Ok vs, mkBr (br_records r) (br_bytes r) (br_precision r) (Some vs))
        | e => (e, r)
        end
    end.

  (** 137-141, 251-257, 282-288, 314-320: the mask restricted to the chunk. *)
  Definition restrict (mask : option bitmap) (offset : N) (r : buffreader) : res derr (option bitmap) :=
    match mask with
    | Some bm => do xs <- chunk_mask dbg bm offset (br_records r) ; Ok (Some xs)
    | None => Ok None
    end.

  (** 128-228 [filter]. *)
  Definition bf_filter (p : fpred) (mask : option bitmap) (offset : N) (r : buffreader) : res derr bitmap * buffreader :=
    ((do mask <- restrict mask offset r ;
      let offset := offset mod two32 in
      let all := all_records offset (br_records r mod two32) in
      let bytes := br_bytes r in
      match p with
      | PEq v => buff_equal_filter bytes v mask offset
      | PNe v =>
          do result <- buff_equal_filter bytes v mask offset ;
          do within <- match mask with Some bm => Ok bm | None => all end ;
          Ok (bm_diff within result)
      | PRange lo hi =>
          let side greater b :=
            match b with
            | Inclusive v => do bm <- buff_cmp_filter greater true bytes v mask offset ; Ok (Some bm)
            | Exclusive v => do bm <- buff_cmp_filter greater false bytes v mask offset ; Ok (Some bm)
            | Unbounded => Ok None
            end in
          do lower <- side true lo ;
          do upper <- side false hi ;
          match lower, upper with
          | None, None => match mask with Some bm => Ok bm | None => all end
          | None, Some bm | Some bm, None => Ok bm
          | Some a, Some b => Ok (bm_and a b)
          end
      end), r).

  (** 230-241 [filter_materialize]. *)
  Definition bf_filter_materialize (p : fpred) (mask : option bitmap) (offset : N) (r : buffreader)
    : list N * res derr unit * buffreader :=
    let '(bm, r) := bf_filter p mask offset r in
    match bm with
    | Ok bm => default_materialize buffreader bf_decompress (Some bm) offset r
    | Err e => ([], Err e, r)
    | Panic => ([], Panic, r)
    end.

  (** 243-272 [max], 274-303 [min], 305-324 [sum]. *)
  Definition bf_max (mask : option bitmap) (offset : N) (r : buffreader) : res derr f64 * buffreader :=
    ((do mask <- restrict mask offset r ;
      match mask with
      | Some [] => Ok S754_nan
      | Some bm => buff_extreme_masked false (br_bytes r) bm (offset mod two32)
      | None => buff_max (br_bytes r) (offset mod two32)
      end), r).
  Definition bf_min (mask : option bitmap) (offset : N) (r : buffreader) : res derr f64 * buffreader :=
    ((do mask <- restrict mask offset r ;
      match mask with
      | Some [] => Ok S754_nan
      | Some bm => buff_extreme_masked true (br_bytes r) bm (offset mod two32)
      | None => buff_min (br_bytes r)
      end), r).
  Definition bf_sum (mask : option bitmap) (offset : N) (r : buffreader) : res derr f64 * buffreader :=
    ((do mask <- restrict mask offset r ; buff_sum (br_bytes r) mask (offset mod two32)), r).

  (** 127-325: the other methods are the default ones; opening unwraps (44). *)
  Definition buff_executor : executor :=
    mkEx buffreader (fun n bytes => Ok (bf_open n bytes)) true bf_with_precision bf_decompress
      (default_materialize buffreader bf_decompress) bf_filter bf_filter_materialize
      bf_sum bf_min bf_max
      (default_distance_squared buffreader bf_decompress neg) (default_dot_product buffreader bf_decompress neg).
End Reader.
