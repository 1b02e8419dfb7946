(** The DeltaSprintz scheme: compressor/sprintz.rs and
    decoder/chunk_reader/sprintz.rs.

    An i64 is a [Z] between -2^63 and 2^63 - 1.  [dbg]: overflow panics (debug
    builds) instead of wrapping (release builds). *)
From Verif Require Import Base BitIO Xor F64 Query.

(** ** i64 and u32 arithmetic *)

Definition wrap_i64 (z : Z) : Z := ((z + 2 ^ 63) mod 2 ^ 64 - 2 ^ 63)%Z.
Definition fits_i64 (z : Z) : bool := ((- 2 ^ 63 <=? z) && (z <? 2 ^ 63))%Z.
(** [transmute::<i64, u64>] and back. *)
Definition i64_bits (z : Z) : N := Z.to_N (z mod 2 ^ 64).
Definition bits_i64 (n : N) : Z := wrap_i64 (Z.of_N n).
Definition checked_i64 (dbg : bool) (z : Z) : res derr Z :=
  if fits_i64 z then Ok z else if dbg then Panic else Ok (wrap_i64 z).
Definition add_i64 (dbg : bool) (a b : Z) : res derr Z := checked_i64 dbg (a + b).
Definition sub_i64 (dbg : bool) (a b : Z) : res derr Z := checked_i64 dbg (a - b).
(** [a + b] on u32. *)
Definition add_u32 (dbg : bool) (a b : N) : res derr N :=
  if a + b <? two32 then Ok (a + b) else if dbg then Panic else Ok ((a + b) mod two32).

(** ** Compressor *)

(** compressor/sprintz.rs:233-236 [zigzag]. *)
Definition zigzag (z : Z) : N := i64_bits (Z.lxor (wrap_i64 (Z.shiftl z 1)) (Z.shiftr z 63)).
(** chunk_reader/sprintz.rs:519-521 [unzigzag]. *)
Definition unzigzag (o : N) : Z := Z.lxor (Z.of_N (N.shiftr o 1)) (- Z.of_N (N.land o 1)).

(** compressor/sprintz.rs:154 [(fp * scale as f64).round() as i64], also
    chunk_reader/sprintz.rs:117 (there with the scale read from the chunk). *)
Definition quantize (scale : N) (x : N) : Z := as_i64 (fround (fmul (of_bits x) (of_Z (Z.of_N scale)))).

(** compressor/sprintz.rs:195-207: the loop of [zigzag_delta_num_bits]. *)
Fixpoint zigzag_deltas (dbg : bool) (previous : Z) (acc : N) (fs : list Z) : res derr (list N * N) :=
  match fs with
  | [] => Ok ([], acc)
  | f :: fs' =>
      do delta <- sub_i64 dbg f previous ;
      let zz := zigzag delta in
      do (zs, o) <- zigzag_deltas dbg f (N.lor acc zz) fs' ;
      Ok (zz :: zs, o)
  end.
(** compressor/sprintz.rs:181-216 [zigzag_delta_num_bits]: the first number, the
    bits needed and the contents of [buffer]; no input panics ([unwrap]). *)
Definition zigzag_delta_num_bits (dbg : bool) (quantized : list Z) : res derr (Z * N * list N) :=
  match quantized with
  | [] => Panic
  | initial :: _ =>
      do (zs, o) <- zigzag_deltas dbg initial 0 quantized ;
      Ok (initial, 64 - clz64 o, zs)
  end.

(** compressor/sprintz.rs:21-28; the scratch buffer (cleared before every use) and
    the timer are left out. *)
Record sprintz := mkSp { sp_w : bwriter; sp_scale : N; sp_in : N }.

(** compressor/sprintz.rs:76-84 [new] (from the configuration: 56-63). *)
Definition sp_new (scale : N) : sprintz := mkSp w_new scale 0.
(** compressor/sprintz.rs:119-124 [reset]. *)
Definition sp_reset (c : sprintz) : sprintz := mkSp (w_reset (sp_w c)) (sp_scale c) 0.

(** compressor/sprintz.rs:142-177 [delta_sprintz_compress_impl]. *)
Definition sp_write (dbg : bool) (xs : list N) (scale : N) (w : bwriter) : res derr bwriter :=
  do (initial, bits, zs) <- zigzag_delta_num_bits dbg (map (quantize scale) xs) ;
  let w := write_bits w (i64_bits initial) 64 in
  let w := write_bits w scale 32 in
  let w := write_byte w bits in
  Ok (if bits =? 0 then w else fold_left (fun w z => write_bits w z bits) zs w).

(** compressor/sprintz.rs:88-101 [compress]. *)
Definition sp_compress (dbg : bool) (c : sprintz) (xs : list N) : res derr sprintz :=
  let c := sp_reset c in
  do w <- sp_write dbg xs (sp_scale c) (sp_w c) ;
  Ok (mkSp w (sp_scale c) (sp_in c + 8 * N.of_nat (length xs))).
(** compressor/sprintz.rs:107-109, 111, 113-117. *)
Definition sp_total_bytes_buffered (c : sprintz) : N := N.of_nat (length (wbuf (sp_w c))).
Definition sp_prepare (c : sprintz) : sprintz := c.
Definition sp_buffers (c : sprintz) : list N := wbuf (sp_w c).

(** ** Reader *)

(** chunk_reader/sprintz.rs:23-27. *)
Record spreader := mkSpr { spr_r : breader; spr_records : N; spr_cache : option (list N) }.
(** chunk_reader/sprintz.rs:30-47 [new]. *)
Definition sp_open (n : N) (bs : list N) : spreader := mkSpr (r_new bs) n None.
Definition spr_set (c : spreader) (r : breader) : spreader := mkSpr r (spr_records c) (spr_cache c).

(** The header: chunk_reader/sprintz.rs:459-468; the same reads in 103-115,
    276-285, 324-333, 362-371 and 415-424. *)
Definition sp_header (r : breader) : res derr (Z * N * N) * breader :=
  match read_bits r 64 with
  | Got initial r =>
      match read_bits r 32 with
      | Got scale r =>
          match read_byte r with
          | Got bits r => (Ok (bits_i64 initial, scale, bits), r)
          | End_ r => (Err EUnexpectedEndOfChunk, r)
          | RPanic => (Panic, r)
          end
      | End_ r => (Err EUnexpectedEndOfChunk, r)
      | RPanic => (Panic, r)
      end
  | End_ r => (Err EUnexpectedEndOfChunk, r)
  | RPanic => (Panic, r)
  end.

(** [q as f64 / scale as f64] as a bit pattern. *)
Definition unquantize (scale : N) (q : Z) : f64 := fdiv (of_Z q) (of_Z (Z.of_N scale)).

Section Reader.
  Variable dbg : bool.
  Variable neg : bool.
  Variable tie : f64 -> f64 -> bool.

  (** chunk_reader/sprintz.rs:484-503 [next], collected until [None] or the first
      error; [left] is [number_of_records - record_index]. *)
  Fixpoint sp_collect (left : nat) (scale bits : N) (r : breader) (previous : Z) : res derr (list N) * breader :=
    match left with
    | O => (Ok [], r)
    | S left' =>
        let rest r q :=
          let '(vs, r) := sp_collect left' scale bits r q in
          (do vs <- vs ; Ok (to_bits (unquantize scale q) :: vs), r) in
        if bits =? 0 then rest r previous
        else
          match read_bits r bits with
          | Got delta r =>
              match add_i64 dbg (unzigzag delta) previous with
              | Ok q => rest r q
              | Err e => (Err e, r)
              | Panic => (Panic, r)
              end
          | End_ r => (Err EUnexpectedEndOfChunk, r)
          | RPanic => (Panic, r)
          end
    end.

  (** chunk_reader/sprintz.rs:60-70 with chunk_reader.rs:353-364
      [default_decompress]: the cursor is not reset. *)
  Definition sp_decompress (c : spreader) : res derr (list N) * spreader :=
    match spr_cache c with
    | Some vs => (Ok vs, c)
    | None =>
        let '(h, r) := sp_header (spr_r c) in
        match h with
        | Ok (initial, scale, bits) =>
            let '(vs, r) := sp_collect (N.to_nat (spr_records c)) scale bits r initial in
            match vs with
            | Ok vs => (Ok vs, mkSpr r (spr_records c) (Some vs))
            | e => (e, spr_set c r)
            end
        | Err e => (Err e, spr_set c r)
        | Panic => (Panic, spr_set c r)
        end
    end.

  (** The loop over the records of the in-situ queries: 141-149, 293-299, 338-344,
      379-385, 430-435.  [step] gets the index and the integer of the record and
      says whether to go on. *)
  Fixpoint sp_loop {A} (step : N -> Z -> A -> res derr (A * bool)) (left : nat) (i : N) (bits : N)
      (r : breader) (previous : Z) (acc : A) : res derr A * breader :=
    match left with
    | O => (Ok acc, r)
    | S left' =>
        match read_bits r bits with
        | Got zz r =>
            match add_i64 dbg previous (unzigzag zz) with
            | Ok q =>
                match step i q acc with
                | Ok (acc, true) => sp_loop step left' (i + 1) bits r q acc
                | Ok (acc, false) => (Ok acc, r)
                | Err e => (Err e, r)
                | Panic => (Panic, r)
                end
            | Err e => (Err e, r)
            | Panic => (Panic, r)
            end
        | End_ r => (Err EUnexpectedEndOfChunk, r)
        | RPanic => (Panic, r)
        end
    end.

  (** chunk_reader/sprintz.rs:91-162 [filter]; for a chunk without records both
      branches of 130-134 give the empty set. *)
  Definition sp_filter (p : fpred) (mask : option bitmap) (offset : N) (c : spreader) : res derr bitmap * spreader :=
    let c := spr_set c (r_reset (spr_r c)) in
    match spr_cache c with
    | Some _ => default_filter spreader sp_decompress p mask offset c
    | None =>
        let '(h, r) := sp_header (spr_r c) in
        match h with
        | Ok (initial, scale, bits) =>
            let q := pred_map (quantize scale) p in
            if spr_records c =? 0 then (Ok [], spr_set c r)
            else
              let '(bm, r) :=
                sp_loop (fun i v bm =>
                    if pred_eval Z Z.eqb Z.leb Z.ltb q v then
                      do k <- add_u32 dbg (offset mod two32) (i mod two32) ; Ok (bm_insert k bm, true)
                    else Ok (bm, true))
                  (N.to_nat (spr_records c)) 0 bits r initial [] in
              (do bm <- bm ; Ok (match mask with Some m => bm_and bm m | None => bm end), spr_set c r)
        | Err e => (Err e, spr_set c r)
        | Panic => (Panic, spr_set c r)
        end
    end.

  (** chunk_reader/sprintz.rs:164-174 [materialize]. *)
  Definition sp_materialize (mask : option bitmap) (offset : N) (c : spreader) : list N * res derr unit * spreader :=
    default_materialize spreader sp_decompress mask offset (spr_set c (r_reset (spr_r c))).

  (** chunk_reader/sprintz.rs:190-193, 220-223, 250-253: the elements of the mask in
      the range of the chunk, evaluated when the first of them is asked for. *)
  Definition chunk_mask (bm : bitmap) (offset records : N) : res derr (list N) :=
    let lo := offset mod two32 in
    if existsb (fun x => lo <=? x) bm then
      do hi <- add_u32 dbg lo (records mod two32) ;
      Ok (filter (fun x => (lo <=? x) && (x <? hi)) bm)
    else Ok [].

  (** One record of a loop under a mask, 301-310 and 387-401: the state holds the
      next and the following elements of the mask. *)
  Definition masked_step (f : Z -> Z -> res derr Z) (offset i : N) (q : Z) (acc : Z * N * list N)
    : res derr (Z * N * list N * bool) :=
    let '(a, next, rest) := acc in
    do k <- add_u32 dbg (i mod two32) (offset mod two32) ;
    if negb (k =? next) then Ok (acc, true)
    else
      do a <- f a q ;
      match rest with
      | n :: rest => Ok (a, n, rest, true)
      | [] => Ok (a, next, [], false)
      end.

  (** chunk_reader/sprintz.rs:267-315 [sum] and 353-406 [min_max]. *)
  Definition sp_fold_masked (f : Z -> Z -> res derr Z) (init : Z) (bm : bitmap) (offset : N) (c : spreader)
    : res derr f64 * spreader :=
    let '(h, r) := sp_header (r_reset (spr_r c)) in
    match h with
    | Ok (initial, scale, bits) =>
        match chunk_mask bm offset (spr_records c) with
        | Ok [] => (Ok S754_nan, spr_set c r)
        | Ok (next :: rest) =>
            let '(a, r) := sp_loop (masked_step f offset) (N.to_nat (spr_records c)) 0 bits r initial (init, next, rest) in
            (do (a, _, _) <- a ; Ok (unquantize scale a), spr_set c r)
        | Err e => (Err e, spr_set c r)
        | Panic => (Panic, spr_set c r)
        end
    | Err e => (Err e, spr_set c r)
    | Panic => (Panic, spr_set c r)
    end.

  (** chunk_reader/sprintz.rs:317-351 [sum_without_bitmask] and 408-446
      [min_max_without_bitmask]. *)
  Definition sp_fold_all (f : Z -> Z -> res derr Z) (init : Z) (c : spreader) : res derr f64 * spreader :=
    let '(h, r) := sp_header (r_reset (spr_r c)) in
    match h with
    | Ok (initial, scale, bits) =>
        let '(a, r) := sp_loop (fun _ q a => do a <- f a q ; Ok (a, true)) (N.to_nat (spr_records c)) 0 bits r initial init in
        (do a <- a ; Ok (unquantize scale a), spr_set c r)
    | Err e => (Err e, spr_set c r)
    | Panic => (Panic, spr_set c r)
    end.

  Definition i64_max : Z := (2 ^ 63 - 1)%Z.
  Definition i64_min : Z := (- 2 ^ 63)%Z.

  (** chunk_reader/sprintz.rs:176-204 [max], 206-234 [min] (which calls
      [default_max] once the chunk is decompressed), 236-264 [sum]. *)
  Definition sp_max (mask : option bitmap) (offset : N) (c : spreader) : res derr f64 * spreader :=
    match spr_cache c, mask with
    | Some _, _ => default_max spreader sp_decompress tie mask offset c
    | None, Some [] => (Ok S754_nan, c)
    | None, Some bm => sp_fold_masked (fun a q => Ok (Z.max a q)) i64_min bm offset c
    | None, None => sp_fold_all (fun a q => Ok (Z.max a q)) i64_min c
    end.
  Definition sp_min (mask : option bitmap) (offset : N) (c : spreader) : res derr f64 * spreader :=
    match spr_cache c, mask with
    | Some _, _ => default_max spreader sp_decompress tie mask offset c
    | None, Some [] => (Ok S754_nan, c)
    | None, Some bm => sp_fold_masked (fun a q => Ok (Z.min a q)) i64_max bm offset c
    | None, None => sp_fold_all (fun a q => Ok (Z.min a q)) i64_max c
    end.
  Definition sp_sum (mask : option bitmap) (offset : N) (c : spreader) : res derr f64 * spreader :=
    match spr_cache c, mask with
    | Some _, _ => default_sum spreader sp_decompress mask offset c
    | None, Some [] => (Ok f_zero, c)
    | None, Some bm => sp_fold_masked (add_i64 dbg) 0 bm offset c
    | None, None => sp_fold_all (add_i64 dbg) 0 c
    end.

  (** chunk_reader/sprintz.rs:90-265: [filter_materialize], [distance_squared] and
      [dot_product] are the default methods. *)
  Definition sprintz_executor : executor :=
    mkEx spreader (fun n bs => Ok (sp_open n bs)) false (fun _ r => r) sp_decompress
      sp_materialize sp_filter (default_filter_materialize spreader sp_decompress)
      sp_sum sp_min sp_max
      (default_distance_squared spreader sp_decompress neg) (default_dot_product spreader sp_decompress neg).
End Reader.
