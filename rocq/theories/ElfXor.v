(** Model of the XOR stage of Elf: [ElfXorEncoder] of ebi/src/compressor/elf.rs
    and [ElfXorDecoder] of ebi/src/decoder/chunk_reader/elf.rs.  Release-build
    arithmetic: shift amounts are masked, so the shift by 64 that occurs when
    the significant window is the top bit only is a shift by 0 of which no bit
    is written.  (A debug build panics there.)  The [size]
    fields are write-only statistics, not modelled. *)
From Verif Require Import Base BitIO Xor Chimp.

(** [x >> n] on u64 for an arbitrary amount, release build (amount masked). *)
Definition shr64m (x n : N) : N := N.shiftr x (n mod 64).

(** compressor/elf.rs:155-162 [ElfXorEncoder]. *)
Record lenc := mkLE { le_lz : N; le_tz : N; le_stored : N; le_first : bool }.

(** compressor/elf.rs:178-186 [new]; 379-385 [reset]. *)
Definition le_init : lenc := mkLE 4294967295 4294967295 0 true.

(** compressor/elf.rs:193-206 [write_first]. *)
Definition le_write_first (e : lenc) (w : bwriter) (v : N) : lenc * bwriter :=
  let tz := ctz64 v in
  let w := write_bits w tz 7 in
  let w := if tz <? 64 then write_bits w (shr64m v (tz + 1)) (63 - tz) else w in
  (mkLE (le_lz e) (le_tz e) v false, w).

(** compressor/elf.rs:248-251, 257-260: the flag, leading-zero and width fields of
    a new window.  [LEADING_REPRESENTATION] (166-170) and [LEADING_ROUND]
    (172-176) are the tables of Chimp. *)
Definition le_head10 (repr center : N) : N :=
  N.lor (N.shiftl (N.lor (N.shiftl 2 3) repr) 4) (N.land center 15).
Definition le_head11 (repr center : N) : N :=
  N.lor (N.shiftl (N.lor (N.shiftl 3 3) repr) 6) (N.land center 63).

(** compressor/elf.rs:212-271 [compress_float_inner]. *)
Definition le_write_next (e : lenc) (w : bwriter) (v : N) : lenc * bwriter :=
  let xor := N.lxor (le_stored e) v in
  if xor =? 0 then (e, write_bits w 1 2)
  else
    let lz := ch_round (clz64 xor) in
    let tz := ctz64 xor in
    if (lz =? le_lz e) && (le_tz e <=? tz) then
      let center := wsub32 (wsub32 64 (le_lz e)) (le_tz e) in
      let len := 2 + center in
      let w := if 64 <? len
               then write_bits (write_bits w 0 2) (shr64m xor (le_tz e)) center
               else write_bits w (shr64m xor (le_tz e)) len in
      (mkLE (le_lz e) (le_tz e) v (le_first e), w)
    else
      let center := wsub32 (wsub32 64 lz) tz in
      let repr := ch_repr lz in
      let w := if center <=? 16
               then write_bits w (le_head10 repr center) 9
               else write_bits w (le_head11 repr center) 11 in
      let w := write_bits w (shr64m xor (tz + 1)) (wsub32 center 1) in
      (mkLE lz tz v (le_first e), w).

(** compressor/elf.rs:362-368 [compress_float]. *)
Definition le_step (e : lenc) (w : bwriter) (v : N) : lenc * bwriter :=
  if le_first e then le_write_first e w v else le_write_next e w v.

(** compressor/elf.rs:370-373 [close]. *)
Definition le_close (e : lenc) (w : bwriter) : lenc * bwriter :=
  let '(e, w) := le_step e w nan_bits in (e, write_bit w false).

(** compressor/elf.rs:315-352 [simulate_compress_float]. *)
Definition le_simulate (e : lenc) (v : N) : N :=
  if le_first e then
    let tz := ctz64 v in if tz <? 64 then 7 + 63 - tz else 7
  else
    let xor := N.lxor (le_stored e) v in
    if xor =? 0 then 2
    else
      let lz := ch_round (clz64 xor) in
      let tz := ctz64 xor in
      if (lz =? le_lz e) && (le_tz e <=? tz)
      then 2 + wsub32 (wsub32 64 (le_lz e)) (le_tz e)
      else
        let center := wsub32 (wsub32 64 lz) tz in
        if center <=? 16 then 8 + center else 10 + center.

(** compressor/elf.rs:375-377 [simulate_close]. *)
Definition le_simclose (e : lenc) : N := le_simulate e nan_bits + 1.

(** chunk_reader/elf.rs:105-112 [ElfXorDecoder]. *)
Record ldec := mkLD { ld_val : N; ld_lz : N; ld_tz : N; ld_first : bool; ld_eos : bool }.

(** chunk_reader/elf.rs:118-126 [new]. *)
Definition ld_init : ldec := mkLD 0 4294967295 4294967295 true false.

(** chunk_reader/elf.rs:128-147 [read_first]. *)
Definition ld_read_first (d : ldec) (r : breader) : drd (option N * ldec) :=
  rdo tz, r <- read_bits r 7 ;
  let finish (v : N) (r : breader) :=
    if v =? nan_bits
    then DOk (None, mkLD v (ld_lz d) (ld_tz d) false true) r
    else DOk (Some v, mkLD v (ld_lz d) (ld_tz d) false (ld_eos d)) r in
  if tz <? 64 then
    rdo b, r <- read_bits r (wsub8 63 tz) ;
    finish (shl64m (N.lor (shl64 b 1) 1) tz) r
  else finish 0 r.

(** chunk_reader/elf.rs:172-178, 200-206, 218-224: xor in, end marker or store. *)
Definition ld_store (d : ldec) (lz tz x : N) (r : breader) : drd (option N * ldec) :=
  let v := N.lxor x (ld_val d) in
  if v =? nan_bits
  then DOk (None, mkLD (ld_val d) lz tz (ld_first d) true) r
  else DOk (Some v, mkLD v lz tz (ld_first d) (ld_eos d)) r.

(** chunk_reader/elf.rs:165-171, 190-199. *)
Definition ld_window (d : ldec) (lz center : N) (r : breader) : drd (option N * ldec) :=
  let tz := wsub32 (wsub32 64 lz) center in
  rdo b, r <- read_bits r ((center - 1) mod 256) ;
  ld_store d lz tz (shl64m (N.lor (shl64 b 1) 1) tz) r.

(** chunk_reader/elf.rs:149-229 [decompress_float_inner].  The special case
    [center_bits == 1] of 191-192 reads nothing and yields the same value as a
    0-bit read. *)
Definition ld_read_next (d : ldec) (r : breader) : drd (option N * ldec) :=
  rdo flag, r <- read_bits r 2 ;
  match flag with
  | 3 =>
      rdo lac, r <- read_bits r 9 ;
      let lz := chd_lead (N.shiftr lac 6) in
      let c := N.land lac 63 in
      ld_window d lz (if c =? 0 then 64 else c) r
  | 2 =>
      rdo lac, r <- read_bits r 7 ;
      let lz := chd_lead (N.shiftr lac 4) in
      let c := N.land lac 15 in
      let c := if c =? 0 then 16 else c in
      if c =? 1 then
        let tz := wsub32 (wsub32 64 lz) c in
        ld_store d lz tz (shl64m 1 tz) r
      else ld_window d lz c r
  | 1 => DOk (Some (ld_val d), d) r
  | _ =>
      let center := wsub32 (wsub32 64 (ld_lz d)) (ld_tz d) in
      rdo b, r <- read_bits r (center mod 256) ;
      ld_store d (ld_lz d) (ld_tz d) (shl64m b (ld_tz d)) r
  end.

(** chunk_reader/elf.rs:239-249 [decompress_float]. *)
Definition ld_next (d : ldec) (r : breader) : drd (option N * ldec) :=
  if ld_eos d then DOk (None, d) r
  else if ld_first d then ld_read_first d r else ld_read_next d r.
