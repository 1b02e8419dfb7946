(** Model of ebi/src/compressor/gorilla.rs and
    ebi/src/decoder/chunk_reader/gorilla.rs. *)
From Verif Require Import Base BitIO Xor.

(** compressor/gorilla.rs:74-83 [GorillaFloatEncoderState]. *)
Record genc := mkGE { ge_val : N; ge_lz : N; ge_tz : N; ge_first : bool }.

(** compressor/gorilla.rs:85-93 [new]; 260-262 [reset]. *)
Definition ge_init : genc := mkGE 0 64 64 true.

(** compressor/gorilla.rs:118-126 [write_first] followed by 200. *)
Definition ge_write_first (e : genc) (w : bwriter) (v : N) : genc * bwriter :=
  (mkGE v (ge_lz e) (ge_tz e) false, write_bits w v 64).

(** compressor/gorilla.rs:144-148: leading zeros, clamped to 31. *)
Definition ge_lead (xor : N) : N := if 32 <=? clz64 xor then 31 else clz64 xor.

(** compressor/gorilla.rs:129-190 [write_next_value]. *)
Definition ge_write_next (e : genc) (w : bwriter) (v : N) : genc * bwriter :=
  let xor := N.lxor v (ge_val e) in
  if xor =? 0 then (mkGE v (ge_lz e) (ge_tz e) (ge_first e), write_bit w false)
  else
    let w := write_bit w true in
    let lz := ge_lead xor in
    let tz := ctz64 xor in
    if (ge_lz e <=? lz) && (ge_tz e <=? tz) then
      let w := write_bit w false in
      let w := write_bits w (N.shiftr xor (ge_tz e)) (64 - ge_lz e - ge_tz e) in
      (mkGE v (ge_lz e) (ge_tz e) (ge_first e), w)
    else
      let w := write_bit w true in
      let w := write_bits w lz 5 in
      let sig := 64 - lz - tz in
      let w := write_bits w (sig - 1) 6 in
      let w := write_bits w (N.shiftr xor tz) sig in
      (mkGE v lz tz (ge_first e), w).

(** compressor/gorilla.rs:195-205 [encode] = [compress_float] (23-25). *)
Definition ge_step (e : genc) (w : bwriter) (v : N) : genc * bwriter :=
  if ge_first e then ge_write_first e w v else ge_write_next e w v.

(** compressor/gorilla.rs:27-30 [close]. *)
Definition ge_close (e : genc) (w : bwriter) : genc * bwriter :=
  let '(e, w) := ge_step e w nan_bits in (e, write_bit w false).

(** compressor/gorilla.rs:208-257 [simulate_encode]. *)
Definition ge_simulate (e : genc) (v : N) : N :=
  if ge_first e then 64 else
  let xor := N.lxor v (ge_val e) in
  if xor =? 0 then 1
  else
    let lz := ge_lead xor in
    let tz := ctz64 xor in
    if (ge_lz e <=? lz) && (ge_tz e <=? tz)
    then 1 + (1 + 64 - ge_lz e - ge_tz e)
    else 1 + (1 + 5 + 6 + (64 - lz - tz)).

(** compressor/gorilla.rs:32-34 [simulate_close]. *)
Definition ge_simclose (e : genc) : N := ge_simulate e nan_bits + 1.

(** chunk_reader/gorilla.rs:60-69 [GorillaDecoder]. *)
Record gdec := mkGD { gd_val : N; gd_lz : N; gd_tz : N; gd_first : bool; gd_done : bool }.

(** chunk_reader/gorilla.rs:80-88 [new]. *)
Definition gd_init : gdec := mkGD 0 0 0 true false.

(** chunk_reader/gorilla.rs:90-98 [read_first_value] (143 cleared [first]). *)
Definition gd_read_first (d : gdec) (r : breader) : drd (N * gdec) :=
  rdo bits, r <- read_bits r 64 ;
  DOk (bits, mkGD bits (gd_lz d) (gd_tz d) false (gd_done d)) r.

(** chunk_reader/gorilla.rs:125-132: read the window and update the value. *)
Definition gd_read_window (d : gdec) (lz tz : N) (r : breader) : drd (N * gdec) :=
  let size := wsub8 (wsub8 64 lz) tz in
  rdo bits, r <- read_bits r size ;
  let v := N.lxor (gd_val d) (shl64m bits tz) in
  DOk (v, mkGD v lz tz (gd_first d) (gd_done d)) r.

(** chunk_reader/gorilla.rs:100-133 [read_next_value]. *)
Definition gd_read_next (d : gdec) (r : breader) : drd (N * gdec) :=
  rdo control, r <- read_bit r ;
  if negb control then DOk (gd_val d, d) r
  else
    rdo zeroes, r <- read_bit r ;
    if zeroes then
      rdo lz, r <- read_bits r 5 ;
      rdo n, r <- read_bits r 6 ;
      let sig := (n + 1) mod 256 in
      let tz := wsub8 (wsub8 64 lz) sig in
      gd_read_window d lz tz r
    else gd_read_window d (gd_lz d) (gd_tz d) r.

(** chunk_reader/gorilla.rs:137-157 [next]. *)
Definition gd_next (d : gdec) (r : breader) : drd (option N * gdec) :=
  if gd_done d then DOk (None, d) r
  else
    dbind (if gd_first d then gd_read_first d r else gd_read_next d r)
      (fun '(v, d) r =>
         if v =? nan_bits
         then DOk (None, mkGD (gd_val d) (gd_lz d) (gd_tz d) (gd_first d) true) r
         else DOk (Some v, d) r).

(** compressor/gorilla.rs:14-15, chunk_reader/gorilla.rs:8: instances of the
    general XOR compressor and reader. *)
Definition gorilla_compress := x_compress genc ge_init ge_step.
Definition gorilla_prepare := x_prepare genc ge_close.
Definition gorilla_total_bytes_buffered := x_total_bytes_buffered genc ge_simclose.
Definition gorilla_decompress := x_decompress gdec gd_init gd_next.
