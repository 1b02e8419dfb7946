(** Model of ebi/src/compressor/chimp.rs and
    ebi/src/decoder/chunk_reader/chimp.rs. *)
From Verif Require Import Base BitIO Xor.

(** compressor/chimp.rs:54-58 and chimp_n.rs:145-149 [LEADING_REPRESENTATION]. *)
Definition ch_repr_tbl : list N :=
  [0; 0; 0; 0; 0; 0; 0; 0; 1; 1; 1; 1; 2; 2; 2; 2; 3; 3; 4; 4; 5; 5; 6; 6; 7; 7; 7; 7; 7; 7;
   7; 7; 7; 7; 7; 7; 7; 7; 7; 7; 7; 7; 7; 7; 7; 7; 7; 7; 7; 7; 7; 7; 7; 7; 7; 7; 7; 7; 7; 7;
   7; 7; 7; 7].

(** compressor/chimp.rs:60-64 and chimp_n.rs:151-155 [LEADING_ROUND]. *)
Definition ch_round_tbl : list N :=
  [0; 0; 0; 0; 0; 0; 0; 0; 8; 8; 8; 8; 12; 12; 12; 12; 16; 16; 18; 18; 20; 20; 22; 22; 24; 24;
   24; 24; 24; 24; 24; 24; 24; 24; 24; 24; 24; 24; 24; 24; 24; 24; 24; 24; 24; 24; 24; 24; 24;
   24; 24; 24; 24; 24; 24; 24; 24; 24; 24; 24; 24; 24; 24; 24].

(** Array accesses; indices are leading-zero counts of non-zero words, hence below 64. *)
Definition ch_repr (i : N) : N := nth (N.to_nat i) ch_repr_tbl 0.
Definition ch_round (i : N) : N := nth (N.to_nat i) ch_round_tbl 0.

(** compressor/chimp.rs:52 *)
Definition ch_threshold : N := 6.

(** compressor/chimp.rs:21-26 [ChimpEncoder]. *)
Record cenc := mkCE { ce_lz : N; ce_val : N; ce_first : bool; ce_size : N }.

(** compressor/chimp.rs:66-73 [new]; also what both [reset]s restore. *)
Definition ce_init : cenc := mkCE 4294967295 0 true 0.

(** compressor/chimp.rs:86-91 [write_first]. *)
Definition ce_write_first (e : cenc) (w : bwriter) (v : N) : cenc * bwriter :=
  (mkCE (ce_lz e) v false (ce_size e + 64), write_bits w v 64).

(** compressor/chimp.rs:99-146 [compress_value]. *)
Definition ce_compress (e : cenc) (w : bwriter) (v : N) : cenc * bwriter :=
  let xor := N.lxor (ce_val e) v in
  if xor =? 0 then
    (mkCE 65 v (ce_first e) (ce_size e + 2), write_bit (write_bit w false) false)
  else
    let lz := ch_round (clz64 xor) in
    let tz := ctz64 xor in
    if ch_threshold <? tz then
      let sig := 64 - lz - tz in
      let w := write_bit w false in
      let w := write_bit w true in
      let w := write_bits w (ch_repr lz) 3 in
      let w := write_bits w sig 6 in
      let w := write_bits w (N.shiftr xor tz) sig in
      (mkCE 65 v (ce_first e) (ce_size e + (11 + sig)), w)
    else if lz =? ce_lz e then
      let w := write_bit w true in
      let w := write_bit w false in
      let sig := 64 - lz in
      let w := write_bits w xor sig in
      (mkCE (ce_lz e) v (ce_first e) (ce_size e + (2 + sig)), w)
    else
      let sig := 64 - lz in
      let w := write_bit w true in
      let w := write_bit w true in
      let w := write_bits w (ch_repr lz) 3 in
      let w := write_bits w xor sig in
      (mkCE lz v (ce_first e) (ce_size e + (5 + sig)), w).

(** compressor/chimp.rs:76-83 [add_value] = [compress_float] (29-34). *)
Definition ce_step (e : cenc) (w : bwriter) (v : N) : cenc * bwriter :=
  if ce_first e then ce_write_first e w v else ce_compress e w v.

(** compressor/chimp.rs:93-96 [close]. *)
Definition ce_close (e : cenc) (w : bwriter) : cenc * bwriter :=
  let '(e, w) := ce_step e w nan_bits in (e, write_bit w false).

(** compressor/chimp.rs:185-211 [simulate_add_value]. *)
Definition ce_simulate (e : cenc) (v : N) : N :=
  let xor := N.lxor (ce_val e) v in
  if ce_first e then ce_size e + 64
  else if xor =? 0 then ce_size e + 2
  else
    let lz := ch_round (clz64 xor) in
    let tz := ctz64 xor in
    if ch_threshold <? tz then ce_size e + (11 + (64 - lz - tz))
    else if lz =? ce_lz e then ce_size e + (2 + (64 - lz))
    else ce_size e + (5 + (64 - lz)).

(** compressor/chimp.rs:44-48 [simulate_close]. *)
Definition ce_simclose (e : cenc) : N := ce_simulate e nan_bits + 1 - ce_size e.

(** chunk_reader/chimp.rs:38 [LEADING_REPRESENTATION]. *)
Definition chd_tbl : list N := [0; 8; 12; 16; 18; 20; 22; 24].
Definition chd_lead (i : N) : N := nth (N.to_nat i) chd_tbl 0.

(** chunk_reader/chimp.rs:12-18 [ChimpDecoder]. *)
Record cdec := mkCD { cd_lz : N; cd_tz : N; cd_val : N; cd_first : bool; cd_eos : bool }.

(** chunk_reader/chimp.rs:40-48 [new]. *)
Definition cd_init : cdec := mkCD 4294967295 0 0 true false.

(** u32 subtraction truncated to u8: [(64 - a) as u8] in a release build. *)
Definition sub32_u8 (a b : N) : N := wsub32 a b mod 256.

(** chunk_reader/chimp.rs:81-124 [next_value]. *)
Definition cd_next_value (d : cdec) (r : breader) : drd cdec :=
  rdo flag, r <- read_bits r 2 ;
  let fin (lz tz v : N) (r : breader) :=
    DOk (mkCD lz tz v (cd_first d) (if v =? nan_bits then true else cd_eos d)) r in
  match flag with
  | 3 =>
      rdo i, r <- read_bits r 3 ;
      let lz := chd_lead i in
      rdo value, r <- read_bits r (sub32_u8 64 lz) ;
      fin lz (cd_tz d) (N.lxor (cd_val d) value) r
  | 2 =>
      rdo value, r <- read_bits r (sub32_u8 64 (cd_lz d)) ;
      fin (cd_lz d) (cd_tz d) (N.lxor (cd_val d) value) r
  | 1 =>
      rdo i, r <- read_bits r 3 ;
      let lz := chd_lead i in
      rdo s, r <- read_bits r 6 ;
      let sig := if s =? 0 then 64 else s in
      let tz := wsub32 (wsub32 64 sig) lz in
      rdo value, r <- read_bits r (sub32_u8 (wsub32 64 lz) tz) ;
      fin lz tz (N.lxor (cd_val d) (shl64m value tz)) r
  | _ => fin (cd_lz d) (cd_tz d) (cd_val d) r
  end.

(** chunk_reader/chimp.rs:58-79 [read_value]. *)
Definition cd_next (d : cdec) (r : breader) : drd (option N * cdec) :=
  if cd_eos d then DOk (None, d) r
  else
    dbind
      (if cd_first d then
         rdo v, r <- read_bits r 64 ;
         DOk (mkCD (cd_lz d) (cd_tz d) v false (if v =? nan_bits then true else cd_eos d)) r
       else cd_next_value d r)
      (fun d r => if cd_eos d then DOk (None, d) r else DOk (Some (cd_val d), d) r).

(** compressor/chimp.rs:14, chunk_reader/chimp.rs:8. *)
Definition chimp_compress := x_compress cenc ce_init ce_step.
Definition chimp_prepare := x_prepare cenc ce_close.
Definition chimp_total_bytes_buffered := x_total_bytes_buffered cenc ce_simclose.
Definition chimp_decompress := x_decompress cdec cd_init cd_next.
