(** Model of ebi/src/compressor/chimp_n.rs and
    ebi/src/decoder/chunk_reader/chimp_n.rs at N_PREVIOUS_VALUES = 128
    (the only instance used: Chimp128). *)
From Verif Require Import Base BitIO Xor Chimp.

(** Boxed slices as total functions.  Every index used is in range: [_ mod 128],
    a 7-bit field, or a value masked with SET_LSB. *)
Definition upd (f : N -> N) (k v : N) : N -> N := fun i => if i =? k then v else f i.

(** chimp_n.rs:139-143 for N = 128: log2 7, THRESHOLD 13, SET_LSB 2^14 - 1,
    FLAG_ZERO_SIZE 9, FLAG_ONE_SIZE 18. *)
Definition cn_n : N := 128.
Definition cn_threshold : N := 13.
Definition cn_set_lsb : N := 16383.
Definition cn_flag_zero : N := 9.
Definition cn_flag_one : N := 18.

(** chimp_n.rs:127-136 [ChimpNEncoder] without its writer, which is kept beside it.
    [index] and [indices] count records of a chunk held in memory and never reach
    2^64, and [indices k <= index] always (ChimpNProofs.v), so usize arithmetic on
    them does not wrap.  [size] is a u32 and wraps in a release build. *)
Record nenc := mkNE {
  ne_lz : N; ne_vals : N -> N; ne_first : bool; ne_size : N;
  ne_indices : N -> N; ne_index : N; ne_current : N }.

(** chimp_n.rs:161-172 [with_capacity]; 346-355 [reset]. *)
Definition ne_init : nenc :=
  mkNE 4294967295 (fun _ => 0) true 0 (fun _ => 0) 0 0.

Definition add32 (a b : N) : N := (a + b) mod two32.

(** chimp_n.rs:183-189 [write_first]. *)
Definition ne_write_first (e : nenc) (w : bwriter) (v : N) : nenc * bwriter :=
  (mkNE (ne_lz e) (upd (ne_vals e) (ne_current e) v) false (add32 (ne_size e) 64)
        (upd (ne_indices e) (N.land v cn_set_lsb) (ne_index e)) (ne_index e) (ne_current e),
   write_bits w v 64).

(** chimp_n.rs:197-216 (and 299-316): the reference value chosen for [v]:
    (previous_index, xor, trailing_zeros). *)
Definition ne_choose (e : nenc) (v : N) : N * N * N :=
  let key := N.land v cn_set_lsb in
  let curr_index := ne_indices e key in
  let prev := ne_index e mod cn_n in
  if ne_index e - curr_index <? cn_n then
    let temp_xor := N.lxor v (ne_vals e (curr_index mod cn_n)) in
    let tz := ctz64 temp_xor in
    if cn_threshold <? tz then (curr_index mod cn_n, temp_xor, tz)
    else (prev, N.lxor (ne_vals e prev) v, tz)
  else (prev, N.lxor (ne_vals e prev) v, 0).

(** chimp_n.rs:196-258 [compress_value]. *)
Definition ne_compress (e : nenc) (w : bwriter) (v : N) : nenc * bwriter :=
  let key := N.land v cn_set_lsb in
  let '(prev, xor, tz) := ne_choose e v in
  let '(lz', w', size') :=
    if xor =? 0 then (65, write_bits w prev cn_flag_zero, add32 (ne_size e) cn_flag_zero)
    else
      let lz := ch_round (clz64 xor) in
      if cn_threshold <? tz then
        let sig := 64 - lz - tz in
        let w := write_bits w (512 * (cn_n + prev) + 64 * ch_repr lz + sig) cn_flag_one in
        let w := write_bits w (N.shiftr xor tz) sig in
        (65, w, add32 (ne_size e) (sig + cn_flag_one))
      else if lz =? ne_lz e then
        let w := write_bits w 2 2 in
        let sig := 64 - lz in
        let w := write_bits w xor sig in
        (ne_lz e, w, add32 (ne_size e) (2 + sig))
      else
        let sig := 64 - lz in
        let w := write_bits w (24 + ch_repr lz) 5 in
        let w := write_bits w xor sig in
        (lz, w, add32 (ne_size e) (5 + sig)) in
  let current := (ne_current e + 1) mod cn_n in
  let index := ne_index e + 1 in
  (mkNE lz' (upd (ne_vals e) current v) (ne_first e) size'
        (upd (ne_indices e) key index) index current, w').

(** chimp_n.rs:174-181 [add_value]. *)
Definition ne_step (e : nenc) (w : bwriter) (v : N) : nenc * bwriter :=
  if ne_first e then ne_write_first e w v else ne_compress e w v.

(** chimp_n.rs:191-194 [close]. *)
Definition ne_close (e : nenc) (w : bwriter) : nenc * bwriter :=
  let '(e, w) := ne_step e w nan_bits in (e, write_bit w false).

(** chimp_n.rs:292-336 [simulate_add_value]. *)
Definition ne_simulate (e : nenc) (v : N) : N :=
  if ne_first e then 64
  else
    let '(_, xor, tz) := ne_choose e v in
    if xor =? 0 then add32 (ne_size e) cn_flag_zero
    else
      let lz := ch_round (clz64 xor) in
      if cn_threshold <? tz then add32 (ne_size e) (64 - lz - tz + cn_flag_one)
      else if lz =? ne_lz e then add32 (ne_size e) (2 + (64 - lz))
      else add32 (ne_size e) (5 + (64 - lz)).

(** chimp_n.rs:129-139 (decoder) [ChimpNDecoder] without its reader. *)
Record ndec := mkND {
  nd_lz : N; nd_tz : N; nd_val : N; nd_vals : N -> N; nd_current : N;
  nd_first : bool; nd_eos : bool }.

(** chunk_reader/chimp_n.rs:147-158 [new]. *)
Definition nd_init : ndec := mkND 4294967295 0 0 (fun _ => 0) 0 true false.

(** chunk_reader/chimp_n.rs:219-224, 233-238, 265-270: end marker or store. *)
Definition nd_store (d : ndec) (lz tz v : N) : ndec :=
  if v =? nan_bits then mkND lz tz v (nd_vals d) (nd_current d) (nd_first d) true
  else
    let cur := (nd_current d + 1) mod cn_n in
    mkND lz tz v (upd (nd_vals d) cur v) cur (nd_first d) (nd_eos d).

(** [64 - self.stored_leading_zeros as u8]: u8 subtraction, release build. *)
Definition nd_width (lz : N) : N := wsub8 64 (lz mod 256).

(** chunk_reader/chimp_n.rs:201-284 [next_value]. *)
Definition nd_next_value (d : ndec) (r : breader) : drd ndec :=
  rdo flag, r <- read_bits r 2 ;
  match flag with
  | 3 =>
      rdo i, r <- read_bits r 3 ;
      let lz := chd_lead i in
      rdo value, r <- read_bits r (nd_width lz) ;
      DOk (nd_store d lz (nd_tz d) (N.lxor (nd_val d) value)) r
  | 2 =>
      rdo value, r <- read_bits r (nd_width (nd_lz d)) ;
      DOk (nd_store d (nd_lz d) (nd_tz d) (N.lxor (nd_val d) value)) r
  | 1 =>
      rdo temp, r <- read_bits r 16 ;
      let index := N.land (N.shiftr temp 9) 127 in
      let lz := chd_lead (N.land (N.shiftr temp 6) 7) in
      let s := N.land (N.shiftr temp 0) 63 in
      let val := nd_vals d index in
      let sig := if s =? 0 then 64 else s in
      let tz := wsub32 (wsub32 64 sig) lz in
      rdo value, r <- read_bits r (sub32_u8 (wsub32 64 lz) tz) ;
      DOk (nd_store d lz tz (N.lxor val (shl64m value tz))) r
  | _ =>
      rdo i, r <- read_bits r 7 ;
      let v := nd_vals d i in
      let cur := (nd_current d + 1) mod cn_n in
      DOk (mkND (nd_lz d) (nd_tz d) v (upd (nd_vals d) cur v) cur (nd_first d) (nd_eos d)) r
  end.

(** chunk_reader/chimp_n.rs:160-199 [read_value] and [next]. *)
Definition nd_next (d : ndec) (r : breader) : drd (option N * ndec) :=
  if nd_eos d then DOk (None, d) r
  else
    dbind
      (if nd_first d then
         rdo v, r <- read_bits r 64 ;
         DOk (mkND (nd_lz d) (nd_tz d) v (upd (nd_vals d) (nd_current d) v) (nd_current d) false
                   (if v =? nan_bits then true else nd_eos d)) r
       else nd_next_value d r)
      (fun d r => if nd_eos d then DOk (None, d) r else DOk (Some (nd_val d), d) r).

(** chimp_n.rs:71-118: [compress], [prepare], [buffers] have the bodies of the
    general XOR compressor (writer reset, encoder reset, one call per value). *)
Definition chimp128_compress := x_compress nenc ne_init ne_step.
Definition chimp128_prepare := x_prepare nenc ne_close.
Definition chimp128_decompress := x_decompress ndec nd_init nd_next.

(** chimp_n.rs:89-98 [total_bytes_buffered] (u32 addition, release build). *)
Definition chimp128_total_bytes_buffered (c : xcomp nenc) : N :=
  (add32 (ne_simulate (xe c) nan_bits) 1 + 7) / 8.
