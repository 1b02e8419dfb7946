(** Model of the erasure stage of Elf: ebi/src/compression_common/elf.rs,
    [ElfEncoderWrapper] of ebi/src/compressor/elf.rs and [ElfDecoderWrapper] of
    ebi/src/decoder/chunk_reader/elf.rs, and of the two schemes Elf and
    ElfOnChimp built from it.  Release-build arithmetic. *)
From Verif Require Import Base BitIO Xor Chimp ElfXor F64.

Definition i32_max : Z := 2147483647.

(** [i as u32] for an i32. *)
Definition i32_as_u32 (i : Z) : N := Z.to_N (i mod 4294967296).

(** compression_common/elf.rs:2-4 [F]. *)
Definition elf_F : list N :=
  [0; 4; 7; 10; 14; 17; 20; 24; 27; 30; 34; 37; 40; 44; 47; 50; 54; 57; 60; 64; 67].

(** compression_common/elf.rs:6-9 [MAP_10I_P], 11-14 [MAP_10I_N]: the literals
    [1.0Ei] and [1.0E-i], each the nearest float.  95-101 [get_10i_p] and 103-109
    [get_10i_n] parse the same literals beyond the tables. *)
Definition get_10i_p (i : N) : f64 := pow10 i.
Definition get_10i_n (i : N) : f64 := npow10 i.

(** compression_common/elf.rs:34-40 [get_f_alpha]; [LOG2_10] by its bits. *)
Definition get_f_alpha (alpha : N) : N :=
  if 21 <=? alpha
  then Z.to_N (as_u32 (fceil (fmul (of_Z (Z.of_N alpha)) (of_bits 0x400A934F0979A371))))
  else nth (N.to_nat alpha) elf_F 0.

(** compression_common/elf.rs:16-18 [MAP_SP_GREATER_1] (as f64), 20-32
    [MAP_SP_LESS_1]. *)
Definition map_sp_greater_1 (i : N) : f64 := pow10 i.
Definition map_sp_less_1 (i : N) : f64 := npow10 i.

(** The table searches 112-119, 134-140: first [i] with [v < 10^(i+1)], below 9;
    and 121-127, 142-148: first [i] from 1 with [v >= 10^-i], up to 10. *)
Definition sp_search_ge1 (v : f64) : option N :=
  find (fun i => flt v (map_sp_greater_1 (i + 1))) [0; 1; 2; 3; 4; 5; 6; 7; 8].
Definition sp_search_lt1 (v : f64) : option N :=
  find (fun i => fle (map_sp_less_1 i) v) [1; 2; 3; 4; 5; 6; 7; 8; 9; 10].

Section Elf.
  (** [f64::log10] of the platform's math library. *)
  Variable log10 : f64 -> f64.

  (** compression_common/elf.rs:132-155 [get_sp_and_10i_n_flag]. *)
  Definition get_sp_flag (v : f64) : Z * bool :=
    match (if fle (of_Z 1) v
           then option_map (fun i => (Z.of_N i, false)) (sp_search_ge1 v)
           else option_map (fun i => (- Z.of_N i, feq v (map_sp_less_1 i)))%Z (sp_search_lt1 v)) with
    | Some r => r
    | None => let l := log10 v in (as_i32 (ffloor l), feq l (ffloor l))
    end.

  (** compression_common/elf.rs:111-130 [get_sp]. *)
  Definition get_sp (v : f64) : Z :=
    match (if fle (of_Z 1) v then option_map Z.of_N (sp_search_ge1 v)
           else option_map (fun i => - Z.of_N i)%Z (sp_search_lt1 v)) with
    | Some r => r
    | None => as_i32 (ffloor (log10 v))
    end.

  (** compression_common/elf.rs:61-69: the first [i] tried. *)
  Definition count_start (sp last : Z) : Z :=
    if negb (last =? i32_max)%Z && negb (last =? 0)%Z then Z.max (last - sp - 1) 1
    else if (last =? i32_max)%Z then 17 - sp - 1
    else if (0 <=? sp)%Z then 1 else - sp.

  (** compression_common/elf.rs:71-80: the search for an [i] making [v * 10^i] an
      integer; [None] is [return 17].  [OutOfFuel] (also reported as [None]) does
      not happen: [v * 10^i] is infinite for [i >= 309].  The i32 counter is not
      wrapped; it stays far from the bounds for any [sp] in [-400, 400]. *)
  Fixpoint count_search (fuel : nat) (v : f64) (i : Z) (temp : f64) : option (Z * Z) :=
    let ti := as_i64 temp in
    if feq (of_Z ti) temp then Some (i, ti)
    else
      match fuel with
      | O => None
      | S f =>
          let i := (i + 1)%Z in
          let temp := fmul v (get_10i_p (i32_as_u32 i)) in
          if is_infinite temp then None else count_search f v i temp
      end.

  (** compression_common/elf.rs:87-90: drop trailing zeros. *)
  Fixpoint strip_zeros (fuel : nat) (i ti : Z) : Z :=
    match fuel with
    | O => i
    | S f => if (0 <? i)%Z && (Z.rem ti 10 =? 0)%Z then strip_zeros f (i - 1) (Z.quot ti 10) else i
    end.

  (** compression_common/elf.rs:60-93 [get_significant_count]. *)
  Definition significant_count (v : f64) (sp last : Z) : Z :=
    let i := count_start sp last in
    match count_search 400 v i (fmul v (get_10i_p (i32_as_u32 i))) with
    | None => 17
    | Some (i, ti) =>
        if negb (feq (fdiv (fmul v (get_10i_p (i32_as_u32 i))) (get_10i_p (i32_as_u32 i))) v) then 17
        else sp + strip_zeros (Z.to_nat i) i ti + 1
    end.

  (** compression_common/elf.rs:42-49 [get_alpha_and_beta_star]. *)
  Definition alpha_beta_star (v : f64) (last : Z) : N * Z :=
    let a := fabs v in
    let '(sp, flag) := get_sp_flag a in
    let beta := significant_count a sp last in
    (i32_as_u32 (beta - sp - 1), if flag : bool then 0%Z else beta).

  (** compressor/elf.rs:113-115: number of mantissa bits that can be dropped, as
      i32; u32 arithmetic wraps. *)
  Definition erase_bits (bits alpha : N) : Z :=
    let e := N.land (N.shiftr bits 52) 2047 in
    let g := wsub32 ((get_f_alpha alpha + e) mod two32) 1023 in
    let g := if 2147483648 <=? g then (Z.of_N g - 4294967296)%Z else Z.of_N g in
    (* 52 - g as i32, wrapping *)
    (let d := (52 - g) mod 4294967296 in if 2147483648 <=? d then d - 4294967296 else d)%Z.

  (** compressor/elf.rs:105-145, without the writes: [None] is case 10 (value
      kept), [Some (beta_star, v')] the erased value. *)
  Definition elf_erase (last : Z) (bits : N) : option (Z * N) :=
    let '(alpha, beta_star) := alpha_beta_star (of_bits bits) last in
    let er := erase_bits bits alpha in
    let mask := wsub64 0 (shl64m 1 (Z.to_N (er mod 64))) in
    if (beta_star <? 16)%Z && (4 <? er)%Z && negb (N.ldiff bits mask =? 0)
    then Some (beta_star, N.land mask bits) else None.

  (** compression_common/elf.rs:51-58 [round_up]. *)
  Definition round_up (v : f64) (alpha : N) : f64 :=
    let scale := get_10i_p alpha in
    if flt v (S754_zero false) then fdiv (ffloor (fmul v scale)) scale
    else fdiv (fceil (fmul v scale)) scale.

  (** chunk_reader/elf.rs:69-79 of [recover_v_by_beta_star]. *)
  Definition elf_recover (last : Z) (bits' : N) : N :=
    let v' := of_bits bits' in
    let sp := get_sp (fabs v') in
    to_bits
      (if (last =? 0)%Z then
         let v := get_10i_n (i32_as_u32 (- sp - 1)) in
         if flt v' (S754_zero false) then fneg v else v
       else round_up v' (i32_as_u32 (last - sp - 1))).
End Elf.

(** The framing around an inner XOR codec, over any erase/recover pair. *)
Section Wrapper.
  Variable erase : Z -> N -> option (Z * N).
  Variable recover : Z -> N -> N.
  Variables (E D : Type) (e_init : E) (d_init : D).
  Variable e_step : E -> bwriter -> N -> E * bwriter.
  Variable e_close : E -> bwriter -> E * bwriter.
  Variable e_simclose : E -> N.
  Variable d_next : D -> breader -> drd (option N * D).

  (** compressor/elf.rs:71-75 [ElfEncoderWrapper]; [size] is a write-only statistic. *)
  Record wenc := mkWE { we_last : Z; we_inner : E }.
  (** compressor/elf.rs:84-90 [new]; 52-56 [reset]. *)
  Definition we_init : wenc := mkWE i32_max e_init.

  (** compressor/elf.rs:92-148 [add_value] = [compress_float] (45-50). *)
  Definition we_step (e : wenc) (w : bwriter) (bits : N) : wenc * bwriter :=
    let v := of_bits bits in
    let '(v', last', w) :=
      if feq v (S754_zero false) || is_infinite v then (bits, we_last e, write_bits w 2 2)
      else if is_nan v then (nan_bits, we_last e, write_bits w 2 2)
      else
        match erase (we_last e) bits with
        | Some (b, v') =>
            if (b =? we_last e)%Z then (v', we_last e, write_bit w false)
            else (v', b, write_bits w (Z.to_N (Z.lor b 48 mod 64)) 6)
        | None => (bits, we_last e, write_bits w 2 2)
        end in
    let '(e', w) := e_step (we_inner e) w v' in
    (mkWE last' e', w).

  (** compressor/elf.rs:58-63 [close]. *)
  Definition we_close (e : wenc) (w : bwriter) : wenc * bwriter :=
    let '(e', w) := e_close (we_inner e) (write_bits w 2 2) in (mkWE (we_last e) e', w).

  (** compressor/elf.rs:65-67 [simulate_close]. *)
  Definition we_simclose (e : wenc) : N := 2 + e_simclose (we_inner e).

  (** chunk_reader/elf.rs:30-33 [ElfDecoderWrapper], 36-41 [new]. *)
  Record wdec := mkWD { wd_last : Z; wd_inner : D }.
  Definition wd_init : wdec := mkWD i32_max d_init.

  (** chunk_reader/elf.rs:83-85 [xor_decompress]; 65-68 of [recover_v_by_beta_star]. *)
  Definition wd_keep (last : Z) (d : D) (r : breader) : drd (option N * wdec) :=
    dbind (d_next d r) (fun '(o, d') r => DOk (o, mkWD last d') r).
  Definition wd_recover (last : Z) (d : D) (r : breader) : drd (option N * wdec) :=
    dbind (d_next d r) (fun '(o, d') r => DOk (option_map (recover last) o, mkWD last d') r).

  (** chunk_reader/elf.rs:43-63 [next_value]. *)
  Definition wd_next (d : wdec) (r : breader) : drd (option N * wdec) :=
    rdo b1, r <- read_bit r ;
    if negb b1 then wd_recover (wd_last d) (wd_inner d) r
    else
      rdo b2, r <- read_bit r ;
      if negb b2 then wd_keep (wd_last d) (wd_inner d) r
      else
        rdo bs, r <- read_bits r 4 ;
        wd_recover (Z.of_N bs) (wd_inner d) r.
End Wrapper.
Arguments mkWE {E}.
Arguments we_last {E}.
Arguments we_inner {E}.
Arguments mkWD {D}.
Arguments wd_last {D}.
Arguments wd_inner {D}.

(** compressor/elf.rs:22, chunk_reader/elf.rs:24: scheme Elf. *)
Definition elf_compress log10 :=
  x_compress _ (we_init lenc le_init) (we_step (elf_erase log10) lenc le_step).
Definition elf_prepare := x_prepare _ (we_close lenc le_close).
Definition elf_total_bytes_buffered := x_total_bytes_buffered _ (we_simclose lenc le_simclose).
Definition elf_decompress log10 :=
  x_decompress _ (wd_init ldec ld_init) (wd_next (elf_recover log10) ldec ld_next).

(** compressor/elf.rs:36, chunk_reader/elf.rs:27: scheme ElfOnChimp. *)
Definition elfc_compress log10 :=
  x_compress _ (we_init cenc ce_init) (we_step (elf_erase log10) cenc ce_step).
Definition elfc_prepare := x_prepare _ (we_close cenc ce_close).
Definition elfc_total_bytes_buffered := x_total_bytes_buffered _ (we_simclose cenc ce_simclose).
Definition elfc_decompress log10 :=
  x_decompress _ (wd_init cdec cd_init) (wd_next (elf_recover log10) cdec cd_next).
